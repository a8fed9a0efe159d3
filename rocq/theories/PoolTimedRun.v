(** * What holds of the executions of the model holds of those with the timed waits as text *)
From Coq Require Import ZArith List Bool Arith Lia.
From Verif Require Import SpecInt SpecTyped SpecLin SpecObj SpecInstant SpecPool Prog FindModel RecordsModel RecordsProof SimProof PoolModel PoolFront PoolTyped
  SpecSleep SleepInv SleepTyped PoolTimedLayers PoolTextFront PoolTextRun PoolTimedFront PoolTextTimedMain.
Import ListNotations.
Local Open Scope Z_scope.
Local Open Scope prog_scope.

Section Same.
  Variables (pl : platform) (T : nat -> tobj).
  Notation D := (fun a => t_desc (T a)).
  Notation S := (objects (fun a => tstep (t_type (T a)))).
  Notation exec := (pexec (pl_search pl) (pl_init pl)).
  Notation conf := (config pact presp pmem (nat * tcall) tret).
  Hypothesis HO : forall a, t_ok (T a).
  Hypothesis Wide : wide_times pl.

  Lemma timed_sim c : sim eq (nt_impl pl T c) (t_impl pl T c).
  Proof.
    unfold nt_impl. destruct (t_op (T (fst c)) (snd c)) as [| | |k old limit| | |] eqn:O; try apply (impl_sim pl T HO).
    destruct (d_wait (t_desc (T (fst c)))) eqn:W; try apply (impl_sim pl T HO).
    unfold t_impl. rewrite O. unfold obj_prog, d_locked. rewrite W. unfold free_prog. rewrite W.
    apply sim_bind_eq; [exact (native_timed_sim pl _ _ Wide k old limit)|intros r; apply sim_refl].
  Qed.
  Lemma timed_from (c c' : conf) l : crel c c' ->
    snd (run exec (nt_impl pl T) c l) = snd (run exec (t_impl pl T) c' l) /\
    crel (fst (run exec (nt_impl pl T) c l)) (fst (run exec (t_impl pl T) c' l)).
  Proof.
    destruct c as [m X], c' as [m' X']. intros [E H]. cbn in E, H. subst m'.
    exact (sim_run exec (nt_impl pl T) (t_impl pl T) l m X X' (fun _ o _ => timed_sim o) H).
  Qed.
  Lemma timed_same m l : snd (nt_run pl T m l) = snd (t_run pl T m l) /\ crel (fst (nt_run pl T m l)) (fst (t_run pl T m l)).
  Proof. apply timed_from. split; [reflexivity|intros t; exact I]. Qed.
  Lemma timed_history m l : snd (nt_run pl T m l) = snd (t_run pl T m l) /\ c_mem (fst (nt_run pl T m l)) = c_mem (fst (t_run pl T m l)).
  Proof. destruct (timed_same m l) as [A [B _]]. auto. Qed.
  Lemma timed_through (c c' : conf) l (P : conf -> Prop) : crel c c' -> (forall x x', crel x x' -> P x -> P x') ->
    throughout pl (nt_impl pl T) c l P -> throughout pl (t_impl pl T) c' l P.
  Proof. intros H HP X l1 l2 E. exact (HP _ _ (proj2 (timed_from c c' l1 H)) (X l1 l2 E)). Qed.

  Lemma timed_sound m (v0 : nat -> Z) l : platform_ok pl -> layout_ok D ->
    pool_start D (fun a => t_enc (T a) (v0 a)) m -> (forall a, tvalue (t_type (T a)) (v0 a)) ->
    legal (fun c => tcall_ok (t_type (T (fst c))) (snd c)) l ->
    let res := nt_run pl T m l in
    exists v th, linearizable_to S (fun a => t_holds (T a) (v0 a)) (snd res) v th /\
      (forall t, match c_thr (fst res) t with Idle => th t = PIdle | Run _ _ => th t <> PIdle end).
  Proof.
    intros P L Hm Hv Hl res. destruct (typed_sound pl T P L HO m v0 l Hm Hv Hl) as (v & th & A & B & C).
    destruct (timed_same m l) as [Eh Hc]. exists v, th. unfold res. rewrite Eh. split; [exact A|].
    intros t. specialize (B t). pose proof (rel_shape _ _ Hc t) as K.
    destruct (c_thr (fst (nt_run pl T m l)) t), (c_thr (fst (t_run pl T m l)) t); try contradiction; exact B.
  Qed.

  Section Target.
    Variables (v : nat -> Z) (m : pmem).
    Hypotheses (HT : target (pl_search pl) (pl_init pl)) (HD : layout_ok D) (Hm : pool_start D v m).

    Lemma timed_stuck l : let c := fst (nt_run pl T m l) in
      counters_ok pl (c_mem c) -> stuck pl c ->
      forall t o, running c t o -> (exists old, snd o = TWait old) /\ sleeps_in_wait (c_mem c) t.
    Proof.
      intros c K X t o R. destruct (timed_same m l) as [_ Hc]. unfold c in *. rewrite (proj1 Hc) in K |- *.
      apply (t_stuck pl T HT HD v m Hm l K); [now apply (rel_stuck pl _ _ Hc)|now apply (rel_running _ _ Hc)].
    Qed.
    Lemma timed_notified l1 l2 a old all :
      let c1 := fst (nt_run pl T m l1) in
      let c := fst (nt_run pl T m (l1 ++ l2)) in
      throughout pl (nt_impl pl T) c1 l2 (fun c => at_rest pl D (c_mem c) a -> value_of D (c_mem c) a <> t_enc (T a) old) ->
      returned (snd (run (pexec (pl_search pl) (pl_init pl)) (nt_impl pl T) c1 l2)) (a, TNotify all) ->
      all = true \/ throughout pl (nt_impl pl T) c1 l2 (lone_waiter a) ->
      d_wait (D a) = WFutex ->
      forall t k limit, running c t (a, TTimed k old limit) -> ~ sleeps_in_wait (c_mem c) t.
    Proof.
      intros c1 c Hv Hr Ho Hk t k limit R. destruct (timed_same m l1) as [_ H1]. destruct (timed_same m (l1 ++ l2)) as [_ Hc]. unfold c in *.
      rewrite (proj1 Hc). apply (rel_running _ _ Hc) in R.
      refine (t_notified pl T HT HD v m Hm l1 l2 a old all _ _ _ (or_intror Hk) t _ R _).
      - refine (timed_through _ _ l2 _ H1 _ Hv). intros y y' [E _]. now rewrite E.
      - unfold c1 in Hr. rewrite (proj1 (timed_from _ _ l2 H1)) in Hr. exact Hr.
      - destruct Ho as [->|Ho]; [now left|right]. refine (timed_through _ _ l2 _ H1 _ Ho). intros y y' E. exact (proj1 (rel_lone _ _ E a)).
      - cbn. cbn in Hk. rewrite Hk. reflexivity.
    Qed.
    Lemma timed_late l1 t a k old limit l2 w :
      let c1 := fst (nt_run pl T m l1) in
      let c := fst (nt_run pl T m (l1 ++ SInv t (a, TTimed k old limit) :: l2)) in
      c_thr c1 t = Idle -> c_thr c t = Run (a, TTimed k old limit) (Ret (TWaited w true)) ->
      match k with WaitFor => clk (c_mem c1) + limit | _ => limit end <= clk (c_mem c).
    Proof.
      intros c1 c X Y. destruct (timed_same m l1) as [_ H1]. destruct (timed_same m (l1 ++ SInv t (a, TTimed k old limit) :: l2)) as [_ Hc].
      unfold c, c1 in *. rewrite (proj1 H1), (proj1 Hc). apply (t_late pl T HT HD v m Hm l1 t a k old limit l2 w).
      - now apply (rel_idle _ _ H1).
      - exact (rel_ret _ _ Hc _ _ _ Y).
    Qed.
  End Target.
End Same.

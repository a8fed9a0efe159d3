(** * What holds of the executions of the model holds of those of the text *)
From Coq Require Import ZArith List Bool Arith Lia.
From Verif Require Import SpecInt SpecTyped SpecLin SpecObj SpecInstant SpecPool Prog FindModel RecordsModel RecordsProof SimProof PoolModel PoolFront PoolTyped
  SpecSleep SleepInv SleepTyped PoolLayers PoolFpLayers PoolTextFront PoolTextProof PoolTextFp PoolTextMain.
Import ListNotations.
Local Open Scope Z_scope.
Local Open Scope prog_scope.

Lemma scoped_map : forall pl d R (p : pprog iret) (h : iret -> pprog R) k, (forall x, sim eq (h x) (k (RI x))) ->
  sim eq (x <- scoped pl d p ;; h x) (x <- scoped pl d (x <- p ;; Ret (RI x)) ;; k x).
Proof.
  intros pl d R p h k H. unfold scoped. apply sim_assoc_l. apply sim_assoc_r. apply sim_bind_eq; [apply sim_refl|intros _].
  apply sim_assoc_l. repeat apply sim_assoc_r. apply sim_bind_eq; [apply sim_refl|intros x]. cbn [bind].
  apply sim_assoc_l. apply sim_assoc_r. apply sim_bind_eq; [apply sim_refl|intros _]. cbn [bind]. apply H.
Qed.

Section Same.
  Variables (pl : platform) (T : nat -> tobj).
  Notation exec := (pexec (pl_search pl) (pl_init pl)).
  Notation conf := (config pact presp pmem (nat * tcall) tret).
  Notation trel := (@thr_rel pact presp (nat * tcall) tret).
  Notation pinit m l := (fst (pt_run pl T m l)).
  Notation tinit m l := (fst (t_run pl T m l)).
  Hypothesis HO : forall a, t_ok (T a).

  Definition crel (c c' : conf) : Prop := c_mem c = c_mem c' /\ forall t, trel (c_thr c t) (c_thr c' t).

  Lemma impl_sim c : sim eq (pt_impl pl T c) (t_impl pl T c).
  Proof.
    destruct c as [a x]. unfold pt_impl, t_impl. cbn [fst snd].
    assert (E : sim eq (r <- text_prog pl (t_desc (T a)) a (t_op (T a) x) ;; Ret (t_ret (T a) x r))
                       (r <- obj_prog pl (t_desc (T a)) a (t_op (T a) x) ;; Ret (t_ret (T a) x r)))
      by (apply sim_bind_eq; [apply text_sim|intros r; apply sim_refl]).
    destruct x as [x|x|o|x|x|x|x|x y z|x| |]; try exact E. destruct o as [v| |v|v w|v w|f e]; try exact E.
    destruct (t_kind (T a)) as [sg|vw mask cl|vw ar|sz| |first] eqn:K; try exact E. destruct (d_locked (t_desc (T a))) eqn:L; [|exact E].
    pose proof (HO a) as W. unfold t_ok in W. rewrite K in W. cbn [t_op]. rewrite K. unfold obj_prog. rewrite L. unfold emu_prog.
    refine (sim_eq_trans _ _ _ _ (sim_bind_eq _ _ _ _ _ _ _ _ (text_fp_sim pl (T a) vw ar K (proj1 W) f e) (fun r => sim_refl _ _)) _).
    apply sim_assoc_l. refine (scoped_map pl (t_desc (T a)) _ _ _ _ _). intros r. cbn [bind].
    apply sim_ret. destruct r; reflexivity.
  Qed.

  Lemma from c c' l : crel c c' ->
    snd (run exec (pt_impl pl T) c l) = snd (run exec (t_impl pl T) c' l) /\
    crel (fst (run exec (pt_impl pl T) c l)) (fst (run exec (t_impl pl T) c' l)).
  Proof.
    destruct c as [m X], c' as [m' X']. intros [E H]. cbn in E, H. subst m'.
    exact (sim_run exec (pt_impl pl T) (t_impl pl T) l m X X' (fun _ o _ => impl_sim o) H).
  Qed.
  Lemma same_text m l : snd (pt_run pl T m l) = snd (t_run pl T m l) /\ crel (pinit m l) (tinit m l).
  Proof. apply from. split; [reflexivity|intros t; exact I]. Qed.

  Section Rel.
    Variables c c' : conf.
    Hypothesis H : crel c c'.
    Lemma rel_idle t : c_thr c t = Idle <-> c_thr c' t = Idle.
    Proof. pose proof (proj2 H t) as K. destruct (c_thr c t), (c_thr c' t); cbn in K; try contradiction; split; intros X; congruence. Qed.
    Lemma rel_running t o : running c t o <-> running c' t o.
    Proof.
      unfold running. pose proof (proj2 H t) as K. destruct (c_thr c t) as [|o1 p1], (c_thr c' t) as [|o2 p2]; cbn in K; try contradiction;
        split; intros [q X]; try discriminate; destruct K as [-> _]; injection X as -> _; eauto.
    Qed.
    Lemma rel_next t a : next c t a <-> next c' t a.
    Proof.
      unfold next. pose proof (proj2 H t) as K. destruct (c_thr c t) as [|o p], (c_thr c' t) as [|o' p']; cbn in K; try contradiction;
        split; intros (o1 & k & X); try discriminate; destruct K as [-> S]; injection X as -> E; pose proof (sim_inv _ _ _ _ _ S) as J.
      - subst p. destruct J as (k' & -> & _). eauto.
      - subst p'. destruct p; [destruct J as (? & J & _); discriminate| |destruct J as (? & ? & ? & ? & ? & ? & ? & J & _); discriminate].
        destruct J as (k' & J & _). injection J as <- _. eauto.
    Qed.
    Lemma rel_ret t o r : c_thr c t = Run o (Ret r) -> c_thr c' t = Run o (Ret r).
    Proof.
      intros X. pose proof (proj2 H t) as K. rewrite X in K. destruct (c_thr c' t) as [|o' p']; cbn in K; [contradiction|].
      destruct K as [-> S]. destruct (sim_inv _ _ _ _ _ S) as (r' & -> & ->). reflexivity.
    Qed.
    Lemma rel_stuck : stuck pl c <-> stuck pl c'.
    Proof.
      unfold stuck. rewrite (proj1 H). split; intros S t o p X.
      - assert (R : running c t o) by (apply rel_running; eexists; exact X). destruct R as [q Y].
        destruct (S t o q Y) as (a & k & -> & B). assert (N : next c' t a) by (apply rel_next; exists o, k; exact Y).
        destruct N as (o' & k' & Z). rewrite X in Z. injection Z as _ ->. eauto.
      - assert (R : running c' t o) by (apply rel_running; eexists; exact X). destruct R as [q Y].
        destruct (S t o q Y) as (a & k & -> & B). assert (N : next c t a) by (apply rel_next; exists o, k; exact Y).
        destruct N as (o' & k' & Z). rewrite X in Z. injection Z as _ ->. eauto.
    Qed.
    Lemma rel_lone a : lone_waiter a c <-> lone_waiter a c'.
    Proof. unfold lone_waiter. split; intros L t u x y X Y; apply L; now apply rel_running. Qed.
    Lemma rel_through l (P : conf -> Prop) : (forall x x', crel x x' -> P x -> P x') ->
      throughout pl (pt_impl pl T) c l P -> throughout pl (t_impl pl T) c' l P.
    Proof. intros HP S l1 l2 E. exact (HP _ _ (proj2 (from c c' l1 H)) (S l1 l2 E)). Qed.
    Lemma rel_shape t : match c_thr c t, c_thr c' t with Idle, Idle => True | Run _ _, Run _ _ => True | _, _ => False end.
    Proof. pose proof (proj2 H t) as K. destruct (c_thr c t), (c_thr c' t); auto. Qed.
  End Rel.
End Same.

Section Transport.
  Variables (pl : platform) (T : nat -> tobj).
  Notation D := (fun a => t_desc (T a)).
  Notation S := (objects (fun a => tstep (t_type (T a)))).
  Hypothesis HO : forall a, t_ok (T a).

  Lemma text_history m l : snd (pt_run pl T m l) = snd (t_run pl T m l) /\ c_mem (fst (pt_run pl T m l)) = c_mem (fst (t_run pl T m l)).
  Proof. destruct (same_text pl T HO m l) as [A [B _]]. auto. Qed.

  Lemma text_sound m (v0 : nat -> Z) l : platform_ok pl -> layout_ok D ->
    pool_start D (fun a => t_enc (T a) (v0 a)) m -> (forall a, tvalue (t_type (T a)) (v0 a)) ->
    legal (fun c => tcall_ok (t_type (T (fst c))) (snd c)) l ->
    let res := pt_run pl T m l in
    exists v th, linearizable_to S (fun a => t_holds (T a) (v0 a)) (snd res) v th /\
      (forall t, match c_thr (fst res) t with Idle => th t = PIdle | Run _ _ => th t <> PIdle end) /\
      (forall a, d_locked (D a) = false \/ own (c_mem (fst res)) (lock_of pl (D a)) = None ->
         shows D (c_mem (fst res)) a (t_enc (T a) (v a))).
  Proof.
    intros P L Hm Hv Hl res. destruct (typed_sound pl T P L HO m v0 l Hm Hv Hl) as (v & th & A & B & C).
    destruct (same_text pl T HO m l) as [Eh Hc]. exists v, th. unfold res. rewrite Eh, (proj1 Hc). split; [exact A|]. split; [|exact C].
    intros t. specialize (B t). pose proof (rel_shape _ _ Hc t) as K.
    destruct (c_thr (fst (pt_run pl T m l)) t), (c_thr (fst (t_run pl T m l)) t); try contradiction; exact B.
  Qed.

  Section Target.
    Variables (v : nat -> Z) (m : pmem).
    Hypotheses (HT : target (pl_search pl) (pl_init pl)) (HD : layout_ok D) (Hm : pool_start D v m).

    Lemma text_exclusion l : let c := fst (pt_run pl T m l) in
      fault (c_mem c) = false /\
      (forall t u a b i, next c t a -> next c u b -> guard a = Some i -> guard b = Some i -> t = u) /\
      (pl_lock pl = LFutex -> forall t a i, next c t a -> guard a = Some i -> Z.odd (mx (c_mem c) i) = true).
    Proof.
      intros c. destruct (t_exclusion pl T HT HD v m Hm l) as (A & B & C). destruct (same_text pl T HO m l) as [_ Hc]. unfold c.
      split; [rewrite (proj1 Hc); exact A|]. split.
      - intros t u a b i X Y. apply (B t u a b i); now apply (rel_next _ _ Hc).
      - intros F t a i X. rewrite (proj1 Hc). apply (C F t a i). now apply (rel_next _ _ Hc).
    Qed.
    Lemma text_stuck l : let c := fst (pt_run pl T m l) in
      counters_ok pl (c_mem c) -> stuck pl c ->
      forall t o, running c t o -> (exists old, snd o = TWait old) /\ sleeps_in_wait (c_mem c) t.
    Proof.
      intros c K X t o R. destruct (same_text pl T HO m l) as [_ Hc]. unfold c in *. rewrite (proj1 Hc) in K |- *.
      apply (t_stuck pl T HT HD v m Hm l K); [now apply (rel_stuck pl _ _ Hc)|now apply (rel_running _ _ Hc)].
    Qed.
    Lemma text_notified l1 l2 a old all :
      let c1 := fst (pt_run pl T m l1) in
      let c := fst (pt_run pl T m (l1 ++ l2)) in
      throughout pl (pt_impl pl T) c1 l2 (fun c => at_rest pl D (c_mem c) a -> value_of D (c_mem c) a <> t_enc (T a) old) ->
      returned (snd (run (pexec (pl_search pl) (pl_init pl)) (pt_impl pl T) c1 l2)) (a, TNotify all) ->
      all = true \/ throughout pl (pt_impl pl T) c1 l2 (lone_waiter a) ->
      counters_ok pl (c_mem c) \/ d_wait (D a) = WFutex ->
      forall t x, running c t (a, x) ->
        match x with TWait o => o = old | TTimed _ o _ => o = old /\ d_wait (D a) <> WPool | _ => False end ->
        ~ sleeps_in_wait (c_mem c) t.
    Proof.
      intros c1 c Hv Hr Ho Hk t x R Hx. destruct (same_text pl T HO m l1) as [_ H1]. destruct (same_text pl T HO m (l1 ++ l2)) as [_ Hc]. unfold c in *.
      rewrite (proj1 Hc) in Hk |- *. apply (rel_running _ _ Hc) in R.
      refine (t_notified pl T HT HD v m Hm l1 l2 a old all _ _ _ Hk t x R _).
      - refine (rel_through pl T HO _ _ H1 l2 _ _ Hv). intros y y' [E _]. now rewrite E.
      - unfold c1 in Hr. rewrite (proj1 (from pl T HO _ _ l2 H1)) in Hr. exact Hr.
      - destruct Ho as [->|Ho]; [now left|right]. refine (rel_through pl T HO _ _ H1 l2 _ _ Ho). intros y y' E. exact (proj1 (rel_lone _ _ E a)).
      - destruct x; try contradiction; cbn; [now subst|]. destruct Hx as [-> N]. destruct (d_wait (D a)); congruence.
    Qed.
    Lemma text_late l1 t a k old limit l2 w :
      let c1 := fst (pt_run pl T m l1) in
      let c := fst (pt_run pl T m (l1 ++ SInv t (a, TTimed k old limit) :: l2)) in
      c_thr c1 t = Idle -> c_thr c t = Run (a, TTimed k old limit) (Ret (TWaited w true)) ->
      match k with WaitFor => clk (c_mem c1) + limit | _ => limit end <= clk (c_mem c).
    Proof.
      intros c1 c X Y. destruct (same_text pl T HO m l1) as [_ H1]. destruct (same_text pl T HO m (l1 ++ SInv t (a, TTimed k old limit) :: l2)) as [_ Hc].
      unfold c, c1 in *. rewrite (proj1 H1), (proj1 Hc). apply (t_late pl T HT HD v m Hm l1 t a k old limit l2 w).
      - now apply (rel_idle _ _ H1).
      - exact (rel_ret _ _ Hc _ _ _ Y).
    Qed.
  End Target.
End Transport.

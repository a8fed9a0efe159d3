(** * The results of SleepProof for the class templates. *)
From Coq Require Import ZArith List Bool Arith Lia.
From Verif Require Import SpecInt SpecTyped SpecLin SpecObj SpecBytes SpecPool Conv Prog FindModel FindProof RecordsModel RecordsProof
  PoolModel PoolFront PoolProof PoolTyped SpecSleep SleepInv SleepProof.
Import ListNotations.
Open Scope Z_scope.

Section Typed.
  Variables (pl : platform) (T : nat -> tobj).
  Notation D := (fun a => t_desc (T a)).
  Hypothesis HT : target (pl_search pl) (pl_init pl).
  Hypothesis HD : layout_ok D.
  Variables (v : nat -> Z) (m : pmem).
  Hypothesis Hm : pool_start D v m.
  Notation exec := (pexec (pl_search pl) (pl_init pl)).
  Notation impl := (t_impl pl T).
  Notation xop := (fun a => t_op (T a)).
  Notation xret := (fun a => t_ret (T a)).
  Notation good := (SleepLogic.good exec (Inv pl D) (rely pl D) (guar pl D) (ok pl) idle (busy xop) (post xop xret)).
  Notation final l := (fst (t_run pl T m l)).

  Lemma t_reach l : exists g, good (final l) g.
  Proof. destruct (target_ok _ _ HT) as [H1 H2]. exact (reach pl D HD H1 H2 xop xret v m l Hm). Qed.
  Lemma t_final l1 l2 : final (l1 ++ l2) = fst (run exec impl (final l1) l2).
  Proof. unfold t_run. apply SleepLogic.run_app. Qed.

  Lemma t_exclusion l : let c := final l in
    fault (c_mem c) = false /\
    (forall t u a b i, next c t a -> next c u b -> guard a = Some i -> guard b = Some i -> t = u) /\
    (pl_lock pl = LFutex -> forall t a i, next c t a -> guard a = Some i -> Z.odd (mx (c_mem c) i) = true).
  Proof.
    intros c. destruct (t_reach l) as (g & Hg). fold c in Hg. pose proof Hg as [HI _]. split; [apply HI|]. split.
    - intros t u a b i Ht Hu Ga Gb. pose proof (guarded_owner _ _ _ _ _ _ _ _ _ Hg Ht Ga). pose proof (guarded_owner _ _ _ _ _ _ _ _ _ Hg Hu Gb). congruence.
    - intros F t a i Ht Ga. pose proof (guarded_owner _ _ _ _ _ _ _ _ _ Hg Ht Ga) as Ho. destruct (i_word _ _ _ _ HI F i) as (b & ->). rewrite Ho.
      apply mword_odd.
  Qed.
  Lemma t_stuck l : let c := final l in counters_ok pl (c_mem c) -> stuck pl c ->
    forall t o, running c t o -> (exists old, snd o = TWait old) /\ sleeps_in_wait (c_mem c) t.
  Proof.
    intros c HL Hs t o (p & E). destruct (t_reach l) as (g & Hg).
    destruct (stuck_waits _ _ (proj2 (target_ok _ _ HT)) _ _ _ _ _ _ _ Hg HL Hs E) as [(old & A) B]. split; [|exact B].
    destruct o as [a x]. cbn in A. destruct x as [o|o|o|o|o|o|w|k w lim|all| |]; cbn in A; try discriminate; [ | | |exists w; reflexivity].
    - destruct o; try discriminate. destruct (t_kind (T a)); discriminate.
    - destruct (t_kind (T a)); discriminate.
    - destruct (t_kind (T a)) as [| | | | |[sh|]]; destruct o; discriminate.
  Qed.
  Lemma t_attended l i t : let c := final l in counters_ok pl (c_mem c) -> sleeps_for_lock (c_mem c) i t -> own (c_mem c) i = None ->
    exists u o p, u <> t /\ c_thr c u = Run o p /\ asleep (c_mem c) u = false /\ forall a k, p = Do a k -> ~ blocked pl u a (c_mem c).
  Proof. intros c HL Hs Ho. destruct (t_reach l) as (g & Hg). exact (free_lock_attended _ _ (proj2 (target_ok _ _ HT)) _ _ _ _ _ _ Hg HL Hs Ho). Qed.
  Lemma is_wait_op a y : waits (t_op (T a) y) = is_wait y.
  Proof. destruct y as [o|o|[]|o|o|o|w|k w lim|all| |]; try reflexivity; cbn; destruct (t_kind (T a)) as [| | | | |[sh|]]; try reflexivity; destruct o; reflexivity. Qed.
  Lemma t_notified l1 l2 a old all :
    throughout pl impl (final l1) l2 (fun c => at_rest pl D (c_mem c) a -> value_of D (c_mem c) a <> t_enc (T a) old) ->
    returned (snd (run exec impl (final l1) l2)) (a, TNotify all) ->
    all = true \/ throughout pl impl (final l1) l2 (lone_waiter a) ->
    let c := final (l1 ++ l2) in counters_ok pl (c_mem c) \/ d_wait (t_desc (T a)) = WFutex ->
    forall t y, running c t (a, y) -> careful (t_desc (T a)) (t_op (T a) y) = Some (t_enc (T a) old) -> ~ sleeps_in_wait (c_mem c) t.
  Proof.
    intros Hv Hr Hone c HL t y. destruct (t_reach l1) as (g & Hg). destruct (target_ok _ _ HT) as [H1 H2].
    unfold c in *. rewrite t_final in *.
    refine (notified pl D HD H1 H2 xop xret (final l1) g l2 a (t_enc (T a) old) all (TNotify all) eq_refl Hv _ Hg Hr HL t y).
    destruct Hone as [Ha|Ha]; [left; exact Ha|]. right. intros la lb E t1 t2 y1 y2 R1 R2 W1 W2. rewrite is_wait_op in W1, W2. eapply Ha; eauto.
  Qed.
  Lemma t_late l1 t a k old limit l2 w : c_thr (final l1) t = Idle ->
    let c := final (l1 ++ SInv t (a, TTimed k old limit) :: l2) in
    c_thr c t = Run (a, TTimed k old limit) (Ret (TWaited w true)) ->
    match k with WaitFor => clk (c_mem (final l1)) + limit | _ => limit end <= clk (c_mem c).
  Proof.
    intros Ht c Hr. destruct (t_reach l1) as (g & Hg). destruct (target_ok _ _ HT) as [H1 H2]. unfold c in *. rewrite t_final in *.
    destruct (late_enough pl D HD H1 H2 xop xret (final l1) g t a (TTimed k old limit) l2 (TWaited w true) Hg Ht Hr) as (y & Ey & Hy).
    destruct y as [r|x b]; cbn in Ey; [discriminate|]. injection Ey as _ <-. eapply Hy; reflexivity.
  Qed.
  Lemma t_record l t i k : let c := final l in In (t, FC i k) (slp (c_mem c)) ->
    exists a x, running c t (a, x) /\ i = lock_of pl (t_desc (T a)) /\
      find (pl_search pl) (wl (c_mem c) i) (d_addr (t_desc (T a))) = Some (Some k).
  Proof.
    intros c Hin. destruct (t_reach l) as (g & Hg). destruct (target_ok _ _ HT) as [H1 H2].
    exact (sleeper_has_record pl D H1 H2 xop xret c g t i k Hg Hin).
  Qed.
  Lemma t_on_value l t b : let c := final l in In (t, FO b) (slp (c_mem c)) -> exists x, running c t (b, x) /\ d_wait (t_desc (T b)) = WFutex.
  Proof. intros c Hin. destruct (t_reach l) as (g & Hg). exact (sleeper_on_value pl D xop xret c g t b Hg Hin). Qed.
  Lemma t_no_memory l : no_memory l -> let c := final l in
    forall t i k, ~ In (t, FC i k) (slp (c_mem c)).
  Proof.
    intros Hl c t i k. destruct (t_reach l) as (g & Hg). destruct (target_ok _ _ HT) as [H1 H2].
    refine (bare_awake pl D H1 H2 xop xret c g t i k Hg _). refine (starved_bare pl D HD H1 H2 xop xret v m l Hm _).
    apply Forall_forall. intros [u o|u w|u] Hin; cbn; auto. eapply Hl; eauto.
  Qed.
  Lemma t_no_memory_stuck l : no_memory l -> let c := final l in counters_ok pl (c_mem c) -> stuck pl c ->
    forall t a x, running c t (a, x) -> d_wait (t_desc (T a)) = WFutex.
  Proof.
    intros Hl c HL Hs t a x Hr. destruct (t_stuck l HL Hs t _ Hr) as [_ (f & Hin & Hf)]. destruct f as [i|i k|b].
    - now destruct (Hf i).
    - now destruct (t_no_memory l Hl t i k).
    - destruct (t_on_value l t b Hin) as (y & (p & Ey) & Hw). destruct Hr as (q & Eq). fold c in Ey. rewrite Ey in Eq. injection Eq as Eb _ _. now rewrite <- Eb.
  Qed.
  Lemma t_quiet l : let c := final l in quiet c -> forall i, own (c_mem c) i = None.
  Proof.
    intros c Hq i. destruct (t_reach l) as (g & Hg). destruct (own (c_mem c) i) as [t|] eqn:Ho; [|reflexivity]. exfalso.
    pose proof Hg as [HI _]. apply (i_own _ _ _ _ HI) in Ho.
    destruct (phase_runs pl D xop xret c g t Hg) as (o & p & E); [left; destruct Ho; congruence|]. rewrite Hq in E. discriminate.
  Qed.
End Typed.

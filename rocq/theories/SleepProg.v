(** * Every function of the lock pool and of the waits respects the invariant of SleepInv. *)
From Coq Require Import ZArith List Bool Arith Lia.
From Verif Require Import SpecInt SpecLin SpecObj SpecBytes BytesProof SpecPool Order Conv WordFacts Prog RG SleepLogic FindModel FindProof RecordsModel
  RecordsProof PoolModel PoolProof SleepInv SleepSteps.
Import ListNotations.
Open Scope Z_scope.
Open Scope prog_scope.

Lemma units_due pl n : units pl n <= 0 -> n <= 0.
Proof.
  unfold units, ceil_std, ceil_old. set (u := Zpos (pl_unit pl)). assert (U : 0 < u) by reflexivity. destruct (pl_std pl).
  - intros H. pose proof (Z.div_mod (- n) u). pose proof (Z.mod_pos_bound (- n) u U). nia.
  - intros H. pose proof (Z.quot_rem n u). pose proof (Z.rem_bound_pos n u). destruct (Z.leb_spec n 0) as [|L]; [assumption|exfalso].
    pose proof (Z.quot_pos n u). destruct (Z.eqb_spec (Z.rem n u) 0); nia.
Qed.

Section Prog.
  Variable pl : platform.
  Variable D : nat -> odesc.
  Hypothesis HD : layout_ok D.
  Hypothesis Hsearch : search_ok (pl_search pl) (pl_init pl).
  Hypothesis Hinit : (0 < pl_init pl)%nat.
  Notation lk := (pl_lock pl).
  Notation lockof a := (lock_of pl (D a)).
  Notation exec := (pexec (pl_search pl) (pl_init pl)).
  Notation Inv := (Inv pl D).
  Notation rely := (rely pl D).
  Notation guar := (guar pl D).
  Notation settled := (settled pl D).
  Notation word_at := (word_at D).
  Notation note := (note pl D).
  Notation ok := (ok pl).
  Notation isafe := (isafe exec Inv rely guar ok).

  Lemma isafe_seq t A B (p : pprog A) (f : A -> pprog B) Q Q' m g : isafe t p Q m g ->
    (forall r m' g', mono m g m' g' -> Q r m' g' -> isafe t (f r) Q' m' g') -> isafe t (bind p f) Q' m g.
  Proof.
    intros H1 H2. apply isafe_bind.
    eapply isafe_mono; [|eapply (isafe_frame exec Inv rely guar ok mono)].
    - intros r m' g' [Hm HQ]. apply H2; [exact Hm | exact HQ].
    - exact (mono_trans D).
    - intros u a b c d H. exact (r_mono _ _ _ _ _ _ _ H).
    - intros u a b c d H. exact (g_mono _ _ _ _ _ _ _ H).
    - exact (mono_refl D m g).
    - exact H1.
  Qed.
  Lemma isafe_post t A (p : pprog A) (Q Q' : A -> pmem -> ghost -> Prop) m g : isafe t p Q m g ->
    (forall r m' g', mono m g m' g' -> Q r m' g' -> Q' r m' g') -> isafe t p Q' m g.
  Proof.
    intros H1 H2.
    eapply isafe_mono; [|eapply (isafe_frame exec Inv rely guar ok mono)].
    - intros r m' g' [Hm HQ]. apply H2; [exact Hm | exact HQ].
    - exact (mono_trans D).
    - intros u a b c d H. exact (r_mono _ _ _ _ _ _ _ H).
    - intros u a b c d H. exact (g_mono _ _ _ _ _ _ _ H).
    - exact (mono_refl D m g).
    - exact H1.
  Qed.

  (** ** What a thread knows about itself *)
  Section Thread.
    Variable t : nat.
    Variable C : call.
    Definition stable (P : pmem -> ghost -> Prop) : Prop := forall m g m' g', rely t m g m' g' -> P m g -> P m' g'.

    Lemma act_rule (P : pmem -> ghost -> Prop) a Q m g : stable P -> P m g ->
      (forall m g, Inv m g -> P m g -> ok t a m g /\ forall w m2 x, exec t a m w = Some (m2, x) ->
         exists g2, guar t m g m2 g2 /\ Inv m2 g2 /\ Q x m2 g2) ->
      isafe t (pdo a) Q m g.
    Proof.
      intros HS HP H m1 g1 Hr HI. destruct (H m1 g1 HI (HS _ _ _ _ Hr HP)) as [A B]. split; [exact A|]. exact B.
    Qed.

    Definition TA p (r : option (nat * (Z * nat))) (e : option entry) (m : pmem) (g : ghost) : Prop :=
      lph g t = p /\ (forall i x, In (t, x) (reg g i) <-> r = Some (i, x)) /\ ent g t = e /\ cur g t = Some C.
    Definition TS p r e m g : Prop := TA p r e m g /\ asleep m t = false.
    Definition TH i r e m g : Prop := TS (Hold i) r e m g /\ own m i = Some t.
    Definition Fresh i m g : Prop := forall a, d_locked (D a) = true -> lockof a = i -> seen g a (word_at m a) (na g a).
    Definition HF i r e m g : Prop := TH i r e m g /\ Fresh i m g.

    Lemma TA_stable p r e : stable (TA p r e).
    Proof.
      intros m g m' g' R (A & B & E & F). split; [rewrite (r_lph _ _ _ _ _ _ _ R); auto|].
      split; [intros i x; rewrite (r_reg _ _ _ _ _ _ _ R); auto|]. split; [rewrite (r_ent _ _ _ _ _ _ _ R); auto|].
      rewrite (r_cur _ _ _ _ _ _ _ R); auto.
    Qed.
    Lemma TS_stable p r e : stable (TS p r e).
    Proof. intros m g m' g' R (A & B). split; [eapply TA_stable; eauto | apply (r_awake _ _ _ _ _ _ _ R B)]. Qed.
    Lemma TH_stable i r e : stable (TH i r e).
    Proof. intros m g m' g' R (A & B). split; [eapply TS_stable; eauto | apply (r_own _ _ _ _ _ _ _ R _ B)]. Qed.
    Lemma word_rely m g m' g' i a : rely t m g m' g' -> own m i = Some t -> d_locked (D a) = true -> lockof a = i ->
      word_at m' a = word_at m a.
    Proof.
      intros R Ho Hd Hl. unfold SleepInv.word_at. rewrite Hd. f_equal. unfold bytes_at. apply map_ext_in. intros j Hj.
      apply in_seq in Hj. eapply (r_byt _ _ _ _ _ _ _ R); eauto. lia.
    Qed.
    Lemma locked_pooled a : d_locked (D a) = true -> pooled (D a) = true.
    Proof. unfold d_locked, pooled. destruct (d_wait (D a)); congruence. Qed.
    Lemma HF_stable i r e : stable (HF i r e).
    Proof.
      intros m g m' g' R (A & B). split; [eapply TH_stable; eauto|]. intros a Ha Hl. destruct A as [_ Ho].
      rewrite (word_rely _ _ _ _ _ _ R Ho Ha Hl), (r_na _ _ _ _ _ _ _ R i a Ho (locked_pooled a Ha) Hl).
      apply (o_seen _ _ _ _ (r_mono _ _ _ _ _ _ _ R)). auto.
    Qed.
    Lemma and_stable P Q : stable P -> stable Q -> stable (fun m g => P m g /\ Q m g).
    Proof. intros A B m g m' g' R [X Y]. split; [eapply A | eapply B]; eauto. Qed.

    Lemma TS_own p r e m g i : Inv m g -> TS p r e m g -> own m i = Some t -> p = Hold i \/ p = HoldN i.
    Proof. intros I ((A & _) & _) H. apply (i_own _ _ _ _ I) in H. rewrite A in H. exact H. Qed.
    Lemma owned_t m i : own m i = Some t -> owned m i t = true.
    Proof. intros H. unfold owned. rewrite H. apply Nat.eqb_refl. Qed.
    Lemma guarded_t m i m' : own m i = Some t -> guarded m i t m' = m'.
    Proof. intros H. unfold guarded. now rewrite owned_t. Qed.

    (** actions without effect *)
    Lemma idle_rule (P : pmem -> ghost -> Prop) a (Q : presp a -> pmem -> ghost -> Prop) m g : stable P -> P m g ->
      (forall m g, Inv m g -> P m g -> ok t a m g /\ forall w m2 x, exec t a m w = Some (m2, x) -> m2 = m /\ Q x m g) ->
      isafe t (pdo a) Q m g.
    Proof.
      intros HS HP H. eapply act_rule; [exact HS | exact HP|]. intros m1 g1 I1 P1. destruct (H m1 g1 I1 P1) as [A B].
      split; [exact A|]. intros w m2 x E. destruct (B w m2 x E) as [-> HQ]. exists g1. auto using guar_refl.
    Qed.
    Lemma mload_ok {o} (P : pmem -> ghost -> Prop) i m g : stable P -> P m g -> isafe t (pdo (MLoad i o)) (fun _ => P) m g.
    Proof. intros S1 H. eapply idle_rule; eauto. intros m1 g1 _ H1. split; [exact I|]. intros w m2 x [= <- <-]. auto. Qed.
    Lemma cload_ok (P : pmem -> ghost -> Prop) i k m g : stable P -> P m g -> isafe t (pdo (CLoad i k)) (fun x m g => P m g /\ x = cnd m i k) m g.
    Proof. intros S1 H. eapply idle_rule; eauto. intros m1 g1 _ H1. split; [exact I|]. intros w m2 x [= <- <-]. auto. Qed.
    Lemma pause_ok (P : pmem -> ghost -> Prop) m g : stable P -> P m g -> isafe t (pdo Pause) (fun _ => P) m g.
    Proof. intros S1 H. eapply idle_rule; eauto. intros m1 g1 _ H1. split; [exact I|]. intros w m2 x [= <- <-]. auto. Qed.
    (** what changes with nothing but the clock *)
    Definition clockless (P : pmem -> ghost -> Prop) : Prop := forall m g c, P m g -> P (set_clk m c) g.
    Lemma now_ok (P : pmem -> ghost -> Prop) m g : stable P -> clockless P -> P m g ->
      isafe t (pdo Now) (fun x m g => P m g /\ x = clk m) m g.
    Proof.
      intros S1 S2 H. eapply act_rule; eauto. intros m1 g1 I1 H1. split; [exact I|]. intros w m2 x [= <- <-].
      exists g1. destruct (clk_step pl D m1 g1 t (clk m1 + Z.max 0 (f_adv w))) as [G1 G2]; [exact I1 | lia|].
      split; [exact G1|]. split; [exact G2|]. split; [apply S2; exact H1 | reflexivity].
    Qed.
    Lemma TS_clockless p r e : clockless (TS p r e).
    Proof. intros m g c H. exact H. Qed.
    Lemma TH_clockless i r e : clockless (TH i r e).
    Proof. intros m g c H. exact H. Qed.
    Lemma HF_clockless i r e : clockless (HF i r e).
    Proof. intros m g c H. exact H. Qed.

    (** ** Locks *)
    Definition on_lock i (e : option entry) : Prop := forall x j k, e = Some x -> e_fut x = FC j k -> j = i.

    Lemma TS_lph p q r e m g m' : asleep m' t = false -> TS p r e m g -> TS q r e m' (set_lph g t q).
    Proof.
      intros Ha ((A & B & E & F) & _). split; [|exact Ha]. split; [cbn; apply fset_eq|]. split; [exact B|]. split; [exact E | exact F].
    Qed.
    Lemma taken m g i r e m' : Inv m g -> own m i = None -> own m' i = Some t -> slp m' = slp m -> byt m' = byt m -> cel m' = cel m ->
      (exists p, TS p r e m g) -> HF i r e m' (set_lph g t (Hold i)).
    Proof.
      intros I1 Ho Ho' Es Eb Ec (p & H).
      assert (Ha : asleep m' t = false) by (unfold asleep; rewrite Es; apply H).
      split; [split; [eapply TS_lph; eauto | exact Ho']|].
      intros a Hd Hl. cbn. unfold SleepInv.word_at. rewrite Eb, Ec. apply (i_seen _ _ _ _ I1). intros _. now rewrite Hl.
    Qed.

    Lemma word_free m g i : Inv m g -> lk = LFutex -> Z.land (mx m i) locked = 0 -> own m i = None.
    Proof.
      intros I1 F H. destruct (i_word _ _ _ _ I1 F i) as [b E]. rewrite E in H.
      assert (B : Z.testbit (Z.land (mword (unl m i) b match own m i with Some _ => true | None => false end) locked) 0 = false) by (rewrite H; reflexivity).
      rewrite Z.land_spec, mword_bits in B by lia. destruct (own m i); [discriminate B | reflexivity].
    Qed.
    Lemma word_held m g i : Inv m g -> lk = LFutex -> Z.land (mx m i) locked <> 0 -> own m i <> None.
    Proof.
      intros I1 F H N. destruct (i_word _ _ _ _ I1 F i) as [b E]. rewrite E, N in H. apply H. apply Z.bits_inj'. intros n Hn.
      rewrite Z.land_spec, mword_bits, Z.bits_0 by auto. unfold locked. rewrite bit_of_1 by auto.
      destruct (n =? 0); [reflexivity | apply andb_false_r].
    Qed.

    Lemma cas_lock_ok {so fo} weak i r e p prev m g : lk = LFutex -> on_lock i e -> p = Out \/ p = Want i ->
      Z.land prev locked = 0 -> TS p r e m g ->
      isafe t (pdo (MCas weak i prev (Z.lor prev locked) so fo)) (fun x m g => if fst x : bool then HF i r e m g else TS p r e m g) m g.
    Proof.
      intros F He Hp Hprev H. eapply (act_rule (TS p r e)); [apply TS_stable | exact H|]. intros m1 g1 I1 H1.
      split; [exact I|]. intros w m2 x E. cbn in E. destruct (Z.eqb_spec (mx m1 i) prev) as [Em|].
      2: { cbn in E. injection E as <- <-. exists g1. auto using guar_refl. }
      cbn in E. destruct (negb weak || f_lucky w).
      2: { cbn in E. injection E as <- <-. exists g1. auto using guar_refl. }
      injection E as <- <-. subst prev. pose proof (word_free _ _ _ I1 F Hprev) as Ho.
      destruct (i_word _ _ _ _ I1 F i) as [b Eb]. rewrite Ho in Eb. cbn [fst].
      exists (set_lph g1 t (Hold i)).
      assert (X : forall j, own (set_mx m1 i (Z.lor (mx m1 i) locked) (if Z.odd (Z.lor (mx m1 i) locked) then if Z.odd (mx m1 i) then own m1 i else Some t else None)
                       (if Z.odd (mx m1 i) && negb (Z.odd (Z.lor (mx m1 i) locked)) then unl m1 i + 1 else unl m1 i)) j = if Nat.eqb j i then Some t else own m1 j).
      { intros j. cbn. rewrite fset_if. destruct (Nat.eqb_spec j i) as [->|]; auto. rewrite Eb, mword_lock, !mword_odd. reflexivity. }
      destruct (take_step pl D m1 g1 t i (set_mx m1 i (Z.lor (mx m1 i) locked) (if Z.odd (Z.lor (mx m1 i) locked) then if Z.odd (mx m1 i) then own m1 i else Some t else None)
                       (if Z.odd (mx m1 i) && negb (Z.odd (Z.lor (mx m1 i) locked)) then unl m1 i + 1 else unl m1 i)) I1 Ho) as [G1 G2]; try reflexivity.
      - apply H1.
      - destruct H1 as ((-> & _) & _). destruct Hp; auto.
      - intros x j k Hx. destruct H1 as ((_ & _ & E1 & _) & _). rewrite E1 in Hx. eapply He; eauto.
      - exact X.
      - intros _ j. cbn. rewrite fset_if. destruct (Nat.eqb_spec j i) as [->|]; reflexivity.
      - intros j. cbn. rewrite fset_if. destruct (Nat.eqb_spec j i) as [->|]; auto. rewrite Eb, mword_odd. reflexivity.
      - split; [exact G1|]. split; [exact G2|]. apply taken with (m := m1); try reflexivity; auto.
        + rewrite X, Nat.eqb_refl. reflexivity.
        + eauto.
    Qed.

    Lemma fsleep_ok dl p r e e' m g : (e' = e \/ e' = None /\ (lk = LFutex -> forall x i k, e = Some x -> e_fut x <> FC i k)) ->
      (dl = None -> (exists i, p = Want i) \/ exists old, k_op C = AWait old) -> TA p r e m g ->
      isafe t (pdo (FSleep dl)) (fun x m g => TS p r e' m g /\ (x = TimedOut -> exists d, dl = Some d /\ d <= clk m)) m g.
    Proof.
      intros He Hdl H. eapply (act_rule (TA p r e)); [apply TA_stable | exact H|]. intros m1 g1 I1 H1. split.
      - cbn. destruct dl as [d|]; [exact I|]. intros f Hf. destruct (Hdl eq_refl) as [(i & ->)|(old & Hc)].
        + left. pose proof (i_asleep _ _ _ _ I1 _ _ Hf) as Hs. destruct H1 as (Hl & _). rewrite Hl in Hs.
          destruct f as [j|j k|a]; [eauto | destruct Hs; discriminate | destruct Hs; discriminate].
        + right. exists C, old. split; [apply H1 | exact Hc].
      - intros w m2 x E.
        assert (W : forall m2, (forall v f, In (v, f) (slp m2) <-> v <> t /\ In (v, f) (slp m1)) -> NoDup (map fst (slp m2)) -> clk m1 <= clk m2 ->
          own m2 = own m1 -> mx m2 = mx m1 -> unl m2 = unl m1 -> byt m2 = byt m1 -> cel m2 = cel m1 -> wl m2 = wl m1 ->
          cnd m2 = cnd m1 -> wct m2 = wct m1 -> ntf m2 = ntf m1 -> fault m2 = fault m1 ->
          guar t m1 g1 m2 (set_ent g1 t e') /\ Inv m2 (set_ent g1 t e') /\ TS p r e' m2 (set_ent g1 t e')).
        { intros m3 A1 A2 A3 A4 A5 A6 A7 A8 A9 A10 A11 A12 A13.
          destruct (wake_step pl D m1 g1 t m3 e') as [G1 G2]; auto.
          - destruct H1 as (_ & _ & E1 & _). rewrite E1. exact He.
          - split; [exact G1|]. split; [exact G2|]. split.
            + destruct H1 as (B1 & B2 & B3 & B4). split; [exact B1|]. split; [exact B2|]. split; [cbn; apply fset_eq | exact B4].
            + apply awake_in. intros f Hf. apply A1 in Hf. destruct Hf as [Hf _]. congruence. }
        assert (N : NoDup (map fst (slp m1))) by apply I1.
        assert (N' : NoDup (map fst (rouse t (slp m1)))) by (now apply nodup_filter_fst).
        exists (set_ent g1 t e'). cbn in E. destruct (asleep m1 t) eqn:Ea.
        + destruct (f_spur w).
          * injection E as <- <-. destruct (W (set_slp m1 (rouse t (slp m1)))) as (G1 & G2 & G3); try reflexivity; auto.
            -- intros v f. cbn. apply rouse_in.
            -- split; [exact G1|]. split; [exact G2|]. split; [exact G3 | discriminate].
          * destruct dl as [d|]; [|discriminate]. cbv zeta in E. destruct (Z.leb_spec d (clk m1 + Z.max 0 (f_adv w))) as [Hd|]; [|discriminate].
            injection E as <- <-.
            destruct (W (set_clk (set_slp m1 (rouse t (slp m1))) (clk m1 + Z.max 0 (f_adv w)))) as (G1 & G2 & G3); try reflexivity; auto.
            -- intros v f. cbn. apply rouse_in.
            -- cbn. lia.
            -- split; [exact G1|]. split; [exact G2|]. split; [exact G3|]. intros _. exists d. split; [reflexivity | exact Hd].
        + injection E as <- <-. destruct (W m1) as (G1 & G2 & G3); try reflexivity; auto.
          * intros v f. split; [|tauto]. intros Hf. split; [|exact Hf]. intros ->. elim (proj1 (awake_in m1 t) Ea f Hf).
          * split; [exact G1|]. split; [exact G2|]. split; [exact G3 | discriminate].
    Qed.

    Lemma want_ok {o} i r e m g : TS Out r e m g -> isafe t (pdo (MLoad i o)) (fun _ => TS (Want i) r e) m g.
    Proof.
      intros H. eapply (act_rule (TS Out r e)); [apply TS_stable | exact H|]. intros m1 g1 I1 H1. split; [exact I|].
      intros w m2 x [= <- <-]. exists (set_lph g1 t (Want i)).
      destruct (want_step pl D m1 g1 t i) as [G1 G2]; auto; try apply H1. split; [exact G1|]. split; [exact G2|].
      eapply TS_lph; [apply H1 | exact H1].
    Qed.

    Lemma cas_mark_ok {so fo} i r e prev m g : lk = LFutex -> Z.land prev locked <> 0 -> TS (Want i) r e m g ->
      isafe t (pdo (MCas true i prev (Z.lor prev contended) so fo)) (fun x => TS (Want i) r e) m g.
    Proof.
      intros F Hprev H. eapply (act_rule (TS (Want i) r e)); [apply TS_stable | exact H|]. intros m1 g1 I1 H1.
      split; [exact I|]. intros w m2 x E. cbn in E. destruct (Z.eqb_spec (mx m1 i) prev) as [Em|].
      2: { cbn in E. injection E as <- <-. exists g1. auto using guar_refl. }
      cbn in E. destruct (f_lucky w).
      2: { cbn in E. injection E as <- <-. exists g1. auto using guar_refl. }
      subst prev. pose proof (word_held _ _ _ I1 F Hprev) as Ho. destruct (i_word _ _ _ _ I1 F i) as [b Eb].
      destruct (own m1 i) as [u|] eqn:Eo; [|congruence].
      assert (Od : Z.odd (mx m1 i) = true) by (rewrite Eb; apply mword_odd).
      assert (Oc : Z.odd (Z.lor (mx m1 i) contended) = true) by (rewrite Eb, mword_contend; apply mword_odd).
      rewrite Od, Oc in E. cbn in E. injection E as <- <-.
      exists (set_lph g1 t (Want i)).
      assert (O2 : forall j, fset (own m1) i (Some u) j = own m1 j).
      { intros j. rewrite fset_if. destruct (Nat.eqb_spec j i) as [->|]; auto. }
      destruct (mark_step pl D m1 g1 t i true (Want i) (set_mx m1 i (Z.lor (mx m1 i) contended) (Some u) (unl m1 i))) as [G1 G2];
        try reflexivity; auto.
      - left. split; [reflexivity|]. left. split; [symmetry; apply H1 | discriminate].
      - intros j. cbn. rewrite fset_if. destruct (Nat.eqb_spec j i) as [->|]; auto. rewrite Eo. rewrite Eb at 1. apply mword_contend.
      - intros j. cbn. rewrite fset_if. destruct (Nat.eqb_spec j i) as [->|]; auto.
      - split; [exact G1|]. split; [exact G2|]. eapply TS_lph; [apply H1 | exact H1].
    Qed.

    Lemma TA_TS p r e m g : TS p r e m g -> TA p r e m g.
    Proof. intros [H _]. exact H. Qed.

    Lemma fwait_mutex_ok i r e v m g : lk = LFutex -> on_lock i e -> Z.land v locked <> 0 -> Z.testbit v 1 = true -> TS (Want i) r e m g ->
      isafe t (pdo (FWait (FM i) v)) (fun x => if x : bool then TA (Want i) r e else TS (Want i) r e) m g.
    Proof.
      intros F He Hv Hb H. eapply (act_rule (TS (Want i) r e)); [apply TS_stable | exact H|]. intros m1 g1 I1 H1. split; [exact I|].
      intros w m2 x E. cbn in E. destruct (Z.eqb_spec (mx m1 i) v) as [Em|]; injection E as <- <-.
      - exists g1. destruct (sleep_mutex_step pl D m1 g1 t i) as [G1 G2]; auto; try apply H1.
        + intros x j k Hx. destruct H1 as ((_ & _ & E1 & _) & _). rewrite E1 in Hx. eapply He; eauto.
        + apply (word_held _ _ _ I1 F). now rewrite Em.
        + now rewrite Em.
        + split; [exact G1|]. split; [exact G2|]. apply TA_TS in H1. exact H1.
      - exists g1. auto using guar_refl.
    Qed.

    Lemma land_keep prev : Z.land prev locked <> 0 -> Z.land (Z.lor prev contended) locked <> 0.
    Proof.
      intros H E. apply H. rewrite Z.land_lor_distr_l in E. change (Z.land contended locked) with 0 in E. now rewrite Z.lor_0_r in E.
    Qed.
    Lemma lor_bit1 prev : Z.testbit (Z.lor prev contended) 1 = true.
    Proof. rewrite Z.lor_spec. apply orb_true_r. Qed.

    Lemma slow_ok i r e m g : lk = LFutex -> on_lock i e -> TS Out r e m g -> isafe t (lock_slow_path i) (fun _ => HF i r e) m g.
    Proof.
      intros F He H. unfold lock_slow_path. eapply isafe_seq; [apply want_ok; exact H|]. cbn beta. intros prev m1 g1 _ H1.
      apply isafe_loop with (J := fun _ => TS (Want i) r e); [exact H1|]. clear m1 g1 H1 m g H prev. intros prev m g H.
      destruct (Z.eqb_spec (Z.land prev locked) 0) as [Hp|Hp].
      - eapply isafe_seq; [apply cas_lock_ok with (r := r) (e := e) (p := Want i); auto|]. intros [b cur] m1 g1 _ H1. cbn in H1.
        destruct b; exact H1.
      - eapply isafe_seq; [apply cas_mark_ok with (r := r) (e := e); auto|]. intros [b cur] m1 g1 _ H1. destruct b; [|exact H1].
        eapply isafe_seq with (Q := fun _ => TS (Want i) r e).
        + unfold futex_wait_on. eapply isafe_seq; [apply fwait_mutex_ok with (r := r) (e := e); auto using land_keep, lor_bit1|].
          intros q m2 g2 _ H2. destruct q; [|exact H2]. eapply isafe_seq; [eapply fsleep_ok with (e' := e); [left; reflexivity | left; eauto | exact H2]|].
          intros x m3 g3 _ [H3 _]. exact H3.
        + intros u0 m2 g2 _ H2. eapply isafe_seq; [apply (mload_ok (TS (Want i) r e)); [apply TS_stable | exact H2]|].
          intros x m3 g3 _ H3. exact H3.
    Qed.

    Lemma spin_ok n i r e m g : lk = LFutex -> on_lock i e -> TS Out r e m g -> isafe t (futex_spin n i) (fun _ => HF i r e) m g.
    Proof.
      intros F He. revert m g. induction n as [|n IH]; intros m g H; [now apply slow_ok|]. cbn [futex_spin].
      eapply isafe_seq; [apply (mload_ok (TS Out r e)); [apply TS_stable | exact H]|]. intros prev m1 g1 _ H1.
      assert (P : forall m g, TS Out r e m g -> isafe t (pdo Pause ;;; futex_spin n i) (fun _ => HF i r e) m g).
      { intros m2 g2 H2. eapply isafe_seq; [apply (pause_ok (TS Out r e)); [apply TS_stable | exact H2]|]. intros u0 m3 g3 _ H3. auto. }
      destruct (Z.eqb_spec (Z.land prev locked) 0) as [Hp|Hp]; [|apply P; exact H1].
      eapply isafe_seq; [apply cas_lock_ok with (r := r) (e := e) (p := Out); auto|]. intros [b cur] m2 g2 _ H2. cbn in H2.
      destruct b; [exact H2 | apply P; exact H2].
    Qed.

    Lemma os_take m g i r e : lk <> LFutex -> on_lock i e -> Inv m g -> TS Out r e m g -> own m i = None ->
      let m' := set_own m i (Some t) in let g' := set_lph g t (Hold i) in
      guar t m g m' g' /\ Inv m' g' /\ HF i r e m' g'.
    Proof.
      intros F He I1 H1 Ho m' g'.
      destruct (take_step pl D m g t i m') as [G1 G2]; try reflexivity; auto; try apply H1.
      - right. apply H1.
      - intros x j k Hx. destruct H1 as ((_ & _ & E1 & _) & _). rewrite E1 in Hx. eapply He; eauto.
      - intros F'. congruence.
      - split; [exact G1|]. split; [exact G2|]. eapply taken with (m := m); try reflexivity; eauto. cbn. apply fset_eq.
    Qed.
    Lemma oslock_ok i r e m g : lk <> LFutex -> on_lock i e -> TS Out r e m g -> isafe t (pdo (OsLock i)) (fun _ => HF i r e) m g.
    Proof.
      intros F He H. eapply (act_rule (TS Out r e)); [apply TS_stable | exact H|]. intros m1 g1 I1 H1. split.
      - split; [exact F|]. intros j Hj. destruct (TS_own _ _ _ _ _ _ I1 H1 Hj); discriminate.
      - intros w m2 x E. cbn in E. destruct (own m1 i) eqn:Eo; [discriminate|]. injection E as <- <-.
        eexists. eapply os_take; eauto.
    Qed.
    Lemma os_spin_ok n i r e m g : lk <> LFutex -> on_lock i e -> TS Out r e m g -> isafe t (os_spin n i) (fun _ => HF i r e) m g.
    Proof.
      intros F He. revert m g. induction n as [|n IH]; intros m g H; [now apply oslock_ok|]. cbn [os_spin].
      eapply isafe_seq with (Q := fun x m g => if x : bool then HF i r e m g else TS Out r e m g).
      - eapply (act_rule (TS Out r e)); [apply TS_stable | exact H|]. intros m1 g1 I1 H1. split; [exact I|].
        intros w m2 x E. cbn in E. destruct (own m1 i) eqn:Eo; injection E as <- <-.
        + exists g1. auto using guar_refl.
        + eexists. eapply os_take; eauto.
      - intros b m1 g1 _ H1. destruct b; [exact H1|].
        eapply isafe_seq; [apply (pause_ok (TS Out r e)); [apply TS_stable | exact H1]|]. intros u0 m3 g3 _ H3. auto.
    Qed.
    Lemma acquire_ok i r e m g : on_lock i e -> TS Out r e m g -> isafe t (acquire lk i) (fun _ => HF i r e) m g.
    Proof.
      intros He H. unfold acquire. destruct lk eqn:El.
      - apply os_spin_ok; auto. congruence.
      - apply spin_ok; auto.
      - apply oslock_ok; auto. congruence.
    Qed.

    Lemma awake_rouse v l : asleep l t = false -> asleep (set_slp l (rouse v (slp l))) t = false.
    Proof. rewrite !awake_in. intros H f Hf. cbn in Hf. apply rouse_in in Hf. eapply H. apply Hf. Qed.

    Definition after i r e (x : Z * Z) m g : Prop :=
      exists n, 0 <= n /\ (Z.land (fst x) contended =? 0) = false /\ snd x = mword n true false /\ TS (Sig i n) r e m g.
    Lemma cas_unlock_ok {so fo} i r e prev m g : lk = LFutex -> TH i r e m g ->
      let new := u32 (Z.land prev (Z.lnot locked) + counter_one) in
      isafe t (pdo (MCas true i prev new so fo))
        (fun x m g => if fst x : bool then after i r e (prev, new) m g \/ (Z.land prev contended =? 0) = true /\ TS Out r e m g
                      else TH i r e m g) m g.
    Proof.
      intros F H new. eapply (act_rule (TH i r e)); [apply TH_stable | exact H|]. intros m1 g1 I1 H1. split; [exact I|].
      intros w m2 x E. cbn in E. destruct (Z.eqb_spec (mx m1 i) prev) as [Em|].
      2: { cbn in E. injection E as <- <-. exists g1. auto using guar_refl. }
      cbn in E. destruct (f_lucky w).
      2: { cbn in E. injection E as <- <-. exists g1. auto using guar_refl. }
      subst prev. destruct (i_word _ _ _ _ I1 F i) as [c Eb]. destruct H1 as [H1 Ho]. rewrite Ho in Eb.
      destruct (i_pos _ _ _ _ I1) as (P1 & _). specialize (P1 i).
      assert (En : new = mword (unl m1 i + 1) c false) by (subst new; rewrite Eb; now apply mword_unlock).
      rewrite En in E. rewrite Eb in E. rewrite !mword_odd in E. cbn in E. injection E as <- <-. cbn [fst].
      set (p := if c then Sig i (unl m1 i + 1) else Out).
      set (m2 := set_mx m1 i (mword (unl m1 i + 1) c false) None (unl m1 i + 1)).
      exists (let_go pl D g1 t p m2).
      destruct (release_step pl D m1 g1 t i c p m2) as [G1 G2]; try reflexivity; auto; try apply H1.
      - subst p. destruct c; [right; auto | left; auto].
      - intros _. rewrite Eb, mword_bits by lia. reflexivity.
      - intros _ j. subst m2. cbn. rewrite !fset_if. destruct (Nat.eqb_spec j i) as [->|]; reflexivity.
      - intros j Nj. subst m2. cbn. now rewrite fset_neq.
      - subst m2. cbn. rewrite fset_eq. lia.
      - intros _. subst m2. cbn. now rewrite fset_eq.
      - split; [exact G1|]. split; [exact G2|]. rewrite Eb, mword_contended. destruct H1 as ((A1 & A2 & A3 & A4) & A5).
        assert (T : TS p r e m2 (let_go pl D g1 t p m2)).
        { split; [|exact A5]. split; [cbn; apply fset_eq|]. split; [exact A2|]. split; [exact A3 | exact A4]. }
        destruct c; subst p; [left|right; auto]. exists (unl m1 i + 1). split; [lia|]. cbn [fst snd]. rewrite mword_contended. auto.
    Qed.

    Lemma wake_mutex_ok i r e n m g : TS (Sig i n) r e m g ->
      isafe t (pdo (FWake (FM i) false)) (fun x => if Nat.eqb x 0 then TS (Clr i n) r e else TS Out r e) m g.
    Proof.
      intros H. eapply (act_rule (TS (Sig i n) r e)); [apply TS_stable | exact H|]. intros m1 g1 I1 H1. split; [exact I|].
      intros w m2 x E. cbn in E. destruct (picked m1 (FM i) (f_pick w)) as [u|] eqn:Ep; injection E as <- <-.
      - exists (set_lph g1 t Out). destruct (signal_step pl D m1 g1 t i n (Some u)) as [G1 G2]; auto; [apply H1 | eapply picked_some; eauto|].
        split; [exact G1|]. split; [exact G2|]. eapply TS_lph; [apply awake_rouse, H1 | exact H1].
      - exists (set_lph g1 t (Clr i n)). destruct (signal_step pl D m1 g1 t i n None) as [G1 G2]; auto; [apply H1 | eapply picked_none; eauto|].
        split; [exact G1|]. split; [exact G2|]. eapply TS_lph; [apply H1 | exact H1].
    Qed.

    Lemma cas_clear_ok {so fo} i r e n m g : lk = LFutex -> 0 <= n -> TS (Clr i n) r e m g ->
      isafe t (pdo (MCas false i (mword n true false) (Z.land (mword n true false) (Z.lnot contended)) so fo)) (fun _ => TS Out r e) m g.
    Proof.
      intros F Hn H. eapply (act_rule (TS (Clr i n) r e)); [apply TS_stable | exact H|]. intros m1 g1 I1 H1. split; [exact I|].
      intros w m2 x E. cbn -[Z.land Z.lnot mword] in E. rewrite mword_clear, !mword_odd in E.
      exists (set_lph g1 t Out). destruct (Z.eqb_spec (mx m1 i) (mword n true false)) as [Em|]; cbn -[mword] in E; injection E as <- <-.
      - destruct (i_word _ _ _ _ I1 F i) as [c Eb]. rewrite Em in Eb. apply mword_inj in Eb. destruct Eb as (Eu & <- & Eo).
        assert (Ho : own m1 i = None) by (destruct (own m1 i); [discriminate | reflexivity]). clear Eo.
        assert (Hc : lph g1 t = Clr i n) by apply H1.
        destruct (mark_step pl D m1 g1 t i false Out (set_mx m1 i (mword n false false) None (unl m1 i))) as [G1 G2]; try reflexivity; auto.
        + intros j. cbn. rewrite fset_if. destruct (Nat.eqb_spec j i) as [->|]; auto.
        + right. split; [reflexivity|]. split; [exact Ho|]. split; [reflexivity|]. split; [eauto|]. intros L u.
          assert (Hs : n <= unl m1 i) by (eapply (i_sig _ _ _ _ I1); eauto).
          destruct (i_pos _ _ _ _ I1) as (P1 & _). specialize (P1 i). destruct (L F) as [L1 _]. specialize (L1 i).
          rewrite !Z.mod_small in Eu by lia. apply (l_clr _ _ (i_lim _ _ _ _ I1 L) i n t u); auto.
        + intros j. cbn -[mword]. rewrite fset_if. destruct (Nat.eqb_spec j i) as [->|]; auto. rewrite Ho. unfold mword. now rewrite Eu.
        + intros j. cbn. rewrite fset_if. destruct (Nat.eqb_spec j i) as [->|]; auto.
        + split; [exact G1|]. split; [exact G2|]. eapply TS_lph; [apply H1 | exact H1].
      - destruct (quit_step pl D m1 g1 t i n) as [G1 G2]; auto; [apply H1|].
        split; [exact G1|]. split; [exact G2|]. eapply TS_lph; [apply H1 | exact H1].
    Qed.

    Lemma unlock_ok i r e m g : lk = LFutex -> TH i r e m g -> isafe t (futex_unlock i) (fun _ => TS Out r e) m g.
    Proof.
      intros F H. unfold futex_unlock. eapply isafe_seq; [apply (mload_ok (TH i r e)); [apply TH_stable | exact H]|]. intros prev m1 g1 _ H1.
      eapply isafe_seq with (Q := fun x m g => after i r e x m g \/ (Z.land (fst x) contended =? 0) = true /\ TS Out r e m g).
      - apply isafe_loop with (J := fun _ => TH i r e); [exact H1|]. clear m1 g1 H1 m g H prev. intros prev m g H.
        eapply isafe_seq; [apply (cas_unlock_ok i r e prev); auto|]. intros [b cur] m1 g1 _ H1. cbn [fst] in H1. destruct b; exact H1.
      - intros [pr new] m2 g2 _ [(n & Hn & E1 & E2 & H2)|[E1 H2]]; cbn [fst snd] in *; rewrite E1; cbn [negb]; [|exact H2].
        subst new. eapply isafe_seq; [apply (wake_mutex_ok i r e n); exact H2|]. intros x m3 g3 _ H3. revert H3. cbn beta. destruct (Nat.eqb x 0); intros H3; [|exact H3].
        eapply isafe_seq; [apply (cas_clear_ok i r e n); auto|]. intros x' m4 g4 _ H4. exact H4.
    Qed.

    Lemma release_ok i r e m g : TH i r e m g -> isafe t (release lk i) (fun _ => TS Out r e) m g.
    Proof.
      intros H. unfold release. destruct lk eqn:El; [|now apply unlock_ok|].
      all: eapply (act_rule (TH i r e)); [apply TH_stable | exact H|]; intros m1 g1 I1 [H1 Ho]; split; [exact Ho|].
      all: intros w m2 x E; cbn in E; rewrite (guarded_t _ _ _ Ho) in E; injection E as <- <-.
      all: exists (let_go pl D g1 t Out (set_own m1 i None)).
      all: destruct (release_step pl D m1 g1 t i false Out (set_own m1 i None)) as [G1 G2]; try reflexivity; auto; try congruence; try apply H1.
      all: split; [exact G1|]; split; [exact G2|]; destruct H1 as ((A1 & A2 & A3 & A4) & A5).
      all: split; [|exact A5]; split; [cbn; apply fset_eq|]; split; [exact A2|]; split; [exact A3 | exact A4].
    Qed.

    (** ** Waiting on a record *)
    Notation a := (k_obj C).
    Definition Sees (m : pmem) (g : ghost) : Prop := forall old, careful (D a) (k_op C) = Some old -> seen g a old (na g a).
    Definition WH i r m g : Prop := HF i r None m g /\ Sees m g.
    Lemma WH_stable i r : pooled (D a) = true -> lockof a = i -> stable (WH i r).
    Proof.
      intros Hk Hi m g m' g' R [A B]. split; [eapply HF_stable; eauto|]. intros old Hold. destruct A as [[_ Ho] _].
      rewrite (r_na _ _ _ _ _ _ _ R i a Ho Hk Hi). apply (o_seen _ _ _ _ (r_mono _ _ _ _ _ _ _ R)). auto.
    Qed.
    Lemma cnd_stable i k pc : stable (fun m g => own m i = Some t /\ cnd m i k = pc).
    Proof.
      intros m g m' g' R [A B]. split; [apply (r_own _ _ _ _ _ _ _ R _ A)|].
      destruct (r_cnd _ _ _ _ _ _ _ R i k A) as (-> & _ & _). exact B.
    Qed.
    Lemma wct_stable i k c : stable (fun m g => own m i = Some t /\ wct m i k = c).
    Proof.
      intros m g m' g' R [A B]. split; [apply (r_own _ _ _ _ _ _ _ R _ A)|].
      destruct (r_cnd _ _ _ _ _ _ _ R i k A) as (_ & -> & _). exact B.
    Qed.
    Lemma wcget_ok (P : pmem -> ghost -> Prop) i k m g : stable P -> (forall m g, P m g -> own m i = Some t) -> P m g ->
      isafe t (pdo (WcGet i k)) (fun x m g => P m g /\ wct m i k = x) m g.
    Proof.
      intros S1 Ho H. eapply idle_rule; [exact S1 | exact H|]. intros m1 g1 _ H1. specialize (Ho _ _ H1). split; [exact Ho|].
      intros w m2 x E. cbn in E. rewrite (guarded_t _ _ _ Ho) in E. injection E as <- <-. auto.
    Qed.

    Section Record.
      Variable k : nat.
      Notation i := (lockof a).
      Notation rg := (Some (i, (d_addr (D a), k))).
      Hypothesis Hk : pooled (D a) = true.
      Hypothesis Hw : waits (k_op C) = true.

      Definition EN (e : entry) (pc : Z) : Prop := e_fut e = FC i k /\ pc = wrap 32 (e_n0 e).

      Lemma enter_ok m g : lk = LFutex -> WH i rg m g ->
        isafe t (futex_enter i k) (fun pc m g => exists e, EN e pc /\ TS Out rg (Some e) m g) m g.
      Proof.
        intros F H. unfold futex_enter.
        eapply isafe_seq; [apply (cload_ok (WH i rg)); [apply WH_stable; auto | exact H]|]. intros pc m1 g1 _ [H1 Epc].
        assert (H1' : WH i rg m1 g1 /\ own m1 i = Some t /\ cnd m1 i k = pc) by (split; [exact H1|]; split; [apply H1 | auto]).
        clear H1 Epc. eapply isafe_seq; [apply (wcget_ok (fun m g => WH i rg m g /\ own m i = Some t /\ cnd m i k = pc)); [| |exact H1']|].
        { apply and_stable; [apply WH_stable; auto | apply cnd_stable]. }
        { intros m2 g2 H2. apply H2. }
        intros c m2 g2 _ [[H2 [Ho2 Hc2]] Hw2].
        eapply isafe_seq with (Q := fun _ m g => exists e, EN e pc /\ TH i rg (Some e) m g).
        - eapply (act_rule (fun m g => WH i rg m g /\ (own m i = Some t /\ cnd m i k = pc) /\ (own m i = Some t /\ wct m i k = c))).
          + apply and_stable; [apply WH_stable; auto|]. apply and_stable; [apply cnd_stable | apply wct_stable].
          + auto.
          + clear m2 g2 H2 Ho2 Hc2 Hw2 m1 g1 H1' m g H. intros m g I1 (H & (Ho & Hc) & (_ & Hv)). split; [exact Ho|].
            intros w m2 x E. cbn in E. rewrite (guarded_t _ _ _ Ho) in E. injection E as <- <-. subst c.
            destruct H as [(((A1 & A2) & _) & _) A3]. destruct A1 as (B1 & B2 & B3 & B4).
            eexists. destruct (count_in_step pl D m g t i k C) as [G1 G2]; auto.
            { now apply B2. }
            split; [exact G1|]. split; [exact G2|]. exists (mke (FC i k) (na g a) (ntf m i k)). split; [split; [reflexivity|]; cbn|].
            * rewrite <- Hc. now apply (i_cnd _ _ _ _ I1).
            * split; [|exact Ho]. split; [|exact A2]. split; [exact B1|]. split; [exact B2|]. split; [cbn; apply fset_eq | exact B4].
        - intros u0 m3 g3 _ (e & He & H3). eapply isafe_seq; [apply (unlock_ok i rg (Some e)); auto|]. intros u1 m4 g4 _ H4. exists e. auto.
      Qed.

      Lemma EN_lock e pc : EN e pc -> on_lock i (Some e).
      Proof. intros [E _] x j l [= <-] Hf. rewrite E in Hf. now injection Hf as <- <-. Qed.

      Lemma csleep_ok e pc dl m g : lk = LFutex -> EN e pc -> (dl = None -> exists old, k_op C = AWait old) -> TS Out rg (Some e) m g ->
        isafe t (cond_sleep i k pc dl) (fun x m g => TS Out rg (Some e) m g /\ (x = Some TimedOut -> exists d, dl = Some d /\ d <= clk m)) m g.
      Proof.
        intros F [E1 E2] Hdl H. unfold cond_sleep.
        eapply isafe_seq with (Q := fun x : bool => if x then TA Out rg (Some e) else TS Out rg (Some e)).
        - eapply (act_rule (TS Out rg (Some e))); [apply TS_stable | exact H|]. intros m1 g1 I1 H1. split; [exact I|].
          intros w m2 x E. cbn in E. exists g1. destruct (Z.eqb_spec (cnd m1 i k) pc) as [Ec|]; injection E as <- <-; [|auto using guar_refl].
          destruct H1 as [(B1 & B2 & B3 & B4) A]. destruct (sleep_cond_step pl D m1 g1 t i k e) as [G1 G2]; auto; [congruence|].
          split; [exact G1|]. split; [exact G2|]. split; [exact B1|]. split; [exact B2|]. split; [exact B3 | exact B4].
        - intros q m1 g1 _ H1. destruct q.
          + eapply isafe_seq; [apply (fsleep_ok dl Out rg (Some e) (Some e)); [auto | right; auto | exact H1]|].
            intros x m2 g2 _ [H2 H3]. split; [exact H2|]. intros [= ->]. auto.
          + split; [exact H1 | discriminate].
      Qed.

      Lemma cloop_ok e pc dl m g : lk = LFutex -> EN e pc -> (dl = None -> exists old, k_op C = AWait old) -> TS Out rg (Some e) m g ->
        isafe t (cond_loop i k pc dl) (fun x m g => TS Out rg (Some e) m g /\ (x = true -> exists d, dl = Some d /\ d <= clk m)) m g.
      Proof.
        intros F He Hdl H. unfold cond_loop. apply isafe_loop with (J := fun _ => TS Out rg (Some e)); [exact H|].
        clear m g H. intros u0 m g H. eapply isafe_seq; [apply (csleep_ok e pc dl); auto|].
        intros x m1 g1 _ [H1 H2].
        assert (K : isafe t (c <- pdo (CLoad i k) ;; (if (c : Z) =? pc then Ret (inl tt) else Ret (inr false)))
                      (fun y m g => match y with inl _ => TS Out rg (Some e) m g
                                    | inr b => TS Out rg (Some e) m g /\ (b = true -> exists d, dl = Some d /\ d <= clk m) end) m1 g1).
        { eapply isafe_seq; [apply (cload_ok (TS Out rg (Some e))); [apply TS_stable | exact H1]|]. intros c m3 g3 _ [H3 _].
          destruct (c =? pc); [exact H3 | split; [exact H3 | discriminate]]. }
        destruct x as [[| |]|]; try exact K; split; auto. discriminate.
      Qed.

      Lemma cloop_rel_ok e pc dl m g : lk = LFutex -> EN e pc -> TS Out rg (Some e) m g ->
        isafe t (cond_loop_rel (pl_req pl) i k pc dl) (fun x m g => TS Out rg (Some e) m g /\ (x = true -> dl <= clk m)) m g.
      Proof.
        intros F He H. unfold cond_loop_rel.
        eapply isafe_seq; [apply (now_ok (TS Out rg (Some e))); [apply TS_stable | apply TS_clockless | exact H]|]. intros now m1 g1 _ [H1 ->].
        apply isafe_loop with (J := fun now m g => TS Out rg (Some e) m g /\ now <= clk m); [split; [exact H1 | lia]|].
        clear m g H m1 g1 H1. intros now m g [H Hn]. cbv zeta. destruct (Z.leb_spec (dl - now) 0) as [L|L].
        - split; [exact H|]. intros _. lia.
        - eapply isafe_seq; [apply (now_ok (TS Out rg (Some e))); [apply TS_stable | apply TS_clockless | exact H]|]. intros start m1 g1 _ [H1 _].
          eapply isafe_seq; [apply (csleep_ok e pc (Some (start + pl_req pl start (dl - now)))); auto; discriminate|]. intros u0 m2 g2 _ [H2 _].
          eapply isafe_seq; [apply (now_ok (TS Out rg (Some e))); [apply TS_stable | apply TS_clockless | exact H2]|]. intros now' m3 g3 _ [H3 ->].
          eapply isafe_seq; [apply (cload_ok (TS Out rg (Some e))); [apply TS_stable | exact H3]|]. intros c m4 g4 M4 [H4 _].
          destruct (c =? pc); [split; [exact H4 | apply (o_clk _ _ _ _ M4)] | split; [exact H4 | discriminate]].
      Qed.

      Lemma leave_ok e pc m g : lk = LFutex -> EN e pc -> TS Out rg (Some e) m g ->
        isafe t (futex_leave i k) (fun _ => HF i rg None) m g.
      Proof.
        intros F He H. unfold futex_leave. eapply isafe_seq; [apply (spin_ok 10 i rg (Some e)); auto; eapply EN_lock; eauto|].
        intros u0 m1 g1 _ H1. eapply isafe_seq; [apply (wcget_ok (HF i rg (Some e))); [apply HF_stable | intros m2 g2 H2; apply H2 | exact H1]|].
        intros c m2 g2 _ [H2 Hc].
        eapply (act_rule (fun m g => HF i rg (Some e) m g /\ own m i = Some t /\ wct m i k = c)).
        - apply and_stable; [apply HF_stable | apply wct_stable].
        - split; [exact H2|]. split; [apply H2 | exact Hc].
        - clear m2 g2 H2 Hc m1 g1 H1 m g H. intros m g I1 (H & Ho & Hv). split; [exact Ho|].
          intros w m2 x E. cbn in E. rewrite (guarded_t _ _ _ Ho) in E. injection E as <- <-. subst c.
          destruct H as ((((B1 & B2 & B3 & B4) & A) & _) & Fr).
          eexists. destruct (count_out_step pl D m g t i k e) as [G1 G2]; auto; [apply He|].
          split; [exact G1|]. split; [exact G2|]. split; [|exact Fr]. split; [|exact Ho]. split; [|exact A].
          split; [exact B1|]. split; [exact B2|]. split; [cbn; apply fset_eq | exact B4].
      Qed.

      Lemma oswait_ok dl m g : lk <> LFutex -> (dl = None -> exists old, k_op C = AWait old) -> WH i rg m g ->
        isafe t (os_wait i k dl) (fun x m g => HF i rg None m g /\ (x = TimedOut -> exists d, dl = Some d /\ d <= clk m)) m g.
      Proof.
        intros F Hdl H. unfold os_wait.
        eapply isafe_seq with (Q := fun _ m g => exists e, TA Out rg (Some e) m g).
        - eapply (act_rule (WH i rg)); [apply WH_stable; auto | exact H|]. intros m1 g1 I1 [[[[(B1 & B2 & B3 & B4) A] Ho] _] Hs]. split; [exact Ho|].
          intros w m2 x E. cbn in E. rewrite (guarded_t _ _ _ Ho) in E. injection E as <- <-.
          eexists. destruct (cv_step pl D m1 g1 t i k C) as [G1 G2]; auto.
          { now apply B2. }
          split; [exact G1|]. split; [exact G2|]. eexists. split; [cbn; apply fset_eq|]. split; [exact B2|]. split; [cbn; apply fset_eq | exact B4].
        - intros u0 m1 g1 _ [e H1]. eapply isafe_seq; [apply (fsleep_ok dl Out rg (Some e) None); [right; split; [reflexivity | congruence] | right; auto | exact H1]|].
          intros x m2 g2 _ [H2 H3]. eapply isafe_seq; [apply (oslock_ok i rg None); auto; intros y j l; discriminate|].
          intros u1 m3 g3 M3 H4. split; [exact H4|]. intros ->. destruct (H3 eq_refl) as (d & -> & Hd). exists d. split; auto.
          pose proof (o_clk _ _ _ _ M3) as KM3. lia.
      Qed.
    End Record.

    Definition rgo (ws : option nat) : option (nat * (Z * nat)) :=
      match ws with Some k => Some (lockof a, (d_addr (D a), k)) | None => None end.

    Lemma none_lock i : on_lock i None.
    Proof. intros x j k H. discriminate. Qed.
    Lemma HF_TH i r e m g : HF i r e m g -> TH i r e m g.
    Proof. intros [H _]. exact H. Qed.

    (** releasing the lock for a while *)
    Lemma yield_ok i r m g : TH i r None m g ->
      isafe t (release lk i ;;; pdo Pause ;;; acquire lk i) (fun _ => HF i r None) m g.
    Proof.
      intros H. eapply isafe_seq; [apply (release_ok i r None); exact H|]. intros u0 m1 g1 _ H1.
      eapply isafe_seq; [apply (pause_ok (TS Out r None)); [apply TS_stable | exact H1]|]. intros u1 m2 g2 _ H2.
      apply acquire_ok; [apply none_lock | exact H2].
    Qed.

    Section Pooled.
      Notation i := (lockof a).
      Hypothesis Hk : pooled (D a) = true.
      Hypothesis Hw : waits (k_op C) = true.

      Lemma pwait_ok ws old m g : k_op C = AWait old -> WH i (rgo ws) m g ->
        isafe t (pool_wait pl i ws) (fun _ => HF i (rgo ws) None) m g.
      Proof.
        intros Hc H. unfold pool_wait. destruct ws as [k|]; [|apply yield_ok, HF_TH, H].
        assert (Hos : lk <> LFutex -> isafe t (os_wait i k None ;;; Ret tt) (fun _ => HF i (rgo (Some k)) None) m g).
        { intros N. eapply isafe_seq; [apply (oswait_ok k); eauto|]. intros x m1 g1 _ [H1 _]. exact H1. }
        destruct lk eqn:El; try (apply Hos; congruence).
        eapply isafe_seq; [apply (enter_ok k); eauto|]. intros pc m1 g1 _ (e & He & H1).
        eapply isafe_seq; [apply (cloop_ok k e pc None); eauto|]. intros x m2 g2 _ [H2 _].
        apply (leave_ok k e pc); auto.
      Qed.

      Lemma some_inj (x y : Z) : Some x = Some y -> x = y.
      Proof. now intros [= ->]. Qed.
      Lemma oswait_for_ok req k d m g : lk <> LFutex -> WH i (rgo (Some k)) m g ->
        isafe t (os_wait_for req i k d) (fun x m' g' => HF i (rgo (Some k)) None m' g' /\ (x = true -> (forall n, d <= req n d) -> clk m + d <= clk m')) m g.
      Proof.
        intros N H. unfold os_wait_for.
        eapply isafe_seq; [apply (now_ok (WH i (rgo (Some k)))); [apply WH_stable; auto | intros ? ? ? X; exact X | exact H]|]. intros now m1 g1 M1 [H1 ->].
        eapply isafe_seq; [apply (oswait_ok k); eauto; discriminate|]. intros x m2 g2 M2 [H2 H3]. split; [exact H2|].
        destruct x; try discriminate. intros _ L. destruct (H3 eq_refl) as (d' & E & Hd). pose proof (o_clk _ _ _ _ M1) as K.
        apply some_inj in E. specialize (L (clk m1)). lia.
      Qed.

      Lemma HF_WH r m g : HF i r None m g -> careful (D a) (k_op C) = None -> WH i r m g.
      Proof. intros H N. split; [exact H|]. intros old Ho. congruence. Qed.

      (** releasing the lock keeps what was seen: a timed wait on an OS condition may wait again *)
      Lemma puntil_ok ws dl m g : WH i (rgo ws) m g ->
        isafe t (pool_wait_until pl i ws dl) (fun x m g => HF i (rgo ws) None m g /\ (x = true -> dl <= clk m)) m g.
      Proof.
        intros H. unfold pool_wait_until. destruct ws as [k|].
        - destruct lk eqn:El.
          2: { eapply isafe_seq; [apply (enter_ok k); eauto|]. intros pc m1 g1 _ (e & He & H1).
               eapply isafe_seq with (Q := fun x m g => TS Out (rgo (Some k)) (Some e) m g /\ (x = true -> dl <= clk m)).
               - destruct (pl_bitset pl); [|apply (cloop_rel_ok k e pc); auto].
                 eapply isafe_post; [apply (cloop_ok k e pc (Some dl)); auto; discriminate|].
                 intros x m2 g2 _ [H2 H3]. split; [exact H2|]. intros E. destruct (H3 E) as (d & [= <-] & Hd). exact Hd.
               - intros x m2 g2 _ [H2 H3]. eapply isafe_seq; [apply (leave_ok k e pc); auto|]. intros u0 m3 g3 M3 H4.
                 split; [exact H4|]. intros E. specialize (H3 E). pose proof (o_clk _ _ _ _ M3) as KM3. lia. }
          all: destruct (pl_bitset pl).
          all: try (eapply isafe_seq; [apply (oswait_ok k) with (dl := Some dl); [exact Hk | exact Hw | congruence | discriminate | exact H]|]; intros x m1 g1 _ [H1 H2];
                    split; [exact H1|]; destruct x; try discriminate; intros _; destruct (H2 eq_refl) as (d & [= <-] & Hd); exact Hd).
          all: apply isafe_loop with (J := fun _ m g => WH i (rgo (Some k)) m g \/ HF i (rgo (Some k)) None m g /\ dl <= clk m); [left; exact H|].
          all: clear m g H; intros u0 m g H.
          all: eapply isafe_seq with (Q := fun now m g => HF i (rgo (Some k)) None m g /\ dl <= now /\ dl <= clk m \/ WH i (rgo (Some k)) m g /\ now <= clk m);
            [destruct H as [H|[H Hd]]|].
          all: try (eapply isafe_post; [apply (now_ok (WH i (rgo (Some k)))); [apply WH_stable; auto | intros ? ? ? X; exact X | exact H]|];
                    intros now m1 g1 _ [H1 ->]; right; split; [exact H1 | lia]).
          all: try (eapply isafe_post; [apply (now_ok (HF i (rgo (Some k)) None)); [apply HF_stable | apply HF_clockless | exact H]|];
                    intros now m1 g1 M1 [H1 ->]; left; split; [exact H1|]; pose proof (o_clk _ _ _ _ M1); lia).
          all: intros now m1 g1 _ [(H1 & L1 & L2)|[H1 L1]].
          all: try (destruct (Z.leb_spec dl now); [split; auto | exfalso; lia]; fail).
          all: destruct (Z.leb_spec dl now); [split; [apply H1 | intros _; lia]|].
          all: eapply isafe_seq; [apply (oswait_for_ok (fun _ d => d) k); [congruence | exact H1]|].
          all: intros b m2 g2 _ [H2 H3]; destruct b; [right; split; [exact H2 | specialize (H3 eq_refl (fun _ => Z.le_refl _)); lia] | split; [exact H2 | discriminate]].
        - eapply isafe_seq; [apply (release_ok i None None), HF_TH, H|]. intros u0 m1 g1 _ H1.
          eapply isafe_seq; [apply (pause_ok (TS Out None None)); [apply TS_stable | exact H1]|]. intros u1 m2 g2 _ H2.
          eapply isafe_seq; [apply (acquire_ok i None None); [apply none_lock | exact H2]|]. intros u2 m3 g3 _ H3.
          eapply isafe_seq; [apply (now_ok (HF i None None)); [apply HF_stable | apply HF_clockless | exact H3]|]. intros now m4 g4 _ [H4 ->].
          split; [exact H4|]. intros E. now apply Z.leb_le in E.
      Qed.

      Lemma pfor_ok ws d m g : WH i (rgo ws) m g -> isafe t (pool_wait_for pl i ws d) (fun _ => HF i (rgo ws) None) m g.
      Proof.
        intros H. unfold pool_wait_for. destruct ws as [k|].
        - assert (Hos : lk <> LFutex -> isafe t (os_wait_for (pl_req pl) i k d) (fun _ => HF i (rgo (Some k)) None) m g).
          { intros N. eapply isafe_post; [apply (oswait_for_ok (pl_req pl) k d); auto|]. intros x m1 g1 _ [H1 _]. exact H1. }
          destruct lk eqn:El; try (apply Hos; congruence).
          eapply isafe_seq; [apply (enter_ok k); eauto|]. intros pc m1 g1 _ (e & He & H1).
          eapply isafe_seq; [apply (now_ok (TS Out (rgo (Some k)) (Some e))); [apply TS_stable | apply TS_clockless | exact H1]|]. intros start m2 g2 _ [H2 _].
          eapply isafe_seq; [apply (csleep_ok k e pc (Some (start + pl_req pl start d))); [exact El | exact He | discriminate | exact H2]|]. intros x m3 g3 _ [H3 _].
          eapply isafe_seq; [apply (leave_ok k e pc); auto|]. intros u0 m4 g4 _ H4. exact H4.
        - eapply isafe_seq; [apply (now_ok (HF i None None)); [apply HF_stable | apply HF_clockless | apply H]|]. intros start m1 g1 _ [H1 _].
          eapply isafe_seq; [apply (release_ok i None None), HF_TH, H1|]. intros u0 m2 g2 _ H2.
          eapply isafe_seq; [apply (pause_ok (TS Out None None)); [apply TS_stable | exact H2]|]. intros u1 m3 g3 _ H3.
          eapply isafe_seq; [apply (acquire_ok i None None); [apply none_lock | exact H3]|]. intros u2 m4 g4 _ H4.
          eapply isafe_seq; [apply (now_ok (HF i None None)); [apply HF_stable | apply HF_clockless | exact H4]|]. intros now m5 g5 _ [H5 _]. exact H5.
      Qed.
    End Pooled.

    (** ** Records *)
    Lemma reg_filter (L : list (nat * (Z * nat))) z k : NoDup (map fst L) -> In (t, (z, k)) L ->
      let L' := filter (fun x => negb (Nat.eqb (fst x) t)) L in
      (forall q, (uses q (map snd L) = (if Nat.eqb q k then 1 else 0) + uses q (map snd L'))%nat) /\
      (forall x, In x (map snd L) <-> x = (z, k) \/ In x (map snd L')) /\
      NoDup (map fst L') /\ (forall u x, u <> t -> In (u, x) L' <-> In (u, x) L) /\ (forall x, ~ In (t, x) L').
    Proof.
      cbv zeta. intros N H. split; [|split; [|split; [|split]]].
      - intros q. revert N H. induction L as [|[u [z' k']] L IH]; intros N H; [destruct H|].
        cbn [map fst snd filter] in *. inversion N as [|? ? N1 N2]; subst. rewrite uses_cons.
        destruct (Nat.eqb_spec u t) as [->|Nu]; cbn [negb].
        + destruct H as [[= -> ->]|H]; [|elim N1; now apply (in_map fst) in H].
          assert (E : filter (fun x : nat * (Z * nat) => negb (Nat.eqb (fst x) t)) L = L).
          { clear -N1. induction L as [|[v y] L IH]; [reflexivity|]. cbn in *. destruct (Nat.eqb_spec v t) as [->|]; [elim N1; auto|].
            cbn. f_equal. apply IH. tauto. }
          rewrite E, (Nat.eqb_sym k q). reflexivity.
        + destruct H as [[= -> ? ?]|H]; [congruence|]. cbn [map snd]. rewrite uses_cons, IH; auto. destruct (Nat.eqb k' q), (Nat.eqb q k); lia.
      - intros x. rewrite !in_map_iff. split.
        + intros ([u y] & <- & Hy). cbn. destruct (Nat.eq_dec u t) as [->|Nu].
          * left. eapply fst_unique; eauto.
          * right. exists (u, y). split; auto. apply filter_In. cbn. split; auto. now apply negb_true_iff, Nat.eqb_neq.
        + intros [->|([u y] & <- & Hy)]; [exists (t, (z, k)); auto|]. apply filter_In in Hy. exists (u, y). tauto.
      - now apply nodup_filter_fst.
      - intros u x Nu. rewrite filter_In. cbn. rewrite negb_true_iff, Nat.eqb_neq. tauto.
      - intros x Hx. apply filter_In in Hx. cbn in Hx. rewrite Nat.eqb_refl in Hx. destruct Hx; discriminate.
    Qed.

    Lemma wlbegin_ok m g : HF (lockof a) None None m g ->
      isafe t (pdo (WlBegin (lockof a) (d_addr (D a)))) (fun x => HF (lockof a) (rgo x) None) m g.
    Proof.
      intros H. eapply (act_rule (HF (lockof a) None None)); [apply HF_stable | exact H|]. intros m1 g1 I1 (((A & Aw) & Ho) & Fr).
      split; [exact Ho|]. destruct A as (B1 & B2 & B3 & B4). intros w m2 x E. cbn in E.
      destruct (begin_ok (pl_search pl) (pl_init pl) Hsearch Hinit (wl m1 (lockof a)) (map snd (reg g1 (lockof a))) (d_addr (D a)) (f_buf w) (f_rec w)) as (l & y & E1 & _ & E2).
      { apply I1. }
      rewrite E1, (guarded_t _ _ _ Ho) in E. injection E as <- <-. destruct y as [k|].
      - exists (set_reg g1 (lockof a) ((t, (d_addr (D a), k)) :: reg g1 (lockof a))).
        destruct (wl_step pl D m1 g1 t (lockof a) l ((t, (d_addr (D a), k)) :: reg g1 (lockof a))) as [G1 G2]; auto.
        + cbn. constructor; [|apply I1]. intros Hin. apply in_map_iff in Hin. destruct Hin as ([v y] & Ev & Hin). cbn in Ev. subst v.
          apply B2 in Hin. discriminate.
        + intros u y Nu. cbn. split; [|auto]. intros [[= <- _]|]; [congruence | auto].
        + intros z k' [[= <- <-]|Hin]; [eauto|]. apply B2 in Hin. discriminate.
        + split; [exact G1|]. split; [exact G2|]. split; [|exact Fr]. split; [|exact Ho]. split; [|exact Aw]. split; [exact B1|].
          split; [|split; [exact B3 | exact B4]]. intros j y. cbn. rewrite fset_if. destruct (Nat.eqb_spec j (lockof a)) as [->|N].
          * cbn. rewrite B2. split; [intros [[= <-]|]; [reflexivity | discriminate]|]. intros [= <-]. auto.
          * rewrite B2. split; [discriminate|]. intros [= <- _]. congruence.
      - destruct E2 as [E2 _]. exists (set_reg g1 (lockof a) (reg g1 (lockof a))).
        destruct (wl_step pl D m1 g1 t (lockof a) l (reg g1 (lockof a))) as [G1 G2]; auto.
        + apply I1.
        + tauto.
        + intros z k' Hin. apply B2 in Hin. discriminate.
        + split; [exact G1|]. split; [exact G2|]. split; [|exact Fr]. split; [|exact Ho]. split; [|exact Aw]. split; [exact B1|].
          split; [|split; [exact B3 | exact B4]]. intros j y. cbn. rewrite fset_if. destruct (Nat.eqb_spec j (lockof a)) as [->|N]; apply B2.
    Qed.

    Lemma wlend_ok k m g : TH (lockof a) (rgo (Some k)) None m g ->
      isafe t (pdo (WlEnd (lockof a) k)) (fun x => TH (lockof a) None None) m g.
    Proof.
      intros H. eapply (act_rule (TH (lockof a) (rgo (Some k)) None)); [apply TH_stable | exact H|]. intros m1 g1 I1 ((A & Aw) & Ho).
      split; [exact Ho|]. destruct A as (B1 & B2 & B3 & B4). intros w m2 x E. cbn in E.
      assert (Hin : In (t, (d_addr (D a), k)) (reg g1 (lockof a))) by (now apply B2).
      destruct (reg_filter _ _ _ (i_regn _ _ _ _ I1 (lockof a)) Hin) as (F1 & F2 & F3 & F4 & F5).
      set (L' := filter (fun x => negb (Nat.eqb (fst x) t)) (reg g1 (lockof a))) in *.
      destruct (end_ok (pl_init pl) Hinit (wl m1 (lockof a)) (map snd (reg g1 (lockof a))) (map snd L') (d_addr (D a)) k) as (l & E1 & _ & E2 & _).
      { apply I1. }
      { exact F1. }
      { exact F2. }
      rewrite E1, (guarded_t _ _ _ Ho) in E. injection E as <- <-. exists (set_reg g1 (lockof a) L').
      destruct (wl_step pl D m1 g1 t (lockof a) l L') as [G1 G2]; auto.
      - intros z k' Hz. elim (F5 _ Hz).
      - split; [exact G1|]. split; [exact G2|]. split; [|exact Ho]. split; [|exact Aw]. split; [exact B1|].
        split; [|split; [exact B3 | exact B4]]. intros j y. cbn. rewrite fset_if. destruct (Nat.eqb_spec j (lockof a)) as [->|N].
        + split; [intros Hy; elim (F5 _ Hy) | discriminate].
        + rewrite B2. split; [intros [= <- _]; congruence | discriminate].
    Qed.

    Lemma wlcleanup_ok i m g : TH i None None m g -> isafe t (pdo (WlCleanup i)) (fun x => TH i None None) m g.
    Proof.
      intros H. eapply (act_rule (TH i None None)); [apply TH_stable | exact H|]. intros m1 g1 I1 ((A & Aw) & Ho).
      split; [exact Ho|]. destruct A as (B1 & B2 & B3 & B4). intros w m2 x E. cbn in E.
      destruct (cleanup_ok (pl_init pl) Hinit (wl m1 i) (map snd (reg g1 i))) as (l & E1 & _ & E2 & _).
      { apply I1. }
      rewrite E1, (guarded_t _ _ _ Ho) in E. injection E as <- <-. exists (set_reg g1 i (reg g1 i)).
      destruct (wl_step pl D m1 g1 t i l (reg g1 i)) as [G1 G2]; auto.
      - apply I1.
      - tauto.
      - intros z k' Hz. apply B2 in Hz. discriminate.
      - split; [exact G1|]. split; [exact G2|]. split; [|exact Ho]. split; [|exact Aw]. split; [exact B1|].
        split; [|split; [exact B3 | exact B4]]. intros j y. cbn. rewrite fset_if. destruct (Nat.eqb_spec j i) as [->|N]; apply B2.
    Qed.

    Lemma same_record l act z k z' k' : RecordsProof.linv (pl_init pl) l act -> In (z, k) act -> In (z', k') act -> (z = z' <-> k = k').
    Proof.
      intros H A B. unfold RecordsProof.linv in H. destruct (hdr l) as [h|]; [|destruct H as (_ & _ & ->); destruct A].
      destruct H as (c & slots & spare & P). apply (p_act _ _ _ _ _ _ _ P) in A. apply (p_act _ _ _ _ _ _ _ P) in B. split; intros E.
      - subst z'. eapply fst_slot_unique; eauto. apply P.
      - subst k'. eapply snd_slot_unique; eauto. apply P.
    Qed.
    Lemma addr_inj b c : d_addr (D b) = d_addr (D c) -> b = c.
    Proof.
      intros E. destruct HD as [H1 _]. destruct (H1 b) as (A & _ & _), (H1 c) as (B & _ & _).
      eapply (in_two D) with (z := d_addr (D b)); [exact HD | lia | lia].
    Qed.

    (** ** Notifying *)
    Definition Base (m : pmem) (g : ghost) : Prop := (k_na C <= na g a)%nat /\ (k_cw C <= cw g a)%nat /\ 0 <= k_clk C <= clk m.
    Definition Done (all : bool) (m : pmem) (g : ghost) : Prop :=
      (k_na C + k_cw C < na g a + cw g a)%nat /\ (all = true -> (k_na C < na g a)%nat).
    Lemma Base_mono m g m' g' : mono m g m' g' -> Base m g -> Base m' g'.
    Proof.
      intros M (A & B & E). pose proof (o_na _ _ _ _ M a). pose proof (o_cw _ _ _ _ M a). pose proof (o_clk _ _ _ _ M).
      unfold Base. lia.
    Qed.
    Lemma Done_mono all m g m' g' : mono m g m' g' -> Done all m g -> Done all m' g'.
    Proof.
      intros M (A & B). pose proof (o_na _ _ _ _ M a). pose proof (o_cw _ _ _ _ M a).
      unfold Done. split; [lia|]. intros E. specialize (B E). lia.
    Qed.
    Lemma mono_stable (P : pmem -> ghost -> Prop) : (forall m g m' g', mono m g m' g' -> P m g -> P m' g') -> stable P.
    Proof. intros H m g m' g' R. apply H. apply R. Qed.
    Lemma Done_bumped full all p m g m' : (all = true -> full = true) -> Base m g -> Done all m' (bumped pl D full g t p a m').
    Proof.
      intros Hf (A & B & _). unfold Done, bumped. destruct full; cbn; rewrite fset_eq; split; lia.
    Qed.

    (** what a sleeper of the object sleeps on *)
    Lemma sleeper_fut m g v f c : Inv m g -> In (v, f) (slp m) -> (forall j, f <> FM j) -> cur g v = Some c -> k_obj c = a ->
      (pooled (D a) = true /\ exists k, f = FC (lockof a) k /\ In (d_addr (D a), k) (map snd (reg g (lockof a)))) \/
      (f = FO a /\ d_wait (D a) = WFutex).
    Proof.
      intros I1 Hin Hf Hc Ha. pose proof (i_asleep _ _ _ _ I1 v f Hin) as Hs.
      assert (X : exists e, ent g v = Some e /\ e_fut e = f) by (destruct f; [elim (Hf i eq_refl) | apply Hs | apply Hs]).
      destruct X as (e & He & Ef). destruct (i_ent _ _ _ _ I1 v e He) as (c' & A1 & _ & _ & _ & A5). assert (c' = c) by congruence. subst c'.
      rewrite Ef in A5. rewrite Ha in A5. destruct f as [j|j k|b]; [destruct A5| |].
      - destruct A5 as (B1 & B2 & _). left. split; [exact B1|]. exists k. destruct (i_reg _ _ _ _ I1 _ _ _ _ B2) as (c' & Ec & _ & Ej).
        assert (c' = c) by congruence. subst c'. rewrite Ha in Ej. subst j. split; [reflexivity|]. apply (in_map snd) in B2. exact B2.
      - destruct A5 as [-> Hw]. right. auto.
    Qed.
    Lemma entry_fut m g v e c i k : Inv m g -> ent g v = Some e -> cur g v = Some c -> k_obj c = a -> e_fut e = FC i k ->
      pooled (D a) = true /\ i = lockof a /\ In (d_addr (D a), k) (map snd (reg g (lockof a))).
    Proof.
      intros I1 He Hc Ha Ef. destruct (i_ent _ _ _ _ I1 v e He) as (c' & A1 & _ & _ & _ & A5). assert (c' = c) by congruence. subst c'.
      rewrite Ef, Ha in A5. destruct A5 as (B1 & B2 & _). split; [exact B1|]. destruct (i_reg _ _ _ _ I1 _ _ _ _ B2) as (c' & Ec & _ & Ej).
      assert (c' = c) by congruence. subst c'. rewrite Ha in Ej. subst i. split; [reflexivity|]. apply (in_map snd) in B2. exact B2.
    Qed.
    Lemma two_waiters m g f : Inv m g -> (1 < length (sleepers m f))%nat ->
      (f = FO a \/ exists k, f = FC (lockof a) k /\ In (d_addr (D a), k) (map snd (reg g (lockof a)))) ->
      exists u v, u <> v /\ waits_on g a u /\ waits_on g a v.
    Proof.
      intros I1 L Hf. destruct (sleepers_two m f (i_slp _ _ _ _ I1) L) as (u & v & N & H1 & H2). exists u, v. split; [exact N|].
      assert (X : forall x, In (x, f) (slp m) -> waits_on g a x).
      { intros x Hx. pose proof (i_asleep _ _ _ _ I1 x f Hx) as Hs.
        assert (Y : exists e, ent g x = Some e /\ e_fut e = f) by (destruct Hf as [->|(k & -> & _)]; apply Hs).
        destruct Y as (e & He & Ef). destruct (i_ent _ _ _ _ I1 x e He) as (c & A1 & A2 & _ & _ & A5). exists c. split; [exact A1|].
        split; [|exact A2]. rewrite Ef in A5. destruct Hf as [->|(k & -> & Hk)]; [symmetry; apply A5|]. destruct A5 as (_ & B2 & _).
        apply (in_map snd) in B2. apply addr_inj. eapply (same_record _ _ _ _ _ _ (i_recs _ _ _ _ I1 (lockof a))); eauto. }
      auto.
    Qed.

    Notation ia := (lockof a).
    Definition Found k (m : pmem) (g : ghost) : Prop := own m ia = Some t /\ In (d_addr (D a), k) (map snd (reg g ia)).
    Lemma Found_stable k : stable (Found k).
    Proof.
      intros m g m' g' R [A B]. split; [apply (r_own _ _ _ _ _ _ _ R _ A)|]. rewrite (r_regs _ _ _ _ _ _ _ R _ A). exact B.
    Qed.
    Definition AllOld k (m : pmem) (g : ghost) : Prop :=
      own m ia = Some t /\ forall v e, ent g v = Some e -> e_fut e = FC ia k -> e_n0 e < ntf m ia k.
    Lemma AllOld_stable k : stable (AllOld k).
    Proof.
      intros m g m' g' R [A B]. split; [apply (r_own _ _ _ _ _ _ _ R _ A)|]. intros v e Hv Hf.
      destruct (r_cnd _ _ _ _ _ _ _ R ia k A) as (_ & _ & ->). apply (B v e); auto. eapply (r_ents _ _ _ _ _ _ _ R); eauto.
    Qed.

    Lemma TH_bumped full p q r m g m' : asleep m' t = false -> TS p r None m g -> TS q r None m' (bumped pl D full g t q a m').
    Proof.
      intros Ha ((A & B & E & F) & _). split; [|exact Ha]. unfold bumped. destruct full; (split; [cbn; apply fset_eq|]); (split; [exact B|]); (split; [exact E | exact F]).
    Qed.
    Definition few m f : bool := Nat.leb (length (sleepers m f)) 1.

    Lemma wlfind_ok all m g : pooled (D a) = true -> TH ia None None m g -> Base m g ->
      isafe t (pdo (WlFind ia (d_addr (D a))))
        (fun x m g => TH ia None None m g /\ match x with None => Done all m g | Some k => Base m g /\ Found k m g end) m g.
    Proof.
      intros Hk H HB. eapply (act_rule (fun m g => TH ia None None m g /\ Base m g)).
      - apply and_stable; [apply TH_stable | apply mono_stable, Base_mono].
      - auto.
      - clear m g H HB. intros m g I1 [[H Ho] HB]. split; [exact Ho|]. intros w m2 x E. cbn in E.
        destruct (linv_find (pl_search pl) (pl_init pl) Hsearch Hinit _ _ (d_addr (D a)) (i_recs _ _ _ _ I1 ia)) as (r & E1 & E2).
        rewrite E1, (guarded_t _ _ _ Ho) in E. injection E as <- <-. destruct r as [k|].
        + exists g. split; [apply guar_refl|]. split; [exact I1|]. split; [split; auto|]. split; [exact HB|]. split; [exact Ho|]. now apply E2.
        + exists (bumped pl D true g t (Hold ia) a m).
          assert (Hl : lph g t = Hold ia) by apply H.
          destruct (notify_step pl D m g t (Hold ia) a true m) as [G1 G2]; try reflexivity; auto.
          * apply I1.
          * intros _ v f c Hin Hf Hc Ha. destruct (sleeper_fut _ _ _ _ _ I1 Hin Hf Hc Ha) as [(_ & k & _ & X)|(_ & X)].
            -- apply E2 in X. discriminate.
            -- unfold pooled in Hk. rewrite X in Hk. discriminate.
          * intros _ F v e c i k He Hc Ha Ef. destruct (entry_fut _ _ _ _ _ _ _ I1 He Hc Ha Ef) as (_ & _ & X). apply E2 in X. discriminate.
          * discriminate.
          * split; [exact G1|]. split; [exact G2|]. split; [split; [eapply TH_bumped; [apply H | exact H] | exact Ho]|]. apply Done_bumped with (m := m); auto.
    Qed.

    (** one or all sleepers of a condition leave it, for nothing or for the mutex *)
    Lemma gone_all f v (l : list (nat * fut)) : ~ In (v, f) (filter (fun p => negb (on f p)) l).
    Proof. intros H. apply filter_In in H. destruct H as [_ H]. apply negb_true_iff in H. assert (on f (v, f) = true) by (now apply on_eq). congruence. Qed.

    Lemma fwake_ok all m g f p :
      (f = FO a /\ d_wait (D a) = WFutex /\ p = Out) \/ (exists k, f = FC ia k /\ p = Hold ia /\ lk <> LFutex /\ pooled (D a) = true /\ Found k m g) ->
      TS p None None m g -> Base m g ->
      isafe t (pdo (FWake f all)) (fun _ m g => TS p None None m g /\ Done all m g /\ (p = Hold ia -> own m ia = Some t)) m g.
    Proof.
      intros Hf H HB.
      eapply (act_rule (fun m g => TS p None None m g /\ Base m g /\
        ((f = FO a /\ d_wait (D a) = WFutex /\ p = Out) \/ (exists k, f = FC ia k /\ p = Hold ia /\ lk <> LFutex /\ pooled (D a) = true /\ Found k m g)))).
      - apply and_stable; [apply TS_stable|]. apply and_stable; [apply mono_stable, Base_mono|].
        intros m1 g1 m2 g2 R [X|(k & X1 & X2 & X3 & X4 & X5)]; [left; exact X|]. right. exists k. repeat (split; [assumption|]).
        eapply Found_stable; eauto.
      - auto.
      - clear m g H HB Hf. intros m g I1 (H & HB & Hf). split; [exact I|]. intros w m2 x E.
        set (full := all || few m f).
        assert (Hfm : forall j, f <> FM j) by (intros j; destruct Hf as [(-> & _)|(k & -> & _)]; discriminate).
        (* no thread wakes by itself *)
        assert (R : exists m', m2 = m' /\ (m' = m \/ exists l, m' = set_slp m l) /\ NoDup (map fst (slp m')) /\
          (forall v h, In (v, h) (slp m') -> In (v, h) (slp m)) /\ (full = true -> forall v, ~ In (v, f) (slp m'))).
        { exists m2. split; [reflexivity|]. cbn in E. destruct all.
          - injection E as <- <-. split; [right; eauto|]. cbn. split; [apply nodup_filter_fst, I1|].
            split; [intros v h Hv; apply filter_In in Hv; tauto | intros _ v; apply gone_all].
          - destruct (picked m f (f_pick w)) as [u|] eqn:Ep; injection E as <- <-.
            + split; [right; eauto|]. cbn. split; [apply nodup_filter_fst, I1|]. split; [intros v h Hv; apply rouse_in in Hv; tauto|].
              intros Hfu v Hv. apply rouse_in in Hv. destruct Hv as [Nv Hv]. apply Nv. unfold full, few in Hfu. cbn in Hfu.
              apply Nat.leb_le in Hfu. eapply picked_sole; eauto.
            + split; [left; reflexivity|]. split; [apply I1|]. split; [auto|]. intros _ v. eapply picked_none; eauto. }
        destruct R as (m' & -> & Hm' & Hnd & Hsub & Hgone). clear E.
        assert (Ha : asleep m' t = false).
        { apply awake_in. intros h Hh. apply Hsub in Hh. elim (proj1 (awake_in m t) (proj2 H) h Hh). }
        assert (Hl : lph g t = p) by apply H.
        exists (bumped pl D full g t p a m').
        destruct (notify_step pl D m g t p a full m') as [G1 G2]; try (destruct Hm' as [->|(l & ->)]; reflexivity); auto.
        + intros Hk. destruct Hf as [(_ & X & _)|(k & _ & _ & _ & _ & X)]; [|apply X]. unfold pooled in Hk. rewrite X in Hk. discriminate.
        + intros Hfu v h c Hin Hh Hc Ha'. assert (h = f); [|subst h; elim (Hgone Hfu v Hin)].
          apply Hsub in Hin. destruct (sleeper_fut _ _ _ _ _ I1 Hin Hh Hc Ha') as [(Hk & k & -> & X)|(-> & X)].
          * destruct Hf as [(_ & Y & _)|(k' & -> & _ & _ & _ & Y)]; [unfold pooled in Hk; rewrite Y in Hk; discriminate|].
            f_equal. apply (same_record _ _ _ _ _ _ (i_recs _ _ _ _ I1 ia) X (proj2 Y)). reflexivity.
          * destruct Hf as [(-> & _)|(k' & -> & _ & _ & Y & _)]; [reflexivity|]. unfold pooled in Y. rewrite X in Y. discriminate.
        + intros Hfu F v e c i k He Hc Ha' Ef. destruct (entry_fut _ _ _ _ _ _ _ I1 He Hc Ha' Ef) as (Hk & _).
          destruct Hf as [(_ & Y & _)|(k' & _ & _ & Y & _)]; [unfold pooled in Hk; rewrite Y in Hk; discriminate | congruence].
        + intros Hfu. apply two_waiters with (m := m) (f := f); auto.
          * unfold full, few in Hfu. apply orb_false_iff in Hfu. destruct Hfu as [_ Hfu]. apply Nat.leb_gt in Hfu. exact Hfu.
          * destruct Hf as [(-> & _)|(k & -> & _ & _ & _ & Y)]; [left; reflexivity | right; exists k; split; [reflexivity | apply Y]].
        + split; [exact G1|]. split; [exact G2|]. split; [eapply TH_bumped; [exact Ha | exact H]|].
          split; [apply Done_bumped with (m := m); auto; intros ->; reflexivity|].
          intros Ep. apply (i_own _ _ _ _ G2). left. rewrite <- Ep. unfold bumped. destruct full; cbn; apply fset_eq.
    Qed.

    Lemma cadd_ok k m g : lk = LFutex -> TH ia None None m g -> Base m g -> Found k m g ->
      isafe t (pdo (CAdd ia k)) (fun _ m g => TH ia None None m g /\ Base m g /\ Found k m g /\ AllOld k m g) m g.
    Proof.
      intros F H HB HF0. eapply (act_rule (fun m g => TH ia None None m g /\ Base m g /\ Found k m g)).
      - apply and_stable; [apply TH_stable|]. apply and_stable; [apply mono_stable, Base_mono | apply Found_stable].
      - auto.
      - clear m g H HB HF0. intros m g I1 ([H Ho] & HB & HF0). split; [exact I|]. intros w m2 x [= <- <-]. exists g.
        destruct (cadd_step pl D m g t ia k I1 Ho) as [G1 G2]. split; [exact G1|]. split; [exact G2|]. split; [split; [exact H | exact Ho]|].
        split; [exact HB|]. split; [exact HF0|]. split; [exact Ho|]. intros v e Hv Ef.
        destruct (i_ent _ _ _ _ I1 v e Hv) as (c & _ & _ & _ & _ & A5). rewrite Ef in A5. destruct A5 as (_ & _ & B). specialize (B F).
        cbn. unfold fset2. rewrite fset_eq, fset_eq. lia.
    Qed.

    Lemma count_ok all k m g : lk = LFutex -> pooled (D a) = true -> TH ia None None m g -> Base m g -> Found k m g -> AllOld k m g ->
      isafe t (pdo (WcGet ia k)) (fun x m g => TH ia None None m g /\
         if 0 <? x then Base m g /\ Found k m g /\ AllOld k m g else Done all m g) m g.
    Proof.
      intros F Hk H HB HF0 HA. eapply (act_rule (fun m g => TH ia None None m g /\ Base m g /\ Found k m g /\ AllOld k m g)).
      - apply and_stable; [apply TH_stable|]. apply and_stable; [apply mono_stable, Base_mono|]. apply and_stable; [apply Found_stable | apply AllOld_stable].
      - auto.
      - clear m g H HB HF0 HA. intros m g I1 ([H Ho] & HB & HF0 & HA). split; [exact Ho|]. intros w m2 x E. cbn in E.
        rewrite (guarded_t _ _ _ Ho) in E. injection E as <- <-. destruct (Z.ltb_spec 0 (wct m ia k)) as [L|L].
        + exists g. split; [apply guar_refl|]. split; [exact I1|]. split; [split; auto | auto].
        + destruct (i_wct _ _ _ _ I1 F ia k) as (W1 & _ & W3).
          assert (N : forall v e, ent g v = Some e -> e_fut e <> FC ia k).
          { intros v e He Ef. assert (Hin : In v (wcl g ia k)) by (apply W3; eauto). destruct (wcl g ia k); [destruct Hin | cbn in W1; lia]. }
          exists (bumped pl D true g t (Hold ia) a m).
          assert (Hl : lph g t = Hold ia) by apply H.
          destruct (notify_step pl D m g t (Hold ia) a true m) as [G1 G2]; try reflexivity; auto.
          * apply I1.
          * intros _ v f c Hin Hf Hc Ha. destruct (sleeper_fut _ _ _ _ _ I1 Hin Hf Hc Ha) as [(_ & k' & -> & X)|(_ & X)].
            -- assert (k' = k) by (apply (same_record _ _ _ _ _ _ (i_recs _ _ _ _ I1 ia) X (proj2 HF0)); reflexivity). subst k'.
               destruct (i_asleep _ _ _ _ I1 _ _ Hin) as (_ & e & He & Ef). elim (N v e He Ef).
            -- unfold pooled in Hk. rewrite X in Hk. discriminate.
          * intros _ _ v e c i k' He Hc Ha Ef. destruct (entry_fut _ _ _ _ _ _ _ I1 He Hc Ha Ef) as (_ & -> & X).
            assert (k' = k) by (apply (same_record _ _ _ _ _ _ (i_recs _ _ _ _ I1 ia) X (proj2 HF0)); reflexivity). subst k'. elim (N v e He Ef).
          * discriminate.
          * split; [exact G1|]. split; [exact G2|]. split; [split; [eapply TH_bumped; [apply H | exact H] | exact Ho]|].
            apply Done_bumped with (m := m); auto.
    Qed.

    Lemma requeue_ok all k m g : lk = LFutex -> pooled (D a) = true -> TH ia None None m g -> Base m g -> Found k m g -> AllOld k m g ->
      isafe t (pdo (FRequeue ia k all)) (fun _ m g => TS (HoldN ia) None None m g /\ Done all m g) m g.
    Proof.
      intros F Hk H HB HF0 HA. eapply (act_rule (fun m g => TH ia None None m g /\ Base m g /\ Found k m g /\ AllOld k m g)).
      - apply and_stable; [apply TH_stable|]. apply and_stable; [apply mono_stable, Base_mono|]. apply and_stable; [apply Found_stable | apply AllOld_stable].
      - auto.
      - clear m g H HB HF0 HA. intros m g I1 ([H Ho] & HB & HF0 & HA). split; [exact I|]. intros w m2 x E.
        set (full := all || few m (FC ia k)).
        assert (R : exists m', m2 = m' /\ (m' = m \/ exists l, m' = set_slp m l) /\ NoDup (map fst (slp m')) /\
          (forall v h, In (v, h) (slp m') -> In (v, h) (slp m) \/ h = FM ia /\ In (v, FC ia k) (slp m)) /\
          (full = true -> forall v, ~ In (v, FC ia k) (slp m'))).
        { exists m2. split; [reflexivity|]. cbn in E. destruct all.
          - injection E as <- <-. split; [right; eauto|]. cbn. split; [|split].
            + rewrite map_map. rewrite (map_ext _ fst); [apply I1|]. intros [v h]. now destruct (on (FC ia k) (v, h)).
            + intros v h Hv. apply in_map_iff in Hv. destruct Hv as ([v' h'] & Ev & Hv). destruct (on (FC ia k) (v', h')) eqn:Eo.
              * apply on_eq in Eo. cbn in Eo, Ev. injection Ev as <- <-. subst h'. auto.
              * injection Ev as <- <-. auto.
            + intros _ v Hv. apply in_map_iff in Hv. destruct Hv as ([v' h'] & Ev & Hv). destruct (on (FC ia k) (v', h')) eqn:Eo; [discriminate|].
              injection Ev as -> ->. assert (on (FC ia k) (v, FC ia k) = true) by (now apply on_eq). congruence.
          - destruct (picked m (FC ia k) (f_pick w)) as [u|] eqn:Ep; injection E as <- <-.
            + pose proof (picked_some _ _ _ _ Ep) as Hu. split; [right; eauto|]. cbn. split; [|split].
              * constructor; [|apply nodup_filter_fst, I1]. intros Hin. apply in_map_iff in Hin. destruct Hin as ([v h] & Ev & Hin).
                cbn in Ev. subst v. apply rouse_in in Hin. tauto.
              * intros v h [[= <- <-]|Hv]; [right; auto|]. apply rouse_in in Hv. left. tauto.
              * intros Hfu v [Hv|Hv]; [discriminate|]. apply rouse_in in Hv. destruct Hv as [Nv Hv]. apply Nv. unfold full, few in Hfu. cbn in Hfu.
                apply Nat.leb_le in Hfu. eapply picked_sole; eauto.
            + split; [left; reflexivity|]. split; [apply I1|]. split; [auto|]. intros _ v. eapply picked_none; eauto. }
        destruct R as (m' & -> & Hm' & Hnd & Hsub & Hgone). clear E.
        assert (Ha : asleep m' t = false).
        { apply awake_in. intros h Hh. destruct (Hsub _ _ Hh) as [X|[_ X]]; elim (proj1 (awake_in m t) (proj2 H) _ X). }
        assert (Hl : lph g t = Hold ia) by apply H.
        exists (bumped pl D full g t (HoldN ia) a m').
        destruct (notify_step pl D m g t (HoldN ia) a full m') as [G1 G2]; try (destruct Hm' as [->|(l & ->)]; reflexivity); auto.
        + intros v f Hin. destruct (Hsub _ _ Hin) as [X|[-> X]]; [left; exact X|]. right. exists k. split; [exact F|]. split; [reflexivity|].
          split; [reflexivity|]. split; [exact X|]. intros e He Ef. eapply (proj2 HA); eauto.
        + intros Hfu v h c Hin Hh Hc Ha'. assert (h = FC ia k); [|subst h; elim (Hgone Hfu v Hin)].
          destruct (Hsub _ _ Hin) as [Hin'|[-> _]]; [|elim (Hh _ eq_refl)].
          destruct (sleeper_fut _ _ _ _ _ I1 Hin' Hh Hc Ha') as [(_ & k' & -> & X)|(-> & X)].
          * f_equal. apply (same_record _ _ _ _ _ _ (i_recs _ _ _ _ I1 ia) X (proj2 HF0)). reflexivity.
          * unfold pooled in Hk. rewrite X in Hk. discriminate.
        + intros Hfu _ v e c i k' He Hc Ha' Ef. destruct (entry_fut _ _ _ _ _ _ _ I1 He Hc Ha' Ef) as (_ & -> & X).
          assert (k' = k) by (apply (same_record _ _ _ _ _ _ (i_recs _ _ _ _ I1 ia) X (proj2 HF0)); reflexivity). subst k'.
          eapply (proj2 HA); eauto.
        + intros Hfu. apply two_waiters with (m := m) (f := FC ia k); auto.
          * unfold full, few in Hfu. apply orb_false_iff in Hfu. destruct Hfu as [_ Hfu]. apply Nat.leb_gt in Hfu. exact Hfu.
          * right. exists k. split; [reflexivity | apply HF0].
        + split; [exact G1|]. split; [exact G2|]. split; [eapply TH_bumped; [exact Ha | exact H]|]. apply Done_bumped with (m := m); auto.
          intros ->. reflexivity.
    Qed.

    Lemma mor_ok (P : pmem -> ghost -> Prop) m g : lk = LFutex -> (forall m g m' g', mono m g m' g' -> P m g -> P m' g') ->
      TS (HoldN ia) None None m g -> P m g ->
      isafe t (pdo (MOr ia contended Relaxed)) (fun _ m g => TH ia None None m g /\ P m g) m g.
    Proof.
      intros F HP H H0. eapply (act_rule (fun m g => TS (HoldN ia) None None m g /\ P m g)).
      - apply and_stable; [apply TS_stable | now apply mono_stable].
      - auto.
      - clear m g H H0. intros m g I1 [H H0]. split; [exact I|]. intros w m2 x [= <- <-].
        assert (Hl : lph g t = HoldN ia) by apply H.
        assert (Ho : own m ia = Some t) by (apply (i_own _ _ _ _ I1); auto).
        destruct (i_word _ _ _ _ I1 F ia) as [b Eb]. rewrite Ho in Eb. exists (set_lph g t (Hold ia)).
        destruct (mark_step pl D m g t ia true (Hold ia) (set_mx m ia (Z.lor (mx m ia) contended) (own m ia) (unl m ia))) as [G1 G2]; try reflexivity; auto.
        + intros j. cbn. rewrite fset_if. destruct (Nat.eqb_spec j ia) as [->|]; auto.
        + intros j. cbn. rewrite fset_if. destruct (Nat.eqb_spec j ia) as [->|]; auto. rewrite Ho. rewrite Eb at 1. apply mword_contend.
        + intros j. cbn. rewrite fset_if. destruct (Nat.eqb_spec j ia) as [->|]; auto.
        + split; [exact G1|]. split; [exact G2|]. split.
          * split; [eapply TS_lph; [apply H | exact H]|]. cbn. rewrite fset_eq. exact Ho.
          * eapply HP; [|exact H0]. apply G1.
    Qed.

    Lemma pnotify_ok all m g : pooled (D a) = true -> TH ia None None m g -> Base m g ->
      isafe t (pool_notify pl ia (d_addr (D a)) all) (fun _ m g => TH ia None None m g /\ Done all m g) m g.
    Proof.
      intros Hk H HB. unfold pool_notify. eapply isafe_seq; [apply (wlfind_ok all); auto|]. intros ws m1 g1 _ [H1 H2].
      destruct ws as [k|]; [|split; auto]. destruct H2 as [HB1 HF1].
      assert (Hos : lk <> LFutex -> isafe t (pdo (FWake (FC ia k) all) ;;; Ret tt) (fun _ m g => TH ia None None m g /\ Done all m g) m1 g1).
      { intros N. eapply isafe_seq.
        - apply (fwake_ok all m1 g1 (FC ia k) (Hold ia)); [|apply H1|exact HB1]. right. exists k. repeat (split; [auto; fail|]). exact HF1.
        - intros u0 m2 g2 _ (H2 & H3 & H4). split; [split; auto | exact H3]. }
      destruct lk eqn:El; try (apply Hos; congruence).
      eapply isafe_seq; [apply (cadd_ok k); auto|]. intros u0 m2 g2 _ (H2 & HB2 & HF2 & HA2).
      eapply isafe_seq; [apply (count_ok all k); auto|]. intros c m3 g3 _ [H3 H4]. cbn beta in H4. destruct (0 <? c); [|split; auto].
      destruct H4 as (HB3 & HF3 & HA3). eapply isafe_seq; [apply (requeue_ok all k); auto|]. intros u1 m4 g4 _ [H4 H5].
      apply (mor_ok (Done all)); auto. apply Done_mono.
    Qed.

    (** ** Accessing the object *)
    Lemma rd_from_ok (P : pmem -> ghost -> Prop) : stable P -> (forall m g, P m g -> own m ia = Some t) -> d_locked (D a) = true ->
      forall n z m g, d_addr (D a) <= z -> z + Z.of_nat n <= d_addr (D a) + Z.of_nat (d_size (D a)) -> P m g ->
      isafe t (rd_from pl (D a) z n) (fun l m g => P m g /\ l = bytes_at (byt m) z n) m g.
    Proof.
      intros HP Ho Hd n. revert P HP Ho. induction n as [|n IH]; intros P HP Ho z m g Hz1 Hz2 H; cbn [rd_from].
      - split; [exact H | reflexivity].
      - eapply isafe_seq with (Q := fun b m g => P m g /\ byt m z = b).
        + eapply idle_rule; [exact HP | exact H|]. intros m1 g1 _ H1. specialize (Ho _ _ H1). split; [exact Ho|].
          intros w m2 x E. cbn in E. rewrite (guarded_t _ _ _ Ho) in E. injection E as <- <-. auto.
        + intros b m1 g1 _ H1. eapply isafe_seq; [apply (IH (fun m g => P m g /\ byt m z = b)); [| | | |exact H1]|]; try lia.
          * intros m2 g2 m3 g3 R [X Y]. split; [eapply HP; eauto|]. rewrite <- Y. eapply (r_byt _ _ _ _ _ _ _ R); eauto. lia.
          * intros m2 g2 [X _]. eauto.
          * intros l m2 g2 _ [[H2 Eb] El]. split; [exact H2|]. subst b l. unfold bytes_at. cbn [seq map].
            f_equal; [f_equal; cbn; lia|]. rewrite <- seq_shift, map_map. apply map_ext. intros j. f_equal. lia.
    Qed.
    Lemma rd_ok (P : pmem -> ghost -> Prop) m g : stable P -> (forall m g, P m g -> own m ia = Some t) -> d_locked (D a) = true -> P m g ->
      isafe t (rd pl (D a)) (fun v m g => P m g /\ v = word_at m a) m g.
    Proof.
      intros HP Ho Hd H. unfold rd. eapply isafe_seq; [apply (rd_from_ok P HP Ho Hd); [lia | lia | exact H]|].
      intros l m1 g1 _ [H1 ->]. split; [exact H1|]. unfold SleepInv.word_at. now rewrite Hd.
    Qed.
    Lemma rd_seen r m g : d_locked (D a) = true -> HF ia r None m g ->
      isafe t (rd pl (D a)) (fun v m g => HF ia r None m g /\ seen g a v (na g a)) m g.
    Proof.
      intros Hd H. eapply isafe_post; [apply (rd_ok (HF ia r None)); [apply HF_stable | intros ? ? X; apply X | exact Hd | exact H]|].
      intros v m1 g1 _ [H1 ->]. split; [exact H1|]. now apply (proj2 H1).
    Qed.
    Lemma rd_th r m g : d_locked (D a) = true -> TH ia r None m g -> isafe t (rd pl (D a)) (fun _ => TH ia r None) m g.
    Proof.
      intros Hd H. eapply isafe_post; [apply (rd_ok (TH ia r None)); [apply TH_stable | intros ? ? X; apply X | exact Hd | exact H]|].
      intros v m1 g1 _ [H1 _]. exact H1.
    Qed.
    Lemma wr_from_ok r : d_locked (D a) = true -> forall l z m g, d_addr (D a) <= z ->
      z + Z.of_nat (length l) <= d_addr (D a) + Z.of_nat (d_size (D a)) -> TH ia r None m g ->
      isafe t (wr_from pl (D a) z l) (fun _ => TH ia r None) m g.
    Proof.
      intros Hd l. induction l as [|b l IH]; intros z m g Hz1 Hz2 H; cbn [wr_from length] in *; [exact H|].
      eapply isafe_seq with (Q := fun _ => TH ia r None).
      - eapply (act_rule (TH ia r None)); [apply TH_stable | exact H|]. intros m1 g1 I1 [H1 Ho]. split; [exact Ho|].
        intros w m2 x E. cbn in E. rewrite (guarded_t _ _ _ Ho) in E. injection E as <- <-. exists g1.
        destruct (bwr_step pl D m1 g1 t a z b) as [G1 G2]; auto; [lia|]. split; [exact G1|]. split; [exact G2|]. split; [exact H1 | exact Ho].
      - intros u0 m1 g1 _ H1. apply IH; [lia | lia | exact H1].
    Qed.
    Lemma wr_ok r v m g : d_locked (D a) = true -> TH ia r None m g -> isafe t (wr pl (D a) v) (fun _ => TH ia r None) m g.
    Proof.
      intros Hd H. unfold wr. apply wr_from_ok; auto; [lia|]. unfold bytes. destruct (d_be (D a)); [rewrite rev_length|]; rewrite digits_length; lia.
    Qed.

    Lemma cell_ok (P : pmem -> ghost -> Prop) b wd o m g : stable P -> (forall m g v, P m g -> P (set_cel m b v) (noted pl D g (set_cel m b v))) -> P m g ->
      isafe t (pdo (ACell b wd o)) (fun _ => P) m g.
    Proof.
      intros HP Hc H. eapply act_rule; [exact HP | exact H|]. intros m1 g1 I1 H1. split; [exact I|]. intros w m2 x [= <- <-].
      eexists. destruct (cell_step_ok pl D m1 g1 t b (fst (cell_step wd (cel m1 b) o (f_lucky w)))) as [G1 G2]; auto.
      split; [exact G1|]. split; [exact G2|]. now apply Hc.
    Qed.
    Lemma upd_ok (P : pmem -> ghost -> Prop) b f h m g : stable P -> (forall m g v, P m g -> P (set_cel m b v) (noted pl D g (set_cel m b v))) -> P m g ->
      isafe t (pdo (ACellUpd b f h)) (fun _ => P) m g.
    Proof.
      intros HP Hc H. eapply act_rule; [exact HP | exact H|]. intros m1 g1 I1 H1. split; [exact I|]. intros w m2 x [= <- <-].
      eexists. destruct (cell_step_ok pl D m1 g1 t b (h (cel m1 b))) as [G1 G2]; auto.
      split; [exact G1|]. split; [exact G2|]. now apply Hc.
    Qed.
    Lemma TS_cell p r e b m g v : TS p r e m g -> TS p r e (set_cel m b v) (noted pl D g (set_cel m b v)).
    Proof. intros H. exact H. Qed.
    Lemma HF_cell i r e b m g v : HF i r e m g -> HF i r e (set_cel m b v) (noted pl D g (set_cel m b v)).
    Proof.
      intros [H F]. split; [exact H|]. intros c Hd Hl. left. unfold SleepInv.word_at. rewrite Hd. specialize (F c Hd Hl).
      unfold SleepInv.word_at in F. rewrite Hd in F. exact F.
    Qed.
    Lemma ld_ok (P : pmem -> ghost -> Prop) m g : d_locked (D a) = false -> stable P ->
      (forall m g v, P m g -> P (set_cel m a v) (noted pl D g (set_cel m a v))) -> P m g ->
      isafe t (ld (D a) a) (fun v m g => P m g /\ seen g a v (na g a) /\ v = cel m a) m g.
    Proof.
      intros Hd HP Hc H. unfold ld.
      eapply isafe_seq with (Q := fun x m g => P m g /\ exists v, x = RVal v /\ seen g a v (na g a) /\ v = cel m a).
      - eapply act_rule; [exact HP | exact H|]. intros m1 g1 I1 H1. split; [exact I|]. intros w m2 x [= <- <-].
        eexists. destruct (cell_step_ok pl D m1 g1 t a (cel m1 a)) as [G1 G2]; auto.
        split; [exact G1|]. split; [exact G2|]. split; [now apply Hc|]. exists (cel m1 a). split; [reflexivity|].
        assert (Ec : cel (set_cel m1 a (cel m1 a)) a = cel m1 a) by (cbn; apply fset_eq).
        split; [|symmetry; exact Ec]. right. split; [intros X; congruence|]. split; [|reflexivity]. unfold SleepInv.word_at. now rewrite Hd.
      - intros x m1 g1 _ (H1 & v & -> & H2). split; [exact H1 | exact H2].
    Qed.
    Lemma ld_seen r m g : d_locked (D a) = false -> HF ia r None m g ->
      isafe t (ld (D a) a) (fun v m g => HF ia r None m g /\ seen g a v (na g a)) m g.
    Proof.
      intros Hd H. eapply isafe_post; [apply (ld_ok (HF ia r None)); [exact Hd | apply HF_stable | intros; now apply HF_cell | exact H]|].
      intros v m1 g1 _ (H1 & H2 & _). auto.
    Qed.
    Lemma ld_ts p r e m g : d_locked (D a) = false -> TS p r e m g -> isafe t (ld (D a) a) (fun v => TS p r e) m g.
    Proof.
      intros Hd H. eapply isafe_post; [apply (ld_ok (TS p r e)); [exact Hd | apply TS_stable | intros; now apply TS_cell | exact H]|].
      intros v m1 g1 _ (H1 & _). exact H1.
    Qed.

    (** ** Calls *)
    Ltac rdwr := match goal with
      | |- SleepLogic.isafe _ _ _ _ _ _ (bind (rd _ _) _) _ _ _ =>
          eapply isafe_seq; [apply rd_th; eassumption|]; let H := fresh "H" in intros ? ? ? _ H; cbn beta in H
      | |- SleepLogic.isafe _ _ _ _ _ _ (bind (wr _ _ _) _) _ _ _ =>
          eapply isafe_seq; [apply wr_ok; eassumption|]; let H := fresh "H" in intros ? ? ? _ H; cbn beta in H
      | |- SleepLogic.isafe _ _ _ _ _ _ (if ?b then _ else _) _ _ _ => destruct b
      | |- SleepLogic.isafe _ _ _ _ _ _ (Ret _) _ _ _ => assumption
      end.
    Lemma emu_body_ok o m g : d_locked (D a) = true -> TH ia None None m g -> isafe t (emu_body pl (D a) o) (fun _ => TH ia None None) m g.
    Proof. intros Hd H. destruct o as [v| |v|e v|e v|f [b v|u]|kd b]; try destruct f; cbn [emu_body]; cbv zeta; repeat rdwr. Qed.
    Lemma emu_upd_ok f h m g : d_locked (D a) = true -> TH ia None None m g -> isafe t (emu_upd pl (D a) f h) (fun _ => TH ia None None) m g.
    Proof. intros Hd H. unfold emu_upd. repeat rdwr. Qed.

    Lemma scoped_ok R (body : pprog R) (P : R -> pmem -> ghost -> Prop) m g :
      (forall r m g m' g', mono m g m' g' -> P r m g -> P r m' g') ->
      (forall m1 g1, mono m g m1 g1 -> HF ia None None m1 g1 -> isafe t body (fun r m g => TH ia None None m g /\ P r m g) m1 g1) ->
      TS Out None None m g ->
      isafe t (scoped pl (D a) body) (fun r m g => TS Out None None m g /\ P r m g) m g.
    Proof.
      intros HP Hb H. unfold scoped. eapply isafe_seq; [apply (acquire_ok ia None None); [apply none_lock | exact H]|]. intros u0 m1 g1 M1 H1.
      eapply isafe_seq; [apply Hb; auto|]. intros r m2 g2 _ [H2 H3].
      eapply isafe_seq; [apply (release_ok ia None None); exact H2|]. intros u1 m3 g3 M3 H4. split; [exact H4|]. eapply HP; eauto.
    Qed.
    Lemma scoped_wait_ok R (body : option nat -> pprog R) (P : R -> pmem -> ghost -> Prop) m g :
      (forall r m g m' g', mono m g m' g' -> P r m g -> P r m' g') ->
      (forall ws m1 g1, mono m g m1 g1 -> HF ia (rgo ws) None m1 g1 -> isafe t (body ws) (fun r m g => TH ia (rgo ws) None m g /\ P r m g) m1 g1) ->
      TS Out None None m g ->
      isafe t (scoped_wait pl (D a) body) (fun r m g => TS Out None None m g /\ P r m g) m g.
    Proof.
      intros HP Hb H. unfold scoped_wait. eapply isafe_seq; [apply (acquire_ok ia None None); [apply none_lock | exact H]|]. intros u0 m1 g1 M1 H1.
      eapply isafe_seq; [apply wlbegin_ok; exact H1|]. intros ws m2 g2 M2 H2.
      eapply isafe_seq; [apply Hb; [eapply mono_trans; [exact D | exact M1 | exact M2] | exact H2]|]. intros r m3 g3 _ [H3 H4].
      eapply isafe_seq with (Q := fun _ => TH ia None None).
      - destruct ws as [k|]; [now apply wlend_ok | exact H3].
      - intros u1 m4 g4 M4 H5. eapply isafe_seq; [apply (release_ok ia None None); exact H5|]. intros u2 m5 g5 M5 H6. split; [exact H6|].
        eapply HP; [exact M5|]. eapply HP; eauto.
    Qed.

    (** *** Waits under the lock *)
    Definition Late (limit : Z) (x : aret) (m : pmem) (g : ghost) : Prop :=
      match x with RWaited _ true => limit <= clk m | _ => True end.
    Lemma Late_mono limit x m g m' g' : mono m g m' g' -> Late limit x m g -> Late limit x m' g'.
    Proof. intros M. pose proof (o_clk _ _ _ _ M). destruct x as [r|v [|]]; cbn; auto. lia. Qed.
    Definition Knows (new : Z) (m : pmem) (g : ghost) : Prop := forall old, careful (D a) (k_op C) = Some old -> seen g a new (na g a).
    Lemma seen_knows v m g : seen g a v (na g a) -> Knows v m g.
    Proof. intros H old _. exact H. Qed.
    Section Locked.
      Variable ldp : pprog Z.
      Hypothesis Hld : forall r m g, HF ia r None m g -> isafe t ldp (fun v m g => HF ia r None m g /\ seen g a v (na g a)) m g.
      Hypothesis Hk : pooled (D a) = true.
      Hypothesis Hw : waits (k_op C) = true.
      Lemma knows_WH new old r m g : (forall o, careful (D a) (k_op C) = Some o -> o = old) -> new = old ->
        HF ia r None m g -> Knows new m g -> WH ia r m g.
      Proof. intros Hc E H K. split; [exact H|]. intros o Ho. pose proof (Hc o Ho). subst. eapply K; eauto. Qed.

      Lemma wait_body_ok old ws m g : k_op C = AWait old -> HF ia (rgo ws) None m g ->
        isafe t (wait_body pl (D a) ldp old ws) (fun _ => TH ia (rgo ws) None) m g.
      Proof.
        intros Hc H. unfold wait_body. eapply isafe_seq; [apply Hld; exact H|]. intros new0 m0 g0 _ H0.
        apply isafe_loop with (J := fun v m g => HF ia (rgo ws) None m g /\ seen g a v (na g a)); [exact H0|].
        intros new m1 g1 [H1 H2]. destruct (Z.eqb_spec new old) as [E|E]; [|apply HF_TH, H1]. subst new.
        eapply isafe_seq; [apply (pwait_ok Hk Hw ws old); [exact Hc|]|].
        - split; [exact H1|]. intros o Ho. rewrite Hc in Ho. injection Ho as <-. exact H2.
        - intros u0 m2 g2 _ H3. eapply isafe_seq; [apply Hld; exact H3|]. intros v m3 g3 _ H4. exact H4.
      Qed.
      Lemma fallback_ok old limit now new ws m g : (forall o, careful (D a) (k_op C) = Some o -> o = old) ->
        HF ia (rgo ws) None m g -> Knows new m g -> now <= clk m ->
        isafe t (fallback_from pl (D a) ldp old limit now new ws) (fun x m g => TH ia (rgo ws) None m g /\ Late limit x m g) m g.
      Proof.
        intros Hc H HK Hn. unfold fallback_from.
        apply isafe_loop with (J := fun '(v, now) m g => HF ia (rgo ws) None m g /\ Knows v m g /\ now <= clk m); [auto|].
        clear H HK Hn m g new now. intros [new now] m1 g1 (H1 & H2 & H3). destruct (Z.eqb_spec new old) as [E|E]; [|split; [apply HF_TH, H1 | exact I]].
        cbv zeta. destruct (Z.leb_spec (limit - now) 0) as [L|L]; [split; [apply HF_TH, H1 | cbn; lia]|].
        eapply isafe_seq; [apply (pfor_ok Hk Hw ws); eapply knows_WH; eauto|]. intros u0 m2 g2 _ H4.
        eapply isafe_seq; [apply (now_ok (HF ia (rgo ws) None)); [apply HF_stable | apply HF_clockless | exact H4]|]. intros n m3 g3 _ [H5 H6].
        eapply isafe_seq; [apply Hld; exact H5|]. intros v m4 g4 M4 [H7 H8]. split; [exact H7|]. split; [now apply seen_knows|].
        pose proof (o_clk _ _ _ _ M4) as KM4. lia.
      Qed.
      Lemma abs_ok old limit new ws m g : (forall o, careful (D a) (k_op C) = Some o -> o = old) ->
        HF ia (rgo ws) None m g -> Knows new m g -> 0 <= clk m ->
        isafe t (abs_from pl (D a) ldp old limit new ws) (fun x m g => TH ia (rgo ws) None m g /\ Late limit x m g) m g.
      Proof.
        intros Hc H HK Hn. unfold abs_from. destruct (Z.leb_spec 0 limit) as [L|L].
        - apply isafe_loop with (J := fun v m g => HF ia (rgo ws) None m g /\ Knows v m g); [auto|].
          clear H HK Hn m g new. intros new m1 g1 (H1 & H2). destruct (Z.eqb_spec new old) as [E|E]; [|split; [apply HF_TH, H1 | exact I]].
          eapply isafe_seq; [apply (puntil_ok Hk Hw ws limit); eapply knows_WH; eauto|]. intros to m2 g2 _ [H4 H5].
          eapply isafe_seq; [apply Hld; exact H4|]. intros v m4 g4 M4 [H7 H8]. destruct to; [|split; [exact H7 | now apply seen_knows]].
          split; [apply HF_TH, H7|]. specialize (H5 eq_refl). pose proof (o_clk _ _ _ _ M4). unfold Late. destruct (v =? old); [lia | exact I].
        - split; [apply HF_TH, H|]. unfold Late. destruct (new =? old); [lia | exact I].
      Qed.
    End Locked.

    (** *** Timed waits *)
    Definition due (k : tkind) (limit : Z) : Z := match k with WaitFor => k_clk C + limit | _ => limit end.
    Lemma Late_le l l' x m g : l' <= l -> Late l x m g -> Late l' x m g.
    Proof. destruct x as [r|v [|]]; cbn; auto. lia. Qed.
    Lemma TB_stable p r e : stable (fun m g => TS p r e m g /\ Base m g).
    Proof. apply and_stable; [apply TS_stable | apply mono_stable, Base_mono]. Qed.
    Lemma now_b m g : TS Out None None m g -> Base m g ->
      isafe t (pdo Now) (fun x m g => TS Out None None m g /\ Base m g /\ x = clk m) m g.
    Proof.
      intros H HB. eapply isafe_post; [apply (now_ok (TS Out None None)); [apply TS_stable | apply TS_clockless | exact H]|].
      intros x m1 g1 M [H1 H2]. split; [exact H1|]. split; [eapply Base_mono; eauto | exact H2].
    Qed.
    Lemma due_le k limit now m g : Base m g -> now = clk m -> due k limit <= match k with WaitFor => now + limit | _ => limit end.
    Proof. intros (_ & _ & B) ->. unfold due. destruct k; lia. Qed.

    Lemma emu_timed_ok k old limit m g : d_locked (D a) = true -> k_op C = ATimed k old limit -> TS Out None None m g -> Base m g ->
      isafe t (emu_timed pl (D a) k old limit) (fun x m g => TS Out None None m g /\ Late (due k limit) x m g) m g.
    Proof.
      intros Hd Hc H HB. pose proof (locked_pooled _ Hd) as Hk. assert (Hw : waits (k_op C) = true) by (now rewrite Hc).
      assert (Hca : forall o, careful (D a) (k_op C) = Some o -> o = old).
      { intros o Ho. rewrite Hc in Ho. cbn in Ho. destruct (d_wait (D a)); congruence. }
      unfold emu_timed. destruct (sys_clock pl k) eqn:Ek.
      - apply scoped_wait_ok; [intros; eapply Late_mono; eauto | | exact H]. intros ws m1 g1 M1 H1.
        eapply isafe_seq; [apply rd_seen; [exact Hd | exact H1]|]. intros new m2 g2 M2 [H2 H3].
        assert (El : due k limit = limit) by (unfold sys_clock in Ek; destruct k; try discriminate; reflexivity). rewrite El.
        apply abs_ok; auto; [intros; now apply rd_seen | now apply seen_knows|].
        destruct HB as (_ & _ & B). pose proof (o_clk _ _ _ _ M1) as KM1. pose proof (o_clk _ _ _ _ M2) as KM2. lia.
      - eapply isafe_seq; [apply now_b; auto|]. intros now m0 g0 _ (H0 & HB0 & En). cbv zeta.
        eapply isafe_post; [apply scoped_wait_ok with (P := fun x m g => Late (match k with WaitFor => now + limit | _ => limit end) x m g); [intros; eapply Late_mono; eauto | | exact H0]|].
        + intros ws m1 g1 M1 H1. eapply isafe_seq; [apply rd_seen; [exact Hd | exact H1]|]. intros new m2 g2 M2 [H2 H3].
          apply fallback_ok; auto; [intros; now apply rd_seen | now apply seen_knows|].
          pose proof (o_clk _ _ _ _ M1) as KM1. pose proof (o_clk _ _ _ _ M2) as KM2. lia.
        + intros x m1 g1 M1 [H1 H2]. split; [exact H1|]. eapply Late_le; [|exact H2]. eapply due_le; eauto.
    Qed.
    Lemma pool_timed_ok k old limit m g : d_locked (D a) = false -> pooled (D a) = true -> k_op C = ATimed k old limit ->
      TS Out None None m g -> Base m g ->
      isafe t (pool_timed pl (D a) a k old limit) (fun x m g => TS Out None None m g /\ Late (due k limit) x m g) m g.
    Proof.
      intros Hd Hk Hc H HB. assert (Hw : waits (k_op C) = true) by (now rewrite Hc).
      assert (Hca : forall o, careful (D a) (k_op C) = Some o -> False).
      { intros o Ho. rewrite Hc in Ho. cbn in Ho. unfold d_locked, pooled in *. destruct (d_wait (D a)); congruence. }
      unfold pool_timed. destruct (sys_clock pl k) eqn:Ek.
      - eapply isafe_seq; [apply ld_ts; [exact Hd | exact H]|]. intros new m0 g0 M0 H0.
        destruct (new =? old); [|split; [exact H0 | exact I]].
        apply scoped_wait_ok; [intros; eapply Late_mono; eauto | | exact H0]. intros ws m1 g1 M1 H1.
        assert (El : due k limit = limit) by (unfold sys_clock in Ek; destruct k; try discriminate; reflexivity). rewrite El.
        apply abs_ok; auto; [intros; now apply ld_seen | intros o Ho; elim (Hca o Ho) | intros o Ho; elim (Hca o Ho) |].
        destruct HB as (_ & _ & B). pose proof (o_clk _ _ _ _ M1) as KM1. pose proof (o_clk _ _ _ _ M0) as KM0. lia.
      - eapply isafe_seq; [apply now_b; auto|]. intros now m0 g0 _ (H0 & HB0 & En). cbv zeta.
        eapply isafe_seq; [apply ld_ts; [exact Hd | exact H0]|]. intros new m1 g1 M1 H1.
        destruct (new =? old); [|split; [exact H1 | exact I]].
        eapply isafe_post; [apply scoped_wait_ok with (P := fun x m g => Late (match k with WaitFor => now + limit | _ => limit end) x m g); [intros; eapply Late_mono; eauto | | exact H1]|].
        + intros ws m2 g2 M2 H2. apply fallback_ok; auto; [intros; now apply ld_seen | intros o Ho; elim (Hca o Ho) | intros o Ho; elim (Hca o Ho) |].
          pose proof (o_clk _ _ _ _ M1) as KM1. pose proof (o_clk _ _ _ _ M2) as KM2. lia.
        + intros x m2 g2 M2 [H2 H3]. split; [exact H2|]. eapply Late_le; [|exact H3]. eapply due_le; eauto.
    Qed.
    Lemma pool_wait_prog_ok old m g : d_locked (D a) = false -> pooled (D a) = true -> k_op C = AWait old -> TS Out None None m g ->
      isafe t (pool_wait_prog pl (D a) a old) (fun x m g => TS Out None None m g) m g.
    Proof.
      intros Hd Hk Hc H. assert (Hw : waits (k_op C) = true) by (now rewrite Hc).
      unfold pool_wait_prog. eapply isafe_seq; [apply ld_ts; [exact Hd | exact H]|]. intros new m0 g0 M0 H0.
      destruct (new =? old); [|exact H0].
      eapply isafe_post; [apply scoped_wait_ok with (P := fun _ _ _ => True); [auto | | exact H0]|].
      - intros ws m1 g1 M1 H1. eapply isafe_post; [apply wait_body_ok; auto; intros; now apply ld_seen|]. intros x m2 g2 _ H2. auto.
      - intros x m1 g1 _ [H1 _]. exact H1.
    Qed.

    (** *** Polling *)
    Lemma poll_fast_ok old k Q : d_locked (D a) = false -> (forall m g, TS Out None None m g -> isafe t k Q m g) ->
      (forall v m g, TS Out None None m g -> Q (RWaited v false) m g) ->
      forall n m g, TS Out None None m g -> isafe t (poll_fast (D a) a n old k) Q m g.
    Proof.
      intros Hd Hkk HQ. induction n as [|n IH]; intros m g H; cbn [poll_fast]; [auto|].
      eapply isafe_seq; [apply (pause_ok (TS Out None None)); [apply TS_stable | exact H]|]. intros u0 m1 g1 _ H1.
      eapply isafe_seq; [apply ld_ts; [exact Hd | exact H1]|]. intros new m2 g2 _ H2. destruct (new =? old); [auto | cbn; auto].
    Qed.
    Lemma poll_wait_ok old m g : d_locked (D a) = false -> TS Out None None m g ->
      isafe t (poll_wait (D a) a old) (fun x m g => TS Out None None m g) m g.
    Proof.
      intros Hd H. unfold poll_wait. eapply isafe_seq; [apply ld_ts; [exact Hd | exact H]|]. intros new m0 g0 _ H0.
      destruct (new =? old); [|exact H0]. apply poll_fast_ok; auto.
      intros m1 g1 H1. apply isafe_loop with (J := fun _ => TS Out None None); [exact H1|]. intros u0 m2 g2 H2.
      eapply isafe_seq; [apply (pause_ok (TS Out None None)); [apply TS_stable | exact H2]|]. intros u1 m3 g3 _ H3.
      eapply isafe_seq; [apply ld_ts; [exact Hd | exact H3]|]. intros v m4 g4 _ H4. destruct (v =? old); exact H4.
    Qed.
    Lemma poll_fast_timed_ok old limit k : d_locked (D a) = false ->
      (forall now m g, TS Out None None m g -> now <= clk m ->
         isafe t (k now) (fun x m g => TS Out None None m g /\ Late limit x m g) m g) ->
      forall n now m g, TS Out None None m g -> now <= clk m ->
         isafe t (poll_fast_timed (D a) a n old limit now k) (fun x m g => TS Out None None m g /\ Late limit x m g) m g.
    Proof.
      intros Hd Hkk. induction n as [|n IH]; intros now m g H Hn; cbn [poll_fast_timed]; [auto|].
      destruct (Z.leb_spec 0 (now - limit)) as [L|L]; [split; [exact H | cbn; lia]|].
      eapply isafe_seq; [apply (pause_ok (TS Out None None)); [apply TS_stable | exact H]|]. intros u0 m1 g1 _ H1.
      eapply isafe_seq; [apply (now_ok (TS Out None None)); [apply TS_stable | apply TS_clockless | exact H1]|]. intros x m2 g2 _ [H2 E2].
      eapply isafe_seq; [apply ld_ts; [exact Hd | exact H2]|]. intros new m3 g3 M3 H3. pose proof (o_clk _ _ _ _ M3) as KM3.
      destruct (new =? old); [apply IH; [exact H3 | lia] | split; [exact H3 | exact I]].
    Qed.
    Lemma poll_timed_ok k old limit m g : d_locked (D a) = false -> TS Out None None m g -> Base m g ->
      isafe t (poll_timed (D a) a k old limit) (fun x m g => TS Out None None m g /\ Late (due k limit) x m g) m g.
    Proof.
      intros Hd H HB. unfold poll_timed. eapply isafe_seq; [apply now_b; auto|]. intros now m0 g0 _ (H0 & HB0 & En). cbv zeta.
      pose proof (due_le k limit now m0 g0 HB0 En) as Hdue.
      set (lm := match k with WaitFor => now + limit | _ => limit end) in *.
      eapply isafe_seq; [apply ld_ts; [exact Hd | exact H0]|]. intros new m1 g1 M1 H1. pose proof (o_clk _ _ _ _ M1) as KM1.
      destruct (new =? old); [|split; [exact H1 | exact I]].
      eapply isafe_post; [apply (poll_fast_timed_ok old lm); [exact Hd | | exact H1 | lia]|].
      - intros n2 m2 g2 H2 L2. apply isafe_loop with (J := fun now m g => TS Out None None m g /\ now <= clk m); [auto|].
        clear m2 g2 H2 L2 n2. intros n2 m2 g2 [H2 L2].
        destruct (Z.leb_spec 0 (n2 - lm)) as [L|L]; [split; [exact H2 | cbn; lia]|].
        eapply isafe_seq; [apply (pause_ok (TS Out None None)); [apply TS_stable | exact H2]|]. intros u0 m3 g3 _ H3.
        eapply isafe_seq; [apply (now_ok (TS Out None None)); [apply TS_stable | apply TS_clockless | exact H3]|]. intros x m4 g4 _ [H4 E4].
        eapply isafe_seq; [apply ld_ts; [exact Hd | exact H4]|]. intros v m5 g5 M5 H5. pose proof (o_clk _ _ _ _ M5) as KM5.
        destruct (v =? old); [split; [exact H5 | lia] | split; [exact H5 | exact I]].
      - intros x m2 g2 _ [X2 X3]. split; [exact X2|]. eapply Late_le; eauto.
    Qed.

    (** *** Waits on the object itself *)
    Lemma native_sleep_ok old dl m g : d_wait (D a) = WFutex -> waits (k_op C) = true -> careful (D a) (k_op C) = Some old ->
      (dl = None -> exists o, k_op C = AWait o) -> TS Out None None m g ->
      isafe t (native_sleep a old dl) (fun x m g => TS Out None None m g /\ (x = Some TimedOut -> exists d, dl = Some d /\ d <= clk m)) m g.
    Proof.
      intros Hk Hw Hc Hdl H. unfold native_sleep.
      eapply isafe_seq with (Q := fun (q : bool) m g => if q then exists e, e_fut e = FO a /\ TA Out None (Some e) m g else TS Out None None m g).
      - eapply (act_rule (TS Out None None)); [apply TS_stable | exact H|]. intros m1 g1 I1 ((B1 & B2 & B3 & B4) & Aw). split; [exact I|].
        intros w m2 x E. cbn in E. destruct (Z.eqb_spec (cel m1 a) old) as [Ec|Ec]; injection E as <- <-.
        + eexists. destruct (sleep_native_step pl D m1 g1 t C) as [G1 G2]; auto; [congruence|]. split; [exact G1|]. split; [exact G2|].
          eexists. split; [|split; [exact B1|]; split; [exact B2|]; split; [cbn; apply fset_eq | exact B4]]. reflexivity.
        + exists g1. split; [apply guar_refl|]. split; [exact I1|]. split; [|exact Aw]. split; [exact B1|]. split; [exact B2|]. auto.
      - intros [|] m1 g1 _ H1; [|split; [exact H1 | discriminate]]. destruct H1 as (e & Ee & H1).
        eapply isafe_seq; [apply (fsleep_ok dl Out None (Some e) None); [| |exact H1]|].
        + right. split; [reflexivity|]. intros _ x i k [= <-]. rewrite Ee. discriminate.
        + intros X. right. auto.
        + intros x m2 g2 _ [H2 H3]. split; [exact H2|]. intros [= ->]. auto.
    Qed.
    Lemma futex_free : d_wait (D a) = WFutex -> d_locked (D a) = false.
    Proof. unfold d_locked. now intros ->. Qed.
    Lemma native_wait_ok old m g : d_wait (D a) = WFutex -> k_op C = AWait old -> TS Out None None m g ->
      isafe t (native_wait (D a) a old) (fun x m g => TS Out None None m g) m g.
    Proof.
      intros Hk Hc H. pose proof (futex_free Hk) as Hd. unfold native_wait.
      eapply isafe_seq; [apply ld_ts; [exact Hd | exact H]|]. intros new m0 g0 _ H0.
      apply isafe_loop with (J := fun _ => TS Out None None); [exact H0|]. intros v m1 g1 H1.
      destruct (v =? old); [|exact H1]. eapply isafe_seq; [apply native_sleep_ok; auto; try (rewrite Hc; reflexivity); eauto|]. intros x m2 g2 _ [H2 _].
      eapply isafe_seq; [apply ld_ts; [exact Hd | exact H2]|]. intros w m3 g3 _ H3. exact H3.
    Qed.
    Lemma native_fallback_ok k old lim0 limit now m g : d_wait (D a) = WFutex -> k_op C = ATimed k old lim0 -> TS Out None None m g -> now <= clk m ->
      isafe t (native_fallback pl (D a) a old limit now) (fun x m g => TS Out None None m g /\ Late limit x m g) m g.
    Proof.
      intros Hk Hc H Hn. pose proof (futex_free Hk) as Hd. unfold native_fallback.
      eapply isafe_seq; [apply ld_ts; [exact Hd | exact H]|]. intros new m0 g0 M0 H0. pose proof (o_clk _ _ _ _ M0) as KM0.
      apply isafe_loop with (J := fun '(_, now) m g => TS Out None None m g /\ now <= clk m); [split; [exact H0 | lia]|].
      intros [v n1] m1 g1 [H1 L1]. destruct (v =? old); [|split; [exact H1 | exact I]]. cbv zeta.
      destruct (Z.leb_spec (units pl (limit - n1)) 0) as [L|L]; [apply units_due in L; split; [exact H1 | cbn; lia]|].
      eapply isafe_seq; [apply (now_ok (TS Out None None)); [apply TS_stable | apply TS_clockless | exact H1]|]. intros st m2 g2 _ [H2 _].
      eapply isafe_seq; [apply native_sleep_ok; auto; try (rewrite Hc; cbn; rewrite ?Hk; reflexivity); discriminate|]. intros x m3 g3 _ [H3 _].
      eapply isafe_seq; [apply (now_ok (TS Out None None)); [apply TS_stable | apply TS_clockless | exact H3]|]. intros n2 m4 g4 _ [H4 E4].
      eapply isafe_seq; [apply ld_ts; [exact Hd | exact H4]|]. intros w m5 g5 M5 H5. pose proof (o_clk _ _ _ _ M5) as KM5.
      split; [exact H5 | lia].
    Qed.
    Lemma native_abs_ok k old lim0 limit m g : d_wait (D a) = WFutex -> k_op C = ATimed k old lim0 -> TS Out None None m g ->
      isafe t (native_abs (D a) a old limit) (fun x m g => TS Out None None m g /\ Late limit x m g) m g.
    Proof.
      intros Hk Hc H. pose proof (futex_free Hk) as Hd. unfold native_abs.
      eapply isafe_seq; [apply ld_ts; [exact Hd | exact H]|]. intros new m0 g0 M0 H0.
      apply isafe_loop with (J := fun _ => TS Out None None); [exact H0|].
      intros v m1 g1 H1. destruct (v =? old); [|split; [exact H1 | exact I]].
      eapply isafe_seq; [apply native_sleep_ok; auto; try (rewrite Hc; cbn; rewrite ?Hk; reflexivity); discriminate|]. intros x m3 g3 _ [H3 Hx].
      eapply isafe_seq; [apply ld_ts; [exact Hd | exact H3]|]. intros w m5 g5 M5 H5. pose proof (o_clk _ _ _ _ M5) as KM5.
      destruct x as [[| |]|]; try exact H5. split; [exact H5|]. destruct (Hx eq_refl) as (d & [= <-] & L). unfold Late. destruct (w =? old); [lia | exact I].
    Qed.
    Lemma native_timed_ok k old limit m g : d_wait (D a) = WFutex -> k_op C = ATimed k old limit -> TS Out None None m g -> Base m g ->
      isafe t (native_timed pl (D a) a k old limit) (fun x m g => TS Out None None m g /\ Late (due k limit) x m g) m g.
    Proof.
      intros Hk Hc H HB. pose proof (futex_free Hk) as Hd.
      assert (HF0 : k <> WaitFor -> isafe t (now <- pdo Now ;; native_fallback pl (D a) a old limit (now : Z)) (fun x m g => TS Out None None m g /\ Late limit x m g) m g).
      { intros Hn. eapply isafe_seq; [apply now_b; auto|]. intros now m1 g1 _ (H1 & HB1 & En). eapply native_fallback_ok; eauto. lia. }
      destruct k; cbn [native_timed due].
      - destruct (pl_bitset pl); [|apply HF0; discriminate]. destruct (Z.leb_spec 0 limit) as [L|L].
        + eapply native_abs_ok; eauto.
        + eapply isafe_seq; [apply ld_ts; [exact Hd | exact H]|]. intros v m1 g1 M1 H1. split; [exact H1|]. unfold Late.
          destruct (v =? old); [|exact I]. destruct (Base_mono _ _ _ _ M1 HB) as (_ & _ & X). lia.
      - apply HF0. discriminate.
      - destruct (pl_bitset pl && (0 <=? limit)); (eapply isafe_seq; [apply now_b; auto|]); intros now m1 g1 _ (H1 & HB1 & En).
        + eapply isafe_post; [eapply native_abs_ok; eauto|]. intros x m2 g2 _ [H2 H3]. split; [exact H2|].
          eapply Late_le; [|exact H3]. apply (due_le WaitFor limit now m1 g1 HB1 En).
        + eapply isafe_post; [eapply native_fallback_ok; eauto; lia|]. intros x m2 g2 _ [H2 H3]. split; [exact H2|].
          eapply Late_le; [|exact H3]. apply (due_le WaitFor limit now m1 g1 HB1 En).
    Qed.

    (** *** Notifications *)
    Lemma poll_notify_ok all m g : d_wait (D a) = WPoll -> TS Out None None m g -> Base m g ->
      isafe t (pdo Pause) (fun _ m g => TS Out None None m g /\ Done all m g) m g.
    Proof.
      intros Hk H HB. eapply (act_rule (fun m g => TS Out None None m g /\ Base m g)); [apply TB_stable | auto|].
      clear m g H HB. intros m g I1 [H HB]. split; [exact I|]. intros w m2 x [= <- <-]. exists (bumped pl D true g t Out a m).
      assert (Np : pooled (D a) <> true) by (unfold pooled; rewrite Hk; discriminate).
      destruct (notify_step pl D m g t Out a true m) as [G1 G2]; auto.
      - left. symmetry. apply H.
      - intros X. elim (Np X).
      - apply I1.
      - intros _ v f c Hin Hf Hc Ha. destruct (sleeper_fut _ _ _ _ _ I1 Hin Hf Hc Ha) as [(X & _)|(_ & X)]; [elim (Np X) | congruence].
      - intros _ _ v e c i k He Hc Ha Ef. destruct (entry_fut _ _ _ _ _ _ _ I1 He Hc Ha Ef) as (X & _). elim (Np X).
      - discriminate.
      - split; [exact G1|]. split; [exact G2|]. split; [eapply TH_bumped; [apply H | exact H]|].
        apply Done_bumped with (m := m); auto.
    Qed.
    Lemma notify_prog_ok all m g : pooled (D a) = true -> TS Out None None m g -> Base m g ->
      isafe t (notify_prog pl (D a) all) (fun _ m g => TS Out None None m g /\ Done all m g) m g.
    Proof.
      intros Hk H HB. unfold notify_prog. apply scoped_ok; [intros; eapply Done_mono; eauto | | exact H]. intros m1 g1 M1 H1.
      eapply isafe_seq; [apply pnotify_ok; [exact Hk | apply HF_TH, H1 | eapply Base_mono; eauto]|]. intros u0 m2 g2 _ H2. exact H2.
    Qed.

    (** *** Fences and the end of the program *)
    Lemma fence_ok m g : TS Out None None m g -> isafe t (fence_prog pl) (fun _ => TS Out None None) m g.
    Proof.
      intros H. unfold fence_prog. cbv zeta. eapply isafe_seq; [apply (acquire_ok _ None None); [apply none_lock | exact H]|]. intros u0 m1 g1 _ H1.
      eapply isafe_seq; [apply (release_ok _ None None); apply HF_TH, H1|]. intros u1 m2 g2 _ H2. exact H2.
    Qed.
    Lemma exit_from_ok n m g : TS Out None None m g -> isafe t (exit_from pl n) (fun _ => TS Out None None) m g.
    Proof.
      revert m g. induction n as [|n IH]; intros m g H; cbn [exit_from]; [exact H|].
      eapply isafe_seq; [apply IH, H|]. intros u0 m1 g1 _ H1.
      eapply isafe_seq; [apply (acquire_ok _ None None); [apply none_lock | exact H1]|]. intros u1 m2 g2 _ H2.
      eapply isafe_seq; [apply wlcleanup_ok; apply HF_TH, H2|]. intros u2 m3 g3 _ H3.
      apply (release_ok _ None None); exact H3.
    Qed.

    (** ** Every call *)
    Definition outcome (x : aret) (m : pmem) (g : ghost) : Prop :=
      match k_op C with ANotify all => Done all m g | ATimed k _ limit => Late (due k limit) x m g | _ => True end.
    Theorem obj_ok m g : TS Out None None m g -> Base m g ->
      isafe t (obj_prog pl (D a) a (k_op C)) (fun x m g => TS Out None None m g /\ outcome x m g) m g.
    Proof.
      intros H HB. unfold outcome.
      assert (Hf : isafe t (fence_prog pl) (fun x m g => TS Out None None m g /\ True) m g).
      { eapply isafe_post; [apply fence_ok, H|]. intros; auto. }
      assert (He : isafe t (exit_prog pl) (fun x m g => TS Out None None m g /\ True) m g).
      { unfold exit_prog. eapply isafe_seq; [apply exit_from_ok, H|]. intros u0 m1 g1 _ H1. split; [exact H1 | exact I]. }
      unfold obj_prog. destruct (d_locked (D a)) eqn:Hd.
      - destruct (k_op C) as [o|f h|old|k old limit|all| |] eqn:Hc; cbn [emu_prog]; auto.
        + apply scoped_ok with (P := fun _ _ _ => True); [auto | | exact H]. intros m1 g1 _ H1.
          eapply isafe_seq; [apply emu_body_ok; [exact Hd | apply HF_TH, H1]|]. intros r m2 g2 _ H2. split; [exact H2 | exact I].
        + apply scoped_ok with (P := fun _ _ _ => True); [auto | | exact H]. intros m1 g1 _ H1.
          eapply isafe_seq; [apply emu_upd_ok; [exact Hd | apply HF_TH, H1]|]. intros r m2 g2 _ H2. split; [exact H2 | exact I].
        + apply scoped_wait_ok with (P := fun _ _ _ => True); [auto | | exact H]. intros ws m1 g1 _ H1.
          eapply isafe_post; [apply wait_body_ok; auto; [intros; now apply rd_seen | now apply locked_pooled | now rewrite Hc]|].
          intros x m2 g2 _ H2. auto.
        + now apply emu_timed_ok with (old := old).
        + apply notify_prog_ok; auto. now apply locked_pooled.
      - destruct (k_op C) as [o|f h|old|k old limit|all| |] eqn:Hc; cbn [free_prog]; auto.
        + eapply isafe_seq; [apply (cell_ok (TS Out None None)); [apply TS_stable | intros; now apply TS_cell | exact H]|]. intros r m1 g1 _ H1. split; [exact H1 | exact I].
        + eapply isafe_seq; [apply (upd_ok (TS Out None None)); [apply TS_stable | intros; now apply TS_cell | exact H]|]. intros r m1 g1 _ H1. split; [exact H1 | exact I].
        + eapply isafe_post with (Q := fun _ => TS Out None None); [|intros x m2 g2 _ H2; auto].
          destruct (d_wait (D a)) eqn:Ew; [unfold d_locked in Hd; rewrite Ew in Hd; discriminate | | |].
          * apply pool_wait_prog_ok; auto. unfold pooled. now rewrite Ew.
          * now apply poll_wait_ok.
          * now apply native_wait_ok.
        + destruct (d_wait (D a)) eqn:Ew; [unfold d_locked in Hd; rewrite Ew in Hd; discriminate | | |].
          * apply pool_timed_ok; auto. unfold pooled. now rewrite Ew.
          * now apply poll_timed_ok.
          * now apply native_timed_ok.
        + destruct (d_wait (D a)) eqn:Ew; [unfold d_locked in Hd; rewrite Ew in Hd; discriminate | | |].
          * apply notify_prog_ok; auto. unfold pooled. now rewrite Ew.
          * eapply isafe_seq; [apply (poll_notify_ok all); auto|]. intros u0 m1 g1 _ H1. exact H1.
          * eapply isafe_seq; [apply (fwake_ok all m g (FO a) Out); auto|]. intros u0 m1 g1 _ (H1 & H2 & _). split; [exact H1 | exact H2].
    Qed.
  End Thread.
End Prog.

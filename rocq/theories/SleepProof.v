(** * Runs of the lock pool and its waits: the invariant of SleepInv holds throughout, and what follows. *)
From Coq Require Import ZArith List Bool Arith Lia.
From Verif Require Import SpecInt SpecLin SpecObj SpecBytes SpecPool Conv WordFacts Prog RG SleepLogic FindModel FindProof RecordsModel
  RecordsProof PoolModel PoolProof SpecSleep SleepInv SleepSteps SleepProg.
Import ListNotations.
Open Scope Z_scope.
Open Scope prog_scope.

Section Runs.
  Variable pl : platform.
  Variable D : nat -> odesc.
  Hypothesis HD : layout_ok D.
  Hypothesis Hsearch : search_ok (pl_search pl) (pl_init pl).
  Hypothesis Hinit : (0 < pl_init pl)%nat.
  (** calls [X] answered by [Y], as the class templates make them *)
  Context {X Y : Type}.
  Variable xop : nat -> X -> aop.
  Variable xret : nat -> X -> aret -> Y.
  Notation lk := (pl_lock pl).
  Notation lockof a := (lock_of pl (D a)).
  Notation exec := (pexec (pl_search pl) (pl_init pl)).
  Notation Inv := (Inv pl D).
  Notation rely := (rely pl D).
  Notation guar := (guar pl D).
  Notation impl := (typed_impl pl D xop xret).
  Notation conf := (config pact presp pmem (nat * X) Y).

  Definition enter (t : nat) (o : nat * X) (m : pmem) (g : ghost) : ghost :=
    set_cur g t (Some (mkcall (fst o) (xop (fst o) (snd o)) (na g (fst o)) (cw g (fst o)) (clk m))).
  Definition leave (t : nat) (g : ghost) : ghost := set_cur g t None.
  Definition idle (t : nat) (m : pmem) (g : ghost) : Prop :=
    lph g t = Out /\ (forall i x, ~ In (t, x) (reg g i)) /\ ent g t = None /\ cur g t = None /\ asleep m t = false.
  Definition busy (t : nat) (o : nat * X) (g : ghost) : Prop :=
    exists c, cur g t = Some c /\ k_obj c = fst o /\ k_op c = xop (fst o) (snd o).
  Definition post (t : nat) (o : nat * X) (r : Y) (m : pmem) (g : ghost) : Prop :=
    exists c x, k_obj c = fst o /\ k_op c = xop (fst o) (snd o) /\ r = xret (fst o) (snd o) x /\
      TS t c Out None None m g /\ outcome c x m g.

  Lemma rely_mono t m g m' g' : rely t m g m' g' -> mono m g m' g'.
  Proof. intros R. apply R. Qed.
  Lemma guar_mono t m g m' g' : guar t m g m' g' -> mono m g m' g'.
  Proof. intros R. apply R. Qed.

  Lemma enter_good t o m g : True -> Inv m g -> idle t m g ->
    let g' := enter t o m g in
    Inv m g' /\ mono m g m g' /\ hist pl D m g m g' /\ busy t o g' /\ (forall u, u <> t -> rely u m g m g') /\
    isafe exec Inv rely guar (ok pl) t (impl o) (post t o) m g'.
  Proof.
    intros _ I (A & B & E & F & G) g'. subst g'. unfold enter. destruct o as [a x]. cbn [fst snd].
    set (C := mkcall a (xop a x) (na g a) (cw g a) (clk m)).
    destruct (cur_step pl D m g t (Some C)) as (H1 & H2 & (H3 & H4) & H5); auto.
    split; [exact H1|]. split; [exact H2|]. split; [|split; [|split; [exact H5|]]].
    - split; [intros; rewrite H4 in *; auto|]. intros b Hb. rewrite H3 in Hb. lia.
    - exists C. split; [cbn; apply fset_eq | auto].
    - unfold typed_impl. cbn [fst snd]. eapply isafe_bind. eapply isafe_mono; [|apply (obj_ok pl D HD Hsearch Hinit t C)].
      + intros r m1 g1 [K1 K2]. exists C, r. auto.
      + split; [|exact G]. split; [exact A|]. split; [|split; [exact E|cbn; apply fset_eq]].
        intros i y. split; [intros K; elim (B i y K) | discriminate].
      + split; [|split]; cbn; try lia. split; [apply I | lia].
  Qed.
  Lemma leave_good t o r m g : Inv m g -> post t o r m g ->
    let g' := leave t g in
    Inv m g' /\ mono m g m g' /\ hist pl D m g m g' /\ idle t m g' /\ (forall u, u <> t -> rely u m g m g').
  Proof.
    intros I (c & x & _ & _ & _ & ((A & B & E & F) & G) & _) g'. subst g'. unfold leave.
    assert (B' : forall i y, ~ In (t, y) (reg g i)) by (intros i y K; apply B in K; discriminate).
    destruct (cur_step pl D m g t None) as (H1 & H2 & (H3 & H4) & H5); auto.
    split; [exact H1|]. split; [exact H2|]. split; [|split; [|exact H5]].
    - split; [intros; rewrite H4 in *; auto|]. intros b Hb. rewrite H3 in Hb. lia.
    - split; [exact A|]. split; [exact B'|]. split; [exact E|]. split; [cbn; apply fset_eq | exact G].
  Qed.
  Lemma idle_rely t m g m' g' : rely t m g m' g' -> idle t m g -> idle t m' g'.
  Proof.
    intros R (A & B & E & F & G). split; [rewrite (r_lph _ _ _ _ _ _ _ R); auto|].
    split; [intros i x; rewrite (r_reg _ _ _ _ _ _ _ R); auto|]. split; [rewrite (r_ent _ _ _ _ _ _ _ R); auto|].
    split; [rewrite (r_cur _ _ _ _ _ _ _ R); auto | now apply (r_awake _ _ _ _ _ _ _ R)].
  Qed.
  Lemma busy_rely t o m g m' g' : rely t m g m' g' -> busy t o g -> busy t o g'.
  Proof. intros R (c & A & B). exists c. rewrite (r_cur _ _ _ _ _ _ _ R). auto. Qed.
  Lemma busy_guar t o m g m' g' : guar t m g m' g' -> busy t o g -> busy t o g'.
  Proof. intros R (c & A & B). exists c. rewrite (g_cur _ _ _ _ _ _ _ R). auto. Qed.
  Lemma outcome_mono c x m g m' g' : mono m g m' g' -> outcome c x m g -> outcome c x m' g'.
  Proof.
    intros M. unfold outcome. destruct (k_op c); auto; [eapply Late_mono; eauto | eapply Done_mono; eauto].
  Qed.
  Lemma post_rely t o r m g m' g' : rely t m g m' g' -> post t o r m g -> post t o r m' g'.
  Proof.
    intros R (c & x & A & B & E & F & G). exists c, x. split; [exact A|]. split; [exact B|]. split; [exact E|].
    split; [eapply TS_stable; eauto|]. eapply outcome_mono; [|exact G]. apply (rely_mono _ _ _ _ _ R).
  Qed.

  (** ** The invariant along runs *)
  Notation good := (SleepLogic.good exec Inv rely guar (ok pl) idle busy post).
  Notation gstep := (SleepLogic.gstep exec guar impl enter leave).
  Lemma run_good (K : list (event (nat * X) Y) -> conf -> ghost -> Prop) l h c g : good c g -> K h c g ->
    (forall l1 e l2 h1 g1 g2, l = l1 ++ e :: l2 ->
       let c1 := fst (run exec impl c l1) in let c2 := fst (cstep exec impl c1 e) in
       good c1 g1 -> good c2 g2 -> mono (c_mem c1) g1 (c_mem c2) g2 -> hist pl D (c_mem c1) g1 (c_mem c2) g2 -> gstep c1 e g1 g2 ->
       K h1 c1 g1 -> K (h1 ++ snd (cstep exec impl c1 e)) c2 g2) ->
    exists g', good (fst (run exec impl c l)) g' /\ mono (c_mem c) g (c_mem (fst (run exec impl c l))) g' /\
               K (h ++ snd (run exec impl c l)) (fst (run exec impl c l)) g'.
  Proof.
    intros Hg HK Hs.
    apply (SleepLogic.run_ok exec Inv rely guar (ok pl)) with (hist := hist pl D) (op_ok := fun _ => True) (enter := enter) (leave := leave).
    - apply rely_refl.
    - apply rely_trans.
    - apply guar_rely.
    - intros. apply mono_refl. exact D.
    - intros. eapply mono_trans; eauto.
    - apply guar_mono.
    - intros. apply hist_refl.
    - intros t m1 g1 m2 g2 R. apply R.
    - apply enter_good.
    - apply leave_good.
    - apply idle_rely.
    - apply busy_rely.
    - apply busy_guar.
    - apply post_rely.
    - exact Hg.
    - apply Forall_forall. intros [| |] _; exact I.
    - exact HK.
    - exact Hs.
  Qed.

  Definition ghost0 (m : pmem) : ghost :=
    mkg (fun _ => Out) (fun _ => []) (fun _ => None) (fun _ _ => []) (fun _ => O) (fun _ => O) (fun _ => None)
      (note pl D m (fun _ _ _ => False) (fun _ => O)).
  Lemma start_good v m : pool_start D v m -> good (start m) (ghost0 m).
  Proof.
    intros (A & B & E & F & G & H). split.
    - constructor; cbn.
      + intros i t. destruct (A i) as (_ & -> & _). split; [discriminate | intros [?|?]; discriminate].
      + exact H.
      + intros i. destruct (A i) as (_ & _ & -> & _). apply linv0; auto.
      + intros i. constructor.
      + intros i t z k [].
      + intros _ i. destruct (A i) as (-> & -> & _ & ->). exists false. reflexivity.
      + intros _ i k. destruct (B i k) as (-> & _ & ->). reflexivity.
      + split; [intros i; destruct (A i) as (_ & _ & _ & ->); lia|]. split; [intros i k; destruct (B i k) as (_ & _ & ->); lia | exact G].
      + intros _ i k. destruct (B i k) as (_ & -> & _). split; [reflexivity|]. split; [constructor|]. intros t. split; [intros [] | intros (e & He & _); discriminate].
      + rewrite F. constructor.
      + intros t f Hin. rewrite F in Hin. destruct Hin.
      + intros t e He. discriminate.
      + intros t i n [K|K]; discriminate.
      + intros a Hs. right. auto.
      + intros a w e [[]|(_ & _ & ->)]. lia.
      + intros _. constructor; cbn; rewrite ?F; try (intros; contradiction). intros; discriminate.
      + rewrite F. intros; contradiction.
    - intros t. cbn. split; [reflexivity|]. split; [intros i x []|]. split; [reflexivity|]. split; [reflexivity|].
      unfold asleep. now rewrite F.
  Qed.
  Lemma reach v m l : pool_start D v m -> exists g, good (fst (run exec impl (start m) l)) g.
  Proof.
    intros H. destruct (run_good (fun _ _ _ => True) l [] (start m) (ghost0 m)) as (g & A & _); auto.
    - eapply start_good; eauto.
    - eauto.
  Qed.

  (** ** Exclusion *)
  Lemma good_next c g t a : good c g -> next c t a -> ok pl t a (c_mem c) g.
  Proof.
    intros [HI Ht] (o & k & E). specialize (Ht t). rewrite E in Ht. destruct Ht as [_ Hs]. cbn in Hs.
    destruct (Hs (c_mem c) g) as [K _]; [apply rely_refl | exact HI | exact K].
  Qed.
  Lemma guarded_owner c g t a i : good c g -> next c t a -> guard a = Some i -> own (c_mem c) i = Some t.
  Proof.
    intros Hg Hn Hgd. pose proof (good_next c g t a Hg Hn) as K. destruct a; cbn in *; try discriminate; injection Hgd as <-; exact K.
  Qed.

  (** ** Nobody sleeps for a lock for ever *)
  Lemma phase_runs c g t : good c g -> (lph g t <> Out \/ ent g t <> None \/ cur g t <> None) -> exists o p, c_thr c t = Run o p.
  Proof.
    intros [_ Ht] H. specialize (Ht t). destruct (c_thr c t) as [|o p]; [|eauto]. destruct Ht as (A & _ & B & E & _). tauto.
  Qed.
  Lemma blocked_cases t a m : blocked pl t a m ->
    (exists i u, a = OsLock i /\ own m i = Some u) \/ (a = FSleep None /\ asleep m t = true).
  Proof.
    intros H. pose (w := mkf false false 0%nat (match a with FSleep (Some d) => d - clk m | _ => 0 end) false false).
    specialize (H w eq_refl). destruct a; cbn in H; try discriminate.
    - destruct ((mx m i =? e) && (negb weak || false)); discriminate.
    - destruct (fword m f =? v); discriminate.
    - right. destruct (asleep m t); [|discriminate]. destruct deadline as [d|]; [|auto].
      destruct (Z.leb_spec d (clk m + Z.max 0 (d - clk m))); [discriminate | lia].
    - destruct all; [discriminate|]. destruct (picked m f 0); discriminate.
    - destruct all; [discriminate|]. destruct (picked m (FC i k) 0); discriminate.
    - destruct (own m i); discriminate.
    - left. destruct (own m i) as [u|] eqn:E; [eauto | discriminate].
    - destruct (allocate_wait_state _ _ _ _ _ _) as [[? ?]|]; discriminate.
    - destruct (free_wait_state _ _); discriminate.
    - destruct (find _ _ _); discriminate.
    - destruct (cleanup _); discriminate.
  Qed.
  Lemma holder_not_asleep m g i t : Inv m g -> own m i = Some t -> asleep m t = false.
  Proof.
    intros I H. apply awake_in. intros f Hf. apply (i_own _ _ _ _ I) in H. pose proof (i_asleep _ _ _ _ I _ _ Hf) as K.
    destruct f as [j|j k|a]; [destruct K as (_ & [K|(K & _)]) | destruct K as [K _] | destruct K as [K _]]; destruct H; congruence.
  Qed.
  Lemma holder_moves c g i t : good c g -> own (c_mem c) i = Some t -> stuck pl c -> False.
  Proof.
    intros Hg Ho Hs. pose proof Hg as [HI Ht]. pose proof (proj1 (i_own _ _ _ _ HI i t) Ho) as Hl.
    destruct (phase_runs c g t Hg) as (o & p & E); [left; destruct Hl; congruence|].
    destruct (Hs t o p E) as (a & k & -> & Hb). destruct (blocked_cases _ _ _ Hb) as [(j & u & -> & _)|(-> & Hb')].
    - destruct (good_next c g t (OsLock j) Hg) as [_ K]; [exists o, k; exact E|]. elim (K i Ho).
    - rewrite (holder_not_asleep _ _ _ _ HI Ho) in Hb'. discriminate.
  Qed.
  (** somebody who is not asleep is bound to take a free lock that somebody sleeps for *)
  Lemma free_lock_attended c g i t : good c g -> lim pl (c_mem c) -> sleeps_for_lock (c_mem c) i t -> own (c_mem c) i = None ->
    exists u o p, u <> t /\ c_thr c u = Run o p /\ asleep (c_mem c) u = false /\
      forall a k, p = Do a k -> ~ blocked pl u a (c_mem c).
  Proof.
    intros Hg Hl Hs Ho. pose proof Hg as [HI Ht]. pose proof (i_lim _ _ _ _ HI Hl) as L.
    destruct (l_carry _ _ L i t Hs Ho) as (u & Ha & Hc).
    destruct (phase_runs c g u Hg) as (o & p & E).
    { destruct Hc as [K|[(n & K)|(e & k & K & _)]]; [left; congruence | left; congruence | right; left; congruence]. }
    exists u, o, p. split; [|split; [exact E|split; [exact Ha|]]].
    - intros ->. assert (K : asleep (c_mem c) t = true) by (apply asleep_in; exists (FM i); exact Hs). congruence.
    - intros a k -> Hb. destruct (blocked_cases _ _ _ Hb) as [(j & v & -> & Hj)|(-> & Hb')]; [|congruence].
      destruct (good_next c g u (OsLock j) Hg) as [K _]; [exists o, k; exact E|].
      pose proof (i_asleep _ _ _ _ HI _ _ Hs) as [F _]. congruence.
  Qed.
  Lemma stuck_waits c g t o p : good c g -> lim pl (c_mem c) -> stuck pl c -> c_thr c t = Run o p ->
    (exists old, xop (fst o) (snd o) = AWait old) /\ sleeps_in_wait (c_mem c) t.
  Proof.
    intros Hg Hl Hs E. pose proof Hg as [HI Ht]. destruct (Hs t o p E) as (a & k & -> & Hb).
    destruct (blocked_cases _ _ _ Hb) as [(i & u & -> & Ho)|(-> & Hb')]; [elim (holder_moves c g i u Hg Ho Hs)|].
    apply asleep_in in Hb'. destruct Hb' as (f & Hf).
    assert (Nf : forall i, f <> FM i).
    { intros i ->. destruct (own (c_mem c) i) as [u|] eqn:Ho; [elim (holder_moves c g i u Hg Ho Hs)|].
      destruct (free_lock_attended c g i t Hg Hl Hf Ho) as (u & o' & p' & _ & E' & _ & Hn).
      destruct (Hs u o' p' E') as (a' & k' & -> & Hb2). elim (Hn a' k' eq_refl Hb2). }
    split; [|exists f; auto].
    destruct (good_next c g t (FSleep None) Hg (ex_intro _ o (ex_intro _ k E)) f Hf) as [(i & ->)|(C & old & Hc & Hop)]; [elim (Nf i eq_refl)|].
    exists old. specialize (Ht t). rewrite E in Ht. destruct Ht as [(C' & Hc' & _ & Hop') _]. congruence.
  Qed.

  (** ** Notifications *)
  Definition pending (h : list (event (nat * X) Y)) (t : nat) (o : nat * X) : Prop :=
    exists h1 h2, h = h1 ++ EInv t o :: h2 /\ forall r, ~ In (ERes t r) h2.
  Lemma last_app {A} (l1 l2 : list A) (x y : A) (l3 : list A) : l1 ++ [x] = l2 ++ y :: l3 ->
    (l3 = [] /\ l1 = l2 /\ x = y) \/ exists l4, l3 = l4 ++ [x] /\ l1 = l2 ++ y :: l4.
  Proof.
    intros H. destruct (@exists_last A (y :: l3)) as (l4 & z & E); [discriminate|]. rewrite E, app_assoc in H.
    apply app_inj_tail in H. destruct H as [H1 H2]. subst z. destruct l4 as [|y' l4].
    - injection E as -> ->. rewrite app_nil_r in H1. auto.
    - injection E as <- ->. right. eauto.
  Qed.
  Lemma pending_snoc h e t o : pending (h ++ [e]) t o -> (e = EInv t o \/ pending h t o) /\ forall r, e <> ERes t r \/ e = EInv t o.
  Proof.
    intros (h1 & h2 & E & N). destruct (last_app _ _ _ _ _ E) as [(-> & -> & ->)|(h4 & -> & ->)].
    - split; auto.
    - split.
      + right. exists h1, h4. split; [reflexivity|]. intros r Hr. apply (N r). apply in_or_app. auto.
      + intros r. left. intros ->. apply (N r). apply in_or_app. right. now left.
  Qed.
  Lemma in_dec_res (h : list (event (nat * X) Y)) t : (exists r, In (ERes t r) h) \/ forall r, ~ In (ERes t r) h.
  Proof.
    induction h as [|e h IH]; [right; intros r []|]. destruct IH as [(r & Hr)|N]; [left; exists r; now right|].
    destruct e as [u o|u r]; [|destruct (Nat.eq_dec u t) as [->|Nu]].
    - right. intros r [K|K]; [discriminate | elim (N r K)].
    - left. exists r. now left.
    - right. intros r' [K|K]; [congruence | elim (N r' K)].
  Qed.
  Lemma returned_snoc h e o : returned (h ++ [e]) o -> returned h o \/ exists t r, e = ERes t r /\ pending h t o.
  Proof.
    intros (h1 & t & h2 & r & h3 & E).
    rewrite app_comm_cons, app_assoc in E. destruct (last_app _ _ _ _ _ E) as [(-> & -> & ->)|(h4 & -> & ->)].
    - destruct (in_dec_res h2 t) as [(r' & Hr)|N].
      + left. destruct (in_split _ _ Hr) as (h5 & h6 & ->). exists h1, t, h5, r', h6. reflexivity.
      + right. exists t, r. split; [reflexivity|]. exists h1, h2. auto.
    - left. exists h1, t, h2, r, h4. now rewrite <- app_assoc.
  Qed.
  Lemma waits_on_running c g a t : good c g -> waits_on g a t -> exists x, running c t (a, x) /\ waits (xop a x) = true.
  Proof.
    intros Hg (k & Hk & Ha & Hw). destruct (phase_runs c g t Hg) as (o & p & E); [right; right; congruence|].
    destruct Hg as [_ Ht]. specialize (Ht t). rewrite E in Ht. destruct Ht as [(k' & Hk' & E1 & E2) _].
    assert (k' = k) by congruence. subst k'. destruct o as [b x]. cbn in *. subst b. rewrite Ha in *. exists x. split; [exists p; exact E | congruence].
  Qed.

  Section Notified.
    Variables (c1 : conf) (g1 : ghost) (l : list (sched fate (nat * X))) (a : nat) (old : Z) (all : bool) (x : X).
    Hypothesis Hx : xop a x = ANotify all.
    Hypothesis Hv : throughout pl impl c1 l (fun c => at_rest pl D (c_mem c) a -> value_of D (c_mem c) a <> old).
    Hypothesis Hone : all = true \/ throughout pl impl c1 l (fun c => forall t u y z,
      running c t (a, y) -> running c u (a, z) -> waits (xop a y) = true -> waits (xop a z) = true -> t = u).
    Notation N1 := (na g1 a).
    Notation W1 := (cw g1 a).
    Record KN (h : list (event (nat * X) Y)) (c : conf) (g : ghost) : Prop := {
      kn_seen : forall e, seen g a old e -> (e <= N1)%nat;
      kn_le : (N1 <= na g a)%nat /\ (W1 <= cw g a)%nat;
      kn_pend : forall t, pending h t (a, x) -> (exists p, c_thr c t = Run (a, x) p) /\
        exists k, cur g t = Some k /\ (N1 <= k_na k)%nat /\ (W1 <= k_cw k)%nat;
      kn_one : all = true \/ cw g a = W1;
      kn_ret : returned h (a, x) -> (N1 + W1 < na g a + cw g a)%nat /\ (all = true -> (N1 < na g a)%nat)
    }.
    Lemma kn_step l1 e l2 h g g2 : l = l1 ++ e :: l2 ->
      let c := fst (run exec impl c1 l1) in let c2 := fst (cstep exec impl c e) in
      good c g -> good c2 g2 -> mono (c_mem c) g (c_mem c2) g2 -> hist pl D (c_mem c) g (c_mem c2) g2 -> gstep c e g g2 ->
      KN h c g -> KN (h ++ snd (cstep exec impl c e)) c2 g2.
    Proof.
      intros El c c2 Hg Hg2 HM [HH1 HH2] HS [K1 [K2 K2'] K3 K4 K5].
      assert (Hat : c2 = fst (run exec impl c1 (l1 ++ [e]))) by (subst c2 c; rewrite run_app, run_cons; reflexivity).
      assert (El' : l = (l1 ++ [e]) ++ l2) by (rewrite <- app_assoc; exact El).
      assert (G1 : forall e0, seen g2 a old e0 -> (e0 <= N1)%nat).
      { intros e0 H. destruct (HH1 _ _ _ H) as [H'|[H1 H2]]; [auto|]. exfalso. apply (Hv _ _ El'); rewrite <- Hat; [exact H1 | exact H2]. }
      pose proof (o_na _ _ _ _ HM a) as Mn. pose proof (o_cw _ _ _ _ HM a) as Mc.
      assert (G4 : all = true \/ cw g2 a = W1).
      { destruct K4 as [K4|K4]; [auto|]. destruct Hone as [H|H]; [auto|]. right.
        destruct (Nat.lt_ge_cases (cw g a) (cw g2 a)) as [L|L]; [|lia]. exfalso.
        destruct (HH2 a L) as (t & u & Ntu & Wt & Wu). destruct (waits_on_running _ _ _ _ Hg2 Wt) as (y & Ry & Wy).
        destruct (waits_on_running _ _ _ _ Hg2 Wu) as (z & Rz & Wz). apply Ntu.
        specialize (H _ _ El'). cbn beta in H. rewrite <- Hat in H. eapply H; eauto. }
      assert (G5 : returned h (a, x) -> (N1 + W1 < na g2 a + cw g2 a)%nat /\ (all = true -> (N1 < na g2 a)%nat)).
      { intros R. destruct (K5 R) as [A B]. split; [lia|]. intros Ea. specialize (B Ea). lia. }
      assert (KK : snd (cstep exec impl c e) = [] ->
        (forall t p, c_thr c t = Run (a, x) p -> (exists p', c_thr c2 t = Run (a, x) p') /\ cur g2 t = cur g t) ->
        KN (h ++ snd (cstep exec impl c e)) c2 g2).
      { intros E Hrun. rewrite E, app_nil_r. constructor; auto; [split; lia|].
        intros t Hp. destruct (K3 t Hp) as ((p & Ep) & k & Ek & L1 & L2). destruct (Hrun t p Ep) as [A B]. split; [exact A|].
        exists k. rewrite B. auto. }
      destruct e as [u o|u w|u].
      - cbn in HS. subst c2. cbn [cstep] in *. destruct (c_thr c u) as [|o' p'] eqn:Eu; cbn in *.
        + subst g2. constructor; auto.
          * intros t Hp. destruct (pending_snoc _ _ _ _ Hp) as [[Hp'|Hp'] _].
            -- injection Hp' as -> ->. cbn. rewrite tset_eq. split; [eauto|]. rewrite fset_eq. eexists. split; [reflexivity|]. cbn. auto.
            -- destruct (K3 t Hp') as ((p & Ep) & k & Ek & L). assert (t <> u) by congruence. cbn. rewrite tset_neq by auto. split; [eauto|].
               exists k. split; [|exact L]. rewrite fset_neq by auto. exact Ek.
          * intros R. destruct (returned_snoc _ _ _ R) as [R'|(t & r & E & _)]; [auto | discriminate].
        + subst g2. apply KK; [reflexivity|]. eauto.
      - assert (Hth : forall t p, c_thr c t = Run (a, x) p -> exists p', c_thr c2 t = Run (a, x) p').
        { intros t p Ep. subst c2. cbn [cstep]. destruct (c_thr c u) as [|o q] eqn:Eu; cbn; [eauto|]. destruct (pstep exec u w (c_mem c) q) as [m' p'].
          cbn. destruct (Nat.eq_dec t u) as [->|Ntu]; [rewrite tset_eq; replace o with (a, x) by congruence; eauto | rewrite tset_neq by auto; eauto]. }
        apply KK.
        + cbn. destruct (c_thr c u); [reflexivity|]. now destruct (pstep _ _ _ _ _).
        + intros t p Ep. split; [eauto|]. destruct HS as [HS|HS]; [|congruence].
          destruct (Nat.eq_dec t u) as [->|Ntu]; [apply (g_cur _ _ _ _ _ _ _ HS)|]. apply (r_cur _ _ _ _ _ _ _ (g_rely _ _ _ _ _ _ _ HS t Ntu)).
      - cbn in HS. subst c2. cbn [cstep] in *. destruct (c_thr c u) as [|o p] eqn:Eu; [subst g2; apply KK; eauto|].
        destruct p as [r|act k|S0 B body s k]; cbn in HS; [|subst g2; apply KK; eauto | subst g2; apply KK; eauto].
        subst g2. cbn [snd fst] in *. constructor; auto.
        + intros t Hp. destruct (pending_snoc _ _ _ _ Hp) as [[Hp'|Hp'] Hr]; [discriminate|].
          destruct (Hr r) as [Hr'|Hr']; [|discriminate]. assert (Ntu : t <> u) by congruence.
          destruct (K3 t Hp') as ((p & Ep) & k & Ek & L). cbn. rewrite tset_neq by auto. split; [eauto|]. exists k. split; [|exact L].
          rewrite fset_neq by auto. exact Ek.
        + intros R. destruct (returned_snoc _ _ _ R) as [R'|(t & r' & E & Hp)]; [auto|]. injection E as <- <-.
          destruct (K3 u Hp) as ((p & Ep) & k & Ek & L1 & L2). rewrite Eu in Ep. injection Ep as -> _.
          destruct Hg as [_ Ht]. specialize (Ht u). rewrite Eu in Ht. destruct Ht as [_ (C & y & E1 & E2 & _ & ((_ & _ & _ & Ec) & _) & Ho)].
          cbn in E1, E2. unfold outcome in Ho. rewrite E2, Hx in Ho. assert (C = k) by congruence. subst C. destruct Ho as [A B].
          rewrite E1 in A, B. unfold leave. cbn. split; [lia|]. intros Ea. specialize (B Ea). lia.
    Qed.
    Theorem notified : good c1 g1 -> returned (snd (run exec impl c1 l)) (a, x) ->
      let c2 := fst (run exec impl c1 l) in lim pl (c_mem c2) \/ d_wait (D a) = WFutex ->
      forall t y, running c2 t (a, y) -> careful (D a) (xop a y) = Some old -> ~ sleeps_in_wait (c_mem c2) t.
    Proof.
      intros Hg Hr c2 HL t y Hrun Hc (f & Hin & Hf).
      destruct (run_good KN l [] c1 g1 Hg) as (g2 & Hg2 & _ & [K1 _ _ K4 K5]).
      - constructor; auto.
        + intros e He. destruct Hg as [HI _]. eapply (i_seen_le _ _ _ _ HI); eauto.
        + intros u (h1 & h2 & E & _). destruct h1; discriminate.
        + intros (h1 & u & h2 & r & h3 & E). destruct h1; discriminate.
      - intros. eapply kn_step; eauto.
      - fold c2 in Hg2. cbn [app] in K5. destruct (K5 Hr) as [A B].
        pose proof Hg2 as [HI Ht].
        assert (HC : exists k e, cur g2 t = Some k /\ ent g2 t = Some e /\ e_ep e = na g2 (k_obj k)).
        { destruct HL as [HL|HL]; [exact (l_cond _ _ (i_lim _ _ _ _ HI HL) t f Hin Hf)|].
          assert (HF : exists b, f = FO b); [|destruct HF as [b ->]; exact (i_fo _ _ _ _ HI t b Hin)].
          pose proof (i_asleep _ _ _ _ HI t f Hin) as Hs. destruct f as [i|i k|b]; [elim (Hf i eq_refl)| |eauto].
          destruct Hs as (_ & e & Ee & Ef). destruct (i_ent _ _ _ _ HI t e Ee) as (k' & Ek' & _ & _ & _ & Hp).
          rewrite Ef in Hp. destruct Hp as (Hp & _). specialize (Ht t). destruct Hrun as (p & Ep). rewrite Ep in Ht.
          destruct Ht as [(k2 & Ek2 & E1 & _) _]. assert (k2 = k') by congruence. subst k2. cbn in E1. rewrite E1 in Hp.
          unfold pooled in Hp. rewrite HL in Hp. discriminate. }
        destruct HC as (k & e & Ek & Ee & Eep).
        destruct (i_ent _ _ _ _ HI t e Ee) as (k' & Ek' & _ & _ & Hs & _). assert (k' = k) by congruence. subst k'.
        specialize (Ht t). destruct Hrun as (p & Ep). rewrite Ep in Ht. destruct Ht as [(k' & Ek2 & E1 & E2) _].
        assert (k' = k) by congruence. subst k'. cbn in E1, E2. rewrite E1 in *. rewrite E2 in Hs. specialize (Hs old Hc).
        specialize (K1 _ Hs). destruct K4 as [K4|K4]; [specialize (B K4); lia | lia].
    Qed.
  End Notified.

  (** ** Deadlines *)
  Lemma late_enough c1 g1 t a x l r : good c1 g1 -> c_thr c1 t = Idle ->
    let c2 := fst (run exec impl c1 (SInv t (a, x) :: l)) in
    c_thr c2 t = Run (a, x) (Ret r) ->
    exists y, r = xret a x y /\ forall k old limit v, xop a x = ATimed k old limit -> y = RWaited v true ->
      match k with WaitFor => clk (c_mem c1) + limit | _ => limit end <= clk (c_mem c2).
  Proof.
    intros Hg Ht c2 Hr. pose (K := fun (_ : list (event (nat * X) Y)) (c : conf) (g : ghost) =>
      clk (c_mem c1) <= clk (c_mem c) /\ forall k, cur g t = Some k -> clk (c_mem c1) <= k_clk k).
    destruct (run_good K (SInv t (a, x) :: l) [] c1 g1 Hg) as (g2 & Hg2 & _ & [_ K2]).
    - split; [lia|]. intros k Hk. destruct Hg as [_ Hg]. specialize (Hg t). rewrite Ht in Hg. destruct Hg as (_ & _ & _ & E & _). congruence.
    - intros l1 e l2 h1 ga gb El ca cb Ga Gb HM HH HS [A B]. pose proof (o_clk _ _ _ _ HM) as Mc. split; [lia|]. intros k Hk.
      destruct e as [u o|u w|u]; cbn in HS.
      + destruct (c_thr ca u) as [|o' p'] eqn:Eu; [|subst gb; auto]. subst gb. unfold enter in Hk. cbn in Hk. rewrite fset_if in Hk.
        destruct (Nat.eqb_spec t u) as [->|N]; [|auto]. injection Hk as <-. exact A.
      + destruct HS as [HS|HS]; [|subst gb; auto]. destruct (Nat.eq_dec t u) as [->|N]; [rewrite (g_cur _ _ _ _ _ _ _ HS) in Hk; auto|].
        rewrite (r_cur _ _ _ _ _ _ _ (g_rely _ _ _ _ _ _ _ HS t N)) in Hk. auto.
      + assert (Hk' : gb = ga \/ gb = leave u ga) by (destruct (c_thr ca u) as [|o' [| |]]; auto).
        destruct Hk' as [Hk'|Hk']; subst gb; [auto|]. unfold leave in Hk. cbn in Hk. rewrite fset_if in Hk. destruct (Nat.eqb t u); [discriminate | auto].
    - fold c2 in Hg2. destruct Hg2 as [_ H2]. specialize (H2 t). rewrite Hr in H2.
      destruct H2 as [_ (C & y & E1 & E2 & Er & ((_ & _ & _ & Ec) & _) & Ho)]. exists y. split; [exact Er|].
      intros k old limit v Hop ->. unfold outcome in Ho. cbn in E2. rewrite E2, Hop in Ho. cbn in Ho. unfold due in Ho.
      specialize (K2 C Ec). destruct k; lia.
  Qed.

  (** ** Failing allocations *)
  Lemma sleeper_has_record c g t i k : good c g -> In (t, FC i k) (slp (c_mem c)) ->
    exists a x, running c t (a, x) /\ i = lockof a /\ find (pl_search pl) (wl (c_mem c) i) (d_addr (D a)) = Some (Some k).
  Proof.
    intros Hg Hin. pose proof Hg as [HI Ht]. destruct (i_asleep _ _ _ _ HI _ _ Hin) as (_ & e & He & Ef).
    destruct (i_ent _ _ _ _ HI t e He) as (C & Hc & _ & _ & _ & A). rewrite Ef in A. destruct A as (_ & Hreg & _).
    destruct (phase_runs c g t Hg) as (o' & p & E); [right; left; congruence|]. specialize (Ht t). rewrite E in Ht.
    destruct Ht as [(C' & Hc' & E1 & _) _]. assert (C' = C) by congruence. subst C'. destruct o' as [a x]. cbn in E1.
    exists a, x. split; [exists p; exact E|]. destruct (i_reg _ _ _ _ HI _ _ _ _ Hreg) as (C' & Hc'' & _ & Ei).
    assert (C' = C) by congruence. subst C'. rewrite E1 in *. split; [exact Ei|].
    pose proof (i_recs _ _ _ _ HI i) as L.
    destruct (linv_find (pl_search pl) (pl_init pl) Hsearch Hinit _ _ (d_addr (D a)) L) as (r & Hf & Hr). rewrite Hf. f_equal. apply Hr.
    assert (Hin' : In (d_addr (D a), k) (map snd (reg g i))) by (apply (in_map snd) in Hreg; exact Hreg).
    exact Hin'.
  Qed.
  Lemma sleeper_on_value c g t b : good c g -> In (t, FO b) (slp (c_mem c)) -> exists x, running c t (b, x) /\ d_wait (D b) = WFutex.
  Proof.
    intros Hg Hin. pose proof Hg as [HI Ht]. destruct (i_asleep _ _ _ _ HI _ _ Hin) as (_ & e & He & Ef).
    destruct (i_ent _ _ _ _ HI t e He) as (C & Hc & _ & _ & _ & A). rewrite Ef in A. destruct A as (Eb & Hw).
    destruct (phase_runs c g t Hg) as (o' & p & E); [right; left; congruence|]. specialize (Ht t). rewrite E in Ht.
    destruct Ht as [(C' & Hc' & E1 & _) _]. assert (C' = C) by congruence. subst C'. destruct o' as [a x]. cbn in E1.
    exists x. split; [|exact Hw]. exists p. congruence.
  Qed.
  (** when no buffer can be allocated, nobody sleeps on a record *)
  Definition starved (e : sched fate (nat * X)) : Prop := match e with SStep _ w => f_buf w = false | _ => True end.
  Definition bare (m : pmem) : Prop := forall i, hdr (wl m i) = None.
  Lemma bare_step m g t a w m' y : Inv m g -> f_buf w = false -> exec t a m w = Some (m', y) -> bare m -> bare m'.
  Proof.
    intros HI Hw E HB i. pose proof (HB i) as Hi. assert (G : forall j u m1, wl (guarded m j u m1) = wl m1) by (intros j u m1; unfold guarded; now destruct (owned m j u)).
    destruct a; cbn in E; try (injection E as E _; subst m'; cbn; rewrite ?G; cbn; exact Hi).
    - destruct ((mx m i0 =? e) && (negb weak || f_lucky w)); injection E as E _; subst m'; exact Hi.
    - destruct (fword m f =? v); injection E as E _; subst m'; exact Hi.
    - destruct (asleep m t); [|injection E as E _; subst m'; exact Hi]. destruct (f_spur w); [injection E as E _; subst m'; exact Hi|].
      destruct deadline as [d|]; [|discriminate]. destruct (d <=? clk m + Z.max 0 (f_adv w)); [|discriminate]. injection E as E _; subst m'; exact Hi.
    - destruct all; [injection E as E _; subst m'; exact Hi|]. destruct (picked m f (f_pick w)); injection E as E _; subst m'; exact Hi.
    - destruct all; [injection E as E _; subst m'; exact Hi|]. destruct (picked m (FC i0 k) (f_pick w)); injection E as E _; subst m'; exact Hi.
    - destruct (own m i0); injection E as E _; subst m'; exact Hi.
    - destruct (own m i0); [discriminate|]. injection E as E _; subst m'; exact Hi.
    - unfold allocate_wait_state, find_or_create in E. rewrite HB, Hw in E. cbn in E. injection E as E _. subst m'. rewrite G. cbn. rewrite fset_if.
      destruct (Nat.eqb_spec i i0); [reflexivity | exact Hi].
    - pose proof (i_recs _ _ _ _ HI i0) as L. unfold linv in L. rewrite HB in L. destruct L as (_ & L & _).
      unfold free_wait_state in E. rewrite L in E. cbn in E. injection E as E _. subst m'. exact Hi.
    - destruct (find (pl_search pl) (wl m i0) z); injection E as E _; subst m'; rewrite ?G; exact Hi.
    - unfold cleanup, free_spare in E. cbn in E. rewrite HB in E. cbn in E. injection E as E _. subst m'. rewrite G. cbn. rewrite fset_if.
      destruct (Nat.eqb_spec i i0); [subst; cbn; exact Hi | exact Hi].
  Qed.
  Lemma starved_bare v m l : pool_start D v m -> Forall starved l -> bare (c_mem (fst (run exec impl (start m) l))).
  Proof.
    intros Hm Hl. destruct (run_good (fun _ c _ => bare (c_mem c)) l [] (start m) (ghost0 m)) as (g & _ & _ & K); auto.
    - eapply start_good; eauto.
    - intros i. destruct Hm as (A & _). cbn. destruct (A i) as (_ & _ & -> & _). reflexivity.
    - intros l1 e l2 h1 g1 g2 El c1 c2 [HI _] _ _ _ _ HB. rewrite El in Hl. apply Forall_app in Hl. destruct Hl as [_ Hl].
      inversion Hl as [|? ? He _]; subst c2. destruct e as [u o|u w|u]; cbn.
      + destruct (c_thr c1 u); exact HB.
      + destruct (c_thr c1 u) as [|o p]; [exact HB|]. destruct p as [r|act k|S0 B body s k]; cbn; [exact HB | | exact HB].
        destruct (exec u act (c_mem c1) w) as [[m' y]|] eqn:E; cbn; [|exact HB]. eapply bare_step; eauto.
      + destruct (c_thr c1 u) as [|o [r|act k|S0 B body s k]]; exact HB.
  Qed.
  Lemma bare_awake c g t i k : good c g -> bare (c_mem c) -> ~ In (t, FC i k) (slp (c_mem c)).
  Proof.
    intros Hg HB Hin. destruct (sleeper_has_record c g t i k Hg Hin) as (a & x & _ & _ & Hf). unfold find in Hf. rewrite HB in Hf. discriminate.
  Qed.
End Runs.

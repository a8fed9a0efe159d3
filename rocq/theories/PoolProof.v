(** * Lock-based objects, waiting and notifying are linearizable: proofs. *)
From Coq Require Import ZArith List Bool Arith Lia.
From Verif Require Import SpecInt SpecLin SpecObj SpecBytes SpecPool Order Conv WordFacts Prog RG FrontProof BytesProof
  FindModel RecordsModel PoolModel.
Import ListNotations.
Open Scope Z_scope.
Open Scope prog_scope.

Lemma fset_eq {A} (f : nat -> A) i x : fset f i x i = x.
Proof. unfold fset. now rewrite Nat.eqb_refl. Qed.
Lemma fset_neq {A} (f : nat -> A) i x j : j <> i -> fset f i x j = f j.
Proof. intros H. unfold fset. apply Nat.eqb_neq in H. now rewrite H. Qed.
Lemma fset_same {A} (f : nat -> A) i j : fset f i (f i) j = f j.
Proof. unfold fset. destruct (Nat.eqb_spec j i) as [E|E]; congruence. Qed.

Lemma odd_land x : (Z.land x locked =? 0) = negb (Z.odd x).
Proof.
  unfold locked. change 1 with (Z.ones 1). rewrite Z.land_ones by lia. change (2 ^ 1) with 2.
  rewrite Zmod_odd. destruct (Z.odd x); reflexivity.
Qed.
Lemma odd_lor x : Z.odd (Z.lor x locked) = true.
Proof. unfold locked. rewrite <- Z.bit0_odd, Z.lor_spec. cbn. apply orb_true_r. Qed.
Lemma odd_lor2 x : Z.odd (Z.lor x contended) = Z.odd x.
Proof. unfold contended. rewrite <- !Z.bit0_odd, Z.lor_spec. cbn. apply orb_false_r. Qed.
Lemma odd_wrap w x : 0 < w -> Z.odd (wrap w x) = Z.odd x.
Proof.
  intros H. unfold wrap. rewrite <- !Z.bit0_odd. rewrite Z.mod_pow2_bits_low; auto.
Qed.
Lemma odd_new x : Z.odd (u32 (Z.land x (Z.lnot locked) + counter_one)) = false.
Proof.
  unfold u32. rewrite odd_wrap by lia. rewrite Z.odd_add. unfold counter_one, locked.
  rewrite <- Z.bit0_odd, Z.land_spec. cbn. now rewrite andb_false_r.
Qed.
Lemma odd_clear x : Z.odd (Z.land x (Z.lnot contended)) = Z.odd x.
Proof. unfold contended. rewrite <- !Z.bit0_odd, Z.land_spec. cbn. apply andb_true_r. Qed.

Section Lin.
  Variable pl : platform.
  Variable D : nat -> odesc.
  Hypothesis HD : layout_ok D.
  Context {C R : Type}.
  Variable xop : nat -> C -> aop.
  Variable xret : nat -> C -> aret -> R.

  Notation search := (pl_search pl).
  Notation init := (pl_init pl).
  Notation exec := (pexec search init).
  Notation bits a := (d_bits (D a)).
  Notation lk := (pl_lock pl).
  Notation state := (nat -> Z).
  Notation lockof a := (lock_of pl (D a)).

  Definition psp (s : state) (c : nat * C) (r : R) (s' : state) : Prop :=
    (exists r0, astep (bits (fst c)) (s (fst c)) (xop (fst c) (snd c)) r0 (s' (fst c)) /\ r = xret (fst c) (snd c) r0) /\
    forall b, b <> fst c -> s' b = s b.

  Definition area (m : pmem) (a : nat) : list Z := bytes_at (byt m) (d_addr (D a)) (d_size (D a)).
  Definition rep (m : pmem) (a : nat) (x : Z) : Prop :=
    area m a = bytes (d_be (D a)) (d_size (D a)) x /\ rng false (bits a) x.

  Record PInv (m : pmem) (s : state) : Prop := {
    v_parity : lk = LFutex -> forall i, Z.odd (mx m i) = true <-> own m i <> None;
    v_range : forall a, rng false (bits a) (s a);
    v_free : forall a, d_locked (D a) = false -> cel m a = s a;
    v_rep : forall a, d_locked (D a) = true -> own m (lockof a) = None -> rep m a (s a)
  }.

  Definition prely (t : nat) (m : pmem) (s : state) (m' : pmem) (s' : state) : Prop :=
    forall i, own m i = Some t -> own m' i = Some t /\
      forall a, d_locked (D a) = true -> lockof a = i -> s' a = s a /\ area m' a = area m a.
  Definition pguar (t : nat) m s m' s' : Prop := forall u, u <> t -> prely u m s m' s'.

  Lemma prely_refl t m s : prely t m s m s.
  Proof. intros i H. auto. Qed.
  Lemma prely_trans t m s m1 s1 m2 s2 : prely t m s m1 s1 -> prely t m1 s1 m2 s2 -> prely t m s m2 s2.
  Proof.
    intros H1 H2 i Ho. destruct (H1 i Ho) as [A1 B1]. destruct (H2 i A1) as [A2 B2]. split; auto.
    intros a La Hi. destruct (B1 a La Hi), (B2 a La Hi). split; congruence.
  Qed.
  Lemma pguar_rely t u m s m' s' : t <> u -> pguar t m s m' s' -> prely u m s m' s'.
  Proof. intros N H. apply H. congruence. Qed.

  Notation safe := (safe exec psp PInv prely pguar).

  (** *** steps that touch neither data nor ownership *)
  Definition quietly (m m' : pmem) : Prop :=
    (forall i, own m' i = own m i) /\ (forall z, byt m' z = byt m z) /\ (forall a, cel m' a = cel m a) /\
    (forall i, Z.odd (mx m' i) = Z.odd (mx m i)).

  Lemma area_ext m m' a : (forall z, byt m' z = byt m z) -> area m' a = area m a.
  Proof. intros H. unfold area, bytes_at. apply map_ext. intros j. apply H. Qed.

  Lemma quietly_inv m m' s : quietly m m' -> PInv m s -> PInv m' s.
  Proof.
    intros (A & B & E & F) [P1 P2 P3 P4]. constructor.
    - intros L i. rewrite F, A. auto.
    - exact P2.
    - intros a H. rewrite E. auto.
    - intros a H. rewrite A. intros N. unfold rep. rewrite (area_ext m m') by auto. now apply P4.
  Qed.
  Lemma quietly_guar t m m' s : quietly m m' -> pguar t m s m' s.
  Proof.
    intros (A & B & _) u N i Ho. rewrite A. split; auto. intros a _ _. split; auto. now apply area_ext.
  Qed.

  Definition stable (t : nat) (K : pmem -> state -> Prop) : Prop :=
    (forall m s m' s', prely t m s m' s' -> K m s -> K m' s') /\
    (forall m s m', quietly m m' -> K m s -> K m' s).

  Lemma stable_true t : stable t (fun _ _ => True).
  Proof. split; auto. Qed.

  (** what an operation can return if it only looks, once its object has been seen holding [v] *)
  Definition Seen (c : nat * C) (v : Z) (obs : R -> Prop) : Prop :=
    forall r0, astep (bits (fst c)) v (xop (fst c) (snd c)) r0 v -> obs (xret (fst c) (snd c) r0).

  Lemma quiet_act t o a st K (P : presp a -> Prop) m s :
    stable t K -> K m s ->
    (forall m1 s1 w m2 x, PInv m1 s1 -> K m1 s1 -> exec t a m1 w = Some (m2, x) -> quietly m1 m2 /\ P x) ->
    safe t o (pdo a) st (fun x st' m' s' => st' = st /\ K m' s' /\ P x) m s.
  Proof.
    intros [S1 S2] HK H. cbn. intros m1 s1 Hr Hi w m2 x He.
    assert (HK1 : K m1 s1) by (eapply S1; eauto).
    destruct (H m1 s1 w m2 x Hi HK1 He) as [Hq HP].
    exists st, s1. split; [constructor|]. split; [now apply quietly_guar|]. split; [eapply quietly_inv; eauto|].
    split; auto. split; auto. eapply S2; eauto.
  Qed.
  Lemma quiet_see t c a obs K (P : presp a -> Prop) (V : presp a -> Z) m s :
    stable t K -> K m s ->
    (forall m1 s1 w m2 x, PInv m1 s1 -> K m1 s1 -> exec t a m1 w = Some (m2, x) -> quietly m1 m2 /\ P x /\ V x = s1 (fst c)) ->
    safe t c (pdo a) (Pend obs)
      (fun x st' m' s' => exists obs', st' = Pend obs' /\ oincl obs obs' /\ Seen c (V x) obs' /\ K m' s' /\ P x) m s.
  Proof.
    intros [S1 S2] HK H. cbn. intros m1 s1 Hr Hi w m2 x He.
    assert (HK1 : K m1 s1) by (eapply S1; eauto).
    destruct (H m1 s1 w m2 x Hi HK1 He) as (Hq & HP & HV).
    exists (Pend (fun r => obs r \/ psp s1 c r s1)), s1. split; [constructor; auto|].
    split; [now apply quietly_guar|]. split; [eapply quietly_inv; eauto|].
    exists (fun r => obs r \/ psp s1 c r s1). split; auto. split; [intros r; auto|].
    split; [|split; auto; eapply S2; eauto].
    intros r0 Hr0. right. rewrite HV in Hr0. split; eauto.
  Qed.

  Lemma q_refl m : quietly m m.
  Proof. repeat split. Qed.
  Lemma q_guarded m i t m' : quietly m m' -> quietly m (guarded m i t m').
  Proof. intros H. unfold guarded. destruct (owned m i t); auto. Qed.

  (** actions that are always quiet *)
  Definition quiet_a (a : pact) : bool :=
    match a with
    | MCas _ _ _ _ _ _ | MOr _ _ _ | OsTry _ | OsLock _ | OsUnlock _ | CvWait _ _ | BWr _ _ _ | ACell _ _ _ | ACellUpd _ _ _ => false
    | _ => true
    end.
  Lemma quiet_a_ok t a m w m' x : quiet_a a = true -> exec t a m w = Some (m', x) -> quietly m m'.
  Proof.
    destruct a; cbn; try discriminate; intros _ H;
      repeat match type of H with
             | context [if ?b then _ else _] => destruct b
             | context [match ?b with _ => _ end] => destruct b
             end; try discriminate; injection H as <- _; try apply q_guarded; repeat split.
  Qed.

  Lemma quiet_do t o a st K m s : stable t K -> K m s -> quiet_a a = true ->
    safe t o (pdo a) st (fun x st' m' s' => st' = st /\ K m' s') m s.
  Proof.
    intros HS HK Ha. eapply safe_mono; [|apply (quiet_act t o a st K (fun _ => True)); auto].
    - cbn. intros x st' m' s' (A & B & _). auto.
    - intros m1 s1 w m2 x _ _ He. split; auto. eapply quiet_a_ok; eauto.
  Qed.

  (** *** holding a lock *)
  Definition Held (t i : nat) (m : pmem) (s : state) : Prop :=
    own m i = Some t /\ forall b, d_locked (D b) = true -> lockof b = i -> rep m b (s b).
  Lemma held_stable t i : stable t (Held t i).
  Proof.
    split.
    - intros m s m' s' Hr [Ho H]. destruct (Hr i Ho) as [A B]. split; auto.
      intros b Lb Hb. destruct (B b Lb Hb) as [E1 E2]. unfold rep. rewrite E2, E1. now apply H.
    - intros m s m' (A & B & _) [Ho H]. split; [now rewrite A|].
      intros b Lb Hb. unfold rep. rewrite (area_ext m m') by auto. now apply H.
  Qed.

  (** taking a lock *)
  Lemma take_ok t i m1 s1 m2 : PInv m1 s1 -> own m1 i = None ->
    (forall j, own m2 j = if Nat.eqb j i then Some t else own m1 j) ->
    (forall z, byt m2 z = byt m1 z) -> (forall a, cel m2 a = cel m1 a) ->
    (lk = LFutex -> forall j, Z.odd (mx m2 j) = if Nat.eqb j i then true else Z.odd (mx m1 j)) ->
    pguar t m1 s1 m2 s1 /\ PInv m2 s1 /\ Held t i m2 s1.
  Proof.
    intros [P1 P2 P3 P4] Ho Hown Hb Hc Hp. split; [|split].
    - intros u Nu j Hj. rewrite Hown. destruct (Nat.eqb_spec j i) as [E|E].
      + subst j. congruence.
      + split; auto. intros a _ _. split; auto. now apply area_ext.
    - constructor; auto.
      + intros L j. rewrite Hp, Hown by auto. destruct (Nat.eqb_spec j i); [split; congruence | auto].
      + intros a La. rewrite Hc. auto.
      + intros a La Hn. rewrite Hown in Hn. destruct (Nat.eqb_spec (lockof a) i) as [E|E]; [discriminate|].
        unfold rep. rewrite (area_ext m1 m2) by auto. now apply P4.
    - split; [rewrite Hown; now rewrite Nat.eqb_refl|]. intros b Lb Hb'. unfold rep. rewrite (area_ext m1 m2) by auto.
      apply P4; auto. now rewrite Hb'.
  Qed.

  (** a compare-exchange of the futex word that does not change its lowest bit *)
  Lemma cas_quiet {so fo} t weak i e d m s w m' x : lk = LFutex -> PInv m s -> Z.odd e = Z.odd d ->
    exec t (MCas weak i e d so fo) m w = Some (m', x) -> quietly m m'.
  Proof.
    intros L HI Hod He. cbn in He. destruct ((mx m i =? e) && (negb weak || f_lucky w)) eqn:Ec;
      injection He as <- <-; [|apply q_refl].
    apply andb_true_iff in Ec. destruct Ec as [Ec _]. apply Z.eqb_eq in Ec.
    pose proof (v_parity _ _ HI L i) as Hp. rewrite Ec, Hod in Hp.
    repeat split; intros j; cbn.
    - destruct (Nat.eq_dec j i) as [Ej|Ej]; [subst j; rewrite fset_eq | now rewrite fset_neq].
      rewrite Hod. destruct (Z.odd d); auto. destruct (own m i); auto. assert (false = true) by (apply Hp; discriminate). discriminate.
    - destruct (Nat.eq_dec j i) as [Ej|Ej]; [subst j; rewrite fset_eq; congruence | now rewrite fset_neq].
  Qed.
  Lemma cas_neutral {so fo} t o weak i e d st m s : lk = LFutex -> Z.odd e = Z.odd d ->
    safe t o (pdo (MCas weak i e d so fo)) st (fun _ st' _ _ => st' = st) m s.
  Proof.
    intros L H. eapply safe_mono; [|apply (quiet_act t o _ st (fun _ _ => True) (fun _ => True)); auto using stable_true].
    - cbn. intros x st' m' s' (A & _). auto.
    - intros m1 s1 w m2 x Hi _ He. split; auto. eapply cas_quiet; eauto.
  Qed.
  (** ... that takes the lock *)
  Lemma cas_take {so fo} t o weak i e d st m s : lk = LFutex -> Z.odd e = false -> Z.odd d = true ->
    safe t o (pdo (MCas weak i e d so fo)) st
      (fun x st' m' s' => st' = st /\ if fst x : bool then Held t i m' s' else True) m s.
  Proof.
    intros L He Hd. cbn. intros m1 s1 Hr Hi w m2 x Hx.
    destruct ((mx m1 i =? e) && (negb weak || f_lucky w)) eqn:Ec; injection Hx as <- <-.
    - apply andb_true_iff in Ec. destruct Ec as [Ec _]. apply Z.eqb_eq in Ec.
      pose proof (v_parity _ _ Hi L i) as Hp. rewrite Ec, He in Hp.
      assert (Hn : own m1 i = None).
      { destruct (own m1 i); auto. assert (false = true) by (apply Hp; discriminate). discriminate. }
      destruct (take_ok t i m1 s1 (set_mx m1 i d (if Z.odd d then if Z.odd e then own m1 i else Some t else None)
         (if Z.odd e && negb (Z.odd d) then unl m1 i + 1 else unl m1 i))) as (G & I & H); auto.
      + intros j. cbn. rewrite Hd, He. unfold fset. reflexivity.
      + intros _ j. cbn. unfold fset. destruct (Nat.eqb j i); auto.
      + exists st, s1. split; [constructor|]. auto.
    - exists st, s1. split; [constructor|]. split; [apply quietly_guar, q_refl|]. split; auto. split; [reflexivity|exact I].
  Qed.

  Ltac sbind := apply safe_bind.
  Ltac smono lem := eapply safe_mono; [|apply lem].

  Lemma pure_do t o a st m s : quiet_a a = true -> safe t o (pdo a) st (fun _ st' _ _ => st' = st) m s.
  Proof.
    intros Ha. eapply safe_mono; [|apply (quiet_do t o a st (fun _ _ => True)); auto using stable_true].
    cbn. intros x st' m' s' [A _]. exact A.
  Qed.

  Ltac spure := apply safe_bind; (eapply safe_mono; [|apply pure_do; reflexivity]); cbn beta.

  Lemma sloop {X B} t o (body : X -> pprog (X + B)) x0 st (J : X -> status -> pmem -> state -> Prop) Q m s :
    J x0 st m s ->
    (forall x st m s, J x st m s ->
       safe t o (body x) st (fun y st' m' s' => match y with inl x' => J x' st' m' s' | inr b => Q b st' m' s' end) m s) ->
    safe t o (loop x0 body) st Q m s.
  Proof.
    intros H0 HJ. unfold loop. cbn. exists J. split; auto.
  Qed.

  Lemma futex_wait_on_ok t o f v st m s : safe t o (futex_wait_on f v) st (fun _ st' _ _ => st' = st) m s.
  Proof.
    unfold futex_wait_on. spure. intros q st1 m1 s1 ->. destruct q.
    - spure. intros x st2 m2 s2 ->. reflexivity.
    - reflexivity.
  Qed.

  Lemma slow_path_ok t o i st m s : lk = LFutex ->
    safe t o (lock_slow_path i) st (fun _ st' m' s' => st' = st /\ Held t i m' s') m s.
  Proof.
    intros L. unfold lock_slow_path. spure. intros prev st1 m1 s1 ->.
    unfold loop. cbn -[bind]. exists (fun _ st' _ _ => st' = st). split; auto.
    intros p st2 m2 s2 ->. rewrite odd_land. destruct (Z.odd p) eqn:Ep; cbn [negb].
    - sbind. smono (@cas_neutral Order.Relaxed Order.Relaxed t o true i p (Z.lor p contended)); [|auto|now rewrite odd_lor2].
      intros [b cur] st3 m3 s3 ->. destruct b; [|reflexivity].
      sbind. smono futex_wait_on_ok. cbn beta. intros _ st4 m4 s4 ->.
      spure. intros x st5 m5 s5 ->. reflexivity.
    - sbind. smono (@cas_take Order.Acquire Order.Relaxed t o true i p (Z.lor p locked)); auto using odd_lor.
      intros [b cur] st3 m3 s3 [-> H]. destruct b; cbn; auto.
  Qed.

  Lemma futex_spin_ok t o i n st : lk = LFutex -> forall m s,
    safe t o (futex_spin n i) st (fun _ st' m' s' => st' = st /\ Held t i m' s') m s.
  Proof.
    intros L. induction n as [|n IH]; intros m s; cbn [futex_spin]; [now apply slow_path_ok|].
    spure. intros p st1 m1 s1 ->. rewrite odd_land. destruct (Z.odd p) eqn:Ep; cbn [negb].
    - spure. intros _ st2 m2 s2 ->. apply IH.
    - sbind. smono (@cas_take Order.Acquire Order.Relaxed t o false i p (Z.lor p locked)); auto using odd_lor.
      intros [b cur] st3 m3 s3 [-> H]. destruct b; [cbn; auto|].
      spure. intros _ st2 m2 s2 ->. apply IH.
  Qed.

  Lemma os_lock_ok t o i st m s : lk <> LFutex ->
    safe t o (pdo (OsLock i)) st (fun _ st' m' s' => st' = st /\ Held t i m' s') m s.
  Proof.
    intros L. cbn. intros m1 s1 Hr Hi w m2 x He. destruct (own m1 i) eqn:Eo; [discriminate|]. injection He as <- <-.
    destruct (take_ok t i m1 s1 (set_own m1 i (Some t))) as (G & I & H); auto; try congruence.
    exists st, s1. split; [constructor|]. auto.
  Qed.
  Lemma os_spin_ok t o i n st : lk <> LFutex -> forall m s,
    safe t o (os_spin n i) st (fun _ st' m' s' => st' = st /\ Held t i m' s') m s.
  Proof.
    intros L. induction n as [|n IH]; intros m s; cbn [os_spin]; [now apply os_lock_ok|].
    sbind. cbn. intros m1 s1 Hr Hi w m2 x He. destruct (own m1 i) eqn:Eo; injection He as <- <-.
    - exists st, s1. split; [constructor|]. split; [apply quietly_guar, q_refl|]. split; auto.
      change (safe t o (pdo Pause ;;; os_spin n i) st (fun _ st' m' s' => st' = st /\ Held t i m' s') m1 s1).
      spure. intros _ st2 m2 s2 ->. apply IH.
    - destruct (take_ok t i m1 s1 (set_own m1 i (Some t))) as (G & I & H); auto; try congruence.
      exists st, s1. split; [constructor|]. split; auto. split; auto. cbn. auto.
  Qed.

  Lemma acquire_ok t o i st m s :
    safe t o (acquire lk i) st (fun _ st' m' s' => st' = st /\ Held t i m' s') m s.
  Proof.
    unfold acquire. destruct lk eqn:L.
    - apply os_spin_ok. congruence.
    - now apply futex_spin_ok.
    - apply os_lock_ok. congruence.
  Qed.

  (** *** releasing: the point where an operation on the objects of the lock takes effect *)
  Definition effect_at (t i : nat) (o : nat * C) (st : status) (K : pmem -> state -> Prop) (Q : status -> Prop) : Prop :=
    forall m1 s1, K m1 s1 -> PInv m1 s1 -> exists st2 s2, linstep psp o st s1 st2 s2 /\ Q st2 /\
      (forall b, d_locked (D b) = true -> lockof b = i -> rep m1 b (s2 b)) /\
      (forall b, d_locked (D b) = true /\ lockof b = i \/ s2 b = s1 b) /\
      (forall b, rng false (bits b) (s2 b)).

  Lemma give_ok t i o st K (Q : status -> Prop) m1 s1 m2 :
    effect_at t i o st K Q -> K m1 s1 -> PInv m1 s1 -> own m1 i = Some t ->
    (forall j, own m2 j = if Nat.eqb j i then None else own m1 j) ->
    (forall z, byt m2 z = byt m1 z) -> (forall a, cel m2 a = cel m1 a) ->
    (lk = LFutex -> forall j, Z.odd (mx m2 j) = if Nat.eqb j i then false else Z.odd (mx m1 j)) ->
    exists st2 s2, linstep psp o st s1 st2 s2 /\ pguar t m1 s1 m2 s2 /\ PInv m2 s2 /\ Q st2.
  Proof.
    intros HE HK [P1 P2 P3 P4] Ho Hown Hb Hc Hp.
    destruct (HE m1 s1 HK) as (st2 & s2 & L & HQ & Hrep & Hoth & Hrng); [constructor; auto|].
    exists st2, s2. split; auto. split; [|split; auto].
    - intros u Nu j Hj. rewrite Hown. destruct (Nat.eqb_spec j i) as [E|E].
      + subst j. congruence.
      + split; auto. intros a La Ha. split; [|now apply area_ext]. destruct (Hoth a) as [[_ H]|H]; [congruence | auto].
    - constructor; auto.
      + intros Lk j. rewrite Hp, Hown by auto. destruct (Nat.eqb_spec j i); [split; congruence | auto].
      + intros a La. rewrite Hc, P3 by auto. destruct (Hoth a) as [[H _]|H]; [congruence | auto].
      + intros a La Hn. rewrite Hown in Hn. unfold rep. rewrite (area_ext m1 m2) by auto.
        destruct (Nat.eqb_spec (lockof a) i) as [E|E]; [now apply Hrep|].
        destruct (Hoth a) as [[_ H]|H]; [congruence|]. rewrite H. now apply P4.
  Qed.

  Lemma unlock_word_odd t i m s : lk = LFutex -> PInv m s -> own m i = Some t -> Z.odd (mx m i) = true.
  Proof. intros L HI Ho. apply (v_parity _ _ HI L i). rewrite Ho. discriminate. Qed.

  Lemma cas_give {so fo} t o weak i p nw st K (Q : status -> Prop) m s : lk = LFutex ->
    stable t K -> (forall m s, K m s -> own m i = Some t) -> effect_at t i o st K Q -> K m s ->
    Z.odd p = true -> Z.odd nw = false ->
    safe t o (pdo (MCas weak i p nw so fo)) st
      (fun x st' m' s' => if fst x : bool then Q st' else st' = st /\ K m' s' /\ Z.odd (snd x) = true) m s.
  Proof.
    intros L HS HO HE HK Hp Hn. cbn. intros m3 s3 Hr3 Hi3 w m4 x He.
    assert (HK3 : K m3 s3) by (eapply (proj1 HS); eauto).
    destruct ((mx m3 i =? p) && (negb weak || f_lucky w)) eqn:Ec; injection He as <- <-.
    - destruct (give_ok t i o st K Q m3 s3 (set_mx m3 i nw (if Z.odd nw then if Z.odd p then own m3 i else Some t else None)
         (if Z.odd p && negb (Z.odd nw) then unl m3 i + 1 else unl m3 i))) as (st4 & s4 & A & B & E & F); auto.
      + eapply HO; eauto.
      + intros j. cbn. rewrite Hn. unfold fset. reflexivity.
      + intros _ j. cbn. unfold fset. destruct (Nat.eqb j i); auto.
      + exists st4, s4. auto.
    - exists st, s3. split; [constructor|]. split; [apply quietly_guar, q_refl|]. split; auto. cbn.
      split; auto. split; auto. eapply unlock_word_odd; eauto.
  Qed.

  Lemma futex_unlock_ok t o i st K (Q : status -> Prop) m s : lk = LFutex ->
    stable t K -> (forall m s, K m s -> own m i = Some t) -> effect_at t i o st K Q -> K m s ->
    safe t o (futex_unlock i) st (fun _ st' _ _ => Q st') m s.
  Proof.
    intros L HS HO HE HK. unfold futex_unlock. sbind.
    smono (quiet_act t o (MLoad i Relaxed) st K (fun x : presp (MLoad i Relaxed) => Z.odd x = true)); [|exact HS|exact HK|].
    2: { intros m1 s1 w m2 x Hi HK1 He. cbn in He. injection He as <- <-. split; [apply q_refl|].
         eapply unlock_word_odd; eauto. }
    intros p st1 m1 s1 (-> & HK1 & Hodd). cbn [presp] in p. sbind.
    apply (sloop t o _ p st (fun p st' m' s' => st' = st /\ K m' s' /\ Z.odd p = true)); auto.
    intros p2 st2 m2 s2 (-> & HK2 & Ho2). sbind.
    set (nw := u32 (Z.land p2 (Z.lnot locked) + counter_one)).
    smono (@cas_give Order.Release Order.Relaxed t o true i p2 nw st K Q); auto; [|unfold nw; apply odd_new].
    intros [b cur] st3 m3 s3 H3. cbn [fst snd] in H3. destruct b; [|exact H3].
    change (safe t o (if negb (Z.land p2 contended =? 0) then
      (woken <- pdo (FWake (FM i) false) ;;
       if Nat.eqb woken 0 then (pdo (MCas false i nw (Z.land nw (Z.lnot contended)) Relaxed Relaxed) ;;; Ret tt) else Ret tt) else Ret tt)
       st3 (fun _ st' _ _ => Q st') m3 s3).
    destruct (negb (Z.land p2 contended =? 0)); [|exact H3].
    spure. intros wk st5 m5 s5 ->. destruct (Nat.eqb wk 0); [|exact H3].
    sbind. smono (@cas_neutral Order.Relaxed Order.Relaxed t o false i nw (Z.land nw (Z.lnot contended))); [|auto|now rewrite odd_clear].
    cbn. intros _ st6 m6 s6 ->. exact H3.
  Qed.

  Lemma os_unlock_ok t o i st K (Q : status -> Prop) m s : lk <> LFutex ->
    stable t K -> (forall m s, K m s -> own m i = Some t) -> effect_at t i o st K Q -> K m s ->
    safe t o (pdo (OsUnlock i)) st (fun _ st' _ _ => Q st') m s.
  Proof.
    intros L HS HO HE HK. cbn. intros m1 s1 Hr Hi w m2 x He. injection He as <- <-.
    assert (HK1 : K m1 s1) by (eapply (proj1 HS); eauto).
    assert (Hg : guarded m1 i t (set_own m1 i None) = set_own m1 i None).
    { unfold guarded, owned. rewrite (HO _ _ HK1). now rewrite Nat.eqb_refl. }
    rewrite Hg.
    destruct (give_ok t i o st K Q m1 s1 (set_own m1 i None)) as (st4 & s4 & A & B & E & F);
      eauto; [intros; congruence|]. exists st4, s4. auto.
  Qed.

  Lemma release_ok t o i st K (Q : status -> Prop) m s :
    stable t K -> (forall m s, K m s -> own m i = Some t) -> effect_at t i o st K Q -> K m s ->
    safe t o (release lk i) st (fun _ st' _ _ => Q st') m s.
  Proof.
    unfold release. destruct lk eqn:L; intros.
    - eapply os_unlock_ok; eauto. congruence.
    - eapply futex_unlock_ok; eauto.
    - eapply os_unlock_ok; eauto. congruence.
  Qed.

  Lemma held_effect t i o st : effect_at t i o st (Held t i) (fun st' => st' = st).
  Proof.
    intros m1 s1 [Ho Hr] Hi. exists st, s1. split; [constructor|]. split; auto. split; auto. split; [auto|].
    apply Hi.
  Qed.
  Lemma release_held t o i st m s : Held t i m s ->
    safe t o (release lk i) st (fun _ st' _ _ => st' = st) m s.
  Proof.
    intros H. eapply (release_ok t o i st (Held t i) (fun st' => st' = st)); eauto using held_stable, held_effect.
    intros m0 s0 [A _]. exact A.
  Qed.

  (** *** waiting: the lock is given up and taken again, nothing else happens *)
  Lemma futex_unlock_held t o i st m s : lk = LFutex -> Held t i m s ->
    safe t o (futex_unlock i) st (fun _ st' _ _ => st' = st) m s.
  Proof.
    intros L H. eapply (futex_unlock_ok t o i st (Held t i) (fun st' => st' = st)); eauto using held_stable, held_effect.
    intros m0 s0 [A _]. exact A.
  Qed.

  Ltac sheld t i := apply safe_bind; (eapply safe_mono; [|eapply (quiet_do t _ _ _ (Held t i)); [apply held_stable|assumption|reflexivity]]); cbn beta.

  Lemma futex_enter_ok t o i k st m s : lk = LFutex -> Held t i m s ->
    safe t o (futex_enter i k) st (fun _ st' _ _ => st' = st) m s.
  Proof.
    intros L H. unfold futex_enter. sheld t i. intros pc st1 m1 s1 [-> H1].
    sheld t i. intros c st2 m2 s2 [-> H2]. sheld t i. intros _ st3 m3 s3 [-> H3].
    sbind. smono futex_unlock_held; [|auto..]. intros _ st4 m4 s4 ->. reflexivity.
  Qed.
  Lemma futex_leave_ok t o i k st m s : lk = LFutex ->
    safe t o (futex_leave i k) st (fun _ st' m' s' => st' = st /\ Held t i m' s') m s.
  Proof.
    intros L. unfold futex_leave. sbind. smono futex_spin_ok; [|auto..]. intros _ st1 m1 s1 [-> H1].
    sheld t i. intros c st2 m2 s2 [-> H2].
    apply (quiet_do t o (WcSet i k (c - 1)) st (Held t i)); auto using held_stable.
  Qed.
  Lemma cond_sleep_ok t o i k pc dl st m s : safe t o (cond_sleep i k pc dl) st (fun _ st' _ _ => st' = st) m s.
  Proof.
    unfold cond_sleep. spure. intros q st1 m1 s1 ->. destruct q; [|reflexivity].
    spure. intros r st2 m2 s2 ->. reflexivity.
  Qed.
  Lemma cond_loop_ok t o i k pc dl st m s : safe t o (cond_loop i k pc dl) st (fun _ st' _ _ => st' = st) m s.
  Proof.
    unfold cond_loop. apply (sloop t o _ tt st (fun _ st' _ _ => st' = st)); auto.
    intros _ st1 m1 s1 ->. sbind. smono cond_sleep_ok. intros r st2 m2 s2 ->.
    destruct r as [[]|]; cbn -[bind]; auto; spure; intros c st3 m3 s3 ->; destruct (c =? pc); reflexivity.
  Qed.
  Lemma cond_loop_rel_ok t o req i k pc dl st m s : safe t o (cond_loop_rel req i k pc dl) st (fun _ st' _ _ => st' = st) m s.
  Proof.
    unfold cond_loop_rel. spure. intros now st0 m0 s0 ->. apply (sloop t o _ now st (fun _ st' _ _ => st' = st)); auto.
    intros x st1 m1 s1 ->. destruct (dl - x <=? 0); [reflexivity|].
    spure. intros start st2 m2 s2 ->. sbind. smono cond_sleep_ok. intros r st3 m3 s3 ->.
    spure. intros n2 st4 m4 s4 ->. spure. intros c st5 m5 s5 ->. destruct (c =? pc); reflexivity.
  Qed.
  Lemma cv_ok t o i k st m s : lk <> LFutex -> Held t i m s ->
    safe t o (pdo (CvWait i k)) st (fun _ st' _ _ => st' = st) m s.
  Proof.
    intros L HK. cbn. intros m1 s1 Hr Hi w m2 x He. injection He as <- <-.
    assert (HK1 : Held t i m1 s1) by (eapply (proj1 (held_stable t i)); eauto).
    set (m2 := set_slp (set_own m1 i None) ((t, FC i k) :: slp m1)).
    assert (Hg : guarded m1 i t m2 = m2).
    { unfold guarded, owned. rewrite (proj1 HK1). now rewrite Nat.eqb_refl. }
    rewrite Hg.
    destruct (give_ok t i o st (Held t i) (fun st' => st' = st) m1 s1 m2) as (st4 & s4 & A & B & E & F); auto.
    - apply held_effect.
    - apply HK1.
    - intros; congruence.
    - exists st4, s4. auto.
  Qed.
  Definition regained {A} (t i : nat) (st : @status R) : A -> @status R -> pmem -> state -> Prop :=
    fun _ st' m' s' => st' = st /\ Held t i m' s'.
  Lemma os_wait_ok t o i k dl st m s : lk <> LFutex -> Held t i m s -> safe t o (os_wait i k dl) st (regained t i st) m s.
  Proof.
    intros L H. unfold os_wait. sbind. smono cv_ok; [|auto..]. intros _ st1 m1 s1 ->.
    spure. intros r st2 m2 s2 ->. sbind. smono os_lock_ok; [|auto..]. intros _ st3 m3 s3 [-> H3]. split; auto.
  Qed.
  Lemma os_wait_for_ok t o req i k d st m s : lk <> LFutex -> Held t i m s ->
    safe t o (os_wait_for req i k d) st (regained t i st) m s.
  Proof.
    intros L H. unfold os_wait_for. sheld t i. intros now st1 m1 s1 [-> H1].
    sbind. smono os_wait_ok; [|auto..]. intros r st2 m2 s2 [-> H2]. split; auto.
  Qed.
  Lemma nap_ok t o i st m s : Held t i m s ->
    safe t o (release lk i ;;; pdo Pause ;;; acquire lk i) st (regained t i st) m s.
  Proof.
    intros H. sbind. smono release_held; [|auto..]. intros _ st1 m1 s1 ->. spure. intros _ st2 m2 s2 ->. apply acquire_ok.
  Qed.
  Lemma futex_case : lk = LFutex \/ lk <> LFutex.
  Proof. destruct lk; auto; right; discriminate. Qed.

  Lemma pool_wait_ok t o i ws st m s : Held t i m s -> safe t o (pool_wait pl i ws) st (regained t i st) m s.
  Proof.
    intros H. unfold pool_wait. destruct ws as [k|]; [|now apply nap_ok].
    destruct futex_case as [L|L].
    - rewrite L. sbind. smono futex_enter_ok; [|auto..]. intros pc st1 m1 s1 ->.
      sbind. smono cond_loop_ok. intros b st2 m2 s2 ->. now apply futex_leave_ok.
    - assert (Hp : safe t o (os_wait i k None ;;; Ret tt) st (regained t i st) m s).
      { sbind. smono os_wait_ok; [|auto..]. intros r st1 m1 s1 [-> H1]. split; auto. }
      revert Hp L; destruct lk; intros Hp L; auto; congruence.
  Qed.
  Lemma pool_wait_until_ok t o i ws dl st m s : Held t i m s -> safe t o (pool_wait_until pl i ws dl) st (regained t i st) m s.
  Proof.
    intros H. unfold pool_wait_until. destruct ws as [k|].
    - destruct futex_case as [L|L].
      + rewrite L. sbind. smono futex_enter_ok; [|auto..]. intros pc st1 m1 s1 ->. sbind.
        eapply safe_mono with (Q := fun _ st' _ _ => st' = st).
        * intros r st2 m2 s2 ->. sbind. smono futex_leave_ok; [|auto..]. intros _ st3 m3 s3 [-> H3]. split; auto.
        * destruct (pl_bitset pl); [apply cond_loop_ok | apply cond_loop_rel_ok].
      + assert (Hp : safe t o (if pl_bitset pl then r <- os_wait i k (Some dl) ;; Ret (match r with TimedOut => true | _ => false end)
            else loop tt (fun _ =>
                   now <- pdo Now ;;
                   if dl <=? (now : Z) then Ret (inr true)
                   else b <- os_wait_for (fun _ d => d) i k (dl - (now : Z)) ;; (if b : bool then Ret (inl tt) else Ret (inr false))))
            st (regained t i st) m s).
        { destruct (pl_bitset pl).
          - sbind. smono os_wait_ok; [|auto..]. intros r st1 m1 s1 [-> H1]. split; auto.
          - apply (sloop t o _ tt st (fun _ st' m' s' => st' = st /\ Held t i m' s')); auto.
            intros _ st1 m1 s1 [-> H1]. sheld t i. intros now st2 m2 s2 [-> H2]. destruct (dl <=? now); [split; auto|].
            sbind. smono os_wait_for_ok; [|auto..]. intros b st3 m3 s3 [-> H3]. destruct b; split; auto. }
        revert Hp L; destruct lk; intros Hp L; auto; congruence.
    - sbind. smono release_held; [|auto..]. intros _ st1 m1 s1 ->. spure. intros _ st2 m2 s2 ->.
      sbind. smono acquire_ok. intros _ st3 m3 s3 [-> H3]. sheld t i. intros now st4 m4 s4 [-> H4]. split; auto.
  Qed.
  Lemma pool_wait_for_ok t o i ws d st m s : Held t i m s -> safe t o (pool_wait_for pl i ws d) st (regained t i st) m s.
  Proof.
    intros H. unfold pool_wait_for. destruct ws as [k|].
    - destruct futex_case as [L|L].
      + rewrite L. sbind. smono futex_enter_ok; [|auto..]. intros pc st1 m1 s1 ->.
        spure. intros start st2 m2 s2 ->. sbind. smono cond_sleep_ok. intros r st3 m3 s3 ->.
        sbind. smono futex_leave_ok; [|auto..]. intros _ st4 m4 s4 [-> H4]. split; auto.
      + assert (Hp := os_wait_for_ok t o (pl_req pl) i k d st m s L H). revert Hp L; destruct lk; intros Hp L; auto; congruence.
    - sheld t i. intros start st0 m0 s0 [-> H0].
      sbind. smono release_held; [|auto..]. intros _ st1 m1 s1 ->. spure. intros _ st2 m2 s2 ->.
      sbind. smono acquire_ok. intros _ st3 m3 s3 [-> H3]. sheld t i. intros now st4 m4 s4 [-> H4]. split; auto.
  Qed.
  Lemma pool_notify_ok t o i z all st m s : Held t i m s -> safe t o (pool_notify pl i z all) st (regained t i st) m s.
  Proof.
    intros H. unfold pool_notify. sheld t i. intros ws st1 m1 s1 [-> H1]. destruct ws as [k|]; [|split; auto].
    destruct futex_case as [L|L].
    - rewrite L. sheld t i. intros _ st2 m2 s2 [-> H2]. sheld t i. intros c st3 m3 s3 [-> H3].
      destruct (0 <? c); [|split; auto]. sheld t i. intros _ st4 m4 s4 [-> H4].
      smono (quiet_act t o (MOr i contended Relaxed) st (Held t i) (fun _ => True)); [|auto using held_stable..].
      + intros u st5 m5 s5 (-> & H5 & _). split; auto.
      + intros m5 s5 w m6 x Hi _ He. cbn in He. injection He as <- <-. split; auto.
        repeat split; intros j; cbn; try apply fset_same.
        unfold fset. destruct (Nat.eqb_spec j i) as [E|E]; auto. rewrite odd_lor2. now subst.
    - assert (Hp : safe t o (pdo (FWake (FC i k) all) ;;; Ret tt) st (regained t i st) m1 s1).
      { sheld t i. intros c st3 m3 s3 [-> H3]. split; auto. }
      revert Hp L; destruct lk; intros Hp L; auto; congruence.
  Qed.

  (** *** the data of a lock-based object *)
  Definition Dirty (t a : nat) (l : list Z) (x : Z) (m : pmem) (s : state) : Prop :=
    own m (lockof a) = Some t /\ area m a = l /\ s a = x /\
    forall b, b <> a -> d_locked (D b) = true -> lockof b = lockof a -> rep m b (s b).

  Lemma dirty_stable t a l x : d_locked (D a) = true -> stable t (Dirty t a l x).
  Proof.
    intros La. split.
    - intros m s m' s' Hr (Ho & Ha & Hx & H). destruct (Hr _ Ho) as [A B]. split; auto.
      destruct (B a La eq_refl) as [E1 E2]. split; [congruence|]. split; [congruence|].
      intros b Nb Lb Hb. destruct (B b Lb Hb) as [F1 F2]. unfold rep. rewrite F2, F1. now apply H.
    - intros m s m' (A & B & _) (Ho & Ha & Hx & H). split; [now rewrite A|]. rewrite (area_ext m m') by auto.
      split; auto. split; auto. intros b Nb Lb Hb. unfold rep. rewrite (area_ext m m') by auto. now apply H.
  Qed.

  Lemma held_dirty t a m s : d_locked (D a) = true -> Held t (lockof a) m s ->
    Dirty t a (bytes (d_be (D a)) (d_size (D a)) (s a)) (s a) m s.
  Proof. intros La [Ho H]. split; auto. split; [now apply (H a)|]. split; auto. Qed.
  Lemma dirty_held t a x m s : rng false (bits a) x -> Dirty t a (bytes (d_be (D a)) (d_size (D a)) x) x m s -> Held t (lockof a) m s.
  Proof.
    intros Hr (Ho & Ha & Hx & H). split; auto. intros b Lb Hb. destruct (Nat.eq_dec b a) as [E|N].
    - subst b. unfold rep. now rewrite Hx.
    - now apply H.
  Qed.

  Lemma area_length m a : length (area m a) = d_size (D a).
  Proof. unfold area, bytes_at. now rewrite map_length, seq_length. Qed.
  Lemma nth_map_seq (f : nat -> Z) n j d : (j < n)%nat -> nth j (map f (seq 0 n)) d = f j.
  Proof.
    intros H. rewrite nth_indep with (d' := f 0%nat) by (now rewrite map_length, seq_length).
    rewrite map_nth. now rewrite seq_nth.
  Qed.
  Lemma area_nth m a j : (j < d_size (D a))%nat -> nth j (area m a) 0 = byt m (d_addr (D a) + Z.of_nat j).
  Proof.
    intros H. unfold area, bytes_at. rewrite (nth_map_seq (fun j => byt m (d_addr (D a) + Z.of_nat j))); auto.
  Qed.
  Lemma area_write m a p y q v : area m a = p ++ y :: q ->
    area (set_byt m (d_addr (D a) + Z.of_nat (length p)) v) a = p ++ v :: q.
  Proof.
    intros H. assert (Hl : length (p ++ y :: q) = d_size (D a)) by (rewrite <- H; apply area_length).
    rewrite app_length in Hl. cbn in Hl.
    apply nth_ext with (d := 0) (d' := 0).
    - rewrite area_length, app_length. cbn. lia.
    - intros j Hj. rewrite area_length in Hj. rewrite area_nth by auto. cbn. unfold bset.
      destruct (Z.eqb_spec (d_addr (D a) + Z.of_nat j) (d_addr (D a) + Z.of_nat (length p))) as [E|E].
      + assert (j = length p) by lia. subst j. rewrite app_nth2 by lia. now rewrite Nat.sub_diag.
      + rewrite <- area_nth by auto. rewrite H. destruct (Nat.lt_ge_cases j (length p)) as [J|J].
        * now rewrite !app_nth1 by lia.
        * rewrite !app_nth2 by lia. destruct (j - length p)%nat eqn:Ej; [lia|]. reflexivity.
  Qed.
  Lemma area_other m a b j v : a <> b -> (j < d_size (D a))%nat ->
    area (set_byt m (d_addr (D a) + Z.of_nat j) v) b = area m b.
  Proof.
    intros N J. unfold area, bytes_at. apply map_ext_in. intros k Hk. apply in_seq in Hk. cbn. unfold bset.
    destruct HD as [_ Hd]. specialize (Hd a b N).
    destruct (Z.eqb_spec (d_addr (D b) + Z.of_nat k) (d_addr (D a) + Z.of_nat j)); auto. lia.
  Qed.

  Lemma brd_ok t o a j l x st m s : d_locked (D a) = true -> (j < d_size (D a))%nat -> Dirty t a l x m s ->
    safe t o (pdo (BRd (lockof a) (d_addr (D a) + Z.of_nat j))) st
      (fun v st' m' s' => st' = st /\ Dirty t a l x m' s' /\ (v : Z) = nth j l 0) m s.
  Proof.
    intros La J H. apply (quiet_act t o (BRd (lockof a) (d_addr (D a) + Z.of_nat j)) st (Dirty t a l x)
      (fun v : presp (BRd (lockof a) (d_addr (D a) + Z.of_nat j)) => (v : Z) = nth j l 0)); auto using dirty_stable.
    intros m1 s1 w m2 v Hi (_ & H1 & _) He. split; [eapply quiet_a_ok; [|exact He]; reflexivity|].
    cbn in He. injection He as <- <-. rewrite <- H1. now rewrite area_nth.
  Qed.
  Lemma rd_from_ok t o a l x st : d_locked (D a) = true -> forall n j m s, (j + n <= d_size (D a))%nat -> Dirty t a l x m s ->
    safe t o (rd_from pl (D a) (d_addr (D a) + Z.of_nat j) n) st
      (fun r st' m' s' => st' = st /\ Dirty t a l x m' s' /\ r = map (fun k => nth k l 0) (seq j n)) m s.
  Proof.
    intros La. induction n as [|n IH]; intros j m s J H; cbn [rd_from]; [now split|].
    sbind. smono brd_ok; [|auto|lia|eauto]. intros v st1 m1 s1 (-> & H1 & Hv). sbind.
    replace (d_addr (D a) + Z.of_nat j + 1) with (d_addr (D a) + Z.of_nat (S j)) by lia.
    smono (IH (S j)); [|lia|eauto]. intros r st2 m2 s2 (-> & H2 & Hr). cbn. rewrite Hv, Hr. auto.
  Qed.
  Lemma map_nth_seq (l : list Z) n : length l = n -> map (fun k => nth k l 0) (seq 0 n) = l.
  Proof.
    revert n. induction l as [|y l IH]; intros n H; cbn in H; subst n; auto.
    cbn. f_equal. rewrite <- seq_shift, map_map. now apply IH.
  Qed.
  Lemma rd_ok t o a l x st m s : d_locked (D a) = true -> Dirty t a l x m s ->
    safe t o (rd pl (D a)) st (fun v st' m' s' => st' = st /\ Dirty t a l x m' s' /\ v = number (d_be (D a)) l) m s.
  Proof.
    intros La H. unfold rd. sbind. replace (d_addr (D a)) with (d_addr (D a) + Z.of_nat 0) by lia.
    smono rd_from_ok; [|auto|lia|eauto]. intros r st1 m1 s1 (-> & H1 & Hr). cbn.
    split; auto. split; auto. rewrite Hr, map_nth_seq; auto. destruct H1 as (_ & <- & _). apply area_length.
  Qed.

  Lemma bwr_ok t o a p y q v x st m s : d_locked (D a) = true -> Dirty t a (p ++ y :: q) x m s ->
    safe t o (pdo (BWr (lockof a) (d_addr (D a) + Z.of_nat (length p)) v)) st
      (fun _ st' m' s' => st' = st /\ Dirty t a (p ++ v :: q) x m' s') m s.
  Proof.
    intros La H. cbn. intros m1 s1 Hr Hi w m2 u He. injection He as <- <-.
    assert (H1 : Dirty t a (p ++ y :: q) x m1 s1) by (eapply (proj1 (dirty_stable t a _ _ La)); eauto).
    destruct H1 as (Ho & Ha & Hx & Hb).
    assert (Hg : forall m', guarded m1 (lockof a) t m' = m').
    { intros m'. unfold guarded, owned. rewrite Ho. now rewrite Nat.eqb_refl. }
    rewrite Hg. set (m2 := set_byt m1 (d_addr (D a) + Z.of_nat (length p)) v).
    assert (Hl : (length p < d_size (D a))%nat).
    { rewrite <- (area_length m1 a), Ha, app_length. cbn. lia. }
    assert (Hoth : forall b, b <> a -> area m2 b = area m1 b) by (intros b Nb; apply area_other; auto).
    exists st, s1. split; [constructor|]. split; [|split].
    - intros u Nu i Hu. split; [exact Hu|]. intros b Lb Eb. split; auto. apply Hoth. intros E. subst b i. congruence.
    - destruct Hi as [P1 P2 P3 P4]. constructor; auto. intros b Lb Nb. unfold rep.
      change (own m1 (lockof b) = None) in Nb. rewrite Hoth; [now apply P4|]. intros E. subst b. congruence.
    - split; auto. split; [exact Ho|]. split; [now apply area_write with (y := y)|]. split; auto.
      intros b Nb Lb Eb. unfold rep. rewrite Hoth by auto. now apply Hb.
  Qed.
  Lemma wr_from_ok t o a x st : d_locked (D a) = true -> forall r p q m s, length r = length q -> Dirty t a (p ++ q) x m s ->
    safe t o (wr_from pl (D a) (d_addr (D a) + Z.of_nat (length p)) r) st
      (fun _ st' m' s' => st' = st /\ Dirty t a (p ++ r) x m' s') m s.
  Proof.
    intros La. induction r as [|v r IH]; intros p q m s Hl H; destruct q as [|y q]; cbn in Hl; try discriminate; cbn [wr_from].
    - split; auto.
    - sbind. smono (bwr_ok t o a p y q v x); [|auto|eauto]. intros _ st1 m1 s1 (-> & H1).
      replace (d_addr (D a) + Z.of_nat (length p) + 1) with (d_addr (D a) + Z.of_nat (length (p ++ [v])))
        by (rewrite app_length; cbn; lia).
      change (p ++ v :: r) with (p ++ ([v] ++ r)). rewrite app_assoc.
      apply (IH (p ++ [v]) q); [lia|]. rewrite <- app_assoc. exact H1.
  Qed.
  Lemma wr_ok t o a l x st v m s : d_locked (D a) = true -> Dirty t a l x m s ->
    safe t o (wr pl (D a) v) st
      (fun _ st' m' s' => st' = st /\ Dirty t a (bytes (d_be (D a)) (d_size (D a)) v) x m' s') m s.
  Proof.
    intros La H. unfold wr. replace (d_addr (D a)) with (d_addr (D a) + Z.of_nat (length (@nil Z))) by (cbn; lia).
    apply (wr_from_ok t o a x st La _ [] l); auto.
    destruct H as (_ & <- & _). rewrite area_length. unfold bytes. destruct (d_be (D a)); rewrite ?rev_length; apply digits_length.
  Qed.

  Lemma number_rep a x : rng false (bits a) x -> number (d_be (D a)) (bytes (d_be (D a)) (d_size (D a)) x) = x.
  Proof.
    intros H. apply number_bytes. unfold rng, d_bits in H. rewrite <- pow256 in H. exact H.
  Qed.

  Notation clean t a y x := (Dirty t a (bytes (d_be (D a)) (d_size (D a)) y) x).

  Ltac srd t a := sbind; (eapply safe_mono; [|eapply (rd_ok t); [assumption|eassumption]]); cbn beta; rewrite ?number_rep by assumption.
  Ltac swr t a := sbind; (eapply safe_mono; [|eapply (wr_ok t); [assumption|eassumption]]); cbn beta.

  Lemma mask_bit a b : 0 <= b < bits a -> wrap (bits a) (Z.shiftl 1 b) = 2 ^ b.
  Proof.
    intros H. rewrite Z.shiftl_1_l. apply wrap_id. split; [apply Z.pow_nonneg; lia|]. apply Z.pow_lt_mono_r; lia.
  Qed.
  Lemma test_bit x b : 0 <= b -> negb (Z.land x (2 ^ b) =? 0) = Z.testbit x b.
  Proof.
    intros H. destruct (Z.testbit x b) eqn:E.
    - apply negb_true_iff. apply Z.eqb_neq. intros Z0. apply (f_equal (fun z => Z.testbit z b)) in Z0.
      rewrite Z.land_spec, E, Z.pow2_bits_true, Z.bits_0 in Z0 by auto. discriminate.
    - apply negb_false_iff. apply Z.eqb_eq. apply Z.bits_inj'. intros n Hn.
      rewrite Z.land_spec, Z.bits_0. destruct (Z.eq_dec n b) as [->|N]; [now rewrite E|].
      rewrite Z.pow2_bits_false by auto. apply andb_false_r.
  Qed.

  Definition wrote (t a : nat) (o : iop) (st : @status R) (x : Z) (r : iret) (st' : @status R) (m' : pmem) (s' : state) : Prop :=
    st' = st /\ exists x', istep false (bits a) x o r x' /\ rng false (bits a) x' /\ clean t a x' x m' s'.

  Lemma bits_pos a : 0 < bits a.
  Proof. destruct HD as [H _]. destruct (H a) as (A & _). unfold d_bits. lia. Qed.
  Lemma wrap_rng a z : rng false (bits a) (wrap (bits a) z).
  Proof. apply wrap_range. pose proof (bits_pos a). lia. Qed.

  Lemma emu_body_ok t o a c st x m s : d_locked (D a) = true -> iop_ok false (bits a) o -> rng false (bits a) x ->
    clean t a x x m s -> safe t c (emu_body pl (D a) o) st (wrote t a o st x) m s.
  Proof.
    intros La Hok Hx H. destruct o as [v| |v|e v|e v|f e|k b]; cbn [emu_body] in *.
    - swr t a. intros _ st1 m1 s1 [-> H1]. split; auto. exists v. split; [constructor|auto].
    - srd t a. intros y st1 m1 s1 (-> & H1 & ->). split; auto. exists x. split; [constructor|auto].
    - srd t a. intros y st1 m1 s1 (-> & H1 & ->). swr t a. intros _ st2 m2 s2 [-> H2].
      split; auto. exists v. split; [constructor|auto].
    - srd t a. intros y st1 m1 s1 (-> & H1 & ->). destruct (Z.eqb_spec x e) as [E|E].
      + swr t a. intros _ st2 m2 s2 [-> H2]. split; auto. exists v. subst e. split; [constructor|]. split; [apply Hok|auto].
      + split; auto. exists x. split; [now constructor|auto].
    - srd t a. intros y st1 m1 s1 (-> & H1 & ->). destruct (Z.eqb_spec x e) as [E|E].
      + swr t a. intros _ st2 m2 s2 [-> H2]. split; auto. exists v. subst e. split; [constructor|]. split; [apply Hok|auto].
      + split; auto. exists x. split; [now constructor|auto].
    - assert (K : forall g r, r = report f x (wrap (bits a) g) -> g = eff_apply e x -> forall st' m' s', st' = st ->
        clean t a (wrap (bits a) g) x m' s' -> wrote t a (Rmw f e) st x r st' m' s').
      { intros g r -> -> st' m' s' -> Hc. split; auto. exists (wrap (bits a) (eff_apply e x)).
        split; [apply (is_rmw false (bits a) x f e)|]. split; [apply wrap_rng|auto]. }
      destruct f, e as [b v|u];
        srd t a; intros y st1 m1 s1 (-> & H1 & ->);
        try (srd t a; intros y st2 m2 s2 (-> & H2 & ->));
        (swr t a; intros _ st3 m3 s3 [-> H3]; eapply K; [|reflexivity|reflexivity|exact H3]; reflexivity).
    - cbn in Hok. rewrite mask_bit by auto.
      srd t a. intros y st1 m1 s1 (-> & H1 & ->). srd t a. intros y st2 m2 s2 (-> & H2 & ->). swr t a.
      intros _ st3 m3 s3 [-> H3]. split; auto. rewrite test_bit by lia.
      exists (norm false (bits a) (bit_apply k x b)). split; [constructor|]. split; [apply wrap_rng|].
      enough (E : wrap (bits a) match k with BSet => Z.lor x (2 ^ b) | BReset => Z.land x (wrap (bits a) (Z.lnot (2 ^ b)))
                      | BCompl => Z.lxor x (2 ^ b) end = norm false (bits a) (bit_apply k x b)) by (rewrite <- E; exact H3).
      change (norm false (bits a)) with (wrap (bits a)). pose proof (bits_pos a) as Hp. destruct k; cbn [bit_apply].
      + now rewrite Z.setbit_spec'.
      + rewrite Z.clearbit_spec'. apply Z.bits_inj'. intros n Hn. rewrite !wrap_testbit, Z.land_spec, Z.ldiff_spec, wrap_testbit, Z.lnot_spec by lia.
        destruct (Z.ltb_spec n (bits a)); auto.
      + reflexivity.
  Qed.

  Lemma emu_upd_ok t f g a c st x m s : d_locked (D a) = true -> rng false (bits a) x ->
    clean t a x x m s ->
    safe t c (emu_upd pl (D a) f g) st (fun r st' m' s' => st' = st /\ r = report f x (g x) /\ clean t a (g x) x m' s') m s.
  Proof.
    intros La Hx H. unfold emu_upd. srd t a. intros y st1 m1 s1 (-> & H1 & ->).
    swr t a. intros _ st2 m2 s2 [-> H2]. cbn. auto.
  Qed.

  (** the effect of a data operation, at the release *)
  Lemma data_effect t a c obs x x' r : d_locked (D a) = true -> fst c = a -> rng false (bits a) x' ->
    astep (bits a) x (xop a (snd c)) r x' ->
    effect_at t (lockof a) c (Pend obs) (clean t a x' x) (fun st' => st' = Done (xret a (snd c) r)).
  Proof.
    intros La Ec Hx' Hs m1 s1 (Ho & Ha & Hx & Hoth) Hi. exists (Done (xret a (snd c) r)), (fset s1 a x').
    split; [|split; [reflexivity|split; [|split]]].
    - apply ls_lin. split; rewrite Ec.
      + exists r. split; auto. now rewrite fset_eq, Hx.
      + intros b Nb. now apply fset_neq.
    - intros b Lb Eb. destruct (Nat.eq_dec b a) as [E|N].
      + subst b. rewrite fset_eq. split; auto.
      + rewrite fset_neq by auto. now apply Hoth.
    - intros b. destruct (Nat.eq_dec b a) as [E|N]; [subst b; left; auto | right; now apply fset_neq].
    - intros b. destruct (Nat.eq_dec b a) as [E|N]; [subst b; now rewrite fset_eq | rewrite fset_neq by auto; apply Hi].
  Qed.
  Lemma dirty_own t a l x m s : Dirty t a l x m s -> own m (lockof a) = Some t.
  Proof. intros [H _]. exact H. Qed.
  (** an operation that leaves all objects alone can take effect at a release *)
  Lemma null_effect t i c obs r : (forall x, astep (bits (fst c)) x (xop (fst c) (snd c)) r x) ->
    effect_at t i c (Pend obs) (Held t i) (fun st' => st' = Done (xret (fst c) (snd c) r)).
  Proof.
    intros Hs m1 s1 [Ho Hr] Hi. exists (Done (xret (fst c) (snd c) r)), s1.
    split; [apply ls_lin; split; eauto|]. split; auto. split; auto. split; auto. apply Hi.
  Qed.

  Notation finish := (@fin pmem R state).
  Notation fin_ c := (fun r st m s => fin (xret (fst c) (snd c) r) st m s).


  (** *** reading while waiting *)
  Definition saw (t : nat) (K : pmem -> state -> Prop) (c : nat * C) (obs : R -> Prop) (v : Z) (st' : @status R) (m' : pmem) (s' : state) : Prop :=
    exists obs', st' = Pend obs' /\ oincl obs obs' /\ Seen c v obs' /\ K m' s'.

  Lemma ld_ok t c K obs m s : d_locked (D (fst c)) = false -> stable t K -> K m s ->
    safe t c (ld (D (fst c)) (fst c)) (Pend obs) (saw t K c obs) m s.
  Proof.
    intros La HS HK. unfold ld. sbind.
    eapply safe_mono; [|apply (quiet_see t c (ACell (fst c) (bits (fst c)) Load) obs K (fun _ => True)
      (fun r : presp (ACell (fst c) (bits (fst c)) Load) => match r : iret with RVal v => v | _ => 0 end)); [exact HS|exact HK|]].
    - intros r st1 m1 s1 (obs' & -> & A & B & E & _). cbn. exists obs'. auto.
    - intros m1 s1 w m2 x Hi _ He. cbn in He. injection He as <- <-. split; [|split; auto].
      + repeat split; cbn; auto. intros b. apply fset_same.
      + now apply Hi.
  Qed.
  Lemma rd_see t c obs m s : d_locked (D (fst c)) = true -> Held t (lockof (fst c)) m s ->
    safe t c (rd pl (D (fst c))) (Pend obs) (saw t (Held t (lockof (fst c))) c obs) m s.
  Proof.
    intros La H. set (a := fst c) in *. pose proof (held_dirty t a m s La H) as Hd.
    assert (Hr : rng false (bits a) (s a)) by (apply H; auto).
    set (x := s a) in *. set (l := bytes (d_be (D a)) (d_size (D a)) x) in *.
    assert (Hn : (0 < d_size (D a))%nat) by (destruct HD as [Q _]; apply Q).
    unfold rd. destruct (d_size (D a)) as [|n] eqn:En; [lia|]. sbind. cbn [rd_from]. sbind.
    eapply safe_mono; [|apply (quiet_see t c (BRd (lockof a) (d_addr (D a))) obs (Dirty t a l x)
      (fun v : presp (BRd (lockof a) (d_addr (D a))) => (v : Z) = nth 0 l 0) (fun _ => x)); [now apply dirty_stable|exact Hd|]].
    - intros v st1 m1 s1 (obs' & -> & A & B & E & Hv). sbind.
      replace (d_addr (D a) + 1) with (d_addr (D a) + Z.of_nat 1) by lia.
      smono rd_from_ok; [|auto|lia|exact E]. intros r st2 m2 s2 (-> & H2 & Hr2). cbn.
      exists obs'. split; auto. split; auto.
      assert (Hl : length l = S n) by (destruct H2 as (_ & <- & _); rewrite area_length; exact En).
      assert (El : v :: r = l).
      { rewrite Hv, Hr2. change (map (fun k => nth k l 0) (seq 0 (S n)) = l). now apply map_nth_seq. }
      assert (Ex : number (d_be (D a)) (v :: r) = x).
      { transitivity (number (d_be (D a)) l); [now f_equal|]. unfold l. rewrite <- En. now apply number_rep. }
      split; [|apply (dirty_held t a x); auto; unfold l in H2; rewrite <- En in H2; exact H2].
      enough (E2 : Seen c x obs') by (rewrite <- Ex in E2; exact E2). exact B.
    - intros m1 s1 w m2 v Hi (_ & H1 & H2 & _) He. split; [eapply quiet_a_ok; [|exact He]; reflexivity|].
      cbn in He. injection He as <- <-. split; [|auto]. rewrite <- H1. rewrite area_nth by lia. f_equal. lia.
  Qed.

  Definition looks (t i : nat) (c : nat * C) (p : pprog Z) : Prop :=
    forall obs m s, Held t i m s -> safe t c p (Pend obs) (saw t (Held t i) c obs) m s.

  (** a finished wait: its result has been seen, the lock is held *)
  Definition waited (t i : nat) (c : nat * C) (r : aret) (st' : @status R) (m' : pmem) (s' : state) : Prop :=
    exists obs', st' = Pend obs' /\ obs' (xret (fst c) (snd c) r) /\ Held t i m' s'.
  Definition eyes (t i : nat) (c : nat * C) (v : Z) (st' : @status R) (m' : pmem) (s' : state) : Prop :=
    exists obs', st' = Pend obs' /\ Seen c v obs' /\ Held t i m' s'.
  Lemma saw_eyes t i c obs v st m s : saw t (Held t i) c obs v st m s -> eyes t i c v st m s.
  Proof. intros (obs' & A & _ & B & E). exists obs'. auto. Qed.

  Ltac slook := sbind; (eapply safe_mono; [|eauto]); cbn beta.

  Lemma wait_body_ok t c p old ws obs m s : xop (fst c) (snd c) = AWait old ->
    looks t (lockof (fst c)) c p -> Held t (lockof (fst c)) m s ->
    safe t c (wait_body pl (D (fst c)) p old ws) (Pend obs) (waited t (lockof (fst c)) c) m s.
  Proof.
    intros Ho Hp H. unfold wait_body. sbind. smono Hp; [|exact H]. intros new st1 m1 s1 H1.
    apply (sloop t c _ new st1 (fun v st m s => eyes t (lockof (fst c)) c v st m s)); [eapply saw_eyes; eauto|].
    clear H1 H m s m1 s1 st1 new obs. intros v st m s (obs & -> & Hs & H). destruct (Z.eqb_spec v old) as [E|E].
    - sbind. smono pool_wait_ok; [|exact H]. intros _ st1 m1 s1 [-> H1]. sbind. smono Hp; [|exact H1].
      intros v' st2 m2 s2 H2. eapply saw_eyes; eauto.
    - exists obs. split; auto. split; auto. apply Hs. rewrite Ho. now constructor.
  Qed.

  Lemma seen_changed c k old limit v obs : xop (fst c) (snd c) = ATimed k old limit -> Seen c v obs -> v <> old ->
    obs (xret (fst c) (snd c) (RWaited v false)).
  Proof. intros Ho Hs N. apply Hs. rewrite Ho. now constructor. Qed.
  Lemma seen_timeout c k old limit v obs : xop (fst c) (snd c) = ATimed k old limit -> Seen c v obs -> v = old ->
    obs (xret (fst c) (snd c) (RWaited v true)).
  Proof. intros Ho Hs ->. apply Hs. rewrite Ho. constructor. Qed.
  Lemma seen_either c k old limit v obs : xop (fst c) (snd c) = ATimed k old limit -> Seen c v obs ->
    obs (xret (fst c) (snd c) (RWaited v (v =? old))).
  Proof.
    intros Ho Hs. destruct (Z.eqb_spec v old); [eapply seen_timeout | eapply seen_changed]; eauto.
  Qed.

  Lemma fallback_ok t c p k old limit lim now new ws st m s : xop (fst c) (snd c) = ATimed k old limit ->
    looks t (lockof (fst c)) c p -> eyes t (lockof (fst c)) c new st m s ->
    safe t c (fallback_from pl (D (fst c)) p old lim now new ws) st (waited t (lockof (fst c)) c) m s.
  Proof.
    intros Ho Hp H. unfold fallback_from.
    apply (sloop t c _ (new, now) st (fun v st m s => eyes t (lockof (fst c)) c (fst v) st m s)); [exact H|].
    clear H m s st new. intros [v n] st m s (obs & -> & Hs & H). cbn [fst] in Hs. destruct (Z.eqb_spec v old) as [E|E].
    - destruct (lim - n <=? 0).
      + exists obs. split; auto. split; auto. eapply seen_timeout; eauto.
      + sbind. smono pool_wait_for_ok; [|exact H]. intros _ st1 m1 s1 [-> H1].
        sheld t (lockof (fst c)). intros n2 st2 m2 s2 [-> H2]. sbind. smono Hp; [|exact H2].
        intros v' st3 m3 s3 H3. cbn. eapply saw_eyes; eauto.
    - exists obs. split; auto. split; auto. eapply seen_changed; eauto.
  Qed.
  Lemma abs_ok t c p k old limit lim new ws st m s : xop (fst c) (snd c) = ATimed k old limit ->
    looks t (lockof (fst c)) c p -> eyes t (lockof (fst c)) c new st m s ->
    safe t c (abs_from pl (D (fst c)) p old lim new ws) st (waited t (lockof (fst c)) c) m s.
  Proof.
    intros Ho Hp H. unfold abs_from. destruct (0 <=? lim).
    - apply (sloop t c _ new st (fun v st m s => eyes t (lockof (fst c)) c v st m s)); [exact H|].
      clear H m s st new. intros v st m s (obs & -> & Hs & H). destruct (Z.eqb_spec v old) as [E|E].
      + sbind. smono pool_wait_until_ok; [|exact H]. intros b st1 m1 s1 [-> H1]. sbind. smono Hp; [|exact H1].
        intros v' st2 m2 s2 H2. apply saw_eyes in H2. destruct b; [|exact H2].
        destruct H2 as (obs' & -> & Hs2 & H2). exists obs'. split; auto. split; auto. eapply seen_either; eauto.
      + exists obs. split; auto. split; auto. eapply seen_changed; eauto.
    - destruct H as (obs' & -> & Hs & H). exists obs'. split; auto. split; auto. eapply seen_either; eauto.
  Qed.

  Notation done c := (fun r => @fin R pmem state (xret (fst c) (snd c) r)).

  (** a wait under a registered waiter; [K0]: what is known before *)
  Lemma scoped_wait_ok t c (body : option nat -> pprog aret) obs m s :
    (forall ws m s, Held t (lockof (fst c)) m s -> safe t c (body ws) (Pend obs) (waited t (lockof (fst c)) c) m s) ->
    safe t c (scoped_wait pl (D (fst c)) body) (Pend obs) (fun r st m s => exists obs', st = Pend obs' /\ obs' (xret (fst c) (snd c) r)) m s.
  Proof.
    intros Hb. unfold scoped_wait. sbind. smono acquire_ok. intros _ st1 m1 s1 [-> H1].
    sheld t (lockof (fst c)). intros ws st2 m2 s2 [-> H2]. sbind. smono (Hb ws); [|exact H2].
    intros r st3 m3 s3 (obs3 & -> & Hr & H3). sbind.
    eapply safe_mono with (Q := fun _ st' m' s' => st' = Pend obs3 /\ Held t (lockof (fst c)) m' s').
    - intros _ st4 m4 s4 [-> H4]. sbind. smono release_held; [|exact H4]. intros _ st5 m5 s5 ->. exists obs3. auto.
    - destruct ws as [k|]; [|split; auto]. apply quiet_do; auto using held_stable.
  Qed.

  Definition told (c : nat * C) (r : aret) (st : @status R) (_ : pmem) (_ : state) : Prop :=
    st = Done (xret (fst c) (snd c) r) \/ exists obs, st = Pend obs /\ obs (xret (fst c) (snd c) r).

  (** operations on a lock-based object *)
  Lemma scoped_data t c (body : pprog iret) (x0 : Z -> iret -> Z -> Prop) obs m s : d_locked (D (fst c)) = true ->
    (forall x r x', x0 x r x' -> astep (bits (fst c)) x (xop (fst c) (snd c)) (RI r) x') ->
    (forall x m s, rng false (bits (fst c)) x -> clean t (fst c) x x m s ->
       safe t c body (Pend obs) (fun r st' m' s' => st' = Pend obs /\
         exists x', x0 x r x' /\ rng false (bits (fst c)) x' /\ clean t (fst c) x' x m' s') m s) ->
    safe t c (scoped pl (D (fst c)) (r <- body ;; Ret (RI r))) (Pend obs) (told c) m s.
  Proof.
    intros La Hx Hb. unfold scoped. sbind. smono acquire_ok. intros _ st1 m1 s1 [-> H1].
    assert (Hr : rng false (bits (fst c)) (s1 (fst c))) by (apply H1; auto).
    pose proof (held_dirty t (fst c) m1 s1 La H1) as Hd.
    sbind. sbind. smono (Hb (s1 (fst c))); [|exact Hr|exact Hd].
    intros r st2 m2 s2 (-> & x' & Hs & Hr' & H2). cbn -[bind release]. sbind.
    smono (release_ok t c (lockof (fst c)) (Pend obs) (clean t (fst c) x' (s1 (fst c)))
             (fun st' => st' = Done (xret (fst c) (snd c) (RI r)))).
    - intros _ st3 m3 s3 ->. left. reflexivity.
    - now apply dirty_stable.
    - intros m0 s0. apply dirty_own.
    - apply data_effect; auto.
    - exact H2.
  Qed.

  Lemma notify_ok t c all obs m s : xop (fst c) (snd c) = ANotify all ->
    safe t c (notify_prog pl (D (fst c)) all) (Pend obs) (told c) m s.
  Proof.
    intros Ho. unfold notify_prog, scoped. sbind. smono acquire_ok. intros _ st1 m1 s1 [-> H1].
    sbind. sbind. smono pool_notify_ok; [|exact H1]. intros _ st2 m2 s2 [-> H2]. cbn -[bind release]. sbind.
    smono (release_ok t c (lockof (fst c)) (Pend obs) (Held t (lockof (fst c)))
             (fun st' => st' = Done (xret (fst c) (snd c) (RI RUnit)))).
    - intros _ st3 m3 s3 ->. left. reflexivity.
    - apply held_stable.
    - intros m0 s0 [A _]. exact A.
    - apply null_effect. intros x. rewrite Ho. constructor.
    - exact H2.
  Qed.

  Lemma null_section t c i (body : pprog unit) r obs m s : (forall x, astep (bits (fst c)) x (xop (fst c) (snd c)) r x) ->
    (forall m s, Held t i m s -> safe t c body (Pend obs) (regained t i (Pend obs)) m s) ->
    safe t c (acquire lk i ;;; body ;;; release lk i) (Pend obs) (fun _ st' _ _ => st' = Done (xret (fst c) (snd c) r)) m s.
  Proof.
    intros Ho Hb. sbind. smono acquire_ok. intros _ st1 m1 s1 [-> H1].
    sbind. smono Hb; [|exact H1]. intros _ st2 m2 s2 [-> H2].
    smono (release_ok t c i (Pend obs) (Held t i) (fun st' => st' = Done (xret (fst c) (snd c) r))).
    - intros _ st3 m3 s3 ->. reflexivity.
    - apply held_stable.
    - intros m0 s0 [A _]. exact A.
    - now apply null_effect.
    - exact H2.
  Qed.
  Lemma fence_ok t c obs m s : xop (fst c) (snd c) = AFence -> safe t c (fence_prog pl) (Pend obs) (told c) m s.
  Proof.
    intros Ho. unfold fence_prog. sbind. smono acquire_ok. intros _ st1 m1 s1 [-> H1]. sbind.
    set (i := Z.to_nat (get_lock_index pl 0)) in *.
    smono (release_ok t c i (Pend obs) (Held t i) (fun st' => st' = Done (xret (fst c) (snd c) (RI RUnit)))).
    - intros _ st3 m3 s3 ->. left. reflexivity.
    - apply held_stable.
    - intros m0 s0 [A _]. exact A.
    - apply null_effect. intros x. rewrite Ho. constructor.
    - exact H1.
  Qed.
  Lemma cleanup_held t c i st m s : Held t i m s -> safe t c (pdo (WlCleanup i)) st (regained t i st) m s.
  Proof. intros H. apply (quiet_do t c (WlCleanup i) st (Held t i)); auto using held_stable. Qed.
  Lemma exit_from_ok t c st n : forall m s, safe t c (exit_from pl n) st (fun _ st' _ _ => st' = st) m s.
  Proof.
    induction n as [|n IH]; intros m s; cbn [exit_from]; [reflexivity|].
    sbind. smono IH. intros _ st1 m1 s1 ->. sbind. smono acquire_ok. intros _ st2 m2 s2 [-> H2].
    sbind. smono cleanup_held; [|exact H2]. intros _ st3 m3 s3 [-> H3]. now apply release_held.
  Qed.
  Hypothesis Hpl : platform_ok pl.
  Lemma exit_ok t c obs m s : xop (fst c) (snd c) = AExit -> safe t c (exit_prog pl) (Pend obs) (told c) m s.
  Proof.
    intros Ho. unfold exit_prog. destruct (Z.to_nat (lock_pool_size pl)) as [|n] eqn:En.
    - exfalso. unfold lock_pool_size in En. rewrite Z.shiftl_1_l in En. destruct Hpl as [[A _] _].
      pose proof (pow2_gt0 (pl_log2 pl) A). lia.
    - cbn [exit_from]. sbind. sbind. smono exit_from_ok. intros _ st1 m1 s1 ->.
      smono (null_section t c n (pdo (WlCleanup n)) (RI RUnit)).
      + intros _ st2 m2 s2 ->. left. reflexivity.
      + intros x. rewrite Ho. constructor.
      + intros m2 s2. apply cleanup_held.
  Qed.

  Lemma told_of (c : nat * C) r st (m : pmem) (s : state) :
    (exists obs', st = Pend obs' /\ obs' (xret (fst c) (snd c) r)) -> told c r st m s.
  Proof. right. auto. Qed.

  Lemma emu_ok t c m s : d_locked (D (fst c)) = true -> aop_ok (bits (fst c)) (xop (fst c) (snd c)) ->
    safe t c (emu_prog pl (D (fst c)) (xop (fst c) (snd c))) (Pend noobs) (told c) m s.
  Proof.
    intros La Hok. set (a := fst c) in *.
    assert (Hl : looks t (lockof a) c (rd pl (D a))) by (intros obs m0 s0 H0; now apply rd_see).
    destruct (xop a (snd c)) as [o|f g|old|k old limit|all| |] eqn:Ho; cbn [emu_prog].
    - apply scoped_data with (x0 := fun x r x' => istep false (bits a) x o r x'); auto.
      + intros x r x' Hs. fold a. rewrite Ho. now constructor.
      + intros x m0 s0 Hx Hc. exact (emu_body_ok t o a c (Pend noobs) x m0 s0 La Hok Hx Hc).
    - apply scoped_data with (x0 := fun x r x' => rng false (bits a) x /\ r = report f x (g x) /\ x' = g x); auto.
      + intros x r x' (_ & -> & ->). fold a. rewrite Ho. constructor.
      + intros x m0 s0 Hx Hc. smono (emu_upd_ok t f g a); [|auto|exact Hx|exact Hc].
        intros r st1 m1 s1 (-> & -> & H1). split; auto. exists (g x). split; [auto|]. split; [now apply Hok|auto].
    - eapply safe_mono; [intros r st0 m0 s0; apply told_of|]. apply scoped_wait_ok. intros ws m0 s0 H0. now apply wait_body_ok.
    - unfold emu_timed. destruct (sys_clock pl k).
      + eapply safe_mono; [intros r st0 m0 s0; apply told_of|]. apply scoped_wait_ok. intros ws m0 s0 H0.
        sbind. smono Hl; [|exact H0]. intros v st1 m1 s1 H1. eapply abs_ok; eauto. eapply saw_eyes; eauto.
      + spure. intros now st1 m1 s1 ->.
        eapply safe_mono; [intros r st0 m0 s0; apply told_of|]. apply scoped_wait_ok. intros ws m0 s0 H0.
        sbind. smono Hl; [|exact H0]. intros v st2 m2 s2 H2. eapply fallback_ok; eauto. eapply saw_eyes; eauto.
    - now apply notify_ok.
    - now apply fence_ok.
    - now apply exit_ok.
  Qed.

  (** *** operations on a lock-free object *)
  Lemma cell_ok t c a' x y r obs m1 s1 m2 :
    d_locked (D (fst c)) = false -> PInv m1 s1 -> a' = fst c -> x = s1 a' ->
    m2 = set_cel m1 a' y -> rng false (bits a') y -> astep (bits a') x (xop (fst c) (snd c)) r y ->
    exists st2 s2, linstep psp c (Pend obs) s1 st2 s2 /\ pguar t m1 s1 m2 s2 /\ PInv m2 s2 /\ told c r st2 m2 s2.
  Proof.
    intros La Hi -> -> -> Hy Hs. exists (Done (xret (fst c) (snd c) r)), (fset s1 (fst c) y). split; [|split; [|split]].
    - apply ls_lin. split; [exists r; split; auto; now rewrite fset_eq|]. intros b Nb. now apply fset_neq.
    - intros u Nu i Hu. split; [exact Hu|]. intros b Lb Eb. split; [|reflexivity]. apply fset_neq. congruence.
    - destruct Hi as [P1 P2 P3 P4]. constructor; auto.
      + intros b. destruct (Nat.eq_dec b (fst c)) as [E|N]; [subst b; now rewrite fset_eq | rewrite fset_neq by auto; auto].
      + intros b Lb. cbn. unfold fset. destruct (Nat.eqb b (fst c)); auto.
      + intros b Lb Nb. rewrite fset_neq by congruence. now apply P4.
    - now left.
  Qed.

  Lemma cell_step_ok a x o lucky : iop_ok false (bits a) o -> rng false (bits a) x ->
    istep false (bits a) x o (snd (cell_step (bits a) x o lucky)) (fst (cell_step (bits a) x o lucky)) /\
    rng false (bits a) (fst (cell_step (bits a) x o lucky)).
  Proof.
    intros Hok Hx. destruct o as [v| |v|e v|e v|f e|k b]; cbn [cell_step fst snd].
    - split; [constructor | exact Hok].
    - split; [constructor | exact Hx].
    - split; [constructor | exact Hok].
    - destruct (Z.eqb_spec x e) as [E|E]; cbn.
      + subst e. split; [constructor | apply Hok].
      + split; [now constructor | exact Hx].
    - destruct (Z.eqb_spec x e) as [E|E]; [destruct lucky|]; cbn.
      + subst e. split; [constructor | apply Hok].
      + split; [constructor | exact Hx].
      + split; [constructor | exact Hx].
    - split; [apply (is_rmw false (bits a) x f e) | apply wrap_rng].
    - split; [apply (is_bit false (bits a) x k b) | apply wrap_rng].
  Qed.

  (** looking at a lock-free object without holding anything *)
  Definition glimpse (c : nat * C) (v : Z) (st : @status R) (_ : pmem) (_ : state) : Prop :=
    exists obs', st = Pend obs' /\ Seen c v obs'.
  Lemma ld_free t c obs m s : d_locked (D (fst c)) = false ->
    safe t c (ld (D (fst c)) (fst c)) (Pend obs) (glimpse c) m s.
  Proof.
    intros La. smono (ld_ok t c (fun _ _ => True)); auto using stable_true.
    intros v st1 m1 s1 (obs' & A & _ & B & _). exists obs'. auto.
  Qed.
  Lemma told_changed c old v obs (m : pmem) (s : state) : (exists k d, xop (fst c) (snd c) = ATimed k old d) \/ xop (fst c) (snd c) = AWait old ->
    Seen c v obs -> v <> old -> told c (RWaited v false) (Pend obs) m s.
  Proof.
    intros Ho Hs N. right. exists obs. split; auto. apply Hs. destruct Ho as [(k & d & ->)| ->]; now constructor.
  Qed.
  Lemma told_either c k old d v obs (m : pmem) (s : state) : xop (fst c) (snd c) = ATimed k old d ->
    Seen c v obs -> told c (RWaited v (v =? old)) (Pend obs) m s.
  Proof. intros Ho Hs. right. exists obs. split; auto. eapply seen_either; eauto. Qed.
  Lemma told_timeout c k old d obs (m : pmem) (s : state) : xop (fst c) (snd c) = ATimed k old d ->
    Seen c old obs -> told c (RWaited old true) (Pend obs) m s.
  Proof. intros Ho Hs. right. exists obs. split; auto. eapply seen_timeout; eauto. Qed.

  Ltac sld := sbind; (eapply safe_mono; [|apply ld_free; assumption]); cbn beta; intros ? ? ? ? (? & -> & ?).
  Ltac snap := spure; intros ? ? ? ? ->.

  Section Free.
    Variables (t : nat) (c : nat * C).
    Hypothesis La : d_locked (D (fst c)) = false.
    Notation LD := (ld (D (fst c)) (fst c)).
    Notation waits old := ((exists k d, xop (fst c) (snd c) = ATimed k old d) \/ xop (fst c) (snd c) = AWait old).

    Lemma poll_fast_ok old (K : pprog aret) : waits old -> forall n v st m s,
      glimpse c v st m s ->
      (forall v st m s, glimpse c v st m s -> safe t c K st (told c) m s) ->
      safe t c (poll_fast (D (fst c)) (fst c) n old K) st (told c) m s.
    Proof.
      intros Ho. induction n as [|n IH]; intros v st m s (obs & -> & Hs) HK; cbn [poll_fast].
      - apply (HK v). exists obs. auto.
      - snap. sld. destruct (Z.eqb_spec r0 old) as [E|E].
        + eapply IH; [eexists; split; eauto | exact HK].
        + eapply told_changed; eauto.
    Qed.
    Lemma poll_wait_ok old m s : xop (fst c) (snd c) = AWait old ->
      safe t c (poll_wait (D (fst c)) (fst c) old) (Pend noobs) (told c) m s.
    Proof.
      intros Ho. unfold poll_wait. sld. destruct (Z.eqb_spec r old) as [E|E]; [|eapply told_changed; eauto].
      apply poll_fast_ok with (v := r); auto; [eexists; eauto|].
      intros v st1 m1 s1 Hv. apply (sloop t c _ tt st1 (fun _ st m s => exists v, glimpse c v st m s)); [eauto|].
      intros _ st2 m2 s2 (v2 & obs & -> & Hs). snap. sld. destruct (Z.eqb_spec r1 old) as [E1|E1].
      - exists r1. eexists. eauto.
      - eapply told_changed; eauto.
    Qed.
    Lemma poll_timed_ok k old d m s : xop (fst c) (snd c) = ATimed k old d ->
      safe t c (poll_timed (D (fst c)) (fst c) k old d) (Pend noobs) (told c) m s.
    Proof.
      intros Ho. unfold poll_timed. snap. sld. set (lim := match k with WaitFor => r + d | _ => d end). clearbody lim.
      destruct (Z.eqb_spec r0 old) as [E|E]; [|eapply told_changed; eauto].
      assert (Hf : forall n now m s obs, Seen c old obs -> safe t c (poll_fast_timed (D (fst c)) (fst c) n old lim now (fun now =>
          loop (now : Z) (fun now =>
            if 0 <=? now - lim then Ret (inr (RWaited old true))
            else
              (pdo Pause ;;;
               now <- pdo Now ;;
               new <- LD ;;
               if new =? old then Ret (inl (now : Z)) else Ret (inr (RWaited new false)))))) (Pend obs) (told c) m s).
      { induction n as [|n IH]; intros now m8 s8 obs Hs; cbn [poll_fast_timed].
        - apply (sloop t c _ now (Pend obs) (fun _ st m s => glimpse c old st m s)); [eexists; eauto|].
          intros n st m9 s9 (ob & -> & Hs1). destruct (0 <=? n - lim); [eapply told_timeout; eauto|].
          snap. snap. sld. destruct (Z.eqb_spec r3 old) as [E3|E3].
          + eexists. split; eauto. now subst r3.
          + eapply told_changed; eauto.
        - destruct (0 <=? now - lim); [eapply told_timeout; eauto|].
          snap. snap. sld. destruct (Z.eqb_spec r3 old) as [E3|E3].
          + apply IH. now subst r3.
          + eapply told_changed; eauto. }
      apply Hf. now subst r0.
    Qed.

    Lemma native_sleep_ok old dl st m s : safe t c (native_sleep (fst c) old dl) st (fun _ st' _ _ => st' = st) m s.
    Proof.
      unfold native_sleep. snap. destruct r; [|reflexivity]. snap. reflexivity.
    Qed.
    Lemma native_wait_ok old m s : xop (fst c) (snd c) = AWait old ->
      safe t c (native_wait (D (fst c)) (fst c) old) (Pend noobs) (told c) m s.
    Proof.
      intros Ho. unfold native_wait. sld. apply (sloop t c _ r _ (fun v st m s => glimpse c v st m s)); [eexists; eauto|].
      intros v st m1 s1 (obs & -> & Hs). destruct (Z.eqb_spec v old) as [E|E]; [|eapply told_changed; eauto].
      sbind. smono native_sleep_ok. intros ? ? ? ? ->. sld. eexists. eauto.
    Qed.
    Lemma native_fallback_ok k old d lim now obs m s : xop (fst c) (snd c) = ATimed k old d ->
      safe t c (native_fallback pl (D (fst c)) (fst c) old lim now) (Pend obs) (told c) m s.
    Proof.
      intros Ho. unfold native_fallback. sld.
      apply (sloop t c _ (r, now) _ (fun v st m s => glimpse c (fst v) st m s)); [eexists; eauto|].
      intros [v n] st m1 s1 (ob & -> & Hs). cbn [fst] in Hs. destruct (Z.eqb_spec v old) as [E|E]; [|eapply told_changed; eauto].
      destruct (units pl (lim - n) <=? 0); [subst v; eapply told_timeout; eauto|].
      snap. sbind. smono native_sleep_ok. intros ? ? ? ? ->. snap. sld. cbn. eexists. eauto.
    Qed.
    Lemma native_abs_ok k old d lim obs m s : xop (fst c) (snd c) = ATimed k old d ->
      safe t c (native_abs (D (fst c)) (fst c) old lim) (Pend obs) (told c) m s.
    Proof.
      intros Ho. unfold native_abs. sld. apply (sloop t c _ r _ (fun v st m s => glimpse c v st m s)); [eexists; eauto|].
      intros v st m1 s1 (ob & -> & Hs). destruct (Z.eqb_spec v old) as [E|E]; [|eapply told_changed; eauto].
      sbind. smono native_sleep_ok. intros q ? ? ? ->. sld.
      destruct q as [[]|]; try (eexists; eauto; fail). eapply told_either; eauto.
    Qed.
    Lemma native_timed_ok k old d m s : xop (fst c) (snd c) = ATimed k old d ->
      safe t c (native_timed pl (D (fst c)) (fst c) k old d) (Pend noobs) (told c) m s.
    Proof.
      intros Ho. unfold native_timed. destruct k.
      - destruct (pl_bitset pl); [destruct (0 <=? d)|].
        + eapply native_abs_ok; eauto.
        + sld. eapply told_either; eauto.
        + snap. eapply native_fallback_ok; eauto.
      - snap. eapply native_fallback_ok; eauto.
      - destruct (pl_bitset pl && (0 <=? d)); snap; [eapply native_abs_ok | eapply native_fallback_ok]; eauto.
    Qed.

    Lemma ld_looks : looks t (lockof (fst c)) c LD.
    Proof. intros obs m s H. apply ld_ok; auto using held_stable. Qed.

    Lemma pool_wait_prog_ok old m s : xop (fst c) (snd c) = AWait old ->
      safe t c (pool_wait_prog pl (D (fst c)) (fst c) old) (Pend noobs) (told c) m s.
    Proof.
      intros Ho. unfold pool_wait_prog. sld. destruct (Z.eqb_spec r old) as [E|E]; [|eapply told_changed; eauto].
      eapply safe_mono; [intros r1 st1 m1 s1; apply told_of|]. apply scoped_wait_ok. intros ws m1 s1 H1.
      apply wait_body_ok; auto using ld_looks.
    Qed.
    Lemma pool_timed_ok k old d m s : xop (fst c) (snd c) = ATimed k old d ->
      safe t c (pool_timed pl (D (fst c)) (fst c) k old d) (Pend noobs) (told c) m s.
    Proof.
      intros Ho. unfold pool_timed. destruct (sys_clock pl k).
      - sld. destruct (Z.eqb_spec r old) as [E|E]; [|eapply told_changed; eauto].
        eapply safe_mono; [intros ? ? ? ?; apply told_of|]. apply scoped_wait_ok. intros ws ? ? ?.
        eapply abs_ok; eauto using ld_looks. eexists. eauto.
      - snap. sld. destruct (Z.eqb_spec r0 old) as [E|E]; [|eapply told_changed; eauto].
        eapply safe_mono; [intros ? ? ? ?; apply told_of|]. apply scoped_wait_ok. intros ws ? ? ?.
        eapply fallback_ok; eauto using ld_looks. eexists. eauto.
    Qed.

    Lemma free_ok m s : aop_ok (bits (fst c)) (xop (fst c) (snd c)) ->
      safe t c (free_prog pl (D (fst c)) (fst c) (xop (fst c) (snd c))) (Pend noobs) (told c) m s.
    Proof.
      intros Hok. destruct (xop (fst c) (snd c)) as [o|f g|old|k old limit|all| |] eqn:Ho; cbn [free_prog].
      - sbind. cbn -[cell_step]. intros m1 s1 Hr Hi w m2 x He. injection He as E1 E2.
        pose proof (v_free _ _ Hi _ La) as Ec. rewrite Ec in E1, E2.
        destruct (cell_step_ok (fst c) (s1 (fst c)) o (f_lucky w) Hok (v_range _ _ Hi _)) as [A B].
        rewrite <- E2. apply (cell_ok t c (fst c) (s1 (fst c)) (fst (cell_step (bits (fst c)) (s1 (fst c)) o (f_lucky w)))); auto.
        rewrite Ho. now constructor.
      - sbind. cbn. intros m1 s1 Hr Hi w m2 x He. injection He as E1 E2.
        pose proof (v_free _ _ Hi _ La) as Ec. rewrite Ec in E1, E2. rewrite <- E2.
        apply (cell_ok t c (fst c) (s1 (fst c)) (g (s1 (fst c)))); auto.
        + apply Hok. apply Hi.
        + rewrite Ho. now constructor.
      - destruct (d_wait (D (fst c))); auto using poll_wait_ok, native_wait_ok, pool_wait_prog_ok.
      - destruct (d_wait (D (fst c))); auto using poll_timed_ok, native_timed_ok, pool_timed_ok.
      - assert (Hn : forall x, safe t c (pdo x ;;; Ret (RI RUnit)) (Pend noobs) (told c) m s \/ quiet_a x = false).
        { intros x. destruct (quiet_a x) eqn:Eq; auto. left. sbind. cbn. intros m1 s1 Hr Hi w m2 y He.
          pose proof (quiet_a_ok t x m1 w m2 y Eq He) as Hq.
          exists (Done (xret (fst c) (snd c) (RI RUnit))), s1. split; [|split; [|split]].
          - apply ls_lin. split; auto. exists (RI RUnit). split; auto. rewrite Ho. constructor.
          - now apply quietly_guar.
          - eapply quietly_inv; eauto.
          - now left. }
        destruct (d_wait (D (fst c))) eqn:Ew; try (now apply notify_ok).
        + destruct (Hn Pause); [auto|discriminate].
        + destruct (Hn (FWake (FO (fst c)) all)); [auto|discriminate].
      - now apply fence_ok.
      - now apply exit_ok.
    Qed.
  End Free.

  Definition typed_impl (c : nat * C) : pprog R :=
    r <- obj_prog pl (D (fst c)) (fst c) (xop (fst c) (snd c)) ;; Ret (xret (fst c) (snd c) r).
  Lemma typed_safe t c m s : aop_ok (bits (fst c)) (xop (fst c) (snd c)) -> PInv m s ->
    safe t c (typed_impl c) (Pend noobs) (@fin pmem R state) m s.
  Proof.
    intros Hok _. unfold typed_impl. sbind. eapply safe_mono with (Q := told c).
    - intros r st1 m1 s1 H. exact H.
    - unfold obj_prog. destruct (d_locked (D (fst c))) eqn:La; [now apply emu_ok | now apply free_ok].
  Qed.
End Lin.

(** ** Histories *)
Section Answers.
  Context {op ret state : Type}.
  Variable spec : state -> op -> ret -> state -> Prop.
  Variable ok : op -> Prop.

  Definition th_fine (th : nat -> pend op ret) : Prop :=
    forall t, match th t with PIdle => True | PCalled o => ok o | PDone o _ => ok o end.
  Lemma th_fine_set th t x : th_fine th -> (match x with PIdle => True | PCalled o => ok o | PDone o _ => ok o end) ->
    th_fine (tset th t x).
  Proof. intros H Hx u. unfold tset. destruct (Nat.eqb u t); auto. apply H. Qed.

  (** restricting the calls restricts the specification *)
  Lemma lrun_ok s th l s' th' : lrun spec s th l s' th' -> th_fine th ->
    (forall t o, In (EInv t o) (SpecLin.erase l) -> ok o) ->
    lrun (fun s o r s' => ok o /\ spec s o r s') s th l s' th'.
  Proof.
    induction 1; intros Hf Hl; cbn in Hl.
    - constructor.
    - constructor; auto. apply IHlrun; [|intros; eapply Hl; eauto]. apply th_fine_set; auto. eapply Hl. left. reflexivity.
    - assert (Ho : ok o) by (specialize (Hf t); now rewrite H in Hf).
      econstructor; [eassumption|split; eassumption|]. apply IHlrun; auto. apply th_fine_set; auto.
    - econstructor; [eassumption|]. apply IHlrun; [|intros; eapply Hl; eauto]. apply th_fine_set; auto.
  Qed.
End Answers.

Lemma run_calls {act resp mem oracle op ret} (exec : nat -> forall a : act, mem -> oracle -> option (mem * resp a))
  (impl : op -> prog act resp ret) l : forall c t o, In (EInv t o) (snd (run exec impl c l)) -> In (SInv t o) l.
Proof.
  induction l as [|e l IH]; intros c t o H; cbn in H; [contradiction|].
  destruct (cstep exec impl c e) as [c1 h1] eqn:Ec. destruct (run exec impl c1 l) as [c2 h2] eqn:Er. cbn in H.
  apply in_app_or in H. destruct H as [H|H].
  - destruct e as [u p|u w|u]; cbn in Ec.
    + destruct (c_thr c u); injection Ec as <- <-; cbn in H; [|contradiction].
      destruct H as [H|[]]. injection H as -> ->. now left.
    + destruct (c_thr c u); [|destruct (pstep exec u w (c_mem c) p)]; injection Ec as <- <-; contradiction.
    + destruct (c_thr c u) as [|p [r|a k|X B body i k]]; injection Ec as <- <-; cbn in H; try contradiction.
      destruct H as [H|[]]. discriminate.
  - right. apply (IH c1 t o). now rewrite Er.
Qed.

Lemma astep_range w x o r x' : 0 < w -> aop_ok w o -> rng false w x -> astep w x o r x' -> rng false w x'.
Proof.
  intros Hw Hok Hx Hs.
  assert (Hn : forall z, rng false w (norm false w z)) by (intros z; now apply norm_rng).
  destruct Hs as [x o r x' Hi| | | | | | |]; cbn in Hok; auto; [|exact (Hok _ Hx)].
  destruct Hi; cbn in Hok; auto; now destruct Hok.
Qed.

Section Sound.
  Variable pl : platform.
  Variable D : nat -> odesc.
  Hypothesis HD : layout_ok D.
  Hypothesis Hpl : platform_ok pl.
  Context {C R V : Type}.
  Variable xop : nat -> C -> aop.
  Variable xret : nat -> C -> aret -> R.
  Variable Rv : nat -> Z -> V -> Prop.
  Variable spec : nat -> V -> C -> R -> V -> Prop.
  Variable ok : nat * C -> Prop.
  Hypothesis Hok : forall c, ok c -> aop_ok (d_bits (D (fst c))) (xop (fst c) (snd c)).
  Hypothesis Hsim : forall a c x v r x', ok (a, c) -> Rv a x v -> rng false (d_bits (D a)) x' -> astep (d_bits (D a)) x (xop a c) r x' ->
    exists v', spec a v c (xret a c r) v' /\ Rv a x' v'.

  Theorem pool_sound m (x0 : nat -> Z) (v0 : nat -> V) (l : list (sched fate (nat * C))) :
    pool_start D x0 m -> (forall a, rng false (d_bits (D a)) (x0 a) /\ Rv a (x0 a) (v0 a)) -> legal ok l ->
    let res := run (pexec (pl_search pl) (pl_init pl)) (typed_impl pl D xop xret) (start m) l in
    exists v th, linearizable_to (objects spec) v0 (snd res) v th /\
      (forall t, match c_thr (fst res) t with Idle => th t = PIdle | Run _ _ => th t <> PIdle end) /\
      (forall a, d_locked (D a) = false \/ own (c_mem (fst res)) (lock_of pl (D a)) = None ->
         exists x, shows D (c_mem (fst res)) a x /\ rng false (d_bits (D a)) x /\ Rv a x (v a)).
  Proof.
    intros Hm Hv Hl res.
    destruct (lin_sound (pexec (pl_search pl) (pl_init pl))
                (fun s c r s' => psp D xop xret s c r s') (PInv pl D) (prely pl D) (pguar pl D)
                (prely_refl pl D) (prely_trans pl D) (pguar_rely pl D) (typed_impl pl D xop xret) ok)
      with (l := l) (m := m) (s := x0) as (s' & th & (l' & HL & HE) & HI & HP).
    - intros t o m0 s0 Ho HI0. apply typed_safe; auto.
    - destruct Hm as (M1 & M2 & M3 & M4 & M5 & M6). constructor.
      + intros _ i. destruct (M1 i) as (A & B & _). rewrite A, B. cbn. split; congruence.
      + intros a. apply Hv.
      + intros a La. specialize (M3 a). unfold shows in M3. now rewrite La in M3.
      + intros a La _. specialize (M3 a). unfold shows in M3. rewrite La in M3. split; [exact M3 | apply Hv].
    - apply Forall_forall. intros [t o|t w|t] He; simpl; auto. apply (Hl t o He).
    - assert (HL2 : lrun (fun s o r s' => ok o /\ psp D xop xret s o r s') x0 (fun _ => PIdle) l' s' th).
      { apply lrun_ok; auto; [intros t; exact I|]. intros t o Hin. rewrite HE in Hin. apply (Hl t). eapply run_calls; eauto. }
      destruct (lrun_sim (fun s o r s' => ok o /\ psp D xop xret s o r s') (objects spec)
                  (fun s v => forall a, rng false (d_bits (D a)) (s a) /\ Rv a (s a) (v a))) with (2 := HL2) (t := v0)
        as (v' & HL' & HR').
      + intros s [a o] r s1 v (Ho & (r0 & Hs & ->) & H2) HR. simpl in *.
        assert (Hr1 : rng false (d_bits (D a)) (s1 a)).
        { apply (astep_range (d_bits (D a)) (s a) (xop a o) r0); auto; [apply (bits_pos D HD) | apply (Hok _ Ho) | apply HR]. }
        destruct (Hsim a o (s a) (v a) r0 (s1 a) Ho (proj2 (HR a)) Hr1 Hs) as (y & Hy & HRy).
        exists (fun b => if Nat.eqb b a then y else v b). split.
        * split; simpl; [rewrite Nat.eqb_refl; exact Hy|].
          intros b Hb. apply Nat.eqb_neq in Hb. now rewrite Hb.
        * intros b. destruct (Nat.eqb b a) eqn:E.
          -- apply Nat.eqb_eq in E. now subst.
          -- rewrite H2 by (now apply Nat.eqb_neq in E). apply HR.
      + exact Hv.
      + exists v', th. refine (conj _ (conj HP _)).
        * exists l'. auto.
        * intros a Ha. exists (s' a). destruct (HR' a) as [A B]. split; [|auto]. unfold shows.
          destruct (d_locked (D a)) eqn:La.
          -- destruct Ha as [Ha|Ha]; [discriminate|]. apply (v_rep _ _ _ _ HI a La Ha).
          -- now apply HI.
  Qed.
End Sound.

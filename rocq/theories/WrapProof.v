(** * Runs in which the counters of the futex locks wrap around.

    The runs are too long to be computed (billions of calls): the memory after any number of identical calls is described
    up to the fields the library reads ([meq]), and the beginning and the end of the run are computed. *)
From Coq Require Import ZArith List Bool Arith Lia.
From Verif Require Import SpecInt SpecTyped SpecLin SpecObj SpecBytes SpecPool Conv Prog RG SleepLogic FindModel RecordsModel
  PoolModel PoolFront PoolProof PoolExamples SpecSleep SleepExamples.
Import ListNotations.
Open Scope Z_scope.

(** ** Memories that look the same *)
Definition meq (m n : pmem) : Prop :=
  (forall i, mx m i = mx n i) /\ (forall i, own m i = own n i) /\ (forall z, byt m z = byt n z) /\ (forall a, cel m a = cel n a) /\
  (forall i, wl m i = wl n i) /\ (forall i k, cnd m i k = cnd n i k) /\ (forall i k, wct m i k = wct n i k) /\
  slp m = slp n /\ clk m = clk n /\ fault m = fault n.
Lemma meq_refl m : meq m m.
Proof. unfold meq. repeat split; reflexivity. Qed.
Lemma meq_sym m n : meq m n -> meq n m.
Proof. unfold meq. intros (A1 & A2 & A3 & A4 & A5 & A6 & A7 & A8 & A9 & A10). repeat split; intros; symmetry; auto. Qed.
Lemma meq_trans m n o : meq m n -> meq n o -> meq m o.
Proof.
  unfold meq. intros (A1 & A2 & A3 & A4 & A5 & A6 & A7 & A8 & A9 & A10) (B1 & B2 & B3 & B4 & B5 & B6 & B7 & B8 & B9 & B10).
  repeat split; intros; congruence.
Qed.

Ltac same :=
  unfold meq; cbn [mx own byt cel wl cnd wct slp clk fault set_mx set_own set_byt set_cel set_wl set_cnd set_wct set_slp set_clk set_fault];
  repeat split; intros; unfold fset2, fset, bset; rewrite ?Nat.eqb_refl;
  repeat match goal with |- context [if ?b then _ else _] => destruct b end; auto; try congruence.

Lemma guarded_meq m n i t m1 n1 : meq m n -> meq m1 n1 -> meq (guarded m i t m1) (guarded n i t n1).
Proof.
  intros H K. unfold guarded, owned. destruct H as (_ & H & _). rewrite (H i). destruct (match own n i with Some u => Nat.eqb u t | None => false end); [exact K|].
  destruct K as (E1 & E2 & E3 & E4 & E5 & E6 & E7 & E8 & E9 & E10). same.
Qed.

Section Same.
  Variables (search : Z -> list Z -> nat -> option nat) (init : nat).
  Notation ex := (pexec search init).
  Definition osame {X} (a b : option (pmem * X)) : Prop :=
    match a, b with
    | None, None => True
    | Some (m, x), Some (n, y) => meq m n /\ x = y
    | _, _ => False
    end.
  Lemma pexec_meq t a m n w : meq m n -> osame (ex t a m w) (ex t a n w).
  Proof.
    intros H0. pose proof H0 as (E1 & E2 & E3 & E4 & E5 & E6 & E7 & E8 & E9 & E10). destruct a; cbn [pexec]; rewrite ?E1, ?E2, ?E3, ?E4, ?E5, ?E6, ?E7, ?E8, ?E9, ?E10.
    - split; [exact H0 | reflexivity].
    - destruct ((mx n i =? e) && (negb weak || f_lucky w)); split; auto. same.
    - split; auto. same.
    - assert (F : fword m f = fword n f) by (destruct f; cbn; auto). rewrite F. destruct (fword n f =? v); split; auto. same.
    - unfold asleep. rewrite E8. destruct (existsb _ (slp n)); [|split; auto]. destruct (f_spur w); [split; auto; same|].
      destruct deadline as [d|]; [|exact I]. destruct (d <=? clk n + Z.max 0 (f_adv w)); [|exact I]. split; auto. same.
    - unfold picked, sleepers. rewrite E8. destruct all; [split; auto; same|]. destruct (nth_error _ _); split; auto. same.
    - unfold picked, sleepers. rewrite E8. destruct all; [split; auto; same|]. destruct (nth_error _ _); split; auto. same.
    - split; auto.
    - split; auto. same.
    - split; auto. apply guarded_meq; auto.
    - split; auto. apply guarded_meq; auto. same.
    - destruct (own n i); split; auto. same.
    - destruct (own n i); [exact I|]. split; auto. same.
    - split; auto. apply guarded_meq; auto. same.
    - split; auto. apply guarded_meq; auto. same.
    - split; auto. apply guarded_meq; auto.
    - split; auto. apply guarded_meq; auto. same.
    - destruct (allocate_wait_state _ _ _ _ _ _) as [[l r]|]; split; auto; [apply guarded_meq; auto; same | same].
    - destruct (free_wait_state _ _) as [l|]; split; auto; [apply guarded_meq; auto; same | same].
    - destruct (find _ _ _) as [l|]; split; auto; [apply guarded_meq; auto | same].
    - destruct (cleanup _) as [l|]; split; auto; [apply guarded_meq; auto; same | same].
    - split; auto. same.
    - split; auto. same.
    - split; auto. same.
    - split; auto.
  Qed.

  Context {C R : Type} (impl : nat * C -> pprog R).
  Notation conf := (config pact presp pmem (nat * C) R).
  Definition ceq (c d : conf) : Prop := meq (c_mem c) (c_mem d) /\ forall t, c_thr c t = c_thr d t.
  Lemma ceq_refl c : ceq c c.
  Proof. split; [apply meq_refl | reflexivity]. Qed.
  Lemma ceq_sym c d : ceq c d -> ceq d c.
  Proof. intros [A B]. split; [now apply meq_sym | intros; symmetry; auto]. Qed.
  Lemma ceq_trans c d e : ceq c d -> ceq d e -> ceq c e.
  Proof. intros [A B] [A' B']. split; [eapply meq_trans; eauto | intros; congruence]. Qed.
  Lemma tset_ceq m n (f g : nat -> tstate pact presp (nat * C) R) t s : meq m n -> (forall t, f t = g t) -> ceq (mkc m (tset f t s)) (mkc n (tset g t s)).
  Proof. intros H K. split; [exact H|]. intros u. cbn. unfold tset. destruct (Nat.eqb u t); auto. Qed.
  Lemma cstep_ceq c d e : ceq c d -> ceq (fst (cstep ex impl c e)) (fst (cstep ex impl d e)) /\ snd (cstep ex impl c e) = snd (cstep ex impl d e).
  Proof.
    intros [A B]. destruct e as [t o|t w|t]; cbn; rewrite (B t).
    - destruct (c_thr d t); cbn; split; auto; [now apply tset_ceq | now split].
    - destruct (c_thr d t) as [|o p]; [split; [now split | reflexivity]|]. destruct p as [r|a k|X B0 body s k]; cbn; try (split; [now apply tset_ceq | reflexivity]).
      pose proof (pexec_meq t a _ _ w A) as S. unfold osame in S.
      destruct (ex t a (c_mem c) w) as [[m1 x]|], (ex t a (c_mem d) w) as [[m2 y]|]; try contradiction; cbn; (split; [|reflexivity]); [|now apply tset_ceq].
      destruct S as [S ->]. now apply tset_ceq.
    - destruct (c_thr d t) as [|o [r|a k|X B0 body s k]]; cbn; split; auto; try now split. now apply tset_ceq.
  Qed.
  Lemma run_ceq l : forall c d, ceq c d -> ceq (fst (run ex impl c l)) (fst (run ex impl d l)) /\ snd (run ex impl c l) = snd (run ex impl d l).
  Proof.
    induction l as [|e l IH]; intros c d H; [split; [exact H | reflexivity]|]. cbn.
    destruct (cstep_ceq c d e H) as [S1 S2]. destruct (cstep ex impl c e) as [c1 h1], (cstep ex impl d e) as [d1 h2]. cbn in S1, S2. subst h2.
    destruct (IH _ _ S1) as [I1 I2]. destruct (run ex impl c1 l) as [c2 h2], (run ex impl d1 l) as [d2 h3]. cbn in *. subst h3. split; auto.
  Qed.
End Same.

(** ** Histories *)
Section Hist.
  Variables (search : Z -> list Z -> nat -> option nat) (init : nat).
  Notation ex := (pexec search init).
  Context {C R : Type} (impl : nat * C -> pprog R).
  Lemma hist_cons c e l : snd (run ex impl c (e :: l)) = snd (cstep ex impl c e) ++ snd (run ex impl (fst (cstep ex impl c e)) l).
  Proof. cbn. destruct (cstep ex impl c e) as [c1 h1]. cbn. destruct (run ex impl c1 l). reflexivity. Qed.
  Lemma hist_app l1 : forall c l2, snd (run ex impl c (l1 ++ l2)) = snd (run ex impl c l1) ++ snd (run ex impl (fst (run ex impl c l1)) l2).
  Proof.
    induction l1 as [|e l1 IH]; intros c l2; [reflexivity|]. cbn [app]. rewrite hist_cons, IH, (hist_cons c e l1), run_cons. now rewrite app_assoc.
  Qed.
End Hist.

(** ** A call made while the other threads stand still *)
Notation w0 := (mkf true false 0 0 true true).
Section Solo.
  Variables (search : Z -> list Z -> nat -> option nat) (init : nat).
  Notation ex := (pexec search init).
  Context {C R : Type} (impl : nat * C -> pprog R).
  Notation conf := (config pact presp pmem (nat * C) R).
  Notation sch := (list (sched fate (nat * C))).
  Variable t : nat.
  (** [n] steps of thread [t], [P] holding in between and [Q] at the end *)
  Fixpoint steps (n : nat) (m : pmem) (p : pprog R) (P : pmem -> Prop) (Q : pmem -> pprog R -> Prop) : Prop :=
    P m /\ match n with
           | O => Q m p
           | S n => let y := pstep ex t w0 m p in steps n (fst y) (snd y) P Q
           end.
  Lemma steps_do n m a k m' x (P : pmem -> Prop) Q : P m -> ex t a m w0 = Some (m', x) -> steps n m' (k x) P Q -> steps (S n) m (Do a k) P Q.
  Proof. intros H E K. cbn. rewrite E. now split. Qed.
  Lemma steps_loop n m X B (body : X -> pprog (X + B)) s k (P : pmem -> Prop) Q :
    P m -> steps n m (bind (body s) (fun y => match y with inl s' => Loop body s' k | inr b => k b end)) P Q -> steps (S n) m (Loop body s k) P Q.
  Proof. intros H K. now split. Qed.
  Lemma steps_ret n m r (P : pmem -> Prop) (Q : pmem -> pprog R -> Prop) : P m -> Q m (Ret r) -> steps n m (Ret r) P Q.
  Proof. intros H K. induction n as [|n IH]; cbn; split; auto. Qed.

  Definition went (c d : conf) (o : nat * C) (m : pmem) (p : pprog R) : Prop :=
    c_mem d = m /\ c_thr d t = Run o p /\ forall u, u <> t -> c_thr d u = c_thr c u.
  Lemma run_steps n : forall c m o p P Q, went c c o m p -> steps n m p P Q ->
    (forall l1 l2, repeat (SStep t w0) n = l1 ++ l2 -> P (c_mem (fst (run ex impl c l1)))) /\
    snd (run ex impl c (repeat (SStep t w0) n)) = [] /\
    exists m' p', Q m' p' /\ went c (fst (run ex impl c (repeat (SStep t w0) n))) o m' p'.
  Proof.
    induction n as [|n IH]; intros c m o p P Q (W1 & W2 & W3) S.
    - destruct S as [S1 S2]. split; [|split; [reflexivity|]].
      + intros l1 l2 E. destruct l1; [|discriminate]. cbn. now rewrite W1.
      + exists m, p. split; [exact S2|]. now split.
    - destruct S as [S1 S2]. cbn [repeat].
      assert (E : cstep ex impl c (SStep t w0) = (mkc (fst (pstep ex t w0 m p)) (tset (c_thr c) t (Run o (snd (pstep ex t w0 m p)))), [])).
      { cbn. rewrite W2, W1. destruct (pstep ex t w0 m p); reflexivity. }
      cbn zeta in S2. destruct (pstep ex t w0 m p) as [m1 p1]. cbn [fst snd] in *.
      set (c1 := mkc m1 (tset (c_thr c) t (Run o p1))) in *.
      destruct (IH c1 m1 o p1 P Q) as (I1 & I2 & m' & p' & I3 & I4 & I5 & I6).
      { split; [reflexivity|]. split; [unfold c1; cbn; now rewrite tset_eq | reflexivity]. }
      { exact S2. }
      split; [|split].
      + intros l1 l2 El. destruct l1 as [|e l1]; [cbn; now rewrite W1|]. injection El as <- El. cbn. cbn in E. rewrite E.
        specialize (I1 l1 l2 El). destruct (run ex impl c1 l1) as [c2 h2]. exact I1.
      + cbn. cbn in E. rewrite E. destruct (run ex impl c1 (repeat (SStep t w0) n)). cbn in *. now rewrite I2.
      + exists m', p'. split; [exact I3|].
        assert (F : fst (run ex impl c (SStep t w0 :: repeat (SStep t w0) n)) = fst (run ex impl c1 (repeat (SStep t w0) n))).
        { cbn. cbn in E. rewrite E. destruct (run ex impl c1 (repeat (SStep t w0) n)). reflexivity. }
        rewrite F. split; [exact I4|]. split; [exact I5|]. intros u N. rewrite I6 by exact N. unfold c1. cbn. now rewrite tset_neq.
  Qed.
  Lemma run_call n c o P (Q : pmem -> Prop) r : c_thr c t = Idle ->
    steps n (c_mem c) (impl o) P (fun m p => p = Ret r /\ Q m) ->
    let l := SInv t o :: repeat (SStep t w0) n ++ [SRes t] in
    (forall l1 l2, l = l1 ++ l2 -> P (c_mem (fst (run ex impl c l1)))) /\
    snd (run ex impl c l) = [EInv t o; ERes t r] /\
    exists m', Q m' /\ ceq (fst (run ex impl c l)) (mkc m' (c_thr c)).
  Proof.
    intros Hi S l. set (c1 := mkc (c_mem c) (tset (c_thr c) t (Run o (impl o))) : conf).
    assert (E : cstep ex impl c (SInv t o) = (c1, [EInv t o])) by (cbn; rewrite Hi; reflexivity).
    destruct (run_steps n c1 (c_mem c) o (impl o) _ _ ltac:(split; [reflexivity|]; split; [unfold c1; cbn; now rewrite tset_eq | reflexivity]) S)
      as (I1 & I2 & m' & p' & [-> I3] & I4 & I5 & I6).
    set (g := repeat (SStep t w0) n) in *.
    assert (E2 : cstep ex impl (fst (run ex impl c1 g)) (SRes t) = (mkc m' (tset (c_thr (fst (run ex impl c1 g))) t Idle), [ERes t r])).
    { cbn. rewrite I5, I4. reflexivity. }
    assert (Hp : P (c_mem c)) by (destruct n; apply S).
    assert (Hq : P m').
    { rewrite <- I4. apply (I1 g []). now rewrite app_nil_r. }
    split; [|split].
    - intros l1 l2 El. destruct l1 as [|e l1]; [exact Hp|]. injection El as <- El. rewrite run_cons, E. cbn [fst].
      destruct (Nat.le_gt_cases (length l1) (length g)) as [L|L].
      + apply (I1 l1 (skipn (length l1) g)).
        assert (K : l1 = firstn (length l1) g).
        { transitivity (firstn (length l1) (g ++ [SRes t])); [rewrite El, firstn_app, Nat.sub_diag, firstn_all, firstn_O, app_nil_r; reflexivity|].
          rewrite firstn_app. replace (length l1 - length g)%nat with 0%nat by lia. now rewrite firstn_O, app_nil_r. }
        rewrite K at 2. symmetry. rewrite K at 1. rewrite <- K. rewrite K at 1. apply firstn_skipn.
      + assert (K : l2 = []) by (apply (f_equal (@length _)) in El; rewrite !app_length in El; cbn in El; destruct l2; [reflexivity | cbn in El; lia]).
        subst l2. rewrite app_nil_r in El. subst l1. rewrite SleepLogic.run_app, run_cons, E2. exact Hq.
    - subst l. rewrite hist_cons, E, hist_app. cbn [fst snd]. rewrite I2, hist_cons, E2. reflexivity.
    - exists m'. split; [exact I3|]. subst l. rewrite run_cons, E. cbn [fst]. rewrite SleepLogic.run_app, run_cons, E2. cbn [fst run].
      split; [apply meq_refl|]. intros u. cbn. unfold tset. destruct (Nat.eqb_spec u t) as [->|N]; [now rewrite Hi|]. rewrite I6 by exact N.
      unfold c1. cbn. now rewrite tset_neq.
  Qed.
End Solo.

(** ** The futex word of a free, uncontended lock is a multiple of 4 *)
Lemma word_facts q : 0 <= q ->
  Z.land (4 * q) locked = 0 /\ Z.lor (4 * q) locked = 4 * q + 1 /\ Z.odd (4 * q + 1) = true /\ Z.odd (4 * q) = false /\
  Z.land (4 * q + 1) (Z.lnot locked) = 4 * q /\ Z.land (4 * q + 1) contended = 0 /\
  Z.lor (4 * q + 1) contended = 4 * q + 3 /\ Z.land (4 * q + 3) (Z.lnot locked) = 4 * q + 2 /\ Z.land (4 * q + 3) contended = 2 /\
  Z.odd (4 * q + 3) = true /\ Z.odd (4 * q + 2) = false /\ Z.land (4 * q + 2) (Z.lnot contended) = 4 * q.
Proof. intros H. destruct q as [|p|p]; [|destruct p|lia]; repeat split; reflexivity. Qed.
Definition nextq (q : Z) : Z := (q + 1) mod 2 ^ 30.
Lemma nextq_range q : 0 <= nextq q.
Proof. apply Z.mod_pos_bound. lia. Qed.
Lemma u32_next q : u32 (4 * q + counter_one) = 4 * nextq q.
Proof. unfold u32, counter_one, wrap, nextq. change (2 ^ 32) with (4 * 2 ^ 30). rewrite <- Z.mul_mod_distr_l by lia. f_equal. lia. Qed.
Lemma u32_next2 q : u32 (4 * q + 2 + counter_one) = 4 * nextq q + 2.
Proof.
  rewrite <- u32_next. unfold u32, counter_one, wrap. change (2 ^ 32) with (4 * 2 ^ 30).
  assert (E : (4 * q + 4) mod (4 * 2 ^ 30) = 4 * ((q + 1) mod 2 ^ 30)) by (rewrite <- Z.mul_mod_distr_l by lia; f_equal; lia).
  rewrite E. symmetry. apply Z.mod_unique with (q := (q + 1) / 2 ^ 30).
  - left. pose proof (Z.mod_pos_bound (q + 1) (2 ^ 30)). lia.
  - pose proof (Z.div_mod (q + 1) (2 ^ 30)). lia.
Qed.

Section Rounds.
  Variables (search : Z -> list Z -> nat -> option nat) (init : nat) (t : nat).
  Notation ex := (pexec search init).
  Notation stp := (steps search init t).
  (** the lock is taken and released *)
  Lemma take_lock {A R} n m i q (f : unit -> pprog A) (g : A -> pprog R) (P : pmem -> Prop) Q : 0 <= q -> mx m i = 4 * q ->
    P m -> stp n (set_mx m i (4 * q + 1) (Some t) (unl m i)) (bind (f tt) g) P Q -> stp (2 + n)%nat m (bind (bind (futex_spin 10 i) f) g) P Q.
  Proof.
    intros Hq Hm HP H. destruct (word_facts q Hq) as (F1 & F2 & F3 & F4 & _).
    apply steps_do with (m' := m) (x := mx m i); [exact HP | reflexivity |].
    rewrite Hm, F1, F2. apply steps_do with (m' := set_mx m i (4 * q + 1) (Some t) (unl m i)) (x := (true, 4 * q)); [exact HP | | exact H].
    cbn [pexec negb orb]. rewrite Hm, Z.eqb_refl, F3, F4. reflexivity.
  Qed.
  Lemma free_lock {A R} n m i q (f : unit -> pprog A) (g : A -> pprog R) (P : pmem -> Prop) Q : 0 <= q -> mx m i = 4 * q + 1 ->
    P m -> stp n (set_mx m i (4 * nextq q) None (unl m i + 1)) (bind (f tt) g) P Q -> stp (3 + n)%nat m (bind (bind (futex_unlock i) f) g) P Q.
  Proof.
    intros Hq Hm HP H. destruct (word_facts q Hq) as (F1 & F2 & F3 & F4 & F5 & F6 & _).
    destruct (word_facts (nextq q) (nextq_range q)) as (_ & _ & _ & G4 & _).
    apply steps_do with (m' := m) (x := mx m i); [exact HP | reflexivity |].
    apply steps_loop; [exact HP|]. rewrite Hm, F5, u32_next.
    apply steps_do with (m' := set_mx m i (4 * nextq q) None (unl m i + 1)) (x := (true, 4 * q + 1)); [exact HP | |].
    - cbn [pexec negb orb f_lucky]. rewrite Hm, Z.eqb_refl, F3, G4. reflexivity.
    - cbn [fst snd]. rewrite F6. exact H.
  Qed.
  Lemma free_contended {A R} n m i q (f : unit -> pprog A) (g : A -> pprog R) (P : pmem -> Prop) Q : 0 <= q -> mx m i = 4 * q + 3 -> slp m = [] ->
    let m1 := set_mx m i (4 * nextq q + 2) None (unl m i + 1) in
    P m -> P m1 -> stp n (set_mx m1 i (4 * nextq q) None (unl m1 i)) (bind (f tt) g) P Q ->
    stp (5 + n)%nat m (bind (bind (futex_unlock i) f) g) P Q.
  Proof.
    intros Hq Hm Hs m1 HP HP1 H. destruct (word_facts q Hq) as (F1 & F2 & F3 & F4 & F5 & F6 & F7 & F8 & F9 & F10 & F11 & F12).
    destruct (word_facts (nextq q) (nextq_range q)) as (_ & _ & _ & G4 & _ & _ & _ & _ & _ & _ & G11 & G12).
    apply steps_do with (m' := m) (x := mx m i); [exact HP | reflexivity |].
    apply steps_loop; [exact HP|]. rewrite Hm, F8, u32_next2.
    apply steps_do with (m' := m1) (x := (true, 4 * q + 3)); [exact HP | |].
    - cbn [pexec negb orb f_lucky]. rewrite Hm, Z.eqb_refl, F10, G11. reflexivity.
    - cbn [fst snd]. rewrite F9. cbn [Z.eqb negb].
      apply steps_do with (m' := m1) (x := 0%nat); [exact HP1 | |].
      + cbn [pexec]. unfold picked, sleepers. change (slp m1) with (slp m). rewrite Hs. reflexivity.
      + cbn [Nat.eqb]. rewrite G12.
        apply steps_do with (m' := set_mx m1 i (4 * nextq q) None (unl m1 i)) (x := (true, 4 * nextq q + 2)); [exact HP1 | | exact H].
        cbn [pexec negb orb]. unfold m1 at 1. cbn [set_mx mx]. rewrite fset_if, Nat.eqb_refl, Z.eqb_refl, G4, G11. reflexivity.
  Qed.
End Rounds.

Definition at_word (m : pmem) (q : Z) : Prop := 0 <= q /\ mx m 0 = 4 * q /\ own m 0 = None.
Definition with_word (m : pmem) (y : Z) : pmem := set_mx m 0 y None (unl m 0).
Notation z_pl := (x_pl LFutex).
Notation z_ex := (pexec (pl_search z_pl) (pl_init z_pl)).
Notation z_impl := (t_impl z_pl z_obj).
Definition read0 (m : pmem) : tret := TRet (RVal (t_dec (z_obj 0) (number true (bytes_at (byt m) 64 4)))).
Lemma load_round t m q : at_word m q ->
  steps (pl_search z_pl) (pl_init z_pl) t 12 m (z_impl (0%nat, TInt Load)) (fun _ => True)
    (fun m' p => p = Ret (read0 m) /\ meq m' (with_word m (4 * nextq q))).
Proof.
  intros (Hq & Hm & Ho).
  change (z_impl (0%nat, TInt Load)) with
    (bind (bind (futex_spin 10 0) (fun _ => bind (bind (emu_body z_pl (t_desc (z_obj 0)) Load) (fun r => Ret (RI r))) (fun r => bind (futex_unlock 0) (fun _ => Ret r))))
       (fun r => Ret (t_ret (z_obj 0) (TInt Load) r))).
  apply (take_lock _ _ _ 10 m 0%nat q); [exact Hq | exact Hm | exact I |].
  set (m1 := set_mx m 0 (4 * q + 1) (Some t) (unl m 0)).
  assert (G : forall i z, i = 0%nat -> pexec (pl_search z_pl) (pl_init z_pl) t (BRd i z) m1 w0 = Some (m1, byt m z)).
  { intros i z ->. cbn [pexec]. unfold guarded, owned, m1. cbn [set_mx own]. rewrite fset_if, Nat.eqb_refl, Nat.eqb_refl. reflexivity. }
  do 4 (eapply steps_do; [exact I | apply G; reflexivity |]).
  apply (free_lock _ _ _ 3 m1 0%nat q); [exact Hq | | exact I |].
  { unfold m1. cbn [set_mx mx]. now rewrite fset_if, Nat.eqb_refl. }
  apply steps_ret; [exact I|]. split; [reflexivity|].
  unfold m1, with_word. same.
Qed.

Fixpoint rounds (n : nat) (l : list (sched fate (nat * tcall))) : list (sched fate (nat * tcall)) :=
  match n with O => [] | S n => rounds n l ++ l end.
Lemma with_word_twice m y y' : meq (with_word (with_word m y) y') (with_word m y').
Proof. unfold with_word. same. Qed.
Lemma with_word_meq m n y : meq m n -> meq (with_word m y) (with_word n y).
Proof. intros (E1 & E2 & E3 & E4 & E5 & E6 & E7 & E8 & E9 & E10). unfold with_word. same. Qed.
Lemma at_with_word m q : 0 <= q -> at_word (with_word m (4 * q)) q.
Proof. intros H. split; [exact H|]. split; reflexivity. Qed.
Notation z_conf := (config pact presp pmem (nat * tcall) tret).
Notation z_run := (run z_ex z_impl).
Lemma load_rounds n : forall (m : pmem) (thr : nat -> tstate pact presp (nat * tcall) tret) q t, 0 <= q < 2 ^ 30 -> thr t = Idle ->
  ceq (fst (z_run (mkc (with_word m (4 * q)) thr) (rounds n (call t (0%nat, TInt Load) 12))))
      (mkc (with_word m (4 * ((q + Z.of_nat n) mod 2 ^ 30))) thr).
Proof.
  induction n as [|n IH]; intros m thr q t Hq Ht.
  - cbn [rounds run fst]. rewrite Z.add_0_r, Z.mod_small by exact Hq. apply ceq_refl.
  - cbn [rounds]. rewrite SleepLogic.run_app.
    eapply ceq_trans; [apply run_ceq, IH; [exact Hq | exact Ht]|].
    set (q' := (q + Z.of_nat n) mod 2 ^ 30). assert (Hq' : 0 <= q') by (apply Z.mod_pos_bound; lia).
    set (c := mkc (with_word m (4 * q')) thr : z_conf).
    destruct (run_call (pl_search z_pl) (pl_init z_pl) z_impl t 12 c (0%nat, TInt Load) _ _ _ Ht (load_round t _ q' (at_with_word m q' Hq')))
      as (_ & _ & m' & Hm & Hc).
    eapply ceq_trans; [exact Hc|]. split; [|reflexivity]. cbn [c_mem]. eapply meq_trans; [exact Hm|].
    assert (E : nextq q' = (q + Z.of_nat (S n)) mod 2 ^ 30).
    { unfold nextq, q'. rewrite Zplus_mod_idemp_l. f_equal. lia. }
    rewrite E. apply with_word_twice.
Qed.


(** ** A sleeper left behind: thread 2, releasing the lock, has found nobody to wake and is about to clear the mark
    'contended'; the counter goes round; threads 3 and 5 fall asleep; thread 2 clears the mark they rely on *)
Definition st (o : iop) : nat * tcall := (0%nat, TInt o).
Definition l_old : list (sched fate (nat * tcall)) :=
  SInv 2%nat (st (Store 7)) :: go 2 4 ++ SInv 3%nat (st Load) :: go 3 23 ++ go 2 6 ++ go 3 60 ++ [SRes 3%nat].
Definition c_old : z_conf := fst (t_run z_pl z_obj z_mem l_old).
Definition l_end : list (sched fate (nat * tcall)) :=
  SInv 4%nat (st (Store 8)) :: go 4 4 ++ SInv 3%nat (st Load) :: go 3 60 ++ SInv 5%nat (st Load) :: go 5 60 ++ go 4 5 ++
  go 2 60 ++ [SRes 2%nat] ++ go 4 60 ++ [SRes 4%nat] ++ go 5 60 ++ [SRes 5%nat].
Definition l_wrap (n : nat) : list (sched fate (nat * tcall)) := l_old ++ rounds n (call 4 (st Load) 12) ++ l_end.
Definition c_end : z_conf := fst (z_run (mkc (with_word (c_mem c_old) 0) (c_thr c_old)) l_end).

Lemma in_rounds n e l : In e (rounds n l) -> In e l.
Proof. induction n as [|n IH]; cbn; [intros []|]. rewrite in_app_iff. intros [H|H]; auto. Qed.
Lemma not_inv t u n o : ~ In (SInv t o) (go u n).
Proof. intros K. apply repeat_spec in K. discriminate. Qed.
Lemma word_same (c : z_conf) y : mx (c_mem c) 0 = y -> own (c_mem c) 0 = None -> ceq c (mkc (with_word (c_mem c) y) (c_thr c)).
Proof.
  intros E1 E2. split; [|reflexivity]. unfold meq. cbn [c_mem]. unfold with_word. cbn [mx own byt cel wl cnd wct slp clk fault set_mx].
  repeat split; intros; auto; unfold fset; destruct (Nat.eqb_spec i 0) as [->|]; auto.
Qed.
Lemma wrap_end n : Z.of_nat n = 2 ^ 30 - 2 -> ceq (fst (t_run z_pl z_obj z_mem (l_wrap n))) c_end.
Proof.
  intros Hn.
  unfold l_wrap, t_run. rewrite !SleepLogic.run_app. apply run_ceq. 
  assert (Hc : fst (z_run (start z_mem) l_old) = c_old) by (unfold c_old, t_run; reflexivity). rewrite Hc.
  assert (H : ceq c_old (mkc (with_word (c_mem c_old) (4 * 2)) (c_thr c_old))).
  { apply word_same; vm_compute; reflexivity. }
  eapply ceq_trans; [apply run_ceq, H|].
  assert (N : c_thr c_old 4 = Idle) by (apply idleof_ok; vm_compute; reflexivity).
  pose proof (load_rounds n (c_mem c_old) (c_thr c_old) 2 4 ltac:(lia) N) as L.
  rewrite Hn in L. change ((2 + (2 ^ 30 - 2)) mod 2 ^ 30) with 0 in L. exact L.
Qed.
Lemma ceq_stuck pl (c d : z_conf) : ceq c d -> stuck pl d -> stuck pl c.
Proof.
  intros [A B] H t o p E. rewrite B in E. destruct (H t o p E) as (a & k & -> & Hb). exists a, k. split; [reflexivity|].
  intros w Hw. specialize (Hb w Hw). pose proof (pexec_meq (pl_search pl) (pl_init pl) t a _ _ w A) as S. rewrite Hb in S. unfold osame in S.
  destruct (pexec _ _ t a (c_mem c) w) as [[? ?]|]; [contradiction | reflexivity].
Qed.
Lemma end_idle m thr t : t <> 3%nat -> t <> 4%nat -> t <> 5%nat -> thr t = Idle -> c_thr (fst (z_run (mkc m thr) l_end)) t = Idle.
Proof.
  intros N3 N4 N5 H. apply (idle_stays z_pl z_impl); [|exact H]. clear H.
  intros o H. unfold l_end in H. repeat (rewrite ?in_app_iff in H; cbn [In] in H).
  repeat match goal with H : _ \/ _ |- _ => destruct H as [H|H] end; try (injection H as <- _; congruence); try discriminate; try contradiction;
    eapply not_inv; eauto.
Qed.
Lemma old_idle t : t <> 2%nat -> t <> 3%nat -> c_thr c_old t = Idle.
Proof.
  intros N2 N3. apply z_idle. intros o H. unfold l_old in H. repeat (rewrite ?in_app_iff in H; cbn [In] in H).
  repeat match goal with H : _ \/ _ |- _ => destruct H as [H|H] end; try (injection H as <- _; congruence); try discriminate; try contradiction;
    eapply not_inv; eauto.
Qed.
Lemma wrap_idle t : t <> 3%nat -> c_thr c_end t = Idle.
Proof.
  intros N. destruct (Nat.eq_dec t 2) as [->|N2]; [apply idleof_ok; vm_compute; reflexivity|].
  destruct (Nat.eq_dec t 4) as [->|N4]; [apply idleof_ok; vm_compute; reflexivity|].
  destruct (Nat.eq_dec t 5) as [->|N5]; [apply idleof_ok; vm_compute; reflexivity|].
  apply end_idle; auto. apply old_idle; auto.
Qed.
Lemma stranded : exists l, let c := fst (t_run z_pl z_obj z_mem l) in
  stuck z_pl c /\ running c 3 (0%nat, TInt Load) /\ sleeps_for_lock (c_mem c) 0 3 /\ own (c_mem c) 0 = None /\ forall t, t <> 3%nat -> c_thr c t = Idle.
Proof.
  destruct (Z_of_nat_complete (2 ^ 30 - 2)) as [n Hn]; [lia|]. symmetry in Hn. exists (l_wrap n).
  intros c. pose proof (wrap_end n Hn) as W. fold c in W. pose proof W as ((_ & Wo & _ & _ & _ & _ & _ & Ws & _) & Wt).
  split; [|split; [|split; [|split]]].
  - apply (ceq_stuck _ _ _ W). apply stuckb_ok with (ts := [3%nat]); [|vm_compute; reflexivity].
    intros t. destruct (Nat.eq_dec t 3) as [->|N]; [left; now left | right; now apply wrap_idle].
  - assert (H : running c_end 3 (0%nat, TInt Load)) by (apply opof_ok; vm_compute; reflexivity). destruct H as [p H]. exists p. now rewrite Wt.
  - unfold sleeps_for_lock. rewrite Ws. vm_compute. auto.
  - rewrite Wo. vm_compute. reflexivity.
  - intros t N. rewrite Wt. now apply wrap_idle.
Qed.

(** ** A notification missed: thread 1 has read the counter of its wait record and released the lock, and is about to fall
    asleep; the object changes; 2^32 notifications bring the counter back to what thread 1 has read *)
Definition z_look (w : wlist) : Prop := find find_address_generic w 64 = Some (Some 1%nat).
Definition with_both (m : pmem) (q x : Z) : pmem := set_cnd (with_word m (4 * q)) 0 1 x (ntf m 0 1%nat).
Lemma notify_round t all m q : at_word m q -> z_look (wl m 0) -> 0 < wct m 0 1%nat -> slp m = [] ->
  steps (pl_search z_pl) (pl_init z_pl) t 12 m (z_impl (0%nat, TNotify all)) (fun m' => byt m' = byt m)
    (fun m' p => p = Ret (TRet RUnit) /\ meq m' (with_both m (nextq q) (wrap 32 (cnd m 0 1%nat + 1)))).
Proof.
  intros (Hq & Hm & Ho) Hl Hw Hs. destruct (word_facts q Hq) as (F1 & F2 & F3 & F4 & F5 & F6 & F7 & F8 & F9 & F10 & F11 & F12).
  change (z_impl (0%nat, TNotify all)) with
    (bind (bind (futex_spin 10 0) (fun _ => bind (bind (pool_notify z_pl 0 64 all) (fun _ => Ret (RI RUnit))) (fun r => bind (futex_unlock 0) (fun _ => Ret r))))
       (fun r => Ret (t_ret (z_obj 0) (TNotify all) r))).
  apply (take_lock _ _ _ 10 m 0%nat q); [exact Hq | exact Hm | reflexivity |].
  set (m1 := set_mx m 0 (4 * q + 1) (Some t) (unl m 0)).
  assert (G : forall m', own m' 0 = Some t -> guarded m' 0 t m' = m') by (intros m' E; unfold guarded, owned; now rewrite E, Nat.eqb_refl).
  assert (O1 : own m1 0 = Some t) by reflexivity.
  eapply steps_do; [reflexivity | |].
  { cbn [pexec]. change (wl m1 0) with (wl m 0). change (pl_search z_pl) with find_address_generic. rewrite Hl, (G m1 O1). reflexivity. }
  cbn beta iota. eapply steps_do; [reflexivity | reflexivity |].
  set (m2 := set_cnd m1 0 1 (wrap 32 (cnd m1 0 1%nat + 1)) (ntf m1 0 1%nat + 1)).
  eapply steps_do; [reflexivity | cbn [pexec]; rewrite (G m2 O1); reflexivity |].
  change (wct m2 0 1%nat) with (wct m 0 1%nat). destruct (Z.ltb_spec 0 (wct m 0 1%nat)) as [_|]; [|lia].
  assert (S2 : slp m2 = []) by exact Hs.
  eapply (steps_do _ _ _ _ m2 (FRequeue 0 1 all) _ (set_slp m2 [])); [reflexivity | |].
  { cbn [pexec]. unfold picked, sleepers. rewrite S2. destruct all; cbn [map filter nth_error length Nat.modulo]; [reflexivity|].
    change (nth_error (@nil nat) _) with (@None nat). unfold m2, m1, set_slp, set_cnd, set_mx. cbn [mx own byt cel wl cnd wct slp clk unl ntf fault].
    rewrite Hs. reflexivity. }
  set (m3 := set_slp m2 []). cbn beta iota.
  eapply steps_do; [reflexivity | reflexivity |].
  change (mx m3 0) with (4 * q + 1). rewrite F7.
  apply (free_contended _ _ _ 0 _ 0%nat q); [exact Hq | reflexivity | reflexivity | reflexivity | reflexivity |].
  apply steps_ret; [reflexivity|]. split; [reflexivity|].
  unfold m3, m2, m1, with_both, with_word. same.
Qed.
Lemma with_both_twice m q x q' x' : meq (with_both (with_both m q x) q' x') (with_both m q' x').
Proof. unfold with_both, with_word. same. Qed.
Lemma notify_rounds n : forall (m : pmem) (thr : nat -> tstate pact presp (nat * tcall) tret) q x t all,
  0 <= q < 2 ^ 30 -> 0 <= x < 2 ^ 32 -> thr t = Idle -> z_look (wl m 0) -> 0 < wct m 0 1%nat -> slp m = [] ->
  let c := mkc (with_both m q x) thr : z_conf in
  let l := rounds n (call t (0%nat, TNotify all) 12) in
  throughout z_pl z_impl c l (fun c => forall z, byt (c_mem c) z = byt m z) /\
  (n <> O -> exists h, snd (z_run c l) = h ++ [EInv t (0%nat, TNotify all); ERes t (TRet RUnit)]) /\
  ceq (fst (z_run c l)) (mkc (with_both m ((q + Z.of_nat n) mod 2 ^ 30) ((x + Z.of_nat n) mod 2 ^ 32)) thr).
Proof.
  induction n as [|n IH]; intros m thr q x t all Hq Hx Ht Hl Hw Hs c l.
  - subst l. cbn [rounds run fst]. rewrite !Z.add_0_r, !Z.mod_small by assumption. split; [|split; [congruence | apply ceq_refl]].
    intros l1 l2 E. destruct l1; [|discriminate]. reflexivity.
  - subst l. cbn [rounds]. destruct (IH m thr q x t all Hq Hx Ht Hl Hw Hs) as (I1 & _ & I3). fold c in I1, I3.
    set (q' := (q + Z.of_nat n) mod 2 ^ 30) in *. set (x' := (x + Z.of_nat n) mod 2 ^ 32) in *.
    assert (Hq' : 0 <= q') by (apply Z.mod_pos_bound; lia).
    set (d := mkc (with_both m q' x') thr : z_conf) in *. set (lr := rounds n _) in *. set (cl := call t (0%nat, TNotify all) 12) in *.
    assert (Hd : at_word (c_mem d) q') by (split; [exact Hq' | split; reflexivity]).
    destruct (run_call (pl_search z_pl) (pl_init z_pl) z_impl t 12 d (0%nat, TNotify all) _ _ _ Ht (notify_round t all (c_mem d) q' Hd Hl Hw Hs))
      as (J1 & J2 & m' & Jm & J3). change (SInv t (0%nat, TNotify all) :: repeat (SStep t w0) 12 ++ [SRes t]) with cl in *.
    destruct (run_ceq (pl_search z_pl) (pl_init z_pl) z_impl cl _ _ I3) as [K1 K2].
    split; [|split].
    + intros l1 l2 E. destruct (Nat.le_gt_cases (length l1) (length lr)) as [L|L].
      * apply (I1 l1 (skipn (length l1) lr)). assert (K : l1 = firstn (length l1) lr).
        { transitivity (firstn (length l1) (lr ++ cl)); [rewrite E, firstn_app, Nat.sub_diag, firstn_all, firstn_O, app_nil_r; reflexivity|].
          rewrite firstn_app. replace (length l1 - length lr)%nat with 0%nat by lia. now rewrite firstn_O, app_nil_r. }
        rewrite K at 2. symmetry. rewrite K at 1. rewrite <- K. rewrite K at 1. apply firstn_skipn.
      * assert (K : l1 = lr ++ skipn (length lr) l1 /\ cl = skipn (length lr) l1 ++ l2).
        { assert (K : firstn (length lr) l1 = lr).
          { transitivity (firstn (length lr) (l1 ++ l2)); [rewrite firstn_app; replace (length lr - length l1)%nat with 0%nat by lia; now rewrite firstn_O, app_nil_r|].
            rewrite <- E, firstn_app, Nat.sub_diag, firstn_all, firstn_O, app_nil_r. reflexivity. }
          split; [rewrite <- K at 1; symmetry; apply firstn_skipn|].
          transitivity (skipn (length lr) (lr ++ cl)); [now rewrite skipn_app, Nat.sub_diag, skipn_all|].
          rewrite E, skipn_app. replace (length lr - length l1)%nat with 0%nat by lia. reflexivity. }
        destruct K as [K E2]. rewrite K, SleepLogic.run_app. set (l3 := skipn (length lr) l1) in *.
        destruct (run_ceq (pl_search z_pl) (pl_init z_pl) z_impl l3 _ _ I3) as [[(_ & _ & B & _) _] _].
        intros z. rewrite B. rewrite (J1 l3 l2 E2). reflexivity.
    + intros _. exists (snd (z_run c lr)). rewrite hist_app, K2, J2. reflexivity.
    + rewrite SleepLogic.run_app. eapply ceq_trans; [exact K1|]. eapply ceq_trans; [exact J3|]. split; [|reflexivity]. cbn [c_mem].
      eapply meq_trans; [exact Jm|].
      assert (E1 : nextq q' = (q + Z.of_nat (S n)) mod 2 ^ 30) by (unfold nextq, q'; rewrite Zplus_mod_idemp_l; f_equal; lia).
      assert (E2 : wrap 32 (cnd (c_mem d) 0 1%nat + 1) = (x + Z.of_nat (S n)) mod 2 ^ 32).
      { change (cnd (c_mem d) 0 1%nat) with x'. unfold wrap, x'. rewrite Zplus_mod_idemp_l. f_equal. lia. }
      rewrite E1, E2. apply with_both_twice.
Qed.

Definition l_reg : list (sched fate (nat * tcall)) := SInv 1%nat (0%nat, TWait 0) :: go 1 15 ++ call 2 (st (Store 7)) 60.
Definition c_reg : z_conf := fst (t_run z_pl z_obj z_mem l_reg).
Lemma both_same (c : z_conf) q x : mx (c_mem c) 0 = 4 * q -> own (c_mem c) 0 = None -> cnd (c_mem c) 0 1%nat = x ->
  ceq c (mkc (with_both (c_mem c) q x) (c_thr c)).
Proof.
  intros E1 E2 E3. split; [|reflexivity]. unfold meq. cbn [c_mem]. unfold with_both, with_word. cbn [mx own byt cel wl cnd wct slp clk fault set_mx set_cnd].
  repeat split; intros; auto; unfold fset2, fset; destruct (Nat.eqb_spec i 0) as [->|]; auto.
  destruct (Nat.eqb_spec k 1) as [->|]; auto.
Qed.
(** which calls the threads are in *)
Lemma ops_of l : forall (c : z_conf) t o, running (fst (z_run c l)) t o -> running c t o \/ In (SInv t o) l.
Proof.
  induction l as [|e l IH]; intros c t o H; [now left|]. rewrite run_cons in H. destruct (IH _ _ _ H) as [K|K]; [|right; now right].
  destruct K as [p K]. unfold running. destruct e as [u o'|u w|u]; cbn [cstep] in K.
  - destruct (c_thr c u) eqn:E; [|left; eauto]. cbn in K. unfold tset in K. destruct (Nat.eqb_spec t u) as [Eu|Nu]; [|left; eauto].
    subst t. injection K as <- _. right. now left.
  - destruct (c_thr c u) as [|o' p'] eqn:E; [left; eauto|]. destruct (pstep z_ex u w (c_mem c) p') as [m1 p1]. cbn in K. unfold tset in K.
    destruct (Nat.eqb_spec t u) as [Eu|Nu]; [|left; eauto]. subst t. injection K as <- _. left. eauto.
  - destruct (c_thr c u) as [|o' [r|a k|X B body s k]] eqn:E; cbn in K; try (left; eauto; fail). unfold tset in K.
    destruct (Nat.eqb_spec t u) as [Eu|Nu]; [discriminate | left; eauto].
Qed.
Definition l_missed (n : nat) (all : bool) : list (sched fate (nat * tcall)) := rounds n (call 2 (0%nat, TNotify all) 12) ++ go 1 1.
Definition c_missed : z_conf := fst (z_run (mkc (with_both (c_mem c_reg) 2 0) (c_thr c_reg)) (go 1 1)).
Lemma reg_idle t : t <> 1%nat -> c_thr c_reg t = Idle.
Proof.
  intros N. destruct (Nat.eq_dec t 2) as [->|N2]; [apply idleof_ok; vm_compute; reflexivity|].
  apply z_idle. intros o H. unfold l_reg, call in H. repeat (rewrite ?in_app_iff in H; cbn [In] in H).
  repeat match goal with H : _ \/ _ |- _ => destruct H as [H|H] end; try (injection H as <- _; congruence); try discriminate; try contradiction;
    eapply not_inv; eauto.
Qed.
Lemma reg_one m thr t : t <> 1%nat -> thr t = Idle -> c_thr (fst (z_run (mkc m thr) (go 1 1))) t = Idle.
Proof. intros N H. apply (idle_stays z_pl z_impl); [|exact H]. intros o. apply not_inv. Qed.
Lemma missed_idle t : t <> 1%nat -> c_thr c_missed t = Idle.
Proof. intros N. apply reg_one; [exact N | now apply reg_idle]. Qed.
Lemma reg_bytes (c : z_conf) : (forall z, byt (c_mem c) z = byt (c_mem c_reg) z) -> value_of z_D (c_mem c) 0 = 7.
Proof.
  intros H. transitivity (value_of z_D (c_mem c_reg) 0); [|vm_compute; reflexivity].
  unfold value_of. change (d_locked (t_desc (z_obj 0))) with true. cbn iota. f_equal. unfold bytes_at. apply map_ext. intros j. apply H.
Qed.
Lemma missed all : exists l1 l2,
  let c1 := fst (t_run z_pl z_obj z_mem l1) in
  let c := fst (t_run z_pl z_obj z_mem (l1 ++ l2)) in
  throughout z_pl z_impl c1 l2 (fun c => value_of z_D (c_mem c) 0 = 7) /\
  returned (snd (z_run c1 l2)) (0%nat, TNotify all) /\
  throughout z_pl z_impl c1 l2 (lone_waiter 0) /\
  stuck z_pl c /\ running c 1 (0%nat, TWait 0) /\ sleeps_in_wait (c_mem c) 1 /\ forall t, t <> 1%nat -> c_thr c t = Idle.
Proof.
  destruct (Z_of_nat_complete (2 ^ 32)) as [n Hn]; [lia|]. symmetry in Hn. exists l_reg, (l_missed n all). intros c1 c.
  assert (Ec1 : c1 = c_reg) by (unfold c1, c_reg; reflexivity). clearbody c1. subst c1.
  assert (H : ceq c_reg (mkc (with_both (c_mem c_reg) 2 0) (c_thr c_reg))) by (apply both_same; vm_compute; reflexivity).
  set (d := mkc (with_both (c_mem c_reg) 2 0) (c_thr c_reg) : z_conf) in *.
  assert (N : c_thr c_reg 2 = Idle) by (apply reg_idle; discriminate).
  destruct (notify_rounds n (c_mem c_reg) (c_thr c_reg) 2 0 2 all ltac:(lia) ltac:(lia) N) as (R1 & R2 & R3);
    [vm_compute; reflexivity | vm_compute; reflexivity | vm_compute; reflexivity |].
  rewrite Hn in R3. change ((2 + 2 ^ 32) mod 2 ^ 30) with 2 in R3. change ((0 + 2 ^ 32) mod 2 ^ 32) with 0 in R3. fold d in R1, R2, R3.
  destruct R2 as [h R2]; [clear - Hn; intros E0; rewrite E0 in Hn; discriminate Hn|].
  set (lr := rounds n (call 2 (0%nat, TNotify all) 12)) in *.
  assert (E : ceq (fst (z_run c_reg lr)) d) by (eapply ceq_trans; [apply run_ceq, H | exact R3]).
  assert (W : ceq (fst (z_run c_reg (l_missed n all))) c_missed).
  { unfold l_missed. rewrite SleepLogic.run_app. apply run_ceq. exact E. }
  assert (Ec : c = fst (z_run c_reg (l_missed n all))).
  { unfold c, t_run. rewrite SleepLogic.run_app. unfold c_reg, t_run. reflexivity. }
  clearbody c. subst c. split; [|split; [|split; [|split; [|split; [|split]]]]].
  - intros l1 l2 El. apply reg_bytes. intros z. unfold l_missed in El. fold lr in El.
    destruct (Nat.le_gt_cases (length l1) (length lr)) as [L|L].
    + assert (K : l1 = firstn (length l1) lr).
      { transitivity (firstn (length l1) (lr ++ go 1 1)); [rewrite El, firstn_app, Nat.sub_diag, firstn_all, firstn_O, app_nil_r; reflexivity|].
        rewrite firstn_app. replace (length l1 - length lr)%nat with 0%nat by lia. now rewrite firstn_O, app_nil_r. }
      assert (K2 : lr = l1 ++ skipn (length l1) lr) by (rewrite K at 1; symmetry; apply firstn_skipn).
      destruct (run_ceq (pl_search z_pl) (pl_init z_pl) z_impl l1 _ _ H) as [[(_ & _ & B & _) _] _]. rewrite B. apply (R1 l1 _ K2).
    + assert (K : l1 = lr ++ go 1 1).
      { assert (K : l2 = []).
        { apply (f_equal (@length _)) in El. rewrite !app_length in El. cbn in El. destruct l2; [reflexivity | cbn in El; lia]. }
        now rewrite K, app_nil_r in El. }
      destruct W as [(_ & _ & B & _) _]. unfold l_missed in B. fold lr in B. rewrite K, B. vm_compute. reflexivity.
  - unfold l_missed. fold lr. rewrite hist_app.
    destruct (run_ceq (pl_search z_pl) (pl_init z_pl) z_impl lr _ _ H) as [_ K]. rewrite K, R2.
    exists h, 2%nat, [], (TRet RUnit), (snd (z_run (fst (z_run c_reg lr)) (go 1 1))). rewrite <- app_assoc. reflexivity.
  - intros l1 l2 El. assert (G : forall t x, running (fst (z_run c_reg l1)) t (0%nat, x) -> is_wait x = true -> t = 1%nat).
    { intros t x Hr Hw. destruct (ops_of l1 c_reg t _ Hr) as [[p Hp]|Hi].
      - destruct (Nat.eq_dec t 1) as [->|Nt]; [reflexivity|]. rewrite reg_idle in Hp by exact Nt. discriminate.
      - assert (Hi' : In (SInv t (0%nat, x)) (l_missed n all)) by (rewrite El, in_app_iff; now left). unfold l_missed in Hi'. rewrite in_app_iff in Hi'.
        destruct Hi' as [Hi'|Hi']; [|now apply not_inv in Hi']. apply in_rounds in Hi'. unfold call in Hi'. destruct Hi' as [Hi'|Hi'].
        + injection Hi' as _ <-. discriminate.
        + rewrite in_app_iff in Hi'. destruct Hi' as [Hi'|[Hi'|[]]]; [now apply not_inv in Hi' | discriminate]. }
    intros t u x y Ht Hu Hx Hy. rewrite (G t x Ht Hx). symmetry. eapply G; eauto.
  - apply (ceq_stuck _ _ _ W). apply stuckb_ok with (ts := [1%nat]); [|vm_compute; reflexivity].
    intros t. destruct (Nat.eq_dec t 1) as [->|Nt]; [left; now left | right; now apply missed_idle].
  - assert (K : running c_missed 1 (0%nat, TWait 0)) by (apply opof_ok; vm_compute; reflexivity). destruct K as [p K]. exists p.
    destruct W as [_ Wt]. now rewrite Wt.
  - destruct W as [(_ & _ & _ & _ & _ & _ & _ & Ws & _) _]. unfold sleeps_in_wait. rewrite Ws. apply sleepsb_ok. vm_compute. reflexivity.
  - intros t Nt. destruct W as [_ Wt]. rewrite Wt. now apply missed_idle.
Qed.

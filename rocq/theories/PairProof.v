(** * 128-bit AArch64 operations: proofs. *)
From Coq Require Import ZArith List Bool Lia.
From Verif Require Import SpecInt SpecLin SpecObj SpecPair Order Conv WordFacts Prog Word RG CoreModel CoreProof
  ExtraModel ExtraProof FrontProof IntModel IntProof PairModel.
Open Scope Z_scope.

Arguments join : simpl never.
Arguments half : simpl never.

(** ** Halves *)
Definition lo128 (x : Z) := half 128 false x.
Definition hi128 (x : Z) := half 128 true x.

Lemma p128 : 2 ^ 128 = 2 ^ 64 * 2 ^ 64. Proof. reflexivity. Qed.

Lemma lo_eq x : lo128 x = x mod 2 ^ 64. Proof. reflexivity. Qed.
Lemma hi_eq x : inw 128 x -> hi128 x = x / 2 ^ 64.
Proof.
  intros H. unfold hi128, half, wrap. change (128 / 2) with 64. unfold inw in H. rewrite p128 in H.
  apply Z.mod_small. split; [apply Z.div_pos; lia | apply Z.div_lt_upper_bound; lia].
Qed.

Lemma join_halves x : inw 128 x -> join 128 (lo128 x) (hi128 x) = x.
Proof.
  intros H. rewrite hi_eq, lo_eq by auto. unfold join. change (128 / 2) with 64.
  pose proof (Z.div_mod x (2 ^ 64)). lia.
Qed.

Lemma lo_range x : 0 <= lo128 x < 2 ^ 64.
Proof. rewrite lo_eq. apply Z.mod_pos_bound. reflexivity. Qed.
Lemma hi_range x : 0 <= hi128 x < 2 ^ 64.
Proof. unfold hi128, half. apply wrap_range. discriminate. Qed.

Lemma join_range lo hi : 0 <= lo < 2 ^ 64 -> 0 <= hi < 2 ^ 64 -> inw 128 (join 128 lo hi).
Proof. intros H1 H2. unfold inw, join. change (128 / 2) with 64. rewrite p128. nia. Qed.

Lemma join_lo lo hi : 0 <= lo < 2 ^ 64 -> 0 <= hi < 2 ^ 64 -> lo128 (join 128 lo hi) = lo.
Proof.
  intros H1 H2. rewrite lo_eq. unfold join. change (128 / 2) with 64.
  rewrite Z.mul_comm, Z.mod_add by lia. now apply Z.mod_small.
Qed.
Lemma join_hi lo hi : 0 <= lo < 2 ^ 64 -> 0 <= hi < 2 ^ 64 -> hi128 (join 128 lo hi) = hi.
Proof.
  intros H1 H2. rewrite hi_eq by (now apply join_range). unfold join. change (128 / 2) with 64.
  rewrite Z.mul_comm, Z.div_add by lia. rewrite Z.div_small by auto. lia.
Qed.

Lemma wrap_range' x : 0 <= wrap 64 x < 2 ^ 64. Proof. apply wrap_range. lia. Qed.


(** a 128-bit value assembled from two 64-bit results with the carry out of the low half *)
Lemma join_carry x y : join 128 (wrap 64 x) (wrap 64 (y + x / 2 ^ 64)) = wrap 128 (x + 2 ^ 64 * y).
Proof.
  set (M := 2 ^ 64). assert (HM : M <> 0) by discriminate.
  assert (E : x + M * y = join 128 (wrap 64 x) (wrap 64 (y + x / M)) + ((y + x / M) / M) * (M * M)).
  { unfold join, wrap. change (128 / 2) with 64. fold M.
    pose proof (Z.div_mod x M HM). pose proof (Z.div_mod (y + x / M) M HM). nia. }
  unfold wrap at 3. rewrite p128. fold M. rewrite E, Z.mod_add by (unfold M; discriminate).
  symmetry. apply Z.mod_small. apply (join_range _ _ (wrap_range' x) (wrap_range' (y + x / M))).
Qed.

Lemma land_halves f g x v :
  (forall u w i, 0 <= i -> Z.testbit (f u w) i = g (Z.testbit u i) (Z.testbit w i)) ->
  (forall u w, 0 <= u -> 0 <= w -> 0 <= f u w) ->
  g false false = false ->
  inw 128 x -> inw 128 v ->
  join 128 (f (lo128 x) (lo128 v)) (f (hi128 x) (hi128 v)) = f x v.
Proof.
  intros Hf Hp Hg Hx Hv.
  assert (B : forall u i, 0 <= i -> 0 <= u < 2 ^ 64 -> 64 <= i -> Z.testbit u i = false).
  { intros u i Hi Hu H64. destruct (Z.eq_dec u 0) as [->|Hn]; [apply Z.bits_0|].
    apply Z.bits_above_log2; [lia|]. assert (Z.log2 u < 64) by (apply Z.log2_lt_pow2; lia). lia. }
  assert (Hlr : 0 <= f (lo128 x) (lo128 v) < 2 ^ 64).
  { pose proof (lo_range x). pose proof (lo_range v). split; [apply Hp; lia|].
    destruct (Z.eq_dec (f (lo128 x) (lo128 v)) 0) as [->|Hn]; [reflexivity|].
    assert (0 <= f (lo128 x) (lo128 v)) by (apply Hp; lia).
    apply Z.log2_lt_pow2; [lia|]. apply Z.nle_gt. intros Hl.
    assert (Ht : Z.testbit (f (lo128 x) (lo128 v)) (Z.log2 (f (lo128 x) (lo128 v))) = true) by (apply Z.bit_log2; lia).
    rewrite Hf in Ht by lia. rewrite !B in Ht by lia. congruence. }
  apply Z.bits_inj'. intros i Hi. unfold join. change (128 / 2) with 64.
  rewrite Z.mul_comm, <- Z.shiftl_mul_pow2 by lia.
  rewrite Z.add_nocarry_lxor.
  2:{ apply Z.bits_inj'. intros j Hj. rewrite Z.land_spec, Z.bits_0, Z.shiftl_spec by lia.
      destruct (Z.lt_ge_cases j 64).
      - rewrite (Z.testbit_neg_r _ (j - 64)) by lia. apply andb_false_r.
      - rewrite B by lia. reflexivity. }
  rewrite Z.lxor_spec, Z.shiftl_spec by lia.
  rewrite (Hf x v) by lia.
  destruct (Z.lt_ge_cases i 64).
  - rewrite (Z.testbit_neg_r _ (i - 64)) by lia. rewrite xorb_false_r, Hf by lia.
    rewrite !lo_eq, !Z.mod_pow2_bits_low by lia. reflexivity.
  - rewrite B by lia. rewrite xorb_false_l, Hf by lia. rewrite !hi_eq by auto.
    rewrite !Z.div_pow2_bits by lia. f_equal; f_equal; lia.
Qed.

Definition pairf (b : binop) (v : Z) (lo hi : Z) : Z :=
  let (rlo, rhi) := pair_apply b lo hi (lo128 v) (hi128 v) in join 128 rlo rhi.

Lemma pair_apply_ok b x v : inw 128 x -> inw 128 v ->
  pairf b v (lo128 x) (hi128 x) = wrap 128 (bin_apply b x v).
Proof.
  intros Hx Hv. unfold pairf.
  pose proof (lo_range x) as Lx. pose proof (lo_range v) as Lv.
  assert (Ex : x = lo128 x + 2 ^ 64 * hi128 x) by (symmetry; exact (join_halves x Hx)).
  assert (Ev : v = lo128 v + 2 ^ 64 * hi128 v) by (symmetry; exact (join_halves v Hv)).
  destruct b; cbn [pair_apply bin_apply].
  - (* add *)
    assert (E : hi128 x + hi128 v + (if lo128 x + lo128 v <? 2 ^ 64 then 0 else 1) =
                (hi128 x + hi128 v) + (lo128 x + lo128 v) / 2 ^ 64).
    { f_equal. destruct (Z.ltb_spec (lo128 x + lo128 v) (2 ^ 64)).
      - rewrite Z.div_small; lia.
      - apply (Z.div_unique _ _ 1 (lo128 x + lo128 v - 2 ^ 64)); lia. }
    rewrite E, join_carry. f_equal. lia.
  - (* sub *)
    assert (E : hi128 x - hi128 v - (if lo128 v <=? lo128 x then 0 else 1) =
                (hi128 x - hi128 v) + (lo128 x - lo128 v) / 2 ^ 64).
    { destruct (Z.leb_spec (lo128 v) (lo128 x)).
      - rewrite Z.div_small; lia.
      - replace ((lo128 x - lo128 v) / 2 ^ 64) with (-1); [lia|].
        apply (Z.div_unique _ _ (-1) (lo128 x - lo128 v + 2 ^ 64)); lia. }
    rewrite E, join_carry. f_equal. lia.
  - rewrite (land_halves Z.land andb); auto using Z.land_spec.
    + symmetry. rewrite wrap_land by lia. unfold inw in *. rewrite !wrap_id by auto. reflexivity.
    + intros. apply Z.land_nonneg. now left.
  - rewrite (land_halves Z.lor orb); auto using Z.lor_spec.
    + symmetry. rewrite wrap_lor by lia. unfold inw in *. rewrite !wrap_id by auto. reflexivity.
    + intros. apply Z.lor_nonneg. auto.
  - rewrite (land_halves Z.lxor xorb); auto using Z.lxor_spec.
    + symmetry. rewrite wrap_lxor by lia. unfold inw in *. rewrite !wrap_id by auto. reflexivity.
    + intros. apply Z.lxor_nonneg. tauto.
Qed.

Lemma lnot64 x : 0 <= x < 2 ^ 64 -> wrap 64 (Z.lnot x) = 2 ^ 64 - 1 - x.
Proof.
  intros H. unfold Z.lnot, wrap. symmetry. apply (Z.mod_unique _ _ (-1)); lia.
Qed.

Lemma pair_un_ok u x : inw 128 x ->
  join2 (pair_un u (lo128 x) (hi128 x)) = wrap 128 (un_apply u x).
Proof.
  intros Hx. unfold join2, pair_un.
  pose proof (lo_range x) as Lx. pose proof (hi_range x) as Hix.
  assert (Ex : x = lo128 x + 2 ^ 64 * hi128 x) by (symmetry; exact (join_halves x Hx)).
  rewrite !lnot64 by auto.
  destruct u; cbn [fst snd un_apply].
  - assert (E : 2 ^ 64 - 1 - hi128 x + (if 2 ^ 64 - 1 - lo128 x + 1 <? 2 ^ 64 then 0 else 1) =
                (2 ^ 64 - 1 - hi128 x) + (2 ^ 64 - 1 - lo128 x + 1) / 2 ^ 64).
    { f_equal. destruct (Z.ltb_spec (2 ^ 64 - 1 - lo128 x + 1) (2 ^ 64)).
      - rewrite Z.div_small; lia.
      - apply (Z.div_unique _ _ 1 (2 ^ 64 - 1 - lo128 x + 1 - 2 ^ 64)); lia. }
    rewrite E, join_carry. apply wrap_congr; [lia|]. exists 1. rewrite p128. lia.
  - assert (E : join 128 (2 ^ 64 - 1 - lo128 x) (2 ^ 64 - 1 - hi128 x) = 2 ^ 128 - 1 - x).
    { unfold join. change (128 / 2) with 64. rewrite p128. lia. }
    rewrite E. unfold Z.lnot, wrap. apply (Z.mod_unique _ _ (-1)); unfold inw in Hx; lia.
Qed.

(** ** Logically atomic pair programs *)
Section PairRG.
  Context {op ret : Type}.
  Variable bits : addr -> Z.
  Variable spec : wstate -> op -> ret -> wstate -> Prop.
  Notation LA := (LA wexec spec (WInv bits) wrely wrely).

  (** all read-only outcomes possible now can be observed together *)
  Lemma obs_all {R} (O : wstate -> R -> Prop) o (Q : R -> status -> Prop) m1 s1 obs0 :
    (forall m1 s1 obs r, WInv bits m1 s1 -> O s1 r ->
       exists obs1, linstep spec o (Pend obs) s1 (Pend obs1) s1 /\
                    forall obs2 : ret -> Prop, oincl obs1 obs2 -> Q r (Pend obs2)) ->
    WInv bits m1 s1 ->
    exists obsU : ret -> Prop, linstep spec o (Pend obs0) s1 (Pend obsU) s1 /\
      forall r, O s1 r -> Q r (Pend obsU).
  Proof.
    intros H Hi.
    exists (fun r' => exists r obs1, O s1 r /\ linstep spec o (Pend obs0) s1 (Pend obs1) s1 /\ obs1 r').
    split.
    - apply ls_obs. intros r' (r & obs1 & HO & Hl & Hr'). inversion Hl; subst; auto.
    - intros r HO. destruct (H m1 s1 obs0 r Hi HO) as (obs1 & Hl & HQ). apply HQ.
      intros r' Hr'. exists r, obs1. auto.
  Qed.

  Lemma LA_ldxp_gen a (f : Z -> Z -> Z) (g : Z -> Z -> Z) : bits a = 128 ->
    (forall x, inw 128 x -> inw 128 (f (lo128 x) (hi128 x))) ->
    LA (loop tt (fun _ =>
          bind (ldxp a) (fun y => let (p, tok) := y in let (lo, hi) := p in
          bind (sc a tok (f lo hi)) (fun b => if b : bool then Ret (inr (g lo hi)) else Ret (inl tt)))))
       (fun s r s' => r = g (lo128 (s a)) (hi128 (s a)) /\ supd s a (f (lo128 (s a)) (hi128 (s a))) s') none.
  Proof.
    intros Hb Hf. apply LA_loop with (P := fun _ => True); [exact I|].
    intros _ _ t o Q m s obs0 H1 H2. simpl. intros m1 s1 Hr Hi w m2 x He.
    inversion He; subst; clear He.
    exists (Pend obs0), s1. refine (conj (ls_skip _ _ _ _) (conj (wrely_refl _ _ _) (conj Hi _))).
    simpl. intros m3 s3 Hr3 Hi3 w3 m4 y He4. inversion He4; subst; clear He4.
    exists (Pend obs0), s3. refine (conj (ls_skip _ _ _ _) (conj (wrely_refl _ _ _) (conj Hi3 _))).
    simpl. intros m5 s5 Hr5 Hi5 w5 m6 b He6.
    destruct (ver (m5 a) =? ver (m2 a)) eqn:Ev; simpl in He6.
    - apply Z.eqb_eq in Ev. destruct (lucky w5); inversion He6; subst m6 b; clear He6.
      + assert (V4 : ver (m4 a) = ver (m2 a)).
        { destruct (Hr3 a) as [A _], (Hr5 a) as [B _]. lia. }
        assert (E2 : s5 a = s1 a).
        { rewrite (sc_same bits _ _ _ _ _ a Hr5 Hi3 Hi5) by congruence.
          apply (sc_same bits _ _ _ _ _ a Hr3 Hi Hi3). exact V4. }
        assert (E4 : s3 a = s1 a) by (apply (sc_same bits _ _ _ _ _ a Hr3 Hi Hi3); exact V4).
        assert (X2 : val (m2 a) = s5 a) by (rewrite E2; apply Hi).
        assert (X4 : val (m4 a) = s5 a) by (rewrite E2, <- E4; apply Hi3).
        rewrite X2, X4. fold (lo128 (s5 a)) (hi128 (s5 a)).
        destruct (H1 m5 s5 obs0 (inr (g (lo128 (s5 a)) (hi128 (s5 a)))) (upd s5 a (f (lo128 (s5 a)) (hi128 (s5 a)))) Hi5)
          as (st2 & Hl & HQ); [auto using upd_supd|].
        exists st2, (upd s5 a (f (lo128 (s5 a)) (hi128 (s5 a)))).
        refine (conj Hl (conj (put_rely _ _ _ _ _ _) (conj (put_inv _ _ _ _ _ Hi5 _) HQ))).
        rewrite Hb. apply Hf. rewrite <- Hb. apply Hi5.
      + destruct (H1 m5 s5 obs0 (inl tt) s5 Hi5) as (st2 & Hl & HQ); [auto|].
        exists st2, s5. refine (conj Hl (conj (wrely_refl _ _ _) (conj Hi5 HQ))).
    - inversion He6; subst m6 b; clear He6.
      destruct (H1 m5 s5 obs0 (inl tt) s5 Hi5) as (st2 & Hl & HQ); [auto|].
      exists st2, s5. refine (conj Hl (conj (wrely_refl _ _ _) (conj Hi5 HQ))).
  Qed.

  Lemma LA_ldxp_loop a f : bits a = 128 ->
    (forall x, inw 128 x -> inw 128 (f (lo128 x) (hi128 x))) ->
    LA (ldxp_loop a f) (fun s r s' => r = s a /\ supd s a (f (lo128 (s a)) (hi128 (s a))) s') none.
  Proof.
    intros Hb Hf. eapply LA_weaken; [apply (LA_ldxp_gen a f (join 128) Hb Hf) | | intros ? ? ? ? []].
    intros m s r s' Hi [H1 H2]. split; [|exact H2]. rewrite H1. apply join_halves.
    rewrite <- Hb. apply Hi.
  Qed.

  Lemma LA_ldxp_loop_new a f : bits a = 128 ->
    (forall x, inw 128 x -> inw 128 (f (lo128 x) (hi128 x))) ->
    LA (ldxp_loop_new a f) (fun s r s' => r = f (lo128 (s a)) (hi128 (s a)) /\
                                          supd s a (f (lo128 (s a)) (hi128 (s a))) s') none.
  Proof. intros Hb Hf. apply (LA_ldxp_gen a f f Hb Hf). Qed.

  (** compare-and-swap: success; or failure *)
  Definition pcasF (a : addr) (e d : Z) (s : wstate) (r : bool * Z) (s' : wstate) : Prop :=
    s a = e /\ r = (true, e) /\ supd s a d s'.
  Definition pcasO (a : addr) (e : Z) (s : wstate) (r : bool * Z) : Prop :=
    s a <> e /\ fst r = false /\ snd r <> e /\ inw 128 (snd r).
  Definition pcaswO (s : wstate) (r : bool * Z) : Prop := fst r = false /\ inw 128 (snd r).

  Lemma LA_pair_cas a e d : bits a = 128 -> inw 128 e -> inw 128 d ->
    LA (pair_cas a e d) (pcasF a e d) (pcasO a e).
  Proof.
    intros Hb He Hd. unfold pair_cas. apply LA_loop_obs with (P := fun _ => True); [exact I|].
    intros _ _ t o Q m s obs0 H1 H2. simpl. intros m1 s1 Hr Hi w m2 x Hx.
    inversion Hx; subst; clear Hx.
    assert (E1 : val (m2 a) = s1 a) by apply Hi. rewrite E1. fold (lo128 (s1 a)) (lo128 e) (hi128 e).
    assert (I1 : inw 128 (s1 a)) by (rewrite <- Hb; apply Hi).
    destruct (lo128 (s1 a) =? lo128 e) eqn:El.
    - apply Z.eqb_eq in El.
      exists (Pend obs0), s1. refine (conj (ls_skip _ _ _ _) (conj (wrely_refl _ _ _) (conj Hi _))).
      simpl. intros m3 s3 Hr3 Hi3 w3 m4 y Hy. inversion Hy; subst; clear Hy.
      assert (E3 : val (m4 a) = s3 a) by apply Hi3. rewrite E3. fold (hi128 (s3 a)).
      assert (I3 : inw 128 (s3 a)) by (rewrite <- Hb; apply Hi3).
      destruct (hi128 (s3 a) =? hi128 e) eqn:Eh; simpl.
      + apply Z.eqb_eq in Eh.
        assert (Ej : join 128 (lo128 (s1 a)) (hi128 (s3 a)) = e) by (rewrite El, Eh; now apply join_halves).
        rewrite Ej.
        exists (Pend obs0), s3. refine (conj (ls_skip _ _ _ _) (conj (wrely_refl _ _ _) (conj Hi3 _))).
        rewrite El, Eh, !Z.eqb_refl. simpl. intros m5 s5 Hr5 Hi5 w5 m6 b He6.
        destruct (ver (m5 a) =? ver (m2 a)) eqn:Ev; simpl in He6.
        * apply Z.eqb_eq in Ev. destruct (lucky w5); inversion He6; subst m6 b; clear He6.
          -- assert (V4 : ver (m4 a) = ver (m2 a)).
             { destruct (Hr3 a) as [A _], (Hr5 a) as [B _]. lia. }
             assert (S3 : s3 a = s1 a) by (apply (sc_same bits _ _ _ _ _ a Hr3 Hi Hi3); exact V4).
             assert (S5 : s5 a = s3 a) by (apply (sc_same bits _ _ _ _ _ a Hr5 Hi3 Hi5); congruence).
             assert (S : s5 a = e).
             { rewrite S5. rewrite <- (join_halves (s3 a)) by auto. rewrite Eh, S3, El. now apply join_halves. }
             destruct (H1 m5 s5 obs0 (inr (true, e)) (upd s5 a d) Hi5) as (st2 & Hl & HQ).
             { split; auto using upd_supd. }
             exists st2, (upd s5 a d).
             refine (conj Hl (conj (put_rely _ _ _ _ _ _) (conj (put_inv _ _ _ _ _ Hi5 _) HQ))).
             rewrite Hb. exact Hd.
          -- destruct (H1 m5 s5 obs0 (inl tt) s5 Hi5) as (st2 & Hl & HQ); [auto|].
             exists st2, s5. refine (conj Hl (conj (wrely_refl _ _ _) (conj Hi5 HQ))).
        * inversion He6; subst m6 b; clear He6.
          destruct (H1 m5 s5 obs0 (inl tt) s5 Hi5) as (st2 & Hl & HQ); [auto|].
          exists st2, s5. refine (conj Hl (conj (wrely_refl _ _ _) (conj Hi5 HQ))).
      + apply Z.eqb_neq in Eh.
        assert (N : s3 a <> e) by (intros E; apply Eh; now rewrite E).
        destruct (H2 m4 s3 obs0 (inr (false, join 128 (lo128 (s1 a)) (hi128 (s3 a)))) Hi3) as (obs1 & Hl & HQ).
        { refine (conj N (conj eq_refl (conj _ _))); simpl.
          - intros E. apply Eh. rewrite <- E. symmetry. apply join_hi; [apply lo_range | apply hi_range].
          - apply join_range; [apply lo_range | apply hi_range]. }
        exists (Pend obs1), s3. rewrite (proj2 (Z.eqb_neq _ _) Eh), andb_false_r.
        refine (conj Hl (conj (wrely_refl _ _ _) (conj Hi3 (HQ _ (oincl_refl _))))).
    - apply Z.eqb_neq in El.
      assert (N : s1 a <> e) by (intros E; apply El; now rewrite E).
      destruct (obs_all (fun s (y : unit + bool * Z) => match y with inl _ => True | inr r => pcasO a e s r end)
                  o Q m2 s1 obs0 H2 Hi) as (obsU & HlU & HQU).
      exists (Pend obsU), s1. refine (conj HlU (conj (wrely_refl _ _ _) (conj Hi _))).
      simpl. intros m3 s3 Hr3 Hi3 w3 m4 y Hy. inversion Hy; subst; clear Hy.
      exists (Pend obsU), s3. refine (conj (ls_skip _ _ _ _) (conj (wrely_refl _ _ _) (conj Hi3 _))).
      simpl. rewrite (proj2 (Z.eqb_neq _ _) El). simpl. apply HQU. fold (hi128 (val (m4 a))).
      refine (conj N (conj eq_refl (conj _ _))); simpl.
      + intros E. apply El. rewrite <- E. symmetry. apply join_lo; [apply lo_range | apply hi_range].
      + apply join_range; [apply lo_range | apply hi_range].
  Qed.

  Lemma LA_pair_casw a e d : bits a = 128 -> inw 128 e -> inw 128 d ->
    LA (pair_casw a e d) (pcasF a e d) pcaswO.
  Proof.
    intros Hb He Hd t o Q m s obs0 H1 H2. unfold pair_casw. simpl. intros m1 s1 Hr Hi w m2 x Hx.
    inversion Hx; subst; clear Hx.
    assert (E1 : val (m2 a) = s1 a) by apply Hi. rewrite E1. fold (lo128 (s1 a)) (lo128 e) (hi128 e).
    assert (I1 : inw 128 (s1 a)) by (rewrite <- Hb; apply Hi).
    destruct (obs_all pcaswO o Q m2 s1 obs0 H2 Hi) as (obsU & HlU & HQU).
    exists (Pend obsU), s1. refine (conj HlU (conj (wrely_refl _ _ _) (conj Hi _))).
    simpl. intros m3 s3 Hr3 Hi3 w3 m4 y Hy. inversion Hy; subst; clear Hy.
    assert (E3 : val (m4 a) = s3 a) by apply Hi3. rewrite E3. fold (hi128 (s3 a)).
    assert (I3 : inw 128 (s3 a)) by (rewrite <- Hb; apply Hi3).
    exists (Pend obsU), s3. refine (conj (ls_skip _ _ _ _) (conj (wrely_refl _ _ _) (conj Hi3 _))).
    assert (HF : Q (false, join 128 (lo128 (s1 a)) (hi128 (s3 a))) (Pend obsU)).
    { apply HQU. split; [reflexivity|]. apply join_range; [apply lo_range | apply hi_range]. }
    simpl. destruct ((lo128 (s1 a) =? lo128 e) && (hi128 (s3 a) =? hi128 e)) eqn:Em; simpl; [|exact HF].
    apply andb_prop in Em. destruct Em as [El Eh]. apply Z.eqb_eq in El, Eh.
    intros m5 s5 Hr5 Hi5 w5 m6 b He6.
    destruct (ver (m5 a) =? ver (m2 a)) eqn:Ev; simpl in He6.
    - apply Z.eqb_eq in Ev. destruct (lucky w5); inversion He6; subst m6 b; clear He6.
      + assert (V4 : ver (m4 a) = ver (m2 a)).
        { destruct (Hr3 a) as [A _], (Hr5 a) as [B _]. lia. }
        assert (S3 : s3 a = s1 a) by (apply (sc_same bits _ _ _ _ _ a Hr3 Hi Hi3); exact V4).
        assert (S5 : s5 a = s3 a) by (apply (sc_same bits _ _ _ _ _ a Hr5 Hi3 Hi5); congruence).
        assert (S : s5 a = e).
        { rewrite S5. rewrite <- (join_halves (s3 a)) by auto. rewrite Eh, S3, El. now apply join_halves. }
        assert (Ej : join 128 (lo128 (s1 a)) (hi128 (s3 a)) = e) by (rewrite El, Eh; now apply join_halves).
        rewrite Ej.
        destruct (H1 m5 s5 obsU (true, e) (upd s5 a d) Hi5) as (st2 & Hl & HQ).
        { split; auto using upd_supd. }
        exists st2, (upd s5 a d).
        refine (conj Hl (conj (put_rely _ _ _ _ _ _) (conj (put_inv _ _ _ _ _ Hi5 _) HQ))).
        rewrite Hb. exact Hd.
      + exists (Pend obsU), s5. refine (conj (ls_skip _ _ _ _) (conj (wrely_refl _ _ _) (conj Hi5 HF))).
    - inversion He6; subst m6 b; clear He6.
      exists (Pend obsU), s5. refine (conj (ls_skip _ _ _ _) (conj (wrely_refl _ _ _) (conj Hi5 HF))).
  Qed.

  Lemma LA_pair_fetch b a v : bits a = 128 -> inw 128 v ->
    LA (c_fetch aarch64_pair b a v) (fun s r s' => r = s a /\ supd s a (wrap 128 (bin_apply b (s a) v)) s') none.
  Proof.
    intros Hb Hv. eapply LA_weaken; [apply (LA_ldxp_loop a (pairf b v) Hb) | | intros ? ? ? ? []].
    - intros x Hx. rewrite pair_apply_ok by auto. apply wrap_range. lia.
    - intros m s r s' Hi [H1 H2]. split; [exact H1|]. rewrite pair_apply_ok in H2; auto.
      rewrite <- Hb. apply Hi.
  Qed.

  Lemma LA_pair_un u a : bits a = 128 ->
    LA (ldxp_loop a (fun lo hi => join2 (pair_un u lo hi)))
       (fun s r s' => r = s a /\ supd s a (wrap 128 (un_apply u (s a))) s') none.
  Proof.
    intros Hb. eapply LA_weaken; [apply (LA_ldxp_loop a (fun lo hi => join2 (pair_un u lo hi)) Hb) | | intros ? ? ? ? []].
    - intros x Hx. rewrite pair_un_ok by auto. apply wrap_range. lia.
    - intros m s r s' Hi [H1 H2]. split; [exact H1|]. rewrite pair_un_ok in H2; auto.
      rewrite <- Hb. apply Hi.
  Qed.

  Lemma LA_pair_un_new u a : bits a = 128 ->
    LA (ldxp_loop_new a (fun lo hi => join2 (pair_un u lo hi)))
       (fun s r s' => r = wrap 128 (un_apply u (s a)) /\ supd s a (wrap 128 (un_apply u (s a))) s') none.
  Proof.
    intros Hb. eapply LA_weaken; [apply (LA_ldxp_loop_new a (fun lo hi => join2 (pair_un u lo hi)) Hb) | | intros ? ? ? ? []].
    - intros x Hx. rewrite pair_un_ok by auto. apply wrap_range. lia.
    - intros m s r s' Hi [H1 H2]. rewrite pair_un_ok in H1, H2; auto; rewrite <- Hb; apply Hi.
  Qed.

  Lemma LA_pair_bin_new b a v : bits a = 128 -> inw 128 v ->
    LA (ldxp_loop_new a (fun lo hi => join2 (pair_apply b lo hi (half 128 false v) (half 128 true v))))
       (fun s r s' => r = wrap 128 (bin_apply b (s a) v) /\ supd s a (wrap 128 (bin_apply b (s a) v)) s') none.
  Proof.
    intros Hb Hv.
    assert (E : forall lo hi, join2 (pair_apply b lo hi (half 128 false v) (half 128 true v)) = pairf b v lo hi).
    { intros. unfold pairf, join2, lo128, hi128. destruct (pair_apply _ _ _ _ _). reflexivity. }
    eapply LA_weaken; [apply (LA_ldxp_loop_new a (fun lo hi => join2 (pair_apply b lo hi (half 128 false v) (half 128 true v))) Hb) | | intros ? ? ? ? []].
    - intros x Hx. rewrite E, pair_apply_ok by auto. apply wrap_range. lia.
    - intros m s r s' Hi [H1 H2]. rewrite E in H1, H2.
      rewrite pair_apply_ok in H1, H2; auto; rewrite <- Hb; apply Hi.
  Qed.
End PairRG.

(** ** The front end *)
Definition pair_rep (W : pworld) (a : addr) (x v : Z) : Prop := rng (W a) 128 v /\ x = wrap 128 v.

Section PairFront.
  Variable W : pworld.
  Let bits : addr -> Z := fun _ => 128.
  Notation wsp := (wspec (pair_rep W) (pair_spec W)).
  Notation LA := (LA wexec wsp (WInv bits) wrely wrely).

  Lemma pair_prog_ok c : iop_ok (W (fst c)) 128 (snd (snd c)) ->
    LA (pair_impl W c) (fun s r s' => wsp s c r s') (fun s r => wsp s c r s).
  Proof.
    destruct c as [a [mo o]]. unfold pair_impl. cbn [fst snd]. intros Ho.
    set (wsp' := wspec (pair_rep W) (pair_spec W)) in *.
    set (sg := W a) in *.
    assert (Hb : bits a = 128) by reflexivity.
    assert (Henc : forall v, inw 128 (wrap 128 v)) by (intros v; apply wrap_range; lia).
    assert (Hdec : forall v, rng sg 128 v -> integral_truncate sg 128 128 (wrap 128 v) = v)
      by (intros; apply enc_dec; auto; lia).
    assert (Htr : forall x, integral_truncate sg 128 128 (wrap 128 x) = norm sg 128 x).
    { intros x. rewrite truncate_norm by lia. apply norm_congr; [lia|]. apply wrap_wrap. }
    assert (Hrt : forall x, rng sg 128 (integral_truncate sg 128 128 x)).
    { intros x. rewrite truncate_norm by lia. apply norm_rng. lia. }
    assert (Hn : forall z, rng sg 128 (norm sg 128 z)) by (intros; apply norm_rng; lia).
    assert (Hnw : forall z, wrap 128 (norm sg 128 z) = wrap 128 z) by (intros; apply norm_wrap; lia).
    assert (WI : forall s r s' x', supd s a x' s' ->
              (forall v, rng sg 128 v -> s a = wrap 128 v ->
                 exists v', rng sg 128 v' /\ x' = wrap 128 v' /\ pair_step sg 128 v o r v') ->
              wsp' s (a, (mo, o)) r s').
    { intros s r s' x' [H1 H2] H. split; simpl; [|exact H2].
      intros v [Hv E]. destruct (H v Hv E) as (v' & A & B & C). exists v'. split; [|exact C].
      split; [exact A | congruence]. }
    assert (WS : forall s r s', seq s s' ->
              (forall v, rng sg 128 v -> s a = wrap 128 v -> pair_step sg 128 v o r v) ->
              wsp' s (a, (mo, o)) r s').
    { intros s r s' H1 H. split; simpl; [|intros b _; apply H1].
      intros v [Hv E]. exists v. split; [|now apply H]. split; [exact Hv | rewrite H1; exact E]. }
    assert (Hwk : forall R (p : wprog R) (g : R -> iret) F,
              LA p F none ->
              (forall s r s', F s r s' -> wsp' s (a, (mo, o)) (g r) s') ->
              LA (bind p (fun r => Ret (g r)))
                 (fun s r s' => wsp' s (a, (mo, o)) r s') (fun s r => wsp' s (a, (mo, o)) r s)).
    { intros R p g F H H1. eapply LA_weaken; [apply LA_map; exact H| |].
      - intros m s r s' _ (r0 & Hr & ->). auto.
      - intros m s r _ (r0 & [] & ->). }
    assert (Hcs : forall e d (p : wprog (bool * Z)) O, 
              o = CasStrong e d \/ o = CasWeak e d ->
              LA p (pcasF a (wrap 128 e) (wrap 128 d)) O ->
              (forall s r, O s r -> fst r = false /\ inw 128 (snd r) /\
                 (o = CasStrong e d -> s a <> wrap 128 e /\ snd r <> wrap 128 e)) ->
              LA (bind p (fun x : bool * Z => let (b, r) := x in Ret (RCas b (integral_truncate sg 128 128 r))))
                 (fun s r s' => wsp' s (a, (mo, o)) r s') (fun s r => wsp' s (a, (mo, o)) r s)).
    { intros e d p O Hor H HO.
      assert (Hed : rng sg 128 e /\ rng sg 128 d) by (destruct Hor; subst o; exact Ho).
      destruct Hed as [He Hd].
      eapply LA_weaken.
      - apply (LA_bind_ret bits wsp' _ _ p _ (fun x : bool * Z => RCas (fst x) (integral_truncate sg 128 128 (snd x)))).
        + intros [b r]. reflexivity.
        + exact H.
      - intros m s r s' _ (r0 & (E & -> & Hu) & ->); cbn [fst snd].
        apply (WI s _ s' (wrap 128 d) Hu). intros v Hv Ev.
        assert (e = v) by (apply (enc_inj sg 128 128); auto; [lia | congruence]). subst v.
        exists d. rewrite Hdec by auto. repeat split; auto.
        destruct Hor; subst o; constructor; constructor.
      - intros m s r _ (r0 & Hr & ->). destruct (HO _ _ Hr) as (Hf & Hin & Hs).
        destruct r0 as [b y]. cbn [fst snd] in *. subst b. apply WS; [intros b; reflexivity|]. intros v Hv Ev.
        destruct Hor; subst o.
        + destruct (Hs eq_refl) as [N1 N2]. apply ps_cas_fail; auto; [congruence|].
          intros E. apply N2. rewrite <- E. rewrite truncate_norm by lia. rewrite Hnw.
          symmetry. apply wrap_id. exact Hin.
        + apply ps_casw_fail. auto. }
    unfold int_front, front.
    destruct o as [v | | v | e d | e d | f eff | k i]; cbn [iop_ok] in Ho; cbn [c_bits aarch64_pair].
    - (* store *)
      eapply (Hwk _ _ (fun _ => RUnit)).
      + cbn [c_store]. apply (LA_unit bits wsp' (ldxp_loop a (fun _ _ => wrap 128 v)) (fun s s' => supd s a (wrap 128 v) s')).
        eapply LA_weaken; [apply (LA_ldxp_loop bits wsp' a (fun _ _ => wrap 128 v) Hb); auto | | intros ? ? ? ? []].
        intros m s r s' _ [_ H]. exact H.
      + intros s r s' Hu. eapply WI; [exact Hu|]. intros v0 Hv0 Ev0. exists v. repeat split; auto. constructor. constructor.
    - (* load *)
      eapply (Hwk _ _ (fun r => RVal _)).
      + cbn [c_load]. eapply LA_weaken; [apply (LA_ldxp_loop bits wsp' a (fun lo hi => join 128 lo hi) Hb) | | intros ? ? ? ? []].
        * intros x Hx. rewrite join_halves; auto.
        * intros m s r s' Hi [H1 H2].
          rewrite join_halves in H2 by apply Hi. exact (conj H1 (supd_same _ _ _ _ H2 eq_refl)).
      + intros s r s' [-> Hs]. apply WS; [exact Hs|]. intros v0 Hv0 Ev0. rewrite Ev0.
        rewrite Hdec by auto. constructor. constructor.
    - (* exchange *)
      eapply (Hwk _ _ (fun r => RVal _)).
      + cbn [c_exchange]. apply (LA_ldxp_loop bits wsp' a (fun _ _ => wrap 128 v) Hb). auto.
      + intros s r s' [-> Hu]. eapply WI; [exact Hu|]. intros v0 Hv0 Ev0. exists v. rewrite Ev0.
        rewrite Hdec by auto. repeat split; auto. constructor. constructor.
    - apply (Hcs e d _ (pcasO a (wrap 128 e))); auto.
      + apply LA_pair_cas; auto.
      + intros s r (H1 & H2 & H3 & H4). auto.
    - apply (Hcs e d _ (pcaswO)); auto.
      + apply LA_pair_casw; auto.
      + intros s r (H1 & H2). refine (conj H1 (conj H2 _)). intros E; discriminate E.
    - assert (Hrmw : forall s s' r (z : Z -> Z),
               supd s a (z (s a)) s' ->
               (forall v, rng sg 128 v -> s a = wrap 128 v ->
                  z (s a) = wrap 128 (norm sg 128 (eff_apply eff v)) /\ r = report f v (norm sg 128 (eff_apply eff v))) ->
               wsp' s (a, (mo, Rmw f eff)) r s').
      { intros s s' r z Hu H. eapply WI; [exact Hu|]. intros v Hv Ev.
        destruct (H v Hv Ev) as [E1 ->]. exists (norm sg 128 (eff_apply eff v)). repeat split; auto. constructor. constructor. }
      assert (Hbx : forall b v x, wrap 128 (bin_apply b (wrap 128 x) (wrap 128 v)) = wrap 128 (norm sg 128 (bin_apply b x v))).
      { intros b v x. rewrite Hnw. apply wrap_bin. lia. }
      assert (Hux : forall u x, wrap 128 (un_apply u (wrap 128 x)) = wrap 128 (norm sg 128 (un_apply u x))).
      { intros u x. rewrite Hnw. apply wrap_un. lia. }
      assert (Hz : forall z, rng sg 128 z -> (wrap 128 z =? 0) = (z =? 0)).
      { intros z Hz. apply (zero_enc sg 128 128); auto; lia. }
      assert (Huo : forall u, LA (bind (ldxp_loop_new a (fun lo hi => join2 (pair_un u lo hi))) (fun _ => Ret tt))
                 (fun s _ s' => supd s a (wrap 128 (un_apply u (s a))) s') none).
      { intros u. apply (LA_unit bits wsp' _ (fun s s' => supd s a (wrap 128 (un_apply u (s a))) s')).
        eapply LA_weaken; [apply (LA_pair_un_new bits wsp' u a Hb) | | intros ? ? ? ? []].
        intros m s r s' _ [_ H]. exact H. }
      destruct f, eff as [b v|u]; cbn [iop_ok] in Ho;
        cbn [x_fetch_un x_bin x_un x_opaque_bin x_opaque_un x_test_bin x_test_un extra_pair].
      + eapply (Hwk _ _ (fun r => RVal _)); [apply (LA_pair_fetch bits wsp' b a _ Hb (Henc v)) |].
        intros s r s' [-> Hu]. apply (Hrmw s s' _ (fun x => wrap 128 (bin_apply b x (wrap 128 v)))); [exact Hu|].
        intros x Hxr E. rewrite E. split; [apply Hbx|]. simpl report. now rewrite Hdec.
      + eapply (Hwk _ _ (fun r => RVal _)); [apply (LA_pair_un bits wsp' u a Hb) |].
        intros s r s' [-> Hu]. apply (Hrmw s s' _ (fun x => wrap 128 (un_apply u x))); [exact Hu|].
        intros x Hxr E. rewrite E. split; [apply Hux|]. simpl report. now rewrite Hdec.
      + eapply (Hwk _ _ (fun r => RVal _)); [apply (LA_pair_bin_new bits wsp' b a _ Hb (Henc v)) |].
        intros s r s' [-> Hu]. apply (Hrmw s s' _ (fun x => wrap 128 (bin_apply b x (wrap 128 v)))); [exact Hu|].
        intros x Hxr E. rewrite E. split; [apply Hbx|]. cbn [report eff_apply]. f_equal. rewrite Htr.
        apply norm_congr; [lia|]. apply wrap_bin. lia.
      + eapply (Hwk _ _ (fun r => RVal _)); [apply (LA_pair_un_new bits wsp' u a Hb) |].
        intros s r s' [-> Hu]. apply (Hrmw s s' _ (fun x => wrap 128 (un_apply u x))); [exact Hu|].
        intros x Hxr E. rewrite E. split; [apply Hux|]. cbn [report eff_apply]. f_equal. rewrite Htr.
        apply norm_congr; [lia|]. apply wrap_un. lia.
      + eapply (Hwk _ _ (fun r => RUnit)).
        * apply (LA_unit bits wsp' _ (fun s s' => supd s a (wrap 128 (bin_apply b (s a) (wrap 128 v))) s')).
          eapply LA_weaken; [apply (LA_pair_bin_new bits wsp' b a _ Hb (Henc v)) | | intros ? ? ? ? []].
          intros m s r s' _ [_ H]. exact H.
        * intros s r s' Hu. apply (Hrmw s s' _ (fun x => wrap 128 (bin_apply b x (wrap 128 v)))); [exact Hu|].
          intros x Hxr E. rewrite E. split; [apply Hbx | reflexivity].
      + eapply (Hwk _ _ (fun r => RUnit)); [apply Huo|].
        intros s r s' Hu. apply (Hrmw s s' _ (fun x => wrap 128 (un_apply u x))); [exact Hu|].
        intros x Hxr E. rewrite E. split; [apply Hux | reflexivity].
      + eapply (Hwk _ _ (fun r => RBool r)).
        * eapply (LA_ret bits wsp' _ _ _ (fun r => negb (r =? 0))
             _ (fun s r s' => r = negb (wrap 128 (bin_apply b (s a) (wrap 128 v)) =? 0) /\
                              supd s a (wrap 128 (bin_apply b (s a) (wrap 128 v))) s')).
          -- apply (LA_pair_bin_new bits wsp' b a _ Hb (Henc v)).
          -- intros m s r s' _ [-> H]. auto.
        * intros s r s' [-> Hu]. apply (Hrmw s s' _ (fun x => wrap 128 (bin_apply b x (wrap 128 v)))); [exact Hu|].
          intros x Hxr E. rewrite E. split; [apply Hbx|]. cbn [report]. rewrite Hbx, Hz by auto. reflexivity.
      + eapply (Hwk _ _ (fun r => RBool r)).
        * eapply (LA_ret bits wsp' _ _ _ (fun r => negb (r =? 0))
             _ (fun s r s' => r = negb (wrap 128 (un_apply u (s a)) =? 0) /\
                              supd s a (wrap 128 (un_apply u (s a))) s')).
          -- apply (LA_pair_un_new bits wsp' u a Hb).
          -- intros m s r s' _ [-> H]. auto.
        * intros s r s' [-> Hu]. apply (Hrmw s s' _ (fun x => wrap 128 (un_apply u x))); [exact Hu|].
          intros x Hxr E. rewrite E. split; [apply Hux|]. cbn [report]. rewrite Hux, Hz by auto. reflexivity.
    - (* bit test *)
      assert (Em : bit_mask sg 128 aarch64_pair i = 2 ^ i) by (apply (bit_mask_native sg aarch64_pair); exact Ho).
      assert (Hp2 : inw 128 (2 ^ i)).
      { split; [apply Z.pow_nonneg; lia | apply Z.pow_lt_mono_r; lia]. }
      assert (Hbit : LA (x_bit (extra_pair sg) k a i)
          (fun s r s' => r = Z.testbit (s a) i /\ supd s a (wrap 128 (bit_apply k (s a) i)) s') none).
      { cbn [x_bit extra_pair extra_generic]. unfold gen_bit. rewrite Em.
        eapply (LA_ret bits wsp' _ _ _ (fun old => negb (Z.land old (2 ^ i) =? 0))
             (fun s r s' => r = s a /\ supd s a (wrap 128 (bit_apply k (s a) i)) s')).
        - destruct k.
          + eapply LA_wk; [apply (LA_pair_fetch bits wsp' Or a _ Hb Hp2)|].
            intros m s r s' _ [H1 H2]. split; [exact H1|]. rewrite bit_apply_bin by lia. exact H2.
          + eapply LA_wk; [apply (LA_pair_fetch bits wsp' And a _ Hb (Henc _))|].
            intros m s r s' _ [H1 H2]. split; [exact H1|]. rewrite bit_apply_bin by lia.
            cbn [bin_apply c_bits aarch64_pair] in H2. rewrite wrap_land, wrap_wrap, <- wrap_land in H2 by lia. exact H2.
          + eapply LA_wk; [apply (LA_pair_fetch bits wsp' Xor a _ Hb Hp2)|].
            intros m s r s' _ [H1 H2]. split; [exact H1|]. rewrite bit_apply_bin by lia. exact H2.
        - intros m s r s' _ [-> H2]. split; [|exact H2]. apply land_pow2_testbit. lia. }
      eapply (Hwk _ _ (fun r => RBool r)); [exact Hbit|].
      intros s r s' [-> Hu]. eapply WI; [exact Hu|]. intros v Hv Ev.
      exists (norm sg 128 (bit_apply k v i)). refine (conj (Hn _) (conj _ _)).
      + rewrite Ev. rewrite (wrap_bit 128) by lia. now rewrite Hnw.
      + rewrite Ev, wrap_testbit by lia. destruct (Z.ltb_spec i 128); [|lia]. constructor. constructor.
  Qed.

  Theorem pair_linearizable_aux (v0 n0 : addr -> Z) (l : list (sched luck icall)) :
    (forall a, rng (W a) 128 (v0 a)) ->
    (forall t a mo o, In (SInv t (a, (mo, o))) l -> iop_ok (W a) 128 o) ->
    let res := pair_run W v0 n0 l in
    exists v th,
      linearizable_to (objects (pair_spec W)) v0 (snd res) v th /\
      (forall a, v a = pair_shown W (c_mem (fst res)) a) /\
      (quiet (fst res) -> forall t, th t = PIdle).
  Proof.
    intros Hv Hl res.
    destruct (front_sound bits (pair_rep W) (pair_impl W) (pair_spec W) (fun c => iop_ok (W (fst c)) 128 (snd (snd c))))
      with (m := pair_mem v0 n0) (v0 := v0) (l := l) as (v & th & HL & HR & HP).
    - apply pair_prog_ok.
    - intros a. simpl val. split; [apply wrap_range; unfold bits; lia|]. split; auto.
    - intros t [a [mo o]] Hin. apply (Hl t a mo o Hin).
    - exists v, th. refine (conj HL (conj _ _)).
      + intros a. destruct (HR a) as [Hr E]. unfold pair_shown.
        assert (E' : val (c_mem (fst res) a) = wrap 128 (v a)) by exact E. rewrite E'.
        symmetry. apply enc_dec; auto. lia.
      + intros Hq t. specialize (HP t). specialize (Hq t). unfold res, pair_run in Hq.
        destruct (c_thr _ t); [exact HP | discriminate Hq].
  Qed.
End PairFront.

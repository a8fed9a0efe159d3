(** * The extra operations are logically atomic on any correct core. *)
From Coq Require Import ZArith List Bool Lia.
From Verif Require Import SpecInt SpecLin Order Conv WordFacts Prog Word RG CoreModel CoreProof ExtraModel.
Open Scope Z_scope.

(** ** Masks *)
Lemma ext_native sg w x : 0 < w -> ext sg w w x = wrap w x.
Proof.
  intros Hw. unfold ext. rewrite extend_norm; [|lia|apply wrap_range; lia].
  rewrite norm_wrap by lia. apply wrap_wrap.
Qed.

Lemma wrap_m1 w : 0 < w -> wrap w (Z.lnot (wrap w 0)) = wrap w (-1).
Proof. intros. rewrite wrap_lnot_wrap by lia. reflexivity. Qed.

Lemma all_ones_native sg c : 0 < c_bits c -> all_ones sg (c_bits c) c = wrap (c_bits c) (-1).
Proof. intros H. unfold all_ones. rewrite ext_native, wrap_wrap by lia. now apply wrap_m1. Qed.

Lemma xor_all_ones w x : 0 < w -> wrap w (Z.lxor x (wrap w (-1))) = wrap w (Z.lnot x).
Proof. intros. rewrite wrap_lxor, wrap_wrap by lia. now rewrite wrap_lnot_lxor by lia. Qed.

Lemma bit_mask_native sg c i : 0 <= i < c_bits c -> bit_mask sg (c_bits c) c i = 2 ^ i.
Proof.
  intros H. unfold bit_mask. rewrite ext_native, wrap_wrap by lia.
  rewrite Z.shiftl_1_l. apply wrap_id. split; [apply Z.pow_nonneg; lia|].
  apply Z.pow_lt_mono_r; lia.
Qed.

Lemma land_pow2_testbit x i : 0 <= i -> negb (Z.land x (2 ^ i) =? 0) = Z.testbit x i.
Proof.
  intros Hi.
  assert (E : Z.land x (2 ^ i) = if Z.testbit x i then 2 ^ i else 0).
  { apply Z.bits_inj'. intros k Hk. rewrite Z.land_spec.
    rewrite Z.pow2_bits_eqb by lia. destruct (Z.eqb_spec i k) as [->|Hne].
    - rewrite andb_true_r. destruct (Z.testbit x k) eqn:Et; [now rewrite Z.pow2_bits_true by lia | now rewrite Z.bits_0].
    - rewrite andb_false_r. destruct (Z.testbit x i); [now rewrite Z.pow2_bits_false by lia | now rewrite Z.bits_0]. }
  rewrite E. destruct (Z.testbit x i); [|reflexivity].
  assert (0 < 2 ^ i) by (apply pow2_gt0; lia).
  destruct (Z.eqb_spec (2 ^ i) 0); [lia | reflexivity].
Qed.

Lemma bit_apply_bin k x i : 0 <= i ->
  bit_apply k x i = match k with
                    | BSet => Z.lor x (2 ^ i)
                    | BReset => Z.land x (Z.lnot (2 ^ i))
                    | BCompl => Z.lxor x (2 ^ i) end.
Proof.
  intros Hi. destruct k; simpl; auto.
  - now rewrite Z.setbit_spec'.
  - rewrite Z.clearbit_spec'. apply Z.ldiff_land.
Qed.

Section ExtraRG.
  Context {op ret : Type}.
  Variable bits : addr -> Z.
  Hypothesis bits_pos : forall a, 0 < bits a.
  Variable spec : wstate -> op -> ret -> wstate -> Prop.
  Notation LA := (LA wexec spec (WInv bits) wrely wrely).
  Notation core_ok := (core_ok bits spec).
  Notation cas_usable := (cas_usable bits spec).

  (** the word stored by a binary operation: sign/zero extended from the value
      type, or just truncated to the storage *)
  Definition bnew (e sg : bool) (vw w : Z) (b : binop) (x v : Z) : Z :=
    if e then core_new sg vw w b x v else wrap w (bin_apply b x v).

  Record extra_ok (eb eo : bool) (x : extra) (sg : bool) (vw w : Z) (a : addr) : Prop := {
    xo_fetch_un : forall u, LA (x_fetch_un x u a)
      (fun s r s' => r = s a /\ supd s a (wrap w (un_apply u (s a))) s') none;
    xo_bin : forall b v, inw w v -> LA (x_bin x b a v)
      (fun s r s' => r = wrap w (bin_apply b (s a) v) /\ supd s a (bnew eb sg vw w b (s a) v) s') none;
    xo_un : forall u, LA (x_un x u a)
      (fun s r s' => r = wrap w (un_apply u (s a)) /\ supd s a (wrap w (un_apply u (s a))) s') none;
    xo_opaque_bin : forall b v, inw w v -> LA (x_opaque_bin x b a v)
      (fun s _ s' => supd s a (bnew eo sg vw w b (s a) v) s') none;
    xo_opaque_un : forall u, LA (x_opaque_un x u a)
      (fun s _ s' => supd s a (wrap w (un_apply u (s a))) s') none;
    xo_test_bin : forall b v, inw w v -> LA (x_test_bin x b a v)
      (fun s r s' => r = negb (wrap w (bin_apply b (s a) v) =? 0) /\
                     exists e, supd s a (bnew e sg vw w b (s a) v) s') none;
    xo_test_un : forall u, LA (x_test_un x u a)
      (fun s r s' => r = negb (wrap w (un_apply u (s a)) =? 0) /\
                     supd s a (wrap w (un_apply u (s a))) s') none;
    xo_bit : forall k i, 0 <= i < w -> LA (x_bit x k a i)
      (fun s r s' => r = Z.testbit (s a) i /\ supd s a (wrap w (bit_apply k (s a) i)) s') none
  }.

  (** ** Combinators *)
  Lemma LA_ret R R' (p : wprog R) (g : R -> R') (F : wstate -> R -> wstate -> Prop) (G : wstate -> R' -> wstate -> Prop) :
    LA p F none -> (forall m s r s', WInv bits m s -> F s r s' -> G s (g r) s') -> LA (bind p (fun r => Ret (g r))) G none.
  Proof.
    intros H HG. eapply LA_weaken; [apply (LA_bind_ret bits spec _ _ p _ g); [reflexivity | exact H] | |].
    - intros m s r s' Hi (r0 & H0 & ->). eauto.
    - intros m s r _ (r0 & [] & _).
  Qed.

  Lemma LA_wk R (p : wprog R) (F G : wstate -> R -> wstate -> Prop) :
    LA p F none -> (forall m s r s', WInv bits m s -> F s r s' -> G s r s') -> LA p G none.
  Proof. intros H HG. eapply LA_weaken; [exact H | exact HG | intros ? ? ? ? []]. Qed.

  Lemma LA_cas_loop_new casw_ a f i :
    cas_usable casw_ a -> (forall x, inw (bits a) (f x)) ->
    LA (cas_loop_new casw_ a f i) (fun s r s' => r = f (s a) /\ supd s a (f (s a)) s') none.
  Proof.
    intros Hc Hf. unfold cas_loop_new. apply LA_loop with (P := fun _ => True); [exact I|].
    intros old _. 
    eapply LA_weaken.
    - apply (LA_bind_ret bits spec _ _ (casw_ a old (f old)) _ (fun r : bool * Z => if fst r then inr (f old) else inl (snd r))).
      + intros [[|] e]; reflexivity.
      + apply Hc, Hf.
    - intros m s y s' Hi ((b & e) & [(H1 & H2 & H3) | (H2 & ->)] & ->); simpl in *.
      + inversion H2; subst; simpl. auto.
      + subst. simpl. auto.
    - intros m s y Hi ((b & e) & H1 & ->). simpl in *. subst. exact I.
  Qed.

  (** ** generic *)
  Section Gen.
    Variables (c : core) (sg : bool) (vw : Z) (a : addr).
    Hypothesis Hc : core_ok c sg vw a.
    Notation w := (c_bits c).

    Let Hb : bits a = w. Proof. apply (ok_bits _ _ _ _ _ _ Hc). Qed.
    Let Hw : 0 < w. Proof. rewrite <- Hb. apply bits_pos. Qed.
    Let Hcas : cas_usable (c_casw c) a. Proof. apply casw_usable. apply Hc. Qed.
    Lemma inwrap x : inw (bits a) (wrap w x). Proof. rewrite Hb. now apply inw_wrap. Qed.

    Lemma gen_fetch_negate_ok : LA (gen_fetch_negate sg w c a)
      (fun s r s' => r = s a /\ supd s a (wrap w (un_apply Neg (s a))) s') none.
    Proof.
      unfold gen_fetch_negate. eapply LA_wk; [apply LA_racy_loop|].
      - exact Hcas.
      - intros x. rewrite ext_native by auto. apply inwrap.
      - intros m s r s' Hi [H1 H2]. split; auto. rewrite ext_native in H2 by auto. exact H2.
    Qed.

    Lemma gen_negate_ok : LA (gen_negate sg w c a)
      (fun s r s' => r = wrap w (un_apply Neg (s a)) /\ supd s a (wrap w (un_apply Neg (s a))) s') none.
    Proof.
      unfold gen_negate. apply LA_pure_bind; [apply Pure_racy|]. intros i.
      eapply LA_wk; [apply LA_cas_loop_new|].
      - exact Hcas.
      - intros x. rewrite ext_native by auto. apply inwrap.
      - intros m s r s' Hi [H1 H2]. rewrite ext_native in H1, H2 by auto. auto.
    Qed.

    Lemma gen_bin_ok b v : inw w v -> LA (gen_bin c b a v)
      (fun s r s' => r = wrap w (bin_apply b (s a) v) /\ supd s a (core_new sg vw w b (s a) v) s') none.
    Proof.
      intros Hv. unfold gen_bin. eapply LA_ret; [apply (ok_fetch _ _ _ _ _ _ Hc); rewrite Hb; exact Hv|].
      intros m s r s' Hi [H1 H2]. subst r. auto.
    Qed.

    Lemma gen_cas_bin_ok b v : LA (gen_cas_bin sg w c b a v)
      (fun s r s' => r = wrap w (bin_apply b (s a) v) /\ supd s a (wrap w (bin_apply b (s a) v)) s') none.
    Proof.
      unfold gen_cas_bin. apply LA_pure_bind; [apply Pure_racy|]. intros i.
      eapply LA_wk; [apply LA_cas_loop_new|].
      - exact Hcas.
      - intros x. rewrite ext_native by auto. apply inwrap.
      - intros m s r s' Hi [H1 H2]. rewrite ext_native in H1, H2 by auto. auto.
    Qed.

    Lemma gen_fetch_complement_ok : LA (gen_fetch_complement sg w c a)
      (fun s r s' => r = s a /\ supd s a (wrap w (un_apply Not (s a))) s') none.
    Proof.
      unfold gen_fetch_complement. rewrite all_ones_native by auto.
      eapply LA_wk; [apply (ok_fetch _ _ _ _ _ _ Hc); apply inwrap|].
      intros m s r s' Hi [H1 H2]. split; auto. simpl in *. now rewrite xor_all_ones in H2 by auto.
    Qed.

    Lemma gen_complement_ok : LA (gen_complement sg w c a)
      (fun s r s' => r = wrap w (un_apply Not (s a)) /\ supd s a (wrap w (un_apply Not (s a))) s') none.
    Proof.
      unfold gen_complement. rewrite all_ones_native by auto.
      eapply LA_ret; [apply (ok_fetch _ _ _ _ _ _ Hc); apply inwrap|].
      intros m s r s' Hi [H1 H2]. simpl in *. subst r. rewrite xor_all_ones in H2 by auto.
      rewrite xor_all_ones by auto. auto.
    Qed.

    Lemma gen_cas_complement_ok : LA (gen_cas_complement sg w c a)
      (fun s r s' => r = wrap w (un_apply Not (s a)) /\ supd s a (wrap w (un_apply Not (s a))) s') none.
    Proof.
      unfold gen_cas_complement. rewrite all_ones_native by auto.
      eapply LA_wk; [apply gen_cas_bin_ok|].
      intros m s r s' Hi [H1 H2]. simpl in *. rewrite xor_all_ones in H1, H2 by auto. auto.
    Qed.

    Lemma gen_fetch_un_ok u : LA (gen_fetch_un sg w c u a)
      (fun s r s' => r = s a /\ supd s a (wrap w (un_apply u (s a))) s') none.
    Proof. destruct u; [apply gen_fetch_negate_ok | apply gen_fetch_complement_ok]. Qed.

    Lemma gen_bit_ok k i : 0 <= i < w -> LA (gen_bit sg w c k a i)
      (fun s r s' => r = Z.testbit (s a) i /\ supd s a (wrap w (bit_apply k (s a) i)) s') none.
    Proof.
      intros Hi. unfold gen_bit. rewrite bit_mask_native by auto.
      assert (Hm : inw (bits a) (2 ^ i)).
      { rewrite Hb. split; [apply Z.pow_nonneg; lia | apply Z.pow_lt_mono_r; lia]. }
      assert (G : forall p (F : wstate -> Z -> wstate -> Prop), LA p F none ->
        (forall m s r s', WInv bits m s -> F s r s' -> r = s a /\ supd s a (wrap w (bit_apply k (s a) i)) s') ->
        LA (bind p (fun old => Ret (negb (Z.land old (2 ^ i) =? 0))))
           (fun s r s' => r = Z.testbit (s a) i /\ supd s a (wrap w (bit_apply k (s a) i)) s') none).
      { intros p F HF HG. eapply LA_ret; [exact HF|]. intros m s r s' HI Hf.
        destruct (HG m s r s' HI Hf) as [-> H2]. rewrite land_pow2_testbit by lia. auto. }
      destruct k.
      - eapply G; [apply (ok_fetch _ _ _ _ _ _ Hc Or _ Hm)|].
        intros m s r s' HI [H1 H2]. split; auto. rewrite bit_apply_bin by lia. exact H2.
      - eapply G; [apply (ok_fetch _ _ _ _ _ _ Hc And); apply inwrap|].
        intros m s r s' HI [H1 H2]. split; auto. rewrite bit_apply_bin by lia. simpl in *.
        rewrite (wrap_land w (s a)), wrap_wrap in H2 by lia. rewrite wrap_land by lia. exact H2.
      - eapply G; [apply (ok_fetch _ _ _ _ _ _ Hc Xor _ Hm)|].
        intros m s r s' HI [H1 H2]. split; auto.
    Qed.

    Definition g_bin := if c_full_cas c then gen_cas_bin sg w c else gen_bin c.
    Definition g_un := fun u => match u with
                       | Neg => gen_negate sg w c
                       | Not => if c_full_cas c then gen_cas_complement sg w c else gen_complement sg w c end.

    Lemma g_bin_ok b v : inw w v -> LA (g_bin b a v)
      (fun s r s' => r = wrap w (bin_apply b (s a) v) /\ supd s a (bnew (negb (c_full_cas c)) sg vw w b (s a) v) s') none.
    Proof. intros Hv. unfold g_bin. destruct (c_full_cas c); simpl; [apply gen_cas_bin_ok | now apply gen_bin_ok]. Qed.

    Lemma g_un_ok u : LA (g_un u a)
      (fun s r s' => r = wrap w (un_apply u (s a)) /\ supd s a (wrap w (un_apply u (s a))) s') none.
    Proof.
      unfold g_un. destruct u; [apply gen_negate_ok|].
      destruct (c_full_cas c); [apply gen_cas_complement_ok | apply gen_complement_ok].
    Qed.

    Lemma extra_generic_ok : extra_ok (negb (c_full_cas c)) true (extra_generic sg w c) sg vw w a.
    Proof.
      constructor; cbn [extra_generic x_fetch_un x_bin x_un x_opaque_bin x_opaque_un x_test_bin x_test_un x_bit];
        try fold g_bin; try fold g_un.
      - apply gen_fetch_un_ok.
      - apply g_bin_ok.
      - apply g_un_ok.
      - intros b v Hv. unfold gen_opaque_bin.
        eapply LA_ret with (g := fun _ : Z => tt); [apply (ok_fetch _ _ _ _ _ _ Hc); rewrite Hb; exact Hv|].
        simpl. tauto.
      - intros u. unfold gen_opaque_un.
        eapply LA_ret with (g := fun _ : Z => tt); [apply gen_fetch_un_ok|]. simpl. tauto.
      - intros b v Hv. unfold gen_test_bin. eapply LA_ret; [apply (g_bin_ok b v Hv)|].
        intros m s r s' HI [-> H2]. split; [|eauto]. destruct b; auto; now rewrite wrap_wrap.
      - intros u. unfold gen_test_un. eapply LA_ret; [apply g_un_ok|].
        intros m s r s' HI [-> H2]. split; [|auto]. destruct u; auto; now rewrite wrap_wrap.
      - intros k i Hi. now apply gen_bit_ok.
    Qed.

    (** ** x86 *)
    Lemma x86_xloop_ok f : (forall x, inw w (f x)) ->
      LA (x86_xloop a f) (fun s r s' => r = s a /\ supd s a (f (s a)) s') none.
    Proof.
      intros Hf. apply LA_pure_bind; [apply Pure_ld|]. intros i. apply LA_cas_loop; auto.
      - apply cas_usable_cas.
      - intros x. rewrite Hb. auto.
    Qed.
    Lemma x86_xloop_new_ok f : (forall x, inw w (f x)) ->
      LA (x86_xloop_new a f) (fun s r s' => r = f (s a) /\ supd s a (f (s a)) s') none.
    Proof.
      intros Hf. apply LA_pure_bind; [apply Pure_ld|]. intros i. apply LA_cas_loop_new; auto.
      - apply cas_usable_cas.
      - intros x. rewrite Hb. auto.
    Qed.

    Lemma bnew_bitwise e b x v : b <> Add -> b <> Sub -> bnew e sg vw w b x v = wrap w (bin_apply b x v).
    Proof. intros. unfold bnew. destruct e, b; simpl; congruence. Qed.

    Lemma extra_x86_ok : extra_ok (negb (c_full_cas c)) false (extra_x86 sg c) sg vw w a.
    Proof.
      assert (Hg := extra_generic_ok).
      constructor; cbn [extra_x86 x_fetch_un x_bin x_un x_opaque_bin x_opaque_un x_test_bin x_test_un x_bit].
      - intros u. apply (x86_xloop_ok (fun x => wrap w (un_apply u x))). intros; now apply inw_wrap.
      - intros b v Hv.
        assert (Hx : b <> Add -> b <> Sub -> LA (x86_xloop_new a (fun x => wrap w (bin_apply b v x)))
           (fun s r s' => r = wrap w (bin_apply b (s a) v) /\ supd s a (bnew (negb (c_full_cas c)) sg vw w b (s a) v) s') none).
        { intros H1 H2. eapply LA_wk; [apply x86_xloop_new_ok; intros; now apply inw_wrap|].
          intros m s r s' HI [A B]. rewrite bin_comm in A, B by auto. rewrite bnew_bitwise by auto. auto. }
        destruct b; try (apply Hx; congruence); now apply (xo_bin _ _ _ _ _ _ _ Hg).
      - intros u. apply (x86_xloop_new_ok (fun x => wrap w (un_apply u x))). intros; now apply inw_wrap.
      - intros b v Hv. eapply LA_ret with (g := fun _ : Z => tt); [apply LA_rmw; auto|]. simpl. tauto.
      - intros u. eapply LA_ret with (g := fun _ : Z => tt); [apply LA_rmw; auto|]. simpl. tauto.
      - intros b v Hv. eapply LA_ret; [apply LA_rmw; auto|].
        intros m s r s' HI [-> H2]. simpl in H2. split; auto. exists false. exact H2.
      - intros u. eapply LA_ret; [apply (x86_xloop_new_ok (fun x => wrap w (un_apply u x))); intros; now apply inw_wrap|].
        intros m s r s' HI [-> H2]. auto.
      - destruct (w =? 8); [apply (xo_bit _ _ _ _ _ _ _ Hg)|].
        intros k i Hi. eapply LA_ret; [apply LA_rmw; auto|].
        intros m s r s' HI [-> H2]. split; auto. rewrite bit_apply_bin by lia. destruct k; exact H2.
    Qed.

    (** ** LL/SC *)
    Lemma LA_ll_loop_new f : (forall x, inw (bits a) x -> inw (bits a) (f x)) ->
      LA (ll_loop_new a f) (fun s r s' => r = f (s a) /\ supd s a (f (s a)) s') none.
    Proof.
      intros Hf. unfold ll_loop_new. apply LA_loop with (P := fun _ => True); [exact I|].
      intros _ _ t o Q m s obs0 H1 H2. simpl. intros m1 s1 Hr Hi wi m2 x He.
      inversion He; subst; clear He.
      exists (Pend obs0), s1. refine (conj (ls_skip _ _ _ _) (conj (wrely_refl _ _ _) (conj Hi _))).
      simpl. intros m3 s3 Hr3 Hi3 w3 m4 b He4.
      destruct (ver (m3 a) =? ver (m2 a)) eqn:Ev; simpl in He4.
      - apply Z.eqb_eq in Ev. destruct (lucky w3); inversion He4; subst; clear He4.
        + assert (Es := sc_same bits _ _ _ _ _ a Hr3 Hi Hi3 Ev).
          assert (Ex : val (m2 a) = s3 a) by (rewrite Es; apply Hi). rewrite Ex.
          destruct (H1 m3 s3 obs0 (inr (f (s3 a))) (upd s3 a (f (s3 a))) Hi3) as (st2 & Hl & HQ).
          { auto using upd_supd. }
          exists st2, (upd s3 a (f (s3 a))).
          refine (conj Hl (conj (put_rely _ _ _ _ _ _) (conj (put_inv _ _ _ _ _ Hi3 _) HQ))).
          apply Hf. apply Hi3.
        + destruct (H1 m4 s3 obs0 (inl tt) s3 Hi3) as (st2 & Hl & HQ); [auto|].
          exists st2, s3. refine (conj Hl (conj (wrely_refl _ _ _) (conj Hi3 HQ))).
      - inversion He4; subst; clear He4.
        destruct (H1 m4 s3 obs0 (inl tt) s3 Hi3) as (st2 & Hl & HQ); [auto|].
        exists st2, s3. refine (conj Hl (conj (wrely_refl _ _ _) (conj Hi3 HQ))).
    Qed.

    Lemma extra_llsc_ok (ro lse : bool) :
      extra_ok (lse && negb (c_full_cas c)) (if ro then lse && negb (c_full_cas c) else true)
               (extra_llsc ro lse sg c) sg vw w a.
    Proof.
      assert (Hg := extra_generic_ok).
      assert (Hwr : forall (g : Z -> Z) x, inw (bits a) x -> inw (bits a) (wrap w (g x))) by (intros; apply inwrap).
      assert (Hun : forall u, LA (x_un (extra_llsc ro lse sg c) u a)
        (fun s r s' => r = wrap w (un_apply u (s a)) /\ supd s a (wrap w (un_apply u (s a))) s') none).
      { intros u. cbn [extra_llsc x_un].
        destruct u.
        - apply (LA_ll_loop_new (fun x => wrap w (un_apply Neg x))); intros x0 H0; apply inwrap.
        - destruct lse; [apply (xo_un _ _ _ _ _ _ _ Hg)|]. apply (LA_ll_loop_new (fun x => wrap w (un_apply Not x))); intros x0 H0; apply inwrap. }
      assert (Hfun : forall u, LA (x_fetch_un (extra_llsc ro lse sg c) u a)
        (fun s r s' => r = s a /\ supd s a (wrap w (un_apply u (s a))) s') none).
      { intros u. cbn [extra_llsc x_fetch_un].
        destruct u.
        - apply (LA_ll_loop bits spec a (fun x => wrap w (un_apply Neg x))); intros x0 H0; apply inwrap.
        - destruct lse; [apply (xo_fetch_un _ _ _ _ _ _ _ Hg)|].
          apply (LA_ll_loop bits spec a (fun x => wrap w (un_apply Not x))); intros x0 H0; apply inwrap. }
      assert (Hbin : forall b v, inw w v -> LA (x_bin (extra_llsc ro lse sg c) b a v)
        (fun s r s' => r = wrap w (bin_apply b (s a) v) /\
           supd s a (bnew (lse && negb (c_full_cas c)) sg vw w b (s a) v) s') none).
      { intros b v Hv. cbn [extra_llsc x_bin]. destruct lse; [now apply (xo_bin _ _ _ _ _ _ _ Hg)|].
        apply (LA_ll_loop_new (fun x => wrap w (bin_apply b x v))); intros x0 H0; apply inwrap. }
      constructor; auto.
      - intros b v Hv. specialize (Hbin b v Hv). cbn [extra_llsc x_opaque_bin x_bin] in *. destruct ro.
        + eapply LA_ret with (g := fun _ : Z => tt); [exact Hbin|]. simpl. tauto.
        + apply (xo_opaque_bin _ _ _ _ _ _ _ Hg b v Hv).
      - intros u. specialize (Hun u). specialize (Hfun u).
        cbn [extra_llsc x_opaque_un x_un x_fetch_un] in *. destruct ro.
        + eapply LA_ret with (g := fun _ : Z => tt); [exact Hun|]. simpl. tauto.
        + eapply LA_ret with (g := fun _ : Z => tt); [exact Hfun|]. simpl. tauto.
      - intros b v Hv. specialize (Hbin b v Hv). cbn [extra_llsc x_test_bin x_bin] in *.
        eapply LA_ret; [exact Hbin|]. intros m s r s' HI [-> H2]. split; eauto.
      - intros u. specialize (Hun u). cbn [extra_llsc x_test_un x_un] in *.
        eapply LA_ret; [exact Hun|]. intros m s r s' HI [-> H2]. split; eauto.
      - intros k i Hi. apply (xo_bit _ _ _ _ _ _ _ Hg k i Hi).
    Qed.
  End Gen.
End ExtraRG.

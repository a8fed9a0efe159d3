(** * Integer atomics are linearizable: proofs. *)
From Coq Require Import ZArith List Bool Lia.
From Verif Require Import SpecInt SpecLin SpecObj Order Conv WordFacts Prog Word RG CoreModel CoreProof
  ExtraModel ExtraProof FrontProof IntModel.
Open Scope Z_scope.

(** ** Arithmetic of the encoding *)
Lemma wrap_bin w n b x v : 0 < n <= w -> wrap n (bin_apply b (wrap w x) (wrap w v)) = wrap n (bin_apply b x v).
Proof.
  intros Hn. rewrite <- (wrap_wrap_le n w (bin_apply b (wrap w x) _)) by lia.
  rewrite <- (wrap_wrap_le n w (bin_apply b x v)) by lia. f_equal.
  destruct b; simpl.
  - now rewrite wrap_add_l, wrap_add_r.
  - now rewrite wrap_sub_l, wrap_sub_r.
  - now rewrite !wrap_land, !wrap_wrap by lia.
  - now rewrite !wrap_lor, !wrap_wrap by lia.
  - now rewrite !wrap_lxor, !wrap_wrap by lia.
Qed.

Lemma wrap_un w n u x : 0 < n <= w -> wrap n (un_apply u (wrap w x)) = wrap n (un_apply u x).
Proof.
  intros Hn. rewrite <- (wrap_wrap_le n w (un_apply u (wrap w x))) by lia.
  rewrite <- (wrap_wrap_le n w (un_apply u x)) by lia. f_equal.
  destruct u; simpl.
  - apply wrap_opp.
  - apply wrap_lnot_wrap. lia.
Qed.

Section Enc.
  Variables (sg : bool) (vw w : Z).
  Hypothesis Hv : 0 < vw <= w.

  Lemma core_new_enc b z v : rng sg vw z -> rng sg vw v ->
    core_new sg vw w b (wrap w z) (wrap w v) = wrap w (norm sg vw (bin_apply b z v)).
  Proof.
    intros Hz Hr. unfold core_new.
    assert (A : b = Add \/ b = Sub \/ (b = And \/ b = Or \/ b = Xor)) by (destruct b; auto).
    assert (E : norm sg vw (bin_apply b (wrap w z) (wrap w v)) = norm sg vw (bin_apply b z v)).
    { apply norm_congr; [lia|]. now apply wrap_bin. }
    destruct A as [-> |[-> | A]]; [now rewrite E | now rewrite E |].
    rewrite (rng_bin_bitwise sg vw b z v) by (auto; lia).
    destruct A as [-> |[-> | ->]]; apply wrap_bin; lia.
  Qed.

  Lemma trunc_bin b z v :
    integral_truncate sg w vw (wrap w (bin_apply b (wrap w z) (wrap w v))) = norm sg vw (bin_apply b z v).
  Proof.
    rewrite truncate_norm by lia. apply norm_congr; [lia|].
    rewrite wrap_wrap_le by lia. now apply wrap_bin.
  Qed.

  Lemma trunc_un u z : integral_truncate sg w vw (wrap w (un_apply u (wrap w z))) = norm sg vw (un_apply u z).
  Proof.
    rewrite truncate_norm by lia. apply norm_congr; [lia|].
    rewrite wrap_wrap_le by lia. now apply wrap_un.
  Qed.

  Lemma bitwise_enc b z v : is_arith b = false -> rng sg vw z -> rng sg vw v ->
    wrap w (bin_apply b (wrap w z) (wrap w v)) = wrap w (norm sg vw (bin_apply b z v)).
  Proof.
    intros Hb Hz Hr. rewrite <- (core_new_enc b z v) by auto. destruct b; try discriminate; reflexivity.
  Qed.

  Lemma not_enc z : rng true vw z -> norm true vw (un_apply Not z) = un_apply Not z.
  Proof.
    intros Hz. apply norm_id; [lia|]. simpl. unfold Z.lnot. unfold rng in *. lia.
  Qed.

  Lemma zero_enc z : rng sg vw z -> (wrap w z =? 0) = (z =? 0).
  Proof.
    intros Hz. destruct (Z.eqb_spec z 0) as [->|Hn].
    - reflexivity.
    - apply Z.eqb_neq. intros E. apply Hn. apply (enc_inj sg vw w z 0); auto.
      pose proof (pow2_gt0 vw). pose proof (pow2_gt0 (vw - 1)). unfold rng. destruct sg; lia.
  Qed.

  Lemma rng_bits_high z i : rng true vw z -> vw - 1 <= i -> Z.testbit z i = (z <? 0).
  Proof.
    intros Hz Hi. unfold rng in Hz. assert (Hp := pow2_gt0 (vw - 1)).
    destruct (Z.ltb_spec z 0).
    - assert (0 < -z) by lia.
      replace z with (Z.lnot (- z - 1)) by (unfold Z.lnot; lia).
      rewrite Z.lnot_spec by lia.
      destruct (Z.eq_dec (-z-1) 0) as [E|E]; [rewrite E; now rewrite Z.bits_0|].
      rewrite Z.bits_above_log2; [reflexivity|lia|].
      assert (Z.log2 (-z-1) < vw - 1); [|lia]. apply Z.log2_lt_pow2; lia.
    - destruct (Z.eq_dec z 0) as [->|E]; [apply Z.bits_0|].
      rewrite Z.bits_above_log2; [reflexivity|lia|].
      assert (Z.log2 z < vw - 1); [|lia]. apply Z.log2_lt_pow2; lia.
  Qed.

  Lemma rng_bits_above z i : rng false vw z -> vw <= i -> Z.testbit z i = false.
  Proof.
    intros Hz Hi. unfold rng in Hz. destruct (Z.eq_dec z 0) as [->|E]; [apply Z.bits_0|].
    rewrite Z.bits_above_log2; [reflexivity|lia|].
    assert (Z.log2 z < vw); [|lia]. apply Z.log2_lt_pow2; lia.
  Qed.

  (** a bit operation whose result still fits the value type *)
  Lemma bit_enc k z i : 0 <= i < vw -> rng sg vw z -> sg = false \/ i < vw - 1 ->
    norm sg vw (bit_apply k z i) = bit_apply k z i.
  Proof.
    intros Hi Hz Hs. rewrite bit_apply_bin by lia.
    assert (Hp : rng sg vw (2 ^ i)).
    { unfold rng. pose proof (pow2_gt0 i). destruct sg.
      - destruct Hs as [Hs|Hs]; [discriminate|].
        assert (2 ^ i < 2 ^ (vw - 1)) by (apply Z.pow_lt_mono_r; lia). pose proof (pow2_gt0 (vw - 1)). lia.
      - split; [lia|]. apply Z.pow_lt_mono_r; lia. }
    destruct k.
    - apply (rng_bin_bitwise sg vw Or); auto; lia.
    - assert (E : Z.land z (Z.lnot (2 ^ i)) = Z.lxor z (Z.land z (2 ^ i))).
      { apply Z.bits_inj'. intros j Hj. rewrite Z.lxor_spec, !Z.land_spec, Z.lnot_spec by lia.
        destruct (Z.testbit z j), (Z.testbit (2 ^ i) j); reflexivity. }
      rewrite E. apply (rng_bin_bitwise sg vw Xor); auto; [lia|].
      change (Z.land z (2 ^ i)) with (bin_apply And z (2 ^ i)).
      rewrite <- (rng_bin_bitwise sg vw And z (2 ^ i)) by (auto; lia). apply norm_rng. lia.
    - apply (rng_bin_bitwise sg vw Xor); auto; lia.
  Qed.

  Lemma wrap_bit k z i : 0 <= i < vw -> wrap w (bit_apply k (wrap w z) i) = wrap w (bit_apply k z i).
  Proof.
    intros Hi. rewrite !bit_apply_bin by lia. destruct k.
    - rewrite !wrap_lor, wrap_wrap by lia. reflexivity.
    - rewrite !wrap_land, wrap_wrap by lia. reflexivity.
    - rewrite !wrap_lxor, wrap_wrap by lia. reflexivity.
  Qed.
End Enc.

(** ** Every object has a correct core and extra operations *)
Section Obj.
  Context {op ret : Type}.
  Variable bits : addr -> Z.
  Hypothesis bits_pos : forall a, 0 < bits a.
  Variable spec : wstate -> op -> ret -> wstate -> Prop.
  Notation LA := (LA wexec spec (WInv bits) wrely wrely).

  Lemma base_core_bits k w : kind_width k w -> c_bits (base_core k w) = w.
  Proof. destruct k; simpl; intros; congruence. Qed.

  Lemma base_core_ok k sg w a : kind_width k w -> bits a = w -> core_ok bits spec (base_core k w) sg w a.
  Proof.
    intros Hk Hw. destruct k; simpl in *.
    - now apply gcc_atomic_ok.
    - now apply gcc_sync_ok.
    - now apply x86_ok.
    - now apply dcas_x86_ok.
    - subst w. apply linux_arm_ok; auto; lia.
    - now apply sparc_ok.
    - now apply llsc_native_ok.
    - subst w. apply llsc_dword_ok; auto.
    - now apply aarch64_lse_ok.
    - subst w. apply windows_ok; auto; lia.
    - now apply msvc_x86_ok.
    - subst w. apply msvc_dcas_x86_64_ok; auto; lia.
    - now apply msvc_arm_ok.
  Qed.

  Lemma obj_core_bits o : obj_ok o -> c_bits (obj_core o) = o_w o.
  Proof.
    intros (H1 & H2 & H3). unfold obj_core. destruct (o_vw o =? o_w o) eqn:E.
    - now apply base_core_bits.
    - destruct (o_core o) eqn:K; try (now apply base_core_bits); reflexivity.
  Qed.

  Lemma obj_core_ok o a : obj_ok o -> bits a = o_w o -> core_ok bits spec (obj_core o) (o_sg o) (o_vw o) a.
  Proof.
    intros (H1 & H2 & H3) Hw. unfold obj_core. destruct (Z.eqb_spec (o_vw o) (o_w o)) as [E|E].
    - rewrite E. now apply base_core_ok.
    - assert (Hx : core_ok bits spec (extending (o_sg o) (o_vw o) (base_core (o_core o) (o_w o))) (o_sg o) (o_vw o) a).
      { apply extending_ok; auto.
        - rewrite base_core_bits by auto. now apply base_core_ok.
        - now rewrite base_core_bits. }
      destruct (o_core o); auto. now apply llsc_narrow_ok.
  Qed.

  Lemma obj_extra_ok o a : obj_ok o -> bits a = o_w o ->
    extra_ok bits spec (keeps_ext o) (keeps_ext_opaque o) (obj_extra o) (o_sg o) (o_vw o) (o_w o) a.
  Proof.
    intros Ho Hw. assert (Hc := obj_core_ok o a Ho Hw).
    assert (Hb := obj_core_bits o Ho). unfold obj_extra, keeps_ext, keeps_ext_opaque.
    destruct (o_extra o) as [| |ro lse].
    - rewrite <- Hb. apply extra_generic_ok; auto.
    - rewrite <- Hb. apply extra_x86_ok; auto.
    - rewrite <- Hb. apply extra_llsc_ok; auto.
  Qed.
End Obj.

(** ** The front end, in terms of storage words *)

(** What a call does to the storage word [x], for any conversion of values. *)
Inductive raw (ob : obj) (enc dec : Z -> Z) (x : Z) : iop -> iret -> Z -> Prop :=
| raw_store v : raw ob enc dec x (Store v) RUnit (enc v)
| raw_load : raw ob enc dec x Load (RVal (dec x)) x
| raw_exchange v : raw ob enc dec x (Exchange v) (RVal (dec x)) (enc v)
| raw_cas_ok e d : x = enc e -> raw ob enc dec x (CasStrong e d) (RCas true (dec (enc e))) (enc d)
| raw_cas_fail e d : x <> enc e -> raw ob enc dec x (CasStrong e d) (RCas false (dec x)) x
| raw_casw_ok e d : x = enc e -> raw ob enc dec x (CasWeak e d) (RCas true (dec (enc e))) (enc d)
| raw_casw_fail e d : x <> enc e -> raw ob enc dec x (CasWeak e d) (RCas false (dec x)) x
| raw_casw_spur e d : x = enc e -> raw ob enc dec x (CasWeak e d) (RCas false (dec (enc e))) x
| raw_fetch_bin b v :
    raw ob enc dec x (Rmw Fetch (Bin b v)) (RVal (dec x)) (core_new (o_sg ob) (o_vw ob) (o_w ob) b x (enc v))
| raw_fetch_un u :
    raw ob enc dec x (Rmw Fetch (Un u)) (RVal (dec x)) (wrap (o_w ob) (un_apply u x))
| raw_result_bin b v :
    raw ob enc dec x (Rmw Result (Bin b v)) (RVal (dec (wrap (o_w ob) (bin_apply b x (enc v)))))
        (bnew (keeps_ext ob) (o_sg ob) (o_vw ob) (o_w ob) b x (enc v))
| raw_result_un u :
    raw ob enc dec x (Rmw Result (Un u)) (RVal (dec (wrap (o_w ob) (un_apply u x)))) (wrap (o_w ob) (un_apply u x))
| raw_opaque_bin b v :
    raw ob enc dec x (Rmw Opaque (Bin b v)) RUnit
        (bnew (keeps_ext_opaque ob) (o_sg ob) (o_vw ob) (o_w ob) b x (enc v))
| raw_opaque_un u : raw ob enc dec x (Rmw Opaque (Un u)) RUnit (wrap (o_w ob) (un_apply u x))
| raw_test_bin b v eb :
    raw ob enc dec x (Rmw Test (Bin b v)) (RBool (negb (wrap (o_w ob) (bin_apply b x (enc v)) =? 0)))
        (bnew eb (o_sg ob) (o_vw ob) (o_w ob) b x (enc v))
| raw_test_un u :
    raw ob enc dec x (Rmw Test (Un u)) (RBool (negb (wrap (o_w ob) (un_apply u x) =? 0))) (wrap (o_w ob) (un_apply u x))
| raw_bit k i : raw ob enc dec x (BitTest k i) (RBool (Z.testbit x i)) (wrap (o_w ob) (bit_apply k x i)).

Section Raw.
  Context {op ret : Type}.
  Variable bits : addr -> Z.
  Hypothesis bits_pos : forall a, 0 < bits a.
  Variable spec : wstate -> op -> ret -> wstate -> Prop.
  Notation LA := (LA wexec spec (WInv bits) wrely wrely).

  Definition rawF ob enc dec (a : addr) o (s : wstate) (r : iret) (s' : wstate) : Prop :=
    exists x', supd s a x' s' /\ raw ob enc dec (s a) o r x'.

  Lemma seq_supd s s' a : seq s s' -> supd s a (s a) s'.
  Proof. intros H. split; auto. Qed.

  Lemma front_raw_ok ob (enc dec : Z -> Z) mo a o :
    obj_ok ob -> bits a = o_w ob -> (forall v, inw (o_w ob) (enc v)) ->
    match o with BitTest _ i => 0 <= i < o_w ob | _ => True end ->
    LA (front (obj_core ob) (obj_extra ob) enc dec mo a o)
       (rawF ob enc dec a o) (fun s r => raw ob enc dec (s a) o r (s a)).
  Proof.
    intros Hob Hbits Henc Hbit.
    assert (Hc := obj_core_ok bits bits_pos spec ob a Hob Hbits).
    assert (Hx := obj_extra_ok bits bits_pos spec ob a Hob Hbits).
    assert (Hcb := obj_core_bits ob Hob).
    assert (Henc' : forall v, inw (bits a) (enc v)) by (rewrite Hbits; exact Henc).
    assert (Hwk : forall R (p : wprog R) (g : R -> iret) F O,
              LA p F O ->
              (forall s r s', F s r s' -> rawF ob enc dec a o s (g r) s') ->
              (forall s r, O s r -> raw ob enc dec (s a) o (g r) (s a)) ->
              LA (bind p (fun r => Ret (g r)))
                 (rawF ob enc dec a o) (fun s r => raw ob enc dec (s a) o r (s a))).
    { intros R p g F O H H1 H2. eapply LA_weaken; [apply LA_map; exact H| |].
      - intros m s r s' _ (r0 & Hr & ->). auto.
      - intros m s r _ (r0 & Hr & ->). auto. }
    assert (Hcas : forall p F O,
              LA p F O ->
              (forall s r s', F s r s' -> rawF ob enc dec a o s (RCas (fst r) (dec (snd r))) s') ->
              (forall s r, O s r -> raw ob enc dec (s a) o (RCas (fst r) (dec (snd r))) (s a)) ->
              LA (bind p (fun x : bool * Z => let (b, r) := x in Ret (RCas b (dec r))))
                 (rawF ob enc dec a o) (fun s r => raw ob enc dec (s a) o r (s a))).
    { intros p F O H H1 H2. eapply LA_weaken.
      - apply (LA_bind_ret bits spec _ _ p _ (fun x : bool * Z => RCas (fst x) (dec (snd x)))).
        + intros [b r]. reflexivity.
        + exact H.
      - intros m s r s' _ (r0 & Hr & ->). auto.
      - intros m s r _ (r0 & Hr & ->). auto. }
    assert (RF : forall s r s' x', supd s a x' s' -> raw ob enc dec (s a) o r x' -> rawF ob enc dec a o s r s')
      by (intros s r s' x' A B; exists x'; auto).
    unfold front. destruct o as [v | | v | e d | e d | f eff | k i].
    - eapply (Hwk _ _ (fun _ => RUnit)); [apply Hc, Henc' | | intros ? ? []].
      intros s r s' Hu. eapply RF; [exact Hu | constructor].
    - eapply (Hwk _ _ (fun r => RVal _)); [apply Hc | | intros ? ? []].
      intros s r s' [-> Hs]. eapply RF; [apply seq_supd; exact Hs | constructor].
    - eapply (Hwk _ _ (fun r => RVal _)); [apply Hc, Henc' | | intros ? ? []].
      intros s r s' [-> Hu]. eapply RF; [exact Hu | constructor].
    - eapply Hcas; [apply Hc, Henc' | | intros ? ? []].
      intros s r s' [(E & -> & Hu) | (E & -> & ->)]; simpl.
      + eapply RF; [exact Hu | constructor; exact E].
      + eapply RF; [apply seq_supd; intros b; reflexivity | constructor; exact E].
    - eapply Hcas; [apply Hc, Henc' | |].
      + intros s r s' [(E & -> & Hu) | (E & -> & ->)]; simpl.
        * eapply RF; [exact Hu | constructor; exact E].
        * eapply RF; [apply seq_supd; intros b; reflexivity | constructor; exact E].
      + intros s r [E ->]. simpl. constructor. exact E.
    - destruct f, eff as [b v|u].
      + eapply (Hwk _ _ (fun r => RVal _)); [apply Hc, Henc' | | intros ? ? []].
        intros s r s' [-> Hu]. rewrite Hcb in Hu. eapply RF; [exact Hu | constructor].
      + eapply (Hwk _ _ (fun r => RVal _)); [apply Hx | | intros ? ? []].
        intros s r s' [-> Hu]. eapply RF; [exact Hu | constructor].
      + eapply (Hwk _ _ (fun r => RVal _)); [apply Hx, Henc | | intros ? ? []].
        intros s r s' [-> Hu]. eapply RF; [exact Hu | constructor].
      + eapply (Hwk _ _ (fun r => RVal _)); [apply Hx | | intros ? ? []].
        intros s r s' [-> Hu]. eapply RF; [exact Hu | constructor].
      + eapply (Hwk _ _ (fun r => RUnit)); [apply Hx, Henc | | intros ? ? []].
        intros s r s' Hu. eapply RF; [exact Hu | constructor].
      + eapply (Hwk _ _ (fun r => RUnit)); [apply Hx | | intros ? ? []].
        intros s r s' Hu. eapply RF; [exact Hu | constructor].
      + eapply (Hwk _ _ (fun r => RBool r)); [apply Hx, Henc | | intros ? ? []].
        intros s r s' [-> [eb Hu]]. eapply RF; [exact Hu | constructor].
      + eapply (Hwk _ _ (fun r => RBool r)); [apply Hx | | intros ? ? []].
        intros s r s' [-> Hu]. eapply RF; [exact Hu | constructor].
    - eapply (Hwk _ _ (fun r => RBool r)); [apply Hx; exact Hbit | | intros ? ? []].
      intros s r s' [-> Hu]. eapply RF; [exact Hu | constructor].
  Qed.
End Raw.

(** ** Integers *)
Definition int_safe (ob : obj) (o : iop) : Prop :=
  iop_ok (o_sg ob) (o_vw ob) o /\ (o_vw ob = o_w ob \/ wide_safe ob o = true).

Lemma raw_int ob o r v x' :
  obj_ok ob -> int_safe ob o -> rng (o_sg ob) (o_vw ob) v ->
  raw ob (wrap (o_w ob)) (integral_truncate (o_sg ob) (o_w ob) (o_vw ob)) (wrap (o_w ob) v) o r x' ->
  exists v', rng (o_sg ob) (o_vw ob) v' /\ x' = wrap (o_w ob) v' /\ istep (o_sg ob) (o_vw ob) v o r v'.
Proof.
  intros Hob [Ho Hsafe] Hv.
  set (w := o_w ob) in *. set (vw := o_vw ob) in *. set (sg := o_sg ob) in *.
  assert (Hvw : 0 < vw <= w) by apply Hob.
  assert (Hdec : forall v, rng sg vw v -> integral_truncate sg w vw (wrap w v) = v)
    by (intros; now apply enc_dec).
  assert (Hn : forall z, rng sg vw (norm sg vw z)) by (intros; apply norm_rng; lia).
  assert (Hinj : forall z e, rng sg vw z -> rng sg vw e -> wrap w z = wrap w e -> z = e)
    by (intros z e Hz He; apply (enc_inj sg vw w); auto).
  assert (Hbx : forall eb b y, rng sg vw y ->
             (vw = w \/ negb (is_arith b) || eb = true) ->
             bnew eb sg vw w b (wrap w v) (wrap w y) = wrap w (norm sg vw (bin_apply b v y))).
  { intros eb b y Hy H. unfold bnew. destruct eb; [now apply core_new_enc|].
    destruct H as [E|H].
    - rewrite E. rewrite norm_wrap by lia. apply wrap_bin; lia.
    - rewrite orb_false_r in H. apply bitwise_enc; auto. destruct (is_arith b); [discriminate | reflexivity]. }
  assert (Hux : forall u, (vw = w \/ u = Not /\ sg = true) ->
             wrap w (un_apply u (wrap w v)) = wrap w (norm sg vw (un_apply u v))).
  { intros u H. rewrite wrap_un by lia. destruct H as [E|[-> E]].
    - rewrite E. now rewrite norm_wrap by lia.
    - rewrite E in *. now rewrite (not_enc vw w). }
  assert (Hus : forall f u, o = Rmw f (Un u) -> vw = w \/ u = Not /\ sg = true).
  { intros f u ->. destruct Hsafe as [E|E]; [now left|right]. destruct f, u; simpl in E; try discriminate; auto. }
  assert (Hrmw : forall f e y, y = wrap w (norm sg vw (eff_apply e v)) -> o = Rmw f e ->
            r = report f v (norm sg vw (eff_apply e v)) ->
            exists v', rng sg vw v' /\ y = wrap w v' /\ istep sg vw v o r v').
  { intros f e y -> -> ->. exists (norm sg vw (eff_apply e v)). refine (conj (Hn _) (conj eq_refl _)). constructor. }
  intros H. inversion H as [y|  |y|e d E|e d E|e d E|e d E|e d E|b y|u|b y|u|b y|u|b y eb|u|k i]; subst; simpl in Ho.
  - exists y. refine (conj _ (conj eq_refl _)); auto; constructor.
  - exists v. rewrite Hdec by auto. refine (conj _ (conj eq_refl _)); auto; constructor.
  - exists y. rewrite Hdec by auto. refine (conj _ (conj eq_refl _)); auto; constructor.
  - destruct Ho as [He Hd]. apply Hinj in E; auto. subst e. exists d. rewrite Hdec by auto. refine (conj _ (conj eq_refl _)); auto; constructor.
  - destruct Ho as [He Hd]. exists v. rewrite Hdec by auto. refine (conj _ (conj eq_refl _)); auto; constructor. congruence.
  - destruct Ho as [He Hd]. apply Hinj in E; auto. subst e. exists d. rewrite Hdec by auto. refine (conj _ (conj eq_refl _)); auto; constructor.
  - destruct Ho as [He Hd]. exists v. rewrite Hdec by auto. refine (conj _ (conj eq_refl _)); auto; constructor.
  - destruct Ho as [He Hd]. apply Hinj in E; auto. subst e. exists v. rewrite Hdec by auto. refine (conj _ (conj eq_refl _)); auto; constructor.
  - apply (Hrmw Fetch (Bin b y)); [now apply core_new_enc | reflexivity | simpl; now rewrite Hdec].
  - apply (Hrmw Fetch (Un u)); [apply Hux; eapply Hus; reflexivity | reflexivity | simpl; now rewrite Hdec].
  - apply (Hrmw Result (Bin b y)); [now apply Hbx | reflexivity | simpl; f_equal; now apply trunc_bin].
  - apply (Hrmw Result (Un u)); [apply Hux; eapply Hus; reflexivity | reflexivity | simpl; f_equal; now apply trunc_un].
  - apply (Hrmw Opaque (Bin b y)); [now apply Hbx | reflexivity | reflexivity].
  - apply (Hrmw Opaque (Un u)); [apply Hux; eapply Hus; reflexivity | reflexivity | reflexivity].
  - assert (Hs' : forall eb, vw = w \/ negb (is_arith b) || eb = true).
    { intros eb'. destruct Hsafe as [E|E]; [now left|right]. simpl in E. now rewrite E. }
    apply (Hrmw Test (Bin b y)); [now apply Hbx | reflexivity |]. simpl. f_equal. f_equal.
    assert (E2 := Hbx false b y Ho (Hs' false)). unfold bnew in E2. fold w. rewrite E2.
    apply zero_enc with (sg := sg) (vw := vw); auto.
  - assert (E2 := Hux u (Hus Test u eq_refl)).
    apply (Hrmw Test (Un u)); [exact E2 | reflexivity |]. simpl. f_equal. f_equal. fold w. rewrite E2.
    apply zero_enc with (sg := sg) (vw := vw); auto.
  - fold vw in Ho. exists (norm sg vw (bit_apply k v i)). refine (conj (Hn _) (conj _ _)).
    + fold w. rewrite (wrap_bit vw) by lia. destruct Hsafe as [E|E].
      * rewrite E. now rewrite norm_wrap by lia.
      * f_equal. symmetry. apply (bit_enc sg vw w); auto. simpl in E. fold sg vw in E.
        destruct sg; simpl in E; [right; now apply Z.ltb_lt | now left].
    + rewrite wrap_testbit by lia. destruct (Z.ltb_spec i w); [|lia]. simpl. constructor.
Qed.

Definition int_rep (W : world) (a : addr) (x v : Z) : Prop :=
  rng (o_sg (W a)) (o_vw (W a)) v /\ x = wrap (o_w (W a)) v.

(** From storage words to values: the general argument. *)
Section Values.
  Context {V op : Type}.
  Variable bits : addr -> Z.
  Variable R : addr -> Z -> V -> Prop.
  Variable spec : addr -> V -> op -> iret -> V -> Prop.
  Notation wsp := (wspec R spec).

  Lemma front_values ob (enc dec : Z -> Z) mo a (c : op) o :
    (forall a, 0 < bits a) ->
    obj_ok ob -> bits a = o_w ob -> (forall v, inw (o_w ob) (enc v)) ->
    match o with BitTest _ i => 0 <= i < o_w ob | _ => True end ->
    (forall x v r x', R a x v -> raw ob enc dec x o r x' -> exists v', R a x' v' /\ spec a v c r v') ->
    LA wexec wsp (WInv bits) wrely wrely (front (obj_core ob) (obj_extra ob) enc dec mo a o)
       (fun s r s' => wsp s (a, c) r s') (fun s r => wsp s (a, c) r s).
  Proof.
    intros Hpos Hob Hb Henc Hbit H. eapply LA_weaken; [apply (front_raw_ok bits Hpos wsp ob enc dec mo a o); auto| |].
    - intros m s r s' _ (x' & [E1 E2] & Hr). split; simpl; [|exact E2].
      intros v Hv. rewrite E1. eapply H; eauto.
    - intros m s r _ Hr. split; simpl; auto. intros v Hv. eapply H; eauto.
  Qed.
End Values.

Section IntFront.
  Variable W : world.
  Hypothesis HW : forall a, obj_ok (W a).
  Let bits := fun a => o_w (W a).
  Let bits_pos : forall a, 0 < bits a.
  Proof. intros a. destruct (HW a). unfold bits. lia. Qed.
  Notation wsp := (wspec (int_rep W) (int_spec W)).
  Notation LA := (LA wexec wsp (WInv bits) wrely wrely).

  Lemma int_prog_ok c : icall_ok W c ->
    LA (int_impl W c) (fun s r s' => wsp s c r s') (fun s r => wsp s c r s).
  Proof.
    destruct c as [a [mo o]]. intros Hok. unfold int_impl, int_prog, int_front. simpl fst; simpl snd.
    rewrite (obj_core_bits (W a) (HW a)).
    apply (front_values bits (int_rep W) (int_spec W)); auto.
    - intros v. apply wrap_range. apply Z.lt_le_incl. apply (bits_pos a).
    - destruct Hok as [Ho _]. destruct o; auto. simpl in Ho. destruct (HW a). lia.
    - intros x v r x' [Hv ->] Hr. destruct (raw_int (W a) o r v x' (HW a) Hok Hv Hr) as (v' & A & B & C).
      exists v'. split; [split|]; auto.
  Qed.

  Theorem int_linearizable_aux (v0 n0 : addr -> Z) (l : list (sched luck icall)) :
    (forall a, rng (o_sg (W a)) (o_vw (W a)) (v0 a)) ->
    legal (icall_ok W) l ->
    let res := run wexec (int_impl W) (start (int_mem W v0 n0)) l in
    exists v th,
      linearizable_to (objects (int_spec W)) v0 (snd res) v th /\
      (forall a, int_rep W a (val (c_mem (fst res) a)) (v a)) /\
      (forall t, match c_thr (fst res) t with Idle => th t = PIdle | Run _ _ => th t <> PIdle end).
  Proof.
    intros Hv Hl. apply (front_sound bits (int_rep W) (int_impl W) (int_spec W) (icall_ok W)).
    - apply int_prog_ok.
    - intros a. simpl. rewrite (obj_core_bits (W a) (HW a)). split.
      + apply wrap_range. destruct (HW a). unfold bits. lia.
      + split; auto.
    - exact Hl.
  Qed.
End IntFront.

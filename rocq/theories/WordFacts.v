(** * Facts about words (proofs only). *)
From Coq Require Import ZArith Bool Lia.
From Verif Require Import SpecInt Conv.
Open Scope Z_scope.

Lemma pow2_gt0 n : 0 <= n -> 0 < 2 ^ n.
Proof. intros. apply Z.pow_pos_nonneg; lia. Qed.

Lemma pow2_half n : 0 < n -> 2 ^ n = 2 * 2 ^ (n - 1).
Proof. intros. rewrite <- Z.pow_succ_r by lia. f_equal. lia. Qed.

Lemma wrap_range n x : 0 <= n -> 0 <= wrap n x < 2 ^ n.
Proof. intros. apply Z.mod_pos_bound. now apply pow2_gt0. Qed.

Lemma wrap_id n x : 0 <= x < 2 ^ n -> wrap n x = x.
Proof. intros. now apply Z.mod_small. Qed.

Lemma wrap_wrap n x : wrap n (wrap n x) = wrap n x.
Proof. unfold wrap. apply Zmod_mod. Qed.

Lemma wrap_wrap_le n k x : 0 <= n <= k -> wrap n (wrap k x) = wrap n x.
Proof.
  intros. unfold wrap. symmetry. apply Znumtheory.Zmod_div_mod.
  - apply pow2_gt0; lia.
  - apply pow2_gt0; lia.
  - exists (2 ^ (k - n)). rewrite <- Z.pow_add_r by lia. f_equal. lia.
Qed.

Lemma wrap_add_l n x y : wrap n (wrap n x + y) = wrap n (x + y).
Proof. unfold wrap. apply Zplus_mod_idemp_l. Qed.
Lemma wrap_add_r n x y : wrap n (x + wrap n y) = wrap n (x + y).
Proof. unfold wrap. apply Zplus_mod_idemp_r. Qed.
Lemma wrap_sub_l n x y : wrap n (wrap n x - y) = wrap n (x - y).
Proof. unfold wrap. apply Zminus_mod_idemp_l. Qed.
Lemma wrap_sub_r n x y : wrap n (x - wrap n y) = wrap n (x - y).
Proof. unfold wrap. apply Zminus_mod_idemp_r. Qed.
Lemma wrap_opp n x : wrap n (- wrap n x) = wrap n (- x).
Proof. change (- wrap n x) with (0 - wrap n x). change (- x) with (0 - x). apply wrap_sub_r. Qed.

Lemma wrap_congr n x y : 0 <= n -> (wrap n x = wrap n y <-> exists q, x = y + q * 2 ^ n).
Proof.
  intros Hn. assert (H0 := pow2_gt0 n Hn). unfold wrap. split.
  - intros H. exists (x / 2 ^ n - y / 2 ^ n).
    rewrite (Z.div_mod x (2 ^ n)) at 1 by lia. rewrite (Z.div_mod y (2 ^ n)) at 1 by lia. rewrite H. ring.
  - intros [q ->]. apply Z_mod_plus_full.
Qed.

(** bits of a wrapped number *)
Lemma wrap_testbit n x i : 0 <= n -> 0 <= i -> Z.testbit (wrap n x) i = (i <? n) && Z.testbit x i.
Proof.
  intros Hn Hi. unfold wrap. destruct (Z.ltb_spec i n).
  - now rewrite Z.mod_pow2_bits_low.
  - now rewrite Z.mod_pow2_bits_high by lia.
Qed.

Ltac bits :=
  apply Z.bits_inj'; intros i Hi;
  rewrite ?wrap_testbit, ?Z.land_spec, ?Z.lor_spec, ?Z.lxor_spec, ?Z.lnot_spec, ?wrap_testbit by lia;
  repeat match goal with |- context [?i <? ?n] => destruct (Z.ltb_spec i n) end;
  repeat match goal with |- context [Z.testbit ?x ?i] => destruct (Z.testbit x i) end; simpl; auto; try lia.

Lemma wrap_land n x y : 0 <= n -> wrap n (Z.land x y) = Z.land (wrap n x) (wrap n y).
Proof. intros. bits. Qed.
Lemma wrap_lor n x y : 0 <= n -> wrap n (Z.lor x y) = Z.lor (wrap n x) (wrap n y).
Proof. intros. bits. Qed.
Lemma wrap_lxor n x y : 0 <= n -> wrap n (Z.lxor x y) = Z.lxor (wrap n x) (wrap n y).
Proof. intros. bits. Qed.
Lemma wrap_lnot_wrap n x : 0 <= n -> wrap n (Z.lnot (wrap n x)) = wrap n (Z.lnot x).
Proof. intros. bits. Qed.
Lemma wrap_lnot_lxor n x : 0 <= n -> wrap n (Z.lnot x) = Z.lxor (wrap n x) (wrap n (-1)).
Proof. intros. replace (Z.lnot x) with (Z.lxor x (-1)) by apply Z.lxor_m1_r. now apply wrap_lxor. Qed.

(** ** [norm] *)
Lemma norm_rng sg n x : 0 < n -> rng sg n (norm sg n x).
Proof.
  intros Hn. unfold rng, norm. destruct sg.
  - rewrite (pow2_half n Hn). pose proof (pow2_gt0 (n - 1)).
    pose proof (Z.mod_pos_bound (x + 2 ^ (n - 1)) (2 * 2 ^ (n - 1))). lia.
  - apply Z.mod_pos_bound. apply pow2_gt0. lia.
Qed.

Lemma norm_id sg n x : 0 < n -> rng sg n x -> norm sg n x = x.
Proof.
  intros Hn H. unfold rng, norm in *. destruct sg.
  - rewrite Z.mod_small; [lia|]. rewrite (pow2_half n Hn). lia.
  - now apply Z.mod_small.
Qed.

Lemma norm_wrap sg n x : 0 < n -> wrap n (norm sg n x) = wrap n x.
Proof.
  intros Hn. unfold norm, wrap. destruct sg.
  - rewrite Zminus_mod_idemp_l. f_equal. lia.
  - apply Zmod_mod.
Qed.

Lemma norm_congr sg n x y : 0 < n -> wrap n x = wrap n y -> norm sg n x = norm sg n y.
Proof.
  intros Hn H. unfold norm, wrap in *. destruct sg; [|exact H].
  f_equal. rewrite <- (Zplus_mod_idemp_l x), H, Zplus_mod_idemp_l. reflexivity.
Qed.

Lemma norm_inj sg n x y : 0 < n -> rng sg n x -> rng sg n y -> wrap n x = wrap n y -> x = y.
Proof.
  intros Hn Hx Hy H. rewrite <- (norm_id sg n x), <- (norm_id sg n y) by auto. now apply norm_congr.
Qed.

Lemma sval_norm n x : 0 < n -> 0 <= x < 2 ^ n -> sval n x = norm true n x.
Proof.
  intros Hn H. pose proof (pow2_half n Hn) as Hh. unfold sval, norm.
  destruct (Z.ltb_spec x (2 ^ (n - 1))).
  - rewrite Z.mod_small; lia.
  - rewrite <- (Z_mod_plus_full _ (-1)). rewrite Z.mod_small; lia.
Qed.

Lemma zero_extend_norm sg ni no x :
  0 < no -> 0 <= ni -> zero_extend sg ni no x = norm sg no (wrap ni x).
Proof.
  intros Hn Hi. unfold zero_extend. destruct sg.
  - rewrite sval_norm; [|lia|apply wrap_range; lia]. apply norm_congr; [lia|]. apply wrap_wrap.
  - reflexivity.
Qed.

Lemma truncate_norm sg ni no x :
  0 < no <= ni -> integral_truncate sg ni no x = norm sg no x.
Proof.
  intros Hn. unfold integral_truncate. rewrite zero_extend_norm by lia.
  apply norm_congr; [lia|]. apply wrap_wrap_le. lia.
Qed.

(** extending an [ni]-bit word to a wider word gives the word of the same value *)
Lemma extend_norm sg ni no x :
  0 < ni <= no -> 0 <= x < 2 ^ ni ->
  integral_extend sg false ni no x = wrap no (norm sg ni x).
Proof.
  intros Hn Hx. unfold integral_extend. destruct sg.
  - unfold sign_extend. destruct (Z.leb_spec no ni).
    + assert (no = ni) by lia. subst. unfold integral_truncate, zero_extend.
      rewrite wrap_wrap. symmetry. now apply norm_wrap.
    + rewrite sval_norm by lia. reflexivity.
  - unfold zero_extend. change (norm false ni x) with (wrap ni x). reflexivity.
Qed.

(** the canonical storage word of a value *)
Lemma enc_dec sg n w x : 0 < n <= w -> rng sg n x -> integral_truncate sg w n (wrap w x) = x.
Proof.
  intros Hn Hx. rewrite truncate_norm by lia.
  rewrite <- (norm_id sg n x) at 2 by (auto; lia). apply norm_congr; [lia|]. apply wrap_wrap_le. lia.
Qed.

Lemma enc_inj sg n w x y : 0 < n <= w -> rng sg n x -> rng sg n y -> wrap w x = wrap w y -> x = y.
Proof.
  intros Hn Hx Hy H. eapply norm_inj with (sg := sg) (n := n); auto; [lia|].
  rewrite <- (wrap_wrap_le n w x), <- (wrap_wrap_le n w y), H by lia. reflexivity.
Qed.

(** the canonical encoding is compatible with bitwise operators *)
Lemma rng_bin_bitwise sg n b x v :
  0 < n -> b = And \/ b = Or \/ b = Xor -> rng sg n x -> rng sg n v ->
  norm sg n (bin_apply b x v) = bin_apply b x v.
Proof.
  intros Hn Hb Hx Hv. apply norm_id; auto.
  destruct sg.
  - (* signed: all bits from n-1 upwards agree *)
    assert (Hbits : forall y, rng true n y <-> (forall i, n - 1 <= i -> Z.testbit y i = (y <? 0))).
    { intros y. unfold rng. pose proof (pow2_gt0 (n - 1) ltac:(lia)) as Hp. split.
      - intros Hy i Hi. destruct (Z.ltb_spec y 0).
        + replace y with (Z.lnot (Z.lnot y)) by apply Z.lnot_involutive.
          rewrite Z.lnot_spec by lia.
          assert (0 <= Z.lnot y < 2 ^ (n - 1)) by (unfold Z.lnot; lia).
          rewrite <- (Z.mod_small (Z.lnot y) (2 ^ (n - 1))) by lia.
          rewrite Z.mod_pow2_bits_high by lia. reflexivity.
        + rewrite <- (Z.mod_small y (2 ^ (n - 1))) by lia.
          rewrite Z.mod_pow2_bits_high by lia. reflexivity.
      - intros H. destruct (Z.ltb_spec y 0).
        + assert (E : Z.lnot y mod 2 ^ (n - 1) = Z.lnot y).
          { apply Z.bits_inj'. intros i Hi. destruct (Z_lt_dec i (n - 1)).
            - now rewrite Z.mod_pow2_bits_low by lia.
            - rewrite Z.mod_pow2_bits_high by lia. rewrite Z.lnot_spec by lia.
              rewrite H by lia. reflexivity. }
          pose proof (Z.mod_pos_bound (Z.lnot y) (2 ^ (n - 1)) Hp). unfold Z.lnot in *. lia.
        + assert (E : y mod 2 ^ (n - 1) = y).
          { apply Z.bits_inj'. intros i Hi. destruct (Z_lt_dec i (n - 1)).
            - now rewrite Z.mod_pow2_bits_low by lia.
            - rewrite Z.mod_pow2_bits_high by lia. rewrite H by lia. reflexivity. }
          pose proof (Z.mod_pos_bound y (2 ^ (n - 1)) Hp). lia. }
    apply Hbits. rewrite Hbits in Hx, Hv. intros i Hi.
    assert (Hs : forall y, (y <? 0) = negb (0 <=? y)) by (intros y; destruct (Z.ltb_spec y 0), (Z.leb_spec 0 y); auto; lia).
    destruct Hb as [-> | [-> | ->]]; simpl.
    + rewrite Z.land_spec, Hx, Hv by lia.
      destruct (Z.ltb_spec x 0), (Z.ltb_spec v 0), (Z.ltb_spec (Z.land x v) 0); auto;
        rewrite ?Z.land_neg in *; pose proof (Z.land_nonneg x v); try lia.
    + rewrite Z.lor_spec, Hx, Hv by lia.
      destruct (Z.ltb_spec x 0), (Z.ltb_spec v 0), (Z.ltb_spec (Z.lor x v) 0); auto;
        pose proof (Z.lor_nonneg x v); pose proof (Z.lor_neg x v); try lia.
    + rewrite Z.lxor_spec, Hx, Hv by lia.
      pose proof (Z.lxor_nonneg x v).
      destruct (Z.ltb_spec x 0), (Z.ltb_spec v 0), (Z.ltb_spec (Z.lxor x v) 0); auto; simpl; try lia.
  - unfold rng in *.
    assert (E : wrap n (bin_apply b x v) = bin_apply b x v).
    { rewrite <- (wrap_id n x), <- (wrap_id n v) by lia.
      destruct Hb as [-> | [-> | ->]]; simpl;
        [rewrite wrap_land | rewrite wrap_lor | rewrite wrap_lxor]; try lia; now rewrite !wrap_wrap. }
    rewrite <- E. apply wrap_range. lia.
Qed.

(** * Proofs about byte-level conversions, storage sizes, raw storage and integer conversions *)
From Coq Require Import ZArith List Bool Arith Lia.
From Verif Require Import SpecInt SpecLin SpecTyped SpecBytes BytesModel Conv WordFacts Prog Word IntModel TypedModel TypedProof TypedConseq.
Import ListNotations.
Open Scope Z_scope.

(** ** Lists of bytes as numbers *)
Lemma pow256 n : 256 ^ Z.of_nat n = 2 ^ (8 * Z.of_nat n).
Proof. rewrite Z.pow_mul_r by lia. reflexivity. Qed.
Lemma pow256_S n : 256 ^ Z.of_nat (S n) = 256 * 256 ^ Z.of_nat n.
Proof. rewrite Nat2Z.inj_succ, Z.pow_succ_r by lia. reflexivity. Qed.

Lemma little_app l r : little (l ++ r) = little l + 256 ^ Z.of_nat (length l) * little r.
Proof.
  induction l as [|b l IH]; [cbn [length app little]; change (256 ^ Z.of_nat 0) with 1; lia|].
  cbn [length app little]. rewrite IH, pow256_S. lia.
Qed.
Lemma little_range l : Forall is_byte l -> 0 <= little l < 256 ^ Z.of_nat (length l).
Proof.
  induction 1 as [|b l Hb H IH]; [cbn; lia|]. cbn [length little]. rewrite pow256_S. unfold is_byte in Hb. lia.
Qed.
Lemma little_zeros n : little (zeros n) = 0.
Proof. induction n; [reflexivity|]. change (zeros (S n)) with (0 :: zeros n). cbn [little]. lia. Qed.

Lemma number_range be l : Forall is_byte l -> 0 <= number be l < 256 ^ Z.of_nat (length l).
Proof.
  intros H. unfold number. destruct be.
  - rewrite <- (rev_length l). apply little_range. now apply Forall_rev.
  - now apply little_range.
Qed.

Lemma digits_length n x : length (digits n x) = n.
Proof. revert x; induction n; intros x; cbn [digits length]; auto. Qed.
Lemma digits_bytes n x : Forall is_byte (digits n x).
Proof. revert x; induction n; intros x; cbn [digits]; constructor; auto. unfold is_byte. apply Z.mod_pos_bound. lia. Qed.
Lemma little_digits n x : 0 <= x < 256 ^ Z.of_nat n -> little (digits n x) = x.
Proof.
  revert x; induction n as [|n IH]; intros x Hx.
  - change (256 ^ Z.of_nat 0) with 1 in Hx. cbn. lia.
  - rewrite pow256_S in Hx. cbn [digits little]. rewrite IH.
    + pose proof (Z.div_mod x 256). lia.
    + split; [apply Z.div_pos; lia|]. apply Z.div_lt_upper_bound; lia.
Qed.
Lemma digits_little l : Forall is_byte l -> digits (length l) (little l) = l.
Proof.
  induction 1 as [|b l Hb H IH]; [reflexivity|]. cbn [length digits little]. unfold is_byte in Hb.
  rewrite (Z.mul_comm 256), Z_mod_plus_full, Z.mod_small by lia. f_equal.
  rewrite Z.div_add, Z.div_small by lia. exact IH.
Qed.
Lemma number_bytes be n x : 0 <= x < 256 ^ Z.of_nat n -> number be (bytes be n x) = x.
Proof. intros H. unfold number, bytes. destruct be; [rewrite rev_involutive|]; now apply little_digits. Qed.
Lemma bytes_number be l : Forall is_byte l -> bytes be (length l) (number be l) = l.
Proof.
  intros H. unfold number, bytes. destruct be; [|now apply digits_little].
  rewrite <- (rev_length l), digits_little by now apply Forall_rev. apply rev_involutive.
Qed.
Lemma bytes_object be n x : object n (bytes be n x).
Proof.
  unfold object, bytes. destruct be; [rewrite rev_length|]; rewrite digits_length; split; auto.
  - apply Forall_rev, digits_bytes.
  - apply digits_bytes.
Qed.

(** ** clear_padding is the specification's [without_padding] *)
Lemma clear_padding_eq masks l : length masks = length l -> clear_padding masks l = without_padding masks l.
Proof.
  unfold without_padding. revert masks; induction l as [|b l IH]; intros [|m masks] E; try discriminate; [reflexivity|].
  cbn [clear_padding combine map fst snd]. f_equal. apply IH. now injection E.
Qed.
Lemma without_length masks l : length masks = length l -> length (without_padding masks l) = length l.
Proof. intros E. unfold without_padding. rewrite map_length, combine_length. lia. Qed.
Lemma land_byte b m : is_byte b -> is_byte (Z.land b m).
Proof. intros H. apply (land_pattern 8 b m); [lia|exact H]. Qed.
Lemma without_bytes masks l : Forall is_byte l -> Forall is_byte (without_padding masks l).
Proof.
  intros H. unfold without_padding. revert masks; induction H as [|b l Hb H IH]; intros [|m masks]; constructor; auto.
  now apply land_byte.
Qed.

(** ** bitwise_cast *)
Definition cast_source (clr : option (list Z)) (from : list Z) : list Z :=
  match clr with Some m => without_padding m from | None => from end.
Definition clr_ok (clr : option (list Z)) (from : list Z) : Prop :=
  match clr with Some m => length m = length from | None => True end.
Lemma cast_source_length clr from : clr_ok clr from -> length (cast_source clr from) = length from.
Proof. destruct clr; cbn; auto. apply without_length. Qed.

Lemma cast_eq clr k junk from : clr_ok clr from -> (k <= length from)%nat ->
  bitwise_cast_memcpy clr k junk from =
    Some (firstn (length junk) (firstn k (cast_source clr from) ++ zeros (length junk - k))).
Proof.
  intros Hc Hk. pose proof (cast_source_length clr from Hc) as L.
  unfold bitwise_cast_memcpy.
  replace (match clr with Some m => clear_padding m from | None => from end) with (cast_source clr from)
    by (destruct clr; cbn; auto; now rewrite clear_padding_eq).
  set (src := cast_source clr from) in *. clearbody src. clear Hc clr.
  destruct (Nat.ltb_spec k (length junk)) as [H|H].
  - unfold memcpy.
    assert (E : (k <=? length junk)%nat && (k <=? length src)%nat = true)
      by (apply andb_true_intro; split; apply Nat.leb_le; lia).
    rewrite E. unfold memset0.
    assert (La : length (firstn k src) = k) by (rewrite firstn_length; lia).
    assert (Lb : length (firstn k src ++ skipn k junk) = length junk)
      by (rewrite app_length, La, skipn_length; lia).
    rewrite Lb. replace (k + (length junk - k))%nat with (length junk) by lia.
    rewrite Nat.leb_refl. f_equal.
    rewrite (skipn_all2 (firstn k src ++ skipn k junk)) by lia. rewrite app_nil_r.
    rewrite firstn_app, La, Nat.sub_diag, firstn_firstn, Nat.min_id. cbn [firstn]. rewrite app_nil_r.
    rewrite (firstn_all2 (firstn k src ++ _)); [reflexivity|]. rewrite app_length, La. unfold zeros. rewrite repeat_length. lia.
  - unfold memcpy.
    assert (E : (length junk <=? length junk)%nat && (length junk <=? length src)%nat = true)
      by (apply andb_true_intro; split; apply Nat.leb_le; lia).
    rewrite E. f_equal. rewrite skipn_all, app_nil_r.
    replace (length junk - k)%nat with O by lia. cbn [zeros repeat]. rewrite app_nil_r.
    rewrite firstn_firstn. f_equal. lia.
Qed.

Lemma cast_in clr k junk from : clr_ok clr from -> (k <= length from)%nat -> (k <= length junk)%nat ->
  bitwise_cast_memcpy clr k junk from = Some (firstn k (cast_source clr from) ++ zeros (length junk - k)).
Proof.
  intros Hc Hk Hj. rewrite cast_eq by auto. f_equal. apply firstn_all2.
  rewrite app_length, firstn_length, cast_source_length by auto. unfold zeros. rewrite repeat_length. lia.
Qed.
Lemma cast_out k junk from : (length junk <= k <= length from)%nat ->
  bitwise_cast_memcpy None k junk from = Some (firstn (length junk) from).
Proof.
  intros H. rewrite cast_eq by (cbn; auto; lia). f_equal. cbn [cast_source].
  replace (length junk - k)%nat with O by lia. cbn [zeros repeat]. rewrite app_nil_r, firstn_firstn. f_equal. lia.
Qed.

(** Storing then reading back, at sizes [n <= s]. *)
Lemma round_trip_aux clr n s junk back v :
  length v = n -> (n <= s)%nat -> length junk = s -> length back = n -> clr_ok clr v ->
  exists st, bitwise_cast_memcpy clr n junk v = Some st /\
    st = cast_source clr v ++ zeros (s - n) /\
    bitwise_cast_memcpy None s back st = Some (cast_source clr v).
Proof.
  intros Lv Hn Lj Lb Hc. pose proof (cast_source_length clr v Hc) as L.
  exists (cast_source clr v ++ zeros (s - n)). rewrite cast_in by (auto; lia).
  rewrite Lj, firstn_all2 by lia. split; [reflexivity|]. split; [reflexivity|].
  rewrite cast_out; [|rewrite app_length; unfold zeros; rewrite repeat_length; lia].
  f_equal. rewrite firstn_app, firstn_all2 by lia. replace (length back - length (cast_source clr v))%nat with O by lia.
  cbn [firstn]. apply app_nil_r.
Qed.

(** ** Equality up to padding *)
Lemma land_same m a b : (forall k, 0 <= k -> Z.testbit m k = true -> Z.testbit a k = Z.testbit b k) <-> Z.land a m = Z.land b m.
Proof.
  split.
  - intros H. apply Z.bits_inj'. intros k Hk. rewrite !Z.land_spec. destruct (Z.testbit m k) eqn:E.
    + now rewrite H.
    + now rewrite !andb_false_r.
  - intros H k Hk E. apply (f_equal (fun z => Z.testbit z k)) in H. rewrite !Z.land_spec, E, !andb_true_r in H. exact H.
Qed.
Lemma same_value_aux masks l1 l2 : length l1 = length masks -> length l2 = length masks ->
  (same_value masks l1 l2 <-> without_padding masks l1 = without_padding masks l2).
Proof.
  unfold same_value, without_padding. revert l1 l2; induction masks as [|m masks IH]; intros [|a l1] [|b l2] L1 L2; try discriminate.
  - split; auto. intros _ i ? ? ? E. destruct i; discriminate.
  - injection L1 as L1. injection L2 as L2. specialize (IH l1 l2 L1 L2). cbn [combine map fst snd]. split.
    + intros H. f_equal.
      * apply land_same. apply (H O a b m); reflexivity.
      * apply IH. intros i. apply (H (S i)).
    + intros H [|i] b1 b2 m' E1 E2 E3; cbn in E1, E2, E3.
      * injection E1 as <-. injection E2 as <-. injection E3 as <-. apply land_same. congruence.
      * apply (proj2 IH) with i; auto. congruence.
Qed.

(** ** The integer view: [place] and [unplace] of TypedModel.v *)
Lemma Forall_firstn k l : Forall is_byte l -> Forall is_byte (firstn k l).
Proof. intros H. rewrite <- (firstn_skipn k l) in H. apply Forall_app in H. apply H. Qed.
Lemma little_firstn k l : (k <= length l)%nat -> Forall is_byte l -> little (firstn k l) = little l mod 256 ^ Z.of_nat k.
Proof.
  intros Hk Hl. rewrite <- (firstn_skipn k l) at 2. rewrite little_app.
  assert (L : length (firstn k l) = k) by (rewrite firstn_length; lia). rewrite L.
  rewrite (Z.mul_comm (256 ^ _)), Z_mod_plus_full, Z.mod_small; [reflexivity|].
  pose proof (little_range (firstn k l) (Forall_firstn k l Hl)) as R. now rewrite L in R.
Qed.
Lemma little_skipn k l : (k <= length l)%nat -> Forall is_byte l -> little (skipn k l) = little l / 256 ^ Z.of_nat k.
Proof.
  intros Hk Hl. rewrite <- (firstn_skipn k l) at 2. rewrite little_app.
  assert (L : length (firstn k l) = k) by (rewrite firstn_length; lia). rewrite L.
  assert (R : 0 <= little (firstn k l) < 256 ^ Z.of_nat k)
    by (pose proof (little_range (firstn k l) (Forall_firstn k l Hl)) as R; now rewrite L in R).
  rewrite (Z.mul_comm (256 ^ _)), Z.div_add by lia. rewrite Z.div_small by lia. lia.
Qed.

Lemma place_bytes be n s v : object n v -> (n <= s)%nat ->
  number be (v ++ zeros (s - n)) = place be (8 * Z.of_nat s) (8 * Z.of_nat n) (number be v).
Proof.
  intros [L B] Hn. destruct (Nat.eq_dec s 0) as [->|Hs].
  { assert (n = 0)%nat by lia. subst n. rewrite H in *. destruct v; [|discriminate]. destruct be; reflexivity. }
  assert (R := number_range be v B). rewrite L, pow256 in R.
  assert (P : 2 ^ (8 * Z.of_nat n) <= 2 ^ (8 * Z.of_nat s)) by (apply Z.pow_le_mono_r; lia).
  unfold place, number in *. destruct be.
  - rewrite rev_app_distr, little_app, rev_length. unfold zeros at 2. rewrite repeat_length.
    replace (rev (zeros (s - n))) with (zeros (s - n)).
    2:{ unfold zeros. clear. induction (s - n)%nat as [|k IH]; [reflexivity|]. cbn [repeat rev]. rewrite <- IH.
        clear. induction k; cbn; congruence. }
    rewrite little_zeros, pow256.
    replace (8 * Z.of_nat (s - n)) with (8 * Z.of_nat s - 8 * Z.of_nat n) by lia.
    rewrite wrap_id; [lia|].
    assert (E : 2 ^ (8 * Z.of_nat s) = 2 ^ (8 * Z.of_nat n) * 2 ^ (8 * Z.of_nat s - 8 * Z.of_nat n))
      by (rewrite <- Z.pow_add_r by lia; f_equal; lia).
    rewrite E. assert (0 < 2 ^ (8 * Z.of_nat s - 8 * Z.of_nat n)) by (apply pow2_gt0; lia). nia.
  - rewrite little_app, little_zeros, wrap_id by lia. lia.
Qed.

Lemma unplace_bytes be n s x : object s x -> (n <= s)%nat ->
  number be (firstn n x) = unplace be (8 * Z.of_nat s) (8 * Z.of_nat n) (number be x).
Proof.
  intros [L B] Hn. unfold unplace, number, wrap. destruct be.
  - replace (rev (firstn n x)) with (skipn (s - n) (rev x)).
    2:{ rewrite skipn_rev. f_equal. f_equal. lia. }
    rewrite little_skipn; [|rewrite rev_length; lia|now apply Forall_rev].
    rewrite pow256. do 2 f_equal. lia.
  - rewrite little_firstn by (auto; lia). now rewrite pow256.
Qed.

(** ** Storage words of plain values: the tail is zero at every step of every execution *)
Lemma place_tail be n s v : (n <= s)%nat -> pattern (8 * Z.of_nat n) v ->
  bytes be s (place be (8 * Z.of_nat s) (8 * Z.of_nat n) v) = bytes be n v ++ zeros (s - n).
Proof.
  intros Hn Hv. unfold pattern in Hv. rewrite <- pow256 in Hv.
  pose proof (bytes_object be n v) as [L B].
  rewrite <- (number_bytes be n v Hv) at 1. rewrite <- place_bytes by (auto; split; auto).
  assert (Ls : length (bytes be n v ++ zeros (s - n)) = s)
    by (rewrite app_length, L; unfold zeros; rewrite repeat_length; lia).
  rewrite <- Ls at 1. apply bytes_number. apply Forall_app. split; auto.
  unfold zeros. clear. induction (s - n)%nat; constructor; auto. unfold is_byte. lia.
Qed.

Lemma tail_zero_aux W v0 n0 l a (n s : nat) :
  gen_world_ok W v0 -> legal (gcall_ok W) l ->
  g_vw (W a) = 8 * Z.of_nat n -> g_w (W a) = 8 * Z.of_nat s ->
  let res := gen_run W v0 n0 l in
  let stored := bytes (g_be (W a)) s (val (c_mem (fst res) a)) in
  skipn n stored = zeros (s - n) /\ number (g_be (W a)) (firstn n stored) = gen_shown W (c_mem (fst res)) a.
Proof.
  intros HW Hl En Es res stored.
  destruct (gen_main W v0 n0 l HW Hl) as (v & th & _ & H & _). fold res in H.
  destruct (H a) as (A & B & C). destruct (HW a) as (_ & Hvw & Hm & Hv0). rewrite En, Es in Hvw.
  assert (Hns : (n <= s)%nat) by lia.
  assert (Hp : pattern (8 * Z.of_nat n) (v a)).
  { rewrite <- B. unfold vbits. rewrite Z.land_comm. apply land_pattern; [lia|].
    unfold g_live. rewrite En in *. destruct (g_clear (W a)); auto.
    unfold pattern. rewrite Z.ones_equiv. assert (0 < 2 ^ (8 * Z.of_nat n)) by (apply pow2_gt0; lia). lia. }
  assert (Hst : stored = bytes (g_be (W a)) n (v a) ++ zeros (s - n)).
  { unfold stored. rewrite C, En, Es. now apply place_tail. }
  destruct (bytes_object (g_be (W a)) n (v a)) as [L _].
  rewrite Hst, A. split.
  - rewrite <- L at 1. rewrite skipn_app, skipn_all, Nat.sub_diag. reflexivity.
  - rewrite <- L at 1. rewrite firstn_app, firstn_all, Nat.sub_diag. cbn [firstn]. rewrite app_nil_r.
    apply number_bytes. unfold pattern in Hp. now rewrite pow256.
Qed.

(** ** Storage sizes *)
Ltac size_cases n :=
  unfold storage_size;
  destruct (Z.eqb_spec n 3); [|
  destruct ((5 <=? n) && (n <=? 7)) eqn:?E5; [|
  destruct ((9 <=? n) && (n <=? 15)) eqn:?E9]];
  repeat match goal with
  | H : _ && _ = true |- _ => apply andb_prop in H; destruct H
  | H : _ && _ = false |- _ => apply andb_false_iff in H
  | H : (_ <=? _) = true |- _ => apply Z.leb_le in H
  end.
Lemma storage_size_cases n : 1 <= n ->
  (16 < n /\ storage_size n = n) \/
  (n <= 16 /\ exists k, 0 <= k <= 4 /\ storage_size n = 2 ^ k /\ n <= 2 ^ k /\ (forall j, 0 <= j -> n <= 2 ^ j -> k <= j)).
Proof.
  intros Hn. destruct (Z_lt_dec 16 n) as [H|H].
  - left. split; auto. size_cases n; lia.
  - right. split; [lia|].
    assert (Hmin : forall k, 0 <= k -> (k = 0 \/ 2 ^ (k - 1) < n) -> forall j, 0 <= j -> n <= 2 ^ j -> k <= j).
    { intros k Hk [->|Hlt] j Hj Hle; [lia|]. destruct (Z_lt_dec j k); [|lia].
      assert (2 ^ j <= 2 ^ (k - 1)) by (apply Z.pow_le_mono_r; lia). lia. }
    assert (C : n = 1 \/ n = 2 \/ n = 3 \/ n = 4 \/ n = 5 \/ n = 6 \/ n = 7 \/ n = 8 \/ n = 9 \/ n = 10 \/ n = 11 \/ n = 12
      \/ n = 13 \/ n = 14 \/ n = 15 \/ n = 16) by lia.
    assert (G : forall m k, n = m -> 0 <= k <= 4 -> storage_size m = 2 ^ k -> m <= 2 ^ k -> (k = 0 \/ 2 ^ (k - 1) < m) ->
      exists k, 0 <= k <= 4 /\ storage_size n = 2 ^ k /\ n <= 2 ^ k /\ (forall j, 0 <= j -> n <= 2 ^ j -> k <= j)).
    { intros m k -> Hk E Hle Hlt. exists k. refine (conj Hk (conj E (conj Hle _))). apply Hmin; auto; lia. }
    repeat match goal with H : _ \/ _ |- _ => destruct H as [H|H] end;
      first [ eapply (G _ 0 C); cbn; lia | eapply (G _ 1 C); cbn; lia | eapply (G _ 2 C); cbn; lia
            | eapply (G _ 3 C); cbn; lia | eapply (G _ 4 C); cbn; lia ].
Qed.
Lemma storage_size_mono m n : 1 <= m <= n -> storage_size m <= storage_size n.
Proof.
  intros H. destruct (storage_size_cases m) as [[A B]|(A & k & Hk & E & L & M)]; [lia| |];
  destruct (storage_size_cases n) as [[A' B']|(A' & k' & Hk' & E' & L' & M')]; try lia.
  - assert (2 ^ k <= 2 ^ 4) by (apply Z.pow_le_mono_r; lia). change (2 ^ 4) with 16 in *. lia.
  - rewrite E, E'. apply Z.pow_le_mono_r; [lia|]. apply M; lia.
Qed.

(** ** Raw storage *)
Lemma memcmp_self n : forall a b, (n <= length a)%nat -> (n <= length b)%nat ->
  exists c, memcmp a b n = Some c /\ (c = 0 <-> firstn n a = firstn n b).
Proof.
  induction n as [|n IH]; intros a b Ha Hb; [exists 0; cbn; intuition|].
  destruct a as [|x a]; [cbn in Ha; lia|]. destruct b as [|y b]; [cbn in Hb; lia|]. cbn [length] in Ha, Hb. cbn [memcmp firstn].
  destruct (Z.eqb_spec x y) as [->|Hxy].
  - destruct (IH a b) as (c & E & I); try lia. exists c. split; auto. rewrite I. split; [congruence|]. intros H. now injection H.
  - eexists. split; [reflexivity|]. split; [|congruence]. destruct (x <? y); discriminate.
Qed.
Lemma buffer_eq_aux n a b : length a = n -> length b = n ->
  exists e, buffer_eq n a b = Some e /\ buffer_ne n a b = Some (negb e) /\ (e = true <-> a = b).
Proof.
  intros La Lb. destruct (memcmp_self n a b) as (c & E & I); try lia.
  unfold buffer_eq, buffer_ne. rewrite E. exists (c =? 0). split; auto. split; auto.
  rewrite Z.eqb_eq, I, !firstn_all2 by lia. tauto.
Qed.
Lemma shift_zero l : firstn (length l) (0 :: l) = l <-> all_zero l.
Proof.
  unfold all_zero. induction l as [|b l IH]; [split; [constructor|reflexivity]|]. cbn [length firstn]. split.
  - intros H. injection H as <- H. constructor; auto. apply IH. exact H.
  - intros H. inversion H as [|? ? E H']; subst. f_equal. now apply IH.
Qed.
Lemma buffer_not_aux l : l <> [] -> exists z, buffer_not l = Some z /\ (z = true <-> all_zero l).
Proof.
  destruct l as [|b l]; [congruence|]. intros _. unfold buffer_not.
  replace (length (b :: l) - 1)%nat with (length l) by (cbn; lia).
  destruct (Z.eqb_spec b 0) as [->|Hb].
  - destruct (memcmp_self (length l) (0 :: l) l) as (c & E & I); [cbn; lia|lia|]. rewrite E.
    exists (c =? 0). split; auto. rewrite Z.eqb_eq, I, (firstn_all l), shift_zero.
    unfold all_zero. split; [constructor; auto|]. now inversion 1.
  - exists false. split; auto. split; [discriminate|]. unfold all_zero. inversion 1. lia.
Qed.
Lemma buffer_copy_aux to from : length to = length from -> buffer_copy to from = Some from.
Proof.
  intros L. unfold buffer_copy, memcpy. rewrite L, Nat.leb_refl. cbn [andb]. rewrite firstn_all.
  rewrite skipn_all2 by lia. now rewrite app_nil_r.
Qed.

(** ** Integer conversions *)
Lemma truncate_aux sg w n x : 0 < n <= w -> 0 <= x < 2 ^ w -> integral_truncate sg w n x = norm sg n x.
Proof. intros; now apply truncate_norm. Qed.
Lemma extend_value sg out n w x : 0 < n <= w -> rng sg n x -> integral_extend sg out n w x = norm out w x.
Proof.
  intros Hn Hx. unfold integral_extend. destruct sg.
  - unfold sign_extend. destruct (Z.leb_spec w n).
    + assert (w = n) by lia. subst w. now rewrite truncate_norm by lia.
    + assert (E : sval n x = x).
      { unfold sval. unfold rng in Hx. destruct (Z.ltb_spec x (2 ^ (n - 1))); lia. }
      rewrite E. destruct out; [|reflexivity].
      rewrite sval_norm; [|lia|apply wrap_range; lia]. apply norm_congr; [lia|]. apply wrap_wrap.
  - rewrite zero_extend_norm by lia. apply norm_congr; [lia|]. unfold rng in Hx. now rewrite (wrap_id n x).
Qed.
Lemma canonical_aux sg w n x : 0 < n <= w -> 0 <= x < 2 ^ w ->
  (integral_extend sg false n w (integral_truncate sg w n x) = x <-> exists v, rng sg n v /\ x = norm false w v).
Proof.
  intros Hn Hx. rewrite truncate_norm by lia. rewrite extend_value by (auto; apply norm_rng; lia).
  change (norm false w) with (wrap w). split.
  - intros E. exists (norm sg n x). split; [apply norm_rng; lia|auto].
  - intros (v & Hv & ->). f_equal.
    transitivity (norm sg n v); [|apply norm_id; auto; lia]. apply norm_congr; [lia|]. apply wrap_wrap_le. lia.
Qed.

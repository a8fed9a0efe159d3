(** * Properties C13 (bytes), C14, C15 and C16: conversion of values to storage.

    Statements only.  Vocabulary: SpecBytes.v (byte sequences, padding), SpecInt.v ([rng], [norm]);
    the functions of BytesModel.v and Conv.v are the library's. *)
From Coq Require Import ZArith List Bool Arith Lia.
From Verif Require Import SpecInt SpecLin SpecTyped SpecBytes BytesModel Conv Order Prog Word IntModel TypedModel TypedCex BytesProof.
Import ListNotations.
Open Scope Z_scope.

(** ** C13: storing a value of [n] bytes into [s] bytes and reading it back *)
Theorem C13_bytes_round_trip :
  forall (n s : nat) (masks v junk back : list Z),
  object n v -> length masks = n -> (n <= s)%nat -> length junk = s -> length back = n ->
  exists st, bitwise_cast_memcpy (Some masks) n junk v = Some st /\ length st = s /\
    firstn n st = without_padding masks v /\ skipn n st = zeros (s - n) /\
    bitwise_cast_memcpy None s back st = Some (without_padding masks v).
Proof.
  intros n s masks v junk back [Lv Bv] Lm Hn Lj Lb.
  destruct (round_trip_aux (Some masks) n s junk back v Lv Hn Lj Lb) as (st & A & B & C); [cbn; congruence|].
  cbn [cast_source] in *. assert (L : length (without_padding masks v) = n) by (rewrite without_length; congruence).
  exists st. subst st. split; auto. split; [rewrite app_length, L; unfold zeros; rewrite repeat_length; lia|].
  refine (conj _ (conj _ C)).
  - rewrite <- L at 1. rewrite firstn_app, firstn_all, Nat.sub_diag. cbn [firstn]. apply app_nil_r.
  - rewrite <- L at 1. rewrite skipn_app, skipn_all, Nat.sub_diag. reflexivity.
Qed.

(** Without compiler support for clearing padding every byte of the value is kept as it is. *)
Theorem C13_bytes_round_trip_no_clear :
  forall (n s : nat) (v junk back : list Z),
  object n v -> (n <= s)%nat -> length junk = s -> length back = n ->
  bitwise_cast_memcpy None n junk v = Some (v ++ zeros (s - n)) /\
  bitwise_cast_memcpy None s back (v ++ zeros (s - n)) = Some v.
Proof.
  intros n s v junk back [Lv Bv] Hn Lj Lb.
  destruct (round_trip_aux None n s junk back v Lv Hn Lj Lb I) as (st & A & -> & C). auto.
Qed.

(** Two values have the same storage iff they agree on every bit that is not padding: a
    compare_exchange on the storage cannot tell them apart. *)
Theorem C13_same_storage_iff_same_value :
  forall (n s : nat) (masks v1 v2 junk1 junk2 : list Z),
  object n v1 -> object n v2 -> length masks = n -> (n <= s)%nat -> length junk1 = s -> length junk2 = s ->
  (bitwise_cast_memcpy (Some masks) n junk1 v1 = bitwise_cast_memcpy (Some masks) n junk2 v2 <-> same_value masks v1 v2).
Proof.
  intros n s masks v1 v2 j1 j2 [L1 B1] [L2 B2] Lm Hn Lj1 Lj2.
  rewrite !cast_in by (cbn; lia). rewrite Lj1, Lj2, !firstn_all2 by (cbn; rewrite without_length; lia).
  rewrite same_value_aux by lia. cbn [cast_source]. split; [|congruence].
  intros E. injection E as E. now apply app_inv_tail in E.
Qed.

(** A floating point type whose value occupies only the first [k] of its [n] bytes (the x87 type), without
    compiler support for clearing padding: the rest of the storage is zero whatever the rest of the object holds. *)
Theorem C13_float_tail_cleared :
  forall (k n s : nat) (v junk : list Z),
  object n v -> (k <= n <= s)%nat -> length junk = s ->
  bitwise_cast_memcpy None k junk v = Some (firstn k v ++ zeros (s - k)).
Proof. intros k n s v junk [L B] H Lj. rewrite cast_in by (cbn; auto; lia). now rewrite Lj. Qed.

(** The storage word, as a number, is the one TypedModel.v uses ([place]), and so is the way back ([unplace]). *)
Theorem C13_word_of_bytes :
  forall (be : bool) (n s : nat) (v st : list Z),
  (n <= s)%nat -> object n v -> object s st ->
  number be (v ++ zeros (s - n)) = place be (8 * Z.of_nat s) (8 * Z.of_nat n) (number be v) /\
  number be (firstn n st) = unplace be (8 * Z.of_nat s) (8 * Z.of_nat n) (number be st).
Proof. intros be n s v st H Hv Hst. split; [now apply place_bytes | now apply unplace_bytes]. Qed.

(** At every moment of every execution the storage bytes beyond [sizeof(T)] are zero, and the others are the value. *)
Theorem C13_tail_always_zero :
  forall (W : addr -> gobj) (v0 n0 : addr -> Z) (l : list (sched luck gcall)) (a : addr) (n s : nat),
  gen_world_ok W v0 -> legal (gcall_ok W) l ->
  g_vw (W a) = 8 * Z.of_nat n -> g_w (W a) = 8 * Z.of_nat s ->
  let res := gen_run W v0 n0 l in
  let stored := bytes (g_be (W a)) s (val (c_mem (fst res) a)) in
  skipn n stored = zeros (s - n) /\ number (g_be (W a)) (firstn n stored) = gen_shown W (c_mem (fst res)) a.
Proof. exact tail_zero_aux. Qed.

(** Three bytes in four, the middle byte padding; garbage everywhere. *)
Example C13_bytes_apply :
  object 3 [17; 119; 51] /\
  bitwise_cast_memcpy (Some [255; 0; 255]) 3 [9; 9; 9; 9] [17; 119; 51] = Some [17; 0; 51; 0] /\
  bitwise_cast_memcpy None 4 [7; 7; 7] [17; 0; 51; 0] = Some [17; 0; 51] /\
  same_value [255; 0; 255] [17; 119; 51] [17; 85; 51] /\ ~ same_value [255; 0; 255] [17; 119; 51] [17; 119; 50] /\
  number true [17; 0; 51; 0] = 0x11003300 /\ number false [17; 0; 51; 0] = 0x00330011.
Proof.
  refine (conj _ (conj _ (conj _ (conj _ (conj _ (conj _ _)))))); try reflexivity.
  - split; [reflexivity|]. repeat constructor; unfold is_byte; lia.
  - apply same_value_aux; reflexivity.
  - intros H. apply same_value_aux in H; try reflexivity. discriminate H.
Qed.
Example C13_tail_applies :
  let W := fun _ : addr => mkgobj (mkobj false 32 32 (KGccAtomic false) XGeneric) 24 true 0xff00ff true in
  let l := in_turn [at0 (GStore 0x117733)] in
  g_vw (W 0%nat) = 8 * Z.of_nat 3 /\ g_w (W 0%nat) = 8 * Z.of_nat 4 /\
  bytes true 4 (val (c_mem (fst (gen_run W (fun _ => 0) (fun _ => 0) l)) 0%nat)) = [17; 0; 51; 0].
Proof. vm_compute. auto. Qed.

(** ** C14 *)
Theorem C14_storage_size :
  forall n, 1 <= n ->
  n <= storage_size n < n + 8 /\
  (n <= 16 -> exists k, 0 <= k <= 4 /\ storage_size n = 2 ^ k /\ (forall j, 0 <= j -> n <= 2 ^ j -> k <= j)) /\
  (16 < n -> storage_size n = n) /\
  (forall m, n <= m -> storage_size n <= storage_size m).
Proof.
  intros n Hn. refine (conj _ (conj _ (conj _ _))).
  - size_cases n; lia.
  - intros H. destruct (storage_size_cases n Hn) as [[A _]|(_ & k & A & B & _ & C)]; [lia|]. exists k. auto.
  - intros H. destruct (storage_size_cases n Hn) as [[_ A]|[A _]]; [auto|lia].
  - intros m Hm. apply storage_size_mono. lia.
Qed.
Example C14_applies : map storage_size [1; 3; 5; 8; 9; 15; 16; 17; 24] = [1; 4; 8; 8; 16; 16; 16; 17; 24].
Proof. reflexivity. Qed.

(** ** C15 *)
Theorem C15_buffer_compares_by_value :
  forall (n : nat) (a b : list Z), (1 <= n)%nat -> length a = n -> length b = n ->
  exists e z, buffer_eq n a b = Some e /\ buffer_ne n a b = Some (negb e) /\ buffer_not a = Some z /\
    (e = true <-> a = b) /\ (z = true <-> all_zero a) /\ buffer_copy a b = Some b.
Proof.
  intros n a b Hn La Lb. destruct (buffer_eq_aux n a b La Lb) as (e & A & B & C).
  destruct (buffer_not_aux a) as (z & D & E); [destruct a; cbn in *; [lia|congruence]|].
  exists e, z. repeat (split; auto). apply buffer_copy_aux. congruence.
Qed.
Example C15_applies :
  buffer_not (zeros 20) = Some true /\ buffer_not (zeros 19 ++ [1]) = Some false /\
  buffer_not (repeat 5 20) = Some false /\ buffer_eq 2 [1; 2] [1; 3] = Some false /\ buffer_ne 2 [1; 2] [1; 3] = Some true.
Proof. vm_compute. auto. Qed.

(** ** C16: [w] storage bits, [n] value bits; [sg] signedness of the value type, [out] of the output type *)
Theorem C16_truncation :
  forall sg w n x, 0 < n <= w -> 0 <= x < 2 ^ w ->
  let y := integral_truncate sg w n x in
  rng sg n y /\ (exists q, y = x + q * 2 ^ n) /\ (rng sg n x -> y = x).
Proof.
  intros sg w n x Hn Hx y. unfold y. rewrite truncate_aux by auto.
  refine (conj _ (conj _ _)); [apply WordFacts.norm_rng; lia| |intros; apply WordFacts.norm_id; auto; lia].
  apply WordFacts.wrap_congr; [lia|]. apply WordFacts.norm_wrap. lia.
Qed.
Theorem C16_extension :
  forall sg out n w x, 0 < n <= w -> rng sg n x ->
  let y := integral_extend sg out n w x in
  rng out w y /\ (exists q, y = x + q * 2 ^ w) /\ (rng out w x -> y = x).
Proof.
  intros sg out n w x Hn Hx y. unfold y. rewrite extend_value by auto.
  refine (conj _ (conj _ _)); [apply WordFacts.norm_rng; lia| |intros; apply WordFacts.norm_id; auto; lia].
  apply WordFacts.wrap_congr; [lia|]. apply WordFacts.norm_wrap. lia.
Qed.
Theorem C16_truncate_after_extend :
  forall sg n w x, 0 < n <= w -> rng sg n x ->
  integral_truncate sg w n (integral_extend sg false n w x) = x.
Proof. intros sg n w x Hn Hx. rewrite extend_value by auto. now apply WordFacts.enc_dec. Qed.
Theorem C16_extend_after_truncate :
  forall sg w n x, 0 < n <= w -> 0 <= x < 2 ^ w ->
  (integral_extend sg false n w (integral_truncate sg w n x) = x <->
   exists v, rng sg n v /\ 0 <= x < 2 ^ w /\ exists q, x = v + q * 2 ^ w).
Proof.
  intros sg w n x Hn Hx. rewrite canonical_aux by auto. split; intros (v & Hv & H); exists v.
  - refine (conj Hv (conj Hx _)). apply WordFacts.wrap_congr; [lia|]. rewrite H. apply WordFacts.wrap_wrap.
  - destruct H as [_ H]. split; auto. change (x = wrap w v). rewrite <- (WordFacts.wrap_id w x Hx) at 1.
    apply WordFacts.wrap_congr; auto. lia.
Qed.
Example C16_applies :
  integral_extend true false 8 32 (-3) = 0xfffffffd /\ integral_truncate true 32 8 0xfffffffd = -3 /\
  integral_extend true false 8 32 (integral_truncate true 32 8 0x1fd) = 0xfffffffd /\
  integral_extend false false 8 32 (integral_truncate false 32 8 0x1fd) = 0xfd /\ rng true 8 (-3).
Proof. repeat split; try reflexivity; cbn; lia. Qed.

Print Assumptions C13_bytes_round_trip.
Print Assumptions C13_bytes_round_trip_no_clear.
Print Assumptions C13_same_storage_iff_same_value.
Print Assumptions C13_float_tail_cleared.
Print Assumptions C13_word_of_bytes.
Print Assumptions C13_tail_always_zero.
Print Assumptions C14_storage_size.
Print Assumptions C15_buffer_compares_by_value.
Print Assumptions C16_truncation.
Print Assumptions C16_extension.
Print Assumptions C16_truncate_after_extend.
Print Assumptions C16_extend_after_truncate.

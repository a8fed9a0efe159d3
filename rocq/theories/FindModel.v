(** * Model of the search for an address among the wait records.

    [S] abbreviates src.  A pointer is an unsigned number of 32 or 64 bits.  The array is
    the list of ALL slots of the buffer (its capacity); reading outside it, or a vector load
    from an address that is not a multiple of 16, gives [None]. *)
From Coq Require Import ZArith List Bool Arith.
Import ListNotations.
Open Scope Z_scope.

(** [find_address_generic], S/lock_pool.cpp 103-112: [i] from 0 while [i < size]; [n] counts the
    iterations left *)
Fixpoint generic_from (addr : Z) (addrs : list Z) (i n : nat) : option nat :=
  match n with
  | O => Some i
  | S k => match nth_error addrs i with
           | None => None
           | Some a => if a =? addr then Some i else generic_from addr addrs (S i) k
           end
  end.
Definition find_address_generic (addr : Z) (addrs : list Z) (size : nat) : option nat :=
  generic_from addr addrs 0 size.

(** ** Counting trailing zeros: S/bit_operation_tools.hpp 36-75 *)

(** the portable branch (45-73); [__builtin_ctz] (38) and [_BitScanForward] (40-43) are the same
    function of a nonzero argument by their documentation *)
Definition count_trailing_zeros (x0 : Z) : Z :=
  let '(x, index) := (x0, 0) in
  let '(x, index) := if Z.land x 0xFFFF =? 0 then (Z.shiftr x 16, index + 16) else (x, index) in
  let '(x, index) := if Z.land x 0xFF =? 0 then (Z.shiftr x 8, index + 8) else (x, index) in
  let '(x, index) := if Z.land x 0xF =? 0 then (Z.shiftr x 4, index + 4) else (x, index) in
  let '(x, index) := if Z.land x 0x3 =? 0 then (Z.shiftr x 2, index + 2) else (x, index) in
  if Z.land x 0x1 =? 0 then index + 1 else index.

(** ** 128-bit registers (Intel SDM)

    A register is the list of its lanes, lowest first: 4 lanes of 32 bits, 8 of 16 or 16 of 8.
    Lanes are unsigned patterns. *)
Definition mask32 : Z := 0xFFFFFFFF.

(** [_mm_cmpeq_epi32] *)
Definition cmpeq32 (a b : list Z) : list Z :=
  map (fun p => if fst p =? snd p then mask32 else 0) (combine a b).
(** [_mm_cmpeq_epi64]: lanes compared in pairs *)
Fixpoint cmpeq64 (a b : list Z) : list Z :=
  match a, b with
  | x :: x' :: a, y :: y' :: b =>
      (if (x =? y) && (x' =? y') then [mask32; mask32] else [0; 0]) ++ cmpeq64 a b
  | _, _ => []
  end.
(** [_mm_shuffle_ps(a, b, _MM_SHUFFLE(k3, k2, k1, k0))]: two lanes of [a], two lanes of [b] *)
Definition shuffle_ps (a b : list Z) (k3 k2 k1 k0 : nat) : list Z :=
  [nth k0 a 0; nth k1 a 0; nth k2 b 0; nth k3 b 0].
(** [_mm_shuffle_epi32(a, _MM_SHUFFLE(k3, k2, k1, k0))] *)
Definition shuffle_epi32 (a : list Z) (k3 k2 k1 k0 : nat) : list Z :=
  [nth k0 a 0; nth k1 a 0; nth k2 a 0; nth k3 a 0].
(** [pand] *)
Definition pand (a b : list Z) : list Z := map (fun p => Z.land (fst p) (snd p)) (combine a b).
(** signed saturation from [w] to [w/2] bits, as an unsigned pattern *)
Definition saturate (w x : Z) : Z :=
  let s := if x <? 2 ^ (w - 1) then x else x - 2 ^ w in
  let h := w / 2 in
  let c := if s <? - 2 ^ (h - 1) then - 2 ^ (h - 1) else if 2 ^ (h - 1) - 1 <? s then 2 ^ (h - 1) - 1 else s in
  c mod 2 ^ h.
(** [_mm_packs_epi32] (4 + 4 lanes to 8) and [_mm_packs_epi16] (8 + 8 lanes to 16) *)
Definition packs32 (a b : list Z) : list Z := map (saturate 32) (a ++ b).
Definition packs16 (a b : list Z) : list Z := map (saturate 16) (a ++ b).
(** the bytes of a register of 16-bit lanes *)
Definition bytes_of16 (a : list Z) : list Z := flat_map (fun x => [x mod 256; x / 256]) a.
(** the sign bits of the lanes of [w] bits, collected *)
Fixpoint movemask (w : Z) (a : list Z) : Z :=
  match a with
  | [] => 0
  | x :: r => (if Z.testbit x (w - 1) then 1 else 0) + 2 * movemask w r
  end.
(** [_mm_movemask_pd]: sign bits of the two 64-bit lanes *)
Definition movemask_pd (a : list Z) : Z := movemask 32 [nth 1 a 0; nth 3 a 0].

(** [_mm_load_si128(addrs + pos)]; the array itself starts at a multiple of 16 (entries_alignment,
    S/lock_pool.cpp 246-248).  64-bit pointers: two of them, low half first. *)
Definition halves (p : Z) : list Z := [p mod 2 ^ 32; p / 2 ^ 32].
Definition load64 (addrs : list Z) (pos : nat) : option (list Z) :=
  if (8 * Z.of_nat pos) mod 16 =? 0 then
    match nth_error addrs pos, nth_error addrs (pos + 1) with
    | Some p, Some q => Some (halves p ++ halves q)
    | _, _ => None
    end
  else None.
(** 32-bit pointers: four of them *)
Definition load32 (addrs : list Z) (pos : nat) : option (list Z) :=
  if (4 * Z.of_nat pos) mod 16 =? 0 then
    match nth_error addrs pos, nth_error addrs (pos + 1), nth_error addrs (pos + 2), nth_error addrs (pos + 3) with
    | Some p, Some q, Some r, Some s => Some [p; q; r; s]
    | _, _, _, _ => None
    end
  else None.

Definition obind {A B} (x : option A) (f : A -> option B) : option B :=
  match x with Some a => f a | None => None end.
Notation "x <-? e ;; k" := (obind e (fun x => k)) (at level 61, e at next level, right associativity).

(** what a block of vector code gives: the mask, and how many mask bits belong to one pointer *)
Definition block := list Z -> nat -> option Z.

(** the main loop over [pos < m] in steps of 16: [inl pos] found, [inr pos] fall through.  [fuel]
    bounds the iterations; running out gives [None] and is shown impossible. *)
Fixpoint scan16 (b : block) (addrs : list Z) (fuel pos m : nat) : option (nat + nat) :=
  if (pos <? m)%nat then
    match fuel with
    | O => None
    | S k =>
        mask <-? b addrs pos ;;
        if mask =? 0 then scan16 b addrs k (pos + 16) m
        else Some (inl (pos + Z.to_nat (count_trailing_zeros mask))%nat)
    end
  else Some (inr pos).

(** the tail blocks: run if [cond], found at [pos + ctz / per], else advance by [step] *)
Definition tail (b : block) (addrs : list Z) (cond : bool) (per : Z) (step : nat) (st : nat + nat) : option (nat + nat) :=
  match st with
  | inl pos => Some (inl pos)
  | inr pos =>
      if cond then
        mask <-? b addrs pos ;;
        if mask =? 0 then Some (inr (pos + step)%nat)
        else Some (inl (pos + Z.to_nat (count_trailing_zeros mask / per))%nat)
      else Some (inr pos)
  end.
Definition at_pos (st : nat + nat) : nat := match st with inl p => p | inr p => p end.

(** ** SSE4.1, S/find_address_sse41.cpp *)
(** [mm_set1_epiptr], S/x86_vector_tools.hpp 37-46 *)
Definition set1_epiptr (addr : Z) : list Z := halves addr ++ halves addr.

Definition cmp41 (addr : Z) (addrs : list Z) (pos : nat) : option (list Z) :=
  mm <-? load64 addrs pos ;; Some (cmpeq64 mm (set1_epiptr addr)).
(* _MM_SHUFFLE(2, 0, 2, 0) of two comparisons: lines 64-67 *)
Definition two41 (addr : Z) (addrs : list Z) (pos : nat) : option (list Z) :=
  mm1 <-? cmp41 addr addrs pos ;; mm2 <-? cmp41 addr addrs (pos + 2) ;; Some (shuffle_ps mm1 mm2 2 0 2 0).

Definition block16_41 (addr : Z) : block := fun addrs pos =>     (* 45-74 *)
  mm1 <-? two41 addr addrs pos ;; mm3 <-? two41 addr addrs (pos + 4) ;;
  mm5 <-? two41 addr addrs (pos + 8) ;; mm7 <-? two41 addr addrs (pos + 12) ;;
  Some (movemask 8 (packs16 (packs32 mm1 mm3) (packs32 mm5 mm7))).
Definition block8_41 (addr : Z) : block := fun addrs pos =>      (* 84-99 *)
  mm1 <-? two41 addr addrs pos ;; mm3 <-? two41 addr addrs (pos + 4) ;;
  Some (movemask 8 (bytes_of16 (packs32 mm1 mm3))).
Definition block4_41 (addr : Z) : block := fun addrs pos =>      (* 111-119 *)
  mm1 <-? two41 addr addrs pos ;; Some (movemask 32 mm1).
Definition block2_41 (addr : Z) : block := fun addrs pos =>      (* 130-134 *)
  mm1 <-? cmp41 addr addrs pos ;; Some (movemask_pd mm1).

(** the driver shared by both 64-bit versions: S/find_address_sse41.cpp 36-145 and
    S/find_address_sse2.cpp 75-212 *)
Definition find64 (b16 b8 b4 b2 : block) (addr : Z) (addrs : list Z) (size : nat) : option nat :=
  if (size <? 12)%nat then find_address_generic addr addrs size
  else
    let n := ((size + 1) / 2 * 2)%nat in             (* (size + 1u) & ~1u *)
    let m := (n / 16 * 16)%nat in                    (* n & ~15u *)
    st <-? scan16 b16 addrs (m / 16) 0 m ;;
    st <-? tail b8 addrs (8 <=? n - at_pos st)%nat 2 8 st ;;
    st <-? tail b4 addrs (4 <=? n - at_pos st)%nat 1 4 st ;;
    st <-? tail b2 addrs (at_pos st <? n)%nat 1 2 st ;;
    Some (at_pos st).
Definition find_address_sse41 (addr : Z) : list Z -> nat -> option nat :=
  find64 (block16_41 addr) (block8_41 addr) (block4_41 addr) (block2_41 addr) addr.

(** ** SSE2 with 64-bit pointers, S/find_address_sse2.cpp 73-212 *)
Definition cmp2 (addr : Z) (addrs : list Z) (pos : nat) : option (list Z) :=
  mm <-? load64 addrs pos ;; Some (cmpeq32 mm (set1_epiptr addr)).
(* lo and hi halves gathered and combined: lines 105-119 *)
Definition two2 (addr : Z) (addrs : list Z) (pos : nat) : option (list Z) :=
  mm1 <-? cmp2 addr addrs pos ;; mm2 <-? cmp2 addr addrs (pos + 2) ;;
  Some (pand (shuffle_ps mm1 mm2 2 0 2 0) (shuffle_ps mm1 mm2 3 1 3 1)).
Definition block16_2 (addr : Z) : block := fun addrs pos =>      (* 85-126 *)
  m1 <-? two2 addr addrs pos ;; m2 <-? two2 addr addrs (pos + 4) ;;
  m3 <-? two2 addr addrs (pos + 8) ;; m4 <-? two2 addr addrs (pos + 12) ;;
  Some (movemask 8 (packs16 (packs32 m1 m2) (packs32 m3 m4))).
Definition block8_2 (addr : Z) : block := fun addrs pos =>       (* 136-158 *)
  m1 <-? two2 addr addrs pos ;; m2 <-? two2 addr addrs (pos + 4) ;;
  Some (movemask 8 (bytes_of16 (packs32 m1 m2))).
Definition block4_2 (addr : Z) : block := fun addrs pos =>       (* 170-181 *)
  m1 <-? two2 addr addrs pos ;; Some (movemask 32 m1).
Definition block2_2 (addr : Z) : block := fun addrs pos =>       (* 192-199 *)
  mm1 <-? cmp2 addr addrs pos ;; Some (movemask_pd (pand (shuffle_epi32 mm1 2 3 0 1) mm1)).
Definition find_address_sse2_64 (addr : Z) : list Z -> nat -> option nat :=
  find64 (block16_2 addr) (block8_2 addr) (block4_2 addr) (block2_2 addr) addr.

(** ** SSE2 with 32-bit pointers, S/find_address_sse2.cpp 216-285 *)
Definition cmp32 (addr : Z) (addrs : list Z) (pos : nat) : option (list Z) :=
  mm <-? load32 addrs pos ;; Some (cmpeq32 mm [addr; addr; addr; addr]).
Definition block16_32 (addr : Z) : block := fun addrs pos =>
  mm1 <-? cmp32 addr addrs pos ;; mm2 <-? cmp32 addr addrs (pos + 4) ;;
  mm3 <-? cmp32 addr addrs (pos + 8) ;; mm4 <-? cmp32 addr addrs (pos + 12) ;;
  Some (movemask 8 (packs16 (packs32 mm1 mm2) (packs32 mm3 mm4))).
Definition block8_32 (addr : Z) : block := fun addrs pos =>
  mm1 <-? cmp32 addr addrs pos ;; mm2 <-? cmp32 addr addrs (pos + 4) ;;
  Some (movemask 8 (bytes_of16 (packs32 mm1 mm2))).
Definition block4_32 (addr : Z) : block := fun addrs pos =>
  mm1 <-? cmp32 addr addrs pos ;; Some (movemask 32 mm1).
Definition find_address_sse2_32 (addr : Z) (addrs : list Z) (size : nat) : option nat :=
  if (size <? 10)%nat then find_address_generic addr addrs size
  else
    let n := ((size + 3) / 4 * 4)%nat in             (* (size + 3u) & ~3u *)
    let m := (n / 16 * 16)%nat in
    st <-? scan16 (block16_32 addr) addrs (m / 16) 0 m ;;
    st <-? tail (block8_32 addr) addrs (8 <=? n - at_pos st)%nat 2 8 st ;;
    st <-? tail (block4_32 addr) addrs (at_pos st <? n)%nat 1 4 st ;;
    Some (at_pos st).

(** [find_address_dispatch], S/lock_pool.cpp 144-178: the version is picked by the two cpuid feature
    bits; SSE4.1 is used only with 64-bit pointers *)
Definition find_address_dispatch (sse2 sse41 : bool) (addr : Z) (addrs : list Z) (size : nat) : option nat :=
  if sse41 then find_address_sse41 addr addrs size
  else if sse2 then find_address_sse2_64 addr addrs size
  else find_address_generic addr addrs size.
Definition find_address_dispatch_32 (sse2 : bool) (addr : Z) (addrs : list Z) (size : nat) : option nat :=
  if sse2 then find_address_sse2_32 addr addrs size
  else find_address_generic addr addrs size.

(** the feature bits: S/lock_pool.cpp 150-168, from the highest cpuid function and the registers of
    function 1 *)
Definition dispatch_cpuid (max_function ecx edx : Z) : Z -> list Z -> nat -> option nat :=
  find_address_dispatch ((1 <=? max_function) && Z.testbit edx 26) ((1 <=? max_function) && Z.testbit ecx 19).

(** every version the library can run, with 64-bit and with 32-bit pointers *)
Definition versions64 : list (Z -> list Z -> nat -> option nat) :=
  [find_address_generic; find_address_sse2_64; find_address_sse41;
   find_address_dispatch false false; find_address_dispatch false true;
   find_address_dispatch true false; find_address_dispatch true true].
Definition versions32 : list (Z -> list Z -> nat -> option nat) :=
  [find_address_generic; find_address_sse2_32; find_address_dispatch_32 false; find_address_dispatch_32 true].

(** * C28, C29, C30: finding the wait record of an address. *)
From Coq Require Import ZArith List Arith Lia.
From Verif Require Import SpecFind FindModel FindProof.
Import ListNotations.
Open Scope Z_scope.

(** C28.  Every version of the search, for every content of the array and every number of entries,
    answers what a linear search answers: the first position below [size] holding the address, or a
    position not below [size] when no entry holds it (the caller tests [pos < size]).  Capacities are
    those the list of wait records takes: [2 * 2^k] with 64-bit pointers, [4 * 2^k] with 32-bit ones
    (shown of the list itself in C29_capacities). *)
Theorem C28_search_is_linear_search : forall k addr addrs size find,
  (length addrs = (2 * 2 ^ k)%nat /\ In find versions64) \/ (length addrs = (4 * 2 ^ k)%nat /\ In find versions32) ->
  (size <= length addrs)%nat ->
  exists pos, find addr addrs size = Some pos /\
    ((pos < size)%nat -> first_at addr (firstn size addrs) pos) /\
    ((size <= pos)%nat -> ~ In addr (firstn size addrs)).
Proof.
  intros k addr addrs size find [[Hk Hin]|[Hk Hin]] Hs;
    [exact (versions64_ok k addr addrs size find Hk Hs Hin) | exact (versions32_ok k addr addrs size find Hk Hs Hin)].
Qed.
Print Assumptions C28_search_is_linear_search.

(** so any two versions agree on whether, and where, the address is present *)
Theorem C28_versions_agree : forall k addr addrs size f g i,
  (length addrs = (2 * 2 ^ k)%nat /\ In f versions64 /\ In g versions64) \/
  (length addrs = (4 * 2 ^ k)%nat /\ In f versions32 /\ In g versions32) ->
  (i < size)%nat -> (size <= length addrs)%nat ->
  f addr addrs size = Some i <-> g addr addrs size = Some i.
Proof.
  assert (X : forall addr addrs size p q, finds addr addrs size p -> finds addr addrs size q -> (p < size)%nat -> q = p).
  { intros addr addrs size p q [A B] [C D] Hp. specialize (A Hp). destruct A as [A1 A2].
    destruct (lt_dec q size) as [L|L].
    - destruct (C L) as [C1 C2]. destruct (lt_eq_lt_dec p q) as [[H|H]|H]; auto.
      + now elim (C2 p H).
      + now elim (A2 q H).
    - elim D; [lia|]. now apply nth_error_In in A1. }
  intros k addr addrs size f g i H Hi Hs.
  assert (F : exists p, f addr addrs size = Some p /\ finds addr addrs size p)
    by (destruct H as [(Hk & Hf & Hg)|(Hk & Hf & Hg)]; [now apply (versions64_ok k) | now apply (versions32_ok k)]).
  assert (G : exists p, g addr addrs size = Some p /\ finds addr addrs size p)
    by (destruct H as [(Hk & Hf & Hg)|(Hk & Hf & Hg)]; [now apply (versions64_ok k) | now apply (versions32_ok k)]).
  destruct F as (p & Fp & Fs), G as (q & Gq & Gs). rewrite Fp, Gq. split; intros [= <-]; f_equal.
  - now apply (X addr addrs size p q).
  - now apply (X addr addrs size q p).
Qed.
Print Assumptions C28_versions_agree.

(** in particular, on every processor the version picked at run time *)
Theorem C28_runtime_dispatch : forall max_function ecx edx k addr addrs size,
  length addrs = (2 * 2 ^ k)%nat -> (size <= length addrs)%nat ->
  exists pos, dispatch_cpuid max_function ecx edx addr addrs size = Some pos /\
    ((pos < size)%nat -> first_at addr (firstn size addrs) pos) /\
    ((size <= pos)%nat -> ~ In addr (firstn size addrs)).
Proof.
  intros mf ecx edx k addr addrs size Hk Hs.
  apply (versions64_ok k addr addrs size (dispatch_cpuid mf ecx edx) Hk Hs).
  unfold dispatch_cpuid. destruct (_ && Z.testbit edx 26)%bool, (_ && Z.testbit ecx 19)%bool; cbn [versions64 In]; tauto.
Qed.
Print Assumptions C28_runtime_dispatch.

(** 13 entries of a 16-slot buffer: the match is in the last vector block, and the stale copy in the unused
    slot 13 is not reported for 13 entries *)
Example C28_case :
  let addrs := [16;32;48;64;80;96;112;128;144;160;176;192;208;0;0;0] in
  length addrs = (2 * 2 ^ 3)%nat /\ length addrs = (4 * 2 ^ 2)%nat /\
  map (fun f => f 208 addrs 13%nat) versions64 = repeat (Some 12%nat) 7 /\
  map (fun f => f 208 addrs 13%nat) versions32 = repeat (Some 12%nat) 4 /\
  map (fun f => f 224 addrs 13%nat) versions64 =
    [Some 13; Some 14; Some 14; Some 13; Some 14; Some 14; Some 14]%nat.
Proof. vm_compute. repeat split. Qed.

(** C29.  No version reads outside the buffer or makes a misaligned vector load (the model's [None]). *)
Theorem C29_search_stays_in_buffer : forall k addr addrs size find,
  (length addrs = (2 * 2 ^ k)%nat /\ In find versions64) \/ (length addrs = (4 * 2 ^ k)%nat /\ In find versions32) ->
  (size <= length addrs)%nat -> find addr addrs size <> None.
Proof.
  intros k addr addrs size find H Hs E. destruct (C28_search_is_linear_search k addr addrs size find H Hs) as (pos & X & _).
  rewrite E in X. discriminate.
Qed.
Print Assumptions C29_search_stays_in_buffer.

(** the capacity matters: with 13 slots for 13 entries the vector version would read past the end *)
Example C29_case :
  let addrs := [16;32;48;64;80;96;112;128;144;160;176;192;208] in
  find_address_sse41 7 addrs 13 = None /\ find_address_sse41 7 (addrs ++ [0;0;0]) 13 = Some 14%nat.
Proof. vm_compute. repeat split. Qed.

(** C30.  The portable trailing-zero count is exact for every nonzero 32-bit word. *)
Theorem C30_trailing_zeros : forall x, 0 < x < 2 ^ 32 -> zeros_below x (count_trailing_zeros x).
Proof. exact ctz_ok. Qed.
Print Assumptions C30_trailing_zeros.
(** [zeros_below] determines the count *)
Theorem C30_unique : forall x r, 0 < x < 2 ^ 32 -> zeros_below x r -> count_trailing_zeros x = r.
Proof. intros x r Hx Hr. exact (zeros_unique x _ r (ctz_ok x Hx) Hr). Qed.
Print Assumptions C30_unique.
Example C30_case : count_trailing_zeros 0xA0500000 = 20 /\ count_trailing_zeros (2 ^ 31) = 31 /\ count_trailing_zeros 1 = 0.
Proof. vm_compute. repeat split. Qed.

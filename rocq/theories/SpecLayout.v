(** * Where objects may lie in memory (C54). *)
From Coq Require Import ZArith List.
Import ListNotations.
Open Scope Z_scope.

Definition power_of_two (a : Z) : Prop := exists k, 0 <= k /\ a = 2 ^ k.

(** A type: its size and its alignment.  C++ requires a positive size, a power of two as alignment, and that the elements
    of an array follow each other without gaps. *)
Record layout := Layout { l_size : Z; l_align : Z }.
Definition legal (l : layout) : Prop := 0 < l_size l /\ power_of_two (l_align l) /\ (l_align l | l_size l).

(** Objects of the type, and arrays of them, begin at multiples of the alignment; [element l base k] is the address of
    element [k] of an array at [base]. *)
Definition may_lie (l : layout) (address : Z) : Prop := (l_align l | address).
Definition element (l : layout) (base k : Z) : Z := base + k * l_size l.

(** What the platform decides: the alignments of the unsigned integer types of 1, 2, 4, 8 and 16 bytes, whether there is
    one of 16 bytes, and the alignment of [std::max_align_t]; whether the compiler has [alignas], and if not, the size of
    the type Boost offers for an alignment. *)
Record abi := Abi {
  int_align : Z -> Z;
  int128 : bool;
  max_align : Z;
  aligner : option (Z -> Z) }.
Definition abi_ok (b : abi) : Prop :=
  (forall n, In n [1; 2; 4; 8; 16] -> power_of_two (int_align b n) /\ int_align b n <= n) /\
  power_of_two (max_align b) /\ max_align b <= 16 /\
  match aligner b with
  | None => True
  | Some size => forall a, power_of_two a -> 0 < size a /\ (a | size a) /\ (a <= 16 -> size a = a)
  end.

(** A memory access of [bytes] bytes at a multiple of [bytes]: the processors perform it in one piece, if they have an
    instruction for that size. *)
Definition one_piece (bytes address : Z) : Prop := 0 < bytes /\ (bytes | address).

(** * Specification of objects as byte sequences.

    Nothing here mentions the library. *)
From Coq Require Import ZArith List Bool.
Import ListNotations.
Open Scope Z_scope.

(** A byte is an integer in [0, 256); an object of [n] bytes is a list of [n] bytes, lowest address first. *)
Definition is_byte (b : Z) : Prop := 0 <= b < 256.
Definition object (n : nat) (l : list Z) : Prop := length l = n /\ Forall is_byte l.

(** The number a byte sequence denotes as an unsigned integer, for both byte orders. *)
Fixpoint little (l : list Z) : Z :=
  match l with [] => 0 | b :: r => b + 256 * little r end.
Definition number (be : bool) (l : list Z) : Z := little (if be then rev l else l).

(** The bytes of a number. *)
Fixpoint digits (n : nat) (x : Z) : list Z :=
  match n with O => [] | S k => x mod 256 :: digits k (x / 256) end.
Definition bytes (be : bool) (n : nat) (x : Z) : list Z := if be then rev (digits n x) else digits n x.

Definition zeros (n : nat) : list Z := repeat 0 n.
Definition all_zero (l : list Z) : Prop := Forall (fun b => b = 0) l.

(** [masks] says which bits of each byte carry the value; the others are padding. *)
Definition without_padding (masks l : list Z) : list Z := map (fun p => Z.land (fst p) (snd p)) (combine l masks).
(** Equal up to padding: every bit that carries the value agrees. *)
Definition same_value (masks l1 l2 : list Z) : Prop :=
  forall i b1 b2 m, nth_error l1 i = Some b1 -> nth_error l2 i = Some b2 -> nth_error masks i = Some m ->
  forall k, 0 <= k -> Z.testbit m k = true -> Z.testbit b1 k = Z.testbit b2 k.

(** * Specification of searching and of trailing zeros.

    Nothing here mentions the library. *)
From Coq Require Import ZArith List.
Import ListNotations.
Open Scope Z_scope.

(** [first_at x l i]: position [i] is the first of the list that holds [x]. *)
Definition first_at (x : Z) (l : list Z) (i : nat) : Prop :=
  nth_error l i = Some x /\ forall j, (j < i)%nat -> nth_error l j <> Some x.

(** [zeros_below x r]: [r] is the number of consecutive zero bits of [x] below its lowest set bit. *)
Definition zeros_below (x r : Z) : Prop :=
  0 <= r /\ Z.testbit x r = true /\ forall k, 0 <= k < r -> Z.testbit x k = false.

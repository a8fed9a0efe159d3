(** * Memory order constants. *)
From Coq Require Import ZArith Bool.
Open Scope Z_scope.

(** include/boost/memory_order.hpp 45-53: [enum class memory_order]. *)
Inductive morder := Relaxed | Consume | Acquire | Release | AcqRel | SeqCst.

(** include/boost/memory_order.hpp 47-52: the values of the enumerators. *)
Definition code (o : morder) : Z :=
  match o with
  | Relaxed => 0 | Consume => 1 | Acquire => 2 | Release => 4 | AcqRel => 6 | SeqCst => 14
  end.

Definition is_seq_cst (o : morder) : bool := match o with SeqCst => true | _ => false end.

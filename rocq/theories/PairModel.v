(** * 16-byte integer atomics on AArch64 without single-copy atomic pair loads.

    D/core_arch_ops_gcc_aarch64.hpp 1682-2031 ([aarch64_pair]) and
    D/extra_ops_gcc_aarch64.hpp 1134-1412 ([extra_pair]) under the integer front end
    D/atomic_impl.hpp 622-985 ([int_front]).  [D] abbreviates include/boost/atomic/detail. *)
From Coq Require Import ZArith List Bool.
From Verif Require Import SpecInt SpecLin SpecPair Order Conv Prog Word CoreModel ExtraModel IntModel.
Open Scope Z_scope.

(** Signedness of the object at every address. *)
Definition pworld := addr -> bool.

Definition pair_impl (W : pworld) (c : icall) : wprog iret :=
  int_front aarch64_pair (extra_pair (W (fst c))) (W (fst c)) 128 (fst (snd c)) (fst c) (snd (snd c)).

(** Memory holding the values [v]. *)
Definition pair_mem (v n : addr -> Z) : wmem := fun a => mkcell (wrap 128 (v a)) (n a).

(** All executions: any calls, any interleaving of the two halves of every pair load, any luck. *)
Definition pair_run (W : pworld) (v0 n0 : addr -> Z) (l : list (sched luck icall)) :=
  run wexec (pair_impl W) (start (pair_mem v0 n0)) l.

(** The value the object at [a] shows to the next load. *)
Definition pair_shown (W : pworld) (m : wmem) (a : addr) : Z := integral_truncate (W a) 128 128 (val (m a)).
Arguments pair_shown W m a%nat_scope.

Definition pair_spec (W : pworld) (a : nat) (v : Z) (o : morder * iop) (r : iret) (v' : Z) : Prop :=
  pair_step (W a) 128 v (snd o) r v'.

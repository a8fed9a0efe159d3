(** * What a 128-bit atomic built from two 64-bit exclusive accesses promises.

    The ordinary integer object ([istep]), except that a compare_exchange that
    fails may report in [expected] a value the object never held; a failing
    compare_exchange_strong still failed for a reason: the object was different
    from [expected] at that instant, and so is the reported value. *)
From Coq Require Import ZArith Bool.
From Verif Require Import SpecInt.
Open Scope Z_scope.

Inductive pair_step (sg : bool) (n : Z) : Z -> iop -> iret -> Z -> Prop :=
| ps_int x o r x' : istep sg n x o r x' -> pair_step sg n x o r x'
| ps_cas_fail x e d y : x <> e -> y <> e -> rng sg n y ->
    pair_step sg n x (CasStrong e d) (RCas false y) x
| ps_casw_fail x e d y : rng sg n y ->
    pair_step sg n x (CasWeak e d) (RCas false y) x.

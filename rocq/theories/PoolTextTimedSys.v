(** * The text of the timed waits on futexes does what PoolModel.v says: deadlines that the system takes *)
From Coq Require Import ZArith List Bool String Lia Arith.
From Verif Require Import SpecInt SpecBytes SpecPool Order Conv Prog FindModel RecordsModel SimProof PoolModel PoolText PoolLayers PoolTimedTable PoolTimedLayers
  PoolTextProof PoolTimedTac.
Import ListNotations.
Local Open Scope string_scope.
Local Open Scope Z_scope.
Local Open Scope prog_scope.

Local Opaque ld.

Section Waits.
  Variables (pl : platform) (d : odesc) (a : nat).
  Hypothesis Wide : wide_times pl.
  Notation mo := (PO SeqCst).

  Lemma sys_bitset : forall old limit,
    sim eq (native_text pl d a true true "wait_until" old limit)
      (if 0 <=? limit then native_abs d a old limit else new <- ld d a ;; Ret (RWaited (new : Z) ((new : Z) =? old))).
  Proof.
    intros old limit. goT. rewrite div_sign3. destruct (0 <=? limit).
    - unfold native_abs. loadsub d a. unfold loop. cbn [bind].
      set (Env := fun v t => [("old_val", (TS, PZ old)); ("timeout", (TO, PZ limit)); ("order", (TO, mo)); ("timed_out", (TO, PB t));
        ("ts.tv_sec", (TO, PZ (limit / 1000000000))); ("ts.tv_nsec", (TO, PZ (limit mod 1000000000))); ("new_val", (TS, PZ v))]).
      absolute d a Env old ltac:(rewrite whole).
    - loadsub d a. leaf.
  Qed.
End Waits.

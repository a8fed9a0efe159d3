(** * The text of the timed waits on futexes does what PoolModel.v says: wait_for *)
From Coq Require Import ZArith List Bool String Lia Arith.
From Verif Require Import SpecInt SpecBytes SpecPool Order Conv Prog FindModel RecordsModel SimProof PoolModel PoolText PoolLayers PoolTimedTable PoolTimedLayers
  PoolTextProof PoolTimedTac.
Import ListNotations.
Local Open Scope string_scope.
Local Open Scope Z_scope.
Local Open Scope prog_scope.

Local Opaque ld.

Section Waits.
  Variables (pl : platform) (d : odesc) (a : nat).
  Hypothesis Wide : wide_times pl.
  Notation mo := (PO SeqCst).

  Lemma for_bitset : forall old limit,
    sim eq (native_text pl d a true false "wait_for" old limit)
      (if 0 <=? limit then now <- pdo Now ;; native_abs d a old ((now : Z) + limit)
       else now <- pdo Now ;; native_fallback pl d a old ((now : Z) + limit) (now : Z)).
  Proof.
    intros old limit. goT. destruct (0 <=? limit).
    - act1. change (0 =? 0) with true. cbn iota. unfold native_abs. loadsub d a. unfold loop. cbn [bind].
      set (Env := fun v t => [("old_val", (TS, PZ old)); ("timeout", (TO, PZ limit)); ("order", (TO, mo)); ("timed_out", (TO, PB t));
        ("now", (TO, PZ x)); ("nsec", (TO, PZ (x mod 1000000000 + limit)));
        ("sec", (TO, PZ (x / 1000000000 + (x mod 1000000000 + limit) / 1000000000)));
        ("ts.tv_sec", (TO, PZ (x / 1000000000 + (x mod 1000000000 + limit) / 1000000000)));
        ("ts.tv_nsec", (TO, PZ ((x mod 1000000000 + limit) mod 1000000000))); ("new_val", (TS, PZ v))]).
      absolute d a Env old ltac:(rewrite shifted).
    - act1. unfold native_fallback; loadsub d a; unfold loop; cbn [bind]. fallback Wide d a old (x + limit).
  Qed.
  Lemma for_plain : forall clock old limit,
    sim eq (native_text pl d a false clock "wait_for" old limit)
      (now <- pdo Now ;; native_fallback pl d a old ((now : Z) + limit) (now : Z)).
  Proof.
    intros clock old limit. goT. act1. unfold native_fallback; loadsub d a; unfold loop; cbn [bind]. fallback Wide d a old (x + limit).
  Qed.

End Waits.

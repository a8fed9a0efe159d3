(** * The text of the timed waits on futexes does what PoolModel.v says: deadlines on other clocks *)
From Coq Require Import ZArith List Bool String Lia Arith.
From Verif Require Import SpecInt SpecBytes SpecPool Order Conv Prog FindModel RecordsModel SimProof PoolModel PoolText PoolLayers PoolTimedTable PoolTimedLayers
  PoolTextProof PoolTimedTac.
Import ListNotations.
Local Open Scope string_scope.
Local Open Scope Z_scope.
Local Open Scope prog_scope.

Local Opaque ld.

Section Waits.
  Variables (pl : platform) (d : odesc) (a : nat).
  Hypothesis Wide : wide_times pl.
  Notation mo := (PO SeqCst).

  Lemma other_bitset : forall old limit,
    sim eq (native_text pl d a true false "wait_until" old limit) (now <- pdo Now ;; native_fallback pl d a old limit (now : Z)).
  Proof.
    intros old limit. goT; act1; unfold native_fallback; loadsub d a; unfold loop; cbn [bind]. fallback Wide d a old limit.
  Qed.
  Lemma other_plain : forall clock old limit,
    sim eq (native_text pl d a false clock "wait_until" old limit) (now <- pdo Now ;; native_fallback pl d a old limit (now : Z)).
  Proof.
    intros clock old limit. goT; act1; unfold native_fallback; loadsub d a; unfold loop; cbn [bind]. fallback Wide d a old limit.
  Qed.
End Waits.

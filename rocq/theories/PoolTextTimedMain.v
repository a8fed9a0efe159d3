(** * The text of the timed waits on futexes does what PoolModel.v says: all of them *)
From Coq Require Import ZArith List Bool String Lia Arith.
From Verif Require Import SpecInt SpecBytes SpecPool Order Conv Prog FindModel RecordsModel SimProof PoolModel PoolText PoolLayers PoolTimedTable PoolTimedLayers
  PoolTextProof PoolTimedTac PoolTextTimed PoolTextTimedSys PoolTextTimedFor.
Import ListNotations.
Local Open Scope string_scope.
Local Open Scope Z_scope.
Local Open Scope prog_scope.

Local Opaque ld.

Section Waits.
  Variables (pl : platform) (d : odesc) (a : nat).
  Hypothesis Wide : wide_times pl.
  Notation mo := (PO SeqCst).

  Lemma native_timed_sim : forall k old limit, sim eq (native_timed_text pl d a k old limit) (native_timed pl d a k old limit).
  Proof.
    intros k old limit. unfold native_timed_text, native_timed. destruct k, (pl_bitset pl); cbn [andb].
    - exact (sys_bitset pl d a old limit).
    - exact (other_plain pl d a Wide true old limit).
    - exact (other_bitset pl d a Wide old limit).
    - exact (other_plain pl d a Wide false old limit).
    - exact (for_bitset pl d a Wide old limit).
    - exact (for_plain pl d a Wide false old limit).
  Qed.
End Waits.

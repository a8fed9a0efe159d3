(** * The text of the lock pool does what PoolModel.v says: the operations of lock-based objects *)
From Coq Require Import ZArith List Bool String Lia Arith.
From Verif Require Import SpecInt SpecBytes SpecPool Order Conv Prog FindModel RecordsModel SimProof PoolModel PoolText PoolTable PoolLayers PoolTextProof PoolTextCond PoolTextPool.
Import ListNotations.
Local Open Scope string_scope.
Local Open Scope Z_scope.
Local Open Scope prog_scope.

Local Opaque slock_new slock_do swait_new swait_do swait_del rd wr ld acquire release pool_text.

Section Ops.
  Variables (pl : platform) (d : odesc).
  Notation lk := (pl_lock pl).
  Notation i := (lock_of pl d).

  (** the same reading or writing on both sides, up to the end of the guard *)
  Ltac assoc := repeat apply sim_assoc_r.
  Ltac along :=
    repeat (assoc; repeat apply sim_assoc_l; cbn [bind];
      first [ leaf
            | eapply sim_bind_eq; [exact (guard_del pl d i)|intros []]
            | eapply sim_bind_eq; [exact (sim_refl _ (rd pl d))|let x := fresh "x" in intros x]
            | match goal with |- context [wr pl d ?v] => eapply sim_bind_eq; [exact (sim_refl _ (wr pl d v))|intros []] end
            | match goal with |- context [?x =? ?y] => destruct (x =? y) end ]).

  Theorem text_emulated : forall o, sim eq (emu_text pl d o) (scoped pl d (emu_body pl d o)).
  Proof.
    intros o. unfold emu_text, core_text, extra_text, scoped, emu_body.
    destruct o as [v| |v|e v|e v|f u|b n]; [| | | | |destruct f, u as [[| | | |] v|[|]]|destruct b]; go.
    all: try (unfold core_text; go).
    all: repeat apply sim_assoc_l; cbn [bind].
    all: subm (guard_new pl d false).
    all: along.
  Qed.
End Ops.

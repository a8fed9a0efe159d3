(** * All operations of an object, as text, do what PoolModel.v says; the executions of the library as text *)
From Coq Require Import ZArith List Bool String Lia Arith.
From Verif Require Import SpecInt SpecBytes SpecPool Order Conv Prog FindModel RecordsModel SimProof PoolModel PoolFront PoolText PoolTable PoolLayers PoolTextProof
  PoolTextCond PoolTextPool PoolTextOps PoolTextWait PoolTextGen PoolTextPoll.
Import ListNotations.
Local Open Scope Z_scope.
Local Open Scope prog_scope.

Local Opaque slock_new slock_do swait_new swait_do swait_del rd wr ld acquire release pool_text wait_text emu_text.

Lemma text_sim : forall pl d a o, sim eq (text_prog pl d a o) (obj_prog pl d a o).
Proof.
  intros pl d a o. unfold text_prog, obj_prog.
  destruct o as [o|f g|old|k old limit|all| |]; try apply sim_refl.
  - unfold d_locked. destruct (d_wait d); try apply sim_refl. unfold emu_prog.
    refine (sim_eq_trans _ _ _ _ (sim_bind_eq _ _ _ _ _ _ _ _ (text_emulated pl d o) (fun r => sim_refl _ _)) _).
    unfold scoped. apply sim_assoc_l. apply sim_bind_eq; [apply sim_refl|intros _]. apply sim_assoc_l. apply sim_assoc_r.
    apply sim_bind_eq; [apply sim_refl|intros r]. cbn [bind]. apply sim_assoc_l. apply sim_bind_eq; [apply sim_refl|intros _].
    apply sim_refl.
  - unfold d_locked. destruct (d_wait d) eqn:W; cbn iota; unfold emu_prog, free_prog; rewrite ?W.
    + exact (emu_wait pl d a W old).
    + exact (gen_wait pl d a W old).
    + exact (poll_wait_text pl d a W old).
    + exact (native_wait_text pl d a W old).
  - unfold d_locked. destruct (d_wait d) eqn:W; cbn iota; unfold emu_prog, free_prog; rewrite ?W.
    + unfold timed_text, emu_timed, sys_clock. destruct k; [destruct (pl_lock pl) eqn:L| |].
      * refine (emu_sys pl d a W old limit _). rewrite L. discriminate.
      * refine (emu_sys pl d a W old limit _). rewrite L. discriminate.
      * exact (emu_win pl d a W true old limit L).
      * exact (emu_other pl d a W old limit).
      * exact (emu_for pl d a W old limit).
    + unfold timed_text, pool_timed, sys_clock. destruct k; [destruct (pl_lock pl) eqn:L| |].
      * refine (gen_sys pl d a W old limit _). rewrite L. discriminate.
      * refine (gen_sys pl d a W old limit _). rewrite L. discriminate.
      * exact (gen_win pl d a W true old limit L).
      * exact (gen_other pl d a W old limit).
      * exact (gen_for pl d a W old limit).
    + unfold timed_text. destruct k;
        [exact (poll_until_text pl d a W true old limit) | exact (poll_until_text pl d a W false old limit) | exact (poll_for_text pl d a W old limit)].
    + apply sim_refl.
  - unfold d_locked. destruct (d_wait d) eqn:W; cbn iota; unfold emu_prog, free_prog; rewrite ?W.
    + exact (emu_notify pl d a W all).
    + exact (gen_notify pl d a W all).
    + unfold pdo, do. cbn [bind]. act1. exact (poll_notify_text pl d a W all).
    + exact (native_notify_text pl d a W all).
  - unfold emu_prog, free_prog. destruct (d_locked d); exact (fence_text_sim pl d).
Qed.

(** * The text of the lock pool does what PoolModel.v says: waiting and notifying *)
From Coq Require Import ZArith List Bool String Lia Arith.
From Verif Require Import SpecInt SpecBytes SpecPool Order Conv Prog FindModel RecordsModel SimProof PoolModel PoolText PoolTable PoolLayers PoolTextProof PoolTextCond PoolTextPool.
Import ListNotations.
Local Open Scope string_scope.
Local Open Scope Z_scope.
Local Open Scope prog_scope.

Local Opaque slock_new slock_do swait_new swait_do swait_del rd wr ld acquire release pool_text.

Section Waits.
  Variables (pl : platform) (d : odesc) (a : nat).
  Notation lk := (pl_lock pl).
  Notation i := (lock_of pl d).
  Notation mo := (PO SeqCst).

  (** the variables of a wait, [v] being the value read last *)
  Ltac readsub := sub (sim_refl _ (rd pl d)).
  Ltac loadsub := sub (sim_refl _ (ld d a)).
  Ltac epilogue := apply state_end; leaf.

  Lemma emu_wait : d_wait d = WEmulated -> forall old,
    sim eq (wait_text pl d a false "wait" [PZ old; mo] ret_waited) (scoped_wait pl d (wait_body pl d (rd pl d) old)).
  Proof.
    intros W old. unfold wait_text, wait_fns, scoped_wait, wait_body. rewrite W. go. apply state_begin. intros ws. go.
    apply sim_assoc_r. readsub. unfold loop. cbn [bind]. rename r into new.
    set (Env := fun v => [("old_val", (TS, PZ old)); ("", (TO, mo)); ("wait_state", (TO, PPair (PLk i) (handle i ws)));
           ("new_val", (TS, PZ v))]).
    apply (sim_loop _ _ _ _ _ (fun E y => E = Env y) (fun b r => exists v, b = XN (Env v) /\ r = RWaited v false)).
    - intros E y e. subst E. unfold Env. round. destruct (y =? old).
      + sub (state_wait pl d i ws). readsub. leaf.
      + leaf. eexists. split; reflexivity.
    - reflexivity.
    - intros b r [v [e f]]. subst b r. unfold Env. go. epilogue.
  Qed.

  Lemma div_sign : forall t, (0 <=? t / 1000000000) = (0 <=? t).
  Proof.
    intros t. pose proof (Z.div_mod t 1000000000) as A. pose proof (Z.mod_pos_bound t 1000000000) as A'.
    destruct (Z.leb_spec 0 (t / 1000000000)), (Z.leb_spec 0 t); try reflexivity; exfalso; lia.
  Qed.
  Ltac posix N := unfold conf;
    let B := fresh "B" in
    assert (B : match lk with LSrw => false | _ => true end = true) by (destruct lk; congruence); rewrite B; clear B.
  Ltac windows N := unfold conf;
    let B := fresh "B" in
    assert (B : match lk with LSrw => false | _ => true end = false) by (destruct lk; congruence); rewrite B; clear B.

  Lemma emu_sys : d_wait d = WEmulated -> forall old limit, lk <> LSrw ->
    sim eq (wait_text pl d a true "wait_until" [PZ old; PZ limit; mo; PB false] ret_waited)
      (scoped_wait pl d (fun ws => new <- rd pl d ;; abs_from pl d (rd pl d) old limit new ws)).
  Proof.
    intros W old limit N. unfold wait_text, wait_fns, scoped_wait, abs_from. rewrite W. posix N.
    go. apply state_begin. intros ws. go.
    apply sim_assoc_r. readsub. rename r into new. rewrite div_sign. destruct (0 <=? limit).
    - unfold loop. cbn [bind].
      set (Env := fun v => [("old_val", (TS, PZ old)); ("timeout", (TO, PZ limit)); ("timed_out", (TO, PB false));
            ("wait_state", (TO, PPair (PLk i) (handle i ws))); ("new_val", (TS, PZ v)); ("abs_timeout", (TO, PZ limit))]).
      apply (sim_loop _ _ _ _ _ (fun E y => E = Env y)
        (fun b r => exists v, (b = XN (Env v) /\ r = RWaited v false) \/ (b = XG "timeout_expired" (Env v) /\ r = RWaited v (v =? old)))).
      + intros E y e. subst E. unfold Env. round. destruct (y =? old).
        * sub (state_until pl d i ws limit N). readsub. destruct r; leaf. eexists. right. split; reflexivity.
        * leaf. eexists. left. split; reflexivity.
      + reflexivity.
      + intros b r [v [[e f]|[e f]]]; subst b r; unfold Env; go; epilogue.
    - cbn [bind]. epilogue.
  Qed.

  (** the loop of wait_until_fallback *)
  Ltac fallback old limit ws x :=
      set (Env := fun v now t => [("old_val", (TS, PZ old)); ("timeout", (TO, PZ limit)); ("now", (TO, PZ now)); ("timed_out", (TO, PB t));
            ("wait_state", (TO, PPair (PLk i) (handle i ws))); ("new_val", (TS, PZ v))]);
      apply (sim_loop _ _ _ _ _ (fun E y => E = Env (fst y) (snd y) false)
        (fun b r => exists v now t, b = XN (Env v now t) /\ r = RWaited v t));
      [ let y := fresh "y" in let now := fresh "now" in intros ? [y now] ->; unfold Env; cbn [fst snd]; round; destruct (y =? old);
        [ destruct (limit - now <=? 0);
          [ leaf; do 3 eexists; split; reflexivity
          | sub (state_for pl d i ws (limit - now)); unfold pdo, do; cbn [bind]; act1; readsub; leaf ]
        | leaf; do 3 eexists; split; reflexivity ]
      | reflexivity
      | let b := fresh "b" in let r := fresh "r" in intros b r [? [? [? [? ?]]]]; subst b r; unfold Env; go; epilogue ].
  Lemma emu_win : d_wait d = WEmulated -> forall posix old limit, lk = LSrw ->
    sim eq (wait_text pl d a posix "wait_until" [PZ old; PZ limit; mo; PB false] ret_waited)
      (now <- pdo Now ;; scoped_wait pl d (fun ws => new <- rd pl d ;; fallback_from pl d (rd pl d) old limit (now : Z) new ws)).
  Proof.
    intros W posix old limit N. unfold wait_text, wait_fns, scoped_wait, fallback_from. rewrite W.
    windows N.
    go. act1. apply state_begin. intros ws. go.
      apply sim_assoc_r. readsub. unfold loop. cbn [bind]. fallback old limit ws x.
  Qed.
  Lemma emu_other : d_wait d = WEmulated -> forall old limit,
    sim eq (wait_text pl d a false "wait_until" [PZ old; PZ limit; mo; PB false] ret_waited)
      (now <- pdo Now ;; scoped_wait pl d (fun ws => new <- rd pl d ;; fallback_from pl d (rd pl d) old limit (now : Z) new ws)).
  Proof.
    intros W old limit.
    assert (N : lk <> LSrw \/ lk = LSrw) by (destruct lk; (right; reflexivity) || (left; discriminate)).
    destruct N as [N|N]; [|exact (emu_win W false old limit N)].
    unfold wait_text, wait_fns, scoped_wait, fallback_from. rewrite W. posix N.
    go. act1. apply state_begin. intros ws. go.
      apply sim_assoc_r. readsub. unfold loop. cbn [bind]. fallback old limit ws x.
  Qed.
  Lemma emu_for : d_wait d = WEmulated -> forall old limit,
    sim eq (wait_text pl d a false "wait_for" [PZ old; PZ limit; mo; PB false] ret_waited)
      (now <- pdo Now ;;
       scoped_wait pl d (fun ws => new <- rd pl d ;; fallback_from pl d (rd pl d) old ((now : Z) + limit) (now : Z) new ws)).
  Proof.
    intros W old limit. unfold wait_text, wait_fns, scoped_wait, fallback_from. rewrite W. go. act1. apply state_begin.
    intros ws. go. apply sim_assoc_r. readsub. unfold loop. cbn [bind]. fallback old (x + limit) ws x.
  Qed.

  Lemma emu_notify : d_wait d = WEmulated -> forall all : bool,
    sim eq (wait_text pl d a false (if all then "notify_all" else "notify_one") [] (fun _ _ => Ret (RI RUnit))) (notify_prog pl d all).
  Proof.
    intros W all. pose proof (pool_notify_text pl d i all) as H. unfold wait_text, wait_fns, notify_prog, scoped. rewrite W.
    destruct all; go; subm (guard_new pl d true); rewrite guard_get; go; apply sim_assoc_r; sub H; cbn [bind]; sub (guard_del pl d i); leaf.
  Qed.
End Waits.

(** * The text of the lock pool does what PoolModel.v says: waiting and notifying, polling and native waits *)
From Coq Require Import ZArith List Bool String Lia Arith.
From Verif Require Import SpecInt SpecBytes SpecPool Order Conv Prog FindModel RecordsModel SimProof PoolModel PoolText PoolTable PoolLayers PoolTextProof PoolTextCond PoolTextPool.
Import ListNotations.
Local Open Scope string_scope.
Local Open Scope Z_scope.
Local Open Scope prog_scope.

Local Opaque slock_new slock_do swait_new swait_do swait_del rd wr ld acquire release pool_text.

Section Waits.
  Variables (pl : platform) (d : odesc) (a : nat).
  Notation lk := (pl_lock pl).
  Notation i := (lock_of pl d).
  Notation mo := (PO SeqCst).

  (** the variables of a wait, [v] being the value read last *)
  Ltac readsub := sub (sim_refl _ (rd pl d)).
  Ltac loadsub := sub (sim_refl _ (ld d a)).
  Ltac epilogue := apply state_end; leaf.

  Lemma poll_wait_text : d_wait d = WPoll -> forall old,
    sim eq (wait_text pl d a false "wait" [PZ old; mo] ret_waited) (poll_wait d a old).
  Proof.
    intros W old. unfold wait_text, wait_fns, poll_wait. rewrite W. go. loadsub.
    destruct (r =? old) eqn:S; [|leaf].
    match goal with |- sim _ (rounds ?s _ _ ?k) _ => set (STEP := s); set (K := k) end.
    set (Env := fun v => [("old_val", (TS, PZ old)); ("order", (TO, mo)); ("new_val", (TS, PZ v))]).
    change (poll_fast d a 16) with (poll_fast d a (count 16)). fold (Env r). revert r S.
    induction (count 16) as [|n IH]; intros v S.
    - change (rounds STEP 0 (Env v) K) with (K (Env v)). unfold K, Env. go. cbn [poll_fast]. unfold loop.
      apply (sim_loop _ _ _ _ _ (fun E (_ : unit) => exists v, E = Env v) (fun b r => exists v, b = XN (Env v) /\ r = RWaited v false)).
      + intros E [] [y e]. subst E. unfold Env. round. unfold pdo, do. cbn [bind]. act1. loadsub. destruct (r =? old); leaf.
        * eexists. reflexivity.
        * eexists. split; reflexivity.
      + eexists. reflexivity.
      + intros b q [y [e f]]. subst b q. unfold Env. go. leaf.
    - change (rounds STEP (Datatypes.S n) (Env v) K) with (STEP (Env v) (fun E => rounds STEP n E K)).
      unfold STEP at 1. unfold Env. go. cbn [poll_fast]. unfold pdo, do. cbn [bind]. act1. loadsub.
      destruct (r =? old) eqn:Q; [|leaf]. exact (IH r Q).
  Qed.

  (** the loops of wait_until_impl *)
  Ltac polling old limit now :=
    let STEP := fresh "STEP" in let K := fresh "K" in let Env := fresh "Env" in
    match goal with |- sim _ (rounds ?s _ _ ?k) (poll_fast_timed _ _ _ _ _ _ ?m) =>
      set (STEP := s); set (K := k);
      set (Env := fun now t v => [("old_val", (TS, PZ old)); ("timeout", (TO, PZ limit)); ("now", (TO, PZ now)); ("order", (TO, mo));
         ("timed_out", (TO, PB t)); ("new_val", (TS, PZ v))]);
      let G := fresh "G" in
      enough (G : forall n u, sim eq (rounds STEP n (Env u false old) K) (poll_fast_timed d a n old limit u m)) by exact (G (count 16) now)
    end;
    let n := fresh "n" in let IH := fresh "IH" in let u := fresh "u" in induction n as [|n IH]; intros u;
    [ change (rounds STEP 0 (Env u false old) K) with (K (Env u false old)); unfold K, Env; go; cbn [poll_fast_timed]; unfold loop;
      apply (sim_loop _ _ _ _ _ (fun E (y : Z) => E = Env y false old)
        (fun b r => exists v now, (b = XN (Env now false v) /\ r = RWaited v false) \/ (b = XG "finish" (Env now true old) /\ r = RWaited old true)));
      [ let y := fresh "y" in intros ? y ->; unfold Env; round; destruct (0 <=? y - limit);
        [ leaf; exists 0; eexists; right; split; reflexivity
        | unfold pdo, do; cbn [bind]; act1; act1; loadsub;
          match goal with |- context [?r =? old] => destruct (Z.eqb_spec r old) as [->|] end; leaf;
          do 2 eexists; left; split; reflexivity ]
      | reflexivity
      | let b := fresh "b" in let q := fresh "q" in intros b q [? [? [[? ?]|[? ?]]]]; subst b q; unfold Env; go; leaf ]
    | change (rounds STEP (Datatypes.S n) (Env u false old) K) with (STEP (Env u false old) (fun E => rounds STEP n E K));
      unfold STEP at 1; unfold Env; go; cbn [poll_fast_timed]; destruct (0 <=? u - limit); [leaf|];
      unfold pdo, do; cbn [bind]; act1; act1; loadsub;
      match goal with |- context [?r =? old] => destruct (Z.eqb_spec r old) as [->|] end; [|leaf]; exact (IH _) ].

  Lemma poll_until_text : d_wait d = WPoll -> forall posix old limit,
    sim eq (wait_text pl d a posix "wait_until" [PZ old; PZ limit; mo; PB false] ret_waited) (poll_timed d a UntilOther old limit).
  Proof.
    intros W posix old limit. unfold wait_text, wait_fns, poll_timed. rewrite W. go. act1. loadsub.
    destruct (Z.eqb_spec r old) as [e|e]; [|leaf]. subst r. polling old limit x.
  Qed.
  Lemma poll_for_text : d_wait d = WPoll -> forall old limit,
    sim eq (wait_text pl d a false "wait_for" [PZ old; PZ limit; mo; PB false] ret_waited) (poll_timed d a WaitFor old limit).
  Proof.
    intros W old limit. unfold wait_text, wait_fns, poll_timed. rewrite W. go. act1. loadsub.
    destruct (Z.eqb_spec r old) as [e|e]; [|leaf]. subst r. generalize (x + limit) as dl. intros dl. polling old dl x.
  Qed.
  Lemma native_wait_text : d_wait d = WFutex -> forall old,
    sim eq (wait_text pl d a false "wait" [PZ old; mo] ret_waited) (native_wait d a old).
  Proof.
    intros W old. unfold wait_text, wait_fns, native_wait, native_sleep. rewrite W. go. loadsub. 
    set (Env := fun v => [("old_val", (TS, PZ old)); ("order", (TO, mo)); ("new_val", (TS, PZ v))]).
    apply (sim_loop _ _ _ _ _ (fun E y => E = Env y) (fun b r => exists v, b = XN (Env v) /\ r = RWaited v false)).
    - intros E y e. subst E. unfold Env. round. destruct (y =? old).
      + act1. destruct x.
        * act1. destruct x; loadsub; leaf.
        * loadsub. leaf.
      + leaf. eexists. split; reflexivity.
    - reflexivity.
    - intros b q [v [e f]]. subst b q. unfold Env. go. leaf.
  Qed.
  Lemma native_notify_text : d_wait d = WFutex -> forall all : bool,
    sim eq (wait_text pl d a false (if all then "notify_all" else "notify_one") [] (fun _ _ => Ret (RI RUnit)))
      (pdo (FWake (FO a) all) ;;; Ret (RI RUnit)).
  Proof. intros W all. unfold wait_text, wait_fns. rewrite W. destruct all; go; act1; leaf. Qed.
  Lemma poll_notify_text : d_wait d = WPoll -> forall all : bool,
    sim eq (wait_text pl d a false (if all then "notify_all" else "notify_one") [] (fun _ _ => Ret (RI RUnit))) (Ret (RI RUnit)).
  Proof. intros W all. unfold wait_text, wait_fns. rewrite W. destruct all; go; leaf. Qed.
  Lemma fence_text_sim : sim eq (fence_text pl d) (fence_prog pl).
  Proof.
    unfold fence_text, fence_prog. go. subm (pool_lock pl d false 0). sub (pool_unlock pl d (Z.to_nat (get_lock_index pl 0))). leaf.
  Qed.
End Waits.

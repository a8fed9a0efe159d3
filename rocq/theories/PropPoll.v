(** * Property C44: the polling waits of inter-process objects.

    Statements only.  Vocabulary: SpecSleep.v.  What the waits return is C31 and C34. *)
From Coq Require Import ZArith List Bool Arith Lia.
From Verif Require Import SpecInt SpecTyped SpecLin SpecObj SpecPool Prog FindModel PoolModel PoolFront SpecSleep PollProof PoolExamples SleepExamples.
Import ListNotations.
Open Scope Z_scope.

(** From the state after [l1] on the object differs from [old]: the third step that the waiter then makes, at the latest,
    ends the wait. *)
Theorem C44_wait_notices_change : forall pl (T : nat -> tobj) m l1 l2 t a old,
  d_wait (t_desc (T a)) = WPoll ->
  let c1 := fst (t_run pl T m l1) in
  running c1 t (a, TWait old) ->
  throughout pl (t_impl pl T) c1 l2 (fun c => value_of (fun a => t_desc (T a)) (c_mem c) a <> t_enc (T a) old) ->
  ~ In (SRes t) l2 -> (3 <= own_steps t l2)%nat ->
  exists r, c_thr (fst (t_run pl T m (l1 ++ l2))) t = Run (a, TWait old) (Ret r).
Proof. exact poll_notices. Qed.
Print Assumptions C44_wait_notices_change.
Theorem C44_timed_wait_notices_change : forall pl (T : nat -> tobj) m l1 l2 t a k old limit,
  d_wait (t_desc (T a)) = WPoll ->
  let c1 := fst (t_run pl T m l1) in
  running c1 t (a, TTimed k old limit) ->
  throughout pl (t_impl pl T) c1 l2 (fun c => value_of (fun a => t_desc (T a)) (c_mem c) a <> t_enc (T a) old) ->
  ~ In (SRes t) l2 -> (5 <= own_steps t l2)%nat ->
  exists r, c_thr (fst (t_run pl T m (l1 ++ l2))) t = Run (a, TTimed k old limit) (Ret r).
Proof. exact poll_timed_notices. Qed.
Print Assumptions C44_timed_wait_notices_change.
(** The call begins after [l0] and has made a step in [l1] (the deadline of [wait_for] counts from there at the latest);
    in the state after [l2] the deadline is reached.  At most six more steps of the waiter end the wait. *)
Theorem C44_timed_wait_ends_at_deadline : forall pl (T : nat -> tobj) m l0 t a k old limit l1 l2 l3,
  d_wait (t_desc (T a)) = WPoll ->
  c_thr (fst (t_run pl T m l0)) t = Idle ->
  let c1 := fst (t_run pl T m (l0 ++ SInv t (a, TTimed k old limit) :: l1)) in
  let c2 := fst (t_run pl T m (l0 ++ SInv t (a, TTimed k old limit) :: l1 ++ l2)) in
  (1 <= own_steps t l1)%nat -> ~ In (SRes t) (l1 ++ l2 ++ l3) ->
  match k with WaitFor => clk (c_mem c1) + limit | _ => limit end <= clk (c_mem c2) ->
  (6 <= own_steps t l3)%nat ->
  exists r, c_thr (fst (t_run pl T m (l0 ++ SInv t (a, TTimed k old limit) :: l1 ++ l2 ++ l3))) t = Run (a, TTimed k old limit) (Ret r).
Proof. exact poll_deadline. Qed.
Print Assumptions C44_timed_wait_ends_at_deadline.

(** a waiter that has polled sixty times when another thread stores 7 *)
Example C44_change_applies : forall lk,
  let c1 := fst (t_run (x_pl lk) z_obj z_mem (z_change 3 (TWait 0))) in
  d_wait (t_desc (z_obj 3)) = WPoll /\ running c1 1 (3%nat, TWait 0) /\
  throughout (x_pl lk) (t_impl (x_pl lk) z_obj) c1 (go 1 3) (fun c => value_of z_D (c_mem c) 3 <> t_enc (z_obj 3) 0) /\
  ~ In (SRes 1%nat) (go 1 3) /\ (3 <= own_steps 1 (go 1 3))%nat /\
  retof (fst (t_run (x_pl lk) z_obj z_mem (z_change 3 (TWait 0) ++ go 1 3))) 1 = Some ((3%nat, TWait 0), TWaited 7 false).
Proof.
  intros lk c1. split; [reflexivity|]. split; [apply opof_ok; destruct lk; vm_compute; reflexivity|].
  split; [eapply through_ok; [intros c0 H; apply (changedb_ok (x_pl lk) 3 _ c0 H); intros; discriminate|]; destruct lk; vm_compute; reflexivity|].
  split; [intros H; apply repeat_spec in H; discriminate|]. split; [reflexivity|]. destruct lk; vm_compute; reflexivity.
Qed.
Example C44_deadline_applies : forall lk,
  let l1 := go 1 60 in
  let l2 := [SStep 1%nat (mkf true false 0 100 true true)] ++ go 1 3 in
  let o := (3%nat, TTimed WaitFor 0 50) in
  let c1 := fst (t_run (x_pl lk) z_obj z_mem ([] ++ SInv 1%nat o :: l1)) in
  let c2 := fst (t_run (x_pl lk) z_obj z_mem ([] ++ SInv 1%nat o :: l1 ++ l2)) in
  running c2 1 o /\ clk (c_mem c1) + 50 <= clk (c_mem c2) /\
  retof (fst (t_run (x_pl lk) z_obj z_mem ([] ++ SInv 1%nat o :: l1 ++ l2 ++ go 1 6))) 1 = Some (o, TWaited 0 true).
Proof.
  intros lk l1 l2 o c1 c2. split; [apply opof_ok; destruct lk; vm_compute; reflexivity|].
  split; [destruct lk; vm_compute; discriminate|]. destruct lk; vm_compute; reflexivity.
Qed.

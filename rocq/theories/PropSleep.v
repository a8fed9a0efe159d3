(** * Properties C23, C24, C32, C33, C45, the clock of C34 and the quiet states of C21: exclusion, sleeping and waking.

    Statements only.  Vocabulary: SpecSleep.v (who sleeps, who is blocked, what holds throughout a run) and [t_run] of
    PoolFront.v: all executions of the library's code on any collection of objects, some lock-based, some lock-free
    with any of the wait back ends, on any platform.  [pool_start]: the memory when the program starts. *)
From Coq Require Import ZArith List Bool Arith Lia.
From Verif Require Import SpecInt SpecTyped SpecLin SpecObj SpecPool Prog FindModel RecordsModel RecordsProof PoolModel PoolFront PoolProof PoolTyped
  SpecSleep SleepInv SleepTyped PoolExamples SleepExamples WrapProof.
Import ListNotations.
Open Scope Z_scope.

(** ** C23.  Two threads are never both about to touch what the same lock protects; nobody has touched it without
    holding the lock ([fault]); a futex lock in use is marked as taken. *)
Theorem C23_mutual_exclusion : forall pl (T : nat -> tobj) v m l,
  target (pl_search pl) (pl_init pl) -> layout_ok (fun a => t_desc (T a)) -> pool_start (fun a => t_desc (T a)) v m ->
  let c := fst (t_run pl T m l) in
  fault (c_mem c) = false /\
  (forall t u a b i, next c t a -> next c u b -> guard a = Some i -> guard b = Some i -> t = u) /\
  (pl_lock pl = LFutex -> forall t a i, next c t a -> guard a = Some i -> Z.odd (mx (c_mem c) i) = true).
Proof. intros pl T v m l HT HD Hm. exact (t_exclusion pl T HT HD v m Hm l). Qed.
Print Assumptions C23_mutual_exclusion.
(** thread 2 in the middle of a store to the lock-based object, thread 3 blocked in a load *)
Example C23_applies : forall lk,
  target (pl_search (x_pl lk)) (pl_init (x_pl lk)) /\ layout_ok z_D /\ pool_start z_D (fun _ => 0) z_mem /\
  exists n a, let c := fst (t_run (x_pl lk) z_obj z_mem (SInv 2%nat (0%nat, TInt (Store 7)) :: go 2 n ++ SInv 3%nat (0%nat, TInt Load) :: go 3 60)) in
    next c 2 (BWr 0 66 0) /\ next c 3 a /\ blocked (x_pl lk) 3 a (c_mem c).
Proof.
  intros lk. refine (conj (z_target lk) (conj z_layout (conj z_start _))).
  destruct lk; [exists 3%nat, (OsLock 0) | exists 4%nat, (FSleep None) | exists 3%nat, (OsLock 0)];
    (split; [apply nextof_ok; vm_compute; reflexivity|]; split; [apply nextof_ok; vm_compute; reflexivity|]);
    intros [lucky spur pick adv buf rec] H; cbn in H; subst spur; vm_compute; reflexivity.
Qed.

(** ** C24.  A run of the library that cannot go on has only threads in untimed waits, asleep in them; in particular
    nobody waits for a lock.  Missing from the full statement: the counters in the futex words are assumed not to have
    wrapped around ([counters_ok]; see [C24_short_runs]). *)
Theorem C24_no_stranded_sleeper_partial : forall pl (T : nat -> tobj) v m l,
  target (pl_search pl) (pl_init pl) -> layout_ok (fun a => t_desc (T a)) -> pool_start (fun a => t_desc (T a)) v m ->
  let c := fst (t_run pl T m l) in
  counters_ok pl (c_mem c) -> stuck pl c ->
  forall t o, running c t o -> (exists old, snd o = TWait old) /\ sleeps_in_wait (c_mem c) t.
Proof. intros pl T v m l HT HD Hm. exact (t_stuck pl T HT HD v m Hm l). Qed.
Print Assumptions C24_no_stranded_sleeper_partial.
(** Whenever a thread sleeps for a free lock, another one is active, and able to go on. *)
Theorem C24_free_lock_attended_partial : forall pl (T : nat -> tobj) v m l i t,
  target (pl_search pl) (pl_init pl) -> layout_ok (fun a => t_desc (T a)) -> pool_start (fun a => t_desc (T a)) v m ->
  let c := fst (t_run pl T m l) in
  counters_ok pl (c_mem c) -> sleeps_for_lock (c_mem c) i t -> own (c_mem c) i = None ->
  exists u o p, u <> t /\ c_thr c u = Run o p /\ asleep (c_mem c) u = false /\ forall a k, p = Do a k -> ~ blocked pl u a (c_mem c).
Proof. intros pl T v m l i t HT HD Hm. exact (t_attended pl T HT HD v m Hm l i t). Qed.
Print Assumptions C24_free_lock_attended_partial.
(** With the mutexes of the operating system (POSIX, Windows) nothing is missing. *)
Theorem C24_no_stranded_sleeper_os_locks : forall pl (T : nat -> tobj) v m l,
  pl_lock pl <> LFutex ->
  target (pl_search pl) (pl_init pl) -> layout_ok (fun a => t_desc (T a)) -> pool_start (fun a => t_desc (T a)) v m ->
  let c := fst (t_run pl T m l) in
  stuck pl c -> forall t o, running c t o -> (exists old, snd o = TWait old) /\ sleeps_in_wait (c_mem c) t.
Proof.
  intros pl T v m l HL HT HD Hm c. apply (C24_no_stranded_sleeper_partial pl T v m l HT HD Hm). intros K. contradiction.
Qed.
Print Assumptions C24_no_stranded_sleeper_os_locks.
(** The assumption holds in every run of fewer than 2^30 events. *)
Theorem C24_short_runs : forall pl (T : nat -> tobj) v m l,
  pool_start (fun a => t_desc (T a)) v m -> Z.of_nat (length l) < 2 ^ 30 -> counters_ok pl (c_mem (fst (t_run pl T m l))).
Proof. exact short_run. Qed.
Print Assumptions C24_short_runs.
(** a waiter nobody notifies; a sleeper for a lock that has just been released, with the releasing thread about to wake it *)
Example C24_stuck_applies : forall lk,
  let c := fst (t_run (x_pl lk) z_obj z_mem (z_sleep 0 (TWait 0))) in
  counters_ok (x_pl lk) (c_mem c) /\ stuck (x_pl lk) c /\ running c 1 (0%nat, TWait 0).
Proof.
  intros lk c. split; [apply short_run with (v := fun _ => 0); [exact z_start | reflexivity]|]. split.
  - apply stuckb_ok with (ts := [1%nat]); [|unfold c; destruct lk; vm_compute; reflexivity].
    intros t. destruct (Nat.eq_dec t 1) as [->|N]; [left; now left|]. right. apply z_idle, z_one, N.
  - apply opof_ok. unfold c. destruct lk; vm_compute; reflexivity.
Qed.
Example C24_attended_applies :
  let l := SInv 2%nat (0%nat, TInt (Store 7)) :: go 2 4 ++ (SInv 3%nat (0%nat, TInt Load) :: go 3 60) ++ go 2 5 in
  let c := fst (t_run (x_pl LFutex) z_obj z_mem l) in
  counters_ok (x_pl LFutex) (c_mem c) /\ sleeps_for_lock (c_mem c) 0 3 /\ own (c_mem c) 0 = None /\ next c 2 (FWake (FM 0) false).
Proof.
  intros l c. split; [apply short_run with (v := fun _ => 0); [exact z_start | reflexivity]|].
  split; [vm_compute; auto|]. split; [vm_compute; reflexivity|]. apply nextof_ok. vm_compute. reflexivity.
Qed.

(** Without the assumption the property fails.  Thread 2, releasing the lock, finds nobody to wake and is about to clear the
    mark 'contended' in the lock word; meanwhile the lock is taken and released 2^30 times, so that the word comes round to
    what thread 2 expects; threads 3 and 5 fall asleep for the lock; thread 2 clears the mark, and the wake-up of thread 3
    is forgotten.  In the end every other thread is idle, the lock is free, and thread 3 sleeps in a [load]. *)
Theorem C24_counter_wrap_refuted : exists l,
  let pl := x_pl LFutex in
  let c := fst (t_run pl z_obj z_mem l) in
  stuck pl c /\ running c 3 (0%nat, TInt Load) /\ sleeps_for_lock (c_mem c) 0 3 /\ own (c_mem c) 0 = None /\
  forall t, t <> 3%nat -> c_thr c t = Idle.
Proof. exact stranded. Qed.
Print Assumptions C24_counter_wrap_refuted.

(** ** C32.  From the state after [l1] on, object [a] differs from [old] whenever it is at rest; a notification of [a]
    begins and ends after [l1].  Then no thread in [wait(old)] on [a] is asleep. Missing: [counters_ok], as above. *)
Theorem C32_wait_not_missed_partial : forall pl (T : nat -> tobj) v m l1 l2 a old all,
  target (pl_search pl) (pl_init pl) -> layout_ok (fun a => t_desc (T a)) -> pool_start (fun a => t_desc (T a)) v m ->
  let c1 := fst (t_run pl T m l1) in
  let c := fst (t_run pl T m (l1 ++ l2)) in
  throughout pl (t_impl pl T) c1 l2 (fun c => at_rest pl (fun a => t_desc (T a)) (c_mem c) a ->
    value_of (fun a => t_desc (T a)) (c_mem c) a <> t_enc (T a) old) ->
  returned (snd (run (pexec (pl_search pl) (pl_init pl)) (t_impl pl T) c1 l2)) (a, TNotify all) ->
  all = true \/ throughout pl (t_impl pl T) c1 l2 (lone_waiter a) ->
  counters_ok pl (c_mem c) ->
  forall t, running c t (a, TWait old) -> ~ sleeps_in_wait (c_mem c) t.
Proof. intros pl T v m l1 l2 a old all HT HD Hm c1 c Hv Hr Ho Hc t Ht. exact (t_notified pl T HT HD v m Hm l1 l2 a old all Hv Hr Ho (or_introl Hc) t _ Ht eq_refl). Qed.
Print Assumptions C32_wait_not_missed_partial.
(** With the mutexes of the operating system nothing is missing. *)
Theorem C32_wait_not_missed_os_locks : forall pl (T : nat -> tobj) v m l1 l2 a old all,
  pl_lock pl <> LFutex ->
  target (pl_search pl) (pl_init pl) -> layout_ok (fun a => t_desc (T a)) -> pool_start (fun a => t_desc (T a)) v m ->
  let c1 := fst (t_run pl T m l1) in
  let c := fst (t_run pl T m (l1 ++ l2)) in
  throughout pl (t_impl pl T) c1 l2 (fun c => at_rest pl (fun a => t_desc (T a)) (c_mem c) a ->
    value_of (fun a => t_desc (T a)) (c_mem c) a <> t_enc (T a) old) ->
  returned (snd (run (pexec (pl_search pl) (pl_init pl)) (t_impl pl T) c1 l2)) (a, TNotify all) ->
  all = true \/ throughout pl (t_impl pl T) c1 l2 (lone_waiter a) ->
  forall t, running c t (a, TWait old) -> ~ sleeps_in_wait (c_mem c) t.
Proof.
  intros pl T v m l1 l2 a old all HL HT HD Hm c1 c Hv Hr Ho. apply (C32_wait_not_missed_partial pl T v m l1 l2 a old all HT HD Hm Hv Hr Ho).
  intros K. contradiction.
Qed.
Print Assumptions C32_wait_not_missed_os_locks.
(** Nor on an object whose waits sleep on its own storage, whatever the locks do and however long the run. *)
Theorem C32_wait_not_missed_native : forall pl (T : nat -> tobj) v m l1 l2 a old all,
  d_wait (t_desc (T a)) = WFutex ->
  target (pl_search pl) (pl_init pl) -> layout_ok (fun a => t_desc (T a)) -> pool_start (fun a => t_desc (T a)) v m ->
  let c1 := fst (t_run pl T m l1) in
  let c := fst (t_run pl T m (l1 ++ l2)) in
  throughout pl (t_impl pl T) c1 l2 (fun c => at_rest pl (fun a => t_desc (T a)) (c_mem c) a ->
    value_of (fun a => t_desc (T a)) (c_mem c) a <> t_enc (T a) old) ->
  returned (snd (run (pexec (pl_search pl) (pl_init pl)) (t_impl pl T) c1 l2)) (a, TNotify all) ->
  all = true \/ throughout pl (t_impl pl T) c1 l2 (lone_waiter a) ->
  forall t, running c t (a, TWait old) -> ~ sleeps_in_wait (c_mem c) t.
Proof.
  intros pl T v m l1 l2 a old all HW HT HD Hm c1 c Hv Hr Ho t Ht.
  exact (t_notified pl T HT HD v m Hm l1 l2 a old all Hv Hr Ho (or_intror HW) t _ Ht eq_refl).
Qed.
Print Assumptions C32_wait_not_missed_native.
Example C32_native_applies : d_wait (t_desc (z_obj 2)) = WFutex.
Proof. reflexivity. Qed.
(** Hence, once nothing more can happen, the waiters have returned. *)
Theorem C32_waiters_return_partial : forall pl (T : nat -> tobj) v m l1 l2 a old all,
  target (pl_search pl) (pl_init pl) -> layout_ok (fun a => t_desc (T a)) -> pool_start (fun a => t_desc (T a)) v m ->
  let c1 := fst (t_run pl T m l1) in
  let c := fst (t_run pl T m (l1 ++ l2)) in
  throughout pl (t_impl pl T) c1 l2 (fun c => at_rest pl (fun a => t_desc (T a)) (c_mem c) a ->
    value_of (fun a => t_desc (T a)) (c_mem c) a <> t_enc (T a) old) ->
  returned (snd (run (pexec (pl_search pl) (pl_init pl)) (t_impl pl T) c1 l2)) (a, TNotify all) ->
  all = true \/ throughout pl (t_impl pl T) c1 l2 (lone_waiter a) ->
  counters_ok pl (c_mem c) -> stuck pl c ->
  forall t, ~ running c t (a, TWait old).
Proof.
  intros pl T v m l1 l2 a old all HT HD Hm c1 c Hv Hr Ho Hc Hs t Ht.
  refine (C32_wait_not_missed_partial pl T v m l1 l2 a old all HT HD Hm Hv Hr Ho Hc t Ht _).
  exact (proj2 (C24_no_stranded_sleeper_partial pl T v m (l1 ++ l2) HT HD Hm Hc Hs t _ Ht)).
Qed.
Print Assumptions C32_waiters_return_partial.
(** thread 1 asleep on the lock-based, the pooled and the futex object; both kinds of notification *)
Example C32_applies : forall lk a all, (a <= 2)%nat ->
  let c1 := fst (t_run (x_pl lk) z_obj z_mem (z_change a (TWait 0))) in
  let c := fst (t_run (x_pl lk) z_obj z_mem (z_change a (TWait 0) ++ z_notify a all)) in
  sleeps_in_wait (c_mem c1) 1 /\
  throughout (x_pl lk) (t_impl (x_pl lk) z_obj) c1 (z_notify a all) (fun c => at_rest (x_pl lk) z_D (c_mem c) a -> value_of z_D (c_mem c) a <> t_enc (z_obj a) 0) /\
  returned (snd (run (pexec (pl_search (x_pl lk)) (pl_init (x_pl lk))) (t_impl (x_pl lk) z_obj) c1 (z_notify a all))) (a, TNotify all) /\
  throughout (x_pl lk) (t_impl (x_pl lk) z_obj) c1 (z_notify a all) (lone_waiter a) /\
  counters_ok (x_pl lk) (c_mem c) /\ running c 1 (a, TWait 0).
Proof.
  intros lk a all Ha c1 c. assert (Ea : a = 0%nat \/ a = 1%nat \/ a = 2%nat) by lia.
  split; [apply sleepsb_ok; unfold c1; destruct lk, Ea as [->|[->| ->]]; vm_compute; reflexivity|].
  split; [eapply through_ok; [intros c0; apply changedb_ok|]; unfold c1; destruct lk, all, Ea as [->|[->| ->]]; vm_compute; reflexivity|].
  split; [exists [], 2%nat, [], (TRet RUnit), []; unfold c1; destruct lk, all, Ea as [->|[->| ->]]; vm_compute; reflexivity|].
  split; [apply z_lone; unfold c1; destruct lk, all, Ea as [->|[->| ->]]; vm_compute; reflexivity|].
  split; [apply short_run with (v := fun _ => 0); [exact z_start | reflexivity]|].
  apply opof_ok. unfold c. destruct lk, all, Ea as [->|[->| ->]]; vm_compute; reflexivity.
Qed.

(** Without [counters_ok] the property fails: thread 1 has registered and read the counter of its wait record, and is about
    to fall asleep; the object is changed; 2^32 notifications bring the counter back; thread 1 falls asleep. *)
Theorem C32_counter_wrap_refuted : forall all, exists l1 l2,
  let pl := x_pl LFutex in
  let c1 := fst (t_run pl z_obj z_mem l1) in
  let c := fst (t_run pl z_obj z_mem (l1 ++ l2)) in
  throughout pl (t_impl pl z_obj) c1 l2 (fun c => at_rest pl z_D (c_mem c) 0 -> value_of z_D (c_mem c) 0 <> t_enc (z_obj 0) 0) /\
  returned (snd (run (pexec (pl_search pl) (pl_init pl)) (t_impl pl z_obj) c1 l2)) (0%nat, TNotify all) /\
  throughout pl (t_impl pl z_obj) c1 l2 (lone_waiter 0) /\
  stuck pl c /\ running c 1 (0%nat, TWait 0) /\ sleeps_in_wait (c_mem c) 1 /\ forall t, t <> 1%nat -> c_thr c t = Idle.
Proof.
  intros all. destruct (missed all) as (l1 & l2 & H1 & H2 & H3 & H4 & H5 & H6 & H7). exists l1, l2. intros pl c1 c.
  refine (conj _ (conj H2 (conj H3 (conj H4 (conj H5 (conj H6 H7)))))).
  intros l3 l4 E _ X. pose proof (eq_trans (eq_sym (H1 l3 l4 E)) X) as Y. discriminate Y.
Qed.
Print Assumptions C32_counter_wrap_refuted.

(** ** C33.  The same for [wait_for] and [wait_until], except on lock-free objects whose waits go through the pool. *)
Theorem C33_timed_wait_not_missed_partial : forall pl (T : nat -> tobj) v m l1 l2 a k old limit all,
  target (pl_search pl) (pl_init pl) -> layout_ok (fun a => t_desc (T a)) -> pool_start (fun a => t_desc (T a)) v m ->
  let c1 := fst (t_run pl T m l1) in
  let c := fst (t_run pl T m (l1 ++ l2)) in
  throughout pl (t_impl pl T) c1 l2 (fun c => at_rest pl (fun a => t_desc (T a)) (c_mem c) a ->
    value_of (fun a => t_desc (T a)) (c_mem c) a <> t_enc (T a) old) ->
  returned (snd (run (pexec (pl_search pl) (pl_init pl)) (t_impl pl T) c1 l2)) (a, TNotify all) ->
  all = true \/ throughout pl (t_impl pl T) c1 l2 (lone_waiter a) ->
  counters_ok pl (c_mem c) -> d_wait (t_desc (T a)) <> WPool ->
  forall t, running c t (a, TTimed k old limit) -> ~ sleeps_in_wait (c_mem c) t.
Proof.
  intros pl T v m l1 l2 a k old limit all HT HD Hm c1 c Hv Hr Ho Hc Hp t Ht.
  refine (t_notified pl T HT HD v m Hm l1 l2 a old all Hv Hr Ho (or_introl Hc) t _ Ht _). cbn. destruct (d_wait (t_desc (T a))); congruence.
Qed.
Print Assumptions C33_timed_wait_not_missed_partial.
(** Without [counters_ok]: an object whose waits sleep on its own storage; any platform without futex locks. *)
Theorem C33_timed_wait_not_missed_native : forall pl (T : nat -> tobj) v m l1 l2 a k old limit all,
  d_wait (t_desc (T a)) = WFutex ->
  target (pl_search pl) (pl_init pl) -> layout_ok (fun a => t_desc (T a)) -> pool_start (fun a => t_desc (T a)) v m ->
  let c1 := fst (t_run pl T m l1) in
  let c := fst (t_run pl T m (l1 ++ l2)) in
  throughout pl (t_impl pl T) c1 l2 (fun c => at_rest pl (fun a => t_desc (T a)) (c_mem c) a ->
    value_of (fun a => t_desc (T a)) (c_mem c) a <> t_enc (T a) old) ->
  returned (snd (run (pexec (pl_search pl) (pl_init pl)) (t_impl pl T) c1 l2)) (a, TNotify all) ->
  all = true \/ throughout pl (t_impl pl T) c1 l2 (lone_waiter a) ->
  forall t, running c t (a, TTimed k old limit) -> ~ sleeps_in_wait (c_mem c) t.
Proof.
  intros pl T v m l1 l2 a k old limit all HW HT HD Hm c1 c Hv Hr Ho t Ht.
  refine (t_notified pl T HT HD v m Hm l1 l2 a old all Hv Hr Ho (or_intror HW) t _ Ht _). cbn. now rewrite HW.
Qed.
Print Assumptions C33_timed_wait_not_missed_native.
Theorem C33_timed_wait_not_missed_os_locks : forall pl (T : nat -> tobj) v m l1 l2 a k old limit all,
  pl_lock pl <> LFutex -> d_wait (t_desc (T a)) <> WPool ->
  target (pl_search pl) (pl_init pl) -> layout_ok (fun a => t_desc (T a)) -> pool_start (fun a => t_desc (T a)) v m ->
  let c1 := fst (t_run pl T m l1) in
  let c := fst (t_run pl T m (l1 ++ l2)) in
  throughout pl (t_impl pl T) c1 l2 (fun c => at_rest pl (fun a => t_desc (T a)) (c_mem c) a ->
    value_of (fun a => t_desc (T a)) (c_mem c) a <> t_enc (T a) old) ->
  returned (snd (run (pexec (pl_search pl) (pl_init pl)) (t_impl pl T) c1 l2)) (a, TNotify all) ->
  all = true \/ throughout pl (t_impl pl T) c1 l2 (lone_waiter a) ->
  forall t, running c t (a, TTimed k old limit) -> ~ sleeps_in_wait (c_mem c) t.
Proof.
  intros pl T v m l1 l2 a k old limit all HL HW HT HD Hm c1 c Hv Hr Ho.
  refine (C33_timed_wait_not_missed_partial pl T v m l1 l2 a k old limit all HT HD Hm Hv Hr Ho _ HW). intros K. contradiction.
Qed.
Print Assumptions C33_timed_wait_not_missed_os_locks.
(** thread 1 asleep in a timed wait on the lock-based and on the futex object *)
Example C33_applies : forall lk a all, a = 0%nat \/ a = 2%nat ->
  let c1 := fst (t_run (x_pl lk) z_obj z_mem (z_change a (TTimed UntilSys 0 1000))) in
  let c := fst (t_run (x_pl lk) z_obj z_mem (z_change a (TTimed UntilSys 0 1000) ++ z_notify a all)) in
  sleeps_in_wait (c_mem c1) 1 /\
  throughout (x_pl lk) (t_impl (x_pl lk) z_obj) c1 (z_notify a all) (fun c => at_rest (x_pl lk) z_D (c_mem c) a -> value_of z_D (c_mem c) a <> t_enc (z_obj a) 0) /\
  returned (snd (run (pexec (pl_search (x_pl lk)) (pl_init (x_pl lk))) (t_impl (x_pl lk) z_obj) c1 (z_notify a all))) (a, TNotify all) /\
  throughout (x_pl lk) (t_impl (x_pl lk) z_obj) c1 (z_notify a all) (lone_waiter a) /\
  counters_ok (x_pl lk) (c_mem c) /\ d_wait (t_desc (z_obj a)) <> WPool /\ running c 1 (a, TTimed UntilSys 0 1000).
Proof.
  intros lk a all Ea c1 c.
  split; [apply sleepsb_ok; unfold c1; destruct lk, Ea as [->| ->]; vm_compute; reflexivity|].
  split; [eapply through_ok; [intros c0; apply changedb_ok|]; unfold c1; destruct lk, all, Ea as [->| ->]; vm_compute; reflexivity|].
  split; [exists [], 2%nat, [], (TRet RUnit), []; unfold c1; destruct lk, all, Ea as [->| ->]; vm_compute; reflexivity|].
  split; [apply z_lone; unfold c1; destruct lk, all, Ea as [->| ->]; vm_compute; reflexivity|].
  split; [apply short_run with (v := fun _ => 0); [exact z_start | reflexivity]|].
  split; [destruct Ea as [->| ->]; discriminate|].
  apply opof_ok. unfold c. destruct lk, all, Ea as [->| ->]; vm_compute; reflexivity.
Qed.
(** On those objects the property fails, with every kind of lock and for every kind of time limit: the waiter has read the
    old value; the object is changed and notified; the waiter then goes to sleep without reading it again. *)
Theorem C33_pooled_timed_wait_refuted : forall lk k all, exists l1 l2 limit,
  let pl := x_pl lk in
  let c1 := fst (t_run pl z_obj z_mem l1) in
  let c := fst (t_run pl z_obj z_mem (l1 ++ l2)) in
  throughout pl (t_impl pl z_obj) c1 l2 (fun c => at_rest pl z_D (c_mem c) 1 -> value_of z_D (c_mem c) 1 <> t_enc (z_obj 1) 0) /\
  returned (snd (run (pexec (pl_search pl) (pl_init pl)) (t_impl pl z_obj) c1 l2)) (1%nat, TNotify all) /\
  counters_ok pl (c_mem c) /\
  running c 1 (1%nat, TTimed k 0 limit) /\ sleeps_in_wait (c_mem c) 1 /\ clk (c_mem c) < limit.
Proof.
  intros lk k all. exists ((SInv 1%nat (1%nat, TTimed k 0 1000) :: go 1 (match lk, k with LPthread, UntilSys => 1 | _, _ => 2 end)) ++ call 2 (1%nat, TInt (Store 7)) 60), (z_notify 1 all ++ go 1 60), 1000.
  intros pl c1 c.
  split; [eapply through_ok; [intros c0; apply changedb_ok|]; unfold c1, pl; destruct lk, k, all; vm_compute; reflexivity|].
  split; [exists [], 2%nat, [], (TRet RUnit), []; unfold c1, pl; destruct lk, k, all; vm_compute; reflexivity|].
  split; [apply short_run with (v := fun _ => 0); [exact z_start | destruct lk, k; reflexivity]|].
  split; [apply opof_ok; unfold c, pl; destruct lk, k, all; vm_compute; reflexivity|].
  split; [apply sleepsb_ok; unfold c, pl; destruct lk, k, all; vm_compute; reflexivity|].
  unfold c, pl; destruct lk, k, all; vm_compute; reflexivity.
Qed.
Print Assumptions C33_pooled_timed_wait_refuted.

(** ** C34, the clock: a call begun after [l1] that is about to report a time-out does so with the deadline reached. *)
Theorem C34_timeout_reached : forall pl (T : nat -> tobj) v m l1 t a k old limit l2 w,
  target (pl_search pl) (pl_init pl) -> layout_ok (fun a => t_desc (T a)) -> pool_start (fun a => t_desc (T a)) v m ->
  let c1 := fst (t_run pl T m l1) in
  let c := fst (t_run pl T m (l1 ++ SInv t (a, TTimed k old limit) :: l2)) in
  c_thr c1 t = Idle -> c_thr c t = Run (a, TTimed k old limit) (Ret (TWaited w true)) ->
  match k with WaitFor => clk (c_mem c1) + limit | _ => limit end <= clk (c_mem c).
Proof. intros pl T v m l1 t a k old limit l2 w HT HD Hm c1 c Ht. exact (t_late pl T HT HD v m Hm l1 t a k old limit l2 w Ht). Qed.
Print Assumptions C34_timeout_reached.
(** each object, each kind of limit and of lock; the waiter sleeps or polls, then the clock advances *)
Example C34_timeout_applies : forall lk k a, (a <= 3)%nat ->
  c_thr (fst (t_run (x_pl lk) z_obj z_mem (z_notify a true))) 1 = Idle /\
  exists l2, c_thr (fst (t_run (x_pl lk) z_obj z_mem (z_notify a true ++ SInv 1%nat (a, TTimed k 0 50) :: l2))) 1 = Run (a, TTimed k 0 50) (Ret (TWaited 0 true)).
Proof.
  intros lk k a Ha. split; [apply z_idle; intros o [H|H]; [discriminate|]; rewrite in_app_iff in H; destruct H as [H|[H|[]]]; [apply repeat_spec in H|]; discriminate|].
  assert (Ea : a = 0%nat \/ a = 1%nat \/ a = 2%nat \/ a = 3%nat) by lia.
  exists (go 1 60 ++ repeat (SStep 1%nat (mkf true false 0 10000000 true true)) 60). apply retof_ok. destruct lk, k, Ea as [->|[->|[->| ->]]]; vm_compute; reflexivity.
Qed.

(** ** C45.  Whether or not memory for wait records can be had (the schedule says at each step whether it can), a thread
    sleeps in the pool only on the record that the search for its object's address finds; without memory nobody sleeps
    in the pool, and when nothing more can happen no wait through the pool is unfinished. *)
Theorem C45_sleeper_has_record : forall pl (T : nat -> tobj) v m l t i k,
  target (pl_search pl) (pl_init pl) -> layout_ok (fun a => t_desc (T a)) -> pool_start (fun a => t_desc (T a)) v m ->
  let c := fst (t_run pl T m l) in
  In (t, FC i k) (slp (c_mem c)) ->
  exists a x, running c t (a, x) /\ i = lock_of pl (t_desc (T a)) /\
    find (pl_search pl) (wl (c_mem c) i) (d_addr (t_desc (T a))) = Some (Some k).
Proof. intros pl T v m l t i k HT HD Hm. exact (t_record pl T HT HD v m Hm l t i k). Qed.
Print Assumptions C45_sleeper_has_record.
Theorem C45_without_memory : forall pl (T : nat -> tobj) v m l,
  target (pl_search pl) (pl_init pl) -> layout_ok (fun a => t_desc (T a)) -> pool_start (fun a => t_desc (T a)) v m -> no_memory l ->
  let c := fst (t_run pl T m l) in
  forall t i k, ~ In (t, FC i k) (slp (c_mem c)).
Proof. intros pl T v m l HT HD Hm Hl. exact (t_no_memory pl T HT HD v m Hm l Hl). Qed.
Print Assumptions C45_without_memory.
Theorem C45_without_memory_waits_finish : forall pl (T : nat -> tobj) v m l,
  target (pl_search pl) (pl_init pl) -> layout_ok (fun a => t_desc (T a)) -> pool_start (fun a => t_desc (T a)) v m -> no_memory l ->
  let c := fst (t_run pl T m l) in
  counters_ok pl (c_mem c) -> stuck pl c ->
  forall t a x, running c t (a, x) -> d_wait (t_desc (T a)) = WFutex.
Proof. intros pl T v m l HT HD Hm Hl. exact (t_no_memory_stuck pl T HT HD v m Hm l Hl). Qed.
Print Assumptions C45_without_memory_waits_finish.
(** with memory a waiter sleeps on record 1 of its lock; without, it keeps running *)
Example C45_applies : forall lk a, (a <= 1)%nat ->
  In (1%nat, FC (lock_of (x_pl lk) (t_desc (z_obj a))) 1) (slp (c_mem (fst (t_run (x_pl lk) z_obj z_mem (z_sleep a (TWait 0)))))).
Proof. intros lk a Ha. assert (Ea : a = 0%nat \/ a = 1%nat) by lia. destruct lk, Ea as [->| ->]; vm_compute; auto. Qed.
Example C45_without_memory_applies : forall lk a, (a <= 1)%nat ->
  let l := SInv 1%nat (a, TWait 0) :: repeat (SStep 1%nat (mkf true false 0 0 false true)) 60 in
  let c := fst (t_run (x_pl lk) z_obj z_mem l) in
  no_memory l /\ running c 1 (a, TWait 0) /\ slp (c_mem c) = [].
Proof.
  intros lk a Ha l c. assert (Ea : a = 0%nat \/ a = 1%nat) by lia. split; [|split].
  - intros t w [H|H]; [discriminate|]. apply repeat_spec in H. now injection H as -> ->.
  - apply opof_ok. unfold c, l. destruct lk, Ea as [->| ->]; vm_compute; reflexivity.
  - unfold c, l. destruct lk, Ea as [->| ->]; vm_compute; reflexivity.
Qed.

(** ** C21, C23: when no call is in progress, all locks are free (so the last part of [C21_lock_based_linearizable] gives
    the value of every object). *)
Theorem C23_quiet_unlocked : forall pl (T : nat -> tobj) v m l,
  target (pl_search pl) (pl_init pl) -> layout_ok (fun a => t_desc (T a)) -> pool_start (fun a => t_desc (T a)) v m ->
  let c := fst (t_run pl T m l) in
  quiet c -> forall i, own (c_mem c) i = None.
Proof. intros pl T v m l HT HD Hm. exact (t_quiet pl T HT HD v m Hm l). Qed.
Print Assumptions C23_quiet_unlocked.
Example C23_quiet_applies : forall lk, quiet (fst (t_run (x_pl lk) z_obj z_mem (z_notify 0 true))).
Proof.
  intros lk t. destruct (Nat.eq_dec t 2) as [->|N]; [apply idleof_ok; destruct lk; vm_compute; reflexivity|].
  apply z_idle. intros o [H|H]; [congruence|]. rewrite in_app_iff in H. destruct H as [H|[H|[]]]; [apply repeat_spec in H|]; discriminate.
Qed.

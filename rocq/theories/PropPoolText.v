(** * Property C61: the lock pool, the emulated operations and the waits, as they stand in the source.

    Statements only.  [pt_run] of PoolTextFront.v: all executions of the statements that PoolTable.v, read off the source by
    tools/extract_pool.py, has for src/lock_pool.cpp, D/lock_pool.hpp, the emulated operations and the wait operations.  The
    statements are those of C21, C23, C24, C31, C32, C33 and C34, with the text in place of the hand-written model; the
    vocabulary is the one of PropPool.v and PropSleep.v. *)
From Coq Require Import ZArith List Bool Arith Lia.
From Verif Require Import SpecInt SpecTyped SpecLin SpecObj SpecInstant SpecPool Prog FindModel RecordsModel RecordsProof PoolModel PoolFront PoolTyped PoolConseq
  SpecSleep SleepInv SleepTyped PoolExamples SleepExamples WrapProof PoolTextFront PoolTextRun.
Import ListNotations.
Open Scope Z_scope.

(** The text and the model of PoolModel.v give the same answers and leave the same memory, step for step, under every
    schedule, on every platform, for every collection of well-formed objects ([t_ok]: the value fits the storage), legal
    calls or not. *)
Theorem C61_text_and_model : forall pl (T : nat -> tobj) m l, (forall a, t_ok (T a)) ->
  snd (pt_run pl T m l) = snd (t_run pl T m l) /\ c_mem (fst (pt_run pl T m l)) = c_mem (fst (t_run pl T m l)).
Proof. intros pl T m l HO. exact (text_history pl T HO m l). Qed.

Theorem C61_lock_based_linearizable : forall pl (T : nat -> tobj) m (v0 : nat -> Z) l,
  platform_ok pl -> layout_ok (fun a => t_desc (T a)) -> (forall a, t_ok (T a)) ->
  pool_start (fun a => t_desc (T a)) (fun a => t_enc (T a) (v0 a)) m -> (forall a, tvalue (t_type (T a)) (v0 a)) ->
  legal (fun c => tcall_ok (t_type (T (fst c))) (snd c)) l ->
  let res := pt_run pl T m l in
  exists v th, linearizable_to (objects (fun a => tstep (t_type (T a)))) (fun a => t_holds (T a) (v0 a)) (snd res) v th /\
    (forall t, match c_thr (fst res) t with Idle => th t = PIdle | Run _ _ => th t <> PIdle end) /\
    (forall a, d_locked (t_desc (T a)) = false \/ own (c_mem (fst res)) (lock_of pl (t_desc (T a))) = None ->
       shows (fun a => t_desc (T a)) (c_mem (fst res)) a (t_enc (T a) (v a))).
Proof. intros pl T m v0 l Hpl HD HO. exact (text_sound pl T HO m v0 l Hpl HD). Qed.
(** the run of [C21_applies], by the text, with each kind of lock *)
Example C61_applies : forall lk,
  platform_ok (x_pl lk) /\ layout_ok (fun a => t_desc (x_obj a)) /\ (forall a, t_ok (x_obj a)) /\
  pool_start (fun a => t_desc (x_obj a)) (fun a => t_enc (x_obj a) (x_v0 a)) (x_mem x_v0) /\
  (forall a, tvalue (t_type (x_obj a)) (x_v0 a)) /\ x_legal x_sched /\
  snd (pt_run (x_pl lk) x_obj (x_mem x_v0) x_sched) =
    [EInv 1 (0%nat, TWait (-5)); EInv 2 (0%nat, TInt (Store (2 ^ 100))); EInv 3 (0%nat, TInt (Rmw Fetch (Bin Add 1)));
     ERes 2 (TRet RUnit); ERes 3 (TRet (RVal (2 ^ 100))); EInv 2 (0%nat, TNotify true); ERes 2 (TRet RUnit);
     ERes 1 (TWaited (2 ^ 100 + 1) false)].
Proof.
  intros lk. refine (conj (x_platform lk) (conj x_layout (conj x_ok (conj (x_start x_v0) (conj x_v0_ok (conj x_sched_legal _)))))).
  destruct lk; vm_compute; reflexivity.
Qed.

(** the lock-based floating-point object of 80 bits in 128 in the same collection, by the text *)
Example C61_fp_applies : forall lk,
  snd (pt_run (x_pl lk) x_obj (x_mem x_v0) (call 1 (2%nat, TFp (FStore 5)) 200 ++ call 2 (2%nat, TFp (FRmw FResult (FAdd 2))) 200 ++
      call 1 (2%nat, TFp (FRmw FFetch FNeg)) 200 ++ call 1 (2%nat, TFp FLoad) 200)) =
    [EInv 1 (2%nat, TFp (FStore 5)); ERes 1 (TRet RUnit); EInv 2 (2%nat, TFp (FRmw FResult (FAdd 2))); ERes 2 (TRet (RVal 7));
     EInv 1 (2%nat, TFp (FRmw FFetch FNeg)); ERes 1 (TRet (RVal 7)); EInv 1 (2%nat, TFp FLoad); ERes 1 (TRet (RVal (7 + 2 ^ 79)))].
Proof. destruct lk; vm_compute; reflexivity. Qed.

(** ** What waits return (C31, C34) *)
Theorem C61_wait_returns_changed_value : forall pl (T : nat -> tobj) m (v0 : nat -> Z) l,
  platform_ok pl -> layout_ok (fun a => t_desc (T a)) -> (forall a, t_ok (T a)) ->
  pool_start (fun a => t_desc (T a)) (fun a => t_enc (T a) (v0 a)) m -> (forall a, tvalue (t_type (T a)) (v0 a)) ->
  legal (fun c => tcall_ok (t_type (T (fst c))) (snd c)) l ->
  forall h1 t a old h2 r h3, answered (snd (pt_run pl T m l)) h1 t (a, TWait old) h2 r h3 ->
  exists s, during (objects (fun a => tstep (t_type (T a)))) (fun a => t_holds (T a) (v0 a)) h1 t (a, TWait old) h2 r h3 s /\
    r = TWaited (s a) false /\ ~ same (t_type (T a)) old (s a).
Proof.
  intros pl T m v0 l Hpl HD HT Hm Hv Hl h1 t a old h2 r h3 Ha. rewrite (proj1 (C61_text_and_model pl T m l HT)) in Ha.
  destruct (typed_waits pl T Hpl HD HT m v0 l Hm Hv Hl _ _ _ _ _ _ _ Ha) as (s & v' & A & B).
  exists s. split; [exact A|]. inversion B; subst. auto.
Qed.
Example C61_wait_applies : forall lk, exists h2,
  answered (snd (pt_run (x_pl lk) x_obj (x_mem x_v0) x_sched)) [] 1 (0%nat, TWait (-5)) h2 (TWaited (2 ^ 100 + 1) false) [].
Proof.
  intros lk. eexists. split.
  - destruct (C61_applies lk) as (_ & _ & _ & _ & _ & _ & E). rewrite E.
    apply (f_equal (fun l => _ :: l)). apply (app_assoc [_; _; _; _; _; _] []).
  - simpl. intuition (subst; simpl in *; discriminate).
Qed.
Theorem C61_timed_wait_values : forall pl (T : nat -> tobj) m (v0 : nat -> Z) l,
  platform_ok pl -> layout_ok (fun a => t_desc (T a)) -> (forall a, t_ok (T a)) ->
  pool_start (fun a => t_desc (T a)) (fun a => t_enc (T a) (v0 a)) m -> (forall a, tvalue (t_type (T a)) (v0 a)) ->
  legal (fun c => tcall_ok (t_type (T (fst c))) (snd c)) l ->
  forall h1 t a k old limit h2 r h3, answered (snd (pt_run pl T m l)) h1 t (a, TTimed k old limit) h2 r h3 ->
  exists s b, during (objects (fun a => tstep (t_type (T a)))) (fun a => t_holds (T a) (v0 a)) h1 t (a, TTimed k old limit) h2 r h3 s /\
    r = TWaited (s a) b /\ (b = true <-> same (t_type (T a)) old (s a)).
Proof.
  intros pl T m v0 l Hpl HD HT Hm Hv Hl h1 t a k old limit h2 r h3 Ha. rewrite (proj1 (C61_text_and_model pl T m l HT)) in Ha.
  destruct (typed_waits pl T Hpl HD HT m v0 l Hm Hv Hl _ _ _ _ _ _ _ Ha) as (s & v' & A & B).
  inversion B as [| | | | | | |? ? ? ? ? N|? ? ? ? ? N| | |]; subst; [exists s, false|exists s, true]; (split; [exact A|]); split; auto;
    split; intros; auto; try discriminate; contradiction.
Qed.
Lemma z_fits : forall a, t_ok (z_obj a).
Proof. intros a. exact I. Qed.
(** A time-out is reported with the deadline reached. *)
Theorem C61_timeout_reached : forall pl (T : nat -> tobj) v m l1 t a k old limit l2 w,
  target (pl_search pl) (pl_init pl) -> layout_ok (fun a => t_desc (T a)) -> (forall a, t_ok (T a)) -> pool_start (fun a => t_desc (T a)) v m ->
  let c1 := fst (pt_run pl T m l1) in
  let c := fst (pt_run pl T m (l1 ++ SInv t (a, TTimed k old limit) :: l2)) in
  c_thr c1 t = Idle -> c_thr c t = Run (a, TTimed k old limit) (Ret (TWaited w true)) ->
  match k with WaitFor => clk (c_mem c1) + limit | _ => limit end <= clk (c_mem c).
Proof. intros pl T v m l1 t a k old limit l2 w HT HD HO Hm. exact (text_late pl T HO v m HT HD Hm l1 t a k old limit l2 w). Qed.
(** each object, each kind of limit and of lock; the waiter sleeps or polls, then the clock advances *)
Example C61_timeout_applies : forall lk k a, (a <= 3)%nat ->
  c_thr (fst (pt_run (x_pl lk) z_obj z_mem [])) 1 = Idle /\
  exists l2, c_thr (fst (pt_run (x_pl lk) z_obj z_mem ([] ++ SInv 1%nat (a, TTimed k 0 50) :: l2))) 1 = Run (a, TTimed k 0 50) (Ret (TWaited 0 true)).
Proof.
  intros lk k a Ha. split; [reflexivity|].
  assert (Ea : a = 0%nat \/ a = 1%nat \/ a = 2%nat \/ a = 3%nat) by lia.
  exists (go 1 60 ++ repeat (SStep 1%nat (mkf true false 0 10000000 true true)) 60). apply retof_ok. destruct lk, k, Ea as [->|[->|[->| ->]]]; vm_compute; reflexivity.
Qed.

(** ** Exclusion, sleeping and waking (C23, C24, C32, C33) *)
Theorem C61_mutual_exclusion : forall pl (T : nat -> tobj) v m l,
  target (pl_search pl) (pl_init pl) -> layout_ok (fun a => t_desc (T a)) -> (forall a, t_ok (T a)) -> pool_start (fun a => t_desc (T a)) v m ->
  let c := fst (pt_run pl T m l) in
  fault (c_mem c) = false /\
  (forall t u a b i, next c t a -> next c u b -> guard a = Some i -> guard b = Some i -> t = u) /\
  (pl_lock pl = LFutex -> forall t a i, next c t a -> guard a = Some i -> Z.odd (mx (c_mem c) i) = true).
Proof. intros pl T v m l HT HD HO Hm. exact (text_exclusion pl T HO v m HT HD Hm l). Qed.
Example C61_exclusion_applies : forall lk,
  target (pl_search (x_pl lk)) (pl_init (x_pl lk)) /\ layout_ok z_D /\ (forall a, t_ok (z_obj a)) /\ pool_start z_D (fun _ => 0) z_mem /\
  exists n a, let c := fst (pt_run (x_pl lk) z_obj z_mem (SInv 2%nat (0%nat, TInt (Store 7)) :: go 2 n ++ SInv 3%nat (0%nat, TInt Load) :: go 3 60)) in
    next c 2 (BWr 0 66 0) /\ next c 3 a /\ blocked (x_pl lk) 3 a (c_mem c).
Proof.
  intros lk. refine (conj (z_target lk) (conj z_layout (conj z_fits (conj z_start _)))).
  destruct lk; [exists 3%nat, (OsLock 0) | exists 4%nat, (FSleep None) | exists 3%nat, (OsLock 0)];
    (split; [apply nextof_ok; vm_compute; reflexivity|]; split; [apply nextof_ok; vm_compute; reflexivity|]);
    intros [lucky spur pick adv buf rec] H; cbn in H; subst spur; vm_compute; reflexivity.
Qed.

(** Missing from the full statement, as in C24: the counters in the futex words have not wrapped around. *)
Theorem C61_no_stranded_sleeper_partial : forall pl (T : nat -> tobj) v m l,
  target (pl_search pl) (pl_init pl) -> layout_ok (fun a => t_desc (T a)) -> (forall a, t_ok (T a)) -> pool_start (fun a => t_desc (T a)) v m ->
  let c := fst (pt_run pl T m l) in
  counters_ok pl (c_mem c) -> stuck pl c ->
  forall t o, running c t o -> (exists old, snd o = TWait old) /\ sleeps_in_wait (c_mem c) t.
Proof. intros pl T v m l HT HD HO Hm. exact (text_stuck pl T HO v m HT HD Hm l). Qed.
Theorem C61_no_stranded_sleeper_os_locks : forall pl (T : nat -> tobj) v m l,
  pl_lock pl <> LFutex ->
  target (pl_search pl) (pl_init pl) -> layout_ok (fun a => t_desc (T a)) -> (forall a, t_ok (T a)) -> pool_start (fun a => t_desc (T a)) v m ->
  let c := fst (pt_run pl T m l) in
  stuck pl c -> forall t o, running c t o -> (exists old, snd o = TWait old) /\ sleeps_in_wait (c_mem c) t.
Proof.
  intros pl T v m l HL HT HD HO Hm c. apply (C61_no_stranded_sleeper_partial pl T v m l HT HD HO Hm). intros K. contradiction.
Qed.
Theorem C61_short_runs : forall pl (T : nat -> tobj) v m l,
  (forall a, t_ok (T a)) -> pool_start (fun a => t_desc (T a)) v m -> Z.of_nat (length l) < 2 ^ 30 ->
  counters_ok pl (c_mem (fst (pt_run pl T m l))).
Proof. intros pl T v m l HO Hm Hl. rewrite (proj2 (C61_text_and_model pl T m l HO)). exact (short_run pl T v m l Hm Hl). Qed.
Example C61_stuck_applies : forall lk,
  let c := fst (pt_run (x_pl lk) z_obj z_mem (z_sleep 0 (TWait 0))) in
  counters_ok (x_pl lk) (c_mem c) /\ stuck (x_pl lk) c /\ running c 1 (0%nat, TWait 0).
Proof.
  intros lk c. split; [apply C61_short_runs with (v := fun _ => 0); [exact z_fits | exact z_start | reflexivity]|]. split.
  - apply stuckb_ok with (ts := [1%nat]); [|unfold c; destruct lk; vm_compute; reflexivity].
    intros t. destruct (Nat.eq_dec t 1) as [->|N]; [left; now left|]. right.
    apply (rel_idle _ _ (proj2 (same_text (x_pl lk) z_obj z_fits z_mem _))). apply z_idle, z_one, N.
  - apply opof_ok. unfold c. destruct lk; vm_compute; reflexivity.
Qed.

Theorem C61_wait_not_missed_partial : forall pl (T : nat -> tobj) v m l1 l2 a old all,
  target (pl_search pl) (pl_init pl) -> layout_ok (fun a => t_desc (T a)) -> (forall a, t_ok (T a)) -> pool_start (fun a => t_desc (T a)) v m ->
  let c1 := fst (pt_run pl T m l1) in
  let c := fst (pt_run pl T m (l1 ++ l2)) in
  throughout pl (pt_impl pl T) c1 l2 (fun c => at_rest pl (fun a => t_desc (T a)) (c_mem c) a ->
    value_of (fun a => t_desc (T a)) (c_mem c) a <> t_enc (T a) old) ->
  returned (snd (run (pexec (pl_search pl) (pl_init pl)) (pt_impl pl T) c1 l2)) (a, TNotify all) ->
  all = true \/ throughout pl (pt_impl pl T) c1 l2 (lone_waiter a) ->
  counters_ok pl (c_mem c) ->
  forall t, running c t (a, TWait old) -> ~ sleeps_in_wait (c_mem c) t.
Proof.
  intros pl T v m l1 l2 a old all HT HD HO Hm c1 c Hv Hr Ho Hc t Ht.
  exact (text_notified pl T HO v m HT HD Hm l1 l2 a old all Hv Hr Ho (or_introl Hc) t _ Ht eq_refl).
Qed.
(** Nothing is missing with the mutexes of the operating system, nor on an object whose waits sleep on its own storage. *)
Theorem C61_wait_not_missed : forall pl (T : nat -> tobj) v m l1 l2 a old all,
  pl_lock pl <> LFutex \/ d_wait (t_desc (T a)) = WFutex ->
  target (pl_search pl) (pl_init pl) -> layout_ok (fun a => t_desc (T a)) -> (forall a, t_ok (T a)) -> pool_start (fun a => t_desc (T a)) v m ->
  let c1 := fst (pt_run pl T m l1) in
  let c := fst (pt_run pl T m (l1 ++ l2)) in
  throughout pl (pt_impl pl T) c1 l2 (fun c => at_rest pl (fun a => t_desc (T a)) (c_mem c) a ->
    value_of (fun a => t_desc (T a)) (c_mem c) a <> t_enc (T a) old) ->
  returned (snd (run (pexec (pl_search pl) (pl_init pl)) (pt_impl pl T) c1 l2)) (a, TNotify all) ->
  all = true \/ throughout pl (pt_impl pl T) c1 l2 (lone_waiter a) ->
  forall t, running c t (a, TWait old) -> ~ sleeps_in_wait (c_mem c) t.
Proof.
  intros pl T v m l1 l2 a old all HL HT HD HO Hm c1 c Hv Hr Ho t Ht.
  refine (text_notified pl T HO v m HT HD Hm l1 l2 a old all Hv Hr Ho _ t _ Ht eq_refl).
  destruct HL as [HL|HL]; [left; intros K; contradiction|right; exact HL].
Qed.
(** The timed waits, except (C33) on lock-free objects whose waits go through the pool. *)
Theorem C61_timed_wait_not_missed_partial : forall pl (T : nat -> tobj) v m l1 l2 a k old limit all,
  target (pl_search pl) (pl_init pl) -> layout_ok (fun a => t_desc (T a)) -> (forall a, t_ok (T a)) -> pool_start (fun a => t_desc (T a)) v m ->
  let c1 := fst (pt_run pl T m l1) in
  let c := fst (pt_run pl T m (l1 ++ l2)) in
  throughout pl (pt_impl pl T) c1 l2 (fun c => at_rest pl (fun a => t_desc (T a)) (c_mem c) a ->
    value_of (fun a => t_desc (T a)) (c_mem c) a <> t_enc (T a) old) ->
  returned (snd (run (pexec (pl_search pl) (pl_init pl)) (pt_impl pl T) c1 l2)) (a, TNotify all) ->
  all = true \/ throughout pl (pt_impl pl T) c1 l2 (lone_waiter a) ->
  counters_ok pl (c_mem c) -> d_wait (t_desc (T a)) <> WPool ->
  forall t, running c t (a, TTimed k old limit) -> ~ sleeps_in_wait (c_mem c) t.
Proof.
  intros pl T v m l1 l2 a k old limit all HT HD HO Hm c1 c Hv Hr Ho Hc Hp t Ht.
  exact (text_notified pl T HO v m HT HD Hm l1 l2 a old all Hv Hr Ho (or_introl Hc) t _ Ht (conj eq_refl Hp)).
Qed.
(** thread 1 asleep on the lock-based, the pooled and the futex object; both kinds of notification *)
Example C61_not_missed_applies : forall lk a all, (a <= 2)%nat ->
  let c1 := fst (pt_run (x_pl lk) z_obj z_mem (z_change a (TWait 0))) in
  let c := fst (pt_run (x_pl lk) z_obj z_mem (z_change a (TWait 0) ++ z_notify a all)) in
  sleeps_in_wait (c_mem c1) 1 /\
  throughout (x_pl lk) (pt_impl (x_pl lk) z_obj) c1 (z_notify a all) (fun c => at_rest (x_pl lk) z_D (c_mem c) a -> value_of z_D (c_mem c) a <> t_enc (z_obj a) 0) /\
  returned (snd (run (pexec (pl_search (x_pl lk)) (pl_init (x_pl lk))) (pt_impl (x_pl lk) z_obj) c1 (z_notify a all))) (a, TNotify all) /\
  counters_ok (x_pl lk) (c_mem c) /\ running c 1 (a, TWait 0).
Proof.
  intros lk a all Ha c1 c. assert (Ea : a = 0%nat \/ a = 1%nat \/ a = 2%nat) by lia.
  split; [apply sleepsb_ok; unfold c1; destruct lk, Ea as [->|[->| ->]]; vm_compute; reflexivity|].
  split; [eapply through_ok; [intros c0; apply changedb_ok|]; unfold c1; destruct lk, all, Ea as [->|[->| ->]]; vm_compute; reflexivity|].
  split; [exists [], 2%nat, [], (TRet RUnit), []; unfold c1; destruct lk, all, Ea as [->|[->| ->]]; vm_compute; reflexivity|].
  split; [apply C61_short_runs with (v := fun _ => 0); [exact z_fits | exact z_start | reflexivity]|].
  apply opof_ok. unfold c. destruct lk, all, Ea as [->|[->| ->]]; vm_compute; reflexivity.
Qed.

Print Assumptions C61_text_and_model.

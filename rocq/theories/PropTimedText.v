(** * Property C62: timed waits on objects that sleep on their own storage, as they stand in the source.

    Statements only.  [nt_run] of PoolTimedFront.v: all executions of the library, where the timed waits of such objects
    (lock-free, 32 bits, Linux) are the statements that PoolTimedTable.v, read off D/wait_ops_futex.hpp by
    tools/extract_pool.py, has for [wait_until] and [wait_for] and the functions they call; the rest is as in C61.
    [wide_times]: the waits count nanoseconds in 64 bits, so that no time is too large for the system.  Clocks the system can
    wait on ([UntilSys]) and others ([UntilOther]), with and without FUTEX_WAIT_BITSET ([pl_bitset]). *)
From Coq Require Import ZArith List Bool Arith Lia.
From Verif Require Import SpecInt SpecTyped SpecLin SpecObj SpecInstant SpecPool Prog FindModel RecordsModel RecordsProof PoolModel PoolFront PoolTyped PoolConseq
  SpecSleep SleepInv SleepTyped PoolExamples SleepExamples WrapProof PoolTextRun PoolTimedLayers PoolTimedFront PoolTimedRun.
Import ListNotations.
Open Scope Z_scope.

(** The text and the model of PoolModel.v give the same answers and leave the same memory under every schedule. *)
Theorem C62_text_and_model : forall pl (T : nat -> tobj) m l, (forall a, t_ok (T a)) -> wide_times pl ->
  snd (nt_run pl T m l) = snd (t_run pl T m l) /\ c_mem (fst (nt_run pl T m l)) = c_mem (fst (t_run pl T m l)).
Proof. intros pl T m l HO W. exact (timed_history pl T HO W m l). Qed.

(** Calls take effect one at a time, between call and return; a timed wait takes effect at one moment with the others. *)
Theorem C62_linearizable : forall pl (T : nat -> tobj) m (v0 : nat -> Z) l,
  wide_times pl -> platform_ok pl -> layout_ok (fun a => t_desc (T a)) -> (forall a, t_ok (T a)) ->
  pool_start (fun a => t_desc (T a)) (fun a => t_enc (T a) (v0 a)) m -> (forall a, tvalue (t_type (T a)) (v0 a)) ->
  legal (fun c => tcall_ok (t_type (T (fst c))) (snd c)) l ->
  let res := nt_run pl T m l in
  exists v th, linearizable_to (objects (fun a => tstep (t_type (T a)))) (fun a => t_holds (T a) (v0 a)) (snd res) v th /\
    (forall t, match c_thr (fst res) t with Idle => th t = PIdle | Run _ _ => th t <> PIdle end).
Proof. intros pl T m v0 l W Hpl HD HO. exact (timed_sound pl T HO W m v0 l Hpl HD). Qed.

(** A timed wait returns a value the object had during the wait; it says that it timed out exactly when that is the value
    waited on. *)
Theorem C62_timed_wait_values : forall pl (T : nat -> tobj) m (v0 : nat -> Z) l,
  wide_times pl -> platform_ok pl -> layout_ok (fun a => t_desc (T a)) -> (forall a, t_ok (T a)) ->
  pool_start (fun a => t_desc (T a)) (fun a => t_enc (T a) (v0 a)) m -> (forall a, tvalue (t_type (T a)) (v0 a)) ->
  legal (fun c => tcall_ok (t_type (T (fst c))) (snd c)) l ->
  forall h1 t a k old limit h2 r h3, answered (snd (nt_run pl T m l)) h1 t (a, TTimed k old limit) h2 r h3 ->
  exists s b, during (objects (fun a => tstep (t_type (T a)))) (fun a => t_holds (T a) (v0 a)) h1 t (a, TTimed k old limit) h2 r h3 s /\
    r = TWaited (s a) b /\ (b = true <-> same (t_type (T a)) old (s a)).
Proof.
  intros pl T m v0 l W Hpl HD HT Hm Hv Hl h1 t a k old limit h2 r h3 Ha. rewrite (proj1 (C62_text_and_model pl T m l HT W)) in Ha.
  destruct (typed_waits pl T Hpl HD HT m v0 l Hm Hv Hl _ _ _ _ _ _ _ Ha) as (s & v' & A & B).
  inversion B as [| | | | | | |? ? ? ? ? N|? ? ? ? ? N| | |]; subst; [exists s, false|exists s, true]; (split; [exact A|]); split; auto;
    split; intros; auto; try discriminate; contradiction.
Qed.
(** with and without FUTEX_WAIT_BITSET; object 2 sleeps on its own storage *)
Definition w_pl (bitset : bool) : platform := Build_platform LFutex 1 16 bitset find_address_generic 2 (fun _ d => d) 1 true.
Lemma w_fits : forall a, t_ok (z_obj a).
Proof. intros a. exact I. Qed.
Lemma w_wide : forall b, wide_times (w_pl b).
Proof. intros b. split; reflexivity. Qed.
Lemma w_platform : forall b, platform_ok (w_pl b).
Proof. intros b. unfold platform_ok. simpl. lia. Qed.
Lemma w_target : forall b, target (pl_search (w_pl b)) (pl_init (w_pl b)).
Proof. intros b. left. split; [reflexivity|]. cbn. auto. Qed.
(** the waiter sleeps; another thread stores 7 and notifies *)
Example C62_values_apply : forall b k,
  wide_times (w_pl b) /\ platform_ok (w_pl b) /\ layout_ok z_D /\ (forall a, t_ok (z_obj a)) /\ d_wait (z_D 2%nat) = WFutex /\
  exists h2, answered (snd (nt_run (w_pl b) z_obj z_mem (SInv 1%nat (2%nat, TTimed k 0 50) :: go 1 20 ++ call 2 (2%nat, TInt (Store 7)) 20 ++
    call 2 (2%nat, TNotify true) 20 ++ go 1 20 ++ [SRes 1%nat]))) [] 1 (2%nat, TTimed k 0 50) h2 (TWaited 7 false) [].
Proof.
  intros b k. refine (conj (w_wide b) (conj (w_platform b) (conj z_layout (conj w_fits (conj eq_refl _))))).
  exists [EInv 2 (2%nat, TInt (Store 7)); ERes 2 (TRet RUnit); EInv 2 (2%nat, TNotify true); ERes 2 (TRet RUnit)]. split.
  - destruct b, k; vm_compute; reflexivity.
  - simpl. intuition (subst; simpl in *; discriminate).
Qed.

(** A time-out is reported with the deadline reached. *)
Theorem C62_timeout_reached : forall pl (T : nat -> tobj) v m l1 t a k old limit l2 w,
  wide_times pl ->
  target (pl_search pl) (pl_init pl) -> layout_ok (fun a => t_desc (T a)) -> (forall a, t_ok (T a)) -> pool_start (fun a => t_desc (T a)) v m ->
  let c1 := fst (nt_run pl T m l1) in
  let c := fst (nt_run pl T m (l1 ++ SInv t (a, TTimed k old limit) :: l2)) in
  c_thr c1 t = Idle -> c_thr c t = Run (a, TTimed k old limit) (Ret (TWaited w true)) ->
  match k with WaitFor => clk (c_mem c1) + limit | _ => limit end <= clk (c_mem c).
Proof. intros pl T v m l1 t a k old limit l2 w W HT HD HO Hm. exact (timed_late pl T HO W v m HT HD Hm l1 t a k old limit l2 w). Qed.
(** times before the epoch, now, and more than a second ahead *)
Example C62_timeout_applies : forall b k limit, In limit [-3; 50; 2500000000] ->
  c_thr (fst (nt_run (w_pl b) z_obj z_mem [])) 1 = Idle /\
  exists l2, c_thr (fst (nt_run (w_pl b) z_obj z_mem ([] ++ SInv 1%nat (2%nat, TTimed k 0 limit) :: l2))) 1 = Run (2%nat, TTimed k 0 limit) (Ret (TWaited 0 true)).
Proof.
  intros b k limit Hl. split; [reflexivity|].
  exists (go 1 60 ++ repeat (SStep 1%nat (mkf true false 0 10000000000 true true)) 60). apply retof_ok.
  destruct b, k, Hl as [<-|[<-|[<-|[]]]]; vm_compute; reflexivity.
Qed.

(** A run that cannot go on has only threads asleep in untimed waits: no timed wait sleeps for ever.  Missing from the full
    statement, as in C24: the counters in the futex words of the lock pool have not wrapped around. *)
Theorem C62_timed_wait_ends_partial : forall pl (T : nat -> tobj) v m l,
  wide_times pl ->
  target (pl_search pl) (pl_init pl) -> layout_ok (fun a => t_desc (T a)) -> (forall a, t_ok (T a)) -> pool_start (fun a => t_desc (T a)) v m ->
  let c := fst (nt_run pl T m l) in
  counters_ok pl (c_mem c) -> stuck pl c ->
  forall t o, running c t o -> (exists old, snd o = TWait old) /\ sleeps_in_wait (c_mem c) t.
Proof. intros pl T v m l W HT HD HO Hm. exact (timed_stuck pl T HO W v m HT HD Hm l). Qed.
(** a stuck run: thread 1 waits without a limit on the object; its word is not one of the counters *)
Example C62_stuck_applies : forall b,
  let c := fst (nt_run (w_pl b) z_obj z_mem (z_sleep 2 (TWait 0))) in
  counters_ok (w_pl b) (c_mem c) /\ stuck (w_pl b) c /\ running c 1 (2%nat, TWait 0).
Proof.
  intros b c. split; [|split].
  - unfold c. rewrite (proj2 (C62_text_and_model (w_pl b) z_obj z_mem _ w_fits (w_wide b))).
    apply short_run with (v := fun _ => 0); [exact z_start | reflexivity].
  - apply stuckb_ok with (ts := [1%nat]); [|unfold c; destruct b; vm_compute; reflexivity].
    intros t. destruct (Nat.eq_dec t 1) as [->|N]; [left; now left|]. right.
    apply (rel_idle _ _ (proj2 (timed_same (w_pl b) z_obj w_fits (w_wide b) z_mem _))). apply z_idle, z_one, N.
  - apply opof_ok. unfold c. destruct b; vm_compute; reflexivity.
Qed.

(** When the value has changed and a notification has been given, a thread in a timed wait for the old value is not asleep. *)
Theorem C62_notification_not_missed : forall pl (T : nat -> tobj) v m l1 l2 a k old limit all,
  wide_times pl -> d_wait (t_desc (T a)) = WFutex ->
  target (pl_search pl) (pl_init pl) -> layout_ok (fun a => t_desc (T a)) -> (forall a, t_ok (T a)) -> pool_start (fun a => t_desc (T a)) v m ->
  let c1 := fst (nt_run pl T m l1) in
  let c := fst (nt_run pl T m (l1 ++ l2)) in
  throughout pl (nt_impl pl T) c1 l2 (fun c => at_rest pl (fun a => t_desc (T a)) (c_mem c) a ->
    value_of (fun a => t_desc (T a)) (c_mem c) a <> t_enc (T a) old) ->
  returned (snd (run (pexec (pl_search pl) (pl_init pl)) (nt_impl pl T) c1 l2)) (a, TNotify all) ->
  all = true \/ throughout pl (nt_impl pl T) c1 l2 (lone_waiter a) ->
  forall t, running c t (a, TTimed k old limit) -> ~ sleeps_in_wait (c_mem c) t.
Proof.
  intros pl T v m l1 l2 a k old limit all W HF HT HD HO Hm c1 c Hv Hr Ho t Ht.
  exact (timed_notified pl T HO W v m HT HD Hm l1 l2 a old all Hv Hr Ho HF t k limit Ht).
Qed.
Example C62_not_missed_applies : forall b k all,
  let c1 := fst (nt_run (w_pl b) z_obj z_mem (z_change 2 (TTimed k 0 50))) in
  let c := fst (nt_run (w_pl b) z_obj z_mem (z_change 2 (TTimed k 0 50) ++ z_notify 2 all)) in
  sleeps_in_wait (c_mem c1) 1 /\
  throughout (w_pl b) (nt_impl (w_pl b) z_obj) c1 (z_notify 2 all) (fun c => at_rest (w_pl b) z_D (c_mem c) 2 -> value_of z_D (c_mem c) 2 <> t_enc (z_obj 2) 0) /\
  returned (snd (run (pexec (pl_search (w_pl b)) (pl_init (w_pl b))) (nt_impl (w_pl b) z_obj) c1 (z_notify 2 all))) (2%nat, TNotify all) /\
  running c 1 (2%nat, TTimed k 0 50).
Proof.
  intros b k all c1 c.
  split; [apply sleepsb_ok; unfold c1; destruct b, k; vm_compute; reflexivity|].
  split; [eapply through_ok; [intros c0; apply changedb_ok|]; unfold c1; destruct b, k, all; vm_compute; reflexivity|].
  split; [exists [], 2%nat, [], (TRet RUnit), []; unfold c1; destruct b, k, all; vm_compute; reflexivity|].
  apply opof_ok. unfold c. destruct b, k, all; vm_compute; reflexivity.
Qed.

Print Assumptions C62_text_and_model.

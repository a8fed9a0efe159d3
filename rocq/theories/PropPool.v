(** * Properties C21, C22, C31 and the values of C34: lock-based objects, the choice of the lock, what waits return.

    Statements only.  Vocabulary: SpecPool.v (the sequential object with waits), SpecLin.v / SpecObj.v / SpecInstant.v
    (histories), and [t_run] of PoolFront.v: all executions of the library's code on any collection of objects, some
    lock-based, some lock-free with any of the wait back ends, on any platform. *)
From Coq Require Import ZArith List Bool Arith Lia.
From Verif Require Import SpecInt SpecTyped SpecLin SpecObj SpecInstant SpecPool Prog FindModel PoolModel PoolFront PoolTyped PoolConseq
  PoolExamples.
Import ListNotations.
Open Scope Z_scope.

(** ** C21.  The storage is read and written byte by byte; objects may share a lock; the exit handler and fences may run
    at any time. *)
Theorem C21_lock_based_linearizable : forall pl (T : nat -> tobj) m (v0 : nat -> Z) l,
  platform_ok pl -> layout_ok (fun a => t_desc (T a)) -> (forall a, t_ok (T a)) ->
  pool_start (fun a => t_desc (T a)) (fun a => t_enc (T a) (v0 a)) m -> (forall a, tvalue (t_type (T a)) (v0 a)) ->
  legal (fun c => tcall_ok (t_type (T (fst c))) (snd c)) l ->
  let res := t_run pl T m l in
  exists v th, linearizable_to (objects (fun a => tstep (t_type (T a)))) (fun a => t_holds (T a) (v0 a)) (snd res) v th /\
    (forall t, match c_thr (fst res) t with Idle => th t = PIdle | Run _ _ => th t <> PIdle end) /\
    (forall a, d_locked (t_desc (T a)) = false \/ own (c_mem (fst res)) (lock_of pl (t_desc (T a))) = None ->
       shows (fun a => t_desc (T a)) (c_mem (fst res)) a (t_enc (T a) (v a))).
Proof. intros pl T m v0 l Hpl HD HT. exact (typed_sound pl T Hpl HD HT m v0 l). Qed.
Print Assumptions C21_lock_based_linearizable.
(** A 128-bit integer written byte by byte by one thread while another increments it and a third waits, with each kind
    of lock. *)
Example C21_applies : forall lk,
  platform_ok (x_pl lk) /\ layout_ok (fun a => t_desc (x_obj a)) /\ (forall a, t_ok (x_obj a)) /\
  pool_start (fun a => t_desc (x_obj a)) (fun a => t_enc (x_obj a) (x_v0 a)) (x_mem x_v0) /\
  (forall a, tvalue (t_type (x_obj a)) (x_v0 a)) /\ x_legal x_sched /\
  snd (t_run (x_pl lk) x_obj (x_mem x_v0) x_sched) =
    [EInv 1 (0%nat, TWait (-5)); EInv 2 (0%nat, TInt (Store (2 ^ 100))); EInv 3 (0%nat, TInt (Rmw Fetch (Bin Add 1)));
     ERes 2 (TRet RUnit); ERes 3 (TRet (RVal (2 ^ 100))); EInv 2 (0%nat, TNotify true); ERes 2 (TRet RUnit);
     ERes 1 (TWaited (2 ^ 100 + 1) false)].
Proof.
  intros lk. refine (conj (x_platform lk) (conj x_layout (conj x_ok (conj (x_start x_v0) (conj x_v0_ok (conj x_sched_legal _)))))).
  destruct lk; vm_compute; reflexivity.
Qed.

(** ** C22.  [everywhere P p]: every machine action the program can make satisfies [P]; [only_lock i]: the action
    concerns lock [i] or no lock. *)
Theorem C22_index_valid : forall pl h, platform_ok pl ->
  lock_pool_size pl = 2 ^ pl_log2 pl /\ 0 <= get_lock_index pl h < lock_pool_size pl.
Proof.
  intros pl h [H _]. destruct (index_range pl h) as [-> ->]; [lia|]. split; [reflexivity|]. apply Z.mod_pos_bound. lia.
Qed.
Print Assumptions C22_index_valid.

Theorem C22_same_lock_for_all_calls : forall pl d d' a a' o o',
  d_addr d = d_addr d' -> d_align d = d_align d' -> concerns o = true -> concerns o' = true ->
  exists i, 0 <= Z.of_nat i /\ (platform_ok pl -> Z.of_nat i < lock_pool_size pl) /\
    everywhere (only_lock i) (obj_prog pl d a o) /\ everywhere (only_lock i) (obj_prog pl d' a' o').
Proof.
  intros pl d d' a a' o o' E1 E2 C C'. exists (lock_of pl d).
  assert (E : lock_of pl d' = lock_of pl d) by (unfold lock_of; now rewrite E1, E2).
  split; [lia|]. split; [|split; apply ev_obj; auto].
  intros P. unfold lock_of. destruct (C22_index_valid pl (hash_ptr (pl_malloc pl) (d_align d) (d_addr d)) P). lia.
Qed.
Print Assumptions C22_same_lock_for_all_calls.
(** Pools of one and of 2^16 locks; two objects that share a lock. *)
Example C22_applies :
  platform_ok (Build_platform LFutex 0 16 true find_address_generic 2 (fun _ d => d) 1 true) /\
  platform_ok (Build_platform LSrw 16 16 true find_address_generic 2 (fun _ d => d) 1 true) /\
  get_lock_index (Build_platform LFutex 0 16 true find_address_generic 2 (fun _ d => d) 1 true) 12345 = 0 /\
  lock_of (x_pl LFutex) (t_desc (x_obj 0)) = lock_of (x_pl LFutex) (t_desc (x_obj 2)) /\
  lock_of (Build_platform LSrw 16 16 true find_address_generic 2 (fun _ d => d) 1 true) (x_desc 5 4 4 WPool) = 120%nat.
Proof. unfold platform_ok. simpl. repeat split; lia. Qed.

(** ** C31.  [answered h h1 t c h2 r h3]: in the history [h], thread [t] makes the call [c] after [h1] and gets the
    answer [r] after the further events [h2].  [during ... s]: [s] is the state of the objects at an instant of the call. *)
Theorem C31_wait_returns_changed_value : forall pl (T : nat -> tobj) m (v0 : nat -> Z) l,
  platform_ok pl -> layout_ok (fun a => t_desc (T a)) -> (forall a, t_ok (T a)) ->
  pool_start (fun a => t_desc (T a)) (fun a => t_enc (T a) (v0 a)) m -> (forall a, tvalue (t_type (T a)) (v0 a)) ->
  legal (fun c => tcall_ok (t_type (T (fst c))) (snd c)) l ->
  forall h1 t a old h2 r h3, answered (snd (t_run pl T m l)) h1 t (a, TWait old) h2 r h3 ->
  exists s, during (objects (fun a => tstep (t_type (T a)))) (fun a => t_holds (T a) (v0 a)) h1 t (a, TWait old) h2 r h3 s /\
    r = TWaited (s a) false /\ ~ same (t_type (T a)) old (s a).
Proof.
  intros pl T m v0 l Hpl HD HT Hm Hv Hl h1 t a old h2 r h3 Ha.
  destruct (typed_waits pl T Hpl HD HT m v0 l Hm Hv Hl _ _ _ _ _ _ _ Ha) as (s & v' & A & B).
  exists s. split; [exact A|]. inversion B; subst. auto.
Qed.
Print Assumptions C31_wait_returns_changed_value.
(** in the run of [C21_applies] *)
Example C31_applies : forall lk, exists h2,
  answered (snd (t_run (x_pl lk) x_obj (x_mem x_v0) x_sched)) [] 1 (0%nat, TWait (-5)) h2 (TWaited (2 ^ 100 + 1) false) [].
Proof.
  intros lk. eexists. split.
  - destruct (C21_applies lk) as (_ & _ & _ & _ & _ & _ & E). rewrite E.
    apply (f_equal (fun l => _ :: l)). apply (app_assoc [_; _; _; _; _; _] []).
  - simpl. intuition (subst; simpl in *; discriminate).
Qed.

(** ** C34, the values: after a time-out the object was equal to [old] at an instant of the call, otherwise different. *)
Theorem C34_timed_wait_values : forall pl (T : nat -> tobj) m (v0 : nat -> Z) l,
  platform_ok pl -> layout_ok (fun a => t_desc (T a)) -> (forall a, t_ok (T a)) ->
  pool_start (fun a => t_desc (T a)) (fun a => t_enc (T a) (v0 a)) m -> (forall a, tvalue (t_type (T a)) (v0 a)) ->
  legal (fun c => tcall_ok (t_type (T (fst c))) (snd c)) l ->
  forall h1 t a k old limit h2 r h3, answered (snd (t_run pl T m l)) h1 t (a, TTimed k old limit) h2 r h3 ->
  exists s b, during (objects (fun a => tstep (t_type (T a)))) (fun a => t_holds (T a) (v0 a)) h1 t (a, TTimed k old limit) h2 r h3 s /\
    r = TWaited (s a) b /\ (b = true <-> same (t_type (T a)) old (s a)).
Proof.
  intros pl T m v0 l Hpl HD HT Hm Hv Hl h1 t a k old limit h2 r h3 Ha.
  destruct (typed_waits pl T Hpl HD HT m v0 l Hm Hv Hl _ _ _ _ _ _ _ Ha) as (s & v' & A & B).
  inversion B as [| | | | | | |? ? ? ? ? N|? ? ? ? ? N| | |]; subst; [exists s, false|exists s, true]; (split; [exact A|]); split; auto;
    split; intros; auto; try discriminate; contradiction.
Qed.
Print Assumptions C34_timed_wait_values.
(** comparing ignores the padding of [old] *)
Example C34_applies : forall lk, x_legal x_late /\
  answered (snd (t_run (x_pl lk) x_obj (x_mem (fun _ => 256)) x_late)) [] 1 (1%nat, TTimed UntilOther 257 3) [] (TWaited 256 true) [].
Proof. intros lk. split; [exact x_late_legal|]. split; [destruct lk; vm_compute; reflexivity | simpl; auto]. Qed.

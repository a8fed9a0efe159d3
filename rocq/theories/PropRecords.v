(** * C25, C26, C27: the wait records of the lock pool. *)
From Coq Require Import ZArith List Bool Arith Lia.
From Verif Require Import SpecRecords FindModel RecordsModel RecordsProof.
Import ListNotations.
Open Scope nat_scope.

(** [reached search init n t p w]: after the calls [t], in any order and on any addresses, with any allocation
    failures and exit handlers run at any points, the pool of [n] locks is [p] and the waits in progress are
    [w].  [target search init]: any version of the search with 64-bit or 32-bit pointers. *)

(** C25.  A notification finds the record of the object exactly when somebody waits on the object with a record,
    and then that record. *)
Theorem C25_notify_finds_the_waiters : forall search init n t p w,
  target search init -> reached search init n t p w -> forall i a, i < n ->
  exists r, wstep search init n (Notify i a) p = Some (p, Found r) /\ forall x, r = Some x <-> In (i, a, x) w.
Proof. intros search init n t p w T R i a _. exact (notify_finds search init n T t p w R i a). Qed.
Print Assumptions C25_notify_finds_the_waiters.

(** two waits under one lock use the same record exactly when they wait on the same object *)
Theorem C25_one_record_per_object : forall search init n t p w,
  target search init -> reached search init n t p w -> forall i a b r q,
  In (i, a, r) w -> In (i, b, q) w -> (a = b <-> r = q).
Proof. intros search init n t p w T. exact (records_distinct search init n T t p w). Qed.
Print Assumptions C25_one_record_per_object.

(** C26.  Beginning a wait: a later waiter of the object shares its record, whatever the allocator says; a first
    waiter obtains a record no other wait uses, or none, and none only if the allocator refused. *)
Theorem C26_created_and_shared : forall search init n t p w,
  target search init -> reached search init n t p w -> forall i a bo ro, i < n ->
  exists p' r, wstep search init n (Begin i a bo ro) p = Some (p', Obtained r) /\
    match r with
    | Some x => (forall b, In (i, b, x) w -> b = a) /\ (forall y, In (i, a, y) w -> x = y)
    | None => (bo = false \/ ro = false) /\ forall y, ~ In (i, a, y) w
    end.
Proof. intros search init n t p w T. exact (begin_result search init n T t p w). Qed.
Print Assumptions C26_created_and_shared.

(** while a wait uses a record, the record is allocated and its count is the number of its waits *)
Theorem C26_alive_while_used : forall search init n t p w,
  target search init -> reached search init n t p w -> forall i a r, In (i, a, r) w ->
  exists x, recs (lists p i) r = Some x /\
    r_refs x = length (filter (fun y => (fst (fst y) =? i) && (snd y =? r)) w).
Proof. intros search init n t p w T. exact (record_alive search init n T t p w). Qed.
Print Assumptions C26_alive_while_used.

(** when the last waiter of an object has left, the object has no record *)
Theorem C26_removed_with_the_last : forall search init n t p w,
  target search init -> reached search init n t p w -> forall i a, i < n -> (forall r, ~ In (i, a, r) w) ->
  wstep search init n (Notify i a) p = Some (p, Found None).
Proof.
  intros search init n t p w T R i a Hi N. destruct (notify_finds search init n T t p w R i a) as (r & S & F).
  destruct r as [x|]; [|exact S]. elim (N x). now apply F.
Qed.
Print Assumptions C26_removed_with_the_last.

(** C27.  No allowed call, in any reachable state, dereferences null or freed memory, frees twice, leaves an
    array or violates an assertion (the model's [None]). *)
Theorem C27_never_undefined : forall search init n t p w,
  target search init -> reached search init n t p w -> forall o, allowed n w o ->
  exists p' r w', wstep search init n o p = Some (p', r) /\ waits_step w o r w'.
Proof.
  intros search init n t p w T R o A. destruct (target_ok _ _ T) as [S I]. exact (no_ub search init S I n t p w o R A).
Qed.
Print Assumptions C27_never_undefined.

(** The clean-up handler is registered at most once, and before anything is allocated. *)
Theorem C27_handler_registered_once : forall search init n t p w,
  target search init -> reached search init n t p w ->
  handlers p <= 1 /\ forall i k, bufs (lists p i) k <> None \/ recs (lists p i) k <> None -> registered p = true.
Proof.
  intros search init n t p w T R. pose proof (pinv_here search init n T t p w R) as I. split; [apply I|].
  intros i k H. destruct (registered p) eqn:E; [reflexivity|]. exfalso. destruct (i_unreg _ _ _ _ I E) as [_ H0].
  pose proof (i_lists _ _ _ _ I i) as L. unfold linv in L. rewrite H0 in L. destruct L as (A & B & _). destruct H; auto.
Qed.
Print Assumptions C27_handler_registered_once.

(** When the process has run its exit handlers (and none is pending) and no wait with a record is in progress,
    nothing is allocated -- also when waits went on after clean-up -- PROVIDED no allocation failed since the first
    clean-up.  Without the proviso the claim is false: see [C27_leak_refuted]. *)
Theorem C27_nothing_left_partial : forall search init n t p,
  target search init -> reached search init n t p [] -> forall pre post, t = pre ++ Exit :: post -> ~ In Exit pre ->
  Forall memory_ok post -> handlers p = 0 ->
  forall i k, bufs (lists p i) k = None /\ recs (lists p i) k = None.
Proof.
  intros search init n t p T R pre post E NE M H. destruct (target_ok _ _ T) as [S I].
  exact (nothing_left search init S I n t p R pre post E NE M H).
Qed.
Print Assumptions C27_nothing_left_partial.

(** A run for the examples: the tail of [t] is applied to a reachable state *)
Fixpoint play (search : Z -> list Z -> nat -> option nat) (init n : nat) (t : list wop) (p : pool) : option (pool * list wres) :=
  match t with
  | [] => Some (p, [])
  | o :: t' => ' (p1, r) <-? wstep search init n o p ;; ' (p2, rs) <-? play search init n t' p1 ;; Some (p2, r :: rs)
  end.

(** The leak: after clean-up, a wait gets a buffer but no record; nobody frees the buffer. *)
Theorem C27_leak_refuted : exists t p pre post,
  reached find_address_sse41 2 1 t p [] /\ t = pre ++ Exit :: post /\ ~ In Exit pre /\ handlers p = 0 /\
  exists k b, bufs (lists p 0) k = Some b.
Proof.
  pose (t1 := Begin 0 64%Z true true). pose (t2 := End 0 64%Z 1). pose (t4 := Begin 0 64%Z true false).
  assert (R1 : exists p, reached find_address_sse41 2 1 [t1] p [(0, 64%Z, 1)] /\
    exists p2, wstep find_address_sse41 2 1 t2 p = Some (p2, Nothing) /\
    exists p3, wstep find_address_sse41 2 1 Exit p2 = Some (p3, Nothing) /\
    exists p4, wstep find_address_sse41 2 1 t4 p3 = Some (p4, Obtained None) /\ handlers p4 = 0 /\ exists k b, bufs (lists p4 0) k = Some b).
  { eexists. split.
    - eapply (re_step _ _ _ [] pool0 [] t1); [constructor|cbn; lia|vm_compute; reflexivity|constructor].
    - eexists. split; [vm_compute; reflexivity|]. eexists. split; [vm_compute; reflexivity|].
      eexists. split; [vm_compute; reflexivity|]. split; [reflexivity|]. exists 2. eexists. vm_compute. reflexivity. }
  destruct R1 as (p & R & p2 & S2 & p3 & S3 & p4 & S4 & H & X).
  exists ((([t1] ++ [t2]) ++ [Exit]) ++ [t4]), p4, [t1; t2], [t4].
  refine (conj _ (conj eq_refl (conj _ (conj H X)))).
  - eapply re_step with (w := []); [|cbn; lia|exact S4|constructor].
    eapply re_step with (w := []); [|exact I|exact S3|constructor].
    eapply re_step; [exact R|cbn; auto|exact S2|constructor; constructor].
  - intros [E|[E|[]]]; discriminate.
Qed.
Print Assumptions C27_leak_refuted.

(** Three objects under one lock: the buffer grows, the middle wait ends first, its slot is taken over by the
    last one; every notification still finds the right record; a second waiter shares; a failed allocation changes
    nothing; after exit and the last wait everything is freed. *)
Example C25_C26_C27_case :
  match play find_address_sse41 2 1
    [Begin 0 16%Z true true; Begin 0 32%Z true true; Begin 0 48%Z false true; Begin 0 48%Z true true; Begin 0 32%Z false false;
     End 0 32%Z 2; Notify 0 32%Z; End 0 32%Z 2; Notify 0 32%Z; Notify 0 48%Z; Notify 0 16%Z; Exit; End 0 48%Z 4; End 0 16%Z 1] pool0 with
  | Some (p, rs) =>
      rs = [Obtained (Some 1); Obtained (Some 2); Obtained None; Obtained (Some 4); Obtained (Some 2); Nothing; Found (Some 2); Nothing;
            Found None; Found (Some 4); Found (Some 1); Nothing; Nothing; Nothing] /\
      hdr (lists p 0) = None /\ map (bufs (lists p 0)) [0; 3] = [None; None] /\ map (recs (lists p 0)) [1; 2; 4] = [None; None; None]
  | None => False
  end.
Proof. vm_compute. repeat split. Qed.

(** The capacities assumed in C28 and C29 are the ones the list takes. *)
Theorem C29_capacities : forall search init n t p w,
  target search init -> reached search init n t p w -> forall i h b,
  hdr (lists p i) = Some h -> bufs (lists p i) h = Some b ->
  exists c, length (b_addrs b) = init * 2 ^ c /\ b_size b <= length (b_addrs b).
Proof. intros search init n t p w T. exact (capacity search init n T t p w). Qed.
Print Assumptions C29_capacities.

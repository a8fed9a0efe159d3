(** * C59: memory orders pass through the layers of the library.

    [call functions machine n os t]: a call of a function named [n] (a member of
    atomic<>, atomic_ref<> or atomic_flag, or of a layer below) with the orders
    [os] does the operations [t]; [functions] are those of the library that have
    an order and call others, [machine] those that consist of machine code or
    intrinsics (OrderFlow.v, OrderTable.v). *)
From Coq Require Import ZArith List String Bool.
Require Import Verif.Order Verif.Reorder Verif.FenceModel Verif.SpecFence Verif.SpecOrder
  Verif.OrderFlow Verif.OrderTable Verif.OrderFlowProof.
Import ListNotations.
Open Scope string_scope.
Open Scope list_scope.

(** Whatever path control takes, the last operation is the one that was called
    for and has at least the order asked for; before it nothing is changed. *)
Theorem C59_orders : forall n os t, call functions machine n os t ->
  exists q e, t = q ++ [e] /\ carried_out n os q e.
Proof. exact orders_pass. Qed.
Print Assumptions C59_orders.

(** So an operation that is asked to acquire does, on every back end, save for
    the exceptions of C40. *)
Theorem C59_acquire_partial : forall n os t k o q e,
  call functions machine n os t -> sort_of n = Some k -> t = q ++ [e] ->
  asked_of_reads k os (e_ok e) = Some o -> acquiring o ->
  forall size arith p b l, operation size arith e = Some p ->
  (acquire_operation (machine_of b) (emit b l p) <-> ~ acquire_exception b p).
Proof. exact acquire_through. Qed.
Print Assumptions C59_acquire_partial.

Theorem C59_release : forall n os t k o q e,
  call functions machine n os t -> sort_of n = Some k -> t = q ++ [e] ->
  asked_of_writes k os (e_ok e) = Some o -> releasing o ->
  forall size arith p b l, operation size arith e = Some p ->
  release_operation (machine_of b) (emit b l p).
Proof. exact release_through. Qed.
Print Assumptions C59_release.

(** Two seq_cst operations of one thread stay in order, save after failed
    compare_exchanges with the Linux kernel's help on old Arm (C40). *)
Theorem C59_seq_cst_partial : forall n1 os1 q1 e1 n2 os2 q2 e2,
  call functions machine n1 os1 (q1 ++ [e1]) -> seq_cst_call n1 os1 ->
  call functions machine n2 os2 (q2 ++ [e2]) -> seq_cst_call n2 os2 ->
  forall s1 a1 p1 s2 a2 p2 b l1 l2,
  operation s1 a1 e1 = Some p1 -> operation s2 a2 e2 = Some p2 ->
  ~ (b = LinuxArm /\ exists n so fo, p1 = OCas false n so fo) ->
  in_order (machine_of b) (emit b l1 p1) (own p1) (emit b l2 p2) (own p2).
Proof. exact seq_cst_through. Qed.
Print Assumptions C59_seq_cst_partial.

(** A caller who gives orders that are allowed causes only calls with orders
    that are allowed. *)
Theorem C59_allowed : forall n os n' os', reaches functions n os n' os' ->
  forall k, sort_of n = Some k -> allowed k os ->
  exists k', sort_of n' = Some k' /\ allowed k' os'.
Proof. exact allowed_through. Qed.
Print Assumptions C59_allowed.

(** No assertion about orders fails in any layer then. *)
Theorem C59_assertions : forall n os k f os' args,
  sort_of n = Some k -> allowed k os ->
  In f functions -> reaches functions n os (f_name f) os' -> fill (f_defaults f) os' = Some args ->
  forallb (asserted args) (f_asserts f) = true.
Proof. exact assertions_hold. Qed.
Print Assumptions C59_assertions.

(** The public members reject the orders that are not allowed, and no others. *)
Theorem C59_members_assert : forall f os args k, In f functions -> public f ->
  fill (f_defaults f) os = Some args -> sort_of (f_name f) = Some k ->
  (forallb (asserted args) (f_asserts f) = true <-> allowed k os).
Proof. exact public_asserts. Qed.
Print Assumptions C59_members_assert.

(** The public members call the operation of their own name. *)
Theorem C59_members_call : forall f s, In f functions -> In (f_file f) public_files ->
  In s (f_steps f) -> In (s_call s) (serves (f_name f)).
Proof. exact members_serve. Qed.
Print Assumptions C59_members_call.

(** Every function in the table has a run, whatever its orders. *)
Theorem C59_every_function_runs : forall f os args, In f functions ->
  fill (f_defaults f) os = Some args ->
  exists i t, In i (f_start f) /\ path functions machine f args i t.
Proof. exact every_function_runs. Qed.
Print Assumptions C59_every_function_runs.

(** ** Examples *)

(** The steps of a function in the table, by file and line. *)
Lemma in_table : forall f l r g,
  find (fun x => String.eqb (f_file x) f && Nat.eqb (f_line x) l) r = Some g -> In g r.
Proof. intros f l r g H. apply find_some in H. exact (proj1 H). Qed.

(** [a += x] with the generic extra operations: a plain read, a compare_exchange
    that fails, one that succeeds; the latter is seq_cst. *)
Definition addition : list event :=
  [Event "non_atomic_load" [] true;
   Event "compare_exchange_weak" [SeqCst; Relaxed] false;
   Event "compare_exchange_weak" [SeqCst; Relaxed] true].

Lemma machine_in_table : forall n k g,
  find (fun m => String.eqb (m_name m) n && Nat.eqb (m_orders m) k) machine = Some g -> In g machine.
Proof. intros n k g H. apply find_some in H. exact (proj1 H). Qed.

Example addition_runs : call functions machine "operator+=" [] addition.
Proof.
  assert (W : forall ok, call functions machine "compare_exchange_weak" [SeqCst; Relaxed]
                [Event "compare_exchange_weak" [SeqCst; Relaxed] ok]).
  { intros ok.
    apply (call_machine functions machine (Machine "detail/core_ops_linux_arm.hpp" 128 "compare_exchange_weak" 2)).
    - apply (machine_in_table "compare_exchange_weak" 2). vm_compute. reflexivity.
    - reflexivity.
    - intros X. discriminate X. }
  assert (P : call functions machine "non_atomic_load" [] [Event "non_atomic_load" [] true]).
  { apply (call_machine functions machine (Machine "detail/storage_traits.hpp" 36 "non_atomic_load" 0)).
    - apply (machine_in_table "non_atomic_load" 0). vm_compute. reflexivity.
    - reflexivity.
    - reflexivity. }
  (* the generic operation *)
  assert (G : call functions machine "add" [SeqCst] addition).
  { eapply (call_function functions machine
      (Function "detail/extra_ops_generic.hpp" 230 "add" [None] [] [0%nat]
        [Step 233 "non_atomic_load" [] [1%nat] [1%nat];
         Step 238 "compare_exchange_weak" [Param 0; Given Relaxed] [2%nat] [1%nat]])).
    - apply (in_table "detail/extra_ops_generic.hpp" 230). vm_compute. reflexivity.
    - reflexivity.
    - left. reflexivity.
    - apply (path_step functions machine _ [SeqCst] 0 (Step 233 "non_atomic_load" [] [1%nat] [1%nat]) [] [Event "non_atomic_load" [] true] 1 _);
        [reflexivity|reflexivity|exact P|left; reflexivity|].
      apply (path_step functions machine _ [SeqCst] 1
        (Step 238 "compare_exchange_weak" [Param 0; Given Relaxed] [2%nat] [1%nat]) [SeqCst; Relaxed]
        [Event "compare_exchange_weak" [SeqCst; Relaxed] false] 1 _);
        [reflexivity|reflexivity|exact (W false)|left; reflexivity|].
      apply (path_step functions machine _ [SeqCst] 1
        (Step 238 "compare_exchange_weak" [Param 0; Given Relaxed] [2%nat] [1%nat]) [SeqCst; Relaxed]
        [Event "compare_exchange_weak" [SeqCst; Relaxed] true] 2 []);
        [reflexivity|reflexivity|exact (W true)|left; reflexivity|].
      apply path_end. reflexivity. }
  (* add(v) of the class, with its default order *)
  assert (A : call functions machine "add" [] addition).
  { eapply (call_function functions machine
      (Function "detail/atomic_impl.hpp" 747 "add" [Some SeqCst] [] [0%nat]
        [Step 749 "add" [Param 0] [1%nat] [1%nat]])).
    - apply (in_table "detail/atomic_impl.hpp" 747). vm_compute. reflexivity.
    - reflexivity.
    - left. reflexivity.
    - rewrite <- (app_nil_r addition).
      apply (path_step functions machine _ [SeqCst] 0 (Step 749 "add" [Param 0] [1%nat] [1%nat]) [SeqCst] addition 1 []);
        [reflexivity|reflexivity|exact G|left; reflexivity|].
      apply path_end. reflexivity. }
  (* the operator *)
  eapply (call_function functions machine
    (Function "detail/atomic_impl.hpp" 891 "operator+=" [] [] [0%nat]
      [Step 893 "add" [] [1%nat] [1%nat]])).
  - apply (in_table "detail/atomic_impl.hpp" 891). vm_compute. reflexivity.
  - reflexivity.
  - left. reflexivity.
  - rewrite <- (app_nil_r addition).
    apply (path_step functions machine _ [] 0 (Step 893 "add" [] [1%nat] [1%nat]) [] addition 1 []);
        [reflexivity|reflexivity|exact A|left; reflexivity|].
    apply path_end. reflexivity.
Qed.

(** Its last event, and the operation that stands for. *)
Example addition_ends : exists q e, addition = q ++ [e] /\
  operation 4 true e = Some (OCas true 4 SeqCst Relaxed) /\
  asked_of_reads Modifying [] (e_ok e) = Some SeqCst /\ acquiring SeqCst /\
  asked_of_writes Modifying [] (e_ok e) = Some SeqCst /\ releasing SeqCst.
Proof.
  exists [Event "non_atomic_load" [] true; Event "compare_exchange_weak" [SeqCst; Relaxed] false].
  eexists. split; [reflexivity|]. repeat split.
Qed.

(** The hypotheses of C59_seq_cst_partial and C59_allowed. *)
Example plus_is_seq_cst : seq_cst_call "operator+=" [].
Proof. exists Modifying. repeat split; discriminate. Qed.

Example deduced_is_allowed : allowed Comparing [AcqRel].
Proof. reflexivity. Qed.

Example acquire_store_is_not : ~ allowed Writing [Acquire].
Proof. intros [_ [H _]]. apply H. reflexivity. Qed.

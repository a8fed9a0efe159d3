(** * C38-C41: memory orders, the barriers of the operations, fences. *)
From Coq Require Import ZArith List Bool.
Require Import Verif.Order Verif.Reorder Verif.SpecOrder Verif.FenceModel Verif.SpecFence
  Verif.FenceProof.
Import ListNotations.
Open Scope nat_scope.

(** ** C38 *)

(** The failure order of the one-order compare_exchange is a legal one, not
    stronger than the order given, the strongest such, and the assertions of
    the two-order form accept it. *)
Theorem C38_failure_order : forall o,
  failure_order (deduce_failure_order o) /\
  weaker (deduce_failure_order o) o /\
  (forall o', failure_order o' -> weaker o' o -> weaker o' (deduce_failure_order o)) /\
  cas_orders_accepted o (deduce_failure_order o) = true.
Proof. exact failure_order_ok. Qed.
Print Assumptions C38_failure_order.

(** Exactly these pairs pass the assertions of the two-order form: legal
    failure orders not stronger than the success order and, besides, consume
    and acquire with a release success order, although the latter gives no
    guarantee to the read. *)
Theorem C38_accepted_orders : forall so fo,
  cas_orders_accepted so fo = true <->
  failure_order fo /\ (weaker fo so \/ so = Release /\ (fo = Consume \/ fo = Acquire)).
Proof. exact accepted_orders. Qed.
Print Assumptions C38_accepted_orders.

Example C38_example :
  map deduce_failure_order [Relaxed; Consume; Acquire; Release; AcqRel; SeqCst]
  = [Relaxed; Consume; Acquire; Relaxed; Acquire; SeqCst].
Proof. reflexivity. Qed.

(** ** C39 *)

Theorem C39_conversion_exact : forall o,
  compiler_order (convert_memory_order_to_gcc (code o)) = Some o.
Proof. exact convert_exact. Qed.
Print Assumptions C39_conversion_exact.

(** A value that is no enumerator gets the strongest order. *)
Theorem C39_conversion_other : forall z, (forall o, z <> code o) ->
  compiler_order (convert_memory_order_to_gcc z) = Some SeqCst.
Proof. exact convert_other. Qed.
Print Assumptions C39_conversion_other.

Example C39_example : forall o, 7%Z <> code o.
Proof. intros []; discriminate. Qed.

(** ** C40 *)

(** Every operation that reads and whose order for the read is acquire or
    stronger, or consume, is an acquire operation on its back end's processor,
    but for the exceptions in [acquire_exception]... *)
Theorem C40_acquire_partial : forall b l p o,
  read_order p = Some o -> acquiring o -> ~ acquire_exception b p ->
  acquire_operation (machine_of b) (emit b l p).
Proof. exact acquire_holds. Qed.
Print Assumptions C40_acquire_partial.

(** ... which are all real. *)
Theorem C40_acquire_exceptions_refuted : forall b l p o,
  read_order p = Some o -> acquiring o -> acquire_exception b p ->
  ~ acquire_operation (machine_of b) (emit b l p).
Proof. exact exceptions_exact. Qed.
Print Assumptions C40_acquire_exceptions_refuted.

(** Every operation that writes and whose order is release or stronger is a
    release operation. *)
Theorem C40_release : forall b l p o,
  write_order p = Some o -> releasing o ->
  release_operation (machine_of b) (emit b l p).
Proof. exact release_holds. Qed.
Print Assumptions C40_release.

(** Two seq_cst operations of one thread take effect in order, whatever objects
    they are on. *)
Theorem C40_seq_cst_partial : forall b l1 l2 p1 p2,
  seq_cst_operation p1 -> accepted p1 -> seq_cst_operation p2 -> accepted p2 ->
  ~ (b = LinuxArm /\ exists n so fo, p1 = OCas false n so fo) ->
  in_order (machine_of b) (emit b l1 p1) (own p1) (emit b l2 p2) (own p2).
Proof. exact seq_cst_in_order. Qed.
Print Assumptions C40_seq_cst_partial.

Theorem C40_linux_arm_seq_cst_refuted : forall l1 l2, exists p1 p2,
  seq_cst_operation p1 /\ accepted p1 /\ seq_cst_operation p2 /\ accepted p2 /\
  ~ in_order (machine_of LinuxArm) (emit LinuxArm l1 p1) (own p1) (emit LinuxArm l2 p2) (own p2).
Proof. exact linux_arm_seq_cst_refuted. Qed.
Print Assumptions C40_linux_arm_seq_cst_refuted.

(** What a thread did before a release operation is done before what another
    thread does after an acquire operation, if the read of the latter comes
    after the write of the former. *)
Theorem C40_message_passing_partial : forall b l pw ow pr or,
  write_order pw = Some ow -> releasing ow ->
  read_order pr = Some or -> acquiring or -> ~ acquire_exception b pr ->
  passes_message (machine_of b) (emit b l pw) (emit b l pr).
Proof.
  exact (fun b l pw ow pr or W Rl R A X =>
    message_passes _ _ _ (release_holds b l pw ow W Rl) (acquire_holds b l pr or R A X)).
Qed.
Print Assumptions C40_message_passing_partial.

(** SPARC's acquire operations keep the later writes in their place, and in the
    processor's total store order mode everything. *)
Theorem C40_sparc_later_writes : forall l p o,
  read_order p = Some o -> acquiring o ->
  acquire_for_writes (machine_of Sparc) (emit Sparc l p).
Proof. exact sparc_writes_ok. Qed.
Print Assumptions C40_sparc_later_writes.

Theorem C40_sparc_total_store_order : forall l p o,
  read_order p = Some o -> acquiring o -> acquire_operation TSO (emit Sparc l p).
Proof. exact sparc_tso_ok. Qed.
Print Assumptions C40_sparc_total_store_order.

(** *** The hypotheses are met and the conclusions are not vacuous *)

(** Any code has an execution, the one in program order. *)
Example C40_executions : forall m p, execution m p (fun i => i) (fun i => i).
Proof. exact program_order. Qed.

(** Every operation does access its object: it reads it if it is a read, writes
    it if it is a write, both if it is both. *)
Theorem C40_operation_accesses : forall b l p k, own p k ->
  exists r x, nth_error (emit b l p) r = Some (Access x) /\ a_kind x = k /\ a_loc x = l.
Proof. exact emits_own. Qed.
Print Assumptions C40_operation_accesses.

Example C40_accesses :
  accesses_of (emit Arm 0 (OLoad 0 Acquire)) Rd 0 /\
  accesses_of (emit Arm 0 (OStore 0 Release)) Wr 1 /\
  accesses_of (emit (Ppc true) 0 (OFetch true 2 AcqRel)) Rd 3 /\
  accesses_of (emit (Ppc true) 0 (OFetch true 2 AcqRel)) Wr 4.
Proof. repeat split; eexists; split; reflexivity. Qed.

(** A relaxed load is not an acquire, on Arm because of the processor, on x86
    because of the compiler. *)
Example C40_relaxed_arm : ~ acquire_operation (machine_of Arm) (emit Arm 0 (OLoad 0 Relaxed)).
Proof.
  apply (not_acquire _ _ (plain_read 1) 0 [0;1] [1;0]); [reflexivity|].
  eexists. split; reflexivity.
Qed.

Example C40_relaxed_x86 : ~ acquire_operation (machine_of X86) (emit X86 0 (OLoad 0 Relaxed)).
Proof.
  apply (not_acquire _ _ (plain_read 1) 0 [1;0] [1;0]); [reflexivity|].
  eexists. split; reflexivity.
Qed.

(** On x86 a release store may be overtaken by a later seq_cst load. *)
Example C40_release_store_x86 :
  ~ in_order (machine_of X86) (emit X86 0 (OStore 0 Release)) (own (OStore 0 Release))
      (emit X86 1 (OLoad 0 SeqCst)) (own (OLoad 0 SeqCst)).
Proof.
  intros H.
  assert (E : execution_b TSO ([] ++ emit X86 0 (OStore 0 Release) ++ [] ++
                               emit X86 1 (OLoad 0 SeqCst) ++ [])
                [0;1;2;3] [0;2;1;0] = true) by reflexivity.
  apply execution_b_sound in E.
  specialize (H [] [] [] _ _ E 1 0 Wr Rd eq_refl eq_refl). simpl in H.
  assert (2 < 1) as F by (apply H; eexists; split; reflexivity).
  inversion F as [|q F']; inversion F'.
Qed.

(** ** C41 *)

(** atomic_thread_fence. *)
Theorem C41_thread_fence_partial : forall b o,
  ~ ((b = X86 \/ exists al, b = X86Wide al) /\ o = Consume) ->
  fence_of_order (machine_of b) (thread_fence b o) o.
Proof. exact thread_fence_holds. Qed.
Print Assumptions C41_thread_fence_partial.

Theorem C41_x86_consume_refuted : forall b, (b = X86 \/ exists al, b = X86Wide al) ->
  ~ fence_of_order (machine_of b) (thread_fence b Consume) Consume.
Proof. exact x86_consume_fence_refuted. Qed.
Print Assumptions C41_x86_consume_refuted.

(** atomic_signal_fence. *)
Theorem C41_signal_fence : forall b o, o <> Relaxed ->
  signal_fence_keeps (machine_of b) (signal_fence b o).
Proof. exact signal_fence_holds. Qed.
Print Assumptions C41_signal_fence.

(** What a thread did before a release fence is done before what another thread
    does after an acquire fence, if a read before the latter comes after a
    write after the former. *)
Theorem C41_message_passing_partial : forall b ow or,
  releasing ow -> acquiring or ->
  ~ ((b = X86 \/ exists al, b = X86Wide al) /\ or = Consume) ->
  fences_pass_message (machine_of b) (thread_fence b ow) (thread_fence b or).
Proof. exact fences_pass. Qed.
Print Assumptions C41_message_passing_partial.

(** Without a fence, or with a weaker one, the order is not kept. *)
Example C41_release_fence_sparc :
  ~ fence_of_order (machine_of Sparc) (thread_fence Sparc Release) Acquire.
Proof.
  intros [H _]. specialize (H I).
  assert (E : execution_b Weak ([Access (plain_read 0)] ++ thread_fence Sparc Release ++
                                [Access (plain_read 1)]) [0;1;2] [1;0;0] = true) by reflexivity.
  apply execution_b_sound in E.
  specialize (H [Access (plain_read 0)] [Access (plain_read 1)] _ _ E 0 0 Rd Rd eq_refl I).
  simpl in H. assert (1 < 0) as F by (apply H; eexists; split; reflexivity). inversion F.
Qed.

Example C41_release_fence_x86 :
  ~ fence_of_order (machine_of X86) (thread_fence X86 AcqRel) SeqCst.
Proof.
  intros [_ [_ H]]. specialize (H eq_refl).
  assert (E : execution_b TSO ([Access (plain_write 0)] ++ thread_fence X86 AcqRel ++
                               [Access (plain_read 1)]) [0;1;2] [1;0;0] = true) by reflexivity.
  apply execution_b_sound in E.
  specialize (H [Access (plain_write 0)] [Access (plain_read 1)] _ _ E 0 0 Wr Rd I I).
  simpl in H. assert (1 < 0) as F by (apply H; eexists; split; reflexivity). inversion F.
Qed.

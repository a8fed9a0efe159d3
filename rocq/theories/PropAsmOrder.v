(** * C58: the memory orders of the operations, in the text of the assembler statements. *)
From Coq Require Import ZArith List Bool String.
From Verif Require Import Order AsmText AsmModel SpecAsm AsmBlocks AsmOrder AsmOrderProof.
From Verif Require Reorder FenceModel SpecOrder SpecFence.
Import ListNotations.
Open Scope string_scope.

(** [text_code] is what a function of the library executes when it uses the statement [b]: the statements before it, its
    instructions, the statements after it, with the accesses and barriers that the text of all these says. *)

(** An operation that the caller asked to acquire acquires, in all cases but those in [missing_acquire], where it does not. *)
Theorem C58_acquire_partial : forall c f b k l ok n so fo o code,
  runs c f b k ok n so -> asked_read k ok so fo = Some o -> SpecOrder.acquiring o ->
  text_code c f b k l ok n so fo = Some code ->
  SpecOrder.acquire_operation (processor (b_arch b)) code <-> ~ missing_acquire b k ok so o.
Proof. exact text_acquire. Qed.
Print Assumptions C58_acquire_partial.

Theorem C58_release : forall c f b k l ok n so fo o code,
  runs c f b k ok n so -> asked_write k ok so = Some o -> SpecOrder.releasing o ->
  text_code c f b k l ok n so fo = Some code -> SpecOrder.release_operation (processor (b_arch b)) code.
Proof. exact text_release. Qed.
Print Assumptions C58_release.

(** Two seq_cst operations take effect in order. *)
Theorem C58_seq_cst : forall c f b1 b2 k1 k2 l1 l2 ok1 ok2 n1 n2 code1 code2,
  runs c f b1 k1 ok1 n1 SeqCst -> runs c f b2 k2 ok2 n2 SeqCst -> backend_of c b1 = backend_of c b2 ->
  text_code c f b1 k1 l1 ok1 n1 SeqCst SeqCst = Some code1 -> text_code c f b2 k2 l2 ok2 n2 SeqCst SeqCst = Some code2 ->
  SpecOrder.in_order (processor (b_arch b1)) code1 (SpecFence.own (op_of k1 ok1 n1 SeqCst SeqCst)) code2 (SpecFence.own (op_of k2 ok2 n2 SeqCst SeqCst)).
Proof. exact text_seq_cst. Qed.
Print Assumptions C58_seq_cst.

(** The text is that of the model that C40, C54 and C56 are about. *)
Theorem C58_operations : forall c f b k ok n so fo l, runs c f b k ok n so ->
  text_code c f b k l ok n so fo = Some (FenceModel.emit (backend_of c b) l (op_of k ok n so fo)).
Proof. exact operation_text. Qed.
Print Assumptions C58_operations.

(** atomic_thread_fence, and that of ARM, where [f] is any of the forms of the barrier. *)
Theorem C58_thread_fence_partial : forall c ar o, ar <> Arm ->
  SpecOrder.fence_of_order (processor ar) (fence_text c ar "thread_fence" 0 o) o <-> ~ (ar = X86 /\ o = Consume).
Proof. exact text_fence. Qed.
Print Assumptions C58_thread_fence_partial.

Theorem C58_arm_thread_fence : forall f o, arm_fence f ->
  SpecOrder.fence_of_order (processor Arm) (if relaxed o then [] else block_items f) o.
Proof. exact text_arm_fence. Qed.
Print Assumptions C58_arm_thread_fence.

(** atomic_signal_fence. *)
Theorem C58_signal_fence : forall c ar o, o <> Relaxed ->
  SpecOrder.signal_fence_keeps (processor ar) (fence_text c ar "signal_fence" 0 o).
Proof. exact text_signal. Qed.
Print Assumptions C58_signal_fence.

(** Loads and stores that are accesses of the C++ code between such statements. *)
Theorem C58_plain_load_partial : forall c f ar l o, arm_fence f -> plain_loads ar -> SpecOrder.acquiring o ->
  SpecOrder.acquire_operation (processor ar) (plain_load c f ar l o) <-> ~ (ar = Sparc /\ o <> SeqCst).
Proof. exact plain_load_acquire. Qed.
Print Assumptions C58_plain_load_partial.

Theorem C58_plain_store : forall c f ar l o, arm_fence f -> plain_stores ar o -> SpecOrder.releasing o ->
  SpecOrder.release_operation (processor ar) (plain_store c f ar l o).
Proof. exact plain_store_release. Qed.
Print Assumptions C58_plain_store.

(** A seq_cst load does not overtake an earlier seq_cst store. *)
Theorem C58_plain_seq_cst : forall c f ar l1 l2, arm_fence f -> plain_stores ar SeqCst ->
  SpecOrder.in_order (processor ar) (plain_store c f ar l1 SeqCst) SpecOrder.writes (plain_load c f ar l2 SeqCst) SpecOrder.reads.
Proof. exact plain_store_seq_cst. Qed.
Print Assumptions C58_plain_seq_cst.

(** Where the text has one copy of a statement for each combination of an acquiring or plain load with a releasing or plain
    store, there is one for every order. *)
Theorem C58_copies : forall b o, In b blocks -> b_mo b <> None ->
  exists b', In b' blocks /\ (b_arch b', b_file b', b_line b', b_func b') = (b_arch b, b_file b, b_line b, b_func b) /\
    (b_bits b', b_value b', b_signed b', b_big b') = (b_bits b, b_value b, b_signed b, b_big b) /\ b_mo b' = Some (FenceModel.mo_switch o).
Proof. exact copies. Qed.
Print Assumptions C58_copies.

(** *** The hypotheses are met *)

(** Every statement is executed in some configuration with some order. *)
Theorem C58_every_statement_runs : forall b, In b blocks -> kind_of b = Some KFence \/ exists c f k o, runs c f b k true 0 o.
Proof. exact every_statement_runs. Qed.
Print Assumptions C58_every_statement_runs.

(** fetch_add on a 4-byte object on 64-bit PowerPC, seq_cst, with three failures of the store-conditional, and what follows
    from its text *)
Example C58_fetch_add : exists f b,
  b_file b = "core_arch_ops_gcc_ppc.hpp" /\ b_func b = "fetch_add" /\ b_bits b = 32%Z /\
  runs (Config true false false) f b (KFetch (Bin_ SpecInt.Add)) true 3 SeqCst /\
  text_code (Config true false false) f b (KFetch (Bin_ SpecInt.Add)) 7 true 3 SeqCst SeqCst =
    Some [FenceModel.full; FenceModel.ld_branch false 7; FenceModel.ld_branch false 7; FenceModel.ld_branch false 7;
          FenceModel.ld_branch false 7; FenceModel.st 7; Reorder.Isync]%list.
Proof.
  destruct an_arm_fence as [f F]. exists f.
  destruct (nth_error blocks_powerpc 11) as [b|] eqn:E; [|vm_compute in E; discriminate E]. exists b.
  assert (I : In b blocks) by (apply nth_error_In in E; unfold blocks; rewrite !in_app_iff; tauto).
  assert (B : option_map (fun b => (b_file b, b_func b, b_bits b, kind_of b, executed (Config true false false) b SeqCst, loops b)) (nth_error blocks_powerpc 11)
    = Some ("core_arch_ops_gcc_ppc.hpp", "fetch_add", 32%Z, Some (KFetch (Bin_ SpecInt.Add)), true, true)) by (vm_compute; reflexivity).
  assert (T : option_map (fun b => backend_of (Config true false false) b) (nth_error blocks_powerpc 11) = Some (FenceModel.Ppc true)) by (vm_compute; reflexivity).
  rewrite E in B, T. cbn [option_map] in B, T. injection B as B1 B2 B3 B4 B5 B6. injection T as T.
  assert (R : runs (Config true false false) f b (KFetch (Bin_ SpecInt.Add)) true 3 SeqCst).
  { split; [exact I|]. split; [exact B4|]. split; [discriminate|]. split; [exact F|]. split; [exact B5|]. split; [reflexivity|]. rewrite B6. discriminate. }
  rewrite (C58_operations _ _ _ _ _ _ _ SeqCst 7 R), T. repeat (split; [assumption|]). reflexivity.
Qed.
(** an acquire that is missing, and one that is not: a compare_exchange of order release, acquire that fails on 64-bit Arm *)
Example C58_missing : forall b, b_arch b = AArch64 -> missing_acquire b KStrong false Release Acquire /\ ~ missing_acquire b KStrong false AcqRel Acquire.
Proof. intros b A. unfold missing_acquire. rewrite A. cbn. intuition discriminate. Qed.

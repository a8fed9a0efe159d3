(** * C57: the assembler blocks do what the functions promise. *)
From Coq Require Import ZArith List Bool Lia String.
From Verif Require Import Order SpecInt Conv Prog Word CoreModel ExtraModel SpecHand AsmExpr AsmText AsmModel SpecAsm AsmRefute AsmBlocks AsmResults AsmLink.
Import ListNotations.
Open Scope string_scope.
Open Scope Z_scope.

(** [blocks] are the asm statements of the library's core and extra operations for GCC on Alpha, PowerPC, ARM, AArch32,
    AArch64, SPARC and x86, as text.  [block_ok careful b] (SpecAsm.v): for every register allocation that the
    constraints of [b] allow, all arguments and all answers of the memory, the block does to the storage what [program b]
    does, its outputs hold the results, and everything not declared as changed is unchanged.
    [careful]: the compiler also keeps small values in registers the way the code expects, and puts no input in the
    register of the success flag of compare_exchange.  Nothing in the asm statements asks for that. *)

(** C57.  With a careful compiler all blocks are right but one.  What is missing is that block (finding 32). *)
Theorem C57_blocks_partial : forall b, In b blocks -> (block_ok true b <-> always_wrong b = false).
Proof. exact blocks_careful. Qed.
Print Assumptions C57_blocks_partial.

(** C57.  With any compiler that obeys the constraints, exactly the listed blocks are wrong (findings 32 to 35). *)
Theorem C57_any_compiler_partial : forall b, In b blocks -> (block_ok false b <-> unlucky b = false).
Proof. exact blocks_any. Qed.
Print Assumptions C57_any_compiler_partial.

(** C57.  The store of 8 bytes on x86 with a position-independent code register overwrites esi and eax. *)
Theorem C57_blocks_refuted : exists b, In b blocks /\ b_arch b = X86 /\ ~ block_ok true b.
Proof. exact blocks_refuted. Qed.
Print Assumptions C57_blocks_refuted.

(** Every block has a register allocation, arguments and answers of the memory that meet all conditions above, and
    with which it comes to its end. *)
Theorem C57_blocks_run : forall b, In b blocks -> can_run true b.
Proof. exact blocks_run. Qed.
Print Assumptions C57_blocks_run.
Example C57_any_run : forall b, In b (blocks_alpha ++ blocks_sparc) -> can_run false b.
Proof. exact blocks_run_any. Qed.

(** C57.  A block that writes to the object tells the compiler so, by an output operand or the clobber "memory"; on
    Alpha none does (finding 36). *)
Theorem C57_writes_declared_partial : forall b code, In b blocks -> b_arch b <> Alpha ->
  assemble b = Some code -> writes code = true -> says_it_writes b = true.
Proof. exact writes_declared. Qed.
Print Assumptions C57_writes_declared_partial.
Theorem C57_writes_declared_refuted : exists b code, In b blocks /\ assemble b = Some code /\ writes code = true /\ says_it_writes b = false.
Proof. exact writes_refuted. Qed.
Print Assumptions C57_writes_declared_refuted.

(** C57.  In Thumb-2 code the processor executes the same instructions on the same conditions as in ARM code. *)
Theorem C57_conditional_instructions : forall b, In b blocks -> b_arch b = Arm \/ b_arch b = AArch32 -> it_ok b = true.
Proof. exact it_blocks. Qed.
Print Assumptions C57_conditional_instructions.
Example C57_conditional_some : exists b, In b blocks /\ b_arch b = Arm /\ existsb (fun s => existsb (String.eqb "strexeq") (words s)) (b_text b) = true.
Proof.
  destruct (List.find (fun b => match b_arch b with Arm => existsb (fun s => existsb (String.eqb "strexeq") (words s)) (b_text b) | _ => false end) blocks) as [b|] eqn:F; [|vm_compute in F; discriminate F].
  apply find_some in F. destruct F as [I F]. exists b. destruct (b_arch b); try discriminate F. auto.
Qed.

(** ** The programs are those of the other properties *)

Definition llsc_block (b : block) : Prop :=
  match b_arch b with Alpha | PowerPC => True | Arm | AArch32 => b_bits b = 64 -> b_value b = 64 | AArch64 => b_bits b <> 128 /\ lse b = false | _ => False end.
Definition llsc_core (b : block) : core :=
  if (b_bits b =? 64) && match b_arch b with Arm | AArch32 => true | _ => false end then llsc_dword
  else if b_value b <? b_bits b then llsc_narrow (b_signed b) (b_value b) (b_bits b) else llsc_native (b_bits b).

Local Open Scope prog_scope.
(** On load-linked/store-conditional processors the programs that the blocks are compared with are the operations of
    [llsc_native], [llsc_narrow], [llsc_dword] and [extra_llsc], of which the other properties speak. *)
Theorem C57_llsc_programs : forall b a q o ro sg, llsc_block b -> 0 <= q_v q < 2 ^ b_bits b ->
  let c := llsc_core b in let x := extra_llsc ro false sg c in
  program b a q KLoad = (v <- c_load c o a ;; Ret (Res v 0 true)) /\
  (program b a q KStore ;;; Ret tt) = (c_store c o a (q_v q) ;;; Ret tt) /\
  program b a q KExchange = (v <- c_exchange c a (q_v q) ;; Ret (Res v (q_v q) true)) /\
  program b a q KWeak = ('(ok, v) <- c_casw c a (q_e q) (q_d q) ;; Ret (Res v 0 ok)) /\
  program b a q KStrong = ('(ok, v) <- c_cas c a (q_e q) (q_d q) ;; Ret (Res v 0 ok)) /\
  (forall f, program b a q (KFetch (Bin_ f)) = (v <- c_fetch c f a (q_v q) ;; Ret (Res v (updated b (Bin_ f) (q_v q) v) true))) /\
  (forall u, program b a q (KFetch (Un_ u)) = (v <- x_fetch_un x u a ;; Ret (Res v (updated b (Un_ u) (q_v q) v) true))) /\
  (forall f, b_value b = b_bits b -> program b a q (KNew (Bin_ f)) = (v <- x_bin x f a (q_v q) ;; Ret (Res 0 v true))) /\
  (forall u, program b a q (KNew (Un_ u)) = (v <- x_un x u a ;; Ret (Res 0 v true))).
Proof.
  intros b a q o ro sg L V. cbv zeta.
  assert (P : forall k, program b a q k = llsc_program b a q k).
  { intros k. unfold program. unfold llsc_block in L. destruct (b_arch b); try reflexivity; try contradiction. destruct L as [L1 L2].
    apply Z.eqb_neq in L1. now rewrite L1, L2. }
  assert (E : updated b Set_ (q_v q) = fun _ => q_v q) by (unfold updated; cbn; unfold wrap; now rewrite (Z.mod_small _ _ V)).
  rewrite !P. cbn [llsc_program]. unfold retry, retry_new. rewrite E.
  assert (CB : c_bits (llsc_core b) = b_bits b).
  { unfold llsc_core. destruct ((b_bits b =? 64) && _) eqn:W; [apply andb_true_iff in W; destruct W as [W _]; apply Z.eqb_eq in W; now rewrite W|].
    destruct (b_value b <? b_bits b); reflexivity. }
  assert (UN : forall u, (forall x, updated b (Un_ u) (q_v q) x = wrap (b_bits b) (un_apply u x))) by (intros; reflexivity).
  destruct ((b_bits b =? 64) && match b_arch b with Arm | AArch32 => true | _ => false end) eqn:W.
  - assert (N : b_value b <? b_bits b = false /\ b_bits b = 64).
    { apply andb_true_iff in W. destruct W as [W1 W2]. apply Z.eqb_eq in W1. unfold llsc_block in L. split; [|exact W1].
      destruct (b_arch b); try discriminate W2; rewrite (L W1), W1; reflexivity. }
    destruct N as [N N64].
    assert (C : llsc_core b = llsc_dword) by (unfold llsc_core; now rewrite W). rewrite C.
    split; [reflexivity|]. split; [reflexivity|]. split; [reflexivity|]. split; [reflexivity|]. split; [reflexivity|].
    split; [|split; [|split]].
    + intros f. rewrite P. cbn [llsc_program]. unfold retry, updated. rewrite N, N64. destruct f; reflexivity.
    + intros u. rewrite P. cbn [llsc_program]. unfold retry, updated, extra_llsc. cbn [x_fetch_un]. rewrite N64. destruct u; reflexivity.
    + intros f _. rewrite P. cbn [llsc_program]. unfold retry_new, updated, extra_llsc. cbn [x_bin]. rewrite N, N64. destruct f; reflexivity.
    + intros u. rewrite P. cbn [llsc_program]. unfold retry_new, updated, extra_llsc. cbn [x_un]. rewrite N64. destruct u; reflexivity.
  - unfold llsc_core in *. rewrite W in *.
    split; [destruct (b_value b <? b_bits b); reflexivity|]. split; [destruct (b_value b <? b_bits b); reflexivity|].
    split; [destruct (b_value b <? b_bits b); reflexivity|]. split; [destruct (b_value b <? b_bits b); reflexivity|].
    split; [destruct (b_value b <? b_bits b); reflexivity|]. split; [|split; [|split]].
    + intros f. rewrite P. cbn [llsc_program]. unfold retry, updated. destruct (b_value b <? b_bits b); destruct f; reflexivity.
    + intros u. rewrite P. cbn [llsc_program]. unfold retry, updated, extra_llsc. cbn [x_fetch_un]. rewrite CB. destruct u; reflexivity.
    + intros f F. rewrite P. cbn [llsc_program]. unfold retry_new, updated, extra_llsc. cbn [x_bin]. rewrite CB, F, Z.ltb_irrefl. destruct f; reflexivity.
    + intros u. rewrite P. cbn [llsc_program]. unfold retry_new, updated, extra_llsc. cbn [x_un]. rewrite CB. destruct u; reflexivity.
Qed.
Print Assumptions C57_llsc_programs.
Example C57_llsc_dword_some : exists b, In b blocks /\ llsc_block b /\ llsc_core b = llsc_dword.
Proof.
  destruct (List.find (fun b => match b_arch b with Arm => (b_value b =? 64) && (b_bits b =? 64) | _ => false end) blocks) as [b|] eqn:F; [|vm_compute in F; discriminate F].
  apply find_some in F. destruct F as [I F]. exists b. split; [exact I|]. unfold llsc_block, llsc_core. destruct (b_arch b); try discriminate F. apply andb_true_iff in F. destruct F as [F1 F2].
  rewrite F2. apply Z.eqb_eq in F1. auto.
Qed.
Example C57_llsc_some : exists b, In b blocks /\ llsc_block b /\ b_arch b = PowerPC /\ b_value b < b_bits b /\ b_func b = "fetch_add".
Proof.
  destruct (List.find (fun b => match b_arch b with PowerPC => (b_value b <? b_bits b) && String.eqb (b_func b) "fetch_add" | _ => false end) blocks) as [b|] eqn:F; [|vm_compute in F; discriminate F].
  apply find_some in F. destruct F as [I F]. exists b. split; [exact I|]. unfold llsc_block. destruct (b_arch b); try discriminate F. apply andb_true_iff in F. destruct F as [F1 F2].
  apply Z.ltb_lt in F1. apply String.eqb_eq in F2. auto.
Qed.

(** On x86 they are the operations of [x86] and [extra_x86] of one word, and of [dcas_x86] of two: [same] (SpecAsm.v)
    means the same accesses to memory with the same answers, and the same results.  The code reads the storage into the
    register of the result before a block with a loop, and into nothing before a load of two words. *)
Theorem C57_x86_programs : forall b a v e d o sg, b_arch b = X86 -> b_value b = b_bits b ->
  let w := b_bits b in let c := CoreModel.x86 w in let x := extra_x86 sg c in
  (dcas b = false -> forall i,
    same (program b a (Call v e d i) KLoad) (x <- c_load c o a ;; Ret (Res x 0 true)) /\
    (is_seq_cst o = false -> same (program b a (Call v e d i) KStore) (c_store c o a v ;;; Ret (Res 0 0 true))) /\
    same (program b a (Call v e d i) KExchange) (x <- c_exchange c a v ;; Ret (Res x 0 true)) /\
    same (program b a (Call v e d i) KWeak) ('(ok, x) <- c_casw c a e d ;; Ret (Res x 0 ok)) /\
    same (program b a (Call v e d i) KStrong) ('(ok, x) <- c_cas c a e d ;; Ret (Res x 0 ok))) /\
  (forall i, same (program b a (Call v e d i) (KFetch (Bin_ Add))) (x <- c_fetch c Add a v ;; Ret (Res x (updated b (Bin_ Add) v x) true))) /\
  (forall i, same (x <- program b a (Call (wrap w (- v)) e d i) (KFetch (Bin_ Add)) ;; Ret (r_old x)) (c_fetch c Sub a v)) /\
  (forall f, f <> Add -> f <> Sub ->
    same (i <- ld a ;; program b a (Call v e d i) (KFetch (Bin_ f))) (x <- c_fetch c f a v ;; Ret (Res x (updated b (Bin_ f) v x) true))) /\
  (forall u, same (i <- ld a ;; program b a (Call v e d i) (KFetch (Un_ u))) (r <- x_fetch_un x u a ;; Ret (Res r (updated b (Un_ u) v r) true))) /\
  (forall f, f <> Add -> f <> Sub -> same (i <- ld a ;; program b a (Call v e d i) (KNew (Bin_ f))) (r <- x_bin x f a v ;; Ret (Res 0 r true))) /\
  (forall u, same (i <- ld a ;; program b a (Call v e d i) (KNew (Un_ u))) (r <- x_un x u a ;; Ret (Res 0 r true))) /\
  (forall f i, same (program b a (Call v e d i) (KOpaque (Bin_ f)) ;;; Ret tt) (x_opaque_bin x f a v)) /\
  (forall u i, same (program b a (Call v e d i) (KOpaque (Un_ u)) ;;; Ret tt) (x_opaque_un x u a)) /\
  (forall f i, same (r <- program b a (Call v e d i) (KTest (Bin_ f)) ;; Ret (negb (r_new r =? 0))) (x_test_bin x f a v)) /\
  (w <> 8 -> forall f i, same (r <- program b a (Call v e d i) (KBit f) ;; Ret (Z.testbit (r_old r) v)) (x_bit x f a v)) /\
  (dcas b = true -> forall i vec,
    same (g <- racy a w ;; program b a (Call v e d g) KLoad) (x <- c_load (dcas_x86 false w) o a ;; Ret (Res x 0 true)) /\
    (vec = false \/ is_seq_cst o = true -> same (program b a (Call v e d i) KStore ;;; Ret tt) (c_store (dcas_x86 vec w) o a v)) /\
    same (program b a (Call v e d i) KExchange) (x <- c_exchange (dcas_x86 vec w) a v ;; Ret (Res x 0 true)) /\
    same (program b a (Call v e d i) KWeak) ('(ok, x) <- c_casw (dcas_x86 vec w) a e d ;; Ret (Res x 0 ok)) /\
    same (program b a (Call v e d i) KStrong) ('(ok, x) <- c_cas (dcas_x86 vec w) a e d ;; Ret (Res x 0 ok))).
Proof. exact x86_programs. Qed.
Print Assumptions C57_x86_programs.
Example C57_x86_values : forallb (fun b => match b_arch b with X86 => b_value b =? b_bits b | _ => true end) blocks = true.
Proof. vm_compute. reflexivity. Qed.

(** On SPARC and on AArch64 with LSE a compare_exchange decides in C++ whether it has succeeded, by comparing the old value
    with the expected one; on AArch64 the operand of a subtraction is negated and that of a conjunction inverted before the
    block. *)
Theorem C57_sparc_programs : forall b a v e d, b_arch b = Sparc ->
  let c := CoreModel.sparc (b_bits b) in
  (b_bits b = 32 -> same (r <- program b a (Call v e d 0) KExchange ;; Ret (r_old r)) (c_exchange c a v)) /\
  same (r <- program b a (Call v e d 0) KWeak ;; Ret (r_old r =? e, r_old r)) (c_casw c a e d) /\
  same (r <- program b a (Call v e d 0) KStrong ;; Ret (r_old r =? e, r_old r)) (c_cas c a e d).
Proof. exact sparc_link. Qed.
Print Assumptions C57_sparc_programs.
Theorem C57_lse_programs : forall b a v e d, b_arch b = AArch64 -> lse b = true -> b_bits b <> 128 ->
  let w := b_bits b in let c := aarch64_lse w in
  same (r <- program b a (Call v e d 0) KExchange ;; Ret (r_old r)) (c_exchange c a v) /\
  same (r <- program b a (Call v e d 0) KWeak ;; Ret (r_old r =? e, r_old r)) (c_casw c a e d) /\
  same (r <- program b a (Call v e d 0) KStrong ;; Ret (r_old r =? e, r_old r)) (c_cas c a e d) /\
  forall f, same (r <- program b a (Call (match f with Sub => wrap w (- v) | And => wrap w (Z.lnot v) | _ => v end) e d 0) (KFetch (Bin_ f)) ;; Ret (r_old r))
                 (c_fetch c f a v).
Proof. exact lse_link. Qed.
Print Assumptions C57_lse_programs.

(** With pairs of registers on AArch64 they are those of [aarch64_pair]; the sums and so on of the halves are those of the
    whole. *)
Theorem C57_pair_programs : forall b a v e d i, b_arch b = AArch64 -> b_bits b = 128 -> b_value b = 128 -> 0 <= v < 2 ^ 128 -> forall o,
  same (program b a (Call v e d i) KLoad) (x <- c_load aarch64_pair o a ;; Ret (Res x x true)) /\
  same (program b a (Call v e d i) KStore ;;; Ret tt) (c_store aarch64_pair o a v) /\
  same (program b a (Call v e d i) KExchange) (x <- c_exchange aarch64_pair a v ;; Ret (Res x v true)) /\
  same (program b a (Call v e d i) KWeak) ('(ok, x) <- c_casw aarch64_pair a e d ;; Ret (Res x 0 ok)) /\
  same (program b a (Call v e d i) KStrong) ('(ok, x) <- c_cas aarch64_pair a e d ;; Ret (Res x 0 ok)) /\
  forall f x, 0 <= x < 2 ^ 128 ->
    (let (lo, hi) := pair_apply f (half 128 false x) (half 128 true x) (half 128 false v) (half 128 true v) in join 128 lo hi) = updated b (Bin_ f) v x.
Proof. exact pair_link. Qed.
Print Assumptions C57_pair_programs.
Example C57_programs_some : forallb (fun p => existsb p blocks)
  [(fun b => match b_arch b with X86 => dcas b | _ => false end); (fun b => match b_arch b with X86 => negb (dcas b) | _ => false end);
   (fun b => match b_arch b with Sparc => b_bits b =? 32 | _ => false end); (fun b => match b_arch b with AArch64 => lse b && negb (b_bits b =? 128) | _ => false end);
   (fun b => match b_arch b with AArch64 => (b_bits b =? 128) && (b_value b =? 128) | _ => false end)] = true.
Proof. vm_compute. reflexivity. Qed.

(** * C48, C49: what the library reports about itself is true. *)
From Coq Require Import ZArith List Bool Lia.
Require Import Verif.SpecCaps Verif.BytesModel Verif.CapsModel Verif.CapsProof Verif.CapsFront.
Import ListNotations.
Open Scope Z_scope.

(** ** C48: lock-free *)

(** BOOST_ATOMIC_INTn_LOCK_FREE = 2: the class for that size says so as well, and
    none of its operations takes a lock. *)
Theorem C48_macro_two_never_locks : forall t n i, sane t -> core_class t n = Some i ->
  int_macro t n = 2 -> always_lock_free i = true /\ never_locks t i.
Proof. exact macro_two. Qed.
Print Assumptions C48_macro_two_never_locks.

(** 0: the lock pool, with storage of exactly the size asked for. *)
Theorem C48_macro_zero_locks : forall t n i, sane t -> core_class t n = Some i ->
  int_macro t n = 0 -> i = Impl LockPool n.
Proof. exact macro_zero. Qed.
Print Assumptions C48_macro_zero_locks.

(** [is_always_lock_free] is true exactly for a macro other than 0. *)
Theorem C48_constant_iff_macro : forall t n i, sane t -> core_class t n = Some i ->
  (always_lock_free i = true <-> int_macro t n <> 0).
Proof. exact lock_free_iff. Qed.
Print Assumptions C48_constant_iff_macro.

(** The full claim is that [is_always_lock_free] implies the absence of locks.
    Proved when the compiler never answers "depends"; missing: it is false
    otherwise, see [C48_always_lock_free_refuted]. *)
Theorem C48_always_lock_free_partial : forall t n i, sane t -> decided t -> core_class t n = Some i ->
  always_lock_free i = true -> int_macro t n = 2 /\ never_locks t i.
Proof. exact decided_true. Qed.
Print Assumptions C48_always_lock_free_partial.

(** The macro has one of the three values of the documentation, and does not
    grow with the size. *)
Theorem C48_macro_values : forall t n, sane t ->
  int_macro t n = 0 \/ int_macro t n = 1 \/ int_macro t n = 2.
Proof. exact macro_cases. Qed.
Print Assumptions C48_macro_values.

Theorem C48_macro_antitone : forall t n m, sane t ->
  In n [1; 2; 4; 8; 16] -> In m [1; 2; 4; 8; 16] -> n <= m -> int_macro t m <= int_macro t n.
Proof.
  intros t n m S Hn Hm; apply macro_monotone; [exact S | |]; unfold known; cbn in Hn, Hm; lia.
Qed.
Print Assumptions C48_macro_antitone.

(** The storage holds the value. *)
Theorem C48_storage_holds_value : forall t n i, sane t -> core_class t n = Some i -> n <= storage_bytes i.
Proof. exact storage_fits. Qed.
Print Assumptions C48_storage_holds_value.

(** The macros for character, integer and boolean types, for the flag and for
    floating-point types are those of the class [atomic] uses for the type. *)
Theorem C48_type_macro : forall t size i, sane t -> In size [1; 2; 4; 8] -> atomic_class t size = Some i ->
  (type_macro t size = 2 -> always_lock_free i = true /\ never_locks t i) /\
  (type_macro t size = 0 -> made_of i = LockPool).
Proof.
  intros t size i S H E.
  rewrite (type_macro_exact t size) by (cbn in H; unfold known; lia).
  split; intros M; [exact (macro_two t _ i S E M) | rewrite (macro_zero t _ i S E M); reflexivity].
Qed.
Print Assumptions C48_type_macro.

Theorem C48_float_macro : forall t size i, sane t -> size = 2 \/ size = 4 \/ size = 8 \/ 9 <= size <= 16 ->
  atomic_class t size = Some i ->
  (float_macro t size = 2 -> always_lock_free i = true /\ never_locks t i) /\
  (float_macro t size = 0 -> made_of i = LockPool).
Proof.
  intros t size i S H E; rewrite (float_macro_exact t size H).
  split; intros M; [exact (macro_two t _ i S E M) | rewrite (macro_zero t _ i S E M); reflexivity].
Qed.
Print Assumptions C48_float_macro.

Theorem C48_bool_and_flag_macro : forall t b f, sane t ->
  atomic_class t (sizeof t CBool) = Some b -> flag_class t = Some f ->
  (bool_macro t = 2 -> always_lock_free b = true /\ never_locks t b) /\
  (bool_macro t = 0 -> made_of b = LockPool) /\
  (flag_macro t = 2 -> always_lock_free f = true /\ never_locks t f) /\
  (flag_macro t = 0 -> made_of f = LockPool).
Proof.
  intros t b f S Eb Ef; unfold atomic_class in Eb; rewrite (proj1 (proj2 S)) in Eb; change (storage_size 1) with 1 in Eb.
  split; [intros M; exact (macro_two t 1 b S Eb M)|].
  split; [intros M; rewrite (macro_zero t 1 b S Eb M); reflexivity|].
  split; [intros M; exact (macro_two t 4 f S Ef M) | intros M; rewrite (macro_zero t 4 f S Ef M); reflexivity].
Qed.
Print Assumptions C48_bool_and_flag_macro.

(** Pointers.  The last hypothesis but two excludes one back end with wide
    pointers, for which the claim is false: [C48_pointer_refuted]. *)
Theorem C48_pointer_macro_partial : forall t i, sane t -> pointers_fit t ->
  (cpu t = None -> linux_arm t = true \/ windows t = true -> sizeof t CPointer <= 4) ->
  core_class t (sizeof t CPointer) = Some i -> pointer_macro t = 2 ->
  always_lock_free i = true /\ never_locks t i.
Proof. exact pointer_two. Qed.
Print Assumptions C48_pointer_macro_partial.

(** [atomic_ref] works on exactly the bytes of the object referred to; if it is
    lock-free, it is what [core_operations] is, else it uses the lock pool. *)
Theorem C48_ref_storage : forall t size i, ref_class t size = Some i ->
  storage_bytes i = size /\
  (always_lock_free i = true -> core_class t size = Some i) /\
  (always_lock_free i = false -> i = Impl LockPool size).
Proof. exact ref_storage. Qed.
Print Assumptions C48_ref_storage.

(** [atomic_ref] is lock-free wherever the object alone can be. *)
Theorem C48_ref_lock_free : forall t size i j, sane t -> ref_class t size = Some i -> core_class t size = Some j ->
  int_macro t size = 2 -> storage_bytes j = size -> always_lock_free i = true /\ never_locks t i.
Proof. exact ref_two. Qed.
Print Assumptions C48_ref_lock_free.

(** Objects between processes: an operation compiles only without the lock pool,
    and then, if the compiler never answers "depends", takes no lock (a lock
    would exclude the threads of one process only). *)
Theorem C48_ipc_partial : forall t n i, sane t -> decided t -> core_class t n = Some i ->
  ipc_compiles i = true -> never_locks t i.
Proof. intros t n i S D E A; exact (proj2 (decided_true t n i S D E A)). Qed.
Print Assumptions C48_ipc_partial.

(** Every size has an implementation.  Missing: with a 16-byte integer type some
    programs do not compile, see [C48_compiles_refuted]. *)
Theorem C48_compiles_partial : forall t n, sane t -> (forall c, sizeof t c <> 16) ->
  exists i, core_class t n = Some i.
Proof. exact compiles. Qed.
Print Assumptions C48_compiles_partial.

(** The library does not lock needlessly: the compiler's intrinsics are used if
    there are any and one of the types is always lock-free, and then a type for
    which that holds gets the macro 2. *)
Theorem C48_intrinsics_chosen : forall t, core_backend t = Some GccAtomic <->
  fallback t = false /\ intrinsics t = true /\ exists c, c <> CPointer /\ level t c = 2.
Proof. exact intrinsics_chosen. Qed.
Print Assumptions C48_intrinsics_chosen.

Theorem C48_lock_free_types : forall t c, sane t -> fallback t = false -> intrinsics t = true ->
  In c [CChar; CShort; CInt; CLong; CLlong; CBool] -> sizeof t c <= 8 -> level t c = 2 ->
  int_macro t (sizeof t c) = 2.
Proof. exact lock_free_types. Qed.
Print Assumptions C48_lock_free_types.

(** ** C49: native waits *)

(** [always_has_native_wait_notify]: the system can sleep on the object. *)
Theorem C49_native_constant : forall t i ipc, always_native t i ipc = true ->
  always_lock_free i = true /\ system_waits t (storage_bytes i) ipc.
Proof. exact native_waits. Qed.
Print Assumptions C49_native_constant.

(** The macros are right for objects whose storage is no larger than the value.
    Missing: other objects, see [C49_macro_refuted]. *)
Theorem C49_native_macro_partial : forall t n i ipc, sane t -> usual_sizes t ->
  core_class t n = Some i -> storage_bytes i = n ->
  (wait_macro t n ipc <> 0 <-> always_native t i ipc = true).
Proof. exact wait_macro_native. Qed.
Print Assumptions C49_native_macro_partial.

(** A macro for native waits is 0 or that of the lock-free property. *)
Theorem C49_native_macro_value : forall t n ipc, wait_macro t n ipc <> 0 -> wait_macro t n ipc = int_macro t n.
Proof. exact wait_macro_value. Qed.
Print Assumptions C49_native_macro_value.

(** ** Examples and refutations *)
Definition lp64 (c : ctype) : Z :=
  match c with CChar | CBool => 1 | CShort => 2 | CInt => 4 | _ => 8 end.
Definition ilp32 (c : ctype) : Z :=
  match c with CChar | CBool => 1 | CShort => 2 | CLlong => 8 | _ => 4 end.
(** Visual C++ on a processor other than x86 and Arm, in 64-bit mode *)
Definition llp64 (c : ctype) : Z :=
  match c with CChar | CBool => 1 | CShort => 2 | CInt | CLong => 4 | _ => 8 end.

Definition linux_x86_64 : target :=
  Target false (Some (X86 true true false false true true)) true (fun _ => 2) false false false
    (fun _ => true) false false lp64 SysFutex.
(** i386 without cmpxchg8b, where libatomic decides at run time *)
Definition linux_i386 : target :=
  Target false (Some (X86 false false false false false false)) true
    (fun c => match c with CLlong => 1 | _ => 2 end) false false false
    (fun n => n <=? 4) false false ilp32 SysFutex.
(** an unknown processor where long long has 16 bytes and only it is lock-free *)
Definition only_16 : target :=
  Target false None true (fun c => match c with CLlong => 2 | _ => 0 end) false false false
    (fun _ => false) false false
    (fun c => match c with CChar | CBool => 1 | CShort => 2 | CInt => 4 | CLlong => 16 | _ => 8 end) SysFutex.
Definition windows_64 : target :=
  Target false None false (fun _ => 0) false false false (fun _ => false) false true llp64 SysWindows.
(** an unknown processor with only the 8-byte __sync intrinsics *)
Definition sync_8 : target :=
  Target false None false (fun _ => 0) false false false (fun n => n =? 8) false false lp64 SysFutex.

Ltac sane_tac :=
  split; [reflexivity | split; [reflexivity | split; [| split]]];
  [intros c d; destruct c, d; cbn; intros Q; (reflexivity || discriminate Q)
  |intros c; destruct c; cbn; lia | intros c; destruct c; cbn; lia].

Example C48_linux_x86_64 : sane linux_x86_64 /\ decided linux_x86_64 /\ pointers_fit linux_x86_64 /\
  usual_sizes linux_x86_64 /\
  core_class linux_x86_64 8 = Some (Impl CompilerAtomic 8) /\
  core_class linux_x86_64 16 = Some (Impl Assembler 16) /\
  core_class linux_x86_64 32 = Some (Impl LockPool 32) /\
  map (int_macro linux_x86_64) [1; 2; 4; 8; 16; 32] = [2; 2; 2; 2; 2; 0] /\
  pointer_macro linux_x86_64 = 2 /\ float_macro linux_x86_64 10 = 2 /\ type_macro linux_x86_64 8 = 2 /\
  map (fun n => wait_macro linux_x86_64 n true) [1; 2; 4; 8; 16] = [0; 0; 2; 0; 0].
Proof.
  split; [sane_tac|]. split; [intros c; right; reflexivity|].
  split; [split; [exists CLong; split; [cbn; tauto | reflexivity] | cbn; lia]|].
  repeat split.
Qed.
Example C48_compiles_x86_64 : forall c, sizeof linux_x86_64 c <> 16.
Proof. intros c; destruct c; cbn; lia. Qed.
Example C48_ref_x86_64 : ref_class linux_x86_64 4 = Some (Impl CompilerAtomic 4) /\
  ref_class linux_x86_64 3 = Some (Impl LockPool 3).
Proof. split; reflexivity. Qed.

(** [is_always_lock_free] is true although the operations may take a lock, and
    the type is accepted between processes, on i386. *)
Theorem C48_always_lock_free_refuted : exists t n i, sane t /\ core_class t n = Some i /\
  always_lock_free i = true /\ ipc_compiles i = true /\ int_macro t n = 1 /\ ~ never_locks t i.
Proof.
  exists linux_i386, 8, (Impl CompilerAtomic 8).
  split; [sane_tac|]. repeat split.
  intros (c & S & L); destruct c; cbn in S, L; discriminate.
Qed.
Print Assumptions C48_always_lock_free_refuted.

(** A header that does not compile, whatever the program uses. *)
Theorem C48_compiles_refuted : exists t, sane t /\ forall n, core_class t n = None.
Proof. exists only_16; split; [sane_tac | intros n; reflexivity]. Qed.
Print Assumptions C48_compiles_refuted.

(** BOOST_ATOMIC_POINTER_LOCK_FREE is 2 and pointers use the lock pool. *)
Theorem C48_pointer_refuted : exists t i, sane t /\ pointers_fit t /\
  core_class t (sizeof t CPointer) = Some i /\ pointer_macro t = 2 /\
  always_lock_free i = false /\ ~ never_locks t i.
Proof.
  exists windows_64, (Impl LockPool 8).
  split; [sane_tac|]. split; [split; [exists CLlong; split; [cbn; tauto | reflexivity] | exact I]|].
  repeat split. intros [].
Qed.
Print Assumptions C48_pointer_refuted.

(** BOOST_ATOMIC_HAS_NATIVE_INT32_WAIT_NOTIFY is 2 and the wait is not native. *)
Theorem C49_macro_refuted : exists t i, sane t /\ usual_sizes t /\ core_class t 4 = Some i /\
  wait_macro t 4 false = 2 /\ always_native t i false = false.
Proof.
  exists sync_8, (Impl CompilerSync 8). split; [sane_tac|]. repeat split.
Qed.
Print Assumptions C49_macro_refuted.

(** The classes of the hypotheses exist on other targets. *)
Example C48_other_targets :
  core_class sync_8 2 = Some (Impl CompilerSync 8) /\
  core_class windows_64 2 = Some (Impl Interlocked 4) /\
  core_class (Target false None false (fun _ => 0) false false false (fun _ => false) true false ilp32 SysFutex) 2
  = Some (Impl KernelHelper 4) /\
  core_class (Target false (Some Alpha) false (fun _ => 0) false false false (fun _ => false) false false lp64 SysOther) 2
  = Some (Impl Assembler 4) /\
  core_class (Target true (Some Alpha) true (fun _ => 2) false false false (fun _ => false) false false lp64 SysOther) 2
  = Some (Impl LockPool 2).
Proof. repeat split. Qed.
Example C49_native_example : always_native linux_x86_64 (Impl CompilerAtomic 4) true = true.
Proof. reflexivity. Qed.
Example C48_lock_free_types_apply : fallback linux_i386 = false /\ intrinsics linux_i386 = true /\
  sizeof linux_i386 CLong <= 8 /\ level linux_i386 CLong = 2 /\ int_macro linux_i386 8 = 1.
Proof. split; [reflexivity|]. split; [reflexivity|]. split; [cbn; lia|]. split; reflexivity. Qed.

# A machine-checked model of Boost.Atomic in Rocq (Coq 8.16.1)

All line numbers cited in the Coq files refer to the pinned tree in `/repo`.

## 1. Shape of the model

* **Programs.** The functions of the library are written as *programs*: finite syntax trees whose nodes are single
  atomic machine actions (load, racy read, store, native RMW, CAS, weak CAS, load-linked, store-conditional, lock,
  unlock, byte read, byte write), pure computation, and unbounded `Loop` nodes for `while`/retry loops. A CAS loop in
  the model therefore looks like the C++ it models.
* **Machines.** A machine gives the effect of one action. Anything the hardware or the C++ standard leaves open
  (spurious failure of weak CAS / store-conditional, value returned by a racy non-atomic read) is taken from an
  *oracle* that the schedule supplies, so theorems quantify over it.
* **Schedules.** A schedule is a list (unbounded) of events "thread t invokes op", "thread t makes one step with oracle
  o", "thread t returns". `run` folds it over a state, producing a history of invocations and responses.
* **Specification.** `Linearizability` (small, separate) says: one can insert one *linearization event* per call
  between invocation and response such that the sequential object, stepped at these events only, produces the results.
  The sequential objects are written on mathematical integers/booleans/bytes with no reference to the model.
* **Data structures** (wait-record list, address search) are pure functions on lists/finite maps with explicit heap.
* **Blocking protocols** (futex mutex, wait/notify) are explicit transition systems with program counters, one
  constructor per source statement, proved by global invariants.

## 2. What is proved for each property, and how

| id | model | proof |
|----|-------|-------|
| C01 | word-level machine + back ends + `extra_ops_generic` + `base_atomic<T,int>` | rely/guarantee simulation, history linearizable for all schedules |
| C02 | same, storage wider than value | canonical extension invariant inside C01; plus algebra lemmas |
| C03 C04 C46 | compare_exchange in C01, kernel-helper loop | logically atomic triple for each back end |
| C05 C06 | corollaries | induction over the linearization of C01 |
| C07 C08 | extra operations | triples + algebra on wider storage |
| C09 | `base_atomic<T*>` | as C01 with scaled offsets |
| C10 | fp ops over an arbitrary binary function | as C01 |
| C11 | `base_atomic<bool>` | as C01 |
| C12 | `base_atomic<enum>` | proved for storage = value width (or unsigned little endian); refuted otherwise |
| C13 | byte-level `bitwise_cast_memcpy`, `clear_tail_padding_bits` | induction on byte lists |
| C14 C15 C16 | `storage_size_of`, `buffer_storage`, `integral_conversions` | arithmetic / induction |
| C17 | solo runs of the same programs | execution bound for all operands and garbage reads |
| C18 C19 | two-word machine | torn half reads; C19 refuted for failed CAS |
| C20 | `atomic_flag_impl` + spin lock client | invariant |
| C21 C22 | lock machine at byte level, `hash_ptr` | rely/guarantee simulation with lock ownership |
| C23 C24 | futex mutex transition system | global invariant |
| C25 C26 C27 | `wait_state_list` with explicit heap | refinement to a finite map, leak accounting |
| C28 C29 C30 | SSE searches on lanes, ctz | induction over blocks |
| C31-C34 C44 C45 | wait/notify transition system | global invariant; C33 refuted |
| C35 C36 C37 | timeout arithmetic in Z with explicit overflow outcome | arithmetic; C36, C37 refuted |
| C38 C39 C40 C41 | memory order tables and barrier masks | case analysis over the (finite) domain of orders, for all orders; C40 (SPARC), C41 (x86 consume) refuted |
| C42 | the x86 back end on a processor with store buffers (TSO) | simulation: programs without races whose atomics are seq_cst behave sequentially; coherence of every location; store buffering with strong operations |
| C43 | `base_atomic_ref` | as C01, C13; refuted for padding inside a byte |
| C47 | `extra_operations` on storage wider than the value | as C01 for the calls that are safe, refuted for the others |
| C48 C49 | `platform.hpp`, all `caps_*.hpp`, `capabilities.hpp`, `wait_capabilities.hpp`, all specializations of `core_operations` and `wait_operations` as functions of a target | case analysis over the (infinite: sizes, levels) domain of targets; refuted for four kinds of target |
| C50 | flags behind every wait back end (`PoolFront.v`) | instance of the linearizability of waits plus an invariant of histories; refuted for big-endian targets with byte-wide intrinsics |
| C51 | critical sections around a lock made of an atomic object, on the reordering machine of every back end (`SpecLock.v`) | induction on the time at which the lock is taken; refuted for SPARC with weaker orders than seq_cst |
| C52 | the programs of C01, C09-C12, C18, C20, C43 under arbitrary schedules (`SpecFree.v`) | every call writes its object at most once (`FreeInt.v`); with the bound of C17 this gives a potential that pays for every step (`FreeProof.v`) |
| C53 | the same | loop-free programs end; retry loops and exclusive-pair loads refuted by an unbounded family of schedules (`FreeWait.v`) |
| C54 | `storage_traits`, `storage_alignment` of every back end, `required_alignment`, C++ layout rules as functions of size, alignment and ABI (`LayoutModel.v`) | powers of two divide each other; the selection of C48 gives the class |
| C55 | `find_address`, `find_address_dispatch`, its function pointer, `cpuid`, the once flag of `allocate_buffer` (`DispatchModel.v`) | invariant over all schedules: the pointer is `dispatch` or a version the processor has; at most one thread is between winning the flag and `atexit` |
| C56 | the programs of C18 (futex lock), their actions on the lock word rendered as the instructions of a back end, amid arbitrary code of the threads (`SpecHand.v`) | a Hoare-style scan finds one acquiring and one releasing compare-exchange around every access to bytes (`HandProof.v`); induction on the time at which the lock is taken (`HandFlat.v`, `HandThread.v`) |
| C57 | the text of 1419 asm statements (`AsmBlocks.v`), its parser (`AsmText.v`) and instruction semantics (`AsmModel.v`); constraints, register allocation and the claim (`SpecAsm.v`) | a checker runs each block on symbolic registers against the program of `CoreModel.v`/`ExtraModel.v` (`AsmCheck.v`), proved sound once and for all by simulation (`AsmCheckProof.v`); a second function finds failing runs (`AsmRefute.v`); together they decide the claim for every block; `AsmLink.v` shows that the programs are those of the other properties |
| C58 | the same texts and those of the fence functions: which line reads or writes the object, which is a barrier and of what kind, acquire and release forms, "memory" clobbers; the conditions on the memory order under which each statement is executed (`AsmOrder.v`) | evaluation for every statement, configuration and order, made independent of place and number of retries by relocation and loop lemmas; the result is the code of `FenceModel.v`, so that C40 and C41 apply (`AsmOrderProof.v`) |
| C59 | the control flow between the calls that take a memory order in every function of the library that has one, and the assertions on orders (`OrderTable.v`, extracted by `tools/extract_orders.py`); how such functions run (`OrderFlow.v`) | induction on runs; each function is checked on its own against what the names it calls promise, for every order, so that no call graph is needed (`OrderFlowProof.v`); C40 then gives the guarantees on every back end |
| C60 | the statements of the function bodies of the portable layers (`TextTable.v`, extracted by `tools/extract_text.py`), a semantics for that subset of C++ as programs of the word machine (`TextModel.v`), the instances: which class is built on which (`TextProg.v`); what the names mean (`SpecText.v`) | each body, run on symbolic arguments, is bisimilar to the program of `CoreModel.v`, `ExtraModel.v`, `IntModel.v` or `TypedModel.v` (`SimProof.v`, `TextProof.v`, `TextFront.v`); bisimilar programs have the same histories, so the theorems about the model hold of the text (`TextRun.v`, `TextMain.v`), those on progress too (`TextFree.v`) |
| C61 | the statements of the 114 functions of the lock pool, the emulated operations (integer and floating-point) and the wait operations (`PoolTable.v` and `PoolFpTable.v`, extracted by `tools/extract_pool.py`), a semantics for that subset of C++ as programs over the actions of `PoolModel.v` (`PoolText.v`), the layers and the system calls under them (`PoolLayers.v`, `PoolFpLayers.v`) | each body, run on symbolic arguments, is bisimilar to the program of `PoolModel.v` (`PoolTextProof.v` ... `PoolTextMain.v`, `PoolTextFp.v`), so the two have the same histories and memory; C21, C23, C24, C31 to C34 for the text (`PoolTextRun.v`, `PropPoolText.v`) |
| C62 | the statements of the 7 timed functions of D/wait_ops_futex.hpp (`PoolTimedTable.v`, extracted by `tools/extract_pool.py`), the load, clocks and system calls they use (`PoolTimedLayers.v`), on systems whose waits count nanoseconds in 64 bits | each body, run on symbolic arguments, is bisimilar to `native_timed` of `PoolModel.v` (`PoolTextTimed.v`, `PoolTextTimedSys.v`, `PoolTextTimedFor.v`, `PoolTextTimedMain.v`); C21, C24, C33, C34 for the executions in which these waits, too, are text (`PoolTimedRun.v`, `PropTimedText.v`) |

"Refuted" means: the faithful model violates the property; a theorem named `..._refuted` exhibits the witness, and the
strongest restriction that does hold is proved beside it. Details are in section 5.

## 3. Trusted base

* **Coq's kernel** (8.16.1) and `coqc`/`coqchk` as installed. Nothing switches off a kernel check; there are no axioms,
  no `Admitted`, no functors, no plugins.
* **Assumptions of the theorems.** Every theorem named in MANIFEST.json is followed by `Print Assumptions` in its file
  (the files `Prop*.v`), and each prints `Closed under the global context`. `coqchk` also lists seven constants
  `Coq.ssr.ssrunder.Under_rel.*` of the standard library (opaque module fields in the library behind `lia`/`ssreflect`
  that get loaded); no theorem here depends on them.
* **The translation** from C++ to the definitions of the model, done by hand. Each definition cites file and lines. The
  points where the translation decides something that the text does not are:
  * the meaning of a machine instruction, an intrinsic or a system call (`Word.v`, `Prog.v`, `PoolModel.v`, `Reorder.v`,
    `TsoModel.v`); what the manuals leave open (spurious failures, garbage of racing reads, spurious wake-ups, order of
    wake-ups, run-time choice of clocks) is an oracle of the schedule, over which theorems quantify;
  * two's complement representation and truncating conversions between integer types (`Conv.v`), as all supported
    compilers do, `memcpy`/`memcmp` as in the C standard (`BytesModel.v`);
  * in the linearizability theorems an atomic machine action is one step for all threads; memory orders weaker than
    seq_cst are the subject of C38-C42, in `FenceModel.v`/`Reorder.v` (what the emitted instructions leave the compiler
    and the processor free to do to one thread's accesses) and `TsoModel.v` (store buffers, x86 only). No model has
    writes that reach different threads at different times.
  * in C56 an action on the lock word becomes the instructions that `FenceModel.v` gives for a load, compare-exchange or
    fetch-or of its memory order, and every other action any instructions that do not write the word. The locks of
    operating systems (pthread, SRW) are trusted to order memory as their documentation says.
  * in C57 the asm statements are copied from the headers by `tools/extract_asm.py` (comments stripped, macros expanded,
    both branches of conditionals inside statements, little and big endian) and `tools/gen_blocks.py`. The copy, the
    instruction tables of `AsmModel.v`, and the meaning of GCC's operand constraints (`legal`, `begins`, `ends` in
    `SpecAsm.v`) are trusted. A text line that the tables do not know makes `assemble` fail, and the block counts as wrong.
  * in C58, besides, the table `barrier` and the lists of acquiring and releasing mnemonics (`acquires`, `releases`), and
    the table `conditions`, which repeats by file and line the `if` around each statement.  Statements that the functions
    execute before and after the one with the operation are found by the name of the function they are in.
  * in C59 the table of functions is extracted by `tools/extract_orders.py`; the extraction is trusted.  It keeps the calls
    that take an order and the plain reads, and the control flow between them; conditions other than the result of a
    compare_exchange are left open, and both branches of `#if` are taken.  A construct the script does not know makes it stop.
    A call may go to any function of the library with that name and number of orders.
  * in C60 the function bodies are extracted by `tools/extract_text.py`; the extraction and the semantics in `TextModel.v` are
    trusted.  A construct the script does not know makes it stop; an ill-typed expression or an unknown name makes the
    program `nonsense`, an endless loop, which the theorems on progress exclude.  Trusted too: what the
    intrinsics do (`gcc_atomic_intrinsics`, `gcc_sync_intrinsics`, `interlocked`, `linux_arm_intrinsics` in `TextProg.v`),
    and which class is instantiated over which (`text_base`, `text_core`, `text_extra`, `text_fpops`, `flag_members`).
    Not in the table: `wait` and `notify` members, `value()` and `storage()` of references, `operator=`, the padding of
    references on binding (C43), fences (C58), the assembler (C57), the lock pool (C61).
  * in C61 the function bodies are extracted by `tools/extract_pool.py`; the extraction, the semantics in `PoolText.v` and the
    layers in `PoolLayers.v` (which class is built on which, what the system calls and the operations on the futex words do)
    are trusted.  A construct the script does not know makes it stop; an unknown name or an ill-typed expression makes the
    program get stuck, which the bisimulation excludes.  Not from the text but from `PoolModel.v`: the list of wait records
    (`allocate_wait_state`, `free_wait_state`; C25, C26), `wait_until` and `wait_for` of the three `wait_state`s (C54), the
    timed waits of D/wait_ops_futex.hpp (text in C62), emulated `test_and_set`, the exit handler.  The sums and differences
    of floating-point
    values are the arithmetic of the type, a parameter.  A
    `timespec` is a number of nanoseconds; the branches for ENOSYS are left out.
  * in C62, likewise: the extraction, the semantics, `PoolTimedLayers.v`.  A `futex_timespec` has two members; `tv_sec` has 64
    bits (`sec <= max` is true), so the branches that cut a time to 32 bits are not taken; integers do not overflow; there is
    one clock.  The branches for ENOSYS are in the table but the system calls do not give that error.
* **The specifications** (`Spec*.v`, and the definitions of `Prog.v` that say what a history is).

## 4. What is modelled, and what is not

Modelled (D = include/boost/atomic/detail):

| model file | code |
|---|---|
| CoreModel.v, Word.v | D/core_ops_gcc_atomic, gcc_sync, linux_arm, windows, cas_based_exchange, core_ops_cas_based; D/core_arch_ops_gcc_{x86, aarch32, aarch64, arm, ppc, sparc, alpha}, msvc_{x86, arm} |
| ExtraModel.v | D/extra_ops_generic, extra_ops_emulated and the assembler versions extra_ops_gcc_{x86, arm, aarch32, aarch64, ppc} as the loops they are (the fixed instruction sequences become machine actions) |
| IntModel.v, TypedModel.v, PoolFront.v | D/atomic_impl.hpp, D/atomic_ref_impl.hpp, D/atomic_flag_impl.hpp (all class templates and members) |
| PairModel.v | 16-byte operations of D/core_arch_ops_gcc_aarch64.hpp |
| BytesModel.v, Conv.v | D/bitwise_cast, bitwise_fp_cast, storage_traits, integral_conversions, type padding |
| FindModel.v | src/find_address_{sse2, sse41}.cpp, find_address_generic in src/lock_pool.cpp |
| RecordsModel.v | `wait_state_list`, `wait_state` in src/lock_pool.cpp, lock_pool_init |
| PoolModel.v | src/lock_pool.cpp (spin, futex, pthread locks; lock, unlock, short and long locks; wait, notify), D/core_operations_emulated, D/wait_ops_{generic, emulated, futex, windows, darwin_ulock, freebsd_umtx, dragonfly_umtx} |
| TimeModel.v | the arithmetic of wait_for and wait_until: D/wait_ops_*, D/chrono.hpp, src/lock_pool.cpp |
| FenceModel.v | D/fence_arch_ops_*, D/fence_ops_*, the fences of every back end, D/gcc_atomic_memory_order_utils.hpp, D/memory_order_utils.hpp |
| TsoModel.v | D/core_arch_ops_gcc_x86.hpp and its fences as instructions |
| CapsModel.v | D/platform.hpp, D/caps_*, D/capabilities.hpp, D/wait_caps_*, D/wait_capabilities.hpp, and the list of specializations in every core and wait back end |
| LayoutModel.v | `storage_traits` and `storage_alignment` in every back end, D/aligned_variable.hpp, the data members of D/atomic_impl.hpp, D/atomic_flag_impl.hpp, `required_alignment` and its assertion in atomic_ref |
| AsmText.v, AsmModel.v, AsmBlocks.v | the asm statements of D/core_arch_ops_gcc_{alpha, ppc, arm, aarch32, aarch64, sparc, x86}.hpp and D/extra_ops_gcc_{arm, aarch32, aarch64, ppc, x86}.hpp, D/ops_gcc_*_common.hpp, D/gcc_*_asm_common.hpp; not the versions for Thumb 1 |
| AsmOrder.v | the memory ordering of the statements above and those of D/fence_arch_ops_gcc_{alpha, arm, ppc, sparc, x86, aarch32, aarch64}.hpp, D/ops_gcc_ppc_common.hpp, D/ops_gcc_arm_common.hpp, BOOST_ATOMIC_DETAIL_AARCH{32,64}_MO_SWITCH |
| OrderFlow.v, OrderTable.v | the memory orders in atomic.hpp, atomic_ref.hpp, ipc_atomic.hpp, ipc_atomic_ref.hpp, D/atomic_impl, atomic_ref_impl, atomic_flag_impl, D/wait_ops_{generic, futex, windows, darwin_ulock, freebsd_umtx, dragonfly_umtx}, D/extra_ops_generic, extra_fp_ops_generic, fp_ops_generic, core_ops_cas_based, cas_based_exchange, extending_cas_based_arithmetic, core_ops_gcc_{atomic, sync}, core_ops_linux_arm, core_ops_windows, and the functions without assembler in D/core_arch_ops_* and D/extra_ops_gcc_*; not the lock-based functions (they ignore the order; C56) |
| PoolText.v, PoolTable.v, PoolLayers.v, PoolFpTable.v, PoolFpLayers.v | the text of the locks, condition variables and pool functions of src/lock_pool.cpp, D/lock_pool.hpp, D/core_operations_emulated.hpp, D/extra_ops_emulated.hpp, D/fp_ops_emulated.hpp, D/extra_fp_ops_emulated.hpp, D/wait_ops_emulated.hpp, D/wait_ops_generic.hpp, and `wait` and `notify` of D/wait_ops_futex.hpp |
| PoolTimedTable.v, PoolTimedLayers.v, PoolTimedFront.v | the text of `wait_until`, `wait_for` and their helpers in D/wait_ops_futex.hpp |
| DispatchModel.v | src/lock_pool.cpp 77-84, 125-194 (choice of the address search), 1068-1072 (once flag), src/cpuid.hpp, D/once_flag.hpp |

Not modelled:

* D/extra_ops_msvc_x86.hpp, extra_ops_msvc_arm.hpp: no configuration uses them, and they do not compile (finding 25).
* D/interlocked.hpp: names for compiler intrinsics; each intrinsic is a machine action.
* D/type_traits/*, D/addressof.hpp, D/config.hpp, D/header.hpp, D/footer.hpp, D/link.hpp,
  D/string_ops.hpp, D/intptr.hpp, D/pause.hpp: no run-time behaviour of their own, or that of a compiler intrinsic.
* Constant initialisation and order of static initialisation.
* C++ overload resolution and template argument deduction, except for the choice of specializations in CapsModel.v.
* Operating system and C library: futexes, umtx, ulock, condition variables, clocks and `memcpy` are specified by the
  machine, not derived.
* Signals; exceptions thrown by constructors of user types (the library requires trivially copyable types).
* Fairness of the scheduler: C17 and C44 are about calls that are left alone, C52 says that under contention some call
  completes, C53 which calls complete in a bounded number of steps; C24 and C32 say that a sleeping thread is not
  forgotten, not when it runs.

Every simplification is noted in the comment of the definition concerned.

## 5. Findings

The faithful model violates a property in these cases. A theorem `..._refuted` gives the witness.

1. C33: wait_for/wait_until of a lock-free object waiting through the lock pool (D/wait_ops_generic.hpp) miss a
   notification: the time-out is tested before the value is read again (`C33_..._refuted`).
2. C36: signed overflow in wait_for with the longest durations, and in wait_until with the earliest time points.
3. C12: enumerations in storage wider than the type: a compare_exchange that fails for ever, and (big endian) wrong values.
4. C48: core_ops_gcc_atomic.hpp 210-216 specializes `core_operations< 8u, ... >` in the section for 4 bytes, so a target on
   which only a 16-byte type is lock-free does not compile.
5. core_ops_windows.hpp 105-106 has a malformed specialization (`bool Interprocess` in the argument list). fetch_sub negates
   the argument as a signed number there and with the Microsoft compiler: undefined for the least value. (Notes; the model
   negates modulo 2^n.)
6. The futex wait_until repeats the system call at once after an error it does not know. (Note.)
7. C24, C32: the counters in futex words wrap after 2^30 releases (mutex) or 2^32 notifications (condition).  A thread that
   has registered and is about to make the system call for so long misses its wake-up (C32_counter_wrap_refuted); a thread
   that stays between waking nobody and clearing the mark 'contended' erases the mark of later sleepers, one of which then
   sleeps with the lock free (C24_counter_wrap_refuted).  Both runs are constructed by induction over the calls in between.
8. C40: SPARC: the fence after an acquire operation has no #LoadLoad.
9. C41: atomic_thread_fence(consume) on x86 is empty for the compiler too.
10. C19: AArch64 without LSE2: a failed 16-byte compare_exchange may report a mix of two values.
11. C12, C47: big-endian targets with wider storage.
12. C37: the library's `chrono::ceil` substitute is one too large for negative fractional durations.
13. C50: atomic_flag with __atomic intrinsics on big-endian targets.  `__atomic_test_and_set` writes 1 to the first byte, so a set flag is the word 2^24, while wait(true) compares with 1: it returns at once although the flag is set.
14. C47: negate, complement and others on wider storage leave bits above the value that comparisons then see.
15. C43: constructing an atomic_ref clears padding with a plain read-modify-write of the last byte and can undo a concurrent
    store.
16. C10: the negation of IEC 559 numbers by exclusive-or uses the wrong bit on big-endian wider storage.
17. C27: after the clean-up at exit, a failed allocation leaks a buffer.
18. The pthread wait_until that falls back to a relative wait waits again without reading the value. (Note.)
19. C35: a 32-bit time_t wraps for deadlines after 2038.
20. duration_cast of coarse system_clock durations overflows (note).
21. C40: linux_arm: a failed compare_exchange reads the value again without a barrier.
22. C40: AArch64/AArch32: compare_exchange(release, acquire) loads without acquire.
23. C40: AArch32: the 8-byte acquire load has no compiler barrier.
24. The seq_cst fence of the generic Windows and MSVC x86 back ends increments an uninitialised variable (note).
25. extra_ops_msvc_x86.hpp and extra_ops_msvc_arm.hpp are never included and do not compile (note).
26. C48: __atomic intrinsics of level 1 ("depends") are reported as always lock-free and accepted between processes.
27. C48: the generic Windows back end reports lock-free pointers although 8-byte pointers use the lock pool.
28. C49: the native-wait macro of 4 bytes is wrong where 4-byte values have 8-byte storage.
29. C51 (consequence of finding on C40, SPARC): on a SPARC that reorders reads, a read in a critical section entered with test_and_set(memory_order_acquire) may take effect before the lock is taken, so a reader sees half of another section's writes.  In total store order mode, which operating systems use, the property holds.
30. C53: a 16-byte load on AArch64 without single-copy atomic pair loads is a loop that stores back what it has read; it starves under a stream of stores, and two loads disturb each other (C52 still holds). Likewise an 8-byte store on 32-bit ARM is a load- and store-exclusive loop.
31. C55: a 64-bit build with SSE4.1 allowed everywhere, USE_SSE2 defined and USE_SSE41 not, or a 32-bit build with SSE2 allowed everywhere, USE_SSE41 defined and USE_SSE2 not, refers to `find_address_dispatch`, which is not declared (src/lock_pool.cpp 77-84 and 135-142 test different conditions). It fails to compile; the build files define both macros by independent checks.
32. C57: x86, 8-byte store of `gcc_dcas_x86` in the branch for position-independent code with ebx reserved (core_arch_ops_gcc_x86.hpp 510, GCC before 5.1, unaligned object): eax is only an input but is overwritten, and esi is overwritten without being declared.
33. C57: AArch64 and AArch32, compare_exchange of 1 and 2 bytes without LSE: `uxtb`/`uxth` writes to the register of the input `expected`, which is only an input. Harmless only if the register is zero-extended already.
34. C57: ARM compare_exchange: `success` is "+r" without "&", so a compiler that knows `desired` to be 0 may give both the same register; `strex` with equal status and source registers is unpredictable, and the register is overwritten before it is read.
35. C57: PowerPC compare_exchange of 1 and 2 bytes compares with `cmpw` and relies on a zero-extended `expected`; Alpha compare_exchange of 4 bytes compares with `cmpeq` and relies on a sign-extended one. Otherwise the operation fails although the values are equal. ABIs and compilers extend so by habit; the statements do not ask for it.
36. C57: Alpha: the statements write to the object but list it only as an input, without clobber "memory".

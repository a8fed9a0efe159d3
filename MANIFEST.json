{
 "claims": [
  {
   "property": "C01",
   "status": "proved",
   "theorems": [
    "C01_integral_linearizable",
    "C01_final_state"
   ],
   "note": "every lock-free back end except the 16-byte AArch64 pair (C19); storage as wide as the value"
  },
  {
   "property": "C02",
   "status": "proved",
   "theorems": [
    "C02_wraps_on_any_storage"
   ],
   "note": "any storage width"
  },
  {
   "property": "C03",
   "status": "proved",
   "theorems": [
    "C03_strong_cas",
    "C03_one_winner"
   ],
   "note": ""
  },
  {
   "property": "C04",
   "status": "proved",
   "theorems": [
    "C04_weak_cas"
   ],
   "note": ""
  },
  {
   "property": "C05",
   "status": "proved",
   "theorems": [
    "C05_no_lost_update"
   ],
   "note": ""
  },
  {
   "property": "C06",
   "status": "proved",
   "theorems": [
    "C06_distinct_tickets"
   ],
   "note": ""
  },
  {
   "property": "C07",
   "status": "proved",
   "theorems": [
    "C07_forms_agree"
   ],
   "note": "storage as wide as the value; see C47"
  },
  {
   "property": "C08",
   "status": "proved",
   "theorems": [
    "C08_one_bit",
    "C08_bits_claimed_once"
   ],
   "note": "storage as wide as the value; see C47"
  },
  {
   "property": "C09",
   "status": "proved",
   "theorems": [
    "C09_pointers_linearizable"
   ],
   "note": "All element sizes, signed offsets, addresses, back ends; storage as wide as a pointer, or wider for the calls of wide_safe."
  },
  {
   "property": "C10",
   "status": "proved",
   "theorems": [
    "C10_floats_linearizable",
    "C10_wide_big_endian_negation_refuted"
   ],
   "note": "Any functions on bit patterns as arithmetic. The xor negation needs little endian or a value filling its storage; the refuted theorem shows why."
  },
  {
   "property": "C11",
   "status": "proved",
   "theorems": [
    "C11_bool_linearizable",
    "C11_no_invented_value"
   ],
   "note": "All back ends and storage widths."
  },
  {
   "property": "C12",
   "status": "partial",
   "theorems": [
    "C12_enum_linearizable_partial",
    "C12_wide_enum_refuted"
   ],
   "note": "Proved when the storage is as wide as the enumeration, and on little endian for the calls of enum_wide_safe otherwise. The full statement is false of the code: three counterexamples are proved."
  },
  {
   "property": "C13",
   "status": "proved",
   "theorems": [
    "C13_values_linearizable",
    "C13_bytes_round_trip",
    "C13_bytes_round_trip_no_clear",
    "C13_same_storage_iff_same_value",
    "C13_float_tail_cleared",
    "C13_word_of_bytes",
    "C13_tail_always_zero"
   ],
   "note": "byte-level casts with uninitialised destination bytes and arbitrary padding masks; concurrent behaviour on every lock-free back end"
  },
  {
   "property": "C14",
   "status": "proved",
   "theorems": [
    "C14_storage_size"
   ],
   "note": ""
  },
  {
   "property": "C15",
   "status": "proved",
   "theorems": [
    "C15_buffer_compares_by_value"
   ],
   "note": "out-of-range reads by memcmp would be None"
  },
  {
   "property": "C16",
   "status": "proved",
   "theorems": [
    "C16_truncation",
    "C16_extension",
    "C16_truncate_after_extend",
    "C16_extend_after_truncate"
   ],
   "note": ""
  },
  {
   "property": "C17",
   "status": "proved",
   "theorems": [
    "C17_completes_when_undisturbed",
    "C17_all_kinds"
   ],
   "note": "From any interrupted point of any operation on any modelled back end (integers; pointers, booleans, enumerations, floating point, plain values, flags, references and 16-byte AArch64 integers in C17_all_kinds), twelve undisturbed steps complete the call."
  },
  {
   "property": "C18",
   "status": "proved",
   "theorems": [
    "C18_double_width_linearizable",
    "C18_double_width_untorn"
   ],
   "note": "cmpxchg8b/cmpxchg16b objects inside any world of atomics."
  },
  {
   "property": "C19",
   "status": "partial",
   "theorems": [
    "C19_pair_linearizable_partial",
    "C19_pair_untorn_partial",
    "C19_failed_cas_torn_refuted",
    "C19_pair_completes_when_undisturbed"
   ],
   "note": "Everything but the value reported by a failed compare_exchange; that one is refuted with a witness (finding)."
  },
  {
   "property": "C20",
   "status": "proved",
   "theorems": [
    "C20_flag_linearizable",
    "C20_mutual_exclusion",
    "C20_one_winner"
   ],
   "note": "All back ends including the byte-wide intrinsics on either byte order."
  },
  {
   "property": "C21",
   "status": "proved",
   "theorems": [
    "C21_lock_based_linearizable"
   ],
   "note": "All three lock kinds, byte-by-byte storage, any collision of locks, exit handler and fences included.  Mixed collections of lock-based and lock-free objects: integers, plain values, floating point numbers, pointers, booleans and flags."
  },
  {
   "property": "C22",
   "status": "proved",
   "theorems": [
    "C22_index_valid",
    "C22_same_lock_for_all_calls"
   ],
   "note": ""
  },
  {
   "property": "C23",
   "status": "proved",
   "theorems": [
    "C23_mutual_exclusion",
    "C23_quiet_unlocked"
   ],
   "note": "All lock kinds; no bound on the futex counter (it may wrap around)."
  },
  {
   "property": "C24",
   "status": "partial",
   "theorems": [
    "C24_no_stranded_sleeper_partial",
    "C24_free_lock_attended_partial",
    "C24_short_runs",
    "C24_no_stranded_sleeper_os_locks",
    "C24_counter_wrap_refuted"
   ],
   "note": "Proved in full for the mutexes of the operating system; for the futex mutex, while the counters in the futex words have not wrapped around (fewer than 2^30 releases of one lock, fewer than 2^32 notifications of one record).  C24_short_runs: true of every run of fewer than 2^30 events.  C24_counter_wrap_refuted: a run of more than 2^30 calls strands a sleeper."
  },
  {
   "property": "C25",
   "status": "proved",
   "theorems": [
    "C25_notify_finds_the_waiters",
    "C25_one_record_per_object"
   ],
   "note": "The wait lists of the lock pool, over every sequence of waits, leaves, notifications, clean-ups and allocation failures, with every version of the address search. Calls on one list are atomic, because each is made under the lock."
  },
  {
   "property": "C26",
   "status": "proved",
   "theorems": [
    "C26_created_and_shared",
    "C26_alive_while_used",
    "C26_removed_with_the_last"
   ],
   "note": "Same model as C25; the reference count equals the number of waits in progress."
  },
  {
   "property": "C27",
   "status": "partial",
   "theorems": [
    "C27_never_undefined",
    "C27_handler_registered_once",
    "C27_nothing_left_partial",
    "C27_leak_refuted"
   ],
   "note": "No use after free, double free, out-of-bounds access or assertion failure. Nothing is left allocated at exit provided no allocation fails after the clean-up; without the proviso the code leaks a buffer (C27_leak_refuted)."
  },
  {
   "property": "C28",
   "status": "proved",
   "theorems": [
    "C28_search_is_linear_search",
    "C28_versions_agree",
    "C28_runtime_dispatch"
   ],
   "note": "every search version equals the linear search for every array content, size and capacity the list takes"
  },
  {
   "property": "C29",
   "status": "proved",
   "theorems": [
    "C29_search_stays_in_buffer",
    "C29_capacities"
   ],
   "note": "every load is inside the buffer and 16-aligned (None in the model otherwise); Example C29_case shows the bound is needed"
  },
  {
   "property": "C30",
   "status": "proved",
   "theorems": [
    "C30_trailing_zeros",
    "C30_unique"
   ],
   "note": "portable branch of count_trailing_zeros; the intrinsics are trusted to match their documentation"
  },
  {
   "property": "C31",
   "status": "proved",
   "theorems": [
    "C31_wait_returns_changed_value"
   ],
   "note": "Lock-based, lock-pool, inter-process polling and native back ends (futex; the Windows, Darwin, FreeBSD and DragonFly ones have the same shape and are covered by the same programs)."
  },
  {
   "property": "C32",
   "status": "partial",
   "theorems": [
    "C32_wait_not_missed_partial",
    "C32_waiters_return_partial",
    "C32_wait_not_missed_os_locks",
    "C32_wait_not_missed_native",
    "C32_counter_wrap_refuted"
   ],
   "note": "All back ends.  In full with the mutexes of the operating system, and on every platform for objects whose waits sleep on their own storage; for the waits that go through a lock pool of futex mutexes, under the proviso of C24, without which C32_counter_wrap_refuted gives a run of 2^32 notifications that leaves the waiter asleep."
  },
  {
   "property": "C33",
   "status": "partial",
   "theorems": [
    "C33_timed_wait_not_missed_partial",
    "C33_timed_wait_not_missed_native",
    "C33_timed_wait_not_missed_os_locks",
    "C33_pooled_timed_wait_refuted"
   ],
   "note": "Proved for lock-based, futex and polling objects (without any proviso for objects whose waits sleep on their own storage, and for operating-system locks); refuted, for every lock kind and kind of time limit, for lock-free objects that wait through the lock pool."
  },
  {
   "property": "C34",
   "status": "proved",
   "theorems": [
    "C34_timed_wait_values",
    "C34_timeout_reached"
   ],
   "note": ""
  },
  {
   "property": "C35",
   "status": "partial",
   "theorems": [
    "C35_asks_for_the_rest",
    "C35_capacity",
    "C35_late_only_after_deadline",
    "C35_late_after_deadline",
    "C35_pooled_asks_for_the_rest",
    "C35_pooled_late_only_after_deadline",
    "C35_model_asks",
    "C35_absolute_deadline",
    "C35_condvar_deadline",
    "C35_system_deadline_64",
    "C35_system_deadline_partial",
    "C35_system_deadline_32_refuted",
    "C35_reached",
    "C35_left"
   ],
   "note": "Rounding, clamping and normalisation are proved for every back end (futex, umtx, ulock, umtx_sleep, WaitOnAddress, SleepConditionVariableSRW, pthread) and every clock period. The conversion of system_clock time points to timespec is proved for a 64-bit time_t; with a 32-bit time_t it is refuted for deadlines after 2038."
  },
  {
   "property": "C36",
   "status": "partial",
   "theorems": [
    "C36_wait_for_absolute_refuted",
    "C36_wait_for_hours_refuted",
    "C36_wait_for_relative_refuted",
    "C36_condvar_refuted",
    "C36_wait_until_refuted",
    "C36_wait_for_absolute_partial",
    "C36_wait_for_relative_partial",
    "C36_condvar_partial",
    "C36_wait_until_partial",
    "C36_system_wait_until"
   ],
   "note": "The full claim is refuted for every version (wait_for of the longest time-out, wait_until the earliest time point); the partial theorems give ranges without overflow."
  },
  {
   "property": "C37",
   "status": "partial",
   "theorems": [
    "C37_ceiling_refuted",
    "C37_ceiling_partial",
    "C37_negative",
    "C37_standard",
    "C37_defined"
   ],
   "note": "Refuted for negative durations that are not whole numbers of the target unit, where the result is one too large; proved for all others."
  },
  {
   "property": "C38",
   "status": "proved",
   "theorems": [
    "C38_failure_order",
    "C38_accepted_orders"
   ],
   "note": "The deduced failure order is legal, weaker than the given order and the strongest such; the exact set of pairs the assertions accept, which contains (release, consume) and (release, acquire)."
  },
  {
   "property": "C39",
   "status": "proved",
   "theorems": [
    "C39_conversion_exact",
    "C39_conversion_other"
   ],
   "note": "Exact on the enumerators, seq_cst for every other integer."
  },
  {
   "property": "C40",
   "status": "partial",
   "theorems": [
    "C40_acquire_partial",
    "C40_acquire_exceptions_refuted",
    "C40_release",
    "C40_seq_cst_partial",
    "C40_linux_arm_seq_cst_refuted",
    "C40_message_passing_partial",
    "C40_sparc_later_writes",
    "C40_sparc_total_store_order",
    "C40_operation_accesses"
   ],
   "note": "17 back ends, all operations, loop counts and orders, against a compiler-and-processor reordering machine. Release holds everywhere. Acquire holds but for an exact list of exceptions, all refuted: SPARC (no #LoadLoad), 8-byte loads on 32-bit Armv8 (no compiler barrier), failed compare_exchange on Armv8 with (release, acquire), failed compare_exchange on linux_arm."
  },
  {
   "property": "C41",
   "status": "partial",
   "theorems": [
    "C41_thread_fence_partial",
    "C41_x86_consume_refuted",
    "C41_signal_fence",
    "C41_message_passing_partial"
   ],
   "note": "Holds for all back ends and orders except memory_order_consume on x86, where the fence is empty also for the compiler (refuted)."
  },
  {
   "property": "C42",
   "status": "proved",
   "theorems": [
    "C42_race_free_sequentially_consistent",
    "C42_coherent",
    "C42_values",
    "C42_all_writes_arrive",
    "C42_store_buffering",
    "C42_message_passing"
   ],
   "note": "x86-TSO machine with FIFO store buffers; arbitrary programs (automata), any number of threads and variables, all schedules. Race-free programs with seq_cst atomics show only interleavings; every run is coherent with respect to program order, reads-from and the order of locked operations."
  },
  {
   "property": "C43",
   "status": "partial",
   "theorems": [
    "C43_references_linearizable_partial",
    "C43_binding_loses_update_refuted"
   ],
   "note": "Proved when padding is cleared by stores to whole padding bytes (or there is none). The refuted theorem: with padding inside a byte, binding a reference can undo a concurrent store."
  },
  {
   "property": "C44",
   "status": "proved",
   "theorems": [
    "C44_wait_notices_change",
    "C44_timed_wait_notices_change",
    "C44_timed_wait_ends_at_deadline"
   ],
   "note": "Bounds: 3 steps (untimed), 5 (timed) after a lasting change, 6 after the deadline."
  },
  {
   "property": "C45",
   "status": "proved",
   "theorems": [
    "C45_sleeper_has_record",
    "C45_without_memory",
    "C45_without_memory_waits_finish",
    "C23_mutual_exclusion",
    "C31_wait_returns_changed_value",
    "C32_wait_not_missed_partial"
   ],
   "note": "The schedules of all pool theorems include every pattern of allocation failures; the C45 theorems say what happens to the sleepers."
  },
  {
   "property": "C46",
   "status": "proved",
   "theorems": [
    "C46_arm_strong_cas_genuine",
    "C46_arm_strong_cas_terminates"
   ],
   "note": "Strong compare-exchange through the Linux kernel helper."
  },
  {
   "property": "C47",
   "status": "partial",
   "theorems": [
    "C47_extra_on_wide_storage_partial",
    "C47_add_and_test_refuted",
    "C47_negate_refuted"
   ],
   "note": "the full claim is false of the code (two refutations); proved for the calls wide_safe lists"
  },
  {
   "property": "C48",
   "status": "partial",
   "theorems": [
    "C48_macro_two_never_locks",
    "C48_macro_zero_locks",
    "C48_constant_iff_macro",
    "C48_always_lock_free_partial",
    "C48_macro_values",
    "C48_macro_antitone",
    "C48_storage_holds_value",
    "C48_type_macro",
    "C48_float_macro",
    "C48_bool_and_flag_macro",
    "C48_pointer_macro_partial",
    "C48_ref_storage",
    "C48_ref_lock_free",
    "C48_ipc_partial",
    "C48_compiles_partial",
    "C48_always_lock_free_refuted",
    "C48_compiles_refuted",
    "C48_pointer_refuted",
    "C48_intrinsics_chosen",
    "C48_lock_free_types"
   ],
   "note": "The library violates the full statement: __atomic intrinsics with level 1 ('depends') are reported as always lock-free and accepted between processes; a target whose only lock-free type has 16 bytes does not compile; the generic Windows back end reports lock-free pointers of 8 bytes. Proved for all other targets."
  },
  {
   "property": "C49",
   "status": "partial",
   "theorems": [
    "C49_native_constant",
    "C49_native_macro_partial",
    "C49_native_macro_value",
    "C49_macro_refuted"
   ],
   "note": "The macro and the constant agree when the storage has the size of the value; they differ otherwise (refuted)."
  },
  {
   "property": "C50",
   "status": "partial",
   "theorems": [
    "C50_flag_wait_partial",
    "C50_flag_timed_wait_partial",
    "C50_flag_wait_refuted"
   ],
   "note": "Proved for all lock kinds and wait back ends, except big-endian targets with the byte-wide intrinsics of GCC, where it is false: there wait(true) never waits."
  },
  {
   "property": "C51",
   "status": "partial",
   "theorems": [
    "C51_critical_sections_partial",
    "C51_bodies_partial",
    "C51_sparc_total_store_order",
    "C51_sparc_refuted"
   ],
   "note": "all 17 back ends on the reordering machine of Reorder.v; SPARC only with seq_cst lock operations or in total store order mode: C51_sparc_refuted shows that acquire is not enough there"
  },
  {
   "property": "C52",
   "status": "proved",
   "theorems": [
    "C52_integers",
    "C52_pointers",
    "C52_booleans",
    "C52_enumerations",
    "C52_floating_point",
    "C52_values",
    "C52_flags",
    "C52_references",
    "C52_aarch64_pairs"
   ],
   "note": "System-wide progress on every object: steps on an object are bounded by 12 P (P + finished calls) plus 13 per spurious failure, so some call always finishes; threads that stopped in the middle of a call do not matter."
  },
  {
   "property": "C53",
   "status": "partial",
   "theorems": [
    "C53_bounded_calls_partial",
    "C53_fetch_refuted",
    "C53_store_refuted",
    "C53_load_refuted"
   ],
   "note": "Two steps of its own finish every load and compare_exchange_weak, and every call the target has an instruction for, whatever other threads do.  Refuted for retry loops (fetch_xor on x86), for 8-byte stores on 32-bit ARM and for 16-byte loads on AArch64 made of load- and store-exclusive pairs, which lose against a stream of stores."
  },
  {
   "property": "C54",
   "status": "proved",
   "theorems": [
    "C54_atomic_one_piece",
    "C54_atomic_holds_value",
    "C54_flag_one_piece",
    "C54_ref_one_piece"
   ],
   "note": "sizeof and alignof follow the C++ rules for a class with one aligned member (alignas, or the union used without it); what the ABI decides is quantified over (abi_ok)."
  },
  {
   "property": "C55",
   "status": "proved",
   "theorems": [
    "C55_only_present_instructions",
    "C55_instructions",
    "C55_search_while_choosing",
    "C55_cleanup_at_most_once",
    "C55_cleanup_registered",
    "C55_cleanup_once",
    "C55_undeclared_dispatch"
   ],
   "note": "fit: the processor has the instructions the compiler was told to use everywhere. C55_undeclared_dispatch is a finding: two inconsistent build configurations do not compile."
  },
  {
   "property": "C56",
   "status": "proved",
   "theorems": [
    "C56_seen_calls_ordered",
    "C56_reads_from",
    "C56_calls_ordered",
    "C56_operations_indivisible",
    "C56_paths_cover_runs"
   ],
   "note": "Futex lock of the pool on every back end that has it (SPARC in total store order mode); the locks of operating systems are trusted. Examples: C56_applies, C56_example."
  },
  {
   "property": "C57",
   "status": "partial",
   "theorems": [
    "C57_blocks_partial",
    "C57_any_compiler_partial",
    "C57_blocks_refuted",
    "C57_blocks_run",
    "C57_writes_declared_partial",
    "C57_writes_declared_refuted",
    "C57_llsc_programs",
    "C57_conditional_instructions",
    "C57_x86_programs",
    "C57_sparc_programs",
    "C57_lse_programs",
    "C57_pair_programs"
   ],
   "note": "1419 asm statements, as text. For a compiler that keeps small values extended as the code expects, all are right but one (8-byte store on x86 with PRESERVE_EBX, refuted); for any compiler that obeys the constraints, exactly the statements listed in unlucky_lines are wrong. Both are characterisations (if and only if). Alpha's statements do not declare their writes (refuted). Not covered: Thumb-1 versions, statements outside functions of core and extra operations. The *_programs theorems say that the specifications of the statements are the operations of the back ends used in the other properties."
  },
  {
   "property": "C58",
   "status": "partial",
   "theorems": [
    "C58_acquire_partial",
    "C58_release",
    "C58_seq_cst",
    "C58_operations",
    "C58_thread_fence_partial",
    "C58_arm_thread_fence",
    "C58_signal_fence",
    "C58_plain_load_partial",
    "C58_plain_store",
    "C58_plain_seq_cst",
    "C58_copies",
    "C58_every_statement_runs"
   ],
   "note": "Read from the text of the asm statements. Acquire and the fences hold exactly outside the exceptions of C40 and C41 that concern assembler (SPARC, 8-byte loads on AArch32, failed compare_exchange(release, acquire) on Arm version 8, consume fences on x86), where the same theorems say that they do not hold."
  },
  {
   "property": "C59",
   "status": "partial",
   "theorems": [
    "C59_orders",
    "C59_acquire_partial",
    "C59_release",
    "C59_seq_cst_partial",
    "C59_allowed",
    "C59_assertions",
    "C59_members_assert",
    "C59_members_call",
    "C59_every_function_runs"
   ],
   "note": "C59_orders, C59_allowed, C59_assertions, C59_members_assert and C59_members_call prove the property as stated. What follows for the machine code is partial only where C40 is: some back ends do not acquire (C59_acquire_partial says exactly which), and failed compare_exchanges with the Linux kernel's help on old Arm are not kept in order (C59_seq_cst_partial). Lock-based functions are the subject of C56."
  },
  {
   "property": "C60",
   "status": "proved",
   "theorems": [
    "C60_int_text",
    "C60_int_ref_text",
    "C60_enum_text",
    "C60_enum_ref_text",
    "C60_bool_text",
    "C60_bool_ref_text",
    "C60_ptr_text",
    "C60_ptr_ref_text",
    "C60_value_text",
    "C60_value_ref_text",
    "C60_fp_text",
    "C60_fp_ref_text",
    "C60_flag_text",
    "C60_int_progress",
    "C60_int_ref_progress",
    "C60_enum_progress",
    "C60_bool_progress",
    "C60_ptr_progress",
    "C60_ptr_ref_progress",
    "C60_value_progress",
    "C60_fp_progress",
    "C60_flag_progress"
   ],
   "note": "About the function bodies themselves, extracted from the source by tools/extract_text.py, rather than a rendering of them by hand. Assembler and MSVC intrinsics under them are as in the other properties (C57 ties the former to their text)."
  },
  {
   "property": "C61",
   "status": "partial",
   "theorems": [
    "C61_text_and_model",
    "C61_lock_based_linearizable",
    "C61_wait_returns_changed_value",
    "C61_timed_wait_values",
    "C61_timeout_reached",
    "C61_mutual_exclusion",
    "C61_no_stranded_sleeper_partial",
    "C61_no_stranded_sleeper_os_locks",
    "C61_short_runs",
    "C61_wait_not_missed_partial",
    "C61_wait_not_missed",
    "C61_timed_wait_not_missed_partial"
   ],
   "note": "About the function bodies themselves, extracted from the source by tools/extract_pool.py. Missing, as in C24, C32 and C33, where the full claims are refuted: the futex words must not have wrapped around, and timed waits on lock-free objects that wait through the pool can miss a notification. The wait-record list and the timed functions of wait_state and of the futex back end (text in C62) are those of the model, not the text."
  },
  {
   "property": "C62",
   "status": "partial",
   "theorems": [
    "C62_text_and_model",
    "C62_linearizable",
    "C62_timed_wait_values",
    "C62_timeout_reached",
    "C62_timed_wait_ends_partial",
    "C62_notification_not_missed"
   ],
   "note": "About the function bodies themselves, extracted from the source by tools/extract_pool.py, on systems with 64-bit tv_sec. Missing, as in C24, where the full claim is refuted: for the end of timed waits, the futex words of the lock pool must not have wrapped around."
  }
 ]
}
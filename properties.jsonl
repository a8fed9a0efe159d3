{"id": "C01", "title": "Integral atomics are linearizable on every lock-free back end", "statement": "For any set of atomic<I> objects (I integral, non-bool) any number of threads may call store, load, exchange, compare_exchange_*, fetch_{add,sub,and,or,xor}, fetch_{negate,complement}, {add,sub,negate,bitwise_*}, opaque_*, *_and_test, bit_test_and_* concurrently; the history of calls and results is always explained by executing the calls one at a time, each at some instant between its invocation and its return, on ordinary two's complement integers of the width of I.", "quantifier": "all histories: any number of threads, calls, argument values and interleavings; any value width, the storage being as wide as the value (wider storage: C02 and C47); signed and unsigned; any spurious failure pattern of weak CAS / store-conditional; any garbage returned by the racy initial read", "why_tests_cant": "the number of interleavings and operand values is unbounded; tests sample a few schedules on the one back end of the test machine", "anchors": ["include/boost/atomic/detail/atomic_impl.hpp: base_atomic<T,int,Interprocess>", "include/boost/atomic/detail/extra_ops_generic.hpp: extra_operations_generic", "include/boost/atomic/detail/core_ops_cas_based.hpp: core_operations_cas_based", "include/boost/atomic/detail/cas_based_exchange.hpp: cas_based_exchange", "include/boost/atomic/detail/extending_cas_based_arithmetic.hpp: extending_cas_based_arithmetic", "include/boost/atomic/detail/core_ops_gcc_atomic.hpp", "include/boost/atomic/detail/core_ops_gcc_sync.hpp", "include/boost/atomic/detail/core_arch_ops_gcc_x86.hpp", "include/boost/atomic/detail/core_arch_ops_gcc_ppc.hpp", "include/boost/atomic/detail/core_arch_ops_gcc_alpha.hpp", "include/boost/atomic/detail/core_arch_ops_gcc_aarch64.hpp", "include/boost/atomic/detail/core_arch_ops_gcc_sparc.hpp", "include/boost/atomic/detail/core_ops_linux_arm.hpp"]}
{"id": "C02", "title": "Arithmetic wraps modulo 2^n with no visible overflow, whatever the storage width", "statement": "store, load, exchange, compare_exchange_* and fetch_{add,sub,and,or,xor} on atomic<I> of n bits are linearizable and leave the two's complement wrap of the mathematical result, also when the object is kept in a wider machine word; the word then always is the one a direct store of the visible value would have written, so a value read later compares equal (in load, compare_exchange and wait) to the same value stored directly.", "quantifier": "all operand values, n, storage widths >= n, and all sequences of operations", "why_tests_cant": "the sign/zero extension invariant of the wider word must survive every sequence of operations; wide-storage back ends are not available on test hosts", "anchors": ["include/boost/atomic/detail/extending_cas_based_arithmetic.hpp: fetch_add, fetch_sub", "include/boost/atomic/detail/integral_conversions.hpp: integral_extend, integral_truncate", "include/boost/atomic/detail/extra_ops_generic.hpp: fetch_negate, add, sub", "include/boost/atomic/detail/atomic_impl.hpp: base_atomic<T,int,Interprocess>"]}
{"id": "C03", "title": "compare_exchange_strong fails only when the values differ", "statement": "compare_exchange_strong(expected, desired) returns true iff at one instant during the call the object held expected, in which case it then held desired; it returns false only if at one instant during the call the object held a value different from expected, which is then written to expected, and the object is not modified by the call.", "quantifier": "all values, interleavings, back ends including those that build strong CAS out of a weak or kernel primitive or out of load-linked/store-conditional", "why_tests_cant": "spurious failures and lost reservations depend on timing that cannot be enumerated", "anchors": ["include/boost/atomic/detail/atomic_impl.hpp: compare_exchange_strong", "include/boost/atomic/detail/core_ops_linux_arm.hpp: compare_exchange_strong", "include/boost/atomic/detail/core_arch_ops_gcc_ppc.hpp: compare_exchange_strong", "include/boost/atomic/detail/core_arch_ops_gcc_alpha.hpp: compare_exchange_strong", "include/boost/atomic/detail/core_ops_gcc_sync.hpp: compare_exchange_strong"]}
{"id": "C04", "title": "compare_exchange_weak never reports a phantom value or a phantom success", "statement": "compare_exchange_weak returns true only if it atomically replaced expected by desired; when it returns false the object is unmodified by the call and expected receives a value the object really held at some instant during the call.", "quantifier": "all values, interleavings and spurious failures, for objects handled by a single-copy atomic access", "why_tests_cant": "requires every schedule, including one where the separate reload of expected races with other writers", "anchors": ["include/boost/atomic/detail/atomic_impl.hpp: compare_exchange_weak", "include/boost/atomic/detail/core_ops_linux_arm.hpp: compare_exchange_weak", "include/boost/atomic/detail/core_arch_ops_gcc_aarch64.hpp: compare_exchange_weak"]}
{"id": "C05", "title": "No update is lost", "statement": "If the only calls on an atomic<I> object are k_i-additions (fetch_add/add/opaque_add/++/+=) by any threads, then once all calls have returned the object holds the initial value plus the sum of all k_i modulo 2^n.", "quantifier": "any number of threads and calls, any addends, all interleavings, all back ends", "why_tests_cant": "a lost update is a rare race; unit tests can only sample it", "anchors": ["include/boost/atomic/detail/atomic_impl.hpp: fetch_add, add, opaque_add, operator++, operator+=", "include/boost/atomic/detail/core_ops_cas_based.hpp: fetch_add"]}
{"id": "C06", "title": "Concurrent increments hand out distinct tickets", "statement": "The values returned by concurrent fetch_add(1) calls on an atomic<I> object of n bits are pairwise distinct as long as fewer than 2^n calls are made.", "quantifier": "any number of threads and interleavings, any initial value including ones that wrap", "why_tests_cant": "pairwise distinctness across all schedules cannot be sampled exhaustively", "anchors": ["include/boost/atomic/detail/atomic_impl.hpp: fetch_add, operator++(int)"]}
{"id": "C07", "title": "Result-returning, opaque and testing forms agree with fetch forms", "statement": "For every RMW op on an object whose storage is as wide as I: op() returns the new value that fetch_op() leaves; opaque_op() leaves the same value; op_and_test() returns true iff that new value is non-zero. (Storage wider than I: C47.)", "quantifier": "all values, widths and back ends, at every reachable state of the object, with any spurious failures", "why_tests_cant": "the extra bits of the wider storage can make the tested word non-zero while the value is zero only for particular histories", "anchors": ["include/boost/atomic/detail/extra_ops_generic.hpp: add, sub, bitwise_and, add_and_test, sub_and_test, negate_and_test, complement_and_test, and_and_test", "include/boost/atomic/detail/extra_ops_gcc_x86.hpp", "include/boost/atomic/detail/atomic_impl.hpp"]}
{"id": "C08", "title": "bit_test_and_{set,reset,complement} touch exactly one bit", "statement": "bit_test_and_X(n) returns the previous value of bit n and changes no other bit of the value, for every n below the width of the type (including the sign bit), and later comparisons see the resulting value.", "quantifier": "all bit numbers, values, widths and interleavings; storage as wide as the value (wider storage: C47)", "why_tests_cant": "the sign bit in wider storage and every concurrent interleaving would have to be enumerated", "anchors": ["include/boost/atomic/detail/extra_ops_generic.hpp: bit_test_and_set, bit_test_and_reset, bit_test_and_complement", "include/boost/atomic/detail/extra_ops_gcc_x86.hpp: bit_test_and_set", "include/boost/atomic/detail/atomic_impl.hpp: bit_test_and_set"]}
{"id": "C09", "title": "Pointer atomics move in whole elements", "statement": "fetch_add(k)/fetch_sub(k)/add/sub/++/-- on atomic<T*> move the address by k*sizeof(T) bytes, wrap-around aside, return the previous (or new) pointer, and add_and_test reports whether the new pointer is non-null, atomically with respect to all other calls.", "quantifier": "all element sizes, offsets (negative included), addresses and interleavings", "why_tests_cant": "offset scaling and wrap-around for every offset and element size cannot be enumerated", "anchors": ["include/boost/atomic/detail/atomic_impl.hpp: base_atomic<T*,void*,Interprocess>"]}
{"id": "C10", "title": "Floating point RMW is atomic for every rounding and representation", "statement": "fetch_add/fetch_sub/add/sub/opaque_* on atomic<F> apply the target's floating point operation to the value held at one instant and store its result with no intervening write, whatever the operation is (any rounding, NaN payloads, signed zeros); negation flips the sign of the value held at that instant.", "quantifier": "all bit patterns, all interleavings, any binary function used as floating point addition", "why_tests_cant": "NaN and signed zero compare differently from their representation, so the loop has to be right for every bit pattern and race", "anchors": ["include/boost/atomic/detail/fp_ops_generic.hpp", "include/boost/atomic/detail/extra_fp_ops_generic.hpp", "include/boost/atomic/detail/bitwise_fp_cast.hpp", "include/boost/atomic/detail/atomic_impl.hpp: base_atomic<T,float,Interprocess>"]}
{"id": "C11", "title": "bool atomics only ever show true or false", "statement": "atomic<bool> operations (store, load, exchange, compare_exchange_*) behave as on a boolean: every loaded/exchanged/expected value is one previously stored or the initial one, and the comparison in compare_exchange succeeds iff the booleans are equal.", "quantifier": "all histories, storage widths and back ends", "why_tests_cant": "all histories and wider-storage back ends", "anchors": ["include/boost/atomic/detail/atomic_impl.hpp: base_atomic<bool,bool,Interprocess>"]}
{"id": "C12", "title": "Enumerations round-trip and obey the underlying type's bitwise algebra", "statement": "store(v); load() gives v, and fetch_and/or/xor/complement, bit_test_and_* act as the operation on the underlying integer type, with compare_exchange succeeding whenever expected was just loaded - on every storage width, endianness and signedness of the underlying type.", "quantifier": "all enumerators, widths, storage widths, byte orders, signedness, operation sequences", "why_tests_cant": "needs back ends (big-endian, or storage wider than the value) that unit tests do not run on; the faithful model refutes the property there", "anchors": ["include/boost/atomic/detail/atomic_impl.hpp: base_atomic<T,const int,Interprocess>", "include/boost/atomic/detail/bitwise_cast.hpp: bitwise_cast", "include/boost/atomic/detail/extra_ops_generic.hpp: fetch_complement"]}
{"id": "C13", "title": "Generic values round-trip and padding never breaks compare_exchange", "statement": "For any trivially copyable T, load() after store(v) returns the value bits of v; the bytes of the storage beyond sizeof(T) are always zero; and if the compiler can clear padding bits, compare_exchange_strong with an expected equal to the current value up to padding succeeds.", "quantifier": "all sizes, byte contents and padding contents, all storage sizes chosen by the library", "why_tests_cant": "padding bytes take arbitrary values; sizes 1..16 and above use different storage", "anchors": ["include/boost/atomic/detail/bitwise_cast.hpp: bitwise_cast_memcpy, clear_tail_padding_bits", "include/boost/atomic/detail/storage_traits.hpp: storage_size_of, buffer_storage", "include/boost/atomic/detail/atomic_impl.hpp: base_atomic<T,void,Interprocess>"]}
{"id": "C14", "title": "Storage is always large enough and a supported size", "statement": "The storage selected for a T of n bytes is never smaller than T, wastes fewer than 8 bytes, is a natural power of two size whenever n <= 16, and equals n above that; larger T never gets smaller storage.", "quantifier": "all object sizes", "why_tests_cant": "ranges over all sizes", "anchors": ["include/boost/atomic/detail/storage_traits.hpp: storage_size_of"]}
{"id": "C15", "title": "Raw byte storage compares by value", "statement": "For objects too large for an integer storage type, the equality, inequality and zero tests used by wait and the testing operations hold iff all bytes agree (resp. all bytes are zero).", "quantifier": "all sizes >= 1 and all byte contents", "why_tests_cant": "the zero test compares the buffer with itself shifted by one byte: its correctness is an inductive fact", "anchors": ["include/boost/atomic/detail/storage_traits.hpp: buffer_storage::operator!, operator==, operator!="]}
{"id": "C16", "title": "Integer conversions preserve the value", "statement": "Truncating, zero-extending and sign-extending between storage and value types is value preserving on the representable range and reduces modulo 2^n otherwise; extending after truncating is the identity exactly on canonically extended words.", "quantifier": "all widths and all values, signed and unsigned", "why_tests_cant": "ranges over all values and width pairs", "anchors": ["include/boost/atomic/detail/integral_conversions.hpp: zero_extend, sign_extend, integral_truncate, integral_extend"]}
{"id": "C17", "title": "Retry loops complete when undisturbed and only fail because someone else succeeded", "statement": "Every CAS or load-linked/store-conditional based operation completes within a fixed number of its own steps when no other thread interferes and no spurious failure occurs, even if the first read returned garbage; and an iteration that fails without a spurious failure implies that another thread changed the object in between.", "quantifier": "all operands, initial memory contents, garbage first reads and interference patterns", "why_tests_cant": "lock-freedom is a liveness property over all schedules", "anchors": ["include/boost/atomic/detail/core_ops_cas_based.hpp", "include/boost/atomic/detail/cas_based_exchange.hpp", "include/boost/atomic/detail/core_arch_ops_gcc_alpha.hpp", "include/boost/atomic/detail/core_arch_ops_gcc_ppc.hpp", "include/boost/atomic/detail/core_arch_ops_gcc_aarch64.hpp", "include/boost/atomic/detail/core_arch_ops_gcc_x86.hpp: core_arch_operations_gcc_dcas_x86"]}
{"id": "C18", "title": "Double-width operations are untorn", "statement": "64-bit atomics on 32-bit x86 and 128-bit atomics on x86-64, whose loops start from two separate half reads, still load, store and exchange the whole value atomically and never store a mixture of halves of different values.", "quantifier": "all values, all interleavings of half reads with concurrent writers", "why_tests_cant": "tearing is timing dependent", "anchors": ["include/boost/atomic/detail/core_arch_ops_gcc_x86.hpp: gcc_dcas_x86, gcc_dcas_x86_64"]}
{"id": "C19", "title": "128-bit AArch64 operations never expose a torn value", "statement": "On AArch64 without 128-bit single-copy atomic loads, load/store/exchange/fetch_* and compare_exchange_* of a 16-byte atomic return values the object really held.", "quantifier": "all values and interleavings of half reads with concurrent writers", "why_tests_cant": "tearing is timing dependent and hardware dependent; the faithful model refutes it for failed compare_exchange", "anchors": ["include/boost/atomic/detail/core_arch_ops_gcc_aarch64.hpp: core_arch_operations<16u,...>"]}
{"id": "C20", "title": "atomic_flag provides mutual exclusion", "statement": "Among concurrent test_and_set calls between two clears exactly one returns false; hence a spin lock made of test_and_set/clear never lets two threads into the critical section; a new flag is clear; test() reports the state.", "quantifier": "any number of threads, calls and interleavings, all back ends", "why_tests_cant": "mutual exclusion ranges over all schedules", "anchors": ["include/boost/atomic/detail/atomic_flag_impl.hpp: atomic_flag_impl", "include/boost/atomic/detail/core_ops_cas_based.hpp: test_and_set, clear"]}
{"id": "C21", "title": "Lock-based atomics are linearizable and do not tear", "statement": "Operations on atomic objects of any size handled through the lock pool behave as atomic: concurrent loads never see a mixture of two stores although values are copied byte by byte, read-modify-writes are never interleaved, and operations on one object never affect another, even when both hash to the same lock.", "quantifier": "all sizes, contents, addresses (any collision pattern), threads, interleavings", "why_tests_cant": "torn copies and hash collisions depend on addresses and timing", "anchors": ["include/boost/atomic/detail/core_operations_emulated.hpp: core_operations_emulated", "include/boost/atomic/detail/extra_ops_emulated.hpp", "include/boost/atomic/detail/lock_pool.hpp: scoped_lock", "src/lock_pool.cpp: short_lock, unlock"]}
{"id": "C22", "title": "Everyone agrees on the lock of an object", "statement": "The lock chosen for an object depends only on its address and the (static) alignment used with it, is always a valid index of the pool, and waiting, notifying and data operations on the same object pick the same lock; pools of size 1 work.", "quantifier": "all addresses, alignments and pool sizes 2^0..2^16", "why_tests_cant": "ranges over all addresses", "anchors": ["include/boost/atomic/detail/lock_pool.hpp: hash_ptr, scoped_lock, scoped_wait_state", "src/lock_pool.cpp: get_lock_index"]}
{"id": "C23", "title": "The pool's futex mutex gives mutual exclusion", "statement": "At most one thread is between a lock acquisition and the matching release of the same pool lock.", "quantifier": "any number of threads, interleavings, spurious futex returns, and any wrap-around of the embedded counter", "why_tests_cant": "mutual exclusion ranges over all schedules", "anchors": ["src/lock_pool.cpp: lock_state::long_lock, lock_slow_path, unlock (futex)"]}
{"id": "C24", "title": "The pool's futex mutex never strands a sleeper", "statement": "Whenever the lock is free and some thread sleeps waiting for it, either a wake-up is already in flight, or another thread that will take and release the lock is active; so no thread sleeps forever while the lock is free and all others are done.", "quantifier": "any number of threads and interleavings including spurious wakes, requeued condition waiters and concurrent unlocks", "why_tests_cant": "a lost wake-up is a liveness failure of particular schedules; the contended bit is cleared and set by racing threads", "anchors": ["src/lock_pool.cpp: lock_slow_path, unlock, wait_state::notify_one, notify_all (futex)"]}
{"id": "C25", "title": "Waiters of different objects are never confused", "statement": "Inside one lock of the pool each object being waited on has exactly one wait record, found again by every waiter and notifier of that object and only by them, whatever the order in which waits on colliding objects start and finish.", "quantifier": "all sequences of wait begin/end and notify on any addresses, with any memory allocation failure pattern", "why_tests_cant": "all sequences of registrations and removals; swap-with-last removal and growth", "anchors": ["src/lock_pool.cpp: wait_state_list::find, find_or_create, erase"]}
{"id": "C26", "title": "A wait record lives exactly as long as someone waits on it", "statement": "A record is created by the first waiter of an object, shared by later waiters, and removed when the last one leaves; it is never removed or handed to another object while a waiter still uses it.", "quantifier": "all sequences of wait begin/end on any addresses, with any allocation failures", "why_tests_cant": "all sequences of operations", "anchors": ["src/lock_pool.cpp: allocate_wait_state, free_wait_state, wait_state_list::erase"]}
{"id": "C27", "title": "Wait record memory is neither leaked nor used after free", "statement": "Every buffer and record allocated for waiting is freed at most once, never used after being freed, and when the process has run the clean-up handler and no waits are in progress, nothing remains allocated; growing the buffer keeps all records; allocation failure leaves the structure consistent.", "quantifier": "all sequences of operations, allocation failures, and the point at which clean-up happens", "why_tests_cant": "all sequences, crash/exit points and failure patterns", "anchors": ["src/lock_pool.cpp: wait_state_list::allocate_buffer, free_spare, cleanup_lock_pool"]}
{"id": "C28", "title": "Vectorised address search equals linear search", "statement": "The SSE2 and SSE4.1 searches (32- and 64-bit) return the index of the first occurrence of the address among the first `size` entries, or an index >= size when it is absent; the run-time CPU dispatch does not change results.", "quantifier": "all sizes, addresses and array contents consistent with the caller's invariant on the unused tail entries", "why_tests_cant": "all sizes and contents; block boundaries at 2, 4, 8, 16", "anchors": ["src/find_address_sse2.cpp: find_address_sse2", "src/find_address_sse41.cpp: find_address_sse41", "src/lock_pool.cpp: find_address_generic, find_address_dispatch"]}
{"id": "C29", "title": "Vectorised address search stays inside the buffer", "statement": "The searches read only entries inside the allocated capacity although they read whole vectors past `size`.", "quantifier": "all sizes <= capacity, for every capacity the list can have", "why_tests_cant": "over-reads depend on size/capacity combinations", "anchors": ["src/find_address_sse2.cpp", "src/find_address_sse41.cpp", "src/lock_pool.cpp: wait_state_list::allocate_buffer, initial_capacity"]}
{"id": "C30", "title": "Software bit scan is exact", "statement": "The portable count-trailing-zeros returns the index of the least significant set bit of every non-zero 32-bit word.", "quantifier": "all 2^32-1 inputs", "why_tests_cant": "exhaustive testing over the input space is not what unit tests do", "anchors": ["src/bit_operation_tools.hpp: count_trailing_zeros"]}
{"id": "C31", "title": "wait() returns only on a changed value", "statement": "wait(old) returns a value different (bytewise) from old, and the object held that value at an instant during the call.", "quantifier": "all histories, wake-ups (spurious ones included) and back ends of wait", "why_tests_cant": "spurious wake-ups and races", "anchors": ["include/boost/atomic/detail/wait_ops_generic.hpp: wait", "include/boost/atomic/detail/wait_ops_emulated.hpp: wait", "include/boost/atomic/detail/wait_ops_futex.hpp: wait", "include/boost/atomic/detail/wait_ops_windows.hpp", "include/boost/atomic/detail/wait_ops_darwin_ulock.hpp", "include/boost/atomic/detail/wait_ops_freebsd_umtx.hpp"]}
{"id": "C32", "title": "An untimed wait never misses a notification", "statement": "If the object's value is changed away from old for good and notify_all (or, for a single waiter, notify_one) is called afterwards, then a thread in wait(old) is not left blocked: in every reachable state after the notification completed the waiter is not asleep, or a wake-up for it is in flight.", "quantifier": "all interleavings of waiter, writer and notifier, and any number of other waiters and objects", "why_tests_cant": "a missed wake-up needs one particular interleaving", "anchors": ["include/boost/atomic/detail/wait_ops_generic.hpp: wait", "include/boost/atomic/detail/wait_ops_emulated.hpp: wait", "include/boost/atomic/detail/wait_ops_futex.hpp: wait", "src/lock_pool.cpp: wait, notify_one, notify_all"]}
{"id": "C33", "title": "A timed wait never misses a notification", "statement": "If the value is changed for good and the object is then notified, a thread in wait_for/wait_until(old) is not left asleep until its timeout.", "quantifier": "all interleavings of waiter, writer and notifier", "why_tests_cant": "needs one particular interleaving; the faithful model of the lock-pool-based timed waits of lock-free types refutes it", "anchors": ["include/boost/atomic/detail/wait_ops_generic.hpp: wait_until_fallback, wait_until_abs_timeout", "include/boost/atomic/detail/wait_ops_emulated.hpp: wait_until_fallback, wait_until_abs_timeout"]}
{"id": "C34", "title": "timed_out is truthful", "statement": "When a timed wait reports timeout == true, the returned value equals old and the clock had reached the deadline when last consulted (up to the OS reporting ETIMEDOUT); when it reports false, the returned value differs from old.", "quantifier": "all histories, clock readings, spurious wake-ups, negative and huge timeouts", "why_tests_cant": "ranges over clock readings and wake-up patterns", "anchors": ["include/boost/atomic/detail/wait_ops_generic.hpp: wait_until_impl, wait_until_fallback, wait_until_abs_timeout", "include/boost/atomic/detail/wait_ops_futex.hpp: wait_until_fallback, wait_until_abs_timeout, wait_for", "include/boost/atomic/detail/wait_ops_windows.hpp: wait_until_impl", "include/boost/atomic/detail/wait_ops_darwin_ulock.hpp: wait_until_impl"]}
{"id": "C35", "title": "Timeouts are never cut short by unit conversion", "statement": "Every conversion of the remaining time to the units of the OS (nanoseconds, microseconds, milliseconds, timespec) rounds up or is clamped in a way that is followed by another wait, produces a normalised timespec (0 <= nsec < 10^9), and never produces the OS's 'infinite' value.", "quantifier": "all timeouts and clock values", "why_tests_cant": "ranges over all 64-bit timeouts", "anchors": ["include/boost/atomic/detail/chrono.hpp: ceil, posix_clock_traits<system_clock>::to_timespec", "include/boost/atomic/detail/wait_ops_futex.hpp: wait_until_fallback", "include/boost/atomic/detail/wait_ops_windows.hpp", "include/boost/atomic/detail/wait_ops_darwin_ulock.hpp", "include/boost/atomic/detail/wait_ops_freebsd_umtx.hpp"]}
{"id": "C36", "title": "Timeout arithmetic is free of signed overflow", "statement": "wait_for with any representable timeout computes its deadline without signed integer overflow.", "quantifier": "all 64-bit timeouts and clock values", "why_tests_cant": "overflow needs extreme durations; the faithful model refutes it", "anchors": ["include/boost/atomic/detail/wait_ops_futex.hpp: wait_for", "include/boost/atomic/detail/wait_ops_freebsd_umtx.hpp: wait_for", "src/lock_pool.cpp: wait_state::wait_for (pthread)"]}
{"id": "C37", "title": "Duration rounding is a true ceiling", "statement": "The library's own chrono::ceil (used before C++17) returns the least target-unit duration not less than its argument.", "quantifier": "all counts and period ratios, negative durations included", "why_tests_cant": "ranges over all counts; the faithful model refutes it for negative non-integral durations and the proof covers the rest", "anchors": ["include/boost/atomic/detail/chrono.hpp: ceil"]}
{"id": "C38", "title": "Single-order compare_exchange picks a legal failure order", "statement": "compare_exchange_*(expected, desired, order) uses a failure order that is never release or acq_rel, is not stronger than order, and is the strongest such order.", "quantifier": "all memory orders", "why_tests_cant": "a theorem about the encoding of orders (bit masks) rather than a behaviour a test observes", "anchors": ["include/boost/atomic/detail/memory_order_utils.hpp: deduce_failure_order, cas_failure_order_must_not_be_stronger_than_success_order", "include/boost/memory_order.hpp"]}
{"id": "C39", "title": "Compiler intrinsics get an order at least as strong as requested", "statement": "The conversion of boost::memory_order to the compiler's constants is order preserving and never weakens, also for values outside the enumeration.", "quantifier": "all memory order values, valid or not", "why_tests_cant": "weakening is invisible to functional tests", "anchors": ["include/boost/atomic/detail/gcc_atomic_memory_order_utils.hpp: convert_memory_order_to_gcc"]}
{"id": "C40", "title": "Per-operation barriers implement the requested order", "statement": "On each architecture back end with explicit barriers, a load/RMW with acquire (or stronger, or consume) semantics prevents later loads and stores from moving before it, a store/RMW with release (or stronger) prevents earlier loads and stores from moving after it.", "quantifier": "all memory orders, operations and architectures with hand-written barriers", "why_tests_cant": "reordering is a property of hardware and compilers that tests rarely trigger; refuted for SPARC", "anchors": ["include/boost/atomic/detail/core_arch_ops_gcc_sparc.hpp: fence_before, fence_after", "include/boost/atomic/detail/core_ops_gcc_sync.hpp: fence_before_store, fence_after_load", "include/boost/atomic/detail/ops_gcc_ppc_common.hpp: fence_before, fence_after", "include/boost/atomic/detail/core_arch_ops_gcc_alpha.hpp: fence_before, fence_after", "include/boost/atomic/detail/ops_gcc_arm_common.hpp", "include/boost/atomic/detail/core_arch_ops_gcc_x86.hpp"]}
{"id": "C41", "title": "Stand-alone fences implement the requested order", "statement": "atomic_thread_fence(order) and atomic_signal_fence(order) emit a barrier at least as strong as order demands on each architecture, for hardware and for the compiler.", "quantifier": "all memory orders and architectures", "why_tests_cant": "reordering is rarely triggered by tests; refuted for consume on x86", "anchors": ["include/boost/atomic/detail/fence_arch_ops_gcc_x86.hpp", "include/boost/atomic/detail/fence_arch_ops_gcc_ppc.hpp", "include/boost/atomic/detail/fence_arch_ops_gcc_sparc.hpp", "include/boost/atomic/detail/fence_arch_ops_gcc_alpha.hpp", "include/boost/atomic/detail/fence_arch_ops_gcc_arm.hpp", "include/boost/atomic/detail/fence_arch_ops_gcc_aarch32.hpp", "include/boost/atomic/detail/fence_arch_ops_gcc_aarch64.hpp"]}
{"id": "C42", "title": "seq_cst on x86 is sequentially consistent, release/acquire pass messages", "statement": "On a store-buffering (TSO) machine, programs whose atomic accesses are all seq_cst show only interleaving behaviours (e.g. store-buffering/Dekker never reads both old values), and data written before a release store is visible to a thread that acquired it.", "quantifier": "all programs of seq_cst loads/stores/RMWs, all schedules and store-buffer flush orders", "why_tests_cant": "weak memory outcomes depend on hardware timing", "anchors": ["include/boost/atomic/detail/core_arch_ops_gcc_x86.hpp: store, load, exchange", "include/boost/atomic/detail/fence_arch_ops_gcc_x86.hpp: thread_fence"]}
{"id": "C43", "title": "atomic_ref behaves like atomic on the referenced object", "statement": "Operations through any number of atomic_ref objects bound to the same object are linearizable as in C01; binding one preserves the value bits and clears the padding; atomic_ref is reported lock-free only when operations are performed on the object's own bytes natively.", "quantifier": "all histories, values, widths and number of references", "why_tests_cant": "all interleavings and references", "anchors": ["include/boost/atomic/detail/atomic_ref_impl.hpp: base_atomic_ref", "include/boost/atomic/detail/atomic_ref_impl.hpp: base_atomic_ref_common"]}
{"id": "C44", "title": "Inter-process waits notice every lasting change", "statement": "The polling wait of inter-process atomics returns when the value has lastingly changed, in a bounded number of its own steps, without any notification; timed variants return by the first check after the deadline.", "quantifier": "all interleavings, values and clock readings", "why_tests_cant": "ranges over schedules", "anchors": ["include/boost/atomic/detail/wait_ops_generic.hpp: wait_operations_generic<Base,true>"]}
{"id": "C45", "title": "Waiting survives failure to allocate wait records", "statement": "When no memory is available for the wait record, wait still returns only on a changed value, still holds the lock correctly, and does not miss a lasting change.", "quantifier": "all interleavings and all allocation failure patterns", "why_tests_cant": "failure injection at every point and schedule", "anchors": ["src/lock_pool.cpp: allocate_wait_state, wait, wait_until, wait_for, free_wait_state", "include/boost/atomic/detail/lock_pool.hpp: scoped_wait_state"]}
{"id": "C46", "title": "Strong CAS from the ARM kernel helper is genuine", "statement": "On Linux/ARM the strong compare-exchange built from the kernel helper (which may fail spuriously, and reports only success or failure) never fails spuriously and terminates when undisturbed.", "quantifier": "all interleavings and spurious failures of the helper", "why_tests_cant": "spurious failures are timing dependent", "anchors": ["include/boost/atomic/detail/core_ops_linux_arm.hpp: linux_arm_cas::compare_exchange_strong, compare_exchange_weak"]}
{"id": "C47", "title": "The library's additional integer operations also work on widened storage", "statement": "negate, bitwise_complement, add, sub, bitwise_*, their opaque_ and _and_test forms and bit_test_and_* keep C01, C02, C07 and C08 true when the object is kept in a machine word wider than its type.", "quantifier": "all histories, values, widths, storage widths and back ends", "why_tests_cant": "whether storage is wider than the value depends on the target's capabilities, so test suites on common targets never execute this configuration; the failing values are boundary values", "anchors": ["include/boost/atomic/detail/extra_operations_fwd.hpp: extra_operations", "include/boost/atomic/detail/extra_ops_generic.hpp: extra_operations_generic", "include/boost/atomic/detail/atomic_impl.hpp: base_atomic<T, int, Interprocess>"]}
{"id": "C48", "title": "Lock-free macros and constants tell the truth", "statement": "If a macro BOOST_ATOMIC_..._LOCK_FREE is 2 or is_always_lock_free is true, no operation of that type takes a lock on the target; if the macro is 0 the type uses the lock pool; the macro has a value 0, 1 or 2 that does not grow with the size; the storage holds the value; atomic_ref works on exactly the bytes of the object; types offered between processes take no lock; and every target has an implementation for every size.", "quantifier": "all targets (processors with their optional instructions, compilers with their predefined macros, sizes of the fundamental types, systems) and all sizes", "why_tests_cant": "each test run sees one target; the selection is made by the preprocessor over thousands of combinations of predefined macros", "anchors": ["include/boost/atomic/detail/platform.hpp", "include/boost/atomic/detail/capabilities.hpp", "include/boost/atomic/detail/caps_gcc_atomic.hpp", "include/boost/atomic/detail/caps_gcc_sync.hpp", "include/boost/atomic/detail/caps_arch_gcc_x86.hpp", "include/boost/atomic/detail/caps_arch_gcc_arm.hpp", "include/boost/atomic/detail/core_ops_gcc_atomic.hpp: core_operations", "include/boost/atomic/detail/core_ops_gcc_sync.hpp: core_operations", "include/boost/atomic/detail/core_operations_emulated.hpp: core_operations_emulated", "include/boost/atomic/detail/atomic_ref_impl.hpp: core_operations_of"]}
{"id": "C49", "title": "Native-wait macros and constants tell the truth", "statement": "If always_has_native_wait_notify is true (or BOOST_ATOMIC_HAS_NATIVE_..._WAIT_NOTIFY is not 0), the operating system can put threads to sleep on an object with that storage, between processes for the IPC variant; the macro is not 0 exactly when the constant is true.", "quantifier": "all targets, sizes, and both variants", "why_tests_cant": "each test run sees one operating system, compiler and processor", "anchors": ["include/boost/atomic/detail/wait_capabilities.hpp", "include/boost/atomic/detail/wait_caps_futex.hpp", "include/boost/atomic/detail/wait_caps_freebsd_umtx.hpp", "include/boost/atomic/detail/wait_caps_darwin_ulock.hpp", "include/boost/atomic/detail/wait_operations_fwd.hpp: wait_operations", "include/boost/atomic/detail/wait_ops_freebsd_umtx.hpp"]}
{"id": "C50", "title": "Waiting on an atomic_flag waits for the other state", "statement": "flag.wait(old) returns only when the flag differs from old: it returns !old, and the flag was in that state at an instant of the call; a timed wait returns !old, or old together with timeout == true.", "quantifier": "all targets and back ends of test_and_set, clear and wait, all histories and wake-ups", "why_tests_cant": "the representation of a set flag depends on the compiler's intrinsics and the byte order; races and spurious wake-ups", "anchors": ["include/boost/atomic/detail/atomic_flag_impl.hpp: wait, wait_until, wait_for", "include/boost/atomic/detail/core_ops_gcc_atomic.hpp: test_and_set, clear"]}
{"id": "C51", "title": "A lock made of an atomic object protects ordinary data", "statement": "If threads enter critical sections with a read-modify-write of acquire or stronger order that finds the lock free (atomic_flag::test_and_set, exchange, compare_exchange) and leave them with a write of release or stronger order (clear, store), then of two sections one comes first, and everything its thread did until it left is visible to everything the other thread does after it entered.", "quantifier": "all back ends, any number of threads and sections, any code inside and outside, all reorderings the compiler and the processor may make", "why_tests_cant": "a missing barrier shows only on weakly ordered processors under particular compilers and schedules", "anchors": ["include/boost/atomic/detail/core_arch_ops_*.hpp: test_and_set, exchange, compare_exchange, clear, store", "include/boost/atomic/detail/atomic_flag_impl.hpp: test_and_set, clear", "src/lock_pool.cpp: futex-based lock_state::lock, lock_slow_path, unlock (compare_exchange acquire/release, relaxed registration of waiters)"]}
{"id": "C52", "title": "Lock-free operations make system-wide progress", "statement": "Whatever calls any threads are making on an object, and wherever they have got to, after a number of steps inside calls on that object that depends only on the number of threads (plus a constant for each spurious failure) at least one of these calls finishes; threads that stopped for ever in the middle of a call do not prevent it.", "quantifier": "all reachable states, all schedules, any number of threads and objects, all kinds of objects and all lock-free back ends", "why_tests_cant": "livelock of two retry loops against each other, or blocking on a stopped thread, appears only in particular unbounded schedules", "anchors": ["include/boost/atomic/detail/core_arch_ops_*.hpp: loops on compare-and-swap and load-linked/store-conditional", "include/boost/atomic/detail/core_ops_cas_based.hpp", "include/boost/atomic/detail/cas_based_exchange.hpp", "include/boost/atomic/detail/extra_ops_*.hpp", "include/boost/atomic/detail/fp_ops_generic.hpp", "include/boost/atomic/detail/extra_fp_ops_generic.hpp"]}
{"id": "C53", "title": "Loads and native operations finish whatever other threads do", "statement": "A lock-free load, compare_exchange_weak or any operation the target has an instruction for finishes after a bounded number of its own steps, whatever other threads do to the object meanwhile.", "quantifier": "all schedules, all states, all back ends and widths", "why_tests_cant": "starvation needs an adversarial unbounded schedule", "anchors": ["include/boost/atomic/detail/core_arch_ops_*.hpp: load, store, exchange, compare_exchange_weak", "include/boost/atomic/detail/core_arch_ops_gcc_aarch64.hpp: core_arch_operations<16u>::load", "include/boost/atomic/detail/core_arch_ops_gcc_x86.hpp: fetch_and, fetch_or, fetch_xor"]}
{"id": "C54", "title": "Atomic objects lie where the processor can access them in one piece", "statement": "For every type T and every target: wherever C++ allows an atomic<T> or atomic_flag to be placed, alone or in an array, the storage of a lock-free object begins at a multiple of its size, is large enough for T and is shared with no other element; value() refers to a properly aligned T. atomic_ref<T>::required_alignment is a multiple of alignof(T); the constructor's check accepts exactly the addresses that are multiples of it; at such addresses a lock-free reference accesses exactly the referenced object, in one aligned piece; a reference that is not lock-free accepts every T.", "quantifier": "all targets (compiler answers, processors, ABIs), all sizes and alignments of T, all addresses and array indices", "why_tests_cant": "a test sees the layout of a few types on one platform, and a misaligned access usually works by luck until it crosses a cache line", "anchors": ["include/boost/atomic/detail/storage_traits.hpp: storage_traits, buffer_storage", "include/boost/atomic/detail/atomic_impl.hpp: base_atomic_common::storage_alignment", "include/boost/atomic/detail/atomic_ref_impl.hpp: required_alignment", "include/boost/atomic/detail/core_operations_emulated.hpp: storage_alignment", "include/boost/atomic/detail/aligned_variable.hpp", "include/boost/atomic/atomic_ref.hpp: constructor", "storage_alignment in every core back end"]}
{"id": "C55", "title": "Choosing code at run time is safe, and clean-up is arranged once", "statement": "However many threads wait on, notify or lock objects for the first time at once: no thread ever runs a vector version of the address search that the processor lacks, every search answers as a linear search whether or not the choice has been made yet, and the function that frees the wait records at exit is registered exactly once.", "quantifier": "all interleavings of any number of threads, all processors (answers of cpuid) able to run the build, all build configurations, all lists of addresses", "why_tests_cant": "the races happen once per process, and a test machine has one processor", "anchors": ["src/lock_pool.cpp: find_address, find_address_dispatch, g_find_address, allocate_buffer, cleanup_lock_pool", "src/cpuid.hpp: cpuid", "include/boost/atomic/detail/once_flag.hpp: once_flag"]}
{"id": "C56", "title": "Operations on lock-based objects order memory", "statement": "Where objects too big for the processor share a lock pool: if an operation sees the effect of another on an object with the same lock, whatever memory order either names, then everything the other's thread did before it takes effect before everything the seeing thread does afterwards. Of two such completed operations one is ordered before the other, and their accesses to the bytes of the objects are never interleaved, however compiler and processor reorder each thread's accesses. The same goes for fences and notifications that take the lock.", "quantifier": "all threads and their own code, all operations and memory orders, all reorderings allowed by the instructions of each back end, all ways of getting the lock (at once, after spinning, after sleeping)", "why_tests_cant": "a missing barrier shows only under rare reorderings of some processors", "anchors": ["src/lock_pool.cpp: lock_state::long_lock, lock_slow_path, unlock", "include/boost/atomic/detail/core_operations_emulated.hpp: core_operations_emulated", "include/boost/atomic/detail/lock_pool.hpp: scoped_lock", "include/boost/atomic/detail/fence_operations_emulated.hpp"]}
{"id": "C57", "title": "The assembler code does what the function promises", "statement": "On every processor for which operations are written in assembler: whichever registers the compiler chooses within the operand constraints, whatever the arguments and whatever other threads do, the instructions perform the operation on the object, leave the results in the output operands, and change no register, flag or memory that the statement does not declare as changed. An asm statement that writes to the object says so.", "quantifier": "all asm statements of the core and extra operations, all legal register allocations, all contents of the unused upper bits of registers, all arguments, all answers of the memory including failures of store-conditional, all numbers of retries", "why_tests_cant": "the compiler picks the registers; a missing early-clobber or clobber shows only in surroundings that a test does not have, and most of the processors are not at hand", "anchors": ["include/boost/atomic/detail/core_arch_ops_gcc_alpha.hpp", "include/boost/atomic/detail/core_arch_ops_gcc_ppc.hpp", "include/boost/atomic/detail/core_arch_ops_gcc_arm.hpp", "include/boost/atomic/detail/core_arch_ops_gcc_aarch32.hpp", "include/boost/atomic/detail/core_arch_ops_gcc_aarch64.hpp", "include/boost/atomic/detail/core_arch_ops_gcc_sparc.hpp", "include/boost/atomic/detail/core_arch_ops_gcc_x86.hpp", "include/boost/atomic/detail/extra_ops_gcc_{arm,aarch32,aarch64,ppc,x86}.hpp"]}
{"id": "C58", "title": "The assembler code has the barriers that the memory order asks for", "statement": "On every processor for which operations are written in assembler, the instructions that an operation executes for a given memory order, together with what the asm statements tell the compiler, make it an acquire operation if the order for its read is acquire, consume or stronger, a release operation if the order for its write is release or stronger, and keep seq_cst operations of a thread in order. The same goes for atomic_thread_fence and atomic_signal_fence.", "quantifier": "all asm statements of the core and extra operations and of the fences, all memory orders, all numbers of retries, success and failure, all surrounding code and all reorderings by compiler and processor that the instructions allow", "why_tests_cant": "a weaker mnemonic or a missing clobber in one of hundreds of statements shows only under rare reorderings of one processor", "anchors": ["include/boost/atomic/detail/core_arch_ops_gcc_{alpha,ppc,arm,aarch32,aarch64,sparc,x86}.hpp", "include/boost/atomic/detail/extra_ops_gcc_{arm,aarch32,aarch64,ppc,x86}.hpp", "include/boost/atomic/detail/fence_arch_ops_gcc_{alpha,arm,ppc,sparc,x86,aarch32,aarch64}.hpp: thread_fence, signal_fence", "include/boost/atomic/detail/ops_gcc_ppc_common.hpp: fence_before, fence_after", "include/boost/atomic/detail/ops_gcc_arm_common.hpp: fence_before, fence_after, fence_after_store"]}
{"id": "C59", "title": "The memory order given to an operation is the one it is carried out with", "statement": "Whatever member of atomic<>, atomic_ref<>, ipc_atomic<>, ipc_atomic_ref<> or atomic_flag is called with whatever memory orders (seq_cst if none is given, also in operators; for compare_exchange with one order, the failure order is that without its release part), and whatever path control takes through the layers below (waiting, retrying after failed compare_exchanges, falling back on other ways to wait), the operation that has the effect, or whose value is returned, is carried out by machine code or an intrinsic with at least that order, and nothing before it changes the object. Members reject the orders the documentation forbids and no others; orders that are accepted do not fail an assertion further down. Every member carries out the operation it is named for.", "quantifier": "all members, all memory orders, all paths through all layers, all numbers of retries, all choices among the implementations of each layer", "why_tests_cant": "a weaker order in one of hundreds of forwarding functions gives the same results in nearly all runs", "anchors": ["include/boost/atomic/detail/atomic_impl.hpp", "include/boost/atomic/detail/atomic_ref_impl.hpp", "include/boost/atomic/detail/atomic_flag_impl.hpp", "include/boost/atomic/detail/extra_ops_generic.hpp", "include/boost/atomic/detail/extra_fp_ops_generic.hpp", "include/boost/atomic/detail/fp_ops_generic.hpp", "include/boost/atomic/detail/wait_ops_{generic,futex,windows,darwin_ulock,freebsd_umtx,dragonfly_umtx}.hpp", "include/boost/atomic/detail/core_ops_{cas_based,gcc_atomic,gcc_sync,linux_arm,windows}.hpp", "include/boost/atomic/detail/memory_order_utils.hpp: deduce_failure_order"]}
{"id": "C60", "title": "The bodies of the member functions do what the documentation says", "statement": "Take the statements of the member functions of atomic<T> (integers, enumerations, bool, pointers, floating point, other values), atomic_ref<T> and atomic_flag as they stand in the source, and below them the statements of the portable layers (generic and compare-exchange-based operations, arithmetic on wider storage, GCC and Windows intrinsics, the Linux kernel helper of old Arm). Any number of threads calling any members by name, with or without memory orders, operators included, on any number of objects initialized by the constructors as they stand in the source, see results and leave values that the named operations have when done one at a time, each at a moment between its call and return: every name forwards to the right operation with the right arguments in the right order, converts values in and out of storage right, and reports the right result. Left alone, every call returns; among calls that compete, some call always gets on. For integers and enumerations in storage wider than they are, this is claimed for the calls of C12 and C47 that are claimed there.", "quantifier": "all members and arguments, all values, all widths, all back ends, all schedules of any number of threads and calls, all outcomes of spurious failures", "why_tests_cant": "450 functions in 30 classes, for each of which one swapped argument or wrong name shows only in some types, values, orders or interleavings, and most back ends do not exist on the machine that runs the tests", "anchors": ["include/boost/atomic/detail/atomic_impl.hpp", "include/boost/atomic/detail/atomic_ref_impl.hpp", "include/boost/atomic/detail/atomic_flag_impl.hpp", "include/boost/atomic/detail/extra_ops_generic.hpp", "include/boost/atomic/detail/extra_fp_ops_generic.hpp", "include/boost/atomic/detail/fp_ops_generic.hpp", "include/boost/atomic/detail/core_ops_cas_based.hpp", "include/boost/atomic/detail/cas_based_exchange.hpp", "include/boost/atomic/detail/extending_cas_based_arithmetic.hpp", "include/boost/atomic/detail/core_ops_gcc_atomic.hpp", "include/boost/atomic/detail/core_ops_gcc_sync.hpp", "include/boost/atomic/detail/core_ops_linux_arm.hpp", "include/boost/atomic/detail/core_ops_windows.hpp"]}
{"id": "C61", "title": "The bodies of the lock-pool, emulated and wait functions do what the documentation says", "statement": "Take the statements of the lock pool (futex, POSIX and Windows locks and condition variables, the choice of the lock, thread_fence), of the lock-based operations and of the wait and notify operations as they stand in the source. Then, for any number of threads and any collection of lock-based and lock-free objects on any platform: calls on lock-based objects take effect one at a time between call and return; a wait returns with a value different from the one waited on, a timed wait reports a time-out only with the deadline reached and the value unchanged; two threads never touch what one lock protects at the same time; a run that cannot go on has only threads asleep in untimed waits (so nobody is stranded waiting for a lock); and a thread whose object was changed and notified is not asleep in its wait.", "quantifier": "all operations and arguments, all platforms and kinds of lock, all collections of objects sharing locks in any way, all schedules of any number of threads and calls, all spurious wake-ups, interruptions, clock readings and allocation failures", "why_tests_cant": "a wrong order of two statements, a wrong constant in a lock word or a missed wake-up shows only under rare interleavings, and most of the platforms are not the one that runs the tests", "anchors": ["src/lock_pool.cpp", "include/boost/atomic/detail/lock_pool.hpp", "include/boost/atomic/detail/core_operations_emulated.hpp", "include/boost/atomic/detail/extra_ops_emulated.hpp", "include/boost/atomic/detail/wait_ops_emulated.hpp", "include/boost/atomic/detail/wait_ops_generic.hpp", "include/boost/atomic/detail/wait_ops_futex.hpp", "include/boost/atomic/detail/fp_ops_emulated.hpp", "include/boost/atomic/detail/extra_fp_ops_emulated.hpp"]}
{"id": "C62", "title": "The bodies of the timed waits on Linux futexes do what the documentation says", "statement": "Take the statements of wait_until and wait_for of 32-bit lock-free objects on Linux as they stand in the source, with and without support for absolute deadlines, for clocks the kernel can wait on and for others. Then, for any number of threads and any collection of objects: calls take effect one at a time between call and return; a timed wait returns a value the object had during the wait and reports a time-out exactly when that is the value waited on; a time-out is reported only with the deadline reached; a run that cannot go on has no thread in a timed wait; and a thread whose object was changed and notified is not asleep in its timed wait.", "quantifier": "all limits (past, present, future), values and clock readings, all collections of objects, all schedules of any number of threads and calls, all spurious wake-ups and interruptions", "why_tests_cant": "a wrong carry between seconds and nanoseconds, a clock not read again or a value not looked at after a time-out shows only for particular clock readings and interleavings", "anchors": ["include/boost/atomic/detail/wait_ops_futex.hpp", "include/boost/atomic/detail/futex.hpp"]}

(** Generated by tools/extract_pool.py from src/lock_pool.cpp and include/boost/atomic/detail: do not edit.
    Each entry cites the file and lines of its function; S is src/lock_pool.cpp. *)
From Coq Require Import ZArith List String.
From Verif Require Import Order PoolText.
Import ListNotations.
Local Open Scope string_scope.
Local Open Scope Z_scope.

(** lock_state in src/lock_pool.cpp *)
Definition pthread_lock_fns : list pfn := [
  {| pf_name := "short_lock"; pf_cond := []; pf_params := []; pf_lines := "S 411-414";
     pf_body := [SDo (ECall "long_lock" [])] |};
  {| pf_name := "long_lock"; pf_cond := []; pf_params := []; pf_lines := "S 417-428";
     pf_body := [SFor (ENum 5) [SIf (EBin OEq (ECall "pthread_mutex_trylock" [AVal (EField (EVar "this") "m_mutex")]) (ENum 0)) [SReturnVoid] []; SDo (ECall "thread_pause" [])]; SDo (EBin OEq (ECall "pthread_mutex_lock" [AVal (EField (EVar "this") "m_mutex")]) (ENum 0))] |};
  {| pf_name := "unlock"; pf_cond := []; pf_params := []; pf_lines := "S 431-434";
     pf_body := [SDo (EBin OEq (ECall "pthread_mutex_unlock" [AVal (EField (EVar "this") "m_mutex")]) (ENum 0))] |}
].

(** lock_state in src/lock_pool.cpp *)
Definition futex_lock_fns : list pfn := [
  {| pf_name := "short_lock"; pf_cond := []; pf_params := []; pf_lines := "S 566-569";
     pf_body := [SDo (ECall "long_lock" [])] |};
  {| pf_name := "long_lock"; pf_cond := []; pf_params := []; pf_lines := "S 572-588";
     pf_body := [SFor (ENum 10) [SInit TF "prev_state" (ECall "futex_operations::load" [AVal (EField (EVar "this") "m_mutex"); AVal (EOrd Relaxed)]); SIf (EBin OEq (EBin OAnd (EVar "prev_state") (ECast TF (ENum 1))) (ENum 0)) [SInit TF "new_state" (EBin OOr (EVar "prev_state") (ECast TF (ENum 1))); SIf (ECall "futex_operations::compare_exchange_strong" [AVal (EField (EVar "this") "m_mutex"); ARef "prev_state"; AVal (EVar "new_state"); AVal (EOrd Acquire); AVal (EOrd Relaxed)]) [SReturnVoid] []] []; SDo (ECall "thread_pause" [])]; SDo (ECall "lock_slow_path" [])] |};
  {| pf_name := "lock_slow_path"; pf_cond := []; pf_params := []; pf_lines := "S 591-612";
     pf_body := [SInit TF "prev_state" (ECall "futex_operations::load" [AVal (EField (EVar "this") "m_mutex"); AVal (EOrd Relaxed)]); SWhile (EBool true) [SIf (EBin OEq (EBin OAnd (EVar "prev_state") (ECast TF (ENum 1))) (ENum 0)) [SInit TF "new_state" (EBin OOr (EVar "prev_state") (ECast TF (ENum 1))); SIf (ECall "futex_operations::compare_exchange_weak" [AVal (EField (EVar "this") "m_mutex"); ARef "prev_state"; AVal (EVar "new_state"); AVal (EOrd Acquire); AVal (EOrd Relaxed)]) [SReturnVoid] []] [SInit TF "new_state" (EBin OOr (EVar "prev_state") (ECast TF (EBin OShl (ENum 1) (ENum 1)))); SIf (ECall "futex_operations::compare_exchange_weak" [AVal (EField (EVar "this") "m_mutex"); ARef "prev_state"; AVal (EVar "new_state"); AVal (EOrd Relaxed); AVal (EOrd Relaxed)]) [SDo (ECall "futex_wait" [AVal (EField (EVar "this") "m_mutex"); AVal (EVar "new_state"); AVal (ETpl "futex_private_flag")]); SSet "prev_state" (ECall "futex_operations::load" [AVal (EField (EVar "this") "m_mutex"); AVal (EOrd Relaxed)])] []]]] |};
  {| pf_name := "unlock"; pf_cond := []; pf_params := []; pf_lines := "S 615-636";
     pf_body := [SInit TF "prev_state" (ECall "futex_operations::load" [AVal (EField (EVar "this") "m_mutex"); AVal (EOrd Relaxed)]); SDecl TF "new_state"; SWhile (EBool true) [SSet "new_state" (EBin OAdd (EBin OAnd (EVar "prev_state") (EUn UCompl (ECast TF (ENum 1)))) (ECast TF (EBin OShl (ENum 1) (ENum 2)))); SIf (ECall "futex_operations::compare_exchange_weak" [AVal (EField (EVar "this") "m_mutex"); ARef "prev_state"; AVal (EVar "new_state"); AVal (EOrd Release); AVal (EOrd Relaxed)]) [SBreak] []]; SIf (EBin ONe (EBin OAnd (EVar "prev_state") (ECast TF (EBin OShl (ENum 1) (ENum 1)))) (ENum 0)) [SInit TO "woken_count" (ECall "futex_signal" [AVal (EField (EVar "this") "m_mutex"); AVal (ETpl "futex_private_flag")]); SIf (EBin OEq (EVar "woken_count") (ENum 0)) [SSet "prev_state" (EVar "new_state"); SOp "new_state" OAnd (EUn UCompl (ECast TF (EBin OShl (ENum 1) (ENum 1)))); SDo (ECall "futex_operations::compare_exchange_strong" [AVal (EField (EVar "this") "m_mutex"); ARef "prev_state"; AVal (EVar "new_state"); AVal (EOrd Relaxed); AVal (EOrd Relaxed)])] []] []] |}
].

(** lock_state in src/lock_pool.cpp *)
Definition srw_lock_fns : list pfn := [
  {| pf_name := "short_lock"; pf_cond := []; pf_params := []; pf_lines := "S 871-874";
     pf_body := [SDo (ECall "long_lock" [])] |};
  {| pf_name := "long_lock"; pf_cond := []; pf_params := []; pf_lines := "S 877-881";
     pf_body := [SDo (ECall "AcquireSRWLockExclusive" [AVal (EField (EVar "this") "m_mutex")])] |};
  {| pf_name := "unlock"; pf_cond := []; pf_params := []; pf_lines := "S 884-887";
     pf_body := [SDo (ECall "ReleaseSRWLockExclusive" [AVal (EField (EVar "this") "m_mutex")])] |}
].

(** wait_state in src/lock_pool.cpp *)
Definition pthread_cond_fns : list pfn := [
  {| pf_name := "notify_one"; pf_cond := []; pf_params := [("", TO, false)]; pf_lines := "S 373-376";
     pf_body := [SDo (EBin OEq (ECall "pthread_cond_signal" [AVal (EField (EVar "this") "m_cond")]) (ENum 0))] |};
  {| pf_name := "notify_all"; pf_cond := []; pf_params := [("", TO, false)]; pf_lines := "S 378-381";
     pf_body := [SDo (EBin OEq (ECall "pthread_cond_broadcast" [AVal (EField (EVar "this") "m_cond")]) (ENum 0))] |};
  {| pf_name := "wait"; pf_cond := []; pf_params := [("state", TO, false)]; pf_lines := "S 440-443";
     pf_body := [SDo (EBin OEq (ECall "pthread_cond_wait" [AVal (EField (EVar "this") "m_cond"); AVal (EField (EVar "state") "m_mutex")]) (ENum 0))] |}
].

(** wait_state in src/lock_pool.cpp *)
Definition futex_cond_fns : list pfn := [
  {| pf_name := "wait"; pf_cond := []; pf_params := [("state", TO, false)]; pf_lines := "S 646-668";
     pf_body := [SInit TF "prev_cond" (ECall "futex_operations::load" [AVal (EField (EVar "this") "m_cond"); AVal (EOrd Relaxed)]); SCount OAdd; SDo (ECall ".unlock" [AVal (EVar "state")]); SDoWhile [SInit TO "err" (ECall "futex_wait" [AVal (EField (EVar "this") "m_cond"); AVal (EVar "prev_cond"); AVal (ETpl "futex_private_flag")]); SIf (EBin OLt (EVar "err") (ENum 0)) [SSet "err" (EVar "errno"); SIf (EBin ONe (EVar "err") (EErr "EINTR")) [SBreak] []] []] (EBin OEq (ECall "futex_operations::load" [AVal (EField (EVar "this") "m_cond"); AVal (EOrd Relaxed)]) (EVar "prev_cond")); SDo (ECall ".long_lock" [AVal (EVar "state")]); SCount OSub] |};
  {| pf_name := "notify_one"; pf_cond := []; pf_params := [("state", TO, false)]; pf_lines := "S 805-815";
     pf_body := [SDo (ECall "futex_extra_operations::opaque_add" [AVal (EField (EVar "this") "m_cond"); AVal (ENum 1); AVal (EOrd Relaxed)]); SIf (EBin OGt (ECall "m_waiter_count" [AVal (EVar "this")]) (ENum 0)) [SDo (ECall "futex_requeue" [AVal (EField (EVar "this") "m_cond"); AVal (EField (EVar "state") "m_mutex"); AVal (ETpl "futex_private_flag"); AVal (ENum 0); AVal (ENum 1)]); SDo (ECall "futex_extra_operations::opaque_or" [AVal (EField (EVar "state") "m_mutex"); AVal (ECast TF (EBin OShl (ENum 1) (ENum 1))); AVal (EOrd Relaxed)])] []] |};
  {| pf_name := "notify_all"; pf_cond := []; pf_params := [("state", TO, false)]; pf_lines := "S 818-828";
     pf_body := [SDo (ECall "futex_extra_operations::opaque_add" [AVal (EField (EVar "this") "m_cond"); AVal (ENum 1); AVal (EOrd Relaxed)]); SIf (EBin OGt (ECall "m_waiter_count" [AVal (EVar "this")]) (ENum 0)) [SDo (ECall "futex_requeue" [AVal (EField (EVar "this") "m_cond"); AVal (EField (EVar "state") "m_mutex"); AVal (ETpl "futex_private_flag"); AVal (ENum 0)]); SDo (ECall "futex_extra_operations::opaque_or" [AVal (EField (EVar "state") "m_mutex"); AVal (ECast TF (EBin OShl (ENum 1) (ENum 1))); AVal (EOrd Relaxed)])] []] |}
].

(** wait_state in src/lock_pool.cpp *)
Definition srw_cond_fns : list pfn := [
  {| pf_name := "notify_one"; pf_cond := []; pf_params := [("", TO, false)]; pf_lines := "S 851-854";
     pf_body := [SDo (ECall "WakeConditionVariable" [AVal (EField (EVar "this") "m_cond")])] |};
  {| pf_name := "notify_all"; pf_cond := []; pf_params := [("", TO, false)]; pf_lines := "S 856-859";
     pf_body := [SDo (ECall "WakeAllConditionVariable" [AVal (EField (EVar "this") "m_cond")])] |};
  {| pf_name := "wait"; pf_cond := []; pf_params := [("state", TO, false)]; pf_lines := "S 893-896";
     pf_body := [SDo (ECall "SleepConditionVariableSRW" [AVal (EField (EVar "this") "m_cond"); AVal (EField (EVar "state") "m_mutex"); AVal (ETpl "infinite"); AVal (ENum 0)])] |}
].

(** functions in src/lock_pool.cpp *)
Definition pool_fns : list pfn := [
  {| pf_name := "get_lock_index"; pf_cond := []; pf_params := [("h", TO, false)]; pf_lines := "S 977-980";
     pf_body := [SReturn (EBin OAnd (EVar "h") (EBin OSub (ETpl "lock_pool_size") (ENum 1)))] |};
  {| pf_name := "short_lock"; pf_cond := []; pf_params := [("h", TO, false)]; pf_lines := "S 1135-1140";
     pf_body := [SInit TO "ls" (EPool (ECall "get_lock_index" [AVal (EVar "h")])); SDo (ECall ".short_lock" [AVal (EVar "ls")]); SReturn (EVar "ls")] |};
  {| pf_name := "long_lock"; pf_cond := []; pf_params := [("h", TO, false)]; pf_lines := "S 1142-1147";
     pf_body := [SInit TO "ls" (EPool (ECall "get_lock_index" [AVal (EVar "h")])); SDo (ECall ".long_lock" [AVal (EVar "ls")]); SReturn (EVar "ls")] |};
  {| pf_name := "unlock"; pf_cond := []; pf_params := [("vls", TO, false)]; pf_lines := "S 1149-1152";
     pf_body := [SDo (ECall ".unlock" [AVal (EVar "vls")])] |};
  {| pf_name := "wait"; pf_cond := []; pf_params := [("vls", TO, false); ("vws", TO, false)]; pf_lines := "S 1187-1204";
     pf_body := [SInit TO "ls" (EVar "vls"); SInit TO "ws" (EVar "vws"); SIf (EBin ONe (EVar "ws") (ENull)) [SDo (ECall ".wait" [AVal (EVar "ws"); AVal (EVar "ls")])] [SDo (ECall ".unlock" [AVal (EVar "ls")]); SDo (ECall "wait_some" []); SDo (ECall ".long_lock" [AVal (EVar "ls")])]] |};
  {| pf_name := "wait_until"; pf_cond := [("!defined(BOOST_WINDOWS)", true)]; pf_params := [("vls", TO, false); ("vws", TO, false); ("clock_id", TO, false); ("abs_timeout", TO, false)]; pf_lines := "S 1207-1228";
     pf_body := [SInit TO "ls" (EVar "vls"); SInit TO "ws" (EVar "vws"); SIf (EBin ONe (EVar "ws") (ENull)) [SReturn (ECall ".wait_until" [AVal (EVar "ws"); AVal (EVar "ls"); AVal (EVar "clock_id"); AVal (EVar "abs_timeout")])] [SDo (ECall ".unlock" [AVal (EVar "ls")]); SDo (ECall "wait_some" []); SDo (ECall ".long_lock" [AVal (EVar "ls")]); SInit TO "ts" (ENum 0); SReturn (EAnd (EBin OEq (ECall "clock_gettime" [AVal (EVar "clock_id"); ARef "ts"]) (ENum 0)) (EOrElse (EBin OGt (ESec (EVar "ts")) (ESec (EVar "abs_timeout"))) (EAnd (EBin OEq (ESec (EVar "ts")) (ESec (EVar "abs_timeout"))) (EBin OGe (ENsec (EVar "ts")) (ENsec (EVar "abs_timeout"))))))]] |};
  {| pf_name := "wait_for"; pf_cond := []; pf_params := [("vls", TO, false); ("vws", TO, false); ("rel_timeout", TO, false)]; pf_lines := "S 1231-1250";
     pf_body := [SInit TO "ls" (EVar "vls"); SInit TO "ws" (EVar "vws"); SIf (EBin ONe (EVar "ws") (ENull)) [SReturn (ECall ".wait_for" [AVal (EVar "ws"); AVal (EVar "ls"); AVal (EVar "rel_timeout")])] [SInit TO "start" (ECall "steady_clock::now" []); SDo (ECall ".unlock" [AVal (EVar "ls")]); SDo (ECall "wait_some" []); SDo (ECall ".long_lock" [AVal (EVar "ls")]); SReturn (EBin OGe (EBin OSub (ECall "steady_clock::now" []) (EVar "start")) (EVar "rel_timeout"))]] |};
  {| pf_name := "notify_one"; pf_cond := []; pf_params := [("vls", TO, false); ("addr", TO, false)]; pf_lines := "S 1252-1260";
     pf_body := [SInit TO "ls" (EVar "vls"); SInit TO "ws" (ECall ".m_wait_states.find" [AVal (EVar "ls"); AVal (EVar "addr")]); SIf (EBin ONe (EVar "ws") (ENull)) [SDo (ECall ".notify_one" [AVal (EVar "ws"); AVal (EVar "ls")])] []] |};
  {| pf_name := "notify_all"; pf_cond := []; pf_params := [("vls", TO, false); ("addr", TO, false)]; pf_lines := "S 1262-1270";
     pf_body := [SInit TO "ls" (EVar "vls"); SInit TO "ws" (ECall ".m_wait_states.find" [AVal (EVar "ls"); AVal (EVar "addr")]); SIf (EBin ONe (EVar "ws") (ENull)) [SDo (ECall ".notify_all" [AVal (EVar "ws"); AVal (EVar "ls")])] []] |}
].

(** functions in src/lock_pool.cpp *)
Definition fence_fns : list pfn := [
  {| pf_name := "thread_fence"; pf_cond := []; pf_params := []; pf_lines := "S 1273-1281";
     pf_body := [SIf (ETpl "BOOST_ATOMIC_THREAD_FENCE == 2") [SDo (ECall "fence_operations::thread_fence" [AVal (EOrd SeqCst)])] [SDo (ECall "lock_pool::unlock" [AVal (ECall "lock_pool::short_lock" [AVal (ENum 0)])])]] |}
].

(** functions in include/boost/atomic/detail/lock_pool.hpp *)
Definition hash_fns : list pfn := [
  {| pf_name := "hash_ptr"; pf_cond := []; pf_params := [("addr", TO, false)]; pf_lines := "D/lock_pool.hpp 78-92";
     pf_body := [SInit TO "ptr" (ECall "address" [AVal (EVar "addr")]); SInit TO "h" (EBin ODiv (EVar "ptr") (ETpl "Alignment")); SInit TO "malloc_alignment" (ETpl "malloc_alignment"); SIf (EBin ONe (ETpl "Alignment") (EVar "malloc_alignment")) [SOp "h" OXor (EBin ODiv (EVar "ptr") (EVar "malloc_alignment"))] []; SReturn (EVar "h")] |}
].

(** scoped_lock in include/boost/atomic/detail/lock_pool.hpp *)
Definition slock_fns : list pfn := [
  {| pf_name := "scoped_lock"; pf_cond := []; pf_params := [("addr", TO, false)]; pf_lines := "D/lock_pool.hpp 101-108";
     pf_body := [SInit TO "h" (ECall "lock_pool::hash_ptr" [AVal (EVar "addr")]); SIf (EUn UNot (ETpl "LongLock")) [SSet "m_lock" (ECall "lock_pool::short_lock" [AVal (EVar "h")])] [SSet "m_lock" (ECall "lock_pool::long_lock" [AVal (EVar "h")])]] |};
  {| pf_name := "~scoped_lock"; pf_cond := []; pf_params := []; pf_lines := "D/lock_pool.hpp 113-116";
     pf_body := [SDo (ECall "lock_pool::unlock" [AVal (EVar "m_lock")])] |};
  {| pf_name := "get_lock_state"; pf_cond := []; pf_params := []; pf_lines := "D/lock_pool.hpp 118-121";
     pf_body := [SReturn (EVar "m_lock")] |}
].

(** scoped_wait_state in include/boost/atomic/detail/lock_pool.hpp *)
Definition swait_fns : list pfn := [
  {| pf_name := "scoped_wait_state"; pf_cond := []; pf_params := [("addr", TO, false)]; pf_lines := "D/lock_pool.hpp 132-136";
     pf_body := [SSet "base" (ECall "new scoped_lock< Alignment, true >" [AVal (EVar "addr")]); SSet "m_wait_state" (ECall "lock_pool::allocate_wait_state" [AVal (ECall ".get_lock_state" [AVal (EVar "base")]); AVal (EVar "addr")])] |};
  {| pf_name := "~scoped_wait_state"; pf_cond := []; pf_params := []; pf_lines := "D/lock_pool.hpp 141-144";
     pf_body := [SDo (ECall "lock_pool::free_wait_state" [AVal (ECall ".get_lock_state" [AVal (EVar "base")]); AVal (EVar "m_wait_state")])] |};
  {| pf_name := "wait"; pf_cond := []; pf_params := []; pf_lines := "D/lock_pool.hpp 146-149";
     pf_body := [SDo (ECall "lock_pool::wait" [AVal (ECall ".get_lock_state" [AVal (EVar "base")]); AVal (EVar "m_wait_state")])] |};
  {| pf_name := "wait_until"; pf_cond := [("!defined(BOOST_WINDOWS)", true)]; pf_params := [("clock_id", TO, false); ("abs_timeout", TO, false)]; pf_lines := "D/lock_pool.hpp 152-155";
     pf_body := [SReturn (ECall "lock_pool::wait_until" [AVal (ECall ".get_lock_state" [AVal (EVar "base")]); AVal (EVar "m_wait_state"); AVal (EVar "clock_id"); AVal (EVar "abs_timeout")])] |};
  {| pf_name := "wait_for"; pf_cond := []; pf_params := [("rel_timeout", TO, false)]; pf_lines := "D/lock_pool.hpp 158-161";
     pf_body := [SReturn (ECall "lock_pool::wait_for" [AVal (ECall ".get_lock_state" [AVal (EVar "base")]); AVal (EVar "m_wait_state"); AVal (EVar "rel_timeout")])] |}
].

(** core_operations_emulated in include/boost/atomic/detail/core_operations_emulated.hpp *)
Definition core_emulated_fns : list pfn := [
  {| pf_name := "store"; pf_cond := []; pf_params := [("v", TS, false); ("", TO, false)]; pf_lines := "D/core_operations_emulated.hpp 69-74";
     pf_body := [SGuard "scoped_lock" "lock" [AVal (EAddr)] [SStore (EVar "v")]] |};
  {| pf_name := "load"; pf_cond := []; pf_params := [("", TO, false)]; pf_lines := "D/core_operations_emulated.hpp 76-81";
     pf_body := [SGuard "scoped_lock" "lock" [AVal (EAddr)] [SReturn (EStor)]] |};
  {| pf_name := "fetch_add"; pf_cond := []; pf_params := [("v", TS, false); ("", TO, false)]; pf_lines := "D/core_operations_emulated.hpp 83-91";
     pf_body := [SGuard "scoped_lock" "lock" [AVal (EAddr)] [SInit TS "old_val" (EStor); SStoreOp OAdd (EVar "v"); SReturn (EVar "old_val")]] |};
  {| pf_name := "fetch_sub"; pf_cond := []; pf_params := [("v", TS, false); ("", TO, false)]; pf_lines := "D/core_operations_emulated.hpp 93-101";
     pf_body := [SGuard "scoped_lock" "lock" [AVal (EAddr)] [SInit TS "old_val" (EStor); SStoreOp OSub (EVar "v"); SReturn (EVar "old_val")]] |};
  {| pf_name := "exchange"; pf_cond := []; pf_params := [("v", TS, false); ("", TO, false)]; pf_lines := "D/core_operations_emulated.hpp 103-111";
     pf_body := [SGuard "scoped_lock" "lock" [AVal (EAddr)] [SInit TS "old_val" (EStor); SStore (EVar "v"); SReturn (EVar "old_val")]] |};
  {| pf_name := "compare_exchange_strong"; pf_cond := []; pf_params := [("expected", TS, true); ("desired", TS, false); ("", TO, false); ("", TO, false)]; pf_lines := "D/core_operations_emulated.hpp 113-126";
     pf_body := [SGuard "scoped_lock" "lock" [AVal (EAddr)] [SInit TS "old_val" (EStor); SInit TO "res" (EBin OEq (EVar "old_val") (EVar "expected")); SIf (EVar "res") [SStore (EVar "desired")] []; SSet "expected" (EVar "old_val"); SReturn (EVar "res")]] |};
  {| pf_name := "compare_exchange_weak"; pf_cond := []; pf_params := [("expected", TS, true); ("desired", TS, false); ("", TO, false); ("", TO, false)]; pf_lines := "D/core_operations_emulated.hpp 128-143";
     pf_body := [SGuard "scoped_lock" "lock" [AVal (EAddr)] [SInit TS "old_val" (EStor); SInit TO "res" (EBin OEq (EVar "old_val") (EVar "expected")); SIf (EVar "res") [SStore (EVar "desired")] []; SSet "expected" (EVar "old_val"); SReturn (EVar "res")]] |};
  {| pf_name := "fetch_and"; pf_cond := []; pf_params := [("v", TS, false); ("", TO, false)]; pf_lines := "D/core_operations_emulated.hpp 145-153";
     pf_body := [SGuard "scoped_lock" "lock" [AVal (EAddr)] [SInit TS "old_val" (EStor); SStoreOp OAnd (EVar "v"); SReturn (EVar "old_val")]] |};
  {| pf_name := "fetch_or"; pf_cond := []; pf_params := [("v", TS, false); ("", TO, false)]; pf_lines := "D/core_operations_emulated.hpp 155-163";
     pf_body := [SGuard "scoped_lock" "lock" [AVal (EAddr)] [SInit TS "old_val" (EStor); SStoreOp OOr (EVar "v"); SReturn (EVar "old_val")]] |};
  {| pf_name := "fetch_xor"; pf_cond := []; pf_params := [("v", TS, false); ("", TO, false)]; pf_lines := "D/core_operations_emulated.hpp 165-173";
     pf_body := [SGuard "scoped_lock" "lock" [AVal (EAddr)] [SInit TS "old_val" (EStor); SStoreOp OXor (EVar "v"); SReturn (EVar "old_val")]] |};
  {| pf_name := "test_and_set"; pf_cond := []; pf_params := [("order", TO, false)]; pf_lines := "D/core_operations_emulated.hpp 175-179";
     pf_body := [SReturn (EUn UNot (EUn UNot (ECall "exchange" [AVal (ECast TS (ENum 1)); AVal (EVar "order")])))] |};
  {| pf_name := "clear"; pf_cond := []; pf_params := [("order", TO, false)]; pf_lines := "D/core_operations_emulated.hpp 181-185";
     pf_body := [SDo (ECall "store" [AVal (ECast TS (ENum 0)); AVal (EVar "order")])] |}
].

(** extra_operations_emulated in include/boost/atomic/detail/extra_ops_emulated.hpp *)
Definition extra_emulated_fns : list pfn := [
  {| pf_name := "fetch_negate"; pf_cond := []; pf_params := [("", TO, false)]; pf_lines := "D/extra_ops_emulated.hpp 41-49";
     pf_body := [SGuard "scoped_lock" "lock" [AVal (EAddr)] [SInit TS "old_val" (EStor); SStore (ECast TS (EUn UNeg (EVar "old_val"))); SReturn (EVar "old_val")]] |};
  {| pf_name := "negate"; pf_cond := []; pf_params := [("", TO, false)]; pf_lines := "D/extra_ops_emulated.hpp 51-59";
     pf_body := [SGuard "scoped_lock" "lock" [AVal (EAddr)] [SInit TS "new_val" (ECast TS (EUn UNeg (EStor))); SStore (EVar "new_val"); SReturn (EVar "new_val")]] |};
  {| pf_name := "add"; pf_cond := []; pf_params := [("v", TS, false); ("", TO, false)]; pf_lines := "D/extra_ops_emulated.hpp 61-70";
     pf_body := [SGuard "scoped_lock" "lock" [AVal (EAddr)] [SInit TS "new_val" (EStor); SOp "new_val" OAdd (EVar "v"); SStore (EVar "new_val"); SReturn (EVar "new_val")]] |};
  {| pf_name := "sub"; pf_cond := []; pf_params := [("v", TS, false); ("", TO, false)]; pf_lines := "D/extra_ops_emulated.hpp 72-81";
     pf_body := [SGuard "scoped_lock" "lock" [AVal (EAddr)] [SInit TS "new_val" (EStor); SOp "new_val" OSub (EVar "v"); SStore (EVar "new_val"); SReturn (EVar "new_val")]] |};
  {| pf_name := "bitwise_and"; pf_cond := []; pf_params := [("v", TS, false); ("", TO, false)]; pf_lines := "D/extra_ops_emulated.hpp 83-92";
     pf_body := [SGuard "scoped_lock" "lock" [AVal (EAddr)] [SInit TS "new_val" (EStor); SOp "new_val" OAnd (EVar "v"); SStore (EVar "new_val"); SReturn (EVar "new_val")]] |};
  {| pf_name := "bitwise_or"; pf_cond := []; pf_params := [("v", TS, false); ("", TO, false)]; pf_lines := "D/extra_ops_emulated.hpp 94-103";
     pf_body := [SGuard "scoped_lock" "lock" [AVal (EAddr)] [SInit TS "new_val" (EStor); SOp "new_val" OOr (EVar "v"); SStore (EVar "new_val"); SReturn (EVar "new_val")]] |};
  {| pf_name := "bitwise_xor"; pf_cond := []; pf_params := [("v", TS, false); ("", TO, false)]; pf_lines := "D/extra_ops_emulated.hpp 105-114";
     pf_body := [SGuard "scoped_lock" "lock" [AVal (EAddr)] [SInit TS "new_val" (EStor); SOp "new_val" OXor (EVar "v"); SStore (EVar "new_val"); SReturn (EVar "new_val")]] |};
  {| pf_name := "fetch_complement"; pf_cond := []; pf_params := [("", TO, false)]; pf_lines := "D/extra_ops_emulated.hpp 116-124";
     pf_body := [SGuard "scoped_lock" "lock" [AVal (EAddr)] [SInit TS "old_val" (EStor); SStore (ECast TS (EUn UCompl (EVar "old_val"))); SReturn (EVar "old_val")]] |};
  {| pf_name := "bitwise_complement"; pf_cond := []; pf_params := [("", TO, false)]; pf_lines := "D/extra_ops_emulated.hpp 126-134";
     pf_body := [SGuard "scoped_lock" "lock" [AVal (EAddr)] [SInit TS "new_val" (ECast TS (EUn UCompl (EStor))); SStore (EVar "new_val"); SReturn (EVar "new_val")]] |};
  {| pf_name := "opaque_add"; pf_cond := []; pf_params := [("v", TS, false); ("order", TO, false)]; pf_lines := "D/extra_ops_emulated.hpp 136-140";
     pf_body := [SDo (ECall "base_type::fetch_add" [AVal (EVar "v"); AVal (EVar "order")])] |};
  {| pf_name := "opaque_sub"; pf_cond := []; pf_params := [("v", TS, false); ("order", TO, false)]; pf_lines := "D/extra_ops_emulated.hpp 142-146";
     pf_body := [SDo (ECall "base_type::fetch_sub" [AVal (EVar "v"); AVal (EVar "order")])] |};
  {| pf_name := "opaque_negate"; pf_cond := []; pf_params := [("order", TO, false)]; pf_lines := "D/extra_ops_emulated.hpp 148-152";
     pf_body := [SDo (ECall "fetch_negate" [AVal (EVar "order")])] |};
  {| pf_name := "opaque_and"; pf_cond := []; pf_params := [("v", TS, false); ("order", TO, false)]; pf_lines := "D/extra_ops_emulated.hpp 154-158";
     pf_body := [SDo (ECall "base_type::fetch_and" [AVal (EVar "v"); AVal (EVar "order")])] |};
  {| pf_name := "opaque_or"; pf_cond := []; pf_params := [("v", TS, false); ("order", TO, false)]; pf_lines := "D/extra_ops_emulated.hpp 160-164";
     pf_body := [SDo (ECall "base_type::fetch_or" [AVal (EVar "v"); AVal (EVar "order")])] |};
  {| pf_name := "opaque_xor"; pf_cond := []; pf_params := [("v", TS, false); ("order", TO, false)]; pf_lines := "D/extra_ops_emulated.hpp 166-170";
     pf_body := [SDo (ECall "base_type::fetch_xor" [AVal (EVar "v"); AVal (EVar "order")])] |};
  {| pf_name := "opaque_complement"; pf_cond := []; pf_params := [("order", TO, false)]; pf_lines := "D/extra_ops_emulated.hpp 172-176";
     pf_body := [SDo (ECall "fetch_complement" [AVal (EVar "order")])] |};
  {| pf_name := "add_and_test"; pf_cond := []; pf_params := [("v", TS, false); ("order", TO, false)]; pf_lines := "D/extra_ops_emulated.hpp 178-182";
     pf_body := [SReturn (EUn UNot (EUn UNot (ECall "add" [AVal (EVar "v"); AVal (EVar "order")])))] |};
  {| pf_name := "sub_and_test"; pf_cond := []; pf_params := [("v", TS, false); ("order", TO, false)]; pf_lines := "D/extra_ops_emulated.hpp 184-188";
     pf_body := [SReturn (EUn UNot (EUn UNot (ECall "sub" [AVal (EVar "v"); AVal (EVar "order")])))] |};
  {| pf_name := "negate_and_test"; pf_cond := []; pf_params := [("order", TO, false)]; pf_lines := "D/extra_ops_emulated.hpp 190-194";
     pf_body := [SReturn (EUn UNot (EUn UNot (ECall "negate" [AVal (EVar "order")])))] |};
  {| pf_name := "and_and_test"; pf_cond := []; pf_params := [("v", TS, false); ("order", TO, false)]; pf_lines := "D/extra_ops_emulated.hpp 196-200";
     pf_body := [SReturn (EUn UNot (EUn UNot (ECall "bitwise_and" [AVal (EVar "v"); AVal (EVar "order")])))] |};
  {| pf_name := "or_and_test"; pf_cond := []; pf_params := [("v", TS, false); ("order", TO, false)]; pf_lines := "D/extra_ops_emulated.hpp 202-206";
     pf_body := [SReturn (EUn UNot (EUn UNot (ECall "bitwise_or" [AVal (EVar "v"); AVal (EVar "order")])))] |};
  {| pf_name := "xor_and_test"; pf_cond := []; pf_params := [("v", TS, false); ("order", TO, false)]; pf_lines := "D/extra_ops_emulated.hpp 208-212";
     pf_body := [SReturn (EUn UNot (EUn UNot (ECall "bitwise_xor" [AVal (EVar "v"); AVal (EVar "order")])))] |};
  {| pf_name := "complement_and_test"; pf_cond := []; pf_params := [("order", TO, false)]; pf_lines := "D/extra_ops_emulated.hpp 214-218";
     pf_body := [SReturn (EUn UNot (EUn UNot (ECall "bitwise_complement" [AVal (EVar "order")])))] |};
  {| pf_name := "bit_test_and_set"; pf_cond := []; pf_params := [("bit_number", TO, false); ("order", TO, false)]; pf_lines := "D/extra_ops_emulated.hpp 220-226";
     pf_body := [SInit TS "mask" (ECast TS (EBin OShl (ECast TS (ENum 1)) (EVar "bit_number"))); SInit TS "old_val" (ECall "base_type::fetch_or" [AVal (EVar "mask"); AVal (EVar "order")]); SReturn (EUn UNot (EUn UNot (EBin OAnd (EVar "old_val") (EVar "mask"))))] |};
  {| pf_name := "bit_test_and_reset"; pf_cond := []; pf_params := [("bit_number", TO, false); ("order", TO, false)]; pf_lines := "D/extra_ops_emulated.hpp 228-234";
     pf_body := [SInit TS "mask" (ECast TS (EBin OShl (ECast TS (ENum 1)) (EVar "bit_number"))); SInit TS "old_val" (ECall "base_type::fetch_and" [AVal (EUn UCompl (EVar "mask")); AVal (EVar "order")]); SReturn (EUn UNot (EUn UNot (EBin OAnd (EVar "old_val") (EVar "mask"))))] |};
  {| pf_name := "bit_test_and_complement"; pf_cond := []; pf_params := [("bit_number", TO, false); ("order", TO, false)]; pf_lines := "D/extra_ops_emulated.hpp 236-242";
     pf_body := [SInit TS "mask" (ECast TS (EBin OShl (ECast TS (ENum 1)) (EVar "bit_number"))); SInit TS "old_val" (ECall "base_type::fetch_xor" [AVal (EVar "mask"); AVal (EVar "order")]); SReturn (EUn UNot (EUn UNot (EBin OAnd (EVar "old_val") (EVar "mask"))))] |}
].

(** wait_operations_emulated in include/boost/atomic/detail/wait_ops_emulated.hpp *)
Definition wait_emulated_fns : list pfn := [
  {| pf_name := "wait"; pf_cond := []; pf_params := [("old_val", TS, false); ("", TO, false)]; pf_lines := "D/wait_ops_emulated.hpp 57-70";
     pf_body := [SGuard "scoped_wait_state" "wait_state" [AVal (EAddr)] [SInit TS "new_val" (EStor); SWhile (EBin OEq (EVar "new_val") (EVar "old_val")) [SDo (ECall ".wait" [AVal (EVar "wait_state")]); SSet "new_val" (EStor)]; SReturn (EVar "new_val")]] |};
  {| pf_name := "wait_until_fallback"; pf_cond := []; pf_params := [("old_val", TS, false); ("timeout", TO, false); ("now", TO, false); ("timed_out", TO, true)]; pf_lines := "D/wait_ops_emulated.hpp 74-102";
     pf_body := [SGuard "scoped_wait_state" "wait_state" [AVal (EAddr)] [SInit TS "new_val" (EStor); SWhile (EBin OEq (EVar "new_val") (EVar "old_val")) [SInit TO "nsec" (ECall "ceil" [AVal (EBin OSub (EVar "timeout") (EVar "now"))]); SIf (EBin OLe (EVar "nsec") (ENum 0)) [SSet "timed_out" (EBool true); SBreak] []; SDo (ECall ".wait_for" [AVal (EVar "wait_state"); AVal (EVar "nsec")]); SSet "now" (ECall "Clock::now" []); SSet "new_val" (EStor)]; SReturn (EVar "new_val")]] |};
  {| pf_name := "wait_until_abs_timeout"; pf_cond := [("!defined(BOOST_WINDOWS)", true)]; pf_params := [("old_val", TS, false); ("timeout", TO, false); ("timed_out", TO, true)]; pf_lines := "D/wait_ops_emulated.hpp 107-137";
     pf_body := [SGuard "scoped_wait_state" "wait_state" [AVal (EAddr)] [SInit TS "new_val" (EStor); SInit TO "abs_timeout" (EVar "timeout"); SIf (EBin OGe (ESec (EVar "abs_timeout")) (ENum 0)) [SWhile (EBin OEq (EVar "new_val") (EVar "old_val")) [SInit TO "wait_timed_out" (ECall ".wait_until" [AVal (EVar "wait_state"); AVal (ETpl "clock_id"); AVal (EVar "abs_timeout")]); SSet "new_val" (EStor); SIf (EVar "wait_timed_out") [SGoto "timeout_expired"] []]] [SLabel "timeout_expired"; SSet "timed_out" (EBin OEq (EVar "new_val") (EVar "old_val"))]; SReturn (EVar "new_val")]] |};
  {| pf_name := "wait_until_dispatch/true"; pf_cond := [("!defined(BOOST_WINDOWS)", true)]; pf_params := [("old_val", TS, false); ("timeout", TO, false); ("timed_out", TO, true)]; pf_lines := "D/wait_ops_emulated.hpp 140-150";
     pf_body := [SReturn (ECall "wait_until_abs_timeout" [AVal (EVar "old_val"); AVal (EVar "timeout"); ARef "timed_out"])] |};
  {| pf_name := "wait_until_dispatch/false"; pf_cond := [("!defined(BOOST_WINDOWS)", true)]; pf_params := [("old_val", TS, false); ("timeout", TO, false); ("timed_out", TO, true)]; pf_lines := "D/wait_ops_emulated.hpp 153-163";
     pf_body := [SReturn (ECall "wait_until_fallback" [AVal (EVar "old_val"); AVal (EVar "timeout"); AVal (ECall "Clock::now" []); ARef "timed_out"])] |};
  {| pf_name := "wait_until"; pf_cond := [("!defined(BOOST_WINDOWS)", true)]; pf_params := [("old_val", TS, false); ("timeout", TO, false); ("", TO, false); ("timed_out", TO, true)]; pf_lines := "D/wait_ops_emulated.hpp 167-178";
     pf_body := [SReturn (EDispatch "wait_until_dispatch" "has_posix_clock_traits" [AVal (EVar "old_val"); AVal (EVar "timeout"); ARef "timed_out"])] |};
  {| pf_name := "wait_until"; pf_cond := [("!defined(BOOST_WINDOWS)", false)]; pf_params := [("old_val", TS, false); ("timeout", TO, false); ("", TO, false); ("timed_out", TO, true)]; pf_lines := "D/wait_ops_emulated.hpp 184-195";
     pf_body := [SReturn (ECall "wait_until_fallback" [AVal (EVar "old_val"); AVal (EVar "timeout"); AVal (ECall "Clock::now" []); ARef "timed_out"])] |};
  {| pf_name := "wait_for"; pf_cond := []; pf_params := [("old_val", TS, false); ("timeout", TO, false); ("", TO, false); ("timed_out", TO, true)]; pf_lines := "D/wait_ops_emulated.hpp 200-212";
     pf_body := [SInit TO "now" (ECall "steady_clock::now" []); SReturn (ECall "wait_until_fallback" [AVal (EVar "old_val"); AVal (EBin OAdd (EVar "now") (EVar "timeout")); AVal (EVar "now"); ARef "timed_out"])] |};
  {| pf_name := "notify_one"; pf_cond := []; pf_params := []; pf_lines := "D/wait_ops_emulated.hpp 214-219";
     pf_body := [SGuard "scoped_lock" "lock" [AVal (EAddr)] [SDo (ECall "lock_pool::notify_one" [AVal (ECall ".get_lock_state" [AVal (EVar "lock")]); AVal (EAddr)])]] |};
  {| pf_name := "notify_all"; pf_cond := []; pf_params := []; pf_lines := "D/wait_ops_emulated.hpp 221-226";
     pf_body := [SGuard "scoped_lock" "lock" [AVal (EAddr)] [SDo (ECall "lock_pool::notify_all" [AVal (ECall ".get_lock_state" [AVal (EVar "lock")]); AVal (EAddr)])]] |}
].

(** wait_operations_generic < Base , false > in include/boost/atomic/detail/wait_ops_generic.hpp *)
Definition wait_pool_fns : list pfn := [
  {| pf_name := "wait"; pf_cond := []; pf_params := [("old_val", TS, false); ("order", TO, false)]; pf_lines := "D/wait_ops_generic.hpp 63-78";
     pf_body := [SInit TS "new_val" (ECall "base_type::load" [AVal (EVar "order")]); SIf (EBin OEq (EVar "new_val") (EVar "old_val")) [SGuard "scoped_wait_state" "wait_state" [AVal (EAddr)] [SSet "new_val" (ECall "base_type::load" [AVal (EVar "order")]); SWhile (EBin OEq (EVar "new_val") (EVar "old_val")) [SDo (ECall ".wait" [AVal (EVar "wait_state")]); SSet "new_val" (ECall "base_type::load" [AVal (EVar "order")])]]] []; SReturn (EVar "new_val")] |};
  {| pf_name := "wait_until_fallback"; pf_cond := []; pf_params := [("old_val", TS, false); ("timeout", TO, false); ("now", TO, false); ("order", TO, false); ("timed_out", TO, true)]; pf_lines := "D/wait_ops_generic.hpp 82-113";
     pf_body := [SInit TS "new_val" (ECall "base_type::load" [AVal (EVar "order")]); SIf (EBin OEq (EVar "new_val") (EVar "old_val")) [SGuard "scoped_wait_state" "wait_state" [AVal (EAddr)] [SWhile (EBin OEq (EVar "new_val") (EVar "old_val")) [SInit TO "nsec" (ECall "ceil" [AVal (EBin OSub (EVar "timeout") (EVar "now"))]); SIf (EBin OLe (EVar "nsec") (ENum 0)) [SSet "timed_out" (EBool true); SBreak] []; SDo (ECall ".wait_for" [AVal (EVar "wait_state"); AVal (EVar "nsec")]); SSet "now" (ECall "Clock::now" []); SSet "new_val" (ECall "base_type::load" [AVal (EVar "order")])]]] []; SReturn (EVar "new_val")] |};
  {| pf_name := "wait_until_abs_timeout"; pf_cond := [("!defined(BOOST_WINDOWS)", true)]; pf_params := [("old_val", TS, false); ("timeout", TO, false); ("order", TO, false); ("timed_out", TO, true)]; pf_lines := "D/wait_ops_generic.hpp 118-151";
     pf_body := [SInit TS "new_val" (ECall "base_type::load" [AVal (EVar "order")]); SIf (EBin OEq (EVar "new_val") (EVar "old_val")) [SGuard "scoped_wait_state" "wait_state" [AVal (EAddr)] [SInit TO "abs_timeout" (EVar "timeout"); SIf (EBin OGe (ESec (EVar "abs_timeout")) (ENum 0)) [SWhile (EBin OEq (EVar "new_val") (EVar "old_val")) [SInit TO "wait_timed_out" (ECall ".wait_until" [AVal (EVar "wait_state"); AVal (ETpl "clock_id"); AVal (EVar "abs_timeout")]); SSet "new_val" (ECall "base_type::load" [AVal (EVar "order")]); SIf (EVar "wait_timed_out") [SGoto "timeout_expired"] []]] [SLabel "timeout_expired"; SSet "timed_out" (EBin OEq (EVar "new_val") (EVar "old_val"))]]] []; SReturn (EVar "new_val")] |};
  {| pf_name := "wait_until_dispatch/true"; pf_cond := [("!defined(BOOST_WINDOWS)", true)]; pf_params := [("old_val", TS, false); ("timeout", TO, false); ("order", TO, false); ("timed_out", TO, true)]; pf_lines := "D/wait_ops_generic.hpp 154-165";
     pf_body := [SReturn (ECall "wait_until_abs_timeout" [AVal (EVar "old_val"); AVal (EVar "timeout"); AVal (EVar "order"); ARef "timed_out"])] |};
  {| pf_name := "wait_until_dispatch/false"; pf_cond := [("!defined(BOOST_WINDOWS)", true)]; pf_params := [("old_val", TS, false); ("timeout", TO, false); ("order", TO, false); ("timed_out", TO, true)]; pf_lines := "D/wait_ops_generic.hpp 168-179";
     pf_body := [SReturn (ECall "wait_until_fallback" [AVal (EVar "old_val"); AVal (EVar "timeout"); AVal (ECall "Clock::now" []); AVal (EVar "order"); ARef "timed_out"])] |};
  {| pf_name := "wait_until"; pf_cond := [("!defined(BOOST_WINDOWS)", true)]; pf_params := [("old_val", TS, false); ("timeout", TO, false); ("order", TO, false); ("timed_out", TO, true)]; pf_lines := "D/wait_ops_generic.hpp 183-194";
     pf_body := [SReturn (EDispatch "wait_until_dispatch" "has_posix_clock_traits" [AVal (EVar "old_val"); AVal (EVar "timeout"); AVal (EVar "order"); ARef "timed_out"])] |};
  {| pf_name := "wait_until"; pf_cond := [("!defined(BOOST_WINDOWS)", false)]; pf_params := [("old_val", TS, false); ("timeout", TO, false); ("order", TO, false); ("timed_out", TO, true)]; pf_lines := "D/wait_ops_generic.hpp 200-210";
     pf_body := [SReturn (ECall "wait_until_fallback" [AVal (EVar "old_val"); AVal (EVar "timeout"); AVal (ECall "Clock::now" []); AVal (EVar "order"); ARef "timed_out"])] |};
  {| pf_name := "wait_for"; pf_cond := []; pf_params := [("old_val", TS, false); ("timeout", TO, false); ("order", TO, false); ("timed_out", TO, true)]; pf_lines := "D/wait_ops_generic.hpp 215-226";
     pf_body := [SInit TO "now" (ECall "steady_clock::now" []); SReturn (ECall "wait_until_fallback" [AVal (EVar "old_val"); AVal (EBin OAdd (EVar "now") (EVar "timeout")); AVal (EVar "now"); AVal (EVar "order"); ARef "timed_out"])] |};
  {| pf_name := "notify_one"; pf_cond := []; pf_params := []; pf_lines := "D/wait_ops_generic.hpp 228-232";
     pf_body := [SGuard "scoped_lock" "lock" [AVal (EAddr)] [SDo (ECall "lock_pool::notify_one" [AVal (ECall ".get_lock_state" [AVal (EVar "lock")]); AVal (EAddr)])]] |};
  {| pf_name := "notify_all"; pf_cond := []; pf_params := []; pf_lines := "D/wait_ops_generic.hpp 234-238";
     pf_body := [SGuard "scoped_lock" "lock" [AVal (EAddr)] [SDo (ECall "lock_pool::notify_all" [AVal (ECall ".get_lock_state" [AVal (EVar "lock")]); AVal (EAddr)])]] |}
].

(** wait_operations_generic < Base , true > in include/boost/atomic/detail/wait_ops_generic.hpp *)
Definition wait_poll_fns : list pfn := [
  {| pf_name := "wait"; pf_cond := []; pf_params := [("old_val", TS, false); ("order", TO, false)]; pf_lines := "D/wait_ops_generic.hpp 259-282";
     pf_body := [SInit TS "new_val" (ECall "base_type::load" [AVal (EVar "order")]); SIf (EBin OEq (EVar "new_val") (EVar "old_val")) [SFor (ENum 16) [SDo (ECall "thread_pause" []); SSet "new_val" (ECall "base_type::load" [AVal (EVar "order")]); SIf (EBin ONe (EVar "new_val") (EVar "old_val")) [SGoto "finish"] []]; SDoWhile [SDo (ECall "wait_some" []); SSet "new_val" (ECall "base_type::load" [AVal (EVar "order")])] (EBin OEq (EVar "new_val") (EVar "old_val"))] []; SLabel "finish"; SReturn (EVar "new_val")] |};
  {| pf_name := "wait_until_impl"; pf_cond := []; pf_params := [("old_val", TS, false); ("timeout", TO, false); ("now", TO, false); ("order", TO, false); ("timed_out", TO, true)]; pf_lines := "D/wait_ops_generic.hpp 286-332";
     pf_body := [SInit TS "new_val" (ECall "base_type::load" [AVal (EVar "order")]); SIf (EBin OEq (EVar "new_val") (EVar "old_val")) [SFor (ENum 16) [SIf (EBin OGe (EBin OSub (EVar "now") (EVar "timeout")) (ENum 0)) [SSet "timed_out" (EBool true); SGoto "finish"] []; SDo (ECall "thread_pause" []); SSet "now" (ECall "Clock::now" []); SSet "new_val" (ECall "base_type::load" [AVal (EVar "order")]); SIf (EBin ONe (EVar "new_val") (EVar "old_val")) [SGoto "finish"] []]; SDoWhile [SIf (EBin OGe (EBin OSub (EVar "now") (EVar "timeout")) (ENum 0)) [SSet "timed_out" (EBool true); SGoto "finish"] []; SDo (ECall "wait_some" []); SSet "now" (ECall "Clock::now" []); SSet "new_val" (ECall "base_type::load" [AVal (EVar "order")])] (EBin OEq (EVar "new_val") (EVar "old_val"))] []; SLabel "finish"; SReturn (EVar "new_val")] |};
  {| pf_name := "wait_until"; pf_cond := []; pf_params := [("old_val", TS, false); ("timeout", TO, false); ("order", TO, false); ("timed_out", TO, true)]; pf_lines := "D/wait_ops_generic.hpp 336-346";
     pf_body := [SReturn (ECall "wait_until_impl" [AVal (EVar "old_val"); AVal (EVar "timeout"); AVal (ECall "Clock::now" []); AVal (EVar "order"); ARef "timed_out"])] |};
  {| pf_name := "wait_for"; pf_cond := []; pf_params := [("old_val", TS, false); ("timeout", TO, false); ("order", TO, false); ("timed_out", TO, true)]; pf_lines := "D/wait_ops_generic.hpp 349-360";
     pf_body := [SInit TO "now" (ECall "steady_clock::now" []); SReturn (ECall "wait_until_impl" [AVal (EVar "old_val"); AVal (EBin OAdd (EVar "now") (EVar "timeout")); AVal (EVar "now"); AVal (EVar "order"); ARef "timed_out"])] |};
  {| pf_name := "notify_one"; pf_cond := []; pf_params := []; pf_lines := "D/wait_ops_generic.hpp 362-364";
     pf_body := [] |};
  {| pf_name := "notify_all"; pf_cond := []; pf_params := []; pf_lines := "D/wait_ops_generic.hpp 366-368";
     pf_body := [] |}
].

(** wait_operations < Base , 4u , true , Interprocess > in include/boost/atomic/detail/wait_ops_futex.hpp *)
Definition wait_futex_fns : list pfn := [
  {| pf_name := "wait"; pf_cond := []; pf_params := [("old_val", TS, false); ("order", TO, false)]; pf_lines := "D/wait_ops_futex.hpp 115-125";
     pf_body := [SInit TS "new_val" (ECall "base_type::load" [AVal (EVar "order")]); SWhile (EBin OEq (EVar "new_val") (EVar "old_val")) [SDo (ECall "futex_wait" [AVal (EAddr); AVal (EVar "old_val"); AVal (ETpl "futex_private_flag")]); SSet "new_val" (ECall "base_type::load" [AVal (EVar "order")])]; SReturn (EVar "new_val")] |};
  {| pf_name := "notify_one"; pf_cond := []; pf_params := []; pf_lines := "D/wait_ops_futex.hpp 337-340";
     pf_body := [SDo (ECall "futex_signal" [AVal (EAddr); AVal (ETpl "futex_private_flag")])] |};
  {| pf_name := "notify_all"; pf_cond := []; pf_params := []; pf_lines := "D/wait_ops_futex.hpp 342-345";
     pf_body := [SDo (ECall "futex_broadcast" [AVal (EAddr); AVal (ETpl "futex_private_flag")])] |}
].


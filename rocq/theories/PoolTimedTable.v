(** Generated by tools/extract_pool.py from src/lock_pool.cpp and include/boost/atomic/detail: do not edit.
    Each entry cites the file and lines of its function; S is src/lock_pool.cpp. *)
From Coq Require Import ZArith List String.
From Verif Require Import Order PoolText.
Import ListNotations.
Local Open Scope string_scope.
Local Open Scope Z_scope.

(** wait_operations < Base , 4u , true , Interprocess > in include/boost/atomic/detail/wait_ops_futex.hpp *)
Definition timed_futex_fns : list pfn := [
  {| pf_name := "wait_until_fallback"; pf_cond := []; pf_params := [("old_val", TS, false); ("timeout", TO, false); ("now", TO, false); ("order", TO, false); ("timed_out", TO, true)]; pf_lines := "D/wait_ops_futex.hpp 129-169";
     pf_body := [SInit TO "ts.tv_sec" (ENum 0); SInit TO "ts.tv_nsec" (ENum 0); SInit TS "new_val" (ECall "base_type::load" [AVal (EVar "order")]); SWhile (EBin OEq (EVar "new_val") (EVar "old_val")) [SInit TO "nsec" (ECall "ceil" [AVal (EBin OSub (EVar "timeout") (EVar "now"))]); SIf (EBin OLe (EVar "nsec") (ENum 0)) [SSet "timed_out" (EBool true); SBreak] []; SInit TO "sec" (EBin ODiv (EVar "nsec") (ENum 1000000000)); SIf (ECall "fits tv_sec" [AVal (EVar "sec")]) [SSet "ts.tv_sec" (ECast TO (EVar "sec")); SSet "ts.tv_nsec" (ECast TO (EBin OMod (EVar "nsec") (ENum 1000000000)))] [SSet "ts.tv_sec" (ETpl "max tv_sec"); SSet "ts.tv_nsec" (ECast TO (ENum 999999999))]; SDo (ECall "futex_wait_for" [AVal (EAddr); AVal (EVar "old_val"); AVal (ECall "futex_timespec" [AVal (EVar "ts.tv_sec"); AVal (EVar "ts.tv_nsec")]); AVal (ETpl "futex_private_flag")]); SSet "now" (ECall "Clock::now" []); SSet "new_val" (ECall "base_type::load" [AVal (EVar "order")])]; SReturn (EVar "new_val")] |};
  {| pf_name := "wait_until_abs_timeout"; pf_cond := [("defined(BOOST_ATOMIC_DETAIL_FUTEX_WAIT_BITSET)", true)]; pf_params := [("old_val", TS, false); ("timeout", TO, false); ("order", TO, false); ("timed_out", TO, true)]; pf_lines := "D/wait_ops_futex.hpp 174-219";
     pf_body := [SInit TO "ts.tv_sec" (ESec (EVar "timeout")); SInit TO "ts.tv_nsec" (ENsec (EVar "timeout")); SInit TS "new_val" (ECall "base_type::load" [AVal (EVar "order")]); SIf (EBin OGe (EVar "ts.tv_sec") (ENum 0)) [SWhile (EBin OEq (EVar "new_val") (EVar "old_val")) [SInit TO "err" (ECall "futex_wait_until" [AVal (EAddr); AVal (EVar "old_val"); AVal (ECall "futex_timespec" [AVal (EVar "ts.tv_sec"); AVal (EVar "ts.tv_nsec")]); AVal (ETpl "futex_clock_flag")]); SIf (EBin OLt (EVar "err") (ENum 0)) [SSet "err" (EVar "errno"); SIf (EBin OEq (EVar "err") (EErr "ETIMEDOUT")) [SSet "new_val" (ECall "base_type::load" [AVal (EVar "order")]); SSet "timed_out" (EBin OEq (EVar "new_val") (EVar "old_val")); SBreak] []; SIf (EBin OEq (EVar "err") (EErr "ENOSYS")) [SReturn (ECall "wait_until_fallback" [AVal (EVar "old_val"); AVal (EVar "timeout"); AVal (ECall "Clock::now" []); AVal (EVar "order"); ARef "timed_out"])] []] []; SSet "new_val" (ECall "base_type::load" [AVal (EVar "order")])]] [SSet "timed_out" (EBin OEq (EVar "new_val") (EVar "old_val"))]; SReturn (EVar "new_val")] |};
  {| pf_name := "wait_until_dispatch/false"; pf_cond := [("defined(BOOST_ATOMIC_DETAIL_FUTEX_WAIT_BITSET)", true)]; pf_params := [("old_val", TS, false); ("timeout", TO, false); ("order", TO, false); ("timed_out", TO, true)]; pf_lines := "D/wait_ops_futex.hpp 222-233";
     pf_body := [SReturn (ECall "wait_until_fallback" [AVal (EVar "old_val"); AVal (EVar "timeout"); AVal (ECall "Clock::now" []); AVal (EVar "order"); ARef "timed_out"])] |};
  {| pf_name := "wait_until_dispatch/true"; pf_cond := [("defined(BOOST_ATOMIC_DETAIL_FUTEX_WAIT_BITSET)", true)]; pf_params := [("old_val", TS, false); ("timeout", TO, false); ("order", TO, false); ("timed_out", TO, true)]; pf_lines := "D/wait_ops_futex.hpp 236-247";
     pf_body := [SReturn (ECall "wait_until_abs_timeout" [AVal (EVar "old_val"); AVal (EVar "timeout"); AVal (EVar "order"); ARef "timed_out"])] |};
  {| pf_name := "wait_until"; pf_cond := [("defined(BOOST_ATOMIC_DETAIL_FUTEX_WAIT_BITSET)", true)]; pf_params := [("old_val", TS, false); ("timeout", TO, false); ("order", TO, false); ("timed_out", TO, true)]; pf_lines := "D/wait_ops_futex.hpp 251-261";
     pf_body := [SReturn (EDispatch "wait_until_dispatch" "select_futex_wait" [AVal (EVar "old_val"); AVal (EVar "timeout"); AVal (EVar "order"); ARef "timed_out"])] |};
  {| pf_name := "wait_until"; pf_cond := [("defined(BOOST_ATOMIC_DETAIL_FUTEX_WAIT_BITSET)", false)]; pf_params := [("old_val", TS, false); ("timeout", TO, false); ("order", TO, false); ("timed_out", TO, true)]; pf_lines := "D/wait_ops_futex.hpp 267-277";
     pf_body := [SReturn (ECall "wait_until_fallback" [AVal (EVar "old_val"); AVal (EVar "timeout"); AVal (ECall "Clock::now" []); AVal (EVar "order"); ARef "timed_out"])] |};
  {| pf_name := "wait_for"; pf_cond := []; pf_params := [("old_val", TS, false); ("timeout", TO, false); ("order", TO, false); ("timed_out", TO, true)]; pf_lines := "D/wait_ops_futex.hpp 282-335";
     pf_body := [SIf (ETpl "defined(BOOST_ATOMIC_DETAIL_FUTEX_WAIT_BITSET) && defined(_POSIX_MONOTONIC_CLOCK) && (_POSIX_MONOTONIC_CLOCK >= 0)") [SIf (EBin OGe (EVar "timeout") (ENum 0)) [SInit TO "now" (ENum 0); SIf (EBin OEq (ECall "clock_gettime" [AVal (ETpl "clock_id"); ARef "now"]) (ENum 0)) [SInit TO "nsec" (EBin OAdd (ECast TO (ENsec (EVar "now"))) (ECall "ceil" [AVal (EVar "timeout")])); SInit TO "sec" (EBin OAdd (ECast TO (ESec (EVar "now"))) (EBin ODiv (EVar "nsec") (ENum 1000000000))); SIf (ECall "fits tv_sec" [AVal (EVar "sec")]) [SInit TO "ts.tv_sec" (ENum 0); SInit TO "ts.tv_nsec" (ENum 0); SSet "ts.tv_sec" (ECast TO (EVar "sec")); SSet "ts.tv_nsec" (ECast TO (EBin OMod (EVar "nsec") (ENum 1000000000))); SInit TS "new_val" (ECall "base_type::load" [AVal (EVar "order")]); SWhile (EBin OEq (EVar "new_val") (EVar "old_val")) [SInit TO "err" (ECall "futex_wait_until" [AVal (EAddr); AVal (EVar "old_val"); AVal (ECall "futex_timespec" [AVal (EVar "ts.tv_sec"); AVal (EVar "ts.tv_nsec")]); AVal (ETpl "futex_private_flag")]); SIf (EBin OLt (EVar "err") (ENum 0)) [SSet "err" (EVar "errno"); SIf (EBin OEq (EVar "err") (EErr "ETIMEDOUT")) [SSet "new_val" (ECall "base_type::load" [AVal (EVar "order")]); SSet "timed_out" (EBin OEq (EVar "new_val") (EVar "old_val")); SBreak] []; SIf (EBin OEq (EVar "err") (EErr "ENOSYS")) [SGoto "use_wait_until_fallback"] []] []; SSet "new_val" (ECall "base_type::load" [AVal (EVar "order")])]; SReturn (EVar "new_val")] []] []] []; SLabel "use_wait_until_fallback"] []; SInit TO "now" (ECall "steady_clock::now" []); SReturn (ECall "wait_until_fallback" [AVal (EVar "old_val"); AVal (EBin OAdd (EVar "now") (EVar "timeout")); AVal (EVar "now"); AVal (EVar "order"); ARef "timed_out"])] |}
].


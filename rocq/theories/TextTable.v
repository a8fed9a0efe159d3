(** * The function bodies of the portable layers.

    Written by tools/extract_text.py from the headers of Boost.Atomic; do not edit. *)
From Coq Require Import ZArith List String.
From Verif Require Import Order TextModel.
Import ListNotations.
Open Scope string_scope.
Open Scope list_scope.
Open Scope Z_scope.

(** detail/core_ops_gcc_atomic.hpp:54 core_operations_gcc_atomic *)
Definition core_ops_gcc_atomic_54 : cls := Cls "detail/core_ops_gcc_atomic.hpp" 54 "core_operations_gcc_atomic" [] [
  Fn 69 TVoid "store" [Par "v" TStorage false None; Par "order" TOrder false None] None
    [SConf "defined(BOOST_GCC) && BOOST_GCC < 100100 && (defined(__x86_64__) || defined(__i386__))" [SIf (EBin ONe (EVar "order") (EOrd SeqCst)) [SDo (ECall "" "__atomic_store_n" [ALoc; AVal (EVar "v"); AVal (EVar "order")])] [SDo (ECall "" "__atomic_exchange_n" [ALoc; AVal (EVar "v"); AVal (EOrd SeqCst)])]] [SDo (ECall "" "__atomic_store_n" [ALoc; AVal (EVar "v"); AVal (EVar "order")])]];
  Fn 82 TStorage "load" [Par "order" TOrder false None] None
    [SConf "defined(BOOST_ATOMIC_DETAIL_AARCH64_HAS_RCPC) && !((defined(BOOST_GCC) && BOOST_GCC >= 130100) || (defined(BOOST_CLANG) && BOOST_CLANG_VERSION >= 160000))" [SReturn (ECall "core_arch_operations" "load" [ALoc; AVal (EVar "order")])] [SReturn (ECall "" "__atomic_load_n" [ALoc; AVal (EVar "order")])]];
  Fn 95 TStorage "fetch_add" [Par "v" TStorage false None; Par "order" TOrder false None] None
    [SReturn (ECall "" "__atomic_fetch_add" [ALoc; AVal (EVar "v"); AVal (EVar "order")])];
  Fn 100 TStorage "fetch_sub" [Par "v" TStorage false None; Par "order" TOrder false None] None
    [SReturn (ECall "" "__atomic_fetch_sub" [ALoc; AVal (EVar "v"); AVal (EVar "order")])];
  Fn 105 TStorage "exchange" [Par "v" TStorage false None; Par "order" TOrder false None] None
    [SReturn (ECall "" "__atomic_exchange_n" [ALoc; AVal (EVar "v"); AVal (EVar "order")])];
  Fn 110 TBool "compare_exchange_strong" [Par "expected" TStorage true None; Par "desired" TStorage false None; Par "success_order" TOrder false None; Par "failure_order" TOrder false None] None
    [SReturn (ECall "" "__atomic_compare_exchange_n" [ALoc; ARef "expected"; AVal (EVar "desired"); AVal (EBool false); AVal (EVar "success_order"); AVal (EVar "failure_order")])];
  Fn 121 TBool "compare_exchange_weak" [Par "expected" TStorage true None; Par "desired" TStorage false None; Par "success_order" TOrder false None; Par "failure_order" TOrder false None] None
    [SReturn (ECall "" "__atomic_compare_exchange_n" [ALoc; ARef "expected"; AVal (EVar "desired"); AVal (EBool true); AVal (EVar "success_order"); AVal (EVar "failure_order")])];
  Fn 132 TStorage "fetch_and" [Par "v" TStorage false None; Par "order" TOrder false None] None
    [SReturn (ECall "" "__atomic_fetch_and" [ALoc; AVal (EVar "v"); AVal (EVar "order")])];
  Fn 137 TStorage "fetch_or" [Par "v" TStorage false None; Par "order" TOrder false None] None
    [SReturn (ECall "" "__atomic_fetch_or" [ALoc; AVal (EVar "v"); AVal (EVar "order")])];
  Fn 142 TStorage "fetch_xor" [Par "v" TStorage false None; Par "order" TOrder false None] None
    [SReturn (ECall "" "__atomic_fetch_xor" [ALoc; AVal (EVar "v"); AVal (EVar "order")])];
  Fn 147 TBool "test_and_set" [Par "order" TOrder false None] None
    [SReturn (ECall "" "__atomic_test_and_set" [ALoc; AVal (EVar "order")])];
  Fn 152 TVoid "clear" [Par "order" TOrder false None] None
    [SDo (ECall "" "__atomic_clear" [ALoc; AVal (EVar "order")])]
].

(** detail/core_ops_gcc_sync.hpp:62 core_operations_gcc_sync *)
Definition core_ops_gcc_sync_62 : cls := Cls "detail/core_ops_gcc_sync.hpp" 62 "core_operations_gcc_sync" [] [
  Fn 79 TVoid "store" [Par "v" TStorage false None; Par "order" TOrder false None] (Some true)
    [SFence; SStore (EVar "v"); SFence];
  Fn 86 TVoid "store" [Par "v" TStorage false None; Par "order" TOrder false None] (Some false)
    [SDo (ECall "" "exchange" [ALoc; AVal (EVar "v"); AVal (EVar "order")])];
  Fn 91 TStorage "load" [Par "order" TOrder false None] (Some true)
    [SInit TStorage "v" (EStorage); SFence; SReturn (EVar "v")];
  Fn 98 TStorage "load" [Par "" TOrder false None] (Some false)
    [SInit TStorage "expected" (EZero); SInit TStorage "desired" (EVar "expected"); SReturn (ECall "" "__sync_val_compare_and_swap" [ALoc; AVal (EVar "expected"); AVal (EVar "desired")])];
  Fn 108 TVoid "store" [Par "v" TStorage false None; Par "order" TOrder false None] None
    [SDo (ECall "" "store" [ALoc; AVal (EVar "v"); AVal (EVar "order"); ATag "plain_stores_loads_are_atomic"])];
  Fn 113 TStorage "load" [Par "order" TOrder false None] None
    [SReturn (ECall "" "load" [ALoc; AVal (EVar "order"); ATag "plain_stores_loads_are_atomic"])];
  Fn 118 TStorage "fetch_add" [Par "v" TStorage false None; Par "" TOrder false None] None
    [SReturn (ECall "" "__sync_fetch_and_add" [ALoc; AVal (EVar "v")])];
  Fn 123 TStorage "fetch_sub" [Par "v" TStorage false None; Par "" TOrder false None] None
    [SReturn (ECall "" "__sync_fetch_and_sub" [ALoc; AVal (EVar "v")])];
  Fn 128 TStorage "exchange" [Par "v" TStorage false None; Par "order" TOrder false None] None
    [SFence; SReturn (ECall "" "__sync_lock_test_and_set" [ALoc; AVal (EVar "v")])];
  Fn 138 TBool "compare_exchange_strong" [Par "expected" TStorage true None; Par "desired" TStorage false None; Par "" TOrder false None; Par "" TOrder false None] None
    [SInit TStorage "expected2" (EVar "expected"); SInit TStorage "old_val" (ECall "" "__sync_val_compare_and_swap" [ALoc; AVal (EVar "expected2"); AVal (EVar "desired")]); SIf (EBin OEq (EVar "old_val") (EVar "expected2")) [SReturn (EBool true)] [SSet "expected" (EVar "old_val"); SReturn (EBool false)]];
  Fn 155 TBool "compare_exchange_weak" [Par "expected" TStorage true None; Par "desired" TStorage false None; Par "success_order" TOrder false None; Par "failure_order" TOrder false None] None
    [SReturn (ECall "" "compare_exchange_strong" [ALoc; ARef "expected"; AVal (EVar "desired"); AVal (EVar "success_order"); AVal (EVar "failure_order")])];
  Fn 161 TStorage "fetch_and" [Par "v" TStorage false None; Par "" TOrder false None] None
    [SReturn (ECall "" "__sync_fetch_and_and" [ALoc; AVal (EVar "v")])];
  Fn 166 TStorage "fetch_or" [Par "v" TStorage false None; Par "" TOrder false None] None
    [SReturn (ECall "" "__sync_fetch_and_or" [ALoc; AVal (EVar "v")])];
  Fn 171 TStorage "fetch_xor" [Par "v" TStorage false None; Par "" TOrder false None] None
    [SReturn (ECall "" "__sync_fetch_and_xor" [ALoc; AVal (EVar "v")])];
  Fn 176 TBool "test_and_set" [Par "order" TOrder false None] None
    [SFence; SReturn (EUn UNot (EUn UNot (ECall "" "__sync_lock_test_and_set" [ALoc; AVal (ENum 1)])))];
  Fn 183 TVoid "clear" [Par "order" TOrder false None] None
    [SDo (ECall "" "__sync_lock_release" [ALoc]); SFence]
].

(** detail/core_ops_linux_arm.hpp:88 linux_arm_cas *)
Definition core_ops_linux_arm_88 : cls := Cls "detail/core_ops_linux_arm.hpp" 88 "linux_arm_cas" [] [
  Fn 98 TVoid "store" [Par "v" TStorage false None; Par "order" TOrder false None] None
    [SFence; SStore (EVar "v"); SFence];
  Fn 105 TStorage "load" [Par "order" TOrder false None] None
    [SInit TStorage "v" (EStorage); SFence; SReturn (EVar "v")];
  Fn 112 TBool "compare_exchange_strong" [Par "expected" TStorage true None; Par "desired" TStorage false None; Par "success_order" TOrder false None; Par "failure_order" TOrder false None] None
    [SWhile (EBool true) [SInit TStorage "tmp" (EVar "expected"); SIf (ECall "" "compare_exchange_weak" [ALoc; ARef "tmp"; AVal (EVar "desired"); AVal (EVar "success_order"); AVal (EVar "failure_order")]) [SReturn (EBool true)] []; SIf (EBin ONe (EVar "tmp") (EVar "expected")) [SSet "expected" (EVar "tmp"); SReturn (EBool false)] []]];
  Fn 128 TBool "compare_exchange_weak" [Par "expected" TStorage true None; Par "desired" TStorage false None; Par "" TOrder false None; Par "" TOrder false None] None
    [SIf (EBin OEq (ECall "" "kernel_cmpxchg32" [AVal (EVar "expected"); AVal (EVar "desired"); ALoc]) (ENum 0)) [SReturn (EBool true)] [SSet "expected" (EStorage); SReturn (EBool false)]]
].

(** detail/core_ops_windows.hpp:62 core_operations_windows *)
Definition core_ops_windows_62 : cls := Cls "detail/core_ops_windows.hpp" 62 "core_operations_windows" [] [
  Fn 72 TVoid "store" [Par "v" TStorage false None; Par "order" TOrder false None] None
    [SDo (ECall "Derived" "exchange" [ALoc; AVal (EVar "v"); AVal (EVar "order")])];
  Fn 77 TStorage "load" [Par "order" TOrder false None] None
    [SReturn (ECall "Derived" "fetch_add" [ALoc; AVal (ECast CStatic TStorage (ENum 0)); AVal (EVar "order")])];
  Fn 82 TStorage "fetch_sub" [Par "v" TStorage false None; Par "order" TOrder false None] None
    [SReturn (ECall "Derived" "fetch_add" [ALoc; AVal (ECast CStatic TStorage (EUn UNeg (ECast CStatic TSigned (EVar "v")))); AVal (EVar "order")])];
  Fn 88 TBool "compare_exchange_weak" [Par "expected" TStorage true None; Par "desired" TStorage false None; Par "success_order" TOrder false None; Par "failure_order" TOrder false None] None
    [SReturn (ECall "Derived" "compare_exchange_strong" [ALoc; ARef "expected"; AVal (EVar "desired"); AVal (EVar "success_order"); AVal (EVar "failure_order")])];
  Fn 94 TBool "test_and_set" [Par "order" TOrder false None] None
    [SReturn (EUn UNot (EUn UNot (ECall "Derived" "exchange" [ALoc; AVal (ECast CStatic TStorage (ENum 1)); AVal (EVar "order")])))];
  Fn 99 TVoid "clear" [Par "order" TOrder false None] None
    [SDo (ECall "" "store" [ALoc; AVal (ECast CStatic TStorage (ENum 0)); AVal (EVar "order")])]
].

(** detail/core_ops_windows.hpp:106 core_operations < 4u , Signed , bool Interprocess > *)
Definition core_ops_windows_106 : cls := Cls "detail/core_ops_windows.hpp" 106 "core_operations < 4u , Signed , bool Interprocess >" [] [
  Fn 112 TStorage "fetch_add" [Par "v" TStorage false None; Par "order" TOrder false None] None
    [SFence; SSet "v" (ECast CStatic TStorage (ECall "" "BOOST_ATOMIC_INTERLOCKED_EXCHANGE_ADD" [ALoc; AVal (EVar "v")])); SFence; SReturn (EVar "v")];
  Fn 120 TStorage "exchange" [Par "v" TStorage false None; Par "order" TOrder false None] None
    [SFence; SSet "v" (ECast CStatic TStorage (ECall "" "BOOST_ATOMIC_INTERLOCKED_EXCHANGE" [ALoc; AVal (EVar "v")])); SFence; SReturn (EVar "v")];
  Fn 128 TBool "compare_exchange_strong" [Par "expected" TStorage true None; Par "desired" TStorage false None; Par "success_order" TOrder false None; Par "failure_order" TOrder false None] None
    [SInit TStorage "previous" (EVar "expected"); SFence; SInit TStorage "old_val" (ECast CStatic TStorage (ECall "" "BOOST_ATOMIC_INTERLOCKED_COMPARE_EXCHANGE" [ALoc; AVal (EVar "desired"); AVal (EVar "previous")])); SSet "expected" (EVar "old_val"); SFence; SReturn (EBin OEq (EVar "previous") (EVar "old_val"))];
  Fn 140 TStorage "fetch_and" [Par "v" TStorage false None; Par "order" TOrder false None] None
    [SConf "defined(BOOST_ATOMIC_INTERLOCKED_AND)" [SFence; SSet "v" (ECast CStatic TStorage (ECall "" "BOOST_ATOMIC_INTERLOCKED_AND" [ALoc; AVal (EVar "v")])); SFence; SReturn (EVar "v")] [SInit TStorage "res" (EStorage); SWhile (EUn UNot (ECall "" "compare_exchange_strong" [ALoc; ARef "res"; AVal (EBin OAnd (EVar "res") (EVar "v")); AVal (EVar "order"); AVal (EOrd Relaxed)])) []; SReturn (EVar "res")]];
  Fn 154 TStorage "fetch_or" [Par "v" TStorage false None; Par "order" TOrder false None] None
    [SConf "defined(BOOST_ATOMIC_INTERLOCKED_OR)" [SFence; SSet "v" (ECast CStatic TStorage (ECall "" "BOOST_ATOMIC_INTERLOCKED_OR" [ALoc; AVal (EVar "v")])); SFence; SReturn (EVar "v")] [SInit TStorage "res" (EStorage); SWhile (EUn UNot (ECall "" "compare_exchange_strong" [ALoc; ARef "res"; AVal (EBin OOr (EVar "res") (EVar "v")); AVal (EVar "order"); AVal (EOrd Relaxed)])) []; SReturn (EVar "res")]];
  Fn 168 TStorage "fetch_xor" [Par "v" TStorage false None; Par "order" TOrder false None] None
    [SConf "defined(BOOST_ATOMIC_INTERLOCKED_XOR)" [SFence; SSet "v" (ECast CStatic TStorage (ECall "" "BOOST_ATOMIC_INTERLOCKED_XOR" [ALoc; AVal (EVar "v")])); SFence; SReturn (EVar "v")] [SInit TStorage "res" (EStorage); SWhile (EUn UNot (ECall "" "compare_exchange_strong" [ALoc; ARef "res"; AVal (EBin OXor (EVar "res") (EVar "v")); AVal (EVar "order"); AVal (EOrd Relaxed)])) []; SReturn (EVar "res")]]
].

(** detail/cas_based_exchange.hpp:30 cas_based_exchange *)
Definition cas_based_exchange_30 : cls := Cls "detail/cas_based_exchange.hpp" 30 "cas_based_exchange" [] [
  Fn 35 TStorage "exchange" [Par "v" TStorage false None; Par "order" TOrder false None] None
    [SDecl TStorage "old_val"; SPlain "old_val"; SWhile (EUn UNot (ECall "Base" "compare_exchange_weak" [ALoc; ARef "old_val"; AVal (EVar "v"); AVal (EVar "order"); AVal (EOrd Relaxed)])) []; SReturn (EVar "old_val")]
].

(** detail/core_ops_cas_based.hpp:30 core_operations_cas_based *)
Definition core_ops_cas_based_30 : cls := Cls "detail/core_ops_cas_based.hpp" 30 "core_operations_cas_based" [] [
  Fn 37 TStorage "fetch_add" [Par "v" TStorage false None; Par "order" TOrder false None] None
    [SDecl TStorage "old_val"; SPlain "old_val"; SWhile (EUn UNot (ECall "Base" "compare_exchange_weak" [ALoc; ARef "old_val"; AVal (EBin OAdd (EVar "old_val") (EVar "v")); AVal (EVar "order"); AVal (EOrd Relaxed)])) []; SReturn (EVar "old_val")];
  Fn 45 TStorage "fetch_sub" [Par "v" TStorage false None; Par "order" TOrder false None] None
    [SDecl TStorage "old_val"; SPlain "old_val"; SWhile (EUn UNot (ECall "Base" "compare_exchange_weak" [ALoc; ARef "old_val"; AVal (EBin OSub (EVar "old_val") (EVar "v")); AVal (EVar "order"); AVal (EOrd Relaxed)])) []; SReturn (EVar "old_val")];
  Fn 53 TStorage "fetch_and" [Par "v" TStorage false None; Par "order" TOrder false None] None
    [SDecl TStorage "old_val"; SPlain "old_val"; SWhile (EUn UNot (ECall "Base" "compare_exchange_weak" [ALoc; ARef "old_val"; AVal (EBin OAnd (EVar "old_val") (EVar "v")); AVal (EVar "order"); AVal (EOrd Relaxed)])) []; SReturn (EVar "old_val")];
  Fn 61 TStorage "fetch_or" [Par "v" TStorage false None; Par "order" TOrder false None] None
    [SDecl TStorage "old_val"; SPlain "old_val"; SWhile (EUn UNot (ECall "Base" "compare_exchange_weak" [ALoc; ARef "old_val"; AVal (EBin OOr (EVar "old_val") (EVar "v")); AVal (EVar "order"); AVal (EOrd Relaxed)])) []; SReturn (EVar "old_val")];
  Fn 69 TStorage "fetch_xor" [Par "v" TStorage false None; Par "order" TOrder false None] None
    [SDecl TStorage "old_val"; SPlain "old_val"; SWhile (EUn UNot (ECall "Base" "compare_exchange_weak" [ALoc; ARef "old_val"; AVal (EBin OXor (EVar "old_val") (EVar "v")); AVal (EVar "order"); AVal (EOrd Relaxed)])) []; SReturn (EVar "old_val")];
  Fn 77 TBool "test_and_set" [Par "order" TOrder false None] None
    [SReturn (EUn UNot (EUn UNot (ECall "Base" "exchange" [ALoc; AVal (ECast CStatic TStorage (ENum 1)); AVal (EVar "order")])))];
  Fn 82 TVoid "clear" [Par "order" TOrder false None] None
    [SDo (ECall "Base" "store" [ALoc; AVal (ECast CStatic TStorage (ENum 0)); AVal (EVar "order")])]
].

(** detail/extending_cas_based_arithmetic.hpp:33 extending_cas_based_arithmetic *)
Definition extending_cas_based_arithmetic_33 : cls := Cls "detail/extending_cas_based_arithmetic.hpp" 33 "extending_cas_based_arithmetic" [] [
  Fn 39 TStorage "fetch_add" [Par "v" TStorage false None; Par "order" TOrder false None] None
    [SDecl TStorage "old_val"; SPlain "old_val"; SDecl TStorage "new_val"; SDoWhile [SSet "new_val" (ECast CExtend TStorage (ECast CStatic TEmul (EBin OAdd (EVar "old_val") (EVar "v"))))] (EUn UNot (ECall "Base" "compare_exchange_weak" [ALoc; ARef "old_val"; AVal (EVar "new_val"); AVal (EVar "order"); AVal (EOrd Relaxed)])); SReturn (EVar "old_val")];
  Fn 52 TStorage "fetch_sub" [Par "v" TStorage false None; Par "order" TOrder false None] None
    [SDecl TStorage "old_val"; SPlain "old_val"; SDecl TStorage "new_val"; SDoWhile [SSet "new_val" (ECast CExtend TStorage (ECast CStatic TEmul (EBin OSub (EVar "old_val") (EVar "v"))))] (EUn UNot (ECall "Base" "compare_exchange_weak" [ALoc; ARef "old_val"; AVal (EVar "new_val"); AVal (EVar "order"); AVal (EOrd Relaxed)])); SReturn (EVar "old_val")]
].

(** detail/extra_ops_generic.hpp:35 extra_operations_generic *)
Definition extra_ops_generic_35 : cls := Cls "detail/extra_ops_generic.hpp" 35 "extra_operations_generic" [] [
  Fn 42 TStorage "fetch_negate" [Par "order" TOrder false None] None
    [SDecl TStorage "old_val"; SPlain "old_val"; SWhile (EUn UNot (ECall "base_type" "compare_exchange_weak" [ALoc; ARef "old_val"; AVal (ECast CExtend TStorage (ECast CStatic TEmul (EUn UNeg (EVar "old_val")))); AVal (EVar "order"); AVal (EOrd Relaxed)])) []; SReturn (EVar "old_val")];
  Fn 53 TStorage "negate" [Par "order" TOrder false None] None
    [SDecl TStorage "old_val"; SDecl TStorage "new_val"; SPlain "old_val"; SDoWhile [SSet "new_val" (ECast CExtend TStorage (ECast CStatic TEmul (EUn UNeg (EVar "old_val"))))] (EUn UNot (ECall "base_type" "compare_exchange_weak" [ALoc; ARef "old_val"; AVal (EVar "new_val"); AVal (EVar "order"); AVal (EOrd Relaxed)])); SReturn (EVar "new_val")];
  Fn 65 TStorage "add" [Par "v" TStorage false None; Par "order" TOrder false None] None
    [SReturn (EBin OAdd (ECall "base_type" "fetch_add" [ALoc; AVal (EVar "v"); AVal (EVar "order")]) (EVar "v"))];
  Fn 70 TStorage "sub" [Par "v" TStorage false None; Par "order" TOrder false None] None
    [SReturn (EBin OSub (ECall "base_type" "fetch_sub" [ALoc; AVal (EVar "v"); AVal (EVar "order")]) (EVar "v"))];
  Fn 75 TStorage "bitwise_and" [Par "v" TStorage false None; Par "order" TOrder false None] None
    [SReturn (EBin OAnd (ECall "base_type" "fetch_and" [ALoc; AVal (EVar "v"); AVal (EVar "order")]) (EVar "v"))];
  Fn 80 TStorage "bitwise_or" [Par "v" TStorage false None; Par "order" TOrder false None] None
    [SReturn (EBin OOr (ECall "base_type" "fetch_or" [ALoc; AVal (EVar "v"); AVal (EVar "order")]) (EVar "v"))];
  Fn 85 TStorage "bitwise_xor" [Par "v" TStorage false None; Par "order" TOrder false None] None
    [SReturn (EBin OXor (ECall "base_type" "fetch_xor" [ALoc; AVal (EVar "v"); AVal (EVar "order")]) (EVar "v"))];
  Fn 90 TStorage "fetch_complement" [Par "order" TOrder false None] None
    [SReturn (ECall "base_type" "fetch_xor" [ALoc; AVal (ECast CExtend TStorage (ECast CStatic TEmul (EUn UCompl (ECast CStatic TEmul (ENum 0))))); AVal (EVar "order")])];
  Fn 96 TStorage "bitwise_complement" [Par "order" TOrder false None] None
    [SInit TStorage "mask" (ECast CExtend TStorage (ECast CStatic TEmul (EUn UCompl (ECast CStatic TEmul (ENum 0))))); SReturn (EBin OXor (ECall "base_type" "fetch_xor" [ALoc; AVal (EVar "mask"); AVal (EVar "order")]) (EVar "mask"))];
  Fn 103 TVoid "opaque_add" [Par "v" TStorage false None; Par "order" TOrder false None] None
    [SDo (ECall "base_type" "fetch_add" [ALoc; AVal (EVar "v"); AVal (EVar "order")])];
  Fn 108 TVoid "opaque_sub" [Par "v" TStorage false None; Par "order" TOrder false None] None
    [SDo (ECall "base_type" "fetch_sub" [ALoc; AVal (EVar "v"); AVal (EVar "order")])];
  Fn 113 TVoid "opaque_negate" [Par "order" TOrder false None] None
    [SDo (ECall "" "fetch_negate" [ALoc; AVal (EVar "order")])];
  Fn 118 TVoid "opaque_and" [Par "v" TStorage false None; Par "order" TOrder false None] None
    [SDo (ECall "base_type" "fetch_and" [ALoc; AVal (EVar "v"); AVal (EVar "order")])];
  Fn 123 TVoid "opaque_or" [Par "v" TStorage false None; Par "order" TOrder false None] None
    [SDo (ECall "base_type" "fetch_or" [ALoc; AVal (EVar "v"); AVal (EVar "order")])];
  Fn 128 TVoid "opaque_xor" [Par "v" TStorage false None; Par "order" TOrder false None] None
    [SDo (ECall "base_type" "fetch_xor" [ALoc; AVal (EVar "v"); AVal (EVar "order")])];
  Fn 133 TVoid "opaque_complement" [Par "order" TOrder false None] None
    [SDo (ECall "" "fetch_complement" [ALoc; AVal (EVar "order")])];
  Fn 138 TBool "add_and_test" [Par "v" TStorage false None; Par "order" TOrder false None] None
    [SReturn (EUn UNot (EUn UNot (ECast CStatic TEmul (ECall "" "add" [ALoc; AVal (EVar "v"); AVal (EVar "order")]))))];
  Fn 143 TBool "sub_and_test" [Par "v" TStorage false None; Par "order" TOrder false None] None
    [SReturn (EUn UNot (EUn UNot (ECast CStatic TEmul (ECall "" "sub" [ALoc; AVal (EVar "v"); AVal (EVar "order")]))))];
  Fn 148 TBool "negate_and_test" [Par "order" TOrder false None] None
    [SReturn (EUn UNot (EUn UNot (ECall "" "negate" [ALoc; AVal (EVar "order")])))];
  Fn 153 TBool "and_and_test" [Par "v" TStorage false None; Par "order" TOrder false None] None
    [SReturn (EUn UNot (EUn UNot (ECall "" "bitwise_and" [ALoc; AVal (EVar "v"); AVal (EVar "order")])))];
  Fn 158 TBool "or_and_test" [Par "v" TStorage false None; Par "order" TOrder false None] None
    [SReturn (EUn UNot (EUn UNot (ECall "" "bitwise_or" [ALoc; AVal (EVar "v"); AVal (EVar "order")])))];
  Fn 163 TBool "xor_and_test" [Par "v" TStorage false None; Par "order" TOrder false None] None
    [SReturn (EUn UNot (EUn UNot (ECall "" "bitwise_xor" [ALoc; AVal (EVar "v"); AVal (EVar "order")])))];
  Fn 168 TBool "complement_and_test" [Par "order" TOrder false None] None
    [SReturn (EUn UNot (EUn UNot (ECast CStatic TEmul (ECall "" "bitwise_complement" [ALoc; AVal (EVar "order")]))))];
  Fn 173 TBool "bit_test_and_set" [Par "bit_number" TUInt false None; Par "order" TOrder false None] None
    [SInit TStorage "mask" (ECast CExtend TStorage (ECast CStatic TEmul (EBin OShl (ECast CStatic TEmul (ENum 1)) (EVar "bit_number")))); SInit TStorage "old_val" (ECall "base_type" "fetch_or" [ALoc; AVal (EVar "mask"); AVal (EVar "order")]); SReturn (EUn UNot (EUn UNot (EBin OAnd (EVar "old_val") (EVar "mask"))))];
  Fn 181 TBool "bit_test_and_reset" [Par "bit_number" TUInt false None; Par "order" TOrder false None] None
    [SInit TStorage "mask" (ECast CExtend TStorage (ECast CStatic TEmul (EBin OShl (ECast CStatic TEmul (ENum 1)) (EVar "bit_number")))); SInit TStorage "old_val" (ECall "base_type" "fetch_and" [ALoc; AVal (EUn UCompl (EVar "mask")); AVal (EVar "order")]); SReturn (EUn UNot (EUn UNot (EBin OAnd (EVar "old_val") (EVar "mask"))))];
  Fn 189 TBool "bit_test_and_complement" [Par "bit_number" TUInt false None; Par "order" TOrder false None] None
    [SInit TStorage "mask" (ECast CExtend TStorage (ECast CStatic TEmul (EBin OShl (ECast CStatic TEmul (ENum 1)) (EVar "bit_number")))); SInit TStorage "old_val" (ECall "base_type" "fetch_xor" [ALoc; AVal (EVar "mask"); AVal (EVar "order")]); SReturn (EUn UNot (EUn UNot (EBin OAnd (EVar "old_val") (EVar "mask"))))]
].

(** detail/extra_ops_generic.hpp:200 extra_operations_generic < Base , Size , Signed , true > *)
Definition extra_ops_generic_200 : cls := Cls "detail/extra_ops_generic.hpp" 200 "extra_operations_generic < Base , Size , Signed , true >" [] [
  Fn 207 TStorage "fetch_negate" [Par "order" TOrder false None] None
    [SDecl TStorage "old_val"; SPlain "old_val"; SWhile (EUn UNot (ECall "base_type" "compare_exchange_weak" [ALoc; ARef "old_val"; AVal (ECast CExtend TStorage (ECast CStatic TEmul (EUn UNeg (EVar "old_val")))); AVal (EVar "order"); AVal (EOrd Relaxed)])) []; SReturn (EVar "old_val")];
  Fn 218 TStorage "negate" [Par "order" TOrder false None] None
    [SDecl TStorage "old_val"; SDecl TStorage "new_val"; SPlain "old_val"; SDoWhile [SSet "new_val" (ECast CExtend TStorage (ECast CStatic TEmul (EUn UNeg (EVar "old_val"))))] (EUn UNot (ECall "base_type" "compare_exchange_weak" [ALoc; ARef "old_val"; AVal (EVar "new_val"); AVal (EVar "order"); AVal (EOrd Relaxed)])); SReturn (EVar "new_val")];
  Fn 230 TStorage "add" [Par "v" TStorage false None; Par "order" TOrder false None] None
    [SDecl TStorage "old_val"; SDecl TStorage "new_val"; SPlain "old_val"; SDoWhile [SSet "new_val" (ECast CExtend TStorage (ECast CStatic TEmul (EBin OAdd (EVar "old_val") (EVar "v"))))] (EUn UNot (ECall "base_type" "compare_exchange_weak" [ALoc; ARef "old_val"; AVal (EVar "new_val"); AVal (EVar "order"); AVal (EOrd Relaxed)])); SReturn (EVar "new_val")];
  Fn 242 TStorage "sub" [Par "v" TStorage false None; Par "order" TOrder false None] None
    [SDecl TStorage "old_val"; SDecl TStorage "new_val"; SPlain "old_val"; SDoWhile [SSet "new_val" (ECast CExtend TStorage (ECast CStatic TEmul (EBin OSub (EVar "old_val") (EVar "v"))))] (EUn UNot (ECall "base_type" "compare_exchange_weak" [ALoc; ARef "old_val"; AVal (EVar "new_val"); AVal (EVar "order"); AVal (EOrd Relaxed)])); SReturn (EVar "new_val")];
  Fn 254 TStorage "bitwise_and" [Par "v" TStorage false None; Par "order" TOrder false None] None
    [SDecl TStorage "old_val"; SDecl TStorage "new_val"; SPlain "old_val"; SDoWhile [SSet "new_val" (ECast CExtend TStorage (ECast CStatic TEmul (EBin OAnd (EVar "old_val") (EVar "v"))))] (EUn UNot (ECall "base_type" "compare_exchange_weak" [ALoc; ARef "old_val"; AVal (EVar "new_val"); AVal (EVar "order"); AVal (EOrd Relaxed)])); SReturn (EVar "new_val")];
  Fn 266 TStorage "bitwise_or" [Par "v" TStorage false None; Par "order" TOrder false None] None
    [SDecl TStorage "old_val"; SDecl TStorage "new_val"; SPlain "old_val"; SDoWhile [SSet "new_val" (ECast CExtend TStorage (ECast CStatic TEmul (EBin OOr (EVar "old_val") (EVar "v"))))] (EUn UNot (ECall "base_type" "compare_exchange_weak" [ALoc; ARef "old_val"; AVal (EVar "new_val"); AVal (EVar "order"); AVal (EOrd Relaxed)])); SReturn (EVar "new_val")];
  Fn 278 TStorage "bitwise_xor" [Par "v" TStorage false None; Par "order" TOrder false None] None
    [SDecl TStorage "old_val"; SDecl TStorage "new_val"; SPlain "old_val"; SDoWhile [SSet "new_val" (ECast CExtend TStorage (ECast CStatic TEmul (EBin OXor (EVar "old_val") (EVar "v"))))] (EUn UNot (ECall "base_type" "compare_exchange_weak" [ALoc; ARef "old_val"; AVal (EVar "new_val"); AVal (EVar "order"); AVal (EOrd Relaxed)])); SReturn (EVar "new_val")];
  Fn 290 TStorage "fetch_complement" [Par "order" TOrder false None] None
    [SReturn (ECall "base_type" "fetch_xor" [ALoc; AVal (ECast CExtend TStorage (ECast CStatic TEmul (EUn UCompl (ECast CStatic TEmul (ENum 0))))); AVal (EVar "order")])];
  Fn 296 TStorage "bitwise_complement" [Par "order" TOrder false None] None
    [SReturn (ECall "" "bitwise_xor" [ALoc; AVal (ECast CExtend TStorage (ECast CStatic TEmul (EUn UCompl (ECast CStatic TEmul (ENum 0))))); AVal (EVar "order")])];
  Fn 302 TVoid "opaque_add" [Par "v" TStorage false None; Par "order" TOrder false None] None
    [SDo (ECall "base_type" "fetch_add" [ALoc; AVal (EVar "v"); AVal (EVar "order")])];
  Fn 307 TVoid "opaque_sub" [Par "v" TStorage false None; Par "order" TOrder false None] None
    [SDo (ECall "base_type" "fetch_sub" [ALoc; AVal (EVar "v"); AVal (EVar "order")])];
  Fn 312 TVoid "opaque_negate" [Par "order" TOrder false None] None
    [SDo (ECall "" "fetch_negate" [ALoc; AVal (EVar "order")])];
  Fn 317 TVoid "opaque_and" [Par "v" TStorage false None; Par "order" TOrder false None] None
    [SDo (ECall "base_type" "fetch_and" [ALoc; AVal (EVar "v"); AVal (EVar "order")])];
  Fn 322 TVoid "opaque_or" [Par "v" TStorage false None; Par "order" TOrder false None] None
    [SDo (ECall "base_type" "fetch_or" [ALoc; AVal (EVar "v"); AVal (EVar "order")])];
  Fn 327 TVoid "opaque_xor" [Par "v" TStorage false None; Par "order" TOrder false None] None
    [SDo (ECall "base_type" "fetch_xor" [ALoc; AVal (EVar "v"); AVal (EVar "order")])];
  Fn 332 TVoid "opaque_complement" [Par "order" TOrder false None] None
    [SDo (ECall "" "fetch_complement" [ALoc; AVal (EVar "order")])];
  Fn 337 TBool "add_and_test" [Par "v" TStorage false None; Par "order" TOrder false None] None
    [SReturn (EUn UNot (EUn UNot (ECast CStatic TEmul (ECall "" "add" [ALoc; AVal (EVar "v"); AVal (EVar "order")]))))];
  Fn 342 TBool "sub_and_test" [Par "v" TStorage false None; Par "order" TOrder false None] None
    [SReturn (EUn UNot (EUn UNot (ECast CStatic TEmul (ECall "" "sub" [ALoc; AVal (EVar "v"); AVal (EVar "order")]))))];
  Fn 347 TBool "negate_and_test" [Par "order" TOrder false None] None
    [SReturn (EUn UNot (EUn UNot (ECall "" "negate" [ALoc; AVal (EVar "order")])))];
  Fn 352 TBool "and_and_test" [Par "v" TStorage false None; Par "order" TOrder false None] None
    [SReturn (EUn UNot (EUn UNot (ECall "" "bitwise_and" [ALoc; AVal (EVar "v"); AVal (EVar "order")])))];
  Fn 357 TBool "or_and_test" [Par "v" TStorage false None; Par "order" TOrder false None] None
    [SReturn (EUn UNot (EUn UNot (ECall "" "bitwise_or" [ALoc; AVal (EVar "v"); AVal (EVar "order")])))];
  Fn 362 TBool "xor_and_test" [Par "v" TStorage false None; Par "order" TOrder false None] None
    [SReturn (EUn UNot (EUn UNot (ECall "" "bitwise_xor" [ALoc; AVal (EVar "v"); AVal (EVar "order")])))];
  Fn 367 TBool "complement_and_test" [Par "order" TOrder false None] None
    [SReturn (EUn UNot (EUn UNot (ECast CStatic TEmul (ECall "" "bitwise_complement" [ALoc; AVal (EVar "order")]))))];
  Fn 372 TBool "bit_test_and_set" [Par "bit_number" TUInt false None; Par "order" TOrder false None] None
    [SInit TStorage "mask" (ECast CExtend TStorage (ECast CStatic TEmul (EBin OShl (ECast CStatic TEmul (ENum 1)) (EVar "bit_number")))); SInit TStorage "old_val" (ECall "base_type" "fetch_or" [ALoc; AVal (EVar "mask"); AVal (EVar "order")]); SReturn (EUn UNot (EUn UNot (EBin OAnd (EVar "old_val") (EVar "mask"))))];
  Fn 380 TBool "bit_test_and_reset" [Par "bit_number" TUInt false None; Par "order" TOrder false None] None
    [SInit TStorage "mask" (ECast CExtend TStorage (ECast CStatic TEmul (EBin OShl (ECast CStatic TEmul (ENum 1)) (EVar "bit_number")))); SInit TStorage "old_val" (ECall "base_type" "fetch_and" [ALoc; AVal (EUn UCompl (EVar "mask")); AVal (EVar "order")]); SReturn (EUn UNot (EUn UNot (EBin OAnd (EVar "old_val") (EVar "mask"))))];
  Fn 388 TBool "bit_test_and_complement" [Par "bit_number" TUInt false None; Par "order" TOrder false None] None
    [SInit TStorage "mask" (ECast CExtend TStorage (ECast CStatic TEmul (EBin OShl (ECast CStatic TEmul (ENum 1)) (EVar "bit_number")))); SInit TStorage "old_val" (ECall "base_type" "fetch_xor" [ALoc; AVal (EVar "mask"); AVal (EVar "order")]); SReturn (EUn UNot (EUn UNot (EBin OAnd (EVar "old_val") (EVar "mask"))))]
].

(** detail/fp_ops_generic.hpp:35 fp_operations_generic *)
Definition fp_ops_generic_35 : cls := Cls "detail/fp_ops_generic.hpp" 35 "fp_operations_generic" [] [
  Fn 42 TValue "fetch_add" [Par "v" TValue false None; Par "order" TOrder false None] None
    [SDecl TStorage "old_storage"; SDecl TStorage "new_storage"; SDecl TValue "old_val"; SDecl TValue "new_val"; SPlain "old_storage"; SDoWhile [SSet "old_val" (ECast CFpBits TValue (EVar "old_storage")); SSet "new_val" (EBin OAdd (EVar "old_val") (EVar "v")); SSet "new_storage" (ECast CFpBits TStorage (EVar "new_val"))] (EUn UNot (ECall "base_type" "compare_exchange_weak" [ALoc; ARef "old_storage"; AVal (EVar "new_storage"); AVal (EVar "order"); AVal (EOrd Relaxed)])); SReturn (EVar "old_val")];
  Fn 57 TValue "fetch_sub" [Par "v" TValue false None; Par "order" TOrder false None] None
    [SDecl TStorage "old_storage"; SDecl TStorage "new_storage"; SDecl TValue "old_val"; SDecl TValue "new_val"; SPlain "old_storage"; SDoWhile [SSet "old_val" (ECast CFpBits TValue (EVar "old_storage")); SSet "new_val" (EBin OSub (EVar "old_val") (EVar "v")); SSet "new_storage" (ECast CFpBits TStorage (EVar "new_val"))] (EUn UNot (ECall "base_type" "compare_exchange_weak" [ALoc; ARef "old_storage"; AVal (EVar "new_storage"); AVal (EVar "order"); AVal (EOrd Relaxed)])); SReturn (EVar "old_val")]
].

(** detail/extra_fp_ops_generic.hpp:50 extra_fp_negate_generic *)
Definition extra_fp_ops_generic_50 : cls := Cls "detail/extra_fp_ops_generic.hpp" 50 "extra_fp_negate_generic" [] [
  Fn 57 TValue "fetch_negate" [Par "order" TOrder false None] None
    [SDecl TStorage "old_storage"; SDecl TStorage "new_storage"; SDecl TValue "old_val"; SDecl TValue "new_val"; SPlain "old_storage"; SDoWhile [SSet "old_val" (ECast CFpBits TValue (EVar "old_storage")); SSet "new_val" (EUn UNeg (EVar "old_val")); SSet "new_storage" (ECast CFpBits TStorage (EVar "new_val"))] (EUn UNot (ECall "base_type" "compare_exchange_weak" [ALoc; ARef "old_storage"; AVal (EVar "new_storage"); AVal (EVar "order"); AVal (EOrd Relaxed)])); SReturn (EVar "old_val")];
  Fn 72 TValue "negate" [Par "order" TOrder false None] None
    [SDecl TStorage "old_storage"; SDecl TStorage "new_storage"; SDecl TValue "old_val"; SDecl TValue "new_val"; SPlain "old_storage"; SDoWhile [SSet "old_val" (ECast CFpBits TValue (EVar "old_storage")); SSet "new_val" (EUn UNeg (EVar "old_val")); SSet "new_storage" (ECast CFpBits TStorage (EVar "new_val"))] (EUn UNot (ECall "base_type" "compare_exchange_weak" [ALoc; ARef "old_storage"; AVal (EVar "new_storage"); AVal (EVar "order"); AVal (EOrd Relaxed)])); SReturn (EVar "new_val")];
  Fn 87 TVoid "opaque_negate" [Par "order" TOrder false None] None
    [SDo (ECall "" "fetch_negate" [ALoc; AVal (EVar "order")])]
].

(** detail/extra_fp_ops_generic.hpp:97 extra_fp_negate_generic < Base , Value , Size , true > *)
Definition extra_fp_ops_generic_97 : cls := Cls "detail/extra_fp_ops_generic.hpp" 97 "extra_fp_negate_generic < Base , Value , Size , true >" [SInit TStorage "sign_mask" (EBin OShl (ECast CStatic TStorage (ENum 1)) (EBin OSub (EBin OMul (EValueSize) (ENum 8)) (ENum 1)))] [
  Fn 107 TValue "fetch_negate" [Par "order" TOrder false None] None
    [SReturn (ECast CFpBits TValue (ECall "base_type" "fetch_xor" [ALoc; AVal (EVar "sign_mask"); AVal (EVar "order")]))];
  Fn 112 TValue "negate" [Par "order" TOrder false None] None
    [SReturn (ECast CFpBits TValue (ECall "base_type" "bitwise_xor" [ALoc; AVal (EVar "sign_mask"); AVal (EVar "order")]))];
  Fn 117 TVoid "opaque_negate" [Par "order" TOrder false None] None
    [SDo (ECall "base_type" "opaque_xor" [ALoc; AVal (EVar "sign_mask"); AVal (EVar "order")])]
].

(** detail/extra_fp_ops_generic.hpp:127 extra_fp_operations_generic *)
Definition extra_fp_ops_generic_127 : cls := Cls "detail/extra_fp_ops_generic.hpp" 127 "extra_fp_operations_generic" [] [
  Fn 134 TValue "add" [Par "v" TValue false None; Par "order" TOrder false None] None
    [SDecl TStorage "old_storage"; SDecl TStorage "new_storage"; SDecl TValue "old_val"; SDecl TValue "new_val"; SPlain "old_storage"; SDoWhile [SSet "old_val" (ECast CFpBits TValue (EVar "old_storage")); SSet "new_val" (EBin OAdd (EVar "old_val") (EVar "v")); SSet "new_storage" (ECast CFpBits TStorage (EVar "new_val"))] (EUn UNot (ECall "base_type" "compare_exchange_weak" [ALoc; ARef "old_storage"; AVal (EVar "new_storage"); AVal (EVar "order"); AVal (EOrd Relaxed)])); SReturn (EVar "new_val")];
  Fn 149 TValue "sub" [Par "v" TValue false None; Par "order" TOrder false None] None
    [SDecl TStorage "old_storage"; SDecl TStorage "new_storage"; SDecl TValue "old_val"; SDecl TValue "new_val"; SPlain "old_storage"; SDoWhile [SSet "old_val" (ECast CFpBits TValue (EVar "old_storage")); SSet "new_val" (EBin OSub (EVar "old_val") (EVar "v")); SSet "new_storage" (ECast CFpBits TStorage (EVar "new_val"))] (EUn UNot (ECall "base_type" "compare_exchange_weak" [ALoc; ARef "old_storage"; AVal (EVar "new_storage"); AVal (EVar "order"); AVal (EOrd Relaxed)])); SReturn (EVar "new_val")];
  Fn 164 TVoid "opaque_add" [Par "v" TValue false None; Par "order" TOrder false None] None
    [SDo (ECall "base_type" "fetch_add" [ALoc; AVal (EVar "v"); AVal (EVar "order")])];
  Fn 169 TVoid "opaque_sub" [Par "v" TValue false None; Par "order" TOrder false None] None
    [SDo (ECall "base_type" "fetch_sub" [ALoc; AVal (EVar "v"); AVal (EVar "order")])]
].

(** detail/atomic_impl.hpp:66 base_atomic_common *)
Definition atomic_impl_66 : cls := Cls "detail/atomic_impl.hpp" 66 "base_atomic_common" [] [
  Fn 90 TStorage "(constructor)" [] None
    [SReturn (EZero)];
  Fn 94 TStorage "(constructor)" [Par "v" TStorage false None] None
    [SReturn (EVar "v")]
].

(** detail/atomic_impl.hpp:145 base_atomic_generic < T , Interprocess , true > *)
Definition atomic_impl_145 : cls := Cls "detail/atomic_impl.hpp" 145 "base_atomic_generic < T , Interprocess , true >" [] [
  Fn 157 TStorage "(constructor)" [Par "v" TValue false None] None
    [SReturn (ECast CBits TStorage (EVar "v"))]
].

(** detail/atomic_impl.hpp:164 base_atomic_generic < T , Interprocess , false > *)
Definition atomic_impl_164 : cls := Cls "detail/atomic_impl.hpp" 164 "base_atomic_generic < T , Interprocess , false >" [] [
  Fn 178 TStorage "(constructor)" [Par "v" TValue false None] None
    [SReturn (ECast CBits TStorage (EVar "v"))]
].

(** detail/atomic_impl.hpp:190 base_atomic < T , void , Interprocess > *)
Definition atomic_impl_190 : cls := Cls "detail/atomic_impl.hpp" 190 "base_atomic < T , void , Interprocess >" [] [
  Fn 217 TStorage "(constructor)" [] None
    [SReturn (EZero)];
  Fn 221 TStorage "(constructor)" [Par "v" TValue false None] None
    [SReturn (ECall "base_type" "(constructor)" [AVal (EVar "v")])];
  Fn 228 TVoid "store" [Par "v" TValue false None; Par "order" TOrder false (Some SeqCst)] None
    [SDo (ECall "core_operations" "store" [ALoc; AVal (ECast CBits TStorage (EVar "v")); AVal (EVar "order")])];
  Fn 237 TValue "load" [Par "order" TOrder false (Some SeqCst)] None
    [SReturn (ECast CBits TValue (ECall "core_operations" "load" [ALoc; AVal (EVar "order")]))];
  Fn 245 TValue "exchange" [Par "v" TValue false None; Par "order" TOrder false (Some SeqCst)] None
    [SReturn (ECast CBits TValue (ECall "core_operations" "exchange" [ALoc; AVal (ECast CBits TStorage (EVar "v")); AVal (EVar "order")]))];
  Fn 250 TBool "compare_exchange_strong" [Par "expected" TValue true None; Par "desired" TValue false None; Par "success_order" TOrder false None; Par "failure_order" TOrder false None] None
    [SReturn (ECall "" "compare_exchange_strong_impl" [ARef "expected"; AVal (EVar "desired"); AVal (EVar "success_order"); AVal (EVar "failure_order"); ATag "cxchg_use_bitwise_cast"])];
  Fn 259 TBool "compare_exchange_strong" [Par "expected" TValue true None; Par "desired" TValue false None; Par "order" TOrder false (Some SeqCst)] None
    [SReturn (ECall "" "compare_exchange_strong" [ARef "expected"; AVal (EVar "desired"); AVal (EVar "order"); AVal (EFail (EVar "order"))])];
  Fn 264 TBool "compare_exchange_weak" [Par "expected" TValue true None; Par "desired" TValue false None; Par "success_order" TOrder false None; Par "failure_order" TOrder false None] None
    [SReturn (ECall "" "compare_exchange_weak_impl" [ARef "expected"; AVal (EVar "desired"); AVal (EVar "success_order"); AVal (EVar "failure_order"); ATag "cxchg_use_bitwise_cast"])];
  Fn 273 TBool "compare_exchange_weak" [Par "expected" TValue true None; Par "desired" TValue false None; Par "order" TOrder false (Some SeqCst)] None
    [SReturn (ECall "" "compare_exchange_weak" [ARef "expected"; AVal (EVar "desired"); AVal (EVar "order"); AVal (EFail (EVar "order"))])];
  Fn 278 TValue "wait" [Par "old_val" TValue false None; Par "order" TOrder false (Some SeqCst)] None
    [SReturn (ECast CBits TValue (ECall "wait_operations" "wait" [ALoc; AVal (ECast CBits TStorage (EVar "old_val")); AVal (EVar "order")]))];
  Fn 316 TBool "compare_exchange_strong_impl" [Par "expected" TValue true None; Par "desired" TValue false None; Par "success_order" TOrder false None; Par "failure_order" TOrder false None] (Some false)
    [SReturn (ECall "core_operations" "compare_exchange_strong" [ALoc; AReint "expected"; AVal (ECast CBits TStorage (EVar "desired")); AVal (EVar "success_order"); AVal (EVar "failure_order")])];
  Fn 323 TBool "compare_exchange_strong_impl" [Par "expected" TValue true None; Par "desired" TValue false None; Par "success_order" TOrder false None; Par "failure_order" TOrder false None] (Some true)
    [SInit TStorage "old_value" (ECast CBits TStorage (EVar "expected")); SInit TBool "res" (ECall "core_operations" "compare_exchange_strong" [ALoc; ARef "old_value"; AVal (ECast CBits TStorage (EVar "desired")); AVal (EVar "success_order"); AVal (EVar "failure_order")]); SSet "expected" (ECast CBits TValue (EVar "old_value")); SReturn (EVar "res")];
  Fn 333 TBool "compare_exchange_weak_impl" [Par "expected" TValue true None; Par "desired" TValue false None; Par "success_order" TOrder false None; Par "failure_order" TOrder false None] (Some false)
    [SReturn (ECall "core_operations" "compare_exchange_weak" [ALoc; AReint "expected"; AVal (ECast CBits TStorage (EVar "desired")); AVal (EVar "success_order"); AVal (EVar "failure_order")])];
  Fn 340 TBool "compare_exchange_weak_impl" [Par "expected" TValue true None; Par "desired" TValue false None; Par "success_order" TOrder false None; Par "failure_order" TOrder false None] (Some true)
    [SInit TStorage "old_value" (ECast CBits TStorage (EVar "expected")); SInit TBool "res" (ECall "core_operations" "compare_exchange_weak" [ALoc; ARef "old_value"; AVal (ECast CBits TStorage (EVar "desired")); AVal (EVar "success_order"); AVal (EVar "failure_order")]); SSet "expected" (ECast CBits TValue (EVar "old_value")); SReturn (EVar "res")]
].

(** detail/atomic_impl.hpp:353 base_atomic < T , const int , Interprocess > *)
Definition atomic_impl_353 : cls := Cls "detail/atomic_impl.hpp" 353 "base_atomic < T , const int , Interprocess >" [] [
  Fn 382 TStorage "(constructor)" [Par "v" TValue false None] None
    [SReturn (ECast CStatic TStorage (EVar "v"))];
  Fn 389 TVoid "store" [Par "v" TValue false None; Par "order" TOrder false (Some SeqCst)] None
    [SDo (ECall "core_operations" "store" [ALoc; AVal (ECast CStatic TStorage (EVar "v")); AVal (EVar "order")])];
  Fn 398 TValue "load" [Par "order" TOrder false (Some SeqCst)] None
    [SReturn (ECast CBits TValue (ECall "core_operations" "load" [ALoc; AVal (EVar "order")]))];
  Fn 406 TValue "exchange" [Par "v" TValue false None; Par "order" TOrder false (Some SeqCst)] None
    [SReturn (ECast CBits TValue (ECall "core_operations" "exchange" [ALoc; AVal (ECast CStatic TStorage (EVar "v")); AVal (EVar "order")]))];
  Fn 411 TBool "compare_exchange_strong" [Par "expected" TValue true None; Par "desired" TValue false None; Par "success_order" TOrder false None; Par "failure_order" TOrder false None] None
    [SReturn (ECall "" "compare_exchange_strong_impl" [ARef "expected"; AVal (EVar "desired"); AVal (EVar "success_order"); AVal (EVar "failure_order"); ATag "cxchg_use_bitwise_cast"])];
  Fn 420 TBool "compare_exchange_strong" [Par "expected" TValue true None; Par "desired" TValue false None; Par "order" TOrder false (Some SeqCst)] None
    [SReturn (ECall "" "compare_exchange_strong" [ARef "expected"; AVal (EVar "desired"); AVal (EVar "order"); AVal (EFail (EVar "order"))])];
  Fn 425 TBool "compare_exchange_weak" [Par "expected" TValue true None; Par "desired" TValue false None; Par "success_order" TOrder false None; Par "failure_order" TOrder false None] None
    [SReturn (ECall "" "compare_exchange_weak_impl" [ARef "expected"; AVal (EVar "desired"); AVal (EVar "success_order"); AVal (EVar "failure_order"); ATag "cxchg_use_bitwise_cast"])];
  Fn 434 TBool "compare_exchange_weak" [Par "expected" TValue true None; Par "desired" TValue false None; Par "order" TOrder false (Some SeqCst)] None
    [SReturn (ECall "" "compare_exchange_weak" [ARef "expected"; AVal (EVar "desired"); AVal (EVar "order"); AVal (EFail (EVar "order"))])];
  Fn 439 TValue "fetch_and" [Par "v" TValue false None; Par "order" TOrder false (Some SeqCst)] None
    [SReturn (ECast CBits TValue (ECall "core_operations" "fetch_and" [ALoc; AVal (ECast CStatic TStorage (EVar "v")); AVal (EVar "order")]))];
  Fn 444 TValue "fetch_or" [Par "v" TValue false None; Par "order" TOrder false (Some SeqCst)] None
    [SReturn (ECast CBits TValue (ECall "core_operations" "fetch_or" [ALoc; AVal (ECast CStatic TStorage (EVar "v")); AVal (EVar "order")]))];
  Fn 449 TValue "fetch_xor" [Par "v" TValue false None; Par "order" TOrder false (Some SeqCst)] None
    [SReturn (ECast CBits TValue (ECall "core_operations" "fetch_xor" [ALoc; AVal (ECast CStatic TStorage (EVar "v")); AVal (EVar "order")]))];
  Fn 454 TValue "fetch_complement" [Par "order" TOrder false (Some SeqCst)] None
    [SReturn (ECast CBits TValue (ECall "extra_operations" "fetch_complement" [ALoc; AVal (EVar "order")]))];
  Fn 459 TValue "bitwise_and" [Par "v" TValue false None; Par "order" TOrder false (Some SeqCst)] None
    [SReturn (ECast CBits TValue (ECall "extra_operations" "bitwise_and" [ALoc; AVal (ECast CStatic TStorage (EVar "v")); AVal (EVar "order")]))];
  Fn 464 TValue "bitwise_or" [Par "v" TValue false None; Par "order" TOrder false (Some SeqCst)] None
    [SReturn (ECast CBits TValue (ECall "extra_operations" "bitwise_or" [ALoc; AVal (ECast CStatic TStorage (EVar "v")); AVal (EVar "order")]))];
  Fn 469 TValue "bitwise_xor" [Par "v" TValue false None; Par "order" TOrder false (Some SeqCst)] None
    [SReturn (ECast CBits TValue (ECall "extra_operations" "bitwise_xor" [ALoc; AVal (ECast CStatic TStorage (EVar "v")); AVal (EVar "order")]))];
  Fn 474 TValue "bitwise_complement" [Par "order" TOrder false (Some SeqCst)] None
    [SReturn (ECast CBits TValue (ECall "extra_operations" "bitwise_complement" [ALoc; AVal (EVar "order")]))];
  Fn 479 TVoid "opaque_and" [Par "v" TValue false None; Par "order" TOrder false (Some SeqCst)] None
    [SDo (ECall "extra_operations" "opaque_and" [ALoc; AVal (ECast CStatic TStorage (EVar "v")); AVal (EVar "order")])];
  Fn 484 TVoid "opaque_or" [Par "v" TValue false None; Par "order" TOrder false (Some SeqCst)] None
    [SDo (ECall "extra_operations" "opaque_or" [ALoc; AVal (ECast CStatic TStorage (EVar "v")); AVal (EVar "order")])];
  Fn 489 TVoid "opaque_xor" [Par "v" TValue false None; Par "order" TOrder false (Some SeqCst)] None
    [SDo (ECall "extra_operations" "opaque_xor" [ALoc; AVal (ECast CStatic TStorage (EVar "v")); AVal (EVar "order")])];
  Fn 494 TVoid "opaque_complement" [Par "order" TOrder false (Some SeqCst)] None
    [SDo (ECall "extra_operations" "opaque_complement" [ALoc; AVal (EVar "order")])];
  Fn 499 TBool "and_and_test" [Par "v" TValue false None; Par "order" TOrder false (Some SeqCst)] None
    [SReturn (ECall "extra_operations" "and_and_test" [ALoc; AVal (ECast CStatic TStorage (EVar "v")); AVal (EVar "order")])];
  Fn 504 TBool "or_and_test" [Par "v" TValue false None; Par "order" TOrder false (Some SeqCst)] None
    [SReturn (ECall "extra_operations" "or_and_test" [ALoc; AVal (ECast CStatic TStorage (EVar "v")); AVal (EVar "order")])];
  Fn 509 TBool "xor_and_test" [Par "v" TValue false None; Par "order" TOrder false (Some SeqCst)] None
    [SReturn (ECall "extra_operations" "xor_and_test" [ALoc; AVal (ECast CStatic TStorage (EVar "v")); AVal (EVar "order")])];
  Fn 514 TBool "complement_and_test" [Par "order" TOrder false (Some SeqCst)] None
    [SReturn (ECall "extra_operations" "complement_and_test" [ALoc; AVal (EVar "order")])];
  Fn 519 TBool "bit_test_and_set" [Par "bit_number" TUInt false None; Par "order" TOrder false (Some SeqCst)] None
    [SReturn (ECall "extra_operations" "bit_test_and_set" [ALoc; AVal (EVar "bit_number"); AVal (EVar "order")])];
  Fn 525 TBool "bit_test_and_reset" [Par "bit_number" TUInt false None; Par "order" TOrder false (Some SeqCst)] None
    [SReturn (ECall "extra_operations" "bit_test_and_reset" [ALoc; AVal (EVar "bit_number"); AVal (EVar "order")])];
  Fn 531 TBool "bit_test_and_complement" [Par "bit_number" TUInt false None; Par "order" TOrder false (Some SeqCst)] None
    [SReturn (ECall "extra_operations" "bit_test_and_complement" [ALoc; AVal (EVar "bit_number"); AVal (EVar "order")])];
  Fn 537 TValue "operator&=" [Par "v" TValue false None] None
    [SReturn (ECall "" "bitwise_and" [AVal (EVar "v")])];
  Fn 542 TValue "operator|=" [Par "v" TValue false None] None
    [SReturn (ECall "" "bitwise_or" [AVal (EVar "v")])];
  Fn 547 TValue "operator^=" [Par "v" TValue false None] None
    [SReturn (ECall "" "bitwise_xor" [AVal (EVar "v")])];
  Fn 552 TValue "wait" [Par "old_val" TValue false None; Par "order" TOrder false (Some SeqCst)] None
    [SReturn (ECast CBits TValue (ECall "wait_operations" "wait" [ALoc; AVal (ECast CStatic TStorage (EVar "old_val")); AVal (EVar "order")]))];
  Fn 590 TBool "compare_exchange_strong_impl" [Par "expected" TValue true None; Par "desired" TValue false None; Par "success_order" TOrder false None; Par "failure_order" TOrder false None] (Some false)
    [SReturn (ECall "core_operations" "compare_exchange_strong" [ALoc; AReint "expected"; AVal (ECast CStatic TStorage (EVar "desired")); AVal (EVar "success_order"); AVal (EVar "failure_order")])];
  Fn 597 TBool "compare_exchange_strong_impl" [Par "expected" TValue true None; Par "desired" TValue false None; Par "success_order" TOrder false None; Par "failure_order" TOrder false None] (Some true)
    [SInit TStorage "old_value" (ECast CStatic TStorage (EVar "expected")); SInit TBool "res" (ECall "core_operations" "compare_exchange_strong" [ALoc; ARef "old_value"; AVal (ECast CStatic TStorage (EVar "desired")); AVal (EVar "success_order"); AVal (EVar "failure_order")]); SSet "expected" (ECast CBits TValue (EVar "old_value")); SReturn (EVar "res")];
  Fn 606 TBool "compare_exchange_weak_impl" [Par "expected" TValue true None; Par "desired" TValue false None; Par "success_order" TOrder false None; Par "failure_order" TOrder false None] (Some false)
    [SReturn (ECall "core_operations" "compare_exchange_weak" [ALoc; AReint "expected"; AVal (ECast CStatic TStorage (EVar "desired")); AVal (EVar "success_order"); AVal (EVar "failure_order")])];
  Fn 613 TBool "compare_exchange_weak_impl" [Par "expected" TValue true None; Par "desired" TValue false None; Par "success_order" TOrder false None; Par "failure_order" TOrder false None] (Some true)
    [SInit TStorage "old_value" (ECast CStatic TStorage (EVar "expected")); SInit TBool "res" (ECall "core_operations" "compare_exchange_weak" [ALoc; ARef "old_value"; AVal (ECast CStatic TStorage (EVar "desired")); AVal (EVar "success_order"); AVal (EVar "failure_order")]); SSet "expected" (ECast CBits TValue (EVar "old_value")); SReturn (EVar "res")]
].

(** detail/atomic_impl.hpp:625 base_atomic < T , int , Interprocess > *)
Definition atomic_impl_625 : cls := Cls "detail/atomic_impl.hpp" 625 "base_atomic < T , int , Interprocess >" [] [
  Fn 655 TStorage "(constructor)" [Par "v" TValue false None] None
    [SReturn (ECast CStatic TStorage (EVar "v"))];
  Fn 661 TVoid "store" [Par "v" TValue false None; Par "order" TOrder false (Some SeqCst)] None
    [SDo (ECall "core_operations" "store" [ALoc; AVal (ECast CStatic TStorage (EVar "v")); AVal (EVar "order")])];
  Fn 670 TValue "load" [Par "order" TOrder false (Some SeqCst)] None
    [SReturn (ECast CTruncate TValue (ECall "core_operations" "load" [ALoc; AVal (EVar "order")]))];
  Fn 678 TValue "fetch_add" [Par "v" TValue false None; Par "order" TOrder false (Some SeqCst)] None
    [SReturn (ECast CTruncate TValue (ECall "core_operations" "fetch_add" [ALoc; AVal (ECast CStatic TStorage (EVar "v")); AVal (EVar "order")]))];
  Fn 683 TValue "fetch_sub" [Par "v" TValue false None; Par "order" TOrder false (Some SeqCst)] None
    [SReturn (ECast CTruncate TValue (ECall "core_operations" "fetch_sub" [ALoc; AVal (ECast CStatic TStorage (EVar "v")); AVal (EVar "order")]))];
  Fn 688 TValue "exchange" [Par "v" TValue false None; Par "order" TOrder false (Some SeqCst)] None
    [SReturn (ECast CTruncate TValue (ECall "core_operations" "exchange" [ALoc; AVal (ECast CStatic TStorage (EVar "v")); AVal (EVar "order")]))];
  Fn 693 TBool "compare_exchange_strong" [Par "expected" TValue true None; Par "desired" TValue false None; Par "success_order" TOrder false None; Par "failure_order" TOrder false None] None
    [SReturn (ECall "" "compare_exchange_strong_impl" [ARef "expected"; AVal (EVar "desired"); AVal (EVar "success_order"); AVal (EVar "failure_order"); ATag "cxchg_use_bitwise_cast"])];
  Fn 702 TBool "compare_exchange_strong" [Par "expected" TValue true None; Par "desired" TValue false None; Par "order" TOrder false (Some SeqCst)] None
    [SReturn (ECall "" "compare_exchange_strong" [ARef "expected"; AVal (EVar "desired"); AVal (EVar "order"); AVal (EFail (EVar "order"))])];
  Fn 707 TBool "compare_exchange_weak" [Par "expected" TValue true None; Par "desired" TValue false None; Par "success_order" TOrder false None; Par "failure_order" TOrder false None] None
    [SReturn (ECall "" "compare_exchange_weak_impl" [ARef "expected"; AVal (EVar "desired"); AVal (EVar "success_order"); AVal (EVar "failure_order"); ATag "cxchg_use_bitwise_cast"])];
  Fn 716 TBool "compare_exchange_weak" [Par "expected" TValue true None; Par "desired" TValue false None; Par "order" TOrder false (Some SeqCst)] None
    [SReturn (ECall "" "compare_exchange_weak" [ARef "expected"; AVal (EVar "desired"); AVal (EVar "order"); AVal (EFail (EVar "order"))])];
  Fn 721 TValue "fetch_and" [Par "v" TValue false None; Par "order" TOrder false (Some SeqCst)] None
    [SReturn (ECast CTruncate TValue (ECall "core_operations" "fetch_and" [ALoc; AVal (ECast CStatic TStorage (EVar "v")); AVal (EVar "order")]))];
  Fn 726 TValue "fetch_or" [Par "v" TValue false None; Par "order" TOrder false (Some SeqCst)] None
    [SReturn (ECast CTruncate TValue (ECall "core_operations" "fetch_or" [ALoc; AVal (ECast CStatic TStorage (EVar "v")); AVal (EVar "order")]))];
  Fn 731 TValue "fetch_xor" [Par "v" TValue false None; Par "order" TOrder false (Some SeqCst)] None
    [SReturn (ECast CTruncate TValue (ECall "core_operations" "fetch_xor" [ALoc; AVal (ECast CStatic TStorage (EVar "v")); AVal (EVar "order")]))];
  Fn 737 TValue "fetch_negate" [Par "order" TOrder false (Some SeqCst)] None
    [SReturn (ECast CTruncate TValue (ECall "extra_operations" "fetch_negate" [ALoc; AVal (EVar "order")]))];
  Fn 742 TValue "fetch_complement" [Par "order" TOrder false (Some SeqCst)] None
    [SReturn (ECast CTruncate TValue (ECall "extra_operations" "fetch_complement" [ALoc; AVal (EVar "order")]))];
  Fn 747 TValue "add" [Par "v" TValue false None; Par "order" TOrder false (Some SeqCst)] None
    [SReturn (ECast CTruncate TValue (ECall "extra_operations" "add" [ALoc; AVal (ECast CStatic TStorage (EVar "v")); AVal (EVar "order")]))];
  Fn 752 TValue "sub" [Par "v" TValue false None; Par "order" TOrder false (Some SeqCst)] None
    [SReturn (ECast CTruncate TValue (ECall "extra_operations" "sub" [ALoc; AVal (ECast CStatic TStorage (EVar "v")); AVal (EVar "order")]))];
  Fn 757 TValue "negate" [Par "order" TOrder false (Some SeqCst)] None
    [SReturn (ECast CTruncate TValue (ECall "extra_operations" "negate" [ALoc; AVal (EVar "order")]))];
  Fn 762 TValue "bitwise_and" [Par "v" TValue false None; Par "order" TOrder false (Some SeqCst)] None
    [SReturn (ECast CTruncate TValue (ECall "extra_operations" "bitwise_and" [ALoc; AVal (ECast CStatic TStorage (EVar "v")); AVal (EVar "order")]))];
  Fn 767 TValue "bitwise_or" [Par "v" TValue false None; Par "order" TOrder false (Some SeqCst)] None
    [SReturn (ECast CTruncate TValue (ECall "extra_operations" "bitwise_or" [ALoc; AVal (ECast CStatic TStorage (EVar "v")); AVal (EVar "order")]))];
  Fn 772 TValue "bitwise_xor" [Par "v" TValue false None; Par "order" TOrder false (Some SeqCst)] None
    [SReturn (ECast CTruncate TValue (ECall "extra_operations" "bitwise_xor" [ALoc; AVal (ECast CStatic TStorage (EVar "v")); AVal (EVar "order")]))];
  Fn 777 TValue "bitwise_complement" [Par "order" TOrder false (Some SeqCst)] None
    [SReturn (ECast CTruncate TValue (ECall "extra_operations" "bitwise_complement" [ALoc; AVal (EVar "order")]))];
  Fn 782 TVoid "opaque_add" [Par "v" TValue false None; Par "order" TOrder false (Some SeqCst)] None
    [SDo (ECall "extra_operations" "opaque_add" [ALoc; AVal (ECast CStatic TStorage (EVar "v")); AVal (EVar "order")])];
  Fn 787 TVoid "opaque_sub" [Par "v" TValue false None; Par "order" TOrder false (Some SeqCst)] None
    [SDo (ECall "extra_operations" "opaque_sub" [ALoc; AVal (ECast CStatic TStorage (EVar "v")); AVal (EVar "order")])];
  Fn 792 TVoid "opaque_negate" [Par "order" TOrder false (Some SeqCst)] None
    [SDo (ECall "extra_operations" "opaque_negate" [ALoc; AVal (EVar "order")])];
  Fn 797 TVoid "opaque_and" [Par "v" TValue false None; Par "order" TOrder false (Some SeqCst)] None
    [SDo (ECall "extra_operations" "opaque_and" [ALoc; AVal (ECast CStatic TStorage (EVar "v")); AVal (EVar "order")])];
  Fn 802 TVoid "opaque_or" [Par "v" TValue false None; Par "order" TOrder false (Some SeqCst)] None
    [SDo (ECall "extra_operations" "opaque_or" [ALoc; AVal (ECast CStatic TStorage (EVar "v")); AVal (EVar "order")])];
  Fn 807 TVoid "opaque_xor" [Par "v" TValue false None; Par "order" TOrder false (Some SeqCst)] None
    [SDo (ECall "extra_operations" "opaque_xor" [ALoc; AVal (ECast CStatic TStorage (EVar "v")); AVal (EVar "order")])];
  Fn 812 TVoid "opaque_complement" [Par "order" TOrder false (Some SeqCst)] None
    [SDo (ECall "extra_operations" "opaque_complement" [ALoc; AVal (EVar "order")])];
  Fn 817 TBool "add_and_test" [Par "v" TValue false None; Par "order" TOrder false (Some SeqCst)] None
    [SReturn (ECall "extra_operations" "add_and_test" [ALoc; AVal (ECast CStatic TStorage (EVar "v")); AVal (EVar "order")])];
  Fn 822 TBool "sub_and_test" [Par "v" TValue false None; Par "order" TOrder false (Some SeqCst)] None
    [SReturn (ECall "extra_operations" "sub_and_test" [ALoc; AVal (ECast CStatic TStorage (EVar "v")); AVal (EVar "order")])];
  Fn 827 TBool "negate_and_test" [Par "order" TOrder false (Some SeqCst)] None
    [SReturn (ECall "extra_operations" "negate_and_test" [ALoc; AVal (EVar "order")])];
  Fn 832 TBool "and_and_test" [Par "v" TValue false None; Par "order" TOrder false (Some SeqCst)] None
    [SReturn (ECall "extra_operations" "and_and_test" [ALoc; AVal (ECast CStatic TStorage (EVar "v")); AVal (EVar "order")])];
  Fn 837 TBool "or_and_test" [Par "v" TValue false None; Par "order" TOrder false (Some SeqCst)] None
    [SReturn (ECall "extra_operations" "or_and_test" [ALoc; AVal (ECast CStatic TStorage (EVar "v")); AVal (EVar "order")])];
  Fn 842 TBool "xor_and_test" [Par "v" TValue false None; Par "order" TOrder false (Some SeqCst)] None
    [SReturn (ECall "extra_operations" "xor_and_test" [ALoc; AVal (ECast CStatic TStorage (EVar "v")); AVal (EVar "order")])];
  Fn 847 TBool "complement_and_test" [Par "order" TOrder false (Some SeqCst)] None
    [SReturn (ECall "extra_operations" "complement_and_test" [ALoc; AVal (EVar "order")])];
  Fn 852 TBool "bit_test_and_set" [Par "bit_number" TUInt false None; Par "order" TOrder false (Some SeqCst)] None
    [SReturn (ECall "extra_operations" "bit_test_and_set" [ALoc; AVal (EVar "bit_number"); AVal (EVar "order")])];
  Fn 858 TBool "bit_test_and_reset" [Par "bit_number" TUInt false None; Par "order" TOrder false (Some SeqCst)] None
    [SReturn (ECall "extra_operations" "bit_test_and_reset" [ALoc; AVal (EVar "bit_number"); AVal (EVar "order")])];
  Fn 864 TBool "bit_test_and_complement" [Par "bit_number" TUInt false None; Par "order" TOrder false (Some SeqCst)] None
    [SReturn (ECall "extra_operations" "bit_test_and_complement" [ALoc; AVal (EVar "bit_number"); AVal (EVar "order")])];
  Fn 871 TValue "operator++(int)" [] None
    [SReturn (ECall "" "fetch_add" [AVal (ENum 1)])];
  Fn 876 TValue "operator++" [] None
    [SReturn (ECall "" "add" [AVal (ENum 1)])];
  Fn 881 TValue "operator--(int)" [] None
    [SReturn (ECall "" "fetch_sub" [AVal (ENum 1)])];
  Fn 886 TValue "operator--" [] None
    [SReturn (ECall "" "sub" [AVal (ENum 1)])];
  Fn 891 TValue "operator+=" [Par "v" TValue false None] None
    [SReturn (ECall "" "add" [AVal (EVar "v")])];
  Fn 896 TValue "operator-=" [Par "v" TValue false None] None
    [SReturn (ECall "" "sub" [AVal (EVar "v")])];
  Fn 901 TValue "operator&=" [Par "v" TValue false None] None
    [SReturn (ECall "" "bitwise_and" [AVal (EVar "v")])];
  Fn 906 TValue "operator|=" [Par "v" TValue false None] None
    [SReturn (ECall "" "bitwise_or" [AVal (EVar "v")])];
  Fn 911 TValue "operator^=" [Par "v" TValue false None] None
    [SReturn (ECall "" "bitwise_xor" [AVal (EVar "v")])];
  Fn 916 TValue "wait" [Par "old_val" TValue false None; Par "order" TOrder false (Some SeqCst)] None
    [SReturn (ECast CTruncate TValue (ECall "wait_operations" "wait" [ALoc; AVal (ECast CStatic TStorage (EVar "old_val")); AVal (EVar "order")]))];
  Fn 954 TBool "compare_exchange_strong_impl" [Par "expected" TValue true None; Par "desired" TValue false None; Par "success_order" TOrder false None; Par "failure_order" TOrder false None] (Some false)
    [SReturn (ECall "core_operations" "compare_exchange_strong" [ALoc; AReint "expected"; AVal (ECast CStatic TStorage (EVar "desired")); AVal (EVar "success_order"); AVal (EVar "failure_order")])];
  Fn 961 TBool "compare_exchange_strong_impl" [Par "expected" TValue true None; Par "desired" TValue false None; Par "success_order" TOrder false None; Par "failure_order" TOrder false None] (Some true)
    [SInit TStorage "old_value" (ECast CStatic TStorage (EVar "expected")); SInit TBool "res" (ECall "core_operations" "compare_exchange_strong" [ALoc; ARef "old_value"; AVal (ECast CStatic TStorage (EVar "desired")); AVal (EVar "success_order"); AVal (EVar "failure_order")]); SSet "expected" (ECast CTruncate TValue (EVar "old_value")); SReturn (EVar "res")];
  Fn 970 TBool "compare_exchange_weak_impl" [Par "expected" TValue true None; Par "desired" TValue false None; Par "success_order" TOrder false None; Par "failure_order" TOrder false None] (Some false)
    [SReturn (ECall "core_operations" "compare_exchange_weak" [ALoc; AReint "expected"; AVal (ECast CStatic TStorage (EVar "desired")); AVal (EVar "success_order"); AVal (EVar "failure_order")])];
  Fn 977 TBool "compare_exchange_weak_impl" [Par "expected" TValue true None; Par "desired" TValue false None; Par "success_order" TOrder false None; Par "failure_order" TOrder false None] (Some true)
    [SInit TStorage "old_value" (ECast CStatic TStorage (EVar "expected")); SInit TBool "res" (ECall "core_operations" "compare_exchange_weak" [ALoc; ARef "old_value"; AVal (ECast CStatic TStorage (EVar "desired")); AVal (EVar "success_order"); AVal (EVar "failure_order")]); SSet "expected" (ECast CTruncate TValue (EVar "old_value")); SReturn (EVar "res")]
].

(** detail/atomic_impl.hpp:988 base_atomic < bool , int , Interprocess > *)
Definition atomic_impl_988 : cls := Cls "detail/atomic_impl.hpp" 988 "base_atomic < bool , int , Interprocess >" [] [
  Fn 1016 TStorage "(constructor)" [Par "v" TValue false None] None
    [SReturn (ECast CStatic TStorage (EVar "v"))];
  Fn 1022 TVoid "store" [Par "v" TValue false None; Par "order" TOrder false (Some SeqCst)] None
    [SDo (ECall "core_operations" "store" [ALoc; AVal (ECast CStatic TStorage (EVar "v")); AVal (EVar "order")])];
  Fn 1031 TValue "load" [Par "order" TOrder false (Some SeqCst)] None
    [SReturn (EUn UNot (EUn UNot (ECall "core_operations" "load" [ALoc; AVal (EVar "order")])))];
  Fn 1039 TValue "exchange" [Par "v" TValue false None; Par "order" TOrder false (Some SeqCst)] None
    [SReturn (EUn UNot (EUn UNot (ECall "core_operations" "exchange" [ALoc; AVal (ECast CStatic TStorage (EVar "v")); AVal (EVar "order")])))];
  Fn 1044 TBool "compare_exchange_strong" [Par "expected" TValue true None; Par "desired" TValue false None; Par "success_order" TOrder false None; Par "failure_order" TOrder false None] None
    [SReturn (ECall "" "compare_exchange_strong_impl" [ARef "expected"; AVal (EVar "desired"); AVal (EVar "success_order"); AVal (EVar "failure_order"); ATag "cxchg_use_bitwise_cast"])];
  Fn 1053 TBool "compare_exchange_strong" [Par "expected" TValue true None; Par "desired" TValue false None; Par "order" TOrder false (Some SeqCst)] None
    [SReturn (ECall "" "compare_exchange_strong" [ARef "expected"; AVal (EVar "desired"); AVal (EVar "order"); AVal (EFail (EVar "order"))])];
  Fn 1058 TBool "compare_exchange_weak" [Par "expected" TValue true None; Par "desired" TValue false None; Par "success_order" TOrder false None; Par "failure_order" TOrder false None] None
    [SReturn (ECall "" "compare_exchange_weak_impl" [ARef "expected"; AVal (EVar "desired"); AVal (EVar "success_order"); AVal (EVar "failure_order"); ATag "cxchg_use_bitwise_cast"])];
  Fn 1067 TBool "compare_exchange_weak" [Par "expected" TValue true None; Par "desired" TValue false None; Par "order" TOrder false (Some SeqCst)] None
    [SReturn (ECall "" "compare_exchange_weak" [ARef "expected"; AVal (EVar "desired"); AVal (EVar "order"); AVal (EFail (EVar "order"))])];
  Fn 1072 TValue "wait" [Par "old_val" TValue false None; Par "order" TOrder false (Some SeqCst)] None
    [SReturn (EUn UNot (EUn UNot (ECall "wait_operations" "wait" [ALoc; AVal (ECast CStatic TStorage (EVar "old_val")); AVal (EVar "order")])))];
  Fn 1110 TBool "compare_exchange_strong_impl" [Par "expected" TValue true None; Par "desired" TValue false None; Par "success_order" TOrder false None; Par "failure_order" TOrder false None] (Some false)
    [SReturn (ECall "core_operations" "compare_exchange_strong" [ALoc; AReint "expected"; AVal (ECast CStatic TStorage (EVar "desired")); AVal (EVar "success_order"); AVal (EVar "failure_order")])];
  Fn 1117 TBool "compare_exchange_strong_impl" [Par "expected" TValue true None; Par "desired" TValue false None; Par "success_order" TOrder false None; Par "failure_order" TOrder false None] (Some true)
    [SInit TStorage "old_value" (ECast CStatic TStorage (EVar "expected")); SInit TBool "res" (ECall "core_operations" "compare_exchange_strong" [ALoc; ARef "old_value"; AVal (ECast CStatic TStorage (EVar "desired")); AVal (EVar "success_order"); AVal (EVar "failure_order")]); SSet "expected" (EUn UNot (EUn UNot (EVar "old_value"))); SReturn (EVar "res")];
  Fn 1126 TBool "compare_exchange_weak_impl" [Par "expected" TValue true None; Par "desired" TValue false None; Par "success_order" TOrder false None; Par "failure_order" TOrder false None] (Some false)
    [SReturn (ECall "core_operations" "compare_exchange_weak" [ALoc; AReint "expected"; AVal (ECast CStatic TStorage (EVar "desired")); AVal (EVar "success_order"); AVal (EVar "failure_order")])];
  Fn 1133 TBool "compare_exchange_weak_impl" [Par "expected" TValue true None; Par "desired" TValue false None; Par "success_order" TOrder false None; Par "failure_order" TOrder false None] (Some true)
    [SInit TStorage "old_value" (ECast CStatic TStorage (EVar "expected")); SInit TBool "res" (ECall "core_operations" "compare_exchange_weak" [ALoc; ARef "old_value"; AVal (ECast CStatic TStorage (EVar "desired")); AVal (EVar "success_order"); AVal (EVar "failure_order")]); SSet "expected" (EUn UNot (EUn UNot (EVar "old_value"))); SReturn (EVar "res")]
].

(** detail/atomic_impl.hpp:1147 base_atomic < T , float , Interprocess > *)
Definition atomic_impl_1147 : cls := Cls "detail/atomic_impl.hpp" 1147 "base_atomic < T , float , Interprocess >" [] [
  Fn 1180 TStorage "(constructor)" [Par "v" TValue false None] None
    [SReturn (ECast CFpBits TStorage (EVar "v"))];
  Fn 1188 TVoid "store" [Par "v" TValue false None; Par "order" TOrder false (Some SeqCst)] None
    [SDo (ECall "core_operations" "store" [ALoc; AVal (ECast CFpBits TStorage (EVar "v")); AVal (EVar "order")])];
  Fn 1197 TValue "load" [Par "order" TOrder false (Some SeqCst)] None
    [SReturn (ECast CFpBits TValue (ECall "core_operations" "load" [ALoc; AVal (EVar "order")]))];
  Fn 1205 TValue "fetch_add" [Par "v" TValue false None; Par "order" TOrder false (Some SeqCst)] None
    [SReturn (ECall "fp_operations" "fetch_add" [ALoc; AVal (EVar "v"); AVal (EVar "order")])];
  Fn 1210 TValue "fetch_sub" [Par "v" TValue false None; Par "order" TOrder false (Some SeqCst)] None
    [SReturn (ECall "fp_operations" "fetch_sub" [ALoc; AVal (EVar "v"); AVal (EVar "order")])];
  Fn 1215 TValue "exchange" [Par "v" TValue false None; Par "order" TOrder false (Some SeqCst)] None
    [SReturn (ECast CFpBits TValue (ECall "core_operations" "exchange" [ALoc; AVal (ECast CFpBits TStorage (EVar "v")); AVal (EVar "order")]))];
  Fn 1220 TBool "compare_exchange_strong" [Par "expected" TValue true None; Par "desired" TValue false None; Par "success_order" TOrder false None; Par "failure_order" TOrder false None] None
    [SReturn (ECall "" "compare_exchange_strong_impl" [ARef "expected"; AVal (EVar "desired"); AVal (EVar "success_order"); AVal (EVar "failure_order"); ATag "cxchg_use_bitwise_cast"])];
  Fn 1229 TBool "compare_exchange_strong" [Par "expected" TValue true None; Par "desired" TValue false None; Par "order" TOrder false (Some SeqCst)] None
    [SReturn (ECall "" "compare_exchange_strong" [ARef "expected"; AVal (EVar "desired"); AVal (EVar "order"); AVal (EFail (EVar "order"))])];
  Fn 1234 TBool "compare_exchange_weak" [Par "expected" TValue true None; Par "desired" TValue false None; Par "success_order" TOrder false None; Par "failure_order" TOrder false None] None
    [SReturn (ECall "" "compare_exchange_weak_impl" [ARef "expected"; AVal (EVar "desired"); AVal (EVar "success_order"); AVal (EVar "failure_order"); ATag "cxchg_use_bitwise_cast"])];
  Fn 1243 TBool "compare_exchange_weak" [Par "expected" TValue true None; Par "desired" TValue false None; Par "order" TOrder false (Some SeqCst)] None
    [SReturn (ECall "" "compare_exchange_weak" [ARef "expected"; AVal (EVar "desired"); AVal (EVar "order"); AVal (EFail (EVar "order"))])];
  Fn 1249 TValue "fetch_negate" [Par "order" TOrder false (Some SeqCst)] None
    [SReturn (ECall "extra_fp_operations" "fetch_negate" [ALoc; AVal (EVar "order")])];
  Fn 1254 TValue "add" [Par "v" TValue false None; Par "order" TOrder false (Some SeqCst)] None
    [SReturn (ECall "extra_fp_operations" "add" [ALoc; AVal (EVar "v"); AVal (EVar "order")])];
  Fn 1259 TValue "sub" [Par "v" TValue false None; Par "order" TOrder false (Some SeqCst)] None
    [SReturn (ECall "extra_fp_operations" "sub" [ALoc; AVal (EVar "v"); AVal (EVar "order")])];
  Fn 1264 TValue "negate" [Par "order" TOrder false (Some SeqCst)] None
    [SReturn (ECall "extra_fp_operations" "negate" [ALoc; AVal (EVar "order")])];
  Fn 1269 TVoid "opaque_add" [Par "v" TValue false None; Par "order" TOrder false (Some SeqCst)] None
    [SDo (ECall "extra_fp_operations" "opaque_add" [ALoc; AVal (EVar "v"); AVal (EVar "order")])];
  Fn 1274 TVoid "opaque_sub" [Par "v" TValue false None; Par "order" TOrder false (Some SeqCst)] None
    [SDo (ECall "extra_fp_operations" "opaque_sub" [ALoc; AVal (EVar "v"); AVal (EVar "order")])];
  Fn 1279 TVoid "opaque_negate" [Par "order" TOrder false (Some SeqCst)] None
    [SDo (ECall "extra_fp_operations" "opaque_negate" [ALoc; AVal (EVar "order")])];
  Fn 1285 TValue "operator+=" [Par "v" TValue false None] None
    [SReturn (ECall "" "add" [AVal (EVar "v")])];
  Fn 1290 TValue "operator-=" [Par "v" TValue false None] None
    [SReturn (ECall "" "sub" [AVal (EVar "v")])];
  Fn 1295 TValue "wait" [Par "old_val" TValue false None; Par "order" TOrder false (Some SeqCst)] None
    [SReturn (ECast CFpBits TValue (ECall "wait_operations" "wait" [ALoc; AVal (ECast CFpBits TStorage (EVar "old_val")); AVal (EVar "order")]))];
  Fn 1333 TBool "compare_exchange_strong_impl" [Par "expected" TValue true None; Par "desired" TValue false None; Par "success_order" TOrder false None; Par "failure_order" TOrder false None] (Some false)
    [SReturn (ECall "core_operations" "compare_exchange_strong" [ALoc; AReint "expected"; AVal (ECast CFpBits TStorage (EVar "desired")); AVal (EVar "success_order"); AVal (EVar "failure_order")])];
  Fn 1340 TBool "compare_exchange_strong_impl" [Par "expected" TValue true None; Par "desired" TValue false None; Par "success_order" TOrder false None; Par "failure_order" TOrder false None] (Some true)
    [SInit TStorage "old_value" (ECast CFpBits TStorage (EVar "expected")); SInit TBool "res" (ECall "core_operations" "compare_exchange_strong" [ALoc; ARef "old_value"; AVal (ECast CFpBits TStorage (EVar "desired")); AVal (EVar "success_order"); AVal (EVar "failure_order")]); SSet "expected" (ECast CFpBits TValue (EVar "old_value")); SReturn (EVar "res")];
  Fn 1350 TBool "compare_exchange_weak_impl" [Par "expected" TValue true None; Par "desired" TValue false None; Par "success_order" TOrder false None; Par "failure_order" TOrder false None] (Some false)
    [SReturn (ECall "core_operations" "compare_exchange_weak" [ALoc; AReint "expected"; AVal (ECast CFpBits TStorage (EVar "desired")); AVal (EVar "success_order"); AVal (EVar "failure_order")])];
  Fn 1357 TBool "compare_exchange_weak_impl" [Par "expected" TValue true None; Par "desired" TValue false None; Par "success_order" TOrder false None; Par "failure_order" TOrder false None] (Some true)
    [SInit TStorage "old_value" (ECast CFpBits TStorage (EVar "expected")); SInit TBool "res" (ECall "core_operations" "compare_exchange_weak" [ALoc; ARef "old_value"; AVal (ECast CFpBits TStorage (EVar "desired")); AVal (EVar "success_order"); AVal (EVar "failure_order")]); SSet "expected" (ECast CFpBits TValue (EVar "old_value")); SReturn (EVar "res")]
].

(** detail/atomic_impl.hpp:1372 base_atomic < T * , void * , Interprocess > *)
Definition atomic_impl_1372 : cls := Cls "detail/atomic_impl.hpp" 1372 "base_atomic < T * , void * , Interprocess >" [] [
  Fn 1406 TStorage "(constructor)" [Par "v" TValue false None] None
    [SReturn (ECast CBits TUptr (EVar "v"))];
  Fn 1415 TVoid "store" [Par "v" TValue false None; Par "order" TOrder false (Some SeqCst)] None
    [SDo (ECall "core_operations" "store" [ALoc; AVal (ECast CBits TUptr (EVar "v")); AVal (EVar "order")])];
  Fn 1424 TValue "load" [Par "order" TOrder false (Some SeqCst)] None
    [SReturn (ECast CBits TValue (ECast CStatic TUptr (ECall "core_operations" "load" [ALoc; AVal (EVar "order")])))];
  Fn 1432 TValue "fetch_add" [Par "v" TDiff false None; Par "order" TOrder false (Some SeqCst)] None
    [SReturn (ECast CBits TValue (ECast CStatic TUptr (ECall "core_operations" "fetch_add" [ALoc; AVal (ECast CStatic TUptr (EBin OMul (EVar "v") (ESizeT))); AVal (EVar "order")])))];
  Fn 1438 TValue "fetch_sub" [Par "v" TDiff false None; Par "order" TOrder false (Some SeqCst)] None
    [SReturn (ECast CBits TValue (ECast CStatic TUptr (ECall "core_operations" "fetch_sub" [ALoc; AVal (ECast CStatic TUptr (EBin OMul (EVar "v") (ESizeT))); AVal (EVar "order")])))];
  Fn 1444 TValue "exchange" [Par "v" TValue false None; Par "order" TOrder false (Some SeqCst)] None
    [SReturn (ECast CBits TValue (ECast CStatic TUptr (ECall "core_operations" "exchange" [ALoc; AVal (ECast CBits TUptr (EVar "v")); AVal (EVar "order")])))];
  Fn 1450 TBool "compare_exchange_strong" [Par "expected" TValue true None; Par "desired" TValue false None; Par "success_order" TOrder false None; Par "failure_order" TOrder false None] None
    [SReturn (ECall "" "compare_exchange_strong_impl" [ARef "expected"; AVal (EVar "desired"); AVal (EVar "success_order"); AVal (EVar "failure_order"); ATag "cxchg_use_bitwise_cast"])];
  Fn 1459 TBool "compare_exchange_strong" [Par "expected" TValue true None; Par "desired" TValue false None; Par "order" TOrder false (Some SeqCst)] None
    [SReturn (ECall "" "compare_exchange_strong" [ARef "expected"; AVal (EVar "desired"); AVal (EVar "order"); AVal (EFail (EVar "order"))])];
  Fn 1464 TBool "compare_exchange_weak" [Par "expected" TValue true None; Par "desired" TValue false None; Par "success_order" TOrder false None; Par "failure_order" TOrder false None] None
    [SReturn (ECall "" "compare_exchange_weak_impl" [ARef "expected"; AVal (EVar "desired"); AVal (EVar "success_order"); AVal (EVar "failure_order"); ATag "cxchg_use_bitwise_cast"])];
  Fn 1473 TBool "compare_exchange_weak" [Par "expected" TValue true None; Par "desired" TValue false None; Par "order" TOrder false (Some SeqCst)] None
    [SReturn (ECall "" "compare_exchange_weak" [ARef "expected"; AVal (EVar "desired"); AVal (EVar "order"); AVal (EFail (EVar "order"))])];
  Fn 1479 TValue "add" [Par "v" TDiff false None; Par "order" TOrder false (Some SeqCst)] None
    [SReturn (ECast CBits TValue (ECast CStatic TUptr (ECall "extra_operations" "add" [ALoc; AVal (ECast CStatic TUptr (EBin OMul (EVar "v") (ESizeT))); AVal (EVar "order")])))];
  Fn 1485 TValue "sub" [Par "v" TDiff false None; Par "order" TOrder false (Some SeqCst)] None
    [SReturn (ECast CBits TValue (ECast CStatic TUptr (ECall "extra_operations" "sub" [ALoc; AVal (ECast CStatic TUptr (EBin OMul (EVar "v") (ESizeT))); AVal (EVar "order")])))];
  Fn 1491 TVoid "opaque_add" [Par "v" TDiff false None; Par "order" TOrder false (Some SeqCst)] None
    [SDo (ECall "extra_operations" "opaque_add" [ALoc; AVal (ECast CStatic TUptr (EBin OMul (EVar "v") (ESizeT))); AVal (EVar "order")])];
  Fn 1496 TVoid "opaque_sub" [Par "v" TDiff false None; Par "order" TOrder false (Some SeqCst)] None
    [SDo (ECall "extra_operations" "opaque_sub" [ALoc; AVal (ECast CStatic TUptr (EBin OMul (EVar "v") (ESizeT))); AVal (EVar "order")])];
  Fn 1501 TBool "add_and_test" [Par "v" TDiff false None; Par "order" TOrder false (Some SeqCst)] None
    [SReturn (ECall "extra_operations" "add_and_test" [ALoc; AVal (ECast CStatic TUptr (EBin OMul (EVar "v") (ESizeT))); AVal (EVar "order")])];
  Fn 1506 TBool "sub_and_test" [Par "v" TDiff false None; Par "order" TOrder false (Some SeqCst)] None
    [SReturn (ECall "extra_operations" "sub_and_test" [ALoc; AVal (ECast CStatic TUptr (EBin OMul (EVar "v") (ESizeT))); AVal (EVar "order")])];
  Fn 1512 TValue "operator++(int)" [] None
    [SReturn (ECall "" "fetch_add" [AVal (ENum 1)])];
  Fn 1517 TValue "operator++" [] None
    [SReturn (ECall "" "add" [AVal (ENum 1)])];
  Fn 1522 TValue "operator--(int)" [] None
    [SReturn (ECall "" "fetch_sub" [AVal (ENum 1)])];
  Fn 1527 TValue "operator--" [] None
    [SReturn (ECall "" "sub" [AVal (ENum 1)])];
  Fn 1532 TValue "operator+=" [Par "v" TDiff false None] None
    [SReturn (ECall "" "add" [AVal (EVar "v")])];
  Fn 1537 TValue "operator-=" [Par "v" TDiff false None] None
    [SReturn (ECall "" "sub" [AVal (EVar "v")])];
  Fn 1542 TValue "wait" [Par "old_val" TValue false None; Par "order" TOrder false (Some SeqCst)] None
    [SReturn (ECast CBits TValue (ECast CStatic TUptr (ECall "wait_operations" "wait" [ALoc; AVal (ECast CBits TUptr (EVar "old_val")); AVal (EVar "order")])))];
  Fn 1581 TBool "compare_exchange_strong_impl" [Par "expected" TValue true None; Par "desired" TValue false None; Par "success_order" TOrder false None; Par "failure_order" TOrder false None] (Some false)
    [SReturn (ECall "core_operations" "compare_exchange_strong" [ALoc; AReint "expected"; AVal (ECast CBits TUptr (EVar "desired")); AVal (EVar "success_order"); AVal (EVar "failure_order")])];
  Fn 1588 TBool "compare_exchange_strong_impl" [Par "expected" TValue true None; Par "desired" TValue false None; Par "success_order" TOrder false None; Par "failure_order" TOrder false None] (Some true)
    [SInit TStorage "old_value" (ECast CBits TUptr (EVar "expected")); SInit TBool "res" (ECall "core_operations" "compare_exchange_strong" [ALoc; ARef "old_value"; AVal (ECast CBits TUptr (EVar "desired")); AVal (EVar "success_order"); AVal (EVar "failure_order")]); SSet "expected" (ECast CBits TValue (ECast CStatic TUptr (EVar "old_value"))); SReturn (EVar "res")];
  Fn 1598 TBool "compare_exchange_weak_impl" [Par "expected" TValue true None; Par "desired" TValue false None; Par "success_order" TOrder false None; Par "failure_order" TOrder false None] (Some false)
    [SReturn (ECall "core_operations" "compare_exchange_weak" [ALoc; AReint "expected"; AVal (ECast CBits TUptr (EVar "desired")); AVal (EVar "success_order"); AVal (EVar "failure_order")])];
  Fn 1605 TBool "compare_exchange_weak_impl" [Par "expected" TValue true None; Par "desired" TValue false None; Par "success_order" TOrder false None; Par "failure_order" TOrder false None] (Some true)
    [SInit TStorage "old_value" (ECast CBits TUptr (EVar "expected")); SInit TBool "res" (ECall "core_operations" "compare_exchange_weak" [ALoc; ARef "old_value"; AVal (ECast CBits TUptr (EVar "desired")); AVal (EVar "success_order"); AVal (EVar "failure_order")]); SSet "expected" (ECast CBits TValue (ECast CStatic TUptr (EVar "old_value"))); SReturn (EVar "res")]
].

(** detail/atomic_ref_impl.hpp:147 base_atomic_ref < T , void , Interprocess > *)
Definition atomic_ref_impl_147 : cls := Cls "detail/atomic_ref_impl.hpp" 147 "base_atomic_ref < T , void , Interprocess >" [] [
  Fn 178 TVoid "store" [Par "v" TValue false None; Par "order" TOrder false (Some SeqCst)] None
    [SDo (ECall "core_operations" "store" [ALoc; AVal (ECast CBits TStorage (EVar "v")); AVal (EVar "order")])];
  Fn 187 TValue "load" [Par "order" TOrder false (Some SeqCst)] None
    [SReturn (ECast CBits TValue (ECall "core_operations" "load" [ALoc; AVal (EVar "order")]))];
  Fn 195 TValue "exchange" [Par "v" TValue false None; Par "order" TOrder false (Some SeqCst)] None
    [SReturn (ECast CBits TValue (ECall "core_operations" "exchange" [ALoc; AVal (ECast CBits TStorage (EVar "v")); AVal (EVar "order")]))];
  Fn 200 TBool "compare_exchange_strong" [Par "expected" TValue true None; Par "desired" TValue false None; Par "success_order" TOrder false None; Par "failure_order" TOrder false None] None
    [SReturn (ECall "" "compare_exchange_strong_impl" [ARef "expected"; AVal (EVar "desired"); AVal (EVar "success_order"); AVal (EVar "failure_order"); ATag "cxchg_use_bitwise_cast"])];
  Fn 209 TBool "compare_exchange_strong" [Par "expected" TValue true None; Par "desired" TValue false None; Par "order" TOrder false (Some SeqCst)] None
    [SReturn (ECall "" "compare_exchange_strong" [ARef "expected"; AVal (EVar "desired"); AVal (EVar "order"); AVal (EFail (EVar "order"))])];
  Fn 214 TBool "compare_exchange_weak" [Par "expected" TValue true None; Par "desired" TValue false None; Par "success_order" TOrder false None; Par "failure_order" TOrder false None] None
    [SReturn (ECall "" "compare_exchange_weak_impl" [ARef "expected"; AVal (EVar "desired"); AVal (EVar "success_order"); AVal (EVar "failure_order"); ATag "cxchg_use_bitwise_cast"])];
  Fn 223 TBool "compare_exchange_weak" [Par "expected" TValue true None; Par "desired" TValue false None; Par "order" TOrder false (Some SeqCst)] None
    [SReturn (ECall "" "compare_exchange_weak" [ARef "expected"; AVal (EVar "desired"); AVal (EVar "order"); AVal (EFail (EVar "order"))])];
  Fn 228 TValue "wait" [Par "old_val" TValue false None; Par "order" TOrder false (Some SeqCst)] None
    [SReturn (ECast CBits TValue (ECall "wait_operations" "wait" [ALoc; AVal (ECast CBits TStorage (EVar "old_val")); AVal (EVar "order")]))];
  Fn 266 TBool "compare_exchange_strong_impl" [Par "expected" TValue true None; Par "desired" TValue false None; Par "success_order" TOrder false None; Par "failure_order" TOrder false None] (Some false)
    [SReturn (ECall "core_operations" "compare_exchange_strong" [ALoc; AReint "expected"; AVal (ECast CBits TStorage (EVar "desired")); AVal (EVar "success_order"); AVal (EVar "failure_order")])];
  Fn 273 TBool "compare_exchange_strong_impl" [Par "expected" TValue true None; Par "desired" TValue false None; Par "success_order" TOrder false None; Par "failure_order" TOrder false None] (Some true)
    [SInit TStorage "old_value" (ECast CBits TStorage (EVar "expected")); SInit TBool "res" (ECall "core_operations" "compare_exchange_strong" [ALoc; ARef "old_value"; AVal (ECast CBits TStorage (EVar "desired")); AVal (EVar "success_order"); AVal (EVar "failure_order")]); SSet "expected" (ECast CBits TValue (EVar "old_value")); SReturn (EVar "res")];
  Fn 283 TBool "compare_exchange_weak_impl" [Par "expected" TValue true None; Par "desired" TValue false None; Par "success_order" TOrder false None; Par "failure_order" TOrder false None] (Some false)
    [SReturn (ECall "core_operations" "compare_exchange_weak" [ALoc; AReint "expected"; AVal (ECast CBits TStorage (EVar "desired")); AVal (EVar "success_order"); AVal (EVar "failure_order")])];
  Fn 290 TBool "compare_exchange_weak_impl" [Par "expected" TValue true None; Par "desired" TValue false None; Par "success_order" TOrder false None; Par "failure_order" TOrder false None] (Some true)
    [SInit TStorage "old_value" (ECast CBits TStorage (EVar "expected")); SInit TBool "res" (ECall "core_operations" "compare_exchange_weak" [ALoc; ARef "old_value"; AVal (ECast CBits TStorage (EVar "desired")); AVal (EVar "success_order"); AVal (EVar "failure_order")]); SSet "expected" (ECast CBits TValue (EVar "old_value")); SReturn (EVar "res")]
].

(** detail/atomic_ref_impl.hpp:303 base_atomic_ref < T , const int , Interprocess > *)
Definition atomic_ref_impl_303 : cls := Cls "detail/atomic_ref_impl.hpp" 303 "base_atomic_ref < T , const int , Interprocess >" [] [
  Fn 335 TVoid "store" [Par "v" TValue false None; Par "order" TOrder false (Some SeqCst)] None
    [SDo (ECall "core_operations" "store" [ALoc; AVal (ECast CStatic TStorage (EVar "v")); AVal (EVar "order")])];
  Fn 344 TValue "load" [Par "order" TOrder false (Some SeqCst)] None
    [SReturn (ECast CBits TValue (ECall "core_operations" "load" [ALoc; AVal (EVar "order")]))];
  Fn 352 TValue "exchange" [Par "v" TValue false None; Par "order" TOrder false (Some SeqCst)] None
    [SReturn (ECast CBits TValue (ECall "core_operations" "exchange" [ALoc; AVal (ECast CStatic TStorage (EVar "v")); AVal (EVar "order")]))];
  Fn 357 TBool "compare_exchange_strong" [Par "expected" TValue true None; Par "desired" TValue false None; Par "success_order" TOrder false None; Par "failure_order" TOrder false None] None
    [SReturn (ECall "" "compare_exchange_strong_impl" [ARef "expected"; AVal (EVar "desired"); AVal (EVar "success_order"); AVal (EVar "failure_order"); ATag "cxchg_use_bitwise_cast"])];
  Fn 366 TBool "compare_exchange_strong" [Par "expected" TValue true None; Par "desired" TValue false None; Par "order" TOrder false (Some SeqCst)] None
    [SReturn (ECall "" "compare_exchange_strong" [ARef "expected"; AVal (EVar "desired"); AVal (EVar "order"); AVal (EFail (EVar "order"))])];
  Fn 371 TBool "compare_exchange_weak" [Par "expected" TValue true None; Par "desired" TValue false None; Par "success_order" TOrder false None; Par "failure_order" TOrder false None] None
    [SReturn (ECall "" "compare_exchange_weak_impl" [ARef "expected"; AVal (EVar "desired"); AVal (EVar "success_order"); AVal (EVar "failure_order"); ATag "cxchg_use_bitwise_cast"])];
  Fn 380 TBool "compare_exchange_weak" [Par "expected" TValue true None; Par "desired" TValue false None; Par "order" TOrder false (Some SeqCst)] None
    [SReturn (ECall "" "compare_exchange_weak" [ARef "expected"; AVal (EVar "desired"); AVal (EVar "order"); AVal (EFail (EVar "order"))])];
  Fn 385 TValue "fetch_and" [Par "v" TValue false None; Par "order" TOrder false (Some SeqCst)] None
    [SReturn (ECast CBits TValue (ECall "core_operations" "fetch_and" [ALoc; AVal (ECast CStatic TStorage (EVar "v")); AVal (EVar "order")]))];
  Fn 390 TValue "fetch_or" [Par "v" TValue false None; Par "order" TOrder false (Some SeqCst)] None
    [SReturn (ECast CBits TValue (ECall "core_operations" "fetch_or" [ALoc; AVal (ECast CStatic TStorage (EVar "v")); AVal (EVar "order")]))];
  Fn 395 TValue "fetch_xor" [Par "v" TValue false None; Par "order" TOrder false (Some SeqCst)] None
    [SReturn (ECast CBits TValue (ECall "core_operations" "fetch_xor" [ALoc; AVal (ECast CStatic TStorage (EVar "v")); AVal (EVar "order")]))];
  Fn 400 TValue "fetch_complement" [Par "order" TOrder false (Some SeqCst)] None
    [SReturn (ECast CBits TValue (ECall "extra_operations" "fetch_complement" [ALoc; AVal (EVar "order")]))];
  Fn 405 TValue "bitwise_and" [Par "v" TValue false None; Par "order" TOrder false (Some SeqCst)] None
    [SReturn (ECast CBits TValue (ECall "extra_operations" "bitwise_and" [ALoc; AVal (ECast CStatic TStorage (EVar "v")); AVal (EVar "order")]))];
  Fn 410 TValue "bitwise_or" [Par "v" TValue false None; Par "order" TOrder false (Some SeqCst)] None
    [SReturn (ECast CBits TValue (ECall "extra_operations" "bitwise_or" [ALoc; AVal (ECast CStatic TStorage (EVar "v")); AVal (EVar "order")]))];
  Fn 415 TValue "bitwise_xor" [Par "v" TValue false None; Par "order" TOrder false (Some SeqCst)] None
    [SReturn (ECast CBits TValue (ECall "extra_operations" "bitwise_xor" [ALoc; AVal (ECast CStatic TStorage (EVar "v")); AVal (EVar "order")]))];
  Fn 420 TValue "bitwise_complement" [Par "order" TOrder false (Some SeqCst)] None
    [SReturn (ECast CBits TValue (ECall "extra_operations" "bitwise_complement" [ALoc; AVal (EVar "order")]))];
  Fn 425 TVoid "opaque_and" [Par "v" TValue false None; Par "order" TOrder false (Some SeqCst)] None
    [SDo (ECall "extra_operations" "opaque_and" [ALoc; AVal (ECast CStatic TStorage (EVar "v")); AVal (EVar "order")])];
  Fn 430 TVoid "opaque_or" [Par "v" TValue false None; Par "order" TOrder false (Some SeqCst)] None
    [SDo (ECall "extra_operations" "opaque_or" [ALoc; AVal (ECast CStatic TStorage (EVar "v")); AVal (EVar "order")])];
  Fn 435 TVoid "opaque_xor" [Par "v" TValue false None; Par "order" TOrder false (Some SeqCst)] None
    [SDo (ECall "extra_operations" "opaque_xor" [ALoc; AVal (ECast CStatic TStorage (EVar "v")); AVal (EVar "order")])];
  Fn 440 TVoid "opaque_complement" [Par "order" TOrder false (Some SeqCst)] None
    [SDo (ECall "extra_operations" "opaque_complement" [ALoc; AVal (EVar "order")])];
  Fn 445 TBool "and_and_test" [Par "v" TValue false None; Par "order" TOrder false (Some SeqCst)] None
    [SReturn (ECall "extra_operations" "and_and_test" [ALoc; AVal (ECast CStatic TStorage (EVar "v")); AVal (EVar "order")])];
  Fn 450 TBool "or_and_test" [Par "v" TValue false None; Par "order" TOrder false (Some SeqCst)] None
    [SReturn (ECall "extra_operations" "or_and_test" [ALoc; AVal (ECast CStatic TStorage (EVar "v")); AVal (EVar "order")])];
  Fn 455 TBool "xor_and_test" [Par "v" TValue false None; Par "order" TOrder false (Some SeqCst)] None
    [SReturn (ECall "extra_operations" "xor_and_test" [ALoc; AVal (ECast CStatic TStorage (EVar "v")); AVal (EVar "order")])];
  Fn 460 TBool "complement_and_test" [Par "order" TOrder false (Some SeqCst)] None
    [SReturn (ECall "extra_operations" "complement_and_test" [ALoc; AVal (EVar "order")])];
  Fn 465 TBool "bit_test_and_set" [Par "bit_number" TUInt false None; Par "order" TOrder false (Some SeqCst)] None
    [SReturn (ECall "extra_operations" "bit_test_and_set" [ALoc; AVal (EVar "bit_number"); AVal (EVar "order")])];
  Fn 471 TBool "bit_test_and_reset" [Par "bit_number" TUInt false None; Par "order" TOrder false (Some SeqCst)] None
    [SReturn (ECall "extra_operations" "bit_test_and_reset" [ALoc; AVal (EVar "bit_number"); AVal (EVar "order")])];
  Fn 477 TBool "bit_test_and_complement" [Par "bit_number" TUInt false None; Par "order" TOrder false (Some SeqCst)] None
    [SReturn (ECall "extra_operations" "bit_test_and_complement" [ALoc; AVal (EVar "bit_number"); AVal (EVar "order")])];
  Fn 483 TValue "operator&=" [Par "v" TValue false None] None
    [SReturn (ECall "" "bitwise_and" [AVal (EVar "v")])];
  Fn 488 TValue "operator|=" [Par "v" TValue false None] None
    [SReturn (ECall "" "bitwise_or" [AVal (EVar "v")])];
  Fn 493 TValue "operator^=" [Par "v" TValue false None] None
    [SReturn (ECall "" "bitwise_xor" [AVal (EVar "v")])];
  Fn 498 TValue "wait" [Par "old_val" TValue false None; Par "order" TOrder false (Some SeqCst)] None
    [SReturn (ECast CBits TValue (ECall "wait_operations" "wait" [ALoc; AVal (ECast CStatic TStorage (EVar "old_val")); AVal (EVar "order")]))];
  Fn 536 TBool "compare_exchange_strong_impl" [Par "expected" TValue true None; Par "desired" TValue false None; Par "success_order" TOrder false None; Par "failure_order" TOrder false None] (Some false)
    [SReturn (ECall "core_operations" "compare_exchange_strong" [ALoc; AReint "expected"; AVal (ECast CStatic TStorage (EVar "desired")); AVal (EVar "success_order"); AVal (EVar "failure_order")])];
  Fn 543 TBool "compare_exchange_strong_impl" [Par "expected" TValue true None; Par "desired" TValue false None; Par "success_order" TOrder false None; Par "failure_order" TOrder false None] (Some true)
    [SInit TStorage "old_value" (ECast CStatic TStorage (EVar "expected")); SInit TBool "res" (ECall "core_operations" "compare_exchange_strong" [ALoc; ARef "old_value"; AVal (ECast CStatic TStorage (EVar "desired")); AVal (EVar "success_order"); AVal (EVar "failure_order")]); SSet "expected" (ECast CBits TValue (EVar "old_value")); SReturn (EVar "res")];
  Fn 552 TBool "compare_exchange_weak_impl" [Par "expected" TValue true None; Par "desired" TValue false None; Par "success_order" TOrder false None; Par "failure_order" TOrder false None] (Some false)
    [SReturn (ECall "core_operations" "compare_exchange_weak" [ALoc; AReint "expected"; AVal (ECast CStatic TStorage (EVar "desired")); AVal (EVar "success_order"); AVal (EVar "failure_order")])];
  Fn 559 TBool "compare_exchange_weak_impl" [Par "expected" TValue true None; Par "desired" TValue false None; Par "success_order" TOrder false None; Par "failure_order" TOrder false None] (Some true)
    [SInit TStorage "old_value" (ECast CStatic TStorage (EVar "expected")); SInit TBool "res" (ECall "core_operations" "compare_exchange_weak" [ALoc; ARef "old_value"; AVal (ECast CStatic TStorage (EVar "desired")); AVal (EVar "success_order"); AVal (EVar "failure_order")]); SSet "expected" (ECast CBits TValue (EVar "old_value")); SReturn (EVar "res")]
].

(** detail/atomic_ref_impl.hpp:571 base_atomic_ref < T , int , Interprocess > *)
Definition atomic_ref_impl_571 : cls := Cls "detail/atomic_ref_impl.hpp" 571 "base_atomic_ref < T , int , Interprocess >" [] [
  Fn 605 TVoid "store" [Par "v" TValue false None; Par "order" TOrder false (Some SeqCst)] None
    [SDo (ECall "core_operations" "store" [ALoc; AVal (ECast CStatic TStorage (EVar "v")); AVal (EVar "order")])];
  Fn 614 TValue "load" [Par "order" TOrder false (Some SeqCst)] None
    [SReturn (ECast CBits TValue (ECall "core_operations" "load" [ALoc; AVal (EVar "order")]))];
  Fn 622 TValue "fetch_add" [Par "v" TValue false None; Par "order" TOrder false (Some SeqCst)] None
    [SReturn (ECast CBits TValue (ECall "core_operations" "fetch_add" [ALoc; AVal (ECast CStatic TStorage (EVar "v")); AVal (EVar "order")]))];
  Fn 627 TValue "fetch_sub" [Par "v" TValue false None; Par "order" TOrder false (Some SeqCst)] None
    [SReturn (ECast CBits TValue (ECall "core_operations" "fetch_sub" [ALoc; AVal (ECast CStatic TStorage (EVar "v")); AVal (EVar "order")]))];
  Fn 632 TValue "exchange" [Par "v" TValue false None; Par "order" TOrder false (Some SeqCst)] None
    [SReturn (ECast CBits TValue (ECall "core_operations" "exchange" [ALoc; AVal (ECast CStatic TStorage (EVar "v")); AVal (EVar "order")]))];
  Fn 637 TBool "compare_exchange_strong" [Par "expected" TValue true None; Par "desired" TValue false None; Par "success_order" TOrder false None; Par "failure_order" TOrder false None] None
    [SReturn (ECall "" "compare_exchange_strong_impl" [ARef "expected"; AVal (EVar "desired"); AVal (EVar "success_order"); AVal (EVar "failure_order"); ATag "cxchg_use_bitwise_cast"])];
  Fn 646 TBool "compare_exchange_strong" [Par "expected" TValue true None; Par "desired" TValue false None; Par "order" TOrder false (Some SeqCst)] None
    [SReturn (ECall "" "compare_exchange_strong" [ARef "expected"; AVal (EVar "desired"); AVal (EVar "order"); AVal (EFail (EVar "order"))])];
  Fn 651 TBool "compare_exchange_weak" [Par "expected" TValue true None; Par "desired" TValue false None; Par "success_order" TOrder false None; Par "failure_order" TOrder false None] None
    [SReturn (ECall "" "compare_exchange_weak_impl" [ARef "expected"; AVal (EVar "desired"); AVal (EVar "success_order"); AVal (EVar "failure_order"); ATag "cxchg_use_bitwise_cast"])];
  Fn 660 TBool "compare_exchange_weak" [Par "expected" TValue true None; Par "desired" TValue false None; Par "order" TOrder false (Some SeqCst)] None
    [SReturn (ECall "" "compare_exchange_weak" [ARef "expected"; AVal (EVar "desired"); AVal (EVar "order"); AVal (EFail (EVar "order"))])];
  Fn 665 TValue "fetch_and" [Par "v" TValue false None; Par "order" TOrder false (Some SeqCst)] None
    [SReturn (ECast CBits TValue (ECall "core_operations" "fetch_and" [ALoc; AVal (ECast CStatic TStorage (EVar "v")); AVal (EVar "order")]))];
  Fn 670 TValue "fetch_or" [Par "v" TValue false None; Par "order" TOrder false (Some SeqCst)] None
    [SReturn (ECast CBits TValue (ECall "core_operations" "fetch_or" [ALoc; AVal (ECast CStatic TStorage (EVar "v")); AVal (EVar "order")]))];
  Fn 675 TValue "fetch_xor" [Par "v" TValue false None; Par "order" TOrder false (Some SeqCst)] None
    [SReturn (ECast CBits TValue (ECall "core_operations" "fetch_xor" [ALoc; AVal (ECast CStatic TStorage (EVar "v")); AVal (EVar "order")]))];
  Fn 681 TValue "fetch_negate" [Par "order" TOrder false (Some SeqCst)] None
    [SReturn (ECast CBits TValue (ECall "extra_operations" "fetch_negate" [ALoc; AVal (EVar "order")]))];
  Fn 686 TValue "fetch_complement" [Par "order" TOrder false (Some SeqCst)] None
    [SReturn (ECast CBits TValue (ECall "extra_operations" "fetch_complement" [ALoc; AVal (EVar "order")]))];
  Fn 691 TValue "add" [Par "v" TValue false None; Par "order" TOrder false (Some SeqCst)] None
    [SReturn (ECast CBits TValue (ECall "extra_operations" "add" [ALoc; AVal (ECast CStatic TStorage (EVar "v")); AVal (EVar "order")]))];
  Fn 696 TValue "sub" [Par "v" TValue false None; Par "order" TOrder false (Some SeqCst)] None
    [SReturn (ECast CBits TValue (ECall "extra_operations" "sub" [ALoc; AVal (ECast CStatic TStorage (EVar "v")); AVal (EVar "order")]))];
  Fn 701 TValue "negate" [Par "order" TOrder false (Some SeqCst)] None
    [SReturn (ECast CBits TValue (ECall "extra_operations" "negate" [ALoc; AVal (EVar "order")]))];
  Fn 706 TValue "bitwise_and" [Par "v" TValue false None; Par "order" TOrder false (Some SeqCst)] None
    [SReturn (ECast CBits TValue (ECall "extra_operations" "bitwise_and" [ALoc; AVal (ECast CStatic TStorage (EVar "v")); AVal (EVar "order")]))];
  Fn 711 TValue "bitwise_or" [Par "v" TValue false None; Par "order" TOrder false (Some SeqCst)] None
    [SReturn (ECast CBits TValue (ECall "extra_operations" "bitwise_or" [ALoc; AVal (ECast CStatic TStorage (EVar "v")); AVal (EVar "order")]))];
  Fn 716 TValue "bitwise_xor" [Par "v" TValue false None; Par "order" TOrder false (Some SeqCst)] None
    [SReturn (ECast CBits TValue (ECall "extra_operations" "bitwise_xor" [ALoc; AVal (ECast CStatic TStorage (EVar "v")); AVal (EVar "order")]))];
  Fn 721 TValue "bitwise_complement" [Par "order" TOrder false (Some SeqCst)] None
    [SReturn (ECast CBits TValue (ECall "extra_operations" "bitwise_complement" [ALoc; AVal (EVar "order")]))];
  Fn 726 TVoid "opaque_add" [Par "v" TValue false None; Par "order" TOrder false (Some SeqCst)] None
    [SDo (ECall "extra_operations" "opaque_add" [ALoc; AVal (ECast CStatic TStorage (EVar "v")); AVal (EVar "order")])];
  Fn 731 TVoid "opaque_sub" [Par "v" TValue false None; Par "order" TOrder false (Some SeqCst)] None
    [SDo (ECall "extra_operations" "opaque_sub" [ALoc; AVal (ECast CStatic TStorage (EVar "v")); AVal (EVar "order")])];
  Fn 736 TVoid "opaque_negate" [Par "order" TOrder false (Some SeqCst)] None
    [SDo (ECall "extra_operations" "opaque_negate" [ALoc; AVal (EVar "order")])];
  Fn 741 TVoid "opaque_and" [Par "v" TValue false None; Par "order" TOrder false (Some SeqCst)] None
    [SDo (ECall "extra_operations" "opaque_and" [ALoc; AVal (ECast CStatic TStorage (EVar "v")); AVal (EVar "order")])];
  Fn 746 TVoid "opaque_or" [Par "v" TValue false None; Par "order" TOrder false (Some SeqCst)] None
    [SDo (ECall "extra_operations" "opaque_or" [ALoc; AVal (ECast CStatic TStorage (EVar "v")); AVal (EVar "order")])];
  Fn 751 TVoid "opaque_xor" [Par "v" TValue false None; Par "order" TOrder false (Some SeqCst)] None
    [SDo (ECall "extra_operations" "opaque_xor" [ALoc; AVal (ECast CStatic TStorage (EVar "v")); AVal (EVar "order")])];
  Fn 756 TVoid "opaque_complement" [Par "order" TOrder false (Some SeqCst)] None
    [SDo (ECall "extra_operations" "opaque_complement" [ALoc; AVal (EVar "order")])];
  Fn 761 TBool "add_and_test" [Par "v" TValue false None; Par "order" TOrder false (Some SeqCst)] None
    [SReturn (ECall "extra_operations" "add_and_test" [ALoc; AVal (ECast CStatic TStorage (EVar "v")); AVal (EVar "order")])];
  Fn 766 TBool "sub_and_test" [Par "v" TValue false None; Par "order" TOrder false (Some SeqCst)] None
    [SReturn (ECall "extra_operations" "sub_and_test" [ALoc; AVal (ECast CStatic TStorage (EVar "v")); AVal (EVar "order")])];
  Fn 771 TBool "negate_and_test" [Par "order" TOrder false (Some SeqCst)] None
    [SReturn (ECall "extra_operations" "negate_and_test" [ALoc; AVal (EVar "order")])];
  Fn 776 TBool "and_and_test" [Par "v" TValue false None; Par "order" TOrder false (Some SeqCst)] None
    [SReturn (ECall "extra_operations" "and_and_test" [ALoc; AVal (ECast CStatic TStorage (EVar "v")); AVal (EVar "order")])];
  Fn 781 TBool "or_and_test" [Par "v" TValue false None; Par "order" TOrder false (Some SeqCst)] None
    [SReturn (ECall "extra_operations" "or_and_test" [ALoc; AVal (ECast CStatic TStorage (EVar "v")); AVal (EVar "order")])];
  Fn 786 TBool "xor_and_test" [Par "v" TValue false None; Par "order" TOrder false (Some SeqCst)] None
    [SReturn (ECall "extra_operations" "xor_and_test" [ALoc; AVal (ECast CStatic TStorage (EVar "v")); AVal (EVar "order")])];
  Fn 791 TBool "complement_and_test" [Par "order" TOrder false (Some SeqCst)] None
    [SReturn (ECall "extra_operations" "complement_and_test" [ALoc; AVal (EVar "order")])];
  Fn 796 TBool "bit_test_and_set" [Par "bit_number" TUInt false None; Par "order" TOrder false (Some SeqCst)] None
    [SReturn (ECall "extra_operations" "bit_test_and_set" [ALoc; AVal (EVar "bit_number"); AVal (EVar "order")])];
  Fn 802 TBool "bit_test_and_reset" [Par "bit_number" TUInt false None; Par "order" TOrder false (Some SeqCst)] None
    [SReturn (ECall "extra_operations" "bit_test_and_reset" [ALoc; AVal (EVar "bit_number"); AVal (EVar "order")])];
  Fn 808 TBool "bit_test_and_complement" [Par "bit_number" TUInt false None; Par "order" TOrder false (Some SeqCst)] None
    [SReturn (ECall "extra_operations" "bit_test_and_complement" [ALoc; AVal (EVar "bit_number"); AVal (EVar "order")])];
  Fn 815 TValue "operator++(int)" [] None
    [SReturn (ECall "" "fetch_add" [AVal (ENum 1)])];
  Fn 820 TValue "operator++" [] None
    [SReturn (ECall "" "add" [AVal (ENum 1)])];
  Fn 825 TValue "operator--(int)" [] None
    [SReturn (ECall "" "fetch_sub" [AVal (ENum 1)])];
  Fn 830 TValue "operator--" [] None
    [SReturn (ECall "" "sub" [AVal (ENum 1)])];
  Fn 835 TValue "operator+=" [Par "v" TValue false None] None
    [SReturn (ECall "" "add" [AVal (EVar "v")])];
  Fn 840 TValue "operator-=" [Par "v" TValue false None] None
    [SReturn (ECall "" "sub" [AVal (EVar "v")])];
  Fn 845 TValue "operator&=" [Par "v" TValue false None] None
    [SReturn (ECall "" "bitwise_and" [AVal (EVar "v")])];
  Fn 850 TValue "operator|=" [Par "v" TValue false None] None
    [SReturn (ECall "" "bitwise_or" [AVal (EVar "v")])];
  Fn 855 TValue "operator^=" [Par "v" TValue false None] None
    [SReturn (ECall "" "bitwise_xor" [AVal (EVar "v")])];
  Fn 860 TValue "wait" [Par "old_val" TValue false None; Par "order" TOrder false (Some SeqCst)] None
    [SReturn (ECast CBits TValue (ECall "wait_operations" "wait" [ALoc; AVal (ECast CStatic TStorage (EVar "old_val")); AVal (EVar "order")]))];
  Fn 898 TBool "compare_exchange_strong_impl" [Par "expected" TValue true None; Par "desired" TValue false None; Par "success_order" TOrder false None; Par "failure_order" TOrder false None] (Some false)
    [SReturn (ECall "core_operations" "compare_exchange_strong" [ALoc; AReint "expected"; AVal (ECast CStatic TStorage (EVar "desired")); AVal (EVar "success_order"); AVal (EVar "failure_order")])];
  Fn 905 TBool "compare_exchange_strong_impl" [Par "expected" TValue true None; Par "desired" TValue false None; Par "success_order" TOrder false None; Par "failure_order" TOrder false None] (Some true)
    [SInit TStorage "old_value" (ECast CStatic TStorage (EVar "expected")); SInit TBool "res" (ECall "core_operations" "compare_exchange_strong" [ALoc; ARef "old_value"; AVal (ECast CStatic TStorage (EVar "desired")); AVal (EVar "success_order"); AVal (EVar "failure_order")]); SSet "expected" (ECast CBits TValue (EVar "old_value")); SReturn (EVar "res")];
  Fn 914 TBool "compare_exchange_weak_impl" [Par "expected" TValue true None; Par "desired" TValue false None; Par "success_order" TOrder false None; Par "failure_order" TOrder false None] (Some false)
    [SReturn (ECall "core_operations" "compare_exchange_weak" [ALoc; AReint "expected"; AVal (ECast CStatic TStorage (EVar "desired")); AVal (EVar "success_order"); AVal (EVar "failure_order")])];
  Fn 921 TBool "compare_exchange_weak_impl" [Par "expected" TValue true None; Par "desired" TValue false None; Par "success_order" TOrder false None; Par "failure_order" TOrder false None] (Some true)
    [SInit TStorage "old_value" (ECast CStatic TStorage (EVar "expected")); SInit TBool "res" (ECall "core_operations" "compare_exchange_weak" [ALoc; ARef "old_value"; AVal (ECast CStatic TStorage (EVar "desired")); AVal (EVar "success_order"); AVal (EVar "failure_order")]); SSet "expected" (ECast CBits TValue (EVar "old_value")); SReturn (EVar "res")]
].

(** detail/atomic_ref_impl.hpp:932 base_atomic_ref < bool , int , Interprocess > *)
Definition atomic_ref_impl_932 : cls := Cls "detail/atomic_ref_impl.hpp" 932 "base_atomic_ref < bool , int , Interprocess >" [] [
  Fn 964 TVoid "store" [Par "v" TValue false None; Par "order" TOrder false (Some SeqCst)] None
    [SDo (ECall "core_operations" "store" [ALoc; AVal (ECast CStatic TStorage (EVar "v")); AVal (EVar "order")])];
  Fn 973 TValue "load" [Par "order" TOrder false (Some SeqCst)] None
    [SReturn (EUn UNot (EUn UNot (ECall "core_operations" "load" [ALoc; AVal (EVar "order")])))];
  Fn 981 TValue "exchange" [Par "v" TValue false None; Par "order" TOrder false (Some SeqCst)] None
    [SReturn (EUn UNot (EUn UNot (ECall "core_operations" "exchange" [ALoc; AVal (ECast CStatic TStorage (EVar "v")); AVal (EVar "order")])))];
  Fn 986 TBool "compare_exchange_strong" [Par "expected" TValue true None; Par "desired" TValue false None; Par "success_order" TOrder false None; Par "failure_order" TOrder false None] None
    [SReturn (ECall "" "compare_exchange_strong_impl" [ARef "expected"; AVal (EVar "desired"); AVal (EVar "success_order"); AVal (EVar "failure_order"); ATag "cxchg_use_bitwise_cast"])];
  Fn 995 TBool "compare_exchange_strong" [Par "expected" TValue true None; Par "desired" TValue false None; Par "order" TOrder false (Some SeqCst)] None
    [SReturn (ECall "" "compare_exchange_strong" [ARef "expected"; AVal (EVar "desired"); AVal (EVar "order"); AVal (EFail (EVar "order"))])];
  Fn 1000 TBool "compare_exchange_weak" [Par "expected" TValue true None; Par "desired" TValue false None; Par "success_order" TOrder false None; Par "failure_order" TOrder false None] None
    [SReturn (ECall "" "compare_exchange_weak_impl" [ARef "expected"; AVal (EVar "desired"); AVal (EVar "success_order"); AVal (EVar "failure_order"); ATag "cxchg_use_bitwise_cast"])];
  Fn 1009 TBool "compare_exchange_weak" [Par "expected" TValue true None; Par "desired" TValue false None; Par "order" TOrder false (Some SeqCst)] None
    [SReturn (ECall "" "compare_exchange_weak" [ARef "expected"; AVal (EVar "desired"); AVal (EVar "order"); AVal (EFail (EVar "order"))])];
  Fn 1014 TValue "wait" [Par "old_val" TValue false None; Par "order" TOrder false (Some SeqCst)] None
    [SReturn (EUn UNot (EUn UNot (ECall "wait_operations" "wait" [ALoc; AVal (ECast CStatic TStorage (EVar "old_val")); AVal (EVar "order")])))];
  Fn 1052 TBool "compare_exchange_strong_impl" [Par "expected" TValue true None; Par "desired" TValue false None; Par "success_order" TOrder false None; Par "failure_order" TOrder false None] (Some false)
    [SReturn (ECall "core_operations" "compare_exchange_strong" [ALoc; AReint "expected"; AVal (ECast CStatic TStorage (EVar "desired")); AVal (EVar "success_order"); AVal (EVar "failure_order")])];
  Fn 1059 TBool "compare_exchange_strong_impl" [Par "expected" TValue true None; Par "desired" TValue false None; Par "success_order" TOrder false None; Par "failure_order" TOrder false None] (Some true)
    [SInit TStorage "old_value" (ECast CStatic TStorage (EVar "expected")); SInit TBool "res" (ECall "core_operations" "compare_exchange_strong" [ALoc; ARef "old_value"; AVal (ECast CStatic TStorage (EVar "desired")); AVal (EVar "success_order"); AVal (EVar "failure_order")]); SSet "expected" (EUn UNot (EUn UNot (EVar "old_value"))); SReturn (EVar "res")];
  Fn 1068 TBool "compare_exchange_weak_impl" [Par "expected" TValue true None; Par "desired" TValue false None; Par "success_order" TOrder false None; Par "failure_order" TOrder false None] (Some false)
    [SReturn (ECall "core_operations" "compare_exchange_weak" [ALoc; AReint "expected"; AVal (ECast CStatic TStorage (EVar "desired")); AVal (EVar "success_order"); AVal (EVar "failure_order")])];
  Fn 1075 TBool "compare_exchange_weak_impl" [Par "expected" TValue true None; Par "desired" TValue false None; Par "success_order" TOrder false None; Par "failure_order" TOrder false None] (Some true)
    [SInit TStorage "old_value" (ECast CStatic TStorage (EVar "expected")); SInit TBool "res" (ECall "core_operations" "compare_exchange_weak" [ALoc; ARef "old_value"; AVal (ECast CStatic TStorage (EVar "desired")); AVal (EVar "success_order"); AVal (EVar "failure_order")]); SSet "expected" (EUn UNot (EUn UNot (EVar "old_value"))); SReturn (EVar "res")]
].

(** detail/atomic_ref_impl.hpp:1089 base_atomic_ref < T , float , Interprocess > *)
Definition atomic_ref_impl_1089 : cls := Cls "detail/atomic_ref_impl.hpp" 1089 "base_atomic_ref < T , float , Interprocess >" [] [
  Fn 1132 TVoid "store" [Par "v" TValue false None; Par "order" TOrder false (Some SeqCst)] None
    [SDo (ECall "core_operations" "store" [ALoc; AVal (ECast CFpBits TStorage (EVar "v")); AVal (EVar "order")])];
  Fn 1141 TValue "load" [Par "order" TOrder false (Some SeqCst)] None
    [SReturn (ECast CFpBits TValue (ECall "core_operations" "load" [ALoc; AVal (EVar "order")]))];
  Fn 1149 TValue "fetch_add" [Par "v" TValue false None; Par "order" TOrder false (Some SeqCst)] None
    [SReturn (ECall "fp_operations" "fetch_add" [ALoc; AVal (EVar "v"); AVal (EVar "order")])];
  Fn 1154 TValue "fetch_sub" [Par "v" TValue false None; Par "order" TOrder false (Some SeqCst)] None
    [SReturn (ECall "fp_operations" "fetch_sub" [ALoc; AVal (EVar "v"); AVal (EVar "order")])];
  Fn 1159 TValue "exchange" [Par "v" TValue false None; Par "order" TOrder false (Some SeqCst)] None
    [SReturn (ECast CFpBits TValue (ECall "core_operations" "exchange" [ALoc; AVal (ECast CFpBits TStorage (EVar "v")); AVal (EVar "order")]))];
  Fn 1164 TBool "compare_exchange_strong" [Par "expected" TValue true None; Par "desired" TValue false None; Par "success_order" TOrder false None; Par "failure_order" TOrder false None] None
    [SReturn (ECall "" "compare_exchange_strong_impl" [ARef "expected"; AVal (EVar "desired"); AVal (EVar "success_order"); AVal (EVar "failure_order"); ATag "cxchg_use_bitwise_cast"])];
  Fn 1173 TBool "compare_exchange_strong" [Par "expected" TValue true None; Par "desired" TValue false None; Par "order" TOrder false (Some SeqCst)] None
    [SReturn (ECall "" "compare_exchange_strong" [ARef "expected"; AVal (EVar "desired"); AVal (EVar "order"); AVal (EFail (EVar "order"))])];
  Fn 1178 TBool "compare_exchange_weak" [Par "expected" TValue true None; Par "desired" TValue false None; Par "success_order" TOrder false None; Par "failure_order" TOrder false None] None
    [SReturn (ECall "" "compare_exchange_weak_impl" [ARef "expected"; AVal (EVar "desired"); AVal (EVar "success_order"); AVal (EVar "failure_order"); ATag "cxchg_use_bitwise_cast"])];
  Fn 1187 TBool "compare_exchange_weak" [Par "expected" TValue true None; Par "desired" TValue false None; Par "order" TOrder false (Some SeqCst)] None
    [SReturn (ECall "" "compare_exchange_weak" [ARef "expected"; AVal (EVar "desired"); AVal (EVar "order"); AVal (EFail (EVar "order"))])];
  Fn 1193 TValue "fetch_negate" [Par "order" TOrder false (Some SeqCst)] None
    [SReturn (ECall "extra_fp_operations" "fetch_negate" [ALoc; AVal (EVar "order")])];
  Fn 1198 TValue "add" [Par "v" TValue false None; Par "order" TOrder false (Some SeqCst)] None
    [SReturn (ECall "extra_fp_operations" "add" [ALoc; AVal (EVar "v"); AVal (EVar "order")])];
  Fn 1203 TValue "sub" [Par "v" TValue false None; Par "order" TOrder false (Some SeqCst)] None
    [SReturn (ECall "extra_fp_operations" "sub" [ALoc; AVal (EVar "v"); AVal (EVar "order")])];
  Fn 1208 TValue "negate" [Par "order" TOrder false (Some SeqCst)] None
    [SReturn (ECall "extra_fp_operations" "negate" [ALoc; AVal (EVar "order")])];
  Fn 1213 TVoid "opaque_add" [Par "v" TValue false None; Par "order" TOrder false (Some SeqCst)] None
    [SDo (ECall "extra_fp_operations" "opaque_add" [ALoc; AVal (EVar "v"); AVal (EVar "order")])];
  Fn 1218 TVoid "opaque_sub" [Par "v" TValue false None; Par "order" TOrder false (Some SeqCst)] None
    [SDo (ECall "extra_fp_operations" "opaque_sub" [ALoc; AVal (EVar "v"); AVal (EVar "order")])];
  Fn 1223 TVoid "opaque_negate" [Par "order" TOrder false (Some SeqCst)] None
    [SDo (ECall "extra_fp_operations" "opaque_negate" [ALoc; AVal (EVar "order")])];
  Fn 1229 TValue "operator+=" [Par "v" TValue false None] None
    [SReturn (ECall "" "add" [AVal (EVar "v")])];
  Fn 1234 TValue "operator-=" [Par "v" TValue false None] None
    [SReturn (ECall "" "sub" [AVal (EVar "v")])];
  Fn 1239 TValue "wait" [Par "old_val" TValue false None; Par "order" TOrder false (Some SeqCst)] None
    [SReturn (ECast CFpBits TValue (ECall "wait_operations" "wait" [ALoc; AVal (ECast CFpBits TStorage (EVar "old_val")); AVal (EVar "order")]))];
  Fn 1288 TBool "compare_exchange_strong_impl" [Par "expected" TValue true None; Par "desired" TValue false None; Par "success_order" TOrder false None; Par "failure_order" TOrder false None] (Some false)
    [SReturn (ECall "core_operations" "compare_exchange_strong" [ALoc; AReint "expected"; AVal (ECast CFpBits TStorage (EVar "desired")); AVal (EVar "success_order"); AVal (EVar "failure_order")])];
  Fn 1295 TBool "compare_exchange_strong_impl" [Par "expected" TValue true None; Par "desired" TValue false None; Par "success_order" TOrder false None; Par "failure_order" TOrder false None] (Some true)
    [SInit TStorage "old_value" (ECast CFpBits TStorage (EVar "expected")); SInit TBool "res" (ECall "core_operations" "compare_exchange_strong" [ALoc; ARef "old_value"; AVal (ECast CFpBits TStorage (EVar "desired")); AVal (EVar "success_order"); AVal (EVar "failure_order")]); SSet "expected" (ECast CFpBits TValue (EVar "old_value")); SReturn (EVar "res")];
  Fn 1305 TBool "compare_exchange_weak_impl" [Par "expected" TValue true None; Par "desired" TValue false None; Par "success_order" TOrder false None; Par "failure_order" TOrder false None] (Some false)
    [SReturn (ECall "core_operations" "compare_exchange_weak" [ALoc; AReint "expected"; AVal (ECast CFpBits TStorage (EVar "desired")); AVal (EVar "success_order"); AVal (EVar "failure_order")])];
  Fn 1312 TBool "compare_exchange_weak_impl" [Par "expected" TValue true None; Par "desired" TValue false None; Par "success_order" TOrder false None; Par "failure_order" TOrder false None] (Some true)
    [SInit TStorage "old_value" (ECast CFpBits TStorage (EVar "expected")); SInit TBool "res" (ECall "core_operations" "compare_exchange_weak" [ALoc; ARef "old_value"; AVal (ECast CFpBits TStorage (EVar "desired")); AVal (EVar "success_order"); AVal (EVar "failure_order")]); SSet "expected" (ECast CFpBits TValue (EVar "old_value")); SReturn (EVar "res")]
].

(** detail/atomic_ref_impl.hpp:1327 base_atomic_ref < T * , void * , Interprocess > *)
Definition atomic_ref_impl_1327 : cls := Cls "detail/atomic_ref_impl.hpp" 1327 "base_atomic_ref < T * , void * , Interprocess >" [] [
  Fn 1361 TVoid "store" [Par "v" TValue false None; Par "order" TOrder false (Some SeqCst)] None
    [SDo (ECall "core_operations" "store" [ALoc; AVal (ECast CBits TStorage (EVar "v")); AVal (EVar "order")])];
  Fn 1370 TValue "load" [Par "order" TOrder false (Some SeqCst)] None
    [SReturn (ECast CBits TValue (ECall "core_operations" "load" [ALoc; AVal (EVar "order")]))];
  Fn 1378 TValue "fetch_add" [Par "v" TDiff false None; Par "order" TOrder false (Some SeqCst)] None
    [SReturn (ECast CBits TValue (ECall "core_operations" "fetch_add" [ALoc; AVal (ECast CStatic TStorage (EBin OMul (EVar "v") (ESizeT))); AVal (EVar "order")]))];
  Fn 1383 TValue "fetch_sub" [Par "v" TDiff false None; Par "order" TOrder false (Some SeqCst)] None
    [SReturn (ECast CBits TValue (ECall "core_operations" "fetch_sub" [ALoc; AVal (ECast CStatic TStorage (EBin OMul (EVar "v") (ESizeT))); AVal (EVar "order")]))];
  Fn 1388 TValue "exchange" [Par "v" TValue false None; Par "order" TOrder false (Some SeqCst)] None
    [SReturn (ECast CBits TValue (ECall "core_operations" "exchange" [ALoc; AVal (ECast CBits TStorage (EVar "v")); AVal (EVar "order")]))];
  Fn 1393 TBool "compare_exchange_strong" [Par "expected" TValue true None; Par "desired" TValue false None; Par "success_order" TOrder false None; Par "failure_order" TOrder false None] None
    [SReturn (ECall "" "compare_exchange_strong_impl" [ARef "expected"; AVal (EVar "desired"); AVal (EVar "success_order"); AVal (EVar "failure_order"); ATag "cxchg_use_bitwise_cast"])];
  Fn 1402 TBool "compare_exchange_strong" [Par "expected" TValue true None; Par "desired" TValue false None; Par "order" TOrder false (Some SeqCst)] None
    [SReturn (ECall "" "compare_exchange_strong" [ARef "expected"; AVal (EVar "desired"); AVal (EVar "order"); AVal (EFail (EVar "order"))])];
  Fn 1407 TBool "compare_exchange_weak" [Par "expected" TValue true None; Par "desired" TValue false None; Par "success_order" TOrder false None; Par "failure_order" TOrder false None] None
    [SReturn (ECall "" "compare_exchange_weak_impl" [ARef "expected"; AVal (EVar "desired"); AVal (EVar "success_order"); AVal (EVar "failure_order"); ATag "cxchg_use_bitwise_cast"])];
  Fn 1416 TBool "compare_exchange_weak" [Par "expected" TValue true None; Par "desired" TValue false None; Par "order" TOrder false (Some SeqCst)] None
    [SReturn (ECall "" "compare_exchange_weak" [ARef "expected"; AVal (EVar "desired"); AVal (EVar "order"); AVal (EFail (EVar "order"))])];
  Fn 1422 TValue "add" [Par "v" TDiff false None; Par "order" TOrder false (Some SeqCst)] None
    [SReturn (ECast CBits TValue (ECall "extra_operations" "add" [ALoc; AVal (ECast CStatic TStorage (EBin OMul (EVar "v") (ESizeT))); AVal (EVar "order")]))];
  Fn 1427 TValue "sub" [Par "v" TDiff false None; Par "order" TOrder false (Some SeqCst)] None
    [SReturn (ECast CBits TValue (ECall "extra_operations" "sub" [ALoc; AVal (ECast CStatic TStorage (EBin OMul (EVar "v") (ESizeT))); AVal (EVar "order")]))];
  Fn 1432 TVoid "opaque_add" [Par "v" TDiff false None; Par "order" TOrder false (Some SeqCst)] None
    [SDo (ECall "extra_operations" "opaque_add" [ALoc; AVal (ECast CStatic TStorage (EBin OMul (EVar "v") (ESizeT))); AVal (EVar "order")])];
  Fn 1437 TVoid "opaque_sub" [Par "v" TDiff false None; Par "order" TOrder false (Some SeqCst)] None
    [SDo (ECall "extra_operations" "opaque_sub" [ALoc; AVal (ECast CStatic TStorage (EBin OMul (EVar "v") (ESizeT))); AVal (EVar "order")])];
  Fn 1442 TBool "add_and_test" [Par "v" TDiff false None; Par "order" TOrder false (Some SeqCst)] None
    [SReturn (ECall "extra_operations" "add_and_test" [ALoc; AVal (ECast CStatic TStorage (EBin OMul (EVar "v") (ESizeT))); AVal (EVar "order")])];
  Fn 1447 TBool "sub_and_test" [Par "v" TDiff false None; Par "order" TOrder false (Some SeqCst)] None
    [SReturn (ECall "extra_operations" "sub_and_test" [ALoc; AVal (ECast CStatic TStorage (EBin OMul (EVar "v") (ESizeT))); AVal (EVar "order")])];
  Fn 1453 TValue "operator++(int)" [] None
    [SReturn (ECall "" "fetch_add" [AVal (ENum 1)])];
  Fn 1458 TValue "operator++" [] None
    [SReturn (ECall "" "add" [AVal (ENum 1)])];
  Fn 1463 TValue "operator--(int)" [] None
    [SReturn (ECall "" "fetch_sub" [AVal (ENum 1)])];
  Fn 1468 TValue "operator--" [] None
    [SReturn (ECall "" "sub" [AVal (ENum 1)])];
  Fn 1473 TValue "operator+=" [Par "v" TDiff false None] None
    [SReturn (ECall "" "add" [AVal (EVar "v")])];
  Fn 1478 TValue "operator-=" [Par "v" TDiff false None] None
    [SReturn (ECall "" "sub" [AVal (EVar "v")])];
  Fn 1483 TValue "wait" [Par "old_val" TValue false None; Par "order" TOrder false (Some SeqCst)] None
    [SReturn (ECast CBits TValue (ECall "wait_operations" "wait" [ALoc; AVal (ECast CBits TStorage (EVar "old_val")); AVal (EVar "order")]))];
  Fn 1521 TBool "compare_exchange_strong_impl" [Par "expected" TValue true None; Par "desired" TValue false None; Par "success_order" TOrder false None; Par "failure_order" TOrder false None] (Some false)
    [SReturn (ECall "core_operations" "compare_exchange_strong" [ALoc; AReint "expected"; AVal (ECast CBits TStorage (EVar "desired")); AVal (EVar "success_order"); AVal (EVar "failure_order")])];
  Fn 1528 TBool "compare_exchange_strong_impl" [Par "expected" TValue true None; Par "desired" TValue false None; Par "success_order" TOrder false None; Par "failure_order" TOrder false None] (Some true)
    [SInit TStorage "old_value" (ECast CBits TStorage (EVar "expected")); SInit TBool "res" (ECall "core_operations" "compare_exchange_strong" [ALoc; ARef "old_value"; AVal (ECast CBits TStorage (EVar "desired")); AVal (EVar "success_order"); AVal (EVar "failure_order")]); SSet "expected" (ECast CBits TValue (EVar "old_value")); SReturn (EVar "res")];
  Fn 1538 TBool "compare_exchange_weak_impl" [Par "expected" TValue true None; Par "desired" TValue false None; Par "success_order" TOrder false None; Par "failure_order" TOrder false None] (Some false)
    [SReturn (ECall "core_operations" "compare_exchange_weak" [ALoc; AReint "expected"; AVal (ECast CBits TStorage (EVar "desired")); AVal (EVar "success_order"); AVal (EVar "failure_order")])];
  Fn 1545 TBool "compare_exchange_weak_impl" [Par "expected" TValue true None; Par "desired" TValue false None; Par "success_order" TOrder false None; Par "failure_order" TOrder false None] (Some true)
    [SInit TStorage "old_value" (ECast CBits TStorage (EVar "expected")); SInit TBool "res" (ECall "core_operations" "compare_exchange_weak" [ALoc; ARef "old_value"; AVal (ECast CBits TStorage (EVar "desired")); AVal (EVar "success_order"); AVal (EVar "failure_order")]); SSet "expected" (ECast CBits TValue (EVar "old_value")); SReturn (EVar "res")]
].

(** detail/atomic_flag_impl.hpp:48 atomic_flag_impl *)
Definition atomic_flag_impl_48 : cls := Cls "detail/atomic_flag_impl.hpp" 48 "atomic_flag_impl" [] [
  Fn 60 TStorage "(constructor)" [] None
    [SReturn (ENum 0)];
  Fn 77 TBool "test" [Par "order" TOrder false (Some SeqCst)] None
    [SReturn (EUn UNot (EUn UNot (ECall "core_operations" "load" [ALoc; AVal (EVar "order")])))];
  Fn 84 TBool "test_and_set" [Par "order" TOrder false (Some SeqCst)] None
    [SReturn (ECall "core_operations" "test_and_set" [ALoc; AVal (EVar "order")])];
  Fn 89 TVoid "clear" [Par "order" TOrder false (Some SeqCst)] None
    [SDo (ECall "core_operations" "clear" [ALoc; AVal (EVar "order")])];
  Fn 97 TBool "wait" [Par "old_val" TBool false None; Par "order" TOrder false (Some SeqCst)] None
    [SReturn (EUn UNot (EUn UNot (ECall "wait_operations" "wait" [ALoc; AVal (ECast CStatic TStorage (EVar "old_val")); AVal (EVar "order")])))]
].

Definition text : list cls := [
  core_ops_gcc_atomic_54;
  core_ops_gcc_sync_62;
  core_ops_linux_arm_88;
  core_ops_windows_62;
  core_ops_windows_106;
  cas_based_exchange_30;
  core_ops_cas_based_30;
  extending_cas_based_arithmetic_33;
  extra_ops_generic_35;
  extra_ops_generic_200;
  fp_ops_generic_35;
  extra_fp_ops_generic_50;
  extra_fp_ops_generic_97;
  extra_fp_ops_generic_127;
  atomic_impl_66;
  atomic_impl_145;
  atomic_impl_164;
  atomic_impl_190;
  atomic_impl_353;
  atomic_impl_625;
  atomic_impl_988;
  atomic_impl_1147;
  atomic_impl_1372;
  atomic_ref_impl_147;
  atomic_ref_impl_303;
  atomic_ref_impl_571;
  atomic_ref_impl_932;
  atomic_ref_impl_1089;
  atomic_ref_impl_1327;
  atomic_flag_impl_48
].

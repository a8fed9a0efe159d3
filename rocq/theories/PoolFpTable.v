(** Generated by tools/extract_pool.py from src/lock_pool.cpp and include/boost/atomic/detail: do not edit.
    Each entry cites the file and lines of its function; S is src/lock_pool.cpp. *)
From Coq Require Import ZArith List String.
From Verif Require Import Order PoolText.
Import ListNotations.
Local Open Scope string_scope.
Local Open Scope Z_scope.

(** fp_operations_emulated in include/boost/atomic/detail/fp_ops_emulated.hpp *)
Definition fp_emulated_fns : list pfn := [
  {| pf_name := "fetch_add"; pf_cond := []; pf_params := [("v", TO, false); ("", TO, false)]; pf_lines := "D/fp_ops_emulated.hpp 42-51";
     pf_body := [SGuard "scoped_lock" "lock" [AVal (EAddr)] [SInit TO "old_val" (ECall "bitwise_fp_cast< value_type >" [AVal (EStor)]); SInit TO "new_val" (ECall "value_type+" [AVal (EVar "old_val"); AVal (EVar "v")]); SStore (ECall "bitwise_fp_cast< storage_type >" [AVal (EVar "new_val")]); SReturn (EVar "old_val")]] |};
  {| pf_name := "fetch_sub"; pf_cond := []; pf_params := [("v", TO, false); ("", TO, false)]; pf_lines := "D/fp_ops_emulated.hpp 53-62";
     pf_body := [SGuard "scoped_lock" "lock" [AVal (EAddr)] [SInit TO "old_val" (ECall "bitwise_fp_cast< value_type >" [AVal (EStor)]); SInit TO "new_val" (ECall "value_type-" [AVal (EVar "old_val"); AVal (EVar "v")]); SStore (ECall "bitwise_fp_cast< storage_type >" [AVal (EVar "new_val")]); SReturn (EVar "old_val")]] |}
].

(** extra_fp_operations_emulated in include/boost/atomic/detail/extra_fp_ops_emulated.hpp *)
Definition extra_fp_emulated_fns : list pfn := [
  {| pf_name := "fetch_negate"; pf_cond := []; pf_params := [("", TO, false)]; pf_lines := "D/extra_fp_ops_emulated.hpp 42-51";
     pf_body := [SGuard "scoped_lock" "lock" [AVal (EAddr)] [SInit TO "old_val" (ECall "bitwise_fp_cast< value_type >" [AVal (EStor)]); SInit TO "new_val" (ECall "-value_type" [AVal (EVar "old_val")]); SStore (ECall "bitwise_fp_cast< storage_type >" [AVal (EVar "new_val")]); SReturn (EVar "old_val")]] |};
  {| pf_name := "negate"; pf_cond := []; pf_params := [("", TO, false)]; pf_lines := "D/extra_fp_ops_emulated.hpp 53-62";
     pf_body := [SGuard "scoped_lock" "lock" [AVal (EAddr)] [SInit TO "old_val" (ECall "bitwise_fp_cast< value_type >" [AVal (EStor)]); SInit TO "new_val" (ECall "-value_type" [AVal (EVar "old_val")]); SStore (ECall "bitwise_fp_cast< storage_type >" [AVal (EVar "new_val")]); SReturn (EVar "new_val")]] |};
  {| pf_name := "add"; pf_cond := []; pf_params := [("v", TO, false); ("", TO, false)]; pf_lines := "D/extra_fp_ops_emulated.hpp 64-73";
     pf_body := [SGuard "scoped_lock" "lock" [AVal (EAddr)] [SInit TO "old_val" (ECall "bitwise_fp_cast< value_type >" [AVal (EStor)]); SInit TO "new_val" (ECall "value_type+" [AVal (EVar "old_val"); AVal (EVar "v")]); SStore (ECall "bitwise_fp_cast< storage_type >" [AVal (EVar "new_val")]); SReturn (EVar "new_val")]] |};
  {| pf_name := "sub"; pf_cond := []; pf_params := [("v", TO, false); ("", TO, false)]; pf_lines := "D/extra_fp_ops_emulated.hpp 75-84";
     pf_body := [SGuard "scoped_lock" "lock" [AVal (EAddr)] [SInit TO "old_val" (ECall "bitwise_fp_cast< value_type >" [AVal (EStor)]); SInit TO "new_val" (ECall "value_type-" [AVal (EVar "old_val"); AVal (EVar "v")]); SStore (ECall "bitwise_fp_cast< storage_type >" [AVal (EVar "new_val")]); SReturn (EVar "new_val")]] |};
  {| pf_name := "opaque_negate"; pf_cond := []; pf_params := [("order", TO, false)]; pf_lines := "D/extra_fp_ops_emulated.hpp 86-90";
     pf_body := [SDo (ECall "fetch_negate" [AVal (EVar "order")])] |};
  {| pf_name := "opaque_add"; pf_cond := []; pf_params := [("v", TO, false); ("order", TO, false)]; pf_lines := "D/extra_fp_ops_emulated.hpp 92-96";
     pf_body := [SDo (ECall "base_type::fetch_add" [AVal (EVar "v"); AVal (EVar "order")])] |};
  {| pf_name := "opaque_sub"; pf_cond := []; pf_params := [("v", TO, false); ("order", TO, false)]; pf_lines := "D/extra_fp_ops_emulated.hpp 98-102";
     pf_body := [SDo (ECall "base_type::fetch_sub" [AVal (EVar "v"); AVal (EVar "order")])] |}
].


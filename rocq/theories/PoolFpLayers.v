(** * Lock-based floating-point objects, as text

    The functions of D/fp_ops_emulated.hpp and D/extra_fp_ops_emulated.hpp (PoolFpTable.v) over the guards of PoolLayers.v. *)
From Coq Require Import ZArith List Bool String.
From Verif Require Import SpecInt SpecTyped SpecPool Order Conv Prog PoolModel PoolFront PoolText PoolTable PoolFpTable PoolLayers.
Import ListNotations.
Local Open Scope string_scope.
Local Open Scope Z_scope.
Local Open Scope prog_scope.

Section Fp.
  Variables (pl : platform) (t : tobj) (vw : Z) (ar : arith).
  Notation d := (t_desc t).

  (** a floating-point value is its representation, a number of [vw] bits; [ar] is the arithmetic of the type.
      D/bitwise_fp_cast.hpp 40-108: conversion to and from the bits of the storage (C42) *)
  Definition fp_calls (f : string) (vs : list pval) : option ans :=
    match vs with
    | [PZ x] =>
        if is f "bitwise_fp_cast< value_type >" then Some (Ans (Ret tt) (done (PZ (t_dec t x))))
        else if is f "bitwise_fp_cast< storage_type >" then Some (Ans (Ret tt) (done (PZ (t_enc t x))))
        else if is f "-value_type" then Some (Ans (Ret tt) (done (PZ (wrap vw (ar_neg ar x)))))
        else scopes pl d false f vs
    | [PZ x; PZ y] =>
        if is f "value_type+" then Some (Ans (Ret tt) (done (PZ (wrap vw (ar_add ar x y)))))
        else if is f "value_type-" then Some (Ans (Ret tt) (done (PZ (wrap vw (ar_sub ar x y)))))
        else scopes pl d false f vs
    | _ => scopes pl d false f vs
    end.
  (** D/fp_ops_emulated.hpp 33-63 *)
  Definition fp_text {A} (f : string) (vs : list pval) (k : pval -> pprog A) : pprog A :=
    runf pl d (conf pl d false false) fp_calls no_iter fp_emulated_fns [] f vs (fun v _ _ => k v).
  (** D/extra_fp_ops_emulated.hpp 33-103; its base class is the one above *)
  Definition extra_fp_base (f : string) (vs : list pval) : option ans :=
    if is f "base_type::fetch_add" then Some (Ans (fp_text "fetch_add" vs as_num) a_num)
    else if is f "base_type::fetch_sub" then Some (Ans (fp_text "fetch_sub" vs as_num) a_num)
    else fp_calls f vs.
  Definition extra_fp_text {A} (f : string) (vs : list pval) (k : pval -> pprog A) : pprog A :=
    runf pl d (conf pl d false false) extra_fp_base no_iter extra_fp_emulated_fns [] f vs (fun v _ _ => k v).

  Notation mo := (PO SeqCst).
  Definition text_fp (f : fform) (e : feff) : pprog iret :=
    match f, e with
    | FFetch, FAdd v => fp_text "fetch_add" [PZ v; mo] ret_val
    | FFetch, FSub v => fp_text "fetch_sub" [PZ v; mo] ret_val
    | FFetch, FNeg => extra_fp_text "fetch_negate" [mo] ret_val
    | FResult, FAdd v => extra_fp_text "add" [PZ v; mo] ret_val
    | FResult, FSub v => extra_fp_text "sub" [PZ v; mo] ret_val
    | FResult, FNeg => extra_fp_text "negate" [mo] ret_val
    | FOpaque, FAdd v => extra_fp_text "opaque_add" [PZ v; mo] ret_unit
    | FOpaque, FSub v => extra_fp_text "opaque_sub" [PZ v; mo] ret_unit
    | FOpaque, FNeg => extra_fp_text "opaque_negate" [mo] ret_unit
    end.
End Fp.

(** * Sequential meaning of pointers, booleans, floating point numbers, plain values and flags.

    Nothing here mentions the library.  Results are those of SpecInt.v: [RUnit],
    [RVal v] a value, [RBool b] a truth value, [RCas b v] the answer of a
    compare-exchange and the value left in its [expected] argument. *)
From Coq Require Import ZArith Bool.
From Verif Require Import SpecInt.
Open Scope Z_scope.

(** ** Pointers to elements of [sz] bytes in an [n]-bit address space *)
Inductive pop :=
| PStore (p : Z)
| PLoad
| PExchange (p : Z)
| PCasStrong (expected desired : Z)
| PCasWeak (expected desired : Z)
| PAdd (f : form) (k : Z)   (* move [k] elements forward; [f] as for integers *)
| PSub (f : form) (k : Z).  (* move [k] elements back *)

Definition moved (n sz p k : Z) : Z := (p + k * sz) mod 2 ^ n.

Inductive ptr_step (n sz : Z) : Z -> pop -> iret -> Z -> Prop :=
| ps_store p q : ptr_step n sz p (PStore q) RUnit q
| ps_load p : ptr_step n sz p PLoad (RVal p) p
| ps_exchange p q : ptr_step n sz p (PExchange q) (RVal p) q
| ps_cas_ok p d : ptr_step n sz p (PCasStrong p d) (RCas true p) d
| ps_cas_fail p e d : p <> e -> ptr_step n sz p (PCasStrong e d) (RCas false p) p
| ps_casw_ok p d : ptr_step n sz p (PCasWeak p d) (RCas true p) d
| ps_casw_fail p e d : ptr_step n sz p (PCasWeak e d) (RCas false p) p
| ps_add p f k : ptr_step n sz p (PAdd f k) (report f p (moved n sz p k)) (moved n sz p k)
| ps_sub p f k : ptr_step n sz p (PSub f k) (report f p (moved n sz p (- k))) (moved n sz p (- k)).

Definition is_addr (n p : Z) : Prop := 0 <= p < 2 ^ n.
Definition pop_ok (n : Z) (o : pop) : Prop :=
  match o with
  | PStore p | PExchange p => is_addr n p
  | PCasStrong e d | PCasWeak e d => is_addr n e /\ is_addr n d
  | PLoad | PAdd _ _ | PSub _ _ => True
  end.

(** ** Booleans *)
Inductive bop :=
| BStore (b : bool)
| BLoad
| BExchange (b : bool)
| BCasStrong (expected desired : bool)
| BCasWeak (expected desired : bool).

(** as a result, true is 1 and false is 0 *)
Inductive bool_step : bool -> bop -> iret -> bool -> Prop :=
| bs_store x b : bool_step x (BStore b) RUnit b
| bs_load x : bool_step x BLoad (RVal (Z.b2z x)) x
| bs_exchange x b : bool_step x (BExchange b) (RVal (Z.b2z x)) b
| bs_cas_ok x d : bool_step x (BCasStrong x d) (RCas true (Z.b2z x)) d
| bs_cas_fail x e d : x <> e -> bool_step x (BCasStrong e d) (RCas false (Z.b2z x)) x
| bs_casw_ok x d : bool_step x (BCasWeak x d) (RCas true (Z.b2z x)) d
| bs_casw_fail x e d : bool_step x (BCasWeak e d) (RCas false (Z.b2z x)) x.

(** ** Floating point numbers, as bit patterns of [n] bits.

    The arithmetic is whatever the target does: three functions on patterns. *)
Record arith := mkarith { ar_add : Z -> Z -> Z; ar_sub : Z -> Z -> Z; ar_neg : Z -> Z }.

Inductive fform := FFetch | FResult | FOpaque.   (* previous value, new value, nothing *)
Inductive feff := FAdd (v : Z) | FSub (v : Z) | FNeg.
Definition feff_apply (ar : arith) (e : feff) (x : Z) : Z :=
  match e with FAdd v => ar_add ar x v | FSub v => ar_sub ar x v | FNeg => ar_neg ar x end.
Definition freport (f : fform) (old new : Z) : iret :=
  match f with FFetch => RVal old | FResult => RVal new | FOpaque => RUnit end.

Inductive fop :=
| FStore (v : Z)
| FLoad
| FExchange (v : Z)
| FCasStrong (expected desired : Z)
| FCasWeak (expected desired : Z)
| FRmw (f : fform) (e : feff).

Inductive fp_step (ar : arith) : Z -> fop -> iret -> Z -> Prop :=
| fs_store x v : fp_step ar x (FStore v) RUnit v
| fs_load x : fp_step ar x FLoad (RVal x) x
| fs_exchange x v : fp_step ar x (FExchange v) (RVal x) v
| fs_cas_ok x d : fp_step ar x (FCasStrong x d) (RCas true x) d
| fs_cas_fail x e d : x <> e -> fp_step ar x (FCasStrong e d) (RCas false x) x
| fs_casw_ok x d : fp_step ar x (FCasWeak x d) (RCas true x) d
| fs_casw_fail x e d : fp_step ar x (FCasWeak e d) (RCas false x) x
| fs_rmw x f e : fp_step ar x (FRmw f e) (freport f x (feff_apply ar e x)) (feff_apply ar e x).

Definition pattern (n x : Z) : Prop := 0 <= x < 2 ^ n.
Definition fop_ok (n : Z) (o : fop) : Prop :=
  match o with
  | FStore v | FExchange v | FRmw _ (FAdd v) | FRmw _ (FSub v) => pattern n v
  | FCasStrong e d | FCasWeak e d => pattern n e /\ pattern n d
  | FLoad | FRmw _ FNeg => True
  end.
(** the operations are operations on [n]-bit patterns *)
Definition arith_ok (n : Z) (ar : arith) : Prop :=
  forall x v, pattern n x -> pattern n v ->
    pattern n (ar_add ar x v) /\ pattern n (ar_sub ar x v) /\ pattern n (ar_neg ar x).
(** negation flips the most significant bit, as in IEC 559 *)
Definition sign_neg (n : Z) (ar : arith) : Prop :=
  forall x, pattern n x -> ar_neg ar x = Z.lxor x (2 ^ (n - 1)).

(** ** Plain values: [n]-bit patterns of which only the bits in [mask] carry the value
    (the others are padding).  [vbits mask v] is the value without its padding. *)
Definition vbits (mask v : Z) : Z := Z.land v mask.

Inductive gop :=
| GStore (v : Z)
| GLoad
| GExchange (v : Z)
| GCasStrong (expected desired : Z)
| GCasWeak (expected desired : Z).

(** An object remembering the value bits; comparison ignores padding, and what is
    read back has zero padding. *)
Inductive gen_step (mask : Z) : Z -> gop -> iret -> Z -> Prop :=
| gs_store x v : gen_step mask x (GStore v) RUnit (vbits mask v)
| gs_load x : gen_step mask x GLoad (RVal x) x
| gs_exchange x v : gen_step mask x (GExchange v) (RVal x) (vbits mask v)
| gs_cas_ok x e d : vbits mask e = x -> gen_step mask x (GCasStrong e d) (RCas true x) (vbits mask d)
| gs_cas_fail x e d : vbits mask e <> x -> gen_step mask x (GCasStrong e d) (RCas false x) x
| gs_casw_ok x e d : vbits mask e = x -> gen_step mask x (GCasWeak e d) (RCas true x) (vbits mask d)
| gs_casw_fail x e d : gen_step mask x (GCasWeak e d) (RCas false x) x.

Definition gop_ok (n : Z) (o : gop) : Prop :=
  match o with
  | GStore v | GExchange v => pattern n v
  | GCasStrong e d | GCasWeak e d => pattern n e /\ pattern n d
  | GLoad => True
  end.

(** ** Flags *)
Inductive flop := FlagTest | FlagTestAndSet | FlagClear.

Inductive flag_step : bool -> flop -> iret -> bool -> Prop :=
| fl_test x : flag_step x FlagTest (RBool x) x
| fl_tas x : flag_step x FlagTestAndSet (RBool x) true
| fl_clear x : flag_step x FlagClear RUnit false.

(** ** References to a plain object: binding one clears the padding, the calls through
    any of them act on the object itself (so a load reports whatever padding is there
    until a reference has been bound). *)
Inductive rop := RBind | ROp (o : gop).

Inductive ref_step (mask : Z) : Z -> rop -> iret -> Z -> Prop :=
| rs_bind x : ref_step mask x RBind RUnit (vbits mask x)
| rs_op x o r x' : gen_step mask x o r x' -> ref_step mask x (ROp o) r x'.

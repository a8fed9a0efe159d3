(** * The class templates over objects served by the lock pool or by the wait operations of PoolModel.

    [D] abbreviates include/boost/atomic/detail. *)
From Coq Require Import ZArith List Bool.
From Verif Require Import SpecInt SpecTyped SpecLin SpecObj SpecPool Order Conv Prog IntModel TypedModel PoolModel.
Open Scope Z_scope.
Open Scope prog_scope.

(** integers: D/atomic_impl.hpp 625-985, storage of the width of the type; plain values 190-348; floating point 1147-1367
    (storage at least as wide as the value); pointers 1372-1613, storage of the width of a pointer; bool 988-1142;
    atomic_flag, D/atomic_flag_impl.hpp 46-140.  An enumeration (353-620) in storage of its width is an integer with
    fewer calls.  [KFlag (Some sh)]: test_and_set and clear are the intrinsics of D/core_ops_gcc_atomic.hpp 147-155,
    which work on the first byte of the storage, at bit [sh]; [KFlag None]: exchange and store of the whole storage
    (D/core_operations_emulated.hpp 175-185 and the other back ends) *)
Inductive tkindv :=
| KInt (sg : bool)
| KVal (vw mask : Z) (clear : bool)
| KFp (vw : Z) (ar : arith)
| KPtr (sz : Z)
| KBool
| KFlag (first : option Z).
Record tobj := mktobj { t_desc : odesc; t_kind : tkindv }.
Definition t_w (t : tobj) : Z := d_bits (t_desc t).
Definition t_be (t : tobj) : bool := d_be (t_desc t).

(** the conversions between value and storage word: TypedModel, IntModel *)
Definition t_enc (t : tobj) (v : Z) : Z :=
  match t_kind t with
  | KInt _ => wrap (t_w t) v
  | KVal vw mask clear => place (t_be t) (t_w t) vw (if clear then Z.land v mask else v)
  | KFp vw _ => place (t_be t) (t_w t) vw v
  | KPtr _ => wrap (t_w t) v
  | KBool => bool_enc (t_w t) v
  | KFlag _ => wrap (t_w t) v         (* D/atomic_flag_impl.hpp 107, 121, 136 *)
  end.
Definition t_dec (t : tobj) (x : Z) : Z :=
  match t_kind t with
  | KInt sg => integral_truncate sg (t_w t) (t_w t) x
  | KVal vw _ _ | KFp vw _ => unplace (t_be t) (t_w t) vw x
  | KPtr _ => integral_truncate false (t_w t) (t_w t) x
  | KBool | KFlag _ => bool_dec x
  end.

Definition enc_iop (enc : Z -> Z) (o : iop) : iop :=
  match o with
  | Store v => Store (enc v)
  | Load => Load
  | Exchange v => Exchange (enc v)
  | CasStrong e d => CasStrong (enc e) (enc d)
  | CasWeak e d => CasWeak (enc e) (enc d)
  | Rmw f (Bin b v) => Rmw f (Bin b (enc v))
  | Rmw f (Un u) => Rmw f (Un u)
  | BitTest k i => BitTest k i
  end.
Definition dec_iret (dec : Z -> Z) (r : iret) : iret :=
  match r with RVal v => RVal (dec v) | RCas b v => RCas b (dec v) | r => r end.

(** D/extra_fp_ops_emulated.hpp 33-113, D/fp_ops_emulated.hpp 33-52: read the value, compute, write it back *)
Definition fp_upd (t : tobj) (vw : Z) (ar : arith) (e : feff) (x : Z) : Z :=
  t_enc t (wrap vw (feff_apply ar e (t_dec t x))).
Definition fp_form (f : fform) : form := match f with FFetch => Fetch | FResult => Result | FOpaque => Opaque end.

(** atomic_flag: TypedModel.flag_prog *)
Definition flag_op (first : option Z) (o : flop) : aop :=
  match o, first with
  | FlagTest, _ => AData Load
  | FlagTestAndSet, None => AData (Exchange 1)
  | FlagTestAndSet, Some sh => AUpd Fetch (fun x => Z.lor x (2 ^ sh))
  | FlagClear, None => AData (Store 0)
  | FlagClear, Some sh => AUpd Opaque (fun x => Z.land x (Z.lnot (255 * 2 ^ sh)))
  end.
Definition flag_ret (first : option Z) (o : flop) (r : iret) : iret :=
  match o, first, r with
  | FlagTestAndSet, Some sh, RVal v => RBool (negb (Z.land (v / 2 ^ sh) 255 =? 0))
  | _, _, RVal v => RBool (negb (v =? 0))
  | _, _, r => r
  end.

(** the storage operation a call makes: D/atomic_impl.hpp 233-343, 668-985, 1190-1362; the waits 278-311, 916-949,
    1293-1326; pointers 1415-1578 and bool 1026-1137 likewise *)
Definition t_op (t : tobj) (c : tcall) : aop :=
  match c with
  | TInt o => AData (enc_iop (t_enc t) o)
  | TVal o => AData (enc_iop (t_enc t) (gen_iop o))
  | TFp (FStore v) => AData (Store (t_enc t v))
  | TFp FLoad => AData Load
  | TFp (FExchange v) => AData (Exchange (t_enc t v))
  | TFp (FCasStrong e d) => AData (CasStrong (t_enc t e) (t_enc t d))
  | TFp (FCasWeak e d) => AData (CasWeak (t_enc t e) (t_enc t d))
  | TFp (FRmw f e) =>
      match t_kind t with KFp vw ar => AUpd (fp_form f) (fp_upd t vw ar e) | _ => AFence end
  | TPtr o => match t_kind t with KPtr sz => AData (enc_iop (t_enc t) (ptr_iop (t_w t) sz o)) | _ => AFence end
  | TBool o => AData (enc_iop (t_enc t) (bool_iop o))
  | TFlag o => match t_kind t with KFlag first => flag_op first o | _ => AFence end
  | TWait old => AWait (t_enc t old)
  | TTimed k old d => ATimed k (t_enc t old) d
  | TNotify all => ANotify all
  | TFence => AFence
  | TExit => AExit
  end.
Definition t_ret (t : tobj) (c : tcall) (r : aret) : tret :=
  match r with
  | RI r => TRet (match c, t_kind t with TFlag o, KFlag first => flag_ret first o r | _, _ => dec_iret (t_dec t) r end)
  | RWaited v b => TWaited (t_dec t v) b
  end.

Definition t_impl (pl : platform) (T : nat -> tobj) (c : nat * tcall) : pprog tret :=
  r <- obj_prog pl (t_desc (T (fst c))) (fst c) (t_op (T (fst c)) (snd c)) ;; Ret (t_ret (T (fst c)) (snd c) r).
Definition t_run (pl : platform) (T : nat -> tobj) (m : pmem) (l : list (sched fate (nat * tcall))) :=
  run (pexec (pl_search pl) (pl_init pl)) (t_impl pl T) (start m) l.

(** the type of an object; the bits that count in a plain value are all of them if padding cannot be cleared *)
Definition t_type (t : tobj) : otype :=
  match t_kind t with
  | KInt sg => OInt sg (t_w t)
  | KVal vw mask clear => OVal vw (if clear then mask else Z.ones vw)
  | KFp vw ar => OFp vw ar
  | KPtr sz => OPtr (t_w t) sz
  | KBool => OBool
  | KFlag _ => OFlag
  end.
(** an object initialised with [v] holds [v] without its padding *)
Definition t_holds (t : tobj) (v : Z) : Z :=
  match t_type t with OVal _ live => vbits live v | _ => v end.
Definition t_ok (t : tobj) : Prop :=
  match t_kind t with
  | KInt _ => True
  | KVal vw mask _ => 0 < vw <= t_w t /\ pattern vw mask
  | KFp vw ar => 0 < vw <= t_w t /\ arith_ok vw ar
  | KPtr _ | KBool => True
  | KFlag first => first = None \/ first = Some 0 /\ 8 <= t_w t     (* little-endian, or not the intrinsics *)
  end.

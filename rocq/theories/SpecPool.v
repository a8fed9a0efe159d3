(** * Specification of atomic objects with waiting and notifying.

    Nothing here mentions the library's lock pool.  An object holds a number of [w] bits; calls on it are the
    ones of SpecInt, an arbitrary update (floating-point arithmetic on the bits), waiting and notifying. *)
From Coq Require Import ZArith List Bool.
From Verif Require Import SpecInt SpecTyped SpecLin SpecObj.
Open Scope Z_scope.

(** the timed waits: [wait_until] on a clock of the operating system, [wait_until] on another clock, [wait_for] *)
Inductive tkind := UntilSys | UntilOther | WaitFor.

Inductive aop :=
| AData (o : iop)
| AUpd (f : form) (g : Z -> Z)                (* replace the value [x] by [g x] *)
| AWait (old : Z)
| ATimed (k : tkind) (old limit : Z)          (* [limit]: time point or duration in nanoseconds *)
| ANotify (all : bool)
| AFence                                      (* concerns no object *)
| AExit.                                      (* the exit handler of the process; concerns no object *)

Inductive aret :=
| RI (r : iret)
| RWaited (v : Z) (timeout : bool).

(** Sequential meaning: when a call takes effect on an object holding [x], it returns [r] and leaves [x'].
    A wait takes effect at an instant at which the value is not [old]. *)
Inductive astep (w : Z) : Z -> aop -> aret -> Z -> Prop :=
| as_data x o r x' : istep false w x o r x' -> astep w x (AData o) (RI r) x'
| as_upd x f g : astep w x (AUpd f g) (RI (report f x (g x))) (g x)
| as_wait x old : x <> old -> astep w x (AWait old) (RWaited x false) x
| as_timed x k old d : x <> old -> astep w x (ATimed k old d) (RWaited x false) x
| as_timeout x k d : astep w x (ATimed k x d) (RWaited x true) x
| as_notify x b : astep w x (ANotify b) (RI RUnit) x
| as_fence x : astep w x AFence (RI RUnit) x
| as_exit x : astep w x AExit (RI RUnit) x.

(** arguments a caller may pass: words of the object's width, updates that stay in it *)
Definition aop_ok (w : Z) (o : aop) : Prop :=
  match o with
  | AData o => iop_ok false w o
  | AUpd _ g => forall x, rng false w x -> rng false w (g x)
  | AWait old | ATimed _ old _ => rng false w old
  | _ => True
  end.

(** ** Objects with values: integers, plain values with padding, floating point numbers.
    [same old v]: comparing [old] with the object holding [v] finds them equal. *)
Inductive tret :=
| TRet (r : iret)
| TWaited (v : Z) (timeout : bool).

Inductive tcall :=
| TInt (o : iop)
| TVal (o : gop)
| TFp (o : fop)
| TPtr (o : pop)
| TBool (o : bop)
| TFlag (o : flop)
| TWait (old : Z)
| TTimed (k : tkind) (old limit : Z)
| TNotify (all : bool)
| TFence                                      (* a fence, and the exit handler; concern no object *)
| TExit.

(** the type of an object: an integer of [n] bits, a plain value of [n] bits of which those in [live] count, a floating
    point number of [n] bits with its arithmetic, a pointer to elements of [sz] bytes, a boolean, a flag (for both: 1 is
    true or set, 0 is false or clear) *)
Inductive otype :=
| OInt (sg : bool) (n : Z)
| OVal (n live : Z)
| OFp (n : Z) (ar : arith)
| OPtr (n sz : Z)
| OBool
| OFlag.

Definition same (ty : otype) (old v : Z) : Prop :=
  match ty with OVal _ live => vbits live old = v | _ => old = v end.

Inductive tstep : otype -> Z -> tcall -> tret -> Z -> Prop :=
| ts_int sg n v o r v' : istep sg n v o r v' -> tstep (OInt sg n) v (TInt o) (TRet r) v'
| ts_val n live v o r v' : gen_step live v o r v' -> tstep (OVal n live) v (TVal o) (TRet r) v'
| ts_fp n ar v o r v' : fp_step ar v o r v' -> tstep (OFp n ar) v (TFp o) (TRet r) v'
| ts_ptr n sz v o r v' : ptr_step n sz v o r v' -> tstep (OPtr n sz) v (TPtr o) (TRet r) v'
| ts_bool b o r b' : bool_step b o r b' -> tstep OBool (Z.b2z b) (TBool o) (TRet r) (Z.b2z b')
| ts_flag b o r b' : flag_step b o r b' -> tstep OFlag (Z.b2z b) (TFlag o) (TRet r) (Z.b2z b')
| ts_wait ty v old : ~ same ty old v -> tstep ty v (TWait old) (TWaited v false) v
| ts_timed ty v k old d : ~ same ty old v -> tstep ty v (TTimed k old d) (TWaited v false) v
| ts_timeout ty v k old d : same ty old v -> tstep ty v (TTimed k old d) (TWaited v true) v
| ts_notify ty v b : tstep ty v (TNotify b) (TRet RUnit) v
| ts_fence ty v : tstep ty v TFence (TRet RUnit) v
| ts_exit ty v : tstep ty v TExit (TRet RUnit) v.

(** values and calls of a type *)
Definition tvalue (ty : otype) (v : Z) : Prop :=
  match ty with
  | OInt sg n => rng sg n v
  | OVal n _ | OFp n _ => pattern n v
  | OPtr n _ => is_addr n v
  | OBool | OFlag => v = 0 \/ v = 1
  end.
Definition tcall_ok (ty : otype) (c : tcall) : Prop :=
  match c, ty with
  | TInt o, OInt sg n => iop_ok sg n o
  | TVal o, OVal n _ => gop_ok n o
  | TFp o, OFp n _ => fop_ok n o
  | TPtr o, OPtr n _ => pop_ok n o
  | TBool _, OBool | TFlag _, OFlag => True
  | TWait old, _ | TTimed _ old _, _ => tvalue ty old
  | TNotify _, _ | TFence, _ | TExit, _ => True
  | _, _ => False
  end.

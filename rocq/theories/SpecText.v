(** * What a call means.

    A call is the name of a member function and its arguments, as a user writes them:
    [VI TValue v] a value, [VB b] a value of [atomic<bool>], [VI TDiff k] a distance
    between pointers, [VI TUInt i] a bit number, [VO o] a memory order.  The tables
    give, for each name, the operation of SpecInt.v and SpecTyped.v that it stands for
    and the memory order it asks for (for a compare_exchange, the one of success).
    Nothing here mentions the library's code. *)
From Coq Require Import ZArith List String Bool.
From Verif Require Import SpecInt SpecTyped Order TextModel.
Import ListNotations.
Open Scope string_scope.
Open Scope list_scope.
Open Scope Z_scope.

Definition mcall := (string * list val)%type.

Fixpoint assoc {T} (f : string) (l : list (string * T)) : option T :=
  match l with
  | [] => None
  | (g, x) :: l => if String.eqb f g then Some x else assoc f l
  end.

(** The memory order comes last and is seq_cst if not given; a compare_exchange may have two. *)
Definition order (l : list val) : option morder :=
  match l with [] => Some SeqCst | [VO o] => Some o | _ => None end.
Definition orders (l : list val) : option morder :=
  match l with [] => Some SeqCst | [VO o] => Some o | [VO s; VO _] => Some s | _ => None end.
(** Operators have no memory order: seq_cst. *)
Definition no_order (l : list val) : option morder := match l with [] => Some SeqCst | _ => None end.

Definition both {A B} (x : option A) (y : option B) : option (A * B) :=
  match x, y with Some x, Some y => Some (x, y) | _, _ => None end.
Definition app1 {A B} (f : option (A -> B)) (x : A) : option B := match f with Some f => Some (f x) | None => None end.
Definition app2 {A B C} (f : option (A -> B -> C)) (x : A) (y : B) : option C :=
  match f with Some f => Some (f x y) | None => None end.
Definition or_else {A} (x y : option A) : option A := match x with Some _ => x | None => y end.

(** ** Integers *)
Definition bin (f : form) (b : binop) (v : Z) : iop := Rmw f (Bin b v).

Definition int_cas : list (string * (Z -> Z -> iop)) :=
  [("compare_exchange_strong", CasStrong); ("compare_exchange_weak", CasWeak)].
Definition int_value : list (string * (Z -> iop)) :=
  [("store", Store); ("exchange", Exchange);
   ("fetch_add", bin Fetch Add); ("fetch_sub", bin Fetch Sub); ("fetch_and", bin Fetch And); ("fetch_or", bin Fetch Or); ("fetch_xor", bin Fetch Xor);
   ("add", bin Result Add); ("sub", bin Result Sub); ("bitwise_and", bin Result And); ("bitwise_or", bin Result Or); ("bitwise_xor", bin Result Xor);
   ("opaque_add", bin Opaque Add); ("opaque_sub", bin Opaque Sub); ("opaque_and", bin Opaque And); ("opaque_or", bin Opaque Or); ("opaque_xor", bin Opaque Xor);
   ("add_and_test", bin Test Add); ("sub_and_test", bin Test Sub); ("and_and_test", bin Test And); ("or_and_test", bin Test Or); ("xor_and_test", bin Test Xor)].
Definition int_none : list (string * iop) :=
  [("load", Load);
   ("fetch_negate", Rmw Fetch (Un Neg)); ("fetch_complement", Rmw Fetch (Un Not));
   ("negate", Rmw Result (Un Neg)); ("bitwise_complement", Rmw Result (Un Not));
   ("opaque_negate", Rmw Opaque (Un Neg)); ("opaque_complement", Rmw Opaque (Un Not));
   ("negate_and_test", Rmw Test (Un Neg)); ("complement_and_test", Rmw Test (Un Not))].
Definition int_bit : list (string * (Z -> iop)) :=
  [("bit_test_and_set", BitTest BSet); ("bit_test_and_reset", BitTest BReset); ("bit_test_and_complement", BitTest BCompl)].
Definition int_operator : list (string * (Z -> iop)) :=
  [("operator+=", bin Result Add); ("operator-=", bin Result Sub);
   ("operator&=", bin Result And); ("operator|=", bin Result Or); ("operator^=", bin Result Xor)].
Definition int_step : list (string * iop) :=
  [("operator++", bin Result Add 1); ("operator++(int)", bin Fetch Add 1);
   ("operator--", bin Result Sub 1); ("operator--(int)", bin Fetch Sub 1)].

Definition int_means (c : mcall) : option (morder * iop) :=
  match snd c with
  | VI TValue e :: VI TValue d :: l => both (orders l) (app2 (assoc (fst c) int_cas) e d)
  | VI TValue v :: l =>
      or_else (both (no_order l) (app1 (assoc (fst c) int_operator) v)) (both (order l) (app1 (assoc (fst c) int_value) v))
  | VI TUInt i :: l => both (order l) (app1 (assoc (fst c) int_bit) i)
  | l => or_else (both (no_order l) (assoc (fst c) int_step)) (both (order l) (assoc (fst c) int_none))
  end.

(** ** Enumerations: the same without arithmetic *)
Definition no_arith (o : iop) : bool :=
  match o with
  | Rmw _ (Bin (Add | Sub) _) | Rmw _ (Un Neg) => false
  | _ => true
  end.
Definition enum_means (c : mcall) : option (morder * iop) :=
  match int_means c with Some (mo, o) => if no_arith o then Some (mo, o) else None | None => None end.

(** ** Pointers *)
Definition ptr_cas : list (string * (Z -> Z -> pop)) :=
  [("compare_exchange_strong", PCasStrong); ("compare_exchange_weak", PCasWeak)].
Definition ptr_value : list (string * (Z -> pop)) := [("store", PStore); ("exchange", PExchange)].
Definition ptr_dist_calls : list (string * (Z -> pop)) :=
  [("fetch_add", PAdd Fetch); ("fetch_sub", PSub Fetch); ("add", PAdd Result); ("sub", PSub Result);
   ("opaque_add", PAdd Opaque); ("opaque_sub", PSub Opaque); ("add_and_test", PAdd Test); ("sub_and_test", PSub Test)].
Definition ptr_operator : list (string * (Z -> pop)) := [("operator+=", PAdd Result); ("operator-=", PSub Result)].
Definition ptr_none : list (string * pop) := [("load", PLoad)].
Definition ptr_step_calls : list (string * pop) :=
  [("operator++", PAdd Result 1); ("operator++(int)", PAdd Fetch 1); ("operator--", PSub Result 1); ("operator--(int)", PSub Fetch 1)].

Definition ptr_means (c : mcall) : option (morder * pop) :=
  match snd c with
  | VI TValue e :: VI TValue d :: l => both (orders l) (app2 (assoc (fst c) ptr_cas) e d)
  | VI TValue v :: l => both (order l) (app1 (assoc (fst c) ptr_value) v)
  | VI TDiff k :: l =>
      or_else (both (no_order l) (app1 (assoc (fst c) ptr_operator) k)) (both (order l) (app1 (assoc (fst c) ptr_dist_calls) k))
  | l => or_else (both (no_order l) (assoc (fst c) ptr_step_calls)) (both (order l) (assoc (fst c) ptr_none))
  end.

(** ** Booleans *)
Definition bool_cas : list (string * (bool -> bool -> bop)) :=
  [("compare_exchange_strong", BCasStrong); ("compare_exchange_weak", BCasWeak)].
Definition bool_value : list (string * (bool -> bop)) := [("store", BStore); ("exchange", BExchange)].
Definition bool_none : list (string * bop) := [("load", BLoad)].
Definition bool_means (c : mcall) : option (morder * bop) :=
  match snd c with
  | VB e :: VB d :: l => both (orders l) (app2 (assoc (fst c) bool_cas) e d)
  | VB v :: l => both (order l) (app1 (assoc (fst c) bool_value) v)
  | l => both (order l) (assoc (fst c) bool_none)
  end.

(** ** Other values *)
Definition gen_cas : list (string * (Z -> Z -> gop)) :=
  [("compare_exchange_strong", GCasStrong); ("compare_exchange_weak", GCasWeak)].
Definition gen_value : list (string * (Z -> gop)) := [("store", GStore); ("exchange", GExchange)].
Definition gen_none : list (string * gop) := [("load", GLoad)].
Definition gen_means (c : mcall) : option (morder * gop) :=
  match snd c with
  | VI TValue e :: VI TValue d :: l => both (orders l) (app2 (assoc (fst c) gen_cas) e d)
  | VI TValue v :: l => both (order l) (app1 (assoc (fst c) gen_value) v)
  | l => both (order l) (assoc (fst c) gen_none)
  end.

(** ** Floating point numbers *)
Definition fp_cas : list (string * (Z -> Z -> fop)) :=
  [("compare_exchange_strong", FCasStrong); ("compare_exchange_weak", FCasWeak)].
Definition fp_value : list (string * (Z -> fop)) :=
  [("store", FStore); ("exchange", FExchange);
   ("fetch_add", fun v => FRmw FFetch (FAdd v)); ("fetch_sub", fun v => FRmw FFetch (FSub v));
   ("add", fun v => FRmw FResult (FAdd v)); ("sub", fun v => FRmw FResult (FSub v));
   ("opaque_add", fun v => FRmw FOpaque (FAdd v)); ("opaque_sub", fun v => FRmw FOpaque (FSub v))].
Definition fp_operator : list (string * (Z -> fop)) :=
  [("operator+=", fun v => FRmw FResult (FAdd v)); ("operator-=", fun v => FRmw FResult (FSub v))].
Definition fp_none : list (string * fop) :=
  [("load", FLoad); ("fetch_negate", FRmw FFetch FNeg); ("negate", FRmw FResult FNeg); ("opaque_negate", FRmw FOpaque FNeg)].
Definition fp_means (c : mcall) : option (morder * fop) :=
  match snd c with
  | VI TValue e :: VI TValue d :: l => both (orders l) (app2 (assoc (fst c) fp_cas) e d)
  | VI TValue v :: l =>
      or_else (both (no_order l) (app1 (assoc (fst c) fp_operator) v)) (both (order l) (app1 (assoc (fst c) fp_value) v))
  | l => both (order l) (assoc (fst c) fp_none)
  end.

(** ** Flags *)
Definition flag_calls : list (string * flop) :=
  [("test", FlagTest); ("test_and_set", FlagTestAndSet); ("clear", FlagClear)].
Definition flag_means (c : mcall) : option (morder * flop) := both (order (snd c)) (assoc (fst c) flag_calls).

(** ** Objects
    A call on an object does what its meaning does.  Legal: the calls mean something, and something allowed. *)
Definition meant {V O} (means : mcall -> option O) (spec : nat -> V -> O -> iret -> V -> Prop)
    (a : nat) (v : V) (c : mcall) (r : iret) (v' : V) : Prop :=
  exists o, means c = Some o /\ spec a v o r v'.
Definition says {O} (means : mcall -> option O) (ok : nat * O -> Prop) (c : nat * mcall) : Prop :=
  exists o, means (snd c) = Some o /\ ok (fst c, o).
(** The calls that mean something, with their objects. *)
Definition real {O} (means : mcall -> option O) : Type := { c : nat * mcall | means (snd c) <> None }.
Definition real_adr {O} {means : mcall -> option O} (c : real means) : nat := fst (proj1_sig c).

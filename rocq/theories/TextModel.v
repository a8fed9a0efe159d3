(** * The C++ text of the portable layers, and what it does.

    A small subset of C++: the statements and expressions of which the function
    bodies of the portable layers consist.  TextTable.v, written by
    tools/extract_text.py, has these bodies; this file says what they do, as
    programs of the word machine (Word.v).  [D] abbreviates
    include/boost/atomic/detail.

    What is simplified: a function works on one atomic object, at address [a];
    barriers ([fence_*], [__sync_synchronize], compiler barriers) do nothing
    here (FenceModel.v has them); a name is declared at most once in a function,
    so that blocks open no scope; a reference parameter is copied in and out,
    which is the same because no two parameters of a call are the same object. *)
From Coq Require Import ZArith List String Bool.
From Verif Require Import SpecInt SpecLin Order Conv Prog Word CoreModel ExtraModel.
Import ListNotations.
Open Scope string_scope.
Open Scope list_scope.
Open Scope Z_scope.
Open Scope prog_scope.

(** ** Syntax *)

(** The types of variables, by the names the library gives them.  [TDiff] is
    [std::ptrdiff_t]; [TUptr] is [uintptr_storage_type]; [TSigned] is
    [make_signed< storage_type >::type]. *)
Inductive ty := TStorage | TEmul | TValue | TUptr | TDiff | TUInt | TSigned | TBool | TOrder | TVoid.

Inductive uop := UNeg | UCompl | UNot.
Inductive xop := OAdd | OSub | OMul | OShl | OAnd | OOr | OXor | OEq | ONe.
(** [static_cast], C-style casts and conversions [T(x)]; [bitwise_cast]; [bitwise_fp_cast];
    [integral_truncate]; [integral_extend< Signed, ... >]. *)
Inductive cast := CStatic | CBits | CFpBits | CTruncate | CExtend.

Inductive expr :=
| EVar (x : string)
| ENum (n : Z)
| EBool (b : bool)
| EOrd (o : morder)
| EStorage                      (* the storage, read as a variable *)
| EZero                         (* [storage_type()] *)
| ESizeT                        (* [sizeof(T)] *)
| EValueSize                    (* [value_size_of< value_type >::value] *)
| EFail (e : expr)              (* [deduce_failure_order(e)] *)
| EUn (o : uop) (e : expr)
| EBin (o : xop) (x y : expr)
| ECast (c : cast) (t : ty) (e : expr)
| ECall (q f : string) (args : list arg)   (* [q::f(args)]; [q] is empty for an unqualified name; [Derived] is the class itself (CRTP) *)
with arg :=
| ALoc                          (* the storage, by reference or address *)
| AVal (e : expr)
| ARef (x : string)             (* a variable by reference or address *)
| AReint (x : string)           (* [reinterpret_cast< storage_type& >(x)]: the same bits *)
| ATag (x : string).            (* a value of a tag type [x] *)

Inductive stmt :=
| SDecl (t : ty) (x : string)
| SInit (t : ty) (x : string) (e : expr)
| SSet (x : string) (e : expr)
| SPlain (x : string)           (* [non_atomic_load(storage, x)] *)
| SStore (e : expr)             (* [storage = e] *)
| SDo (e : expr)
| SFence                        (* a barrier, or an [if] with nothing but barriers in it *)
| SIf (c : expr) (b1 b2 : list stmt)
| SConf (c : string) (b1 b2 : list stmt)   (* [#if c] b1 [#else] b2 *)
| SWhile (c : expr) (b : list stmt)
| SDoWhile (b : list stmt) (c : expr)
| SReturn (e : expr).

Record param := Par { p_name : string; p_ty : ty; p_ref : bool; p_default : option morder }.

(** [fn_tag]: the function has one more parameter, of type [std::true_type] or [std::false_type]. *)
Record fn := Fn {
  fn_line : nat; fn_ret : ty; fn_name : string; fn_params : list param; fn_tag : option bool; fn_body : list stmt
}.

(** [cl_consts]: the static constants of the class that the bodies use. *)
Record cls := Cls { cl_file : string; cl_line : nat; cl_name : string; cl_consts : list stmt; cl_fns : list fn }.

(** ** Values *)

(** [VX z exact]: the result of an operator before it is converted to a type: the
    mathematical result.  If it is not [exact], the operator may have overflowed its
    promoted type, and only a conversion to an unsigned type no wider has a meaning. *)
Inductive val :=
| VI (t : ty) (z : Z) | VX (z : Z) (exact : bool) | VLit (z : Z)
| VB (b : bool) | VO (o : morder) | VLoc | VUnit | VNone.

(** What depends on the instance of a template. *)
Record inst := Inst {
  i_w : Z;                 (* bits of storage_type *)
  i_es : Z;                (* bits of emulated_storage_type *)
  i_vw : Z;                (* bits of value_type *)
  i_sg : bool;             (* Signed *)
  i_ptr : Z;               (* bits of a pointer, of size_t and of uintptr_t *)
  i_sizeT : Z;             (* sizeof(T) *)
  i_vsize : Z;             (* value_size_of< value_type >::value *)
  i_in : Z -> Z;           (* bitwise_cast< storage_type > of a value_type *)
  i_out : Z -> Z;          (* bitwise_cast< value_type > of a storage_type *)
  i_fin : Z -> Z;          (* bitwise_fp_cast *)
  i_fout : Z -> Z;
  i_add : Z -> Z -> Z;     (* floating point arithmetic on value_type *)
  i_sub : Z -> Z -> Z;
  i_neg : Z -> Z;
  i_conf : string -> bool  (* preprocessor conditions and tag types *)
}.

(** What a call of a function outside of the class comes to: the program that stands
    for it, by the sort of its result: a [storage_type], a [value_type], a [bool],
    nothing, or [bool] with an updated [storage_type] passed by reference. *)
Inductive answer :=
| AnsZ (p : wprog Z) | AnsV (p : wprog Z) | AnsB (p : wprog bool) | AnsU (p : wprog unit) | AnsC (p : wprog (bool * Z)).

(** A text with no meaning here: it never returns and does nothing. *)
Definition nonsense {R : Type} : wprog R :=
  Loop (fun _ : unit => Ret (inl tt)) tt (fun b : Empty_set => match b with end).

Definition as_int (v : val) : option Z :=
  match v with VI _ z => Some z | VX z _ => Some z | VLit z => Some z | _ => None end.

(** Conversion to a type.  A literal (0, 1, 8) is a value of every integer type, except [TSigned]
    and [TEmul], for which the conversion is spelled out.
    To [TValue]: only from itself, a literal, or a [bool] for [atomic<bool>]. *)
Definition convert (I : inst) (t : ty) (v : val) : option val :=
  match t, v with
  | TStorage, VI TStorage z => Some (VI TStorage z)
  | TStorage, VLit z => Some (VI TStorage z)
  | TStorage, VB b => Some (VI TStorage (wrap (i_w I) (Z.b2z b)))
  | TStorage, (VI _ z | VX z _) => Some (VI TStorage (wrap (i_w I) z))
  | TEmul, VI TEmul z => Some (VI TEmul z)
  | TEmul, (VI TStorage z | VX z _ | VLit z) => Some (VI TEmul (wrap (i_es I) z))
  | TUptr, VI TUptr z => Some (VI TUptr z)
  | TUptr, (VI TStorage z | VX z _) => Some (VI TUptr (wrap (i_ptr I) z))
  | TSigned, VI TStorage z => Some (VI TSigned (sval (i_w I) z))
  | TValue, VI TValue z => Some (VI TValue z)
  | TValue, VB b => Some (VB b)
  | TValue, VLit z => Some (VI TValue z)
  | TDiff, VI TDiff z => Some (VI TDiff z)
  | TDiff, VLit z => Some (VI TDiff z)
  | TUInt, VI TUInt z => Some (VI TUInt z)
  | TBool, VB b => Some (VB b)
  | TOrder, VO o => Some (VO o)
  | TVoid, _ => Some VUnit
  | _, _ => None
  end.

Definition cast_to (I : inst) (c : cast) (t : ty) (v : val) : option val :=
  match c, t, v with
  | CStatic, _, _ => convert I t v
  | CBits, TStorage, VI TValue z => Some (VI TStorage (i_in I z))
  | CBits, TValue, VI TStorage z => Some (VI TValue (i_out I z))
  | CBits, TUptr, VI TValue z => Some (VI TUptr z)          (* a pointer is its address *)
  | CBits, TValue, VI TUptr z => Some (VI TValue z)
  | CFpBits, TStorage, VI TValue z => Some (VI TStorage (i_fin I z))
  | CFpBits, TValue, VI TStorage z => Some (VI TValue (i_fout I z))
  | CTruncate, TValue, VI TStorage z => Some (VI TValue (integral_truncate (i_sg I) (i_w I) (i_vw I) z))
  | CExtend, TStorage, VI TEmul z => Some (VI TStorage (integral_extend (i_sg I) false (i_es I) (i_w I) z))
  | _, _, _ => None
  end.

Definition order_eqb (x y : morder) : bool := code x =? code y.

Definition binary (I : inst) (o : xop) (x y : val) : option val :=
  match o, x, y with
  | OAdd, VI TValue x, VI TValue y => Some (VI TValue (i_add I x y))
  | OSub, VI TValue x, VI TValue y => Some (VI TValue (i_sub I x y))
  | OMul, VI TDiff x, VI TUptr y => Some (VX (wrap (i_ptr I) x * y) false)   (* v * sizeof(T) *)
  | OEq, VO x, VO y => Some (VB (order_eqb x y))
  | ONe, VO x, VO y => Some (VB (negb (order_eqb x y)))
  | OEq, VI TStorage x, VI TStorage y => Some (VB (x =? y))
  | ONe, VI TStorage x, VI TStorage y => Some (VB (negb (x =? y)))
  | OEq, VB x, VLit 0 => Some (VB (negb x))                 (* the answer of the kernel helper *)
  | (OEq | ONe), _, _ => None
  | _, VI TValue _, _ => None
  | _, _, VI TValue _ => None
  | _, x, y =>
      match as_int x, as_int y with
      | Some x, Some y =>
          match o with
          | OAdd => Some (VX (x + y) false)
          | OSub => Some (VX (x - y) false)
          | OMul => Some (VX (x * y) false)
          | OShl => Some (VX (Z.shiftl x y) false)
          | OAnd => Some (VX (Z.land x y) true)
          | OOr => Some (VX (Z.lor x y) true)
          | OXor => Some (VX (Z.lxor x y) true)
          | _ => None
          end
      | _, _ => None
      end
  end.

Definition unary (I : inst) (o : uop) (v : val) : option val :=
  match o, v with
  | UNeg, VI TValue z => Some (VI TValue (i_neg I z))
  | UNeg, VI _ z => Some (VX (- z) false)
  | UCompl, VI (TStorage | TEmul) z => Some (VX (Z.lnot z) false)
  | UNot, VB b => Some (VB (negb b))
  | UNot, VI (TStorage | TEmul) z => Some (VB (z =? 0))
  | UNot, VX z true => Some (VB (z =? 0))
  | _, _ => None
  end.

Definition truth (v : val) : option bool := match v with VB b => Some b | _ => None end.

(** D/memory_order_utils.hpp 29-32: deduce_failure_order. *)
Definition failure_order (o : morder) : morder :=
  match o with AcqRel => Acquire | Release => Relaxed | o => o end.

(** ** Variables *)

Definition env := list (string * (ty * val)).
Fixpoint get (x : string) (E : env) : option (ty * val) :=
  match E with
  | [] => None
  | (y, v) :: E => if String.eqb x y then Some v else get x E
  end.
Fixpoint set (x : string) (t : ty) (v : val) (E : env) : env :=
  match E with
  | [] => [(x, (t, v))]
  | (y, u) :: E => if String.eqb x y then (x, (t, v)) :: E else (y, u) :: set x t v E
  end.

(** ** What the text does *)

(** The state of a loop: the values of the integer variables declared before it.  Variables of other types
    (memory orders) must not be assigned to in a loop; those declared in it end with the iteration.  A variable
    that has no value yet counts as 0. *)
Definition is_int (t : ty) : bool :=
  match t with TStorage | TEmul | TValue | TUptr | TDiff | TUInt | TSigned => true | _ => false end.
Definition slot (n : nat) (zs : list Z) : Z := nth n zs 0.
Fixpoint slots (E0 E : env) : list Z :=
  match E0, E with
  | (_, (t, _)) :: E0, (_, (_, v)) :: E =>
      if is_int t then match v with VI _ z => z | _ => 0 end :: slots E0 E else slots E0 E
  | _, _ => []
  end.
Fixpoint restore (E0 : env) (n : nat) (zs : list Z) : env :=
  match E0 with
  | [] => []
  | (x, (t, v)) :: E0 =>
      if is_int t then (x, (t, VI t (slot n zs))) :: restore E0 (S n) zs else (x, (t, v)) :: restore E0 n zs
  end.
Fixpoint assigned (s : stmt) : list string :=
  match s with
  | SSet x _ | SPlain x => [x]
  | SIf _ b1 b2 | SConf _ b1 b2 => flat_map assigned b1 ++ flat_map assigned b2
  | SWhile _ b | SDoWhile b _ => flat_map assigned b
  | _ => []
  end.
Definition int_loop (b : list stmt) (E : env) : bool :=
  forallb (fun x => match get x E with Some (t, _) => is_int t | None => true end) (flat_map assigned b).

Section Text.
  Variables (I : inst) (a : addr).
  (** functions of other classes and intrinsics *)
  Variable ext : string -> string -> list val -> option answer.
  (** functions of the same class: the name, the arguments, the tag; answers the value
      returned and the final values of the parameters *)
  Variable own : string -> list val -> option bool -> forall R, (val -> list val -> wprog R) -> wprog R.

  Definition opt {T R} (o : option T) (k : T -> wprog R) : wprog R :=
    match o with Some x => k x | None => nonsense end.

  (** The variables passed by reference get their new values. *)
  Fixpoint copy_out (args : list arg) (vs : list val) (E : env) : option env :=
    match args, vs with
    | ARef x :: args, v :: vs =>
        match get x E with
        | Some (t, _) => match convert I t v with Some v' => copy_out args vs (set x t v' E) | None => None end
        | None => None
        end
    | AReint x :: args, v :: vs =>
        match get x E, v with
        | Some (TValue, VI _ _), VI TStorage z => copy_out args vs (set x TValue (VI TValue (i_out I z)) E)
        | Some (TValue, VB _), VI TStorage z => copy_out args vs (set x TValue (VB (negb (z =? 0))) E)
        | _, _ => None
        end
    | ATag _ :: args, vs => copy_out args vs E
    | _ :: args, _ :: vs => copy_out args vs E
    | [], _ => Some E
    | _, _ => None
    end.

  Definition tag_of (args : list arg) : option bool :=
    match last args ALoc with ATag x => Some (i_conf I x) | _ => None end.

  (** The values of arguments after a call of a function outside of the class: the one
      passed by reference is the answer's. *)
  Fixpoint outs (args : list arg) (z : Z) : list val :=
    match args with
    | [] => []
    | (ARef _ | AReint _) :: args => VI TStorage z :: outs args z
    | ATag _ :: args => outs args z
    | _ :: args => VUnit :: outs args z
    end.

  Fixpoint eval (e : expr) (E : env) (R : Type) (k : val -> env -> wprog R) {struct e} : wprog R :=
    match e with
    | EVar x => match get x E with Some (_, VNone) | None => nonsense | Some (_, v) => k v E end
    | ENum n => k (VLit n) E
    | EBool b => k (VB b) E
    | EOrd o => k (VO o) E
    | EStorage => z <- ld a ;; k (VI TStorage z) E
    | EZero => k (VI TStorage 0) E
    | ESizeT => k (VI TUptr (i_sizeT I)) E
    | EValueSize => k (VLit (i_vsize I)) E
    | EFail e => eval e E R (fun v E => match v with VO o => k (VO (failure_order o)) E | _ => nonsense end)
    | EUn o e => eval e E R (fun v E => opt (unary I o v) (fun v => k v E))
    | EBin o x y =>
        eval x E R (fun v E => eval y E R (fun u E => opt (binary I o v u) (fun v => k v E)))
    | ECast c t e => eval e E R (fun v E => opt (cast_to I c t v) (fun v => k v E))
    | ECall q f args =>
        (fix evals (l : list arg) (E : env) (acc : list val) {struct l} : wprog R :=
           match l with
           | [] =>
               let vs := rev acc in
               if (String.eqb q "" || String.eqb q "Derived") && negb (match ext q f vs with Some _ => true | None => false end) then
                 own f vs (tag_of args) R (fun v outs => opt (copy_out args outs E) (fun E => k v E))
               else
                 match ext q f vs with
                 | Some (AnsZ p) => z <- p ;; k (VI TStorage z) E
                 | Some (AnsV p) => z <- p ;; k (VI TValue z) E
                 | Some (AnsB p) => b <- p ;; k (VB b) E
                 | Some (AnsU p) => p ;;; k VUnit E
                 | Some (AnsC p) => '(b, z) <- p ;; opt (copy_out args (outs args z) E) (fun E => k (VB b) E)
                 | None => nonsense
                 end
           | ALoc :: l => evals l E (VLoc :: acc)
           | AVal e :: l => eval e E R (fun v E => evals l E (v :: acc))
           | ARef x :: l => match get x E with Some (_, v) => evals l E (v :: acc) | None => nonsense end
           | AReint x :: l =>
               match get x E with
               | Some (TValue, VI _ z) => evals l E (VI TStorage (wrap (i_w I) z) :: acc)
               | Some (TValue, VB b) => evals l E (VI TStorage (Z.b2z b) :: acc)
               | _ => nonsense
               end
           | ATag _ :: l => evals l E acc
           end) args E []
    end.

  (** [kn]: the statement is done; [kr]: it has returned a value. *)
  Fixpoint exec (s : stmt) (E : env) (R : Type) (kn : env -> wprog R) (kr : val -> env -> wprog R) {struct s} : wprog R :=
    let block := fix block (b : list stmt) (E : env) (R : Type) (kn : env -> wprog R) (kr : val -> env -> wprog R)
                     {struct b} : wprog R :=
      match b with
      | [] => kn E
      | s :: b => exec s E R (fun E => block b E R kn kr) kr
      end in
    let after := fun r : list Z + val * list Z =>
      match r with inl zs => kn (restore E 0 zs) | inr (v, zs) => kr v (restore E 0 zs) end in
    match s with
    | SDecl t x => kn (set x t VNone E)
    | SInit t x e => eval e E R (fun v E => opt (convert I t v) (fun v => kn (set x t v E)))
    | SSet x e =>
        eval e E R (fun v E =>
          match get x E with
          | Some (t, _) => opt (convert I t v) (fun v => kn (set x t v E))
          | None => nonsense
          end)
    | SPlain x => z <- racy a (i_w I) ;; kn (set x TStorage (VI TStorage z) E)
    | SStore e => eval e E R (fun v E => match v with VI TStorage z => st a z ;;; kn E | _ => nonsense end)
    | SDo e => eval e E R (fun _ E => kn E)
    | SFence => kn E
    | SIf c b1 b2 =>
        eval c E R (fun v E => opt (truth v) (fun t => if t then block b1 E R kn kr else block b2 E R kn kr))
    | SConf c b1 b2 => if i_conf I c then block b1 E R kn kr else block b2 E R kn kr
    | SWhile c b =>
        if int_loop b E then
          Loop (fun zs => eval c (restore E 0 zs) _ (fun v E' => opt (truth v) (fun t =>
                  if t then block b E' _ (fun E' => Ret (inl (slots E E'))) (fun v E' => Ret (inr (inr (v, slots E E'))))
                  else Ret (inr (inl (slots E E'))))))
               (slots E E) after
        else nonsense
    | SDoWhile b c =>
        if int_loop b E then
          Loop (fun zs => block b (restore E 0 zs) _
                  (fun E' => eval c E' _ (fun v E' => opt (truth v) (fun t =>
                     if t then Ret (inl (slots E E')) else Ret (inr (inl (slots E E'))))))
                  (fun v E' => Ret (inr (inr (v, slots E E')))))
               (slots E E) after
        else nonsense
    | SReturn e => eval e E R kr
    end.
  Fixpoint run_block (b : list stmt) (E : env) (R : Type) (kn : env -> wprog R) (kr : val -> env -> wprog R) : wprog R :=
    match b with
    | [] => kn E
    | s :: b => exec s E R (fun E => run_block b E R kn kr) kr
    end.
End Text.

(** Arguments for parameters; missing ones are the default orders. *)
Fixpoint pass (I : inst) (ps : list param) (vs : list val) : option env :=
  match ps, vs with
  | [], [] => Some []
  | p :: ps, v :: vs =>
      match convert I (p_ty p) v, pass I ps vs with
      | Some v, Some E => Some ((p_name p, (p_ty p, v)) :: E)
      | _, _ => None
      end
  | p :: ps, [] =>
      match p_default p, pass I ps [] with
      | Some o, Some E => Some ((p_name p, (p_ty p, VO o)) :: E)
      | _, _ => None
      end
  | [], _ :: _ => None
  end.

(** The first argument of a static function is the storage; members have none. *)
Definition strip (vs : list val) : list val := match vs with VLoc :: vs => vs | _ => vs end.

(** The function called: name, number of arguments, tag. *)
Definition fits (f : string) (n : nat) (tag : option bool) (g : fn) : bool :=
  String.eqb f (fn_name g) &&
  Nat.leb n (List.length (fn_params g)) &&
  Nat.leb (List.length (filter (fun p => match p_default p with None => true | _ => false end) (fn_params g))) n &&
  match tag, fn_tag g with
  | None, None => true
  | Some x, Some y => Bool.eqb x y
  | _, _ => false
  end.

Definition finals (ps : list param) (E : env) : list val :=
  map (fun p => match get (p_name p) E with Some (_, v) => v | None => VNone end) ps.

(** A call of a function of the class [fns] (with those it inherits, as far as they are
    given in the text), to depth [n].  [k] gets the value returned, converted to the type
    of the result, and the final values of the parameters. *)
Fixpoint call (I : inst) (a : addr) (ext : string -> string -> list val -> option answer)
    (consts : list stmt) (fns : list fn) (n : nat)
    (f : string) (vs : list val) (tag : option bool) (R : Type) (k : val -> list val -> wprog R) : wprog R :=
  match n with
  | O => nonsense
  | S n =>
      let own f vs tag R k :=
        call I a ext consts fns n f vs tag R
          (fun v outs => k v (match vs with VLoc :: _ => VUnit :: outs | _ => outs end)) in
      match find (fits f (List.length (strip vs)) tag) fns with
      | None => nonsense
      | Some g =>
          match pass I (fn_params g) (strip vs) with
          | None => nonsense
          | Some E =>
              run_block I a ext own (consts ++ fn_body g)%list E R
                (fun E => match fn_ret g with TVoid => k VUnit (finals (fn_params g) E) | _ => nonsense end)
                (fun v E => opt (convert I (fn_ret g) v) (fun v => k v (finals (fn_params g) E)))
          end
      end
  end.

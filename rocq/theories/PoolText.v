(** * The bodies of the lock-pool functions, as text

    The function bodies of src/lock_pool.cpp, D/lock_pool.hpp, D/core_operations_emulated.hpp,
    D/extra_ops_emulated.hpp, D/wait_ops_emulated.hpp, D/wait_ops_generic.hpp and D/wait_ops_futex.hpp are read from
    the source by tools/extract_pool.py (PoolTable.v).  This file gives the statements and expressions that occur in
    them a meaning: a program over the actions of PoolModel.v. *)
From Coq Require Import ZArith List Bool String.
From Verif Require Import SpecInt SpecBytes SpecPool Order Conv Prog FindModel RecordsModel PoolModel.
Import ListNotations.
Local Open Scope string_scope.
Local Open Scope Z_scope.
Local Open Scope prog_scope.

(** ** Syntax *)

(** types, as far as a conversion to them changes a value: the storage type of the object, the 32-bit futex word,
    anything else *)
Inductive pty := TS | TF | TO.
Inductive pbin := OAdd | OSub | ODiv | OMod | OAnd | OOr | OXor | OShl | OEq | ONe | OLt | OLe | OGt | OGe.
Inductive pun := UNot | UCompl | UNeg.
Inductive pexpr :=
| ENum (n : Z)
| EBool (b : bool)
| ENull                                   (* nullptr *)
| EOrd (o : morder)
| EErr (s : string)                       (* EINTR, ETIMEDOUT, ...: error numbers *)
| ETpl (s : string)                       (* a template parameter, trait or configuration macro *)
| EVar (x : string)
| EStor                                   (* the storage of the object, a plain access *)
| EAddr                                   (* its address *)
| EPool (e : pexpr)                       (* g_lock_pool[e].state *)
| EField (e : pexpr) (x : string)         (* the futex, mutex or condition variable e.x, as an operand of its functions *)
| ESec (e : pexpr)                        (* e.tv_sec, e.tv_nsec; a timespec is a number of nanoseconds *)
| ENsec (e : pexpr)
| ECast (t : pty) (e : pexpr)
| EUn (u : pun) (e : pexpr)
| EBin (b : pbin) (e f : pexpr)
| EAnd (e f : pexpr)                      (* && *)
| EOrElse (e f : pexpr)                   (* || *)
| ECall (f : string) (a : list parg)      (* a call; e.f(a) is the function ".f" with [e] in front *)
| EDispatch (f s : string) (a : list parg)   (* a call of the overload of [f] that the trait [s] selects *)
with parg := AVal (e : pexpr) | ARef (x : string).

Inductive pstmt :=
| SInit (t : pty) (x : string) (e : pexpr)
| SDecl (t : pty) (x : string)
| SSet (x : string) (e : pexpr)
| SOp (x : string) (b : pbin) (e : pexpr)      (* x op= e *)
| SStore (e : pexpr)                           (* s = e *)
| SStoreOp (b : pbin) (e : pexpr)              (* s op= e *)
| SCount (b : pbin)                            (* ++m_waiter_count, --m_waiter_count *)
| SDo (e : pexpr)
| SIf (c : pexpr) (b1 b2 : list pstmt)
| SWhile (c : pexpr) (b : list pstmt)
| SDoWhile (b : list pstmt) (c : pexpr)
| SFor (n : pexpr) (b : list pstmt)            (* for (unsigned int i = 0u; i < n; ++i), [n] a constant *)
| SGuard (c x : string) (a : list parg) (b : list pstmt)   (* c x(a); and the rest of the block: x is destroyed
                                                              however the block is left *)
| SBreak
| SGoto (l : string)
| SLabel (l : string)
| SReturn (e : pexpr)
| SReturnVoid.

Record pfn := { pf_name : string; pf_cond : list (string * bool); pf_params : list (string * pty * bool);
                pf_lines : string; pf_body : list pstmt }.

(** ** Values *)

Inductive pval :=
| PZ (z : Z)                 (* a number that its type can represent *)
| PX (z : Z)                 (* the exact value of an arithmetic expression, before conversion *)
| PB (b : bool)
| PO (o : morder)
| PLk (i : nat)              (* lock [i] *)
| PRec (i k : nat)           (* wait record [k] of lock [i] *)
| PNil                       (* the null pointer *)
| PFut (f : fut)
| PAddr                      (* the address of the storage *)
| PErr (s : string)          (* an error number; as the result of a system call: -1, with this error number *)
| PPair (a b : pval)
| PU.

Definition env := list (string * (pty * pval)).
Fixpoint get (x : string) (E : env) : option (pty * pval) :=
  match E with [] => None | (y, v) :: E => if String.eqb y x then Some v else get x E end.
Fixpoint put (x : string) (v : pty * pval) (E : env) : env :=
  match E with
  | [] => [(x, v)]
  | (y, u) :: E => if String.eqb y x then (x, v) :: E else (y, u) :: put x v E
  end.

(** what a function that is not in the text answers: run [p]; [f] gives the result and the new values of the
    arguments passed by reference *)
Inductive ans := Ans (X : Type) (p : pprog X) (f : X -> pval * list pval).
Arguments Ans {X} p f.
Inductive exit := XN (E : env) | XR (v : pval) (E : env) | XG (l : string) (E : env).

Definition stuck {R} : pprog R :=
  Loop (fun _ : unit => Ret (inl tt)) tt (fun b : Empty_set => match b with end).

Definition num (v : pval) : option Z := match v with PZ z | PX z => Some z | _ => None end.
Definition truth (v : pval) : option bool :=
  match v with PB b => Some b | PZ z | PX z => Some (negb (z =? 0)) | _ => None end.
(** bitwise operations on representable values give representable values; so does [&] with anything *)
Definition bin (o : pbin) (v u : pval) : option pval :=
  match v, u with
  | PErr s, PErr t =>
      match o with OEq => Some (PB (String.eqb s t)) | ONe => Some (PB (negb (String.eqb s t))) | _ => None end
  | PErr _, PZ 0 => match o with OLt => Some (PB true) | OEq => Some (PB false) | _ => None end
  | PNil, PNil => match o with OEq => Some (PB true) | ONe => Some (PB false) | _ => None end
  | PRec _ _, PNil => match o with OEq => Some (PB false) | ONe => Some (PB true) | _ => None end
  | _, _ =>
      match num v, num u with
      | Some x, Some y =>
          let exact := match v, u with PZ _, PZ _ => true | _, _ => false end in
          let bits z := Some (if exact then PZ z else PX z) in
          match o with
          | OAdd => Some (PX (x + y))
          | OSub => Some (PX (x - y))
          | ODiv => Some (PX (x / y))
          | OMod => Some (PX (x mod y))
          | OAnd => Some (match v, u with PX _, PX _ => PX (Z.land x y) | _, _ => PZ (Z.land x y) end)
          | OOr => bits (Z.lor x y)
          | OXor => bits (Z.lxor x y)
          | OShl => Some (PX (Z.shiftl x y))
          | OEq => Some (PB (x =? y))
          | ONe => Some (PB (negb (x =? y)))
          | OLt => Some (PB (x <? y))
          | OLe => Some (PB (x <=? y))
          | OGt => Some (PB (y <? x))
          | OGe => Some (PB (y <=? x))
          end
      | _, _ => None
      end
  end.
Definition un (o : pun) (v : pval) : option pval :=
  match o, v with
  | UNot, PB b => Some (PB (negb b))
  | UNot, (PZ z | PX z) => Some (PB (z =? 0))
  | UCompl, (PZ z | PX z) => Some (PX (Z.lnot z))
  | UNeg, (PZ z | PX z) => Some (PX (- z))
  | _, _ => None
  end.
Definition field (v : pval) (x : string) : option pval :=
  match v with
  | PLk i => if String.eqb x "m_mutex" then Some (PFut (FM i)) else None
  | PRec i k => if String.eqb x "m_cond" then Some (PFut (FC i k)) else None
  | _ => None
  end.
Definition opt {A R} (o : option A) (k : A -> pprog R) : pprog R := match o with Some a => k a | None => stuck end.
Fixpoint puts (xs : list string) (vs : list pval) (E : env) (conv : pty -> pval -> pval) : env :=
  match xs, vs with
  | x :: xs, v :: vs =>
      puts xs vs (match get x E with Some (t, _) => put x (t, conv t v) E | None => E end) conv
  | _, _ => E
  end.

(** a system call that fails returns -1 and sets errno *)
Definition result (v : pval) : pval := match v with PErr _ => PZ (-1) | _ => v end.
Definition after (v : pval) (E : env) : env := match v with PErr s => put "errno" (TO, PErr s) E | _ => E end.
(** the number of rounds of a loop with a constant bound, and the rounds *)
Definition count (z : Z) : nat := match z with Zpos p => Pos.to_nat p | _ => O end.
Fixpoint rounds {R} (step : env -> (env -> pprog R) -> pprog R) (n : nat) (E : env) (k : env -> pprog R) : pprog R :=
  match n with O => k E | S n => step E (fun E => rounds step n E k) end.

(** ** Meaning *)
Section Meaning.
  Variables (pl : platform) (d : odesc).
  (** template parameters and configuration; the functions that are not part of the class *)
  Variable tpl : string -> option pval.
  Variable ext : string -> list pval -> option ans.

  Definition conv (t : pty) (v : pval) : pval :=
    match t, v with
    | TS, PX z => PZ (wrap (d_bits d) z)
    | TF, PX z => PZ (u32 z)
    | TO, PX z => PZ z
    | _, _ => v
    end.
  (** a compound assignment converts its result *)
  Definition convop (t : pty) (v : pval) : pval :=
    match t, v with
    | TS, (PX z | PZ z) => PZ (wrap (d_bits d) z)
    | TF, (PX z | PZ z) => PZ (u32 z)
    | TO, (PX z | PZ z) => PZ z
    | _, _ => v
    end.

  Section Own.
    (** the functions of the same class: values and names of the arguments; answers the result and the final values
        of the reference parameters *)
    Variable own : string -> list pval -> option (forall R, (pval -> list pval -> pprog R) -> pprog R).
    (** one iteration of the loop [s], entered in the environment [E] *)
    Variable iter : pstmt -> env -> env -> pprog (env + exit).

    Definition invoke (f : string) (vs : list pval) R (k : pval -> list pval -> pprog R) : pprog R :=
      match own f vs with
      | Some c => c R k
      | None => match ext f vs with
                | Some (Ans p g) => bind p (fun x => k (fst (g x)) (snd (g x)))
                | None => stuck
                end
      end.

    Fixpoint eval (e : pexpr) (E : env) R (k : pval -> env -> pprog R) {struct e} : pprog R :=
      match e with
      | ENum n => k (PZ n) E
      | EBool b => k (PB b) E
      | ENull => k PNil E
      | EOrd o => k (PO o) E
      | EErr s => k (PErr s) E
      | ETpl s => opt (tpl s) (fun v => k v E)
      | EVar x => opt (get x E) (fun v => k (snd v) E)
      | EStor => v <- rd pl d ;; k (PZ v) E
      | EAddr => k PAddr E
      | EPool e => eval e E R (fun v E => opt (num v) (fun z => k (PLk (Z.to_nat z)) E))
      | EField e x => eval e E R (fun v E => opt (field v x) (fun v => k v E))
      | ESec e => eval e E R (fun v E => opt (num v) (fun z => k (PZ (z / 1000000000)) E))
      | ENsec e => eval e E R (fun v E => opt (num v) (fun z => k (PZ (z mod 1000000000)) E))
      | ECast t e => eval e E R (fun v E => k (conv t v) E)
      | EUn u e => eval e E R (fun v E => opt (un u v) (fun v => k v E))
      | EBin b e f => eval e E R (fun v E => eval f E R (fun u E => opt (bin b v u) (fun v => k v E)))
      | EAnd e f => eval e E R (fun v E => opt (truth v) (fun t => if t then eval f E R k else k (PB false) E))
      | EOrElse e f => eval e E R (fun v E => opt (truth v) (fun t => if t then k (PB true) E else eval f E R k))
      | ECall f a =>
          (fix args (a : list parg) (E : env) (vs : list pval) (xs : list string) {struct a} : pprog R :=
             match a with
             | [] => invoke f (rev vs) R (fun v ws =>
                       k (result v) (after v (puts (rev xs) ws E conv)))
             | AVal e :: a => eval e E R (fun v E => args a E (v :: vs) xs)
             | ARef x :: a => opt (get x E) (fun v => args a E (snd v :: vs) (x :: xs))
             end) a E [] []
      | EDispatch f s a =>
          (fix args (a : list parg) (E : env) (vs : list pval) (xs : list string) {struct a} : pprog R :=
             match a with
             | [] => opt (tpl s) (fun t => opt (truth t) (fun t => invoke (f ++ if t then "/true" else "/false")%string (rev vs) R (fun v ws =>
                       k (result v) (after v (puts (rev xs) ws E conv)))))
             | AVal e :: a => eval e E R (fun v E => args a E (v :: vs) xs)
             | ARef x :: a => opt (get x E) (fun v => args a E (snd v :: vs) (x :: xs))
             end) a E [] []
      end.
    Fixpoint evals (a : list parg) (E : env) (vs : list pval) R (k : list pval -> env -> pprog R) : pprog R :=
      match a with
      | [] => k (rev vs) E
      | AVal e :: a => eval e E R (fun v E => evals a E (v :: vs) R k)
      | ARef x :: a => opt (get x E) (fun v => evals a E (snd v :: vs) R k)
      end.

    Definition cut (E0 E : env) : env := firstn (List.length E0) E.

    (** [kn]: what follows; [kr]: the function returns; [kb]: break; [kg]: goto *)
    Fixpoint exec (s : pstmt) (E : env) R (kn : env -> pprog R) (kr : pval -> env -> pprog R)
        (kb : env -> pprog R) (kg : string -> env -> pprog R) {struct s} : pprog R :=
      let block :=
        fix block (b : list pstmt) (E : env) R (kn : env -> pprog R) (kr : pval -> env -> pprog R)
            (kb : env -> pprog R) (kg : string -> env -> pprog R) {struct b} : pprog R :=
          match b with
          | [] => kn E
          | s :: b =>
              let kg' l E :=
                (fix seek (c : list pstmt) : pprog R :=
                   match c with
                   | [] => kg l E
                   | s :: c' => match s with
                                | SLabel l' => if String.eqb l l' then block c' E R kn kr kb kg else seek c'
                                | _ => seek c'
                                end
                   end) b in
              exec s E R (fun E => block b E R kn kr kb kg) kr kb kg'
          end in
      match s with
      | SInit t x e => eval e E R (fun v E => kn (put x (t, conv t v) E))
      | SDecl t x => kn (put x (t, PU) E)
      | SSet x e => eval e E R (fun v E => opt (get x E) (fun tv => kn (put x (fst tv, conv (fst tv) v) E)))
      | SOp x o e =>
          eval e E R (fun v E => opt (get x E) (fun tv => opt (bin o (snd tv) v) (fun v =>
            kn (put x (fst tv, convop (fst tv) v) E))))
      | SStore e => eval e E R (fun v E => match conv TS v with PZ z => wr pl d z ;;; kn E | _ => stuck end)
      | SStoreOp o e =>
          eval e E R (fun v E => s <- rd pl d ;;
            opt (bin o (PZ s) v) (fun v => match convop TS v with PZ z => wr pl d z ;;; kn E | _ => stuck end))
      | SCount o =>
          opt (get "this" E) (fun tv => invoke "m_waiter_count" [snd tv] R (fun c _ =>
            opt (bin o c (PZ 1)) (fun v => invoke "m_waiter_count=" [snd tv; v] R (fun _ _ => kn E))))
      | SDo e => eval e E R (fun _ E => kn E)
      | SIf c b1 b2 =>
          eval c E R (fun v E => opt (truth v) (fun t =>
            if t then
              block b1 E R kn kr kb (fun l E =>
                match b2 with
                | SLabel l' :: c => if String.eqb l l' then block c E R kn kr kb kg else kg l E
                | _ => kg l E
                end)
            else block b2 E R kn kr kb kg))
      | SWhile _ _ | SDoWhile _ _ =>
          Loop (iter s E) E (fun x => match x with XN E => kn E | XR v E => kr v E | XG l E => kg l E end)
      | SFor n b =>
          eval n E R (fun v E => opt (num v) (fun z =>
            rounds (fun E1 next =>
                block b E1 R (fun E2 => next (cut E E2)) (fun v E2 => kr v (cut E E2))
                  (fun E2 => kn (cut E E2)) (fun l E2 => kg l (cut E E2))) (count z) E kn))
      | SGuard c x a b =>
          evals a E [] R (fun vs E => invoke ("new " ++ c)%string vs R (fun o _ =>
            let destroy E1 (k : env -> pprog R) := invoke ("~" ++ c)%string [o] R (fun _ _ => k (cut E E1)) in
            block b (put x (TO, o) E) R (fun E1 => destroy E1 kn) (fun v E1 => destroy E1 (kr v))
              (fun E1 => destroy E1 kb) (fun l E1 => destroy E1 (kg l))))
      | SBreak => kb E
      | SGoto l => kg l E
      | SLabel _ => kn E
      | SReturn e => eval e E R (fun v E => kr v E)
      | SReturnVoid => kr PU E
      end.
    Fixpoint block (b : list pstmt) (E : env) R (kn : env -> pprog R) (kr : pval -> env -> pprog R)
        (kb : env -> pprog R) (kg : string -> env -> pprog R) {struct b} : pprog R :=
      match b with
      | [] => kn E
      | s :: b =>
          let kg' l E :=
            (fix seek (c : list pstmt) : pprog R :=
               match c with
               | [] => kg l E
               | s :: c' => match s with
                            | SLabel l' => if String.eqb l l' then block c' E R kn kr kb kg else seek c'
                            | _ => seek c'
                            end
               end) b in
          exec s E R (fun E => block b E R kn kr kb kg) kr kb kg'
      end.
  End Own.

  (** the loops; [n] bounds how deep they are nested.  The variables of the body end with it.  No loop calls a
      function of its own class (except after ENOSYS, which is left out). *)
  Definition no_own (f : string) (vs : list pval) : option (forall R, (pval -> list pval -> pprog R) -> pprog R) := None.
  Fixpoint iter (n : nat) (s : pstmt) (E E1 : env) : pprog (env + exit) :=
    match n with
    | O => stuck
    | S n =>
        let leave v := Ret (inr v) in
        let run b E2 kn :=
          block no_own (iter n) b E2 _ kn (fun v E3 => leave (XR v (cut E E3)))
            (fun E3 => leave (XN (cut E E3))) (fun l E3 => leave (XG l (cut E E3))) in
        match s with
        | SWhile c b =>
            eval no_own c E1 _ (fun v E2 => opt (truth v) (fun t =>
              if t then run b E2 (fun E3 => Ret (inl (cut E E3))) else leave (XN (cut E E2))))
        | SDoWhile b c =>
            run b E1 (fun E3 => eval no_own c E3 _ (fun v E4 => opt (truth v) (fun t =>
              if t then Ret (inl (cut E E4)) else leave (XN (cut E E4)))))
        | _ => stuck
        end
    end.

  (** the loops and the functions of a class *)
  Variable it : pstmt -> env -> env -> pprog (env + exit).
  Variable fns : list pfn.
  (** the object itself: the first entries of every environment *)
  Variable this : env.

  Definition cond_ok (c : list (string * bool)) : bool :=
    forallb (fun p => match tpl (fst p) with Some (PB b) => Bool.eqb b (snd p) | _ => false end) c.
  Fixpoint lookup (f : string) (l : list pfn) : option pfn :=
    match l with
    | [] => None
    | p :: l => if String.eqb (pf_name p) f && cond_ok (pf_cond p) then Some p else lookup f l
    end.
  Fixpoint bind_params (ps : list (string * pty * bool)) (vs : list pval) : option env :=
    match ps, vs with
    | [], [] => Some []
    | (x, t, _) :: ps, v :: vs => match bind_params ps vs with Some E => Some ((x, (t, conv t v)) :: E) | None => None end
    | _, _ => None
    end.
  Fixpoint finals (ps : list (string * pty * bool)) (E : env) : list pval :=
    match ps with
    | [] => []
    | (x, _, true) :: ps => match get x E with Some (_, v) => v :: finals ps E | None => finals ps E end
    | _ :: ps => finals ps E
    end.
  (** calling a function of the class; [n] bounds the depth of calls.  The continuation gets the result, the final
      values of the reference parameters and the final environment. *)
  Fixpoint call (n : nat) (f : string) (vs : list pval)
      : option (forall R, (pval -> list pval -> env -> pprog R) -> pprog R) :=
    match n with
    | O => None
    | S n' =>
        match lookup f fns with
        | None => None
        | Some p =>
            match bind_params (pf_params p) vs with
            | None => None
            | Some E =>
                let own g us := match call n' g us with
                                | Some c => Some (fun R k => c R (fun v rs _ => k v rs))
                                | None => None
                                end in
                Some (fun R k =>
                        block own it (pf_body p) (this ++ E)%list R (fun E => k PU (finals (pf_params p) E) E)
                          (fun v E => k v (finals (pf_params p) E) E) (fun _ => stuck) (fun _ _ => stuck))
            end
        end
    end.
  Definition runf {A} (f : string) (vs : list pval) (k : pval -> list pval -> env -> pprog A) : pprog A :=
    match call 5 f vs with Some c => c A k | None => stuck end.
End Meaning.

(** * Calls of several threads on lock-based objects, on the machine of Reorder.v (C56).

    The threads run the programs of PoolModel.v with the futex lock of src/lock_pool.cpp and code of their own.  Each
    action of a program on the word of one lock, at location [l], becomes the instructions that FenceModel.v gives
    for it on a back end; all other actions become any instructions that do not write that word.  Compiler and
    processor may reorder the accesses of each thread as far as [execution] allows. *)
From Coq Require Import ZArith Arith List Bool.
From Verif Require Import SpecPool Order Reorder SpecOrder FenceModel SpecFence SpecLock Prog PoolModel.
Import ListNotations.
Open Scope nat_scope.

(** ** What a program may do *)

Section Path.
  Context {act : Type} {resp : act -> Type}.
  (** an action and the answer to it *)
  Definition did := {a : act & resp a}.

  (** [turns body after s tr o]: the iterations of a loop from [s] on, and what comes after it *)
  Inductive turns {X B R : Type} (body : X -> list did -> option (X + B) -> Prop)
      (after : B -> list did -> option R -> Prop) : X -> list did -> option R -> Prop :=
  | turn_in s tr : body s tr None -> turns body after s tr None
  | turn_next s s' tr tr' o : body s tr (Some (inl s')) -> turns body after s' tr' o -> turns body after s (tr ++ tr') o
  | turn_out s b tr tr' o : body s tr (Some (inr b)) -> after b tr' o -> turns body after s (tr ++ tr') o.

  (** [path p tr o]: the program [p] may do [tr], whatever the answers are; it has then returned [r] if [o = Some r],
      and is still running if [o = None] *)
  Fixpoint path {R : Type} (p : prog act resp R) : list did -> option R -> Prop :=
    match p with
    | Ret r => fun tr o => tr = [] /\ (o = None \/ o = Some r)
    | Do a k => fun tr o => (tr = [] /\ o = None) \/ exists x tr', tr = existT resp a x :: tr' /\ path (k x) tr' o
    | Loop body s k => fun tr o => turns (fun s => path (body s)) (fun b => path (k b)) s tr o
    end.

  (** The machine of Prog.v running [p] on thread [t], whatever the memory is before each step: what it does, and what
      is left of [p]. *)
  Context {mem oracle : Type}.
  Definition acted {R} (exec : nat -> forall a : act, mem -> oracle -> option (mem * resp a)) (t : nat) (w : oracle) (m : mem)
      (p : prog act resp R) : list did :=
    match p with
    | Do a _ => match exec t a m w with Some (_, x) => [existT resp a x] | None => [] end
    | _ => []
    end.
  Fixpoint machine_run {R} (exec : nat -> forall a : act, mem -> oracle -> option (mem * resp a)) (t : nat)
      (p : prog act resp R) (l : list (mem * oracle)) : list did * prog act resp R :=
    match l with
    | [] => ([], p)
    | (m, w) :: l =>
        let (tr, q) := machine_run exec t (snd (pstep exec t w m p)) l in (acted exec t w m p ++ tr, q)
    end.
End Path.
Arguments did : clear implicits.

(** ** Threads *)

(** a thread alternates its own code and calls; of a call, the actions with the instructions they become, and what
    it has returned *)
Inductive event :=
| User (c : list item)
| Call (x : nat * aop) (tr : list (did pact presp * list item)) (r : option aret).
Definition steps_of (e : event) : list (option (did pact presp) * list item) :=
  match e with
  | User c => [(None, c)]
  | Call _ tr _ => map (fun s => (Some (fst s), snd s)) tr
  end.
Definition steps (th : list event) : list (option (did pact presp) * list item) := concat (map steps_of th).
Definition code_of_steps (s : list (option (did pact presp) * list item)) : list item := concat (map snd s).
Definition code_of (th : list event) : list item := code_of_steps (steps th).

(** the calls run the programs of the library; only the last one may still be running *)
Fixpoint runs (impl : nat * aop -> pprog aret) (th : list event) : Prop :=
  match th with
  | [] => True
  | User _ :: th' => runs impl th'
  | Call x tr r :: th' => path (impl x) (map fst tr) r /\ (r = None -> th' = []) /\ runs impl th'
  end.

(** ** Instructions *)

Definition keeps_off (l : nat) (c : list item) : Prop :=
  forall j x, nth_error c j = Some (Access x) -> a_kind x = Wr -> a_loc x <> l.
(** the instructions of an action, [l] being the location of the word of lock [i] *)
Definition renders (b : backend) (l i : nat) (d : did pact presp) (c : list item) : Prop :=
  match d with
  | existT _ (MLoad j o) _ => if Nat.eqb j i then exists n, c = emit b l (OLoad n o) else keeps_off l c
  | existT _ (MCas _ j _ _ so fo) x =>
      if Nat.eqb j i then exists n, c = emit b l (OCas (fst (x : bool * Z)) n so fo) else keeps_off l c
  | existT _ (MOr j _ o) _ => if Nat.eqb j i then exists arith n, c = emit b l (OFetch arith n o) else keeps_off l c
  | _ => keeps_off l c
  end.
Definition rendered (b : backend) (l i : nat) (th : list event) : Prop :=
  Forall (fun s => match fst s with Some d => renders b l i d (snd s) | None => keeps_off l (snd s) end) (steps th).

(** The word is a 32-bit integer (src/lock_pool.cpp 561), so the wide back ends do not come into play, and there is no
    futex on Windows.  SPARC runs in total store order mode. *)
Definition on_machine (b : backend) (m : machine) : Prop :=
  match b with
  | X86Wide _ | ArmWide | Aarch32Wide | Aarch64Wide | GccSyncWide | Windows | MsvcX86 | MsvcArm => False
  | Sparc => m = TSO
  | b => m = machine_of b
  end.

(** ** The word in memory *)

(** Thread [t] does the step [d], the [n]th of its steps, and the instructions [c] of it start at place [k]. *)
Definition step_at (threads : nat -> list event) (t n k : nat) (d : option (did pact presp)) (c : list item) : Prop :=
  nth_error (steps (threads t)) n = Some (d, c) /\ k = length (code_of_steps (firstn n (steps (threads t)))).
(** The word is [z] at time [now]: the last write so far left it, [val t j] being what write [j] of thread [t]
    leaves; it is initially 0. *)
Definition word_is (code : nat -> list item) (time : nat -> nat -> nat) (val : nat -> nat -> Z) (l now : nat) (z : Z) : Prop :=
  exists w, gets code time l now w /\ z = match w with None => 0%Z | Some (t, j) => val t j end.
(** A compare-exchange that succeeds finds what it expects and leaves what it was given, a fetch-or leaves the
    disjunction; both are atomic.  What loads and failed compare-exchanges answer does not matter. *)
Definition word_works (threads : nat -> list event) (time : nat -> nat -> nat) (val : nat -> nat -> Z) (l i : nat) : Prop :=
  let code t := code_of (threads t) in
  forall t n k d c r w, step_at threads t n k (Some d) c -> last_read c r -> accesses_of c Wr w ->
    match d with
    | existT _ (MCas _ j e v _ _) x =>
        j = i -> fst (x : bool * Z) = true ->
        atomic_at code time l t (k + r) (k + w) /\ word_is code time val l (time t (k + r)) e /\ val t (k + w) = v
    | existT _ (MOr j v _) _ =>
        j = i ->
        atomic_at code time l t (k + r) (k + w) /\
        exists z, word_is code time val l (time t (k + r)) z /\ val t (k + w) = Z.lor z v
    | _ => True
    end.

(** All of it: threads that run the library on one clock. *)
Record execution_of (b : backend) (m : machine) (pl : platform) (D : nat -> odesc) (l i : nat)
    (threads : nat -> list event) (place time : nat -> nat -> nat) (val : nat -> nat -> Z) : Prop := {
  eo_machine : on_machine b m;
  eo_lock : pl_lock pl = LFutex;
  eo_runs : forall t, runs (pool_impl pl D) (threads t);
  eo_rendered : forall t, rendered b l i (threads t);
  eo_together : together m (fun t => code_of (threads t)) place time;
  eo_word : word_works threads time val l i }.

(** ** Calls *)

(** Thread [t]'s event [n] is the call [x], with the steps [tr], whose instructions start at place [k]. *)
Definition call_at (threads : nat -> list event) (t n k : nat) (x : nat * aop) (tr : list (did pact presp * list item))
    (r : option aret) : Prop :=
  nth_error (threads t) n = Some (Call x tr r) /\ k = length (code_of (firstn n (threads t))).
Definition call_code (tr : list (did pact presp * list item)) : list item := concat (map snd tr).

(** the calls that use lock [i]: all on lock-based objects assigned to it, notifications of objects that wait with its
    help, and the fence where it is implemented by lock 0 *)
Definition uses (pl : platform) (D : nat -> odesc) (i : nat) (x : nat * aop) : Prop :=
  match snd x with
  | AFence => i = Z.to_nat (get_lock_index pl 0)
  | AExit => False
  | ANotify _ => lock_of pl (D (fst x)) = i /\ (d_wait (D (fst x)) = WEmulated \/ d_wait (D (fst x)) = WPool)
  | _ => lock_of pl (D (fst x)) = i /\ d_wait (D (fst x)) = WEmulated
  end.

(** the data operations of lock-based objects: one critical section each *)
Definition one_section (D : nat -> odesc) (x : nat * aop) : Prop :=
  d_wait (D (fst x)) = WEmulated /\ match snd x with AData _ | AUpd _ _ => True | _ => False end.

(** the action is a plain access to a byte of a lock-based object under lock [i] *)
Definition on_bytes (i : nat) (d : did pact presp) : Prop :=
  match projT1 d with BRd j _ | BWr j _ _ => j = i | _ => False end.
(** access [a] of thread [t] belongs to such an action of the call at place [k] with the steps [tr] *)
Definition byte_access (i k : nat) (tr : list (did pact presp * list item)) (a : nat) : Prop :=
  exists pre d c post j, tr = pre ++ (d, c) :: post /\ on_bytes i d /\ is_access c j /\ a = k + length (call_code pre) + j.

(** Everything thread [t] does before the call at [k] takes effect before everything thread [u] does after the
    call at [k'] with the steps [tr']. *)
Definition ordered (threads : nat -> list event) (time : nat -> nat -> nat) (t k u k' : nat)
    (tr' : list (did pact presp * list item)) : Prop :=
  forall a a', is_access (code_of (threads t)) a -> a < k ->
    is_access (code_of (threads u)) a' -> k' + length (call_code tr') <= a' -> time t a < time u a'.

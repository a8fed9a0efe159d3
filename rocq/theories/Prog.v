(** * Programs, machines, schedules.

    The C++ functions are modelled as values of type [prog]: each [Do] is one
    indivisible machine action, [Loop] is an unbounded retry loop.  This file
    is the execution platform of the model; it models no file of /repo. *)
From Coq Require Import List Arith.
From Verif Require Import SpecLin.
Import ListNotations.

Section Prog.
  Context {act : Type} {resp : act -> Type}.

  (** [Loop body s k]: run [body s]; on [inl s'] run the body again from [s'],
      on [inr b] leave the loop and continue with [k b]. *)
  Inductive prog (R : Type) : Type :=
  | Ret (r : R)
  | Do (a : act) (k : resp a -> prog R)
  | Loop (X B : Type) (body : X -> prog (X + B)) (s : X) (k : B -> prog R).

  Fixpoint bind {R R'} (p : prog R) (f : R -> prog R') : prog R' :=
    match p with
    | Ret _ r => f r
    | Do _ a k => Do R' a (fun x => bind (k x) f)
    | Loop _ X B body s k => Loop R' X B body s (fun b => bind (k b) f)
    end.
End Prog.
Arguments prog : clear implicits.
Arguments Ret {act resp R} r.
Arguments Do {act resp R} a k.
Arguments Loop {act resp R X B} body s k.

Declare Scope prog_scope.
Delimit Scope prog_scope with prog.
Notation "x <- p ;; q" := (bind p (fun x => q))
  (at level 61, p at next level, right associativity) : prog_scope.
Notation "' pat <- p ;; q" := (bind p (fun x => match x with pat => q end))
  (at level 61, pat pattern, p at next level, right associativity) : prog_scope.
Notation "p ;;; q" := (bind p (fun _ => q)) (at level 61, right associativity) : prog_scope.

Definition do {act resp} (a : act) : prog act resp (resp a) := Do a (fun x => Ret x).

(** [while]-style loops whose continuation is the loop result. *)
Definition loop {act resp S B} (s : S) (body : S -> prog act resp (S + B)) : prog act resp B :=
  Loop body s (fun b => Ret b).

Section Machine.
  Context {act : Type} {resp : act -> Type}.
  Context {mem oracle op ret : Type}.
  (** Effect of one action of thread [t] with oracle [w]; [None] means the thread is blocked. *)
  Variable exec : nat -> forall a : act, mem -> oracle -> option (mem * resp a).
  (** The code run by a call. *)
  Variable impl : op -> prog act resp ret.

  Inductive tstate := Idle | Run (o : op) (p : prog act resp ret).

  Record config := mkc { c_mem : mem; c_thr : nat -> tstate }.

  (** One event of a schedule: thread [t] calls [o]; makes one step with oracle [w]; returns. *)
  Inductive sched := SInv (t : nat) (o : op) | SStep (t : nat) (w : oracle) | SRes (t : nat).

  (** One small step of a program; entering an iteration of a loop is a step of its own. *)
  Definition pstep (t : nat) (w : oracle) (m : mem) (p : prog act resp ret) : mem * prog act resp ret :=
    match p with
    | Ret _ => (m, p)
    | Do a k => match exec t a m w with Some (m', x) => (m', k x) | None => (m, p) end
    | Loop body s k =>
        (m, bind (body s) (fun y => match y with inl s' => Loop body s' k | inr b => k b end))
    end.

  (** Events that do not apply in the current state (e.g. returning while the call is running) are skipped. *)
  Definition cstep (c : config) (e : sched) : config * list (event op ret) :=
    match e with
    | SInv t o =>
        match c_thr c t with
        | Idle => (mkc (c_mem c) (tset (c_thr c) t (Run o (impl o))), [EInv t o])
        | Run _ _ => (c, [])
        end
    | SStep t w =>
        match c_thr c t with
        | Idle => (c, [])
        | Run o p => let (m', p') := pstep t w (c_mem c) p in
                     (mkc m' (tset (c_thr c) t (Run o p')), [])
        end
    | SRes t =>
        match c_thr c t with
        | Run o (Ret r) => (mkc (c_mem c) (tset (c_thr c) t Idle), [ERes t r])
        | _ => (c, [])
        end
    end.

  Fixpoint run (c : config) (l : list sched) : config * list (event op ret) :=
    match l with
    | [] => (c, [])
    | e :: l => let (c1, h1) := cstep c e in let (c2, h2) := run c1 l in (c2, h1 ++ h2)
    end.

  Definition start (m : mem) : config := mkc m (fun _ => Idle).
End Machine.
Arguments config : clear implicits.
Arguments tstate : clear implicits.
Arguments sched : clear implicits.
Arguments Idle {act resp op ret}.
Arguments Run {act resp op ret} o p.
Arguments SInv {oracle op} t o.
Arguments SStep {oracle op} t w.
Arguments SRes {oracle op} t.

(** Schedules in which every call satisfies its precondition [ok]. *)
Definition legal {oracle op : Type} (ok : op -> Prop) (l : list (sched oracle op)) : Prop :=
  forall t o, In (SInv t o) l -> ok o.
(** No call is in progress. *)
Definition quiet {act resp mem op ret} (c : config act resp mem op ret) : Prop := forall t, c_thr c t = Idle.

(** * Lock-freedom: some call always gets on.

    A thread is [working] on an object while it is inside a call on that object which still has
    something to execute.  The definitions below count, along a schedule, the steps made inside calls on
    one object, the spurious failures among them and the calls that got to their end. *)
From Coq Require Import ZArith List Bool.
From Verif Require Import SpecInt SpecAlone Prog Word.
Import ListNotations.

Section Free.
  Context {op ret : Type}.
  Variable impl : op -> wprog ret.
  (** the object a call works on *)
  Variable adr : op -> addr.
  Notation config := (config wact wresp wmem op ret).

  Definition working (a : addr) (c : config) (t : nat) : bool :=
    match c_thr c t with
    | Idle => false
    | Run _ (Ret _) => false
    | Run o _ => Nat.eqb (adr o) a
    end.

  (** A weak compare-and-swap fails although it finds the expected value, or a
      store-conditional fails although nobody has written since the load-linked. *)
  Definition would_succeed (m : wmem) (x : wact) : bool :=
    match x with
    | ACasW a e _ | AKCas a e _ => Z.eqb (val (m a)) e
    | ASC a tok _ => Z.eqb (ver (m a)) tok
    | _ => false
    end.
  Definition fails_spuriously (c : config) (t : nat) (w : luck) : bool :=
    match c_thr c t with
    | Run _ (Do x _) => negb (lucky w) && would_succeed (c_mem c) x
    | _ => false
    end.

  (** the events of a schedule *)
  Definition works (a : addr) (c : config) (e : sched luck op) : bool :=
    match e with SStep t _ => working a c t | _ => false end.
  Definition stumbles (a : addr) (c : config) (e : sched luck op) : bool :=
    match e with SStep t w => working a c t && fails_spuriously c t w | _ => false end.
  Definition finishes (a : addr) (c : config) (e : sched luck op) : bool :=
    match e with SStep t _ => working a c t && negb (working a (fst (cstep wexec impl c e)) t) | _ => false end.

  Fixpoint count (f : config -> sched luck op -> bool) (c : config) (l : list (sched luck op)) : nat :=
    match l with
    | [] => 0
    | e :: l => (if f c e then 1 else 0) + count f (fst (cstep wexec impl c e)) l
    end.

  (** [ts]: the threads that make steps.  Other threads may be stuck in the middle of calls.
      With [P] threads, the steps made on an object are at most [n P (P + completed calls)], and
      [n + 1] for every spurious failure. *)
  Definition lock_free_within (n : nat) (m0 : wmem) : Prop :=
    forall (l1 l2 : list (sched luck op)) (ts : list nat) (a : addr),
    NoDup ts -> (forall t w, In (SStep t w) l2 -> In t ts) ->
    let c1 := fst (run wexec impl (start m0) l1) in
    let P := length ts in
    (count (works a) c1 l2 <= n * P * (P + count (finishes a) c1 l2) + S n * count (stumbles a) c1 l2)%nat.

  (** the same, as the existence of a call that gets to its end *)
  Definition someone_finishes_within (n : nat) (m0 : wmem) : Prop :=
    forall (l1 l2 : list (sched luck op)) (ts : list nat) (a : addr),
    NoDup ts -> (forall t w, In (SStep t w) l2 -> In t ts) ->
    let c1 := fst (run wexec impl (start m0) l1) in
    let P := length ts in
    (n * P * P + S n * count (stumbles a) c1 l2 < count (works a) c1 l2)%nat ->
    exists before t w after,
      l2 = before ++ SStep t w :: after /\
      let c2 := fst (run wexec impl c1 before) in
      let c3 := fst (run wexec impl c1 (before ++ [SStep t w])) in
      working a c2 t = true /\ exists o r, adr o = a /\ c_thr c3 t = Run o (Ret r).
End Free.

(** ** Wait-freedom *)
Section Wait.
  Context {op ret : Type}.
  Variable impl : op -> wprog ret.

  (** Whatever the other threads do and whatever fails spuriously, [n] steps of its own finish the call. *)
  Definition wait_free_within (n : nat) (calls : op -> Prop) (m0 : wmem) : Prop :=
    forall (l1 l2 : list (sched luck op)) (t : nat) (o : op),
    calls o ->
    let c1 := fst (run wexec impl (start m0) l1) in
    inside c1 t o -> ~ In (SRes t) l2 -> (n <= steps_by t l2)%nat ->
    finished (fst (run wexec impl c1 l2)) t.

  (** The call [o] by thread [t] may go on for any number of its own steps although nothing fails spuriously. *)
  Definition may_starve (t : nat) (o : op) (m0 : wmem) : Prop :=
    forall n : nat, exists l : list (sched luck op),
    (forall u w, In (SStep u w) l -> lucky w = true) /\
    ~ In (SRes t) l /\ (n <= steps_by t l)%nat /\
    let c := fst (run wexec impl (start m0) (SInv t o :: l)) in
    inside c t o /\ ~ finished c t.
End Wait.

(** All of this: left alone every call finishes, and some call always gets on. *)
Definition makes_progress {op ret} (impl : op -> wprog ret) (adr : op -> addr) (n : nat) (m0 : wmem) : Prop :=
  completes_alone impl adr n m0 /\ lock_free_within impl adr n m0 /\ someone_finishes_within impl adr n m0.

(** * Executions in which one call is left alone.

    [alone t a c l]: from configuration [c], during the schedule [l], nobody
    but thread [t] writes the object at [a], thread [t] suffers no spurious
    failure, and it neither starts nor returns from a call. *)
From Coq Require Import List.
From Verif Require Import SpecInt Prog Word.
Import ListNotations.

Section Alone.
  Context {op ret : Type}.
  Variable impl : op -> wprog ret.
  Notation config := (config wact wresp wmem op ret).

  Fixpoint alone (t : nat) (a : addr) (c : config) (l : list (sched luck op)) : Prop :=
    match l with
    | [] => True
    | e :: l =>
        let c' := fst (cstep wexec impl c e) in
        match e with
        | SStep u w => if Nat.eqb u t then lucky w = true else c_mem c' a = c_mem c a
        | SInv u _ | SRes u => u <> t
        end /\ alone t a c' l
    end.

  (** the number of steps thread [t] makes *)
  Definition steps_by (t : nat) (l : list (sched luck op)) : nat :=
    length (filter (fun e => match e with SStep u _ => Nat.eqb u t | _ => false end) l).

  (** what thread [t] has left to execute *)
  Definition finished (c : config) (t : nat) : Prop :=
    match c_thr c t with Idle => False | Run _ (Ret _) => True | Run _ _ => False end.
  Definition inside (c : config) (t : nat) (o : op) : Prop :=
    match c_thr c t with Idle => False | Run o' _ => o' = o end.

  (** [n] steps of its own finish the call of a thread that is left alone *)
  Definition completes_alone (adr : op -> addr) (n : nat) (m0 : wmem) : Prop :=
    forall (l1 l2 : list (sched luck op)) (t : nat) (o : op),
    let c1 := fst (run wexec impl (start m0) l1) in
    inside c1 t o -> alone t (adr o) c1 l2 -> (n <= steps_by t l2)%nat ->
    finished (fst (run wexec impl c1 l2)) t.
End Alone.
Arguments alone {op ret} impl t%nat_scope a%nat_scope c l.

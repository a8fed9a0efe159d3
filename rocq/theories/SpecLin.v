(** * Linearizability.

    A history is a list of invocations and responses.  It is linearizable with
    respect to a sequential object when one can insert, for every call that
    takes effect, one event [LLin] after its invocation and before its
    response, so that executing the sequential object at the [LLin] events in
    the order of the list produces exactly the responses of the history. *)
From Coq Require Import List.
Import ListNotations.

Section Lin.
  Context {op ret state : Type}.

  Inductive event := EInv (t : nat) (o : op) | ERes (t : nat) (r : ret).

  Inductive levent := LInv (t : nat) (o : op) | LLin (t : nat) | LRes (t : nat) (r : ret).

  Fixpoint erase (l : list levent) : list event :=
    match l with
    | [] => []
    | LInv t o :: l => EInv t o :: erase l
    | LLin _ :: l => erase l
    | LRes t r :: l => ERes t r :: erase l
    end.

  (** What each thread is doing: nothing, inside a call that has not taken
      effect, inside a call that took effect and will return [r]. *)
  Inductive pend := PIdle | PCalled (o : op) | PDone (o : op) (r : ret).

  Definition tset {A} (f : nat -> A) (t : nat) (x : A) : nat -> A :=
    fun u => if Nat.eqb u t then x else f u.

  (** [spec s o r s']: the sequential object in state [s] may answer [o] by [r] and go to [s']. *)
  Variable spec : state -> op -> ret -> state -> Prop.

  Inductive lrun : state -> (nat -> pend) -> list levent -> state -> (nat -> pend) -> Prop :=
  | lr_nil s th : lrun s th [] s th
  | lr_inv s th t o l s' th' :
      th t = PIdle -> lrun s (tset th t (PCalled o)) l s' th' ->
      lrun s th (LInv t o :: l) s' th'
  | lr_lin s th t o r s1 l s' th' :
      th t = PCalled o -> spec s o r s1 -> lrun s1 (tset th t (PDone o r)) l s' th' ->
      lrun s th (LLin t :: l) s' th'
  | lr_res s th t o r l s' th' :
      th t = PDone o r -> lrun s (tset th t PIdle) l s' th' ->
      lrun s th (LRes t r :: l) s' th'.

  (** [h] started in [s0] is explained by a linearization ending in [s] with pending calls [th]. *)
  Definition linearizable_to (s0 : state) (h : list event) (s : state) (th : nat -> pend) : Prop :=
    exists l, lrun s0 (fun _ => PIdle) l s th /\ erase l = h.

  Definition linearizable (s0 : state) (h : list event) : Prop :=
    exists s th, linearizable_to s0 h s th.
End Lin.
Arguments event : clear implicits.
Arguments levent : clear implicits.
Arguments pend : clear implicits.

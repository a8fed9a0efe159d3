(** * Using a flag as a lock.

    Vocabulary for mutual exclusion: who is inside, reading only the history of
    calls.  A thread enters when its [test_and_set] on flag [a] returns false and
    leaves when it invokes [clear] on [a]. *)
From Coq Require Import List Bool.
From Verif Require Import SpecInt SpecLin SpecTyped Order.
Import ListNotations.

Notation flag_call := (nat * (morder * flop))%type.
Notation flag_event := (event flag_call iret).

Definition is_tas (a : nat) (c : flag_call) : bool :=
  match c with (b, (_, FlagTestAndSet)) => Nat.eqb b a | _ => false end.
Definition is_clear (a : nat) (c : flag_call) : bool :=
  match c with (b, (_, FlagClear)) => Nat.eqb b a | _ => false end.

(** [p t]: the call thread [t] is executing; [ins t]: [t] is inside. *)
Definition inside_step (a : nat) (s : (nat -> option flag_call) * (nat -> bool)) (e : flag_event)
  : (nat -> option flag_call) * (nat -> bool) :=
  let (p, ins) := s in
  match e with
  | EInv t c => (tset p t (Some c), if is_clear a c then tset ins t false else ins)
  | ERes t r =>
      (tset p t None,
       match p t, r with
       | Some c, RBool false => if is_tas a c then tset ins t true else ins
       | _, _ => ins
       end)
  end.
Definition inside_from a s h := fold_left (inside_step a) h s.
Definition inside (a : nat) (h : list flag_event) (t : nat) : bool :=
  snd (inside_from a (fun _ => None, fun _ => false) h) t.

(** Only the thread that is inside clears the flag. *)
Fixpoint only_owner_clears_from (a : nat) (s : (nat -> option flag_call) * (nat -> bool)) (h : list flag_event) : Prop :=
  match h with
  | [] => True
  | e :: h =>
      match e with EInv t c => is_clear a c = true -> snd s t = true | ERes _ _ => True end /\
      only_owner_clears_from a (inside_step a s e) h
  end.
Definition only_owner_clears (a : nat) (h : list flag_event) : Prop :=
  only_owner_clears_from a (fun _ => None, fun _ => false) h.

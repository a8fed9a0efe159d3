(** * A collection of independent objects.

    Objects live at addresses; a call names the object it is made on.  [spec a]
    is the sequential meaning of the calls on the object at [a]. *)
Section Objects.
  Context {V op ret : Type}.
  Variable spec : nat -> V -> op -> ret -> V -> Prop.

  (** a call affects its object as [spec] says and leaves every other object alone *)
  Definition objects (v : nat -> V) (c : nat * op) (r : ret) (v' : nat -> V) : Prop :=
    spec (fst c) (v (fst c)) (snd c) r (v' (fst c)) /\ forall b, b <> fst c -> v' b = v b.
End Objects.

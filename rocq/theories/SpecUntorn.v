(** * Whole values: what plain calls write and what calls report. *)
From Coq Require Import ZArith List Bool.
From Verif Require Import SpecInt Order.
Open Scope Z_scope.

(** The calls that copy values without computing new ones. *)
Definition plain (o : iop) : bool :=
  match o with Store _ | Load | Exchange _ | CasStrong _ _ | CasWeak _ _ => true | _ => false end.

(** The value a plain call may put into the object. *)
Definition writes (o : iop) (v : Z) : Prop :=
  o = Store v \/ o = Exchange v \/ (exists e, o = CasStrong e v) \/ (exists e, o = CasWeak e v).

(** The value of the object a call reports: the result of load and exchange, [expected] after compare_exchange. *)
Definition reads (r : iret) (v : Z) : Prop := r = RVal v \/ exists b, r = RCas b v.
(** The same, without failed compare_exchange. *)
Definition reads_ok (r : iret) (v : Z) : Prop := r = RVal v \/ r = RCas true v.

(** Where a value of an object may come from: its initial value [v0], or the argument of one of the calls. *)
Definition source (v0 : Z) (calls : list (nat * (morder * iop))) (v : Z) : Prop :=
  v = v0 \/ exists t mo o, In (t, (mo, o)) calls /\ writes o v.

(** * How memory orders pass through the layers of the library (C59): the model.

    The members of atomic<>, atomic_ref<> and atomic_flag pass the caller's
    order down through the layers (waits, extra operations, floating point
    operations, compare_exchange loops) to the functions that consist of
    machine code or compiler intrinsics.  OrderTable.v has these functions as
    extracted from the headers; this file says how they run and what is asked
    of them.

    Simplifications:
    - Only calls that take a memory order, and plain reads of the storage
      (non_atomic_load, storage_traits.hpp), are kept; which way a branch goes
      is left open, except that a loop or branch on the result of a
      compare_exchange follows that result.  #if sections within functions
      are branches too, so all configurations are covered at once.
    - A call goes to any function of that name with that number of orders, in
      any file: which of them it is in a particular configuration is not
      modelled, so what is proved holds for all choices.
    - A function for compare_exchange returns what its last step returned.
    - The lock-based functions (core_operations_emulated.hpp,
      extra_ops_emulated.hpp and others) ignore the order and are not here;
      C56 is about them. *)
From Coq Require Import ZArith List String Bool.
Require Import Verif.Order Verif.FenceModel Verif.SpecFence Verif.SpecOrder.
Import ListNotations.
Open Scope string_scope.
Open Scope list_scope.

(** ** The table *)

(** An order passed to a call: one of the function's own parameters, a
    constant, or deduce_failure_order of a parameter
    (memory_order_utils.hpp 29-32). *)
Inductive oexp := Param (i : nat) | Given (o : morder) | Deduced (i : nat).

(** BOOST_ASSERT(order != memory_order_x), and
    BOOST_ASSERT(cas_failure_order_must_not_be_stronger_than_success_order(s, f)). *)
Inductive assertion := Differs (i : nat) (o : morder) | NotStronger (s f : nat).

(** A call, and where control may go afterwards, by what it returned. *)
Record step := Step {
  s_line : nat; s_call : string; s_orders : list oexp; s_yes : list nat; s_no : list nat }.

Record function := Function {
  f_file : string; f_line : nat; f_name : string;
  f_defaults : list (option morder); f_asserts : list assertion;
  f_start : list nat; f_steps : list step }.

Record machine_function := Machine {
  m_file : string; m_line : nat; m_name : string; m_orders : nat }.

(** GCC's functions and the plain read (m_line is that of the first use or of
    the definition).  [fetch_add_zero] is how core_ops_windows.hpp 77-80
    loads: it adds zero with an Interlocked function. *)
Definition intrinsics : list machine_function := [
  Machine "detail/core_ops_gcc_atomic.hpp" 91 "__atomic_load_n" 1;
  Machine "detail/core_ops_gcc_atomic.hpp" 74 "__atomic_store_n" 1;
  Machine "detail/core_ops_gcc_atomic.hpp" 107 "__atomic_exchange_n" 1;
  Machine "detail/core_ops_gcc_atomic.hpp" 97 "__atomic_fetch_add" 1;
  Machine "detail/core_ops_gcc_atomic.hpp" 102 "__atomic_fetch_sub" 1;
  Machine "detail/core_ops_gcc_atomic.hpp" 134 "__atomic_fetch_and" 1;
  Machine "detail/core_ops_gcc_atomic.hpp" 139 "__atomic_fetch_or" 1;
  Machine "detail/core_ops_gcc_atomic.hpp" 144 "__atomic_fetch_xor" 1;
  Machine "detail/core_ops_gcc_atomic.hpp" 149 "__atomic_test_and_set" 1;
  Machine "detail/core_ops_gcc_atomic.hpp" 154 "__atomic_clear" 1;
  Machine "detail/core_ops_gcc_atomic.hpp" 113 "__atomic_compare_exchange_n" 2;
  Machine "detail/core_ops_windows.hpp" 79 "fetch_add_zero" 1;
  Machine "detail/storage_traits.hpp" 36 "non_atomic_load" 0 ].

(** ** How functions run *)

(** One operation on the storage: the machine function, its orders, and
    whether it succeeded (only a compare_exchange can fail). *)
Record event := Event { e_name : string; e_orders : list morder; e_ok : bool }.

Definition mem (n : string) (l : list string) : bool := existsb (String.eqb n) l.

Definition compare_exchanges : list string :=
  ["compare_exchange_strong"; "compare_exchange_weak";
   "compare_exchange_strong_impl"; "compare_exchange_weak_impl";
   "__atomic_compare_exchange_n"].

Definition value (args : list morder) (e : oexp) : option morder :=
  match e with
  | Param i => nth_error args i
  | Given o => Some o
  | Deduced i => option_map deduce_failure_order (nth_error args i)
  end.

Fixpoint values (args : list morder) (l : list oexp) : option (list morder) :=
  match l with
  | [] => Some []
  | e :: r => match value args e, values args r with
              | Some o, Some os => Some (o :: os)
              | _, _ => None
              end
  end.

(** The orders a function runs with when it is given [os]: defaults for the
    missing ones. *)
Fixpoint fill (defaults : list (option morder)) (os : list morder) : option (list morder) :=
  match defaults, os with
  | [], [] => Some []
  | [], _ :: _ => None
  | _ :: ds, o :: r => option_map (cons o) (fill ds r)
  | Some d :: ds, [] => option_map (cons d) (fill ds [])
  | None :: _, [] => None
  end.

Definition outcome (t : list event) : bool :=
  match rev t with [] => true | e :: _ => e_ok e end.

(** [call T M n os t]: a call of [n] with the orders [os] may do the operations
    [t].  [path T M f args i t]: [f], running with orders [args], at step [i],
    may still do [t]. *)
Inductive call (T : list function) (M : list machine_function)
  : string -> list morder -> list event -> Prop :=
| call_machine m os ok :
    In m M -> List.length os = m_orders m ->
    (mem (m_name m) compare_exchanges = false -> ok = true) ->
    call T M (m_name m) os [Event (m_name m) os ok]
| call_function f os args i t :
    In f T -> fill (f_defaults f) os = Some args -> In i (f_start f) ->
    path T M f args i t ->
    call T M (f_name f) os t
with path (T : list function) (M : list machine_function)
  : function -> list morder -> nat -> list event -> Prop :=
| path_end f args i :
    nth_error (f_steps f) i = None -> path T M f args i []
| path_step f args i s os t j t' :
    nth_error (f_steps f) i = Some s -> values args (s_orders s) = Some os ->
    call T M (s_call s) os t ->
    In j (if outcome t then s_yes s else s_no s) -> path T M f args j t' ->
    path T M f args i (t ++ t').

(** [reaches T n os n' os']: in the course of a call of [n] with [os] there may
    be a call of [n'] with [os']. *)
Inductive reaches (T : list function) : string -> list morder -> string -> list morder -> Prop :=
| reaches_self n os : reaches T n os n os
| reaches_call f os args s os1 n' os' :
    In f T -> fill (f_defaults f) os = Some args -> In s (f_steps f) ->
    values args (s_orders s) = Some os1 -> reaches T (s_call s) os1 n' os' ->
    reaches T (f_name f) os n' os'.

(** The assertions of a function hold of the orders it runs with. *)
Definition asserted (args : list morder) (a : assertion) : bool :=
  match a with
  | Differs i o => match nth_error args i with
                   | Some x => negb (Z.eqb (code x) (code o))
                   | None => false
                   end
  | NotStronger s f => match nth_error args s, nth_error args f with
                       | Some x, Some y => check_cas_orders x y
                       | _, _ => false
                       end
  end.

(** ** What is asked *)

(** What sort of operation a name stands for. *)
Inductive sort := Reading | Writing | Modifying | Comparing | Plain.

Definition readings : list string :=
  ["load"; "test"; "operator value_type"; "wait"; "wait_until"; "wait_for";
   "wait_until_fallback"; "wait_until_abs_timeout"; "wait_until_dispatch"; "wait_until_impl";
   "__atomic_load_n"; "fetch_add_zero"].
Definition writings : list string :=
  ["store"; "clear"; "operator="; "__atomic_store_n"; "__atomic_clear"].
Definition modifyings : list string :=
  ["exchange"; "fetch_add"; "fetch_sub"; "fetch_and"; "fetch_or"; "fetch_xor";
   "fetch_negate"; "fetch_complement"; "add"; "sub"; "negate";
   "bitwise_and"; "bitwise_or"; "bitwise_xor"; "bitwise_complement";
   "opaque_add"; "opaque_sub"; "opaque_negate";
   "opaque_and"; "opaque_or"; "opaque_xor"; "opaque_complement";
   "add_and_test"; "sub_and_test"; "negate_and_test";
   "and_and_test"; "or_and_test"; "xor_and_test"; "complement_and_test";
   "bit_test_and_set"; "bit_test_and_reset"; "bit_test_and_complement"; "test_and_set";
   "operator++"; "operator--"; "operator+="; "operator-=";
   "operator&="; "operator|="; "operator^=";
   "__atomic_exchange_n"; "__atomic_fetch_add"; "__atomic_fetch_sub";
   "__atomic_fetch_and"; "__atomic_fetch_or"; "__atomic_fetch_xor"; "__atomic_test_and_set"].

Definition sort_of (n : string) : option sort :=
  if mem n readings then Some Reading
  else if mem n writings then Some Writing
  else if mem n modifyings then Some Modifying
  else if mem n compare_exchanges then Some Comparing
  else if String.eqb n "non_atomic_load" then Some Plain
  else None.

(** The orders of success and failure a caller asks for: seq_cst if they give
    none; if they give one, the failure order is that without its release
    part, as the C++ standard has it. *)
Definition wanted (os : list morder) : morder * morder :=
  match os with
  | [] => (SeqCst, SeqCst)
  | [o] => (o, match o with AcqRel => Acquire | Release => Relaxed | _ => o end)
  | s :: f :: _ => (s, f)
  end.

(** The order asked for the reads and for the writes of the operation. *)
Definition asked_of_reads (k : sort) (os : list morder) (ok : bool) : option morder :=
  match k with
  | Reading | Modifying => Some (fst (wanted os))
  | Comparing => Some (if ok then fst (wanted os) else snd (wanted os))
  | Writing | Plain => None
  end.
Definition asked_of_writes (k : sort) (os : list morder) (ok : bool) : option morder :=
  match k with
  | Writing | Modifying => Some (fst (wanted os))
  | Comparing => if ok then Some (fst (wanted os)) else None
  | Reading | Plain => None
  end.

(** The operation of FenceModel.v a machine function stands for, given the size
    of the object and whether the function is an addition. *)
Definition operation (n : nat) (arith : bool) (e : event) : option op :=
  match e_orders e with
  | [] => None
  | [o] =>
      if mem (e_name e) ["load"; "__atomic_load_n"] then Some (OLoad n o)
      else if mem (e_name e) ["store"; "__atomic_store_n"] then Some (OStore n o)
      else if mem (e_name e) ["clear"; "__atomic_clear"] then Some (OClear n o)
      else if mem (e_name e) ["exchange"; "__atomic_exchange_n"] then Some (OExchange n o)
      else if mem (e_name e) ["test_and_set"; "__atomic_test_and_set"] then Some (OTestAndSet n o)
      else if mem (e_name e) ("fetch_add_zero" :: modifyings) then Some (OFetch arith n o)
      else None
  | so :: fo :: _ =>
      if mem (e_name e) compare_exchanges then Some (OCas (e_ok e) n so fo) else None
  end.

(** The event leaves the value as it was. *)
Definition changes_nothing (e : event) : Prop :=
  In (e_name e) ["load"; "__atomic_load_n"; "non_atomic_load"; "fetch_add_zero"] \/
  (In (e_name e) compare_exchanges /\ e_ok e = false).

(** The order [x] that an operation has is at least as strong as the order [a] asked for. *)
Definition at_least (a x : option morder) : Prop :=
  match a with None => True | Some o => exists o', x = Some o' /\ weaker o o' end.

(** An operation called by name [n] with orders [os] is carried out by the last
    event [e] of what happens; what happens before it leaves the value alone.
    - [e] has at least the order asked for its reads and for its writes;
    - loads, waits and failed compare_exchanges leave the value alone, too;
    - [e] fails only if the operation is a compare_exchange. *)
Definition carried_out (n : string) (os : list morder) (q : list event) (e : event) : Prop :=
  exists k, sort_of n = Some k /\
  Forall changes_nothing q /\
  (forall size arith p, operation size arith e = Some p ->
     at_least (asked_of_reads k os (e_ok e)) (read_order p) /\
     at_least (asked_of_writes k os (e_ok e)) (write_order p)) /\
  (k <> Plain -> forall size arith, operation size arith e <> None) /\
  (k = Reading \/ k = Plain \/ (k = Comparing /\ e_ok e = false) -> changes_nothing e) /\
  (k <> Comparing -> e_ok e = true).

(** The orders a caller may give (the library asserts this). *)
Definition allowed (k : sort) (os : list morder) : Prop :=
  match k with
  | Reading => fst (wanted os) <> Release /\ fst (wanted os) <> AcqRel
  | Writing => fst (wanted os) <> Consume /\ fst (wanted os) <> Acquire /\ fst (wanted os) <> AcqRel
  | Comparing => cas_orders_accepted (fst (wanted os)) (snd (wanted os)) = true
  | Modifying | Plain => True
  end.

(** A call that asks for seq_cst. *)
Definition seq_cst_call (n : string) (os : list morder) : Prop :=
  exists k, sort_of n = Some k /\ k <> Plain /\ fst (wanted os) = SeqCst /\
    (k = Comparing -> snd (wanted os) = SeqCst).

(** ** The members of the classes users see *)

Definition public_files : list string :=
  ["atomic.hpp"; "atomic_ref.hpp"; "ipc_atomic.hpp"; "ipc_atomic_ref.hpp";
   "detail/atomic_impl.hpp"; "detail/atomic_ref_impl.hpp"; "detail/atomic_flag_impl.hpp"].

(** The two helpers in these files that users cannot call. *)
Definition helpers : list string := ["compare_exchange_strong_impl"; "compare_exchange_weak_impl"].

Definition public (f : function) : Prop :=
  In (f_file f) public_files /\ ~ In (f_name f) helpers.

(** What the members may call: what has the same name, and for these the
    following. *)
Definition serves (n : string) : list string :=
  if String.eqb n "operator=" then ["store"]
  else if String.eqb n "operator value_type" then ["load"]
  else if String.eqb n "test" then ["load"]
  else if String.eqb n "operator++" then ["fetch_add"; "add"]
  else if String.eqb n "operator--" then ["fetch_sub"; "sub"]
  else if String.eqb n "operator+=" then ["add"]
  else if String.eqb n "operator-=" then ["sub"]
  else if String.eqb n "operator&=" then ["bitwise_and"]
  else if String.eqb n "operator|=" then ["bitwise_or"]
  else if String.eqb n "operator^=" then ["bitwise_xor"]
  else if String.eqb n "compare_exchange_strong" then ["compare_exchange_strong"; "compare_exchange_strong_impl"]
  else if String.eqb n "compare_exchange_weak" then ["compare_exchange_weak"; "compare_exchange_weak_impl"]
  else if String.eqb n "compare_exchange_strong_impl" then ["compare_exchange_strong"]
  else if String.eqb n "compare_exchange_weak_impl" then ["compare_exchange_weak"]
  else [n].

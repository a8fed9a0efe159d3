(** * What a compiler and a processor may do to the accesses of one thread.

    Small machine used to state and prove C40 and C41.  A thread is the list
    of the memory accesses and barriers of its source, in program order.  The
    compiler may emit them in another order, and the processor may let them
    take effect in yet another order.  Nothing here comes from /repo: these are
    the rules of the compilers and processors the library is written for
    (GCC manual, "Volatiles" and "Extended Asm"; Intel SDM vol. 3, 8.2; SPARC V9
    manual, 8.4 and A.32; Power ISA Book II, 1.7; Arm ARM, B2.3; Alpha
    handbook, 5.6).

    Simplifications.  An access takes effect at one moment for all threads, so
    processors where a write may reach different threads at different moments
    are described only as far as the order of one thread's own accesses goes.
    Two accesses to the same address are not kept in order on that ground
    alone: this allows more executions than real machines do. *)
From Coq Require Import Arith List Bool.
Import ListNotations.

Inductive kind := Rd | Wr.

(** One access to memory.
    - [a_clob]: the access is made by a statement the compiler moves nothing
      across (an [asm] with a "memory" clobber, or a built-in function the
      compiler treats so);
    - [a_vol]: a [volatile] access or an access in a [volatile] [asm];
    - [a_acq]: the instruction makes later accesses wait for it;
    - [a_rel]: the instruction waits for all earlier accesses;
    - [a_sc]: the instruction is one of those that also keep a release before
      a later acquire;
    - [a_br]: a conditional branch that depends on the value read follows. *)
Record access := Acc {
  a_kind : kind;
  a_loc : nat;
  a_clob : bool;
  a_vol : bool;
  a_acq : bool;
  a_rel : bool;
  a_sc : bool;
  a_br : bool }.

(** [Barrier ll ls sl ss] keeps earlier loads before later loads ([ll]),
    earlier loads before later stores ([ls]), and so on.  [Isync] makes later
    accesses wait for the earlier conditional branches.  [Clobber] emits
    nothing.  The compiler moves nothing across any of the three. *)
Inductive item :=
| Access (a : access)
| Barrier (ll ls sl ss : bool)
| Isync
| Clobber.

Definition clobbers (x : item) : bool :=
  match x with Access a => a_clob a | _ => true end.

Definition is_volatile (x : item) : bool :=
  match x with Access a => a_vol a | _ => true end.

(** What the compiler keeps in order. *)
Definition compiler_keeps (x y : item) : bool :=
  clobbers x || clobbers y || (is_volatile x && is_volatile y).

(** [TSO]: x86, and SPARC in its total store order mode: everything but
    "store, then load" is kept.  [Weak]: nothing is kept without a reason. *)
Inductive machine := TSO | Weak.

Definition covers (k1 k2 : kind) (x : item) : bool :=
  match x with
  | Barrier ll ls sl ss =>
      match k1, k2 with Rd, Rd => ll | Rd, Wr => ls | Wr, Rd => sl | Wr, Wr => ss end
  | _ => false
  end.

(** Why the processor keeps the access [x] before the access [y], when the
    compiler put [x] before [y] and [between x' ] says whether an item like
    that stands between them. *)
Inductive kept (m : machine) (between : (item -> bool) -> Prop) (x y : access) : Prop :=
| kept_tso : m = TSO -> ~ (a_kind x = Wr /\ a_kind y = Rd) -> kept m between x y
| kept_barrier : between (covers (a_kind x) (a_kind y)) -> kept m between x y
| kept_isync : a_kind x = Rd -> a_br x = true ->
    between (fun i => match i with Isync => true | _ => false end) -> kept m between x y
| kept_acquire : a_acq x = true -> kept m between x y
| kept_release : a_rel y = true -> kept m between x y
| kept_sc : a_kind x = Wr -> a_kind y = Rd -> a_sc x = true -> a_sc y = true ->
    kept m between x y.

(** An execution of the source [p]: the item at place [i] of the source is at
    place [place i] of the machine code and, if it is an access, takes effect
    at time [time i]. *)
Record execution (m : machine) (p : list item) (place time : nat -> nat) : Prop := {
  ex_distinct : forall i j, i < length p -> j < length p -> place i = place j -> i = j;
  ex_compiler : forall i j x y, i < j -> nth_error p i = Some x -> nth_error p j = Some y ->
    compiler_keeps x y = true -> place i < place j;
  ex_processor : forall i j x y,
    nth_error p i = Some (Access x) -> nth_error p j = Some (Access y) ->
    place i < place j ->
    kept m (fun f => exists b z, nth_error p b = Some z /\ f z = true /\
                       place i < place b /\ place b < place j) x y ->
    time i < time j }.

(** * Extra operations: negation, complement, result-returning, opaque, test and bit operations.

    [D] abbreviates include/boost/atomic/detail. *)
From Coq Require Import ZArith List Bool.
From Verif Require Import SpecInt SpecLin Order Conv Prog Word CoreModel.
Open Scope Z_scope.
Open Scope prog_scope.

(** The static interface shared by all [extra_operations] classes (D/extra_ops_generic.hpp 35-195). *)
Record extra := mkextra {
  x_fetch_un : unop -> addr -> wprog Z;             (* fetch_negate, fetch_complement *)
  x_bin : binop -> addr -> Z -> wprog Z;            (* add, sub, bitwise_and/or/xor *)
  x_un : unop -> addr -> wprog Z;                   (* negate, bitwise_complement *)
  x_opaque_bin : binop -> addr -> Z -> wprog unit;  (* opaque_add/sub/and/or/xor *)
  x_opaque_un : unop -> addr -> wprog unit;         (* opaque_negate, opaque_complement *)
  x_test_bin : binop -> addr -> Z -> wprog bool;    (* add_and_test ... xor_and_test *)
  x_test_un : unop -> addr -> wprog bool;           (* negate_and_test, complement_and_test *)
  x_bit : bitop -> addr -> Z -> wprog bool          (* bit_test_and_set/reset/complement *)
}.

(** [integral_extend< Signed, storage_type >(static_cast< emulated_storage_type >(x))], where
    emulated_storage_type has [es] bits (D/extra_ops_generic.hpp 40, 48). *)
Definition ext (sg : bool) (es w x : Z) : Z := integral_extend sg false es w (wrap es x).

(** do-while loop returning the new value (D/extra_ops_generic.hpp 54-64). *)
Definition cas_loop_new (casw_ : addr -> Z -> Z -> wprog (bool * Z)) (a : addr) (f : Z -> Z) (i : Z) : wprog Z :=
  loop i (fun old =>
    let new := f old in
    '(b, e) <- casw_ a old new ;;
    if b then Ret (inr new) else Ret (inl e)).

Section Generic.
  Variables (sg : bool) (es : Z) (c : core).
  Notation w := (c_bits c).
  (* 94, 99-100: the complement mask *)
  Definition all_ones : Z := ext sg es w (wrap es (Z.lnot (wrap es 0))).
  (* 172: the bit mask *)
  Definition bit_mask (i : Z) : Z := ext sg es w (wrap es (Z.shiftl 1 i)).

  (** D/extra_ops_generic.hpp 42-51 (same in the second version, 207-216). *)
  Definition gen_fetch_negate (a : addr) : wprog Z :=
    i <- racy a w ;; cas_loop (c_casw c) a (fun old => ext sg es w (- old)) i.
  (** 53-63, 218-228 *)
  Definition gen_negate (a : addr) : wprog Z :=
    i <- racy a w ;; cas_loop_new (c_casw c) a (fun old => ext sg es w (- old)) i.
  (** 65-88: add, sub, bitwise_and, bitwise_or, bitwise_xor of the version for bases with native RMW *)
  Definition gen_bin (b : binop) (a : addr) (v : Z) : wprog Z :=
    old <- c_fetch c b a v ;; Ret (wrap w (bin_apply b old v)).
  (** 230-288: the same functions when full_cas_based is true *)
  Definition gen_cas_bin (b : binop) (a : addr) (v : Z) : wprog Z :=
    i <- racy a w ;; cas_loop_new (c_casw c) a (fun old => ext sg es w (bin_apply b old v)) i.
  (** 90-94, 290-294 *)
  Definition gen_fetch_complement (a : addr) : wprog Z := c_fetch c Xor a all_ones.
  (** 96-101 *)
  Definition gen_complement (a : addr) : wprog Z :=
    old <- c_fetch c Xor a all_ones ;; Ret (wrap w (Z.lxor old all_ones)).
  (** 296-300 *)
  Definition gen_cas_complement (a : addr) : wprog Z := gen_cas_bin Xor a all_ones.
  (** 103-136, 302-335: opaque operations call the fetch operations *)
  Definition gen_opaque_bin (b : binop) (a : addr) (v : Z) : wprog unit :=
    c_fetch c b a v ;;; Ret tt.
  Definition gen_fetch_un (u : unop) (a : addr) : wprog Z :=
    match u with Neg => gen_fetch_negate a | Not => gen_fetch_complement a end.
  Definition gen_opaque_un (u : unop) (a : addr) : wprog unit := gen_fetch_un u a ;;; Ret tt.
  (** 138-171, 337-370: "!!static_cast< emulated_storage_type >(add(...))" for add, sub and
      complement; "!!bitwise_and(...)" without the cast for the others *)
  Definition gen_test_bin (bin : binop -> addr -> Z -> wprog Z) (b : binop) (a : addr) (v : Z) : wprog bool :=
    r <- bin b a v ;;
    Ret (negb ((match b with Add | Sub => wrap es r | _ => r end) =? 0)).
  Definition gen_test_un (un : unop -> addr -> wprog Z) (u : unop) (a : addr) : wprog bool :=
    r <- un u a ;; Ret (negb ((match u with Neg => r | Not => wrap es r end) =? 0)).
  (** 173-195, 372-394 *)
  Definition gen_bit (k : bitop) (a : addr) (i : Z) : wprog bool :=
    let mask := bit_mask i in
    old <- match k with
           | BSet => c_fetch c Or a mask
           | BReset => c_fetch c And a (wrap w (Z.lnot mask))
           | BCompl => c_fetch c Xor a mask
           end ;;
    Ret (negb (Z.land old mask =? 0)).

  (** D/extra_ops_generic.hpp 34-195 (full_cas_based = false) and 199-395 (true);
      397-402 makes it the default. *)
  Definition extra_generic : extra :=
    let bin := if c_full_cas c then gen_cas_bin else gen_bin in
    let un := fun u => match u with
                       | Neg => gen_negate
                       | Not => if c_full_cas c then gen_cas_complement else gen_complement end in
    {| x_fetch_un := gen_fetch_un; x_bin := bin; x_un := un;
       x_opaque_bin := gen_opaque_bin; x_opaque_un := gen_opaque_un;
       x_test_bin := gen_test_bin bin; x_test_un := gen_test_un un; x_bit := gen_bit |}.
End Generic.

(** ** x86 *)

(** CAS loop macros of D/extra_ops_gcc_x86.hpp (42-54, 96-108; 462-477, 517-529; 960-972, ...;
    1459-...): [original = storage;] then "mov; op; lock cmpxchg; jne". *)
Definition x86_xloop (a : addr) (f : Z -> Z) : wprog Z :=
  i <- ld a ;; cas_loop (fun a e d => cas a e d) a f i.
Definition x86_xloop_new (a : addr) (f : Z -> Z) : wprog Z :=
  i <- ld a ;; cas_loop_new (fun a e d => cas a e d) a f i.

(** D/extra_ops_gcc_x86.hpp: extra_operations<1> 34-452, <2> 454-950, <4> 952-1449, <8> 1451-1950.
    The base is the generic version with Size = sizeof(storage_type); the byte
    version keeps the generic bit operations, the others use "lock bts/btr/btc"
    (876-950, 1373-1449, 1872-1950), modelled as one atomic OR / AND NOT / XOR
    that reports the previous bit.  "lock inc/dec" (taken for constant 1) is add/sub of 1. *)
Definition extra_x86 (sg : bool) (c : core) : extra :=
  let w := c_bits c in
  let g := extra_generic sg w c in
  {| x_fetch_un := fun u a => x86_xloop a (fun x => wrap w (un_apply u x));
     x_bin := fun b a v =>
       match b with
       | Add | Sub => x_bin g b a v
       | _ => x86_xloop_new a (fun x => wrap w (bin_apply b v x))
       end;
     x_un := fun u a => x86_xloop_new a (fun x => wrap w (un_apply u x));
     x_opaque_bin := fun b a v => rmw a w (Bin b v) ;;; Ret tt;
     x_opaque_un := fun u a => rmw a w (Un u) ;;; Ret tt;
     x_test_bin := fun b a v => old <- rmw a w (Bin b v) ;; Ret (negb (wrap w (bin_apply b old v) =? 0));
     x_test_un := fun u a => r <- x86_xloop_new a (fun x => wrap w (un_apply u x)) ;; Ret (negb (r =? 0));
     x_bit := if w =? 8 then x_bit g else fun k a i =>
       old <- rmw a w (match k with
                       | BSet => Bin Or (2 ^ i)
                       | BReset => Bin And (Z.lnot (2 ^ i))
                       | BCompl => Bin Xor (2 ^ i) end) ;;
       Ret (Z.testbit old i)
  |}.

(** ** Load-linked / store-conditional *)

(** "1: ll; op; sc; bne 1b", returning the stored value. *)
Definition ll_loop_new (a : addr) (f : Z -> Z) : wprog Z :=
  loop tt (fun _ =>
    '(x, tok) <- ll a ;;
    b <- sc a tok (f x) ;;
    if b then Ret (inr (f x)) else Ret (inl tt)).

(** D/extra_ops_gcc_ppc.hpp (37-85 common part, 95-290, 501-696, 706-901),
    D/extra_ops_gcc_arm.hpp (39-90, 97-338, 350-591, 601-841, 851-1104): the opaque unary operations call
    the fetch versions and the opaque binary ones are inherited from the generic version.
    D/extra_ops_gcc_aarch32.hpp (38-116, ...) and D/extra_ops_gcc_aarch64.hpp (38-118, 123-367,
    376-620, 629-873, 882-1126; [result_opaque] = true): all opaque operations call the
    versions that return the result.
    [lse]: the part of D/extra_ops_gcc_aarch64.hpp under AARCH64_HAS_LSE (181, 365), where only
    fetch_negate and negate are loops and the rest is inherited.
    The double-register loops of the 8 byte ARM versions (ldrexd/strexd) are the
    same loop: ldrexd is single-copy atomic. *)
Definition extra_llsc (result_opaque lse sg : bool) (c : core) : extra :=
  let w := c_bits c in
  let g := extra_generic sg w c in
  let fetch_un := fun u a =>
    match u with
    | Not => if lse then x_fetch_un g Not a else ll_loop a (fun x => wrap w (un_apply Not x))
    | Neg => ll_loop a (fun x => wrap w (un_apply Neg x))
    end in
  let un := fun u a =>
    match u with
    | Not => if lse then x_un g Not a else ll_loop_new a (fun x => wrap w (un_apply Not x))
    | Neg => ll_loop_new a (fun x => wrap w (un_apply Neg x))
    end in
  let bin := fun b a v => if lse then x_bin g b a v else ll_loop_new a (fun x => wrap w (bin_apply b x v)) in
  {| x_fetch_un := fetch_un; x_bin := bin; x_un := un;
     x_opaque_bin := fun b a v => if result_opaque then bin b a v ;;; Ret tt else x_opaque_bin g b a v;
     x_opaque_un := fun u a => if result_opaque then un u a ;;; Ret tt else fetch_un u a ;;; Ret tt;
     x_test_bin := fun b a v => r <- bin b a v ;; Ret (negb (r =? 0));
     x_test_un := fun u a => r <- un u a ;; Ret (negb (r =? 0));
     x_bit := x_bit g |}.

(** ** AArch64 128-bit *)

(** mvn; mvn; adds #1; adc xzr (1148-1151), mvn; mvn (1353-1354). *)
Definition pair_un (u : unop) (lo hi : Z) : Z * Z :=
  let nlo := wrap 64 (Z.lnot lo) in
  let nhi := wrap 64 (Z.lnot hi) in
  match u with
  | Not => (nlo, nhi)
  | Neg => (wrap 64 (nlo + 1), wrap 64 (nhi + (if nlo + 1 <? 2 ^ 64 then 0 else 1)))
  end.

Definition join2 (p : Z * Z) : Z := join 128 (fst p) (snd p).

Definition ldxp_loop_new (a : addr) (f : Z -> Z -> Z) : wprog Z :=
  loop tt (fun _ =>
    '((lo, hi), tok) <- ldxp a ;;
    b <- (sc a tok (f lo hi)) ;;
    if b then Ret (inr (f lo hi)) else Ret (inl tt)).

(** D/extra_ops_gcc_aarch64.hpp 1134-1412. *)
Definition extra_pair (sg : bool) : extra :=
  let g := extra_generic sg 128 aarch64_pair in
  let un := fun u a => ldxp_loop_new a (fun lo hi => join2 (pair_un u lo hi)) in
  let bin := fun b a v => ldxp_loop_new a (fun lo hi =>
               join2 (pair_apply b lo hi (half 128 false v) (half 128 true v))) in
  {| x_fetch_un := fun u a => ldxp_loop a (fun lo hi => join2 (pair_un u lo hi));
     x_bin := bin; x_un := un;
     x_opaque_bin := fun b a v => bin b a v ;;; Ret tt;
     x_opaque_un := fun u a => un u a ;;; Ret tt;
     x_test_bin := fun b a v => r <- bin b a v ;; Ret (negb (r =? 0));
     x_test_un := fun u a => r <- un u a ;; Ret (negb (r =? 0));
     x_bit := x_bit g |}.

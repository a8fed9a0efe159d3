(** * The other front ends: pointers, bool, enumerations, floating point numbers,
    plain values, atomic_ref and atomic_flag, on every lock-free back end.

    [D] abbreviates include/boost/atomic/detail. *)
From Coq Require Import ZArith List Bool.
From Verif Require Import SpecInt SpecLin SpecTyped Order Conv Prog Word CoreModel ExtraModel IntModel.
Open Scope Z_scope.
Open Scope prog_scope.

(** ** Pointers: D/atomic_impl.hpp 1372-1614, class base_atomic< T*, void*, Interprocess >

    A pointer is an unsigned integer of [o_vw] bits ([bitwise_cast] to and from
    [uintptr_storage_type], 1407-1410, 1417-1448).  The distance is
    [static_cast< uintptr_storage_type >(v * sizeof(T))] (1434, 1440, 1482-1508):
    [v] is converted to [size_t], which has the width of a pointer, and the product wraps. *)
Record pobj := mkpobj { p_obj : obj; p_sz : Z }.
Definition p_bits (p : pobj) : Z := o_vw (p_obj p).
Definition ptr_dist (n sz k : Z) : Z := wrap n (wrap n k * sz).
Definition ptr_iop (n sz : Z) (o : pop) : iop :=
  match o with
  | PStore p => Store p
  | PLoad => Load
  | PExchange p => Exchange p
  | PCasStrong e d => CasStrong e d
  | PCasWeak e d => CasWeak e d
  | PAdd f k => Rmw f (Bin Add (ptr_dist n sz k))
  | PSub f k => Rmw f (Bin Sub (ptr_dist n sz k))
  end.
Definition ptr_prog (p : pobj) (mo : morder) (a : addr) (o : pop) : wprog iret :=
  int_prog (p_obj p) mo a (ptr_iop (p_bits p) (p_sz p) o).

Definition pcall := (addr * (morder * pop))%type.
Definition ptr_impl (W : addr -> pobj) (c : pcall) : wprog iret := ptr_prog (W (fst c)) (fst (snd c)) (fst c) (snd (snd c)).
Definition ptr_run (W : addr -> pobj) (v0 n0 : addr -> Z) (l : list (sched luck pcall)) :=
  run wexec (ptr_impl W) (start (fun a => mkcell (wrap (o_w (p_obj (W a))) (v0 a)) (n0 a))) l.

(** Legal objects and calls.  In storage wider than a pointer only the calls with
    [wide_safe] of IntModel.v are covered (no known platform widens pointers). *)
Definition ptr_world_ok (W : addr -> pobj) (v0 : addr -> Z) : Prop :=
  forall a, obj_ok (p_obj (W a)) /\ o_sg (p_obj (W a)) = false /\ is_addr (p_bits (W a)) (v0 a).
Definition pcall_ok (W : addr -> pobj) (c : pcall) : Prop :=
  pop_ok (p_bits (W (fst c))) (snd (snd c)) /\
  (p_bits (W (fst c)) = o_w (p_obj (W (fst c))) \/
   wide_safe (p_obj (W (fst c))) (ptr_iop (p_bits (W (fst c))) (p_sz (W (fst c))) (snd (snd c))) = true).
Definition ptr_spec (W : addr -> pobj) (a : nat) (v : Z) (o : morder * pop) (r : iret) (v' : Z) : Prop :=
  ptr_step (p_bits (W a)) (p_sz (W a)) v (snd o) r v'.
(** what the next [load] returns *)
Definition ptr_shown (W : addr -> pobj) (m : wmem) (a : addr) : Z := wrap (p_bits (W a)) (val (m a)).

(** ** bool: D/atomic_impl.hpp 988-1142, class base_atomic< bool, int, Interprocess >

    [static_cast< storage_type >(v)] (1028, 1041) is 0 or 1, results are [!!x] (1036, 1041);
    compare_exchange_* 1118-1137. *)
Definition bool_enc (w : Z) (v : Z) : Z := wrap w v.
Definition bool_dec (x : Z) : Z := Z.b2z (negb (x =? 0)).
Definition bool_iop (o : bop) : iop :=
  match o with
  | BStore b => Store (Z.b2z b)
  | BLoad => Load
  | BExchange b => Exchange (Z.b2z b)
  | BCasStrong e d => CasStrong (Z.b2z e) (Z.b2z d)
  | BCasWeak e d => CasWeak (Z.b2z e) (Z.b2z d)
  end.
Definition bool_prog (ob : obj) (mo : morder) (a : addr) (o : bop) : wprog iret :=
  front (obj_core ob) (obj_extra ob) (bool_enc (o_w ob)) bool_dec mo a (bool_iop o).

Definition bcall := (addr * (morder * bop))%type.
Definition bool_impl (W : world) (c : bcall) : wprog iret := bool_prog (W (fst c)) (fst (snd c)) (fst c) (snd (snd c)).
Definition bool_run (W : world) (v0 : addr -> bool) (n0 : addr -> Z) (l : list (sched luck bcall)) :=
  run wexec (bool_impl W) (start (fun a => mkcell (bool_enc (o_w (W a)) (Z.b2z (v0 a))) (n0 a))) l.
Definition bool_spec (a : nat) (v : bool) (o : morder * bop) (r : iret) (v' : bool) : Prop := bool_step v (snd o) r v'.
Definition bool_shown (m : wmem) (a : addr) : Z := bool_dec (val (m a)).

(** ** Placement of a value in wider storage

    D/bitwise_cast.hpp 82-116: the bytes of the value come first and the rest of the
    storage is zero; the other way the first bytes are taken.  Read as integers: on a
    little-endian machine ([be = false]) the value is the low part of the storage, on a
    big-endian one the high part.  BytesProof.v derives these two functions from the byte
    copies. *)
Definition place (be : bool) (w vw v : Z) : Z := if be then wrap w (v * 2 ^ (w - vw)) else wrap w v.
Definition unplace (be : bool) (w vw x : Z) : Z := if be then x / 2 ^ (w - vw) else wrap vw x.

(** ** Enumerations: D/atomic_impl.hpp 353-620, class base_atomic< T, const int, Interprocess >

    Arguments by [static_cast< storage_type >(v)] (e.g. 409, 422, 470-488), results by
    [bitwise_cast< value_type >] (417, 422); [base_atomic_common< T, false >] (354), so the
    core operations are those for an unsigned type whatever the underlying type is.
    [e_sg], [e_vw]: underlying type; [e_w]: storage bits; [e_be]: big-endian. *)
Record eobj := mkeobj { e_sg : bool; e_vw : Z; e_w : Z; e_be : bool; e_core : ckind; e_extra : xkind }.
Definition e_obj (e : eobj) : obj := mkobj false (e_vw e) (e_w e) (e_core e) (e_extra e).
(** [integral_truncate] from equal size: reinterpretation of the bits as the underlying type *)
Definition enum_dec (e : eobj) (x : Z) : Z :=
  integral_truncate (e_sg e) (e_vw e) (e_vw e) (unplace (e_be e) (e_w e) (e_vw e) x).
Definition enum_prog (e : eobj) : morder -> addr -> iop -> wprog iret :=
  front (obj_core (e_obj e)) (obj_extra (e_obj e)) (wrap (e_w e)) (enum_dec e).
Definition enum_impl (W : addr -> eobj) (c : icall) : wprog iret := enum_prog (W (fst c)) (fst (snd c)) (fst c) (snd (snd c)).
Definition enum_run (W : addr -> eobj) (v0 n0 : addr -> Z) (l : list (sched luck icall)) :=
  run wexec (enum_impl W) (start (fun a => mkcell (wrap (e_w (W a)) (v0 a)) (n0 a))) l.
Definition enum_shown (W : addr -> eobj) (m : wmem) (a : addr) : Z := enum_dec (W a) (val (m a)).
Definition enum_spec (W : addr -> eobj) (a : nat) (v : Z) (o : morder * iop) (r : iret) (v' : Z) : Prop :=
  istep (e_sg (W a)) (e_vw (W a)) v (snd o) r v'.

(** the calls an enumeration offers: no arithmetic *)
Definition enum_call (o : iop) : bool :=
  match o with
  | Rmw _ (Bin b _) => negb (is_arith b)
  | Rmw _ (Un Neg) => false
  | _ => true
  end.
(** on storage wider than the type: complement only for signed, bit numbers below the sign bit for signed *)
Definition enum_wide_safe (e : eobj) (o : iop) : bool :=
  match o with
  | Rmw _ (Un _) => e_sg e
  | BitTest _ i => negb (e_sg e) || (i <? e_vw e - 1)
  | _ => true
  end.
Definition enum_world_ok (W : addr -> eobj) (v0 : addr -> Z) : Prop :=
  forall a, obj_ok (e_obj (W a)) /\ rng (e_sg (W a)) (e_vw (W a)) (v0 a).
Definition ecall_ok (W : addr -> eobj) (c : icall) : Prop :=
  let e := W (fst c) in let o := snd (snd c) in
  iop_ok (e_sg e) (e_vw e) o /\ enum_call o = true /\
  (e_vw e = e_w e \/ (e_be e = false /\ enum_wide_safe e o = true)).

(** ** Floating point: D/atomic_impl.hpp 1147-1367, class base_atomic< T, float, Interprocess >

    Values are bit patterns of [f_vw] bits (the value bits: 80 for the x87 type), the
    arithmetic an arbitrary [arith] of SpecTyped.v.  [bitwise_fp_cast] (D/bitwise_fp_cast.hpp) is
    [place]/[unplace]: the padding beyond the value bits is zeroed on the way in. *)
Record fobj := mkfobj {
  f_obj : obj; f_vw : Z; f_be : bool; f_ar : arith;
  f_iec : bool     (* INT_FP_ENDIAN_MATCH, is_iec559< T > and integral storage: negate by xor *)
}.
Definition f_w (f : fobj) : Z := o_w (f_obj f).
Definition fp_enc (f : fobj) (v : Z) : Z := place (f_be f) (f_w f) (f_vw f) v.
Definition fp_dec (f : fobj) (x : Z) : Z := unplace (f_be f) (f_w f) (f_vw f) x.
(** the target's operation, a pattern of the type *)
Definition fp_op (f : fobj) (e : feff) (x : Z) : Z := wrap (f_vw f) (feff_apply (f_ar f) e x).

(** D/fp_ops_generic.hpp 41-71 (fetch_add, fetch_sub), D/extra_fp_ops_generic.hpp 63-94 (fetch_negate,
    negate) and 146-176 (add, sub): the loop, returning [g old_val new_val]. *)
Definition fp_loop (f : fobj) (e : feff) (g : Z -> Z -> Z) (a : addr) : wprog Z :=
  i <- (racy a (f_w f)) ;;
  loop i (fun old =>
    let old_val := fp_dec f old in
    let new_val := fp_op f e old_val in
    '(b, found) <- c_casw (obj_core (f_obj f)) a old (fp_enc f new_val) ;;
    if b then Ret (inr (g old_val new_val)) else Ret (inl found)).

(** D/extra_fp_ops_generic.hpp 113: [static_cast< storage_type >(1u) << (value_size_of< value_type >::value * 8u - 1u)]. *)
Definition sign_mask (f : fobj) : Z := wrap (f_w f) (2 ^ (f_vw f - 1)).

Definition fp_rmw (fr : fobj) (f : fform) (e : feff) (a : addr) : wprog iret :=
  match f, e with
  | FFetch, FNeg =>
      if f_iec fr                                                                      (* 115-118, else 63-77 *)
      then r <- c_fetch (obj_core (f_obj fr)) Xor a (sign_mask fr) ;; Ret (RVal (fp_dec fr r))
      else r <- fp_loop fr FNeg (fun old _ => old) a ;; Ret (RVal r)
  | FResult, FNeg =>
      if f_iec fr                                                                      (* 120-123, else 79-93 *)
      then r <- x_bin (obj_extra (f_obj fr)) Xor a (sign_mask fr) ;; Ret (RVal (fp_dec fr r))
      else r <- fp_loop fr FNeg (fun _ new => new) a ;; Ret (RVal r)
  | FOpaque, FNeg =>
      if f_iec fr                                                                      (* 125-128, else 95-98 *)
      then x_opaque_bin (obj_extra (f_obj fr)) Xor a (sign_mask fr) ;;; Ret RUnit
      else fp_loop fr FNeg (fun old _ => old) a ;;; Ret RUnit
  | FFetch, _ => r <- fp_loop fr e (fun old _ => old) a ;; Ret (RVal r)
  | FResult, _ => r <- fp_loop fr e (fun _ new => new) a ;; Ret (RVal r)
  | FOpaque, _ => fp_loop fr e (fun old _ => old) a ;;; Ret RUnit                      (* 178-186 *)
  end.

Definition fp_prog (fr : fobj) (mo : morder) (a : addr) (o : fop) : wprog iret :=
  let via := front (obj_core (f_obj fr)) (obj_extra (f_obj fr)) (fp_enc fr) (fp_dec fr) mo a in
  match o with
  | FStore v => via (Store v)
  | FLoad => via Load
  | FExchange v => via (Exchange v)
  | FCasStrong e d => via (CasStrong e d)
  | FCasWeak e d => via (CasWeak e d)
  | FRmw f e => fp_rmw fr f e a
  end.

Definition fcall := (addr * (morder * fop))%type.
Definition fp_impl (W : addr -> fobj) (c : fcall) : wprog iret := fp_prog (W (fst c)) (fst (snd c)) (fst c) (snd (snd c)).
Definition fp_run (W : addr -> fobj) (v0 n0 : addr -> Z) (l : list (sched luck fcall)) :=
  run wexec (fp_impl W) (start (fun a => mkcell (fp_enc (W a) (v0 a)) (n0 a))) l.
Definition fp_spec (W : addr -> fobj) (a : nat) (v : Z) (o : morder * fop) (r : iret) (v' : Z) : Prop :=
  fp_step (f_ar (W a)) v (snd o) r v'.
Definition fp_shown (W : addr -> fobj) (m : wmem) (a : addr) : Z := fp_dec (W a) (val (m a)).

(** Legal objects.  With the xor negation: the target's negation flips the sign bit, and
    the value fills the storage on a big-endian target. *)
Definition fp_world_ok (W : addr -> fobj) (v0 : addr -> Z) : Prop :=
  forall a, obj_ok (f_obj (W a)) /\ 0 < f_vw (W a) <= f_w (W a) /\
    arith_ok (f_vw (W a)) (f_ar (W a)) /\
    (f_iec (W a) = true -> sign_neg (f_vw (W a)) (f_ar (W a)) /\ (f_be (W a) = false \/ f_vw (W a) = f_w (W a))) /\
    pattern (f_vw (W a)) (v0 a).
Definition fcall_ok (W : addr -> fobj) (c : fcall) : Prop := fop_ok (f_vw (W (fst c))) (snd (snd c)).

(** ** Plain values: D/atomic_impl.hpp 190-348, class base_atomic< T, void, Interprocess >

    [bitwise_cast] both ways (238, 246, 251, 314-343).  [g_mask]: the bits of T that are
    not padding; [g_clear]: the compiler can clear padding (BOOST_ATOMIC_NO_CLEAR_PADDING is not
    defined), and does so on the way in (D/bitwise_cast.hpp 97-105).  *)
Record gobj := mkgobj { g_obj : obj; g_vw : Z; g_be : bool; g_mask : Z; g_clear : bool }.
Definition g_w (g : gobj) : Z := o_w (g_obj g).
Definition cleared (g : gobj) (v : Z) : Z := if g_clear g then Z.land v (g_mask g) else v.
Definition gen_enc (g : gobj) (v : Z) : Z := place (g_be g) (g_w g) (g_vw g) (cleared g v).
Definition gen_dec (g : gobj) (x : Z) : Z := unplace (g_be g) (g_w g) (g_vw g) x.
Definition gen_iop (o : gop) : iop :=
  match o with
  | GStore v => Store v
  | GLoad => Load
  | GExchange v => Exchange v
  | GCasStrong e d => CasStrong e d
  | GCasWeak e d => CasWeak e d
  end.
Definition gen_prog (g : gobj) (mo : morder) (a : addr) (o : gop) : wprog iret :=
  front (obj_core (g_obj g)) (obj_extra (g_obj g)) (gen_enc g) (gen_dec g) mo a (gen_iop o).
Definition gcall := (addr * (morder * gop))%type.
Definition gen_impl (W : addr -> gobj) (c : gcall) : wprog iret := gen_prog (W (fst c)) (fst (snd c)) (fst c) (snd (snd c)).
Definition gen_run (W : addr -> gobj) (v0 n0 : addr -> Z) (l : list (sched luck gcall)) :=
  run wexec (gen_impl W) (start (fun a => mkcell (gen_enc (W a) (v0 a)) (n0 a))) l.
(** the bits that count: those of the mask if padding is cleared, else all *)
Definition g_live (g : gobj) : Z := if g_clear g then g_mask g else Z.ones (g_vw g).
Definition gen_spec (W : addr -> gobj) (a : nat) (v : Z) (o : morder * gop) (r : iret) (v' : Z) : Prop :=
  gen_step (g_live (W a)) v (snd o) r v'.
Definition gen_shown (W : addr -> gobj) (m : wmem) (a : addr) : Z := gen_dec (W a) (val (m a)).
Definition gen_world_ok (W : addr -> gobj) (v0 : addr -> Z) : Prop :=
  forall a, obj_ok (g_obj (W a)) /\ 0 < g_vw (W a) <= g_w (W a) /\ pattern (g_vw (W a)) (g_mask (W a)) /\
    pattern (g_vw (W a)) (v0 a).
Definition gcall_ok (W : addr -> gobj) (c : gcall) : Prop := gop_ok (g_vw (W (fst c))) (snd (snd c)).

(** ** atomic_flag: D/atomic_flag_impl.hpp 46-140

    [fl_w] storage bits (32: [core_operations< 4u, false >], 52).  [fl_byte]: the intrinsics
    [__atomic_test_and_set] and [__atomic_clear] of D/core_ops_gcc_atomic.hpp 147-155, which work
    on the first byte of the storage; [fl_be] tells where that byte is.  Otherwise
    [!!exchange(storage, 1)] and [store(storage, 0)] (e.g. D/core_ops_cas_based.hpp 77-85,
    D/core_arch_ops_gcc_x86.hpp 104-112, D/core_ops_gcc_sync.hpp 176-181), except that
    D/core_ops_gcc_sync.hpp 183-188 writes the 0 with [__sync_lock_release]. *)
Definition is_gcc_sync (k : ckind) : bool := match k with KGccSync _ => true | _ => false end.
Record flobj := mkflobj { fl_obj : obj; fl_byte : bool; fl_be : bool }.
Definition fl_w (f : flobj) : Z := o_w (fl_obj f).
Definition first_byte_shift (f : flobj) : Z := if fl_be f then fl_w f - 8 else 0.
Definition flag_prog (f : flobj) (mo : morder) (a : addr) (o : flop) : wprog iret :=
  let w := fl_w f in
  let sh := first_byte_shift f in
  match o with
  | FlagTest => r <- c_load (obj_core (fl_obj f)) mo a ;; Ret (RBool (negb (r =? 0)))            (* 81-86 *)
  | FlagTestAndSet =>                                                                             (* 88-91 *)
      if fl_byte f
      then (* atomic byte exchange with 1, seen as an update of the word *)
        r <- (rmw a w (Bin Or (2 ^ sh))) ;; Ret (RBool (negb (Z.land (r / 2 ^ sh) 255 =? 0)))
      else r <- c_exchange (obj_core (fl_obj f)) a 1 ;; Ret (RBool (negb (r =? 0)))
  | FlagClear =>                                                                                  (* 93-99 *)
      if fl_byte f
      then (* atomic byte store of 0 *)
        (rmw a w (Bin And (Z.lnot (255 * 2 ^ sh)))) ;;; Ret RUnit
      else if is_gcc_sync (o_core (fl_obj f)) then (st a 0) ;;; Ret RUnit
      else c_store (obj_core (fl_obj f)) mo a 0 ;;; Ret RUnit
  end.
Definition flcall := (addr * (morder * flop))%type.
Definition flag_impl (W : addr -> flobj) (c : flcall) : wprog iret := flag_prog (W (fst c)) (fst (snd c)) (fst c) (snd (snd c)).
(** the storage word of a set flag *)
Definition flag_set_word (f : flobj) : Z := if fl_byte f then 2 ^ first_byte_shift f else 1.
Definition flag_word (f : flobj) (b : bool) : Z := if b then flag_set_word f else 0.
(** the constructor (60) stores 0 *)
Definition flag_run (W : addr -> flobj) (n0 : addr -> Z) (l : list (sched luck flcall)) :=
  run wexec (flag_impl W) (start (fun a => mkcell 0 (n0 a))) l.
Definition flag_spec (a : nat) (v : bool) (o : morder * flop) (r : iret) (v' : bool) : Prop := flag_step v (snd o) r v'.
Definition flag_world_ok (W : addr -> flobj) : Prop := forall a, obj_ok (fl_obj (W a)) /\ 8 <= fl_w (W a).
Definition flag_shown (m : wmem) (a : addr) : bool := negb (val (m a) =? 0).

(** ** atomic_ref: D/atomic_ref_impl.hpp

    Storage and object are the same bytes (68: static_assert on the sizes; 106-109).
    Constructing a reference clears the padding of the object (97-100) by an ordinary, not
    atomic, write.  [r_bytes]: padding comes in whole bytes and the compiler clears it by
    storing zeros to these bytes only; otherwise it reads, masks and writes back. *)
Record robj := mkrobj { r_obj : gobj; r_bytes : bool }.
Definition ref_prog (r : robj) (mo : morder) (a : addr) (o : rop) : wprog iret :=
  let g := r_obj r in
  match o with
  | ROp o => gen_prog g mo a o
  | RBind =>
      if negb (g_clear g) || (g_mask g =? Z.ones (g_vw g))
      then (* nothing to clear; a read with unused result lets the call occupy an instant *)
        (racy a (g_w g)) ;;; Ret RUnit
      else if r_bytes r
      then (rmw a (g_w g) (Bin And (g_mask g))) ;;; Ret RUnit
      else x <- (ld a) ;; (st a (Z.land x (g_mask g))) ;;; Ret RUnit
  end.
Definition rcall := (addr * (morder * rop))%type.
Definition ref_impl (W : addr -> robj) (c : rcall) : wprog iret := ref_prog (W (fst c)) (fst (snd c)) (fst c) (snd (snd c)).
Definition ref_run (W : addr -> robj) (x0 n0 : addr -> Z) (l : list (sched luck rcall)) :=
  run wexec (ref_impl W) (start (fun a => mkcell (x0 a) (n0 a))) l.
Definition ref_spec (W : addr -> robj) (a : nat) (v : Z) (o : morder * rop) (r : iret) (v' : Z) : Prop :=
  ref_step (g_live (r_obj (W a))) v (snd o) r v'.
(** the referenced object fills the storage *)
Definition ref_world_ok (W : addr -> robj) (x0 : addr -> Z) : Prop :=
  forall a, obj_ok (g_obj (r_obj (W a))) /\ g_vw (r_obj (W a)) = g_w (r_obj (W a)) /\
    pattern (g_vw (r_obj (W a))) (g_mask (r_obj (W a))) /\ pattern (g_vw (r_obj (W a))) (x0 a).
(** padding, if any, is cleared by storing to padding bytes only *)
Definition rcall_ok (W : addr -> robj) (c : rcall) : Prop :=
  match snd (snd c) with
  | RBind => r_bytes (W (fst c)) = true \/ g_live (r_obj (W (fst c))) = Z.ones (g_vw (r_obj (W (fst c))))
  | ROp o => gop_ok (g_vw (r_obj (W (fst c)))) o
  end.
Arguments ptr_shown W m a%nat_scope.
Arguments bool_shown m a%nat_scope.
Arguments enum_shown W m a%nat_scope.
Arguments fp_shown W m a%nat_scope.
Arguments gen_shown W m a%nat_scope.
Arguments flag_shown m a%nat_scope.

(** * Property C60: the bodies of the member functions, as they stand in the source.

    Statements only.  Vocabulary: SpecText.v (what a call, a name with arguments, means),
    SpecInt.v and SpecTyped.v (the sequential objects), SpecLin.v and SpecObj.v
    (histories), and the [text_.._run] of TextProg.v: all executions of the statements
    that TextTable.v, read off the source by tools/extract_text.py, has for the members of
    atomic<>, atomic_ref<> and atomic_flag and for the classes of operations under them.
    [T] is what the compiler fixes: endianness, the macro for loads with acquire semantics
    and [t_cx], whether compare_exchange converts [expected] instead of having the storage's
    bytes in it; the library does the latter only for values that fill the storage and
    whose padding it does not clear (D/atomic_impl.hpp 206-216, 643-652), hence the
    condition on [t_cx]. *)
From Coq Require Import ZArith List String Bool Lia.
From Verif Require Import SpecInt SpecLin SpecObj SpecTyped SpecAlone SpecFree Order Prog Word IntModel TypedModel TypedConseq TypedCex
  IntExamples WideCex
  TextModel SpecText TextProg TextFront TextMain TextFree.
Import ListNotations.
Open Scope string_scope.
Open Scope list_scope.
Open Scope Z_scope.

(** ** Integers *)
Theorem C60_int_text : forall (T : target) (W : world) (v0 n0 : addr -> Z) (l : list (sched luck tcall)),
  world_ok W v0 -> legal (says int_means (icall_ok W)) l ->
  (forall a, t_cx T = true \/ o_vw (W a) = o_w (W a)) ->
  let res := text_int_run T W v0 n0 l in
  exists v th, linearizable_to (objects (meant int_means (int_spec W))) v0 (snd res) v th /\
    (forall a, v a = shown W (c_mem (fst res)) a /\ Word.val (c_mem (fst res) a) = stored_word W a (v a) /\
               rng (o_sg (W a)) (o_vw (W a)) (v a)) /\
    (quiet (fst res) -> forall t, th t = PIdle).
Proof. exact text_int_main. Qed.

Theorem C60_int_ref_text : forall (T : target) (W : world) (v0 n0 : addr -> Z) (l : list (sched luck tcall)),
  world_ok W v0 -> legal (says int_means (icall_ok W)) l ->
  (forall a, o_vw (W a) = o_w (W a)) ->
  let res := text_int_ref_run T W v0 n0 l in
  exists v th, linearizable_to (objects (meant int_means (int_spec W))) v0 (snd res) v th /\
    (forall a, v a = shown W (c_mem (fst res)) a /\ Word.val (c_mem (fst res) a) = stored_word W a (v a) /\
               rng (o_sg (W a)) (o_vw (W a)) (v a)) /\
    (quiet (fst res) -> forall t, th t = PIdle).
Proof. exact text_int_ref_main. Qed.

(** A signed 32-bit and a signed 16-bit integer, the latter in a 32-bit word, on LL/SC. *)
Definition little : target := Target false false true.
Definition on (a : addr) (f : string) (vs : list val) : tcall := (a, (f, vs)).
Arguments on a%nat_scope f%string_scope vs%list_scope.
Example C60_int_applies :
  let W := fun a : addr => match a with 0%nat => mkobj true 32 32 KLlsc (XLlsc false false) | _ => mkobj true 16 32 KLlsc (XLlsc true false) end in
  let neg := on 0 "fetch_negate" [] in let bit := on 0 "bit_test_and_complement" [VI TUInt 31; VO AcqRel] in
  let cas := on 1 "compare_exchange_strong" [VI TValue 7; VI TValue (-2); VO AcqRel; VO Acquire] in let inc := on 1 "operator++(int)" [] in
  let l := clash neg bit ++ clash cas inc in
  world_ok W (fun _ => 7) /\ legal (says int_means (icall_ok W)) l /\
  (let res := text_int_run little W (fun _ => 7) (fun _ => 0) l in
   snd res = [EInv 1 neg; EInv 2 bit; ERes 2 (RBool false); ERes 1 (RVal (-2147483641));
              EInv 1 cas; EInv 2 inc; ERes 2 (RVal 7); ERes 1 (RCas false 8)] /\
   shown W (c_mem (fst res)) 0 = 2147483641 /\ shown W (c_mem (fst res)) 1 = 8).
Proof.
  split; [|split].
  - intros [|a]; unfold obj_ok, rng; simpl; repeat split; auto; lia.
  - apply legal_app; apply clash_legal; (eexists; split; [reflexivity|]); unfold icall_ok, rng; cbn; auto; split; try lia; auto.
  - vm_compute. auto.
Qed.

(** ** Enumerations *)
Theorem C60_enum_text : forall (T : target) (W : addr -> eobj) (v0 n0 : addr -> Z) (l : list (sched luck tcall)),
  enum_world_ok W v0 -> legal (says enum_means (ecall_ok W)) l ->
  (forall a, t_cx T = true \/ e_vw (W a) = e_w (W a)) ->
  let res := text_enum_run T W v0 n0 l in
  exists v th, linearizable_to (objects (meant enum_means (enum_spec W))) v0 (snd res) v th /\
    (forall a, rng (e_sg (W a)) (e_vw (W a)) (v a) /\
               (e_be (W a) = false \/ e_vw (W a) = e_w (W a) -> enum_shown W (c_mem (fst res)) a = v a)) /\
    (quiet (fst res) -> forall t, th t = PIdle).
Proof. exact text_enum_main. Qed.

Theorem C60_enum_ref_text : forall (T : target) (W : addr -> eobj) (v0 n0 : addr -> Z) (l : list (sched luck tcall)),
  enum_world_ok W v0 -> legal (says enum_means (ecall_ok W)) l ->
  (forall a, t_cx T = true \/ e_vw (W a) = e_w (W a)) ->
  let res := text_enum_ref_run T W v0 n0 l in
  exists v th, linearizable_to (objects (meant enum_means (enum_spec W))) v0 (snd res) v th /\
    (forall a, rng (e_sg (W a)) (e_vw (W a)) (v a) /\
               (e_be (W a) = false \/ e_vw (W a) = e_w (W a) -> enum_shown W (c_mem (fst res)) a = v a)) /\
    (quiet (fst res) -> forall t, th t = PIdle).
Proof. exact text_enum_ref_main. Qed.

(** A signed 8-bit enumeration on gcc's x86 classes. *)
Example C60_enum_applies :
  let W := fun _ : addr => mkeobj true 8 8 false KX86 XX86 in
  let c := on 0 "fetch_complement" [] in let b := on 0 "bit_test_and_set" [VI TUInt 7] in
  let l := clash c b in
  enum_world_ok W (fun _ => 5) /\ legal (says enum_means (ecall_ok W)) l /\
  (let res := text_enum_run little W (fun _ => 5) (fun _ => 0) l in
   snd res = [EInv 1 c; EInv 2 b; ERes 2 (RBool true); ERes 1 (RVal 5)] /\ enum_shown W (c_mem (fst res)) 0 = -6) /\
  (let res := text_enum_ref_run little W (fun _ => 5) (fun _ => 0) l in
   snd res = [EInv 1 c; EInv 2 b; ERes 2 (RBool true); ERes 1 (RVal 5)] /\ enum_shown W (c_mem (fst res)) 0 = -6).
Proof.
  split; [|split].
  - intros a; unfold obj_ok, rng; simpl; repeat split; auto; lia.
  - apply clash_legal; (eexists; split; [reflexivity|]); unfold ecall_ok, rng; cbn; repeat split; try lia; auto.
  - vm_compute. auto.
Qed.

(** ** bool *)
Theorem C60_bool_text : forall (T : target) (W : world) (v0 : addr -> bool) (n0 : addr -> Z) (l : list (sched luck tcall)),
  (forall a, obj_ok (W a)) -> legal (says bool_means (fun _ => True)) l ->
  let res := text_bool_run T W v0 n0 l in
  exists v th, linearizable_to (objects (meant bool_means bool_spec)) v0 (snd res) v th /\
    (forall a, bool_shown (c_mem (fst res)) a = Z.b2z (v a)) /\
    (quiet (fst res) -> forall t, th t = PIdle).
Proof. exact text_bool_main. Qed.

Theorem C60_bool_ref_text : forall (T : target) (W : world) (v0 : addr -> bool) (n0 : addr -> Z) (l : list (sched luck tcall)),
  (forall a, obj_ok (W a)) -> legal (says bool_means (fun _ => True)) l ->
  let res := text_bool_ref_run T W v0 n0 l in
  exists v th, linearizable_to (objects (meant bool_means bool_spec)) v0 (snd res) v th /\
    (forall a, bool_shown (c_mem (fst res)) a = Z.b2z (v a)) /\
    (quiet (fst res) -> forall t, th t = PIdle).
Proof. exact text_bool_ref_main. Qed.

Example C60_bool_applies :
  let W := fun _ : addr => mkobj false 8 8 (KGccSync false) XGeneric in
  let c := on 0 "compare_exchange_weak" [VB true; VB false] in let x := on 0 "exchange" [VB false; VO Release] in
  let l := clash c x in
  (forall a, obj_ok (W a)) /\ legal (says bool_means (fun _ => True)) l /\
  snd (text_bool_run little W (fun _ => true) (fun _ => 0) l) = [EInv 1 c; EInv 2 x; ERes 2 (RVal 0); ERes 1 (RCas true 1)] /\
  snd (text_bool_ref_run little W (fun _ => true) (fun _ => 0) l) = [EInv 1 c; EInv 2 x; ERes 2 (RVal 0); ERes 1 (RCas true 1)].
Proof.
  split; [|split].
  - intros a; unfold obj_ok; simpl; repeat split; auto; lia.
  - apply clash_legal; (eexists; split; [reflexivity|exact I]).
  - vm_compute. auto.
Qed.

(** ** Pointers *)
Theorem C60_ptr_text : forall (T : target) (W : addr -> pobj) (v0 n0 : addr -> Z) (l : list (sched luck tcall)),
  ptr_world_ok W v0 -> legal (says ptr_means (pcall_ok W)) l ->
  (forall a, t_cx T = true \/ p_bits (W a) = o_w (p_obj (W a))) ->
  let res := text_ptr_run T W v0 n0 l in
  exists v th, linearizable_to (objects (meant ptr_means (ptr_spec W))) v0 (snd res) v th /\
    (forall a, ptr_shown W (c_mem (fst res)) a = v a /\ is_addr (p_bits (W a)) (v a)) /\
    (quiet (fst res) -> forall t, th t = PIdle).
Proof. exact text_ptr_main. Qed.

Theorem C60_ptr_ref_text : forall (T : target) (W : addr -> pobj) (v0 n0 : addr -> Z) (l : list (sched luck tcall)),
  ptr_world_ok W v0 -> legal (says ptr_means (pcall_ok W)) l ->
  (forall a, p_bits (W a) = o_w (p_obj (W a))) ->
  let res := text_ptr_ref_run T W v0 n0 l in
  exists v th, linearizable_to (objects (meant ptr_means (ptr_spec W))) v0 (snd res) v th /\
    (forall a, ptr_shown W (c_mem (fst res)) a = v a /\ is_addr (p_bits (W a)) (v a)) /\
    (quiet (fst res) -> forall t, th t = PIdle).
Proof. exact text_ptr_ref_main. Qed.

(** A 64-bit pointer to 12-byte elements; one call crosses zero. *)
Example C60_ptr_applies :
  let W := fun _ : addr => mkpobj (mkobj false 64 64 KLlsc (XLlsc false false)) 12 in
  let s := on 0 "fetch_sub" [VI TDiff 3] in let i := on 0 "operator++(int)" [] in
  let l := clash s i in
  ptr_world_ok W (fun _ => 12) /\ legal (says ptr_means (pcall_ok W)) l /\
  (let res := text_ptr_run little W (fun _ => 12) (fun _ => 0) l in
   snd res = [EInv 1 s; EInv 2 i; ERes 2 (RVal 12); ERes 1 (RVal 24)] /\ ptr_shown W (c_mem (fst res)) 0 = 2 ^ 64 - 12) /\
  (let res := text_ptr_ref_run little W (fun _ => 12) (fun _ => 0) l in
   snd res = [EInv 1 s; EInv 2 i; ERes 2 (RVal 12); ERes 1 (RVal 24)] /\ ptr_shown W (c_mem (fst res)) 0 = 2 ^ 64 - 12).
Proof.
  split; [|split].
  - intros a. unfold obj_ok, is_addr. simpl. repeat split; auto; lia.
  - apply clash_legal; (eexists; split; [reflexivity|]); (split; [exact I | left; reflexivity]).
  - vm_compute. auto.
Qed.

(** ** Plain values *)
Theorem C60_value_text : forall (T : target) (trivial : addr -> bool) (W : addr -> gobj) (v0 n0 : addr -> Z) (l : list (sched luck tcall)),
  gen_world_ok W v0 -> legal (says gen_means (gcall_ok W)) l ->
  (forall a, t_cx T = true \/ g_vw (W a) = g_w (W a) /\ g_clear (W a) = false) ->
  let res := text_gen_run T trivial W v0 n0 l in
  exists v th, linearizable_to (objects (meant gen_means (gen_spec W))) (fun a => vbits (g_live (W a)) (v0 a)) (snd res) v th /\
    (forall a, gen_shown W (c_mem (fst res)) a = v a /\ vbits (g_live (W a)) (v a) = v a /\
               Word.val (c_mem (fst res) a) = place (g_be (W a)) (g_w (W a)) (g_vw (W a)) (v a)) /\
    (quiet (fst res) -> forall t, th t = PIdle).
Proof. intros T trivial W v0 n0 l H1 H2 H3. exact (text_gen_main T W v0 n0 l H1 H2 H3 trivial). Qed.

Theorem C60_value_ref_text : forall (T : target) (W : addr -> gobj) (v0 n0 : addr -> Z) (l : list (sched luck tcall)),
  gen_world_ok W v0 -> legal (says gen_means (gcall_ok W)) l ->
  (forall a, t_cx T = true \/ g_vw (W a) = g_w (W a) /\ g_clear (W a) = false) ->
  let res := text_gen_ref_run T W v0 n0 l in
  exists v th, linearizable_to (objects (meant gen_means (gen_spec W))) (fun a => vbits (g_live (W a)) (v0 a)) (snd res) v th /\
    (forall a, gen_shown W (c_mem (fst res)) a = v a /\ vbits (g_live (W a)) (v a) = v a /\
               Word.val (c_mem (fst res) a) = place (g_be (W a)) (g_w (W a)) (g_vw (W a)) (v a)) /\
    (quiet (fst res) -> forall t, th t = PIdle).
Proof. exact text_gen_ref_main. Qed.

(** Three bytes, the middle one padding, in a big-endian 32-bit word: [expected] has garbage padding. *)
Example C60_value_applies :
  let W := fun _ : addr => mkgobj (mkobj false 32 32 (KGccAtomic false) XGeneric) 24 true 0xff00ff true in
  let c := on 0 "compare_exchange_strong" [VI TValue 0x115533; VI TValue 0x22aa44; VO Release] in let s := on 0 "store" [VI TValue 0x117733] in
  let l := clash s c in
  gen_world_ok W (fun _ => 0x119933) /\ legal (says gen_means (gcall_ok W)) l /\
  (let res := text_gen_run (Target true true true) (fun _ => true) W (fun _ => 0x119933) (fun _ => 0) l in
   snd res = [EInv 1 s; EInv 2 c; ERes 2 (RCas true 0x110033); ERes 1 RUnit] /\ Word.val (c_mem (fst res) 0%nat) = 0x22004400).
Proof.
  split; [|split].
  - intros a. unfold obj_ok, pattern, f_w, g_w. simpl. repeat split; auto; lia.
  - apply clash_legal; (eexists; split; [reflexivity|]); unfold gcall_ok, gop_ok, pattern; simpl; lia.
  - vm_compute. auto.
Qed.

(** ** Floating point: any functions on patterns as arithmetic *)
Theorem C60_fp_text : forall (T : target) (W : addr -> fobj) (v0 n0 : addr -> Z) (l : list (sched luck tcall)),
  fp_world_ok W v0 -> (forall a, f_vw (W a) mod 8 = 0) -> legal (says fp_means (fcall_ok W)) l ->
  (forall a, t_cx T = true \/ f_vw (W a) = f_w (W a)) ->
  let res := text_fp_run T W v0 n0 l in
  exists v th, linearizable_to (objects (meant fp_means (fp_spec W))) v0 (snd res) v th /\
    (forall a, fp_shown W (c_mem (fst res)) a = v a) /\ (quiet (fst res) -> forall t, th t = PIdle).
Proof. exact text_fp_main. Qed.

Theorem C60_fp_ref_text : forall (T : target) (W : addr -> fobj) (v0 n0 : addr -> Z) (l : list (sched luck tcall)),
  fp_world_ok W v0 -> (forall a, f_vw (W a) mod 8 = 0) -> legal (says fp_means (fcall_ok W)) l ->
  (forall a, t_cx T = true \/ f_vw (W a) = f_w (W a)) ->
  let res := text_fp_ref_run T W v0 n0 l in
  exists v th, linearizable_to (objects (meant fp_means (fp_spec W))) v0 (snd res) v th /\
    (forall a, fp_shown W (c_mem (fst res)) a = v a) /\ (quiet (fst res) -> forall t, th t = PIdle).
Proof. exact text_fp_ref_main. Qed.

(** A 32-bit pattern with a stand-in addition; xor negation. *)
Example C60_fp_applies :
  let W := fun _ : addr => mkfobj (mkobj false 32 32 (KGccAtomic false) XGeneric) 32 false toy_arith true in
  let p := on 0 "fetch_add" [VI TValue 7] in let n := on 0 "negate" [VO Relaxed] in
  let l := clash p n in
  fp_world_ok W (fun _ => 5) /\ (forall a, f_vw (W a) mod 8 = 0) /\ legal (says fp_means (fcall_ok W)) l /\
  (let res := text_fp_run little W (fun _ => 5) (fun _ => 0) l in
   snd res = [EInv 1 p; EInv 2 n; ERes 2 (RVal (2 ^ 31 + 5)); ERes 1 (RVal (2 ^ 31 + 5))] /\
   fp_shown W (c_mem (fst res)) 0 = 2 ^ 31 + 19).
Proof.
  split; [|split; [|split]].
  - intros a. unfold obj_ok, pattern, f_w, g_w. simpl. refine (conj _ (conj _ (conj toy_ok (conj (fun _ => conj toy_sign (or_introl eq_refl)) _))));
      repeat split; auto; lia.
  - reflexivity.
  - apply clash_legal; (eexists; split; [reflexivity|]); [split; vm_compute; congruence|exact I].
  - vm_compute. auto.
Qed.

(** ** atomic_flag *)
Theorem C60_flag_text : forall (T : target) (W : world) (n0 : addr -> Z) (l : list (sched luck tcall)),
  (forall a, obj_ok (W a) /\ o_vw (W a) = o_w (W a) /\ o_w (W a) = 32) ->
  legal (says flag_means (fun _ => True)) l ->
  let res := text_flag_run T W n0 l in
  exists v th, linearizable_to (objects (meant flag_means flag_spec)) (fun _ => false) (snd res) v th /\
    (forall a, v a = flag_shown (c_mem (fst res)) a) /\ (quiet (fst res) -> forall t, th t = PIdle).
Proof. exact text_flag_main. Qed.

(** A flag on the first byte of a big-endian word. *)
Example C60_flag_applies :
  let W := fun _ : addr => mkobj false 32 32 (KGccAtomic false) XGeneric in
  let s := on 0 "test_and_set" [VO Acquire] in let t := on 0 "test_and_set" [] in let c := on 0 "clear" [VO Release] in
  let l := clash s t ++ clash c (on 0 "test" []) in
  (forall a, obj_ok (W a) /\ o_vw (W a) = o_w (W a) /\ o_w (W a) = 32) /\ legal (says flag_means (fun _ => True)) l /\
  snd (text_flag_run (Target false true true) W (fun _ => 0) l) =
    [EInv 1 s; EInv 2 t; ERes 2 (RBool true); ERes 1 (RBool false); EInv 1 c; EInv 2 (on 0 "test" []); ERes 2 (RBool false); ERes 1 RUnit].
Proof.
  split; [|split].
  - intros a; unfold obj_ok; simpl; repeat split; auto; lia.
  - apply legal_app; apply clash_legal; (eexists; split; [reflexivity|exact I]).
  - vm_compute. auto.
Qed.

(** ** Progress: left alone, every call finishes within twelve steps, and among threads that compete some
    call always gets on (SpecAlone.v, SpecFree.v). *)
Theorem C60_int_progress : forall (T : target) (W : world) (m0 : wmem),
  (forall a, obj_ok (W a)) -> (forall a, t_cx T = true \/ o_vw (W a) = o_w (W a)) ->
  makes_progress (real_impl int_means (text_int T) W) real_adr 12 m0.
Proof. exact text_int_progress. Qed.
Theorem C60_int_ref_progress : forall (T : target) (W : world) (m0 : wmem),
  (forall a, obj_ok (W a)) -> (forall a, o_vw (W a) = o_w (W a)) ->
  makes_progress (real_impl int_means (text_int_ref T) W) real_adr 12 m0.
Proof. exact text_int_ref_progress. Qed.
Theorem C60_enum_progress : forall (T : target) (W : addr -> eobj) (m0 : wmem),
  (forall a, obj_ok (e_obj (W a))) -> (forall a, t_cx T = true \/ e_vw (W a) = e_w (W a)) ->
  makes_progress (real_impl enum_means (text_enum T) W) real_adr 12 m0 /\
  makes_progress (real_impl enum_means (text_enum_ref T) W) real_adr 12 m0.
Proof. exact text_enum_progress. Qed.
Theorem C60_bool_progress : forall (T : target) (W : world) (m0 : wmem),
  (forall a, obj_ok (W a)) ->
  makes_progress (real_impl bool_means (text_bool T) W) real_adr 12 m0 /\
  makes_progress (real_impl bool_means (text_bool_ref T) W) real_adr 12 m0.
Proof. exact text_bool_progress. Qed.
Theorem C60_ptr_progress : forall (T : target) (W : addr -> pobj) (m0 : wmem),
  (forall a, obj_ok (p_obj (W a)) /\ o_sg (p_obj (W a)) = false) -> (forall a, t_cx T = true \/ p_bits (W a) = o_w (p_obj (W a))) ->
  makes_progress (real_impl ptr_means (text_ptr T) W) real_adr 12 m0.
Proof. exact text_ptr_progress. Qed.
Theorem C60_ptr_ref_progress : forall (T : target) (W : addr -> pobj) (m0 : wmem),
  (forall a, obj_ok (p_obj (W a)) /\ o_sg (p_obj (W a)) = false) -> (forall a, p_bits (W a) = o_w (p_obj (W a))) ->
  makes_progress (real_impl ptr_means (text_ptr_ref T) W) real_adr 12 m0.
Proof. exact text_ptr_ref_progress. Qed.
Theorem C60_value_progress : forall (T : target) (W : addr -> gobj) (m0 : wmem),
  (forall a, t_cx T = true \/ g_vw (W a) = g_w (W a) /\ g_clear (W a) = false) ->
  makes_progress (real_impl gen_means (text_gen T) W) real_adr 12 m0 /\
  makes_progress (real_impl gen_means (text_gen_ref T) W) real_adr 12 m0.
Proof. exact text_gen_progress. Qed.
Theorem C60_fp_progress : forall (T : target) (W : addr -> fobj) (m0 : wmem),
  (forall a, obj_ok (f_obj (W a)) /\ 0 < f_vw (W a) <= f_w (W a) /\ f_vw (W a) mod 8 = 0) ->
  (forall a, t_cx T = true \/ f_vw (W a) = f_w (W a)) ->
  makes_progress (real_impl fp_means (text_fp T) W) real_adr 12 m0 /\
  makes_progress (real_impl fp_means (text_fp_ref T) W) real_adr 12 m0.
Proof. exact text_fp_progress. Qed.
Theorem C60_flag_progress : forall (T : target) (W : world) (m0 : wmem),
  (forall a, o_vw (W a) = o_w (W a) /\ o_w (W a) = 32) ->
  makes_progress (real_impl flag_means (text_flag T) W) real_adr 12 m0.
Proof. exact text_flag_progress. Qed.

(** A call in the middle of a loop is overtaken by a store. *)
Lemma some_call {O} (x : option O) : match x with Some _ => true | None => false end = true -> x <> None.
Proof. intros H e. rewrite e in H. discriminate H. Qed.
Definition called {O} (means : mcall -> option O) (c : tcall) (e : match means (snd c) with Some _ => true | None => false end = true) : real means :=
  exist _ c (some_call _ e).
Example C60_progress_applies :
  let W := fun _ : addr => mkobj true 32 32 KLlsc (XLlsc false false) in
  let neg := called int_means (on 0 "fetch_negate" []) eq_refl in
  let sto := called int_means (on 0 "store" [VI TValue 3]) eq_refl in
  let impl := real_impl int_means (text_int little) W in
  let c1 := fst (run wexec impl (start (fun _ => mkcell 7 0))
    ([SInv 1%nat neg; SInv 2%nat sto] ++ repeat (SStep 1%nat unlucky) 2 ++ repeat (SStep 2%nat ok_luck) 4)) in
  let l2 := repeat (SStep 1%nat ok_luck) 12 in
  (forall a, obj_ok (W a)) /\ inside c1 1 neg /\ alone impl 1 0 c1 l2 /\ ~ finished c1 1 /\ finished (fst (run wexec impl c1 l2)) 1.
Proof.
  split; [intros a; unfold obj_ok; simpl; repeat split; auto; lia|]. vm_compute. intuition discriminate.
Qed.

Print Assumptions C60_int_text.
Print Assumptions C60_int_ref_text.
Print Assumptions C60_enum_text.
Print Assumptions C60_enum_ref_text.
Print Assumptions C60_bool_text.
Print Assumptions C60_bool_ref_text.
Print Assumptions C60_ptr_text.
Print Assumptions C60_ptr_ref_text.
Print Assumptions C60_value_text.
Print Assumptions C60_value_ref_text.
Print Assumptions C60_fp_text.
Print Assumptions C60_fp_ref_text.
Print Assumptions C60_flag_text.
Print Assumptions C60_int_progress.
Print Assumptions C60_int_ref_progress.
Print Assumptions C60_enum_progress.
Print Assumptions C60_bool_progress.
Print Assumptions C60_ptr_progress.
Print Assumptions C60_ptr_ref_progress.
Print Assumptions C60_value_progress.
Print Assumptions C60_fp_progress.
Print Assumptions C60_flag_progress.

(** * The members as text: what any number of threads see. *)
From Coq Require Import ZArith List String Bool Lia.
From Verif Require Import SpecInt SpecLin SpecObj SpecTyped Order Conv Prog Word CoreModel ExtraModel IntModel TypedModel
  TextModel SpecText TextTable TextProg SimProof WordFacts IntProof TypedProof IntConseq TypedConseq TextProof TextFront TextRun.
Import ListNotations.
Open Scope string_scope.
Open Scope list_scope.
Open Scope Z_scope.
Open Scope prog_scope.

(** ** Constructors *)
Lemma text_int_word_is : forall T ob v, text_int_word T ob v = wrap (o_w ob) v.
Proof. intros. unfold text_int_word, call_constructor. text. reflexivity. Qed.
Lemma text_enum_word_is : forall T e v, text_enum_word T e v = wrap (e_w e) v.
Proof. intros. unfold text_enum_word, call_constructor. text. reflexivity. Qed.
Lemma text_bool_word_is : forall T ob b, text_bool_word T ob b = bool_enc (o_w ob) (Z.b2z b).
Proof. intros. unfold text_bool_word, call_constructor. text. reflexivity. Qed.
Lemma text_ptr_word_is : forall T p v, text_ptr_word T p v = wrap (o_w (p_obj p)) v.
Proof. intros. unfold text_ptr_word, call_constructor. text. reflexivity. Qed.
Lemma text_fp_word_is : forall T f v, text_fp_word T f v = fp_enc f v.
Proof. intros. unfold text_fp_word, call_constructor. text. reflexivity. Qed.
Lemma text_gen_word_is : forall T trivial g v, text_gen_word T trivial g v = gen_enc g v.
Proof. intros T [|] g v; unfold text_gen_word, call_constructor; text; reflexivity. Qed.
Lemma text_flag_word_is : forall T ob, text_flag_word T ob = 0.
Proof. intros. unfold text_flag_word, call_constructor. text. reflexivity. Qed.

(** ** Integers *)
Section Int.
  Variables (T : target) (W : world) (v0 n0 : addr -> Z) (l : list (sched luck tcall)).
  Hypotheses (HW : world_ok W v0) (Hl : legal (says int_means (icall_ok W)) l).
  Let int_Q (v : addr -> Z) (a : addr) (c : cell) : Prop :=
    v a = integral_truncate (o_sg (W a)) (c_bits (obj_core (W a))) (o_vw (W a)) (Word.val c) /\
    Word.val c = stored_word W a (v a) /\ rng (o_sg (W a)) (o_vw (W a)) (v a).
  Lemma text_int_main : (forall a, t_cx T = true \/ o_vw (W a) = o_w (W a)) ->
    let res := text_int_run T W v0 n0 l in
    exists v th, linearizable_to (objects (meant int_means (int_spec W))) v0 (snd res) v th /\
      (forall a, v a = shown W (c_mem (fst res)) a /\ Word.val (c_mem (fst res) a) = stored_word W a (v a) /\
                 rng (o_sg (W a)) (o_vw (W a)) (v a)) /\
      (quiet (fst res) -> forall t, th t = PIdle).
  Proof.
    intros K.
    refine (transport int_means (text_int T) int_prog W _ n0 l (SeqCst, Load) (int_mem W v0 n0) (icall_ok W) _ _ Hl (int_spec W) v0 int_Q _).
    - intros a. unfold int_mem. rewrite text_int_word_is, (obj_core_bits (W a) (proj1 (HW a))). reflexivity.
    - intros a call mo o e. destruct (HW a) as [O _]. apply int_obj_text; [destruct O; lia|exact (obj_core_bits _ O)|exact (K a)|exact e].
    - intros G. exact (int_main W v0 n0 _ HW G).
  Qed.
  Lemma text_int_ref_main : (forall a, o_vw (W a) = o_w (W a)) ->
    let res := text_int_ref_run T W v0 n0 l in
    exists v th, linearizable_to (objects (meant int_means (int_spec W))) v0 (snd res) v th /\
      (forall a, v a = shown W (c_mem (fst res)) a /\ Word.val (c_mem (fst res) a) = stored_word W a (v a) /\
                 rng (o_sg (W a)) (o_vw (W a)) (v a)) /\
      (quiet (fst res) -> forall t, th t = PIdle).
  Proof.
    intros K.
    refine (transport int_means (text_int_ref T) int_prog W _ n0 l (SeqCst, Load) (int_mem W v0 n0) (icall_ok W) _ _ Hl (int_spec W) v0 int_Q _).
    - intros a. unfold int_mem. rewrite (obj_core_bits (W a) (proj1 (HW a))). reflexivity.
    - intros a call mo o e. destruct (HW a) as [O _]. apply int_ref_obj_text; [destruct O; lia|exact (obj_core_bits _ O)|exact (K a)|exact e].
    - intros G. exact (int_main W v0 n0 _ HW G).
  Qed.
End Int.

(** ** Enumerations *)
Section Enum.
  Variables (T : target) (W : addr -> eobj) (v0 n0 : addr -> Z) (l : list (sched luck tcall)).
  Hypotheses (HW : enum_world_ok W v0) (Hl : legal (says enum_means (ecall_ok W)) l)
    (K : forall a, t_cx T = true \/ e_vw (W a) = e_w (W a)).
  Let enum_Q (v : addr -> Z) (a : addr) (c : cell) : Prop :=
    rng (e_sg (W a)) (e_vw (W a)) (v a) /\ (e_be (W a) = false \/ e_vw (W a) = e_w (W a) -> enum_dec (W a) (Word.val c) = v a).
  Lemma enum_main_Q : forall l', legal (ecall_ok W) l' ->
    let res := enum_run W v0 n0 l' in
    exists v th, linearizable_to (objects (enum_spec W)) v0 (snd res) v th /\ (forall a, enum_Q v a (c_mem (fst res) a)) /\
      (quiet (fst res) -> forall t, th t = PIdle).
  Proof.
    intros l' G. destruct (enum_main W v0 n0 l' HW G) as [v [th [A [B [C D]]]]]. exists v, th.
    split; [exact A|split; [intros a; exact (conj (B a) (C a))|exact D]].
  Qed.
  Lemma text_enum_main : let res := text_enum_run T W v0 n0 l in
    exists v th, linearizable_to (objects (meant enum_means (enum_spec W))) v0 (snd res) v th /\
      (forall a, rng (e_sg (W a)) (e_vw (W a)) (v a) /\
                 (e_be (W a) = false \/ e_vw (W a) = e_w (W a) -> enum_shown W (c_mem (fst res)) a = v a)) /\
      (quiet (fst res) -> forall t, th t = PIdle).
  Proof.
    refine (transport enum_means (text_enum T) enum_prog W _ n0 l (SeqCst, Load) (fun a => mkcell (wrap (e_w (W a)) (v0 a)) (n0 a))
              (ecall_ok W) _ _ Hl (enum_spec W) v0 enum_Q _).
    - intros a. rewrite text_enum_word_is. reflexivity.
    - intros a call mo o e. destruct (HW a) as [O _].
      apply enum_obj_text; [destruct O as [O _]; cbn in O; lia|exact (obj_core_bits _ O)|exact (K a)|exact e].
    - exact (enum_main_Q _).
  Qed.
  Lemma text_enum_ref_main : let res := text_enum_ref_run T W v0 n0 l in
    exists v th, linearizable_to (objects (meant enum_means (enum_spec W))) v0 (snd res) v th /\
      (forall a, rng (e_sg (W a)) (e_vw (W a)) (v a) /\
                 (e_be (W a) = false \/ e_vw (W a) = e_w (W a) -> enum_shown W (c_mem (fst res)) a = v a)) /\
      (quiet (fst res) -> forall t, th t = PIdle).
  Proof.
    refine (transport enum_means (text_enum_ref T) enum_prog W _ n0 l (SeqCst, Load) (fun a => mkcell (wrap (e_w (W a)) (v0 a)) (n0 a))
              (ecall_ok W) _ _ Hl (enum_spec W) v0 enum_Q _).
    - reflexivity.
    - intros a call mo o e. destruct (HW a) as [O _].
      apply enum_ref_obj_text; [destruct O as [O _]; cbn in O; lia|exact (obj_core_bits _ O)|exact (K a)|exact e].
    - exact (enum_main_Q _).
  Qed.
End Enum.

(** ** bool *)
Section Bool.
  Variables (T : target) (W : world) (v0 : addr -> bool) (n0 : addr -> Z) (l : list (sched luck tcall)).
  Hypotheses (HW : forall a, obj_ok (W a)) (Hl : legal (says bool_means (fun _ => True)) l).
  Lemma text_bool_main : let res := text_bool_run T W v0 n0 l in
    exists v th, linearizable_to (objects (meant bool_means bool_spec)) v0 (snd res) v th /\
      (forall a, bool_shown (c_mem (fst res)) a = Z.b2z (v a)) /\
      (quiet (fst res) -> forall t, th t = PIdle).
  Proof.
    refine (transport bool_means (text_bool T) bool_prog W _ n0 l (SeqCst, BLoad)
              (fun a => mkcell (bool_enc (o_w (W a)) (Z.b2z (v0 a))) (n0 a)) (fun _ => True) _ _ Hl bool_spec v0
              (fun v a c => bool_dec (Word.val c) = Z.b2z (v a)) _).
    - intros a. rewrite text_bool_word_is. reflexivity.
    - intros a call mo o e. apply bool_obj_text; [destruct (HW a); lia|exact e].
    - intros _. exact (bool_main W v0 n0 _ HW).
  Qed.
  Lemma text_bool_ref_main : let res := text_bool_ref_run T W v0 n0 l in
    exists v th, linearizable_to (objects (meant bool_means bool_spec)) v0 (snd res) v th /\
      (forall a, bool_shown (c_mem (fst res)) a = Z.b2z (v a)) /\
      (quiet (fst res) -> forall t, th t = PIdle).
  Proof.
    refine (transport bool_means (text_bool_ref T) bool_prog W _ n0 l (SeqCst, BLoad)
              (fun a => mkcell (bool_enc (o_w (W a)) (Z.b2z (v0 a))) (n0 a)) (fun _ => True) _ _ Hl bool_spec v0
              (fun v a c => bool_dec (Word.val c) = Z.b2z (v a)) _).
    - reflexivity.
    - intros a call mo o e. apply bool_ref_obj_text; [destruct (HW a); lia|exact e].
    - intros _. exact (bool_main W v0 n0 _ HW).
  Qed.
End Bool.

(** ** Pointers *)
Section Ptr.
  Variables (T : target) (W : addr -> pobj) (v0 n0 : addr -> Z) (l : list (sched luck tcall)).
  Hypotheses (HW : ptr_world_ok W v0) (Hl : legal (says ptr_means (pcall_ok W)) l).
  Lemma text_ptr_main : (forall a, t_cx T = true \/ p_bits (W a) = o_w (p_obj (W a))) ->
    let res := text_ptr_run T W v0 n0 l in
    exists v th, linearizable_to (objects (meant ptr_means (ptr_spec W))) v0 (snd res) v th /\
      (forall a, ptr_shown W (c_mem (fst res)) a = v a /\ is_addr (p_bits (W a)) (v a)) /\
      (quiet (fst res) -> forall t, th t = PIdle).
  Proof.
    intros K.
    refine (transport ptr_means (text_ptr T) ptr_prog W _ n0 l (SeqCst, PLoad)
              (fun a => mkcell (wrap (o_w (p_obj (W a))) (v0 a)) (n0 a)) (pcall_ok W) _ _ Hl (ptr_spec W) v0
              (fun v a c => ptr_shown W (fun _ => c) a = v a /\ is_addr (p_bits (W a)) (v a)) _).
    - intros a. rewrite text_ptr_word_is. reflexivity.
    - intros a call mo o e. destruct (HW a) as [O [G _]].
      apply ptr_obj_text; [exact G|destruct O; unfold p_bits; lia|exact (obj_core_bits _ O)|exact (K a)|exact e].
    - intros G. exact (ptr_main W v0 n0 _ HW G).
  Qed.
  Lemma text_ptr_ref_main : (forall a, p_bits (W a) = o_w (p_obj (W a))) ->
    let res := text_ptr_ref_run T W v0 n0 l in
    exists v th, linearizable_to (objects (meant ptr_means (ptr_spec W))) v0 (snd res) v th /\
      (forall a, ptr_shown W (c_mem (fst res)) a = v a /\ is_addr (p_bits (W a)) (v a)) /\
      (quiet (fst res) -> forall t, th t = PIdle).
  Proof.
    intros K.
    refine (transport ptr_means (text_ptr_ref T) ptr_prog W _ n0 l (SeqCst, PLoad)
              (fun a => mkcell (wrap (o_w (p_obj (W a))) (v0 a)) (n0 a)) (pcall_ok W) _ _ Hl (ptr_spec W) v0
              (fun v a c => ptr_shown W (fun _ => c) a = v a /\ is_addr (p_bits (W a)) (v a)) _).
    - reflexivity.
    - intros a call mo o e. destruct (HW a) as [O [G _]].
      apply ptr_ref_obj_text; [exact G|destruct O; unfold p_bits; lia|exact (K a)|exact (obj_core_bits _ O)|exact e].
    - intros G. exact (ptr_main W v0 n0 _ HW G).
  Qed.
End Ptr.

(** ** Plain values *)
Section Gen.
  Variables (T : target) (W : addr -> gobj) (v0 n0 : addr -> Z) (l : list (sched luck tcall)).
  Hypotheses (HW : gen_world_ok W v0) (Hl : legal (says gen_means (gcall_ok W)) l)
    (K : forall a, t_cx T = true \/ gen_plain (W a)).
  Let gen_Q (v : addr -> Z) (a : addr) (c : cell) : Prop :=
    gen_dec (W a) (Word.val c) = v a /\ vbits (g_live (W a)) (v a) = v a /\ Word.val c = place (g_be (W a)) (g_w (W a)) (g_vw (W a)) (v a).
  Lemma text_gen_main : forall trivial, let res := text_gen_run T trivial W v0 n0 l in
    exists v th, linearizable_to (objects (meant gen_means (gen_spec W))) (fun a => vbits (g_live (W a)) (v0 a)) (snd res) v th /\
      (forall a, gen_shown W (c_mem (fst res)) a = v a /\ vbits (g_live (W a)) (v a) = v a /\
                 Word.val (c_mem (fst res) a) = place (g_be (W a)) (g_w (W a)) (g_vw (W a)) (v a)) /\
      (quiet (fst res) -> forall t, th t = PIdle).
  Proof.
    intros trivial.
    refine (transport gen_means (text_gen T) gen_prog W _ n0 l (SeqCst, GLoad)
              (fun a => mkcell (gen_enc (W a) (v0 a)) (n0 a)) (gcall_ok W) _ _ Hl (gen_spec W) _ gen_Q _).
    - intros a. rewrite text_gen_word_is. reflexivity.
    - intros a call mo o e. apply gen_obj_text; [exact (K a)|exact e].
    - intros G. exact (gen_main W v0 n0 _ HW G).
  Qed.
  Lemma text_gen_ref_main : let res := text_gen_ref_run T W v0 n0 l in
    exists v th, linearizable_to (objects (meant gen_means (gen_spec W))) (fun a => vbits (g_live (W a)) (v0 a)) (snd res) v th /\
      (forall a, gen_shown W (c_mem (fst res)) a = v a /\ vbits (g_live (W a)) (v a) = v a /\
                 Word.val (c_mem (fst res) a) = place (g_be (W a)) (g_w (W a)) (g_vw (W a)) (v a)) /\
      (quiet (fst res) -> forall t, th t = PIdle).
  Proof.
    refine (transport gen_means (text_gen_ref T) gen_prog W _ n0 l (SeqCst, GLoad)
              (fun a => mkcell (gen_enc (W a) (v0 a)) (n0 a)) (gcall_ok W) _ _ Hl (gen_spec W) _ gen_Q _).
    - reflexivity.
    - intros a call mo o e. apply gen_ref_obj_text; [exact (K a)|exact e].
    - intros G. exact (gen_main W v0 n0 _ HW G).
  Qed.
End Gen.

(** ** Floating point *)
Section Fp.
  Variables (T : target) (W : addr -> fobj) (v0 n0 : addr -> Z) (l : list (sched luck tcall)).
  Hypotheses (HW : fp_world_ok W v0) (HB : forall a, f_vw (W a) mod 8 = 0) (Hl : legal (says fp_means (fcall_ok W)) l)
    (K : forall a, t_cx T = true \/ f_vw (W a) = f_w (W a)).
  Lemma text_fp_main : let res := text_fp_run T W v0 n0 l in
    exists v th, linearizable_to (objects (meant fp_means (fp_spec W))) v0 (snd res) v th /\
      (forall a, fp_shown W (c_mem (fst res)) a = v a) /\ (quiet (fst res) -> forall t, th t = PIdle).
  Proof.
    refine (transport fp_means (text_fp T) fp_prog W _ n0 l (SeqCst, FLoad)
              (fun a => mkcell (fp_enc (W a) (v0 a)) (n0 a)) (fcall_ok W) _ _ Hl (fp_spec W) _
              (fun v a c => fp_dec (W a) (Word.val c) = v a) _).
    - intros a. rewrite text_fp_word_is. reflexivity.
    - intros a call mo o e. destruct (HW a) as [O [B _]].
      apply fp_obj_text; [lia|exact (obj_core_bits _ O)|lia|exact (HB a)|exact (K a)|exact e].
    - intros G. exact (fp_main W v0 n0 _ HW G).
  Qed.
  Lemma text_fp_ref_main : let res := text_fp_ref_run T W v0 n0 l in
    exists v th, linearizable_to (objects (meant fp_means (fp_spec W))) v0 (snd res) v th /\
      (forall a, fp_shown W (c_mem (fst res)) a = v a) /\ (quiet (fst res) -> forall t, th t = PIdle).
  Proof.
    refine (transport fp_means (text_fp_ref T) fp_prog W _ n0 l (SeqCst, FLoad)
              (fun a => mkcell (fp_enc (W a) (v0 a)) (n0 a)) (fcall_ok W) _ _ Hl (fp_spec W) _
              (fun v a c => fp_dec (W a) (Word.val c) = v a) _).
    - reflexivity.
    - intros a call mo o e. destruct (HW a) as [O [B _]].
      apply fp_ref_obj_text; [lia|exact (obj_core_bits _ O)|lia|exact (HB a)|exact (K a)|exact e].
    - intros G. exact (fp_main W v0 n0 _ HW G).
  Qed.
End Fp.

(** ** atomic_flag *)
Lemma text_flag_main : forall T W n0 l, (forall a, obj_ok (W a) /\ o_vw (W a) = o_w (W a) /\ o_w (W a) = 32) ->
  legal (says flag_means (fun _ => True)) l ->
  let res := text_flag_run T W n0 l in
  exists v th, linearizable_to (objects (meant flag_means flag_spec)) (fun _ => false) (snd res) v th /\
    (forall a, v a = flag_shown (c_mem (fst res)) a) /\ (quiet (fst res) -> forall t, th t = PIdle).
Proof.
  intros T W n0 l HW Hl.
  refine (transport flag_means (text_flag T) (fun ob => flag_prog (mkflobj ob (is_gcc_atomic (o_core ob)) (t_be T))) W _ n0 l
            (SeqCst, FlagTest) (fun a => mkcell 0 (n0 a)) (fun _ => True) _ _ Hl flag_spec _
            (fun v a c => v a = flag_shown (fun _ => c) a) _).
  - intros a. rewrite text_flag_word_is. reflexivity.
  - intros a call mo o e. destruct (HW a) as [_ [V L]]. exact (flag_obj_text T (W a) call a mo o V L e).
  - intros _. refine (flag_main (fun a => mkflobj (W a) (is_gcc_atomic (o_core (W a))) (t_be T)) n0 _ _).
    intros a. destruct (HW a) as [O [_ L]]. split; [exact O|]. unfold fl_w. cbn [fl_obj]. lia.
Qed.

(** * The members of atomic<>, atomic_ref<> and atomic_flag, as text, do what the model's front ends do. *)
From Coq Require Import ZArith List String Bool Lia.
From Verif Require Import SpecInt SpecLin SpecTyped Order Conv Prog Word CoreModel ExtraModel IntModel TypedModel
  TextModel SpecText TextTable TextProg SimProof WordFacts TextProof.
Import ListNotations.
Open Scope string_scope.
Open Scope list_scope.
Open Scope Z_scope.
Open Scope prog_scope.

Lemma assoc_in : forall T f (x : T) l, assoc f l = Some x -> In (f, x) l.
Proof.
  intros T f x l. induction l as [|[g y] l IH]; intros E; [discriminate|]. cbn [assoc] in E.
  destruct (String.eqb f g) eqn:e.
  - apply String.eqb_eq in e. subst g. injection E as E. subst y. left. reflexivity.
  - right. exact (IH E).
Qed.
Lemma both_some : forall A B (x : option A) (y : option B) r, both x y = Some r -> x = Some (fst r) /\ y = Some (snd r).
Proof. intros A B [x|] [y|] r E; inversion E; subst; split; reflexivity. Qed.
Lemma app1_some : forall A B (f : option (A -> B)) x r, app1 f x = Some r -> exists g, f = Some g /\ r = g x.
Proof. intros A B [f|] x r E; inversion E; subst. exists f. split; reflexivity. Qed.
Lemma app2_some : forall A B C (f : option (A -> B -> C)) x y r, app2 f x y = Some r -> exists g, f = Some g /\ r = g x y.
Proof. intros A B C [f|] x y r E; inversion E; subst. exists f. split; reflexivity. Qed.
Lemma or_else_some : forall A (x y : option A) r, or_else x y = Some r -> x = Some r \/ y = Some r.
Proof. intros A [x|] y r E; [left|right]; exact E. Qed.
Lemma order_some : forall l o, order l = Some o -> (l = [] /\ o = SeqCst) \/ l = [VO o].
Proof.
  intros [|v [|v' l]] o E; [left|right|]; [inversion E; split; reflexivity|destruct v; inversion E; reflexivity|destruct v; discriminate E].
Qed.
Lemma orders_some : forall l o, orders l = Some o -> (l = [] /\ o = SeqCst) \/ l = [VO o] \/ exists f, l = [VO o; VO f].
Proof.
  intros [|v [|v' [|v'' l]]] o E; [left|right; left|right; right|].
  - inversion E; split; reflexivity.
  - destruct v; inversion E; reflexivity.
  - destruct v, v'; inversion E; eexists; reflexivity.
  - destruct v, v'; discriminate E.
Qed.
Lemma no_order_some : forall l o, no_order l = Some o -> l = [] /\ o = SeqCst.
Proof. intros [|] o E; [|discriminate E]. inversion E. split; reflexivity. Qed.

(** The cases of a table of meanings. *)
Ltac lists := repeat match goal with
  | Q : _ :: _ = _ :: _ |- _ => inversion Q; clear Q
  | Q : @nil val = [] |- _ => clear Q
  end; subst.
Ltac cases E :=
  cbv iota in E;
  lazymatch type of E with
  | match ?l with _ => _ end = Some _ => destruct l; cases E
  | None = Some _ => discriminate E
  | or_else _ _ = Some _ => apply or_else_some in E; destruct E as [E|E]; cases E
  | both _ _ = Some _ =>
      let O := fresh "O" in
      apply both_some in E; cbn [fst snd] in E; destruct E as [O E];
      lazymatch type of O with
      | no_order _ = Some _ => apply no_order_some in O; destruct O; try discriminate; lists
      | order _ = Some _ => apply order_some in O; destruct O as [[? ?]|?]; try discriminate; lists
      | orders _ = Some _ => apply orders_some in O; destruct O as [[? ?]|[?|[? ?]]]; try discriminate; lists
      end; cases E
  | app1 _ _ = Some _ => let g := fresh "g" in apply app1_some in E; destruct E as [g [E ?]]; subst; cases E
  | app2 _ _ _ = Some _ => let g := fresh "g" in apply app2_some in E; destruct E as [g [E ?]]; subst; cases E
  | assoc _ _ = Some _ =>
      apply assoc_in in E; cbn [In int_cas int_value int_none int_bit int_operator int_step
        ptr_cas ptr_value ptr_dist_calls ptr_operator ptr_none ptr_step_calls bool_cas bool_value bool_none
        gen_cas gen_value gen_none fp_cas fp_value fp_operator fp_none flag_calls] in E;
      repeat (destruct E as [E|E]; [inversion E; clear E; subst|]); [..|contradiction]
  end.

Lemma wrap_b2z : forall n b, 0 < n -> wrap n (Z.b2z b) = Z.b2z b.
Proof. intros n [] H; [apply wrap_1; exact H|]. apply Z.mod_small. split; [reflexivity|]. apply Z.pow_pos_nonneg; lia. Qed.

Section Fronts.
  Variables (C : family) (X : xfamily) (c : core) (x : extra).
  Hypothesis H : forall s f, core_sim (C s f) c.
  Hypothesis K : forall o, extra_sim (X o) x.

  Lemma int_text : forall w vw sg cx call a mo o, cx = true \/ vw = w -> int_means call = Some (mo, o) ->
    let I := front_inst w vw sg (wrap w) (integral_truncate sg w w) cx in
    sim eq (call_member false I (ops_members I C X) (cl_fns atomic_impl_625) call a)
      (front c x (wrap w) (integral_truncate sg w vw) mo a o).
  Proof.
    intros w vw sg cx [f l] a mo o W E. unfold int_means in E. cbn [fst snd] in E.
    cases E.
    all: (destruct cx; [clear W|destruct W as [W|W]; [discriminate W|subst vw]]).
    all: cbn [front]; run.
  Qed.
  Lemma int_ref_text : forall w sg cx call a mo o, int_means call = Some (mo, o) ->
    let I := front_inst w w sg (wrap w) (integral_truncate sg w w) cx in
    sim eq (call_member false I (ops_members I C X) (cl_fns atomic_ref_impl_571) call a)
      (front c x (wrap w) (integral_truncate sg w w) mo a o).
  Proof.
    intros w sg cx [f l] a mo o E. unfold int_means in E. cbn [fst snd] in E. cases E.
    all: destruct cx; cbn [front]; run.
  Qed.

  Lemma enum_text : forall w vw sg dec cx call a mo o, cx = true \/ vw = w -> enum_means call = Some (mo, o) ->
    let I := front_inst w vw sg (wrap w) dec cx in
    sim eq (call_member false I (ops_members I C X) (cl_fns atomic_impl_353) call a) (front c x (wrap w) dec mo a o).
  Proof.
    intros w vw sg dec cx [f l] a mo o W E. unfold enum_means in E.
    destruct (int_means (f, l)) as [[mo' o']|] eqn:E'; [|discriminate E]. destruct (no_arith o') eqn:N; [|discriminate E].
    inversion E; subst; clear E. unfold int_means in E'. cbn [fst snd] in E'. cases E'; try discriminate N.
    all: (destruct cx; [clear W|destruct W as [W|W]; [discriminate W|subst vw]]).
    all: cbn [front]; run.
  Qed.
  Lemma enum_ref_text : forall w vw sg dec cx call a mo o, cx = true \/ vw = w -> enum_means call = Some (mo, o) ->
    let I := front_inst w vw sg (wrap w) dec cx in
    sim eq (call_member false I (ops_members I C X) (cl_fns atomic_ref_impl_303) call a) (front c x (wrap w) dec mo a o).
  Proof.
    intros w vw sg dec cx [f l] a mo o W E. unfold enum_means in E.
    destruct (int_means (f, l)) as [[mo' o']|] eqn:E'; [|discriminate E]. destruct (no_arith o') eqn:N; [|discriminate E].
    inversion E; subst; clear E. unfold int_means in E'. cbn [fst snd] in E'. cases E'; try discriminate N.
    all: (destruct cx; [clear W|destruct W as [W|W]; [discriminate W|subst vw]]).
    all: cbn [front]; run.
  Qed.

  Lemma bool_text : forall w vw cx call a mo o, 0 < w -> bool_means call = Some (mo, o) ->
    let I := front_inst w vw false (wrap w) (fun z => z) cx in
    sim eq (call_member true I (ops_members I C X) (cl_fns atomic_impl_988) call a)
      (front c x (bool_enc w) bool_dec mo a (bool_iop o)).
  Proof.
    intros w vw cx [f l] a mo o L E. unfold bool_means in E. cbn [fst snd] in E. cases E.
    all: unfold bool_enc, bool_dec; destruct cx; cbn [front bool_iop]; text; prims; rewrite ?(fun b => wrap_b2z _ b L); go.
  Qed.
  Lemma ptr_text : forall w n sz cx call a mo o, cx = true \/ n = w -> ptr_means call = Some (mo, o) ->
    let I := {| i_w := w; i_es := w; i_vw := n; i_sg := false; i_ptr := n; i_sizeT := sz; i_vsize := 1;
       i_in := wrap w; i_out := wrap n; i_fin := fun z => z; i_fout := fun z => z;
       i_add := Z.add; i_sub := Z.sub; i_neg := Z.opp; i_conf := conf KX86 false cx |} in
    sim eq (call_member false I (ops_members I C X) (cl_fns atomic_impl_1372) call a)
      (front c x (wrap w) (wrap n) mo a (ptr_iop n sz o)).
  Proof.
    intros w n sz cx [f l] a mo o W E. unfold ptr_means in E. cbn [fst snd] in E. cases E.
    all: unfold ptr_dist; (destruct cx; [clear W|destruct W as [W|W]; [discriminate W|subst n]]).
    all: cbn [front ptr_iop]; run.
  Qed.
  Lemma bool_ref_text : forall w vw cx call a mo o, 0 < w -> bool_means call = Some (mo, o) ->
    let I := front_inst w vw false (wrap w) (fun z => z) cx in
    sim eq (call_member true I (ops_members I C X) (cl_fns atomic_ref_impl_932) call a)
      (front c x (bool_enc w) bool_dec mo a (bool_iop o)).
  Proof.
    intros w vw cx [f l] a mo o L E. unfold bool_means in E. cbn [fst snd] in E. cases E.
    all: unfold bool_enc, bool_dec; destruct cx; cbn [front bool_iop]; text; prims; rewrite ?(fun b => wrap_b2z _ b L); go.
  Qed.
  Lemma ptr_ref_text : forall w sz cx call a mo o, ptr_means call = Some (mo, o) ->
    let I := {| i_w := w; i_es := w; i_vw := w; i_sg := false; i_ptr := w; i_sizeT := sz; i_vsize := 1;
       i_in := wrap w; i_out := wrap w; i_fin := fun z => z; i_fout := fun z => z;
       i_add := Z.add; i_sub := Z.sub; i_neg := Z.opp; i_conf := conf KX86 false cx |} in
    sim eq (call_member false I (ops_members I C X) (cl_fns atomic_ref_impl_1327) call a)
      (front c x (wrap w) (wrap w) mo a (ptr_iop w sz o)).
  Proof.
    intros w sz cx [f l] a mo o E. unfold ptr_means in E. cbn [fst snd] in E. cases E.
    all: unfold ptr_dist; destruct cx; cbn [front ptr_iop]; run.
  Qed.

  Lemma gen_text : forall w vw enc dec cx call a mo o,
    cx = true \/ (vw = w /\ forall v, enc v = wrap w v) -> gen_means call = Some (mo, o) ->
    let I := front_inst w vw false enc dec cx in
    sim eq (call_member false I (ops_members I C X) (cl_fns atomic_impl_190) call a) (front c x enc dec mo a (gen_iop o)).
  Proof.
    intros w vw enc dec cx [f l] a mo o L E. unfold gen_means in E. cbn [fst snd] in E. cases E.
    all: (destruct cx; [clear L|destruct L as [L|[L Le]]; [discriminate L|subst vw]]).
    all: cbn [front gen_iop]; text; prims; rewrite ?Le; go.
  Qed.
  Lemma gen_ref_text : forall w vw enc dec cx call a mo o,
    cx = true \/ (vw = w /\ forall v, enc v = wrap w v) -> gen_means call = Some (mo, o) ->
    let I := front_inst w vw false enc dec cx in
    sim eq (call_member false I (ops_members I C X) (cl_fns atomic_ref_impl_147) call a) (front c x enc dec mo a (gen_iop o)).
  Proof.
    intros w vw enc dec cx [f l] a mo o L E. unfold gen_means in E. cbn [fst snd] in E. cases E.
    all: (destruct cx; [clear L|destruct L as [L|[L Le]]; [discriminate L|subst vw]]).
    all: cbn [front gen_iop]; text; prims; rewrite ?Le; go.
  Qed.
End Fronts.

(** ** Floating point *)
Section Floating.
  Variables (T : target) (f : fobj).
  Hypothesis L : 0 < f_w f.
  Hypothesis M : Z.shiftl 1 (f_vw f / 8 * 8 - 1) = 2 ^ (f_vw f - 1).
  Hypothesis H : forall s o, core_sim (text_core T (f_obj f) s o) (obj_core (f_obj f)).
  Hypothesis K : forall o, extra_sim (text_extra T (f_obj f) o) (obj_extra (f_obj f)).

  Record fp_sim (v : fpops) : Prop := {
    fs_fetch_add : forall o a z, sim eq (v_fetch_add v o a z) (fp_loop f (FAdd z) (fun old _ => old) a);
    fs_fetch_sub : forall o a z, sim eq (v_fetch_sub v o a z) (fp_loop f (FSub z) (fun old _ => old) a);
    fs_add : forall o a z, sim eq (v_add v o a z) (fp_loop f (FAdd z) (fun _ new => new) a);
    fs_sub : forall o a z, sim eq (v_sub v o a z) (fp_loop f (FSub z) (fun _ new => new) a);
    fs_opaque_add : forall o a z, sim eq (v_opaque_add v o a z) (fp_loop f (FAdd z) (fun old _ => old) a ;;; Ret tt);
    fs_opaque_sub : forall o a z, sim eq (v_opaque_sub v o a z) (fp_loop f (FSub z) (fun old _ => old) a ;;; Ret tt);
    fs_fetch_negate : forall o a, sim eq (v_fetch_negate v o a)
      (if f_iec f then r <- c_fetch (obj_core (f_obj f)) Xor a (sign_mask f) ;; Ret (fp_dec f r)
       else fp_loop f FNeg (fun old _ => old) a);
    fs_negate : forall o a, sim eq (v_negate v o a)
      (if f_iec f then r <- x_bin (obj_extra (f_obj f)) Xor a (sign_mask f) ;; Ret (fp_dec f r)
       else fp_loop f FNeg (fun _ new => new) a);
    fs_opaque_negate : forall o a, sim eq (v_opaque_negate v o a)
      (if f_iec f then x_opaque_bin (obj_extra (f_obj f)) Xor a (sign_mask f)
       else fp_loop f FNeg (fun old _ => old) a ;;; Ret tt)
  }.
  Lemma fpops_text : fp_sim (text_fpops T f).
  Proof.
    unfold text_fpops. split; cbn [v_fetch_add v_fetch_sub v_fetch_negate v_negate v_opaque_negate v_add v_sub v_opaque_add v_opaque_sub];
      intros; unfold fp_loop, sign_mask; destruct (f_iec f); text; prims; rewrite ?(wrap_1 _ L), ?M; go.
  Qed.

  (** The members, on any versions of the operations. *)
  Let inst cx : inst := {|
    i_w := f_w f; i_es := f_w f; i_vw := f_vw f; i_sg := false; i_ptr := f_w f; i_sizeT := 1; i_vsize := f_vw f / 8;
    i_in := fp_enc f; i_out := fp_dec f; i_fin := fp_enc f; i_fout := fp_dec f;
    i_add := fun x y => fp_op f (FAdd y) x; i_sub := fun x y => fp_op f (FSub y) x; i_neg := fp_op f FNeg;
    i_conf := conf KX86 false cx
  |}.
  Let ext (v : fpops) cx : addr -> string -> string -> list val -> option answer := fun a q g vs =>
      if String.eqb q "core_operations" then core_members (inst cx) (text_core T (f_obj f)) a g vs
      else if String.eqb q "fp_operations" || String.eqb q "extra_fp_operations" then fp_members v a g vs
      else None.
  Lemma sim_lhs : forall R (p p' q : wprog R), p = p' -> sim eq p' q -> sim eq p q.
  Proof. intros R p p' q e. subst p'. exact (fun S => S). Qed.
  Ltac part S :=
    eapply sim_lhs; [text; reflexivity|];
    first [
      apply sim_bind_eq; [first [apply (fs_fetch_add _ S)|apply (fs_fetch_sub _ S)|apply (fs_add _ S)|apply (fs_sub _ S)]|];
      let r := fresh "r" in intros r; apply sim_refl
    | eapply sim_eq_trans; [apply sim_bind_run;
        first [apply (fs_opaque_add _ S)|apply (fs_opaque_sub _ S)|apply (fs_fetch_negate _ S)|apply (fs_negate _ S)|
               apply (fs_opaque_negate _ S)]|];
      try destruct (f_iec f); lazymatch goal with |- sim _ (bind (bind _ _) _) _ => apply sim_assoc_l | _ => idtac end; cbn [bind];
      (apply sim_bind_eq; [apply sim_refl|let r := fresh "r" in intros r; try destruct r; apply sim_refl]) ].

  Lemma fp_text_on : forall v, fp_sim v -> forall cx call a mo o,
    cx = true \/ (f_vw f = f_w f /\ forall v, fp_enc f v = wrap (f_w f) v) ->
    fp_means call = Some (mo, o) ->
    sim eq (call_member false (inst cx) (ext v cx) (cl_fns atomic_impl_1147) call a) (fp_prog f mo a o).
  Proof.
    intros v S cx [g l] a mo o B E. unfold fp_means in E. cbn [fst snd] in E. cases E.
    all: (destruct cx; [clear B|destruct B as [B|[B Be]]; [discriminate B|]]).
    all: cbn [fp_prog fp_rmw front].
    all: first [part S | text; rewrite ?Be; go].
  Qed.
  Lemma fp_ref_text_on : forall v, fp_sim v -> forall cx call a mo o,
    cx = true \/ (f_vw f = f_w f /\ forall v, fp_enc f v = wrap (f_w f) v) ->
    fp_means call = Some (mo, o) ->
    sim eq (call_member false (inst cx) (ext v cx) (cl_fns atomic_ref_impl_1089) call a) (fp_prog f mo a o).
  Proof.
    intros v S cx [g l] a mo o B E. unfold fp_means in E. cbn [fst snd] in E. cases E.
    all: (destruct cx; [clear B|destruct B as [B|[B Be]]; [discriminate B|]]).
    all: cbn [fp_prog fp_rmw front].
    all: first [part S | text; rewrite ?Be; go].
  Qed.
End Floating.

(** ** Objects *)
Section Objects.
  Variables (T : target) (ob : obj).
  Hypothesis L : 0 < o_w ob.
  Hypothesis B : c_bits (obj_core ob) = o_w ob.
  Lemma ob_core : forall s o, core_sim (text_core T ob s o) (obj_core ob).
  Proof. exact (core_text T ob). Qed.
  Lemma ob_extra : forall o, extra_sim (text_extra T ob o) (obj_extra ob).
  Proof. intros o. apply extra_text. rewrite B. exact L. Qed.

  Lemma int_obj_text : forall call a mo o, t_cx T = true \/ o_vw ob = o_w ob -> int_means call = Some (mo, o) ->
    sim eq (text_int T ob call a) (int_prog ob mo a o).
  Proof.
    intros call a mo o W E. unfold int_prog, int_front. rewrite B. exact (int_text _ _ _ _ ob_core ob_extra _ _ _ _ _ _ _ _ W E).
  Qed.
  Lemma int_ref_obj_text : forall call a mo o, o_vw ob = o_w ob -> int_means call = Some (mo, o) ->
    sim eq (text_int_ref T ob call a) (int_prog ob mo a o).
  Proof.
    intros call a mo o W E. unfold int_prog, int_front. rewrite B. unfold text_int_ref, int_inst. rewrite W.
    exact (int_ref_text _ _ _ _ ob_core ob_extra _ _ _ _ _ _ _ E).
  Qed.
  Lemma bool_obj_text : forall call a mo o, bool_means call = Some (mo, o) -> sim eq (text_bool T ob call a) (bool_prog ob mo a o).
  Proof. intros call a mo o E. exact (bool_text _ _ _ _ ob_core _ _ _ _ _ _ _ L E). Qed.
  Lemma bool_ref_obj_text : forall call a mo o, bool_means call = Some (mo, o) -> sim eq (text_bool_ref T ob call a) (bool_prog ob mo a o).
  Proof. intros call a mo o E. exact (bool_ref_text _ _ _ _ ob_core _ _ _ _ _ _ _ L E). Qed.
End Objects.

(** The same conversion out. *)
Lemma front_dec : forall c x enc dec dec' mo a o, (forall r, dec r = dec' r) -> sim eq (front c x enc dec mo a o) (front c x enc dec' mo a o).
Proof.
  intros c x enc dec dec' mo a o e. destruct o as [v| |v|e' d|e' d|[| | |] [b v|u]|k i]; cbn [front];
    (apply sim_bind_eq; [apply sim_refl|]; intros r; try destruct r; rewrite ?e; apply sim_refl).
Qed.

Lemma enum_obj_text : forall T e call a mo o, 0 < e_w e -> c_bits (obj_core (e_obj e)) = e_w e ->
  t_cx T = true \/ e_vw e = e_w e -> enum_means call = Some (mo, o) ->
  sim eq (text_enum T e call a) (enum_prog e mo a o).
Proof.
  intros T e call a mo o L B W E.
  exact (enum_text _ _ _ _ (ob_core T (e_obj e)) (ob_extra T (e_obj e) L B) _ _ _ _ _ _ _ _ _ W E).
Qed.
Lemma enum_ref_obj_text : forall T e call a mo o, 0 < e_w e -> c_bits (obj_core (e_obj e)) = e_w e ->
  t_cx T = true \/ e_vw e = e_w e -> enum_means call = Some (mo, o) ->
  sim eq (text_enum_ref T e call a) (enum_prog e mo a o).
Proof.
  intros T e call a mo o L B W E.
  exact (enum_ref_text _ _ _ _ (ob_core T (e_obj e)) (ob_extra T (e_obj e) L B) _ _ _ _ _ _ _ _ _ W E).
Qed.

Lemma truncate_false : forall w n x, 0 <= n <= w -> integral_truncate false w n x = wrap n x.
Proof. intros w n x h. unfold integral_truncate, zero_extend. apply wrap_wrap_le. exact h. Qed.

Lemma ptr_obj_text : forall T p call a mo o, o_sg (p_obj p) = false -> 0 < p_bits p <= o_w (p_obj p) ->
  c_bits (obj_core (p_obj p)) = o_w (p_obj p) ->
  t_cx T = true \/ p_bits p = o_w (p_obj p) -> ptr_means call = Some (mo, o) ->
  sim eq (text_ptr T p call a) (ptr_prog p mo a o).
Proof.
  intros T p call a mo o G L B W E. assert (L' : 0 < o_w (p_obj p)) by lia.
  refine (sim_eq_trans _ _ _ _ (ptr_text _ _ _ _ (ob_core T (p_obj p)) (ob_extra T (p_obj p) L' B) _ _ _ _ _ _ _ _ W E) _).
  unfold ptr_prog, int_prog, int_front. rewrite B, G. apply front_dec. intros r. symmetry. apply truncate_false.
  unfold p_bits in *. lia.
Qed.
Lemma ptr_ref_obj_text : forall T p call a mo o, o_sg (p_obj p) = false -> 0 < p_bits p ->
  p_bits p = o_w (p_obj p) -> c_bits (obj_core (p_obj p)) = o_w (p_obj p) -> ptr_means call = Some (mo, o) ->
  sim eq (text_ptr_ref T p call a) (ptr_prog p mo a o).
Proof.
  intros T p call a mo o G L W B E. assert (L' : 0 < o_w (p_obj p)) by lia.
  unfold text_ptr_ref, ptr_inst. rewrite W.
  refine (sim_eq_trans _ _ _ _ (ptr_ref_text _ _ _ _ (ob_core T (p_obj p)) (ob_extra T (p_obj p) L' B) _ _ _ _ _ _ _ E) _).
  unfold ptr_prog, int_prog, int_front. rewrite B, G. rewrite W. unfold p_bits in W. rewrite W.
  apply front_dec. intros r. symmetry. apply truncate_false. lia.
Qed.

Lemma place_full : forall be w v, place be w w v = wrap w v.
Proof. intros be w v. unfold place. rewrite Z.sub_diag. change (2 ^ 0) with 1. rewrite Z.mul_1_r. destruct be; reflexivity. Qed.

(** Without [bitwise_cast] of [expected] the value must be the storage, bit by bit. *)
Definition gen_plain (g : gobj) : Prop := g_vw g = g_w g /\ g_clear g = false.
Lemma gen_plain_enc : forall g, gen_plain g -> g_vw g = g_w g /\ forall v, gen_enc g v = wrap (g_w g) v.
Proof.
  intros g [e n]. split; [exact e|]. intros v. unfold gen_enc, cleared. rewrite n, e. apply place_full.
Qed.
Lemma gen_obj_text : forall T g call a mo o, t_cx T = true \/ gen_plain g -> gen_means call = Some (mo, o) ->
  sim eq (text_gen T g call a) (gen_prog g mo a o).
Proof.
  intros T g call a mo o W E.
  refine (gen_text _ _ _ _ (ob_core T (g_obj g)) _ _ _ _ _ _ _ _ _ _ E).
  destruct W as [W|W]; [left; exact W|right; exact (gen_plain_enc g W)].
Qed.
Lemma gen_ref_obj_text : forall T g call a mo o, t_cx T = true \/ gen_plain g -> gen_means call = Some (mo, o) ->
  sim eq (text_gen_ref T g call a) (gen_prog g mo a o).
Proof.
  intros T g call a mo o W E.
  refine (gen_ref_text _ _ _ _ (ob_core T (g_obj g)) _ _ _ _ _ _ _ _ _ _ E).
  destruct W as [W|W]; [left; exact W|right; exact (gen_plain_enc g W)].
Qed.

Lemma sign_mask_bytes : forall vw, 0 < vw -> vw mod 8 = 0 -> Z.shiftl 1 (vw / 8 * 8 - 1) = 2 ^ (vw - 1).
Proof.
  intros vw h e. rewrite Z.shiftl_mul_pow2, Z.mul_1_l.
  - f_equal. pose proof (Z.div_mod vw 8 ltac:(lia)). lia.
  - pose proof (Z.div_mod vw 8 ltac:(lia)). lia.
Qed.
Lemma fp_obj_text : forall T f call a mo o, 0 < f_w f -> c_bits (obj_core (f_obj f)) = f_w f ->
  0 < f_vw f -> f_vw f mod 8 = 0 -> t_cx T = true \/ f_vw f = f_w f -> fp_means call = Some (mo, o) ->
  sim eq (text_fp T f call a) (fp_prog f mo a o).
Proof.
  intros T f call a mo o L B V M W E.
  refine (fp_text_on T f (ob_core T (f_obj f)) _ (fpops_text T f (sign_mask_bytes _ V M) (ob_core T (f_obj f)) (ob_extra T (f_obj f) L B)) _ _ _ _ _ _ E).
  destruct W as [W|W]; [left; exact W|right]. split; [exact W|]. intros v. unfold fp_enc. rewrite W. apply place_full.
Qed.
Lemma fp_ref_obj_text : forall T f call a mo o, 0 < f_w f -> c_bits (obj_core (f_obj f)) = f_w f ->
  0 < f_vw f -> f_vw f mod 8 = 0 -> t_cx T = true \/ f_vw f = f_w f -> fp_means call = Some (mo, o) ->
  sim eq (text_fp_ref T f call a) (fp_prog f mo a o).
Proof.
  intros T f call a mo o L B V M W E.
  refine (fp_ref_text_on T f (ob_core T (f_obj f)) _ (fpops_text T f (sign_mask_bytes _ V M) (ob_core T (f_obj f)) (ob_extra T (f_obj f) L B)) _ _ _ _ _ _ E).
  destruct W as [W|W]; [left; exact W|right]. split; [exact W|]. intros v. unfold fp_enc. rewrite W. apply place_full.
Qed.

(** ** Flags *)
Definition is_gcc_atomic (k : ckind) : bool := match k with KGccAtomic _ => true | _ => false end.
Lemma obj_core_full : forall ob, o_vw ob = o_w ob -> obj_core ob = base_core (o_core ob) (o_w ob).
Proof. intros ob e. unfold obj_core. rewrite e, Z.eqb_refl. reflexivity. Qed.
Lemma flag_obj_text : forall T ob call a mo o, o_vw ob = o_w ob -> o_w ob = 32 -> flag_means call = Some (mo, o) ->
  sim eq (text_flag T ob call a) (flag_prog (mkflobj ob (is_gcc_atomic (o_core ob)) (t_be T)) mo a o).
Proof.
  intros T ob [f l] a mo o V L E. unfold flag_means in E. cbn [fst snd] in E.
  pose proof (ob_core T ob) as H. 
  unfold flag_prog. cbn [fl_obj fl_byte].
  destruct (o_core ob) eqn:k; cases E.
  all: cbn [is_gcc_sync is_gcc_atomic fl_w fl_obj first_byte_shift fl_be fl_w].
  all: unfold text_flag, flag_external, flag_members, first_byte_shift, fl_w; cbn [fl_obj fl_be]; rewrite ?k, ?L.
  all: eapply sim_lhs; [text; reflexivity|].
  all: repeat lazymatch goal with |- sim _ (bind (bind _ _) _) _ => apply sim_assoc_l; cbn [bind] end.
  all: first [ apply sim_refl
             | apply sim_bind_eq; [first [apply (H SeqCst SeqCst) | apply (H mo mo)]|]; intros []; apply sim_refl
             | rewrite (obj_core_full _ V), k; cbn [base_core gcc_sync windows c_exchange c_store];
               repeat lazymatch goal with |- sim _ _ (bind (bind _ _) _) => apply sim_assoc_r; cbn [bind] end; apply sim_refl
             ].
Qed.

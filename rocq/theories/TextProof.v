(** * The layers, as text, do what the model's layers do. *)
From Coq Require Import ZArith List String Bool Lia.
From Verif Require Import SpecInt SpecLin SpecTyped Order Conv Prog Word CoreModel ExtraModel IntModel TypedModel
  TextModel SpecText TextTable TextProg SimProof WordFacts.
Import ListNotations.
Open Scope string_scope.
Open Scope list_scope.
Open Scope Z_scope.
Open Scope prog_scope.

Record core_sim (c c' : core) : Prop := {
  cs_bits : c_bits c = c_bits c';
  cs_full : c_full_cas c = c_full_cas c';
  cs_load : forall o a, sim eq (c_load c o a) (c_load c' o a);
  cs_store : forall o a v, sim eq (c_store c o a v) (c_store c' o a v);
  cs_exchange : forall a v, sim eq (c_exchange c a v) (c_exchange c' a v);
  cs_cas : forall a e d, sim eq (c_cas c a e d) (c_cas c' a e d);
  cs_casw : forall a e d, sim eq (c_casw c a e d) (c_casw c' a e d);
  cs_fetch : forall b a v, sim eq (c_fetch c b a v) (c_fetch c' b a v)
}.
Record extra_sim (x x' : extra) : Prop := {
  xs_fetch_un : forall u a, sim eq (x_fetch_un x u a) (x_fetch_un x' u a);
  xs_bin : forall b a v, sim eq (x_bin x b a v) (x_bin x' b a v);
  xs_un : forall u a, sim eq (x_un x u a) (x_un x' u a);
  xs_opaque_bin : forall b a v, sim eq (x_opaque_bin x b a v) (x_opaque_bin x' b a v);
  xs_opaque_un : forall u a, sim eq (x_opaque_un x u a) (x_opaque_un x' u a);
  xs_test_bin : forall b a v, sim eq (x_test_bin x b a v) (x_test_bin x' b a v);
  xs_test_un : forall u a, sim eq (x_test_un x u a) (x_test_un x' u a);
  xs_bit : forall k a i, sim eq (x_bit x k a i) (x_bit x' k a i)
}.

Lemma core_sim_refl : forall c, core_sim c c.
Proof. intros c. split; intros; try reflexivity; apply sim_refl. Qed.
Lemma extra_sim_refl : forall x, extra_sim x x.
Proof. intros x. split; intros; apply sim_refl. Qed.

(** Evaluation of concrete text; what is left are the programs of the layer below and arithmetic. *)
Ltac text := lazy beta iota zeta delta -[bind slot
  c_bits c_full_cas c_load c_store c_exchange c_cas c_casw c_fetch
  x_fetch_un x_bin x_un x_opaque_bin x_opaque_un x_test_bin x_test_un x_bit
  v_fetch_add v_fetch_sub v_fetch_negate v_negate v_opaque_negate v_add v_sub v_opaque_add v_opaque_sub
  wrap sval integral_truncate integral_extend
  Z.add Z.sub Z.opp Z.mul Z.land Z.lor Z.lxor Z.lnot Z.shiftl Z.pow Z.eqb Z.b2z Z.testbit Z.div
  loop ld st xchg rmw cas casw kcas racy ll sc do nonsense
  place unplace gen_enc gen_dec fp_enc fp_dec fp_op enum_dec o_w o_vw o_sg o_core o_extra obj_core obj_extra
  e_w e_vw e_sg e_obj p_bits p_obj p_sz g_w g_vw g_obj f_w f_vw f_obj f_iec fl_obj fl_w t_cx t_rcpc t_be
  text_core text_extra text_fpops];
  cbn [Z.eqb Pos.eqb].
Ltac prims := unfold ld, st, xchg, rmw, cas, casw, kcas, racy, ll, sc, do, loop; cbn [bind].

(** The state of a loop of the text; [None]: any value. *)
Fixpoint zlike (l : list (option Z)) (zs : list Z) : Prop :=
  match l, zs with
  | [], [] => True
  | Some z :: l, z' :: zs => z' = z /\ zlike l zs
  | None :: l, _ :: zs => zlike l zs
  | _, _ => False
  end.
Ltac mask l := lazymatch l with
  | [] => constr:(@nil (option Z))
  | 0 :: ?t => let r := mask t in constr:(@None Z :: r)
  | ?z :: ?t => let r := mask t in constr:(Some z :: r)
  end.
Lemma zlike_nil : forall zs, zlike [] zs -> zs = [].
Proof. intros [|z zs] H; [reflexivity|contradiction]. Qed.
Lemma zlike_some : forall z l zs, zlike (Some z :: l) zs -> exists zs', zs = z :: zs' /\ zlike l zs'.
Proof. intros z l [|z' zs] H; [contradiction|]. destruct H as [e H]. subst z'. exists zs. split; [reflexivity|exact H]. Qed.
Lemma zlike_none : forall l zs, zlike (None :: l) zs -> exists z zs', zs = z :: zs' /\ zlike l zs'.
Proof. intros l [|z' zs] H; [contradiction|]. exists z', zs. split; [reflexivity|exact H]. Qed.
Ltac open_state H := lazymatch type of H with
  | zlike [] ?l => apply zlike_nil in H; subst l
  | zlike (Some _ :: _) ?l => apply zlike_some in H; let e := fresh "e" in destruct H as [? [e H]]; subst l; open_state H
  | zlike (None :: _) ?l => apply zlike_none in H; let e := fresh "e" in destruct H as [? [? [e H]]]; subst l; open_state H
  end.
(** The state [s'] of the model's loop is one of the variables in the state [s] of the text. *)
Ltac invariant s s' :=
  let l := mask s in
  match eval pattern s' in l with ?F _ => refine (sim_loop_inv _ _ _ _ _ _ _ (fun zs x => zlike (F x) zs) _ _ _ _ _ _ _ _) end.

(** What the layer below does is known from the hypotheses. *)
Ltac known := first [apply sim_refl | match goal with
  | H : forall s f, core_sim _ _ |- _ =>
      first [apply (cs_casw _ _ (H _ _)) | apply (cs_cas _ _ (H _ _)) | apply (cs_fetch _ _ (H _ _)) |
             apply (cs_load _ _ (H _ _)) | apply (cs_store _ _ (H _ _)) | apply (cs_exchange _ _ (H _ _))]
  | H : forall o, extra_sim _ _ |- _ =>
      first [apply (xs_fetch_un _ _ (H _)) | apply (xs_bin _ _ (H _)) | apply (xs_un _ _ (H _)) |
             apply (xs_opaque_bin _ _ (H _)) | apply (xs_opaque_un _ _ (H _)) | apply (xs_test_bin _ _ (H _)) |
             apply (xs_test_un _ _ (H _)) | apply (xs_bit _ _ (H _))]
  end].
Ltac case_answer x := cbn [wresp] in x;
  lazymatch type of x with
  | unit => destruct x
  | (bool * Z)%type => let b := fresh "b" in let z := fresh "z" in destruct x as [b z]; destruct b
  | bool => destruct x
  | _ => idtac
  end.
Ltac arith := first [rewrite Z.eqb_sym; reflexivity | idtac].
Lemma wrap_neg_sval : forall n v, wrap n (- sval n v) = wrap n (- v).
Proof.
  intros n v. unfold sval, wrap. destruct (v <? 2 ^ (n - 1)); [reflexivity|].
  replace (- (v - 2 ^ n)) with (- v + 1 * 2 ^ n) by ring. apply Z_mod_plus_full.
Qed.

Ltac branch b := lazymatch b with
  | match ?b' with true => _ | false => _ end => branch b'
  | ?x =? ?y => rewrite ?(Z.eqb_sym y x); destruct (x =? y)
  | _ => destruct b
  end.

Ltac go :=
  cbn [bind slot nth];
  lazymatch goal with
  | |- sim _ (Ret _) (Ret _) =>
      apply sim_ret;
      lazymatch goal with
      | |- sum_rel _ _ (inl _) (inl _) => cbn [sum_rel zlike]; repeat split
      | |- sum_rel _ _ (inr _) (inr _) => cbn [sum_rel]; go
      | |- sum_rel _ _ _ _ => idtac
      | |- _ => first [reflexivity | arith]
      end
  | |- sim _ (Do ?a _) (Do ?a _) =>
      refine (sim_do _ _ _ _ _); let x := fresh "x" in intros x; case_answer x; go
  | |- sim _ (Loop _ ?s _) (Loop _ ?s' _) =>
      invariant s s'; [cbn [zlike]; repeat split | let zs := fresh "zs" in let x := fresh "x" in let H := fresh "H" in
                                       intros zs x H; cbn beta in H; open_state H; go]
  | |- sim _ (bind _ _) (bind (bind _ _) _) => apply sim_assoc_r; go
  | |- sim _ (bind _ _) (bind _ _) =>
      apply sim_bind_eq; [known | let x := fresh "x" in intros x; case_answer x; go]
  | |- sim _ (bind _ _) _ => apply sim_bind_ret_r; go
  | |- sim _ (match ?b with true => _ | false => _ end) _ => branch b; go
  | |- sim _ _ (match ?b with true => _ | false => _ end) => branch b; go
  | |- _ => idtac
  end.
Ltac run := text; prims; rewrite ?wrap_neg_sval, ?wrap_wrap; go.

Ltac fields := cbn [c_bits c_full_cas c_load c_store c_exchange c_cas c_casw c_fetch
  x_fetch_un x_bin x_un x_opaque_bin x_opaque_un x_test_bin x_test_un x_bit core_of_text i_w ops_inst].

Lemma gcc_atomic_text : forall old rcpc be w s o, core_sim (text_gcc_atomic old rcpc be w s o) (gcc_atomic old w).
Proof.
  intros old rcpc be w s o. unfold text_gcc_atomic, gcc_atomic. split; fields.
  - reflexivity.
  - reflexivity.
  - intros m a. destruct rcpc; run.
  - intros m a v. destruct old, m; run.
  - intros a v. run.
  - intros a e d. run.
  - intros a e d. run.
  - intros [] a v; run.
Qed.

Lemma gcc_sync_text : forall plain w s o, core_sim (text_gcc_sync plain w s o) (gcc_sync plain w).
Proof.
  intros plain w s o. unfold text_gcc_sync, gcc_sync. split; fields.
  - reflexivity.
  - reflexivity.
  - intros m a. destruct plain; run.
  - intros m a v. destruct plain; run.
  - intros a v. run.
  - intros a e d. run.
  - intros a e d. run.
  - intros [] a v; run.
Qed.

Lemma windows_text : forall intr s o, core_sim (text_windows intr s o) (windows intr).
Proof.
  intros intr s o. unfold text_windows, windows. split; fields.
  - reflexivity.
  - reflexivity.
  - intros m a. run.
  - intros m a v. run.
  - intros a v. run.
  - intros a e d. run.
  - intros a e d. run.
  - intros [] a v; destruct intr; run.
Qed.

Lemma wrap_1 : forall n, 0 < n -> wrap n 1 = 1.
Proof. intros n H. apply Z.mod_small. split; [lia|]. apply Z.pow_gt_1; lia. Qed.

(** ** Layers on a given one *)
Section On.
  Variables (C : family) (c : core).
  Hypothesis H : forall s f, core_sim (C s f) c.

  Lemma exchange_text : forall s o, core_sim (text_exchange C s o)
    {| c_bits := c_bits c; c_full_cas := c_full_cas c; c_load := c_load c; c_store := c_store c;
       c_exchange := cas_based_exchange (c_bits c) (c_casw c);
       c_cas := c_cas c; c_casw := c_casw c; c_fetch := c_fetch c |}.
  Proof.
    intros s o. unfold text_exchange. rewrite (cs_bits _ _ (H s o)). split; fields; intros; try reflexivity; try apply (H s o).
    run.
  Qed.
  Lemma cas_based_text : forall s o, core_sim (text_cas_based C s o) (cas_based c).
  Proof.
    intros s o. unfold text_cas_based, cas_based. rewrite (cs_bits _ _ (H s o)). split; fields; intros; try reflexivity; try apply (H s o).
    destruct b; run.
  Qed.
  Lemma extending_text : forall sg vw s o, core_sim (text_extending sg vw C s o) (extending sg vw c).
  Proof.
    intros sg vw s o. unfold text_extending, extending. rewrite (cs_bits _ _ (H s o)).
    split; fields; intros; try reflexivity; try apply (H s o).
    destruct b; try apply (H s o); run.
  Qed.
  Lemma extra_generic_text : forall sg es o, 0 < es -> extra_sim (text_extra_generic sg es C o) (extra_generic sg es c).
  Proof.
    intros sg es o Hes. unfold text_extra_generic, extra_generic.
    rewrite (cs_bits _ _ (H o o)), (cs_full _ _ (H o o)). split; fields; intros.
    - destruct u, (c_full_cas c); run.
    - destruct b, (c_full_cas c); run.
    - destruct u, (c_full_cas c); run.
    - destruct b, (c_full_cas c); run.
    - destruct u, (c_full_cas c); run.
    - destruct b, (c_full_cas c); run.
    - destruct u, (c_full_cas c); run.
    - destruct k, (c_full_cas c); text; prims; rewrite (wrap_1 _ Hes), ?wrap_wrap; go.
  Qed.
End On.

(** ** Stacks *)
Lemma sim_bind_run : forall R Q (p p' : wprog R) (f : R -> wprog Q), sim eq p p' -> sim eq (bind p f) (bind p' f).
Proof. intros R Q p p' f S. apply sim_bind_eq; [exact S|]. intros r. apply sim_refl. Qed.

Lemma linux_arm_base_text : forall s o,
  core_sim (core_of_text (ops_inst 32 32 false (conf KLinuxArm false true)) (fun a => external none (linux_arm_intrinsics a))
       (cl_fns core_ops_linux_arm_88) true s o)
    {| c_bits := 32; c_full_cas := true; c_load := fun _ a => ld a; c_store := fun _ a v => st a v;
       c_exchange := fun _ _ => nonsense; c_cas := karm_cas; c_casw := karm_casw; c_fetch := fun _ _ _ => nonsense |}.
Proof.
  intros s o. split; fields; intros.
  - reflexivity.
  - reflexivity.
  - run.
  - run.
  - apply sim_refl.
  - run.
  - run.
  - destruct b; apply sim_refl.
Qed.

Lemma base_text : forall k rcpc be w s o, core_sim (text_base k rcpc be w s o) (base_core k w).
Proof.
  intros k rcpc be w s o. destruct k; cbn [text_base base_core]; try apply core_sim_refl.
  - apply gcc_atomic_text.
  - apply gcc_sync_text.
  - apply cas_based_text. intros s' o'. apply core_sim_refl.
  - exact (cas_based_text _ _ (exchange_text _ _ linux_arm_base_text) s o).
  - unfold sparc. destruct (w =? 32) eqn:e.
    + refine (cas_based_text _ _ _ s o). intros s' o'. apply core_sim_refl.
    + exact (cas_based_text _ _ (exchange_text _ (sparc_base w) (fun _ _ => core_sim_refl _)) s o).
  - apply windows_text.
  - exact (cas_based_text _ _ (exchange_text _ (msvc_dcas_base vec) (fun _ _ => core_sim_refl _)) s o).
Qed.

Lemma core_text : forall T ob s o, core_sim (text_core T ob s o) (obj_core ob).
Proof.
  intros T ob s o. unfold text_core, obj_core. destruct (o_vw ob =? o_w ob); [apply base_text|].
  destruct (o_core ob) eqn:e; try apply core_sim_refl;
    (apply extending_text; intros s' o'; apply base_text).
Qed.

Lemma x86_over_sim : forall g g' w, extra_sim g g' -> extra_sim (x86_over g w) (x86_over g' w).
Proof.
  intros g g' w H. unfold x86_over. split; fields; intros; try apply sim_refl.
  - destruct b; try apply sim_refl; apply H.
  - destruct (w =? 8); [apply H|apply sim_refl].
Qed.
Lemma llsc_over_sim : forall ro lse g g' w, extra_sim g g' -> extra_sim (llsc_over ro lse g w) (llsc_over ro lse g' w).
Proof.
  intros ro lse g g' w H. unfold llsc_over. split; fields; intros.
  - destruct u; [apply sim_refl|]. destruct lse; [apply H|apply sim_refl].
  - destruct lse; [apply H|apply sim_refl].
  - destruct u; [apply sim_refl|]. destruct lse; [apply H|apply sim_refl].
  - destruct ro; [|apply H]. destruct lse; [|apply sim_refl]. apply sim_bind_run, H.
  - destruct u, ro, lse; try apply sim_refl; apply sim_bind_run, H.
  - destruct lse; [|apply sim_refl]. apply sim_bind_run, H.
  - destruct u, lse; try apply sim_refl; apply sim_bind_run, H.
  - apply H.
Qed.

Lemma extra_text : forall T ob o, 0 < c_bits (obj_core ob) -> extra_sim (text_extra T ob o) (obj_extra ob).
Proof.
  intros T ob o Hw. unfold text_extra, obj_extra. rewrite (cs_bits _ _ (core_text T ob o o)).
  pose proof (extra_generic_text _ _ (core_text T ob) (o_sg ob) (c_bits (obj_core ob)) o Hw) as G.
  destruct (o_extra ob) as [| |ro lse].
  - exact G.
  - exact (x86_over_sim _ _ _ G).
  - exact (llsc_over_sim ro lse _ _ _ G).
Qed.

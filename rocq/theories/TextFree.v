(** * The members as text: progress. *)
From Coq Require Import ZArith List String Bool Lia.
From Verif Require Import SpecInt SpecLin SpecObj SpecTyped SpecAlone SpecFree Order Conv Prog Word CoreModel ExtraModel IntModel TypedModel
  TextModel SpecText TextTable TextProg SimProof WordFacts IntProof TypedProof TextProof TextFront TextRun
  Progress ProgressInt FreeProof FreeInt FreeTyped.
Import ListNotations.
Open Scope list_scope.
Open Scope Z_scope.
Open Scope prog_scope.

(** ** Programs in lockstep make the same progress *)
Section Step.
  Context {op ret : Type}.
  Variables (impl impl' : op -> wprog ret) (adr : op -> addr).
  Hypothesis H : forall o, sim eq (impl o) (impl' o).
  Notation config := (config wact wresp wmem op ret).

  Definition same (c c' : config) : Prop := c_mem c = c_mem c' /\ forall t, thr_rel (c_thr c t) (c_thr c' t).

  Lemma same_step : forall c c' e, same c c' -> same (fst (cstep wexec impl c e)) (fst (cstep wexec impl' c' e)).
  Proof.
    intros [m T] [m' T'] e [E HT]. cbn [c_mem c_thr] in *. subst m'.
    destruct (sim_run wexec impl impl' [e] m T T' (fun t o _ => H o) HT) as [_ [E1 E2]].
    cbn [run] in E1, E2. destruct (cstep wexec impl (mkc m T) e) as [c1 h1], (cstep wexec impl' (mkc m T') e) as [c1' h1'].
    split; [exact E1|exact E2].
  Qed.
  Lemma same_run : forall l c c', same c c' -> same (fst (run wexec impl c l)) (fst (run wexec impl' c' l)).
  Proof.
    intros l [m T] [m' T'] [E HT]. cbn [c_mem c_thr] in *. subst m'.
    destruct (sim_run wexec impl impl' l m T T' (fun t o _ => H o) HT) as [_ [E1 E2]]. split; [exact E1|exact E2].
  Qed.
  Lemma same_start : forall m l, same (fst (run wexec impl (start m) l)) (fst (run wexec impl' (start m) l)).
  Proof. intros m l. apply same_run. split; [reflexivity|intros t; exact I]. Qed.

  Lemma same_working : forall a c c' t, same c c' -> working adr a c t = working adr a c' t.
  Proof.
    intros a c c' t [_ HT]. specialize (HT t). unfold working, thr_rel in *.
    destruct (c_thr c t) as [|o p], (c_thr c' t) as [|o' p']; try contradiction; [reflexivity|].
    destruct HT as [e S]. subst o'. apply sim_inv in S.
    destruct p as [r|x k|X B body s k].
    - destruct S as [r' [e _]]. subst p'. reflexivity.
    - destruct S as [k' [e _]]. subst p'. reflexivity.
    - destruct S as [X' [B' [J [F [body' [s' [k' [e _]]]]]]]]. subst p'. reflexivity.
  Qed.
  Lemma same_finished : forall c c' t, same c c' -> finished c' t -> finished c t.
  Proof.
    intros c c' t [_ HT]. specialize (HT t). unfold finished, thr_rel in *.
    destruct (c_thr c t) as [|o p], (c_thr c' t) as [|o' p']; try contradiction.
    destruct HT as [e S]. subst o'. apply sim_inv in S.
    destruct p as [r|x k|X B body s k].
    - intros _. exact I.
    - destruct S as [k' [e _]]. subst p'. intros [].
    - destruct S as [X' [B' [J [F [body' [s' [k' [e _]]]]]]]]. subst p'. intros [].
  Qed.
  Lemma same_inside : forall c c' t o, same c c' -> inside c t o -> inside c' t o.
  Proof.
    intros c c' t o [_ HT]. specialize (HT t). unfold inside, thr_rel in *.
    destruct (c_thr c t) as [|o1 p], (c_thr c' t) as [|o1' p']; try contradiction.
    destruct HT as [e _]. subst o1'. intros e. exact e.
  Qed.
  Lemma same_spurious : forall c c' t w, same c c' -> fails_spuriously c t w = fails_spuriously c' t w.
  Proof.
    intros c c' t w [E HT]. specialize (HT t). unfold fails_spuriously, thr_rel in *. rewrite E.
    destruct (c_thr c t) as [|o p], (c_thr c' t) as [|o' p']; try contradiction; [reflexivity|].
    destruct HT as [e S]. subst o'. apply sim_inv in S.
    destruct p as [r|x k|X B body s k].
    - destruct S as [r' [e _]]. subst p'. reflexivity.
    - destruct S as [k' [e _]]. subst p'. reflexivity.
    - destruct S as [X' [B' [J [F [body' [s' [k' [e _]]]]]]]]. subst p'. reflexivity.
  Qed.

  Lemma same_count : forall f f' l c c', (forall c c' e, same c c' -> f c e = f' c' e) -> same c c' ->
    count impl f c l = count impl' f' c' l.
  Proof.
    intros f f' l. induction l as [|e l IH]; intros c c' F S; [reflexivity|]. cbn [count].
    rewrite (F c c' e S), (IH _ _ F (same_step c c' e S)). reflexivity.
  Qed.
  Lemma same_alone : forall t a l c c', same c c' -> alone impl t a c l -> alone impl' t a c' l.
  Proof.
    intros t a l. induction l as [|e l IH]; intros c c' S G; [exact I|]. cbn [alone] in *. destruct G as [G1 G2].
    pose proof (same_step c c' e S) as S'. split; [|exact (IH _ _ S' G2)].
    destruct e as [u o|u w|u]; try exact G1. destruct (Nat.eqb u t); [exact G1|].
    rewrite <- (proj1 S'), <- (proj1 S). exact G1.
  Qed.

  Lemma same_free : forall n m0, lock_free_within impl' adr n m0 -> lock_free_within impl adr n m0.
  Proof.
    intros n m0 G l1 l2 ts a N K. cbv zeta. specialize (G l1 l2 ts a N K). cbv zeta in G.
    pose proof (same_start m0 l1) as S.
    assert (F1 : forall c c' e, same c c' -> works adr a c e = works (op := op) adr a c' e)
      by (intros c c' e R; destruct e as [t o|t w|t]; cbn [works]; [reflexivity|apply same_working, R|reflexivity]).
    assert (F2 : forall c c' e, same c c' -> finishes impl adr a c e = finishes impl' adr a c' e).
    { intros c c' e R. destruct e as [t o|t w|t]; cbn [finishes]; [reflexivity| |reflexivity].
      rewrite (same_working a c c' t R), (same_working a _ _ t (same_step c c' (SStep t w) R)). reflexivity. }
    assert (F3 : forall c c' e, same c c' -> stumbles adr a c e = stumbles (op := op) adr a c' e).
    { intros c c' e R. destruct e as [t o|t w|t]; cbn [stumbles]; [reflexivity| |reflexivity].
      rewrite (same_working a c c' t R), (same_spurious c c' t w R). reflexivity. }
    rewrite (same_count _ _ l2 _ _ F1 S), (same_count _ _ l2 _ _ F2 S), (same_count _ _ l2 _ _ F3 S). exact G.
  Qed.
  Lemma same_completes : forall n m0, completes_alone impl' adr n m0 -> completes_alone impl adr n m0.
  Proof.
    intros n m0 G l1 l2 t o. cbv zeta. intros i al k. pose proof (same_start m0 l1) as S.
    apply (same_finished _ _ _ (same_run l2 _ _ S)).
    exact (G l1 l2 t o (same_inside _ _ _ _ S i) (same_alone _ _ _ _ _ S al) k).
  Qed.
End Step.

(** ** Calls that mean something *)
Section Meaning.
  Context {B O : Type}.
  Variables (means : mcall -> option (morder * O)) (text : B -> mcall -> addr -> wprog iret)
    (model : B -> morder -> addr -> O -> wprog iret) (W : addr -> B) (n : nat).
  Hypothesis H : forall a call mo o, means call = Some (mo, o) -> sim eq (text (W a) call a) (model (W a) mo a o).
  Hypothesis H1 : forall a mo o, ob a n (model (W a) mo a o).
  Hypothesis H2 : forall a mo o, once a (model (W a) mo a o).

  Definition by_model (c : real means) : wprog iret :=
    match means (snd (proj1_sig c)) with
    | Some (mo, o) => model (W (fst (proj1_sig c))) mo (fst (proj1_sig c)) o
    | None => Ret RUnit
    end.
  Lemma by_model_sim : forall c, sim eq (real_impl means text W c) (by_model c).
  Proof.
    intros [[a c] N]. unfold real_impl, by_model. cbn [proj1_sig fst snd] in *.
    destruct (means c) as [[mo o]|] eqn:e; [exact (H a c mo o e)|]. destruct (N eq_refl).
  Qed.
  Lemma text_progress : forall m0, makes_progress (real_impl means text W) real_adr n m0.
  Proof.
    intros m0.
    assert (G1 : forall c, ob (real_adr c) n (by_model c)).
    { intros c. unfold by_model, real_adr. destruct (means _) as [[mo o]|]; [apply H1|apply ob_ret]. }
    assert (G2 : forall c, once (real_adr c) (by_model c)).
    { intros c. unfold by_model, real_adr. destruct (means _) as [[mo o]|]; [apply H2|exact I]. }
    destruct (free_both by_model real_adr n m0 G1 G2) as [F _].
    split; [|split].
    - exact (same_completes _ _ _ by_model_sim n m0 (alone_all by_model real_adr n m0 G1)).
    - exact (same_free _ _ _ by_model_sim n m0 F).
    - apply someone_finishes_all. exact (same_free _ _ _ by_model_sim n m0 F).
  Qed.
End Meaning.

(** ** Instances *)
Opaque ob ev after once.
Lemma text_int_progress : forall T W m0, (forall a, obj_ok (W a)) -> (forall a, t_cx T = true \/ o_vw (W a) = o_w (W a)) ->
  makes_progress (real_impl int_means (text_int T) W) real_adr 12 m0.
Proof.
  intros T W m0 O K. apply (text_progress int_means (text_int T) int_prog W 12).
  - intros a call mo o e. apply int_obj_text; [destruct (O a); lia|exact (obj_core_bits _ (O a))|exact (K a)|exact e].
  - intros. apply int_prog_fin.
  - intros. apply obj_front_once.
Qed.
Lemma text_int_ref_progress : forall T W m0, (forall a, obj_ok (W a)) -> (forall a, o_vw (W a) = o_w (W a)) ->
  makes_progress (real_impl int_means (text_int_ref T) W) real_adr 12 m0.
Proof.
  intros T W m0 O K. apply (text_progress int_means (text_int_ref T) int_prog W 12).
  - intros a call mo o e. apply int_ref_obj_text; [destruct (O a); lia|exact (obj_core_bits _ (O a))|exact (K a)|exact e].
  - intros. apply int_prog_fin.
  - intros. apply obj_front_once.
Qed.
Lemma text_enum_progress : forall T W m0, (forall a, obj_ok (e_obj (W a))) -> (forall a, t_cx T = true \/ e_vw (W a) = e_w (W a)) ->
  makes_progress (real_impl enum_means (text_enum T) W) real_adr 12 m0 /\
  makes_progress (real_impl enum_means (text_enum_ref T) W) real_adr 12 m0.
Proof.
  intros T W m0 O K.
  split; [apply (text_progress enum_means (text_enum T) enum_prog W 12)|apply (text_progress enum_means (text_enum_ref T) enum_prog W 12)];
    try (intros; apply obj_front_fin); try (intros; apply obj_front_once);
    intros a call mo o e; destruct (O a) as [L _]; cbn in L;
    [apply enum_obj_text|apply enum_ref_obj_text]; try lia; try exact (obj_core_bits _ (O a)); try exact (K a); exact e.
Qed.
Lemma text_bool_progress : forall T W m0, (forall a, obj_ok (W a)) ->
  makes_progress (real_impl bool_means (text_bool T) W) real_adr 12 m0 /\
  makes_progress (real_impl bool_means (text_bool_ref T) W) real_adr 12 m0.
Proof.
  intros T W m0 O.
  split; [apply (text_progress bool_means (text_bool T) bool_prog W 12)|apply (text_progress bool_means (text_bool_ref T) bool_prog W 12)];
    try (intros; apply obj_front_fin); try (intros; apply obj_front_once);
    intros a call mo o e; [apply bool_obj_text|apply bool_ref_obj_text]; try exact e; destruct (O a); lia.
Qed.
Lemma text_ptr_progress : forall T W m0, (forall a, obj_ok (p_obj (W a)) /\ o_sg (p_obj (W a)) = false) ->
  (forall a, t_cx T = true \/ p_bits (W a) = o_w (p_obj (W a))) -> makes_progress (real_impl ptr_means (text_ptr T) W) real_adr 12 m0.
Proof.
  intros T W m0 O K. apply (text_progress ptr_means (text_ptr T) ptr_prog W 12); try (intros; apply int_prog_fin); try (intros; apply obj_front_once).
  intros a call mo o e. destruct (O a) as [Q G].
  apply ptr_obj_text; [exact G|destruct Q; unfold p_bits; lia|exact (obj_core_bits _ Q)|exact (K a)|exact e].
Qed.
Lemma text_ptr_ref_progress : forall T W m0, (forall a, obj_ok (p_obj (W a)) /\ o_sg (p_obj (W a)) = false) ->
  (forall a, p_bits (W a) = o_w (p_obj (W a))) -> makes_progress (real_impl ptr_means (text_ptr_ref T) W) real_adr 12 m0.
Proof.
  intros T W m0 O K. apply (text_progress ptr_means (text_ptr_ref T) ptr_prog W 12); try (intros; apply int_prog_fin); try (intros; apply obj_front_once).
  intros a call mo o e. destruct (O a) as [Q G].
  apply ptr_ref_obj_text; [exact G|destruct Q; unfold p_bits; lia|exact (K a)|exact (obj_core_bits _ Q)|exact e].
Qed.
Lemma text_gen_progress : forall T W m0, (forall a, t_cx T = true \/ gen_plain (W a)) ->
  makes_progress (real_impl gen_means (text_gen T) W) real_adr 12 m0 /\
  makes_progress (real_impl gen_means (text_gen_ref T) W) real_adr 12 m0.
Proof.
  intros T W m0 K.
  split; [apply (text_progress gen_means (text_gen T) gen_prog W 12)|apply (text_progress gen_means (text_gen_ref T) gen_prog W 12)];
    try (intros; apply obj_front_fin); try (intros; apply obj_front_once);
    intros a call mo o e; [apply gen_obj_text|apply gen_ref_obj_text]; try exact (K a); exact e.
Qed.
Lemma text_fp_progress : forall T W m0,
  (forall a, obj_ok (f_obj (W a)) /\ 0 < f_vw (W a) <= f_w (W a) /\ f_vw (W a) mod 8 = 0) ->
  (forall a, t_cx T = true \/ f_vw (W a) = f_w (W a)) ->
  makes_progress (real_impl fp_means (text_fp T) W) real_adr 12 m0 /\
  makes_progress (real_impl fp_means (text_fp_ref T) W) real_adr 12 m0.
Proof.
  intros T W m0 O K.
  split; [apply (text_progress fp_means (text_fp T) fp_prog W 12)|apply (text_progress fp_means (text_fp_ref T) fp_prog W 12)];
    try (intros; apply fp_prog_fin); try (intros; apply fp_prog_once);
    intros a call mo o e; destruct (O a) as [Q [L M]];
    [apply fp_obj_text|apply fp_ref_obj_text]; try lia; try exact (obj_core_bits _ Q); try exact M; try exact (K a); exact e.
Qed.
Lemma text_flag_progress : forall T W m0, (forall a, o_vw (W a) = o_w (W a) /\ o_w (W a) = 32) ->
  makes_progress (real_impl flag_means (text_flag T) W) real_adr 12 m0.
Proof.
  intros T W m0 O.
  apply (text_progress flag_means (text_flag T) (fun ob => flag_prog (mkflobj ob (is_gcc_atomic (o_core ob)) (t_be T))) W 12).
  - intros a call mo o e. destruct (O a) as [V L]. exact (flag_obj_text T (W a) call a mo o V L e).
  - intros. apply flag_prog_fin.
  - intros. apply flag_prog_once.
Qed.

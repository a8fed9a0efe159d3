(** * The typed front ends are linearizable: proofs. *)
From Coq Require Import ZArith List Bool Lia.
From Verif Require Import SpecInt SpecLin SpecObj SpecTyped Order Conv WordFacts Prog Word RG CoreModel CoreProof
  ExtraModel ExtraProof FrontProof IntModel IntProof TypedModel.
Open Scope Z_scope.

Lemma inwrap0 w x : 0 < w -> inw w (wrap w x).
Proof. intros. apply wrap_range. lia. Qed.

(** ** Pointers *)
Lemma moved_add n sz p k : norm false n (p + ptr_dist n sz k) = moved n sz p k.
Proof.
  unfold norm, moved, ptr_dist, wrap. rewrite Zplus_mod_idemp_r.
  rewrite <- Zplus_mod_idemp_r, Zmult_mod_idemp_l, Zplus_mod_idemp_r. reflexivity.
Qed.
Lemma moved_sub n sz p k : norm false n (p - ptr_dist n sz k) = moved n sz p (- k).
Proof.
  unfold norm, moved, ptr_dist, wrap. rewrite Zminus_mod_idemp_r.
  rewrite <- Zminus_mod_idemp_r, Zmult_mod_idemp_l, Zminus_mod_idemp_r. f_equal. lia.
Qed.

Section Ptr.
  Variable W : addr -> pobj.
  Hypothesis HW : forall a, obj_ok (p_obj (W a)).
  Hypothesis Hsg : forall a, o_sg (p_obj (W a)) = false.
  Let bits := fun a => o_w (p_obj (W a)).
  Let bits_pos : forall a, 0 < bits a.
  Proof. intros a. destruct (HW a). unfold bits. lia. Qed.
  Definition ptr_rep (a : addr) (x v : Z) : Prop :=
    is_addr (p_bits (W a)) v /\ x = wrap (o_w (p_obj (W a))) v.

  Lemma ptr_step_int n sz v o r v' : istep false n v (ptr_iop n sz o) r v' -> ptr_step n sz v o r v'.
  Proof.
    destruct o as [| | | | |f k|f k]; simpl; intros H; inversion H; subst; try (now constructor);
      cbn [eff_apply bin_apply].
    - rewrite moved_add. apply ps_add.
    - rewrite moved_sub. apply ps_sub.
  Qed.

  Lemma ptr_prog_ok c : pcall_ok W c ->
    LA wexec (wspec ptr_rep (ptr_spec W)) (WInv bits) wrely wrely (ptr_impl W c)
      (fun s r s' => wspec ptr_rep (ptr_spec W) s c r s') (fun s r => wspec ptr_rep (ptr_spec W) s c r s).
  Proof.
    destruct c as [a [mo o]]. intros [Hok Hsafe]. unfold ptr_impl, ptr_prog, int_prog, int_front. simpl fst in *; simpl snd in *.
    rewrite (obj_core_bits _ (HW a)).
    assert (Hvw : 0 < p_bits (W a) <= o_w (p_obj (W a))) by apply (HW a).
    assert (Hio : iop_ok false (p_bits (W a)) (ptr_iop (p_bits (W a)) (p_sz (W a)) o)).
    { destruct o; simpl in *; auto; unfold ptr_dist; apply wrap_range; lia. }
    apply (front_values bits ptr_rep (ptr_spec W)); auto.
    - intros v. apply inwrap0. apply (bits_pos a).
    - destruct o; simpl; auto.
    - intros x v r x' [Hv ->] Hr.
      assert (Hs : int_safe (p_obj (W a)) (ptr_iop (p_bits (W a)) (p_sz (W a)) o))
        by (split; [rewrite Hsg; exact Hio | exact Hsafe]).
      assert (Hv1 : rng (o_sg (p_obj (W a))) (o_vw (p_obj (W a))) v) by (rewrite Hsg; exact Hv).
      destruct (raw_int _ _ _ _ _ (HW a) Hs Hv1 Hr) as (v' & A & B & C).
      rewrite Hsg in A, C. exists v'. split; [split; auto|]. apply ptr_step_int. exact C.
  Qed.

  Theorem ptr_linearizable_aux (v0 n0 : addr -> Z) l :
    (forall a, is_addr (p_bits (W a)) (v0 a)) -> legal (pcall_ok W) l ->
    let res := ptr_run W v0 n0 l in
    exists v th, linearizable_to (objects (ptr_spec W)) v0 (snd res) v th /\
      (forall a, ptr_rep a (val (c_mem (fst res) a)) (v a)) /\
      (forall t, match c_thr (fst res) t with Idle => th t = PIdle | Run _ _ => th t <> PIdle end).
  Proof.
    intros Hv Hl. apply (front_sound bits ptr_rep (ptr_impl W) (ptr_spec W) (pcall_ok W)).
    - apply ptr_prog_ok.
    - intros a. simpl. split; [apply inwrap0, (bits_pos a) | split; auto].
    - exact Hl.
  Qed.
End Ptr.

(** ** bool *)
Section Bool.
  Variable W : world.
  Hypothesis HW : forall a, obj_ok (W a).
  Let bits := fun a => o_w (W a).
  Let bits_pos : forall a, 0 < bits a.
  Proof. intros a. destruct (HW a). unfold bits. lia. Qed.
  Definition bool_rep (a : addr) (x : Z) (b : bool) : Prop := x = Z.b2z b.

  Lemma b2z_enc w b : 0 < w -> bool_enc w (Z.b2z b) = Z.b2z b.
  Proof.
    intros. unfold bool_enc. apply wrap_id. assert (2 ^ 1 <= 2 ^ w) by (apply Z.pow_le_mono_r; lia).
    destruct b; simpl; lia.
  Qed.
  Lemma b2z_dec b : bool_dec (Z.b2z b) = Z.b2z b.
  Proof. now destruct b. Qed.
  Lemma b2z_inj b c : Z.b2z b = Z.b2z c -> b = c.
  Proof. destruct b, c; simpl; congruence. Qed.

  Lemma bool_prog_ok c :
    LA wexec (wspec bool_rep bool_spec) (WInv bits) wrely wrely (bool_impl W c)
      (fun s r s' => wspec bool_rep bool_spec s c r s') (fun s r => wspec bool_rep bool_spec s c r s).
  Proof.
    destruct c as [a [mo o]]. unfold bool_impl, bool_prog. simpl fst; simpl snd.
    assert (Hw := bits_pos a). unfold bits in Hw.
    apply (front_values bits bool_rep bool_spec); auto.
    - intros v. now apply inwrap0.
    - destruct o; simpl; auto.
    - intros x v r x' -> Hr. unfold bool_spec, bool_rep in *.
      destruct o; simpl in Hr; inversion Hr; subst;
        repeat rewrite b2z_enc in * by assumption; repeat rewrite b2z_dec;
        try match goal with H : Z.b2z _ = Z.b2z _ |- _ => apply b2z_inj in H; subst end;
        simpl; eexists; (split; [reflexivity|]); constructor; congruence.
  Qed.

  Theorem bool_linearizable_aux (v0 : addr -> bool) (n0 : addr -> Z) l :
    let res := bool_run W v0 n0 l in
    exists v th, linearizable_to (objects bool_spec) v0 (snd res) v th /\
      (forall a, bool_rep a (val (c_mem (fst res) a)) (v a)) /\
      (forall t, match c_thr (fst res) t with Idle => th t = PIdle | Run _ _ => th t <> PIdle end).
  Proof.
    apply (front_sound bits bool_rep (bool_impl W) bool_spec (fun _ => True)).
    - intros c _. apply bool_prog_ok.
    - intros a. simpl. split; [apply inwrap0, (bits_pos a) | apply b2z_enc, (bits_pos a)].
    - intros t o _. exact I.
  Qed.
End Bool.

(** ** Placement *)
Section Place.
  Variables (be : bool) (w vw : Z).
  Hypothesis Hv : 0 < vw <= w.

  Lemma place_inw v : inw w (place be w vw v).
  Proof. unfold place. destruct be; apply inwrap0; lia. Qed.

  Lemma pow_split : 2 ^ w = 2 ^ vw * 2 ^ (w - vw).
  Proof. rewrite <- Z.pow_add_r by lia. f_equal. lia. Qed.

  Lemma place_eq v : pattern vw v -> place be w vw v = if be then v * 2 ^ (w - vw) else v.
  Proof.
    intros H. unfold pattern in H. unfold place.
    assert (Hp := pow2_gt0 (w - vw)). assert (E := pow_split). destruct be; apply wrap_id.
    - rewrite E. nia.
    - assert (2 ^ vw <= 2 ^ w) by (apply Z.pow_le_mono_r; lia). lia.
  Qed.

  Lemma unplace_place v : pattern vw v -> unplace be w vw (place be w vw v) = v.
  Proof.
    intros H. rewrite place_eq by auto. unfold unplace. assert (Hp := pow2_gt0 (w - vw)). destruct be.
    - apply Z.div_mul. lia.
    - apply wrap_id. exact H.
  Qed.

  Lemma place_inj u v : pattern vw u -> pattern vw v -> place be w vw u = place be w vw v -> u = v.
  Proof. intros Hu Hv' E. rewrite <- (unplace_place u), <- (unplace_place v), E by auto. reflexivity. Qed.

  Lemma unplace_pattern x : inw w x -> pattern vw (unplace be w vw x).
  Proof.
    intros Hx. unfold unplace, pattern, inw in *. destruct be; [|apply wrap_range; lia].
    assert (Hp := pow2_gt0 (w - vw)). rewrite pow_split in Hx. split.
    - apply Z.div_pos; lia.
    - apply Z.div_lt_upper_bound; lia.
  Qed.
End Place.

(** ** Enumerations *)
Section Enum.
  Variable W : addr -> eobj.
  Hypothesis HW : forall a, obj_ok (e_obj (W a)).
  Let bits := fun a => e_w (W a).
  Let bits_pos : forall a, 0 < bits a.
  Proof. intros a. destruct (HW a). unfold bits. simpl in *. lia. Qed.
  Definition enum_rep (a : addr) (x v : Z) : Prop :=
    rng (e_sg (W a)) (e_vw (W a)) v /\ x = wrap (e_w (W a)) v.

  (** the object as if of the underlying type *)
  Definition as_int (e : eobj) : obj := mkobj (e_sg e) (e_vw e) (e_w e) (e_core e) (e_extra e).

  Lemma bnew_bitwise eb sg vw w b x v : is_arith b = false -> bnew eb sg vw w b x v = wrap w (bin_apply b x v).
  Proof. intros H. unfold bnew. destruct eb, b; try discriminate; reflexivity. Qed.
  Lemma core_new_bitwise sg vw w b x v : is_arith b = false -> core_new sg vw w b x v = wrap w (bin_apply b x v).
  Proof. destruct b; try discriminate; reflexivity. Qed.

  Lemma raw_as_int e o enc dec x r x' : enum_call o = true ->
    raw (e_obj e) enc dec x o r x' -> raw (as_int e) enc dec x o r x'.
  Proof.
    intros Ho H. inversion H; subst; simpl in Ho; try (once (now constructor));
      try exact (raw_fetch_un (as_int e) _ _ _ _); try exact (raw_result_un (as_int e) _ _ _ _);
      try exact (raw_opaque_un (as_int e) _ _ _ _); try exact (raw_test_un (as_int e) _ _ _ _);
      try exact (raw_bit (as_int e) _ _ _ _ _);
      (apply negb_true_iff in Ho; simpl;
       repeat rewrite core_new_bitwise by assumption; repeat rewrite bnew_bitwise by assumption).
    - rewrite <- (core_new_bitwise (e_sg e) (e_vw e)) by assumption. apply raw_fetch_bin.
    - rewrite <- (bnew_bitwise (keeps_ext (as_int e)) (e_sg e) (e_vw e)) at 2 by assumption. apply raw_result_bin.
    - rewrite <- (bnew_bitwise (keeps_ext_opaque (as_int e)) (e_sg e) (e_vw e)) by assumption. apply raw_opaque_bin.
    - rewrite <- (bnew_bitwise eb (e_sg e) (e_vw e)) at 2 by assumption. apply (raw_test_bin (as_int e)).
  Qed.

  (** [raw] only looks at the conversion on words *)
  Lemma raw_dec ob enc dec dec' x o r x' :
    (forall y, inw (o_w ob) y -> dec y = dec' y) -> (forall v, inw (o_w ob) (enc v)) -> inw (o_w ob) x -> 0 < o_w ob ->
    raw ob enc dec x o r x' -> raw ob enc dec' x o r x'.
  Proof.
    intros Hd He Hx Hw H. inversion H; subst; try (now constructor);
      rewrite Hd by (first [exact Hx | apply He | now apply inwrap0]); now constructor.
  Qed.

  Lemma enum_dec_norm e x : 0 < e_vw e <= e_w e -> (e_be e = false \/ e_vw e = e_w e) -> inw (e_w e) x ->
    enum_dec e x = integral_truncate (e_sg e) (e_w e) (e_vw e) x.
  Proof.
    intros Hv Hb Hx. unfold enum_dec. rewrite !truncate_norm by lia.
    apply norm_congr; [lia|]. unfold unplace. destruct (e_be e).
    - destruct Hb as [Hb|Hb]; [discriminate|]. rewrite Hb, Z.sub_diag. change (2 ^ 0) with 1. now rewrite Z.div_1_r.
    - apply wrap_wrap.
  Qed.

  Lemma enum_prog_ok c : ecall_ok W c ->
    LA wexec (wspec enum_rep (enum_spec W)) (WInv bits) wrely wrely (enum_impl W c)
      (fun s r s' => wspec enum_rep (enum_spec W) s c r s') (fun s r => wspec enum_rep (enum_spec W) s c r s).
  Proof.
    destruct c as [a [mo o]]. intros (Hok & Hcall & Hsafe). unfold enum_impl, enum_prog. simpl fst in *; simpl snd in *.
    assert (Hw := bits_pos a). unfold bits in Hw.
    assert (Hvw : 0 < e_vw (W a) <= e_w (W a)) by apply (HW a).
    apply (front_values bits enum_rep (enum_spec W)); auto.
    - intros v. now apply inwrap0.
    - destruct o; auto. simpl in *. lia.
    - intros x v r x' [Hv ->] Hr.
      apply raw_as_int in Hr; auto.
      apply raw_dec with (dec' := integral_truncate (e_sg (W a)) (e_w (W a)) (e_vw (W a))) in Hr;
        try (intros; now apply inwrap0); auto.
      + assert (Hs : int_safe (as_int (W a)) o).
        { split; [exact Hok|]. simpl. destruct Hsafe as [Hs|[_ Hs]]; [now left|right].
          destruct o as [| | | | |f [b y|[|]]|k i]; simpl in *; auto; try discriminate.
          - destruct f, b; simpl in *; auto; discriminate.
          - destruct f; auto. }
        destruct (raw_int (as_int (W a)) o r v x' (HW a) Hs Hv Hr) as (v' & A & B & C).
        exists v'. split; [split; auto | exact C].
      + intros y Hy. apply enum_dec_norm; auto. destruct Hsafe as [Hs|[Hs _]]; auto.
  Qed.

  Theorem enum_linearizable_aux (v0 n0 : addr -> Z) l :
    (forall a, rng (e_sg (W a)) (e_vw (W a)) (v0 a)) -> legal (ecall_ok W) l ->
    let res := enum_run W v0 n0 l in
    exists v th, linearizable_to (objects (enum_spec W)) v0 (snd res) v th /\
      (forall a, enum_rep a (val (c_mem (fst res) a)) (v a)) /\
      (forall t, match c_thr (fst res) t with Idle => th t = PIdle | Run _ _ => th t <> PIdle end).
  Proof.
    intros Hv Hl. apply (front_sound bits enum_rep (enum_impl W) (enum_spec W) (ecall_ok W)).
    - apply enum_prog_ok.
    - intros a. simpl. split; [apply inwrap0, (bits_pos a) | split; auto].
    - exact Hl.
  Qed.
End Enum.

(** ** Floating point *)
Section Fp.
  Variable W : addr -> fobj.
  Variable v0 : addr -> Z.
  Hypothesis HW : fp_world_ok W v0.
  Let bits := fun a => f_w (W a).
  Let Hvw a : 0 < f_vw (W a) <= f_w (W a).
  Proof. apply (HW a). Qed.
  Let bits_pos : forall a, 0 < bits a.
  Proof. intros a. destruct (Hvw a). unfold bits. lia. Qed.
  Definition fp_rep (a : addr) (x v : Z) : Prop := pattern (f_vw (W a)) v /\ x = fp_enc (W a) v.
  Notation wsp := (wspec fp_rep (fp_spec W)).
  Notation LA := (LA wexec wsp (WInv bits) wrely wrely).

  Lemma fp_enc_inw a v : inw (f_w (W a)) (fp_enc (W a) v).
  Proof. apply place_inw. apply Hvw. Qed.
  Lemma fp_dec_enc a v : pattern (f_vw (W a)) v -> fp_dec (W a) (fp_enc (W a) v) = v.
  Proof. apply unplace_place. apply Hvw. Qed.
  Lemma fp_enc_inj a u v : pattern (f_vw (W a)) u -> pattern (f_vw (W a)) v -> fp_enc (W a) u = fp_enc (W a) v -> u = v.
  Proof. apply place_inj. apply Hvw. Qed.
  Lemma fp_op_eq a e x : pattern (f_vw (W a)) x ->
    match e with FAdd v | FSub v => pattern (f_vw (W a)) v | FNeg => True end ->
    fp_op (W a) e x = feff_apply (f_ar (W a)) e x.
  Proof.
    intros Hx He. destruct (HW a) as (_ & _ & Har & _). unfold fp_op. apply wrap_id.
    destruct e as [v|v|]; simpl; [apply (Har x v) | apply (Har x v) | apply (Har x x)]; auto.
  Qed.
  Lemma fp_op_pattern a e x : pattern (f_vw (W a)) (fp_op (W a) e x).
  Proof. apply wrap_range. destruct (Hvw a). lia. Qed.

  Lemma fp_loop_ok a e g : LA (fp_loop (W a) e g a)
    (fun s r s' => let old := fp_dec (W a) (s a) in let new := fp_op (W a) e old in
                   r = g old new /\ supd s a (fp_enc (W a) new) s') none.
  Proof.
    assert (Hc : core_ok bits wsp (obj_core (f_obj (W a))) (o_sg (f_obj (W a))) (o_vw (f_obj (W a))) a)
      by (apply obj_core_ok; auto; apply (HW a)).
    unfold fp_loop. apply LA_pure_bind; [apply Pure_racy|]. intros i.
    apply LA_loop with (P := fun _ => True); [exact I|]. intros old _. cbv zeta.
    eapply LA_weaken.
    - apply (LA_bind_ret bits wsp _ _ (c_casw (obj_core (f_obj (W a))) a old (fp_enc (W a) (fp_op (W a) e (fp_dec (W a) old)))) _
               (fun r : bool * Z => if fst r then inr (g (fp_dec (W a) old) (fp_op (W a) e (fp_dec (W a) old))) else inl (snd r))).
      + intros [[|] f]; reflexivity.
      + apply (casw_usable bits wsp); [apply Hc | apply fp_enc_inw].
    - intros m s y s' Hi ((b & f) & [(H1 & H2 & H3) | (H2 & ->)] & ->); simpl in *.
      + inversion H2; subst; simpl. auto.
      + subst. simpl. auto.
    - intros m s y Hi ((b & f) & H1 & ->). simpl in *. subst. exact I.
  Qed.

  (** flipping the sign bit of the storage flips that of the value *)
  Lemma sign_flip a v : f_be (W a) = false \/ f_vw (W a) = f_w (W a) -> pattern (f_vw (W a)) v ->
    wrap (f_w (W a)) (Z.lxor (fp_enc (W a) v) (sign_mask (W a))) = fp_enc (W a) (Z.lxor v (2 ^ (f_vw (W a) - 1))) /\
    pattern (f_vw (W a)) (Z.lxor v (2 ^ (f_vw (W a) - 1))).
  Proof.
    intros Hb Hv. destruct (Hvw a) as [H1 H2].
    set (vw := f_vw (W a)) in *. set (w := f_w (W a)) in *.
    assert (Hp : pattern vw (2 ^ (vw - 1))).
    { split; [apply Z.pow_nonneg; lia | apply Z.pow_lt_mono_r; lia]. }
    assert (Hx : pattern vw (Z.lxor v (2 ^ (vw - 1)))).
    { assert (E := rng_bin_bitwise false vw Xor v (2 ^ (vw - 1))). simpl in E. unfold rng in E.
      rewrite <- E by (auto; lia). unfold pattern. apply Z.mod_pos_bound. apply pow2_gt0; lia. }
    split; [|exact Hx].
    assert (Hle : 2 ^ vw <= 2 ^ w) by (apply Z.pow_le_mono_r; lia).
    assert (Hm : sign_mask (W a) = 2 ^ (vw - 1)).
    { unfold sign_mask. fold vw w. apply wrap_id. unfold pattern in Hp. lia. }
    assert (He : forall y, pattern vw y -> fp_enc (W a) y = y).
    { intros y Hy. unfold fp_enc. fold vw w. rewrite place_eq by auto. destruct (f_be (W a)); auto.
      destruct Hb as [Hb|Hb]; [discriminate|]. rewrite Hb, Z.sub_diag. change (2 ^ 0) with 1. lia. }
    rewrite Hm, !He by auto. apply wrap_id. unfold pattern in Hx. lia.
  Qed.

  Lemma fp_prog_ok c : fcall_ok W c ->
    LA (fp_impl W c) (fun s r s' => wsp s c r s') (fun s r => wsp s c r s).
  Proof.
    destruct c as [a [mo o]]. unfold fcall_ok, fp_impl, fp_prog. simpl fst; simpl snd. intros Hok.
    destruct (HW a) as (Hob & _ & Har & Hiec & _). assert (Hw := bits_pos a). unfold bits in Hw.
    assert (Hfront : forall io, (forall x v r x', fp_rep a x v -> raw (f_obj (W a)) (fp_enc (W a)) (fp_dec (W a)) x io r x' ->
              exists v', fp_rep a x' v' /\ fp_spec W a v (mo, o) r v') ->
              match io with BitTest _ i => 0 <= i < o_w (f_obj (W a)) | _ => True end ->
              LA (front (obj_core (f_obj (W a))) (obj_extra (f_obj (W a))) (fp_enc (W a)) (fp_dec (W a)) mo a io)
                 (fun s r s' => wsp s (a, (mo, o)) r s') (fun s r => wsp s (a, (mo, o)) r s)).
    { intros io H Hbit. apply (front_values bits fp_rep (fp_spec W)); auto. intros v. apply fp_enc_inw. }
    assert (Heq : forall e v, pattern (f_vw (W a)) e -> pattern (f_vw (W a)) v ->
              fp_enc (W a) v = fp_enc (W a) e -> v = e) by (intros; now apply (fp_enc_inj a)).
    destruct o as [v| |v|e d|e d|f e]; simpl in Hok.
    - apply Hfront; [|exact I]. intros x u r x' [Hu ->] Hr. inversion Hr; subst. exists v. split; [split; auto | constructor].
    - apply Hfront; [|exact I]. intros x u r x' [Hu ->] Hr. inversion Hr; subst. rewrite fp_dec_enc by auto.
      exists u. split; [split; auto | constructor].
    - apply Hfront; [|exact I]. intros x u r x' [Hu ->] Hr. inversion Hr; subst. rewrite fp_dec_enc by auto.
      exists v. split; [split; auto | constructor].
    - destruct Hok as [He Hd]. apply Hfront; [|exact I]. intros x u r x' [Hu ->] Hr.
      inversion Hr as [| | |? ? E|? ? E| | | | | | | | | | | |]; subst; rewrite fp_dec_enc by auto.
      + apply Heq in E; auto. subst. exists d. split; [split; auto | constructor].
      + exists u. split; [split; auto | constructor; congruence].
    - destruct Hok as [He Hd]. apply Hfront; [|exact I]. intros x u r x' [Hu ->] Hr.
      inversion Hr as [| | | | |? ? E|? ? E|? ? E| | | | | | | | |]; subst; rewrite fp_dec_enc by auto.
      + apply Heq in E; auto. subst. exists d. split; [split; auto | constructor].
      + exists u. split; [split; auto | constructor].
      + apply Heq in E; auto. subst. exists e. split; [split; auto | constructor].
    - (* read-modify-write *)
      assert (He : match e with FAdd v | FSub v => pattern (f_vw (W a)) v | FNeg => True end) by (destruct e; auto).
      assert (Hstep : forall s s', supd s a (fp_enc (W a) (fp_op (W a) e (fp_dec (W a) (s a)))) s' ->
                wsp s (a, (mo, FRmw f e)) (freport f (fp_dec (W a) (s a)) (fp_op (W a) e (fp_dec (W a) (s a)))) s').
      { intros s s' [H1 H2]. split; simpl; [|exact H2]. intros u [Hu Hx].
        rewrite Hx, fp_dec_enc in H1 by auto. rewrite Hx, fp_dec_enc by auto.
        exists (fp_op (W a) e u). split; [split; [apply fp_op_pattern | exact H1]|].
        rewrite (fp_op_eq a e u) by auto. constructor. }
      assert (HL : forall (g : Z -> Z -> Z) (k : Z -> iret),
                (forall old new, k (g old new) = freport f old new) ->
                LA (bind (fp_loop (W a) e g a) (fun r => Ret (k r)))
                   (fun s r s' => wsp s (a, (mo, FRmw f e)) r s') (fun s r => wsp s (a, (mo, FRmw f e)) r s)).
      { intros g k Hk. eapply LA_weaken; [apply LA_map; apply fp_loop_ok | |].
        - cbv zeta. intros m s r s' _ (r0 & [-> Hs] & ->). rewrite Hk. now apply Hstep.
        - intros m s r _ (r0 & [] & _). }
      assert (HX : forall (p : wprog Z) (P : Z -> Z -> Prop) (k : Z -> iret), e = FNeg -> f_iec (W a) = true ->
                LA p (fun s r s' => P (s a) r /\ supd s a (wrap (f_w (W a)) (Z.lxor (s a) (sign_mask (W a)))) s') none ->
                (forall u r, pattern (f_vw (W a)) u -> P (fp_enc (W a) u) r ->
                   k r = freport f u (Z.lxor u (2 ^ (f_vw (W a) - 1)))) ->
                LA (bind p (fun r => Ret (k r)))
                   (fun s r s' => wsp s (a, (mo, FRmw f e)) r s') (fun s r => wsp s (a, (mo, FRmw f e)) r s)).
      { intros p P k -> Hi Hp Hk. destruct (Hiec Hi) as [Hneg Hb]. eapply LA_weaken; [apply LA_map; exact Hp | |].
        - intros m s r s' _ (r0 & [HP [H1 H2]] & ->). split; simpl; [|exact H2]. intros u [Hu Hx].
          rewrite Hx in HP, H1. destruct (sign_flip a u Hb Hu) as [S1 S2]. rewrite S1 in H1.
          exists (Z.lxor u (2 ^ (f_vw (W a) - 1))). split; [split; auto|].
          rewrite (Hk u r0 Hu HP). rewrite <- (Hneg u Hu). apply (fs_rmw _ _ f FNeg).
        - intros m s r _ (r0 & [] & _). }
      assert (Hxu : forall (p : wprog unit), e = FNeg -> f_iec (W a) = true -> f = FOpaque ->
                LA p (fun s _ s' => supd s a (wrap (f_w (W a)) (Z.lxor (s a) (sign_mask (W a)))) s') none ->
                LA (bind p (fun _ => Ret RUnit))
                   (fun s r s' => wsp s (a, (mo, FRmw f e)) r s') (fun s r => wsp s (a, (mo, FRmw f e)) r s)).
      { intros p -> Hi -> Hp. destruct (Hiec Hi) as [Hneg Hb]. eapply LA_weaken; [apply (LA_map _ _ _ _ _ _ _ _ (fun _ => RUnit)); exact Hp | |].
        - intros m s r s' _ (r0 & [H1 H2] & ->). split; simpl; [|exact H2]. intros u [Hu Hx].
          rewrite Hx in H1. destruct (sign_flip a u Hb Hu) as [S1 S2]. rewrite S1 in H1.
          exists (Z.lxor u (2 ^ (f_vw (W a) - 1))). split; [split; auto|].
          rewrite <- (Hneg u Hu). apply (fs_rmw _ _ FOpaque FNeg).
        - intros m s r _ (r0 & [] & _). }
      assert (Hc : core_ok bits wsp (obj_core (f_obj (W a))) (o_sg (f_obj (W a))) (o_vw (f_obj (W a))) a)
        by (apply obj_core_ok; auto; apply (HW a)).
      assert (Hx := obj_extra_ok bits bits_pos wsp (f_obj (W a)) a Hob eq_refl).
      assert (Hcb := obj_core_bits (f_obj (W a)) Hob).
      assert (Hmask : inw (f_w (W a)) (sign_mask (W a))) by (apply inwrap0; exact Hw).
      destruct f; [| |]; destruct e as [v|v|]; unfold fp_rmw;
        try (apply (HL (fun old _ => old) RVal); reflexivity);
        try (apply (HL (fun _ new => new) RVal); reflexivity);
        try (apply (HL (fun old _ => old) (fun _ => RUnit)); reflexivity);
        destruct (f_iec (W a)) eqn:Ei;
        try (apply (HL (fun old _ => old) RVal); reflexivity);
        try (apply (HL (fun _ new => new) RVal); reflexivity);
        try (apply (HL (fun old _ => old) (fun _ => RUnit)); reflexivity).
      + apply (HX _ (fun x r => r = x) (fun r => RVal (fp_dec (W a) r))); auto.
        * eapply LA_wk; [apply (ok_fetch _ _ _ _ _ _ Hc); exact Hmask|].
          intros m s r s' _ [H1 H2]. rewrite Hcb in H2. split; auto.
        * intros u r Hu ->. simpl. now rewrite fp_dec_enc.
      + apply (HX _ (fun x r => r = wrap (f_w (W a)) (Z.lxor x (sign_mask (W a)))) (fun r => RVal (fp_dec (W a) r))); auto.
        * eapply LA_wk; [apply (xo_bin _ _ _ _ _ _ _ _ _ Hx); exact Hmask|].
          intros m s r s' _ [H1 H2]. rewrite bnew_bitwise in H2 by reflexivity. split; auto.
        * intros u r Hu ->. destruct (Hiec eq_refl) as [Hneg Hb]. destruct (sign_flip a u Hb Hu) as [S1 S2].
          rewrite S1. simpl. now rewrite fp_dec_enc.
      + apply Hxu; auto.
        eapply LA_wk; [apply (xo_opaque_bin _ _ _ _ _ _ _ _ _ Hx); exact Hmask|].
        intros m s r s' _ H2. cbn beta in H2. rewrite bnew_bitwise in H2 by reflexivity. exact H2.
  Qed.

  Theorem fp_linearizable_aux (n0 : addr -> Z) l :
    legal (fcall_ok W) l ->
    let res := fp_run W v0 n0 l in
    exists v th, linearizable_to (objects (fp_spec W)) v0 (snd res) v th /\
      (forall a, fp_rep a (val (c_mem (fst res) a)) (v a)) /\
      (forall t, match c_thr (fst res) t with Idle => th t = PIdle | Run _ _ => th t <> PIdle end).
  Proof.
    intros Hl. apply (front_sound bits fp_rep (fp_impl W) (fp_spec W) (fcall_ok W)).
    - apply fp_prog_ok.
    - intros a. simpl. split; [apply fp_enc_inw | split; auto]. apply (HW a).
    - exact Hl.
  Qed.
End Fp.

(** ** Plain values *)
Lemma land_ones_pattern n v : 0 <= n -> pattern n v -> Z.land v (Z.ones n) = v.
Proof. intros Hn Hv. rewrite Z.land_ones by lia. apply Z.mod_small. exact Hv. Qed.

Lemma land_pattern n v m : 0 <= n -> pattern n v -> pattern n (Z.land v m).
Proof.
  intros Hn Hv. unfold pattern in *.
  assert (0 <= Z.land v m) by (apply Z.land_nonneg; lia). split; [assumption|].
  assert (E : Z.land v m = Z.land v m mod 2 ^ n).
  { rewrite <- Z.land_ones by lia. rewrite <- Z.land_assoc, (Z.land_comm m), Z.land_assoc.
    now rewrite land_ones_pattern. }
  rewrite E. apply Z.mod_pos_bound. apply pow2_gt0. lia.
Qed.

Lemma vbits_idem mask v : vbits mask (vbits mask v) = vbits mask v.
Proof. unfold vbits. now rewrite <- Z.land_assoc, Z.land_diag. Qed.

Section Gen.
  Variable g : gobj.
  Hypothesis Hvw : 0 < g_vw g <= g_w g.

  Lemma cleared_vbits v : pattern (g_vw g) v -> cleared g v = vbits (g_live g) v.
  Proof.
    intros Hv. unfold cleared, vbits, g_live. destruct (g_clear g); auto.
    symmetry. apply land_ones_pattern; auto. lia.
  Qed.
  Lemma live_pattern v : pattern (g_vw g) v -> pattern (g_vw g) (vbits (g_live g) v).
  Proof. apply land_pattern. lia. Qed.
  Lemma gen_enc_inw v : inw (g_w g) (gen_enc g v).
  Proof. apply place_inw. exact Hvw. Qed.
  (** what a call does to the storage, in terms of the value placed there *)
  Lemma raw_gen x v o r x' : pattern (g_vw g) v -> x = place (g_be g) (g_w g) (g_vw g) v -> gop_ok (g_vw g) o ->
    raw (g_obj g) (gen_enc g) (gen_dec g) x (gen_iop o) r x' ->
    exists v', (pattern (g_vw g) v' /\ x' = place (g_be g) (g_w g) (g_vw g) v') /\
      (v = v' \/ v' = vbits (g_live g) v') /\ gen_step (g_live g) v o r v'.
  Proof.
    intros Hv -> Hok Hr.
    assert (Hd : forall u, pattern (g_vw g) u -> gen_dec g (place (g_be g) (g_w g) (g_vw g) u) = u)
      by (intros; apply unplace_place; auto).
    assert (He : forall u, pattern (g_vw g) u -> gen_enc g u = place (g_be g) (g_w g) (g_vw g) (vbits (g_live g) u))
      by (intros u Hu; unfold gen_enc; now rewrite cleared_vbits).
    assert (Hi : forall u, pattern (g_vw g) u ->
       place (g_be g) (g_w g) (g_vw g) v = place (g_be g) (g_w g) (g_vw g) (vbits (g_live g) u) -> vbits (g_live g) u = v).
    { intros u Hu E. symmetry. apply (place_inj (g_be g) (g_w g) (g_vw g)); auto. now apply live_pattern. }
    assert (Hw : forall u, pattern (g_vw g) u -> v = vbits (g_live g) u \/ vbits (g_live g) u = vbits (g_live g) (vbits (g_live g) u))
      by (intros; right; now rewrite vbits_idem).
    destruct o as [u| |u|e d|e d]; simpl in Hok, Hr.
    - inversion Hr; subst. exists (vbits (g_live g) u). rewrite He by auto.
      refine (conj (conj (live_pattern _ Hok) eq_refl) (conj (Hw u Hok) _)). constructor.
    - inversion Hr; subst. exists v. rewrite Hd by auto.
      refine (conj (conj Hv eq_refl) (conj (or_introl eq_refl) _)). constructor.
    - inversion Hr; subst. exists (vbits (g_live g) u). rewrite He, Hd by auto.
      refine (conj (conj (live_pattern _ Hok) eq_refl) (conj (Hw u Hok) _)). constructor.
    - destruct Hok as [Hoe Hod]. inversion Hr as [| | |? ? E|? ? E| | | | | | | | | | | |]; subst; rewrite ?He in * by auto.
      + assert (E' := Hi _ Hoe E). rewrite E', Hd by auto.
        exists (vbits (g_live g) d). refine (conj (conj (live_pattern _ Hod) eq_refl) (conj (Hw d Hod) _)). now constructor.
      + rewrite Hd by auto. exists v. refine (conj (conj Hv eq_refl) (conj (or_introl eq_refl) _)). constructor. congruence.
    - destruct Hok as [Hoe Hod]. inversion Hr as [| | | | |? ? E|? ? E|? ? E| | | | | | | | |]; subst; rewrite ?He in * by auto.
      + assert (E' := Hi _ Hoe E). rewrite E', Hd by auto.
        exists (vbits (g_live g) d). refine (conj (conj (live_pattern _ Hod) eq_refl) (conj (Hw d Hod) _)). now constructor.
      + rewrite Hd by auto. exists v. refine (conj (conj Hv eq_refl) (conj (or_introl eq_refl) _)). constructor.
      + assert (E' := Hi _ Hoe E). rewrite E', Hd by auto.
        exists v. refine (conj (conj Hv eq_refl) (conj (or_introl eq_refl) _)). constructor.
  Qed.
End Gen.

Section GenRun.
  Variable W : addr -> gobj.
  Hypothesis HW : forall a, obj_ok (g_obj (W a)) /\ 0 < g_vw (W a) <= g_w (W a).
  Let bits := fun a => g_w (W a).
  Let bits_pos : forall a, 0 < bits a.
  Proof. intros a. destruct (HW a). unfold bits. lia. Qed.
  Definition gen_rep (a : addr) (x v : Z) : Prop :=
    (pattern (g_vw (W a)) v /\ v = vbits (g_live (W a)) v) /\ x = place (g_be (W a)) (g_w (W a)) (g_vw (W a)) v.

  Lemma gen_prog_ok c : gcall_ok W c ->
    LA wexec (wspec gen_rep (gen_spec W)) (WInv bits) wrely wrely (gen_impl W c)
      (fun s r s' => wspec gen_rep (gen_spec W) s c r s') (fun s r => wspec gen_rep (gen_spec W) s c r s).
  Proof.
    destruct c as [a [mo o]]. unfold gcall_ok, gen_impl, gen_prog. simpl fst; simpl snd. intros Hok.
    destruct (HW a) as [Hob Hvw].
    apply (front_values bits gen_rep (gen_spec W)); auto.
    - intros v. apply gen_enc_inw. exact Hvw.
    - destruct o; exact I.
    - intros x v r x' [[Hv Hl] Hx] Hr. destruct (raw_gen _ Hvw _ _ _ _ _ Hv Hx Hok Hr) as (v' & [A B] & C & D).
      exists v'. split; [split; [split|]; auto|exact D]. destruct C as [<-|C]; auto.
  Qed.

  Theorem gen_linearizable_aux (v0 n0 : addr -> Z) l :
    (forall a, pattern (g_vw (W a)) (v0 a)) -> legal (gcall_ok W) l ->
    let res := gen_run W v0 n0 l in
    exists v th, linearizable_to (objects (gen_spec W)) (fun a => vbits (g_live (W a)) (v0 a)) (snd res) v th /\
      (forall a, gen_rep a (val (c_mem (fst res) a)) (v a)) /\
      (forall t, match c_thr (fst res) t with Idle => th t = PIdle | Run _ _ => th t <> PIdle end).
  Proof.
    intros Hv Hl. apply (front_sound bits gen_rep (gen_impl W) (gen_spec W) (gcall_ok W)).
    - apply gen_prog_ok.
    - intros a. destruct (HW a) as [_ Hvw]. simpl. split; [apply gen_enc_inw; exact Hvw|].
      split; [split|].
      + apply live_pattern; auto.
      + now rewrite vbits_idem.
      + unfold gen_enc. now rewrite cleared_vbits.
    - exact Hl.
  Qed.
End GenRun.

(** ** Flags *)
Section Flag.
  Variable W : addr -> flobj.
  Hypothesis HW : flag_world_ok W.
  Let bits := fun a => fl_w (W a).
  Let bits_pos : forall a, 0 < bits a.
  Proof. intros a. destruct (HW a). unfold bits. lia. Qed.
  Definition flag_rep (a : addr) (x : Z) (b : bool) : Prop := x = flag_word (W a) b.
  Notation wsp := (wspec flag_rep flag_spec).
  Notation LA := (LA wexec wsp (WInv bits) wrely wrely).

  Lemma shift_range a : 0 <= first_byte_shift (W a) /\ first_byte_shift (W a) + 8 <= fl_w (W a).
  Proof. destruct (HW a) as [_ H]. unfold first_byte_shift. destruct (fl_be (W a)); lia. Qed.
  Lemma shift_pow a : 0 < 2 ^ first_byte_shift (W a) < 2 ^ fl_w (W a).
  Proof. destruct (shift_range a). split; [apply pow2_gt0; lia | apply Z.pow_lt_mono_r; lia]. Qed.
  Lemma set_word_nonzero a : flag_set_word (W a) <> 0.
  Proof. unfold flag_set_word. destruct (fl_byte (W a)); [|lia]. assert (H := shift_pow a). lia. Qed.

  Lemma flag_prog_ok c :
    LA (flag_impl W c) (fun s r s' => wsp s c r s') (fun s r => wsp s c r s).
  Proof.
    destruct c as [a [mo o]]. unfold flag_impl, flag_prog. simpl fst; simpl snd.
    destruct (HW a) as [Hob H8]. assert (Hsh := shift_range a). assert (Hp := shift_pow a).
    assert (Hc : core_ok bits wsp (obj_core (fl_obj (W a))) (o_sg (fl_obj (W a))) (o_vw (fl_obj (W a))) a)
      by (apply obj_core_ok; auto).
    assert (H1w : inw (bits a) 1).
    { assert (2 ^ 1 <= 2 ^ fl_w (W a)) by (apply Z.pow_le_mono_r; lia). unfold inw, bits. change (2 ^ 1) with 2 in *. lia. }
    assert (H0w : inw (bits a) 0) by (unfold inw in *; lia).
    assert (Hfin : forall R (p : wprog R) (k : R -> iret) (F : wstate -> R -> wstate -> Prop),
              LA p F none ->
              (forall s r s', F s r s' -> forall b, s a = flag_word (W a) b ->
                 exists b', s' a = flag_word (W a) b' /\ flag_step b o (k r) b') ->
              (forall s r s', F s r s' -> forall q, q <> a -> s' q = s q) ->
              LA (bind p (fun r => Ret (k r))) (fun s r s' => wsp s (a, (mo, o)) r s') (fun s r => wsp s (a, (mo, o)) r s)).
    { intros R p k F Hp1 H1 H2. eapply LA_weaken; [apply LA_map; exact Hp1| |].
      - intros m s r s' _ (r0 & Hr & ->). split; simpl; [|apply (H2 _ _ _ Hr)]. intros b Hb. apply (H1 _ _ _ Hr b Hb).
      - intros m s r _ (r0 & [] & _). }
    assert (Hz : forall b, negb (flag_word (W a) b =? 0) = b).
    { intros b. unfold flag_word. destruct b; auto. rewrite (proj2 (Z.eqb_neq _ _) (set_word_nonzero a)). reflexivity. }
    destruct o.
    - apply Hfin with (F := fun s r s' => r = s a /\ seq s s').
      + apply (ok_load _ _ _ _ _ _ Hc).
      + intros s r s' [-> Hs] b Hb. exists b. rewrite (Hs a), Hb, Hz. split; auto. constructor.
      + intros s r s' [_ Hs] q _. apply Hs.
    - destruct (fl_byte (W a)) eqn:Ef.
      + set (sh := first_byte_shift (W a)) in *.
        apply Hfin with (F := fun s r s' => r = s a /\ supd s a (wrap (fl_w (W a)) (eff_apply (Bin Or (2 ^ sh)) (s a))) s').
        * apply LA_rmw; auto.
        * intros s r s' [-> [Hs _]] b Hb. exists true. rewrite Hs, Hb.
          cbn [eff_apply bin_apply]. unfold flag_word, flag_set_word. rewrite Ef. fold sh.
          destruct b.
          -- rewrite Z.lor_diag, Z.div_same by lia. split; [apply wrap_id; lia|]. apply (fl_tas true).
          -- rewrite Z.lor_0_l, Z.div_0_l by lia. split; [apply wrap_id; lia|]. apply (fl_tas false).
        * intros s r s' [_ [_ Hs]] q Hq. now apply Hs.
      + apply Hfin with (F := fun s r s' => r = s a /\ supd s a 1 s').
        * apply (ok_exchange _ _ _ _ _ _ Hc). exact H1w.
        * intros s r s' [-> [Hs _]] b Hb. exists true. rewrite Hs, Hb, Hz. unfold flag_word, flag_set_word. rewrite Ef.
          split; auto. constructor.
        * intros s r s' [_ [_ Hs]] q Hq. now apply Hs.
    - destruct (fl_byte (W a)) eqn:Ef.
      + set (sh := first_byte_shift (W a)) in *.
        apply Hfin with (k := fun _ => RUnit)
          (F := fun s r s' => r = s a /\ supd s a (wrap (fl_w (W a)) (eff_apply (Bin And (Z.lnot (255 * 2 ^ sh))) (s a))) s').
        * apply LA_rmw; auto.
        * intros s r s' [-> [Hs _]] b Hb. exists false. split; [|constructor]. rewrite Hs, Hb.
          cbn [eff_apply bin_apply]. unfold flag_word, flag_set_word. rewrite Ef. fold sh.
          destruct b; [|now rewrite Z.land_0_l, wrap_id by lia].
          replace (Z.land (2 ^ sh) (Z.lnot (255 * 2 ^ sh))) with 0; [now rewrite wrap_id by lia|].
          symmetry. apply Z.bits_inj'. intros i Hi.
          rewrite Z.land_spec, Z.lnot_spec, Z.bits_0 by lia.
          rewrite Z.pow2_bits_eqb by lia. destruct (sh =? i) eqn:E; [|reflexivity].
          apply Z.eqb_eq in E. subst i. rewrite <- Z.shiftl_mul_pow2, Z.shiftl_spec, Z.sub_diag by lia. reflexivity.
        * intros s r s' [_ [_ Hs]] q Hq. now apply Hs.
      + destruct (is_gcc_sync (o_core (fl_obj (W a)))); apply Hfin with (k := fun _ => RUnit) (F := fun s _ s' => supd s a 0 s').
        * apply LA_st. exact H0w.
        * intros s r s' [Hs _] b Hb. exists false. rewrite Hs. split; [reflexivity | constructor].
        * intros s r s' [_ Hs] q Hq. now apply Hs.
        * apply (ok_store _ _ _ _ _ _ Hc). exact H0w.
        * intros s r s' [Hs _] b Hb. exists false. rewrite Hs. split; [reflexivity | constructor].
        * intros s r s' [_ Hs] q Hq. now apply Hs.
  Qed.

  Theorem flag_linearizable_aux (n0 : addr -> Z) l :
    let res := flag_run W n0 l in
    exists v th, linearizable_to (objects flag_spec) (fun _ => false) (snd res) v th /\
      (forall a, flag_rep a (val (c_mem (fst res) a)) (v a)) /\
      (forall t, match c_thr (fst res) t with Idle => th t = PIdle | Run _ _ => th t <> PIdle end).
  Proof.
    apply (front_sound bits flag_rep (flag_impl W) flag_spec (fun _ => True)).
    - intros c _. apply flag_prog_ok.
    - intros a. simpl. split; [|reflexivity]. unfold inw. split; [lia|]. apply pow2_gt0. assert (H := bits_pos a). lia.
    - intros t o _. exact I.
  Qed.
End Flag.

(** ** References *)
Section Ref.
  Variable W : addr -> robj.
  Hypothesis HW : forall a, obj_ok (g_obj (r_obj (W a))) /\ g_vw (r_obj (W a)) = g_w (r_obj (W a)).
  Let bits := fun a => g_w (r_obj (W a)).
  Let Hvw a : 0 < g_vw (r_obj (W a)) <= g_w (r_obj (W a)).
  Proof. destruct (HW a) as [H1 ->]. destruct H1. unfold g_w. lia. Qed.
  Let bits_pos : forall a, 0 < bits a.
  Proof. intros a. destruct (Hvw a). unfold bits. lia. Qed.
  Definition ref_rep (a : addr) (x v : Z) : Prop := pattern (g_vw (r_obj (W a))) v /\ x = v.
  Notation wsp := (wspec ref_rep (ref_spec W)).

  Lemma place_full be w v : 0 < w -> pattern w v -> place be w w v = v.
  Proof.
    intros Hw Hv. rewrite place_eq by (auto; lia). destruct be; auto. rewrite Z.sub_diag. change (2 ^ 0) with 1. lia.
  Qed.

  Lemma ref_prog_ok c : rcall_ok W c ->
    LA wexec wsp (WInv bits) wrely wrely (ref_impl W c)
      (fun s r s' => wsp s c r s') (fun s r => wsp s c r s).
  Proof.
    destruct c as [a [mo o]]. unfold rcall_ok, ref_impl, ref_prog. simpl fst; simpl snd. intros Hok.
    destruct (HW a) as [Hob Hfull]. assert (Hp := Hvw a).
    set (g := r_obj (W a)) in *.
    assert (Hspec : forall v, g_live g = Z.ones (g_vw g) -> pattern (g_vw g) v -> ref_step (g_live g) v RBind RUnit v).
    { intros v E Hv. assert (H := rs_bind (g_live g) v). unfold vbits in H at 1. rewrite E in H at 2.
      rewrite land_ones_pattern in H by (auto; lia). exact H. }
    destruct o as [|o].
    - destruct (negb (g_clear g) || (g_mask g =? Z.ones (g_vw g))) eqn:Eg.
      + assert (El : g_live g = Z.ones (g_vw g)).
        { unfold g_live. destruct (g_clear g); auto. simpl in Eg. now apply Z.eqb_eq. }
        eapply LA_weaken.
        * apply (LA_map _ _ _ _ _ _ _ _ (fun _ => RUnit)).
          apply (LA_do bits wsp (ARacy a (g_w g)) (fun _ _ _ => False) (fun _ _ => True)).
          intros t m s u m' x Hi He. simpl in He. inversion He; subst. right. auto.
        * intros m s r s' _ (r0 & [] & _).
        * intros m s r _ (r0 & _ & ->). split; simpl; auto. intros v [Hv Hx]. exists v. split; [split; auto|].
          unfold ref_spec. simpl. apply Hspec; auto.
      + apply orb_false_iff in Eg. destruct Eg as [Ec Em]. apply negb_false_iff in Ec. apply Z.eqb_neq in Em.
        assert (Elive : g_live g = g_mask g) by (unfold g_live; now rewrite Ec).
        destruct Hok as [Hby|Hl]; [|congruence]. rewrite Hby.
        eapply LA_weaken.
        * apply (LA_map _ _ _ _ _ _ _ _ (fun _ => RUnit)). apply (LA_rmw bits bits_pos wsp a (g_w g) (Bin And (g_mask g)) eq_refl).
        * intros m s r s' _ (r0 & [_ [H1 H2]] & ->). split; simpl; [|exact H2]. intros v [Hv Hx].
          exists (vbits (g_live g) v). fold g in Hv. split.
          -- split; [now apply live_pattern|]. rewrite H1, Hx. cbn [eff_apply bin_apply]. unfold vbits. rewrite Elive.
             apply wrap_id. rewrite <- Hfull. apply land_pattern; auto. lia.
          -- unfold ref_spec. simpl. fold g. apply rs_bind.
        * intros m s r _ (r0 & [] & _).
    - apply (front_values bits ref_rep (ref_spec W)); auto.
      + intros v. apply gen_enc_inw. exact Hp.
      + destruct o; exact I.
      + intros x v r x' [Hv ->] Hr. fold g in Hv.
        assert (Hx : v = place (g_be g) (g_w g) (g_vw g) v) by (rewrite Hfull in *; now rewrite place_full by (auto; lia)).
        destruct (raw_gen g Hp _ _ _ _ _ Hv Hx Hok Hr) as (v' & [A B] & C & D).
        exists v'. split; [split; auto|].
        * rewrite B, Hfull. apply place_full; [lia|]. now rewrite <- Hfull.
        * unfold ref_spec. simpl. fold g. now constructor.
  Qed.

  Theorem ref_linearizable_aux (x0 n0 : addr -> Z) l :
    (forall a, pattern (g_vw (r_obj (W a))) (x0 a)) -> legal (rcall_ok W) l ->
    let res := ref_run W x0 n0 l in
    exists v th, linearizable_to (objects (ref_spec W)) x0 (snd res) v th /\
      (forall a, ref_rep a (val (c_mem (fst res) a)) (v a)) /\
      (forall t, match c_thr (fst res) t with Idle => th t = PIdle | Run _ _ => th t <> PIdle end).
  Proof.
    intros Hv Hl. apply (front_sound bits ref_rep (ref_impl W) (ref_spec W) (rcall_ok W)).
    - apply ref_prog_ok.
    - intros a. simpl. split; [|split; auto]. unfold inw, bits. rewrite <- (proj2 (HW a)). apply Hv.
    - exact Hl.
  Qed.
End Ref.

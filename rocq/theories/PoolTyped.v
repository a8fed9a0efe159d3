(** * The class templates over the lock pool: from storage words to values. *)
From Coq Require Import ZArith List Bool Arith Lia.
From Verif Require Import SpecInt SpecTyped SpecLin SpecObj SpecPool Order Conv WordFacts Prog IntModel IntProof TypedModel
  TypedProof PoolModel PoolFront PoolProof.
Import ListNotations.
Open Scope Z_scope.
Open Scope prog_scope.

Lemma step_int sg w v o r x' : 0 < w -> rng sg w v -> iop_ok sg w o ->
  istep false w (wrap w v) (enc_iop (wrap w) o) r x' ->
  exists v', istep sg w v o (dec_iret (integral_truncate sg w w) r) v' /\ rng sg w v' /\ x' = wrap w v'.
Proof.
  intros Hw Hv Hok H.
  assert (Hd : forall y, rng sg w y -> integral_truncate sg w w (wrap w y) = y) by (intros; apply enc_dec; auto; lia).
  assert (Hi : forall y z, rng sg w y -> rng sg w z -> wrap w y = wrap w z -> y = z).
  { intros. apply (enc_inj sg w w); auto; lia. }
  assert (Hrmw : forall f e y, y = wrap w (eff_apply e v) ->
     istep sg w v (Rmw f e) (dec_iret (integral_truncate sg w w) (report f (wrap w v) y)) (norm sg w (eff_apply e v)) /\
     rng sg w (norm sg w (eff_apply e v)) /\ y = wrap w (norm sg w (eff_apply e v))).
  { intros f e y ->. assert (Hn : rng sg w (norm sg w (eff_apply e v))) by (apply norm_rng; auto).
    split; [|split; [exact Hn | now rewrite norm_wrap]].
    replace (dec_iret _ _) with (report f v (norm sg w (eff_apply e v))); [constructor|].
    rewrite <- (norm_wrap sg w (eff_apply e v)) by auto.
    destruct f; simpl; rewrite ?Hd; auto. f_equal. f_equal.
    symmetry. apply (zero_enc sg w w); auto; lia. }
  destruct o as [u| |u|e d|e d|f [b u|u]|k i]; simpl in H, Hok.
  - inversion H; subst. exists u. split; [constructor|auto].
  - inversion H; subst. simpl. rewrite Hd by auto. exists v. split; [constructor|auto].
  - inversion H; subst. simpl. rewrite Hd by auto. exists u. split; [constructor|auto].
  - destruct Hok as [He Ho]. inversion H as [| | |? ? E|? ? ? N| | | |]; subst; simpl; rewrite Hd by auto.
    + assert (e = v) by (apply Hi; auto). subst e. exists d. split; [constructor|auto].
    + exists v. split; [constructor; congruence|auto].
  - destruct Hok as [He Ho]. inversion H as [| | | | |? ? E|? ? ?| |]; subst; simpl; rewrite Hd by auto.
    + assert (e = v) by (apply Hi; auto). subst e. exists d. split; [constructor|auto].
    + exists v. split; [constructor|auto].
  - inversion H; subst. eexists. apply (Hrmw f (Bin b u)). apply wrap_bin. lia.
  - inversion H; subst. eexists. apply (Hrmw f (Un u)). apply wrap_un. lia.
  - inversion H; subst. simpl. exists (norm sg w (bit_apply k v i)).
    split; [|split; [apply norm_rng; auto|]].
    + rewrite wrap_testbit by lia. destruct (Z.ltb_spec i w); [|lia]. simpl. constructor.
    + rewrite norm_wrap by auto. apply (wrap_bit w w); lia.
Qed.

(** a plain value, through [raw_gen] of TypedProof; only the layout matters *)
Definition as_gobj (t : tobj) (vw mask : Z) (clear : bool) : gobj :=
  mkgobj (mkobj false vw (t_w t) KX86 XGeneric) vw (t_be t) mask clear.

Lemma step_raw (ob : obj) (enc dec : Z -> Z) w x o r x' :
  match o with Rmw _ _ | BitTest _ _ => False | _ => True end ->
  istep false w x (enc_iop enc o) r x' ->
  raw ob enc dec x o (dec_iret dec r) x'.
Proof.
  intros Hc H. destruct o as [u| |u|e d|e d|f e|k i]; simpl in H; try contradiction.
  - inversion H; subst. constructor.
  - inversion H; subst. constructor.
  - inversion H; subst. constructor.
  - inversion H as [| | |? ? E|? ? ? N| | | |]; subst; simpl; [now apply raw_cas_ok | now apply raw_cas_fail].
  - assert (Hx := Z.eq_dec x (enc e)). inversion H as [| | | | |? ? E|? ? ?| |]; subst; simpl; [now apply raw_casw_ok |].
    destruct Hx as [Hx|Hx]; [rewrite Hx; now apply raw_casw_spur | now apply raw_casw_fail].
Qed.

Definition t_rep (t : tobj) (x v : Z) : Prop :=
  match t_kind t with
  | KInt sg => rng sg (t_w t) v /\ x = wrap (t_w t) v
  | KVal vw mask clear => (pattern vw v /\ v = t_holds t v) /\ x = place (t_be t) (t_w t) vw v
  | KFp vw _ => pattern vw v /\ x = place (t_be t) (t_w t) vw v
  | KPtr _ => is_addr (t_w t) v /\ x = v
  | KBool | KFlag _ => exists b, v = Z.b2z b /\ x = v
  end.

Lemma is_b2z v : v = 0 \/ v = 1 -> exists b, v = Z.b2z b.
Proof. intros [-> | ->]; [now exists false | now exists true]. Qed.
Lemma b2z_wrap w b : 0 < w -> wrap w (Z.b2z b) = Z.b2z b.
Proof. apply b2z_enc. Qed.

Section Object.
  Variable t : tobj.
  Hypothesis Ht : t_ok t.
  Hypothesis Hw : 0 < t_w t.

  Lemma t_enc_rng v : rng false (t_w t) (t_enc t v).
  Proof.
    unfold t_enc, t_ok in *. destruct (t_kind t) as [sg|vw mask clear|vw ar|sz| |first].
    - apply wrap_range. lia.
    - apply place_inw. lia.
    - apply place_inw. lia.
    - apply wrap_range. lia.
    - apply wrap_range. lia.
    - apply wrap_range. lia.
  Qed.

  (** reading back, and comparing words, is reading and comparing values *)
  Lemma t_dec_rep x v : t_rep t x v -> t_dec t x = v.
  Proof.
    unfold t_rep, t_dec, t_ok in *. destruct (t_kind t) as [sg|vw mask clear|vw ar|sz| |first].
    - intros [A ->]. apply enc_dec; auto. lia.
    - intros [[A _] ->]. apply unplace_place; auto. lia.
    - intros [A ->]. apply unplace_place; auto. lia.
    - intros [A ->]. rewrite <- (wrap_id (t_w t) v) at 1 by exact A. apply enc_dec; auto. lia.
    - intros (b & -> & ->). apply b2z_dec.
    - intros (b & -> & ->). apply b2z_dec.
  Qed.
  Lemma t_enc_same x v old : t_rep t x v -> tvalue (t_type t) old -> (t_enc t old = x <-> same (t_type t) old v).
  Proof.
    unfold t_rep, t_enc, t_type, tvalue, same, t_ok in *. destruct (t_kind t) as [sg|vw mask clear|vw ar|sz| |first] eqn:K.
    - intros [A ->] B. split; [|now intros ->]. intros E. apply (enc_inj sg (t_w t) (t_w t)); auto; lia.
    - intros [[A HA] ->] B.
      assert (E : (if clear then Z.land old mask else old) = vbits (if clear then mask else Z.ones vw) old).
      { destruct clear; [reflexivity|]. symmetry. apply land_ones_pattern; auto. lia. }
      rewrite E. split; [|now intros ->]. intros F. apply (place_inj (t_be t) (t_w t) vw) in F; auto; [lia|].
      apply land_pattern; auto. lia.
    - intros [A ->] B. split; [|now intros ->]. intros F. apply (place_inj (t_be t) (t_w t) vw) in F; auto. lia.
    - intros [A ->] B. rewrite wrap_id by exact B. reflexivity.
    - intros (b & -> & ->) B. destruct (is_b2z _ B) as [c ->]. rewrite b2z_enc by exact Hw. reflexivity.
    - intros (b & -> & ->) B. destruct (is_b2z _ B) as [c ->]. rewrite b2z_wrap by exact Hw. reflexivity.
  Qed.
  Lemma t_rep_init v : tvalue (t_type t) v -> t_rep t (t_enc t v) (t_holds t v).
  Proof.
    unfold t_rep, t_enc, t_holds, t_type, tvalue, t_ok in *. destruct (t_kind t) as [sg|vw mask clear|vw ar|sz| |first] eqn:K; auto.
    - intros B.
      assert (E : (if clear then Z.land v mask else v) = vbits (if clear then mask else Z.ones vw) v).
      { destruct clear; [reflexivity|]. symmetry. apply land_ones_pattern; auto. lia. }
      rewrite E. split; [|reflexivity]. split; [apply land_pattern; auto; lia | now rewrite vbits_idem].
    - intros B. split; [exact B | now apply wrap_id].
    - intros B. destruct (is_b2z _ B) as [c ->]. exists c. rewrite b2z_enc by exact Hw. auto.
    - intros B. destruct (is_b2z _ B) as [c ->]. exists c. rewrite b2z_wrap by exact Hw. auto.
  Qed.
  Lemma t_rep_shows x v : t_rep t x v -> x = t_enc t v /\ tvalue (t_type t) v.
  Proof.
    unfold t_rep, t_enc, t_type, tvalue, t_holds, t_type, t_ok in *. destruct (t_kind t) as [sg|vw mask clear|vw ar|sz| |first] eqn:K.
    - intros [A ->]. auto.
    - intros [[A HA] ->]. split; [|exact A]. f_equal. destruct clear; [exact HA|reflexivity].
    - intros [A ->]. auto.
    - intros [A ->]. split; [symmetry; now apply wrap_id | exact A].
    - intros (b & -> & ->). rewrite b2z_enc by exact Hw. split; [reflexivity | destruct b; auto].
    - intros (b & -> & ->). rewrite b2z_wrap by exact Hw. split; [reflexivity | destruct b; auto].
  Qed.

  Lemma t_op_ok c : tcall_ok (t_type t) c -> aop_ok (t_w t) (t_op t c).
  Proof.
    intros Hc. assert (He := t_enc_rng).
    destruct c as [o|o|o|o|o|o|old|k old d|all| |]; try exact I; try apply He.
    - unfold tcall_ok, t_type in Hc. destruct (t_kind t) as [sg|vw mask clear|vw ar|sz| |first]; try contradiction.
      destruct o as [u| |u|e d|e d|f [b u|u]|k i]; try exact I; try apply He; try (split; apply He). exact Hc.
    - destruct o as [u| |u|e d|e d]; simpl; auto; first [apply He | split; apply He].
    - destruct o as [u| |u|e d|e d|f e]; try (simpl; auto; first [apply He | split; apply He]). simpl. destruct (t_kind t); simpl; auto. intros x _. apply He.
    - simpl. destruct (t_kind t) as [sg|vw mask clear|vw ar|sz| |first]; try exact I.
      destruct o as [u| |u|e d|e d|f k|f k]; simpl; auto; first [apply He | split; apply He].
    - destruct o as [u| |u|e d|e d]; simpl; auto; first [apply He | split; apply He].
    - unfold t_ok in Ht. simpl. destruct (t_kind t) as [sg|vw mask clear|vw ar|sz| |first]; try exact I.
      assert (Hp : 2 ^ 1 <= 2 ^ t_w t) by (apply Z.pow_le_mono_r; lia).
      destruct Ht as [-> | [-> H8]]; destruct o; simpl; auto; try (unfold rng; lia).
      + intros x Hx. assert (E := wrap_lor (t_w t) x 1 ltac:(lia)). rewrite (wrap_id _ x Hx), (wrap_id _ 1) in E by lia.
        rewrite <- E. apply wrap_range. lia.
      + intros x Hx. apply land_pattern; [lia | exact Hx].
  Qed.

  Lemma t_sim x v c r x' : tcall_ok (t_type t) c -> t_rep t x v -> astep (t_w t) x (t_op t c) r x' ->
    exists v', tstep (t_type t) v c (t_ret t c r) v' /\ t_rep t x' v'.
  Proof.
    intros Hc HR H. assert (Ht' := Ht).
    destruct c as [o|o|o|o|o|o|old|k old d|all| |]; simpl in H.
    - inversion H as [? ? r0 ? H1| | | | | | |]; subst. simpl.
      unfold t_type, t_rep, t_enc, t_dec in *. destruct (t_kind t) as [sg|vw mask clear|vw ar|sz| |first] eqn:K; simpl in Hc; try contradiction.
      destruct HR as [A ->].
      destruct (step_int sg (t_w t) v o r0 x' Hw A Hc H1) as (v' & S1 & S2 & S3).
      exists v'. split; [|auto]. constructor. exact S1.
    - inversion H as [? ? r0 ? H1| | | | | | |]; subst. simpl.
      unfold t_type, t_rep, t_holds, t_type, t_ok in *. destruct (t_kind t) as [sg|vw mask clear|vw ar|sz| |first] eqn:K; simpl in Hc; try contradiction.
      destruct HR as [[A HA] ->].
      set (g := as_gobj t vw mask clear).
      assert (Hg : 0 < g_vw g <= g_w g) by exact (proj1 Ht').
      assert (Hlive : g_live g = if clear then mask else Z.ones vw) by reflexivity.
      assert (Henc : forall u, t_enc t u = gen_enc g u).
      { intros u. unfold t_enc, gen_enc, g, cleared. rewrite K. reflexivity. }
      assert (Hdec : forall u, t_dec t u = gen_dec g u).
      { intros u. unfold t_dec, gen_dec, g. rewrite K. reflexivity. }
      assert (H2 : istep false (t_w t) (place (t_be t) (t_w t) vw v) (enc_iop (gen_enc g) (gen_iop o)) r0 x').
      { destruct o; simpl in H1 |- *; rewrite <- ?Henc; exact H1. }
      assert (Hdr : dec_iret (t_dec t) r0 = dec_iret (gen_dec g) r0) by (destruct r0; simpl; rewrite ?Hdec; auto).
      destruct (raw_gen g Hg (place (t_be t) (t_w t) vw v) v o (dec_iret (gen_dec g) r0) x' A eq_refl Hc) as (v' & [B1 B2] & B3 & B4).
      { apply (step_raw _ _ _ (t_w t)); [destruct o; exact I | exact H2]. }
      exists v'. rewrite Hdr. split; [constructor; rewrite <- Hlive; exact B4|].
      split; [split; [exact B1|]|exact B2]. rewrite <- Hlive in *. destruct B3 as [<-|B3]; auto.
    - unfold t_type, t_rep, t_ok in *. destruct (t_kind t) as [sg|vw mask clear|vw ar|sz| |first] eqn:K; simpl in Hc; try contradiction.
      destruct HR as [A ->]. destruct Ht' as [Hvw Har].
      assert (Henc : forall u, t_enc t u = place (t_be t) (t_w t) vw u) by (intros u; unfold t_enc; now rewrite K).
      assert (Hdec : forall u, pattern vw u -> t_dec t (place (t_be t) (t_w t) vw u) = u).
      { intros u Hu. unfold t_dec. rewrite K. apply unplace_place; auto. }
      assert (Hi : forall u u', pattern vw u -> pattern vw u' -> place (t_be t) (t_w t) vw u = place (t_be t) (t_w t) vw u' -> u = u').
      { intros u u'. apply place_inj. auto. }
      destruct o as [u| |u|e d|e d|f e]; simpl in Hc.
      + inversion H as [? ? r0 ? H1| | | | | | |]; subst. inversion H1; subst. exists u. rewrite Henc. split; [constructor; constructor|auto].
      + inversion H as [? ? r0 ? H1| | | | | | |]; subst. inversion H1; subst. exists v. simpl. rewrite Hdec by auto. split; [constructor; constructor|auto].
      + inversion H as [? ? r0 ? H1| | | | | | |]; subst. inversion H1; subst. exists u. simpl. rewrite Hdec, Henc by auto. split; [constructor; constructor|auto].
      + destruct Hc as [C1 C2]. inversion H as [? ? r0 ? H1| | | | | | |]; subst. rewrite !Henc in H1.
        inversion H1 as [| | |? ? E|? ? ? N| | | |]; subst; simpl; rewrite Hdec by auto.
        * assert (e = v) by (apply Hi; auto). subst e. exists d. split; [constructor; constructor|auto].
        * exists v. split; [constructor; constructor; congruence|auto].
      + destruct Hc as [C1 C2]. inversion H as [? ? r0 ? H1| | | | | | |]; subst. rewrite !Henc in H1.
        inversion H1 as [| | | | |? ? E|? ? ?| |]; subst; simpl; rewrite Hdec by auto.
        * assert (e = v) by (apply Hi; auto). subst e. exists d. split; [constructor; constructor|auto].
        * exists v. split; [constructor; constructor|auto].
      + inversion H; subst. unfold fp_upd. rewrite Hdec by auto.
        assert (P : pattern vw (feff_apply ar e v)).
        { destruct e as [u|u|]; simpl in *; [apply (Har v u) | apply (Har v u) | apply (Har v v)]; auto. }
        rewrite (wrap_id vw) by exact P. rewrite Henc. exists (feff_apply ar e v). split; [|auto].
        replace (t_ret t _ _) with (TRet (freport f v (feff_apply ar e v))); [constructor; constructor|].
        destruct f; simpl; rewrite ?Hdec; auto.
    - unfold t_type, t_rep, t_enc, t_dec, t_ret in *. destruct (t_kind t) as [sg|vw mask clear|vw ar|sz| |first] eqn:K; simpl in Hc; try contradiction.
      destruct HR as [A ->]. inversion H as [? ? r0 ? H1| | | | | | |]; subst.
      assert (Hio : iop_ok false (t_w t) (ptr_iop (t_w t) sz o)).
      { destruct o; simpl in *; auto; unfold ptr_dist; apply wrap_range; lia. }
      rewrite <- (wrap_id (t_w t) v) in H1 by exact A.
      destruct (step_int false (t_w t) v _ r0 x' Hw A Hio H1) as (v' & S1 & S2 & S3).
      rewrite wrap_id in S3 by exact S2. exists v'. split; [|auto].
      replace (dec_iret (t_dec t) r0) with (dec_iret (integral_truncate false (t_w t) (t_w t)) r0)
        by (unfold t_dec; rewrite K; now destruct r0).
      constructor. apply ptr_step_int. exact S1.
    - unfold t_type, t_rep, t_enc, t_dec, t_ret in *. destruct (t_kind t) as [sg|vw mask clear|vw ar|sz| |first] eqn:K; simpl in Hc; try contradiction.
      destruct HR as (b & -> & ->). inversion H as [? ? r0 ? H1| | | | | | |]; subst.
      destruct o as [u| |u|e d|e d]; simpl in H1; inversion H1; subst;
        repeat rewrite b2z_enc in * by assumption; simpl; unfold t_dec; rewrite ?K, ?b2z_dec;
        try match goal with E : Z.b2z _ = Z.b2z _ |- _ => apply b2z_inj in E; subst end;
        eexists; (split; [constructor; constructor; congruence | eexists; split; reflexivity]).
    - unfold t_type, t_rep, t_enc, t_dec, t_ret, t_ok in *. destruct (t_kind t) as [sg|vw mask clear|vw ar|sz| |first] eqn:K; simpl in Hc; try contradiction.
      destruct HR as (b & -> & ->).
      destruct Ht' as [-> | [-> H8]]; destruct o; simpl in H; inversion H as [? ? r0 ? H1|? ? ? | | | | | |]; subst; try (inversion H1; subst);
        simpl.
      + exists (Z.b2z b). split; [|now exists b]. replace (negb (Z.b2z b =? 0)) with b by (now destruct b). repeat constructor.
      + exists (Z.b2z true). split; [|now exists true]. replace (negb (Z.b2z b =? 0)) with b by (now destruct b). apply (ts_flag b). constructor.
      + exists (Z.b2z false). split; [|now exists false]. apply (ts_flag b). constructor.
      + exists (Z.b2z b). split; [|now exists b]. replace (negb (Z.b2z b =? 0)) with b by (now destruct b). repeat constructor.
      + exists (Z.b2z true). split; [|exists true; now destruct b]. replace (negb _) with b by (now destruct b). apply (ts_flag b). constructor.
      + exists (Z.b2z false). split; [|exists false; now destruct b]. apply (ts_flag b). constructor.
    - inversion H as [| |? ? N| | | | |]; subst. exists v. simpl. split; [|exact HR]. rewrite (t_dec_rep _ _ HR).
      apply ts_wait. intros S. apply N. symmetry. apply (t_enc_same _ _ old HR Hc). exact S.
    - inversion H as [| | |? ? ? ? N| | | |]; subst; exists v; simpl; (split; [|exact HR]); rewrite (t_dec_rep _ _ HR).
      + apply ts_timed. intros S. apply N. symmetry. apply (t_enc_same _ _ old HR Hc). exact S.
      + apply ts_timeout. apply (t_enc_same _ _ old HR Hc). reflexivity.
    - inversion H; subst. exists v. split; [|exact HR]. constructor.
    - inversion H; subst. exists v. split; [|exact HR]. constructor.
    - inversion H; subst. exists v. split; [|exact HR]. constructor.
  Qed.
End Object.

Theorem typed_sound pl (T : nat -> tobj) :
  platform_ok pl -> layout_ok (fun a => t_desc (T a)) -> (forall a, t_ok (T a)) ->
  forall m (v0 : nat -> Z) l,
  pool_start (fun a => t_desc (T a)) (fun a => t_enc (T a) (v0 a)) m -> (forall a, tvalue (t_type (T a)) (v0 a)) ->
  legal (fun c => tcall_ok (t_type (T (fst c))) (snd c)) l ->
  let res := t_run pl T m l in
  exists v th, linearizable_to (objects (fun a => tstep (t_type (T a)))) (fun a => t_holds (T a) (v0 a)) (snd res) v th /\
    (forall t, match c_thr (fst res) t with Idle => th t = PIdle | Run _ _ => th t <> PIdle end) /\
    (forall a, d_locked (t_desc (T a)) = false \/ own (c_mem (fst res)) (lock_of pl (t_desc (T a))) = None ->
       shows (fun a => t_desc (T a)) (c_mem (fst res)) a (t_enc (T a) (v a))).
Proof.
  intros Hpl HD HT m v0 l Hm Hv Hl res.
  assert (Hw : forall a, 0 < t_w (T a)) by (intros a; apply (bits_pos (fun a => t_desc (T a)) HD)).
  destruct (pool_sound pl (fun a => t_desc (T a)) HD Hpl (fun a => t_op (T a)) (fun a => t_ret (T a))
              (fun a => t_rep (T a)) (fun a => tstep (t_type (T a))) (fun c => tcall_ok (t_type (T (fst c))) (snd c)))
    with (m := m) (x0 := fun a => t_enc (T a) (v0 a)) (v0 := fun a => t_holds (T a) (v0 a)) (l := l)
    as (v & th & A & B & C).
  - intros [a c] Hc. apply t_op_ok; auto.
  - intros a c x v r x' Hc HR _ HS. apply (t_sim (T a) (HT a) (Hw a) x); auto.
  - exact Hm.
  - intros a. split; [apply t_enc_rng; auto | apply t_rep_init; auto].
  - exact Hl.
  - exists v, th. split; [exact A|]. split; [exact B|]. intros a Ha. destruct (C a Ha) as (x & C1 & C2 & C3).
    destruct (t_rep_shows (T a) (HT a) (Hw a) x (v a) C3) as [-> _]. exact C1.
Qed.

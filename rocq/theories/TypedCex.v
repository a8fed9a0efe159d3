(** * Schedules for the examples of PropTyped.v, and the runs behind its refutations. *)
From Coq Require Import ZArith List Bool Lia Permutation.
From Verif Require Import SpecInt SpecLin SpecObj SpecHist SpecTyped SpecFlag Order Conv Prog Word
  IntModel HistProof IntConseq TypedModel TypedConseq WideCex IntExamples.
Import ListNotations.
Open Scope Z_scope.

Section Sched.
  Context {op : Type}.
  (** two overlapping calls; the first loses its first attempts *)
  Definition clash (o1 o2 : op) : list (sched luck op) :=
    [SInv 1 o1; SInv 2 o2] ++
    repeat (SStep 1 unlucky) 3 ++ repeat (SStep 2 ok_luck) 12 ++ repeat (SStep 1 ok_luck) 16 ++ [SRes 2; SRes 1].
  (** thread 0 makes the calls one after the other *)
  Fixpoint in_turn (l : list op) : list (sched luck op) :=
    match l with
    | [] => []
    | o :: l => SInv 0 o :: repeat (SStep 0 ok_luck) 8 ++ SRes 0 :: in_turn l
    end.

  Lemma clash_legal (ok : op -> Prop) o1 o2 : ok o1 -> ok o2 -> legal ok (clash o1 o2).
  Proof.
    intros H1 H2 t o Hin. unfold clash in Hin. simpl in Hin.
    repeat (destruct Hin as [Hin|Hin]; [inversion Hin; subst; assumption|]). destruct Hin.
  Qed.
  Lemma legal_app (ok : op -> Prop) (l1 l2 : list (sched luck op)) : legal ok l1 -> legal ok l2 -> legal ok (l1 ++ l2).
  Proof. intros H1 H2 t o Hin. apply in_app_or in Hin. destruct Hin; eauto. Qed.
  Lemma in_turn_legal (ok : op -> Prop) l : Forall ok l -> legal ok (in_turn l).
  Proof.
    induction 1 as [|x l H H' IH]; intros t o Hin; [destruct Hin|].
    destruct Hin as [E|Hin]; [inversion E; subst; exact H|]. apply in_app_or in Hin. destruct Hin as [Hin|[E|Hin]].
    - apply repeat_spec in Hin. discriminate.
    - discriminate.
    - eapply IH; eauto.
  Qed.
End Sched.

(** an 8-bit enumeration in a 32-bit word *)
Definition wide_enum (sg be : bool) : addr -> eobj := fun _ => mkeobj sg 8 32 be (KGccAtomic false) XGeneric.
Definition at0 {O} (o : O) : addr * (morder * O) := (0%nat, (SeqCst, o)).
Arguments at0 {O} o.

Definition be_run := in_turn [at0 (Store 1); at0 Load].
Definition compl_run := in_turn [at0 (Rmw Fetch (Un Not)); at0 Load; at0 (CasStrong 254 0)].
Definition sign_run := in_turn [at0 (BitTest BSet 7); at0 Load; at0 (CasStrong (-128) 0)].

Definition offered (sg : bool) (c : icall) : Prop := iop_ok sg 8 (snd (snd c)) /\ enum_call (snd (snd c)) = true.
Lemma be_legal : legal (offered false) be_run.
Proof. apply in_turn_legal. repeat constructor; simpl; unfold rng; lia. Qed.
Lemma compl_legal : legal (offered false) compl_run.
Proof. apply in_turn_legal. repeat constructor; simpl; unfold rng; lia. Qed.
Lemma sign_legal : legal (offered true) sign_run.
Proof. apply in_turn_legal. repeat constructor; simpl; unfold rng; lia. Qed.

Lemma be_history : snd (enum_run (wide_enum false true) (fun _ => 0) (fun _ => 0) be_run) =
  one_by_one 0 [(at0 (Store 1), RUnit); (at0 Load, RVal 0)].
Proof. vm_compute. reflexivity. Qed.
Lemma compl_history : snd (enum_run (wide_enum false false) (fun _ => 1) (fun _ => 0) compl_run) =
  one_by_one 0 [(at0 (Rmw Fetch (Un Not)), RVal 1); (at0 Load, RVal 254); (at0 (CasStrong 254 0), RCas false 254)].
Proof. vm_compute. reflexivity. Qed.
Lemma sign_history : snd (enum_run (wide_enum true false) (fun _ => 0) (fun _ => 0) sign_run) =
  one_by_one 0 [(at0 (BitTest BSet 7), RBool false); (at0 Load, RVal (-128)); (at0 (CasStrong (-128) 0), RCas false (-128))].
Proof. vm_compute. reflexivity. Qed.

Ltac one_at_a_time H :=
  apply lin_one_by_one in H; simpl map in H;
  let s := fresh "s" in destruct H as [s H];
  repeat match goal with
  | H : steps _ _ (_ :: _) _ |- _ =>
      let Hs := fresh "Hs" in let s := fresh "s" in inversion H as [|? ? ? ? s ? ? Hs ?]; subst; clear H;
      destruct Hs as [Hs _]
  end.

Lemma be_bad : ~ linearizable (objects (enum_spec (wide_enum false true))) (fun _ => 0)
  (snd (enum_run (wide_enum false true) (fun _ => 0) (fun _ => 0) be_run)).
Proof.
  rewrite be_history. intros H. one_at_a_time H. unfold enum_spec in *. simpl in *.
  inversion Hs; subst. inversion Hs0; subst. congruence.
Qed.
Lemma compl_bad : ~ linearizable (objects (enum_spec (wide_enum false false))) (fun _ => 1)
  (snd (enum_run (wide_enum false false) (fun _ => 1) (fun _ => 0) compl_run)).
Proof.
  rewrite compl_history. intros H. one_at_a_time H. unfold enum_spec in *. simpl in *.
  inversion Hs0; subst. inversion Hs1; subst. congruence.
Qed.
Lemma sign_bad : ~ linearizable (objects (enum_spec (wide_enum true false))) (fun _ => 0)
  (snd (enum_run (wide_enum true false) (fun _ => 0) (fun _ => 0) sign_run)).
Proof.
  rewrite sign_history. intros H. one_at_a_time H. unfold enum_spec in *. simpl in *.
  inversion Hs0; subst. inversion Hs1; subst. congruence.
Qed.

Definition enum_wide_statement (sg be : bool) (v0 : Z) (l : list (sched luck icall)) : Prop :=
  enum_world_ok (wide_enum sg be) (fun _ => v0) /\ legal (offered sg) l /\
  ~ linearizable (objects (enum_spec (wide_enum sg be))) (fun _ => v0)
      (snd (enum_run (wide_enum sg be) (fun _ => v0) (fun _ => 0) l)).

Lemma wide_enum_ok sg be v : rng sg 8 v -> enum_world_ok (wide_enum sg be) (fun _ => v).
Proof. intros H a. split; [|exact H]. unfold obj_ok. simpl. repeat split; auto; lia. Qed.

(** ** Floating point: sign flip on a big-endian machine with wider storage *)
(** Some operations on 32-bit patterns: negation flips the sign; addition is a stand-in. *)
Definition toy_arith : arith :=
  mkarith (fun x v => (x + 2 * v) mod 2 ^ 32) (fun x v => (3 * x - v) mod 2 ^ 32) (fun x => Z.lxor x (2 ^ 31)).
Definition be_float : addr -> fobj := fun _ =>
  mkfobj (mkobj false 64 64 (KGccAtomic false) XGeneric) 32 true toy_arith true.
Definition neg_run := in_turn [at0 (FRmw FOpaque FNeg); at0 FLoad].

Lemma lxor_pattern n x y : 0 <= n -> pattern n x -> pattern n y -> pattern n (Z.lxor x y).
Proof.
  intros Hn Hx Hy. unfold pattern in *.
  assert (0 <= Z.lxor x y) by (apply Z.lxor_nonneg; lia). split; auto.
  destruct (Z.eq_dec (Z.lxor x y) 0) as [E|E]; [rewrite E; apply Z.pow_pos_nonneg; lia|].
  apply Z.log2_lt_pow2; [lia|]. eapply Z.le_lt_trans; [apply Z.log2_lxor; lia|].
  destruct (Z.eq_dec n 0) as [->|Hn0]; [change (2 ^ 0) with 1 in *; exfalso; apply E; replace x with 0 by lia; replace y with 0 by lia; reflexivity|].
  apply Z.max_lub_lt.
  - destruct (Z.eq_dec x 0) as [->|]; [simpl; lia|]. apply Z.log2_lt_pow2; lia.
  - destruct (Z.eq_dec y 0) as [->|]; [simpl; lia|]. apply Z.log2_lt_pow2; lia.
Qed.
Lemma toy_ok : arith_ok 32 toy_arith.
Proof.
  intros x v Hx Hv. unfold toy_arith. simpl ar_add; simpl ar_sub; simpl ar_neg.
  refine (conj _ (conj _ _)); [apply Z.mod_pos_bound; reflexivity | apply Z.mod_pos_bound; reflexivity |].
  apply lxor_pattern; auto; [lia|]. split; vm_compute; congruence.
Qed.
Lemma toy_sign : sign_neg 32 toy_arith.
Proof. intros x _. reflexivity. Qed.

Lemma neg_history : snd (fp_run be_float (fun _ => 5) (fun _ => 0) neg_run) =
  one_by_one 0 [(at0 (FRmw FOpaque FNeg), RUnit); (at0 FLoad, RVal 5)].
Proof. vm_compute. reflexivity. Qed.
Lemma neg_bad : ~ linearizable (objects (fp_spec be_float)) (fun _ => 5) (snd (fp_run be_float (fun _ => 5) (fun _ => 0) neg_run)).
Proof.
  rewrite neg_history. intros H. one_at_a_time H. unfold fp_spec in *. simpl in *.
  match type of Hs with fp_step _ _ _ _ ?y =>
    assert (A : y = Z.lxor 5 (2 ^ 31)) by (inversion Hs; reflexivity);
    assert (B : y = 5) by (inversion Hs0; congruence) end.
  rewrite A in B. vm_compute in B. discriminate.
Qed.
Lemma neg_legal : legal (fcall_ok be_float) neg_run.
Proof. apply in_turn_legal. repeat constructor. Qed.

(** ** References: binding one while another is in use *)
Definition bitfield (bytes : bool) : addr -> robj := fun _ =>
  mkrobj (mkgobj (mkobj false 8 8 KX86 XX86) 8 false 7 true) bytes.
(** thread 0 binds a reference (read, mask, write back) while thread 1 stores 2 through another *)
Definition bind_run : list (sched luck rcall) :=
  [SInv 0 (at0 RBind); SStep 0 ok_luck; SInv 1 (at0 (ROp (GStore 2))); SStep 1 ok_luck; SStep 1 ok_luck; SRes 1;
   SStep 0 ok_luck; SRes 0].
Lemma bind_history : let res := ref_run (bitfield false) (fun _ => 1) (fun _ => 0) bind_run in
  snd res = [EInv 0 (at0 RBind); EInv 1 (at0 (ROp (GStore 2))); ERes 1 RUnit; ERes 0 RUnit] /\
  val (c_mem (fst res) 0%nat) = 1.
Proof. vm_compute. auto. Qed.
Lemma bind_quiet : quiet (fst (ref_run (bitfield false) (fun _ => 1) (fun _ => 0) bind_run)).
Proof.
  intros t. destruct t as [|[|t]]; reflexivity.
Qed.
Lemma bind_effect W a x mo r y : ref_spec W a x (mo, RBind) r y -> y = vbits (g_live (r_obj (W a))) x.
Proof. unfold ref_spec. simpl. intros H. inversion H. reflexivity. Qed.
Lemma store_effect W a x mo v r y : ref_spec W a x (mo, ROp (GStore v)) r y -> y = vbits (g_live (r_obj (W a))) v.
Proof. unfold ref_spec. simpl. intros H. inversion H as [|? ? ? ? H0]. inversion H0. reflexivity. Qed.
Lemma bind_bad : let res := ref_run (bitfield false) (fun _ => 1) (fun _ => 0) bind_run in
  ~ exists v th, linearizable_to (objects (ref_spec (bitfield false))) (fun _ => 1) (snd res) v th /\
      (forall a, val (c_mem (fst res) a) = v a) /\ (forall t, th t = PIdle).
Proof.
  intros res (v & th & HL & Hv & Hq). destruct bind_history as [Hh Hm]. fold res in Hh, Hm. rewrite Hh in HL.
  destruct (objects_seq _ _ _ _ _ 0%nat HL) as (c & E & Hc & HE & HP & _).
  assert (E0 : E = []).
  { destruct E as [|((t & o) & r) E]; auto. exfalso. apply (HE t o r); [now left | apply Hq]. }
  rewrite E0, app_nil_r in HP. rewrite <- (Hv 0%nat), Hm in Hc.
  change (calls_on 0 (completed [EInv 0%nat (at0 RBind); EInv 1%nat (at0 (ROp (GStore 2))); ERes 1%nat RUnit; ERes 0%nat RUnit]))
    with [(1%nat, (SeqCst, ROp (GStore 2)), RUnit); (0%nat, (SeqCst, RBind), RUnit)] in HP.
  symmetry in HP. apply Permutation_length_2_inv in HP.
  destruct HP as [-> | ->].
  - inversion Hc as [|? ? ? ? s1 ? ? Hs1 H1]; subst. inversion H1 as [|? ? ? ? s2 ? ? Hs2 H2]; subst.
    assert (Es : s2 = 1) by (inversion H2; reflexivity). apply store_effect in Hs1. apply bind_effect in Hs2. rewrite Hs1, Es in Hs2.
    vm_compute in Hs2. discriminate.
  - inversion Hc as [|? ? ? ? s1 ? ? Hs1 H1]; subst. inversion H1 as [|? ? ? ? s2 ? ? Hs2 H2]; subst.
    assert (Es : s2 = 1) by (inversion H2; reflexivity). apply store_effect in Hs2. rewrite Es in Hs2. vm_compute in Hs2. discriminate.
Qed.

(** * From logically atomic storage programs to linearizable typed objects. *)
From Coq Require Import ZArith List Bool Lia.
From Verif Require Import SpecInt SpecLin SpecObj Order Conv WordFacts Prog Word RG CoreModel CoreProof.
Open Scope Z_scope.

Section Sim.
  Context {op ret S1 S2 : Type}.
  Variable spec1 : S1 -> op -> ret -> S1 -> Prop.
  Variable spec2 : S2 -> op -> ret -> S2 -> Prop.
  Variable R : S1 -> S2 -> Prop.
  Hypothesis Hsim : forall s o r s' t, spec1 s o r s' -> R s t -> exists t', spec2 t o r t' /\ R s' t'.

  Lemma lrun_sim s th l s' th' : lrun spec1 s th l s' th' -> forall t, R s t ->
    exists t', lrun spec2 t th l t' th' /\ R s' t'.
  Proof.
    induction 1; intros q HR.
    - exists q. split; auto. constructor.
    - destruct (IHlrun q HR) as (q' & A & B). exists q'. split; auto. now constructor.
    - destruct (Hsim _ _ _ _ _ H0 HR) as (q1 & A & B). destruct (IHlrun q1 B) as (q' & C & D).
      exists q'. split; auto. econstructor; eauto.
    - destruct (IHlrun q HR) as (q' & A & B). exists q'. split; auto. econstructor; eauto.
  Qed.
End Sim.

Section Front.
  Context {V op ret : Type}.
  Variable bits : addr -> Z.
  Hypothesis bits_pos : forall a, 0 < bits a.
  (** a storage word represents a value *)
  Variable R : addr -> Z -> V -> Prop.
  Variable impl : addr * op -> wprog ret.
  Variable spec : addr -> V -> op -> ret -> V -> Prop.
  Variable ok : addr * op -> Prop.

  (** what a call may do to the storage words *)
  Definition wspec (s : wstate) (c : addr * op) (r : ret) (s' : wstate) : Prop :=
    (forall v, R (fst c) (s (fst c)) v -> exists v', R (fst c) (s' (fst c)) v' /\ spec (fst c) v (snd c) r v') /\
    forall b, b <> fst c -> s' b = s b.

  Hypothesis impl_ok : forall c, ok c ->
    LA wexec wspec (WInv bits) wrely wrely (impl c)
       (fun s r s' => wspec s c r s') (fun s r => wspec s c r s).

  Theorem front_sound (m : wmem) (v0 : addr -> V) (l : list (sched luck (addr * op))) :
    (forall a, inw (bits a) (val (m a)) /\ R a (val (m a)) (v0 a)) ->
    legal ok l ->
    let res := run wexec impl (start m) l in
    exists v th,
      linearizable_to (objects spec) v0 (snd res) v th /\
      (forall a, R a (val (c_mem (fst res) a)) (v a)) /\
      (forall t, match c_thr (fst res) t with Idle => th t = PIdle | Run _ _ => th t <> PIdle end).
  Proof.
    intros Hm Hl res.
    destruct (lin_sound wexec wspec (WInv bits) wrely wrely
                wrely_refl wrely_trans wguar_rely impl ok) with (l := l) (m := m) (s := fun a => val (m a))
      as (s' & th & (l' & HL & HE) & HI & HP).
    - intros t o m0 s0 Ho HI0. eapply LA_safe; [apply impl_ok; exact Ho | auto | auto].
    - intros a. split; [reflexivity | apply Hm].
    - apply Forall_forall. intros [t o|t w|t] He; simpl; auto. apply (Hl t o He).
    - destruct (lrun_sim wspec (objects spec) (fun s v => forall a, R a (s a) (v a))) with (2 := HL) (t := v0)
        as (v' & HL' & HR').
      + intros s [a o] r s1 v [H1 H2] HR. simpl in *.
        destruct (H1 _ (HR a)) as (y & Hy & Hs).
        exists (fun b => if Nat.eqb b a then y else v b). split.
        * split; simpl; [rewrite Nat.eqb_refl; exact Hs|].
          intros b Hb. apply Nat.eqb_neq in Hb. now rewrite Hb.
        * intros b. destruct (Nat.eqb b a) eqn:E.
          -- apply Nat.eqb_eq in E. now subst.
          -- rewrite H2 by (now apply Nat.eqb_neq in E). apply HR.
      + intros a. apply Hm.
      + exists v', th. refine (conj _ (conj _ HP)).
        * exists l'. auto.
        * intros a. destruct (HI a) as [HE1 _]. unfold res. rewrite HE1. apply HR'.
  Qed.
End Front.

(** * Every answered call takes effect at an instant of the call. *)
From Coq Require Import List Arith.
From Verif Require Import SpecLin SpecInstant.
Import ListNotations.

Section Instant.
  Context {op ret state : Type}.
  Variable spec : state -> op -> ret -> state -> Prop.
  Notation lrun := (lrun spec).

  Lemma erase_app (l1 l2 : list (levent op ret)) : SpecLin.erase (l1 ++ l2) = SpecLin.erase l1 ++ SpecLin.erase l2.
  Proof. induction l1 as [|[t o|t|t r] l IH]; simpl; auto; now rewrite IH. Qed.
  Lemma erase_split l : forall h1 (e : event op ret) h2, SpecLin.erase l = h1 ++ e :: h2 ->
    exists l1 x l2, l = l1 ++ x :: l2 /\ SpecLin.erase l1 = h1 /\ SpecLin.erase l2 = h2 /\
      x = match e with EInv t o => LInv t o | ERes t r => LRes t r end.
  Proof.
    induction l as [|x l IH]; intros h1 e h2 H.
    - destruct h1; discriminate.
    - assert (Hlin : forall t, x = LLin t -> SpecLin.erase l = h1 ++ e :: h2 ->
        exists l1 y l2, x :: l = l1 ++ y :: l2 /\ SpecLin.erase l1 = h1 /\ SpecLin.erase l2 = h2 /\
          y = match e with EInv t o => LInv t o | ERes t r => LRes t r end).
      { intros t -> E. destruct (IH _ _ _ E) as (l1 & y & l2 & -> & A & B & C). exists (LLin t :: l1), y, l2. auto. }
      destruct x as [t o|t|t r]; simpl in H.
      + destruct h1 as [|e1 h1]; injection H as E1 E2; subst.
        * exists [], (LInv t o), l. auto.
        * destruct (IH _ _ _ E2) as (l1 & y & l2 & -> & A & B & C). exists (LInv t o :: l1), y, l2. simpl. now rewrite A.
      + now apply (Hlin t).
      + destruct h1 as [|e1 h1]; injection H as E1 E2; subst.
        * exists [], (LRes t r), l. auto.
        * destruct (IH _ _ _ E2) as (l1 & y & l2 & -> & A & B & C). exists (LRes t r :: l1), y, l2. simpl. now rewrite A.
  Qed.
  Lemma lrun_app l1 : forall s th l2 s' th', lrun s th (l1 ++ l2) s' th' ->
    exists s1 th1, lrun s th l1 s1 th1 /\ lrun s1 th1 l2 s' th'.
  Proof.
    induction l1 as [|x l IH]; intros s th l2 s' th' H; simpl in H.
    - exists s, th. split; [constructor|exact H].
    - inversion H as [|? ? ? ? ? ? ? E R|? ? ? ? ? ? ? ? ? E S R|? ? ? ? ? ? ? ? E R]; subst;
        destruct (IH _ _ _ _ _ R) as (s8 & th8 & A & B); exists s8, th8; (split; [|exact B]); econstructor; eauto.
  Qed.
  Lemma lrun_join l1 : forall s th l2 s1 th1 s' th', lrun s th l1 s1 th1 -> lrun s1 th1 l2 s' th' -> lrun s th (l1 ++ l2) s' th'.
  Proof. intros s th l2 s1 th1 s' th' H1 H2. induction H1; simpl; auto; econstructor; eauto. Qed.

  Lemma tset_eq {A} (f : nat -> A) t x : tset f t x t = x.
  Proof. unfold tset. now rewrite Nat.eqb_refl. Qed.
  Lemma tset_neq {A} (f : nat -> A) t x u : u <> t -> tset f t x u = f u.
  Proof. intros H. unfold tset. apply Nat.eqb_neq in H. now rewrite H. Qed.

  (** a call that has taken effect stays so until it returns *)
  Lemma stays_done t o r l : forall s th s' th', lrun s th l s' th' -> th t = PDone o r ->
    (forall e, In e (SpecLin.erase l) -> ~ of_thread t e) -> th' t = PDone o r.
  Proof.
    intros s th s' th' H. induction H as [s th|s th u o1 l s' th' E H IH|s th u o1 r1 s1 l s' th' E S H IH|s th u o1 r1 l s' th' E H IH];
      intros Ht Hn; auto; simpl in Hn.
    - assert (u <> t) by (apply (Hn _ (or_introl eq_refl))). apply IH; [|intros e He; apply Hn; now right]. now rewrite tset_neq by auto.
    - assert (u <> t) by congruence. apply IH; auto. now rewrite tset_neq by auto.
    - assert (u <> t) by (apply (Hn _ (or_introl eq_refl))). apply IH; [|intros e He; apply Hn; now right]. now rewrite tset_neq by auto.
  Qed.
  Lemma takes_effect t c o r l : forall s th s' th', lrun s th l s' th' -> th t = PCalled c -> th' t = PDone o r ->
    (forall e, In e (SpecLin.erase l) -> ~ of_thread t e) ->
    exists l1 l2 s1 th1 s2, l = l1 ++ l2 /\ lrun s th l1 s1 th1 /\ spec s1 c r s2 /\ lrun s1 th1 l2 s' th'.
  Proof.
    intros s th s' th' H. induction H as [s th|s th u o1 l s' th' E H IH|s th u o1 r1 s1 l s' th' E S H IH|s th u o1 r1 l s' th' E H IH];
      intros Ht Ht' Hn; simpl in Hn.
    - congruence.
    - assert (u <> t) by (apply (Hn _ (or_introl eq_refl))).
      destruct IH as (l1 & l2 & s1 & th1 & s2 & -> & A & B & C); auto.
      { now rewrite tset_neq by auto. }
      exists (LInv u o1 :: l1), l2, s1, th1, s2. split; [reflexivity|]. split; [econstructor; eauto|auto].
    - destruct (Nat.eq_dec u t) as [->|N].
      + assert (o1 = c) by congruence. subst o1.
        assert (X := stays_done t c r1 l _ _ _ _ H (tset_eq _ _ _) Hn). assert (r1 = r) by congruence. subst r1.
        exists [], (LLin t :: l), s, th, s1. split; [reflexivity|]. split; [constructor|]. split; [exact S|]. econstructor; eauto.
      + destruct IH as (l1 & l2 & s3 & th1 & s2 & -> & A & B & C); auto.
        { now rewrite tset_neq by auto. }
        exists (LLin u :: l1), l2, s3, th1, s2. split; [reflexivity|]. split; [econstructor; eauto|auto].
    - assert (u <> t) by (apply (Hn _ (or_introl eq_refl))).
      destruct IH as (l1 & l2 & s1 & th1 & s2 & -> & A & B & C); auto.
      { now rewrite tset_neq by auto. }
      exists (LRes u r1 :: l1), l2, s1, th1, s2. split; [reflexivity|]. split; [econstructor; eauto|auto].
  Qed.

  Theorem answered_instant s0 h s' th' h1 t c h2 r h3 :
    linearizable_to spec s0 h s' th' -> answered h h1 t c h2 r h3 ->
    exists s s2, during spec s0 h1 t c h2 r h3 s /\ spec s c r s2.
  Proof.
    intros (l & HL & HE) (-> & Hn).
    destruct (erase_split _ _ _ _ HE) as (l1 & x & l2 & -> & E1 & E2 & ->).
    destruct (erase_split _ _ _ _ E2) as (l3 & y & l4 & -> & E3 & E4 & ->).
    destruct (lrun_app _ _ _ _ _ _ HL) as (s1 & th1 & R1 & R2).
    inversion R2 as [|? ? ? ? ? ? ? I1 R3| |]; subst. 
    destruct (lrun_app _ _ _ _ _ _ R3) as (s3 & th3 & R4 & R5).
    inversion R5 as [| | |? ? ? o ? ? ? ? I2 R6]; subst.
    destruct (takes_effect t c o r l3 _ _ _ _ R4 (tset_eq _ _ _) I2 Hn) as (m1 & m2 & s4 & th4 & s5 & -> & A & B & C).
    exists s4, s5. split; [|exact B].
    exists (SpecLin.erase m1), (SpecLin.erase m2). split; [apply erase_app|].
    exists (l1 ++ LInv t c :: m1), (m2 ++ LRes t r :: l4), th4, s', th'.
    split; [|split; [|split]].
    - eapply lrun_join; [exact R1|]. econstructor; eauto.
    - eapply lrun_join; [exact C|]. econstructor; eauto.
    - rewrite erase_app. reflexivity.
    - rewrite erase_app. reflexivity.
  Qed.
End Instant.

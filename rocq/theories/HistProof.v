(** * From linearizations to sequential executions of the completed calls. *)
From Coq Require Import List Permutation Arith Lia.
From Verif Require Import SpecLin SpecObj SpecHist.
Import ListNotations.

Section HistProof.
  Context {op ret state : Type}.
  Variable spec : state -> op -> ret -> state -> Prop.
  Notation call := (nat * op * ret)%type.

  Definition thread (c : call) : nat := fst (fst c).
  (** [D] lists exactly the threads whose call has taken effect but not returned *)
  Definition lists_done (th : nat -> pend op ret) (D : list call) : Prop :=
    NoDup (map thread D) /\
    (forall t o r, In (t, o, r) D <-> th t = PDone o r).
  Definition pmatch (th : nat -> pend op ret) (p : nat -> option op) : Prop :=
    forall t, match th t with PIdle => p t = None | PCalled o => p t = Some o | PDone o _ => p t = Some o end.

  Lemma tset_same {A} (f : nat -> A) t x : tset f t x t = x.
  Proof. unfold tset. now rewrite Nat.eqb_refl. Qed.
  Lemma tset_other {A} (f : nat -> A) t x u : u <> t -> tset f t x u = f u.
  Proof. intros H. unfold tset. apply Nat.eqb_neq in H. now rewrite H. Qed.

  Lemma lists_done_set th D t y :
    lists_done th D -> (forall o r, th t <> PDone o r) -> (forall o r, y <> PDone o r) -> lists_done (tset th t y) D.
  Proof.
    intros [Hn HD] Ht Hy. split; [exact Hn|]. intros u o r. rewrite HD.
    destruct (Nat.eq_dec u t) as [->|Hu].
    - rewrite tset_same. split; intros H; [destruct (Ht _ _ H) | destruct (Hy _ _ H)].
    - now rewrite tset_other.
  Qed.

  Lemma lrun_seq s th l s' th' : lrun spec s th l s' th' -> forall p D,
    pmatch th p -> lists_done th D ->
    exists c E, steps spec s c s' /\ lists_done th' E /\
                Permutation (D ++ c) (completed_from p (erase l) ++ E).
  Proof.
    induction 1 as [s th | s th t o l s' th' H1 H2 IH | s th t o r s1 l s' th' H1 H2 H3 IH
                    | s th t o r l s' th' H1 H2 IH]; intros p D Hp HD.
    - exists [], D. refine (conj _ (conj HD _)); [constructor|]. simpl. now rewrite app_nil_r.
    - simpl. apply IH.
      + intros u. destruct (Nat.eq_dec u t) as [->|Hu].
        * now rewrite !tset_same.
        * rewrite !tset_other by auto. apply Hp.
      + apply lists_done_set; auto; [congruence | discriminate].
    - assert (HD' : lists_done (tset th t (PDone o r)) ((t, o, r) :: D)).
      { destruct HD as [Hn HD]. split.
        - simpl. constructor; auto. rewrite in_map_iff. intros (((u & o') & r') & E & Hin).
          unfold thread in E; simpl in E. subst u. apply HD in Hin. congruence.
        - intros u o' r'. destruct (Nat.eq_dec u t) as [->|Hu].
          + rewrite tset_same. simpl. split.
            * intros [E|E]; [congruence|]. apply HD in E. congruence.
            * intros E. left. congruence.
          + rewrite tset_other by auto. simpl. rewrite <- HD. split; [intros [E|E]; [congruence|auto] | auto]. }
      destruct (fun H => IH p ((t, o, r) :: D) H HD') as (c & E & Hc & HE & HP).
      + intros u. destruct (Nat.eq_dec u t) as [->|Hu].
        * rewrite tset_same. specialize (Hp t). now rewrite H1 in Hp.
        * rewrite tset_other by auto. apply Hp.
      + exists ((t, o, r) :: c), E. refine (conj _ (conj HE _)).
        * econstructor; eauto.
        * simpl erase. rewrite <- HP. simpl. symmetry. apply Permutation_middle.
    - assert (Hin : In (t, o, r) D) by (apply HD; exact H1).
      apply in_split in Hin. destruct Hin as (D1 & D2 & ->).
      assert (HD' : lists_done (tset th t PIdle) (D1 ++ D2)).
      { destruct HD as [Hn HD]. rewrite map_app in Hn. simpl in Hn.
        assert (Hn1 := NoDup_remove_1 _ _ _ Hn). assert (Hn2 := NoDup_remove_2 _ _ _ Hn).
        rewrite <- map_app in Hn1, Hn2. split; [exact Hn1|].
        intros u o' r'. destruct (Nat.eq_dec u t) as [->|Hu].
        - rewrite tset_same. split; [|discriminate]. intros Hi. exfalso. apply Hn2.
          unfold thread at 1. simpl. apply in_map_iff. exists (t, o', r'). auto.
        - rewrite tset_other by auto. rewrite <- HD, !in_app_iff. simpl. split.
          + intros [Hi|Hi]; auto.
          + intros [Hi|[Hi|Hi]]; auto. congruence. }
      simpl. assert (Hpt := Hp t). rewrite H1 in Hpt. rewrite Hpt.
      destruct (fun H => IH (tset p t None) (D1 ++ D2) H HD') as (c & E & Hc & HE & HP).
      + intros u. destruct (Nat.eq_dec u t) as [->|Hu].
        * now rewrite !tset_same.
        * rewrite !tset_other by auto. apply Hp.
      + exists c, E. refine (conj Hc (conj HE _)). simpl. rewrite <- HP.
        rewrite <- app_assoc. simpl. rewrite <- Permutation_middle. now rewrite app_assoc.
  Qed.

  (** the completed calls, with those pending ones that took effect, can be executed one by one *)
  Theorem lin_seq s0 h s th : linearizable_to spec s0 h s th ->
    exists c E, steps spec s0 c s /\ (forall t o r, In (t, o, r) E -> th t = PDone o r) /\
                Permutation c (completed h ++ E).
  Proof.
    intros (l & HL & <-).
    destruct (lrun_seq _ _ _ _ _ HL (fun _ => None) []) as (c & E & Hc & HE & HP).
    - intros t. reflexivity.
    - split; [constructor|]. intros t o r. simpl. split; [tauto | discriminate].
    - exists c, E. refine (conj Hc (conj _ HP)). intros t o r. apply HE.
  Qed.

  Theorem lin_seq_idle s0 h s th : linearizable_to spec s0 h s th -> (forall t, th t = PIdle) ->
    exists c, steps spec s0 c s /\ Permutation c (completed h).
  Proof.
    intros HL Hi. destruct (lin_seq _ _ _ _ HL) as (c & E & Hc & HE & HP).
    exists c. split; [exact Hc|]. destruct E as [|((t & o) & r) E].
    - now rewrite app_nil_r in HP.
    - specialize (HE t o r (or_introl eq_refl)). rewrite Hi in HE. discriminate.
  Qed.

  (** *** Counting invocations *)
  Definition lists_pend (th : nat -> pend op ret) (P : list (nat * op)) : Prop :=
    NoDup (map fst P) /\ (forall t o, In (t, o) P <-> (th t = PCalled o \/ exists r, th t = PDone o r)).

  Lemma lrun_count s th l s' th' : lrun spec s th l s' th' -> forall p P,
    pmatch th p -> lists_pend th P ->
    exists P', lists_pend th' P' /\
               Permutation (map fst (completed_from p (erase l)) ++ P') (P ++ invoked (erase l)).
  Proof.
    induction 1 as [s th | s th t o l s' th' H1 H2 IH | s th t o r s1 l s' th' H1 H2 H3 IH
                    | s th t o r l s' th' H1 H2 IH]; intros p P Hp HP.
    - exists P. split; [exact HP|]. simpl. now rewrite app_nil_r.
    - assert (HP' : lists_pend (tset th t (PCalled o)) ((t, o) :: P)).
      { destruct HP as [Hn HP]. split.
        - simpl. constructor; auto. rewrite in_map_iff. intros ((u & o') & E & Hin). simpl in E. subst u.
          apply HP in Hin. rewrite H1 in Hin. destruct Hin as [Hin|(r & Hin)]; discriminate.
        - intros u o'. destruct (Nat.eq_dec u t) as [->|Hu].
          + rewrite tset_same. simpl. split.
            * intros [E|E]; [left; congruence|]. apply HP in E. rewrite H1 in E.
              destruct E as [E|(r & E)]; discriminate.
            * intros [E|(r & E)]; [left; congruence | discriminate].
          + rewrite tset_other by auto. simpl. rewrite <- HP. split; [intros [E|E]; [congruence|auto] | auto]. }
      destruct (fun H => IH (tset p t (Some o)) _ H HP') as (P1 & HP1 & HPerm).
      + intros u. destruct (Nat.eq_dec u t) as [->|Hu].
        * now rewrite !tset_same.
        * rewrite !tset_other by auto. apply Hp.
      + exists P1. split; [exact HP1|]. simpl. rewrite HPerm. simpl. apply Permutation_middle.
    - apply IH.
      + intros u. destruct (Nat.eq_dec u t) as [->|Hu].
        * rewrite tset_same. specialize (Hp t). now rewrite H1 in Hp.
        * rewrite tset_other by auto. apply Hp.
      + destruct HP as [Hn HP]. split; [exact Hn|]. intros u o'. rewrite HP.
        destruct (Nat.eq_dec u t) as [->|Hu].
        * rewrite tset_same, H1. split.
          -- intros [E|(r' & E)]; [right; exists r; congruence | discriminate].
          -- intros [E|(r' & E)]; [discriminate | left; congruence].
        * now rewrite tset_other.
    - assert (Hin : In (t, o) P) by (apply HP; rewrite H1; eauto).
      apply in_split in Hin. destruct Hin as (P1 & P2 & ->).
      assert (HP' : lists_pend (tset th t PIdle) (P1 ++ P2)).
      { destruct HP as [Hn HP]. rewrite map_app in Hn. simpl in Hn.
        assert (Hn1 := NoDup_remove_1 _ _ _ Hn). assert (Hn2 := NoDup_remove_2 _ _ _ Hn).
        rewrite <- map_app in Hn1, Hn2. split; [exact Hn1|].
        intros u o'. destruct (Nat.eq_dec u t) as [->|Hu].
        - rewrite tset_same. split.
          + intros Hi. exfalso. apply Hn2. apply in_map_iff. exists (t, o'). auto.
          + intros [E|(r' & E)]; discriminate.
        - rewrite tset_other by auto. rewrite <- HP, !in_app_iff. simpl. split.
          + intros [Hi|Hi]; auto.
          + intros [Hi|[Hi|Hi]]; auto. congruence. }
      simpl. assert (Hpt := Hp t). rewrite H1 in Hpt. rewrite Hpt.
      destruct (fun H => IH (tset p t None) _ H HP') as (P3 & HP3 & HPerm).
      + intros u. destruct (Nat.eq_dec u t) as [->|Hu].
        * now rewrite !tset_same.
        * rewrite !tset_other by auto. apply Hp.
      + exists P3. split; [exact HP3|]. simpl. rewrite HPerm.
        rewrite <- !app_assoc. simpl. apply Permutation_middle.
  Qed.

  Lemma NoDup_map_inv' {A B} (f : A -> B) (l : list A) : NoDup (map f l) -> NoDup l.
  Proof. apply NoDup_map_inv. Qed.

  Lemma NoDup_incl_perm {A} (l l' : list A) : NoDup l -> incl l l' -> exists k, Permutation l' (l ++ k).
  Proof.
    revert l'. induction l as [|x l IH]; intros l' Hn Hi.
    - exists l'. reflexivity.
    - inversion Hn; subst. assert (Hx : In x l') by (apply Hi; now left).
      apply in_split in Hx. destruct Hx as (l1 & l2 & ->).
      destruct (IH (l1 ++ l2)) as [k Hk]; auto.
      { intros y Hy. assert (Hy' : In y (l1 ++ x :: l2)) by (apply Hi; now right).
        rewrite in_app_iff in *. simpl in Hy'. destruct Hy' as [?|[?|?]]; subst; auto. contradiction. }
      exists k. rewrite <- Permutation_middle. simpl. now constructor.
  Qed.

  (** the calls that took effect are among the invoked ones *)
  Theorem lin_seq_invoked s0 h s th : linearizable_to spec s0 h s th ->
    exists c E, steps spec s0 c s /\ (forall t o r, In (t, o, r) E -> th t = PDone o r) /\
                Permutation c (completed h ++ E) /\
                exists rest, Permutation (invoked h) (map fst c ++ rest).
  Proof.
    intros (l & HL & <-).
    destruct (lrun_seq _ _ _ _ _ HL (fun _ => None) []) as (c & E & Hc & HE & HP).
    - intros t. reflexivity.
    - split; [constructor|]. intros t o r. simpl. split; [tauto | discriminate].
    - destruct (lrun_count _ _ _ _ _ HL (fun _ => None) []) as (P & HPd & HC).
      + intros t. reflexivity.
      + split; [constructor|]. intros t o. simpl. split; [tauto | intros [E0|(r & E0)]; discriminate].
      + exists c, E. refine (conj Hc (conj _ (conj HP _))); [intros t o r; apply HE|].
        destruct HE as [HE1 HE2]. destruct HPd as [HP1 HP2].
        assert (HnE : NoDup (map fst E)).
        { apply (NoDup_map_inv fst). rewrite map_map. exact HE1. }
        destruct (NoDup_incl_perm (map fst E) P HnE) as [k Hk].
        { intros (t & o) Hin. apply in_map_iff in Hin. destruct Hin as (((t1 & o1) & r1) & Eq & Hin).
          simpl in Eq. inversion Eq; subst. apply HE2 in Hin. apply HP2. eauto. }
        exists k. simpl in HC. rewrite <- HC. rewrite Hk. simpl in HP.
        rewrite (Permutation_map fst HP). rewrite map_app. now rewrite app_assoc.
  Qed.
End HistProof.

Section ObjProof.
  Context {V op ret : Type}.
  Variable spec : nat -> V -> op -> ret -> V -> Prop.

  Lemma steps_on a c : forall v v', steps (objects spec) v c v' -> steps (spec a) (v a) (calls_on a c) (v' a).
  Proof.
    induction c as [|((t & (b & o)) & r) c IH]; intros v v' H; inversion H; subst; simpl.
    - constructor.
    - match goal with Hs : objects spec v _ _ ?v1 |- _ => destruct Hs as [Hs Ho]; simpl in Hs, Ho;
        rename v1 into w1 end.
      destruct (Nat.eqb b a) eqn:E; simpl.
      + apply Nat.eqb_eq in E. subst b. econstructor; eauto.
      + apply Nat.eqb_neq in E. rewrite <- (Ho a) by auto. auto.
  Qed.

  Lemma perm_calls_on a (l l' : list (nat * (nat * op) * ret)) :
    Permutation l l' -> Permutation (calls_on a l) (calls_on a l').
  Proof. intros H. unfold calls_on. now apply Permutation_flat_map. Qed.

  Lemma calls_on_fst a (c : list (nat * (nat * op) * ret)) :
    map fst (calls_on a c) =
    flat_map (fun x : nat * (nat * op) => match x with (t, (b, o)) => if Nat.eqb b a then [(t, o)] else [] end) (map fst c).
  Proof.
    induction c as [|((t & (b & o)) & r) c IH]; simpl; auto.
    rewrite map_app, IH. destruct (Nat.eqb b a); reflexivity.
  Qed.

  Lemma calls_on_app a (l l' : list (nat * (nat * op) * ret)) : calls_on a (l ++ l') = calls_on a l ++ calls_on a l'.
  Proof. unfold calls_on. apply flat_map_app. Qed.

  (** consequences for one object of a collection *)
  Theorem objects_seq v0 h v th a : linearizable_to (objects spec) v0 h v th ->
    exists c E, steps (spec a) (v0 a) c (v a) /\
                (forall t o r, In (t, o, r) E -> th t <> PIdle) /\
                Permutation c (calls_on a (completed h) ++ E) /\
                exists rest, Permutation (invoked_on a h) (map fst c ++ rest).
  Proof.
    intros HL. destruct (lin_seq_invoked _ _ _ _ _ HL) as (c & E & Hc & HE & HP & rest & Hr).
    exists (calls_on a c), (calls_on a E). refine (conj _ (conj _ (conj _ _))).
    - now apply steps_on.
    - intros t o r Hin. unfold calls_on in Hin. apply in_flat_map in Hin.
      destruct Hin as (((t1 & (b & o1)) & r1) & Hin & Hin2).
      destruct (Nat.eqb b a); [|destruct Hin2]. destruct Hin2 as [Eq|[]]. inversion Eq; subst.
      rewrite (HE _ _ _ Hin). discriminate.
    - rewrite <- calls_on_app. now apply perm_calls_on.
    - eexists. unfold invoked_on. rewrite (Permutation_flat_map _ Hr).
      rewrite flat_map_app. rewrite calls_on_fst. reflexivity.
  Qed.
End ObjProof.

(** ** Sequential histories *)
Section SeqHist.
  Context {op ret state : Type}.
  Variable spec : state -> op -> ret -> state -> Prop.

  Lemma lrun_one s th l s' th' t o r h :
    lrun spec s th l s' th' -> erase l = EInv t o :: ERes t r :: h -> (forall u, th u = PIdle) ->
    exists s1 th1 l1, spec s o r s1 /\ lrun spec s1 th1 l1 s' th' /\ erase l1 = h /\ (forall u, th1 u = PIdle).
  Proof.
    intros H He Hid.
    inversion H as [| ? ? t1 o1 l1 ? ? Ht1 H1 | ? ? t1 ? ? ? ? ? ? Ht1 | ? ? t1 ? ? ? ? ? Ht1]; subst; simpl in He;
      try discriminate; try (rewrite Hid in Ht1; discriminate).
    inversion He; subst. clear He.
    assert (Hoth : forall u, u <> t -> tset th t (PCalled o) u = PIdle).
    { intros u Hu. unfold tset. destruct (Nat.eqb_spec u t); [congruence | apply Hid]. }
    inversion H1 as [| ? ? t2 ? ? ? ? Ht2 | ? ? t2 o2 r2 s2 l2 ? ? Ht2 Hs2 H2 | ? ? t2 ? ? ? ? ? Ht2 H2]; subst; simpl in *;
      try discriminate.
    2:{ inversion H4; subst. unfold tset in Ht2. rewrite Nat.eqb_refl in Ht2. discriminate. }
    assert (t2 = t) by (destruct (Nat.eq_dec t2 t); auto; rewrite Hoth in Ht2 by auto; discriminate). subst t2.
    unfold tset in Ht2 at 1. rewrite Nat.eqb_refl in Ht2. inversion Ht2; subst o2.
    set (th2 := tset (tset th t (PCalled o)) t (PDone o r2)) in *.
    assert (Hoth2 : forall u, u <> t -> th2 u = PIdle).
    { intros u Hu. unfold th2, tset. destruct (Nat.eqb_spec u t); [congruence | apply Hid]. }
    assert (Ht : th2 t = PDone o r2) by (unfold th2, tset; now rewrite Nat.eqb_refl).
    inversion H2 as [| ? ? t3 ? ? ? ? Ht3 | ? ? t3 o3 r3 s3 l3 ? ? Ht3 Hs3 H3 | ? ? t3 ? r3 l3 ? ? Ht3 H3]; subst; simpl in *;
      try discriminate.
    { destruct (Nat.eq_dec t3 t) as [->|]; [rewrite Ht in Ht3; discriminate | rewrite Hoth2 in Ht3 by auto; discriminate]. }
    inversion H4; subst. rewrite Ht in Ht3. inversion Ht3; subst.
    exists s2, (tset th2 t PIdle), l3. repeat split; auto.
    intros u. unfold tset at 1. destruct (Nat.eqb_spec u t); auto.
  Qed.

  Fixpoint one_by_one (t : nat) (l : list (op * ret)) : list (event op ret) :=
    match l with [] => [] | (o, r) :: l => EInv t o :: ERes t r :: one_by_one t l end.

  Lemma lin_one_by_one s t l :
    linearizable spec s (one_by_one t l) -> exists s', steps spec s (map (fun x => (t, fst x, snd x)) l) s'.
  Proof.
    intros (s' & th' & ll & H & He). exists s'.
    assert (Hid : forall u, (fun _ : nat => @PIdle op ret) u = PIdle) by auto.
    revert H Hid. generalize (fun _ : nat => @PIdle op ret). revert s ll He.
    induction l as [|[o r] l IH]; intros s ll He th H Hid; simpl.
    - destruct ll as [|[| |] ll]; simpl in He; try discriminate.
      + inversion H; subst. constructor.
      + inversion H as [| | ? ? ? ? ? ? ? ? ? Ht |]; subst. rewrite Hid in Ht. discriminate.
    - destruct (lrun_one s th ll s' th' t o r _ H He Hid) as (s1 & th1 & l1 & Hs & H1 & He1 & Hid1).
      econstructor; [exact Hs | eapply IH; eauto].
  Qed.
End SeqHist.

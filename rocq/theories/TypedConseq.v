(** * Consequences for the typed front ends, and counterexamples. *)
From Coq Require Import ZArith List Bool Lia Permutation.
From Verif Require Import SpecInt SpecLin SpecObj SpecHist SpecTyped SpecFlag Order Conv WordFacts Prog Word
  IntModel IntProof HistProof IntConseq TypedModel TypedProof WideCex.
Import ListNotations.
Open Scope Z_scope.

(** ** Flags: mutual exclusion *)
Section Mutex.
  Variable a : nat.
  Notation th_t := (nat -> pend flag_call iret).

  (** thread [t] is entitled to the flag being set *)
  Definition owner (th : th_t) (ins : nat -> bool) (t : nat) : Prop :=
    ins t = true \/ (exists mo, th t = PDone (a, (mo, FlagTestAndSet)) (RBool false)) \/
    (exists mo, th t = PCalled (a, (mo, FlagClear))).

  Definition MInv (v : nat -> bool) (th : th_t) (p : nat -> option flag_call) (ins : nat -> bool) : Prop :=
    (forall t u, owner th ins t -> owner th ins u -> t = u) /\
    (forall t, owner th ins t -> v a = true) /\
    (forall t mo, th t = PCalled (a, (mo, FlagClear)) -> ins t = false) /\
    pmatch th p.

  Lemma owner_other th ins t x b u : u <> t ->
    owner (tset th t x) (tset ins t b) u <-> owner th ins u.
  Proof. intros H. unfold owner. rewrite !tset_other by auto. reflexivity. Qed.
  Lemma owner_other1 th ins t x u : u <> t -> owner (tset th t x) ins u <-> owner th ins u.
  Proof. intros H. unfold owner. rewrite !tset_other by auto. reflexivity. Qed.

  Lemma pmatch_set th p t x y : pmatch th p ->
    match x with PIdle => y = None | PCalled o => y = Some o | PDone o _ => y = Some o end ->
    pmatch (op := flag_call) (ret := iret) (tset th t x) (tset p t y).
  Proof.
    intros H E u. destruct (Nat.eq_dec u t) as [->|Hu].
    - rewrite !tset_same. destruct x; auto.
    - rewrite !tset_other by auto. apply H.
  Qed.
  Lemma pmatch_set1 th p t x : pmatch th p ->
    match x with PIdle => p t = None | PCalled o => p t = Some o | PDone o _ => p t = Some o end ->
    pmatch (op := flag_call) (ret := iret) (tset th t x) p.
  Proof.
    intros H E u. destruct (Nat.eq_dec u t) as [->|Hu].
    - rewrite !tset_same. destruct x; auto.
    - rewrite !tset_other by auto. apply H.
  Qed.

  Lemma mutex_lrun v th l v' th' : lrun (objects flag_spec) v th l v' th' ->
    forall p ins, MInv v th p ins -> only_owner_clears_from a (p, ins) (erase l) ->
    exists p', MInv v' th' p' (snd (inside_from a (p, ins) (erase l))).
  Proof.
    induction 1 as [s th | s th t o l s' th' H1 H2 IH | s th t o r s1 l s' th' H1 H2 H3 IH
                    | s th t o r l s' th' H1 H2 IH]; intros p ins (Hu & Hs & Hc & Hp) Hd.
    - exists p. simpl. refine (conj Hu (conj Hs (conj Hc Hp))).
    - (* invocation *)
      simpl in Hd. destruct Hd as [Hd1 Hd2]. simpl erase. unfold inside_from. simpl.
      apply IH; [|exact Hd2]. destruct (is_clear a o) eqn:Ec.
      + specialize (Hd1 eq_refl). simpl in Hd1.
        assert (Ho : owner th ins t) by (now left).
        destruct o as [b [mo [| |]]]; simpl in Ec; try discriminate. apply Nat.eqb_eq in Ec. subst b.
        assert (Hi : forall u, owner (tset th t (PCalled (a, (mo, FlagClear)))) (tset ins t false) u -> owner th ins u).
        { intros u Hu1. destruct (Nat.eq_dec u t) as [->|Hne]; [exact Ho | now apply owner_other in Hu1]. }
        refine (conj _ (conj _ (conj _ _))).
        * intros x y Hx Hy. apply Hu; apply Hi; assumption.
        * intros x Hx. apply (Hs x). apply Hi; assumption.
        * intros x mo' Hx. destruct (Nat.eq_dec x t) as [->|Hne]; [apply tset_same|].
          rewrite tset_other in Hx by auto. rewrite tset_other by auto. eapply Hc; eassumption.
        * apply pmatch_set; auto.
      + assert (Hi : forall u, owner (tset th t (PCalled o)) ins u -> owner th ins u).
        { intros u Hu1. destruct (Nat.eq_dec u t) as [->|Hne]; [|now apply owner_other1 in Hu1].
          destruct Hu1 as [Hu1|[[mo Hu1]|[mo Hu1]]]; [now left| |]; rewrite tset_same in Hu1; [discriminate|].
          inversion Hu1; subst. simpl in Ec. rewrite Nat.eqb_refl in Ec. discriminate. }
        refine (conj _ (conj _ (conj _ _))).
        * intros x y Hx Hy. apply Hu; apply Hi; assumption.
        * intros x Hx. apply (Hs x). apply Hi; assumption.
        * intros x mo' Hx. destruct (Nat.eq_dec x t) as [->|Hne].
          -- rewrite tset_same in Hx. inversion Hx; subst. simpl in Ec. rewrite Nat.eqb_refl in Ec. discriminate.
          -- rewrite tset_other in Hx by auto. eauto.
        * apply pmatch_set; auto.
    - (* taking effect *)
      simpl erase in *. apply IH; [|exact Hd].
      assert (Hpt : p t = Some o) by (specialize (Hp t); now rewrite H1 in Hp).
      destruct H2 as [Hst Hoth]. destruct o as [b [mo f]]. simpl in Hst, Hoth.
      destruct (Nat.eq_dec b a) as [->|Hb].
      + unfold flag_spec in Hst. simpl in Hst. inversion Hst as [x Ex|x Ex|x Ex]; subst.
        * (* test *)
          assert (Hi : forall u, owner (tset th t (PDone (a, (mo, FlagTest)) (RBool (s a)))) ins u -> owner th ins u).
          { intros u Hu1. destruct (Nat.eq_dec u t) as [->|Hne]; [|now apply owner_other1 in Hu1].
            destruct Hu1 as [Hu1|[[mo' Hu1]|[mo' Hu1]]]; [now left| |]; rewrite tset_same in Hu1; discriminate. }
          refine (conj _ (conj _ (conj _ _))).
          -- intros x y Hx Hy. apply Hu; apply Hi; assumption.
          -- intros x Hx. replace (s1 a) with (s a) by congruence. apply (Hs x). apply Hi; assumption.
          -- intros x mo' Hx. destruct (Nat.eq_dec x t) as [->|Hne]; [rewrite tset_same in Hx; discriminate|].
             rewrite tset_other in Hx by auto. eauto.
          -- apply pmatch_set1; auto.
        * (* test_and_set *)
          destruct (s a) eqn:Esa.
          -- assert (Hi : forall u, owner (tset th t (PDone (a, (mo, FlagTestAndSet)) (RBool true))) ins u -> owner th ins u).
             { intros u Hu1. destruct (Nat.eq_dec u t) as [->|Hne]; [|now apply owner_other1 in Hu1].
               destruct Hu1 as [Hu1|[[mo' Hu1]|[mo' Hu1]]]; [now left| |]; rewrite tset_same in Hu1; discriminate. }
             refine (conj _ (conj _ (conj _ _))).
             ++ intros x y Hx Hy. apply Hu; apply Hi; assumption.
             ++ intros x Hx. symmetry. auto.
             ++ intros x mo' Hx. destruct (Nat.eq_dec x t) as [->|Hne]; [rewrite tset_same in Hx; discriminate|].
                rewrite tset_other in Hx by auto. eauto.
             ++ apply pmatch_set1; auto.
          -- assert (Hi : forall u, owner (tset th t (PDone (a, (mo, FlagTestAndSet)) (RBool false))) ins u -> u = t).
             { intros u Hu1. destruct (Nat.eq_dec u t) as [->|Hne]; auto. apply owner_other1 in Hu1; auto.
               apply Hs in Hu1. discriminate. }
             refine (conj _ (conj _ (conj _ _))).
             ++ intros x y Hx Hy. rewrite (Hi x), (Hi y); auto.
             ++ intros x Hx. symmetry. auto.
             ++ intros x mo' Hx. destruct (Nat.eq_dec x t) as [->|Hne]; [rewrite tset_same in Hx; discriminate|].
                rewrite tset_other in Hx by auto. eauto.
             ++ apply pmatch_set1; auto.
        * (* clear *)
          assert (Ho : owner th ins t) by (right; right; eauto).
          assert (Hi : forall u, ~ owner (tset th t (PDone (a, (mo, FlagClear)) RUnit)) ins u).
          { intros u Hu1. destruct (Nat.eq_dec u t) as [->|Hne].
            - destruct Hu1 as [Hu1|[[mo' Hu1]|[mo' Hu1]]].
              + rewrite (Hc _ _ H1) in Hu1. discriminate.
              + rewrite tset_same in Hu1. discriminate.
              + rewrite tset_same in Hu1. discriminate.
            - apply owner_other1 in Hu1; auto. }
          refine (conj _ (conj _ (conj _ _))).
          -- intros x y Hx Hy. destruct (Hi _ Hx).
          -- intros x Hx. destruct (Hi _ Hx).
          -- intros x mo' Hx. destruct (Nat.eq_dec x t) as [->|Hne]; [rewrite tset_same in Hx; discriminate|].
             rewrite tset_other in Hx by auto. eauto.
          -- apply pmatch_set1; auto.
      + (* another flag *)
        assert (Hi : forall u, owner (tset th t (PDone (b, (mo, f)) r)) ins u -> owner th ins u).
        { intros u Hu1. destruct (Nat.eq_dec u t) as [->|Hne]; [|now apply owner_other1 in Hu1].
          destruct Hu1 as [Hu1|[[mo' Hu1]|[mo' Hu1]]]; [now left| |]; rewrite tset_same in Hu1; [|discriminate].
          inversion Hu1; subst. congruence. }
        refine (conj _ (conj _ (conj _ _))).
        * intros x y Hx Hy. apply Hu; apply Hi; assumption.
        * intros x Hx. rewrite (Hoth a) by congruence. apply (Hs x). apply Hi; assumption.
        * intros x mo' Hx. destruct (Nat.eq_dec x t) as [->|Hne]; [rewrite tset_same in Hx; discriminate|].
          rewrite tset_other in Hx by auto. eauto.
        * apply pmatch_set1; auto.
    - (* response *)
      simpl in Hd. destruct Hd as [_ Hd2]. simpl erase. unfold inside_from. simpl.
      assert (Hpt : p t = Some o) by (specialize (Hp t); now rewrite H1 in Hp).
      rewrite Hpt in *.
      apply IH; [|exact Hd2].
      set (ins' := match r with RBool false => if is_tas a o then tset ins t true else ins | _ => ins end).
      assert (Hins : ins' = ins \/ (ins' = tset ins t true /\ owner th ins t)).
      { unfold ins'. destruct r as [| |[|]|]; auto. destruct (is_tas a o) eqn:Et; auto. right. split; auto.
        destruct o as [b [mo [| |]]]; simpl in Et; try discriminate. apply Nat.eqb_eq in Et. subst b.
        right. left. eauto. }
      assert (Hi : forall u, owner (tset th t PIdle) ins' u -> owner th ins u).
      { intros u Hu1. destruct Hins as [E|[E Ho]]; rewrite E in Hu1.
        - destruct (Nat.eq_dec u t) as [->|Hne]; [|now apply owner_other1 in Hu1].
          destruct Hu1 as [Hu1|[[mo' Hu1]|[mo' Hu1]]]; [now left| |]; rewrite tset_same in Hu1; discriminate.
        - destruct (Nat.eq_dec u t) as [->|Hne]; [exact Ho | now apply owner_other in Hu1]. }
      refine (conj _ (conj _ (conj _ _))).
      + intros x y Hx Hy. apply Hu; apply Hi; assumption.
      + intros x Hx. apply (Hs x). apply Hi; assumption.
      + intros x mo' Hx. destruct (Nat.eq_dec x t) as [->|Hne]; [rewrite tset_same in Hx; discriminate|].
        rewrite tset_other in Hx by auto. destruct Hins as [->|[-> _]]; [|rewrite tset_other by auto]; eauto.
      + apply pmatch_set; auto.
  Qed.

  Lemma mutex_lin h v th t : linearizable_to (objects flag_spec) (fun _ => false) h v th ->
    only_owner_clears a h -> inside a h t = true ->
    v a = true /\ forall u, inside a h u = true -> u = t.
  Proof.
    intros (l & HL & He) Hd Hin. subst h.
    destruct (mutex_lrun _ _ _ _ _ HL (fun _ => None) (fun _ => false)) as (p' & Hu & Hs & _ & _).
    - assert (Hn : forall t, ~ owner (fun _ => PIdle) (fun _ => false) t)
        by (intros u [H|[[mo H]|[mo H]]]; discriminate).
      refine (conj _ (conj _ (conj _ _))).
      + intros x y Hx. destruct (Hn _ Hx).
      + intros x Hx. destruct (Hn _ Hx).
      + intros x mo Hx. discriminate.
      + intros x. reflexivity.
    - exact Hd.
    - split; [apply (Hs t); now left|]. intros u Hiu. apply Hu; now left.
  Qed.
End Mutex.

Lemma flag_main W n0 l : flag_world_ok W ->
  let res := flag_run W n0 l in
  exists v th, linearizable_to (objects flag_spec) (fun _ => false) (snd res) v th /\
    (forall a, v a = flag_shown (c_mem (fst res)) a) /\ (quiet (fst res) -> forall t, th t = PIdle).
Proof.
  intros HW res. destruct (flag_linearizable_aux W HW n0 l) as (v & th & H1 & H2 & H3).
  exists v, th. refine (conj H1 (conj _ _)).
  - intros a. unfold flag_shown. fold res in H2. rewrite (H2 a). unfold flag_word.
    destruct (v a); auto. now rewrite (proj2 (Z.eqb_neq _ _) (set_word_nonzero W HW a)).
  - intros Hq t. specialize (H3 t). specialize (Hq t). fold res in H3. now rewrite Hq in H3.
Qed.

Lemma mutex_aux W n0 l a t : flag_world_ok W ->
  let res := flag_run W n0 l in
  only_owner_clears a (snd res) -> inside a (snd res) t = true ->
  flag_shown (c_mem (fst res)) a = true /\ forall u, inside a (snd res) u = true -> u = t.
Proof.
  intros HW res Hd Hin. destruct (flag_main W n0 l HW) as (v & th & H1 & H2 & _). fold res in H1, H2.
  rewrite <- (H2 a). apply (mutex_lin a _ v th t H1 Hd Hin).
Qed.

(** ** Flags: one winner *)
Notation fcalls := (list (nat * (morder * flop) * iret)).
Definition won (c : nat * (morder * flop) * iret) : bool :=
  match c with (_, (_, FlagTestAndSet), RBool false) => true | _ => false end.
Definition tas_call (c : nat * (morder * flop) * iret) : bool :=
  match c with (_, (_, FlagTestAndSet), _) => true | _ => false end.

Lemma filter_perm {A} (f : A -> bool) l l' : Permutation l l' -> Permutation (filter f l) (filter f l').
Proof.
  induction 1; simpl; auto.
  - destruct (f x); auto.
  - destruct (f y), (f x); auto. constructor.
  - eapply Permutation_trans; eauto.
Qed.

Lemma steps_flag_true a c y : steps (flag_spec a) true c y ->
  (forall t mo, ~ In (t, (mo, FlagClear)) (map fst c)) -> y = true /\ filter won c = [].
Proof.
  remember true as x eqn:Ex. intros H. induction H as [s|s t o r s1 l s2 H1 H2 IH]; intros Hn.
  - auto.
  - subst s. unfold flag_spec in H1. destruct o as [mo f]. simpl in H1.
    inversion H1; subst; simpl; try (apply IH; auto; intros u mo' Hin; apply (Hn u mo'); now right).
    exfalso. apply (Hn t mo). now left.
Qed.

Lemma steps_flag_false a c y : steps (flag_spec a) false c y ->
  (forall t mo, ~ In (t, (mo, FlagClear)) (map fst c)) ->
  (y = false /\ filter tas_call c = [] /\ filter won c = []) \/
  (y = true /\ filter tas_call c <> [] /\ length (filter won c) = 1%nat).
Proof.
  remember false as x eqn:Ex. intros H. induction H as [s|s t o r s1 l s2 H1 H2 IH]; intros Hn.
  - auto.
  - subst s. assert (Hn' : forall u mo, ~ In (u, (mo, FlagClear)) (map fst l)) by (intros u mo' Hin; apply (Hn u mo'); now right).
    unfold flag_spec in H1. destruct o as [mo f]. simpl in H1.
    inversion H1; subst; simpl.
    + apply IH; auto.
    + right. destruct (steps_flag_true _ _ _ H2 Hn') as [-> ->]. refine (conj eq_refl (conj _ eq_refl)). discriminate.
    + exfalso. apply (Hn t mo). now left.
Qed.

Lemma one_winner_aux W n0 l a : flag_world_ok W ->
  let res := flag_run W n0 l in
  (forall t mo, ~ In (t, (mo, FlagClear)) (invoked_on a (snd res))) ->
  (length (filter won (calls_on a (completed (snd res)))) <= 1)%nat /\
  (quiet (fst res) -> filter tas_call (calls_on a (completed (snd res))) <> [] ->
   length (filter won (calls_on a (completed (snd res)))) = 1%nat /\ flag_shown (c_mem (fst res)) a = true).
Proof.
  intros HW res Hn. destruct (flag_main W n0 l HW) as (v & th & H1 & H2 & H3). fold res in H1, H2, H3.
  destruct (objects_seq _ _ _ _ _ a H1) as (c & E & Hc & HE & HP & rest & Hr).
  assert (Hnc : forall t mo, ~ In (t, (mo, FlagClear)) (map fst c)).
  { intros t mo Hin. apply (Hn t mo). eapply Permutation_in; [symmetry; exact Hr|]. apply in_or_app. now left. }
  assert (HPw := filter_perm won _ _ HP). assert (HPt := filter_perm tas_call _ _ HP).
  rewrite filter_app in HPw, HPt.
  assert (Hlen : length (filter won c) = (length (filter won (calls_on a (completed (snd res)))) + length (filter won E))%nat)
    by (rewrite <- app_length; exact (Permutation_length HPw)).
  destruct (steps_flag_false a c (v a) Hc Hnc) as [(Hy & Ht & Hw)|(Hy & Ht & Hw)].
  - rewrite Hw in Hlen. simpl in Hlen. split; [lia|]. intros _ Hne. exfalso. apply Hne.
    rewrite Ht in HPt. apply Permutation_nil in HPt. now apply app_eq_nil in HPt.
  - rewrite Hw in Hlen. split; [lia|]. intros Hq _.
    assert (E0 : E = []).
    { destruct E as [|((t & o) & r) E]; auto. exfalso. apply (HE t o r); [now left|]. now apply H3. }
    rewrite E0 in Hlen. simpl in Hlen. rewrite <- (H2 a). split; [lia | exact Hy].
Qed.

(** ** bool: no invented value *)
Lemma bool_main W v0 n0 l : (forall a, obj_ok (W a)) ->
  let res := bool_run W v0 n0 l in
  exists v th, linearizable_to (objects bool_spec) v0 (snd res) v th /\
    (forall a, bool_shown (c_mem (fst res)) a = Z.b2z (v a)) /\ (quiet (fst res) -> forall t, th t = PIdle).
Proof.
  intros HW res. destruct (bool_linearizable_aux W HW v0 n0 l) as (v & th & H1 & H2 & H3).
  exists v, th. refine (conj H1 (conj _ _)).
  - intros a. unfold bool_shown. fold res in H2. rewrite (H2 a). apply b2z_dec.
  - intros Hq t. specialize (H3 t). specialize (Hq t). fold res in H3. now rewrite Hq in H3.
Qed.

Definition bool_writes (o : bop) : option bool :=
  match o with
  | BStore b | BExchange b | BCasStrong _ b | BCasWeak _ b => Some b
  | BLoad => None
  end.
Definition bool_reports (r : iret) : option Z := match r with RVal z | RCas _ z => Some z | _ => None end.

Lemma steps_bool_const a b c x y : steps (bool_spec a) x c y -> x = b ->
  (forall t mo o, In (t, (mo, o)) (map fst c) -> bool_writes o <> Some (negb b)) ->
  y = b /\ forall t o r z, In (t, o, r) c -> bool_reports r = Some z -> z = Z.b2z b.
Proof.
  intros H. induction H as [s|s t o r s1 l s2 H1 H2 IH]; intros Ex Hn.
  - split; auto. intros ? ? ? ? [].
  - subst s. destruct o as [mo f]. unfold bool_spec in H1. simpl in H1.
    assert (Hw : bool_writes f <> Some (negb b)) by (apply (Hn t mo f); now left).
    assert (Hs : s1 = b /\ forall z, bool_reports r = Some z -> z = Z.b2z b).
    { inversion H1; subst; simpl in *; (split; [|intros z Hz; congruence]); auto;
        match goal with |- ?d = ?e => destruct d, e; simpl in *; congruence end. }
    destruct Hs as [Hs1 Hs2]. destruct (IH Hs1) as [IH1 IH2].
    { intros u mo' o' Hin. apply (Hn u mo'). now right. }
    split; auto. intros u o' r' z [Eq|Hin] Hz; [inversion Eq; subst; auto | eauto].
Qed.

Lemma bool_const_aux W v0 n0 l a : (forall a, obj_ok (W a)) ->
  let res := bool_run W v0 n0 l in
  (forall t mo o, In (t, (mo, o)) (invoked_on a (snd res)) -> bool_writes o <> Some (negb (v0 a))) ->
  bool_shown (c_mem (fst res)) a = Z.b2z (v0 a) /\
  forall t o r z, In (t, o, r) (calls_on a (completed (snd res))) -> bool_reports r = Some z -> z = Z.b2z (v0 a).
Proof.
  intros HW res Hn. destruct (bool_main W v0 n0 l HW) as (v & th & H1 & H2 & H3). fold res in H1, H2, H3.
  destruct (objects_seq _ _ _ _ _ a H1) as (c & E & Hc & HE & HP & rest & Hr).
  destruct (steps_bool_const a (v0 a) c _ _ Hc eq_refl) as [A B].
  - intros t mo o Hin. apply (Hn t mo). eapply Permutation_in; [symmetry; exact Hr|]. apply in_or_app. now left.
  - split; [now rewrite H2, A|]. intros t o r z Hin Hz. apply (B t o r z); auto.
    eapply Permutation_in; [symmetry; exact HP|]. apply in_or_app. now left.
Qed.

(** ** The other kinds, in the form of the statements *)
Lemma quiet_pidle {act resp mem op ret} (c : config act resp mem op ret) (th : nat -> pend op ret) :
  (forall t, match c_thr c t with Idle => th t = PIdle | Run _ _ => th t <> PIdle end) ->
  quiet c -> forall t, th t = PIdle.
Proof. intros H Hq t. specialize (H t). specialize (Hq t). now rewrite Hq in H. Qed.

Lemma ptr_main W v0 n0 l : ptr_world_ok W v0 -> legal (pcall_ok W) l ->
  let res := ptr_run W v0 n0 l in
  exists v th, linearizable_to (objects (ptr_spec W)) v0 (snd res) v th /\
    (forall a, ptr_shown W (c_mem (fst res)) a = v a /\ is_addr (p_bits (W a)) (v a)) /\
    (quiet (fst res) -> forall t, th t = PIdle).
Proof.
  intros HW Hl res. destruct (ptr_linearizable_aux W (fun a => proj1 (HW a)) (fun a => proj1 (proj2 (HW a))) v0 n0 l)
    as (v & th & H1 & H2 & H3); auto.
  { intros a. apply (HW a). }
  exists v, th. refine (conj H1 (conj _ (quiet_pidle _ _ H3))).
  intros a. destruct (H2 a) as [A B]. split; [|exact A]. unfold ptr_shown. fold res in B. rewrite B.
  destruct (HW a) as [[Ho _] _]. unfold p_bits in *. rewrite wrap_wrap_le by lia. now apply wrap_id.
Qed.

Lemma enum_main W v0 n0 l : enum_world_ok W v0 -> legal (ecall_ok W) l ->
  let res := enum_run W v0 n0 l in
  exists v th, linearizable_to (objects (enum_spec W)) v0 (snd res) v th /\
    (forall a, rng (e_sg (W a)) (e_vw (W a)) (v a)) /\
    (forall a, e_be (W a) = false \/ e_vw (W a) = e_w (W a) -> enum_shown W (c_mem (fst res)) a = v a) /\
    (quiet (fst res) -> forall t, th t = PIdle).
Proof.
  intros HW Hl res. destruct (enum_linearizable_aux W (fun a => proj1 (HW a)) v0 n0 l)
    as (v & th & H1 & H2 & H3); auto.
  { intros a. apply (HW a). }
  exists v, th. refine (conj H1 (conj (fun a => proj1 (H2 a)) (conj _ (quiet_pidle _ _ H3)))).
  intros a Hb. destruct (H2 a) as [A B]. unfold enum_shown. fold res in B. rewrite B.
  destruct (HW a) as [[Ho _] _]. simpl in Ho.
  rewrite enum_dec_norm; auto; [|apply inwrap0; lia].
  apply enc_dec; auto.
Qed.

Lemma fp_main W v0 n0 l : fp_world_ok W v0 -> legal (fcall_ok W) l ->
  let res := fp_run W v0 n0 l in
  exists v th, linearizable_to (objects (fp_spec W)) v0 (snd res) v th /\
    (forall a, fp_shown W (c_mem (fst res)) a = v a) /\
    (quiet (fst res) -> forall t, th t = PIdle).
Proof.
  intros HW Hl res. destruct (fp_linearizable_aux W v0 HW n0 l Hl) as (v & th & H1 & H2 & H3).
  exists v, th. refine (conj H1 (conj _ (quiet_pidle _ _ H3))).
  intros a. destruct (H2 a) as [A B]. unfold fp_shown. fold res in B. rewrite B. eapply fp_dec_enc; eauto.
Qed.

Lemma gen_main W v0 n0 l : gen_world_ok W v0 -> legal (gcall_ok W) l ->
  let res := gen_run W v0 n0 l in
  exists v th, linearizable_to (objects (gen_spec W)) (fun a => vbits (g_live (W a)) (v0 a)) (snd res) v th /\
    (forall a, gen_shown W (c_mem (fst res)) a = v a /\ vbits (g_live (W a)) (v a) = v a /\
               val (c_mem (fst res) a) = place (g_be (W a)) (g_w (W a)) (g_vw (W a)) (v a)) /\
    (quiet (fst res) -> forall t, th t = PIdle).
Proof.
  intros HW Hl res.
  destruct (gen_linearizable_aux W (fun a => conj (proj1 (HW a)) (proj1 (proj2 (HW a)))) v0 n0 l) as (v & th & H1 & H2 & H3); auto.
  { intros a. apply (HW a). }
  exists v, th. refine (conj H1 (conj _ (quiet_pidle _ _ H3))).
  intros a. destruct (H2 a) as [[A A'] B]. fold res in B. refine (conj _ (conj (eq_sym A') B)).
  unfold gen_shown. rewrite B. apply unplace_place; auto. apply (HW a).
Qed.

Lemma ref_main W x0 n0 l : ref_world_ok W x0 -> legal (rcall_ok W) l ->
  let res := ref_run W x0 n0 l in
  exists v th, linearizable_to (objects (ref_spec W)) x0 (snd res) v th /\
    (forall a, val (c_mem (fst res) a) = v a) /\
    (quiet (fst res) -> forall t, th t = PIdle).
Proof.
  intros HW Hl res.
  destruct (ref_linearizable_aux W (fun a => conj (proj1 (HW a)) (proj1 (proj2 (HW a)))) x0 n0 l) as (v & th & H1 & H2 & H3); auto.
  { intros a. apply (HW a). }
  exists v, th. refine (conj H1 (conj (fun a => proj2 (H2 a)) (quiet_pidle _ _ H3))).
Qed.

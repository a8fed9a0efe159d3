(** * Consequences of linearizability for integer atomics: proofs. *)
From Coq Require Import ZArith List Bool Lia Permutation.
From Verif Require Import SpecInt SpecLin SpecObj SpecHist SpecCount Order Conv WordFacts Prog Word RG CoreModel CoreProof
  ExtraModel ExtraProof FrontProof IntModel IntProof HistProof.
Import ListNotations.
Open Scope Z_scope.

Section Main.
  Variables (W : world) (v0 n0 : addr -> Z) (l : list (sched luck icall)).
  Hypothesis HW : world_ok W v0.
  Hypothesis Hl : legal (icall_ok W) l.
  Notation res := (int_run W v0 n0 l).

  Lemma int_main : exists v th,
    linearizable_to (objects (int_spec W)) v0 (snd res) v th /\
    (forall a, v a = shown W (c_mem (fst res)) a /\ val (c_mem (fst res) a) = stored_word W a (v a) /\
               rng (o_sg (W a)) (o_vw (W a)) (v a)) /\
    (quiet (fst res) -> forall t, th t = PIdle).
  Proof.
    destruct (int_linearizable_aux W (fun a => proj1 (HW a)) v0 n0 l (fun a => proj2 (HW a)) Hl)
      as (v & th & H1 & H2 & H3).
    exists v, th. refine (conj H1 (conj _ _)).
    - intros a. destruct (H2 a) as [Hr Hv]. unfold shown, stored_word.
      rewrite (obj_core_bits (W a) (proj1 (HW a))). unfold int_run. rewrite Hv.
      rewrite enc_dec; auto. apply (proj1 (HW a)).
    - intros Hq t. specialize (H3 t). specialize (Hq t). unfold int_run in Hq. now rewrite Hq in H3.
  Qed.

  Lemma int_seq a : exists c E,
    steps (int_spec W a) (v0 a) c (shown W (c_mem (fst res)) a) /\
    (quiet (fst res) -> E = []) /\
    Permutation c (calls_on a (completed (snd res)) ++ E) /\
    exists rest, Permutation (invoked_on a (snd res)) (map fst c ++ rest).
  Proof.
    destruct int_main as (v & th & HL & Hv & Hq).
    destruct (objects_seq _ _ _ _ _ a HL) as (c & E & Hc & HE & HP & Hr).
    exists c, E. rewrite <- (proj1 (Hv a)). refine (conj Hc (conj _ (conj HP Hr))).
    intros Hqq. destruct E as [|((t & o) & r) E]; auto.
    exfalso. apply (HE t o r); [now left | now apply Hq].
  Qed.

  Lemma steps_rng a x c y : steps (int_spec W a) x c y ->
    (forall t mo o, In (t, (mo, o)) (map fst c) -> iop_ok (o_sg (W a)) (o_vw (W a)) o) ->
    rng (o_sg (W a)) (o_vw (W a)) x -> rng (o_sg (W a)) (o_vw (W a)) y.
  Proof.
    assert (Hn : 0 < o_vw (W a)) by (destruct (proj1 (HW a)); lia).
    induction 1 as [s | s t [mo o] r s1 c s2 Hs Hc IH]; intros Hok Hx; auto.
    apply IH.
    - intros u mo' o' Hin. apply (Hok u mo' o'). now right.
    - assert (Ho : iop_ok (o_sg (W a)) (o_vw (W a)) o) by (apply (Hok t mo o); now left).
      unfold int_spec in Hs; simpl in Hs. inversion Hs; subst; simpl in Ho; auto; try tauto; now apply norm_rng.
  Qed.

End Main.

Lemma run_invoked W v0 n0 l : forall t o, In (t, o) (invoked (snd (int_run W v0 n0 l))) -> In (SInv t o) l.
Proof.
  unfold int_run. generalize (start (act := wact) (resp := wresp) (op := icall) (ret := iret) (int_mem W v0 n0)).
  induction l as [|e l IH]; intros c t o Hin; [destruct Hin|].
  simpl in Hin. destruct (cstep wexec (int_impl W) c e) as [c1 h1] eqn:E1.
  destruct (run wexec (int_impl W) c1 l) as [c2 h2] eqn:E2. simpl in Hin.
  unfold invoked in Hin. rewrite flat_map_app in Hin. apply in_app_or in Hin. destruct Hin as [Hin|Hin].
  - left. destruct e as [u p|u w|u]; simpl in E1.
    + destruct (c_thr c u); inversion E1; subst; simpl in Hin; [|destruct Hin].
      destruct Hin as [Hin|[]]. inversion Hin; subst. reflexivity.
    + destruct (c_thr c u); [inversion E1; subst; destruct Hin|].
      destruct (pstep wexec u w (c_mem c) p). inversion E1; subst; destruct Hin.
    + destruct (c_thr c u) as [|? [| |]]; inversion E1; subst; simpl in Hin; destruct Hin.
  - right. apply (IH c1). rewrite E2. exact Hin.
Qed.

Lemma in_invoked_on {op ret} a (h : list (event (nat * op) ret)) t o :
  In (t, o) (invoked_on a h) <-> In (t, (a, o)) (invoked h).
Proof.
  unfold invoked_on. rewrite in_flat_map. split.
  - intros ((u & (b & p)) & H1 & H2). destruct (Nat.eqb b a) eqn:E; [|destruct H2].
    apply Nat.eqb_eq in E. destruct H2 as [H2|[]]. inversion H2; subst. exact H1.
  - intros H. exists (t, (a, o)). split; auto. rewrite Nat.eqb_refl. now left.
Qed.

(** everything about one object in one place *)
Lemma int_object W v0 n0 l a :
  world_ok W v0 -> legal (icall_ok W) l ->
  let res := int_run W v0 n0 l in
  exists c E,
    steps (int_spec W a) (v0 a) c (shown W (c_mem (fst res)) a) /\
    (quiet (fst res) -> E = []) /\
    Permutation c (calls_on a (completed (snd res)) ++ E) /\
    (forall t o, In (t, o) (map fst c) -> In (t, o) (invoked_on a (snd res)) /\
        iop_ok (o_sg (W a)) (o_vw (W a)) (snd o)) /\
    (length c <= length (invoked_on a (snd res)))%nat.
Proof.
  intros HW Hl res. destruct (int_seq W v0 n0 l HW Hl a) as (c & E & Hc & Hq & HP & rest & Hr).
  exists c, E. refine (conj Hc (conj Hq (conj HP (conj _ _)))).
  - intros t o Hin.
    assert (Hi : In (t, o) (invoked_on a (snd res))).
    { eapply Permutation_in; [symmetry; exact Hr|]. apply in_or_app. now left. }
    split; [exact Hi|]. apply in_invoked_on in Hi. apply run_invoked in Hi. apply (Hl t _ Hi).
  - apply Permutation_length in Hr. rewrite app_length, map_length in Hr. unfold res. rewrite Hr. apply Nat.le_add_r.
Qed.

(** ** Sums *)
Lemma norm_add_norm sg n x k : 0 < n -> norm sg n (norm sg n x + k) = norm sg n (x + k).
Proof.
  intros Hn. apply norm_congr; auto. rewrite <- wrap_add_l, norm_wrap, wrap_add_l by auto. reflexivity.
Qed.

Lemma total_perm l l' : Permutation l l' -> total l = total l'.
Proof.
  induction 1 as [| ((t & (mo & o)) & r) l l' H IH | ((t & (mo & o)) & r) ((t' & (mo' & o')) & r') l | ]; simpl; lia.
Qed.

Lemma steps_total W v0 a x c y :
  world_ok W v0 -> steps (int_spec W a) x c y ->
  (forall t mo o, In (t, (mo, o)) (map fst c) -> delta o <> None) ->
  rng (o_sg (W a)) (o_vw (W a)) x -> y = norm (o_sg (W a)) (o_vw (W a)) (x + total c).
Proof.
  intros HW. assert (Hn : 0 < o_vw (W a)) by (destruct (proj1 (HW a)); lia).
  set (sg := o_sg (W a)). set (n := o_vw (W a)) in *.
  induction 1 as [s | s t [mo o] r s1 c s2 Hs Hc IH]; intros Hd Hx; simpl.
  - rewrite Z.add_0_r, norm_id; auto.
  - assert (Hdo : delta o <> None) by (apply (Hd t mo o); now left).
    unfold int_spec in Hs. cbv [snd] in Hs. fold sg n in Hs.
    assert (E : s1 = norm sg n (s + match delta o with Some k => k | None => 0 end)).
    { inversion Hs; subst; simpl in Hdo |- *; try congruence.
      - now rewrite Z.add_0_r, norm_id.
      - destruct e as [[] k|]; simpl in *; try congruence; f_equal; lia. }
    rewrite IH; [|intros u mo' o' Hin; apply (Hd u mo' o'); now right | subst s1; now apply norm_rng].
    rewrite E, norm_add_norm by auto. f_equal. lia.
Qed.

Theorem no_lost_update_aux W v0 n0 l a :
  world_ok W v0 -> legal (icall_ok W) l ->
  let res := int_run W v0 n0 l in
  quiet (fst res) ->
  (forall t mo o, In (t, (mo, o)) (invoked_on a (snd res)) -> delta o <> None) ->
  shown W (c_mem (fst res)) a =
    norm (o_sg (W a)) (o_vw (W a)) (v0 a + total (calls_on a (completed (snd res)))).
Proof.
  intros HW Hl res Hq Hd.
  destruct (int_object W v0 n0 l a HW Hl) as (c & E & Hc & HE & HP & Hi & _). fold res in Hc, HE, HP, Hi.
  rewrite (HE Hq), app_nil_r in HP. rewrite <- (total_perm _ _ HP).
  apply (steps_total W v0); auto.
  - intros t mo o Hin. apply (Hd t mo o). apply Hi, Hin.
  - apply HW.
Qed.

(** ** Tickets *)
Lemma norm_distinct sg n x i j : 0 < n -> 0 <= i < j -> j - i < 2 ^ n -> norm sg n (x + i) <> norm sg n (x + j).
Proof.
  intros Hn Hij Hlt E.
  assert (Ew : wrap n (x + i) = wrap n (x + j)) by (rewrite <- (norm_wrap sg n (x + i)), E, norm_wrap by auto; reflexivity).
  apply wrap_congr in Ew; [|lia]. destruct Ew as [q Eq].
  assert (q * 2 ^ n = i - j) by lia.
  assert (0 < 2 ^ n) by (apply pow2_gt0; lia).
  assert (q = -1 \/ q <= -2 \/ 0 <= q) by lia. nia.
Qed.

Lemma steps_tickets W v0 a x c y :
  world_ok W v0 -> steps (int_spec W a) x c y ->
  (forall t mo o, In (t, (mo, o)) (map fst c) -> o = Rmw Fetch (Bin Add 1)) ->
  rng (o_sg (W a)) (o_vw (W a)) x -> Z.of_nat (length c) <= 2 ^ o_vw (W a) ->
  NoDup (map snd c) /\
  (forall r, In r (map snd c) ->
     exists i, 0 <= i < Z.of_nat (length c) /\ r = RVal (norm (o_sg (W a)) (o_vw (W a)) (x + i))).
Proof.
  intros HW. assert (Hn : 0 < o_vw (W a)) by (destruct (proj1 (HW a)); lia).
  set (sg := o_sg (W a)). set (n := o_vw (W a)) in *.
  induction 1 as [s | s t [mo o] r s1 c s2 Hs Hc IH]; intros Hd Hx Hlen.
  - split; [constructor | intros r []].
  - assert (Ho : o = Rmw Fetch (Bin Add 1)) by (apply (Hd t mo o); now left). subst o.
    unfold int_spec in Hs. cbv [snd] in Hs. fold sg n in Hs. inversion Hs; subst. clear Hs.
    cbn [length map snd report In] in *. unfold eff_apply, bin_apply in *. rewrite Nat2Z.inj_succ in Hlen.
    rewrite Nat2Z.inj_succ.
    destruct IH as [IH1 IH2]; [intros u mo' o' Hin; apply (Hd u mo' o'); now right | now apply norm_rng | lia |].
    split.
    + constructor; auto. intros Hin. destruct (IH2 _ Hin) as (i & Hi & E). inversion E as [E'].
      rewrite norm_add_norm in E' by auto. replace (s + 1 + i) with (s + (1 + i)) in E' by lia.
      rewrite <- (norm_id sg n s Hn Hx) in E' at 1. rewrite <- (Z.add_0_r s) in E' at 1.
      apply (norm_distinct sg n s 0 (1 + i)) in E'; auto; lia.
    + intros r [<-|Hin].
      * exists 0. split; [lia|]. rewrite Z.add_0_r, norm_id; auto.
      * destruct (IH2 _ Hin) as (i & Hi & ->). exists (1 + i). split; [lia|].
        rewrite norm_add_norm by auto. do 2 f_equal. lia.
Qed.

Lemma NoDup_app_l {A} (l l' : list A) : NoDup (l ++ l') -> NoDup l.
Proof. induction l; simpl; intros H; [constructor|]. inversion H; subst. constructor; auto. intros Hi. apply H2. apply in_or_app. auto. Qed.

Theorem tickets_aux W v0 n0 l a :
  world_ok W v0 -> legal (icall_ok W) l ->
  let res := int_run W v0 n0 l in
  (forall t mo o, In (t, (mo, o)) (invoked_on a (snd res)) -> o = Rmw Fetch (Bin Add 1)) ->
  Z.of_nat (length (invoked_on a (snd res))) <= 2 ^ o_vw (W a) ->
  NoDup (map snd (calls_on a (completed (snd res)))) /\
  forall r, In r (map snd (calls_on a (completed (snd res)))) ->
     exists i, 0 <= i < Z.of_nat (length (invoked_on a (snd res))) /\
               r = RVal (norm (o_sg (W a)) (o_vw (W a)) (v0 a + i)).
Proof.
  intros HW Hl res Hd Hlen.
  destruct (int_object W v0 n0 l a HW Hl) as (c & E & Hc & HE & HP & Hi & Hlc). fold res in Hc, HE, HP, Hi, Hlc.
  destruct (steps_tickets W v0 a _ _ _ HW Hc) as [H1 H2].
  - intros t mo o Hin. apply (Hd t mo o). apply Hi, Hin.
  - apply HW.
  - lia.
  - assert (HPm := Permutation_map snd HP). rewrite map_app in HPm. split.
    + apply NoDup_app_l with (l' := map snd E). eapply Permutation_NoDup; [exact HPm | exact H1].
    + intros r Hin. destruct (H2 r) as (i & Hi2 & ->).
      { eapply Permutation_in; [symmetry; exact HPm|]. apply in_or_app. now left. }
      exists i. split; auto. lia.
Qed.

(** ** Compare-exchange *)
Theorem cas_results_aux W v0 n0 l a :
  world_ok W v0 -> legal (icall_ok W) l ->
  let res := int_run W v0 n0 l in
  forall t mo o r, In (t, (mo, o), r) (calls_on a (completed (snd res))) ->
    exists x x', rng (o_sg (W a)) (o_vw (W a)) x /\ istep (o_sg (W a)) (o_vw (W a)) x o r x'.
Proof.
  intros HW Hl res t mo o r Hin.
  destruct (int_object W v0 n0 l a HW Hl) as (c & E & Hc & HE & HP & Hi & Hlc). fold res in Hc, HE, HP, Hi, Hlc.
  assert (Hin' : In (t, (mo, o), r) c).
  { eapply Permutation_in; [symmetry; exact HP|]. apply in_or_app. now left. }
  assert (Hok : forall t o, In (t, o) (map fst c) -> iop_ok (o_sg (W a)) (o_vw (W a)) (snd o)) by (intros; eapply Hi; eauto).
  assert (Hx : rng (o_sg (W a)) (o_vw (W a)) (v0 a)) by apply HW.
  clear - Hc Hin' Hok Hx HW. revert Hin' Hok Hx.
  generalize dependent (shown W (c_mem (fst res)) a). generalize (v0 a).
  induction c as [|((u & (mo1 & o1)) & r1) c IH]; intros x y Hc Hin Hok Hx; [destruct Hin|].
  inversion Hc as [|s t1 o2 r2 s1 l2 s2 Hs Hrest]; subst.
  unfold int_spec in Hs; simpl in Hs.
  destruct Hin as [Eq|Hin].
  - inversion Eq; subst. eauto.
  - apply (IH s1 y Hrest Hin).
    + intros u0 o0 H0. apply (Hok u0 o0). now right.
    + eapply steps_rng with (x := x) (c := [((u, (mo1, o1)), r1)]); eauto.
      * econstructor; [exact Hs | constructor].
      * intros u0 mo' o' [H0|[]]. inversion H0; subst. apply (Hok u0 (mo', o')). now left.
Qed.

(** one election: everybody tries to replace the same value *)
Lemma steps_no_winner W a x c y e :
  steps (int_spec W a) x c y -> x <> e ->
  (forall t mo o, In (t, (mo, o)) (map fst c) -> exists d, o = CasStrong e d) ->
  y = x /\ forall t mo o r, In (t, (mo, o), r) c -> r = RCas false x.
Proof.
  induction 1 as [s | s t [mo o] r s1 c s2 Hs Hc IH]; intros Hx Hd.
  - split; auto. intros ? ? ? ? [].
  - destruct (Hd t mo o) as [d ->]; [now left|]. unfold int_spec in Hs. cbv [snd] in Hs.
    inversion Hs; subst; [congruence|].
    destruct IH as [-> H2]; auto; [intros u mo' o' Hin; apply (Hd u mo' o'); now right|].
    split; auto. intros u mo' o' r' [Eq|Hin]; [congruence | eauto].
Qed.

Lemma steps_winner W a e c y :
  steps (int_spec W a) e c y -> c <> [] ->
  (forall t mo o, In (t, (mo, o)) (map fst c) -> exists d, d <> e /\ o = CasStrong e d) ->
  exists c' t mo d, c = (t, (mo, CasStrong e d), RCas true e) :: c' /\ d <> e /\ y = d /\
    forall t mo o r, In (t, (mo, o), r) c' -> r = RCas false d.
Proof.
  intros Hs Hne Hd. destruct c as [|((t & (mo & o)) & r) c]; [congruence|].
  inversion Hs as [|s t1 o2 r2 s1 l2 s2 H1 Hrest]; subst.
  destruct (Hd t mo o) as (d & Hde & ->); [now left|].
  unfold int_spec in H1. cbv [snd] in H1. inversion H1; subst; [|congruence].
  destruct (steps_no_winner W a _ _ _ e Hrest) as [-> H2]; auto.
  - intros u mo' o' Hin. destruct (Hd u mo' o') as (d' & _ & ->); [now right | eauto].
  - exists c, t, mo, s1. auto.
Qed.

Lemma count_perm f l l' : Permutation l l' -> count f l = count f l'.
Proof.
  unfold count. induction 1 as [| ((t & (mo & o)) & r) l l' H IH | ((t & (mo & o)) & r) ((t' & (mo' & o')) & r') l | ]; simpl; auto.
  - destruct (f o r); simpl; auto.
  - destruct (f o r), (f o' r'); simpl; auto.
  - congruence.
Qed.

Lemma count_app f l l' : count f (l ++ l') = (count f l + count f l')%nat.
Proof. unfold count. rewrite filter_app, app_length. reflexivity. Qed.

Lemma count_zero f l : (forall t mo o r, In (t, (mo, o), r) l -> f o r = false) -> count f l = 0%nat.
Proof.
  intros H. unfold count. induction l as [|((t & (mo & o)) & r) l IH]; simpl; auto.
  rewrite (H t mo o r (or_introl eq_refl)). apply IH. intros u mo' o' r' Hin. apply (H u mo' o' r'). now right.
Qed.

Theorem election_aux W v0 n0 l a :
  world_ok W v0 -> legal (icall_ok W) l ->
  let res := int_run W v0 n0 l in
  (forall t mo o, In (t, (mo, o)) (invoked_on a (snd res)) -> exists d, d <> v0 a /\ o = CasStrong (v0 a) d) ->
  (count (fun _ r => succeeded r) (calls_on a (completed (snd res))) <= 1)%nat /\
  (quiet (fst res) -> calls_on a (completed (snd res)) <> [] ->
   exists t mo d, In (t, (mo, CasStrong (v0 a) d), RCas true (v0 a)) (calls_on a (completed (snd res))) /\
     shown W (c_mem (fst res)) a = d /\
     count (fun _ r => succeeded r) (calls_on a (completed (snd res))) = 1%nat /\
     forall t mo o r, In (t, (mo, o), r) (calls_on a (completed (snd res))) ->
       r = RCas true (v0 a) \/ r = RCas false d).
Proof.
  intros HW Hl res Hd.
  destruct (int_object W v0 n0 l a HW Hl) as (c & E & Hc & HE & HP & Hi & _). fold res in Hc, HE, HP, Hi.
  assert (Hd' : forall t mo o, In (t, (mo, o)) (map fst c) -> exists d, d <> v0 a /\ o = CasStrong (v0 a) d).
  { intros t mo o Hin. apply (Hd t mo o). apply Hi, Hin. }
  destruct c as [|x c].
  - apply Permutation_nil in HP. apply app_eq_nil in HP. destruct HP as [HP _]. rewrite HP.
    split; [simpl; auto|]. intros _ H. congruence.
  - destruct (steps_winner W a _ _ _ Hc ltac:(discriminate) Hd') as (c' & t & mo & d & E1 & Hde & Hy & Hlose).
    inversion E1; subst x c.
    assert (Hcnt : count (fun _ r => succeeded r) ((t, (mo, CasStrong (v0 a) d), RCas true (v0 a)) :: c') = 1%nat).
    { change (S (count (fun _ r => succeeded r) c') = 1%nat). f_equal. apply count_zero. intros u mo' o r Hin.
      rewrite (Hlose _ _ _ _ Hin). reflexivity. }
    rewrite (count_perm _ _ _ HP), count_app in Hcnt.
    split; [lia|]. intros Hq _. rewrite (HE Hq), app_nil_r in HP. rewrite (HE Hq) in Hcnt.
    exists t, mo, d. refine (conj _ (conj Hy (conj _ _))).
    + eapply Permutation_in; [exact HP | now left].
    + unfold count at 2 in Hcnt. simpl in Hcnt. lia.
    + intros u mo' o r Hin. eapply Permutation_in in Hin; [|symmetry; exact HP].
      destruct Hin as [Eq|Hin]; [left; congruence | right; eauto].
Qed.

(** ** A call on its own *)
Definition solo (t : nat) (c : icall) (ws : list luck) : list (sched luck icall) :=
  SInv t c :: map (SStep t) ws ++ [SRes t].

Lemma solo_legal (ok : icall -> Prop) t c ws : ok c -> legal ok (solo t c ws).
Proof.
  intros H u o [E|Hin]; [inversion E; subst; exact H|].
  apply in_app_or in Hin. destruct Hin as [Hin|[Hin|[]]]; [|discriminate].
  apply in_map_iff in Hin. destruct Hin as (w & E & _). discriminate.
Qed.

Theorem solo_aux W v0 n0 t a mo o ws r :
  world_ok W v0 -> icall_ok W (a, (mo, o)) ->
  let res := int_run W v0 n0 (solo t (a, (mo, o)) ws) in
  snd res = [EInv t (a, (mo, o)); ERes t r] ->
  istep (o_sg (W a)) (o_vw (W a)) (v0 a) o r (shown W (c_mem (fst res)) a) /\
  (forall b, b <> a -> shown W (c_mem (fst res)) b = v0 b).
Proof.
  intros HW Hok res Hh.
  assert (Hall : forall b, exists c, steps (int_spec W b) (v0 b) c (shown W (c_mem (fst res)) b) /\
                              Permutation c (calls_on b (completed (snd res)))).
  { intros b.
    destruct (int_object W v0 n0 (solo t (a, (mo, o)) ws) b HW (solo_legal _ _ _ _ Hok)) as (c & E & Hc & _ & HP & _ & Hlen).
    fold res in Hc, HP, Hlen. rewrite Hh in HP, Hlen. exists c. split; auto. rewrite HP, Hh.
    assert (E = []) as ->; [|now rewrite app_nil_r].
    unfold invoked_on in Hlen; simpl in Hlen. unfold completed in HP; simpl in HP. rewrite tset_same in HP. simpl in HP.
    rewrite (Permutation_length HP), app_length in Hlen.
    destruct (Nat.eqb a b); simpl in Hlen; destruct E; simpl in Hlen; auto; lia. }
  split.
  - destruct (Hall a) as (c & Hc & HP). rewrite Hh in HP. unfold completed in HP; simpl in HP.
    rewrite tset_same in HP. simpl in HP. rewrite Nat.eqb_refl in HP. simpl in HP.
    symmetry in HP. apply Permutation_length_1_inv in HP. subst c.
    inversion Hc as [|s t1 o2 r2 s1 l2 s2 H1 Hrest]; subst. inversion Hrest; subst. exact H1.
  - intros b Hb. destruct (Hall b) as (c & Hc & HP). rewrite Hh in HP. unfold completed in HP; simpl in HP.
    rewrite tset_same in HP. simpl in HP.
    assert (E : Nat.eqb a b = false) by (apply Nat.eqb_neq; congruence). rewrite E in HP. simpl in HP.
    symmetry in HP. apply Permutation_nil in HP. subst c. inversion Hc; subst. reflexivity.
Qed.

(** ** Bits *)
Lemma norm_testbit sg n x j : 0 < n -> 0 <= j < n -> Z.testbit (norm sg n x) j = Z.testbit x j.
Proof.
  intros Hn Hj. assert (E := norm_wrap sg n x Hn).
  assert (E2 : Z.testbit (wrap n (norm sg n x)) j = Z.testbit (wrap n x) j) by now rewrite E.
  rewrite !wrap_testbit in E2 by lia. destruct (Z.ltb_spec j n); [exact E2 | lia].
Qed.

Lemma bit_apply_testbit k x i j : 0 <= i -> 0 <= j ->
  Z.testbit (bit_apply k x i) j =
  if j =? i then match k with BSet => true | BReset => false | BCompl => negb (Z.testbit x i) end
  else Z.testbit x j.
Proof.
  intros Hi Hj. rewrite bit_apply_bin by lia. destruct k.
  - rewrite Z.lor_spec, Z.pow2_bits_eqb by lia. rewrite (Z.eqb_sym i j).
    destruct (j =? i); [apply orb_true_r | apply orb_false_r].
  - rewrite Z.land_spec, Z.lnot_spec, Z.pow2_bits_eqb by lia. rewrite (Z.eqb_sym i j).
    destruct (j =? i); simpl; [apply andb_false_r | apply andb_true_r].
  - rewrite Z.lxor_spec, Z.pow2_bits_eqb by lia. rewrite (Z.eqb_sym i j).
    destruct (Z.eqb_spec j i) as [->|]; [apply xorb_true_r | apply xorb_false_r].
Qed.

Lemma steps_bits W v0 a x c y i :
  world_ok W v0 -> steps (int_spec W a) x c y -> 0 <= i < o_vw (W a) ->
  (forall t mo o, In (t, (mo, o)) (map fst c) -> exists j, 0 <= j < o_vw (W a) /\ o = BitTest BSet j) ->
  Z.testbit y i = Z.testbit x i || negb (Nat.eqb (count (fun o _ => sets_bit i o) c) 0) /\
  count (fun o r => sets_bit i o && negb (succeeded r)) c =
    (if Z.testbit x i then 0 else Nat.min 1 (count (fun o _ => sets_bit i o) c))%nat.
Proof.
  intros HW. assert (Hn : 0 < o_vw (W a)) by (destruct (proj1 (HW a)); lia).
  set (sg := o_sg (W a)). set (n := o_vw (W a)) in *.
  induction 1 as [s | s t [mo o] r s1 c s2 Hs Hc IH]; intros Hi Hd.
  - unfold count. simpl. rewrite orb_false_r. destruct (Z.testbit s i); auto.
  - destruct (Hd t mo o) as (j & Hj & ->); [now left|].
    unfold int_spec in Hs. cbv [snd] in Hs. fold sg n in Hs. inversion Hs; subst. clear Hs.
    destruct IH as [IH1 IH2]; auto; [intros u mo' o' Hin; apply (Hd u mo' o'); now right|].
    rewrite norm_testbit, bit_apply_testbit in IH1, IH2 by lia.
    unfold count in *. cbn [filter sets_bit]. destruct (Z.eqb_spec i j) as [<-|Hne].
    + rewrite IH1. cbn [length orb negb Nat.eqb andb succeeded].
      split; [now rewrite orb_true_r|].
      destruct (Z.testbit s i); cbn [negb length]; rewrite IH2; auto.
    + rewrite IH1. cbn [andb]. split; auto.
Qed.

Theorem bits_claimed_aux W v0 n0 l a :
  world_ok W v0 -> legal (icall_ok W) l ->
  let res := int_run W v0 n0 l in
  quiet (fst res) ->
  (forall t mo o, In (t, (mo, o)) (invoked_on a (snd res)) -> exists j, o = BitTest BSet j) ->
  forall i, 0 <= i < o_vw (W a) ->
  let done := calls_on a (completed (snd res)) in
  Z.testbit (shown W (c_mem (fst res)) a) i =
    Z.testbit (v0 a) i || negb (Nat.eqb (count (fun o _ => sets_bit i o) done) 0) /\
  count (fun o r => sets_bit i o && negb (succeeded r)) done =
    (if Z.testbit (v0 a) i then 0 else Nat.min 1 (count (fun o _ => sets_bit i o) done))%nat.
Proof.
  intros HW Hl res Hq Hd i Hi0 done.
  destruct (int_object W v0 n0 l a HW Hl) as (c & E & Hc & HE & HP & Hi & _). fold res in Hc, HE, HP, Hi.
  rewrite (HE Hq), app_nil_r in HP. unfold done. rewrite <- !(count_perm _ _ _ HP).
  apply (steps_bits W v0 a); auto.
  intros t mo o Hin. destruct (Hi _ _ Hin) as [Hi1 Hi2]. destruct (Hd t mo o Hi1) as [j ->]. exists j. split; auto.
Qed.

(** ** One call inside the one-at-a-time execution *)
Lemma steps_split {op ret state} (spec : state -> op -> ret -> state -> Prop) s c1 x c2 s' :
  steps spec s (c1 ++ x :: c2) s' ->
  exists y y', steps spec s c1 y /\ spec y (snd (fst x)) (snd x) y' /\ steps spec y' c2 s'.
Proof.
  revert s. induction c1 as [|z c1 IH]; simpl; intros s H.
  - inversion H; subst. simpl. exists s, s1. repeat split; auto. constructor.
  - inversion H as [|? ? ? ? s1 ? ? H1 H2]; subst. destruct (IH _ H2) as (y & y' & A & B & C).
    exists y, y'. repeat split; auto. econstructor; eauto.
Qed.

Theorem explained_aux W v0 n0 l a :
  world_ok W v0 -> legal (icall_ok W) l ->
  let res := int_run W v0 n0 l in
  exists c E,
    steps (int_spec W a) (v0 a) c (shown W (c_mem (fst res)) a) /\
    Permutation c (calls_on a (completed (snd res)) ++ E) /\
    (quiet (fst res) -> E = []) /\
    forall t mo o r, In (t, (mo, o), r) (calls_on a (completed (snd res))) ->
      exists c1 x x' c2, c = c1 ++ (t, (mo, o), r) :: c2 /\
        steps (int_spec W a) (v0 a) c1 x /\
        istep (o_sg (W a)) (o_vw (W a)) x o r x' /\
        steps (int_spec W a) x' c2 (shown W (c_mem (fst res)) a).
Proof.
  intros HW Hl res. destruct (int_object W v0 n0 l a HW Hl) as (c & E & Hc & HE & HP & _ & _). fold res in Hc, HE, HP.
  exists c, E. refine (conj Hc (conj HP (conj HE _))).
  intros t mo o r Hin.
  assert (Hin' : In (t, (mo, o), r) c).
  { eapply Permutation_in; [symmetry; exact HP|]. apply in_or_app. now left. }
  apply in_split in Hin'. destruct Hin' as (c1 & c2 & ->).
  destruct (steps_split _ _ _ _ _ _ Hc) as (y & y' & A & B & C).
  exists c1, y, y', c2. auto.
Qed.

Theorem C01_aux W v0 n0 l :
  world_ok W v0 ->
  (forall a, o_vw (W a) = o_w (W a)) ->
  (forall t a mo o, In (SInv t (a, (mo, o))) l -> iop_ok (o_sg (W a)) (o_vw (W a)) o) ->
  linearizable (objects (int_spec W)) v0 (snd (int_run W v0 n0 l)).
Proof.
  intros HW Hw Hl. destruct (int_main W v0 n0 l HW) as (v & th & H & _).
  - intros t (a & mo & o) Hin. split; [now apply (Hl t a mo o) | left; apply Hw].
  - exists v, th. exact H.
Qed.

Theorem C02_aux W v0 n0 l :
  world_ok W v0 ->
  (forall t a mo o, In (SInv t (a, (mo, o))) l -> core_call o = true /\ iop_ok (o_sg (W a)) (o_vw (W a)) o) ->
  let res := int_run W v0 n0 l in
  linearizable (objects (int_spec W)) v0 (snd res) /\
  (forall a, rng (o_sg (W a)) (o_vw (W a)) (shown W (c_mem (fst res)) a) /\
             val (c_mem (fst res) a) = stored_word W a (shown W (c_mem (fst res)) a)).
Proof.
  intros HW Hl res. destruct (int_main W v0 n0 l HW) as (v & th & H & Hv & _).
  - intros t (a & mo & o) Hin. destruct (Hl t a mo o Hin) as [Hc Ho]. split; [exact Ho | right; simpl].
    destruct o as [| | | | |[] []|]; simpl in Hc |- *; congruence.
  - split; [exists v, th; exact H|]. intros a. destruct (Hv a) as (E1 & E2 & E3). fold res in E1, E2.
    rewrite <- E1. auto.
Qed.

(** ** The calls of the four forms agree *)
Theorem forms_aux W v0 n0 t a mo f e ws r :
  world_ok W v0 -> icall_ok W (a, (mo, Rmw f e)) ->
  let res := int_run W v0 n0 (solo t (a, (mo, Rmw f e)) ws) in
  snd res = [EInv t (a, (mo, Rmw f e)); ERes t r] ->
  let new := norm (o_sg (W a)) (o_vw (W a)) (eff_apply e (v0 a)) in
  shown W (c_mem (fst res)) a = new /\
  r = match f with Fetch => RVal (v0 a) | Result => RVal new | Opaque => RUnit | Test => RBool (negb (new =? 0)) end.
Proof.
  intros HW Hok res Hh new. destruct (solo_aux W v0 n0 t a mo (Rmw f e) ws r HW Hok Hh) as [H _].
  fold res in H. inversion H; subst. auto.
Qed.

Theorem one_bit_aux W v0 n0 t a mo k i ws r :
  world_ok W v0 -> icall_ok W (a, (mo, BitTest k i)) ->
  let res := int_run W v0 n0 (solo t (a, (mo, BitTest k i)) ws) in
  snd res = [EInv t (a, (mo, BitTest k i)); ERes t r] ->
  r = RBool (Z.testbit (v0 a) i) /\
  forall j, 0 <= j < o_vw (W a) ->
    Z.testbit (shown W (c_mem (fst res)) a) j =
    if j =? i then match k with BSet => true | BReset => false | BCompl => negb (Z.testbit (v0 a) i) end
    else Z.testbit (v0 a) j.
Proof.
  intros HW Hok res Hh. destruct (solo_aux W v0 n0 t a mo (BitTest k i) ws r HW Hok Hh) as [H _].
  fold res in H. destruct Hok as [Hi _]. simpl in Hi. inversion H; subst. split; auto.
  intros j Hj. rewrite norm_testbit, bit_apply_testbit by lia. reflexivity.
Qed.

Theorem C03_aux W v0 n0 l a :
  world_ok W v0 -> legal (icall_ok W) l ->
  let res := int_run W v0 n0 l in
  exists c E,
    steps (int_spec W a) (v0 a) c (shown W (c_mem (fst res)) a) /\
    Permutation c (calls_on a (completed (snd res)) ++ E) /\
    (quiet (fst res) -> E = []) /\
    forall t mo e d r, In (t, (mo, CasStrong e d), r) (calls_on a (completed (snd res))) ->
      exists c1 x x' c2, c = c1 ++ (t, (mo, CasStrong e d), r) :: c2 /\
        steps (int_spec W a) (v0 a) c1 x /\
        steps (int_spec W a) x' c2 (shown W (c_mem (fst res)) a) /\
        ((x = e /\ r = RCas true e /\ x' = d) \/ (x <> e /\ r = RCas false x /\ x' = x)).
Proof.
  intros HW Hl res. destruct (explained_aux W v0 n0 l a HW Hl) as (c & E & H1 & H2 & H3 & H4).
  exists c, E. refine (conj H1 (conj H2 (conj H3 _))). intros t mo e d r Hin.
  destruct (H4 _ _ _ _ Hin) as (c1 & x & x' & c2 & A & B & C & D).
  exists c1, x, x', c2. refine (conj A (conj B (conj D _))). inversion C; subst; auto.
Qed.

Theorem C04_aux W v0 n0 l a :
  world_ok W v0 -> legal (icall_ok W) l ->
  let res := int_run W v0 n0 l in
  exists c E,
    steps (int_spec W a) (v0 a) c (shown W (c_mem (fst res)) a) /\
    Permutation c (calls_on a (completed (snd res)) ++ E) /\
    (quiet (fst res) -> E = []) /\
    forall t mo e d r, In (t, (mo, CasWeak e d), r) (calls_on a (completed (snd res))) ->
      exists c1 x x' c2, c = c1 ++ (t, (mo, CasWeak e d), r) :: c2 /\
        steps (int_spec W a) (v0 a) c1 x /\
        steps (int_spec W a) x' c2 (shown W (c_mem (fst res)) a) /\
        ((x = e /\ r = RCas true e /\ x' = d) \/ (r = RCas false x /\ x' = x)).
Proof.
  intros HW Hl res. destruct (explained_aux W v0 n0 l a HW Hl) as (c & E & H1 & H2 & H3 & H4).
  exists c, E. refine (conj H1 (conj H2 (conj H3 _))). intros t mo e d r Hin.
  destruct (H4 _ _ _ _ Hin) as (c1 & x & x' & c2 & A & B & C & D).
  exists c1, x, x', c2. refine (conj A (conj B (conj D _))). inversion C; subst; auto.
Qed.

Theorem C07_aux W v0 n0 t a mo f e ws r :
  world_ok W v0 -> o_vw (W a) = o_w (W a) -> iop_ok (o_sg (W a)) (o_vw (W a)) (Rmw f e) ->
  let res := int_run W v0 n0 (solo t (a, (mo, Rmw f e)) ws) in
  snd res = [EInv t (a, (mo, Rmw f e)); ERes t r] ->
  let new := norm (o_sg (W a)) (o_vw (W a)) (eff_apply e (v0 a)) in
  shown W (c_mem (fst res)) a = new /\
  r = match f with Fetch => RVal (v0 a) | Result => RVal new | Opaque => RUnit | Test => RBool (negb (new =? 0)) end.
Proof. intros HW Hw Hok. apply forms_aux; auto. split; auto. Qed.

Theorem C08_aux W v0 n0 t a mo k i ws r :
  world_ok W v0 -> o_vw (W a) = o_w (W a) -> 0 <= i < o_vw (W a) ->
  let res := int_run W v0 n0 (solo t (a, (mo, BitTest k i)) ws) in
  snd res = [EInv t (a, (mo, BitTest k i)); ERes t r] ->
  r = RBool (Z.testbit (v0 a) i) /\
  forall j, 0 <= j < o_vw (W a) ->
    Z.testbit (shown W (c_mem (fst res)) a) j =
    if j =? i then match k with BSet => true | BReset => false | BCompl => negb (Z.testbit (v0 a) i) end
    else Z.testbit (v0 a) j.
Proof. intros HW Hw Hok. apply one_bit_aux; auto. split; auto. Qed.

Theorem C47_aux W v0 n0 l :
  world_ok W v0 ->
  (forall t a mo o, In (SInv t (a, (mo, o))) l -> wide_safe (W a) o = true /\ iop_ok (o_sg (W a)) (o_vw (W a)) o) ->
  linearizable (objects (int_spec W)) v0 (snd (int_run W v0 n0 l)).
Proof.
  intros HW Hl. destruct (int_main W v0 n0 l HW) as (v & th & H & _).
  - intros t (a & mo & o) Hin. destruct (Hl t a mo o Hin) as [Hc Ho]. split; [exact Ho | right; exact Hc].
  - exists v, th. exact H.
Qed.

Theorem arm_genuine_aux W v0 n0 l a :
  world_ok W v0 -> legal (icall_ok W) l -> o_core (W a) = KLinuxArm ->
  let res := int_run W v0 n0 l in
  forall t mo e d r, In (t, (mo, CasStrong e d), r) (calls_on a (completed (snd res))) ->
    r = RCas true e \/ exists x, x <> e /\ rng (o_sg (W a)) (o_vw (W a)) x /\ r = RCas false x.
Proof.
  intros HW Hl _ res t mo e d r Hin.
  destruct (cas_results_aux W v0 n0 l a HW Hl t mo (CasStrong e d) r Hin) as (x & x' & Hr & Hs).
  inversion Hs; subst; [left; reflexivity | right; eauto].
Qed.

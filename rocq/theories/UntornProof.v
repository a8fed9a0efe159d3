(** * Values read are values written: proofs. *)
From Coq Require Import ZArith List Bool Lia Permutation.
From Verif Require Import SpecInt SpecLin SpecObj SpecHist SpecUntorn SpecPair Order Prog Word HistProof IntModel IntConseq PairModel PairProof.
Import ListNotations.
Open Scope Z_scope.

Lemma gen_run_invoked {op ret} (impl : op -> wprog ret) l : forall c t o,
  In (t, o) (invoked (snd (run wexec impl c l))) -> In (SInv t o) l.
Proof.
  induction l as [|e l IH]; intros c t o Hin; [destruct Hin|].
  simpl in Hin. destruct (cstep wexec impl c e) as [c1 h1] eqn:E1.
  destruct (run wexec impl c1 l) as [c2 h2] eqn:E2. simpl in Hin.
  unfold invoked in Hin. rewrite flat_map_app in Hin. apply in_app_or in Hin. destruct Hin as [Hin|Hin].
  - left. destruct e as [u p|u w|u]; simpl in E1.
    + destruct (c_thr c u); inversion E1; subst; simpl in Hin; [|destruct Hin].
      destruct Hin as [Hin|[]]. inversion Hin; subst. reflexivity.
    + destruct (c_thr c u); [inversion E1; subst; destruct Hin|].
      destruct (pstep wexec u w (c_mem c) p). inversion E1; subst; destruct Hin.
    + destruct (c_thr c u) as [|? [| |]]; inversion E1; subst; simpl in Hin; destruct Hin.
  - right. apply (IH c1). rewrite E2. exact Hin.
Qed.

Section Untorn.
  Variable spec : Z -> morder * iop -> iret -> Z -> Prop.
  Variable rd : iret -> Z -> Prop.
  Hypothesis H : forall x o r x', spec x o r x' -> plain (snd o) = true ->
    (x' = x \/ writes (snd o) x') /\ (forall v, rd r v -> v = x).

  Lemma steps_untorn (P : Z -> Prop) x c y : steps spec x c y -> P x ->
    (forall t o, In (t, o) (map fst c) -> plain (snd o) = true /\ forall v, writes (snd o) v -> P v) ->
    P y /\ forall t o r v, In (t, o, r) c -> rd r v -> P v.
  Proof.
    induction 1 as [s | s t o r s1 c s2 Hs Hc IH]; intros Hx Hok.
    - split; [exact Hx | intros ? ? ? ? []].
    - destruct (Hok t o (or_introl eq_refl)) as [Hpl Hw].
      destruct (H _ _ _ _ Hs Hpl) as [H1 H2].
      assert (HP1 : P s1) by (destruct H1 as [->|H1]; auto).
      destruct (IH HP1 (fun u p Hin => Hok u p (or_intror Hin))) as [IH1 IH2].
      split; [exact IH1|]. intros u p r' v [Eq|Hin] Hr.
      + inversion Eq; subst. rewrite (H2 v Hr). exact Hx.
      + eapply IH2; eauto.
  Qed.
End Untorn.

Lemma untorn_gen (spec : nat -> Z -> morder * iop -> iret -> Z -> Prop) (rd : iret -> Z -> Prop) v0 h v th a :
  (forall x o r x', spec a x o r x' -> plain (snd o) = true ->
    (x' = x \/ writes (snd o) x') /\ (forall v, rd r v -> v = x)) ->
  linearizable_to (objects spec) v0 h v th ->
  (forall t mo o, In (t, (mo, o)) (invoked_on a h) -> plain o = true) ->
  source (v0 a) (invoked_on a h) (v a) /\
  forall t o r x, In (t, o, r) (calls_on a (completed h)) -> rd r x -> source (v0 a) (invoked_on a h) x.
Proof.
  intros Hs HL Hp.
  destruct (objects_seq _ _ _ _ _ a HL) as (c & E & Hc & HE & HP & rest & Hr).
  destruct (steps_untorn (spec a) rd Hs (source (v0 a) (invoked_on a h)) _ _ _ Hc) as [H1 H2].
  - now left.
  - intros t [mo o] Hin.
    assert (Hi : In (t, (mo, o)) (invoked_on a h)).
    { eapply Permutation_in; [symmetry; exact Hr|]. apply in_or_app. now left. }
    split; [apply (Hp t mo o Hi)|]. intros x Hx. right. exists t, mo, o. auto.
  - split; [exact H1|]. intros t o r x Hin Hx. apply (H2 t o r x); auto.
    eapply Permutation_in; [symmetry; exact HP|]. apply in_or_app. now left.
Qed.

Lemma istep_plain sg n x o r x' : istep sg n x o r x' -> plain o = true ->
  (x' = x \/ writes o x') /\ (forall v, reads r v -> v = x).
Proof.
  intros H Hp. inversion H; subst; try discriminate Hp; (split; [|intros w [E|[b E]]; inversion E; reflexivity]);
    unfold writes; eauto 6.
Qed.

Lemma pair_plain sg n x o r x' : pair_step sg n x o r x' -> plain o = true ->
  (x' = x \/ writes o x') /\ (forall v, reads_ok r v -> v = x).
Proof.
  intros H Hp. inversion H as [x1 o1 r1 x2 Hi | |]; subst.
  - destruct (istep_plain _ _ _ _ _ _ Hi Hp) as [A B]. split; [exact A|].
    intros v [E|E]; apply B; unfold reads; eauto.
  - split; [now left|]. intros v [E|E]; inversion E.
  - split; [now left|]. intros v [E|E]; inversion E.
Qed.

Theorem int_untorn_aux W v0 n0 l a :
  world_ok W v0 -> legal (icall_ok W) l ->
  let res := int_run W v0 n0 l in
  (forall t mo o, In (t, (mo, o)) (invoked_on a (snd res)) -> plain o = true) ->
  source (v0 a) (invoked_on a (snd res)) (shown W (c_mem (fst res)) a) /\
  forall t o r x, In (t, o, r) (calls_on a (completed (snd res))) -> reads r x ->
    source (v0 a) (invoked_on a (snd res)) x.
Proof.
  intros HW Hl res Hp. destruct (int_main W v0 n0 l HW Hl) as (v & th & HL & Hv & _).
  unfold res. rewrite <- (proj1 (Hv a)).
  apply (untorn_gen (int_spec W) reads v0 _ v th a); auto.
  intros x o r x' Hs. apply istep_plain with (1 := Hs).
Qed.

Theorem pair_untorn_aux W v0 n0 l a :
  (forall a, rng (W a) 128 (v0 a)) ->
  (forall t a mo o, In (SInv t (a, (mo, o))) l -> iop_ok (W a) 128 o) ->
  let res := pair_run W v0 n0 l in
  (forall t mo o, In (t, (mo, o)) (invoked_on a (snd res)) -> plain o = true) ->
  source (v0 a) (invoked_on a (snd res)) (pair_shown W (c_mem (fst res)) a) /\
  forall t o r x, In (t, o, r) (calls_on a (completed (snd res))) -> reads_ok r x ->
    source (v0 a) (invoked_on a (snd res)) x.
Proof.
  intros HW Hl res Hp. destruct (pair_linearizable_aux W v0 n0 l HW Hl) as (v & th & HL & Hv & _).
  unfold res. rewrite <- (Hv a).
  apply (untorn_gen (pair_spec W) reads_ok v0 _ v th a); auto.
  intros x o r x' Hs. apply pair_plain with (1 := Hs).
Qed.

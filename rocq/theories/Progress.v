(** * Progress of calls that are left alone. *)
From Coq Require Import ZArith List Bool Lia.
From Verif Require Import SpecInt SpecLin SpecAlone Order Conv Prog Word CoreModel ExtraModel IntModel.
Import ListNotations.
Open Scope Z_scope.
Open Scope prog_scope.

(** ** Programs up to extensional equality *)
Inductive peq {R : Type} : wprog R -> wprog R -> Prop :=
| peq_ret r : peq (Ret r) (Ret r)
| peq_do a k k' : (forall x, peq (k x) (k' x)) -> peq (Do a k) (Do a k')
| peq_loop X B (body : X -> wprog (X + B)) s k k' :
    (forall b, peq (k b) (k' b)) -> peq (Loop body s k) (Loop body s k').

Lemma peq_refl {R} (p : wprog R) : peq p p.
Proof. induction p; constructor; auto. Qed.

Lemma peq_bind {R R'} (p : wprog R) (f g : R -> wprog R') : (forall r, peq (f r) (g r)) -> peq (bind p f) (bind p g).
Proof. intros H. induction p; simpl; auto; constructor; auto. Qed.

Lemma bind_bind {R R' R''} (p : wprog R) (f : R -> wprog R') (g : R' -> wprog R'') (h : R -> wprog R'') :
  (forall r, peq (h r) (bind (f r) g)) -> peq (bind p h) (bind (bind p f) g).
Proof. intros H. induction p; simpl; [apply H | constructor; auto | constructor; auto]. Qed.

Definition contl {X B R} (body : X -> wprog (X + B)) (k : B -> wprog R) (y : X + B) : wprog R :=
  match y with inl s' => Loop body s' k | inr b => k b end.

Lemma pstep_peq {R} t w m (p q : wprog R) : peq p q ->
  fst (pstep wexec t w m p) = fst (pstep wexec t w m q) /\ peq (snd (pstep wexec t w m p)) (snd (pstep wexec t w m q)).
Proof.
  intros H. inversion H; subst; simpl.
  - split; [reflexivity | constructor].
  - destruct (wexec t a m w) as [[m' x]|]; simpl; split; auto.
  - split; [reflexivity|]. apply peq_bind. intros [s'|b]; auto. now constructor.
Qed.

Lemma pstep_bind {R R'} t w m (p : wprog R) (f : R -> wprog R') :
  (forall r, p <> Ret r) ->
  fst (pstep wexec t w m (bind p f)) = fst (pstep wexec t w m p) /\
  peq (snd (pstep wexec t w m (bind p f))) (bind (snd (pstep wexec t w m p)) f).
Proof.
  destruct p; simpl; intros H; [exfalso; apply (H r); reflexivity | |].
  - destruct (wexec t a m w) as [[m' x]|]; simpl; split; auto; apply peq_refl.
  - split; [reflexivity|]. apply bind_bind. intros [s'|b]; simpl; apply peq_refl.
Qed.

(** ** Running alone: [ev a n c p Q] - from any memory whose cell [a] is [c], if nobody else writes
    that cell and nothing fails spuriously, [p] returns within [n] steps, with [Q result cell]. *)
Fixpoint ev {R} (a : addr) (n : nat) (c : cell) (p : wprog R) (Q : R -> cell -> Prop) : Prop :=
  match p with
  | Ret r => Q r c
  | _ => match n with
         | O => False
         | S n => forall t w m, m a = c -> lucky w = true ->
                    ev a n (fst (pstep wexec t w m p) a) (snd (pstep wexec t w m p)) Q
         end
  end.

Lemma ev_ret {R} a n c (r : R) (Q : R -> cell -> Prop) : Q r c -> ev a n c (Ret r) Q.
Proof. destruct n; auto. Qed.

Lemma ev_peq {R} a n : forall c (p q : wprog R) Q, peq p q -> ev a n c p Q -> ev a n c q Q.
Proof.
  induction n as [|n IH]; intros c p q Q H; inversion H; subst; simpl; auto.
  - intros Hp t w m Hm Hw. specialize (Hp t w m Hm Hw).
    destruct (pstep_peq t w m _ _ H) as [E1 E2]. simpl in E1, E2.
    rewrite <- E1. eapply IH; eauto.
  - intros Hp t w m Hm Hw. specialize (Hp t w m Hm Hw).
    destruct (pstep_peq t w m _ _ H) as [E1 E2]. simpl in E1, E2. eapply IH; eauto.
Qed.

Lemma peq_sym {R} (p q : wprog R) : peq p q -> peq q p.
Proof. induction 1; constructor; auto. Qed.

Lemma ev_mono {R} a n : forall n' c (p : wprog R) (Q Q' : R -> cell -> Prop),
  ev a n c p Q -> (n <= n')%nat -> (forall r c, Q r c -> Q' r c) -> ev a n' c p Q'.
Proof.
  induction n as [|n IH]; intros n' c p Q Q' H Hn HQ.
  - destruct p; simpl in H; try contradiction. apply ev_ret; auto.
  - destruct n' as [|n']; [lia|]. destruct p.
    + simpl in *; auto.
    + intros t w m Hm Hw. eapply IH; [apply H; auto | lia | auto].
    + intros t w m Hm Hw. eapply IH; [apply H; auto | lia | auto].
Qed.

Lemma ev_bind {R R'} a k (f : R -> wprog R') n : forall c (p : wprog R) Q Q',
  ev a n c p Q -> (forall r c', Q r c' -> ev a k c' (f r) Q') -> ev a (n + k) c (bind p f) Q'.
Proof.
  induction n as [|n IH]; intros c p Q Q' H Hf.
  - destruct p; simpl in H; try contradiction. simpl. auto.
  - assert (Hstep : (forall r, p <> Ret r) ->
       forall t w m, m a = c -> lucky w = true ->
         ev a (n + k) (fst (pstep wexec t w m (bind p f)) a) (snd (pstep wexec t w m (bind p f))) Q').
    { intros Hp t w m Hm Hw. destruct (pstep_bind t w m p f Hp) as [E1 E2]. rewrite E1.
      eapply ev_peq; [apply peq_sym; exact E2|]. eapply IH; [|exact Hf].
      destruct p; [exfalso; eapply Hp; reflexivity| |]; apply (H t w m Hm Hw). }
    destruct p.
    + simpl in H. eapply ev_mono; [apply Hf; exact H | lia | auto].
    + simpl in *. apply Hstep. discriminate.
    + simpl in *. apply Hstep. discriminate.
Qed.

Lemma ev_do {R} a n c ac (k : wresp ac -> wprog R) Q :
  (forall t w m m' x, m a = c -> lucky w = true -> wexec t ac m w = Some (m', x) -> ev a n (m' a) (k x) Q) ->
  (forall t w m, wexec t ac m w <> None) ->
  ev a (S n) c (Do ac k) Q.
Proof.
  intros H Hn t w m Hm Hw. simpl.
  destruct (wexec t ac m w) as [[m' x]|] eqn:E; [|exfalso; eapply Hn; eauto]. simpl. eapply H; eauto.
Qed.

Lemma exec_total t ac m w : wexec t ac m w <> None.
Proof. destruct ac; simpl; try discriminate; destruct (_ : bool); discriminate. Qed.

Lemma ev_loop {R X B} a (body : X -> wprog (X + B)) (k : B -> wprog R) bn kn (fresh : X -> cell -> Prop)
      (K : B -> cell -> Prop) Q :
  (forall s c, ev a bn c (body s) (fun y c' => match y with inr b => K b c' | inl s' => fresh s' c' end)) ->
  (forall s c, fresh s c -> ev a bn c (body s) (fun y c' => match y with inr b => K b c' | inl _ => False end)) ->
  (forall b c, K b c -> ev a kn c (k b) Q) ->
  forall s c, ev a (2 * (bn + 1) + kn) c (Loop body s k) Q.
Proof.
  intros H1 H2 H3 s c. replace (2 * (bn + 1) + kn)%nat with (S (bn + (S (bn + kn))))%nat by lia.
  intros t w m Hm Hw. simpl. rewrite Hm. eapply ev_bind; [apply H1|].
  intros [s'|b] c' Hy; [|eapply ev_mono; [apply H3; exact Hy | lia | auto]].
  intros t' w' m' Hm' Hw'. simpl. rewrite Hm'. eapply ev_bind; [apply H2; exact Hy|].
  intros [s''|b] c'' Hy'; [contradiction | now apply H3].
Qed.

(** ** Any interference first, then alone *)
Fixpoint after {R} (ms : list (nat * luck * wmem)) (p : wprog R) : wprog R :=
  match ms with
  | [] => p
  | (t, w, m) :: ms => after ms (snd (pstep wexec t w m p))
  end.

Lemma after_peq {R} ms : forall p q : wprog R, peq p q -> peq (after ms p) (after ms q).
Proof. induction ms as [|[[t w] m] ms IH]; simpl; intros p q H; auto. apply IH, pstep_peq, H. Qed.

Definition ob {R} (a : addr) (n : nat) (p : wprog R) : Prop :=
  forall ms c, ev a n c (after ms p) (fun _ _ => True).

Lemma ob_step {R} a n t w m (p : wprog R) : ob a n p -> ob a n (snd (pstep wexec t w m p)).
Proof. intros H ms c. apply (H ((t, w, m) :: ms)). Qed.

Lemma ob_mono {R} a n n' (p : wprog R) : ob a n p -> (n <= n')%nat -> ob a n' p.
Proof. intros H Hn ms c. eapply ev_mono; [apply H | exact Hn | auto]. Qed.

Lemma after_ret {R} ms (r : R) : after ms (Ret r) = Ret r.
Proof. induction ms as [|[[t w] m] ms IH]; simpl; auto. Qed.

Lemma ob_ret {R} a n (r : R) : ob a n (Ret r).
Proof. intros ms c. rewrite after_ret. now apply ev_ret. Qed.

Lemma ob_do {R} a n ac (k : wresp ac -> wprog R) : (forall x, ob a n (k x)) -> ob a (S n) (Do ac k).
Proof.
  intros H ms c. destruct ms as [|[[t w] m] ms].
  - apply ev_do; [|intros; apply exec_total]. intros. apply (H x []).
  - cbn [after pstep]. destruct (wexec t ac m w) as [[m' x]|] eqn:E; [|exfalso; eapply exec_total; eauto].
    cbn [snd]. eapply ev_mono; [apply (H x ms) | lia | auto].
Qed.

Lemma ob_bind {R R'} a n k (f : R -> wprog R') : forall p : wprog R, ob a n p -> (forall r, ob a k (f r)) -> ob a (n + k) (bind p f).
Proof.
  intros p Hp Hf ms. revert p Hp. induction ms as [|[[t w] m] ms IH]; intros p Hp c.
  - simpl. eapply ev_bind; [apply (Hp []) |]. intros r c' _. apply (Hf r []).
  - assert (Hstep : (forall r, p <> Ret r) -> ev a (n + k) c (after ((t, w, m) :: ms) (bind p f)) (fun _ _ => True)).
    { intros Hr. destruct (pstep_bind t w m p f Hr) as [_ E]. cbn [after].
      eapply ev_peq; [apply after_peq, peq_sym; exact E|]. apply IH. now apply ob_step. }
    destruct p; [|apply Hstep; discriminate | apply Hstep; discriminate].
    eapply ev_mono; [apply (Hf r ((t, w, m) :: ms)) | lia | auto].
Qed.

Lemma ob_loop {R X B} a (body : X -> wprog (X + B)) (k : B -> wprog R) bn kn (fresh : X -> cell -> Prop) :
  (forall s, ob a bn (body s)) ->
  (forall s c, ev a bn c (body s) (fun y c' => match y with inr b => True | inl s' => fresh s' c' end)) ->
  (forall s c, fresh s c -> ev a bn c (body s) (fun y c' => match y with inr b => True | inl _ => False end)) ->
  (forall b, ob a kn (k b)) ->
  forall s, ob a (3 * (bn + 1) + kn) (Loop body s k).
Proof.
  intros Hb H1 H2 Hk.
  assert (HL : forall s c, ev a (2 * (bn + 1) + kn) c (Loop body s k) (fun _ _ => True)).
  { intros s c. eapply (ev_loop a body k bn kn fresh (fun _ _ => True)); eauto. intros b c' _. apply (Hk b []). }
  assert (HA : forall ms q c, ob a bn q -> ev a (3 * (bn + 1) + kn) c (after ms (bind q (contl body k))) (fun _ _ => True)).
  { induction ms as [|[[t w] m] ms IH]; intros q c Hq.
    - simpl. eapply ev_mono with (n := (bn + (2 * (bn + 1) + kn))%nat); [|lia|auto].
      eapply ev_bind; [apply (Hq [])|]. intros [s'|b] c' _; simpl; [apply HL|].
      eapply ev_mono; [apply (Hk b []) | lia | auto].
    - assert (Hstep : (forall r, q <> Ret r) ->
         ev a (3 * (bn + 1) + kn) c (after ((t, w, m) :: ms) (bind q (contl body k))) (fun _ _ => True)).
      { intros Hr. destruct (pstep_bind t w m q (contl body k) Hr) as [_ E]. cbn [after].
        eapply ev_peq; [apply after_peq, peq_sym; exact E|]. apply IH. now apply ob_step. }
      destruct q as [[s'|b]| |]; [| |apply Hstep; discriminate | apply Hstep; discriminate].
      + cbn [bind contl after pstep snd]. apply IH. apply Hb.
      + cbn [bind contl]. eapply ev_mono; [apply (Hk b ((t, w, m) :: ms)) | lia | auto]. }
  intros s ms c. destruct ms as [|[[t w] m] ms].
  - simpl after. eapply ev_mono; [apply HL | lia | auto].
  - cbn [after pstep snd]. apply HA. apply Hb.
Qed.

(** * Programs that do the same.

    Two programs are related if they make the same actions in lockstep; their
    local states may look different.  Then no schedule tells them apart. *)
From Coq Require Import List Arith.
From Verif Require Import SpecLin Prog.
Import ListNotations.

Section Sim.
  Context {act : Type} {resp : act -> Type}.
  Notation prog := (prog act resp).

  Definition sum_rel {X X' B B'} (I : X -> X' -> Prop) (F : B -> B' -> Prop) (x : X + B) (y : X' + B') : Prop :=
    match x, y with inl x, inl y => I x y | inr x, inr y => F x y | _, _ => False end.

  Inductive sim {R R' : Type} (E : R -> R' -> Prop) : prog R -> prog R' -> Prop :=
  | sim_ret r r' : E r r' -> sim E (Ret r) (Ret r')
  | sim_do a k k' : (forall x, sim E (k x) (k' x)) -> sim E (Do a k) (Do a k')
  | sim_loop X B X' B' (I : X -> X' -> Prop) (F : B -> B' -> Prop) body body' s s' k k' :
      (forall x x', I x x' -> sim (sum_rel I F) (body x) (body' x')) -> I s s' ->
      (forall b b', F b b' -> sim E (k b) (k' b')) ->
      sim E (Loop body s k) (Loop body' s' k').

  Lemma sim_mono : forall R R' (E E' : R -> R' -> Prop) p p',
    (forall r r', E r r' -> E' r r') -> sim E p p' -> sim E' p p'.
  Proof.
    intros R R' E E' p p' H S. revert E' H.
    induction S as [R R' E r r' e|R R' E a k k' _ IH|R R' E X B X' B' I F body body' s s' k k' Hb _ Hs _ IH];
      intros E' H.
    - apply sim_ret, H, e.
    - apply sim_do. intros x. apply IH, H.
    - apply (sim_loop E' X B X' B' I F); [exact Hb|exact Hs|]. intros b b' f. apply (IH b b' f), H.
  Qed.

  Lemma sim_refl : forall R (p : prog R), sim eq p p.
  Proof.
    intros R p. induction p as [R r|R a k IH|R X B body IHb s k IHk].
    - apply sim_ret. reflexivity.
    - apply sim_do. exact IH.
    - apply (sim_loop eq X B X B eq eq).
      + intros x x' e. subst x'. refine (sim_mono _ _ _ _ _ _ _ (IHb x)).
        intros [y|y] r' e; subst r'; reflexivity.
      + reflexivity.
      + intros b b' e. subst b'. exact (IHk b).
  Qed.

  Lemma sim_bind : forall R R' Q Q' (E : R -> R' -> Prop) (G : Q -> Q' -> Prop) p p' f f',
    sim E p p' -> (forall r r', E r r' -> sim G (f r) (f' r')) -> sim G (bind p f) (bind p' f').
  Proof.
    intros R R' Q Q' E G p p' f f' S. revert Q Q' G f f'.
    induction S as [R R' E r r' e|R R' E a k k' _ IH|R R' E X B X' B' I F body body' s s' k k' Hb _ Hs _ IH];
      intros Q Q' G f f' H; simpl.
    - apply H, e.
    - apply sim_do. intros x. apply IH, H.
    - apply (sim_loop G X B X' B' I F); [exact Hb|exact Hs|]. intros b b' e. apply (IH b b' e), H.
  Qed.

  Lemma sim_bind_eq : forall R Q Q' (G : Q -> Q' -> Prop) p p' (f : R -> prog Q) f',
    sim eq p p' -> (forall r, sim G (f r) (f' r)) -> sim G (bind p f) (bind p' f').
  Proof.
    intros R Q Q' G p p' f f' S H. apply (sim_bind _ _ _ _ eq); [exact S|].
    intros r r' e. subst r'. apply H.
  Qed.

  Lemma sim_trans_r : forall R R' (E : R -> R' -> Prop) p p' q, sim E p p' -> p' = q -> sim E p q.
  Proof. intros R R' E p p' q S e. subst q. exact S. Qed.

  (** What a program looks like that is related to another. *)
  Lemma sim_inv : forall R R' (E : R -> R' -> Prop) p p', sim E p p' ->
    match p with
    | Ret r => exists r', p' = Ret r' /\ E r r'
    | Do a k => exists k', p' = Do a k' /\ forall x, sim E (k x) (k' x)
    | @Loop _ _ _ X B body s k =>
        exists X' B' (I : X -> X' -> Prop) (F : B -> B' -> Prop) body' s' k', p' = Loop body' s' k' /\
          (forall x x', I x x' -> sim (sum_rel I F) (body x) (body' x')) /\ I s s' /\
          (forall b b', F b b' -> sim E (k b) (k' b'))
    end.
  Proof.
    intros R R' E p p' S. destruct S as [r r' e|a k k' H|X B X' B' I F body body' s s' k k' Hb Hs Hk].
    - exists r'. split; [reflexivity|exact e].
    - exists k'. split; [reflexivity|exact H].
    - exists X', B', I, F, body', s', k'. repeat split; assumption.
  Qed.

  Lemma sim_trans : forall R R' R'' (E : R -> R' -> Prop) (E' : R' -> R'' -> Prop) p q r,
    sim E p q -> sim E' q r -> sim (fun x z => exists y, E x y /\ E' y z) p r.
  Proof.
    intros R R' R'' E E' p q r S. revert R'' E' r.
    induction S as [R R' E r r' e|R R' E a k k' _ IH|R R' E X B X' B' I F body body' s s' k k' Hb IHb Hs _ IH];
      intros R'' E' q H; pose proof (sim_inv _ _ _ _ _ H) as J.
    - destruct J as [y [e1 f]]. subst q. apply sim_ret. exists r'. split; assumption.
    - destruct J as [k2 [e1 f]]. subst q. apply sim_do. intros x. apply IH, f.
    - destruct J as [X2 [B2 [I2 [F2 [body2 [s2 [k2 [e1 [Hb2 [Hs2 Hk2]]]]]]]]]]. subst q.
      apply (sim_loop _ X B X2 B2 (fun x z => exists y, I x y /\ I2 y z) (fun x z => exists y, F x y /\ F2 y z)).
      + intros x z [y [i1 i2]]. refine (sim_mono _ _ _ _ _ _ _ (IHb x y i1 _ _ _ (Hb2 y z i2))).
        intros [u|u] [v|v] [[t|t] [h1 h2]]; simpl in *; try contradiction; exists t; split; assumption.
      + exists s'. split; assumption.
      + intros b c [b1 [f1 f2]]. apply (IH b b1 f1), Hk2, f2.
  Qed.

  Lemma sim_bind_bind : forall R Q P (p : prog R) (f : R -> prog Q) (g : Q -> prog P),
    sim eq (bind p (fun x => bind (f x) g)) (bind (bind p f) g).
  Proof.
    intros R Q P p. revert Q P.
    induction p as [R r|R a k IH|R X B body IHb s k IHk]; intros Q P f g; simpl.
    - apply sim_refl.
    - apply sim_do. intros x. apply IH.
    - apply (sim_loop eq X B X B eq eq).
      + intros x x' e. subst x'. refine (sim_mono _ _ _ _ _ _ _ (sim_refl _ (body x))).
        intros [y|y] r' e; subst r'; reflexivity.
      + reflexivity.
      + intros b b' e. subst b'. apply IHk.
  Qed.

  Lemma sim_sym : forall R R' (E : R -> R' -> Prop) p p', sim E p p' -> sim (fun y x => E x y) p' p.
  Proof.
    intros R R' E p p' S.
    induction S as [R R' E r r' e|R R' E a k k' _ IH|R R' E X B X' B' I F body body' s s' k k' _ IHb Hs _ IH].
    - apply sim_ret, e.
    - apply sim_do, IH.
    - apply (sim_loop _ X' B' X B (fun y x => I x y) (fun y x => F x y)); [|exact Hs|intros b' b f; exact (IH b b' f)].
      intros x' x i. refine (sim_mono _ _ _ _ _ _ _ (IHb x x' i)). intros [y|y] [z|z] h; exact h.
  Qed.
  Lemma sim_eq_trans : forall R (p q r : prog R), sim eq p q -> sim eq q r -> sim eq p r.
  Proof.
    intros R p q r S S'. refine (sim_mono _ _ _ _ _ _ _ (sim_trans _ _ _ _ _ _ _ _ S S')).
    intros x z [y [e e']]. exact (eq_trans e e').
  Qed.
  Lemma sim_assoc_l : forall R Q P (q : prog P) (p : prog R) (f : R -> prog Q) (g : Q -> prog P),
    sim eq (bind p (fun x => bind (f x) g)) q -> sim eq (bind (bind p f) g) q.
  Proof.
    intros R Q P q p f g S. refine (sim_eq_trans _ _ _ _ _ S).
    refine (sim_mono _ _ _ _ _ _ _ (sim_sym _ _ _ _ _ (sim_bind_bind _ _ _ p f g))). intros x y e. exact (eq_sym e).
  Qed.

  Lemma sim_assoc_r : forall R Q P P' (E : P' -> P -> Prop) q (p : prog R) (f : R -> prog Q) (g : Q -> prog P),
    sim E q (bind p (fun x => bind (f x) g)) -> sim E q (bind (bind p f) g).
  Proof.
    intros R Q P P' E q p f g H. refine (sim_mono _ _ _ _ _ _ _ (sim_trans _ _ _ _ _ _ _ _ H (sim_bind_bind _ _ _ p f g))).
    intros x z [y [h e]]. subst z. exact h.
  Qed.

  Lemma sim_bind_ret_r : forall R R' (E : R -> R' -> Prop) p q, sim E p (bind q (fun x => Ret x)) -> sim E p q.
  Proof.
    intros R R' E p q H. refine (sim_mono _ _ _ _ _ _ _ (sim_trans _ _ _ _ eq _ _ _ H _)).
    - intros x z [y [h e]]. subst z. exact h.
    - clear. induction q as [R r|R a k IH|R X B body IHb s k IHk]; simpl.
      + apply sim_refl.
      + apply sim_do. exact IH.
      + apply (sim_loop eq X B X B eq eq).
        * intros x x' e. subst x'. refine (sim_mono _ _ _ _ _ _ _ (sim_refl _ (body x))).
          intros [y|y] r' e; subst r'; reflexivity.
        * reflexivity.
        * intros b b' e. subst b'. apply IHk.
  Qed.

  (** A loop on both sides: [I] holds before every iteration. *)
  Lemma sim_loop_inv : forall R R' (E : R -> R' -> Prop) X B X' B' (I : X -> X' -> Prop)
      (body : X -> prog (X + B)) (body' : X' -> prog (X' + B')) s s' k k',
    I s s' ->
    (forall x x', I x x' -> sim (sum_rel I (fun b b' => sim E (k b) (k' b'))) (body x) (body' x')) ->
    sim E (Loop body s k) (Loop body' s' k').
  Proof.
    intros R R' E X B X' B' I body body' s s' k k' Hs Hb.
    apply (sim_loop E X B X' B' I (fun b b' => sim E (k b) (k' b'))); [exact Hb|exact Hs|].
    intros b b' H. exact H.
  Qed.

  Context {mem oracle op ret : Type}.
  Variable exec : nat -> forall a : act, mem -> oracle -> option (mem * resp a).

  Lemma sim_step : forall (p p' : prog ret) t w m, sim eq p p' ->
    fst (pstep exec t w m p) = fst (pstep exec t w m p') /\
    sim eq (snd (pstep exec t w m p)) (snd (pstep exec t w m p')).
  Proof.
    intros p p' t w m S. pose proof (sim_inv _ _ _ _ _ S) as H.
    destruct p as [r|a k|X B body s k].
    - destruct H as [r' [e f]]. subst p' r'. split; [reflexivity|exact S].
    - destruct H as [k' [e f]]. subst p'. simpl.
      destruct (exec t a m w) as [[m' x]|]; simpl; split; try reflexivity; [apply f|exact S].
    - destruct H as [X' [B' [I [F [body' [s' [k' [e [Hb [Hs Hk]]]]]]]]]]. subst p'. simpl.
      split; [reflexivity|].
      apply (sim_bind _ _ _ _ (sum_rel I F)); [apply Hb, Hs|].
      intros [x|b] [x'|b'] r; simpl in r; try contradiction.
      + apply (sim_loop eq X B X' B' I F); assumption.
      + apply Hk, r.
  Qed.

  Variables impl impl' : op -> prog ret.

  Definition thr_rel (x y : @tstate act resp op ret) : Prop :=
    match x, y with
    | Idle, Idle => True
    | Run o p, Run o' p' => o = o' /\ sim eq p p'
    | _, _ => False
    end.

  Lemma sim_run : forall l m (T T' : nat -> @tstate act resp op ret),
    (forall t o, In (SInv t o) l -> sim eq (impl o) (impl' o)) ->
    (forall t, thr_rel (T t) (T' t)) ->
    snd (run exec impl (mkc m T) l) = snd (run exec impl' (mkc m T') l) /\
    c_mem (fst (run exec impl (mkc m T) l)) = c_mem (fst (run exec impl' (mkc m T') l)) /\
    forall t, thr_rel (c_thr (fst (run exec impl (mkc m T) l)) t) (c_thr (fst (run exec impl' (mkc m T') l)) t).
  Proof.
    induction l as [|e l IH]; intros m T T' HI HT; [split; [reflexivity|split; [reflexivity|exact HT]]|].
    assert (HI' : forall t o, In (SInv t o) l -> sim eq (impl o) (impl' o))
      by (intros t o i; apply (HI t o); right; exact i).
    assert (step : exists m1 T1 T1' h, cstep exec impl (mkc m T) e = (mkc m1 T1, h) /\
              cstep exec impl' (mkc m T') e = (mkc m1 T1', h) /\ forall t, thr_rel (T1 t) (T1' t)).
    { destruct e as [t o|t w|t]; simpl; pose proof (HT t) as Ht; unfold thr_rel in Ht;
        destruct (T t) as [|o1 p] eqn:et; destruct (T' t) as [|o1' p'] eqn:et'; try contradiction.
      - exists m, (tset T t (Run o (impl o))), (tset T' t (Run o (impl' o))), [EInv t o].
        repeat split; try reflexivity. intros u. unfold tset. destruct (Nat.eqb u t); [|apply HT].
        split; [reflexivity|]. apply (HI t o). left. reflexivity.
      - exists m, T, T', []. repeat split; try reflexivity. exact HT.
      - exists m, T, T', []. repeat split; try reflexivity. exact HT.
      - destruct Ht as [e S]. subst o1'.
        destruct (sim_step p p' t w m S) as [em S'].
        destruct (pstep exec t w m p) as [m1 p1]. destruct (pstep exec t w m p') as [m1' p1'].
        simpl in em, S'. subst m1'.
        exists m1, (tset T t (Run o1 p1)), (tset T' t (Run o1 p1')), [].
        repeat split; try reflexivity. intros u. unfold tset. destruct (Nat.eqb u t); [|apply HT].
        split; [reflexivity|exact S'].
      - exists m, T, T', []. repeat split; try reflexivity. exact HT.
      - destruct Ht as [e S]. subst o1'. pose proof (sim_inv _ _ _ _ _ S) as H.
        destruct p as [r|a k|X B body s k].
        + destruct H as [r' [e f]]. subst p' r'.
          exists m, (tset T t Idle), (tset T' t Idle), [ERes t r]. repeat split; try reflexivity.
          intros u. unfold tset. destruct (Nat.eqb u t); [exact I|apply HT].
        + destruct H as [k' [e f]]. subst p'. exists m, T, T', []. repeat split; try reflexivity. exact HT.
        + destruct H as [X' [B' [I' [F [body' [s' [k' [e H]]]]]]]]. subst p'.
          exists m, T, T', []. repeat split; try reflexivity. exact HT. }
    destruct step as [m1 [T1 [T1' [h [e1 [e2 HT1]]]]]].
    cbn [run]. rewrite e1, e2.
    destruct (IH m1 T1 T1' HI' HT1) as [Eh [Em Et]].
    destruct (run exec impl (mkc m1 T1) l) as [c2 h2]. destruct (run exec impl' (mkc m1 T1') l) as [c2' h2'].
    simpl in *. subst h2'. split; [reflexivity|split; [exact Em|exact Et]].
  Qed.

  (** Started in the same memory, the two make the same histories and leave the same memory. *)
  Theorem same_runs : forall l m,
    (forall t o, In (SInv t o) l -> sim eq (impl o) (impl' o)) ->
    snd (run exec impl (start m) l) = snd (run exec impl' (start m) l) /\
    c_mem (fst (run exec impl (start m) l)) = c_mem (fst (run exec impl' (start m) l)) /\
    (quiet (fst (run exec impl (start m) l)) -> quiet (fst (run exec impl' (start m) l))).
  Proof.
    intros l m H. destruct (sim_run l m (fun _ => Idle) (fun _ => Idle) H (fun _ => I)) as [Eh [Em Et]].
    split; [exact Eh|]. split; [exact Em|]. intros q t. pose proof (Et t) as r. specialize (q t). unfold start in q |- *.
    rewrite q in r. destruct (c_thr (fst (run exec impl' (mkc m (fun _ => Idle)) l)) t); [reflexivity|contradiction].
  Qed.
End Sim.

(** Calls under another name: a run with [impl] after [g] is the run with [impl] of the renamed schedule. *)
Section Rename.
  Context {act : Type} {resp : act -> Type} {mem oracle op op' ret : Type}.
  Variable exec : nat -> forall a : act, mem -> oracle -> option (mem * resp a).
  Variable impl : op -> prog act resp ret.
  Variable g : op' -> op.

  Definition rename_sched (e : sched oracle op') : sched oracle op :=
    match e with SInv t o => SInv t (g o) | SStep t w => SStep t w | SRes t => SRes t end.
  Definition rename_event (e : event op' ret) : event op ret :=
    match e with EInv t o => EInv t (g o) | ERes t r => ERes t r end.
  Definition rename_thr (x : @tstate act resp op' ret) : @tstate act resp op ret :=
    match x with Idle => Idle | Run o p => Run (g o) p end.

  Lemma run_rename : forall l m T T', (forall t, T' t = rename_thr (T t)) ->
    snd (run exec impl (mkc m T') (map rename_sched l)) =
      map rename_event (snd (run exec (fun o => impl (g o)) (mkc m T) l)) /\
    c_mem (fst (run exec impl (mkc m T') (map rename_sched l))) =
      c_mem (fst (run exec (fun o => impl (g o)) (mkc m T) l)) /\
    forall t, c_thr (fst (run exec impl (mkc m T') (map rename_sched l))) t =
      rename_thr (c_thr (fst (run exec (fun o => impl (g o)) (mkc m T) l)) t).
  Proof.
    induction l as [|e l IH]; intros m T T' HT; [split; [reflexivity|split; [reflexivity|exact HT]]|].
    assert (step : exists m1 T1 T1' h, cstep exec (fun o => impl (g o)) (mkc m T) e = (mkc m1 T1, h) /\
              cstep exec impl (mkc m T') (rename_sched e) = (mkc m1 T1', map rename_event h) /\
              forall t, T1' t = rename_thr (T1 t)).
    { destruct e as [t o|t w|t]; simpl; rewrite HT; destruct (T t) as [|o1 p] eqn:et; simpl.
      - exists m, (tset T t (Run o (impl (g o)))), (tset T' t (Run (g o) (impl (g o)))), [EInv t o].
        repeat split; try reflexivity. intros u. unfold tset. destruct (Nat.eqb u t); [reflexivity|apply HT].
      - exists m, T, T', []. repeat split; try reflexivity. exact HT.
      - exists m, T, T', []. repeat split; try reflexivity. exact HT.
      - destruct (pstep exec t w m p) as [m1 p1].
        exists m1, (tset T t (Run o1 p1)), (tset T' t (Run (g o1) p1)), [].
        repeat split; try reflexivity. intros u. unfold tset. destruct (Nat.eqb u t); [reflexivity|apply HT].
      - exists m, T, T', []. repeat split; try reflexivity. exact HT.
      - destruct p as [r|a k|X B body s k];
          try (exists m, T, T', []; repeat split; try reflexivity; exact HT).
        exists m, (tset T t Idle), (tset T' t Idle), [ERes t r]. repeat split; try reflexivity.
        intros u. unfold tset. destruct (Nat.eqb u t); [reflexivity|apply HT]. }
    destruct step as [m1 [T1 [T1' [h [e1 [e2 HT1]]]]]].
    cbn [run map]. rewrite e1, e2.
    destruct (IH m1 T1 T1' HT1) as [Eh [Em Et]].
    destruct (run exec (fun o => impl (g o)) (mkc m1 T1) l) as [c2 h2].
    destruct (run exec impl (mkc m1 T1') (map rename_sched l)) as [c2' h2'].
    simpl in *. rewrite map_app, Eh. split; [reflexivity|split; [exact Em|exact Et]].
  Qed.

  Lemma start_rename : forall l m,
    snd (run exec impl (start m) (map rename_sched l)) =
      map rename_event (snd (run exec (fun o => impl (g o)) (start m) l)) /\
    c_mem (fst (run exec impl (start m) (map rename_sched l))) =
      c_mem (fst (run exec (fun o => impl (g o)) (start m) l)) /\
    (quiet (fst (run exec (fun o => impl (g o)) (start m) l)) -> quiet (fst (run exec impl (start m) (map rename_sched l)))).
  Proof.
    intros l m. destruct (run_rename l m (fun _ => Idle) (fun _ => Idle) (fun _ => eq_refl)) as [Eh [Em Et]].
    split; [exact Eh|]. split; [exact Em|]. intros q t. unfold start in q |- *. rewrite Et, (q t). reflexivity.
  Qed.
End Rename.

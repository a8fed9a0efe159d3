(** * Proofs for C42. *)
From Coq Require Import ZArith Arith List Bool Relations Lia.
Require Import Verif.Order Verif.SpecTso Verif.TsoModel.
Import ListNotations.
Open Scope nat_scope.

(** ** Looking up *)

Lemma upd_same : forall (A : Type) (f : nat -> A) k x, upd f k x k = x.
Proof. intros. unfold upd. rewrite Nat.eqb_refl. reflexivity. Qed.

Lemma upd_other : forall (A : Type) (f : nat -> A) k x k', k' <> k -> upd f k x k' = f k'.
Proof. intros A f k x k' H. unfold upd. apply Nat.eqb_neq in H. rewrite H. reflexivity. Qed.

Definition look (b : list (nat * entry)) (m : list entry) (l : nat) : entry :=
  last (map snd (filter (fun x => Nat.eqb (fst x) l) b)) (last m (0%Z, None)).

Lemma find_look : forall p (s : tso_state p) t l, find s t l = look (t_buffer s t) (t_mem s l) l.
Proof. reflexivity. Qed.

Lemma last_snoc : forall (A : Type) (l : list A) x d, last (l ++ [x]) d = x.
Proof.
  intros A l x d. induction l as [|a l IH]; [reflexivity|].
  simpl. destruct (l ++ [x]) eqn:E; [destruct l; discriminate|]. exact IH.
Qed.

Lemma last_default : forall (A : Type) (l : list A) a d, last (a :: l) d = last l a.
Proof.
  intros A l. induction l as [|b l IH]; intros a d; [reflexivity|].
  change (last (b :: l) d = last (b :: l) a). rewrite !IH. reflexivity.
Qed.

Definition pending (b : list (nat * entry)) (l : nat) : Prop := exists e, In (l, e) b.

Lemma look_push_same : forall b m l e, look (b ++ [(l, e)]) m l = e.
Proof.
  intros b m l e. unfold look. rewrite filter_app. simpl. rewrite Nat.eqb_refl.
  rewrite map_app. simpl. apply last_snoc.
Qed.

Lemma look_push_other : forall b m l e l', l' <> l -> look (b ++ [(l, e)]) m l' = look b m l'.
Proof.
  intros b m l e l' N. unfold look. rewrite filter_app. simpl.
  destruct (Nat.eqb_spec l l') as [E|E]; [congruence|]. rewrite app_nil_r. reflexivity.
Qed.

Lemma look_flush_same : forall b m l e, look b (m ++ [e]) l = look ((l, e) :: b) m l.
Proof.
  intros b m l e. unfold look. simpl. rewrite Nat.eqb_refl. rewrite last_snoc.
  cbn [map snd]. rewrite last_default. reflexivity.
Qed.

Lemma look_cons_other : forall b m l e l', l' <> l -> look ((l, e) :: b) m l' = look b m l'.
Proof.
  intros b m l e l' N. unfold look. simpl.
  destruct (Nat.eqb_spec l l') as [E|E]; [congruence|]. reflexivity.
Qed.

Lemma look_none : forall b m l, ~ pending b l -> look b m l = last m (0%Z, None).
Proof.
  intros b m l N. unfold look.
  replace (filter (fun x => Nat.eqb (fst x) l) b) with (@nil (nat * entry)); [reflexivity|].
  induction b as [|[l' e] b IH]; [reflexivity|]. simpl.
  destruct (Nat.eqb_spec l' l) as [E|E].
  - exfalso. apply N. exists e. left. congruence.
  - apply IH. intros [e' H]. apply N. exists e'. right. exact H.
Qed.

Lemma pending_snoc : forall b l e l', pending (b ++ [(l, e)]) l' <-> pending b l' \/ l' = l.
Proof.
  intros b l e l'. split.
  - intros [e' H]. apply in_app_or in H. destruct H as [H|[H|[]]].
    + left. exists e'. exact H.
    + right. congruence.
  - intros [[e' H]| ->]; [exists e'|exists e]; apply in_or_app; [left; exact H|right; left; reflexivity].
Qed.

Lemma pending_cons : forall b l e l', pending ((l, e) :: b) l' <-> pending b l' \/ l' = l.
Proof.
  intros b l e l'. split.
  - intros [e' [H|H]]; [right; congruence|left; exists e'; exact H].
  - intros [[e' H]| ->]; [exists e'; right; exact H|exists e; left; reflexivity].
Qed.

Lemma nth_snoc : forall (A : Type) (l : list A) x i y,
  nth_error (l ++ [x]) i = Some y ->
  (i < length l /\ nth_error l i = Some y) \/ (i = length l /\ y = x).
Proof.
  intros A l x i y H. destruct (Nat.lt_ge_cases i (length l)) as [L|L].
  - left. rewrite nth_error_app1 in H by exact L. auto.
  - right. rewrite nth_error_app2 in H by exact L.
    destruct (i - length l) as [|k] eqn:E.
    + simpl in H. split; [lia|congruence].
    + simpl in H. destruct k; discriminate.
Qed.

Lemma nth_snoc_old : forall (A : Type) (l : list A) x i y,
  nth_error l i = Some y -> nth_error (l ++ [x]) i = Some y.
Proof.
  intros A l x i y H. rewrite nth_error_app1; [exact H|]. apply nth_error_Some. congruence.
Qed.

Lemma nth_snoc_new : forall (A : Type) (l : list A) x, nth_error (l ++ [x]) (length l) = Some x.
Proof. intros. rewrite nth_error_app2 by lia. rewrite Nat.sub_diag. reflexivity. Qed.

(** ** Programs without races *)

(** A pending store of [t] is an ordinary store after which [t] did not make an
    atomic write or a seq_cst fence. *)
Definition unpublished (tr : list observation) (t l : nat) : Prop :=
  exists i v, nth_error tr i = Some (t, PlainStore l v, 0%Z) /\
    forall j e, i < j -> nth_error tr j = Some e -> thread_of e = t ->
      write_loc (action_of e) = None \/ is_plain (action_of e).

Lemma unpublished_grow : forall tr t l e,
  unpublished tr t l ->
  (thread_of e = t -> write_loc (action_of e) = None \/ is_plain (action_of e)) ->
  unpublished (tr ++ [e]) t l.
Proof.
  intros tr t l e [i [v [Hi H]]] He. exists i, v. split; [apply nth_snoc_old; exact Hi|].
  intros j e' L Hj T. apply nth_snoc in Hj. destruct Hj as [[_ Hj]|[_ ->]]; [eauto|auto].
Qed.

(** Such a store happens before nothing of another thread. *)
Lemma unpublished_race : forall tr t l e,
  unpublished tr t l -> race_free (tr ++ [e]) -> thread_of e <> t ->
  write_loc (action_of e) = Some l \/ read_loc (action_of e) = Some l -> False.
Proof.
  intros tr t l e [i [v [Hi H]]] RF T W.
  assert (Li : i < length tr) by (apply nth_error_Some; congruence).
  assert (HB : happens_before (tr ++ [e]) i (length tr)).
  { apply (RF i (length tr) (t, PlainStore l v, 0%Z) e Li).
    - apply nth_snoc_old. exact Hi.
    - apply nth_snoc_new.
    - split; [intros E; apply T; symmetry; exact E|]. split; [left; exact I|]. exists l. left. split; [reflexivity|].
      exact W. }
  assert (Q : forall a b, clos_trans nat (hb_edge (tr ++ [e])) a b ->
    (i <= a /\ forall e0, nth_error (tr ++ [e]) a = Some e0 -> thread_of e0 = t) ->
    (i <= b /\ forall e0, nth_error (tr ++ [e]) b = Some e0 -> thread_of e0 = t)).
  { intros a b C. induction C as [a b E|a b c _ IH1 _ IH2]; [|auto].
    intros [La Ta]. destruct E as [e1 e2 H1 H2 L S|e1 e2 l' H1 H2 L P1 P2 W1 R2].
    - split; [lia|]. intros e0 H0. rewrite H2 in H0. inversion H0; subst e0. rewrite <- S. auto.
    - exfalso. pose proof (Ta e1 H1) as T1.
      apply nth_snoc in H1. destruct H1 as [[L1 H1]|[_ ->]]; [|congruence].
      destruct (Nat.eq_dec a i) as [-> |N].
      + rewrite Hi in H1. inversion H1; subst e1. apply P1. exact I.
      + destruct (H a e1 ltac:(lia) H1 T1) as [H3|H3]; [congruence|contradiction]. }
  destruct (Q i (length tr) HB) as [_ F].
  - split; [lia|]. intros e0 H0. rewrite (nth_snoc_old _ _ _ _ _ Hi) in H0.
    inversion H0; reflexivity.
  - apply T. apply F. apply nth_snoc_new.
Qed.

Section Drf.
Variable p : program.

(** The two machines side by side. *)
Record matches (s : tso_state p) (c : sc_state p) : Prop := {
  m_threads : forall t, t_threads s t = sc_threads c t;
  m_trace : map observed (t_trace s) = sc_trace c;
  m_pending : forall t l, pending (t_buffer s t) l -> unpublished (sc_trace c) t l;
  m_single : forall t t' l, pending (t_buffer s t) l -> pending (t_buffer s t') l -> t = t';
  m_value : forall t l, (forall t', t' <> t -> ~ pending (t_buffer s t') l) ->
    fst (find s t l) = sc_mem c l }.

Lemma sc_step_some : forall (c : sc_state p) t a,
  pnext p t (sc_threads c t) = Some a ->
  sc_step c t =
    SC (match write_loc a with
        | Some l => upd (sc_mem c) l (written a (sc_mem c (location a)))
        | None => sc_mem c
        end)
       (upd (sc_threads c) t (presume p t (sc_threads c t) (result a (sc_mem c (location a)))))
       (sc_trace c ++ [(t, a, result a (sc_mem c (location a)))]).
Proof. intros c t a H. unfold sc_step. rewrite H. reflexivity. Qed.

Lemma read_location : forall a l, read_loc a = Some l -> location a = l.
Proof. intros a l H. destruct a; simpl in *; congruence. Qed.
Lemma write_location : forall a l, write_loc a = Some l -> location a = l.
Proof. intros a l H. destruct a; simpl in *; congruence. Qed.

(** No other thread has a pending store where [t] makes its next access. *)
Lemma no_other : forall s c t a l t',
  matches s c -> race_free (sc_trace (sc_step c t)) ->
  pnext p t (sc_threads c t) = Some a ->
  write_loc a = Some l \/ read_loc a = Some l ->
  t' <> t -> ~ pending (t_buffer s t') l.
Proof.
  intros s c t a l t' M RF N W D P.
  rewrite (sc_step_some c t a N) in RF. simpl in RF.
  apply (unpublished_race (sc_trace c) t' l _ (m_pending s c M t' l P) RF); simpl.
  - intros E. apply D. symmetry. exact E.
  - exact W.
Qed.

(** A step of the store-buffer machine is a step of the other one, or none. *)
Lemma matches_step : forall s c ev,
  matches s c ->
  (forall t, race_free (sc_trace (sc_step c t))) ->
  (forall t a, pnext p t (sc_threads c t) = Some a -> seq_cst_action a) ->
  exists sched, matches (tso_step s ev) (sc_run c sched).
Proof.
  intros s c ev M RF SQ. destruct ev as [t|t]; simpl.
  - destruct (pnext p t (t_threads s t)) as [a|] eqn:N; [|exists []; exact M].
    rewrite (m_threads s c M) in N.
    pose proof (sc_step_some c t a N) as SS.
    pose proof (fun l t' => no_other s c t a l t' M (RF t) N) as NO.
    pose proof (SQ t a N) as SA.
    unfold exec. destruct (compile a) as [l|l v|l f| |] eqn:C.
    + (* a load *)
      assert (R : read_loc a = Some l /\ write_loc a = None).
      { destruct a; simpl in C; try discriminate; try (destruct (is_seq_cst o); discriminate);
          inversion C; subst; auto. }
      destruct R as [R W]. pose proof (read_location a l R) as LA.
      exists [t]. simpl. rewrite SS, W.
      assert (V : fst (find s t l) = sc_mem c l).
      { apply (m_value s c M). intros t' D. apply (NO l t'); auto. }
      constructor; simpl.
      * intros t'. unfold upd. destruct (Nat.eqb t' t); [|apply (m_threads s c M)].
        rewrite V, LA, (m_threads s c M). reflexivity.
      * rewrite map_app. simpl. unfold observed at 2. simpl.
        rewrite (m_trace s c M), V, LA. reflexivity.
      * intros t' l' P. apply unpublished_grow; [apply (m_pending s c M); exact P|].
        intros _. left. exact W.
      * apply (m_single s c M).
      * intros t' l' H. rewrite find_look. apply (m_value s c M t' l' H).
    + (* a store *)
      assert (A : a = PlainStore l v).
      { destruct a; simpl in C; try discriminate.
        - inversion C; subst; reflexivity.
        - simpl in SA. subst o. discriminate.
        - destruct (is_seq_cst o); discriminate. }
      subst a. exists [t]. simpl. rewrite SS. simpl.
      assert (O : forall t', t' <> t -> ~ pending (t_buffer s t') l).
      { intros t' D. apply (NO l t'); auto. }
      constructor; simpl.
      * intros t'. unfold upd. destruct (Nat.eqb t' t); [|apply (m_threads s c M)].
        rewrite (m_threads s c M). reflexivity.
      * rewrite map_app. simpl. rewrite (m_trace s c M). reflexivity.
      * intros t' l' P. unfold upd in P. destruct (Nat.eqb_spec t' t) as [-> |D].
        -- apply pending_snoc in P. destruct P as [P| ->].
           ++ apply unpublished_grow; [apply (m_pending s c M); exact P|].
              intros _. right. exact I.
           ++ exists (length (sc_trace c)), v. split; [apply nth_snoc_new|].
              intros j e L Hj _. apply nth_snoc in Hj. destruct Hj as [[L' _]|[L' _]]; lia.
        -- apply unpublished_grow; [apply (m_pending s c M); exact P|].
           intros E. exfalso. apply D. symmetry. exact E.
      * intros t1 t2 l' P1 P2. unfold upd in P1, P2.
        destruct (Nat.eqb_spec t1 t) as [-> |D1], (Nat.eqb_spec t2 t) as [-> |D2]; auto.
        -- apply pending_snoc in P1. destruct P1 as [P1| ->].
           ++ apply (m_single s c M t t2 l'); assumption.
           ++ exfalso. exact (O t2 D2 P2).
        -- apply pending_snoc in P2. destruct P2 as [P2| ->].
           ++ apply (m_single s c M t1 t l'); assumption.
           ++ exfalso. exact (O t1 D1 P1).
        -- apply (m_single s c M t1 t2 l'); assumption.
      * intros t' l' H. rewrite find_look. simpl.
        assert (H' : forall t0, t0 <> t' -> ~ pending (t_buffer s t0) l').
        { intros t0 D P. apply (H t0 D). unfold upd. destruct (Nat.eqb_spec t0 t) as [-> |_]; auto.
          apply pending_snoc. left. exact P. }
        unfold upd. destruct (Nat.eqb_spec l' l) as [-> |Dl].
        -- destruct (Nat.eqb_spec t' t) as [-> |D].
           ++ rewrite look_push_same. reflexivity.
           ++ exfalso. apply (H t ltac:(congruence)). rewrite upd_same. apply pending_snoc. auto.
        -- destruct (Nat.eqb_spec t' t) as [-> |D].
           ++ rewrite look_push_other by exact Dl. apply (m_value s c M t l' H').
           ++ apply (m_value s c M t' l' H').
    + (* a locked instruction *)
      destruct (t_buffer s t) eqn:B; [|exists []; exact M].
      assert (R : write_loc a = Some l /\ forall x, written a x = f x).
      { destruct a; simpl in C; try discriminate; try (destruct (is_seq_cst o); discriminate).
        - destruct (is_seq_cst o); inversion C; subst; auto.
        - inversion C; subst; auto. }
      destruct R as [W F]. pose proof (write_location a l W) as LA.
      assert (NP : forall t', ~ pending (t_buffer s t') l).
      { intros t'. destruct (Nat.eq_dec t' t) as [-> |D].
        - rewrite B. intros [e []].
        - apply (NO l t'); auto. }
      assert (V : fst (last (t_mem s l) (0%Z, None)) = sc_mem c l).
      { rewrite <- (m_value s c M t l) by (intros; apply NP).
        rewrite find_look, look_none by apply NP. reflexivity. }
      exists [t]. simpl. rewrite SS, W.
      constructor; simpl.
      * intros t'. unfold upd. destruct (Nat.eqb t' t); [|apply (m_threads s c M)].
        rewrite V, LA, (m_threads s c M). reflexivity.
      * rewrite map_app. simpl. unfold observed at 2. simpl.
        rewrite (m_trace s c M), V, LA. reflexivity.
      * intros t' l' P. apply unpublished_grow; [apply (m_pending s c M); exact P|].
        simpl. intros E. exfalso. change (t = t') in E. subst t'. rewrite B in P. destruct P as [e []].
      * apply (m_single s c M).
      * intros t' l' H. rewrite find_look. simpl. unfold upd.
        destruct (Nat.eqb_spec l' l) as [-> |D].
        -- rewrite look_none by apply NP. rewrite last_snoc. simpl.
           rewrite V, LA, F. reflexivity.
        -- apply (m_value s c M t' l' H).
    + (* a fence *)
      destruct (t_buffer s t) eqn:B; [|exists []; exact M].
      assert (A : exists o, a = AFence o).
      { destruct a; simpl in C; try discriminate; try (destruct (is_seq_cst o); discriminate). eauto. }
      destruct A as [o ->]. exists [t]. simpl. rewrite SS. simpl.
      constructor; simpl.
      * intros t'. unfold upd. destruct (Nat.eqb t' t); [|apply (m_threads s c M)].
        rewrite (m_threads s c M). reflexivity.
      * rewrite map_app. simpl. rewrite (m_trace s c M). reflexivity.
      * intros t' l' P. apply unpublished_grow; [apply (m_pending s c M); exact P|].
        intros _. left. reflexivity.
      * apply (m_single s c M).
      * intros t' l' H. rewrite find_look. apply (m_value s c M t' l' H).
    + assert (A : exists o, a = AFence o).
      { destruct a; simpl in C; try discriminate; try (destruct (is_seq_cst o); discriminate). eauto. }
      destruct A as [o ->]. exists [t]. simpl. rewrite SS. simpl.
      constructor; simpl.
      * intros t'. unfold upd. destruct (Nat.eqb t' t); [|apply (m_threads s c M)].
        rewrite (m_threads s c M). reflexivity.
      * rewrite map_app. simpl. rewrite (m_trace s c M). reflexivity.
      * intros t' l' P. apply unpublished_grow; [apply (m_pending s c M); exact P|].
        intros _. left. reflexivity.
      * apply (m_single s c M).
      * intros t' l' H. rewrite find_look. apply (m_value s c M t' l' H).
  - (* a store reaches memory *)
    destruct (t_buffer s t) as [|[l e] b] eqn:B; [exists []; exact M|].
    exists []. simpl.
    assert (Pt : forall l', pending b l' -> pending (t_buffer s t) l').
    { intros l' P. rewrite B. apply pending_cons. left. exact P. }
    assert (Pl : pending (t_buffer s t) l).
    { rewrite B. apply pending_cons. right. reflexivity. }
    assert (P' : forall t' l', pending (upd (t_buffer s) t b t') l' -> pending (t_buffer s t') l').
    { intros t' l' P. unfold upd in P. destruct (Nat.eqb_spec t' t) as [-> |_]; auto. }
    constructor; simpl.
    + apply (m_threads s c M).
    + apply (m_trace s c M).
    + intros t' l' P. apply (m_pending s c M). auto.
    + intros t1 t2 l' P1 P2. apply (m_single s c M t1 t2 l'); auto.
    + intros t' l' H. rewrite find_look. simpl.
      destruct (Nat.eq_dec l' l) as [-> |Dl].
      * rewrite upd_same.
        assert (Vt : fst (find s t l) = sc_mem c l).
        { apply (m_value s c M). intros t0 D P. apply D.
          apply (m_single s c M t0 t l); assumption. }
        destruct (Nat.eq_dec t' t) as [-> |D].
        -- rewrite upd_same. rewrite look_flush_same. rewrite <- B. exact Vt.
        -- rewrite upd_other by exact D.
           assert (~ pending (t_buffer s t') l) as N1.
           { intros P. apply D. apply (m_single s c M t' t l); assumption. }
           assert (~ pending b l) as N2.
           { specialize (H t ltac:(congruence)). rewrite upd_same in H. exact H. }
           rewrite look_none by exact N1. rewrite last_snoc.
           rewrite find_look, B, <- look_flush_same, look_none, last_snoc in Vt by exact N2.
           exact Vt.
      * rewrite (upd_other _ (t_mem s) l _ l') by exact Dl.
        assert (H' : forall t0, t0 <> t' -> ~ pending (t_buffer s t0) l').
        { intros t0 D P. apply (H t0 D). unfold upd. destruct (Nat.eqb_spec t0 t) as [-> |_]; auto.
          rewrite B in P. apply pending_cons in P. destruct P as [P|P]; [exact P|congruence]. }
        pose proof (m_value s c M t' l' H') as V. rewrite find_look in V.
        unfold upd. destruct (Nat.eqb_spec t' t) as [-> |D]; [|exact V].
        rewrite B, look_cons_other in V by exact Dl. exact V.
Qed.

End Drf.

Theorem drf_sc : forall (p : program) init threads,
  (forall sched, race_free (sc_trace (sc_run (sc_start p init threads) sched))) ->
  (forall sched, Forall (fun e => seq_cst_action (action_of e))
                   (sc_trace (sc_run (sc_start p init threads) sched))) ->
  forall sched, exists sched',
    let s := tso_run (tso_start p init threads) sched in
    let c := sc_run (sc_start p init threads) sched' in
    map observed (t_trace s) = sc_trace c /\
    (forall t, t_threads s t = sc_threads c t) /\
    ((forall t, t_buffer s t = []) -> forall l, fst (last (t_mem s l) (0%Z, None)) = sc_mem c l).
Proof.
  intros p init threads RF SQ sched.
  assert (Q : exists sched', matches p (tso_run (tso_start p init threads) sched)
                (sc_run (sc_start p init threads) sched')).
  { induction sched as [|ev sched IH] using rev_ind.
    - exists []. constructor; simpl; auto.
      + intros t l [e []].
      + intros t t' l [e []].
    - destruct IH as [sched' M].
      unfold tso_run. rewrite fold_left_app. simpl.
      assert (AP : forall x y, sc_run (sc_run (sc_start p init threads) x) y
                               = sc_run (sc_start p init threads) (x ++ y)).
      { intros x y. unfold sc_run. rewrite fold_left_app. reflexivity. }
      destruct (matches_step p _ _ ev M) as [more M'].
      + intros t. specialize (AP sched' [t]). simpl in AP. rewrite AP. apply RF.
      + intros t a N. pose proof (SQ (sched' ++ [t])) as F. rewrite <- AP in F. simpl in F.
        rewrite (sc_step_some p _ t a N) in F. simpl in F.
        apply Forall_app in F. destruct F as [_ F]. inversion F; subst. assumption.
      + exists (sched' ++ more). rewrite <- AP. exact M'. }
  destruct Q as [sched' M]. exists sched'. simpl. split; [|split].
  - apply (m_trace _ _ _ M).
  - apply (m_threads _ _ _ M).
  - intros E l. rewrite <- (m_value _ _ _ M 0 l).
    + rewrite find_look, E. reflexivity.
    + intros t' _ [e H]. rewrite E in H. destruct H.
Qed.

(** * Programs for C42. *)
From Coq Require Import ZArith Arith List Bool Relations Lia.
Require Import Verif.Order Verif.SpecTso Verif.TsoModel Verif.TsoProof Verif.TsoCoherence.
Import ListNotations.
Open Scope nat_scope.

(** ** Straight-line programs *)

(** Each thread has a list of actions; its state is what is left and the
    results so far. *)
Definition straight : program :=
  Program (list aop * list Z)
    (fun _ s => match fst s with [] => None | a :: _ => Some a end)
    (fun _ s v => (tl (fst s), snd s ++ [v])).

Definition threads2 (p q : list aop) : nat -> pstate straight :=
  fun t => match t with 0 => (p, []) | 1 => (q, []) | _ => ([], []) end.

Definition results {p : program} (f : pstate p -> list Z) (s : tso_state p) (t : nat) : list Z :=
  f (t_threads s t).

(** Store buffering with stores of order [o]: each thread writes its variable
    and reads the other's. *)
Definition sb (o : morder) : tso_state straight :=
  tso_start straight (fun _ => 0%Z)
    (threads2 [AStore 0 1 o; ALoad 1 SeqCst] [AStore 1 1 o; ALoad 0 SeqCst]).

(** ** Message passing with ordinary data *)

(** Thread 0 writes the datum 0 and sets the flag 1; thread 1 waits for the flag
    and reads the datum. *)
Definition mp : program :=
  Program nat
    (fun t pc =>
       match t, pc with
       | 0, 0 => Some (PlainStore 0 42)
       | 0, 1 => Some (AStore 1 1 SeqCst)
       | 1, 0 => Some (ALoad 1 SeqCst)
       | 1, 1 => Some (PlainLoad 0)
       | _, _ => None
       end)
    (fun t pc v =>
       match t, pc with
       | 1, 0 => if Z.eqb v 1 then 1 else 0
       | _, _ => S pc
       end).

Definition mp_sc : sc_state mp := sc_start mp (fun _ => 0%Z) (fun _ => 0).
Definition mp_tso : tso_state mp := tso_start mp (fun _ => 0%Z) (fun _ => 0).

Definition data_written (tr : list observation) (i : nat) : Prop :=
  nth_error tr i = Some (0, PlainStore 0 42, 0%Z).
Definition flag_set (tr : list observation) (i k : nat) : Prop :=
  data_written tr i /\ i < k /\ nth_error tr k = Some (0, AStore 1 1 SeqCst, 0%Z).
Definition flag_seen (tr : list observation) (i k m : nat) : Prop :=
  flag_set tr i k /\ k < m /\ nth_error tr m = Some (1, ALoad 1 SeqCst, 1%Z).

Record mp_inv (c : sc_state mp) : Prop := {
  mi_events : forall x e, nth_error (sc_trace c) x = Some e ->
    e = (0, PlainStore 0 42, 0%Z) \/ e = (0, AStore 1 1 SeqCst, 0%Z) \/
    (exists v, e = (1, ALoad 1 SeqCst, v)) \/
    (exists v, e = (1, PlainLoad 0, v) /\ v = 42%Z /\
       exists i k m, flag_seen (sc_trace c) i k m /\ m < x);
  mi_once : forall x y, data_written (sc_trace c) x -> data_written (sc_trace c) y -> x = y;
  mi_pc0 : sc_threads c 0 = 0 -> forall i, ~ data_written (sc_trace c) i;
  mi_pc1 : 1 <= sc_threads c 0 -> sc_mem c 0 = 42%Z /\ exists i, data_written (sc_trace c) i;
  mi_flag0 : sc_threads c 0 <= 1 -> sc_mem c 1 = 0%Z;
  mi_flag1 : 2 <= sc_threads c 0 -> exists i k, flag_set (sc_trace c) i k;
  mi_seen : 1 <= sc_threads c 1 -> 2 <= sc_threads c 0 /\ exists i k m, flag_seen (sc_trace c) i k m }.

Lemma flag_set_grow : forall tr e i k, flag_set tr i k -> flag_set (tr ++ [e]) i k.
Proof.
  intros tr e i k [D [L K]]. split; [apply nth_snoc_old; exact D|].
  split; [exact L|apply nth_snoc_old; exact K].
Qed.

Lemma flag_seen_grow : forall tr e i k m, flag_seen tr i k m -> flag_seen (tr ++ [e]) i k m.
Proof.
  intros tr e i k m [D [L K]]. split; [apply flag_set_grow; exact D|].
  split; [exact L|apply nth_snoc_old; exact K].
Qed.

Lemma events_grow : forall c e, mp_inv c -> forall x e',
  nth_error (sc_trace c) x = Some e' ->
  e' = (0, PlainStore 0 42, 0%Z) \/ e' = (0, AStore 1 1 SeqCst, 0%Z) \/
  (exists v, e' = (1, ALoad 1 SeqCst, v)) \/
  (exists v, e' = (1, PlainLoad 0, v) /\ v = 42%Z /\
     exists i k m, flag_seen (sc_trace c ++ [e]) i k m /\ m < x).
Proof.
  intros c e I x e' H. destruct (mi_events c I x e' H) as [E|[E|[E|[v [E [V [i [k [m [F L]]]]]]]]]];
    auto. do 3 right. exists v. split; [exact E|]. split; [exact V|]. exists i, k, m.
  split; [apply flag_seen_grow; exact F|exact L].
Qed.

Lemma once_grow : forall c e, mp_inv c ->
  (e = (0, PlainStore 0 42, 0%Z) -> sc_threads c 0 = 0) ->
  forall x y, data_written (sc_trace c ++ [e]) x -> data_written (sc_trace c ++ [e]) y -> x = y.
Proof.
  intros c e I N x y X Y. unfold data_written in *.
  apply nth_snoc in X. apply nth_snoc in Y.
  destruct X as [[_ X]|[X Ex]], Y as [[_ Y]|[Y Ey]].
  - exact (mi_once c I x y X Y).
  - exfalso. exact (mi_pc0 c I (N (eq_sym Ey)) x X).
  - exfalso. exact (mi_pc0 c I (N (eq_sym Ex)) y Y).
  - congruence.
Qed.

Lemma mp_inv_step : forall c t, mp_inv c -> mp_inv (sc_step c t).
Proof.
  intros c t I. unfold sc_step.
  destruct (pnext mp t (sc_threads c t)) as [a|] eqn:N; [|exact I].
  destruct t as [|[|t]].
  - (* thread 0 *)
    destruct (sc_threads c 0) as [|[|pc]] eqn:P; simpl in N; inversion N; subst a; clear N.
    + (* the datum *)
      constructor; cbn [sc_trace sc_threads sc_mem]; unfold upd; simpl.
      * intros x e H. apply nth_snoc in H. destruct H as [[_ H]|[_ ->]]; [|left; reflexivity].
        exact (events_grow c _ I x e H).
      * apply once_grow; [exact I|]. intros _. exact P.
      * discriminate.
      * intros _. split; [reflexivity|]. exists (length (sc_trace c)). apply nth_snoc_new.
      * intros _. apply (mi_flag0 c I). rewrite P. lia.
      * lia.
      * intros L. destruct (mi_seen c I L) as [L' _]. rewrite P in L'. lia.
    + (* the flag *)
      constructor; cbn [sc_trace sc_threads sc_mem]; unfold upd; simpl.
      * intros x e H. apply nth_snoc in H. destruct H as [[_ H]|[_ ->]]; [|right; left; reflexivity].
        exact (events_grow c _ I x e H).
      * apply once_grow; [exact I|]. discriminate.
      * discriminate.
      * intros _. destruct (mi_pc1 c I) as [M [i D]]; [rewrite P; lia|]. split; [exact M|].
        exists i. apply nth_snoc_old. exact D.
      * lia.
      * intros _. destruct (mi_pc1 c I) as [_ [i D]]; [rewrite P; lia|].
        exists i, (length (sc_trace c)). split; [apply nth_snoc_old; exact D|].
        split; [apply nth_error_Some; unfold data_written in D; congruence|apply nth_snoc_new].
      * intros L. destruct (mi_seen c I L) as [L' _]. rewrite P in L'. lia.
  - (* thread 1 *)
    destruct (sc_threads c 1) as [|[|pc]] eqn:P; simpl in N; inversion N; subst a; clear N.
    + constructor; cbn [sc_trace sc_threads sc_mem]; unfold upd; simpl.
      * intros x e H. apply nth_snoc in H. destruct H as [[_ H]|[_ ->]].
        -- exact (events_grow c _ I x e H).
        -- right. right. left. eexists. reflexivity.
      * apply once_grow; [exact I|]. discriminate.
      * intros E i D. apply nth_snoc in D. destruct D as [[_ D]|[_ D]]; [|discriminate].
        exact (mi_pc0 c I E i D).
      * intros L. destruct (mi_pc1 c I L) as [M [i D]]. split; [exact M|].
        exists i. apply nth_snoc_old. exact D.
      * apply (mi_flag0 c I).
      * intros L. destruct (mi_flag1 c I L) as [i [k F]]. exists i, k. apply flag_set_grow. exact F.
      * unfold result. simpl. destruct (Z.eqb_spec (sc_mem c 1) 1) as [E|E]; [|lia].
        intros _. assert (L : 2 <= sc_threads c 0).
        { destruct (Nat.le_gt_cases 2 (sc_threads c 0)) as [L|L]; [exact L|].
          rewrite (mi_flag0 c I) in E by lia. discriminate. }
        split; [exact L|]. destruct (mi_flag1 c I L) as [i [k F]].
        exists i, k, (length (sc_trace c)). split; [apply flag_set_grow; exact F|].
        split; [destruct F as [_ [_ F]]; apply nth_error_Some; congruence|].
        rewrite E. apply nth_snoc_new.
    + constructor; cbn [sc_trace sc_threads sc_mem]; unfold upd; simpl.
      * intros x e H. apply nth_snoc in H. destruct H as [[_ H]|[Lx ->]].
        -- exact (events_grow c _ I x e H).
        -- do 3 right. eexists. split; [reflexivity|].
           destruct (mi_seen c I) as [L [i [k [m F]]]]; [rewrite P; lia|].
           split; [unfold result; simpl; apply (mi_pc1 c I); lia|].
           exists i, k, m. split; [apply flag_seen_grow; exact F|].
           destruct F as [_ [_ F]]. rewrite Lx. apply nth_error_Some. congruence.
      * apply once_grow; [exact I|]. discriminate.
      * intros E i D. apply nth_snoc in D. destruct D as [[_ D]|[_ D]]; [|discriminate].
        exact (mi_pc0 c I E i D).
      * intros L. destruct (mi_pc1 c I L) as [M [i D]]. split; [exact M|].
        exists i. apply nth_snoc_old. exact D.
      * apply (mi_flag0 c I).
      * intros L. destruct (mi_flag1 c I L) as [i [k F]]. exists i, k. apply flag_set_grow. exact F.
      * intros _. destruct (mi_seen c I) as [L [i [k [m F]]]]; [rewrite P; lia|].
        split; [exact L|]. exists i, k, m. apply flag_seen_grow. exact F.
  - discriminate.
Qed.

Lemma mp_inv_run : forall sched, mp_inv (sc_run mp_sc sched).
Proof.
  intros sched. induction sched as [|t sched IH] using rev_ind.
  - constructor; simpl; try lia; auto.
    + intros x e H. destruct x; discriminate.
    + intros x y H. destruct x; discriminate.
    + intros _ i H. destruct i; discriminate.
  - unfold sc_run. rewrite fold_left_app. simpl. apply mp_inv_step. exact IH.
Qed.

Lemma mp_race_free : forall sched, race_free (sc_trace (sc_run mp_sc sched)).
Proof.
  intros sched i j e e' L Hi Hj C. pose proof (mp_inv_run sched) as I.
  set (c := sc_run mp_sc sched) in *.
  pose proof (mi_events c I i e Hi) as Ei. pose proof (mi_events c I j e' Hj) as Ej.
  destruct C as [T [P [l C]]].
  destruct Ei as [->|[->|[[v ->]|[v [-> [V [i0 [k [m [F Lm]]]]]]]]]],
           Ej as [->|[->|[[w ->]|[w [-> [V' [i1 [k1 [m1 [F1 Lm1]]]]]]]]]];
    try (exfalso; apply T; reflexivity);
    try (exfalso; destruct P as [P|P]; exact P);
    try (exfalso; destruct C as [[C1 [C2|C2]]|[C1 C2]]; simpl in C1, C2; congruence).
  - (* the datum is written, then read *)
    destruct F1 as [[D1 [L1 K1]] [L2 M1]].
    assert (i1 = i) by (exact (mi_once c I i1 i D1 Hi)). subst i1.
    apply t_trans with k1; [|apply t_trans with m1]; apply t_step.
    + eapply hb_po; [exact Hi|exact K1|lia|reflexivity].
    + eapply hb_sync; [exact K1|exact M1|lia| | |reflexivity|reflexivity]; intros Q; exact Q.
    + eapply hb_po; [exact M1|exact Hj|lia|reflexivity].
  - (* the datum is read, then written: impossible *)
    exfalso. destruct F as [[D [L1 K]] [L2 M]].
    assert (i0 = j) by (exact (mi_once c I i0 j D Hj)). lia.
Qed.

Lemma mp_seq_cst : forall sched,
  Forall (fun e => seq_cst_action (action_of e)) (sc_trace (sc_run mp_sc sched)).
Proof.
  intros sched. apply Forall_forall. intros e H. apply In_nth_error in H. destruct H as [x H].
  destruct (mi_events _ (mp_inv_run sched) x e H) as [->|[->|[[v ->]|[v [-> _]]]]]; simpl; auto.
Qed.

(** So thread 1 reads 42, whatever the stores do in their queues. *)
Lemma mp_reads_42 : forall sched e, In e (t_trace (tso_run mp_tso sched)) ->
  e_op e = PlainLoad 0 -> e_value e = 42%Z.
Proof.
  intros sched e H E.
  destruct (drf_sc mp (fun _ => 0%Z) (fun _ => 0) mp_race_free mp_seq_cst sched) as [sched' [T _]].
  assert (In (observed e) (sc_trace (sc_run mp_sc sched'))) as I.
  { unfold mp_sc. rewrite <- T. apply in_map. exact H. }
  apply In_nth_error in I. destruct I as [x I].
  destruct (mi_events _ (mp_inv_run sched') x _ I) as [Q|[Q|[[v Q]|[v [Q [V _]]]]]];
    unfold observed in Q; rewrite E in Q; inversion Q.
  subst v. match goal with R : result _ _ = 42%Z |- _ => exact R end.
Qed.

(** ** Consequences of coherence *)

(** Store buffering: of two threads that each make a strong write, or a write
    and a strong operation, and then read, at least one sees the other's. *)
Theorem store_buffering : forall tr orders x y i i' j k k' m wj wm ei ei' ej ek ek' em,
  coherent tr orders ->
  nth_error tr i = Some ei -> nth_error tr i' = Some ei' -> nth_error tr j = Some ej ->
  nth_error tr k = Some ek -> nth_error tr k' = Some ek' -> nth_error tr m = Some em ->
  e_thread ei = e_thread ei' -> e_thread ei' = e_thread ej -> i <= i' -> i' < j ->
  e_thread ek = e_thread ek' -> e_thread ek' = e_thread em -> k <= k' -> k' < m ->
  e_thread ei <> e_thread ek ->
  strong (e_op ei') -> strong (e_op ek') ->
  writes tr i x -> writes tr k y -> reads_from tr j y wj -> reads_from tr m x wm ->
  older (orders y) wj (Some k) -> older (orders x) wm (Some i) -> False.
Proof.
  intros tr orders x y i i' j k k' m wj wm ei ei' ej ek ek' em C Hi Hi' Hj Hk Hk' Hm
    T1 T2 L1 L2 T3 T4 L3 L4 D Si Sk Wi Wk Rj Rm Oj Om.
  assert (A1 : i = i' \/ comes_before tr i i').
  { destruct (Nat.eq_dec i i') as [E|N]; [left; exact E|]. right. apply t_step.
    eapply edge_po; [exact Hi|exact Hi'|lia|exact T1]. }
  assert (A2 : k = k' \/ comes_before tr k k').
  { destruct (Nat.eq_dec k k') as [E|N]; [left; exact E|]. right. apply t_step.
    eapply edge_po; [exact Hk|exact Hk'|lia|exact T3]. }
  assert (B1 : comes_before tr i' j).
  { apply t_step. eapply edge_po; [exact Hi'|exact Hj|exact L2|exact T2]. }
  assert (B2 : comes_before tr k' m).
  { apply t_step. eapply edge_po; [exact Hk'|exact Hm|exact L4|exact T4]. }
  destruct (Nat.lt_total i' k') as [L|[L|L]].
  - apply (co_read tr orders C i m x wm Wi); [|exact Rm|exact Om].
    assert (E : comes_before tr i' k').
    { apply t_step. eapply edge_strong; [exact Hi'|exact Hk'|exact L|exact Si|exact Sk]. }
    destruct A1 as [->|A1].
    + apply t_trans with k'; assumption.
    + apply t_trans with i'; [exact A1|]. apply t_trans with k'; assumption.
  - subst k'. rewrite Hi' in Hk'. inversion Hk'; subst ek'. congruence.
  - apply (co_read tr orders C k j y wj Wk); [|exact Rj|exact Oj].
    assert (E : comes_before tr k' i').
    { apply t_step. eapply edge_strong; [exact Hk'|exact Hi'|exact L|exact Sk|exact Si]. }
    destruct A2 as [->|A2].
    + apply t_trans with i'; assumption.
    + apply t_trans with k'; [exact A2|]. apply t_trans with i'; assumption.
Qed.

(** Message passing. *)
Theorem message_passing : forall tr orders d f i k j m w ei ek ej em,
  coherent tr orders ->
  nth_error tr i = Some ei -> nth_error tr k = Some ek ->
  nth_error tr j = Some ej -> nth_error tr m = Some em ->
  e_thread ei = e_thread ek -> i < k -> e_thread ej = e_thread em -> j < m ->
  writes tr i d -> reads_from tr j f (Some k) -> reads_from tr m d w ->
  ~ older (orders d) w (Some i).
Proof.
  intros tr orders d f i k j m w ei ek ej em C Hi Hk Hj Hm T1 L1 T2 L2 Wi Rj Rm.
  apply (co_read tr orders C i m d w Wi); [|exact Rm].
  apply t_trans with k; [|apply t_trans with j]; apply t_step.
  - eapply edge_po; [exact Hi|exact Hk|exact L1|exact T1].
  - destruct Rj as [e [He [Re Fe]]]. eapply edge_rf; [exact He|exact Re|exact Fe].
  - eapply edge_po; [exact Hj|exact Hm|exact L2|exact T2].
Qed.

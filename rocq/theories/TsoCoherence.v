(** * Proofs for C42: coherence of the store-buffer machine. *)
From Coq Require Import ZArith Arith List Bool Relations Operators_Properties Lia.
Require Import Verif.Order Verif.SpecTso Verif.TsoModel Verif.TsoProof.
Import ListNotations.
Open Scope nat_scope.

(** ** Orders of lists *)

Lemma older_app : forall a l x y, older a x y -> older (a ++ l) x y.
Proof.
  intros a l x y [h1 [h2 [h3 E]]]. exists h1, h2, (h3 ++ l). rewrite E.
  rewrite <- !app_assoc. simpl. rewrite <- app_assoc. reflexivity.
Qed.

Lemma older_snoc : forall a x y, In x a -> older (a ++ [y]) x y.
Proof.
  intros a x y H. apply in_split in H. destruct H as [h1 [h2 E]]. exists h1, h2, [].
  rewrite E, <- app_assoc. reflexivity.
Qed.

Lemma older_in : forall a x y, older a x y -> In x a /\ In y a.
Proof.
  intros a x y [h1 [h2 [h3 E]]]. rewrite E. split.
  - apply in_or_app. right. left. reflexivity.
  - apply in_or_app. right. right. apply in_or_app. right. left. reflexivity.
Qed.

Lemma older_cons : forall a z x y, older (z :: a) x y -> (x = z /\ In y a) \/ older a x y.
Proof.
  intros a z x y [h1 [h2 [h3 E]]]. destruct h1 as [|w h1]; simpl in E; inversion E; subst.
  - left. split; [reflexivity|]. apply in_or_app. right. left. reflexivity.
  - right. exists h1, h2, h3. reflexivity.
Qed.

Lemma older_antisym : forall a x y, NoDup a -> older a x y -> older a y x -> False.
Proof.
  intros a. induction a as [|z a IH]; intros x y N H1 H2.
  - destruct H1 as [[|? ?] [? [? E]]]; discriminate.
  - inversion N as [|z' a' Nz Na]; subst. apply older_cons in H1. apply older_cons in H2.
    destruct H1 as [[-> I1]|H1].
    + destruct H2 as [[-> _]|H2]; [exact (Nz I1)|].
      apply older_in in H2. destruct H2 as [_ H2]. exact (Nz H2).
    + destruct H2 as [[-> _]|H2]; [|exact (IH x y Na H1 H2)].
      apply older_in in H1. destruct H1 as [_ H1]. exact (Nz H1).
Qed.

Lemma NoDup_app_snoc_helper : forall (A : Type) (a : list A) x,
  NoDup a -> ~ In x a -> NoDup (a ++ [x]).
Proof.
  intros A a x N I. induction N as [|y a Ny N IH]; simpl.
  - constructor; [intros []|constructor].
  - constructor.
    + intros H. apply in_app_or in H. destruct H as [H|[H|[]]]; [exact (Ny H)|].
      apply I. left. symmetry. exact H.
    + apply IH. intros H. apply I. right. exact H.
Qed.

(** ** Where the writes are *)

Definition ids (m : nat -> list entry) (l : nat) : list (option nat) := map snd (m l).
Definition arrived (m : nat -> list entry) (i : nat) : Prop := exists l, In (Some i) (ids m l).
Definition names (q : list (nat * entry)) : list (option nat) := map (fun x => snd (snd x)) q.
Definition pend (b : nat -> list (nat * entry)) (t i : nat) : Prop := In (Some i) (names (b t)).

(** [i] reaches memory no later than [k]. *)
Definition ahead (m : nat -> list entry) (b : nat -> list (nat * entry)) (i k : nat) : Prop :=
  (arrived m i /\ exists t, pend b t k) \/
  (exists t, older (names (b t)) (Some i) (Some k)) \/
  (arrived m i /\ arrived m k /\
   forall l, In (Some i) (ids m l) -> In (Some k) (ids m l) -> older (ids m l) (Some i) (Some k)).

Lemma ids_upd : forall m l e l',
  ids (upd m l (m l ++ [e])) l' = ids m l' ++ (if Nat.eqb l' l then [snd e] else []).
Proof.
  intros m l e l'. unfold ids, upd. destruct (Nat.eqb_spec l' l) as [->|_].
  - rewrite map_app. reflexivity.
  - rewrite app_nil_r. reflexivity.
Qed.

Lemma arrived_upd : forall m l e i, arrived m i -> arrived (upd m l (m l ++ [e])) i.
Proof.
  intros m l e i [l' H]. exists l'. rewrite ids_upd. apply in_or_app. left. exact H.
Qed.

Lemma arrived_new : forall m l v i, arrived (upd m l (m l ++ [(v, Some i)])) i.
Proof.
  intros m l v i. exists l. rewrite ids_upd, Nat.eqb_refl. apply in_or_app. right. left. reflexivity.
Qed.

Lemma ids_upd_in : forall m l e i l', snd e <> Some i ->
  In (Some i) (ids (upd m l (m l ++ [e])) l') -> In (Some i) (ids m l').
Proof.
  intros m l e i l' D H. rewrite ids_upd in H. apply in_app_or in H. destruct H as [H|H]; [exact H|].
  destruct (Nat.eqb l' l); [|destruct H]. destruct H as [H|[]]. contradiction.
Qed.

Lemma arrived_upd_inv : forall m l v n i, arrived (upd m l (m l ++ [(v, Some n)])) i ->
  i = n \/ arrived m i.
Proof.
  intros m l v n i [l' H]. destruct (Nat.eq_dec i n) as [->|D]; [left; reflexivity|].
  right. exists l'. apply (ids_upd_in m l (v, Some n)); [simpl; congruence|exact H].
Qed.

Lemma ahead_push : forall m b t x i k, ahead m b i k -> ahead m (upd b t (b t ++ [x])) i k.
Proof.
  intros m b t x i k [[A [t' P]]|[[t' O]|H]].
  - left. split; [exact A|]. exists t'. unfold pend, upd in *.
    destruct (Nat.eqb_spec t' t) as [->|_]; [|exact P].
    unfold names. rewrite map_app. apply in_or_app. left. exact P.
  - right. left. exists t'. unfold upd. destruct (Nat.eqb_spec t' t) as [->|_]; [|exact O].
    unfold names. rewrite map_app. apply older_app. exact O.
  - right. right. exact H.
Qed.

Lemma ahead_append : forall m b l v n i k, i <> n -> k <> n ->
  ahead m b i k -> ahead (upd m l (m l ++ [(v, Some n)])) b i k.
Proof.
  intros m b l v n i k Di Dk [[A P]|[O|[A [A' H]]]].
  - left. split; [apply arrived_upd; exact A|exact P].
  - right. left. exact O.
  - right. right. split; [apply arrived_upd; exact A|]. split; [apply arrived_upd; exact A'|].
    intros l' I1 I2. apply ids_upd_in in I1; [|simpl; congruence].
    apply ids_upd_in in I2; [|simpl; congruence].
    rewrite ids_upd. apply older_app. auto.
Qed.

Lemma ahead_flush : forall m b t l v q r i k,
  b t = (l, (v, Some q)) :: r -> ~ arrived m q ->
  ahead m b i k -> ahead (upd m l (m l ++ [(v, Some q)])) (upd b t r) i k.
Proof.
  intros m b t l v q r i k B NA [[A [t' P]]|[[t' O]|[A [A' H]]]].
  - destruct (Nat.eq_dec t' t) as [->|D].
    + unfold pend in P. rewrite B in P. simpl in P. destruct P as [P|P].
      * inversion P; subst k. right. right. split; [apply arrived_upd; exact A|].
        split; [apply arrived_new|]. intros l' I1 I2. rewrite ids_upd. rewrite ids_upd in I1, I2.
        assert (Diq : i <> q) by congruence.
        destruct (Nat.eqb_spec l' l) as [El|Dl].
        -- apply older_snoc. apply in_app_or in I1. destruct I1 as [I1|[I1|[]]]; [exact I1|].
           simpl in I1. congruence.
        -- exfalso. apply NA. exists l'. rewrite app_nil_r in I2. exact I2.
      * left. split; [apply arrived_upd; exact A|]. exists t. unfold pend. rewrite upd_same. exact P.
    + left. split; [apply arrived_upd; exact A|]. exists t'. unfold pend.
      rewrite upd_other by exact D. exact P.
  - destruct (Nat.eq_dec t' t) as [->|D].
    + rewrite B in O. simpl in O. apply older_cons in O. destruct O as [[E O]|O].
      * inversion E; subst q. left. split; [apply arrived_new|]. exists t. unfold pend.
        rewrite upd_same. exact O.
      * right. left. exists t. rewrite upd_same. exact O.
    + right. left. exists t'. rewrite upd_other by exact D. exact O.
  - right. right. split; [apply arrived_upd; exact A|]. split; [apply arrived_upd; exact A'|].
    assert (i <> q) by congruence. assert (k <> q) by congruence.
    intros l' I1 I2. apply ids_upd_in in I1; [|simpl; congruence].
    apply ids_upd_in in I2; [|simpl; congruence].
    rewrite ids_upd. apply older_app. auto.
Qed.

(** ** Traces *)

Definition forward (tr : list event) : Prop :=
  forall j e i, nth_error tr j = Some e -> e_from e = Some i -> i < j.

Lemma edge_forward : forall tr i j, forward tr -> edge tr i j -> i < j.
Proof.
  intros tr i j F E. destruct E as [e e' _ _ L _|e' l H _ H'|e e' _ _ L _ _]; auto.
  exact (F j e' i H H').
Qed.

Lemma before_forward : forall tr i j, forward tr -> comes_before tr i j -> i < j.
Proof.
  intros tr i j F C. induction C as [i j E|i k j _ IH1 _ IH2]; [|lia].
  exact (edge_forward tr i j F E).
Qed.

Lemma edge_old : forall tr e i j, edge (tr ++ [e]) i j -> j < length tr -> edge tr i j.
Proof.
  intros tr e i j E L.
  destruct E as [e1 e2 H1 H2 Lij T|e2 l H2 R F|e1 e2 H1 H2 Lij S1 S2];
    apply nth_snoc in H2; destruct H2 as [[_ H2]|[H2 _]]; try lia.
  - apply nth_snoc in H1. destruct H1 as [[_ H1]|[H1 _]]; [|lia]. eapply edge_po; eassumption.
  - eapply edge_rf; eassumption.
  - apply nth_snoc in H1. destruct H1 as [[_ H1]|[H1 _]]; [|lia]. eapply edge_strong; eassumption.
Qed.

Lemma before_old : forall tr e i j, forward (tr ++ [e]) ->
  comes_before (tr ++ [e]) i j -> j < length tr -> comes_before tr i j.
Proof.
  intros tr e i j F C. induction C as [i j E|i k j C1 IH1 C2 IH2]; intros L.
  - apply t_step. exact (edge_old tr e i j E L).
  - apply t_trans with k; [|apply IH2; exact L].
    apply IH1. pose proof (before_forward _ _ _ F C2). lia.
Qed.

Lemma before_new : forall tr e i, forward (tr ++ [e]) ->
  comes_before (tr ++ [e]) i (length tr) ->
  exists x, edge (tr ++ [e]) x (length tr) /\ (i = x \/ comes_before tr i x).
Proof.
  intros tr e i F C. apply clos_trans_tn1 in C. inversion C as [E|y z E C']; subst.
  - exists i. auto.
  - exists y. split; [exact E|]. right. apply clos_tn1_trans in C'.
    apply (before_old tr e); [exact F|exact C'|]. pose proof (edge_forward _ _ _ F E). exact H.
Qed.

Lemma writes_old : forall tr e i l, writes (tr ++ [e]) i l -> i < length tr -> writes tr i l.
Proof.
  intros tr e i l [e' [H W]] L. apply nth_snoc in H. destruct H as [[_ H]|[H _]]; [|lia].
  exists e'. auto.
Qed.

Lemma writes_loc : forall tr i l l', writes tr i l -> writes tr i l' -> l = l'.
Proof. intros tr i l l' [e [H W]] [e' [H' W']]. congruence. Qed.

Lemma writes_lt : forall tr i l, writes tr i l -> i < length tr.
Proof. intros tr i l [e [H _]]. apply nth_error_Some. congruence. Qed.

(** ** The invariant *)

Section Coherence.
Variable p : program.
Variable init : nat -> Z.

Definition known (tr : list event) (t i : nat) : Prop :=
  exists j e, nth_error tr j = Some e /\ e_thread e = t /\ (i = j \/ comes_before tr i j).

Record good (s : tso_state p) : Prop := {
  g_forward : forward (t_trace s);
  g_init : forall l, exists r, t_mem s l = (init l, None) :: r /\
    forall x, In x r -> exists i e, x = (written (e_op e) (e_value e), Some i) /\
      nth_error (t_trace s) i = Some e /\ write_loc (e_op e) = Some l;
  g_buffer : forall t l x, In (l, x) (t_buffer s t) ->
    exists i e, x = (written (e_op e) (e_value e), Some i) /\
      nth_error (t_trace s) i = Some e /\ e_thread e = t /\ write_loc (e_op e) = Some l;
  g_nodup : forall l, NoDup (ids (t_mem s) l);
  g_nodup_b : forall t, NoDup (names (t_buffer s t));
  g_apart : forall t i, pend (t_buffer s) t i -> ~ arrived (t_mem s) i;
  g_known : forall t i l, writes (t_trace s) i l -> known (t_trace s) t i ->
    arrived (t_mem s) i \/ pend (t_buffer s) t i;
  g_strong : forall i l j e, writes (t_trace s) i l -> nth_error (t_trace s) j = Some e ->
    strong (e_op e) -> i = j \/ comes_before (t_trace s) i j -> arrived (t_mem s) i;
  g_write : forall i k l l', writes (t_trace s) i l -> writes (t_trace s) k l' ->
    comes_before (t_trace s) i k -> ahead (t_mem s) (t_buffer s) i k;
  g_read : forall i j l w, writes (t_trace s) i l -> comes_before (t_trace s) i j ->
    reads_from (t_trace s) j l w ->
    exists k, w = Some k /\ (i = k \/ ahead (t_mem s) (t_buffer s) i k);
  g_rmw : forall j e l f o, nth_error (t_trace s) j = Some e -> e_op e = ARmw l f o ->
    exists h1 h2, ids (t_mem s) l = h1 ++ e_from e :: Some j :: h2;
  g_value : values_explained init (t_trace s) }.

Lemma arrived_loc : forall s i l l', good s -> writes (t_trace s) i l ->
  In (Some i) (ids (t_mem s) l') -> l' = l.
Proof.
  intros s i l l' G [e [H W]] I. unfold ids in I. apply in_map_iff in I. destruct I as [x [E I]].
  destruct (g_init s G l') as [r [M R]]. rewrite M in I. destruct I as [I|I].
  - subst x. discriminate.
  - destruct (R x I) as [i' [e' [E' [H' W']]]]. subst x. simpl in E. inversion E; subst i'. congruence.
Qed.

Lemma arrived_at : forall s i l, good s -> writes (t_trace s) i l -> arrived (t_mem s) i ->
  In (Some i) (ids (t_mem s) l).
Proof.
  intros s i l G W [l' I]. rewrite (arrived_loc s i l l' G W I) in I. exact I.
Qed.

Lemma arrived_lt : forall s i, good s -> arrived (t_mem s) i ->
  i < length (t_trace s) /\ exists l, writes (t_trace s) i l.
Proof.
  intros s i G [l I]. unfold ids in I. apply in_map_iff in I. destruct I as [x [E I]].
  destruct (g_init s G l) as [r [M R]]. rewrite M in I. destruct I as [I|I].
  - subst x. discriminate.
  - destruct (R x I) as [i' [e' [E' [H' W']]]]. subst x. simpl in E. inversion E; subst i'.
    split; [apply nth_error_Some; congruence|]. exists l, e'. auto.
Qed.

Lemma pend_lt : forall s t i, good s -> pend (t_buffer s) t i ->
  i < length (t_trace s) /\ exists e, nth_error (t_trace s) i = Some e /\ e_thread e = t.
Proof.
  intros s t i G P. unfold pend, names in P. apply in_map_iff in P. destruct P as [[l x] [E P]].
  destruct (g_buffer s G t l x P) as [i' [e' [E' [H' [T' W']]]]]. subst x. simpl in E.
  inversion E; subst i'. split; [apply nth_error_Some; congruence|]. exists e'. auto.
Qed.

Lemma pend_same : forall s t t' i, good s -> pend (t_buffer s) t i -> pend (t_buffer s) t' i -> t = t'.
Proof.
  intros s t t' i G P P'. destruct (pend_lt s t i G P) as [_ [e [H T]]].
  destruct (pend_lt s t' i G P') as [_ [e' [H' T']]]. congruence.
Qed.

(** If [k] has arrived, so has what is ahead of it. *)
Lemma ahead_arrived : forall s i k, good s -> ahead (t_mem s) (t_buffer s) i k ->
  arrived (t_mem s) k -> arrived (t_mem s) i.
Proof.
  intros s i k G [[A _]|[[t O]|[A _]]] K; auto.
  apply older_in in O. destruct O as [_ O]. exfalso. exact (g_apart s G t k O K).
Qed.

(** If [k] is on its way from [t], what is ahead has arrived or is on its way
    from [t]. *)
Lemma ahead_pend : forall s t i k, good s -> ahead (t_mem s) (t_buffer s) i k ->
  pend (t_buffer s) t k -> arrived (t_mem s) i \/ pend (t_buffer s) t i.
Proof.
  intros s t i k G [[A _]|[[t' O]|[A _]]] K; auto.
  apply older_in in O. destruct O as [O1 O2]. right.
  rewrite (pend_same s t t' k G K O2). exact O1.
Qed.

(** What a thread finds. *)
Lemma look_cases : forall (b : list (nat * entry)) m l,
  (exists b1 b2, b = b1 ++ (l, look b m l) :: b2 /\ ~ pending b2 l) \/
  (~ pending b l /\ look b m l = last m (0%Z, None)).
Proof.
  intros b m l. induction b as [|[l' x] b IH] using rev_ind.
  - right. split; [intros [e []]|reflexivity].
  - destruct (Nat.eq_dec l' l) as [->|D].
    + left. exists b, []. rewrite look_push_same. split; [reflexivity|intros [e []]].
    + rewrite look_push_other by congruence. destruct IH as [[b1 [b2 [E N]]]|[N E]].
      * left. exists b1, (b2 ++ [(l', x)]). split.
        -- rewrite E at 1. rewrite <- app_assoc. reflexivity.
        -- intros P. apply pending_snoc in P. destruct P as [P|P]; [exact (N P)|congruence].
      * right. split; [|exact E]. intros P. apply pending_snoc in P.
        destruct P as [P|P]; [exact (N P)|congruence].
Qed.

Lemma mem_last : forall s l, good s -> exists q, t_mem s l = q ++ [last (t_mem s l) (0%Z, None)].
Proof.
  intros s l G. destruct (g_init s G l) as [r [M _]].
  exists (removelast (t_mem s l)). apply app_removelast_last. rewrite M. discriminate.
Qed.

(** A write of [l] that has arrived, or is on its way from [t], is not newer than
    what [t] finds at [l]. *)
Lemma find_newest : forall s t l i, good s -> writes (t_trace s) i l ->
  arrived (t_mem s) i \/ pend (t_buffer s) t i ->
  exists k, snd (find s t l) = Some k /\ (i = k \/ ahead (t_mem s) (t_buffer s) i k).
Proof.
  intros s t l i G W H. rewrite find_look.
  destruct (look_cases (t_buffer s t) (t_mem s l) l) as [[b1 [b2 [E N]]]|[N E]].
  - set (x := look (t_buffer s t) (t_mem s l) l) in *.
    assert (Ix : In (l, x) (t_buffer s t)) by (rewrite E; apply in_or_app; right; left; reflexivity).
    destruct (g_buffer s G t l x Ix) as [k [e [Ek [Hk [Tk Wk]]]]].
    exists k. split; [rewrite Ek; reflexivity|].
    assert (Pk : pend (t_buffer s) t k).
    { unfold pend, names. apply in_map_iff. exists (l, x). split; [rewrite Ek; reflexivity|exact Ix]. }
    destruct H as [A|P].
    + right. left. split; [exact A|]. exists t. exact Pk.
    + unfold pend, names in P. apply in_map_iff in P. destruct P as [[l' y] [Ey Iy]].
      destruct (g_buffer s G t l' y Iy) as [i' [e' [Ei [Hi [Ti Wi]]]]].
      rewrite Ei in Ey. simpl in Ey. inversion Ey; subst i'.
      destruct W as [e0 [H0 W0]].
      assert (l' = l) by congruence. subst l'.
      rewrite E in Iy. apply in_app_or in Iy. destruct Iy as [Iy|[Iy|Iy]].
      * right. right. left. exists t. rewrite E. unfold names. rewrite map_app. simpl.
        apply in_split in Iy. destruct Iy as [c1 [c2 Ec]].
        exists (map (fun x => snd (snd x)) c1), (map (fun x => snd (snd x)) c2),
          (map (fun x => snd (snd x)) b2).
        rewrite Ec, map_app. simpl. rewrite Ei, Ek. simpl. rewrite <- app_assoc. reflexivity.
      * left. inversion Iy as [Exy]. rewrite Ei, Ek in Exy. inversion Exy. congruence.
      * exfalso. apply N. exists y. exact Iy.
  - rewrite E. destruct H as [A|P].
    + pose proof (arrived_at s i l G W A) as I.
      destruct (mem_last s l G) as [q Q]. set (x := last (t_mem s l) (0%Z, None)) in *.
      unfold ids in I. rewrite Q, map_app in I. apply in_app_or in I.
      destruct (g_init s G l) as [r [M R]].
      assert (Ix : In x (t_mem s l)) by (rewrite Q; apply in_or_app; right; left; reflexivity).
      assert (Sx : exists k, snd x = Some k).
      { destruct q as [|q0 q].
        - destruct I as [[]|[I|[]]]. simpl in I. exists i. exact I.
        - rewrite M in Q. simpl in Q. inversion Q as [[Q0 Q1]].
          assert (In x r) as Ir by (rewrite Q1; apply in_or_app; right; left; reflexivity).
          destruct (R x Ir) as [k [e [Ek _]]]. exists k. rewrite Ek. reflexivity. }
      destruct Sx as [k Sx]. exists k. split; [exact Sx|].
      destruct I as [I|[I|[]]]; [|left; simpl in I; congruence].
      right. right. right. split; [exact A|].
      assert (Ak : In (Some k) (ids (t_mem s) l)).
      { unfold ids. apply in_map_iff. exists x. auto. }
      split; [exists l; exact Ak|].
      intros l' I1 I2. rewrite (arrived_loc s i l l' G W I1).
      unfold ids. rewrite Q, map_app. simpl. rewrite Sx. apply older_snoc. exact I.
    + exfalso. apply N. unfold pend, names in P. apply in_map_iff in P. destruct P as [[l' y] [Ey Iy]].
      destruct (g_buffer s G t l' y Iy) as [i' [e' [Ei [Hi [Ti Wi]]]]].
      rewrite Ei in Ey. simpl in Ey. inversion Ey; subst i'.
      destruct W as [e0 [H0 W0]].
      assert (l' = l) by congruence. subst l'. exists y. exact Iy.
Qed.

(** The value found is that of the write found. *)
Lemma find_value : forall s t l, good s ->
  match snd (find s t l) with
  | None => fst (find s t l) = init l
  | Some i => exists e, nth_error (t_trace s) i = Some e /\ write_loc (e_op e) = Some l /\
                fst (find s t l) = written (e_op e) (e_value e)
  end.
Proof.
  intros s t l G. rewrite find_look.
  destruct (look_cases (t_buffer s t) (t_mem s l) l) as [[b1 [b2 [E N]]]|[N E]].
  - set (x := look (t_buffer s t) (t_mem s l) l) in *.
    assert (Ix : In (l, x) (t_buffer s t)) by (rewrite E; apply in_or_app; right; left; reflexivity).
    destruct (g_buffer s G t l x Ix) as [k [e [Ek [Hk [Tk Wk]]]]].
    rewrite Ek. simpl. exists e. auto.
  - rewrite E. destruct (mem_last s l G) as [q Q]. set (x := last (t_mem s l) (0%Z, None)) in *.
    destruct (g_init s G l) as [r [M R]].
    assert (Ix : In x (t_mem s l)) by (rewrite Q; apply in_or_app; right; left; reflexivity).
    rewrite M in Ix. destruct Ix as [Ix|Ix].
    + rewrite <- Ix. reflexivity.
    + destruct (R x Ix) as [k [e [Ek [Hk Wk]]]]. rewrite Ek. simpl. exists e. auto.
Qed.

Lemma find_where : forall s t l x, good s -> snd (find s t l) = Some x ->
  writes (t_trace s) x l /\ (arrived (t_mem s) x \/ pend (t_buffer s) t x).
Proof.
  intros s t l x G H. split.
  - pose proof (find_value s t l G) as V. rewrite H in V. destruct V as [e [H1 [H2 _]]].
    exists e. auto.
  - rewrite find_look in H.
    destruct (look_cases (t_buffer s t) (t_mem s l) l) as [[b1 [b2 [E N]]]|[N E]].
    + right. unfold pend, names. apply in_map_iff.
      exists (l, look (t_buffer s t) (t_mem s l) l). split; [exact H|].
      rewrite E at 2. apply in_or_app. right. left. reflexivity.
    + left. exists l. rewrite E in H. destruct (mem_last s l G) as [q Q].
      unfold ids. rewrite Q, map_app. apply in_or_app. right. left. exact H.
Qed.

(** Where the next event's past is, before the event. *)
Lemma past : forall s t a v w i l, good s ->
  forward (t_trace s ++ [Event t a v w]) ->
  (forall l, read_loc a = Some l -> w = snd (find s t l)) ->
  (strong a -> t_buffer s t = []) ->
  writes (t_trace s) i l ->
  comes_before (t_trace s ++ [Event t a v w]) i (length (t_trace s)) ->
  arrived (t_mem s) i \/ pend (t_buffer s) t i.
Proof.
  intros s t a v w i l G F R S W C.
  destruct (before_new _ _ _ F C) as [x [E X]].
  pose proof (edge_forward _ _ _ F E) as Lx.
  destruct E as [e1 e2 H1 H2 _ T|e2 l' H2 R' Fr|e1 e2 H1 H2 _ S1 S2].
  - apply nth_snoc in H1. destruct H1 as [[_ H1]|[H1 _]]; [|lia].
    rewrite nth_snoc_new in H2. inversion H2; subst e2. simpl in T.
    apply (g_known s G t i l W). exists x, e1. auto.
  - rewrite nth_snoc_new in H2. inversion H2; subst e2. simpl in R', Fr.
    rewrite (R l' R') in Fr. destruct (find_where s t l' x G Fr) as [Wx Px].
    destruct X as [->|X]; [exact Px|].
    pose proof (g_write s G i x l l' W Wx X) as A.
    destruct Px as [Px|Px].
    + left. exact (ahead_arrived s i x G A Px).
    + exact (ahead_pend s t i x G A Px).
  - apply nth_snoc in H1. destruct H1 as [[_ H1]|[H1 _]]; [|lia].
    left. exact (g_strong s G i l x e1 W H1 S1 X).
Qed.

Lemma good_extend : forall s s' t a v w,
  good s ->
  t_trace s' = t_trace s ++ [Event t a v w] ->
  (forall i, arrived (t_mem s) i -> arrived (t_mem s') i) ->
  (forall t i, pend (t_buffer s) t i -> pend (t_buffer s') t i) ->
  (forall i k, i < length (t_trace s) -> k < length (t_trace s) ->
     ahead (t_mem s) (t_buffer s) i k -> ahead (t_mem s') (t_buffer s') i k) ->
  (forall l, write_loc a = Some l ->
     (forall i l', writes (t_trace s) i l' -> arrived (t_mem s) i \/ pend (t_buffer s) t i ->
        ahead (t_mem s') (t_buffer s') i (length (t_trace s))) /\
     (arrived (t_mem s') (length (t_trace s)) \/ pend (t_buffer s') t (length (t_trace s)))) ->
  (strong a -> t_buffer s t = [] /\
     forall l, write_loc a = Some l -> arrived (t_mem s') (length (t_trace s))) ->
  (forall l, read_loc a = Some l -> (v, w) = find s t l) ->
  (forall x, w = Some x -> x < length (t_trace s)) ->
  (forall l, exists r, t_mem s' l = (init l, None) :: r /\
    forall x, In x r -> exists i e, x = (written (e_op e) (e_value e), Some i) /\
      nth_error (t_trace s') i = Some e /\ write_loc (e_op e) = Some l) ->
  (forall t l x, In (l, x) (t_buffer s' t) ->
    exists i e, x = (written (e_op e) (e_value e), Some i) /\
      nth_error (t_trace s') i = Some e /\ e_thread e = t /\ write_loc (e_op e) = Some l) ->
  (forall l, NoDup (ids (t_mem s') l)) ->
  (forall t, NoDup (names (t_buffer s' t))) ->
  (forall t i, pend (t_buffer s') t i -> ~ arrived (t_mem s') i) ->
  (forall j e l f o, nth_error (t_trace s') j = Some e -> e_op e = ARmw l f o ->
    exists h1 h2, ids (t_mem s') l = h1 ++ e_from e :: Some j :: h2) ->
  good s'.
Proof.
  intros s s' t a v w G TR HA HP HH HN HS HR HW I1 I2 I3 I4 I5 I6.
  set (n := length (t_trace s)) in *.
  assert (F : forward (t_trace s ++ [Event t a v w])).
  { intros j e i H E. apply nth_snoc in H. destruct H as [[_ H]|[-> ->]].
    - exact (g_forward s G j e i H E).
    - exact (HW i E). }
  assert (R : forall l, read_loc a = Some l -> w = snd (find s t l)).
  { intros l H. rewrite <- (HR l H). reflexivity. }
  assert (SB : strong a -> t_buffer s t = []) by (intros H; apply (HS H)).
  pose proof (fun i l => past s t a v w i l G F R SB) as P. fold n in P.
  assert (OLD : forall i j, comes_before (t_trace s ++ [Event t a v w]) i j -> j < n ->
                  comes_before (t_trace s) i j).
  { intros i j C L. exact (before_old _ _ _ _ F C L). }
  assert (FW : forall i j, comes_before (t_trace s ++ [Event t a v w]) i j -> i < j).
  { intros i j C. exact (before_forward _ _ _ F C). }
  assert (LN : forall j e, nth_error (t_trace s ++ [Event t a v w]) j = Some e -> j <= n).
  { intros j e H. assert (j < length (t_trace s ++ [Event t a v w])) as L
      by (apply nth_error_Some; congruence).
    rewrite app_length in L. simpl in L. unfold n. lia. }
  constructor; auto; rewrite TR in *.
  - exact F.
  - (* known *)
    intros t' i l W [j [e [Hj [Te X]]]].
    apply nth_snoc in Hj. destruct Hj as [[Lj Hj]|[Lj ->]].
    + assert (Li : i < n).
      { destruct X as [->|X]; [exact Lj|]. pose proof (FW i j X). fold n in Lj. lia. }
      assert (W' : writes (t_trace s) i l) by (apply (writes_old _ _ _ _ W Li)).
      assert (K : known (t_trace s) t' i).
      { exists j, e. split; [exact Hj|]. split; [exact Te|]. destruct X as [X|X]; [left; exact X|].
        right. apply OLD; [exact X|exact Lj]. }
      destruct (g_known s G t' i l W' K) as [A|A]; [left; auto|right; auto].
    + simpl in Te. subst t'. fold n in Lj. subst j. destruct X as [->|X].
      * destruct W as [e [He We]]. rewrite nth_snoc_new in He. inversion He; subst e. simpl in We.
        exact (proj2 (HN l We)).
      * assert (Li : i < n) by (apply FW; exact X).
        assert (W' : writes (t_trace s) i l) by (apply (writes_old _ _ _ _ W Li)).
        destruct (P i l W' X) as [A|A]; [left; auto|right; auto].
  - (* strong *)
    intros i l j e W Hj Se X. apply nth_snoc in Hj. destruct Hj as [[Lj Hj]|[Lj ->]].
    + assert (Li : i < n).
      { destruct X as [->|X]; [exact Lj|]. pose proof (FW i j X). fold n in Lj. lia. }
      assert (W' : writes (t_trace s) i l) by (apply (writes_old _ _ _ _ W Li)).
      apply HA. apply (g_strong s G i l j e W' Hj Se).
      destruct X as [X|X]; [left; exact X|right; apply OLD; assumption].
    + simpl in Se. fold n in Lj. subst j. destruct (HS Se) as [B A]. destruct X as [->|X].
      * destruct W as [e [He We]]. rewrite nth_snoc_new in He. inversion He; subst e. simpl in We.
        exact (A l We).
      * assert (Li : i < n) by (apply FW; exact X).
        assert (W' : writes (t_trace s) i l) by (apply (writes_old _ _ _ _ W Li)).
        destruct (P i l W' X) as [A'|A']; [apply HA; exact A'|].
        unfold pend in A'. rewrite B in A'. destruct A'.
  - (* write *)
    intros i k l l' W W' C. pose proof (FW i k C) as L.
    pose proof W' as [ek [Hk _]]. pose proof (LN k ek Hk) as Lk.
    assert (Li : i < n) by lia.
    pose proof (writes_old _ _ _ _ W Li) as Wi.
    destruct (Nat.eq_dec k n) as [->|D].
    + assert (write_loc a = Some l') as Wa.
      { destruct W' as [e [He We]]. rewrite nth_snoc_new in He. inversion He; subst e. exact We. }
      apply (proj1 (HN l' Wa) i l Wi). exact (P i l Wi C).
    + assert (Lkn : k < n) by lia. apply HH; [exact Li|exact Lkn|].
      apply (g_write s G i k l l'); [exact Wi|apply (writes_old _ _ _ _ W' Lkn)|apply OLD; assumption].
  - (* read *)
    intros i j l w' W C RF. pose proof (FW i j C) as L.
    pose proof RF as [ej [Hj [Rj Fj]]]. pose proof (LN j ej Hj) as Lj.
    assert (Li : i < n) by lia.
    pose proof (writes_old _ _ _ _ W Li) as Wi.
    destruct (Nat.eq_dec j n) as [->|D].
    + rewrite nth_snoc_new in Hj. inversion Hj; subst ej. simpl in Rj, Fj. subst w'.
      destruct (find_newest s t l i G Wi (P i l Wi C)) as [k [Ek X]].
      rewrite (R l Rj). exists k. split; [exact Ek|]. destruct X as [X|X]; [left; exact X|].
      right. apply HH; [exact Li| |exact X]. apply HW. rewrite (R l Rj). exact Ek.
    + assert (Ljn : j < n) by lia.
      apply nth_snoc in Hj. destruct Hj as [[_ Hj]|[Hj _]]; [|fold n in Hj; lia].
      assert (RF' : reads_from (t_trace s) j l w') by (exists ej; auto).
      destruct (g_read s G i j l w' Wi (OLD i j C Ljn) RF') as [k [Ek X]].
      exists k. split; [exact Ek|]. destruct X as [X|X]; [left; exact X|].
      right. apply HH; [exact Li| |exact X].
      pose proof (g_forward s G j ej k Hj) as Lk. subst w'.
      specialize (Lk Ek). lia.
  - (* value *)
    intros j l w' [e [He [Re Fe]]]. exists e. split; [exact He|].
    apply nth_snoc in He. destruct He as [[_ He]|[_ ->]].
    + destruct (g_value s G j l w' (ex_intro _ e (conj He (conj Re Fe)))) as [e0 [H0 V]].
      rewrite He in H0. inversion H0; subst e0.
      destruct w' as [i|]; [|exact V]. destruct V as [e' [H' V]].
      exists e'. split; [apply nth_snoc_old; exact H'|exact V].
    + simpl in Re, Fe. subst w'. simpl.
      pose proof (find_value s t l G) as V. rewrite <- (HR l Re) in V. simpl in V.
      destruct w as [i|]; [|exact V]. destruct V as [e' [H' V]].
      exists e'. split; [apply nth_snoc_old; exact H'|exact V].
Qed.

(** The parts of the invariant that a longer trace keeps. *)
Lemma init_grow : forall s ev l, good s ->
  exists r, t_mem s l = (init l, None) :: r /\
    forall x, In x r -> exists i e, x = (written (e_op e) (e_value e), Some i) /\
      nth_error (t_trace s ++ [ev]) i = Some e /\ write_loc (e_op e) = Some l.
Proof.
  intros s ev l G. destruct (g_init s G l) as [r [M R]]. exists r. split; [exact M|].
  intros x I. destruct (R x I) as [i [e [E [H W]]]]. exists i, e.
  split; [exact E|]. split; [apply nth_snoc_old; exact H|exact W].
Qed.

Lemma buffer_grow : forall s ev t l x, good s -> In (l, x) (t_buffer s t) ->
  exists i e, x = (written (e_op e) (e_value e), Some i) /\
    nth_error (t_trace s ++ [ev]) i = Some e /\ e_thread e = t /\ write_loc (e_op e) = Some l.
Proof.
  intros s ev t l x G I. destruct (g_buffer s G t l x I) as [i [e [E [H [T W]]]]]. exists i, e.
  split; [exact E|]. split; [apply nth_snoc_old; exact H|auto].
Qed.

Lemma mem_from : forall s l x, good s -> snd (last (t_mem s l) (0%Z, None)) = Some x ->
  x < length (t_trace s).
Proof.
  intros s l x G H. destruct (mem_last s l G) as [q Q].
  apply (arrived_lt s x G). exists l. unfold ids. rewrite Q, map_app. apply in_or_app. right.
  left. exact H.
Qed.

(** An event that leaves memory and buffers alone. *)
Lemma good_quiet : forall s t a e, good s ->
  write_loc a = None ->
  (forall l, read_loc a = Some l -> e = find s t l) ->
  (strong a -> t_buffer s t = []) ->
  (forall x, snd e = Some x -> x < length (t_trace s)) ->
  good (resume s t a e).
Proof.
  intros s t a e G W R S F.
  apply (good_extend s (resume s t a e) t a (fst e) (snd e)); auto; simpl.
  - intros l H. congruence.
  - intros H. split; [exact (S H)|]. intros l H'. congruence.
  - intros l H. rewrite <- (R l H). destruct e; reflexivity.
  - intros l. apply init_grow. exact G.
  - intros t' l x I. apply buffer_grow; assumption.
  - apply (g_nodup s G).
  - apply (g_nodup_b s G).
  - apply (g_apart s G).
  - intros j ev l f o H O. apply nth_snoc in H. destruct H as [[_ H]|[_ ->]].
    + exact (g_rmw s G j ev l f o H O).
    + simpl in O. subst a. discriminate.
Qed.

Lemma good_exec : forall s t a, good s -> good (exec s t a).
Proof.
  intros s t a G. unfold exec. destruct (compile a) as [l|l v|l f| |] eqn:C.
  - (* a load *)
    assert (A : read_loc a = Some l /\ write_loc a = None /\ ~ strong a).
    { destruct a; simpl in C; try discriminate; try (destruct (is_seq_cst o); discriminate);
        inversion C; subst; simpl; auto. }
    destruct A as [R [W S]]. apply good_quiet; auto.
    + intros l' R'. congruence.
    + intros H. contradiction.
    + intros x H. destruct (find_where s t l x G H) as [Wx _]. exact (writes_lt _ _ _ Wx).
  - (* a store *)
    assert (A : read_loc a = None /\ write_loc a = Some l /\ ~ strong a /\ (forall x, written a x = v)).
    { destruct a; simpl in C; try discriminate; try (destruct (is_seq_cst o); discriminate).
      - inversion C; subst; simpl; auto.
      - destruct o; simpl in C; inversion C; subst; simpl; repeat split; auto; discriminate. }
    destruct A as [R [W [S V]]].
    set (n := length (t_trace s)).
    assert (NB : forall t', names (upd (t_buffer s) t (t_buffer s t ++ [(l, (v, Some n))]) t')
                 = names (t_buffer s t') ++ (if Nat.eqb t' t then [Some n] else [])).
    { intros t'. unfold upd. destruct (Nat.eqb_spec t' t) as [->|_].
      - unfold names. rewrite map_app. reflexivity.
      - rewrite app_nil_r. reflexivity. }
    assert (NP : forall t' i, pend (upd (t_buffer s) t (t_buffer s t ++ [(l, (v, Some n))])) t' i ->
                   pend (t_buffer s) t' i \/ i = n).
    { intros t' i H. unfold pend in H. rewrite NB in H. apply in_app_or in H.
      destruct H as [H|H]; [left; exact H|]. destruct (Nat.eqb t' t); [|destruct H].
      destruct H as [H|[]]. right. congruence. }
    apply (good_extend s _ t a 0%Z None); auto; simpl.
    + intros t' i H. unfold pend. rewrite NB. apply in_or_app. left. exact H.
    + intros i k _ _ H. apply ahead_push. exact H.
    + intros l' Wl. split.
      * intros i l0 Wi [A|P].
        -- left. split; [exact A|]. exists t. unfold pend. rewrite NB, Nat.eqb_refl.
           apply in_or_app. right. left. reflexivity.
        -- right. left. exists t. rewrite NB, Nat.eqb_refl. apply older_snoc. exact P.
      * right. unfold pend. rewrite NB, Nat.eqb_refl. apply in_or_app. right. left. reflexivity.
    + intros H. contradiction.
    + intros l' H. congruence.
    + intros x H. discriminate.
    + intros l'. apply init_grow. exact G.
    + intros t' l' x I. unfold upd in I. destruct (Nat.eqb_spec t' t) as [->|D].
      * apply in_app_or in I. destruct I as [I|[I|[]]]; [apply buffer_grow; assumption|].
        inversion I; subst l' x. exists n, (Event t a 0%Z None). simpl. rewrite V.
        split; [reflexivity|]. split; [apply nth_snoc_new|]. auto.
      * apply buffer_grow; assumption.
    + apply (g_nodup s G).
    + intros t'. rewrite NB. destruct (Nat.eqb_spec t' t) as [->|D].
      * apply NoDup_app_snoc_helper; [apply (g_nodup_b s G)|].
        intros I. destruct (pend_lt s t n G I) as [L _]. unfold n in L. lia.
      * rewrite app_nil_r. apply (g_nodup_b s G).
    + intros t' i P A. destruct (NP t' i P) as [P'| ->].
      * exact (g_apart s G t' i P' A).
      * destruct (arrived_lt s n G A) as [L _]. unfold n in L. lia.
    + intros j ev l' f o H O. apply nth_snoc in H. destruct H as [[_ H]|[_ ->]].
      * exact (g_rmw s G j ev l' f o H O).
      * simpl in O. subst a. discriminate.
  - (* a locked instruction *)
    destruct (t_buffer s t) eqn:B; [|exact G].
    set (n := length (t_trace s)). set (old := last (t_mem s l) (0%Z, None)).
    assert (A : write_loc a = Some l /\ strong a /\ (forall x, written a x = f x) /\
                (forall l', read_loc a = Some l' -> l' = l)).
    { destruct a; simpl in C; try discriminate; try (destruct (is_seq_cst o); discriminate).
      - destruct o; simpl in C; inversion C; subst; simpl; repeat split; auto; discriminate.
      - inversion C; subst; simpl; repeat split; auto. congruence. }
    destruct A as [W [S [V R]]].
    assert (FO : find s t l = old) by (rewrite find_look, B; reflexivity).
    assert (NA : ~ arrived (t_mem s) n).
    { intros A. destruct (arrived_lt s n G A) as [L _]. unfold n in L. lia. }
    apply (good_extend s _ t a (fst old) (snd old)); auto; simpl; fold n.
    + intros i A. apply arrived_upd. exact A.
    + intros i k Li Lk H. apply ahead_append; [| |exact H]; fold n in Li, Lk; lia.
    + intros l' Wl. split.
      * intros i l0 Wi H.
        assert (A : arrived (t_mem s) i).
        { destruct H as [A|P]; [exact A|]. unfold pend in P. rewrite B in P. destruct P. }
        pose proof (writes_lt _ _ _ Wi) as Li. fold n in Li.
        right. right. split; [apply arrived_upd; exact A|]. split; [apply arrived_new|].
        intros l1 I1 I2. apply ids_upd_in in I1; [|simpl; intros E; inversion E; lia].
        rewrite ids_upd in I2. rewrite ids_upd. destruct (Nat.eqb l1 l) eqn:El.
        -- simpl. apply older_snoc. exact I1.
        -- exfalso. apply NA. exists l1. rewrite app_nil_r in I2. exact I2.
      * left. apply arrived_new.
    + intros _. split; [exact B|]. intros l' _. apply arrived_new.
    + intros l' H. rewrite (R l' H), FO. destruct old; reflexivity.
    + intros x H. exact (mem_from s l x G H).
    + intros l'. destruct (init_grow s (Event t a (fst old) (snd old)) l' G) as [r [M Q]].
      unfold upd. destruct (Nat.eqb_spec l' l) as [E|D].
      * subst l'. exists (r ++ [(f (fst old), Some n)]). rewrite M. split; [reflexivity|].
        intros x I. apply in_app_or in I. destruct I as [I|[I|[]]]; [exact (Q x I)|].
        subst x. exists n, (Event t a (fst old) (snd old)). simpl. rewrite V.
        split; [reflexivity|]. split; [apply nth_snoc_new|exact W].
      * exists r. auto.
    + intros t' l' x I. apply buffer_grow; assumption.
    + intros l'. rewrite ids_upd. destruct (Nat.eqb_spec l' l) as [E|D].
      * subst l'. apply NoDup_app_snoc_helper; [apply (g_nodup s G)|].
        intros I. apply NA. exists l. exact I.
      * rewrite app_nil_r. apply (g_nodup s G).
    + apply (g_nodup_b s G).
    + intros t' i P A. apply arrived_upd_inv in A. destruct A as [->|A].
      * destruct (pend_lt s t' n G P) as [L _]. unfold n in L. lia.
      * exact (g_apart s G t' i P A).
    + intros j ev l' f' o H O. apply nth_snoc in H. destruct H as [[_ H]|[-> ->]].
      * destruct (g_rmw s G j ev l' f' o H O) as [h1 [h2 E]].
        rewrite ids_upd, E. exists h1, (h2 ++ (if Nat.eqb l' l then [Some n] else [])).
        rewrite <- app_assoc. reflexivity.
      * simpl in O. subst a. simpl in W. inversion W; subst l'. simpl.
        destruct (mem_last s l G) as [q Q]. fold old in Q.
        exists (map snd q), []. rewrite ids_upd, Nat.eqb_refl. unfold ids. rewrite Q, map_app.
        simpl. rewrite <- app_assoc. reflexivity.
  - (* a fence *)
    destruct (t_buffer s t) eqn:B; [|exact G].
    assert (A : exists o, a = AFence o).
    { destruct a; simpl in C; try discriminate; try (destruct (is_seq_cst o); discriminate). eauto. }
    destruct A as [o ->]. apply good_quiet; simpl; auto; discriminate.
  - assert (A : exists o, a = AFence o /\ o <> SeqCst).
    { destruct a; simpl in C; try discriminate; try (destruct (is_seq_cst o); discriminate).
      exists o. split; [reflexivity|]. intros ->. discriminate. }
    destruct A as [o [-> D]]. apply good_quiet; simpl; auto; try discriminate.
    intros E. contradiction.
Qed.

Lemma good_flush : forall s t, good s -> good (tso_step s (Flush t)).
Proof.
  intros s t G. simpl. destruct (t_buffer s t) as [|[l e] r] eqn:B; [exact G|].
  assert (I0 : In (l, e) (t_buffer s t)) by (rewrite B; left; reflexivity).
  destruct (g_buffer s G t l e I0) as [q [ev [Eq [Hq [Tq Wq]]]]].
  set (v := written (e_op ev) (e_value ev)) in *. subst e.
  assert (Pq : pend (t_buffer s) t q) by (unfold pend; rewrite B; left; reflexivity).
  pose proof (g_apart s G t q Pq) as NA.
  assert (PS : forall t' i, pend (upd (t_buffer s) t r) t' i ->
                 pend (t_buffer s) t' i /\ i <> q).
  { intros t' i H. unfold pend, upd in H. destruct (Nat.eqb_spec t' t) as [->|D].
    - split; [unfold pend; rewrite B; right; exact H|].
      intros ->. pose proof (g_nodup_b s G t) as N. rewrite B in N. simpl in N.
      inversion N; subst. contradiction.
    - split; [exact H|]. intros ->. apply D. apply (pend_same s t' t q G H Pq). }
  assert (PK : forall t' i, pend (t_buffer s) t' i ->
                 arrived (upd (t_mem s) l (t_mem s l ++ [(v, Some q)])) i \/
                 pend (upd (t_buffer s) t r) t' i).
  { intros t' i H. unfold pend, upd at 2. destruct (Nat.eqb_spec t' t) as [->|D].
    - unfold pend in H. rewrite B in H. destruct H as [H|H].
      + simpl in H. inversion H; subst i. left. apply arrived_new.
      + right. exact H.
    - right. exact H. }
  assert (AH : forall i k, ahead (t_mem s) (t_buffer s) i k ->
     ahead (upd (t_mem s) l (t_mem s l ++ [(v, Some q)])) (upd (t_buffer s) t r) i k).
  { intros i k H. apply (ahead_flush _ _ t l v q r i k B NA H). }
  constructor; simpl.
  - apply (g_forward s G).
  - intros l'. destruct (g_init s G l') as [r' [M Q]]. unfold upd.
    destruct (Nat.eqb_spec l' l) as [E|D].
    + subst l'. exists (r' ++ [(v, Some q)]). rewrite M. split; [reflexivity|].
      intros x I. apply in_app_or in I. destruct I as [I|[I|[]]]; [exact (Q x I)|].
      subst x. exists q, ev. auto.
    + exists r'. auto.
  - intros t' l' x I. apply (g_buffer s G). unfold upd in I.
    destruct (Nat.eqb_spec t' t) as [->|D]; [|exact I]. rewrite B. right. exact I.
  - intros l'. rewrite ids_upd. destruct (Nat.eqb_spec l' l) as [E|D].
    + subst l'. apply NoDup_app_snoc_helper; [apply (g_nodup s G)|].
      intros I. apply NA. exists l. exact I.
    + rewrite app_nil_r. apply (g_nodup s G).
  - intros t'. unfold upd. destruct (Nat.eqb_spec t' t) as [->|D]; [|apply (g_nodup_b s G)].
    pose proof (g_nodup_b s G t) as N. rewrite B in N. simpl in N. inversion N; subst. assumption.
  - intros t' i P A. destruct (PS t' i P) as [P' D]. apply arrived_upd_inv in A.
    destruct A as [A|A]; [contradiction|]. exact (g_apart s G t' i P' A).
  - intros t' i l' W K. destruct (g_known s G t' i l' W K) as [A|A].
    + left. apply arrived_upd. exact A.
    + apply PK. exact A.
  - intros i l' j e W Hj Se X. apply arrived_upd. exact (g_strong s G i l' j e W Hj Se X).
  - intros i k l1 l2 W1 W2 C. apply AH. exact (g_write s G i k l1 l2 W1 W2 C).
  - intros i j l' w W C R. destruct (g_read s G i j l' w W C R) as [k [E [X|X]]];
      exists k; split; auto.
  - intros j e l' f o H O. destruct (g_rmw s G j e l' f o H O) as [h1 [h2 E]].
    rewrite ids_upd, E. exists h1, (h2 ++ (if Nat.eqb l' l then [Some q] else [])).
    rewrite <- app_assoc. reflexivity.
  - apply (g_value s G).
Qed.

Lemma good_start : forall threads, good (tso_start p init threads).
Proof.
  intros threads.
  assert (NC : forall i j, comes_before [] i j -> False).
  { intros i j C. induction C as [i j E|]; [|assumption].
    destruct E as [e e' H _ _ _|e' l H _ _|e e' H _ _ _ _];
      first [destruct i; discriminate H | destruct j; discriminate H]. }
  constructor; simpl.
  - intros j e i H. destruct j; discriminate.
  - intros l. exists []. split; [reflexivity|intros x []].
  - intros t l x [].
  - intros l. unfold ids. simpl. constructor; [intros []|constructor].
  - intros t. constructor.
  - intros t i [].
  - intros t i l [e [H _]]. destruct i; discriminate.
  - intros i l j e _ H. destruct j; discriminate.
  - intros i k l l' _ _ C. destruct (NC i k C).
  - intros i j l w _ C. destruct (NC i j C).
  - intros j e l f o H. destruct j; discriminate.
  - intros j l w [e [H _]]. destruct j; discriminate.
Qed.

Lemma good_run : forall threads sched, good (tso_run (tso_start p init threads) sched).
Proof.
  intros threads sched. induction sched as [|ev sched IH] using rev_ind; [apply good_start|].
  unfold tso_run. rewrite fold_left_app. simpl. destruct ev as [t|t].
  - simpl. destruct (pnext p t _) as [a|]; [|exact IH]. apply good_exec. exact IH.
  - apply good_flush. exact IH.
Qed.

Lemma ahead_not_older : forall s i k l, good s ->
  ahead (t_mem s) (t_buffer s) i k -> ~ older (ids (t_mem s) l) (Some k) (Some i).
Proof.
  intros s i k l G A O. pose proof (older_in _ _ _ O) as [I1 I2].
  destruct A as [[_ [t P]]|[[t H]|[_ [_ H]]]].
  - apply (g_apart s G t k P). exists l. exact I1.
  - apply older_in in H. destruct H as [_ H]. apply (g_apart s G t k H). exists l. exact I1.
  - exact (older_antisym _ _ _ (g_nodup s G l) O (H l I2 I1)).
Qed.

Theorem run_coherent : forall threads sched,
  let s := tso_run (tso_start p init threads) sched in
  coherent (t_trace s) (fun l => map snd (t_mem s l)).
Proof.
  intros threads sched s. pose proof (good_run threads sched) as G. fold s in G. constructor.
  - intros i j l w W C R O. destruct (g_read s G i j l w W C R) as [k [E [X|X]]]; subst w.
    + subst k. exact (older_antisym _ _ _ (g_nodup s G l) O O).
    + exact (ahead_not_older s i k l G X O).
  - intros i j l W C W' O. exact (ahead_not_older s i j l G (g_write s G i j l l W W' C) O).
  - intros j l w e H [f [o E]] F. subst w. exact (g_rmw s G j e l f o H E).
  - intros i j C. exact (before_forward _ _ _ (g_forward s G) C).
Qed.

Theorem run_values : forall threads sched,
  values_explained init (t_trace (tso_run (tso_start p init threads) sched)).
Proof. intros threads sched. apply g_value. apply good_run. Qed.

(** Every write reaches memory once, unless it is still on its way. *)
Theorem run_complete : forall threads sched,
  let s := tso_run (tso_start p init threads) sched in
  (forall t, t_buffer s t = []) ->
  forall l, NoDup (map snd (t_mem s l)) /\
    (exists r, map snd (t_mem s l) = None :: r /\ ~ In None r) /\
    forall i, writes (t_trace s) i l <-> In (Some i) (map snd (t_mem s l)).
Proof.
  intros threads sched s E l. pose proof (good_run threads sched) as G. fold s in G.
  split; [apply (g_nodup s G)|]. split.
  - destruct (g_init s G l) as [r [M R]]. exists (map snd r). rewrite M. split; [reflexivity|].
    intros I. apply in_map_iff in I. destruct I as [x [Ex I]].
    destruct (R x I) as [i [e [E' _]]]. subst x. discriminate.
  - intros i. split.
    + intros W. destruct (W) as [e [H _]].
      assert (K : known (t_trace s) (e_thread e) i) by (exists i, e; auto).
      destruct (g_known s G _ i l W K) as [A|P].
      * exact (arrived_at s i l G W A).
      * unfold pend in P. rewrite E in P. destruct P.
    + intros I. destruct (arrived_lt s i G) as [_ [l' W]]; [exists l; exact I|].
      rewrite (arrived_loc s i l' l G W I). exact W.
Qed.

End Coherence.

(** * Orders through the layers (C59): the proofs. *)
From Coq Require Import ZArith List String Bool Arith Lia.
Require Import Verif.Order Verif.Reorder Verif.FenceModel Verif.SpecFence Verif.SpecOrder
  Verif.FenceProof Verif.OrderFlow Verif.OrderTable.
Import ListNotations.
Open Scope string_scope.
Open Scope list_scope.

Local Strategy opaque [functions machine_functions].

(** ** Orders *)

Definition weakerb (a b : morder) : bool :=
  match a, b with
  | Relaxed, _ | _, SeqCst | Consume, (Consume | Acquire | AcqRel)
  | Acquire, (Acquire | AcqRel) | Release, (Release | AcqRel) | AcqRel, AcqRel => true
  | _, _ => false
  end.

Lemma weakerb_ok : forall a b, weakerb a b = true -> weaker a b.
Proof.
  intros a b H. destruct a, b; simpl in H; try discriminate;
    first [ apply weaker_same | apply weaker_relaxed | apply weaker_seq_cst
          | apply weaker_acquire | apply weaker_release | apply weaker_consume; auto ].
Qed.

Lemma weakerb_complete : forall a b, weaker a b -> weakerb a b = true.
Proof.
  intros a b H. destruct H as [o|o|o P| | |o]; try reflexivity; try (destruct o; reflexivity).
  destruct P; subst; reflexivity.
Qed.

Lemma weaker_trans : forall a b c, weaker a b -> weaker b c -> weaker a c.
Proof.
  intros a b c H K. apply weakerb_complete in H. apply weakerb_complete in K. apply weakerb_ok.
  destruct a, b, c; simpl in *; congruence.
Qed.

Definition atleastb (a b : option morder) : bool :=
  match a, b with
  | None, _ => true
  | Some x, Some y => weakerb x y
  | Some _, None => false
  end.

Lemma at_least_trans : forall a b x, atleastb a b = true -> at_least b x -> at_least a x.
Proof.
  intros a b x H K. destruct a as [o|]; [|exact I].
  destruct b as [o'|]; [|discriminate H]. destruct K as [y [E W]].
  exists y. split; [exact E|]. eapply weaker_trans; [apply weakerb_ok; exact H|exact W].
Qed.

(** ** The check of one function *)

Definition silent (k : sort) (ok : bool) : bool :=
  match k with Reading | Plain => true | Comparing => negb ok | _ => false end.
Definition comparing (k : sort) : bool := match k with Comparing => true | _ => false end.
Definition plain (k : sort) : bool := match k with Plain => true | _ => false end.

Definition suits (k : sort) (os : list morder) (k' : sort) (os' : list morder) (ok : bool) : bool :=
  atleastb (asked_of_reads k os ok) (asked_of_reads k' os' ok) &&
  atleastb (asked_of_writes k os ok) (asked_of_writes k' os' ok) &&
  implb (silent k ok) (silent k' ok) && (comparing k || ok) && negb (plain k').

Definition outcomes (k : sort) : list bool := if comparing k then [true; false] else [true].

Definition check_step (k : sort) (os args : list morder) (len : nat) (s : step) : bool :=
  match sort_of (s_call s), values args (s_orders s) with
  | Some k', Some os' =>
      forallb (fun ok : bool =>
        forallb (fun j => if Nat.ltb j len then silent k' ok else suits k os k' os' ok)
          (if ok then s_yes s else s_no s)) (outcomes k')
  | _, _ => false
  end.

Definition check_with (f : function) (os : list morder) : bool :=
  match fill (f_defaults f) os with
  | None => true
  | Some args =>
      match sort_of (f_name f) with
      | None => false
      | Some k =>
          negb (plain k) &&
          forallb (fun i => Nat.ltb i (List.length (f_steps f))) (f_start f) &&
          forallb (check_step k os args (List.length (f_steps f))) (f_steps f)
      end
  end.

Definition orders : list morder := [Relaxed; Consume; Acquire; Release; AcqRel; SeqCst].
Definition order_lists : list (list morder) :=
  [] :: map (fun o => [o]) orders ++ flat_map (fun s => map (fun f => [s; f]) orders) orders.

Lemma orders_all : forall o, In o orders.
Proof. intros []; simpl; auto 10. Qed.

Lemma order_lists_all : forall os, List.length os <= 2 -> In os order_lists.
Proof.
  intros [|a [|b [|c r]]] H; simpl in H; try lia.
  - left. reflexivity.
  - right. apply in_or_app. left. apply in_map_iff. exists a. split; [reflexivity|apply orders_all].
  - right. apply in_or_app. right. apply in_flat_map. exists a. split; [apply orders_all|].
    apply in_map_iff. exists b. split; [reflexivity|apply orders_all].
Qed.

Lemma fill_length : forall ds os args, fill ds os = Some args -> List.length os <= List.length ds.
Proof.
  induction ds as [|[d|] ds IH]; intros [|o os] args H; simpl in *; try discriminate; try lia;
  destruct (fill ds os) as [x|] eqn:E; simpl in H; try discriminate; apply IH in E; lia.
Qed.

Definition check_function (f : function) : bool :=
  Nat.leb (List.length (f_defaults f)) 2 && forallb (check_with f) order_lists.

Lemma check_function_ok : forall f os, check_function f = true ->
  forall args, fill (f_defaults f) os = Some args -> check_with f os = true.
Proof.
  intros f os H args F. apply andb_prop in H. destruct H as [L H].
  apply Nat.leb_le in L. apply fill_length in F.
  rewrite forallb_forall in H. apply H. apply order_lists_all. lia.
Qed.

(** ** The check of one machine function *)

Definition check_machine_with (m : machine_function) (os : list morder) : bool :=
  if Nat.eqb (List.length os) (m_orders m) then
    match sort_of (m_name m) with
    | None => false
    | Some k =>
        Bool.eqb (comparing k) (mem (m_name m) compare_exchanges) &&
        forallb (fun ok : bool =>
          match operation 0 false (Event (m_name m) os ok) with
          | Some p => atleastb (asked_of_reads k os ok) (read_order p) &&
                      atleastb (asked_of_writes k os ok) (write_order p)
          | None => plain k
          end &&
          implb (silent k ok)
            (mem (m_name m) ["load"; "__atomic_load_n"; "non_atomic_load"; "fetch_add_zero"] ||
             (mem (m_name m) compare_exchanges && negb ok))) (outcomes k)
    end
  else true.

Definition check_machine (m : machine_function) : bool :=
  Nat.leb (m_orders m) 2 && forallb (check_machine_with m) order_lists.

Lemma mem_in : forall n l, mem n l = true <-> In n l.
Proof.
  intros n l. unfold mem. rewrite existsb_exists. split.
  - intros [x [I E]]. apply String.eqb_eq in E. subst. exact I.
  - intros I. exists n. split; [exact I|apply String.eqb_refl].
Qed.

(** Size and kind of operand have no bearing on the orders. *)
Lemma operation_any : forall size arith e,
  (operation size arith e = None <-> operation 0 false e = None) /\
  (forall p, operation size arith e = Some p ->
     exists p0, operation 0 false e = Some p0 /\
       read_order p = read_order p0 /\ write_order p = write_order p0).
Proof.
  intros size arith [n os ok]. unfold operation. cbn [e_orders e_name e_ok].
  destruct os as [|a [|b r]].
  - split; [reflexivity|]. intros p H. discriminate H.
  - repeat match goal with |- context [if ?x then _ else _] => destruct x end;
    (split; [split; intros H; discriminate H || reflexivity|]);
    intros p H; try discriminate H; injection H as H; subst p; eexists; split; try reflexivity; split; reflexivity.
  - match goal with |- context [if ?x then _ else _] => destruct x end;
    (split; [split; intros H; discriminate H || reflexivity|]);
    intros p H; try discriminate H; injection H as H; subst p; eexists; split; try reflexivity;
    destruct ok; split; reflexivity.
Qed.

Lemma atleastb_refl_some : forall a x, atleastb a x = true -> at_least a x.
Proof.
  intros [o|] [o'|] H; simpl in *; try discriminate; try exact I.
  exists o'. split; [reflexivity|apply weakerb_ok; exact H].
Qed.

Lemma machine_ok : forall m os ok, check_machine m = true ->
  List.length os = m_orders m ->
  (mem (m_name m) compare_exchanges = false -> ok = true) ->
  carried_out (m_name m) os [] (Event (m_name m) os ok).
Proof.
  intros m os ok C L O. apply andb_prop in C. destruct C as [B C].
  apply Nat.leb_le in B. rewrite forallb_forall in C.
  specialize (C os (order_lists_all os ltac:(lia))). unfold check_machine_with in C.
  rewrite L, Nat.eqb_refl in C.
  destruct (sort_of (m_name m)) as [k|] eqn:K; [|discriminate C].
  apply andb_prop in C. destruct C as [E C]. apply eqb_prop in E.
  assert (OC : In ok (outcomes k)).
  { unfold outcomes. destruct (comparing k).
    - destruct ok; simpl; auto.
    - rewrite O by (symmetry; exact E). simpl. auto. }
  rewrite forallb_forall in C. specialize (C ok OC).
  apply andb_prop in C. destruct C as [P S].
  exists k. cbn [e_ok e_name].
  split; [exact K|]. split; [constructor|].
  split; [|split; [|split]].
  - intros size arith p H. destruct (operation_any size arith (Event (m_name m) os ok)) as [_ A].
    destruct (A p H) as [p0 [H0 [R W]]]. rewrite H0 in P. apply andb_prop in P. destruct P as [P1 P2].
    rewrite R, W. split; apply atleastb_refl_some; assumption.
  - intros N size arith H. destruct (operation_any size arith (Event (m_name m) os ok)) as [A _].
    apply A in H. rewrite H in P. destruct k; simpl in P; try discriminate. apply N. reflexivity.
  - intros D. unfold changes_nothing. cbn [e_name e_ok].
    assert (Q : silent k ok = true).
    { destruct D as [D|[D|[D D']]]; subst; reflexivity. }
    rewrite Q in S. simpl in S.
    change (mem (m_name m) ["load"; "__atomic_load_n"; "non_atomic_load"; "fetch_add_zero"] ||
            (mem (m_name m) compare_exchanges && negb ok) = true) in S.
    apply orb_prop in S. destruct S as [S|S].
    + left. apply mem_in. exact S.
    + right. apply andb_prop in S. destruct S as [S1 S2]. split; [apply mem_in; exact S1|].
      destruct ok; [discriminate S2|reflexivity].
  - intros D. apply O. rewrite <- E. destruct k; try reflexivity. exfalso. apply D. reflexivity.
Qed.

(** ** Runs *)

Section Runs.
Variable T : list function.
Variable M : list machine_function.
Hypothesis T_ok : forallb check_function T = true.
Hypothesis M_ok : forallb check_machine M = true.

Scheme call_ind2 := Minimality for call Sort Prop
  with path_ind2 := Minimality for path Sort Prop.
Combined Scheme run_ind from call_ind2, path_ind2.

Definition Call (n : string) (os : list morder) (t : list event) : Prop :=
  exists q e, t = q ++ [e] /\ carried_out n os q e.

Definition Path (f : function) (args : list morder) (i : nat) (t : list event) : Prop :=
  (List.length (f_steps f) <= i -> t = []) /\
  forall os, In f T -> fill (f_defaults f) os = Some args -> i < List.length (f_steps f) ->
  exists q e, t = q ++ [e] /\ carried_out (f_name f) os q e.

Lemma outcome_last : forall q e, outcome (q ++ [e]) = e_ok e.
Proof. intros. unfold outcome. rewrite rev_app_distr. reflexivity. Qed.

Lemma in_outcomes : forall k n os q e, sort_of n = Some k -> carried_out n os q e -> In (e_ok e) (outcomes k).
Proof.
  intros k n os q e K [k' [K' [_ [_ [_ [_ O]]]]]]. rewrite K in K'. injection K' as <-.
  unfold outcomes. destruct (comparing k) eqn:C.
  - destruct (e_ok e); simpl; auto.
  - rewrite O; [simpl; auto|]. intros D. subst. discriminate C.
Qed.

Lemma changes : forall k n os q e, sort_of n = Some k -> carried_out n os q e ->
  silent k (e_ok e) = true -> Forall changes_nothing (q ++ [e]).
Proof.
  intros k n os q e K [k' [K' [Q [_ [_ [S _]]]]]] H. rewrite K in K'. injection K' as <-.
  apply Forall_app. split; [exact Q|]. constructor; [|constructor]. apply S.
  destruct k; simpl in H; try discriminate; auto.
  right. right. split; [reflexivity|]. destruct (e_ok e); [discriminate|reflexivity].
Qed.

Theorem runs_ok :
  (forall n os t, call T M n os t -> Call n os t) /\
  (forall f args i t, path T M f args i t -> Path f args i t).
Proof.
  apply (run_ind T M Call Path).
  - intros m os ok I L O. exists [], (Event (m_name m) os ok). split; [reflexivity|].
    rewrite forallb_forall in M_ok. apply machine_ok; auto.
  - intros f os args i t I F S _ IH. apply (proj2 IH); try assumption.
    rewrite forallb_forall in T_ok. specialize (T_ok f I).
    pose proof (check_function_ok f os T_ok args F) as C. unfold check_with in C. rewrite F in C.
    destruct (sort_of (f_name f)) as [k|]; [|discriminate C].
    apply andb_prop in C. destruct C as [C _]. apply andb_prop in C. destruct C as [_ C].
    rewrite forallb_forall in C. specialize (C i S). apply Nat.ltb_lt in C. exact C.
  - intros f args i N. split; [reflexivity|]. intros os I F L. apply nth_error_None in N. lia.
  - intros f args i s os' t j t' N V _ IHc J _ [IHe IHp].
    assert (Li : i < List.length (f_steps f)) by (apply nth_error_Some; congruence).
    split; [intros G; lia|]. intros os I F L.
    pose proof T_ok as TO. rewrite forallb_forall in TO. specialize (TO f I).
    pose proof (check_function_ok f os TO args F) as C. unfold check_with in C. rewrite F in C.
    destruct (sort_of (f_name f)) as [k|] eqn:K; [|discriminate C].
    apply andb_prop in C. destruct C as [_ C]. rewrite forallb_forall in C.
    specialize (C s (nth_error_In _ _ N)). unfold check_step in C.
    destruct (sort_of (s_call s)) as [k'|] eqn:K'; [|discriminate C]. rewrite V in C.
    destruct IHc as [q [e [Et Ce]]]. subst t. rewrite outcome_last in J.
    rewrite forallb_forall in C. specialize (C (e_ok e) (in_outcomes k' _ _ _ _ K' Ce)).
    rewrite forallb_forall in C. specialize (C j J).
    destruct (Nat.ltb j (List.length (f_steps f))) eqn:B.
    + apply Nat.ltb_lt in B. destruct (IHp os I F B) as [q' [e' [E' C']]]. subst t'.
      exists ((q ++ [e]) ++ q'), e'. split; [apply app_assoc|].
      destruct C' as [k2 [K2 [Q2 R]]]. exists k2. split; [exact K2|]. split; [|exact R].
      apply Forall_app. split; [|exact Q2]. exact (changes k' (s_call s) os' q e K' Ce C).
    + apply Nat.ltb_ge in B. rewrite (IHe B), app_nil_r. clear IHe IHp.
      exists q, e. split; [reflexivity|].
      apply andb_prop in C. destruct C as [C CP]. apply andb_prop in C. destruct C as [C CK].
      apply andb_prop in C. destruct C as [C CS]. apply andb_prop in C. destruct C as [CR CW].
      destruct Ce as [k2 [K2 [Q [A [D [S O]]]]]]. rewrite K' in K2. injection K2 as <-.
      exists k. split; [exact K|]. split; [exact Q|]. split; [|split; [|split]].
      * intros size arith p P. destruct (A size arith p P) as [A1 A2].
        split; eapply at_least_trans; eassumption.
      * intros _. apply D. intros E. subst k'. discriminate CP.
      * intros H. apply S.
        assert (X : silent k (e_ok e) = true).
        { destruct H as [H|[H|[H H']]]; try subst k; try rewrite H'; reflexivity. }
        rewrite X in CS. simpl in CS. destruct k'; simpl in CS; try discriminate; auto.
        right. right. split; [reflexivity|]. destruct (e_ok e); [discriminate|reflexivity].
      * intros H. destruct (e_ok e); [reflexivity|]. destruct k; simpl in CK; try discriminate.
        exfalso. apply H. reflexivity.
Qed.
End Runs.

Lemma functions_checked : forallb check_function functions = true.
Proof. vm_cast_no_check (eq_refl true). Qed.

Lemma machine_checked : forallb check_machine machine = true.
Proof. vm_cast_no_check (eq_refl true). Qed.

Theorem orders_pass : forall n os t, call functions machine n os t ->
  exists q e, t = q ++ [e] /\ carried_out n os q e.
Proof.
  exact (proj1 (runs_ok functions machine functions_checked machine_checked)).
Qed.

(** ** What the orders give on the back ends *)

Lemma at_least_some : forall o x, at_least (Some o) x -> exists o', x = Some o' /\ weaker o o'.
Proof. intros o x H. exact H. Qed.

Lemma weaker_acquiring : forall a b, weaker a b -> acquiring a -> acquiring b.
Proof.
  intros a b H A. destruct H as [o|o|o P| | |o]; try exact A; try exact I; try (destruct A).
  destruct P; subst; exact I.
Qed.

Lemma weaker_releasing : forall a b, weaker a b -> releasing a -> releasing b.
Proof.
  intros a b H A. destruct H as [o|o|o P| | |o]; try exact A; try exact I; try (destruct A).
Qed.

Lemma weaker_seq_cst_inv : forall o, weaker SeqCst o -> o = SeqCst.
Proof. intros o H. inversion H; subst; reflexivity. Qed.

Theorem acquire_through : forall n os t k o q e,
  call functions machine n os t -> sort_of n = Some k -> t = q ++ [e] ->
  asked_of_reads k os (e_ok e) = Some o -> acquiring o ->
  forall size arith p b l, operation size arith e = Some p ->
  (acquire_operation (machine_of b) (emit b l p) <-> ~ acquire_exception b p).
Proof.
  intros n os t k o q e C K E R A size arith p b l P.
  destruct (orders_pass n os t C) as [q' [e' [E' [k' [K' [_ [G _]]]]]]].
  rewrite E in E'. apply app_inj_tail in E'. destruct E' as [-> ->].
  rewrite K in K'. injection K' as <-.
  destruct (G size arith p P) as [G1 _]. rewrite R in G1. destruct G1 as [o' [O W]].
  assert (A' : acquiring o') by (eapply weaker_acquiring; eassumption).
  split.
  - intros H X. exact (exceptions_exact b l p o' O A' X H).
  - intros X. exact (acquire_holds b l p o' O A' X).
Qed.

Theorem release_through : forall n os t k o q e,
  call functions machine n os t -> sort_of n = Some k -> t = q ++ [e] ->
  asked_of_writes k os (e_ok e) = Some o -> releasing o ->
  forall size arith p b l, operation size arith e = Some p ->
  release_operation (machine_of b) (emit b l p).
Proof.
  intros n os t k o q e C K E R A size arith p b l P.
  destruct (orders_pass n os t C) as [q' [e' [E' [k' [K' [_ [G _]]]]]]].
  rewrite E in E'. apply app_inj_tail in E'. destruct E' as [-> ->].
  rewrite K in K'. injection K' as <-.
  destruct (G size arith p P) as [_ G1]. rewrite R in G1. destruct G1 as [o' [O W]].
  eapply release_holds; [exact O|eapply weaker_releasing; eassumption].
Qed.

(** ** The orders the library itself passes are allowed *)

Definition allowedb (k : sort) (os : list morder) : bool :=
  match k with
  | Reading => match fst (wanted os) with Release | AcqRel => false | _ => true end
  | Writing => match fst (wanted os) with Consume | Acquire | AcqRel => false | _ => true end
  | Comparing => cas_orders_accepted (fst (wanted os)) (snd (wanted os))
  | Modifying | Plain => true
  end.

Lemma allowedb_ok : forall k os, allowedb k os = true <-> allowed k os.
Proof.
  intros k os. unfold allowedb, allowed. destruct k; try tauto; try (split; intros; exact I).
  - destruct (fst (wanted os)); split; intros H; try discriminate; try reflexivity;
      try (split; discriminate); destruct H as [H1 H2]; congruence.
  - destruct (fst (wanted os)); split; intros H; try discriminate; try reflexivity;
      try (repeat split; discriminate); destruct H as [H1 [H2 H3]]; congruence.
Qed.

Definition check_allowed (f : function) : bool :=
  Nat.leb (List.length (f_defaults f)) 2 &&
  forallb (fun os =>
    match fill (f_defaults f) os, sort_of (f_name f) with
    | None, _ => true
    | Some _, None => false
    | Some args, Some k =>
        implb (allowedb k os)
          (forallb (asserted args) (f_asserts f) &&
           forallb (fun s => match sort_of (s_call s), values args (s_orders s) with
                             | Some k', Some os' => allowedb k' os'
                             | _, _ => false
                             end) (f_steps f))
    end) order_lists.

Lemma allowed_checked : forallb check_allowed functions = true.
Proof. vm_cast_no_check (eq_refl true). Qed.

Lemma check_allowed_ok : forall f os args k, In f functions ->
  fill (f_defaults f) os = Some args -> sort_of (f_name f) = Some k -> allowed k os ->
  forallb (asserted args) (f_asserts f) = true /\
  (forall s, In s (f_steps f) -> forall os', values args (s_orders s) = Some os' ->
     exists k', sort_of (s_call s) = Some k' /\ allowed k' os').
Proof.
  intros f os args k I F K A. pose proof allowed_checked as C. rewrite forallb_forall in C.
  specialize (C f I). apply andb_prop in C. destruct C as [L C]. apply Nat.leb_le in L.
  rewrite forallb_forall in C.
  specialize (C os (order_lists_all os ltac:(pose proof (fill_length _ _ _ F); lia))).
  cbv beta in C. rewrite F, K in C. apply allowedb_ok in A. rewrite A in C.
  cbn [implb] in C. apply andb_prop in C. destruct C as [C1 C2]. split; [exact C1|].
  intros s S os' V. rewrite forallb_forall in C2. specialize (C2 s S). cbv beta in C2. rewrite V in C2.
  destruct (sort_of (s_call s)) as [k'|]; [|discriminate C2].
  exists k'. split; [reflexivity|]. apply allowedb_ok. exact C2.
Qed.

Theorem allowed_through : forall n os n' os', reaches functions n os n' os' ->
  forall k, sort_of n = Some k -> allowed k os ->
  exists k', sort_of n' = Some k' /\ allowed k' os'.
Proof.
  intros n os n' os' R. induction R as [n os|f os args s os1 n' os' I F S V R IH]; intros k K A.
  - exists k. split; assumption.
  - destruct (check_allowed_ok f os args k I F K A) as [_ C].
    destruct (C s S os1 V) as [k1 [K1 A1]]. exact (IH k1 K1 A1).
Qed.

Theorem assertions_hold : forall n os k f os' args,
  sort_of n = Some k -> allowed k os ->
  In f functions -> reaches functions n os (f_name f) os' -> fill (f_defaults f) os' = Some args ->
  forallb (asserted args) (f_asserts f) = true.
Proof.
  intros n os k f os' args K A I R F.
  destruct (allowed_through n os (f_name f) os' R k K A) as [k' [K' A']].
  exact (proj1 (check_allowed_ok f os' args k' I F K' A')).
Qed.

(** The public members assert just that. *)
Definition publicb (f : function) : bool :=
  mem (f_file f) public_files && negb (mem (f_name f) helpers).

Lemma publicb_ok : forall f, public f -> publicb f = true.
Proof.
  intros f [P Q]. unfold publicb. rewrite (proj2 (mem_in _ _) P). cbn [andb].
  destruct (mem (f_name f) helpers) eqn:E; [|reflexivity]. exfalso. apply Q. apply mem_in. exact E.
Qed.

Definition check_public (f : function) : bool :=
  implb (publicb f)
    (Nat.leb (List.length (f_defaults f)) 2 &&
     forallb (fun os =>
       match fill (f_defaults f) os, sort_of (f_name f) with
       | None, _ => true
       | Some _, None => false
       | Some args, Some k => Bool.eqb (forallb (asserted args) (f_asserts f)) (allowedb k os)
       end) order_lists).

Lemma public_checked : forallb check_public functions = true.
Proof. vm_cast_no_check (eq_refl true). Qed.

Theorem public_asserts : forall f os args k, In f functions -> public f ->
  fill (f_defaults f) os = Some args -> sort_of (f_name f) = Some k ->
  (forallb (asserted args) (f_asserts f) = true <-> allowed k os).
Proof.
  intros f os args k I P F K. pose proof public_checked as C. rewrite forallb_forall in C.
  specialize (C f I). unfold check_public in C. rewrite (publicb_ok f P) in C. cbn [implb] in C.
  apply andb_prop in C. destruct C as [L C]. apply Nat.leb_le in L. rewrite forallb_forall in C.
  specialize (C os (order_lists_all os ltac:(pose proof (fill_length _ _ _ F); lia))).
  cbv beta in C. rewrite F, K in C. apply eqb_prop in C. rewrite C. apply allowedb_ok.
Qed.

(** What happens is reached. *)
Lemma events_reached :
  (forall n os t, call functions machine n os t ->
     forall e, In e t -> reaches functions n os (e_name e) (e_orders e)) /\
  (forall f args i t, path functions machine f args i t ->
     In f functions -> forall os, fill (f_defaults f) os = Some args ->
     forall e, In e t -> reaches functions (f_name f) os (e_name e) (e_orders e)).
Proof.
  apply (run_ind functions machine
    (fun n os t => forall e, In e t -> reaches functions n os (e_name e) (e_orders e))
    (fun f args i t => In f functions -> forall os, fill (f_defaults f) os = Some args ->
       forall e, In e t -> reaches functions (f_name f) os (e_name e) (e_orders e))).
  - intros m os ok I L O e [E|[]]. subst e. apply reaches_self.
  - intros f os args i t I F S _ IH e E. exact (IH I os F e E).
  - intros f args i N I os F e [].
  - intros f args i s os' t j t' N V _ IHc J _ IHp I os F e E.
    apply in_app_or in E. destruct E as [E|E].
    + eapply reaches_call; [exact I|exact F|eapply nth_error_In; exact N|exact V|]. apply IHc. exact E.
    + exact (IHp I os F e E).
Qed.

Lemma both_orders : forall p a b, read_order p = Some a -> write_order p = Some b -> a = b.
Proof.
  intros p a b R W. destruct p as [n o|n o|n o|ar n o|ok n so fo|n o|n o]; simpl in *; try congruence.
  destruct ok; congruence.
Qed.

Lemma operation_accepted : forall size arith e p k,
  operation size arith e = Some p -> sort_of (e_name e) = Some k -> allowed k (e_orders e) -> accepted p.
Proof.
  intros size arith [n os ok] p k P K A. unfold operation in P. cbn [e_orders e_name e_ok] in *.
  destruct os as [|a [|b r]]; [discriminate P| |].
  - repeat match type of P with (if ?x then _ else _) = _ => destruct x end;
      try discriminate P; injection P as <-; exact I.
  - destruct (mem n compare_exchanges) eqn:E; [|discriminate P]. injection P as <-. simpl.
    assert (KC : k = Comparing).
    { apply mem_in in E. unfold compare_exchanges in E. simpl in E.
      repeat (destruct E as [E|E]; [subst n; vm_compute in K; congruence|]). destruct E. }
    subst k. exact A.
Qed.

Lemma seq_cst_event : forall n os q e k size arith p,
  carried_out n os q e -> sort_of n = Some k -> k <> Plain -> fst (wanted os) = SeqCst ->
  (k = Comparing -> snd (wanted os) = SeqCst) ->
  operation size arith e = Some p -> seq_cst_operation p.
Proof.
  intros n os q e k size arith p [k' [K' [_ [G _]]]] K NP S1 S2 P.
  rewrite K in K'. injection K' as <-. destruct (G size arith p P) as [R W].
  assert (X : read_order p = Some SeqCst \/ write_order p = Some SeqCst).
  { unfold asked_of_reads, asked_of_writes in R, W. rewrite S1 in R, W.
    destruct k.
    - left. destruct R as [o [E R]]. apply weaker_seq_cst_inv in R. congruence.
    - right. destruct W as [o [E W]]. apply weaker_seq_cst_inv in W. congruence.
    - left. destruct R as [o [E R]]. apply weaker_seq_cst_inv in R. congruence.
    - rewrite (S2 eq_refl) in R. left.
      destruct (e_ok e); destruct R as [o [E R]]; apply weaker_seq_cst_inv in R; congruence.
    - exfalso. apply NP. reflexivity. }
  split.
  - destruct (read_order p) as [a|] eqn:E; [|left; reflexivity]. right.
    destruct X as [X|X]; [exact X|]. f_equal. exact (both_orders p a SeqCst E X).
  - destruct (write_order p) as [a|] eqn:E; [|left; reflexivity]. right.
    destruct X as [X|X]; [|exact X]. f_equal. symmetry. exact (both_orders p SeqCst a X E).
Qed.

Lemma seq_cst_call_op : forall n os q e size arith p,
  seq_cst_call n os -> call functions machine n os (q ++ [e]) ->
  operation size arith e = Some p -> seq_cst_operation p /\ accepted p.
Proof.
  intros n os q e size arith p [k [K [NP [S1 S2]]]] C P.
  destruct (orders_pass n os _ C) as [q' [e' [E CO]]].
  apply app_inj_tail in E. destruct E as [<- <-]. split.
  - eapply seq_cst_event; eassumption.
  - assert (A : allowed k os).
    { destruct k; simpl; rewrite ?S1; try exact I; try (repeat split; discriminate).
      rewrite (S2 eq_refl). reflexivity. }
    assert (R : reaches functions n os (e_name e) (e_orders e)).
    { apply (proj1 events_reached n os _ C). apply in_or_app. right. left. reflexivity. }
    destruct (allowed_through _ _ _ _ R k K A) as [k' [K' A']].
    eapply operation_accepted; eassumption.
Qed.

Theorem seq_cst_through : forall n1 os1 q1 e1 n2 os2 q2 e2,
  call functions machine n1 os1 (q1 ++ [e1]) -> seq_cst_call n1 os1 ->
  call functions machine n2 os2 (q2 ++ [e2]) -> seq_cst_call n2 os2 ->
  forall s1 a1 p1 s2 a2 p2 b l1 l2,
  operation s1 a1 e1 = Some p1 -> operation s2 a2 e2 = Some p2 ->
  ~ (b = LinuxArm /\ exists n so fo, p1 = OCas false n so fo) ->
  in_order (machine_of b) (emit b l1 p1) (own p1) (emit b l2 p2) (own p2).
Proof.
  intros n1 os1 q1 e1 n2 os2 q2 e2 C1 S1 C2 S2 s1 a1 p1 s2 a2 p2 b l1 l2 P1 P2 X.
  destruct (seq_cst_call_op _ _ _ _ _ _ _ S1 C1 P1) as [A1 B1].
  destruct (seq_cst_call_op _ _ _ _ _ _ _ S2 C2 P2) as [A2 B2].
  apply seq_cst_in_order; assumption.
Qed.

(** ** Members call the operation of their own name *)

Definition check_serves (f : function) : bool :=
  implb (mem (f_file f) public_files)
    (forallb (fun s => mem (s_call s) (serves (f_name f))) (f_steps f)).

Lemma serves_checked : forallb check_serves functions = true.
Proof. vm_cast_no_check (eq_refl true). Qed.

Theorem members_serve : forall f s, In f functions -> In (f_file f) public_files ->
  In s (f_steps f) -> In (s_call s) (serves (f_name f)).
Proof.
  intros f s I P S. pose proof serves_checked as C. rewrite forallb_forall in C.
  specialize (C f I). unfold check_serves in C. rewrite (proj2 (mem_in _ _) P) in C. cbn [implb] in C.
  rewrite forallb_forall in C. apply mem_in. exact (C s S).
Qed.

(** ** Every function runs *)

(** Some run of a call, if there is one within the bounds: machine functions are
    preferred, and control goes to the end of the function when it may. *)
Definition find_machine (n : string) (os : list morder) : option machine_function :=
  find (fun m => String.eqb (m_name m) n && Nat.eqb (List.length os) (m_orders m)) machine.

Definition farthest (l : list nat) : option nat :=
  fold_right (fun i m => match m with Some j => if Nat.leb i j then m else Some i | None => Some i end) None l.

Lemma farthest_in : forall l j, farthest l = Some j -> In j l.
Proof.
  induction l as [|i l IH]; intros j H; simpl in H; [discriminate H|].
  destruct (farthest l) as [m|] eqn:E; [|injection H as <-; left; reflexivity].
  destruct (Nat.leb i m); [right; apply IH; exact H|]. injection H as <-. left. reflexivity.
Qed.

Fixpoint follow (callee : string -> list morder -> option (list event))
    (f : function) (args : list morder) (fuel i : nat) : option (list event) :=
  match nth_error (f_steps f) i with
  | None => Some []
  | Some s =>
      match fuel, values args (s_orders s) with
      | S fuel', Some os =>
          match callee (s_call s) os with
          | Some t =>
              match farthest (if outcome t then s_yes s else s_no s) with
              | Some j => option_map (app t) (follow callee f args fuel' j)
              | None => None
              end
          | None => None
          end
      | _, _ => None
      end
  end.

Definition start_function (callee : string -> list morder -> option (list event))
    (f : function) (os : list morder) : option (list event) :=
  match fill (f_defaults f) os, f_start f with
  | Some args, i :: _ => follow callee f args 5 i
  | _, _ => None
  end.

Fixpoint run (depth : nat) (n : string) (os : list morder) : option (list event) :=
  match find_machine n os with
  | Some m => Some [Event (m_name m) os true]
  | None =>
      match depth with
      | O => None
      | S depth' =>
          match find (fun f => String.eqb (f_name f) n &&
                       match fill (f_defaults f) os with Some _ => true | None => false end) (rev functions) with
          | None => None
          | Some f => start_function (run depth') f os
          end
      end
  end.

Lemma follow_ok : forall callee,
  (forall n os t, callee n os = Some t -> call functions machine n os t) ->
  forall f args fuel i t, follow callee f args fuel i = Some t -> path functions machine f args i t.
Proof.
  intros callee C f args fuel. induction fuel as [|fuel IH]; intros i t H; cbn [follow] in H;
    destruct (nth_error (f_steps f) i) as [s|] eqn:N.
  - discriminate H.
  - injection H as <-. apply path_end. exact N.
  - destruct (values args (s_orders s)) as [os|] eqn:V; [|discriminate H].
    destruct (callee (s_call s) os) as [t1|] eqn:K; [|discriminate H].
    destruct (farthest (if outcome t1 then s_yes s else s_no s)) as [j|] eqn:R; [|discriminate H].
    destruct (follow callee f args fuel j) as [t2|] eqn:F; [|discriminate H].
    injection H as <-. eapply path_step; [exact N|exact V|apply C; exact K| |apply IH; exact F].
    apply farthest_in. exact R.
  - injection H as <-. apply path_end. exact N.
Qed.

Lemma start_ok : forall callee,
  (forall n os t, callee n os = Some t -> call functions machine n os t) ->
  forall f os t, In f functions -> start_function callee f os = Some t ->
  exists args i, fill (f_defaults f) os = Some args /\ In i (f_start f) /\
    path functions machine f args i t.
Proof.
  intros callee C f os t I H. unfold start_function in H.
  destruct (fill (f_defaults f) os) as [args|] eqn:F; [|discriminate H].
  destruct (f_start f) as [|i r] eqn:S; [discriminate H|].
  exists args, i. split; [reflexivity|]. split; [left; reflexivity|].
  eapply follow_ok; eassumption.
Qed.

Lemma run_ok : forall depth n os t, run depth n os = Some t -> call functions machine n os t.
Proof.
  assert (Mc : forall n os m, find_machine n os = Some m ->
            call functions machine n os [Event (m_name m) os true]).
  { intros n os m E. apply find_some in E. destruct E as [I E]. apply andb_prop in E. destruct E as [E L].
    apply String.eqb_eq in E. apply Nat.eqb_eq in L. subst n. apply call_machine; auto. }
  induction depth as [|depth IH]; intros n os t H; cbn [run] in H;
    destruct (find_machine n os) as [m|] eqn:E.
  - injection H as <-. apply Mc. exact E.
  - discriminate H.
  - injection H as <-. apply Mc. exact E.
  - clear E. match type of H with match ?x with _ => _ end = _ => destruct x as [f|] eqn:E end; [|discriminate H].
    apply find_some in E. destruct E as [I E]. apply in_rev in I. apply andb_prop in E. destruct E as [E _].
    apply String.eqb_eq in E. subst n.
    destruct (start_ok _ IH f os t I H) as [args [i [F [S P]]]].
    eapply call_function; eassumption.
Qed.

Definition check_runs (f : function) : bool :=
  Nat.leb (List.length (f_defaults f)) 2 &&
  forallb (fun os =>
    match fill (f_defaults f) os with
    | None => true
    | Some _ => match start_function (run 5) f os with Some _ => true | None => false end
    end) order_lists.

Lemma runs_checked : forallb check_runs functions = true.
Proof. vm_cast_no_check (eq_refl true). Qed.

Theorem every_function_runs : forall f os args, In f functions ->
  fill (f_defaults f) os = Some args ->
  exists i t, In i (f_start f) /\ path functions machine f args i t.
Proof.
  intros f os args I F. pose proof runs_checked as C. rewrite forallb_forall in C.
  specialize (C f I). apply andb_prop in C. destruct C as [L C]. apply Nat.leb_le in L.
  rewrite forallb_forall in C.
  specialize (C os (order_lists_all os ltac:(pose proof (fill_length _ _ _ F); lia))).
  cbv beta in C. rewrite F in C.
  destruct (start_function (run 5) f os) as [t|] eqn:S; [|discriminate C].
  destruct (start_ok _ (run_ok 5) f os t I S) as [args' [i [F' [Si P]]]].
  rewrite F in F'. injection F' as <-. exists i, t. split; assumption.
Qed.

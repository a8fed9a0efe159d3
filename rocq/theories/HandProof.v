(** * Proof of C56. *)
From Coq Require Import ZArith Arith List Bool Lia.
From Verif Require Import SpecInt SpecPool Conv Order Reorder SpecOrder FenceModel SpecFence FenceProof SpecLock LockProof Prog PoolModel
  SpecHand HandFlat.
Import ListNotations.
Open Scope nat_scope.

(** ** Paths *)
Lemma path_bind {act resp R R'} (p : prog act resp R) (f : R -> prog act resp R') : forall tr o, path (bind p f) tr o ->
  (o = None /\ path p tr None) \/ exists tr1 tr2 r, tr = tr1 ++ tr2 /\ path p tr1 (Some r) /\ path (f r) tr2 o.
Proof.
  induction p as [R r|R a k IH|R X B body IHb s k IH]; intros tr o P.
  - right. exists [], tr, r. split; [reflexivity|]. split; [split; auto|exact P].
  - cbn [bind path] in P. destruct P as [[-> ->]|(x & tr' & -> & P)].
    + left. split; [reflexivity|]. left. auto.
    + destruct (IH x f tr' o P) as [[-> Q]|(tr1 & tr2 & r & -> & Q1 & Q2)].
      * left. split; [reflexivity|]. right. exists x, tr'. auto.
      * right. exists (existT _ a x :: tr1), tr2, r. split; [reflexivity|]. split; [|exact Q2]. right. exists x, tr1. auto.
  - cbn [bind path] in *. induction P as [s tr P|s s' tr tr' o P T IHT|s b tr tr' o P Q].
    + left. split; [reflexivity|]. now apply turn_in.
    + destruct IHT as [[-> Q]|(tr1 & tr2 & r & -> & Q1 & Q2)].
      * left. split; [reflexivity|]. now apply turn_next with s'.
      * right. exists (tr ++ tr1), tr2, r. split; [apply app_assoc|]. split; [now apply turn_next with s'|exact Q2].
    + destruct (IH b f tr' o Q) as [[-> Q0]|(tr1 & tr2 & r & -> & Q1 & Q2)].
      * left. split; [reflexivity|]. now apply turn_out with b.
      * right. exists (tr ++ tr1), tr2, r. split; [apply app_assoc|]. split; [now apply turn_out with b|exact Q2].
Qed.

(** What the machine of Prog.v does is a path. *)
Lemma path_nil {act resp R} (p : prog act resp R) : path p [] None.
Proof.
  induction p as [R r|R a k IH|R X B body IHb s k IH]; cbn [path]; [auto|auto|]. apply turn_in, IHb.
Qed.
Lemma pstep_path {act resp mem oracle R} (exec : nat -> forall a : act, mem -> oracle -> option (mem * resp a)) t w m (p : prog act resp R) tr o :
  path (snd (pstep exec t w m p)) tr o -> path p (acted exec t w m p ++ tr) o.
Proof.
  destruct p as [r|a k|X B body s k]; cbn [pstep acted].
  - auto.
  - destruct (exec t a m w) as [[m' x]|]; cbn [snd app]; [|auto]. intros P. right. exists x, tr. auto.
  - cbn [snd app]. intros P. apply path_bind in P. cbn [path]. destruct P as [[-> P]|(t1 & t2 & [s'|b] & -> & P1 & P2)].
    + now apply turn_in.
    + now apply turn_next with s'.
    + now apply turn_out with b.
Qed.
Theorem machine_paths {act resp mem oracle R} (exec : nat -> forall a : act, mem -> oracle -> option (mem * resp a)) t l :
  forall (p : prog act resp R) tr q, machine_run exec t p l = (tr, q) -> path p tr None /\ forall r, q = Ret r -> path p tr (Some r).
Proof.
  induction l as [|[m w] l IH]; intros p tr q E; cbn [machine_run] in E.
  - injection E as <- <-. split; [apply path_nil|]. intros r ->. split; auto.
  - destruct (machine_run exec t (snd (pstep exec t w m p)) l) as [tr' q'] eqn:F. injection E as <- <-.
    destruct (IH _ _ _ F) as [A B]. split; [apply pstep_path, A|]. intros r ->. apply pstep_path, B. reflexivity.
Qed.

Section Lock.
Variable i : nat.      (* the lock *)
Notation pdid := (did pact presp).

(** ** What an action does to the lock *)
Definition rel_b (o : morder) : bool := match o with Release | AcqRel | SeqCst => true | _ => false end.
Definition acq_b (o : morder) : bool := match o with Consume | Acquire | AcqRel | SeqCst => true | _ => false end.

Definition role_of (d : pdid) : role :=
  match d with
  | existT _ (MCas _ j e v so _) x =>
      if Nat.eqb j i && fst (x : bool * Z) then
        if negb (Z.odd e) && Z.odd v then Take else if rel_b so && negb (Z.odd v) then Give else Keep
      else Rest
  | existT _ (MOr j _ _) _ => if Nat.eqb j i then Keep else Rest
  | _ => Rest
  end.
Definition guards (a : pact) : bool :=
  match a with BRd j _ | BWr j _ _ => Nat.eqb j i | _ => false end.
(** the action is right for a thread that is, or is not, in a section *)
Definition fits (inside : bool) (d : pdid) : Prop :=
  match role_of d with
  | Take => inside = false /\ match projT1 d with MCas _ _ _ _ so _ => acq_b so = true | _ => False end
  | Give => inside = true
  | Keep => match projT1 d with MCas _ _ e v _ _ => Z.odd e = Z.odd v | MOr _ v _ => Z.odd v = false | _ => False end
  | Rest => guards (projT1 d) = true -> inside = true
  end.
(** state: in a section; has been in one *)
Definition state := (bool * bool)%type.
Definition next (st : state) (d : pdid) : state :=
  (turn (fst st) (role_of d), snd st || match role_of d with Take => true | _ => false end).
Fixpoint scan (st : state) (tr : list pdid) : Prop :=
  match tr with [] => True | d :: tr => fits (fst st) d /\ scan (next st d) tr end.
Definition final (st : state) (tr : list pdid) : state := fold_left next tr st.

Lemma scan_app st a b : scan st (a ++ b) <-> scan st a /\ scan (final st a) b.
Proof.
  revert st. induction a as [|d a IH]; intros st; cbn [app scan]; [unfold final; cbn; tauto|].
  rewrite IH. unfold final. cbn [fold_left]. tauto.
Qed.
Lemma final_app st a b : final st (a ++ b) = final (final st a) b.
Proof. unfold final. apply fold_left_app. Qed.

(** ** Triples *)
Definition tri {R} (st : state) (p : pprog R) (Q : R -> state -> Prop) : Prop :=
  forall tr o, path p tr o -> scan st tr /\ forall r, o = Some r -> Q r (final st tr).

Lemma tri_ret {R} st (r : R) (Q : R -> state -> Prop) : Q r st -> tri st (Ret r) Q.
Proof. intros H tr o [-> O]. split; [exact I|]. intros r' ->. destruct O as [O|O]; [discriminate O|injection O as ->; exact H]. Qed.
Lemma tri_do {R} st a (k : presp a -> pprog R) Q :
  (forall x, fits (fst st) (existT _ a x) /\ tri (next st (existT _ a x)) (k x) Q) -> tri st (Do a k) Q.
Proof.
  intros H tr o [[-> ->]|(x & tr' & -> & P)]; [split; [exact I|discriminate]|].
  destruct (H x) as [F K]. destruct (K tr' o P) as [A B]. split; [split; [exact F|exact A]|exact B].
Qed.
Lemma tri_bind {R R'} st (p : pprog R) (f : R -> pprog R') Q Q' :
  tri st p Q -> (forall r st', Q r st' -> tri st' (f r) Q') -> tri st (bind p f) Q'.
Proof.
  intros H K tr o P. apply path_bind in P. destruct P as [[-> P]|(tr1 & tr2 & r & -> & P1 & P2)].
  - destruct (H _ _ P) as [A _]. split; [exact A|discriminate].
  - destruct (H _ _ P1) as [A B]. destruct (K r _ (B r eq_refl) _ _ P2) as [C E]. split.
    + apply scan_app. auto.
    + intros r' E'. rewrite final_app. now apply E.
Qed.
Lemma tri_loop {R X B} (I : X -> state -> Prop) (J : B -> state -> Prop) st (body : X -> pprog (X + B)) s (k : B -> pprog R) Q :
  (forall s st, I s st -> tri st (body s) (fun y st' => match y with inl s' => I s' st' | inr b => J b st' end)) ->
  I s st -> (forall b st, J b st -> tri st (k b) Q) -> tri st (Loop body s k) Q.
Proof.
  intros H H0 K tr o P. cbn [path] in P. revert st H0. induction P as [s tr P|s s' tr tr' o P T IHT|s b tr tr' o P P2]; intros st H0.
  - destruct (H s st H0 _ _ P) as [A _]. split; [exact A|discriminate].
  - destruct (H s st H0 _ _ P) as [A Bq]. destruct (IHT _ (Bq _ eq_refl)) as [C E]. split; [apply scan_app; auto|].
    intros r E'. rewrite final_app. now apply E.
  - destruct (H s st H0 _ _ P) as [A Bq]. destruct (K b _ (Bq _ eq_refl) _ _ P2) as [C E]. split; [apply scan_app; auto|].
    intros r E'. rewrite final_app. now apply E.
Qed.
Lemma tri_conseq {R} st (p : pprog R) (Q Q' : R -> state -> Prop) : tri st p Q -> (forall r st, Q r st -> Q' r st) -> tri st p Q'.
Proof. intros H K tr o P. destruct (H _ _ P) as [A B]. split; [exact A|]. intros r E. apply K, B, E. Qed.

(** [p] leaves the state as it is *)
Definition same {R} (st : state) (p : pprog R) : Prop := tri st p (fun _ st' => st' = st).
Lemma same_ret {R} st (r : R) : same st (Ret r).
Proof. now apply tri_ret. Qed.
Lemma same_bind {R R'} st (p : pprog R) (f : R -> pprog R') : same st p -> (forall r, same st (f r)) -> same st (bind p f).
Proof. intros H K. eapply tri_bind; [exact H|]. intros r st' ->. apply K. Qed.
Lemma tri_after_same {R R'} st (p : pprog R) (f : R -> pprog R') Q : same st p -> (forall r, tri st (f r) Q) -> tri st (bind p f) Q.
Proof. intros H K. eapply tri_bind; [exact H|]. intros r st' ->. apply K. Qed.
Lemma same_loop {X B} st (s : X) (body : X -> pprog (X + B)) : (forall s, same st (body s)) -> same st (loop s body).
Proof.
  intros H. apply (tri_loop (fun _ st' => st' = st) (fun _ st' => st' = st)); [|reflexivity|intros b st' ->; apply same_ret].
  intros s' st' ->. eapply tri_conseq; [apply H|]. intros [y|y] st' ->; reflexivity.
Qed.
Lemma fits_rest b d : role_of d = Rest -> guards (projT1 d) = false -> fits b d.
Proof. intros E G. unfold fits. rewrite E, G. discriminate. Qed.
Lemma next_rest st d : role_of d = Rest -> next st d = st.
Proof. intros E. unfold next. rewrite E. cbn [turn]. rewrite orb_false_r. now destruct st. Qed.
Lemma next_keep st d : role_of d = Keep -> next st d = st.
Proof. intros E. unfold next. rewrite E. cbn [turn]. rewrite orb_false_r. now destruct st. Qed.
Lemma same_do st a : (forall x, role_of (existT presp a x) = Rest) -> (guards a = true -> fst st = true) -> same st (pdo a).
Proof.
  intros E G. apply tri_do. intros x. split.
  - unfold fits. rewrite E. exact G.
  - rewrite (next_rest _ _ (E x)). apply same_ret.
Qed.
Ltac quiet := apply same_do; [intros; reflexivity|intros ?G; discriminate G].

(** ** The locks *)
Definition mine (j : nat) : bool := Nat.eqb j i.

(** a compare-exchange, whatever it answers *)
Lemma tri_cas {R} wk j e v so fo st (k : bool * Z -> pprog R) Q :
  fits (fst st) (existT presp (MCas wk j e v so fo) (true, e)) ->
  (forall c, tri (next st (existT presp (MCas wk j e v so fo) (true, e))) (k (true, c)) Q) ->
  (forall c, tri st (k (false, c)) Q) ->
  tri st (bind (pdo (MCas wk j e v so fo)) k) Q.
Proof.
  intros F K1 K2. apply tri_do. intros [[|] c].
  - split; [exact F|]. exact (K1 c).
  - assert (E : role_of (existT presp (MCas wk j e v so fo) (false, c)) = Rest) by (cbn; now rewrite andb_false_r).
    split; [apply fits_rest; [exact E|reflexivity]|]. change (tri (next st (existT presp (MCas wk j e v so fo) (false, c))) (k (false, c)) Q).
    rewrite (next_rest _ _ E). exact (K2 c).
Qed.
(** one that keeps the parity and does not release *)
Lemma keep_cas wk j e v so fo st : Z.odd e = Z.odd v -> rel_b so = false ->
  fits (fst st) (existT presp (MCas wk j e v so fo) (true, e)) /\ next st (existT presp (MCas wk j e v so fo) (true, e)) = st.
Proof.
  intros E R. destruct (Nat.eqb j i) eqn:M.
  - assert (K : role_of (existT presp (MCas wk j e v so fo) (true, e)) = Keep).
    { cbn. rewrite M, R, E. cbn [andb fst]. now destruct (Z.odd v). }
    split; [unfold fits; rewrite K; exact E|apply next_keep, K].
  - assert (K : role_of (existT presp (MCas wk j e v so fo) (true, e)) = Rest) by (cbn; now rewrite M).
    split; [apply fits_rest; [exact K|reflexivity]|apply next_rest, K].
Qed.
Lemma same_load j o st : same st (pdo (MLoad j o)).
Proof. quiet. Qed.

Lemma even_locked p : (Z.land p locked =? 0)%Z = negb (Z.odd p).
Proof.
  unfold locked. change 1%Z with (Z.ones 1). rewrite Z.land_ones by lia. change (2 ^ 1)%Z with 2%Z. rewrite Zmod_odd.
  destruct (Z.odd p); reflexivity.
Qed.
Lemma odd_lor a b : Z.odd (Z.lor a b) = Z.odd a || Z.odd b.
Proof. rewrite <- !Z.bit0_odd. apply Z.lor_spec. Qed.
Lemma odd_land a b : Z.odd (Z.land a b) = Z.odd a && Z.odd b.
Proof. rewrite <- !Z.bit0_odd. apply Z.land_spec. Qed.
Lemma odd_u32 z : Z.odd (u32 z) = Z.odd z.
Proof. unfold u32, wrap. rewrite <- !Z.bit0_odd. rewrite Z.mod_pow2_bits_low by lia. reflexivity. Qed.

(** taking lock [j] by a compare-exchange that acquires *)
Lemma take_cas wk j e fo took : Z.odd e = false ->
  fits false (existT presp (MCas wk j e (Z.lor e locked) Acquire fo) (true, e)) /\
  next (false, took) (existT presp (MCas wk j e (Z.lor e locked) Acquire fo) (true, e)) = (mine j, took || mine j).
Proof.
  intros E. assert (O : Z.odd (Z.lor e locked) = true) by (rewrite odd_lor, E; reflexivity).
  unfold mine. destruct (Nat.eqb j i) eqn:M.
  - assert (K : role_of (existT presp (MCas wk j e (Z.lor e locked) Acquire fo) (true, e)) = Take).
    { cbn [role_of]. rewrite M, E, O. reflexivity. }
    split; [unfold fits; rewrite K; split; reflexivity|unfold next; rewrite K; reflexivity].
  - assert (K : role_of (existT presp (MCas wk j e (Z.lor e locked) Acquire fo) (true, e)) = Rest) by (cbn [role_of]; now rewrite M).
    split; [apply fits_rest; [exact K|reflexivity]|rewrite next_rest by exact K; now rewrite orb_false_r].
Qed.

Definition taken j took : unit -> state -> Prop := fun _ st => st = (mine j, took || mine j).
Lemma tri_slow j took : tri (false, took) (lock_slow_path j) (taken j took).
Proof.
  unfold lock_slow_path. eapply tri_after_same; [apply same_load|]. intros prev.
  apply (tri_loop (fun _ st => st = (false, took)) (taken j took)); [|reflexivity|intros [] st H; now apply tri_ret].
  clear prev. intros prev st ->. rewrite even_locked. destruct (Z.odd prev) eqn:O; cbn [negb].
  - destruct (keep_cas true j prev (Z.lor prev contended) Relaxed Relaxed (false, took)) as [A B];
      [rewrite odd_lor, O; reflexivity|reflexivity|].
    apply tri_cas; [exact A| |]; intros c.
    + rewrite B. eapply tri_after_same.
      * unfold futex_wait_on. apply same_bind; [quiet|]. intros [|]; [|apply same_ret]. apply same_bind; [quiet|]. intros. apply same_ret.
      * intros _. eapply tri_after_same; [apply same_load|]. intros p. now apply tri_ret.
    + now apply tri_ret.
  - destruct (take_cas true j prev Relaxed took O) as [A B].
    apply tri_cas; [exact A| |]; intros c; [|now apply tri_ret]. rewrite B. apply tri_ret. reflexivity.
Qed.
Lemma tri_spin n : forall j took, tri (false, took) (futex_spin n j) (taken j took).
Proof.
  induction n as [|n IH]; intros j took; [apply tri_slow|]. cbn [futex_spin].
  eapply tri_after_same; [apply same_load|]. intros prev. rewrite even_locked. destruct (Z.odd prev) eqn:O; cbn [negb].
  - eapply tri_after_same; [quiet|]. intros _. apply IH.
  - destruct (take_cas false j prev Relaxed took O) as [A B].
    apply tri_cas; [exact A| |]; intros c.
    + rewrite B. apply tri_ret. reflexivity.
    + eapply tri_after_same; [quiet|]. intros _. apply IH.
Qed.
Lemma new_even prev : Z.odd (u32 (Z.land prev (Z.lnot locked) + counter_one)) = false.
Proof. rewrite odd_u32, Z.odd_add, odd_land. cbn. now rewrite andb_false_r. Qed.
Lemma tri_unlock j took : tri (mine j, took) (futex_unlock j) (fun _ st => st = (false, took)).
Proof.
  unfold futex_unlock. eapply tri_after_same; [apply same_load|]. intros prev.
  eapply tri_bind with (Q := fun y st => st = (false, took) /\ Z.odd (snd y) = false).
  - apply (tri_loop (fun _ st => st = (mine j, took)) (fun y st => st = (false, took) /\ Z.odd (snd y) = false));
      [|reflexivity|intros y st H; now apply tri_ret].
    clear prev. intros prev st ->. cbv zeta. pose proof (new_even prev) as N. revert N.
    generalize (u32 (Z.land prev (Z.lnot locked) + counter_one)). intros v N.
    assert (X : fits (mine j) (existT presp (MCas true j prev v Release Relaxed) (true, prev)) /\
                next (mine j, took) (existT presp (MCas true j prev v Release Relaxed) (true, prev)) = (false, took)).
    { unfold mine. destruct (Nat.eqb j i) eqn:M.
      - assert (K : role_of (existT presp (MCas true j prev v Release Relaxed) (true, prev)) = Give).
        { cbn. rewrite M, N. cbn. now rewrite andb_false_r. }
        split; [unfold fits; rewrite K; reflexivity|unfold next; rewrite K; cbn; now rewrite orb_false_r].
      - assert (K : role_of (existT presp (MCas true j prev v Release Relaxed) (true, prev)) = Rest) by (cbn; now rewrite M).
        split; [apply fits_rest; [exact K|reflexivity]|now rewrite next_rest by exact K]. }
    destruct X as [A B]. apply tri_cas; [exact A| |]; intros c; [|now apply tri_ret].
    rewrite B. apply tri_ret. auto.
  - intros [prev' new] st [-> N]. cbn [snd] in N. destruct (negb (Z.land prev' contended =? 0)%Z); [|now apply tri_ret].
    eapply tri_after_same; [quiet|]. intros woken. destruct (Nat.eqb woken 0); [|now apply tri_ret].
    destruct (keep_cas false j new (Z.land new (Z.lnot contended)) Relaxed Relaxed (false, took)) as [A B];
      [rewrite odd_land; cbn; now rewrite andb_true_r|reflexivity|].
    apply tri_cas; [exact A| |]; intros c; [rewrite B|]; now apply tri_ret.
Qed.

(** ** The pool *)
Section Pool.
Variable pl : platform.
Hypothesis Hlk : pl_lock pl = LFutex.
Definition held (j : nat) (k : bool) : state := (mine j, k || mine j).
Ltac easy_do := match goal with |- same ?st (pdo ?a) => apply (same_do st a) | _ => apply same_do end; [intros; reflexivity|intros ?G; first [discriminate G|exact G]].

Lemma tri_acquire j k : tri (false, k) (acquire (pl_lock pl) j) (fun _ st => st = held j k).
Proof. unfold acquire. rewrite Hlk. apply tri_spin. Qed.
Lemma tri_release j k : tri (held j k) (release (pl_lock pl) j) (fun _ st => st = (false, k || mine j)).
Proof. unfold release. rewrite Hlk. apply tri_unlock. Qed.
Lemma held_again j k : held j (k || mine j) = held j k.
Proof. unfold held. now rewrite <- orb_assoc, orb_diag. Qed.
Lemma tri_reacquire j k : tri (false, k || mine j) (acquire (pl_lock pl) j) (fun _ st => st = held j k).
Proof. rewrite <- (held_again j k). apply tri_acquire. Qed.
Lemma tri_enter j n k : tri (held j k) (futex_enter j n) (fun _ st => st = (false, k || mine j)).
Proof.
  unfold futex_enter. eapply tri_after_same; [easy_do|]. intros pc. eapply tri_after_same; [easy_do|]. intros c.
  eapply tri_after_same; [easy_do|]. intros _. eapply tri_bind; [apply tri_unlock|]. intros r st ->. now apply tri_ret.
Qed.
Lemma tri_leave j n k : tri (false, k || mine j) (futex_leave j n) (fun _ st => st = held j k).
Proof.
  unfold futex_leave. eapply tri_bind; [apply tri_spin|]. intros r st ->. fold (held j (k || mine j)). rewrite held_again.
  apply same_bind; [easy_do|]. intros c. easy_do.
Qed.
Lemma same_cond_sleep st j n pc dl : same st (cond_sleep j n pc dl).
Proof. unfold cond_sleep. apply same_bind; [easy_do|]. intros [|]; [|apply same_ret]. apply same_bind; [easy_do|]. intros r. apply same_ret. Qed.
Lemma same_cond_loop st j n pc dl : same st (cond_loop j n pc dl).
Proof.
  apply same_loop. intros s. apply same_bind; [apply same_cond_sleep|]. intros [[| |]|]; try apply same_ret.
  all: apply same_bind; [easy_do|]; intros c; destruct (_ =? _)%Z; apply same_ret.
Qed.
Lemma same_cond_loop_rel st req j n pc dl : same st (cond_loop_rel req j n pc dl).
Proof.
  unfold cond_loop_rel. apply same_bind; [easy_do|]. intros now. apply same_loop. intros s. cbv zeta.
  destruct (_ <=? _)%Z; [apply same_ret|]. apply same_bind; [easy_do|]. intros start. apply same_bind; [apply same_cond_sleep|].
  intros w. apply same_bind; [easy_do|]. intros now'. apply same_bind; [easy_do|]. intros c. destruct (_ =? _)%Z; apply same_ret.
Qed.

Ltac unlock_pause := eapply tri_bind; [apply tri_release|]; intros ?r ?st ->; eapply tri_after_same; [easy_do|]; intros ?r.
Lemma same_pool_wait j ws k : same (held j k) (pool_wait pl j ws).
Proof.
  unfold pool_wait. destruct ws as [n|].
  - rewrite Hlk. eapply tri_bind; [apply tri_enter|]. intros pc st ->. eapply tri_after_same; [apply same_cond_loop|]. intros _. apply tri_leave.
  - unlock_pause. apply tri_reacquire.
Qed.
Lemma same_pool_wait_until j ws dl k : same (held j k) (pool_wait_until pl j ws dl).
Proof.
  unfold pool_wait_until. destruct ws as [n|].
  - rewrite Hlk. eapply tri_bind; [apply tri_enter|]. intros pc st ->.
    eapply tri_after_same; [destruct (pl_bitset pl); [apply same_cond_loop|apply same_cond_loop_rel]|]. intros r.
    eapply tri_bind; [apply tri_leave|]. intros u st ->. now apply tri_ret.
  - unlock_pause. eapply tri_bind; [apply tri_reacquire|]. intros u st ->. apply same_bind; [easy_do|]. intros now. apply same_ret.
Qed.
Lemma same_pool_wait_for j ws d k : same (held j k) (pool_wait_for pl j ws d).
Proof.
  unfold pool_wait_for. destruct ws as [n|].
  - rewrite Hlk. eapply tri_bind; [apply tri_enter|]. intros pc st ->. eapply tri_after_same; [easy_do|]. intros start.
    eapply tri_after_same; [apply same_cond_sleep|]. intros r. eapply tri_bind; [apply tri_leave|]. intros u st ->. now apply tri_ret.
  - eapply tri_after_same; [easy_do|]. intros start. unlock_pause.
    eapply tri_bind; [apply tri_reacquire|]. intros u st ->. apply same_bind; [easy_do|]. intros now. apply same_ret.
Qed.
Lemma fits_keep b x : role_of x = Keep ->
  match projT1 x with MCas _ _ e v _ _ => Z.odd e = Z.odd v | MOr _ v _ => Z.odd v = false | _ => False end -> fits b x.
Proof. intros E G. unfold fits. rewrite E. exact G. Qed.
Lemma tri_next {R} st st' x (p : pprog R) Q : next st x = st' -> tri st' p Q -> tri (next st x) p Q.
Proof. now intros ->. Qed.
Lemma same_or st j o : same st (pdo (MOr j contended o)).
Proof.
  apply tri_do. intros x. destruct (Nat.eqb j i) eqn:M.
  - assert (K : role_of (existT presp (MOr j contended o) x) = Keep) by (cbn; now rewrite M).
    split; [apply fits_keep; [exact K|reflexivity]|]. eapply tri_next; [exact (next_keep st _ K)|]. apply same_ret.
  - assert (K : role_of (existT presp (MOr j contended o) x) = Rest) by (cbn; now rewrite M).
    split; [apply fits_rest; [exact K|reflexivity]|]. eapply tri_next; [exact (next_rest st _ K)|]. apply same_ret.
Qed.
Lemma same_notify st j z all : same st (pool_notify pl j z all).
Proof.
  unfold pool_notify. apply same_bind; [easy_do|]. intros [n|]; [|apply same_ret]. rewrite Hlk. apply same_bind; [easy_do|]. intros _.
  apply same_bind; [easy_do|]. intros c. destruct (_ <? _)%Z; [|apply same_ret]. apply same_bind; [easy_do|]. intros _. apply same_or.
Qed.

Section Emulated.
Variable d : odesc.
Notation j := (lock_of pl d).

Lemma same_rd_from k n : forall z, same (held j k) (rd_from pl d z n).
Proof.
  induction n as [|n IH]; intros z; [apply same_ret|]. cbn [rd_from]. apply same_bind; [easy_do|]. intros b.
  apply same_bind; [apply IH|]. intros r. apply same_ret.
Qed.
Lemma same_wr_from k l : forall z, same (held j k) (wr_from pl d z l).
Proof. induction l as [|b l IH]; intros z; [apply same_ret|]. cbn [wr_from]. apply same_bind; [easy_do|]. intros _. apply IH. Qed.
Lemma same_rd k : same (held j k) (rd pl d).
Proof. unfold rd. apply same_bind; [apply same_rd_from|]. intros l. apply same_ret. Qed.
Lemma same_wr k v : same (held j k) (wr pl d v).
Proof. apply same_wr_from. Qed.
Ltac body := repeat first [apply same_ret | apply same_rd | apply same_wr | apply same_bind; [|intros ?r] | destruct (_ =? _)%Z].
Lemma same_emu_body k o : same (held j k) (emu_body pl d o).
Proof. destruct o as [v| |v|e v|e v|[| | |] [b v|u]|b x]; cbn [emu_body]; cbv zeta; body. Qed.
Lemma same_emu_upd k f g : same (held j k) (emu_upd pl d f g).
Proof. unfold emu_upd. body. Qed.

Lemma tri_scoped {R} k (p : pprog R) : same (held j k) p -> tri (false, k) (scoped pl d p) (fun _ st => st = (false, k || mine j)).
Proof.
  intros H. unfold scoped. eapply tri_bind; [apply tri_acquire|]. intros u st ->. eapply tri_after_same; [exact H|]. intros r.
  eapply tri_bind; [apply tri_release|]. intros u' st ->. now apply tri_ret.
Qed.
Lemma tri_scoped_wait {R} k (p : option nat -> pprog R) : (forall ws, same (held j k) (p ws)) ->
  tri (false, k) (scoped_wait pl d p) (fun _ st => st = (false, k || mine j)).
Proof.
  intros H. unfold scoped_wait. eapply tri_bind; [apply tri_acquire|]. intros u st ->. eapply tri_after_same; [easy_do|]. intros ws.
  eapply tri_after_same; [apply H|]. intros r. eapply tri_after_same; [destruct ws; [easy_do|apply same_ret]|]. intros _.
  eapply tri_bind; [apply tri_release|]. intros u' st ->. now apply tri_ret.
Qed.
Lemma same_wait_body k l old ws : same (held j k) l -> same (held j k) (wait_body pl d l old ws).
Proof.
  intros H. unfold wait_body. apply same_bind; [exact H|]. intros new. apply same_loop. intros s. destruct (_ =? _)%Z; [|apply same_ret].
  apply same_bind; [apply same_pool_wait|]. intros _. apply same_bind; [exact H|]. intros r. apply same_ret.
Qed.
Lemma same_fallback k l old limit now new ws : same (held j k) l -> same (held j k) (fallback_from pl d l old limit now new ws).
Proof.
  intros H. unfold fallback_from. apply same_loop. intros [new' now']. destruct (_ =? _)%Z; [|apply same_ret]. cbv zeta.
  destruct (_ <=? _)%Z; [apply same_ret|]. apply same_bind; [apply same_pool_wait_for|]. intros _. apply same_bind; [easy_do|]. intros n.
  apply same_bind; [exact H|]. intros r. apply same_ret.
Qed.
Lemma same_abs k l old limit new ws : same (held j k) l -> same (held j k) (abs_from pl d l old limit new ws).
Proof.
  intros H. unfold abs_from. destruct (_ <=? _)%Z; [|apply same_ret]. apply same_loop. intros s. destruct (_ =? _)%Z; [|apply same_ret].
  apply same_bind; [apply same_pool_wait_until|]. intros b. apply same_bind; [exact H|]. intros r. destruct b; apply same_ret.
Qed.
Lemma tri_emu_timed q k old limit : tri (false, q) (emu_timed pl d k old limit) (fun _ st => st = (false, q || mine j)).
Proof.
  unfold emu_timed. destruct (sys_clock pl k).
  - apply tri_scoped_wait. intros ws. apply same_bind; [apply same_rd|]. intros new. apply same_abs, same_rd.
  - eapply tri_after_same; [easy_do|]. intros now. cbv zeta. apply tri_scoped_wait. intros ws.
    apply same_bind; [apply same_rd|]. intros new. apply same_fallback, same_rd.
Qed.
Definition out {R} : R -> state -> Prop := fun _ st => fst st = false.
Lemma tri_fence k : tri (false, k) (fence_prog pl) (fun _ st => st = (false, k || mine (Z.to_nat (get_lock_index pl 0)))).
Proof.
  unfold fence_prog. cbv zeta. eapply tri_bind; [apply tri_acquire|]. intros u st ->. eapply tri_bind; [apply tri_release|]. intros u' st ->.
  now apply tri_ret.
Qed.
Lemma tri_exit n : forall k, tri (false, k) (exit_from pl n) out.
Proof.
  induction n as [|n IH]; intros k; [now apply tri_ret|]. cbn [exit_from]. eapply tri_bind; [apply IH|]. intros u [x y] E. unfold out in E. cbn [fst] in E. subst x.
  eapply tri_bind; [apply tri_acquire|]. intros u' st ->. eapply tri_after_same; [easy_do|]. intros _.
  eapply tri_conseq; [apply tri_release|]. intros r st ->. reflexivity.
Qed.
Lemma tri_exit_prog k : tri (false, k) (exit_prog pl) out.
Proof. unfold exit_prog. eapply tri_bind; [apply tri_exit|]. intros u st E. now apply tri_ret. Qed.
Lemma tri_notify_prog k all : tri (false, k) (notify_prog pl d all) (fun _ st => st = (false, k || mine j)).
Proof. apply tri_scoped. apply same_bind; [apply same_notify|]. intros u. apply same_ret. Qed.

Variable a : nat.
Lemma same_ld st : same st (ld d a).
Proof. unfold ld. apply same_bind; [easy_do|]. intros r. apply same_ret. Qed.
Lemma out_same {R} k (p : pprog R) : same (false, k) p -> tri (false, k) p out.
Proof. intros H. eapply tri_conseq; [exact H|]. intros r st ->. reflexivity. Qed.
Lemma out_eq {R} k q (p : pprog R) : tri (false, k) p (fun _ st => st = (false, q)) -> tri (false, k) p out.
Proof. intros H. eapply tri_conseq; [exact H|]. intros r st ->. reflexivity. Qed.
Lemma tri_pool_timed q k old limit : tri (false, q) (pool_timed pl d a k old limit) out.
Proof.
  unfold pool_timed. destruct (sys_clock pl k).
  - eapply tri_after_same; [apply same_ld|]. intros new. destruct (_ =? _)%Z; [|now apply tri_ret].
    eapply out_eq, tri_scoped_wait. intros ws. apply same_abs, same_ld.
  - eapply tri_after_same; [easy_do|]. intros now. cbv zeta. eapply tri_after_same; [apply same_ld|]. intros new.
    destruct (_ =? _)%Z; [|now apply tri_ret]. eapply out_eq, tri_scoped_wait. intros ws. apply same_fallback, same_ld.
Qed.
Lemma tri_pool_wait_prog q old : tri (false, q) (pool_wait_prog pl d a old) out.
Proof.
  unfold pool_wait_prog. eapply tri_after_same; [apply same_ld|]. intros new. destruct (_ =? _)%Z; [|now apply tri_ret].
  eapply out_eq, tri_scoped_wait. intros ws. apply same_wait_body, same_ld.
Qed.
Lemma same_poll_fast st n old p : same st p -> same st (poll_fast d a n old p).
Proof.
  intros H. induction n as [|n IH]; [exact H|]. cbn [poll_fast]. apply same_bind; [easy_do|]. intros _. apply same_bind; [apply same_ld|].
  intros new. destruct (_ =? _)%Z; [exact IH|apply same_ret].
Qed.
Lemma same_poll_wait st old : same st (poll_wait d a old).
Proof.
  unfold poll_wait. apply same_bind; [apply same_ld|]. intros new. destruct (_ =? _)%Z; [|apply same_ret]. apply same_poll_fast, same_loop.
  intros s. apply same_bind; [easy_do|]. intros _. apply same_bind; [apply same_ld|]. intros r. destruct (_ =? _)%Z; apply same_ret.
Qed.
Lemma same_poll_fast_timed st n old limit p : (forall now, same st (p now)) -> forall now, same st (poll_fast_timed d a n old limit now p).
Proof.
  intros H. induction n as [|n IH]; intros now; [apply H|]. cbn [poll_fast_timed]. destruct (_ <=? _)%Z; [apply same_ret|].
  apply same_bind; [easy_do|]. intros _. apply same_bind; [easy_do|]. intros now'. apply same_bind; [apply same_ld|].
  intros new. destruct (_ =? _)%Z; [apply IH|apply same_ret].
Qed.
Lemma same_poll_timed st k old limit : same st (poll_timed d a k old limit).
Proof.
  unfold poll_timed. apply same_bind; [easy_do|]. intros now. cbv zeta. apply same_bind; [apply same_ld|]. intros new.
  destruct (_ =? _)%Z; [|apply same_ret]. apply same_poll_fast_timed. intros now'. apply same_loop. intros s.
  destruct (_ <=? _)%Z; [apply same_ret|]. apply same_bind; [easy_do|]. intros _. apply same_bind; [easy_do|]. intros n.
  apply same_bind; [apply same_ld|]. intros r. destruct (_ =? _)%Z; apply same_ret.
Qed.
Lemma same_native_sleep st old dl : same st (native_sleep a old dl).
Proof. unfold native_sleep. apply same_bind; [easy_do|]. intros [|]; [|apply same_ret]. apply same_bind; [easy_do|]. intros r. apply same_ret. Qed.
Lemma same_native_wait st old : same st (native_wait d a old).
Proof.
  unfold native_wait. apply same_bind; [apply same_ld|]. intros new. apply same_loop. intros s. destruct (_ =? _)%Z; [|apply same_ret].
  apply same_bind; [apply same_native_sleep|]. intros _. apply same_bind; [apply same_ld|]. intros r. apply same_ret.
Qed.
Lemma same_native_fallback st old limit now : same st (native_fallback pl d a old limit now).
Proof.
  unfold native_fallback. apply same_bind; [apply same_ld|]. intros new. apply same_loop. intros [s s']. destruct (_ =? _)%Z; [|apply same_ret].
  cbv zeta. destruct (_ <=? _)%Z; [apply same_ret|]. apply same_bind; [easy_do|]. intros n. apply same_bind; [apply same_native_sleep|]. intros _.
  apply same_bind; [easy_do|]. intros n'. apply same_bind; [apply same_ld|]. intros r. apply same_ret.
Qed.
Lemma same_native_abs st old limit : same st (native_abs d a old limit).
Proof.
  unfold native_abs. apply same_bind; [apply same_ld|]. intros new. apply same_loop. intros s. destruct (_ =? _)%Z; [|apply same_ret].
  apply same_bind; [apply same_native_sleep|]. intros r. apply same_bind; [apply same_ld|]. intros n. destruct r as [[| |]|]; apply same_ret.
Qed.
Lemma same_native_timed st k old limit : same st (native_timed pl d a k old limit).
Proof.
  unfold native_timed. destruct k.
  - destruct (pl_bitset pl).
    + destruct (_ <=? _)%Z; [apply same_native_abs|]. apply same_bind; [apply same_ld|]. intros r. apply same_ret.
    + apply same_bind; [easy_do|]. intros now. apply same_native_fallback.
  - apply same_bind; [easy_do|]. intros now. apply same_native_fallback.
  - destruct (_ && _); (apply same_bind; [easy_do|]; intros now); [apply same_native_abs|apply same_native_fallback].
Qed.

Lemma tri_obj k o : tri (false, k) (obj_prog pl d a o) (fun _ st => fst st = false).
Proof.
  unfold obj_prog. destruct (d_locked d).
  - destruct o as [o|f g|old|t old limit|all| |]; cbn [emu_prog].
    + eapply out_eq, tri_scoped. apply same_bind; [apply same_emu_body|]. intros r. apply same_ret.
    + eapply out_eq, tri_scoped. apply same_bind; [apply same_emu_upd|]. intros r. apply same_ret.
    + eapply out_eq, tri_scoped_wait. intros ws. apply same_wait_body, same_rd.
    + eapply out_eq, tri_emu_timed.
    + eapply out_eq, tri_notify_prog.
    + eapply out_eq, tri_fence.
    + apply tri_exit_prog.
  - destruct o as [o|f g|old|t old limit|all| |]; cbn [free_prog].
    + apply out_same. apply same_bind; [easy_do|]. intros r. apply same_ret.
    + apply out_same. apply same_bind; [easy_do|]. intros r. apply same_ret.
    + destruct (d_wait d); try apply tri_pool_wait_prog; apply out_same; [apply same_poll_wait|apply same_native_wait].
    + destruct (d_wait d); try apply tri_pool_timed; apply out_same; [apply same_poll_timed|apply same_native_timed].
    + destruct (d_wait d); try (eapply out_eq, tri_notify_prog).
      all: apply out_same; apply same_bind; [easy_do|]; intros r; apply same_ret.
    + eapply out_eq, tri_fence.
    + apply tri_exit_prog.
Qed.
End Emulated.

(** a call that uses the lock takes it *)
Lemma tri_uses D x k : uses pl D i x -> tri (false, k) (pool_impl pl D x) (fun _ st => snd st = true).
Proof.
  assert (M : forall R (p : pprog R) j, j = i -> tri (false, k) p (fun _ st => st = (false, k || mine j)) -> tri (false, k) p (fun _ st => snd st = true)).
  { intros R p j -> H. eapply tri_conseq; [exact H|]. intros r st ->. unfold mine. rewrite Nat.eqb_refl. apply orb_true_r. }
  unfold uses, pool_impl, obj_prog, d_locked. destruct x as [a o]. cbn [fst snd].
  destruct o as [o|f g|old|t old limit|all| |]; intros U.
  - destruct U as [E W]. rewrite W. apply (M _ _ _ E), tri_scoped. apply same_bind; [apply same_emu_body|]. intros r. apply same_ret.
  - destruct U as [E W]. rewrite W. apply (M _ _ _ E), tri_scoped. apply same_bind; [apply same_emu_upd|]. intros r. apply same_ret.
  - destruct U as [E W]. rewrite W. apply (M _ _ _ E), tri_scoped_wait. intros ws. apply same_wait_body, same_rd.
  - destruct U as [E W]. rewrite W. apply (M _ _ _ E), tri_emu_timed.
  - destruct U as [E [W|W]]; [rewrite W|cbn [free_prog]; rewrite W]; apply (M _ _ _ E), tri_notify_prog.
  - assert (F : tri (false, k) (fence_prog pl) (fun _ st => snd st = true)) by (eapply (M _ _ _ (eq_sym U)), tri_fence).
    destruct (d_wait (D a)); exact F.
  - destruct U.
Qed.
End Pool.
End Lock.

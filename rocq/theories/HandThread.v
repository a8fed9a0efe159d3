(** * Proof of C56: from programs to threads. *)
From Coq Require Import ZArith Arith List Bool Lia.
From Verif Require Import SpecInt SpecPool Conv Order Reorder SpecOrder FenceModel SpecFence FenceProof SpecLock LockProof Prog PoolModel
  SpecHand HandFlat HandProof.
Import ListNotations.
Open Scope nat_scope.

(** ** Operations that do not write *)
Lemma no_write b m l p : on_machine b m -> match p with OLoad _ _ | OCas false _ _ _ => True | _ => False end ->
  writes_in (emit b l p) = 0.
Proof.
  intros B P. destruct p as [n o|n o|n o|ar n o|ok n so fo|n o|n o]; try (destruct ok); try destruct P.
  all: destruct b as [|al|pp| | | | |rc| | | | | | | | |]; try (exfalso; exact B); try (destruct pp); try (destruct rc).
  all: try (destruct o).
  all: try (destruct so).
  all: try (destruct fo).
  all: try reflexivity.
  all: expose.
  all: cbn [negb andb orb].
  all: rewrite ?writes_app, ?writes_repeat by reflexivity; reflexivity.
Qed.
Lemma no_write_off b m l p : on_machine b m -> match p with OLoad _ _ | OCas false _ _ _ => True | _ => False end ->
  keeps_off l (emit b l p).
Proof.
  intros B P j x E K. pose proof (no_write b m l p B P) as Z.
  assert (1 <= writes_in (emit b l p)) by (apply (writes_nth _ j); exists x; auto). lia.
Qed.
Lemma acquire_here b m l n so fo : on_machine b m -> acq_b so = true -> acquire_operation m (emit b l (OCas true n so fo)).
Proof.
  intros B A. assert (A' : acquiring so) by (destruct so; try discriminate A; exact I).
  destruct b; cbn in B; try (exfalso; exact B); subst m;
    try (match goal with |- acquire_operation _ (emit ?b _ _) => apply (acquire_holds b l (OCas true n so fo) so eq_refl A'); intros X; exact X end).
  apply (sparc_tso_ok l (OCas true n so fo) so eq_refl A').
Qed.
Lemma release_here b m l n so fo : on_machine b m -> rel_b so = true -> release_operation m (emit b l (OCas true n so fo)).
Proof.
  intros B A. assert (A' : releasing so) by (destruct so; try discriminate A; exact I).
  destruct b; cbn in B; try (exfalso; exact B); subst m; 
    try (match goal with |- release_operation _ (emit ?b _ _) => apply (release_holds b l (OCas true n so fo) so eq_refl A') end).
  intros pre post pl ti Ex. apply tso_is_weak in Ex. revert Ex. apply (release_holds Sparc l (OCas true n so fo) so eq_refl A').
Qed.

(** ** The steps of a thread *)
Notation pdid := (did pact presp).
Notation pstep' := (option (did pact presp) * list item)%type.
Definition acts (s : list pstep') : list pdid := concat (map (fun x => match fst x with Some d => [d] | None => [] end) s).
Lemma acts_app s s' : acts (s ++ s') = acts s ++ acts s'.
Proof. unfold acts. now rewrite map_app, concat_app. Qed.
Lemma acts_call tr : acts (map (fun s => (Some (fst s), snd s)) tr) = map fst tr.
Proof. induction tr as [|[d c] tr IH]; [reflexivity|]. cbn. f_equal. exact IH. Qed.
Definition role_at (i : nat) (x : pstep') : role := match fst x with Some d => role_of i d | None => Rest end.
Definition roled (i : nat) (s : list pstep') : list (role * list item) := map (fun x => (role_at i x, snd x)) s.

Lemma cat_roled i s : cat (roled i s) = code_of_steps s.
Proof. unfold cat, roled, code_of_steps. rewrite map_map. reflexivity. Qed.
Lemma steps_app th th' : steps (th ++ th') = steps th ++ steps th'.
Proof. unfold steps. now rewrite map_app, concat_app. Qed.
Lemma code_app th th' : code_of (th ++ th') = code_of th ++ code_of th'.
Proof. unfold code_of, code_of_steps. now rewrite steps_app, map_app, concat_app. Qed.
Lemma off_roled i s n : off (roled i s) n = length (code_of_steps (firstn n s)).
Proof. unfold off. unfold roled. rewrite firstn_map. fold (roled i (firstn n s)). now rewrite cat_roled. Qed.

Lemma final_fst i tr : forall st, fst (final i st tr) = fold_left turn (map (role_of i) tr) (fst st).
Proof. induction tr as [|d tr IH]; intros st; [reflexivity|]. unfold final. cbn [fold_left map]. fold (final i (next i st d) tr). now rewrite IH. Qed.
Lemma inside_acts i s : inside (map fst (roled i s)) = fst (final i (false, false) (acts s)).
Proof.
  rewrite final_fst. unfold inside. cbn [fst]. generalize false. induction s as [|[[d|] c] s IH]; intros b; [reflexivity| |]; cbn; apply IH.
Qed.
(** the last take *)
Lemma last_take rs : inside rs = true -> exists p q, rs = p ++ Take :: q /\ Forall (fun x => x = Keep \/ x = Rest) q.
Proof.
  induction rs as [|x rs IH] using rev_ind; intros H; [discriminate H|]. rewrite inside_snoc in H. destruct x; cbn in H; try discriminate H.
  - exists rs, []. split; [reflexivity|constructor].
  - destruct (IH H) as (p & q & -> & F). exists p, (q ++ [Keep]). rewrite <- app_assoc. split; [reflexivity|]. apply Forall_app. auto.
  - destruct (IH H) as (p & q & -> & F). exists p, (q ++ [Rest]). rewrite <- app_assoc. split; [reflexivity|]. apply Forall_app. auto.
Qed.
Lemma took_take i tr : forall st, snd (final i st tr) = true -> snd st = true \/ exists p d q, tr = p ++ d :: q /\ role_of i d = Take.
Proof.
  induction tr as [|d tr IH]; intros st H; [auto|]. unfold final in H. cbn [fold_left] in H. fold (final i (next i st d) tr) in H.
  destruct (IH _ H) as [S|(p & d' & q & -> & R)].
  - cbn in S. apply orb_true_iff in S. destruct S as [S|S]; [auto|]. right. exists [], d, tr. split; [reflexivity|]. now destruct (role_of i d).
  - right. exists (d :: p), d', q. auto.
Qed.

Lemma scan_fst i tr : forall st st', fst st = fst st' -> scan i st tr -> scan i st' tr.
Proof.
  induction tr as [|d tr IH]; intros st st' E; [auto|]. cbn [scan]. intros [A B]. rewrite <- E. split; [exact A|].
  apply (IH (next i st d)); [unfold next; cbn [fst]; now rewrite E|exact B].
Qed.
Section Runs.
  Variables (pl : platform) (D : nat -> odesc) (i : nat).
  Hypothesis Hlk : pl_lock pl = LFutex.
  Lemma call_scan x tr r k : path (pool_impl pl D x) tr r ->
    scan i (false, k) tr /\ (r <> None -> fst (final i (false, k) tr) = false).
  Proof.
    intros P. destruct (tri_obj i pl Hlk (D (fst x)) (fst x) k (snd x) tr r P) as [A B]. split; [exact A|].
    intros N. destruct r as [r|]; [|congruence]. exact (B r eq_refl).
  Qed.
  Lemma runs_scan th : runs (pool_impl pl D) th -> forall st, fst st = false -> scan i st (acts (steps th)).
  Proof.
    induction th as [|[c|x tr r] th IH]; intros R st E; [exact I| |].
    - exact (IH R st E).
    - cbn [runs] in R. destruct R as (P & N & R). change (steps (Call x tr r :: th)) with (steps_of (Call x tr r) ++ steps th).
      rewrite acts_app. cbn [steps_of]. rewrite acts_call. apply scan_app. destruct st as [s k]. cbn [fst] in E. subst s.
      destruct (call_scan x _ r k P) as [A B]. split; [exact A|]. destruct r as [r|].
      + apply (IH R). apply B. discriminate.
      + rewrite (N eq_refl). exact I.
  Qed.
  Lemma runs_app th th' : runs (pool_impl pl D) (th ++ th') -> th' <> [] -> runs (pool_impl pl D) th /\ runs (pool_impl pl D) th' /\
    forall k, fst (final i (false, k) (acts (steps th))) = false.
  Proof.
    induction th as [|[c|x tr r] th IH]; intros R N; [split; [exact I|]; split; [exact R|reflexivity]| |]; cbn [app runs] in R.
    - exact (IH R N).
    - destruct R as (P & E & R). destruct (IH R N) as (A & B & C). split; [|split; [exact B|]].
      + split; [exact P|]. split; [|exact A]. intros Z. specialize (E Z). destruct th; [reflexivity|discriminate E].
      + intros k. change (steps (Call x tr r :: th)) with (steps_of (Call x tr r) ++ steps th). rewrite acts_app, final_app.
        cbn [steps_of]. rewrite acts_call. destruct r as [r|].
        * destruct (call_scan x _ (Some r) k P) as [_ F]. specialize (F ltac:(discriminate)).
          destruct (final i (false, k) (map fst tr)) as [f s]. cbn [fst] in F. subst f. apply C.
        * specialize (E eq_refl). destruct th; [|discriminate E]. cbn [app] in E. congruence.
  Qed.
End Runs.

(** ** All actions of a program *)
Definition only {R} (P : pdid -> Prop) (p : pprog R) : Prop := forall tr o, path p tr o -> Forall P tr.
Lemma only_ret {R} P (r : R) : only P (Ret r).
Proof. intros tr o [-> _]. constructor. Qed.
Lemma only_do (P : pdid -> Prop) a : (forall x, P (existT presp a x)) -> only P (pdo a).
Proof. intros H tr o [[-> _]|(x & tr' & -> & Q)]; [constructor|]. constructor; [apply H|]. destruct Q as [-> _]. constructor. Qed.
Lemma only_bind {R R'} P (p : pprog R) (f : R -> pprog R') : only P p -> (forall r, only P (f r)) -> only P (bind p f).
Proof.
  intros H K tr o Q. apply path_bind in Q. destruct Q as [[_ Q]|(t1 & t2 & r & -> & Q1 & Q2)]; [exact (H _ _ Q)|].
  apply Forall_app. split; [exact (H _ _ Q1)|exact (K r _ _ Q2)].
Qed.
Lemma only_loop {X B} P (s : X) (body : X -> pprog (X + B)) : (forall s, only P (body s)) -> only P (loop s body).
Proof.
  intros H tr o Q. cbn [path loop] in Q. induction Q as [s tr Q|s s' tr tr' o Q T IH|s b tr tr' o Q Q2]; [exact (H _ _ _ Q)| |].
  - apply Forall_app. split; [exact (H _ _ _ Q)|exact IH].
  - apply Forall_app. split; [exact (H _ _ _ Q)|]. destruct Q2 as [-> _]. constructor.
Qed.
Ltac just := match goal with |- only ?P (pdo ?a) => apply (only_do P a); intros; first [reflexivity | intros ?O; exact O] end.
Ltac onlys := repeat first [apply only_ret | just | apply only_loop; intros ?s | apply only_bind; [|intros ?r] | match goal with |- only _ (if ?b then _ else _) => destruct b | |- only _ (match ?p with pair _ _ => _ end) => destruct p end].
Lemma only_slow i j : only (fun d => ~ on_bytes i d) (lock_slow_path j).
Proof. unfold lock_slow_path, futex_wait_on. onlys. Qed.
Lemma only_spin i n j : only (fun d => ~ on_bytes i d) (futex_spin n j).
Proof. induction n as [|n IH]; [apply only_slow|]. cbn [futex_spin]. onlys; exact IH. Qed.
Lemma only_unlock i j : only (fun d => ~ on_bytes i d) (futex_unlock j).
Proof. unfold futex_unlock. onlys. Qed.
Section Body.
  Variables (pl : platform) (d : odesc) (i : nat).
  Notation quiet := (fun x => role_of i x = Rest).
  Lemma only_rd : only quiet (rd pl d).
  Proof.
    unfold rd. apply only_bind; [|intros; apply only_ret]. generalize (d_addr d). induction (d_size d) as [|n IH]; intros z; [apply only_ret|].
    cbn [rd_from]. apply only_bind; [just|]. intros b. apply only_bind; [apply IH|]. intros r. apply only_ret.
  Qed.
  Lemma only_wr v : only quiet (wr pl d v).
  Proof.
    unfold wr. generalize (d_addr d). induction (SpecBytes.bytes (d_be d) (d_size d) v) as [|b s IH]; intros z; [apply only_ret|].
    cbn [wr_from]. apply only_bind; [just|]. intros _. apply IH.
  Qed.
  Ltac body := repeat first [apply only_ret | apply only_rd | apply only_wr | apply only_bind; [|intros ?r] | destruct (_ =? _)%Z].
  Lemma only_emu_body o : only quiet (emu_body pl d o).
  Proof. destruct o as [v| |v|e v|e v|[| | |] [b v|u]|b x]; cbn [emu_body]; cbv zeta; body. Qed.
  Lemma only_emu_upd f g : only quiet (emu_upd pl d f g).
  Proof. unfold emu_upd. body. Qed.
End Body.

(** ** Executions *)
Section Exec.
Variables (b : backend) (m : machine) (pl : platform) (D : nat -> odesc) (l i : nat) (threads : nat -> list event)
  (place time : nat -> nat -> nat) (val : nat -> nat -> Z).
Hypothesis E : execution_of b m pl D l i threads place time val.
Let T t := roled i (steps (threads t)).
Let leaves t j := negb (Z.odd (val t j)).
Let B := eo_machine _ _ _ _ _ _ _ _ _ _ E.

Lemma code_T t : cat (T t) = code_of (threads t).
Proof. apply cat_roled. Qed.
Lemma step_T t n x c : step T t n x c <-> exists o, nth_error (steps (threads t)) n = Some (o, c) /\ x = role_at i (o, c).
Proof.
  unfold step, T, roled. rewrite nth_error_map. destruct (nth_error (steps (threads t)) n) as [[o c']|]; cbn [option_map].
  - split; [intros H; injection H as <- <-; exists o; auto|intros (o' & H & ->); injection H as -> ->; reflexivity].
  - split; [discriminate|intros (o' & H & _); discriminate H].
Qed.
Lemma step_at_T t n o c : nth_error (steps (threads t)) n = Some (o, c) -> step_at threads t n (off (T t) n) o c.
Proof. intros H. split; [exact H|apply off_roled]. Qed.
Lemma rendered_T t n d c : nth_error (steps (threads t)) n = Some (Some d, c) -> renders b l i d c.
Proof.
  intros H. pose proof (eo_rendered _ _ _ _ _ _ _ _ _ _ E t) as R. unfold rendered in R. rewrite Forall_forall in R.
  exact (R _ (nth_error_In _ _ H)).
Qed.
Lemma rendered_user t n c : nth_error (steps (threads t)) n = Some (None, c) -> keeps_off l c.
Proof.
  intros H. pose proof (eo_rendered _ _ _ _ _ _ _ _ _ _ E t) as R. unfold rendered in R. rewrite Forall_forall in R.
  exact (R _ (nth_error_In _ _ H)).
Qed.
Lemma nth_firstn_cons {A} (s : list A) : forall n x, nth_error s n = Some x -> s = firstn n s ++ x :: skipn (S n) s.
Proof. induction s as [|y s IH]; intros [|n] x H; try discriminate H; [injection H as ->; reflexivity|]. cbn [firstn app skipn]. f_equal. now apply IH. Qed.
Lemma fits_T t n d c : nth_error (steps (threads t)) n = Some (Some d, c) ->
  fits i (inside (map fst (firstn n (T t)))) d.
Proof.
  intros H. unfold T, roled. rewrite firstn_map. fold (roled i (firstn n (steps (threads t)))). rewrite inside_acts.
  pose proof (runs_scan pl D i (eo_lock _ _ _ _ _ _ _ _ _ _ E) _ (eo_runs _ _ _ _ _ _ _ _ _ _ E t) (false, false) eq_refl) as S.
  rewrite (nth_firstn_cons _ _ _ H), acts_app in S. apply scan_app in S. destruct S as [_ S]. exact (proj1 S).
Qed.

(** the steps that write the word *)
Inductive rmw : pdid -> list item -> Z -> Prop :=
| rmw_cas wk e v so fo x n : rmw (existT presp (MCas wk i e v so fo) (true, x)) (emit b l (OCas true n so fo)) v
| rmw_or v o x ar n : rmw (existT presp (MOr i v o) x) (emit b l (OFetch ar n o)) v.
Lemma role_rmw d c : role_of i d <> Rest -> renders b l i d c -> exists v, rmw d c v.
Proof.
  destruct d as [a x]. destruct a; cbn [role_of renders]; intros N R; try (exfalso; apply N; reflexivity).
  - destruct x as [[|] x]; cbn [fst] in *; [|rewrite andb_false_r in N; exfalso; apply N; reflexivity].
    destruct (Nat.eqb i0 i) eqn:M; [|exfalso; apply N; reflexivity]. apply Nat.eqb_eq in M. subst i0.
    destruct R as [n ->]. eexists. constructor.
  - destruct (Nat.eqb i0 i) eqn:M; [|exfalso; apply N; reflexivity]. apply Nat.eqb_eq in M. subst i0.
    destruct R as (ar & n & ->). eexists. constructor.
Qed.
Lemma rmw_own d c v : rmw d c v -> exists p, c = emit b l p /\ SpecFence.own p Rd /\ SpecFence.own p Wr.
Proof. intros R. destruct R; eexists; repeat split; reflexivity. Qed.
Lemma rmw_T t n x c : step T t n x c -> x <> Rest ->
  exists d v, nth_error (steps (threads t)) n = Some (Some d, c) /\ x = role_of i d /\ rmw d c v /\ fits i (inside (map fst (firstn n (T t)))) d.
Proof.
  intros S N. apply step_T in S. destruct S as ([d|] & H & ->); [|exfalso; apply N; reflexivity]. cbn [role_at fst] in N.
  destruct (role_rmw d c N (rendered_T t n d c H)) as [v R]. exists d, v. split; [exact H|]. split; [reflexivity|]. split; [exact R|].
  apply (fits_T t n d c H).
Qed.

Lemma hyp_rest : forall t n c j x, step T t n Rest c -> nth_error c j = Some (Access x) -> a_kind x = Wr -> a_loc x <> l.
Proof.
  intros t n c j x S. apply step_T in S. destruct S as ([d|] & H & R).
  - pose proof (rendered_T t n d c H) as K. cbn [role_at fst] in R. revert j x. change (keeps_off l c).
    destruct d as [a x]. destruct a; cbn [renders] in K; try exact K; cbn [role_of] in R.
    + destruct (Nat.eqb i0 i); [|exact K]. destruct K as [q ->]. apply (no_write_off b m); [exact B|exact I].
    + destruct (Nat.eqb i0 i); [|exact K]. destruct x as [[|] x]; cbn [fst andb] in *.
      * exfalso. destruct (_ && _) in R; [discriminate R|]. destruct (_ && _) in R; discriminate R.
      * destruct K as [q ->]. apply (no_write_off b m); [exact B|exact I].
    + destruct (Nat.eqb i0 i); [discriminate R|exact K].
  - exact (rendered_user t n c H j x).
Qed.
Lemma hyp_one : forall t n x c, step T t n x c -> x <> Rest ->
  exists w a, nth_error c w = Some (Access a) /\ a_kind a = Wr /\ a_loc a = l /\ forall w', accesses_of c Wr w' -> w' = w.
Proof.
  intros t n x c S N. destruct (rmw_T t n x c S N) as (d & v & _ & _ & R & _). destruct (rmw_own d c v R) as (p & -> & _ & O).
  destruct (emits_own b l p Wr O) as (w & a & A1 & A2 & A3). exists w, a. repeat split; auto. intros w' W.
  apply (one_write b l p w' w O W). exists a. auto.
Qed.
Lemma hyp_read : forall t n x c, step T t n x c -> x = Take \/ x = Keep -> exists r, last_read c r.
Proof.
  intros t n x c S N. destruct (rmw_T t n x c S ltac:(destruct N; subst; discriminate)) as (d & v & _ & _ & R & _).
  destruct (rmw_own d c v R) as (p & -> & O & _). destruct (emits_own b l p Rd O) as (w & a & A1 & A2 & A3).
  apply (last_read_exists _ w). exists a. auto.
Qed.
Lemma works t n d c r w : nth_error (steps (threads t)) n = Some (Some d, c) -> last_read c r -> accesses_of c Wr w ->
  match d with
  | existT _ (MCas _ j e v _ _) x =>
      j = i -> fst (x : bool * Z) = true ->
      atomic_at (fun t => cat (T t)) time l t (off (T t) n + r) (off (T t) n + w) /\
      finds (fun t => cat (T t)) time leaves l (time t (off (T t) n + r)) (negb (Z.odd e)) /\ val t (off (T t) n + w) = v
  | existT _ (MOr j v _) _ =>
      j = i ->
      atomic_at (fun t => cat (T t)) time l t (off (T t) n + r) (off (T t) n + w) /\
      exists z, finds (fun t => cat (T t)) time leaves l (time t (off (T t) n + r)) (negb (Z.odd z)) /\ val t (off (T t) n + w) = Z.lor z v
  | _ => True
  end.
Proof.
  intros H R W. pose proof (eo_word _ _ _ _ _ _ _ _ _ _ E t n (off (T t) n) d c r w (step_at_T t n _ c H) R W) as K. cbv zeta in K.
  assert (F : forall now z, word_is (fun t => code_of (threads t)) time val l now z -> finds (fun t => cat (T t)) time leaves l now (negb (Z.odd z))).
  { intros now z (y & G & ->). exists y. split; [|destruct y as [[u j]|]; reflexivity].
    unfold gets, writes_to in *. destruct y as [y|].
    - rewrite code_T. destruct G as (G1 & G2 & G3). split; [exact G1|]. split; [exact G2|]. intros q Q. apply G3. now rewrite code_T in Q.
    - intros q Q. apply G. now rewrite code_T in Q. }
  assert (A : forall r w, atomic_at (fun t => code_of (threads t)) time l t r w -> atomic_at (fun t => cat (T t)) time l t r w).
  { intros r' w' (A1 & A2). split; [exact A1|]. intros q Q. apply A2. unfold writes_to in *. now rewrite code_T in Q. }
  destruct d as [a x]; destruct a; auto.
  - intros -> X. destruct (K eq_refl X) as (K1 & K2 & K3). auto.
  - intros ->. destruct (K eq_refl) as (K1 & z & K2 & K3). split; [auto|]. exists z. auto.
Qed.
Lemma hyp_atomic : forall t n x c r w, step T t n x c -> x = Take \/ x = Keep -> last_read c r -> accesses_of c Wr w ->
  atomic_at (fun t => cat (T t)) time l t (off (T t) n + r) (off (T t) n + w).
Proof.
  intros t n x c r w S N R W. destruct (rmw_T t n x c S ltac:(destruct N; subst; discriminate)) as (d & v & H & _ & M & _).
  pose proof (works t n d c r w H R W) as K. destruct M; cbn in K; [destruct (K eq_refl eq_refl) as [A _]|destruct (K eq_refl) as [A _]]; exact A.
Qed.
Lemma take_facts t n c d : step T t n Take c -> nth_error (steps (threads t)) n = Some (Some d, c) ->
  exists wk e v so fo x q, d = existT presp (MCas wk i e v so fo) (true, x) /\ c = emit b l (OCas true q so fo) /\
    Z.odd e = false /\ Z.odd v = true /\ acq_b so = true.
Proof.
  intros S H. destruct (rmw_T t n Take c S ltac:(discriminate)) as (d' & v & H' & R & M & F). rewrite H in H'. injection H' as <-.
  unfold fits in F. rewrite <- R in F. destruct F as [_ F]. destruct M as [wk e v so fo x q|v o x ar q].
  - cbn [role_of] in R. rewrite Nat.eqb_refl in R. cbn [fst andb] in R. destruct (Z.odd e) eqn:Oe; destruct (Z.odd v) eqn:Ov; cbn [negb andb] in R.
    + rewrite andb_false_r in R. discriminate R.
    + destruct (rel_b so); discriminate R.
    + exists wk, e, v, so, fo, x, q. repeat split; auto.
    + destruct (rel_b so); discriminate R.
  - destruct F.
Qed.
Lemma hyp_free : forall t n c r, step T t n Take c -> last_read c r -> finds (fun t => cat (T t)) time leaves l (time t (off (T t) n + r)) true.
Proof.
  intros t n c r S R. destruct (rmw_T t n Take c S ltac:(discriminate)) as (d & v & H & _).
  destruct (hyp_one t n Take c S ltac:(discriminate)) as (w & a & W1 & W2 & _ & _).
  destruct (take_facts t n c d S H) as (wk & e & v' & so & fo & x & q & -> & -> & Oe & Ov & A).
  destruct (works t n _ _ r w H R ltac:(exists a; auto) eq_refl eq_refl) as (_ & K & _). rewrite Oe in K. exact K.
Qed.
Lemma hyp_held : forall t n c w, step T t n Take c -> accesses_of c Wr w -> leaves t (off (T t) n + w) = false.
Proof.
  intros t n c w S W. destruct (rmw_T t n Take c S ltac:(discriminate)) as (d & v & H & _).
  destruct (hyp_read t n Take c S ltac:(auto)) as [r R].
  destruct (take_facts t n c d S H) as (wk & e & v' & so & fo & x & q & -> & -> & Oe & Ov & A).
  destruct (works t n _ _ r w H R W eq_refl eq_refl) as (_ & _ & K). unfold leaves. rewrite K, Ov. reflexivity.
Qed.
Lemma hyp_keep : forall t n c r w, step T t n Keep c -> last_read c r -> accesses_of c Wr w ->
  finds (fun t => cat (T t)) time leaves l (time t (off (T t) n + r)) (leaves t (off (T t) n + w)).
Proof.
  intros t n c r w S R W. destruct (rmw_T t n Keep c S ltac:(discriminate)) as (d & v & H & Q & M & F).
  pose proof (works t n d c r w H R W) as K. unfold fits in F. rewrite <- Q in F. unfold leaves. destruct M; cbn [projT1] in F.
  - destruct (K eq_refl eq_refl) as (_ & K2 & ->). rewrite <- F. exact K2.
  - destruct (K eq_refl) as (_ & z & K2 & ->). rewrite odd_lor, F, orb_false_r. exact K2.
Qed.
Lemma hyp_acq : forall t n c, step T t n Take c -> acquire_operation m c.
Proof.
  intros t n c S. destruct (rmw_T t n Take c S ltac:(discriminate)) as (d & v & H & _).
  destruct (take_facts t n c d S H) as (wk & e & v' & so & fo & x & q & -> & -> & Oe & Ov & A).
  apply (acquire_here b m l q so fo B A).
Qed.
Lemma hyp_rel : forall t n c, step T t n Give c -> release_operation m c.
Proof.
  intros t n c S. destruct (rmw_T t n Give c S ltac:(discriminate)) as (d & v & H & Q & M & F).
  destruct M as [wk e v so fo x q|v o x ar q]; cbn [role_of] in Q; rewrite Nat.eqb_refl in Q; [|discriminate Q]. cbn [fst andb] in Q.
  destruct (_ && _) in Q; [discriminate Q|]. destruct (rel_b so && _) eqn:A in Q; [|discriminate Q]. apply andb_true_iff in A.
  apply (release_here b m l q so fo B (proj1 A)).
Qed.
Lemma hyp_br : forall t n c, step T t n Give c -> inside (map fst (firstn n (T t))) = true.
Proof.
  intros t n c S. destruct (rmw_T t n Give c S ltac:(discriminate)) as (d & v & H & Q & M & F).
  unfold fits in F. rewrite <- Q in F. exact F.
Qed.
Lemma to_T : together m (fun t => cat (T t)) place time.
Proof.
  destruct (eo_together _ _ _ _ _ _ _ _ _ _ E) as [A C]. constructor.
  - intros t. rewrite code_T. apply A.
  - intros t u x y. rewrite !code_T. apply C.
Qed.

(** Of two takes, one is first. *)
Theorem takes t n c u n' c' : step T t n Take c -> step T u n' Take c' -> (t, n) <> (u, n') ->
    (exists g d, closes T t n g d /\ forall x y, is_access (code_of (threads t)) x -> x < off (T t) g ->
       is_access (code_of (threads u)) y -> off (T u) n' + length c' <= y -> time t x < time u y) \/
    (exists g d, closes T u n' g d /\ forall x y, is_access (code_of (threads u)) x -> x < off (T u) g ->
       is_access (code_of (threads t)) y -> off (T t) n + length c <= y -> time u x < time t y).
Proof.
  rewrite <- !code_T.
  apply (one_first m l T place time leaves to_T hyp_rest hyp_one hyp_read hyp_atomic hyp_free hyp_held hyp_keep hyp_acq hyp_rel hyp_br).
Qed.

(** ** Calls *)
(** the [s]th step of the call, counted in the thread *)
Definition base (t n : nat) : nat := length (steps (firstn n (threads t))).
Lemma call_split t n k x tr r : call_at threads t n k x tr r ->
  threads t = firstn n (threads t) ++ Call x tr r :: skipn (S n) (threads t).
Proof. intros [H _]. now apply nth_firstn_cons. Qed.
Lemma call_steps t n k x tr r : call_at threads t n k x tr r ->
  steps (threads t) = steps (firstn n (threads t)) ++ map (fun s => (Some (fst s), snd s)) tr ++ steps (skipn (S n) (threads t)).
Proof. intros C. rewrite (call_split _ _ _ _ _ _ C) at 1. rewrite steps_app. reflexivity. Qed.
Lemma call_step t n k x pre d c post r : call_at threads t n k x (pre ++ (d, c) :: post) r ->
  nth_error (steps (threads t)) (base t n + length pre) = Some (Some d, c) /\
  off (T t) (base t n + length pre) = k + length (call_code pre).
Proof.
  intros C. pose proof (call_steps _ _ _ _ _ _ C) as S. destruct C as [_ ->]. split.
  - rewrite S, nth_error_app2 by (unfold base; lia). unfold base. replace (_ + _ - _) with (length pre) by lia.
    rewrite nth_error_app1 by (rewrite map_length, app_length; cbn; lia). rewrite map_app, nth_error_app2 by (rewrite map_length; lia).
    rewrite map_length, Nat.sub_diag. reflexivity.
  - unfold T. rewrite off_roled, S. unfold base. rewrite firstn_app, firstn_all2 by lia.
    replace (_ + _ - _) with (length pre) by lia. unfold code_of_steps. rewrite map_app, concat_app, app_length. f_equal.
    rewrite map_app, <- app_assoc, firstn_app, firstn_all2 by (rewrite map_length; lia). rewrite map_length, Nat.sub_diag. cbn [firstn].
    rewrite app_nil_r, map_map. reflexivity.
Qed.
Lemma call_code_app p q : call_code (p ++ q) = call_code p ++ call_code q.
Proof. unfold call_code. now rewrite map_app, concat_app. Qed.
Lemma base_mono t n n' : n <= n' -> base t n <= base t n'.
Proof.
  intros L. unfold base. replace (firstn n (threads t)) with (firstn n (firstn n' (threads t))) by (rewrite firstn_firstn; f_equal; lia).
  rewrite <- (firstn_skipn n (firstn n' (threads t))) at 2. rewrite steps_app, app_length. lia.
Qed.
Lemma base_next t n k x tr r : call_at threads t n k x tr r -> base t (S n) = base t n + length tr.
Proof.
  intros [H _]. unfold base. rewrite (firstn_snoc _ _ _ H), steps_app, app_length. f_equal. unfold steps. cbn. rewrite app_nil_r. apply map_length.
Qed.
(** steps of different calls are different *)
Lemma calls_apart t n k x tr r s u n' k' x' tr' r' s' :
  call_at threads t n k x tr r -> call_at threads u n' k' x' tr' r' -> s < length tr -> s' < length tr' ->
  (t, n) <> (u, n') -> (t, base t n + s) <> (u, base u n' + s').
Proof.
  intros C C' L L' N Q. injection Q as <- Q. pose proof (base_next _ _ _ _ _ _ C) as X. pose proof (base_next _ _ _ _ _ _ C') as X'.
  destruct (Nat.lt_trichotomy n n') as [Z|[Z|Z]].
  - pose proof (base_mono t (S n) n' Z). lia.
  - congruence.
  - pose proof (base_mono t (S n') n Z). lia.
Qed.
Lemma call_runs t n k x tr r : call_at threads t n k x tr r -> path (pool_impl pl D x) (map fst tr) r.
Proof.
  intros C. pose proof (eo_runs _ _ _ _ _ _ _ _ _ _ E t) as R. rewrite (call_split _ _ _ _ _ _ C) in R.
  apply (runs_app pl D i (eo_lock _ _ _ _ _ _ _ _ _ _ E)) in R; [|discriminate]. destruct R as (_ & R & _). exact (proj1 R).
Qed.

(** a complete call that uses the lock takes it *)
Lemma call_takes t n k x tr r : call_at threads t n k x tr (Some r) -> uses pl D i x ->
  exists s c, s < length tr /\ step T t (base t n + s) Take c /\ k <= off (T t) (base t n + s) /\
    off (T t) (base t n + s) + length c <= k + length (call_code tr).
Proof.
  intros C U. pose proof (call_runs _ _ _ _ _ _ C) as P.
  destruct (tri_uses i pl (eo_lock _ _ _ _ _ _ _ _ _ _ E) D x false U _ _ P) as [_ K]. specialize (K r eq_refl).
  destruct (took_take i _ _ K) as [Z|(p & d & q & Z & R)]; [discriminate Z|].
  apply map_eq_app in Z. destruct Z as (pre & q' & -> & Ep & Z). apply map_eq_cons in Z. destruct Z as ([d' c] & post & -> & Ed & _).
  cbn [fst] in Ed. subst d'. destruct (call_step _ _ _ _ _ _ _ _ _ C) as [H O]. exists (length pre), c. split; [rewrite app_length; cbn; lia|].
  split; [apply step_T; exists (Some d); split; [exact H|symmetry; exact R]|]. rewrite O, call_code_app, app_length.
  unfold call_code at 4. cbn. rewrite app_length. lia.
Qed.
Theorem calls_ordered t n k x tr r u n' k' x' tr' r' :
  call_at threads t n k x tr (Some r) -> uses pl D i x -> call_at threads u n' k' x' tr' (Some r') -> uses pl D i x' -> (t, n) <> (u, n') ->
  ordered threads time t k u k' tr' \/ ordered threads time u k' t k tr.
Proof.
  intros C U C' U' N. destruct (call_takes _ _ _ _ _ _ C U) as (s & c & L & S & O & O'). destruct (call_takes _ _ _ _ _ _ C' U') as (s' & c' & L' & S' & P & P').
  destruct (takes _ _ _ _ _ _ S S' (calls_apart _ _ _ _ _ _ _ _ _ _ _ _ _ _ C C' L L' N)) as [(g & d & (G & _) & K)|(g & d & (G & _) & K)]; [left|right].
  - intros a a' A La A' La'. apply K; auto; [|lia]. pose proof (off_mono (T t) _ g (Nat.lt_le_incl _ _ G)). lia.
  - intros a a' A La A' La'. apply K; auto; [|lia]. pose proof (off_mono (T u) _ g (Nat.lt_le_incl _ _ G)). lia.
Qed.

(** a byte access is in a section *)
Lemma byte_inside t n k x tr r a : call_at threads t n k x tr r -> byte_access i k tr a ->
  exists s c0 s' c', s < s' < length tr /\ step T t (base t n + s) Take c0 /\ k <= off (T t) (base t n + s) /\
    off (T t) (base t n + s) + length c0 <= k + length (call_code tr) /\
    step T t (base t n + s') Rest c' /\ (forall y z d, base t n + s < y < base t n + s' -> step T t y z d -> z = Keep \/ z = Rest) /\
    off (T t) (base t n + s') <= a < off (T t) (base t n + s') + length c' /\ is_access (code_of (threads t)) a /\
    exists d, nth_error tr s' = Some (d, c') /\ on_bytes i d.
Proof.
  intros C (pre & d & c & post & j & -> & O & J & ->). pose proof (call_runs _ _ _ _ _ _ C) as P.
  destruct (call_scan pl D i (eo_lock _ _ _ _ _ _ _ _ _ _ E) x _ _ false P) as [Sc _]. rewrite map_app in Sc. cbn [map fst] in Sc.
  apply scan_app in Sc. destruct Sc as [_ [F _]].
  assert (R : role_of i d = Rest) by (destruct d as [[] ?]; cbn in O |- *; try destruct O; reflexivity).
  assert (G : guards i (projT1 d) = true) by (destruct d as [[] ?]; cbn in O |- *; try destruct O; apply Nat.eqb_refl).
  unfold fits in F. rewrite R in F. specialize (F G). rewrite final_fst in F. cbn [fst] in F. change (inside (map (role_of i) (map fst pre)) = true) in F.
  destruct (last_take _ F) as (p & q & Z & Q). rewrite map_map in Z. apply map_eq_app in Z. destruct Z as (p1 & q1 & -> & Ep & Z).
  apply map_eq_cons in Z. destruct Z as ([d0 c0] & q2 & -> & Ed & Eq). cbn [fst] in Ed.
  destruct (call_step _ _ _ _ _ _ _ _ _ C) as [H1 O1]. pose proof C as C2. rewrite <- app_assoc in C2. cbn [app] in C2.
  destruct (call_step _ _ _ _ _ _ _ _ _ C2) as [H2 O2].
  exists (length p1), c0, (length (p1 ++ (d0, c0) :: q2)), c. split; [rewrite !app_length; cbn; lia|].
  split; [apply step_T; exists (Some d0); split; [exact H2|symmetry; exact Ed]|]. split; [lia|].
  split; [rewrite O2, !call_code_app, !app_length; unfold call_code at 4; cbn; rewrite app_length; lia|].
  split; [apply step_T; exists (Some d); split; [exact H1|symmetry; exact R]|]. split.
  - intros y z e L Sy. apply step_T in Sy. destruct Sy as (o & Sy & ->).
    assert (Y : exists f, y = base t n + length p1 + 1 + f /\ f < length q2) by (exists (y - base t n - length p1 - 1); rewrite app_length in L; cbn in L; lia).
    destruct Y as (f & -> & Lf). destruct (nth_error q2 f) as [[d3 c3]|] eqn:Hf; [|apply nth_error_None in Hf; lia].
    pose proof (nth_firstn_cons _ _ _ Hf) as Sf. pose proof C2 as C3.
    assert (Z : p1 ++ (d0, c0) :: q2 ++ (d, c) :: post = (p1 ++ (d0, c0) :: firstn f q2) ++ (d3, c3) :: skipn (S f) q2 ++ (d, c) :: post).
    { rewrite Sf at 1. repeat (rewrite <- app_assoc; cbn [app]). reflexivity. }
    rewrite Z in C3.
    destruct (call_step _ _ _ _ _ _ _ _ _ C3) as [H3 _]. rewrite app_length in H3. cbn [length] in H3. rewrite firstn_length_le in H3 by lia.
    replace (base t n + (length p1 + S f)) with (base t n + length p1 + 1 + f) in H3 by lia. rewrite Sy in H3. injection H3 as -> ->. cbn [role_at fst].
    rewrite Forall_forall in Q. apply Q. rewrite <- Eq. apply in_map_iff. exists (d3, c3). split; [reflexivity|]. exact (nth_error_In _ _ Hf).
  - destruct J as [y J]. split.
    + rewrite O1. pose proof (proj1 (nth_error_Some c j) ltac:(congruence)). lia.
    + split.
      * exists y. rewrite <- code_T. rewrite <- O1. apply (cat_in (T t) _ (role_at i (Some d, c)) c j); [|exact J].
        apply step_T. exists (Some d). auto.
      * exists d. split; [|exact O]. rewrite nth_error_app2, Nat.sub_diag by lia. reflexivity.
Qed.
Lemma closes_after t n g d s : closes T t n g d -> (exists c, step T t s Rest c) -> (forall y z e, n < y < s -> step T t y z e -> z = Keep \/ z = Rest) -> s < g.
Proof.
  intros (A & G & _) [c S] F. destruct (Nat.lt_trichotomy s g) as [H|[H|H]]; [exact H| |].
  - subst g. unfold step in *. congruence.
  - destruct (F g Give d ltac:(lia) G); discriminate.
Qed.
Theorem bytes_ordered t n k x tr r a u n' k' x' tr' r' a' :
  call_at threads t n k x tr r -> byte_access i k tr a -> call_at threads u n' k' x' tr' r' -> byte_access i k' tr' a' -> (t, n) <> (u, n') ->
  time t a < time u a' -> ordered threads time t k u k' tr'.
Proof.
  intros C A C' A' N L. destruct (byte_inside _ _ _ _ _ _ _ C A) as (s & c & s1 & c1 & L1 & S & K1 & K2 & S1 & F & X & Y & _).
  destruct (byte_inside _ _ _ _ _ _ _ C' A') as (s' & c' & s1' & c1' & L1' & S' & K1' & K2' & S1' & F' & X' & Y' & _).
  destruct (takes _ _ _ _ _ _ S S' (calls_apart _ _ _ _ _ _ s _ _ _ _ _ _ s' C C' ltac:(lia) ltac:(lia) N)) as [(g & d & G & K)|(g & d & G & K)].
  - intros b0 b' B0 Lb B' Lb'. apply K; auto; [|lia]. pose proof (proj1 G) as Lg. pose proof (off_mono (T t) _ g (Nat.lt_le_incl _ _ Lg)). lia.
  - exfalso. pose proof (closes_after u _ g d _ G (ex_intro _ c1' S1') F') as Lg.
    pose proof (off_lt (T u) _ g _ _ S1' Lg). pose proof (off_lt (T t) (base t n + s) (base t n + s1) Take c S ltac:(lia)).
    pose proof (K a' a Y' ltac:(lia) Y ltac:(lia)). lia.
Qed.

(** ** Calls with one section *)
Lemma one_body x tr r : one_section D x -> path (pool_impl pl D x) tr r ->
  exists t1 t2 t3, tr = t1 ++ t2 ++ t3 /\ Forall (fun d => ~ on_bytes i d) t1 /\ Forall (fun d => role_of i d = Rest) t2 /\
    Forall (fun d => ~ on_bytes i d) t3.
Proof.
  intros [W O] P. pose proof (eo_lock _ _ _ _ _ _ _ _ _ _ E) as Hlk.
  assert (X : exists (body : pprog aret), pool_impl pl D x = scoped pl (D (fst x)) body /\ only (fun d => role_of i d = Rest) body).
  { unfold pool_impl, obj_prog, d_locked. rewrite W. destruct (snd x) as [o|f g| | | | |]; try destruct O; eexists; (split; [reflexivity|]).
    - apply only_bind; [apply only_emu_body|]. intros y. apply only_ret.
    - apply only_bind; [apply only_emu_upd|]. intros y. apply only_ret. }
  destruct X as (body & Eq & OB). rewrite Eq in P. unfold scoped in P. rewrite Hlk in P. apply path_bind in P.
  destruct P as [[-> P]|(t1 & tr' & u & -> & P1 & P)].
  - exists tr, [], []. rewrite !app_nil_r. split; [reflexivity|]. split; [exact (only_spin i 10 _ _ _ P)|]. split; constructor.
  - pose proof (only_spin i 10 _ _ _ P1) as F1. apply path_bind in P. destruct P as [[-> P]|(t2 & t3 & v & -> & P2 & P)].
    + exists t1, tr', []. rewrite app_nil_r. split; [reflexivity|]. split; [exact F1|]. split; [exact (OB _ _ P)|constructor].
    + exists t1, t2, t3. split; [reflexivity|]. split; [exact F1|]. split; [exact (OB _ _ P2)|].
      refine (only_bind _ _ _ _ _ _ _ P); [apply only_unlock|]. intros y. apply only_ret.
Qed.
Lemma same_take t n k x tr r a a1 : call_at threads t n k x tr r -> one_section D x -> byte_access i k tr a -> byte_access i k tr a1 ->
  exists s c, s < length tr /\ step T t (base t n + s) Take c /\
    (off (T t) (base t n + s) + length c <= a /\ is_access (code_of (threads t)) a /\ forall g d, closes T t (base t n + s) g d -> a < off (T t) g) /\
    (off (T t) (base t n + s) + length c <= a1 /\ is_access (code_of (threads t)) a1 /\ forall g d, closes T t (base t n + s) g d -> a1 < off (T t) g).
Proof.
  intros C O A A1. destruct (byte_inside _ _ _ _ _ _ _ C A) as (s & c & s' & c' & L & S & _ & _ & S' & F & X & Y & d & H & Bd).
  destruct (byte_inside _ _ _ _ _ _ _ C A1) as (q & e & q' & e' & L1 & Q & _ & _ & Q' & F1 & X1 & Y1 & d1 & H1 & Bd1).
  destruct (one_body x _ _ O (call_runs _ _ _ _ _ _ C)) as (t1 & t2 & t3 & Eq & N1 & N2 & N3).
  assert (In2 : forall s d c, nth_error tr s = Some (d, c) -> on_bytes i d -> length t1 <= s < length t1 + length t2).
  { intros s0 d0 c0 Hs Bs. apply (map_nth_error fst) in Hs. rewrite Eq in Hs. cbn [fst] in Hs. rewrite Forall_forall in N1, N3.
    destruct (Nat.lt_ge_cases s0 (length t1)) as [Z|Z].
    - rewrite nth_error_app1 in Hs by exact Z. destruct (N1 d0 (nth_error_In _ _ Hs) Bs).
    - split; [exact Z|]. destruct (Nat.lt_ge_cases s0 (length t1 + length t2)) as [Z'|Z']; [exact Z'|].
      rewrite nth_error_app2, nth_error_app2 in Hs by lia. destruct (N3 d0 (nth_error_In _ _ Hs) Bs). }
  assert (Out2 : forall s c, s < length tr -> step T t (base t n + s) Take c -> ~ length t1 <= s < length t1 + length t2).
  { intros s0 c0 Ls Hs Z. destruct (nth_error tr s0) as [[d0 c2]|] eqn:Ht; [|apply nth_error_None in Ht; lia].
    pose proof (nth_firstn_cons _ _ _ Ht) as Sp. pose proof C as C0. rewrite Sp in C0. destruct (call_step _ _ _ _ _ _ _ _ _ C0) as [Hst _].
    rewrite firstn_length_le in Hst by lia. apply step_T in Hs. destruct Hs as (o & Ho & R). rewrite Hst in Ho. injection Ho as <- <-.
    cbn [role_at fst] in R. apply (map_nth_error fst) in Ht. rewrite Eq in Ht. cbn [fst] in Ht.
    rewrite nth_error_app2 in Ht by lia. rewrite nth_error_app1 in Ht by lia. rewrite Forall_forall in N2.
    rewrite (N2 d0 (nth_error_In _ _ Ht)) in R. discriminate R. }
  pose proof (In2 _ _ _ H Bd) as I1. pose proof (In2 _ _ _ H1 Bd1) as I2.
  pose proof (Out2 s c ltac:(lia) S) as Z1. pose proof (Out2 q e ltac:(lia) Q) as Z2.
  assert (Es : s = q).
  { destruct (Nat.lt_trichotomy s q) as [Z|[Z|Z]]; [exfalso|exact Z|exfalso].
    - destruct (F (base t n + q) Take e ltac:(lia) Q); discriminate.
    - destruct (F1 (base t n + s) Take c ltac:(lia) S); discriminate. }
  subst q. assert (Ec : c = e) by (unfold step in S, Q; congruence). subst e.
  exists s, c. split; [lia|]. split; [exact S|]. split.
  - split; [pose proof (off_lt (T t) _ (base t n + s') _ _ S ltac:(lia)); lia|]. split; [exact Y|]. intros g h G.
    pose proof (closes_after t _ g h _ G (ex_intro _ c' S') F) as Lg. pose proof (off_lt (T t) _ g _ _ S' Lg). lia.
  - split; [pose proof (off_lt (T t) _ (base t n + q') _ _ S ltac:(lia)); lia|]. split; [exact Y1|]. intros g h G.
    pose proof (closes_after t _ g h _ G (ex_intro _ e' Q') F1) as Lg. pose proof (off_lt (T t) _ g _ _ Q' Lg). lia.
Qed.
Theorem bytes_together t n k x tr r a a1 u n' k' x' tr' r' a' a1' :
  call_at threads t n k x tr r -> one_section D x -> byte_access i k tr a -> byte_access i k tr a1 ->
  call_at threads u n' k' x' tr' r' -> one_section D x' -> byte_access i k' tr' a' -> byte_access i k' tr' a1' -> (t, n) <> (u, n') ->
  time t a < time u a' -> time t a1 < time u a1'.
Proof.
  intros C O A A1 C' O' A' A1' N L.
  destruct (same_take _ _ _ _ _ _ _ _ C O A A1) as (s & c & Ls & S & (P1 & P2 & P3) & (Q1 & Q2 & Q3)).
  destruct (same_take _ _ _ _ _ _ _ _ C' O' A' A1') as (s' & c' & Ls' & S' & (P1' & P2' & P3') & (Q1' & Q2' & Q3')).
  destruct (takes _ _ _ _ _ _ S S' (calls_apart _ _ _ _ _ _ s _ _ _ _ _ _ s' C C' Ls Ls' N)) as [(g & d & G & K)|(g & d & G & K)].
  - apply K; auto. apply (Q3 g d G).
  - exfalso. pose proof (K a' a P2' (P3' g d G) P2 P1). lia.
Qed.
End Exec.

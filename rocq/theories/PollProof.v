(** * Polling waits: bounded numbers of steps. *)
From Coq Require Import ZArith List Bool Arith Lia.
From Verif Require Import SpecInt SpecTyped SpecLin SpecObj SpecBytes SpecPool Conv Prog RG SleepLogic FindModel RecordsModel PoolModel PoolFront SpecSleep.
Import ListNotations.
Open Scope Z_scope.

Section Poll.
  Variables (search : Z -> list Z -> nat -> option nat) (init : nat).
  Notation exec := (pexec search init).
  Context {R : Type}.
  Notation prog := (pprog R).
  Variable t : nat.

  (** [p] returns within [n] steps of its own, if [Q] holds at each of them *)
  Fixpoint within (Q : pmem -> Prop) (n : nat) (p : prog) : Prop :=
    match p with
    | Ret _ => True
    | Do a k =>
        match n with
        | O => False
        | S n => forall m w, Q m -> exists m' x, exec t a m w = Some (m', x) /\ within Q n (k x)
        end
    | Loop body s k =>
        match n with
        | O => False
        | S n => within Q n (bind (body s) (fun y => match y with inl s' => Loop body s' k | inr b => k b end))
        end
    end.
  (** ... whatever steps it has already made *)
  Definition succ (p q : prog) : Prop :=
    match p with
    | Ret _ => False
    | Do a k => exists x, q = k x
    | Loop body s k => q = bind (body s) (fun y => match y with inl s' => Loop body s' k | inr b => k b end)
    end.
  CoInductive always (P : prog -> Prop) (p : prog) : Prop :=
  | alw : P p -> (forall q, succ p q -> always P q) -> always P p.
  Lemma always_now P p : always P p -> P p.
  Proof. now destruct 1. Qed.
  Lemma always_step P p w m : always P p -> always P (snd (pstep exec t w m p)).
  Proof.
    intros H. pose proof H as H'. destruct H as [_ H]. destruct p as [r|a k|S B body s k]; [exact H'| |apply H; reflexivity].
    cbn. destruct (exec t a m w) as [[m' x]|]; [apply H; cbn; eauto | exact H'].
  Qed.
  Lemma within_ret Q n r : within Q n (Ret r).
  Proof. now destruct n. Qed.
  Lemma within_step Q n p w m : within Q n p -> Q m -> within Q (pred n) (snd (pstep exec t w m p)).
  Proof.
    intros H Hm. destruct p as [r|a k|S B body s k]; [apply within_ret| |]; destruct n as [|n]; try contradiction; [|exact H].
    cbn in H. destruct (H m w Hm) as (m' & x & E & H'). cbn. rewrite E. exact H'.
  Qed.

  Context {C : Type} (impl : nat * C -> prog).
  Notation conf := (config pact presp pmem (nat * C) R).
  Lemma thread_step (c : conf) e o p : c_thr c t = Run o p -> e <> SRes t ->
    c_thr (fst (cstep exec impl c e)) t = Run o (match e with SStep u w => if Nat.eqb u t then snd (pstep exec t w (c_mem c) p) else p | _ => p end).
  Proof.
    intros E N. destruct e as [u x|u w|u]; cbn.
    - destruct (c_thr c u) eqn:Eu; [|exact E]. cbn. rewrite tset_neq; [exact E | congruence].
    - destruct (c_thr c u) as [|o' p'] eqn:Eu; [|].
      + destruct (Nat.eqb_spec u t) as [->|]; [congruence | exact E].
      + destruct (Nat.eqb_spec u t) as [->|Nu].
        * assert (p' = p) by congruence. subst p'. assert (o' = o) by congruence. subst o'. destruct (pstep exec t w (c_mem c) p) as [m' p']. cbn. apply tset_eq.
        * destruct (pstep exec u w (c_mem c) p') as [m' q]. cbn. rewrite tset_neq; [exact E | congruence].
    - destruct (c_thr c u) as [|o' [r|a k|S B body s k]] eqn:Eu; try exact E. cbn. rewrite tset_neq; [exact E | congruence].
  Qed.
  Notation own_steps := (own_steps t).
  Lemma always_run P l : forall (c : conf) o p, c_thr c t = Run o p -> ~ In (SRes t) l -> always P p ->
    exists p', c_thr (fst (run exec impl c l)) t = Run o p' /\ always P p'.
  Proof.
    induction l as [|e l IH]; intros c o p E N H; [exists p; auto|]. rewrite run_cons. eapply IH.
    - apply thread_step; [exact E|]. intros ->. apply N. now left.
    - intros K. apply N. now right.
    - destruct e as [u x|u w|u]; auto. destruct (Nat.eqb u t); [apply always_step|]; exact H.
  Qed.
  Lemma within_run Q n l : forall (c : conf) o p, c_thr c t = Run o p -> ~ In (SRes t) l -> within Q n p ->
    (forall l1 l2, l = l1 ++ l2 -> Q (c_mem (fst (run exec impl c l1)))) ->
    exists p', c_thr (fst (run exec impl c l)) t = Run o p' /\ within Q (n - own_steps l) p'.
  Proof.
    revert n. induction l as [|e l IH]; intros n c o p E N H HQ; [exists p; cbn; rewrite Nat.sub_0_r; auto|]. rewrite run_cons.
    pose proof (HQ [] (e :: l) eq_refl) as Q0. cbn in Q0.
    assert (HQ' : forall l1 l2, l = l1 ++ l2 -> Q (c_mem (fst (run exec impl (fst (cstep exec impl c e)) l1)))).
    { intros l1 l2 El. specialize (HQ (e :: l1) l2). rewrite run_cons in HQ. apply HQ. now rewrite El. }
    assert (N' : ~ In (SRes t) l) by (intros K; apply N; now right).
    assert (E' := thread_step c e o p E). specialize (E' ltac:(intros ->; apply N; now left)).
    unfold SpecSleep.own_steps. destruct e as [u x|u w|u]; cbn [filter]; try (eapply IH; eauto; fail).
    destruct (Nat.eqb u t) eqn:Eu; [|eapply IH; eauto]. cbn [length].
    replace (n - S _)%nat with (pred n - own_steps l)%nat by (unfold SpecSleep.own_steps; lia). eapply IH; eauto. now apply within_step.
  Qed.
  Lemma returns Q n l (c : conf) o p : c_thr c t = Run o p -> ~ In (SRes t) l -> always (within Q n) p ->
    (forall l1 l2, l = l1 ++ l2 -> Q (c_mem (fst (run exec impl c l1)))) -> (n <= own_steps l)%nat ->
    exists r, c_thr (fst (run exec impl c l)) t = Run o (Ret r).
  Proof.
    intros E N H HQ Hn. destruct (within_run Q n l c o p E N (always_now _ _ H) HQ) as (p' & E' & H').
    replace (n - own_steps l)%nat with O in H' by lia. destruct p' as [r|a k|S B body s k]; try contradiction. eauto.
  Qed.
End Poll.

Section Programs.
  Variables (search : Z -> list Z -> nat -> option nat) (init : nat).
  Notation exec := (pexec search init).
  Context {R : Type}.
  Variables (F : aret -> R) (t a : nat) (d : odesc).
  Notation wrapped p := (bind p (fun r => Ret (F r))).
  Notation within := (@within search init R t).
  Notation always := (@always R).
  Definition changed (old : Z) (m : pmem) : Prop := cel m a <> old.
  Definition past (L : Z) (m : pmem) : Prop := L <= clk m.

  Ltac win :=
    repeat (cbn - [Z.sub Z.leb Z.eqb Z.max Z.add];
            lazymatch goal with
            | |- True => exact I
            | |- forall m w, _ -> _ => intros ? ? ?; do 2 eexists; split; [reflexivity|]
            | |- context [if ?b then _ else _] => destruct b eqn:?
            end);
    unfold changed, past in *; try (exfalso; lia).
  Ltac nxt := apply alw; [win | intros ?q ?Hq; cbn - [Z.sub Z.leb Z.eqb Z.max Z.add] in *;
      first [contradiction | match goal with H : exists _, _ |- _ => destruct H as [?x ->] | H : _ = _ |- _ => rewrite H end];
      cbn - [Z.sub Z.leb Z.eqb Z.max Z.add within]].

  Definition poll_slow (old : Z) : pprog aret :=
    loop tt (fun _ => pdo Pause ;;; new <- ld d a ;; (if new =? old then Ret (inl tt) else Ret (inr (RWaited new false))))%prog.
  Lemma slow_ok old : always (within (changed old) 3) (wrapped (poll_slow old)).
  Proof.
    cofix CH. unfold poll_slow, loop. nxt. nxt. nxt. destruct (_ =? old); [exact CH|]. nxt.
  Qed.
  Lemma fast_ok old n : always (within (changed old) 3) (wrapped (poll_fast d a n old (poll_slow old))).
  Proof.
    induction n as [|n IH]; [exact (slow_ok old)|]. cbn [poll_fast].
    nxt. nxt. destruct (_ =? old); [exact IH|]. nxt.
  Qed.
  Lemma wait_ok old : always (within (changed old) 3) (wrapped (poll_wait d a old)).
  Proof.
    unfold poll_wait. fold (poll_slow old). unfold ld at 1. nxt. destruct (_ =? old); [exact (fast_ok old 16)|]. nxt.
  Qed.

  Definition poll_slow_timed (old L now : Z) : pprog aret :=
    loop now (fun now =>
      if 0 <=? now - L then Ret (inr (RWaited old true))
      else
        (pdo Pause ;;;
         now <- pdo Now ;;
         new <- ld d a ;;
         if new =? old then Ret (inl (now : Z)) else Ret (inr (RWaited new false))))%prog.
  Lemma slow_timed_changed old L now : always (within (changed old) 4) (wrapped (poll_slow_timed old L now)).
  Proof.
    revert now. cofix CH. intros now. unfold poll_slow_timed, loop. nxt. destruct (0 <=? now - L); cbn; [nxt|].
    nxt. nxt. nxt. destruct (_ =? old); cbn; [exact (CH _)|]. nxt.
  Qed.
  Lemma slow_timed_past old L now : always (within (past L) 6) (wrapped (poll_slow_timed old L now)).
  Proof.
    revert now. cofix CH. intros now. unfold poll_slow_timed, loop. nxt. destruct (0 <=? now - L); cbn; [nxt|].
    nxt. nxt. nxt. destruct (_ =? old); cbn; [exact (CH _)|]. nxt.
  Qed.
  Lemma fast_timed_changed old L n : forall now, always (within (changed old) 4) (wrapped (poll_fast_timed d a n old L now (poll_slow_timed old L))).
  Proof.
    induction n as [|n IH]; intros now; [exact (slow_timed_changed old L now)|]. cbn [poll_fast_timed]. destruct (0 <=? now - L); cbn; [nxt|].
    nxt. nxt. nxt. destruct (_ =? old); [exact (IH _)|]. nxt.
  Qed.
  Lemma fast_timed_past old L n : forall now, always (within (past L) 6) (wrapped (poll_fast_timed d a n old L now (poll_slow_timed old L))).
  Proof.
    induction n as [|n IH]; intros now; [exact (slow_timed_past old L now)|]. cbn [poll_fast_timed]. destruct (0 <=? now - L); cbn; [nxt|].
    assert (D : n = 0%nat \/ exists n', n = S n') by (destruct n; eauto).
    destruct D as [->|(n' & ->)].
    - nxt. nxt. nxt. destruct (_ =? old); [exact (IH _)|]. nxt.
    - assert (D : n' = 0%nat \/ exists n2, n' = S n2) by (destruct n'; eauto).
      destruct D as [->|(n2 & ->)]; nxt; nxt; nxt; (destruct (_ =? old); [exact (IH _) | nxt]).
  Qed.
  Definition deadline_at (k : tkind) (limit now : Z) : Z := match k with WaitFor => now + limit | _ => limit end.
  (** the first step of a timed wait reads the clock *)
  Lemma timed_ok k old limit : exists K : Z -> pprog R, wrapped (poll_timed d a k old limit) = Do Now K /\
    forall now, always (within (changed old) 4) (K now) /\ always (within (past (deadline_at k limit now)) 6) (K now).
  Proof.
    unfold poll_timed, deadline_at. eexists. split; [reflexivity|]. intros now. cbn beta iota. fold pprog.
    split; cbn [bind pdo do]; set (L := match k with WaitFor => now + limit | _ => limit end).
    - fold (poll_slow_timed old L). unfold ld at 1. nxt. destruct (_ =? old); [exact (fast_timed_changed old L 16 now)|]. nxt.
    - fold (poll_slow_timed old L). unfold ld at 1. nxt. destruct (_ =? old); [exact (fast_timed_past old L 16 now)|]. nxt.
  Qed.
End Programs.

Section Typed.
  Variables (pl : platform) (T : nat -> tobj) (m : pmem).
  Notation exec := (pexec (pl_search pl) (pl_init pl)).
  Notation impl := (t_impl pl T).
  Notation final l := (fst (t_run pl T m l)).
  Notation conf := (config pact presp pmem (nat * tcall) tret).

  Lemma clock_step t a m1 w m2 x : exec t a m1 w = Some (m2, x) -> clk m1 <= clk m2.
  Proof.
    intros E. assert (G : forall j u m0, clk (guarded m1 j u m0) = clk m0) by (intros j u m0; unfold guarded; now destruct (owned m1 j u)).
    destruct a; cbn in E; try (injection E as E _; subst m2; cbn; rewrite ?G; cbn; lia).
    - destruct ((mx m1 i =? e) && (negb weak || f_lucky w)); injection E as E _; subst m2; cbn; lia.
    - destruct (fword m1 f =? v); injection E as E _; subst m2; cbn; lia.
    - destruct (asleep m1 t); [|injection E as E _; subst m2; cbn; lia]. destruct (f_spur w); [injection E as E _; subst m2; cbn; lia|].
      destruct deadline as [dl|]; [|discriminate]. destruct (dl <=? clk m1 + Z.max 0 (f_adv w)); [|discriminate]. injection E as E _; subst m2; cbn; lia.
    - destruct all; [injection E as E _; subst m2; cbn; lia|]. destruct (picked m1 f (f_pick w)); injection E as E _; subst m2; cbn; lia.
    - destruct all; [injection E as E _; subst m2; cbn; lia|]. destruct (picked m1 (FC i k) (f_pick w)); injection E as E _; subst m2; cbn; lia.
    - destruct (own m1 i); injection E as E _; subst m2; cbn; lia.
    - destruct (own m1 i); [discriminate|]. injection E as E _; subst m2; cbn; lia.
    - destruct (allocate_wait_state _ _ _ _ _ _) as [[l r]|]; injection E as E _; subst m2; cbn; rewrite ?G; cbn; lia.
    - destruct (free_wait_state _ _) as [l|]; injection E as E _; subst m2; cbn; rewrite ?G; cbn; lia.
    - destruct (find _ _ _) as [l|]; injection E as E _; subst m2; cbn; rewrite ?G; cbn; lia.
    - destruct (cleanup _) as [l|]; injection E as E _; subst m2; cbn; rewrite ?G; cbn; lia.
  Qed.
  Lemma clock_cstep (c : conf) e : clk (c_mem c) <= clk (c_mem (fst (cstep exec impl c e))).
  Proof.
    destruct e as [u o|u w|u]; cbn.
    - destruct (c_thr c u); cbn; lia.
    - destruct (c_thr c u) as [|o p]; [cbn; lia|]. destruct p as [r|act k|S0 B0 body s k]; cbn; try lia.
      destruct (exec u act (c_mem c) w) as [[m' y]|] eqn:E; cbn; [eapply clock_step; eauto | lia].
    - destruct (c_thr c u) as [|o [r|act k|S0 B0 body s k]]; cbn; lia.
  Qed.
  Lemma clock_run l : forall c : conf, clk (c_mem c) <= clk (c_mem (fst (run exec impl c l))).
  Proof. induction l as [|e l IH]; intros c; [cbn; lia|]. rewrite run_cons. pose proof (clock_cstep c e). specialize (IH (fst (cstep exec impl c e))). lia. Qed.

  (** a running call is what is left of its code *)
  Lemma left_over P o l : always P (impl o) -> forall t p, c_thr (final l) t = Run o p -> always P p.
  Proof.
    intros H t p. unfold t_run. assert (G : forall (c : conf), (forall p, c_thr c t = Run o p -> always P p) ->
      forall p, c_thr (fst (run exec impl c l)) t = Run o p -> always P p).
    { induction l as [|e l IH]; intros c Hc; [exact Hc|]. intros q. rewrite run_cons. apply IH. clear q. intros q E.
      destruct e as [u x|u w|u]; cbn in E.
      - destruct (c_thr c u) eqn:Eu; [|now apply Hc]. cbn in E. destruct (Nat.eq_dec t u) as [->|N]; [|rewrite tset_neq in E by auto; now apply Hc].
        rewrite tset_eq in E. injection E as <- <-. exact H.
      - destruct (c_thr c u) as [|o' p'] eqn:Eu; [now apply Hc|]. destruct (Nat.eq_dec t u) as [->|N].
        + pose proof (fun Ho => always_step (pl_search pl) (pl_init pl) u P p' w (c_mem c) (Hc p' Ho)) as K.
          destruct (pstep exec u w (c_mem c) p') as [m' p2]. cbn in E. rewrite tset_eq in E. injection E as -> <-. now apply K.
        + destruct (pstep exec u w (c_mem c) p') as [m' p2]. cbn in E. rewrite tset_neq in E by auto. now apply Hc.
      - destruct (c_thr c u) as [|o' [r|act k|S0 B0 body s k]] eqn:Eu; try (now apply Hc). cbn in E.
        destruct (Nat.eq_dec t u) as [->|N]; [rewrite tset_eq in E; discriminate | rewrite tset_neq in E by auto; now apply Hc]. }
    apply G. cbn. discriminate.
  Qed.
  Lemma poll_value a m1 : d_wait (t_desc (T a)) = WPoll -> value_of (fun a => t_desc (T a)) m1 a = cel m1 a.
  Proof. intros E. unfold value_of, d_locked. now rewrite E. Qed.
  Lemma poll_impl a x : d_wait (t_desc (T a)) = WPoll -> t_impl pl T (a, x) = bind (free_prog pl (t_desc (T a)) a (t_op (T a) x)) (fun r => Ret (t_ret (T a) x r)).
  Proof. intros E. unfold t_impl, obj_prog, d_locked. cbn [fst snd]. now rewrite E. Qed.

  Lemma poll_notices l1 l2 t a old : d_wait (t_desc (T a)) = WPoll ->
    running (final l1) t (a, TWait old) ->
    throughout pl impl (final l1) l2 (fun c => value_of (fun a => t_desc (T a)) (c_mem c) a <> t_enc (T a) old) ->
    ~ In (SRes t) l2 -> (3 <= own_steps t l2)%nat ->
    exists r, c_thr (fst (t_run pl T m (l1 ++ l2))) t = Run (a, TWait old) (Ret r).
  Proof.
    intros Hw (p & E) Hv N Hn. assert (A : always (within (pl_search pl) (pl_init pl) t (changed a (t_enc (T a) old)) 3) (impl (a, TWait old))).
    { rewrite poll_impl by exact Hw. unfold free_prog, t_op. rewrite Hw. apply wait_ok. }
    unfold t_run. rewrite run_app. eapply returns; eauto.
    - eapply left_over; eauto.
    - intros la lb El. specialize (Hv la lb El). cbv beta in Hv. rewrite poll_value in Hv by exact Hw. exact Hv.
  Qed.
  Lemma poll_timed_notices l1 l2 t a k old limit : d_wait (t_desc (T a)) = WPoll ->
    running (final l1) t (a, TTimed k old limit) ->
    throughout pl impl (final l1) l2 (fun c => value_of (fun a => t_desc (T a)) (c_mem c) a <> t_enc (T a) old) ->
    ~ In (SRes t) l2 -> (5 <= own_steps t l2)%nat ->
    exists r, c_thr (fst (t_run pl T m (l1 ++ l2))) t = Run (a, TTimed k old limit) (Ret r).
  Proof.
    intros Hw (p & E) Hv N Hn.
    assert (A : always (within (pl_search pl) (pl_init pl) t (changed a (t_enc (T a) old)) 5) (impl (a, TTimed k old limit))).
    { rewrite poll_impl by exact Hw. unfold free_prog, t_op. rewrite Hw.
      destruct (timed_ok (pl_search pl) (pl_init pl) (t_ret (T a) (TTimed k old limit)) t a (t_desc (T a)) k (t_enc (T a) old) limit) as (K & -> & HK).
      assert (mono : forall n (p : pprog tret), within (pl_search pl) (pl_init pl) t (changed a (t_enc (T a) old)) n p ->
                within (pl_search pl) (pl_init pl) t (changed a (t_enc (T a) old)) (S n) p).
      { induction n as [|n IH]; intros q Hq; [destruct q; [exact I|contradiction|contradiction]|].
        destruct q as [r|b kk|S0 B0 body s kk]; [exact I| |].
        - cbn in Hq |- *. intros m0 w H0. destruct (Hq m0 w H0) as (m' & x & Ex & Hx). exists m', x. split; [exact Ex|]. apply IH in Hx. exact Hx.
        - cbn in Hq. apply IH in Hq. exact Hq. }
      assert (am : forall n (p : pprog tret), always (within (pl_search pl) (pl_init pl) t (changed a (t_enc (T a) old)) n) p ->
                always (within (pl_search pl) (pl_init pl) t (changed a (t_enc (T a) old)) (S n)) p).
      { intros n. cofix CH. intros q [H1 H2]. apply alw; [now apply mono|]. intros q' Hq'. apply CH, H2, Hq'. }
      apply alw.
      - cbn -[within]. intros m0 w _. do 2 eexists. split; [reflexivity|]. apply always_now, HK.
      - intros q (x & ->). apply am, HK. }
    unfold t_run. rewrite run_app. eapply returns; eauto.
    - eapply left_over; eauto.
    - intros la lb El. specialize (Hv la lb El). cbv beta in Hv. rewrite poll_value in Hv by exact Hw. exact Hv.
  Qed.
  Lemma poll_deadline l0 t a k old limit l1 l2 l3 : d_wait (t_desc (T a)) = WPoll ->
    c_thr (final l0) t = Idle ->
    let c1 := final (l0 ++ SInv t (a, TTimed k old limit) :: l1) in
    let c2 := final (l0 ++ SInv t (a, TTimed k old limit) :: l1 ++ l2) in
    (1 <= own_steps t l1)%nat -> ~ In (SRes t) (l1 ++ l2 ++ l3) ->
    match k with WaitFor => clk (c_mem c1) + limit | _ => limit end <= clk (c_mem c2) ->
    (6 <= own_steps t l3)%nat ->
    exists r, c_thr (final (l0 ++ SInv t (a, TTimed k old limit) :: l1 ++ l2 ++ l3)) t = Run (a, TTimed k old limit) (Ret r).
  Proof.
    intros Hw Hi c1 c2 H1 N Hd H6. set (o := (a, TTimed k old limit)) in *.
    destruct (timed_ok (pl_search pl) (pl_init pl) (t_ret (T a) (TTimed k old limit)) t a (t_desc (T a)) k (t_enc (T a) old) limit) as (K & EK & HK).
    set (P := fun now => @within (pl_search pl) (pl_init pl) tret t (past (deadline_at k limit now)) 6).
    set (J := fun c : conf => exists now p, c_thr c t = Run o p /\ now <= clk (c_mem c) /\ always (P now) p).
    assert (G : forall l (c : conf), ~ In (SRes t) l -> c_thr c t = Run o (Do Now K) /\ (1 <= own_steps t l)%nat \/ J c -> J (fst (run exec impl c l))).
    { induction l as [|e l IH]; intros c Nl [[E Hn]|HJ]; [cbn in Hn; lia|exact HJ| |]; rewrite run_cons; (apply IH; [intros Q; apply Nl; now right|]).
      - pose proof (thread_step (pl_search pl) (pl_init pl) t impl c e o _ E) as S. specialize (S ltac:(intros ->; apply Nl; now left)).
        destruct e as [u x|u w|u]; [left; auto| |left; auto]. unfold own_steps in Hn. cbn [filter] in Hn. destruct (Nat.eqb_spec u t) as [Eu|Nu]; [|left; auto].
        right. subst u. cbn in S |- *. rewrite E in *. cbn in *. exists (clk (c_mem c) + Z.max 0 (f_adv w)), (K (clk (c_mem c) + Z.max 0 (f_adv w))).
        split; [exact S|]. split; [cbn; lia|]. apply HK.
      - right. destruct HJ as (now & p & E & Hnow & HA).
        pose proof (thread_step (pl_search pl) (pl_init pl) t impl c e o _ E) as S. specialize (S ltac:(intros ->; apply Nl; now left)).
        eexists now, _. split; [exact S|]. split; [pose proof (clock_cstep c e); lia|].
        destruct e as [u x|u w|u]; auto. destruct (Nat.eqb u t); [apply always_step|]; exact HA. }
    assert (J1 : J c1).
    { unfold c1, t_run. rewrite run_app, run_cons. apply G; [intros Q; apply N; rewrite in_app_iff; now left|]. left. split; [|exact H1].
      cbn. fold (t_run pl T m l0). rewrite Hi. cbn. rewrite tset_eq. f_equal. rewrite <- EK. unfold o. rewrite poll_impl by exact Hw. cbn. now rewrite Hw. }
    destruct J1 as (now & p & E & Hnow & HA).
    assert (E2 : c2 = fst (run exec impl c1 l2)).
    { unfold c1, c2, t_run. rewrite <- run_app. f_equal. f_equal. now rewrite <- app_assoc. }
    destruct (always_run (pl_search pl) (pl_init pl) t impl (P now) l2 c1 o p E) as (p2 & Ep2 & A2); [intros Q; apply N; rewrite !in_app_iff; auto | exact HA|].
    rewrite <- E2 in Ep2.
    assert (E3 : final (l0 ++ SInv t o :: l1 ++ l2 ++ l3) = fst (run exec impl c2 l3)).
    { unfold c2, t_run. rewrite <- run_app. f_equal. f_equal. rewrite <- app_assoc. cbn. now rewrite <- app_assoc. }
    rewrite E3. eapply returns; eauto; [intros Q; apply N; rewrite !in_app_iff; auto|].
    intros la lb El. unfold past, deadline_at. pose proof (clock_run la c2). destruct k; lia.
  Qed.
End Typed.

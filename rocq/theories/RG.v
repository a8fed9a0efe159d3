(** * Rely/guarantee simulation: the proof method for linearizability.

    [safe] follows one program under arbitrary interference of other threads
    and demands that it takes effect exactly once; [LA] is a logically atomic
    specification of a program built on it; [lin_sound] turns [safe] of all
    operations into linearizability of every history. *)
From Coq Require Import List Arith Lia.
From Verif Require Import SpecLin Prog.
Import ListNotations.

Section RG.
  Context {act : Type} {resp : act -> Type} {mem oracle op ret state : Type}.
  Variable exec : nat -> forall a : act, mem -> oracle -> option (mem * resp a).
  Variable spec : state -> op -> ret -> state -> Prop.
  (** relation between memory and abstract state that always holds *)
  Variable Inv : mem -> state -> Prop.
  (** what other threads may do while thread t runs, and what t may do *)
  Variable rely guar : nat -> mem -> state -> mem -> state -> Prop.

  (** status of a call: not yet effective (with the results of read-only
      effects it could already have had), or effective with a result *)
  Inductive status := Pend (obs : ret -> Prop) | Done (r : ret).
  Definition noobs : ret -> Prop := fun _ => False.
  Definition oincl (p q : ret -> Prop) : Prop := forall r, p r -> q r.

  Inductive linstep (o : op) : status -> state -> status -> state -> Prop :=
  | ls_skip st s : linstep o st s st s
  | ls_obs (obs obs' : ret -> Prop) s : (forall r, obs' r -> obs r \/ spec s o r s) ->
    linstep o (Pend obs) s (Pend obs') s
  | ls_lin obs r s s' : spec s o r s' -> linstep o (Pend obs) s (Done r) s'.

  Fixpoint safe (t : nat) (o : op) {R} (p : prog act resp R) (st : status)
           (Q : R -> status -> mem -> state -> Prop) (m : mem) (s : state) : Prop :=
    match p with
    | Ret r => Q r st m s
    | Do a k =>
        forall m1 s1, rely t m s m1 s1 -> Inv m1 s1 ->
        forall w m2 x, exec t a m1 w = Some (m2, x) ->
        exists st2 s2, linstep o st s1 st2 s2 /\ guar t m1 s1 m2 s2 /\ Inv m2 s2 /\
                       safe t o (k x) st2 Q m2 s2
    | @Loop _ _ _ X B body i k =>
        exists J : X -> status -> mem -> state -> Prop,
          J i st m s /\
          (forall i st m s, J i st m s ->
             safe t o (body i) st
                  (fun y st m s => match y with
                                   | inl i' => J i' st m s
                                   | inr b => safe t o (k b) st Q m s
                                   end) m s)
    end.

  Lemma safe_mono t o R (p : prog act resp R) :
    forall st (Q Q' : R -> status -> mem -> state -> Prop) m s,
      (forall r st m s, Q r st m s -> Q' r st m s) ->
      safe t o p st Q m s -> safe t o p st Q' m s.
  Proof.
    induction p as [R r | R a k IH | R X B body IHb i k IHk]; simpl; intros st Q Q' m s HQ H.
    - auto.
    - intros m1 s1 Hr Hi w m2 x He.
      destruct (H m1 s1 Hr Hi w m2 x He) as (st2 & s2 & H1 & H2 & H3 & H4).
      exists st2, s2. repeat split; auto. eapply IH; eauto.
    - destruct H as (J & HJ & Hb). exists J. split; [exact HJ|].
      intros i0 st0 m0 s0 HJ0. eapply IHb; [|apply Hb; exact HJ0].
      intros [i'|b] st1 m1 s1 H1; simpl in *; [exact H1|]. eapply IHk; eauto.
  Qed.

  Lemma safe_bind t o R R' (p : prog act resp R) :
    forall (f : R -> prog act resp R') st Q m s,
      safe t o p st (fun r st m s => safe t o (f r) st Q m s) m s ->
      safe t o (bind p f) st Q m s.
  Proof.
    induction p as [R r | R a k IH | R X B body IHb i k IHk]; simpl; intros f st Q m s H.
    - exact H.
    - intros m1 s1 Hr Hi w m2 x He.
      destruct (H m1 s1 Hr Hi w m2 x He) as (st2 & s2 & H1 & H2 & H3 & H4).
      exists st2, s2. repeat split; auto.
    - destruct H as (J & HJ & Hb). exists J. split; [exact HJ|].
      intros i0 st0 m0 s0 HJ0. eapply safe_mono; [|apply Hb; exact HJ0].
      intros [i'|b] st1 m1 s1 H1; simpl in *; [exact H1|]. apply IHk. exact H1.
  Qed.

  Hypothesis rely_refl : forall t m s, rely t m s m s.
  Hypothesis rely_trans : forall t m s m1 s1 m2 s2,
      rely t m s m1 s1 -> rely t m1 s1 m2 s2 -> rely t m s m2 s2.
  Hypothesis guar_rely : forall t u m s m' s', t <> u -> guar t m s m' s' -> rely u m s m' s'.

  Lemma safe_rely t o R (p : prog act resp R) :
    forall st (Q : R -> status -> mem -> state -> Prop) m s m' s',
      rely t m s m' s' ->
      safe t o p st Q m s ->
      safe t o p st (fun r st m' s' => exists m s, rely t m s m' s' /\ Q r st m s) m' s'.
  Proof.
    induction p as [R r | R a k IH | R X B body IHb i k IHk]; simpl; intros st Q m s m' s' Hr H.
    - eauto.
    - intros m1 s1 Hr1 Hi w m2 x He.
      destruct (H m1 s1 (rely_trans _ _ _ _ _ _ _ Hr Hr1) Hi w m2 x He) as (st2 & s2 & H1 & H2 & H3 & H4).
      exists st2, s2. repeat split; auto.
      eapply IH; [apply rely_refl | exact H4].
    - destruct H as (J & HJ & Hb).
      exists (fun i st m' s' => exists m s, rely t m s m' s' /\ J i st m s).
      split; [eauto|].
      intros i0 st0 m0 s0 (ma & sa & Hra & HJa).
      eapply safe_mono; [|eapply IHb; [exact Hra | apply Hb; exact HJa]].
      intros [i'|b] st1 m1 s1 (mb & sb & Hrb & H1); simpl in *.
      + eauto.
      + eapply IHk; eauto.
  Qed.

  (** ** Soundness *)
  Variable impl : op -> prog act resp ret.
  Variable op_ok : op -> Prop.

  Definition fin (r : ret) (st : status) (_ : mem) (_ : state) : Prop :=
    st = Done r \/ exists obs, st = Pend obs /\ obs r.

  Hypothesis impl_safe : forall t o m s, op_ok o -> Inv m s -> safe t o (impl o) (Pend noobs) fin m s.

  (* runs with recorded observations *)
  Inductive ost := OIdle | OCall (o : op) (st : status).

  Inductive orun : state -> (nat -> ost) -> list (event op ret) -> state -> (nat -> ost) -> Prop :=
  | or_nil s th : orun s th [] s th
  | or_inv s th t o h s' th' :
      th t = OIdle -> orun s (tset th t (OCall o (Pend noobs))) h s' th' ->
      orun s th (EInv t o :: h) s' th'
  | or_step s th t o st s1 st1 h s' th' :
      th t = OCall o st -> linstep o st s st1 s1 ->
      orun s1 (tset th t (OCall o st1)) h s' th' -> orun s th h s' th'
  | or_res s th t o r st h s' th' :
      th t = OCall o st -> (st = Done r \/ exists obs, st = Pend obs /\ obs r) ->
      orun s (tset th t OIdle) h s' th' ->
      orun s th (ERes t r :: h) s' th'.

  Definition resolves (x : ost) (y : pend op ret) : Prop :=
    match x with
    | OIdle => y = PIdle
    | OCall o (Pend obs) => y = PCalled o \/ exists r, y = PDone o r /\ obs r
    | OCall o (Done r) => y = PDone o r
    end.

  Lemma tset_eq {A} (f : nat -> A) t x : tset f t x t = x.
  Proof. unfold tset. now rewrite Nat.eqb_refl. Qed.
  Lemma tset_neq {A} (f : nat -> A) t x u : u <> t -> tset f t x u = f u.
  Proof. intros H. unfold tset. apply Nat.eqb_neq in H. now rewrite H. Qed.

  Definition peq (f g : nat -> pend op ret) := forall t, f t = g t.

  Lemma lrun_ext s th l s' th' : lrun spec s th l s' th' ->
    forall th1, peq th th1 -> exists th1', peq th' th1' /\ lrun spec s th1 l s' th1'.
  Proof.
    induction 1 as [s th | s th t o l s' th' H1 H2 IH | s th t o r s1 l s' th' H1 H2 H3 IH
                    | s th t o r l s' th' H1 H2 IH]; intros th1 Heq.
    - exists th1. split; [exact Heq | constructor].
    - destruct (IH (tset th1 t (PCalled o))) as (th2 & E & HR).
      { intros u. unfold tset. destruct (Nat.eqb u t); auto. }
      exists th2. split; [exact E|]. econstructor; [rewrite <- Heq; exact H1 | exact HR].
    - destruct (IH (tset th1 t (PDone o r))) as (th2 & E & HR).
      { intros u. unfold tset. destruct (Nat.eqb u t); auto. }
      exists th2. split; [exact E|]. econstructor; [rewrite <- Heq; exact H1 | exact H2 | exact HR].
    - destruct (IH (tset th1 t PIdle)) as (th2 & E & HR).
      { intros u. unfold tset. destruct (Nat.eqb u t); auto. }
      exists th2. split; [exact E|]. econstructor; [rewrite <- Heq; exact H1 | exact HR].
  Qed.

  (* an observed read-only effect can be committed after the fact *)
  Lemma orun_lrun s th h s' th' : orun s th h s' th' ->
    forall (fin' : nat -> pend op ret), (forall t, resolves (th' t) (fin' t)) ->
    exists l th0 fin1, (forall t, resolves (th t) (th0 t)) /\ peq fin' fin1 /\
                       lrun spec s th0 l s' fin1 /\ erase l = h.
  Proof.
    induction 1 as [s th | s th t o h s' th' H1 H2 IH | s th t o st s1 st1 h s' th' H1 H2 H3 IH
                    | s th t o r st h s' th' H1 H2 H3 IH]; intros fin' Hfin.
    - exists [], fin', fin'. refine (conj _ (conj _ (conj _ _))); auto; [intros t; reflexivity | constructor].
    - destruct (IH _ Hfin) as (l & th0 & f1 & Hr & Hp & HL & HE).
      assert (Ht := Hr t). rewrite tset_eq in Ht. simpl in Ht.
      assert (Hc : th0 t = PCalled o) by (destruct Ht as [Ht|(r & _ & [])]; exact Ht).
      destruct (lrun_ext _ _ _ _ _ HL (tset (tset th0 t PIdle) t (PCalled o))) as (f2 & Hp2 & HL2).
      { intros u. unfold tset. destruct (Nat.eqb u t) eqn:E; auto.
        apply Nat.eqb_eq in E. now subst. }
      exists (LInv t o :: l), (tset th0 t PIdle), f2.
      refine (conj _ (conj _ (conj _ _))).
      + intros u. destruct (Nat.eq_dec u t) as [->|Hn].
        * rewrite tset_eq, H1. reflexivity.
        * rewrite tset_neq by auto. specialize (Hr u). now rewrite tset_neq in Hr.
      + intros u. now rewrite (Hp u).
      + constructor; [apply tset_eq | exact HL2].
      + simpl. now rewrite HE.
    - destruct (IH _ Hfin) as (l & th0 & f1 & Hr & Hp & HL & HE).
      assert (Ht := Hr t). rewrite tset_eq in Ht. simpl in Ht.
      assert (Hoth : forall u y, u <> t -> resolves (th u) (tset th0 t y u)).
      { intros u y Hn. rewrite tset_neq by auto. specialize (Hr u). now rewrite tset_neq in Hr. }
      inversion H2; subst.
      + (* skip *)
        exists l, th0, f1. refine (conj _ (conj _ (conj _ _))); auto.
        intros u. destruct (Nat.eq_dec u t) as [->|Hn].
        * rewrite H1. exact Ht.
        * specialize (Hoth u (th0 t) Hn). now rewrite tset_neq in Hoth.
      + (* obs *)
        destruct Ht as [Ht|(r' & Ht & Hin)]; [|destruct (H _ Hin) as [Hin1|Hsp]].
        * exists l, th0, f1. refine (conj _ (conj _ (conj _ _))); auto.
          intros u. destruct (Nat.eq_dec u t) as [->|Hn].
          { rewrite H1. now left. }
          { specialize (Hoth u (th0 t) Hn). now rewrite tset_neq in Hoth. }
        * exists l, th0, f1. refine (conj _ (conj _ (conj _ _))); auto.
          intros u. destruct (Nat.eq_dec u t) as [->|Hn].
          { rewrite H1. right. eauto. }
          { specialize (Hoth u (th0 t) Hn). now rewrite tset_neq in Hoth. }
        * destruct (lrun_ext _ _ _ _ _ HL (tset (tset th0 t (PCalled o)) t (PDone o r'))) as (f2 & Hp2 & HL2).
          { intros u. unfold tset. destruct (Nat.eqb u t) eqn:E; auto.
            apply Nat.eqb_eq in E. now subst. }
          exists (LLin t :: l), (tset th0 t (PCalled o)), f2. refine (conj _ (conj _ (conj _ _))).
          { intros u. destruct (Nat.eq_dec u t) as [->|Hn].
            - rewrite tset_eq, H1. now left.
            - auto. }
          { intros u. now rewrite (Hp u). }
          { econstructor; [apply tset_eq | eassumption | exact HL2]. }
          { simpl; auto. }
      + (* lin *)
        destruct (lrun_ext _ _ _ _ _ HL (tset (tset th0 t (PCalled o)) t (PDone o r))) as (f2 & Hp2 & HL2).
        { intros u. unfold tset. destruct (Nat.eqb u t) eqn:E; auto.
          apply Nat.eqb_eq in E. now subst. }
        exists (LLin t :: l), (tset th0 t (PCalled o)), f2. refine (conj _ (conj _ (conj _ _))).
        { intros u. destruct (Nat.eq_dec u t) as [->|Hn].
          - rewrite tset_eq, H1. now left.
          - auto. }
        { intros u. now rewrite (Hp u). }
        { econstructor; [apply tset_eq | eassumption | exact HL2]. }
        { simpl; auto. }
    - destruct (IH _ Hfin) as (l & th0 & f1 & Hr & Hp & HL & HE).
      assert (Ht := Hr t). rewrite tset_eq in Ht. simpl in Ht.
      destruct (lrun_ext _ _ _ _ _ HL (tset (tset th0 t (PDone o r)) t PIdle)) as (f2 & Hp2 & HL2).
      { intros u. unfold tset. destruct (Nat.eqb u t) eqn:E; auto.
        apply Nat.eqb_eq in E. now subst. }
      exists (LRes t r :: l), (tset th0 t (PDone o r)), f2. refine (conj _ (conj _ (conj _ _))).
      + intros u. destruct (Nat.eq_dec u t) as [->|Hn].
        * rewrite tset_eq, H1. destruct H2 as [->|(obs & -> & Hin)]; simpl; eauto.
        * rewrite tset_neq by auto. specialize (Hr u). now rewrite tset_neq in Hr.
      + intros u. now rewrite (Hp u).
      + econstructor; [apply tset_eq | exact HL2].
      + simpl. now rewrite HE.
  Qed.

  Definition th_ok (c : config act resp mem op ret) (s : state) (th : nat -> ost) : Prop :=
    forall t, match c_thr c t with
              | Idle => th t = OIdle
              | Run o p => exists st, th t = OCall o st /\ safe t o p st fin (c_mem c) s
              end.

  Definition sched_ok (e : sched oracle op) : Prop :=
    match e with SInv _ o => op_ok o | _ => True end.

  Lemma fin_rely t o p st m s m' s' :
    rely t m s m' s' -> safe t o p st fin m s -> safe t o p st fin m' s'.
  Proof.
    intros Hr H. eapply safe_mono; [|eapply safe_rely; [exact Hr | exact H]].
    intros r st0 m0 s0 (m1 & s1 & _ & Hf). exact Hf.
  Qed.

  Lemma run_orun l : forall c s th,
      Inv (c_mem c) s -> th_ok c s th -> Forall sched_ok l ->
      exists s' th', orun s th (snd (run exec impl c l)) s' th' /\
                     Inv (c_mem (fst (run exec impl c l))) s' /\
                     th_ok (fst (run exec impl c l)) s' th'.
  Proof.
    induction l as [|e l IH]; intros c s th Hi Hth Hok.
    - exists s, th. simpl. repeat split; auto. constructor.
    - inversion Hok as [|? ? He Hl]; subst.
      simpl. destruct (cstep exec impl c e) as [c1 h1] eqn:Ec.
      destruct (run exec impl c1 l) as [c2 h2] eqn:Er.
      simpl.
      destruct e as [t o | t w | t]; simpl in Ec; pose proof (Hth t) as Ht.
      + destruct (c_thr c t) eqn:Et; inversion Ec; subst; clear Ec.
        * destruct (IH (mkc (c_mem c) (tset (c_thr c) t (Run o (impl o)))) s
                       (tset th t (OCall o (Pend noobs)))) as (s' & th' & HO & HI & HT); auto.
          { intros u. simpl. destruct (Nat.eq_dec u t) as [->|Hn].
            - rewrite !tset_eq. eexists. split; [reflexivity|]. apply impl_safe; auto.
            - rewrite !tset_neq by auto. apply Hth. }
          rewrite Er in *. simpl in *. exists s', th'. repeat split; auto.
          constructor; auto.
        * destruct (IH c1 s th) as (s' & th' & HO & HI & HT); auto.
          rewrite Er in *. simpl in *. eauto.
      + destruct (c_thr c t) as [|o p] eqn:Et.
        { inversion Ec; subst. destruct (IH c1 s th) as (s' & th' & HO & HI & HT); auto.
          rewrite Er in *. simpl in *. eauto. }
        destruct Ht as (st & Hst & Hsafe).
        assert (Hstep : exists st1 s1, linstep o st s st1 s1 /\ guar t (c_mem c) s (fst (pstep exec t w (c_mem c) p)) s1
                  /\ Inv (fst (pstep exec t w (c_mem c) p)) s1
                  /\ safe t o (snd (pstep exec t w (c_mem c) p)) st1 fin (fst (pstep exec t w (c_mem c) p)) s1
                  \/ (linstep o st s st1 s1 /\ s1 = s /\ fst (pstep exec t w (c_mem c) p) = c_mem c
                  /\ safe t o (snd (pstep exec t w (c_mem c) p)) st1 fin (c_mem c) s)).
        { destruct p as [r | a k | X B body i k]; simpl in *.
          - exists st, s. right. repeat split; auto. constructor.
          - destruct (exec t a (c_mem c) w) as [[m2 x]|] eqn:Ea; simpl.
            + destruct (Hsafe (c_mem c) s (rely_refl _ _ _) Hi w m2 x Ea) as (st2 & s2 & A & B & C & D).
              exists st2, s2. left. auto.
            + exists st, s. right. repeat split; auto. constructor.
          - exists st, s. right. repeat split; auto; [constructor|].
            apply safe_bind. destruct Hsafe as (J & HJ & Hb).
            eapply safe_mono; [|apply Hb; exact HJ].
            intros [i'|b] st0 m0 s0 H0; simpl in *; [|exact H0].
            exists J. split; [exact H0 | exact Hb]. }
        destruct (pstep exec t w (c_mem c) p) as [m' p'] eqn:Ep. simpl in *.
        inversion Ec; subst; clear Ec.
        destruct Hstep as (st1 & s1 & [(Hl1 & Hg & Hi1 & Hs1) | (Hl1 & -> & Hm & Hs1)]).
        * destruct (IH (mkc m' (tset (c_thr c) t (Run o p'))) s1 (tset th t (OCall o st1)))
            as (s' & th' & HO & HI & HT); auto.
          { intros u. simpl. destruct (Nat.eq_dec u t) as [->|Hn].
            - rewrite !tset_eq. eauto.
            - rewrite !tset_neq by auto. specialize (Hth u).
              destruct (c_thr c u) as [|o' q] eqn:Eu; auto.
              destruct Hth as (st' & Hst' & Hs'). exists st'. split; auto.
              eapply fin_rely; [|exact Hs']. eapply guar_rely; eauto. }
          rewrite Er in *. simpl in *. exists s', th'. repeat split; auto.
          econstructor; eauto.
        * subst m'.
          destruct (IH (mkc (c_mem c) (tset (c_thr c) t (Run o p'))) s (tset th t (OCall o st1)))
            as (s' & th' & HO & HI & HT); auto.
          { intros u. simpl. destruct (Nat.eq_dec u t) as [->|Hn].
            - rewrite !tset_eq. eauto.
            - rewrite !tset_neq by auto. apply Hth. }
          rewrite Er in *. simpl in *. exists s', th'. repeat split; auto.
          econstructor; eauto.
      + destruct (c_thr c t) as [|o [r | a k | X B body i k]] eqn:Et; inversion Ec; subst; clear Ec;
          try (destruct (IH c1 s th) as (s' & th' & HO & HI & HT); auto;
               rewrite Er in *; simpl in *; eauto; fail).
        destruct Ht as (st & Hst & Hf). simpl in Hf.
        destruct (IH (mkc (c_mem c) (tset (c_thr c) t Idle)) s (tset th t OIdle)) as (s' & th' & HO & HI & HT); auto.
        { intros u. simpl. destruct (Nat.eq_dec u t) as [->|Hn].
          - rewrite !tset_eq. reflexivity.
          - rewrite !tset_neq by auto. apply Hth. }
        rewrite Er in *. simpl in *. exists s', th'. repeat split; auto.
        eapply or_res; eauto.
  Qed.

  (** pending calls of the linearization agree with the running threads *)
  Definition pend_ok (c : config act resp mem op ret) (th : nat -> pend op ret) : Prop :=
    forall t, match c_thr c t with Idle => th t = PIdle | Run _ _ => th t <> PIdle end.

  Theorem lin_sound l m s :
    Inv m s -> Forall sched_ok l ->
    exists s' th',
      linearizable_to spec s (snd (run exec impl (start m) l)) s' th' /\
      Inv (c_mem (fst (run exec impl (start m) l))) s' /\
      pend_ok (fst (run exec impl (start m) l)) th'.
  Proof.
    intros Hi Hok.
    destruct (run_orun l (start m) s (fun _ => OIdle)) as (s' & th' & HO & HI & HT); auto.
    { intros t. reflexivity. }
    set (f := fun t => match th' t with
                       | OIdle => PIdle
                       | OCall o (Pend _) => PCalled o
                       | OCall o (Done r) => PDone o r end).
    destruct (orun_lrun _ _ _ _ _ HO f) as (l' & th0 & f1 & Hr & Hp & HL & HE).
    { intros t. unfold f. destruct (th' t) as [|o [obs|r]]; simpl; auto. }
    assert (H0 : peq th0 (fun _ => PIdle)) by (intros t; apply (Hr t)).
    destruct (lrun_ext _ _ _ _ _ HL _ H0) as (f2 & Hp2 & HL2).
    exists s', f2. repeat split; auto.
    - exists l'. split; auto.
    - intros t. rewrite <- (Hp2 t), <- (Hp t). unfold f.
      specialize (HT t). destruct (c_thr _ t).
      + now rewrite HT.
      + destruct HT as (st & -> & _). destruct st; discriminate.
  Qed.

  (** ** Logically atomic specifications *)

  (** [LA OK p F O]: program [p] takes effect exactly once, at an instant where
      the state goes from [s1] to [s2] and the result is [r] with [F s1 r s2];
      or it has no effect and returns some [r] with [O s1 r] for a state [s1]
      at an instant during the call. *)
  Definition LA {R} (p : prog act resp R) (F : state -> R -> state -> Prop) (O : state -> R -> Prop) : Prop :=
    forall t o (Q : R -> status -> Prop) m s obs0,
      (forall m1 s1 obs r s2, Inv m1 s1 -> F s1 r s2 ->
         exists st2, linstep o (Pend obs) s1 st2 s2 /\ Q r st2) ->
      (forall m1 s1 obs r, Inv m1 s1 -> O s1 r ->
         exists obs1, linstep o (Pend obs) s1 (Pend obs1) s1 /\
                      forall obs2, oincl obs1 obs2 -> Q r (Pend obs2)) ->
      safe t o p (Pend obs0) (fun r st _ _ => Q r st) m s.

  (** a program whose result is irrelevant and which has no effect *)
  Definition Pure {R} (p : prog act resp R) : Prop :=
    forall t o (Q : R -> status -> Prop) m s st,
      (forall r, Q r st) -> safe t o p st (fun r st _ _ => Q r st) m s.

  Definition none {R} : state -> R -> Prop := fun _ _ => False.

  Lemma LA_weaken R (p : prog act resp R) (F F' : state -> R -> state -> Prop) (O O' : state -> R -> Prop) :
    LA p F O ->
    (forall m s r s', Inv m s -> F s r s' -> F' s r s') ->
    (forall m s r, Inv m s -> O s r -> O' s r) ->
    LA p F' O'.
  Proof.
    intros H HF HO t o Q m s obs0 H1 H2. apply H.
    - intros m1 s1 obs r s2 Hi Hf. eapply H1; eauto.
    - intros m1 s1 obs r Hi Ho. eapply H2; eauto.
  Qed.

  Lemma LA_map R R' (p : prog act resp R) (g : R -> R') F O :
    LA p F O ->
    LA (bind p (fun r => Ret (g r))) (fun s r' s' => exists r, F s r s' /\ r' = g r)
       (fun s r' => exists r, O s r /\ r' = g r).
  Proof.
    intros H t o Q m s obs0 H1 H2. apply safe_bind. simpl.
    apply (H t o (fun r st => Q (g r) st)).
    - intros m1 s1 obs r s2 Hi Hf. eapply H1; eauto.
    - intros m1 s1 obs r Hi Ho. eapply H2; eauto.
  Qed.

  Lemma LA_pure_bind R R' (p : prog act resp R) (f : R -> prog act resp R') F O :
    Pure p -> (forall r, LA (f r) F O) -> LA (bind p f) F O.
  Proof.
    intros Hp Hf t o Q m s obs0 H1 H2. apply safe_bind.
    eapply safe_mono; [|apply (Hp t o (fun r st => st = Pend obs0)); reflexivity].
    simpl. intros r st m0 s0 ->. apply Hf; auto.
  Qed.

  (** a logically atomic operation is a correct implementation *)
  Lemma LA_safe (p : prog act resp ret) (F : state -> ret -> state -> Prop) (O : state -> ret -> Prop) t o m s :
    LA p F O ->
    (forall m s r s', Inv m s -> F s r s' -> spec s o r s') ->
    (forall m s r, Inv m s -> O s r -> spec s o r s) ->
    safe t o p (Pend noobs) fin m s.
  Proof.
    intros H HF HO.
    eapply safe_mono; [|apply (H t o (fun r st => st = Done r \/ exists obs, st = Pend obs /\ obs r))].
    - simpl. intros r st m0 s0 H0. exact H0.
    - intros m1 s1 obs r s2 Hi Hf. exists (Done r). split; [|now left].
      constructor. eauto.
    - intros m1 s1 obs r Hi Ho. exists (fun r' => obs r' \/ r' = r). split.
      + constructor. intros r' [H0| ->]; eauto.
      + intros obs2 Hincl. right. exists obs2. split; [reflexivity|]. apply Hincl. now right.
  Qed.

  (** retry loops: every iteration either takes effect or has no effect *)
  Lemma LA_loop X R (body : X -> prog act resp (X + R)) (i0 : X) (P : X -> Prop)
        (F : state -> R -> state -> Prop) :
    P i0 ->
    (forall i, P i -> LA (body i)
       (fun s y s' => match y with inl i' => s' = s /\ P i' | inr r => F s r s' end)
       (fun s y => match y with inl i' => P i' | inr r => False end)) ->
    LA (loop i0 body) F none.
  Proof.
    intros Hi0 Hb t o Q m s obs0 H1 H2. simpl.
    exists (fun i st _ _ => P i /\ exists obs, st = Pend obs). split; [eauto|].
    intros i st m0 s0 (HP & obs & ->).
    eapply safe_mono; [|apply (Hb i HP t o (fun y st => match y with
         | inl i' => P i' /\ exists obs, st = Pend obs
         | inr r => Q r st end))].
    - intros [i'|r] st1 m1 s1 Hq; exact Hq.
    - intros m1 s1 obs1 [i'|r] s2 Hi Hy.
      + destruct Hy as [-> Hy]. exists (Pend obs1). split; [constructor|eauto].
      + eapply H1; eauto.
    - intros m1 s1 obs1 [i'|r] Hi Hy.
      + exists obs1. split; [constructor|eauto].
      + destruct Hy.
  Qed.
  (** same, when the loop may also give up with a result observed during the call *)
  Lemma LA_loop_obs X R (body : X -> prog act resp (X + R)) (i0 : X) (P : X -> Prop)
        (F : state -> R -> state -> Prop) (O : state -> R -> Prop) :
    P i0 ->
    (forall i, P i -> LA (body i)
       (fun s y s' => match y with inl i' => s' = s /\ P i' | inr r => F s r s' end)
       (fun s y => match y with inl i' => P i' | inr r => O s r end)) ->
    LA (loop i0 body) F O.
  Proof.
    intros Hi0 Hb t o Q m s obs0 H1 H2. simpl.
    exists (fun i st _ _ => P i /\ exists obs, st = Pend obs). split; [eauto|].
    intros i st m0 s0 (HP & obs & ->).
    eapply safe_mono; [|apply (Hb i HP t o (fun y st => match y with
         | inl i' => P i' /\ exists obs, st = Pend obs
         | inr r => Q r st end))].
    - intros [i'|r] st1 m1 s1 Hq; exact Hq.
    - intros m1 s1 obs1 [i'|r] s2 Hi Hy.
      + destruct Hy as [-> Hy]. exists (Pend obs1). split; [constructor|eauto].
      + eapply H1; eauto.
    - intros m1 s1 obs1 [i'|r] Hi Hy.
      + exists obs1. split; [constructor|eauto].
      + eapply H2; eauto.
  Qed.
End RG.
Arguments Pend {ret} obs.
Arguments Done {ret} r.
Arguments noobs {ret}.
Arguments oincl {ret} p q.
Lemma oincl_refl {ret : Type} (p : ret -> Prop) : oincl p p.
Proof. intros r H. exact H. Qed.

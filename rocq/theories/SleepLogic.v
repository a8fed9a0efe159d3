(** * Rely/guarantee reasoning with auxiliary state: the proof method for mutual exclusion, lost wake-ups and deadlines.

    [isafe] follows one program under interference of other threads.  The proof chooses how the auxiliary state of type
    [G] develops; [ok] is demanded of every action the program is about to make, blocked or not.  [steps_ok] turns
    [isafe] of all operations into an invariant of every execution. *)
From Coq Require Import List Arith Lia.
From Verif Require Import SpecLin Prog RG.
Import ListNotations.

Section Logic.
  Context {act : Type} {resp : act -> Type} {mem oracle op ret G : Type}.
  Variable exec : nat -> forall a : act, mem -> oracle -> option (mem * resp a).
  Variable Inv : mem -> G -> Prop.
  Variable rely guar : nat -> mem -> G -> mem -> G -> Prop.
  Variable ok : nat -> act -> mem -> G -> Prop.

  Fixpoint isafe (t : nat) {R} (p : prog act resp R) (Q : R -> mem -> G -> Prop) (m : mem) (g : G) : Prop :=
    match p with
    | Ret r => Q r m g
    | Do a k =>
        forall m1 g1, rely t m g m1 g1 -> Inv m1 g1 ->
        ok t a m1 g1 /\
        forall w m2 x, exec t a m1 w = Some (m2, x) ->
        exists g2, guar t m1 g1 m2 g2 /\ Inv m2 g2 /\ isafe t (k x) Q m2 g2
    | @Loop _ _ _ X B body i k =>
        exists J : X -> mem -> G -> Prop,
          J i m g /\
          (forall i m g, J i m g ->
             isafe t (body i) (fun y m g => match y with inl i' => J i' m g | inr b => isafe t (k b) Q m g end) m g)
    end.

  Lemma isafe_mono t R (p : prog act resp R) :
    forall (Q Q' : R -> mem -> G -> Prop) m g,
      (forall r m g, Q r m g -> Q' r m g) -> isafe t p Q m g -> isafe t p Q' m g.
  Proof.
    induction p as [R r | R a k IH | R X B body IHb i k IHk]; simpl; intros Q Q' m g HQ H.
    - auto.
    - intros m1 g1 Hr Hi. destruct (H m1 g1 Hr Hi) as [Ho He]. split; [exact Ho|]. intros w m2 x Hx.
      destruct (He w m2 x Hx) as (g2 & A & B & C). exists g2. split; [exact A|]. split; [exact B|]. eapply IH; eauto.
    - destruct H as (J & HJ & Hb). exists J. split; [exact HJ|].
      intros i0 m0 g0 HJ0. eapply IHb; [|apply Hb; exact HJ0].
      intros [i'|b] m1 g1 H1; simpl in *; [exact H1|]. eapply IHk; eauto.
  Qed.

  Lemma isafe_bind t R R' (p : prog act resp R) :
    forall (f : R -> prog act resp R') Q m g,
      isafe t p (fun r m g => isafe t (f r) Q m g) m g -> isafe t (bind p f) Q m g.
  Proof.
    induction p as [R r | R a k IH | R X B body IHb i k IHk]; simpl; intros f Q m g H.
    - exact H.
    - intros m1 g1 Hr Hi. destruct (H m1 g1 Hr Hi) as [Ho He]. split; [exact Ho|]. intros w m2 x Hx.
      destruct (He w m2 x Hx) as (g2 & A & B & C). exists g2. split; [exact A|]. split; [exact B|]. apply IH. exact C.
    - destruct H as (J & HJ & Hb). exists J. split; [exact HJ|].
      intros i0 m0 g0 HJ0. eapply isafe_mono; [|apply Hb; exact HJ0].
      intros [i'|b] m1 g1 H1; simpl in *; [exact H1|]. apply IHk. exact H1.
  Qed.

  Lemma isafe_loop t X B (i : X) (body : X -> prog act resp (X + B)) (J : X -> mem -> G -> Prop) Q m g :
    J i m g ->
    (forall i m g, J i m g -> isafe t (body i) (fun y m g => match y with inl i' => J i' m g | inr b => Q b m g end) m g) ->
    isafe t (loop i body) Q m g.
  Proof. intros H1 H2. exists J. split; auto. Qed.

  Hypothesis rely_refl : forall t m g, rely t m g m g.
  Hypothesis rely_trans : forall t m g m1 g1 m2 g2,
      rely t m g m1 g1 -> rely t m1 g1 m2 g2 -> rely t m g m2 g2.
  Hypothesis guar_rely : forall t u m g m' g', t <> u -> guar t m g m' g' -> rely u m g m' g'.

  Lemma isafe_rely t R (p : prog act resp R) :
    forall (Q : R -> mem -> G -> Prop) m g m' g',
      rely t m g m' g' -> isafe t p Q m g ->
      isafe t p (fun r m' g' => exists m g, rely t m g m' g' /\ Q r m g) m' g'.
  Proof.
    induction p as [R r | R a k IH | R X B body IHb i k IHk]; simpl; intros Q m g m' g' Hr H.
    - eauto.
    - intros m1 g1 Hr1 Hi. destruct (H m1 g1 (rely_trans _ _ _ _ _ _ _ Hr Hr1) Hi) as [Ho He].
      split; [exact Ho|]. intros w m2 x Hx.
      destruct (He w m2 x Hx) as (g2 & A & B & C). exists g2. split; [exact A|]. split; [exact B|].
      eapply IH; [apply rely_refl | exact C].
    - destruct H as (J & HJ & Hb).
      exists (fun i m' g' => exists m g, rely t m g m' g' /\ J i m g).
      split; [eauto|].
      intros i0 m0 g0 (ma & ga & Hra & HJa).
      eapply isafe_mono; [|eapply IHb; [exact Hra | apply Hb; exact HJa]].
      intros [i'|b] m1 g1 (mb & gb & Hrb & H1); simpl in *.
      + eauto.
      + eapply IHk; eauto.
  Qed.

  (** a preorder that all steps respect *)
  Variable mono : mem -> G -> mem -> G -> Prop.
  Hypothesis mono_refl : forall m g, mono m g m g.
  Hypothesis mono_trans : forall m g m1 g1 m2 g2, mono m g m1 g1 -> mono m1 g1 m2 g2 -> mono m g m2 g2.
  Hypothesis rely_mono : forall t m g m' g', rely t m g m' g' -> mono m g m' g'.
  Hypothesis guar_mono : forall t m g m' g', guar t m g m' g' -> mono m g m' g'.

  Lemma isafe_frame t R (p : prog act resp R) :
    forall (Q : R -> mem -> G -> Prop) m g m0 g0,
      mono m0 g0 m g -> isafe t p Q m g ->
      isafe t p (fun r m' g' => mono m0 g0 m' g' /\ Q r m' g') m g.
  Proof.
    induction p as [R r | R a k IH | R X B body IHb i k IHk]; simpl; intros Q m g m0 g0 Hm H.
    - auto.
    - intros m1 g1 Hr Hi. destruct (H m1 g1 Hr Hi) as [Ho He]. split; [exact Ho|]. intros w m2 x Hx.
      destruct (He w m2 x Hx) as (g2 & A & B & C). exists g2. split; [exact A|]. split; [exact B|].
      eapply IH; eauto.
    - destruct H as (J & HJ & Hb).
      exists (fun i m' g' => mono m0 g0 m' g' /\ J i m' g').
      split; [auto|].
      intros i0 m1 g1 (Hm1 & HJ1).
      eapply isafe_mono; [|eapply IHb; [exact Hm1 | apply Hb; exact HJ1]].
      intros [i'|b] m2 g2 (Hm2 & H2); simpl in *; [auto|]. eapply IHk; eauto.
  Qed.

  (** what one step may do to the auxiliary state *)
  Variable hist : mem -> G -> mem -> G -> Prop.
  Hypothesis hist_refl : forall m g, Inv m g -> hist m g m g.
  Hypothesis guar_hist : forall t m g m' g', guar t m g m' g' -> hist m g m' g'.

  (** ** Soundness *)
  Variable impl : op -> prog act resp ret.
  Variable op_ok : op -> Prop.
  Variable enter : nat -> op -> mem -> G -> G.
  Variable leave : nat -> G -> G.
  (** between calls; while a call is running; when it returns *)
  Variable idle : nat -> mem -> G -> Prop.
  Variable busy : nat -> op -> G -> Prop.
  Variable post : nat -> op -> ret -> mem -> G -> Prop.

  Hypothesis enter_ok : forall t o m g, op_ok o -> Inv m g -> idle t m g ->
    let g' := enter t o m g in
    Inv m g' /\ mono m g m g' /\ hist m g m g' /\ busy t o g' /\ (forall u, u <> t -> rely u m g m g') /\ isafe t (impl o) (post t o) m g'.
  Hypothesis leave_ok : forall t o r m g, Inv m g -> post t o r m g ->
    let g' := leave t g in
    Inv m g' /\ mono m g m g' /\ hist m g m g' /\ idle t m g' /\ (forall u, u <> t -> rely u m g m g').
  Hypothesis idle_rely : forall t m g m' g', rely t m g m' g' -> idle t m g -> idle t m' g'.
  Hypothesis busy_rely : forall t o m g m' g', rely t m g m' g' -> busy t o g -> busy t o g'.
  Hypothesis busy_guar : forall t o m g m' g', guar t m g m' g' -> busy t o g -> busy t o g'.
  Hypothesis post_rely : forall t o r m g m' g', rely t m g m' g' -> post t o r m g -> post t o r m' g'.

  Definition good (c : config act resp mem op ret) (g : G) : Prop :=
    Inv (c_mem c) g /\
    forall t, match c_thr c t with
              | Idle => idle t (c_mem c) g
              | Run o p => busy t o g /\ isafe t p (post t o) (c_mem c) g
              end.
  Definition ev_ok (e : sched oracle op) : Prop := match e with SInv _ o => op_ok o | _ => True end.
  (** how an event changes the auxiliary state *)
  Definition gstep (c : config act resp mem op ret) (e : sched oracle op) (g g' : G) : Prop :=
    match e with
    | SInv t o => match c_thr c t with Idle => g' = enter t o (c_mem c) g | _ => g' = g end
    | SStep t w => guar t (c_mem c) g (c_mem (fst (cstep exec impl c e))) g' \/ g' = g
    | SRes t => match c_thr c t with Run _ (Ret _) => g' = leave t g | _ => g' = g end
    end.

  Lemma post_isafe t o p m g m' g' :
    rely t m g m' g' -> isafe t p (post t o) m g -> isafe t p (post t o) m' g'.
  Proof.
    intros Hr H. eapply isafe_mono; [|eapply isafe_rely; [exact Hr | exact H]].
    cbn. intros r m2 g2 (m1 & g1 & Hr1 & Hp). eapply post_rely; eauto.
  Qed.

  (** every event of a schedule keeps the invariant; [mono] links the states before and after *)
  Lemma step_ok c g e : good c g -> ev_ok e ->
    exists g', good (fst (cstep exec impl c e)) g' /\ mono (c_mem c) g (c_mem (fst (cstep exec impl c e))) g' /\
                hist (c_mem c) g (c_mem (fst (cstep exec impl c e))) g' /\ gstep c e g g'.
  Proof.
    intros [Hi Ht] He. unfold gstep. destruct e as [t o | t w | t]; cbn; pose proof (Ht t) as Htt.
    - destruct (c_thr c t) eqn:Et; cbn.
      + destruct (enter_ok t o (c_mem c) g He Hi Htt) as (A & M & MH & B & C & E).
        exists (enter t o (c_mem c) g). split; [|split; [exact M | split; [exact MH | reflexivity]]]. split; [exact A|]. intros u. cbn.
        destruct (Nat.eq_dec u t) as [->|N].
        * rewrite tset_eq. auto.
        * rewrite tset_neq by auto. specialize (Ht u). specialize (C u N).
          destruct (c_thr c u) as [|o' q]; [eapply idle_rely; eauto|]. destruct Ht as [Hb Hs].
          split; [eapply busy_rely; eauto | eapply post_isafe; eauto].
      + exists g. split; [split; auto | split; [apply mono_refl | split; [apply hist_refl; exact Hi | auto]]].
    - destruct (c_thr c t) as [|o p] eqn:Et; cbn; [exists g; split; [split; auto | split; [apply mono_refl | split; [apply hist_refl; exact Hi | auto]]]|].
      destruct Htt as [Hb Hs].
      assert (Hstep : (exists g', guar t (c_mem c) g (fst (pstep exec t w (c_mem c) p)) g' /\
                         Inv (fst (pstep exec t w (c_mem c) p)) g' /\
                         isafe t (snd (pstep exec t w (c_mem c) p)) (post t o) (fst (pstep exec t w (c_mem c) p)) g') \/
                      (fst (pstep exec t w (c_mem c) p) = c_mem c /\
                       isafe t (snd (pstep exec t w (c_mem c) p)) (post t o) (c_mem c) g)).
      { destruct p as [r | a k | X B body i k]; simpl in *.
        - right. auto.
        - destruct (Hs (c_mem c) g (rely_refl _ _ _) Hi) as [_ Hx].
          destruct (exec t a (c_mem c) w) as [[m2 x]|] eqn:Ea; cbn.
          + left. destruct (Hx w m2 x Ea) as (g2 & A & B & C). eauto.
          + right. split; [reflexivity|]. exact Hs.
        - right. split; [reflexivity|]. apply isafe_bind. destruct Hs as (J & HJ & Hbd).
          eapply isafe_mono; [|apply Hbd; exact HJ].
          intros [i'|b] m0 g0 H0; simpl in *; [|exact H0]. exists J. split; [exact H0 | exact Hbd]. }
      destruct (pstep exec t w (c_mem c) p) as [m' p'] eqn:Ep. cbn in *.
      destruct Hstep as [(g' & A & B & C) | (-> & C)].
      + exists g'. split; [|split; [eapply guar_mono; eauto | split; [eapply guar_hist; eauto | left; exact A]]]. split; [exact B|]. intros u. cbn.
        destruct (Nat.eq_dec u t) as [->|N].
        * rewrite tset_eq. split; [eapply busy_guar; eauto | exact C].
        * rewrite tset_neq by auto. specialize (Ht u).
          assert (Hr : rely u (c_mem c) g m' g') by (eapply guar_rely; eauto).
          destruct (c_thr c u) as [|o' q]; [eapply idle_rely; eauto|]. destruct Ht as [Hb' Hs'].
          split; [eapply busy_rely; eauto | eapply post_isafe; eauto].
      + exists g. split; [|split; [apply mono_refl | split; [apply hist_refl; exact Hi | auto]]]. split; [exact Hi|]. intros u. cbn.
        destruct (Nat.eq_dec u t) as [->|N]; [rewrite tset_eq; auto | rewrite tset_neq by auto; apply Ht].
    - destruct (c_thr c t) as [|o [r | a k | X B body i k]] eqn:Et; cbn;
        try (exists g; split; [split; auto | split; [apply mono_refl | split; [apply hist_refl; exact Hi | auto]]]; fail).
      destruct Htt as [Hb Hp]. cbn in Hp. destruct (leave_ok t o r (c_mem c) g Hi Hp) as (A & M & MH & B & C).
      exists (leave t g). split; [|split; [exact M | split; [exact MH | reflexivity]]]. split; [exact A|]. intros u. cbn.
      destruct (Nat.eq_dec u t) as [->|N].
      + rewrite tset_eq. exact B.
      + rewrite tset_neq by auto. specialize (Ht u). specialize (C u N).
        destruct (c_thr c u) as [|o' q]; [eapply idle_rely; eauto|]. destruct Ht as [Hb' Hs].
        split; [eapply busy_rely; eauto | eapply post_isafe; eauto].
  Qed.

  Lemma run_cons c e l : fst (run exec impl c (e :: l)) = fst (run exec impl (fst (cstep exec impl c e)) l).
  Proof. cbn. destruct (cstep exec impl c e) as [c1 h1]. cbn. now destruct (run exec impl c1 l). Qed.
  Lemma run_app c l1 l2 : fst (run exec impl c (l1 ++ l2)) = fst (run exec impl (fst (run exec impl c l1)) l2).
  Proof.
    revert c. induction l1 as [|e l1 IH]; intros c; [reflexivity|].
    change ((e :: l1) ++ l2) with (e :: (l1 ++ l2)). now rewrite !run_cons, IH.
  Qed.

  (** along a run, with a property [K] of the history so far and of the states visited that the single steps keep *)
  Lemma run_snd c e l : snd (run exec impl c (e :: l)) = snd (cstep exec impl c e) ++ snd (run exec impl (fst (cstep exec impl c e)) l).
  Proof. cbn. destruct (cstep exec impl c e) as [c1 h1]. cbn. now destruct (run exec impl c1 l). Qed.
  Lemma run_ok (K : list (event op ret) -> config act resp mem op ret -> G -> Prop) l : forall h c g, good c g -> Forall ev_ok l -> K h c g ->
    (forall l1 e l2 h1 g1 g2, l = l1 ++ e :: l2 ->
       let c1 := fst (run exec impl c l1) in let c2 := fst (cstep exec impl c1 e) in
       good c1 g1 -> good c2 g2 -> mono (c_mem c1) g1 (c_mem c2) g2 -> hist (c_mem c1) g1 (c_mem c2) g2 -> gstep c1 e g1 g2 ->
       K h1 c1 g1 -> K (h1 ++ snd (cstep exec impl c1 e)) c2 g2) ->
    exists g', good (fst (run exec impl c l)) g' /\ mono (c_mem c) g (c_mem (fst (run exec impl c l))) g' /\
               K (h ++ snd (run exec impl c l)) (fst (run exec impl c l)) g'.
  Proof.
    induction l as [|e l IH]; intros h c g Hg Hl HK Hstep.
    - exists g. split; [exact Hg|]. split; [apply mono_refl|]. cbn. now rewrite app_nil_r.
    - inversion Hl as [|? ? He Hl']; subst. destruct (step_ok c g e Hg He) as (g1 & Hg1 & Hm1 & Hh1 & Hs1).
      assert (K1 : K (h ++ snd (cstep exec impl c e)) (fst (cstep exec impl c e)) g1) by (eapply (Hstep [] e l h g g1); eauto).
      destruct (IH (h ++ snd (cstep exec impl c e)) (fst (cstep exec impl c e)) g1 Hg1 Hl' K1) as (g' & A & B & C).
      { intros l1 e0 l2 h1 ga gb El. subst l. specialize (Hstep (e :: l1) e0 l2 h1 ga gb eq_refl). cbv zeta in Hstep.
        rewrite run_cons in Hstep. exact Hstep. }
      exists g'. rewrite run_cons, run_snd, app_assoc. split; [exact A|]. split; [eapply mono_trans; eauto | exact C].
  Qed.
End Logic.

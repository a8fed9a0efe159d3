(** * The lock-free back ends are logically atomic. *)
From Coq Require Import ZArith List Bool Lia.
From Verif Require Import SpecInt SpecLin Order Conv WordFacts Prog Word RG CoreModel.
Open Scope Z_scope.

Definition wstate := addr -> Z.
Definition inw (w x : Z) : Prop := 0 <= x < 2 ^ w.
Definition seq (s s' : wstate) : Prop := forall b, s' b = s b.
Definition supd (s : wstate) (a : addr) (v : Z) (s' : wstate) : Prop :=
  s' a = v /\ forall b, b <> a -> s' b = s b.
Definition upd (s : wstate) (a : addr) (v : Z) : wstate := fun b => if Nat.eqb b a then v else s b.

Lemma upd_supd s a v : supd s a v (upd s a v).
Proof.
  split; unfold upd; [now rewrite Nat.eqb_refl|].
  intros b H. apply Nat.eqb_neq in H. now rewrite H.
Qed.

Lemma supd_same s a v s' : supd s a v s' -> v = s a -> seq s s'.
Proof. intros [H1 H2] E b. destruct (Nat.eq_dec b a) as [->|]; [congruence | auto]. Qed.

(** New storage word of the fetch operations of a [w]-bit storage holding [vw]-bit values. *)
Definition core_new (sg : bool) (vw w : Z) (b : binop) (x v : Z) : Z :=
  match b with
  | Add | Sub => wrap w (norm sg vw (bin_apply b x v))
  | _ => wrap w (bin_apply b x v)
  end.

Section WordRG.
  Context {op ret : Type}.
  (** storage width of the object at each address *)
  Variable bits : addr -> Z.
  Hypothesis bits_pos : forall a, 0 < bits a.
  Variable spec : wstate -> op -> ret -> wstate -> Prop.

  Definition WInv (m : wmem) (s : wstate) : Prop := forall a, val (m a) = s a /\ inw (bits a) (s a).
  Definition wrely (t : nat) (m : wmem) (_ : wstate) (m' : wmem) (_ : wstate) : Prop :=
    forall a, ver (m a) <= ver (m' a) /\ (ver (m' a) = ver (m a) -> val (m' a) = val (m a)).

  Lemma wrely_refl t m s : wrely t m s m s.
  Proof. intros a. split; [lia | auto]. Qed.
  Lemma wrely_trans t m s m1 s1 m2 s2 : wrely t m s m1 s1 -> wrely t m1 s1 m2 s2 -> wrely t m s m2 s2.
  Proof.
    intros H1 H2 a. destruct (H1 a) as [A B], (H2 a) as [C D]. split; [lia|].
    intros E. rewrite D by lia. apply B. lia.
  Qed.
  Lemma wguar_rely t u m s m' s' : t <> u -> wrely t m s m' s' -> wrely u m s m' s'.
  Proof. intros _ H. exact H. Qed.

  Notation LA := (LA wexec spec WInv wrely wrely).
  Notation safe := (safe wexec spec WInv wrely wrely).

  Lemma put_rely t m s a v s' : wrely t m s (put m a v) s'.
  Proof.
    intros b. unfold put. destruct (Nat.eqb b a) eqn:E; simpl.
    - apply Nat.eqb_eq in E. subst. split; lia.
    - split; [lia | auto].
  Qed.

  Lemma put_inv m s a v : WInv m s -> inw (bits a) v -> WInv (put m a v) (upd s a v).
  Proof.
    intros H Hv b. unfold put, upd. destruct (Nat.eqb b a) eqn:E; simpl; [|apply H].
    apply Nat.eqb_eq in E. subst. auto.
  Qed.

  Lemma LA_bind_ret R R' (p : wprog R) (f : R -> wprog R') (g : R -> R') F O :
    (forall r, f r = Ret (g r)) -> LA p F O ->
    LA (bind p f) (fun s r' s' => exists r, F s r s' /\ r' = g r) (fun s r' => exists r, O s r /\ r' = g r).
  Proof.
    intros Hf H t o Q m s obs0 H1 H2. apply safe_bind.
    eapply safe_mono; [|apply (H t o (fun r st => Q (g r) st))].
    - intros r st m0 s0 HQ. rewrite Hf. simpl. exact HQ.
    - intros m1 s1 obs r s2 Hi Hfr. eapply H1; eauto.
    - intros m1 s1 obs r Hi Ho. eapply H2; eauto.
  Qed.

  (** one action *)
  Lemma LA_do (a : wact) (F : wstate -> wresp a -> wstate -> Prop) (O : wstate -> wresp a -> Prop) :
    (forall t m s w m' x, WInv m s -> wexec t a m w = Some (m', x) ->
       (exists s', F s x s' /\ WInv m' s' /\ wrely t m s m' s') \/ (m' = m /\ O s x)) ->
    LA (do a) F O.
  Proof.
    intros H t o Q m s obs0 H1 H2. simpl. intros m1 s1 Hr Hi w m2 x He.
    destruct (H t m1 s1 w m2 x Hi He) as [(s2 & HF & Hi2 & Hg) | [-> HO]].
    - destruct (H1 m1 s1 obs0 x s2 Hi HF) as (st2 & Hl & HQ).
      exists st2, s2. auto.
    - destruct (H2 m1 s1 obs0 x Hi HO) as (obs1 & Hl & HQ).
      exists (Pend obs1), s1.
      refine (conj Hl (conj (wrely_refl _ _ _) (conj Hi (HQ _ (oincl_refl _))))).
  Qed.

  Lemma LA_ld a : LA (ld a) (fun s r s' => r = s a /\ seq s s') none.
  Proof.
    apply (LA_do (ALoad a)). intros t m s w m' x Hi He. simpl in He. inversion He; subst; clear He.
    left. exists s. refine (conj _ (conj Hi (wrely_refl _ _ _))). split; [apply Hi | intros b; reflexivity].
  Qed.

  Lemma Pure_racy a w : Pure wexec spec WInv wrely wrely (racy a w).
  Proof.
    intros t o Q m s st HQ. simpl. intros m1 s1 Hr Hi u m2 x He.
    inversion He; subst. exists st, s1. refine (conj (ls_skip _ _ _ _) (conj (wrely_refl _ _ _) (conj Hi (HQ _)))).
  Qed.

  Lemma Pure_ldhalf a w hi : Pure wexec spec WInv wrely wrely (ldhalf a w hi).
  Proof.
    intros t o Q m s st HQ. simpl. intros m1 s1 Hr Hi u m2 x He.
    inversion He; subst. exists st, s1. refine (conj (ls_skip _ _ _ _) (conj (wrely_refl _ _ _) (conj Hi (HQ _)))).
  Qed.

  Lemma Pure_ld a : Pure wexec spec WInv wrely wrely (ld a).
  Proof.
    intros t o Q m s st HQ. simpl. intros m1 s1 Hr Hi u m2 x He.
    inversion He; subst. exists st, s1. refine (conj (ls_skip _ _ _ _) (conj (wrely_refl _ _ _) (conj Hi (HQ _)))).
  Qed.

  Lemma LA_st a v : inw (bits a) v -> LA (st a v) (fun s _ s' => supd s a v s') none.
  Proof.
    intros Hv. apply (LA_do (AStore a v)). intros t m s w m' x Hi He. simpl in He. inversion He; subst; clear He.
    left. exists (upd s a v). refine (conj _ (conj (put_inv _ _ _ _ Hi Hv) (put_rely _ _ _ _ _ _))).
    apply upd_supd.
  Qed.

  Lemma LA_xchg a v : inw (bits a) v -> LA (xchg a v) (fun s r s' => r = s a /\ supd s a v s') none.
  Proof.
    intros Hv. apply (LA_do (AXchg a v)). intros t m s w m' x Hi He. simpl in He. inversion He; subst; clear He.
    left. exists (upd s a v). refine (conj _ (conj (put_inv _ _ _ _ Hi Hv) (put_rely _ _ _ _ _ _))).
    split; [apply Hi | apply upd_supd].
  Qed.

  Lemma LA_rmw a w e : w = bits a -> 
    LA (rmw a w e) (fun s r s' => r = s a /\ supd s a (wrap w (eff_apply e (s a))) s') none.
  Proof.
    intros Hw. apply (LA_do (ARmw a w e)). intros t m s u m' x Hi He. simpl in He. inversion He; subst; clear He.
    left. exists (upd s a (wrap (bits a) (eff_apply e (s a)))).
    assert (E : val (m a) = s a) by apply Hi. rewrite E.
    refine (conj _ (conj (put_inv _ _ _ _ Hi _) (put_rely _ _ _ _ _ _))).
    - split; [reflexivity | apply upd_supd].
    - apply wrap_range. specialize (bits_pos a). lia.
  Qed.

  (** compare-and-swap: success, genuine failure; spurious failure *)
  Definition casF (a : addr) (e d : Z) (s : wstate) (r : bool * Z) (s' : wstate) : Prop :=
    (s a = e /\ r = (true, e) /\ supd s a d s') \/ (s a <> e /\ r = (false, s a) /\ s' = s).
  Definition caswO (a : addr) (e : Z) (s : wstate) (r : bool * Z) : Prop := s a = e /\ r = (false, e).

  Lemma LA_cas a e d : inw (bits a) d -> LA (cas a e d) (casF a e d) none.
  Proof.
    intros Hd. apply (LA_do (ACas a e d)). intros t m s u m' x Hi He. simpl in He.
    assert (E : val (m a) = s a) by apply Hi. rewrite E in He.
    destruct (s a =? e) eqn:Ee; inversion He; subst; clear He; left.
    - apply Z.eqb_eq in Ee. exists (upd s a d).
      refine (conj _ (conj (put_inv _ _ _ _ Hi Hd) (put_rely _ _ _ _ _ _))).
      left. rewrite Ee. auto using upd_supd.
    - apply Z.eqb_neq in Ee. exists s. refine (conj _ (conj Hi (wrely_refl _ _ _))). right. auto.
  Qed.

  Lemma LA_casw a e d : inw (bits a) d -> LA (casw a e d) (casF a e d) (caswO a e).
  Proof.
    intros Hd. apply (LA_do (ACasW a e d)). intros t m s u m' x Hi He. simpl in He.
    assert (E : val (m a) = s a) by apply Hi. rewrite E in He.
    destruct (s a =? e) eqn:Ee; simpl in He.
    - apply Z.eqb_eq in Ee. destruct (lucky u); inversion He; subst m' x; clear He.
      + left. exists (upd s a d).
        refine (conj _ (conj (put_inv _ _ _ _ Hi Hd) (put_rely _ _ _ _ _ _))).
        left. rewrite Ee. auto using upd_supd.
      + right. split; auto. split; congruence.
    - apply Z.eqb_neq in Ee. inversion He; subst m' x; clear He. left.
      exists s. refine (conj _ (conj Hi (wrely_refl _ _ _))). right. auto.
  Qed.

  Lemma LA_cas_weak p a e d : LA p (casF a e d) none -> LA p (casF a e d) (caswO a e).
  Proof. intros H. eapply LA_weaken; [exact H | auto | intros ? ? ? ? []]. Qed.

  (** what a retry loop needs from compare_exchange_weak *)
  Definition cas_usable (casw_ : addr -> Z -> Z -> wprog (bool * Z)) (a : addr) : Prop :=
    forall e d, inw (bits a) d ->
      LA (casw_ a e d)
        (fun s r s' => (s a = e /\ r = (true, e) /\ supd s a d s') \/ (fst r = false /\ s' = s))
        (fun s r => fst r = false).

  Lemma casw_usable casw_ a :
    (forall e d, inw (bits a) d -> LA (casw_ a e d) (casF a e d) (caswO a e)) -> cas_usable casw_ a.
  Proof.
    intros H e d Hd. eapply LA_weaken; [apply H; exact Hd | |].
    - intros m s r s' Hi [(H1 & -> & H3) | (H1 & -> & H3)]; auto.
    - intros m s r Hi [H1 ->]. reflexivity.
  Qed.

  Lemma LA_cas_loop casw_ a f i :
    cas_usable casw_ a -> (forall x, inw (bits a) (f x)) ->
    LA (cas_loop casw_ a f i) (fun s r s' => r = s a /\ supd s a (f (s a)) s') none.
  Proof.
    intros Hc Hf. unfold cas_loop. apply LA_loop with (P := fun _ => True); [exact I|].
    intros old _. 
    eapply LA_weaken.
    - apply (LA_bind_ret _ _ (casw_ a old (f old)) _ (fun r : bool * Z => if fst r then inr (snd r) else inl (snd r))).
      + intros [[|] e]; reflexivity.
      + apply Hc, Hf.
    - intros m s y s' Hi ((b & e) & [(H1 & H2 & H3) | (H2 & ->)] & ->); simpl in *.
      + inversion H2; subst; simpl. split; [reflexivity|]. exact H3.
      + subst. simpl. auto.
    - intros m s y Hi ((b & e) & H1 & ->). simpl in *. subst. exact I.
  Qed.

  Lemma LA_racy_loop casw_ a w f :
    cas_usable casw_ a -> (forall x, inw (bits a) (f x)) ->
    LA (bind (racy a w) (fun i => cas_loop casw_ a f i)) (fun s r s' => r = s a /\ supd s a (f (s a)) s') none.
  Proof.
    intros Hc Hf. apply LA_pure_bind; [apply Pure_racy|]. intros i. now apply LA_cas_loop.
  Qed.

  (** ** Specification of a core *)
  Record core_ok (c : core) (sg : bool) (vw : Z) (a : addr) : Prop := {
    ok_bits : bits a = c_bits c;
    ok_vw : 0 < vw <= c_bits c;
    ok_load : forall o, LA (c_load c o a) (fun s r s' => r = s a /\ seq s s') none;
    ok_store : forall o v, inw (bits a) v -> LA (c_store c o a v) (fun s _ s' => supd s a v s') none;
    ok_exchange : forall v, inw (bits a) v -> LA (c_exchange c a v) (fun s r s' => r = s a /\ supd s a v s') none;
    ok_cas : forall e d, inw (bits a) d -> LA (c_cas c a e d) (casF a e d) none;
    ok_casw : forall e d, inw (bits a) d -> LA (c_casw c a e d) (casF a e d) (caswO a e);
    ok_fetch : forall b v, inw (bits a) v ->
      LA (c_fetch c b a v) (fun s r s' => r = s a /\ supd s a (core_new sg vw (c_bits c) b (s a) v) s') none
  }.

  Lemma core_new_native sg w b x v : 0 < w -> core_new sg w w b x v = wrap w (bin_apply b x v).
  Proof. intros Hw. destruct b; simpl; auto; now rewrite norm_wrap. Qed.

  Lemma inw_wrap w x : 0 < w -> inw w (wrap w x).
  Proof. intros. apply wrap_range. lia. Qed.

  (** drop the result *)
  Lemma LA_unit (p : wprog Z) (F : wstate -> wstate -> Prop) :
    LA p (fun s _ s' => F s s') none -> LA (bind p (fun _ => Ret tt)) (fun s _ s' => F s s') none.
  Proof.
    intros H. eapply LA_weaken; [apply (LA_bind_ret _ _ p _ (fun _ => tt)); [reflexivity | exact H] | |].
    - intros m s r s' _ (r0 & H0 & _). exact H0.
    - intros m s r _ (r0 & [] & _).
  Qed.

  Lemma LA_forget (p : wprog Z) (F : wstate -> Z -> wstate -> Prop) (G : wstate -> wstate -> Prop) :
    LA p F none -> (forall s r s', F s r s' -> G s s') -> LA p (fun s _ s' => G s s') none.
  Proof. intros H HG. eapply LA_weaken; [exact H | eauto | intros ? ? ? ? []]. Qed.

  Lemma LA_xchg_store a v : inw (bits a) v ->
    LA (bind (xchg a v) (fun _ => Ret tt)) (fun s _ s' => supd s a v s') none.
  Proof.
    intros Hv. apply (LA_unit (xchg a v) (fun s s' => supd s a v s')).
    apply (LA_forget (xchg a v) _ (fun s s' => supd s a v s') (LA_xchg a v Hv)). tauto.
  Qed.

  Ltac core_simpl := cbn [c_load c_store c_exchange c_cas c_casw c_fetch c_bits c_full_cas].

  (** *** gcc __atomic *)
  Lemma LA_rmw_bin sg a w b v : w = bits a ->
    LA (rmw a w (Bin b v)) (fun s r s' => r = s a /\ supd s a (core_new sg w w b (s a) v) s') none.
  Proof.
    intros Hw. eapply LA_weaken; [apply LA_rmw; exact Hw | | intros ? ? ? ? []].
    intros m s r s' Hi [H1 H2]. split; [exact H1|].
    rewrite core_new_native by (subst; apply bits_pos). exact H2.
  Qed.

  Lemma gcc_atomic_ok old sg w a : bits a = w -> core_ok (gcc_atomic old w) sg w a.
  Proof.
    intros Hw. assert (Hp := bits_pos a).
    constructor; simpl; auto; try lia.
    - intros o. apply LA_ld.
    - intros o v Hv. destruct (old && is_seq_cst o); [now apply LA_xchg_store | now apply LA_st].
    - intros v Hv. now apply LA_xchg.
    - intros e d Hd. now apply LA_cas.
    - intros e d Hd. now apply LA_casw.
    - intros b v Hv. apply LA_rmw_bin. auto.
  Qed.

  (** *** CAS answering the word found *)
  Lemma LA_cas_found a g : LA (bind (cas a g g) (fun x => match x with (_, old) => Ret old end))
                              (fun s r s' => r = s a /\ seq s s') none.
  Proof.
    intros t o Q m s obs0 H1 H2. simpl. intros m1 s1 Hr Hi w m2 x He.
    assert (E : val (m1 a) = s1 a) by apply Hi. simpl in He. rewrite E in He.
    destruct (s1 a =? g) eqn:Eg; inversion He; subst; clear He.
    - apply Z.eqb_eq in Eg.
      assert (Hs : seq s1 (upd s1 a g)) by (eapply supd_same; [apply upd_supd | auto]).
      destruct (H1 m1 s1 obs0 (s1 a) (upd s1 a g) Hi) as (st2 & Hl & HQ); [auto|].
      exists st2, (upd s1 a g). refine (conj Hl (conj (put_rely _ _ _ _ _ _) (conj _ HQ))).
      apply put_inv; auto. rewrite <- Eg. apply Hi.
    - destruct (H1 m2 s1 obs0 (s1 a) s1 Hi) as (st2 & Hl & HQ); [split; [auto | intros b; reflexivity]|].
      exists st2, s1. refine (conj Hl (conj (wrely_refl _ _ _) (conj Hi HQ))).
  Qed.

  Lemma LA_sync_cas a e d : inw (bits a) d -> LA (sync_cas a e d) (casF a e d) none.
  Proof.
    intros Hd. unfold sync_cas.
    eapply LA_weaken.
    - apply (LA_bind_ret _ _ (cas a e d) _ (fun r : bool * Z => if snd r =? e then (true, e) else (false, snd r))).
      + intros [b old]; simpl. destruct (old =? e); reflexivity.
      + apply LA_cas; exact Hd.
    - intros m s r s' Hi (r0 & [(H1 & -> & H3) | (H1 & -> & H3)] & ->); simpl.
      + rewrite Z.eqb_refl. left. auto.
      + apply Z.eqb_neq in H1. rewrite H1. apply Z.eqb_neq in H1. right. auto.
    - intros m s r Hi (r0 & [] & _).
  Qed.

  Lemma LA_sparc_cas a e d : inw (bits a) d -> LA (sparc_cas a e d) (casF a e d) none.
  Proof.
    intros Hd. unfold sparc_cas.
    eapply LA_weaken.
    - apply (LA_bind_ret _ _ (cas a e d) _ (fun r : bool * Z => (snd r =? e, snd r))).
      + intros [b old]; reflexivity.
      + apply LA_cas; exact Hd.
    - intros m s r s' Hi (r0 & [(H1 & -> & H3) | (H1 & -> & H3)] & ->); simpl.
      + rewrite Z.eqb_refl. left. auto.
      + apply Z.eqb_neq in H1. rewrite H1. apply Z.eqb_neq in H1. right. auto.
    - intros m s r Hi (r0 & [] & _).
  Qed.

  Lemma gcc_sync_ok plain sg w a : bits a = w -> core_ok (gcc_sync plain w) sg w a.
  Proof.
    intros Hw. assert (Hp := bits_pos a).
    constructor; simpl; auto; try lia.
    - intros o. destruct plain; [apply LA_ld | apply LA_cas_found].
    - intros o v Hv. destruct plain; [now apply LA_st | now apply LA_xchg_store].
    - intros v Hv. now apply LA_xchg.
    - intros e d Hd. now apply LA_sync_cas.
    - intros e d Hd. apply LA_cas_weak. now apply LA_sync_cas.
    - intros b v Hv. apply LA_rmw_bin. auto.
  Qed.

  (** *** building blocks *)
  Lemma LA_cas_based_fetch casw_ sg w a b v : bits a = w -> cas_usable casw_ a ->
    LA (cas_based_fetch w casw_ b a v) (fun s r s' => r = s a /\ supd s a (core_new sg w w b (s a) v) s') none.
  Proof.
    intros Hw Hc. assert (Hp := bits_pos a). unfold cas_based_fetch. eapply LA_weaken; [apply LA_racy_loop| |].
    - exact Hc.
    - intros x. rewrite Hw. apply inw_wrap. lia.
    - intros m s r s' Hi [H1 H2]. split; [exact H1|]. rewrite core_new_native by lia. exact H2.
    - intros ? ? ? ? [].
  Qed.

  Lemma LA_cas_based_exchange casw_ w a v : bits a = w -> cas_usable casw_ a -> inw (bits a) v ->
    LA (cas_based_exchange w casw_ a v) (fun s r s' => r = s a /\ supd s a v s') none.
  Proof. intros Hw Hc Hv. unfold cas_based_exchange. apply (LA_racy_loop casw_ a w (fun _ => v)); auto. Qed.

  Lemma cas_based_ok c sg a :
    bits a = c_bits c ->
    (forall o, LA (c_load c o a) (fun s r s' => r = s a /\ seq s s') none) ->
    (forall o v, inw (bits a) v -> LA (c_store c o a v) (fun s _ s' => supd s a v s') none) ->
    (forall v, inw (bits a) v -> LA (c_exchange c a v) (fun s r s' => r = s a /\ supd s a v s') none) ->
    (forall e d, inw (bits a) d -> LA (c_cas c a e d) (casF a e d) none) ->
    (forall e d, inw (bits a) d -> LA (c_casw c a e d) (casF a e d) (caswO a e)) ->
    core_ok (cas_based c) sg (c_bits c) a.
  Proof.
    intros Hw H1 H2 H3 H4 H5. assert (Hp := bits_pos a).
    constructor; simpl; auto; try lia.
    intros b v Hv. apply LA_cas_based_fetch; auto. now apply casw_usable.
  Qed.

  Lemma extending_ok c sg vw a : core_ok c sg (c_bits c) a -> 0 < vw <= c_bits c ->
    core_ok (extending sg vw c) sg vw a.
  Proof.
    intros H Hv. assert (Hb := ok_bits _ _ _ _ H).
    constructor; simpl; try apply H; auto.
    intros b v Hin.
    assert (HA : b = Add \/ b = Sub ->
       LA (bind (racy a (c_bits c)) (fun i => cas_loop (c_casw c) a
             (fun old => integral_extend sg false vw (c_bits c) (wrap vw (bin_apply b old v))) i))
          (fun s r s' => r = s a /\ supd s a (core_new sg vw (c_bits c) b (s a) v) s') none).
    { intros Hbb. eapply LA_weaken; [apply LA_racy_loop| |].
      - apply casw_usable. apply H.
      - intros x. rewrite extend_norm; [|lia|apply wrap_range; lia].
        rewrite Hb. apply inw_wrap. lia.
      - intros m s r s' Hi [H1 H2]. split; [exact H1|].
        rewrite extend_norm in H2; [|lia|apply wrap_range; lia].
        rewrite (norm_congr sg vw _ (bin_apply b (s a) v)) in H2; [|lia|apply wrap_wrap].
        destruct Hbb; subst b; exact H2.
      - intros ? ? ? ? []. }
    destruct b; auto;
      (eapply LA_weaken; [apply (ok_fetch _ _ _ _ H); exact Hin | auto | intros ? ? ? ? []]).
  Qed.

  (** *** x86 *)
  Lemma bin_comm b x v : b <> Add -> b <> Sub -> bin_apply b v x = bin_apply b x v.
  Proof. destruct b; simpl; try congruence; intros; [apply Z.land_comm | apply Z.lor_comm | apply Z.lxor_comm]. Qed.

  Lemma cas_usable_cas a : cas_usable (fun a e d => cas a e d) a.
  Proof. apply casw_usable. intros e d Hd. apply LA_cas_weak. now apply LA_cas. Qed.

  Lemma LA_x86_loop sg w b a v : bits a = w -> b <> Add -> b <> Sub ->
    LA (x86_loop w b a v) (fun s r s' => r = s a /\ supd s a (core_new sg w w b (s a) v) s') none.
  Proof.
    intros Hw Hb1 Hb2. assert (Hp := bits_pos a). unfold x86_loop.
    apply LA_pure_bind; [apply Pure_ld|]. intros i.
    eapply LA_weaken; [apply LA_cas_loop| |].
    - apply cas_usable_cas.
    - intros x. rewrite Hw. apply inw_wrap. lia.
    - intros m s r s' Hi [H1 H2]. split; [exact H1|]. rewrite core_new_native by lia.
      rewrite bin_comm in H2 by auto. exact H2.
    - intros ? ? ? ? [].
  Qed.

  Lemma LA_sub_as_add sg w a v : bits a = w ->
    LA (rmw a w (Bin Add (wrap w (- v)))) (fun s r s' => r = s a /\ supd s a (core_new sg w w Sub (s a) v) s') none.
  Proof.
    intros Hw. assert (Hp := bits_pos a).
    eapply LA_weaken; [apply LA_rmw; auto | | intros ? ? ? ? []].
    intros m s r s' Hi [H1 H2]. split; [exact H1|].
    rewrite core_new_native by lia. simpl in *. rewrite wrap_add_r in H2. exact H2.
  Qed.

  Lemma x86_ok sg w a : bits a = w -> core_ok (x86 w) sg w a.
  Proof.
    intros Hw. assert (Hp := bits_pos a).
    constructor; simpl; auto; try lia.
    - intros o. apply LA_ld.
    - intros o v Hv. destruct (is_seq_cst o); [now apply LA_xchg_store | now apply LA_st].
    - intros v Hv. now apply LA_xchg.
    - intros e d Hd. now apply LA_cas.
    - intros e d Hd. apply LA_cas_weak. now apply LA_cas.
    - intros b v Hv. destruct b; try (apply LA_x86_loop; congruence).
      + apply LA_rmw_bin. auto.
      + now apply LA_sub_as_add.
  Qed.

  Lemma LA_dcas_swap w a v : inw (bits a) v ->
    LA (dcas_swap w a v) (fun s r s' => r = s a /\ supd s a v s') none.
  Proof.
    intros Hv. unfold dcas_swap.
    apply LA_pure_bind; [apply Pure_ldhalf|]. intros lo.
    apply LA_pure_bind; [apply Pure_ldhalf|]. intros hi.
    apply (LA_cas_loop _ a (fun _ => v)); auto using cas_usable_cas.
  Qed.

  Lemma dcas_x86_ok vec sg w a : bits a = w -> core_ok (dcas_x86 vec w) sg w a.
  Proof.
    intros Hw. apply (cas_based_ok (dcas_x86_base vec w)); unfold dcas_x86_base; core_simpl; auto.
    - intros o. destruct vec; [apply LA_ld|].
      apply LA_pure_bind; [apply Pure_racy|]. intros g. apply LA_cas_found.
    - intros o v Hv. destruct (vec && negb (is_seq_cst o)); [now apply LA_st|].
      apply (LA_unit (dcas_swap w a v) (fun s s' => supd s a v s')).
      apply (LA_forget _ _ (fun s s' => supd s a v s') (LA_dcas_swap w a v Hv)). tauto.
    - intros v Hv. now apply LA_dcas_swap.
    - intros e d Hd. now apply LA_cas.
    - intros e d Hd. apply LA_cas_weak. now apply LA_cas.
  Qed.

  (** *** Linux kernel helper *)
  Lemma LA_karm_casw a e d : inw (bits a) d -> LA (karm_casw a e d) (casF a e d) (caswO a e).
  Proof.
    intros Hd t o Q m s obs0 H1 H2. simpl. intros m1 s1 Hr Hi w m2 x He.
    assert (E : val (m1 a) = s1 a) by apply Hi. simpl in He. rewrite E in He.
    destruct ((s1 a =? e) && lucky w) eqn:Ee; inversion He; subst; clear He.
    - apply andb_prop in Ee. destruct Ee as [Ee _]. apply Z.eqb_eq in Ee.
      destruct (H1 m1 s1 obs0 (true, e) (upd s1 a d) Hi) as (st2 & Hl & HQ).
      { left. auto using upd_supd. }
      exists st2, (upd s1 a d). refine (conj Hl (conj (put_rely _ _ _ _ _ _) (conj (put_inv _ _ _ _ Hi Hd) HQ))).
    - exists (Pend obs0), s1. refine (conj (ls_skip _ _ _ _) (conj (wrely_refl _ _ _) (conj Hi _))).
      simpl. intros m3 s3 Hr3 Hi3 w3 m4 v He4. inversion He4; subst; clear He4.
      assert (E3 : val (m4 a) = s3 a) by apply Hi3. rewrite E3.
      destruct (Z.eq_dec (s3 a) e) as [Hv|Hv].
      + destruct (H2 m4 s3 obs0 (false, e) Hi3) as (obs1 & Hl & HQ); [split; auto|].
        exists (Pend obs1), s3. rewrite Hv.
        refine (conj Hl (conj (wrely_refl _ _ _) (conj Hi3 (HQ _ (oincl_refl _))))).
      + destruct (H1 m4 s3 obs0 (false, s3 a) s3 Hi3) as (st2 & Hl & HQ); [right; auto|].
        exists st2, s3. refine (conj Hl (conj (wrely_refl _ _ _) (conj Hi3 HQ))).
  Qed.

  Lemma LA_karm_cas a e d : inw (bits a) d -> LA (karm_cas a e d) (casF a e d) none.
  Proof.
    intros Hd. unfold karm_cas. apply LA_loop with (P := fun _ => True); [exact I|].
    intros _ _. eapply LA_weaken.
    - apply (LA_bind_ret _ _ (karm_casw a e d) _
        (fun r : bool * Z => if fst r then inr (true, e) else if snd r =? e then inl tt else inr (false, snd r))).
      + intros [[|] v]; simpl; [reflexivity|]. destruct (v =? e); reflexivity.
      + apply LA_karm_casw; exact Hd.
    - intros m s y s' Hi (r & [(A & -> & C) | (A & -> & C)] & ->); simpl.
      + left. auto.
      + assert (A' := A). apply Z.eqb_neq in A. rewrite A. right. auto.
    - intros m s y Hi (r & [A ->] & ->). simpl. rewrite Z.eqb_refl. exact I.
  Qed.

  Lemma linux_arm_ok sg a : bits a = 32 -> core_ok linux_arm sg 32 a.
  Proof.
    intros Hw. apply (cas_based_ok {| c_bits := 32 |}); simpl; auto.
    - intros o. apply LA_ld.
    - intros o v Hv. now apply LA_st.
    - intros v Hv. apply LA_cas_based_exchange; auto. apply casw_usable. intros. now apply LA_karm_casw.
    - intros e d Hd. now apply LA_karm_cas.
    - intros e d Hd. now apply LA_karm_casw.
  Qed.

  (** *** SPARC *)
  Lemma sparc_usable a : cas_usable sparc_cas a.
  Proof. apply casw_usable. intros e d Hd. apply LA_cas_weak. now apply LA_sparc_cas. Qed.

  Lemma sparc_ok sg w a : bits a = w -> core_ok (sparc w) sg w a.
  Proof.
    intros Hw. apply (cas_based_ok {| c_bits := w |}); simpl; auto.
    - intros o. apply LA_ld.
    - intros o v Hv. now apply LA_st.
    - intros v Hv. destruct (w =? 32); [now apply LA_xchg|].
      apply LA_cas_based_exchange; auto using sparc_usable.
    - intros e d Hd. now apply LA_sparc_cas.
    - intros e d Hd. apply LA_cas_weak. now apply LA_sparc_cas.
  Qed.

  (** *** LL/SC *)
  (* a store-conditional that succeeds sees the word of its load-linked *)
  Lemma sc_same t m s m' s' a : wrely t m s m' s' -> WInv m s -> WInv m' s' ->
    ver (m' a) = ver (m a) -> s' a = s a.
  Proof.
    intros Hr Hi Hi' E. destruct (Hr a) as [_ H]. specialize (H E).
    destruct (Hi a), (Hi' a). congruence.
  Qed.

  Lemma LA_ll_loop a f : (forall x, inw (bits a) x -> inw (bits a) (f x)) ->
    LA (ll_loop a f) (fun s r s' => r = s a /\ supd s a (f (s a)) s') none.
  Proof.
    intros Hf. unfold ll_loop. apply LA_loop with (P := fun _ => True); [exact I|].
    intros _ _ t o Q m s obs0 H1 H2. simpl. intros m1 s1 Hr Hi w m2 x He.
    inversion He; subst; clear He.
    exists (Pend obs0), s1. refine (conj (ls_skip _ _ _ _) (conj (wrely_refl _ _ _) (conj Hi _))).
    simpl. intros m3 s3 Hr3 Hi3 w3 m4 b He4.
    destruct (ver (m3 a) =? ver (m2 a)) eqn:Ev; simpl in He4.
    - apply Z.eqb_eq in Ev. destruct (lucky w3); inversion He4; subst; clear He4.
      + assert (Es := sc_same _ _ _ _ _ a Hr3 Hi Hi3 Ev).
        assert (Ex : val (m2 a) = s3 a) by (rewrite Es; apply Hi). rewrite Ex.
        destruct (H1 m3 s3 obs0 (inr (s3 a)) (upd s3 a (f (s3 a))) Hi3) as (st2 & Hl & HQ).
        { auto using upd_supd. }
        exists st2, (upd s3 a (f (s3 a))).
        refine (conj Hl (conj (put_rely _ _ _ _ _ _) (conj (put_inv _ _ _ _ Hi3 _) HQ))).
        apply Hf. apply Hi3.
      + destruct (H1 m4 s3 obs0 (inl tt) s3 Hi3) as (st2 & Hl & HQ); [auto|].
        exists st2, s3. refine (conj Hl (conj (wrely_refl _ _ _) (conj Hi3 HQ))).
    - inversion He4; subst; clear He4.
      destruct (H1 m4 s3 obs0 (inl tt) s3 Hi3) as (st2 & Hl & HQ); [auto|].
      exists st2, s3. refine (conj Hl (conj (wrely_refl _ _ _) (conj Hi3 HQ))).
  Qed.

  Lemma LA_ll_casw a e d : inw (bits a) d -> LA (ll_casw a e d) (casF a e d) (caswO a e).
  Proof.
    intros Hd t o Q m s obs0 H1 H2. simpl. intros m1 s1 Hr Hi w m2 x He.
    inversion He; subst; clear He.
    assert (E : val (m2 a) = s1 a) by apply Hi. rewrite E.
    destruct (s1 a =? e) eqn:Ee.
    - apply Z.eqb_eq in Ee.
      destruct (H2 m2 s1 obs0 (false, e) Hi) as (obs1 & Hl1 & HQ1); [split; auto|].
      exists (Pend obs1), s1. refine (conj Hl1 (conj (wrely_refl _ _ _) (conj Hi _))).
      simpl. intros m3 s3 Hr3 Hi3 w3 m4 b He4.
      destruct (ver (m3 a) =? ver (m2 a)) eqn:Ev; simpl in He4.
      + apply Z.eqb_eq in Ev. destruct (lucky w3); inversion He4; subst m4 b; clear He4.
        * assert (Es := sc_same _ _ _ _ _ a Hr3 Hi Hi3 Ev).
          destruct (H1 m3 s3 obs1 (true, s1 a) (upd s3 a d) Hi3) as (st2 & Hl & HQ).
          { left. rewrite Es, Ee. auto using upd_supd. }
          exists st2, (upd s3 a d).
          refine (conj Hl (conj (put_rely _ _ _ _ _ _) (conj (put_inv _ _ _ _ Hi3 Hd) HQ))).
        * exists (Pend obs1), s3. rewrite Ee.
          refine (conj (ls_skip _ _ _ _) (conj (wrely_refl _ _ _) (conj Hi3 (HQ1 _ (oincl_refl _))))).
      + inversion He4; subst m4 b; clear He4. exists (Pend obs1), s3. rewrite Ee.
        refine (conj (ls_skip _ _ _ _) (conj (wrely_refl _ _ _) (conj Hi3 (HQ1 _ (oincl_refl _))))).
    - apply Z.eqb_neq in Ee.
      destruct (H1 m2 s1 obs0 (false, s1 a) s1 Hi) as (st2 & Hl & HQ); [right; auto|].
      exists st2, s1. refine (conj Hl (conj (wrely_refl _ _ _) (conj Hi HQ))).
  Qed.

  Lemma LA_ll_cas a e d : inw (bits a) d -> LA (ll_cas a e d) (casF a e d) none.
  Proof.
    intros Hd. unfold ll_cas. apply LA_loop with (P := fun _ => True); [exact I|].
    intros _ _ t o Q m s obs0 H1 H2. simpl. intros m1 s1 Hr Hi w m2 x He.
    inversion He; subst; clear He.
    assert (E : val (m2 a) = s1 a) by apply Hi. rewrite E.
    destruct (s1 a =? e) eqn:Ee.
    - apply Z.eqb_eq in Ee.
      exists (Pend obs0), s1. refine (conj (ls_skip _ _ _ _) (conj (wrely_refl _ _ _) (conj Hi _))).
      simpl. intros m3 s3 Hr3 Hi3 w3 m4 b He4.
      destruct (ver (m3 a) =? ver (m2 a)) eqn:Ev; simpl in He4.
      + apply Z.eqb_eq in Ev. destruct (lucky w3); inversion He4; subst m4 b; clear He4.
        * assert (Es := sc_same _ _ _ _ _ a Hr3 Hi Hi3 Ev).
          destruct (H1 m3 s3 obs0 (inr (true, s1 a)) (upd s3 a d) Hi3) as (st2 & Hl & HQ).
          { left. rewrite Es, Ee. auto using upd_supd. }
          exists st2, (upd s3 a d).
          refine (conj Hl (conj (put_rely _ _ _ _ _ _) (conj (put_inv _ _ _ _ Hi3 Hd) HQ))).
        * destruct (H1 m3 s3 obs0 (inl tt) s3 Hi3) as (st2 & Hl & HQ); [auto|].
          exists st2, s3. refine (conj Hl (conj (wrely_refl _ _ _) (conj Hi3 HQ))).
      + inversion He4; subst m4 b; clear He4.
        destruct (H1 m3 s3 obs0 (inl tt) s3 Hi3) as (st2 & Hl & HQ); [auto|].
        exists st2, s3. refine (conj Hl (conj (wrely_refl _ _ _) (conj Hi3 HQ))).
    - apply Z.eqb_neq in Ee.
      destruct (H1 m2 s1 obs0 (inr (false, s1 a)) s1 Hi) as (st2 & Hl & HQ); [right; auto|].
      exists st2, s1. refine (conj Hl (conj (wrely_refl _ _ _) (conj Hi HQ))).
  Qed.

  Lemma llsc_ok w fx sg vw a : bits a = w -> 0 < vw <= w ->
    (forall y, inw w (fx (wrap w y))) ->
    (forall y, fx (wrap w y) = wrap w (norm sg vw y)) ->
    core_ok (llsc w fx) sg vw a.
  Proof.
    intros Hw Hv Hfx Hfn. assert (Hp := bits_pos a).
    constructor; simpl; auto; try lia.
    - intros o. apply LA_ld.
    - intros o v Hin. now apply LA_st.
    - intros v Hin. apply (LA_ll_loop a (fun _ => v)). auto.
    - intros e d Hd. now apply LA_ll_cas.
    - intros e d Hd. now apply LA_ll_casw.
    - intros b v Hin.
      assert (HB : LA (ll_loop a (fun x => wrap w (bin_apply b x v)))
                      (fun s r s' => r = s a /\ supd s a (wrap w (bin_apply b (s a) v)) s') none).
      { apply (LA_ll_loop a (fun x => wrap w (bin_apply b x v))). intros x _. rewrite Hw. apply inw_wrap. lia. }
      assert (HA : LA (ll_loop a (fun x => fx (wrap w (bin_apply b x v))))
                      (fun s r s' => r = s a /\ supd s a (wrap w (norm sg vw (bin_apply b (s a) v))) s') none).
      { eapply LA_weaken; [apply (LA_ll_loop a (fun x => fx (wrap w (bin_apply b x v)))) | | intros ? ? ? ? []].
        - intros x _. rewrite Hw. apply Hfx.
        - intros m s r s' Hi [A B]. split; [exact A|]. rewrite Hfn in B. exact B. }
      destruct b; simpl in *; auto.
  Qed.

  Lemma llsc_native_ok sg w a : bits a = w -> core_ok (llsc_native w) sg w a.
  Proof.
    intros Hw. assert (Hp := bits_pos a). apply llsc_ok; auto; try lia.
    - intros y. apply inw_wrap. lia.
    - intros y. rewrite norm_wrap by lia. reflexivity.
  Qed.

  Lemma LA_lone_ll a : LA (bind (ll a) (fun x => let (x, _) := x in Ret x)) (fun s r s' => r = s a /\ seq s s') none.
  Proof.
    intros t o Q m s obs0 H1 H2. simpl. intros m1 s1 Hr Hi w m2 x He. inversion He; subst; clear He.
    assert (E : val (m2 a) = s1 a) by apply Hi. rewrite E.
    destruct (H1 m2 s1 obs0 (s1 a) s1 Hi) as (st2 & Hl & HQ); [split; [reflexivity|intros b; reflexivity]|].
    exists st2, s1. refine (conj Hl (conj (wrely_refl _ _ _) (conj Hi HQ))).
  Qed.
  Lemma llsc_dword_ok sg a : bits a = 64 -> core_ok llsc_dword sg 64 a.
  Proof.
    intros Hw. destruct (llsc_native_ok sg 64 a Hw) as [B V L S X C W F]. constructor; try assumption.
    - intros o. apply LA_lone_ll.
    - intros o v Hin. apply (LA_unit (ll_loop a (fun _ => v)) (fun s s' => supd s a v s')).
      apply (LA_forget (ll_loop a (fun _ => v)) _ (fun s s' => supd s a v s') (LA_ll_loop a (fun _ => v) (fun _ _ => Hin))). tauto.
  Qed.

  Lemma reg_ext_norm sg vw w y : 0 < vw <= w -> reg_ext sg vw w (wrap w y) = wrap w (norm sg vw y).
  Proof.
    intros Hv. unfold reg_ext. rewrite wrap_wrap_le by lia. destruct sg.
    - rewrite sval_norm; [|lia|apply wrap_range; lia].
      rewrite (norm_congr true vw _ y); [reflexivity|lia|apply wrap_wrap].
    - rewrite (wrap_id w); [reflexivity|]. simpl. fold (wrap vw y).
      assert (H := wrap_range vw y). assert (2 ^ vw <= 2 ^ w) by (apply Z.pow_le_mono_r; lia). lia.
  Qed.

  Lemma llsc_narrow_ok sg vw w a : bits a = w -> 0 < vw <= w -> core_ok (llsc_narrow sg vw w) sg vw a.
  Proof.
    intros Hw Hv. apply llsc_ok; auto.
    - intros y. rewrite reg_ext_norm by lia. apply inw_wrap. lia.
    - intros y. now apply reg_ext_norm.
  Qed.

  (** *** AArch64 LSE *)
  Lemma lnot_lnot_and w x v : 0 < w ->
    wrap w (Z.land x (wrap w (Z.lnot (wrap w (Z.lnot v))))) = wrap w (Z.land x v).
  Proof.
    intros Hw. rewrite wrap_lnot_wrap by lia. rewrite Z.lnot_involutive.
    rewrite wrap_land by lia. rewrite wrap_wrap. rewrite <- wrap_land by lia. reflexivity.
  Qed.

  Lemma aarch64_lse_ok sg w a : bits a = w -> core_ok (aarch64_lse w) sg w a.
  Proof.
    intros Hw. assert (Hp := bits_pos a).
    constructor; simpl; auto; try lia.
    - intros o. apply LA_ld.
    - intros o v Hv. now apply LA_st.
    - intros v Hv. now apply LA_xchg.
    - intros e d Hd. now apply LA_sparc_cas.
    - intros e d Hd. apply LA_cas_weak. now apply LA_sparc_cas.
    - intros b v Hv. destruct b; try (apply LA_rmw_bin; auto).
      + now apply LA_sub_as_add.
      + eapply LA_weaken; [apply LA_rmw; auto | | intros ? ? ? ? []].
        intros m s r s' Hi [H1 H2]. split; [exact H1|]. simpl in *.
        rewrite lnot_lnot_and in H2 by lia. exact H2.
  Qed.

  (** *** Windows, MSVC *)
  Lemma LA_ms_bitop intr sg w b a v : bits a = w ->
    LA (ms_bitop intr w b a v) (fun s r s' => r = s a /\ supd s a (core_new sg w w b (s a) v) s') none.
  Proof.
    intros Hw. assert (Hp := bits_pos a). unfold ms_bitop. destruct intr; [apply LA_rmw_bin; auto|].
    apply LA_pure_bind; [apply Pure_ld|]. intros i.
    eapply LA_weaken; [apply LA_cas_loop| |].
    - apply sparc_usable.
    - intros x. rewrite Hw. apply inw_wrap. lia.
    - intros m s r s' Hi [H1 H2]. split; [exact H1|]. rewrite core_new_native by lia. exact H2.
    - intros ? ? ? ? [].
  Qed.

  Lemma windows_ok intr sg a : bits a = 32 -> core_ok (windows intr) sg 32 a.
  Proof.
    intros Hw. assert (Hp := bits_pos a).
    constructor; simpl; auto; try lia.
    - intros o. eapply LA_weaken; [apply LA_rmw; auto | | intros ? ? ? ? []].
      intros m s r s' Hi [H1 H2]. split; [exact H1|]. simpl in H2.
      eapply supd_same; [exact H2|]. rewrite Z.add_0_r. apply wrap_id. rewrite <- Hw. apply Hi.
    - intros o v Hv. now apply LA_xchg_store.
    - intros v Hv. now apply LA_xchg.
    - intros e d Hd. now apply LA_sparc_cas.
    - intros e d Hd. apply LA_cas_weak. now apply LA_sparc_cas.
    - intros b v Hv. destruct b; try (apply LA_ms_bitop; auto).
      + apply LA_rmw_bin. auto.
      + now apply LA_sub_as_add.
  Qed.

  Lemma msvc_x86_ok intr sg w a : bits a = w -> core_ok (msvc_x86 intr w) sg w a.
  Proof.
    intros Hw. assert (Hp := bits_pos a).
    constructor; simpl; auto; try lia.
    - intros o. apply LA_ld.
    - intros o v Hv. destruct (is_seq_cst o); [now apply LA_xchg_store | now apply LA_st].
    - intros v Hv. now apply LA_xchg.
    - intros e d Hd. now apply LA_sparc_cas.
    - intros e d Hd. apply LA_cas_weak. now apply LA_sparc_cas.
    - intros b v Hv. destruct b; try (apply LA_ms_bitop; auto).
      + apply LA_rmw_bin. auto.
      + now apply LA_sub_as_add.
  Qed.

  Lemma msvc_arm_ok sg w a : bits a = w -> core_ok (msvc_arm w) sg w a.
  Proof.
    intros Hw. assert (Hp := bits_pos a).
    constructor; simpl; auto; try lia.
    - intros o. apply LA_ld.
    - intros o v Hv. now apply LA_st.
    - intros v Hv. now apply LA_xchg.
    - intros e d Hd. now apply LA_sparc_cas.
    - intros e d Hd. apply LA_cas_weak. now apply LA_sparc_cas.
    - intros b v Hv. destruct b; try (apply LA_rmw_bin; auto). now apply LA_sub_as_add.
  Qed.

  Lemma msvc_dcas_x86_64_ok vec sg a : bits a = 128 -> core_ok (msvc_dcas_x86_64 vec) sg 128 a.
  Proof.
    intros Hw. apply (cas_based_ok {| c_bits := 128 |}); core_simpl; auto.
    - intros o. destruct vec; [apply LA_ld | apply LA_cas_found].
    - intros o v Hv. destruct (vec && negb (is_seq_cst o)); [now apply LA_st|].
      apply LA_pure_bind; [apply Pure_racy|]. intros i.
      apply (LA_unit (cas_loop (fun a e d => cas a e d) a (fun _ => v) i) (fun s s' => supd s a v s')).
      eapply LA_forget; [apply (LA_cas_loop _ a (fun _ => v)); auto using cas_usable_cas|]. simpl. tauto.
    - intros v Hv. apply LA_cas_based_exchange; auto using cas_usable_cas.
    - intros e d Hd. now apply LA_cas.
    - intros e d Hd. apply LA_cas_weak. now apply LA_cas.
  Qed.
End WordRG.

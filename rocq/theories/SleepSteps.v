(** * Every step of the machine keeps the invariant of SleepInv. *)
From Coq Require Import ZArith List Bool Arith Lia.
From Verif Require Import SpecInt SpecLin SpecObj SpecBytes SpecPool Conv WordFacts Prog RG SleepLogic FindModel FindProof RecordsModel
  RecordsProof PoolModel PoolProof SleepInv.
Import ListNotations.
Open Scope Z_scope.

Section Steps.
  Variable pl : platform.
  Variable D : nat -> odesc.
  Notation lk := (pl_lock pl).
  Notation lockof a := (lock_of pl (D a)).
  Notation exec := (pexec (pl_search pl) (pl_init pl)).
  Notation Inv := (Inv pl D).
  Notation LInv := (LInv).
  Notation rely := (rely pl D).
  Notation guar := (guar pl D).
  Notation settled := (settled pl D).
  Notation word_at := (word_at D).
  Notation note := (note pl D).

  Definition set_lph (g : ghost) t p := mkg (fset (lph g) t p) (reg g) (ent g) (wcl g) (na g) (cw g) (cur g) (seen g).

  Lemma fset_if {A} (f : nat -> A) i x j : fset f i x j = if Nat.eqb j i then x else f j.
  Proof. reflexivity. Qed.

  Lemma mono_same m m' g g' : (forall i, unl m' i = unl m i) -> (forall i k, ntf m' i k = ntf m i k) -> clk m <= clk m' ->
    na g' = na g -> cw g' = cw g -> (forall a v e, seen g a v e -> seen g' a v e) -> mono m g m' g'.
  Proof.
    intros A B C E F H. constructor; intros; auto; rewrite ?A, ?B, ?E, ?F; lia.
  Qed.

  (** *** time passes *)
  Lemma clk_step m g t c : Inv m g -> clk m <= c -> guar t m g (set_clk m c) g /\ Inv (set_clk m c) g.
  Proof.
    intros I Hc. split.
    - constructor.
      + apply mono_same; auto.
      + apply hist_refl.
      + reflexivity.
      + intros u _. constructor; auto; [apply mono_same; auto|tauto].
    - destruct I. constructor; try assumption.
      + cbn. destruct i_pos as (A & B & E). repeat split; auto. lia.
      + intros L. destruct (i_lim L). constructor; assumption.
  Qed.

  (** *** an acquisition begins *)
  Lemma want_step m g t i : Inv m g -> lph g t = Out -> asleep m t = false ->
    guar t m g m (set_lph g t (Want i)) /\ Inv m (set_lph g t (Want i)).
  Proof.
    intros I Hp Ha. assert (Hn : forall f, ~ In (t, f) (slp m)) by (now apply awake_in).
    assert (P : forall u, lph (set_lph g t (Want i)) u = lph g u \/ u = t /\ lph (set_lph g t (Want i)) u = Want i).
    { intros u. cbn. rewrite fset_if. destruct (Nat.eqb_spec u t); auto. }
    split.
    - constructor.
      + apply mono_same; auto. lia.
      + split; [auto|]. intros a H. cbn in H. lia.
      + reflexivity.
      + intros u Nu. constructor; auto; [apply mono_same; auto; lia|cbn; now apply fset_neq|tauto].
    - destruct I. constructor; try assumption.
      + intros j u. rewrite i_own. destruct (P u) as [E|[-> E]]; rewrite E; [tauto|]. rewrite Hp. intuition discriminate.
      + intros u f Hin. specialize (i_asleep u f Hin). destruct (P u) as [E|[-> E]]; [rewrite E; exact i_asleep|elim (Hn f Hin)].
      + intros u j n. destruct (P u) as [E|[-> E]]; rewrite E; [apply i_sig|intuition discriminate].
      + intros L. destruct (i_lim L). constructor; auto.
        * intros j u Hin. destruct (l_mark j u Hin) as [H|[v H]]; [auto|]. right. exists v.
          destruct (P v) as [E|[-> E]]; [now rewrite E | congruence].
        * intros j u Hin Ho. destruct (l_carry j u Hin Ho) as (v & H1 & H2). exists v. split; auto.
          destruct H2 as [H2|[[n H2]|H2]]; unfold carrier.
          -- left. destruct (P v) as [E|[-> E]]; congruence.
          -- right; left. exists n. destruct (P v) as [E|[-> E]]; congruence.
          -- right; right. exact H2.
        * intros j n v u H. destruct (P v) as [E|[-> E]]; [rewrite E in H; eauto | congruence].
  Qed.

  (** *** taking a lock *)
  Lemma take_step m g t i m' : Inv m g -> own m i = None -> asleep m t = false ->
    lph g t = Want i \/ lph g t = Out ->
    (forall e j k, ent g t = Some e -> e_fut e = FC j k -> j = i) ->
    (forall j, own m' j = if Nat.eqb j i then Some t else own m j) ->
    (lk = LFutex -> forall j, mx m' j = if Nat.eqb j i then Z.lor (mx m j) locked else mx m j) ->
    (forall j, unl m' j = unl m j) ->
    byt m' = byt m -> cel m' = cel m -> wl m' = wl m -> cnd m' = cnd m -> wct m' = wct m -> slp m' = slp m ->
    clk m' = clk m -> ntf m' = ntf m -> fault m' = fault m ->
    guar t m g m' (set_lph g t (Hold i)) /\ Inv m' (set_lph g t (Hold i)).
  Proof.
    intros I Ho Ha Hp He Hown Hmx Hunl E1 E2 E3 E4 E5 E6 E7 E8 E9.
    assert (Hn : forall f, ~ In (t, f) (slp m)) by (now apply awake_in).
    assert (P : forall u, u <> t /\ lph (set_lph g t (Hold i)) u = lph g u \/ u = t /\ lph (set_lph g t (Hold i)) u = Hold i).
    { intros u. cbn. rewrite fset_if. destruct (Nat.eqb_spec u t); auto. }
    assert (Ham : forall u, asleep m' u = asleep m u) by (intros u; unfold asleep; now rewrite E6).
    assert (Hw : forall a, word_at m' a = word_at m a) by (intros a; unfold SleepInv.word_at; now rewrite E1, E2).
    assert (Hm : forall g', na g' = na g -> cw g' = cw g -> seen g' = seen g -> mono m g m' g').
    { intros g' X1 X2 X3. apply mono_same; auto; rewrite ?E8, ?E7, ?X3; auto; lia. }
    split.
    - constructor.
      + apply Hm; reflexivity.
      + split; [auto|]. intros a H. cbn in H. lia.
      + reflexivity.
      + intros u Nu. constructor; [apply Hm; reflexivity|cbn; now apply fset_neq|reflexivity|reflexivity|intros; tauto|
          now rewrite Ham| | | | | |]; auto.
        * intros j Hj. rewrite Hown. destruct (Nat.eqb_spec j i); [congruence|auto].
        * intros; now rewrite E1.
        * intros j k Hj. rewrite E4, E5, E8. auto.
    - destruct I. constructor; try (rewrite ?E1, ?E2, ?E3, ?E4, ?E5, ?E6, ?E7, ?E8, ?E9; assumption).
      + intros j u. rewrite Hown. destruct (P u) as [[Nu E]|[-> E]]; rewrite E.
        * destruct (Nat.eqb_spec j i) as [->|N]; [|apply i_own]. split; [congruence|]. intros H. apply i_own in H. congruence.
        * destruct (Nat.eqb_spec j i) as [->|N]; [split; auto|]. split; [|intuition congruence].
          intros H. apply i_own in H. intuition congruence.
      + intros L j. rewrite Hunl, Hown, Hmx by auto. destruct (i_word L j) as [b Hb]. destruct (Nat.eqb_spec j i) as [->|N]; [|eauto].
        exists b. rewrite Hb. apply mword_lock.
      + destruct i_pos as (A & B & C). rewrite E8, E7. repeat split; auto. intros j. now rewrite Hunl.
      + intros u f Hin. rewrite E6 in Hin. rewrite E8. specialize (i_asleep u f Hin).
        destruct (P u) as [[_ E]|[-> E]]; [rewrite E; exact i_asleep|elim (Hn f Hin)].
      + intros u j n. rewrite Hunl. destruct (P u) as [[_ E]|[-> E]]; rewrite E; [apply i_sig|intuition discriminate].
      + intros a Hs. rewrite Hw. apply i_seen. intros La. specialize (Hs La). rewrite Hown in Hs.
        destruct (Nat.eqb_spec (lockof a) i); congruence.
      + intros L. assert (L0 : lim pl m).
        { intros F. destruct (L F) as [A B]. split; [intros j; rewrite <- Hunl; auto|intros j k; rewrite <- E8; auto]. }
        destruct (i_lim L0). constructor; rewrite ?E6.
        * intros j u Hin. destruct (l_mark j u Hin) as [H|[v H]].
          -- left. destruct (i_asleep u _ Hin) as [F _]. rewrite Hmx by auto. destruct (Nat.eqb_spec j i); [|auto].
             rewrite Z.lor_spec, H. reflexivity.
          -- right. exists v. destruct (P v) as [[_ E]|[-> E]]; [now rewrite E|intuition congruence].
        * intros j u Hin. rewrite Hown. destruct (Nat.eqb_spec j i) as [->|N]; [discriminate|]. intros Hj.
          destruct (l_carry j u Hin Hj) as (v & H1 & H2). exists v. rewrite Ham. split; auto.
          unfold carrier. rewrite E8. destruct H2 as [H2|[[n H2]|H2]].
          -- left. destruct (P v) as [[_ E]|[-> E]]; [congruence|]. destruct Hp; congruence.
          -- right; left. exists n. destruct (P v) as [[_ E]|[-> E]]; [congruence|]. destruct Hp; congruence.
          -- right; right. exact H2.
        * intros j n v u H Hu. rewrite Hown. destruct (Nat.eqb_spec j i) as [->|N]; [discriminate|].
          destruct (P v) as [[_ E]|[-> E]]; [rewrite E in H|congruence]. rewrite Hunl in Hu. eauto.
        * intros u f Hin Hf. exact (l_cond u f Hin Hf).
  Qed.

  Lemma own_unique m g i t u : Inv m g -> own m i = Some t -> lph g u = Hold i \/ lph g u = HoldN i -> u = t.
  Proof. intros I H X. apply (i_own _ _ _ _ I) in X. congruence. Qed.

  (** *** releasing a lock *)
  Definition let_go (g : ghost) t p m' := mkg (fset (lph g) t p) (reg g) (ent g) (wcl g) (na g) (cw g) (cur g) (note m' (seen g) (na g)).
  Lemma release_step m g t i c p m' : Inv m g -> lph g t = Hold i -> asleep m t = false ->
    (p = Out /\ (lk = LFutex -> c = false)) \/ (lk = LFutex /\ c = true /\ p = Sig i (unl m i + 1)) ->
    (lk = LFutex -> Z.testbit (mx m i) 1 = c) ->
    (forall j, own m' j = if Nat.eqb j i then None else own m j) ->
    (lk = LFutex -> forall j, mx m' j = if Nat.eqb j i then mword (unl m' j) c false else mx m j) ->
    (forall j, j <> i -> unl m' j = unl m j) -> unl m i <= unl m' i -> (lk = LFutex -> unl m' i = unl m i + 1) ->
    byt m' = byt m -> cel m' = cel m -> wl m' = wl m -> cnd m' = cnd m -> wct m' = wct m -> slp m' = slp m ->
    clk m' = clk m -> ntf m' = ntf m -> fault m' = fault m ->
    guar t m g m' (let_go g t p m') /\ Inv m' (let_go g t p m').
  Proof.
    intros I Hp Ha Hq Hc Hown Hmx Hun1 Hun2 Hun3 E1 E2 E3 E4 E5 E6 E7 E8 E9.
    assert (Ho : own m i = Some t) by (apply (i_own _ _ _ _ I); auto).
    assert (P : forall u, u <> t /\ lph (let_go g t p m') u = lph g u \/ u = t /\ lph (let_go g t p m') u = p).
    { intros u. cbn. rewrite fset_if. destruct (Nat.eqb_spec u t); auto. }
    assert (Hpo : p = Out \/ p = Sig i (unl m i + 1)) by tauto.
    assert (Ham : forall u, asleep m' u = asleep m u) by (intros u; unfold asleep; now rewrite E6).
    assert (Hm : mono m g m' (let_go g t p m')).
    { constructor; cbn; intros; rewrite ?E8, ?E7; auto; try lia.
      - destruct (Nat.eq_dec i0 i) as [->|N]; [lia|]. rewrite Hun1; auto. lia.
      - now left. }
    split.
    - constructor; [exact Hm| |reflexivity|].
      + split; [|intros a H; cbn in H; lia]. cbn. intros a v e [H|(H1 & H2 & _)]; auto.
      + intros u Nu. constructor; [exact Hm|cbn; now apply fset_neq|reflexivity|reflexivity|intros; tauto|
          now rewrite Ham| | | | | |]; auto.
        * intros j Hj. rewrite Hown. destruct (Nat.eqb_spec j i); [congruence|auto].
        * intros; now rewrite E1.
        * intros j k Hj. rewrite E4, E5, E8. auto.
    - pose proof I as I0. destruct I. constructor; try (rewrite ?E1, ?E2, ?E3, ?E4, ?E5, ?E6, ?E7, ?E8, ?E9; assumption).
      + intros j u. rewrite Hown. destruct (P u) as [[Nu E]|[-> E]]; rewrite E.
        * destruct (Nat.eqb_spec j i) as [->|N]; [|apply i_own]. split; [discriminate|]. intros H. apply i_own in H. congruence.
        * destruct (Nat.eqb_spec j i) as [->|N]; [split; [discriminate|]; intros [X|X]; destruct Hpo; congruence|].
          split; [|intros [X|X]; destruct Hpo; congruence]. intros H. apply i_own in H. intuition congruence.
      + intros L j. rewrite Hown, Hmx by auto. destruct (i_word L j) as [b Hb]. destruct (Nat.eqb_spec j i) as [->|N]; [eauto|].
        rewrite Hun1 by auto. eauto.
      + destruct i_pos as (A & B & C). rewrite E8, E7. repeat split; auto. intros j.
        destruct (Nat.eq_dec j i) as [->|N]; [specialize (A i); lia|]. now rewrite Hun1.
      + intros u f Hin. rewrite E6 in Hin. rewrite E8. specialize (i_asleep u f Hin).
        destruct (P u) as [[_ E]|[-> E]]; [rewrite E; exact i_asleep|]. elim (proj1 (awake_in m t) Ha f Hin).
      + intros u e He. destruct (i_ent u e He) as (k & A1 & A2 & A3 & A4 & A5). exists k. rewrite E8.
        repeat (split; [assumption|]). split; [|exact A5]. intros old Ho'. left. auto.
      + intros u j n Hu. assert (X : n <= unl m j \/ (j = i /\ n = unl m i + 1 /\ lk = LFutex)).
        { destruct (P u) as [[_ E]|[-> E]]; rewrite E in Hu; [left; eapply i_sig; eauto|]. right.
          destruct Hq as [[-> _]|(F & _ & ->)]; [intuition discriminate|]. destruct Hu as [Hu|Hu]; [|discriminate].
          injection Hu as <- <-. auto. }
        destruct X as [X|(-> & -> & F)]; [|rewrite Hun3; auto; lia].
        destruct (Nat.eq_dec j i) as [->|N]; [lia|]. rewrite Hun1; auto.
      + intros a Hs. right. auto.
      + intros a v e [H|(_ & _ & ->)]; [exact (i_seen_le _ _ _ H)|apply Nat.le_refl].
      + intros L. assert (L0 : lim pl m).
        { intros F. destruct (L F) as [A B]. split; [|intros j k; rewrite <- E8; auto]. intros j. specialize (A j).
          destruct (Nat.eq_dec j i) as [->|N]; [lia|]. now rewrite <- Hun1. }
        destruct (i_lim L0).
        assert (Hmark : forall u, In (u, FM i) (slp m) -> lk = LFutex /\ c = true).
        { intros u Hin. destruct (i_asleep u _ Hin) as [F _]. split; [exact F|]. destruct (l_mark i u Hin) as [H|[v H]].
          - rewrite <- Hc; auto.
          - assert (v = t) by (eapply own_unique; eauto). congruence. }
        constructor; rewrite ?E6.
        * intros j u Hin. destruct (i_asleep u _ Hin) as [F _]. destruct (Nat.eq_dec j i) as [->|N].
          -- left. destruct (Hmark u Hin) as [_ ->]. rewrite Hmx by auto. rewrite Nat.eqb_refl. now rewrite mword_bits by lia.
          -- destruct (l_mark j u Hin) as [H|[v H]].
             ++ left. rewrite Hmx by auto. apply Nat.eqb_neq in N. now rewrite N.
             ++ right. exists v. destruct (P v) as [[_ E]|[-> E]]; congruence.
        * intros j u Hin. rewrite Hown. destruct (Nat.eqb_spec j i) as [->|N]; intros Hj.
          -- exists t. rewrite Ham. split; auto. destruct (Hmark u Hin) as [F Ec]. right; left.
             destruct (P t) as [[Nt _]|[_ E]]; [congruence|]. destruct Hq as [[_ X]|(_ & _ & X)]; [specialize (X F); congruence|].
             exists (unl m i + 1). congruence.
          -- destruct (l_carry j u Hin Hj) as (v & H1 & H2). exists v. rewrite Ham. split; auto.
             unfold carrier. rewrite E8. destruct H2 as [H2|[[n H2]|H2]].
             ++ left. destruct (P v) as [[_ E]|[-> E]]; congruence.
             ++ right; left. exists n. destruct (P v) as [[_ E]|[-> E]]; congruence.
             ++ right; right. exact H2.
        * intros j n v u H Hu Hj Hin. destruct (P v) as [[_ E]|[-> E]]; rewrite E in H; [|destruct Hpo; congruence].
          destruct (i_asleep u _ Hin) as [F _]. destruct (Nat.eq_dec j i) as [->|N].
          -- assert (n <= unl m i) by (eapply i_sig; eauto). specialize (Hun3 F). lia.
          -- rewrite Hun1 in Hu by auto. rewrite Hown in Hj. destruct (Nat.eqb_spec j i); [contradiction|].
             exact (l_clr j n v u H Hu Hj Hin).
        * intros u f Hin Hf. exact (l_cond u f Hin Hf).
  Qed.

  (** *** the mark of the mutex: set while it is locked; cleared when nobody sleeps *)
  Lemma mark_step m g t i c p m' : Inv m g -> lk = LFutex -> (forall j, own m' j = own m j) ->
    ((c = true /\ ((p = lph g t /\ p <> HoldN i) \/ (lph g t = HoldN i /\ p = Hold i))) \/
     (c = false /\ own m i = None /\ p = Out /\ (exists n, lph g t = Clr i n) /\ (lim pl m -> forall u, ~ In (u, FM i) (slp m)))) ->
    (forall j, mx m' j = if Nat.eqb j i then mword (unl m j) c (match own m j with Some _ => true | None => false end) else mx m j) ->
    (forall j, unl m' j = unl m j) ->
    byt m' = byt m -> cel m' = cel m -> wl m' = wl m -> cnd m' = cnd m -> wct m' = wct m -> slp m' = slp m ->
    clk m' = clk m -> ntf m' = ntf m -> fault m' = fault m ->
    guar t m g m' (set_lph g t p) /\ Inv m' (set_lph g t p).
  Proof.
    intros I F E0 Hq Hmx Hunl E1 E2 E3 E4 E5 E6 E7 E8 E9.
    assert (P : forall u, u <> t /\ lph (set_lph g t p) u = lph g u \/ u = t /\ lph (set_lph g t p) u = p).
    { intros u. cbn. rewrite fset_if. destruct (Nat.eqb_spec u t); auto. }
    assert (Ham : forall u, asleep m' u = asleep m u) by (intros u; unfold asleep; now rewrite E6).
    assert (Hw : forall a, word_at m' a = word_at m a) by (intros a; unfold SleepInv.word_at; now rewrite E1, E2).
    assert (Hm : mono m g m' (set_lph g t p)).
    { apply mono_same; auto; rewrite ?E8, ?E7; auto; lia. }
    assert (Hl : forall u, lph (set_lph g t p) u = lph g u \/ u = t /\ (lph g t = HoldN i /\ p = Hold i \/ p = Out /\ exists n, lph g t = Clr i n)).
    { intros u. destruct (P u) as [[_ E]|[-> E]]; auto. rewrite E. intuition (subst; auto). }
    split.
    - constructor; [exact Hm| |reflexivity|].
      + split; [auto|]. intros a H. cbn in H. lia.
      + intros u Nu. constructor; [exact Hm|cbn; now apply fset_neq|reflexivity|reflexivity|intros; tauto|
          now rewrite Ham|intros j; rewrite E0; auto|intros; now rewrite E1|auto|intros; rewrite E4, E5, E8; auto|auto|auto].
    - pose proof I as I0. destruct I.
      constructor; try (rewrite ?E1, ?E2, ?E3, ?E4, ?E5, ?E6, ?E7, ?E8, ?E9; assumption).
      + intros j u. rewrite E0, i_own. destruct (P u) as [[Nu E]|[-> E]]; rewrite E; [tauto|].
        destruct Hq as [(_ & [[-> _]|[-> ->]])|(_ & _ & -> & [n ->] & _)]; intuition congruence.
      + intros _ j. rewrite E0, Hunl, Hmx. destruct (i_word F j) as [b Hb]. destruct (Nat.eqb_spec j i); eauto.
      + destruct i_pos as (A & B & C). rewrite E8, E7. repeat split; auto. intros j. now rewrite Hunl.
      + intros u f Hin. rewrite E6 in Hin. rewrite E8. specialize (i_asleep u f Hin).
        destruct (Hl u) as [E|[-> [[X _]|[_ [n X]]]]]; [rewrite E; exact i_asleep| |];
          exfalso; destruct f; rewrite X in i_asleep; intuition congruence.
      + intros u j n. rewrite Hunl. destruct (P u) as [[_ E]|[-> E]]; rewrite E; [apply i_sig|].
        destruct Hq as [(_ & [[-> _]|[_ ->]])|(_ & _ & -> & _ & _)]; [apply i_sig|intuition discriminate..].
      + intros a Hs. rewrite Hw. apply i_seen. intros La. rewrite <- E0. exact (Hs La).
      + intros L. assert (L0 : lim pl m).
        { intros _. destruct (L F) as [A B]. split; [intros j; rewrite <- Hunl; auto|intros j k; rewrite <- E8; auto]. }
        destruct (i_lim L0). constructor; rewrite ?E6.
        * intros j u Hin. rewrite Hmx. destruct (Nat.eqb_spec j i) as [->|N].
          -- left. rewrite mword_bits by lia. cbn. destruct Hq as [(-> & _)|(_ & _ & _ & _ & X)]; [reflexivity|]. elim (X L0 u Hin).
          -- destruct (l_mark j u Hin) as [H|[v H]]; [auto|]. right. exists v.
             destruct (Hl v) as [E|[-> [[X _]|[_ [n X]]]]]; congruence.
        * intros j u Hin. rewrite E0. intros Hj.
          destruct (l_carry j u Hin Hj) as (v & H1 & H2). exists v. rewrite Ham. split; auto.
          unfold carrier. rewrite E8. destruct H2 as [H2|[[n H2]|H2]].
          -- left. destruct (Hl v) as [E|[-> [[X _]|[_ [n X]]]]]; congruence.
          -- right; left. exists n. destruct (Hl v) as [E|[-> [[X _]|[_ [n' X]]]]]; congruence.
          -- right; right. exact H2.
        * intros j n v u H Hu. rewrite E0. rewrite Hunl in Hu. intros Hj.
          destruct (P v) as [[_ E]|[-> E]]; rewrite E in H; [eauto|].
          destruct Hq as [(_ & [[X _]|[_ ->]])|(_ & _ & -> & _ & _)]; try discriminate. rewrite X in H. eauto.
        * intros u f Hin Hf. exact (l_cond u f Hin Hf).
  Qed.

  (** *** giving up clearing the mark *)
  Lemma quit_step m g t i n : Inv m g -> lph g t = Clr i n ->
    guar t m g m (set_lph g t Out) /\ Inv m (set_lph g t Out).
  Proof.
    intros I Hp.
    assert (P : forall u, lph (set_lph g t Out) u = lph g u \/ u = t /\ lph (set_lph g t Out) u = Out).
    { intros u. cbn. rewrite fset_if. destruct (Nat.eqb_spec u t); auto. }
    split.
    - constructor.
      + apply mono_same; auto. lia.
      + split; [auto|]. intros a H. cbn in H. lia.
      + reflexivity.
      + intros u Nu. constructor; auto; [apply mono_same; auto; lia|cbn; now apply fset_neq|tauto].
    - destruct I. constructor; try assumption.
      + intros j u. rewrite i_own. destruct (P u) as [E|[-> E]]; rewrite E; [tauto|]. rewrite Hp. intuition discriminate.
      + intros u f Hin. specialize (i_asleep u f Hin). destruct (P u) as [E|[-> E]]; [rewrite E; exact i_asleep|].
        exfalso. destruct f; rewrite Hp in i_asleep; intuition discriminate.
      + intros u j n'. destruct (P u) as [E|[-> E]]; rewrite E; [apply i_sig|intuition discriminate].
      + intros L. destruct (i_lim L). constructor; auto.
        * intros j u Hin. destruct (l_mark j u Hin) as [H|[v H]]; [auto|]. right. exists v.
          destruct (P v) as [E|[-> E]]; congruence.
        * intros j u Hin Ho. destruct (l_carry j u Hin Ho) as (v & H1 & H2). exists v. split; auto.
          destruct H2 as [H2|[[n' H2]|H2]]; unfold carrier.
          -- left. destruct (P v) as [E|[-> E]]; congruence.
          -- right; left. exists n'. destruct (P v) as [E|[-> E]]; congruence.
          -- right; right. exact H2.
        * intros j n' v u H. destruct (P v) as [E|[-> E]]; [rewrite E in H; eauto | congruence].
  Qed.

  (** *** waking one sleeper of the mutex after releasing it *)
  Lemma signal_step m g t i n u : Inv m g -> lph g t = Sig i n ->
    match u with Some v => In (v, FM i) (slp m) | None => forall v, ~ In (v, FM i) (slp m) end ->
    let m' := match u with Some v => set_slp m (rouse v (slp m)) | None => m end in
    let g' := set_lph g t (match u with Some _ => Out | None => Clr i n end) in
    guar t m g m' g' /\ Inv m' g'.
  Proof.
    intros I Hp Hu m' g'.
    assert (P : forall v, v <> t /\ lph g' v = lph g v \/ v = t /\ lph g' v = match u with Some _ => Out | None => Clr i n end).
    { intros v. cbn. rewrite fset_if. destruct (Nat.eqb_spec v t); auto. }
    assert (Hs : forall v f, In (v, f) (slp m') <-> In (v, f) (slp m) /\ u <> Some v).
    { intros v f. subst m'. destruct u as [x|]; cbn.
      - rewrite rouse_in. intuition congruence.
      - intuition congruence. }
    assert (Haw : forall v, asleep m v = false -> asleep m' v = false).
    { intros v H. rewrite awake_in in *. intros f Hf. apply Hs in Hf. apply (H f). tauto. }
    assert (F : u <> None -> lk = LFutex).
    { destruct u as [x|]; [|congruence]. intros _. now destruct (i_asleep _ _ _ _ I _ _ Hu). }
    assert (Hm : mono m g m' g') by (subst m' g'; destruct u; apply mono_same; auto; cbn; lia).
    assert (X : own m' = own m /\ fault m' = fault m /\ wl m' = wl m /\ mx m' = mx m /\ unl m' = unl m /\ cnd m' = cnd m /\
                ntf m' = ntf m /\ clk m' = clk m /\ wct m' = wct m /\ byt m' = byt m /\ cel m' = cel m)
      by (destruct u; repeat split).
    destruct X as (X1 & X2 & X3 & X4 & X5 & X6 & X7 & X8 & X9 & X10 & X11).
    assert (Hw : forall a, word_at m' a = word_at m a) by (intros a; unfold SleepInv.word_at; now rewrite X10, X11).
    split.
    - constructor; [exact Hm| |reflexivity|].
      + split; [auto|]. intros a H. cbn in H. lia.
      + intros v Nv. constructor; [exact Hm|cbn; now apply fset_neq|reflexivity|reflexivity|intros; tauto|
          apply Haw|rewrite X1; auto|intros; now rewrite X10|auto|intros; rewrite X6, X7, X9; auto|auto|auto].
    - pose proof I as I0. destruct I.
      constructor; try (rewrite ?X1, ?X2, ?X3, ?X4, ?X5, ?X6, ?X7, ?X8, ?X9, ?X10, ?X11; assumption).
      + intros j v. rewrite X1, i_own. destruct (P v) as [[_ E]|[-> E]]; rewrite E; [tauto|]. rewrite Hp.
        destruct u; intuition discriminate.
      + subst m'. destruct u; [|assumption]. apply nodup_filter_fst. exact i_slp.
      + intros v f Hin. apply Hs in Hin. destruct Hin as [Hin Nv]. rewrite X7. specialize (i_asleep v f Hin).
        destruct (P v) as [[_ E]|[-> E]]; [rewrite E; exact i_asleep|].
        exfalso. destruct f; rewrite Hp in i_asleep; intuition discriminate.
      + intros v j n' Hv. rewrite X5. destruct (P v) as [[_ E]|[-> E]]; rewrite E in Hv; [eapply i_sig; eauto|].
        destruct u; [intuition discriminate|]. destruct Hv as [Hv|Hv]; [discriminate|]. injection Hv as <- <-. eapply i_sig; eauto.
      + intros a Ha. rewrite Hw. apply i_seen. intros La. rewrite <- X1. exact (Ha La).
      + intros L. assert (L0 : lim pl m) by (unfold lim in *; now rewrite X5, X7 in L).
        destruct (i_lim L0). constructor.
        * intros j v Hin. apply Hs in Hin. destruct Hin as [Hin Nv]. rewrite X4.
          destruct (l_mark j v Hin) as [H|[y H]]; [auto|]. right. exists y. destruct (P y) as [[_ E]|[-> E]]; congruence.
        * intros j v Hin. apply Hs in Hin. destruct Hin as [Hin Nv]. rewrite X1. intros Hj.
          destruct (l_carry j v Hin Hj) as (y & H1 & H2).
          destruct (Nat.eq_dec j i) as [->|Nj].
          -- destruct u as [x|]; [|elim (Hu v Hin)]. exists x. split.
             ++ apply awake_in. intros f Hf. apply Hs in Hf. destruct Hf as [_ N]. now elim N.
             ++ unfold carrier. rewrite X7. destruct (i_asleep _ _ Hu) as [_ [H|[H1' (e & k & H3)]]].
                ** left. destruct (P x) as [[_ E]|[-> E]]; congruence.
                ** right; right. eauto.
          -- exists y. split; [auto|]. unfold carrier. rewrite X7. destruct H2 as [H2|[[n' H2]|H2]].
             ++ left. destruct (P y) as [[_ E]|[-> E]]; congruence.
             ++ right; left. exists n'. destruct (P y) as [[_ E]|[-> E]]; congruence.
             ++ right; right. exact H2.
        * intros j n' y v H. rewrite X5, X1. intros Hn Hj Hin. apply Hs in Hin. destruct Hin as [Hin Nv].
          destruct (P y) as [[_ E]|[-> E]]; rewrite E in H; [exact (l_clr j n' y v H Hn Hj Hin)|].
          destruct u; [discriminate|]. injection H as <- <-. elim (Hu v Hin).
        * intros v f Hin Hf. apply Hs in Hin. exact (l_cond v f (proj1 Hin) Hf).
      + intros v b Hin. apply Hs in Hin. exact (i_fo v b (proj1 Hin)).
  Qed.

  (** *** falling asleep on a futex *)
  Lemma sleep_asleep m t f u : asleep (set_slp m ((t, f) :: slp m)) u = if Nat.eqb t u then true else asleep m u.
  Proof. unfold asleep. cbn. now destruct (Nat.eqb t u). Qed.

  Lemma sleep_mutex_step m g t i : Inv m g -> lk = LFutex -> lph g t = Want i -> asleep m t = false ->
    (forall e j k, ent g t = Some e -> e_fut e = FC j k -> j = i) ->
    own m i <> None -> Z.testbit (mx m i) 1 = true ->
    let m' := set_slp m ((t, FM i) :: slp m) in guar t m g m' g /\ Inv m' g.
  Proof.
    intros I F Hp Ha He Ho Hb m'.
    assert (Hm : mono m g m' g) by (subst m'; apply mono_same; auto; cbn; lia).
    split.
    - constructor; [exact Hm| |reflexivity|].
      + split; [auto|]. intros a H. lia.
      + intros u Nu. constructor; auto; [tauto|]. subst m'. rewrite sleep_asleep.
        destruct (Nat.eqb_spec t u); [congruence|auto].
    - pose proof I as I0. destruct I. constructor; try assumption.
      + cbn. constructor; [|assumption]. rewrite in_map_iff. intros ([x f] & E & Hin). cbn in E. subst x.
        elim (proj1 (awake_in m t) Ha f Hin).
      + intros u f [E|Hin]; [|exact (i_asleep u f Hin)]. injection E as <- <-. auto.
      + intros L. destruct (i_lim L). constructor.
        * intros j u [E|Hin]; [injection E as <- <-; auto | exact (l_mark j u Hin)].
        * intros j u Hin Hj. change (own m j = None) in Hj. destruct Hin as [E|Hin]; [injection E as <- <-; contradiction|].
          destruct (l_carry j u Hin Hj) as (v & H1 & H2). exists v.
          assert (N : v <> t).
          { intros ->. destruct H2 as [H2|[[n H2]|(e & k & H3 & H4 & _)]]; [congruence..|].
            assert (j = i) by eauto. subst. contradiction. }
          split; [|exact H2]. subst m'. rewrite sleep_asleep. destruct (Nat.eqb_spec t v); [congruence|auto].
        * intros j n v u H Hn Hj. change (own m j = None) in Hj. intros [E|Hin]; [injection E as <- <-; contradiction|].
          exact (l_clr j n v u H Hn Hj Hin).
        * intros u f [E|Hin] Hf; [injection E as <- <-; now elim (Hf i)|exact (l_cond u f Hin Hf)].
      + intros u b [E|Hin]; [discriminate|exact (i_fo u b Hin)].
  Qed.

  (** on the condition of a record; the counter still has the value read before *)
  Lemma sleep_cond_step m g t i k e : Inv m g -> lk = LFutex -> lph g t = Out -> asleep m t = false ->
    ent g t = Some e -> e_fut e = FC i k -> cnd m i k = wrap 32 (e_n0 e) ->
    let m' := set_slp m ((t, FC i k) :: slp m) in guar t m g m' g /\ Inv m' g.
  Proof.
    intros I F Hp Ha He Hf Hc m'.
    assert (Hm : mono m g m' g) by (subst m'; apply mono_same; auto; cbn; lia).
    split.
    - constructor; [exact Hm| |reflexivity|].
      + split; [auto|]. intros a H. lia.
      + intros u Nu. constructor; auto; [tauto|]. subst m'. rewrite sleep_asleep.
        destruct (Nat.eqb_spec t u); [congruence|auto].
    - pose proof I as I0. destruct I. constructor; try assumption.
      + cbn. constructor; [|assumption]. rewrite in_map_iff. intros ([x f] & E & Hin). cbn in E. subst x.
        elim (proj1 (awake_in m t) Ha f Hin).
      + intros u f [E|Hin]; [|exact (i_asleep u f Hin)]. injection E as <- <-. split; eauto.
      + intros L. destruct (i_lim L).
        destruct (i_ent t e He) as (c & A1 & A2 & A3 & A4 & A5). rewrite Hf in A5. destruct A5 as (A5 & A6 & A7).
        destruct (A7 F) as [B1 B2].
        assert (En : e_n0 e = ntf m i k).
        { destruct (L F) as [_ L2]. specialize (L2 i k). cbn in L2. rewrite (i_cnd F) in Hc. unfold wrap in Hc.
          rewrite !Z.mod_small in Hc by lia. lia. }
        constructor.
        * intros j u [E|Hin]; [discriminate | exact (l_mark j u Hin)].
        * intros j u Hin Hj. destruct Hin as [E|Hin]; [discriminate|].
          destruct (l_carry j u Hin Hj) as (v & H1 & H2). exists v.
          assert (N : v <> t).
          { intros ->. destruct H2 as [H2|[[n H2]|(e' & k' & H3 & H4 & H5)]]; [congruence..|].
            assert (e' = e) by congruence. subst e'. rewrite Hf in H4. injection H4 as <- <-. lia. }
          split; [|exact H2]. subst m'. rewrite sleep_asleep. destruct (Nat.eqb_spec t v); [congruence|auto].
        * intros j n v u H Hn Hj [E|Hin]; [discriminate|]. exact (l_clr j n v u H Hn Hj Hin).
        * intros u f [E|Hin] Hx; [|exact (l_cond u f Hin Hx)]. injection E as <- <-. exists c, e.
          split; [exact A1|]. split; [exact He|]. destruct (Nat.eq_dec (e_ep e) (na g (k_obj c))); [auto|].
          assert (e_ep e < na g (k_obj c))%nat by lia. specialize (B2 H). lia.
      + intros u b [E|Hin]; [discriminate|exact (i_fo u b Hin)].
  Qed.

  (** on the storage of the object itself *)
  Definition set_ent (g : ghost) t e := mkg (lph g) (reg g) (fset (ent g) t e) (wcl g) (na g) (cw g) (cur g) (seen g).
  Lemma sleep_native_step m g t c : Inv m g -> lph g t = Out -> asleep m t = false -> ent g t = None ->
    cur g t = Some c -> waits (k_op c) = true -> d_wait (D (k_obj c)) = WFutex ->
    careful (D (k_obj c)) (k_op c) = Some (cel m (k_obj c)) ->
    let m' := set_slp m ((t, FO (k_obj c)) :: slp m) in
    let g' := set_ent g t (Some (mke (FO (k_obj c)) (na g (k_obj c)) 0)) in
    guar t m g m' g' /\ Inv m' g'.
  Proof.
    intros I Hp Ha He Hcur Hwt Hk Hold m' g'.
    assert (Hm : mono m g m' g') by (subst m' g'; apply mono_same; auto; cbn; lia).
    assert (P : forall u, u <> t /\ ent g' u = ent g u \/ u = t /\ ent g' u = Some (mke (FO (k_obj c)) (na g (k_obj c)) 0)).
    { intros u. cbn. rewrite fset_if. destruct (Nat.eqb_spec u t); auto. }
    assert (Hnl : d_locked (D (k_obj c)) = false) by (unfold d_locked; now rewrite Hk).
    split.
    - constructor; [exact Hm| |reflexivity|].
      + split; [auto|]. intros a H. cbn in H. lia.
      + intros u Nu. constructor; auto; [cbn; now apply fset_neq|tauto| |].
        * subst m'. rewrite sleep_asleep. destruct (Nat.eqb_spec t u); [congruence|auto].
        * intros i k v e _ Hv Hf. destruct (P v) as [[_ E]|[-> E]]; [congruence|]. rewrite E in Hv. injection Hv as <-. discriminate.
    - pose proof I as I0. destruct I. constructor; try assumption.
      + intros F i k. destruct (i_wct F i k) as (A & B & C). repeat split; auto; intros H.
        * apply C in H. destruct H as (e & H1 & H2). destruct (P t0) as [[_ E]|[-> E]]; [rewrite E; eauto|congruence].
        * apply C. destruct H as (e & H1 & H2). destruct (P t0) as [[_ E]|[-> E]]; rewrite E in H1; [eauto|].
          injection H1 as <-. discriminate.
      + cbn. constructor; [|assumption]. rewrite in_map_iff. intros ([x f] & E & Hin). cbn in E. subst x.
        elim (proj1 (awake_in m t) Ha f Hin).
      + intros u f [E|Hin].
        * injection E as <- <-. split; [exact Hp|]. eexists. cbn. rewrite fset_eq. split; reflexivity.
        * assert (N : u <> t) by (intros ->; elim (proj1 (awake_in m t) Ha f Hin)).
          specialize (i_asleep u f Hin). destruct (P u) as [[_ E]|[-> _]]; [|congruence]. rewrite E. exact i_asleep.
      + intros u e Hu. destruct (P u) as [[_ E]|[-> E]]; rewrite E in Hu; [exact (i_ent u e Hu)|]. injection Hu as <-.
        exists c. split; [exact Hcur|]. split; [exact Hwt|]. split; [cbn; lia|]. split; [|cbn; auto].
        intros old Ho. rewrite Hold in Ho. injection Ho as <-. cbn. specialize (i_seen (k_obj c)).
        unfold SleepInv.word_at in i_seen. rewrite Hnl in i_seen. apply i_seen. unfold SleepInv.settled. congruence.
      + intros L. destruct (i_lim L). constructor.
        * intros j u [E|Hin]; [discriminate | exact (l_mark j u Hin)].
        * intros j u Hin Hj. destruct Hin as [E|Hin]; [discriminate|].
          destruct (l_carry j u Hin Hj) as (v & H1 & H2). exists v.
          assert (N : v <> t).
          { intros ->. destruct H2 as [H2|[[n H2]|(e' & k' & H3 & H4 & H5)]]; congruence. }
          split; [subst m'; rewrite sleep_asleep; destruct (Nat.eqb_spec t v); [congruence|auto]|].
          destruct H2 as [H2|[H2|H2]]; [left; exact H2|right; left; exact H2|right; right].
          destruct (P v) as [[_ E]|[-> _]]; [rewrite E; exact H2|congruence].
        * intros j n v u H Hn Hj [E|Hin]; [discriminate|]. exact (l_clr j n v u H Hn Hj Hin).
        * intros u f [E|Hin] Hx.
          -- injection E as <- <-. exists c. eexists. split; [exact Hcur|]. cbn. rewrite fset_eq. split; reflexivity.
          -- assert (N : u <> t) by (intros ->; elim (proj1 (awake_in m t) Ha f Hin)).
             destruct (P u) as [[_ E]|[-> _]]; [|congruence]. rewrite E. exact (l_cond u f Hin Hx).
      + intros u b [E|Hin].
        * injection E as <- <-. exists c. eexists. split; [exact Hcur|]. cbn. rewrite fset_eq. split; reflexivity.
        * assert (N : u <> t) by (intros ->; elim (proj1 (awake_in m t) Ha _ Hin)).
          destruct (P u) as [[_ E]|[-> _]]; [|congruence]. rewrite E. exact (i_fo u b Hin).
  Qed.

  (** on an OS condition variable, releasing the mutex *)
  Lemma cv_step m g t i k c : Inv m g -> lk <> LFutex -> lph g t = Hold i -> asleep m t = false -> ent g t = None ->
    cur g t = Some c -> waits (k_op c) = true -> pooled (D (k_obj c)) = true -> In (t, (d_addr (D (k_obj c)), k)) (reg g i) ->
    (forall old, careful (D (k_obj c)) (k_op c) = Some old -> seen g (k_obj c) old (na g (k_obj c))) ->
    let m' := set_slp (set_own m i None) ((t, FC i k) :: slp m) in
    let g' := mkg (fset (lph g) t Out) (reg g) (fset (ent g) t (Some (mke (FC i k) (na g (k_obj c)) 0))) (wcl g) (na g) (cw g) (cur g)
                  (note m' (seen g) (na g)) in
    guar t m g m' g' /\ Inv m' g'.
  Proof.
    intros I F Hp Ha He Hcur Hwt Hk Hreg Hold m' g'.
    assert (Ho : own m i = Some t) by (apply (i_own _ _ _ _ I); auto).
    assert (Hm : mono m g m' g').
    { subst m' g'. apply mono_same; auto; cbn; try lia. intros; now left. }
    assert (P : forall u, u <> t /\ ent g' u = ent g u /\ lph g' u = lph g u \/
                          u = t /\ ent g' u = Some (mke (FC i k) (na g (k_obj c)) 0) /\ lph g' u = Out).
    { intros u. cbn. rewrite !fset_if. destruct (Nat.eqb_spec u t); auto. }
    assert (Hown : forall j, own m' j = if Nat.eqb j i then None else own m j) by reflexivity.
    assert (NFM : forall u j, ~ In (u, FM j) (slp m')).
    { intros u j [E|Hin]; [discriminate|]. destruct (i_asleep _ _ _ _ I _ _ Hin). contradiction. }
    split.
    - constructor; [exact Hm| |reflexivity|].
      + split; [|intros a H; cbn in H; lia]. intros a v e [H|(H1 & H2 & _)]; auto.
      + intros u Nu. destruct (P u) as [(_ & P1 & P2)|[-> _]]; [|congruence].
        constructor; [exact Hm|exact P2|exact P1|reflexivity|intros; tauto| | |auto|auto|auto|auto|].
        * subst m'. unfold asleep. cbn. destruct (Nat.eqb_spec t u); [congruence|auto].
        * intros j Hj. rewrite Hown. destruct (Nat.eqb_spec j i); congruence.
        * intros j l v e Hj Hv Hf. destruct (P v) as [(_ & E & _)|(-> & E & _)]; [congruence|].
          rewrite E in Hv. injection Hv as <-. cbn in Hf. injection Hf as <- <-. congruence.
    - pose proof I as I0. destruct I. constructor; try assumption; try (intros; contradiction).
      + intros j u. rewrite Hown. destruct (P u) as [(Nu & _ & E)|(-> & _ & E)]; rewrite E.
        * destruct (Nat.eqb_spec j i) as [->|N]; [|apply i_own]. split; [discriminate|]. intros H. apply i_own in H. congruence.
        * destruct (Nat.eqb_spec j i) as [->|N]; [intuition discriminate|]. split; [|intuition discriminate].
          intros H. apply i_own in H. intuition congruence.
      + cbn. constructor; [|assumption]. rewrite in_map_iff. intros ([x f] & E & Hin). cbn in E. subst x.
        elim (proj1 (awake_in m t) Ha f Hin).
      + intros u f [E|Hin].
        * injection E as <- <-. destruct (P t) as [[N _]|(_ & E1 & E2)]; [congruence|]. split; [exact E2|]. eexists. split; [exact E1|reflexivity].
        * assert (N : u <> t) by (intros ->; elim (proj1 (awake_in m t) Ha f Hin)).
          specialize (i_asleep u f Hin). destruct (P u) as [(_ & E1 & E2)|[-> _]]; [|congruence]. rewrite E1, E2. exact i_asleep.
      + intros u e Hu. destruct (P u) as [(_ & E & _)|(-> & E & _)]; rewrite E in Hu.
        * destruct (i_ent u e Hu) as (c' & A1 & A2 & A3 & A4 & A5). exists c'. repeat (split; [assumption|]). split; [|exact A5].
          intros old Ho'. left. auto.
        * injection Hu as <-. exists c. split; [exact Hcur|]. split; [exact Hwt|]. split; [cbn; lia|].
          split; [|cbn; split; auto; split; auto; intros; contradiction].
          intros old Ho'. left. cbn. auto.
      + intros u j n. destruct (P u) as [(_ & _ & E)|(-> & _ & E)]; rewrite E; [apply i_sig|intuition discriminate].
      + intros a Hs. right. auto.
      + intros a v e [H|(_ & _ & ->)]; [exact (i_seen_le _ _ _ H)|apply Nat.le_refl].
      + intros L. destruct (i_lim L). constructor.
        * intros j u Hin. elim (NFM _ _ Hin).
        * intros j u Hin. elim (NFM _ _ Hin).
        * intros j n v u _ _ _. apply NFM.
        * intros u f [E|Hin] Hx.
          -- injection E as <- <-. destruct (P t) as [[N _]|(_ & E1 & E2)]; [congruence|]. exists c. eexists.
             split; [exact Hcur|]. split; [exact E1|]. reflexivity.
          -- assert (N : u <> t) by (intros ->; elim (proj1 (awake_in m t) Ha f Hin)).
             destruct (P u) as [(_ & E & _)|[-> _]]; [|congruence]. rewrite E. exact (l_cond u f Hin Hx).
      + intros u b [E|Hin]; [discriminate|]. assert (N : u <> t) by (intros ->; elim (proj1 (awake_in m t) Ha _ Hin)).
        destruct (P u) as [(_ & E & _)|[-> _]]; [|congruence]. rewrite E. exact (i_fo u b Hin).
  Qed.

  (** *** a sleep ends *)
  Lemma wake_step m g t m' e : Inv m g ->
    (forall v f, In (v, f) (slp m') <-> v <> t /\ In (v, f) (slp m)) -> NoDup (map fst (slp m')) -> clk m <= clk m' ->
    own m' = own m -> mx m' = mx m -> unl m' = unl m ->
    byt m' = byt m -> cel m' = cel m -> wl m' = wl m -> cnd m' = cnd m -> wct m' = wct m -> ntf m' = ntf m -> fault m' = fault m ->
    (e = ent g t \/ (e = None /\ (lk = LFutex -> forall x i k, ent g t = Some x -> e_fut x <> FC i k))) ->
    guar t m g m' (set_ent g t e) /\ Inv m' (set_ent g t e).
  Proof.
    intros I Hs Hnd Hclk X1 X4 X5 X10 X11 X3 X6 X9 X7 X2 He.
    set (g' := set_ent g t e).
    assert (P : forall u, u <> t /\ ent g' u = ent g u \/ u = t /\ ent g' u = e).
    { intros u. subst g'. cbn. rewrite fset_if. destruct (Nat.eqb_spec u t); auto. }
    assert (P' : forall u x, ent g' u = Some x -> ent g u = Some x).
    { intros u x H. destruct (P u) as [[_ E]|[-> E]]; [congruence|]. destruct He as [->|[-> _]]; congruence. }
    assert (Haw : forall v, asleep m v = false -> asleep m' v = false).
    { intros v H. rewrite awake_in in *. intros f Hf. apply Hs in Hf. apply (H f). tauto. }
    assert (Hm : mono m g m' g') by (apply mono_same; auto; rewrite ?X5, ?X7; auto).
    assert (Hw : forall a, word_at m' a = word_at m a) by (intros a; unfold SleepInv.word_at; now rewrite X10, X11).
    split.
    - constructor; [exact Hm| |reflexivity|].
      + split; [auto|]. intros a H. cbn in H. lia.
      + intros v Nv. constructor; [exact Hm|reflexivity|cbn; now apply fset_neq|reflexivity|intros; tauto|
          apply Haw|rewrite X1; auto|intros; now rewrite X10|auto|intros; rewrite X6, X7, X9; auto|auto|intros; auto].
    - pose proof I as I0. destruct I.
      constructor; try (rewrite ?X1, ?X2, ?X3, ?X4, ?X5, ?X6, ?X7, ?X9, ?X10, ?X11; assumption).
      + rewrite X5, X7. destruct i_pos as (A & B & C). repeat split; auto. lia.
      + intros F i k. rewrite X9. destruct (i_wct F i k) as (A & B & C). repeat split; auto; intros H.
        * apply C in H. destruct H as (x & H1 & H2). exists x. split; auto.
          destruct (P t0) as [[_ E]|[-> E]]; [congruence|]. destruct He as [->|[-> N]]; [congruence|]. elim (N F x i k H1 H2).
        * apply C. destruct H as (x & H1 & H2). eauto.
      + intros v f Hin. apply Hs in Hin. destruct Hin as [Nv Hin]. rewrite X7. specialize (i_asleep v f Hin).
        destruct (P v) as [[_ E]|[-> E]]; [rewrite E; exact i_asleep|congruence].
      + intros v x Hv. rewrite X7. exact (i_ent v x (P' v x Hv)).
      + intros a Ha. rewrite Hw. apply i_seen. intros La. rewrite <- X1. exact (Ha La).
      + intros L. assert (L0 : lim pl m) by (unfold lim in *; now rewrite X5, X7 in L).
        destruct (i_lim L0). constructor.
        * intros j v Hin. apply Hs in Hin. rewrite X4. exact (l_mark j v (proj2 Hin)).
        * intros j v Hin. apply Hs in Hin. rewrite X1. intros Hj. destruct (i_asleep _ _ (proj2 Hin)) as [F _].
          destruct (l_carry j v (proj2 Hin) Hj) as (y & H1 & H2). exists y. split; auto. unfold carrier. rewrite X7.
          destruct H2 as [H2|[H2|(x & k & H2 & H3 & H4)]]; [left; exact H2|right; left; exact H2|right; right].
          exists x, k. split; auto. destruct (P y) as [[_ E]|[-> E]]; [congruence|].
          destruct He as [->|[-> N]]; [congruence|]. elim (N F x j k H2 H3).
        * intros j n y v H. rewrite X5, X1. intros Hn Hj Hin. apply Hs in Hin. exact (l_clr j n y v H Hn Hj (proj2 Hin)).
        * intros v f Hin Hf. apply Hs in Hin. destruct Hin as [Nv Hin]. destruct (P v) as [[_ E]|[-> E]]; [|congruence].
          rewrite E. exact (l_cond v f Hin Hf).
      + intros v b Hin. apply Hs in Hin. destruct Hin as [Nv Hin]. destruct (P v) as [[_ E]|[-> E]]; [|congruence].
        rewrite E. exact (i_fo v b Hin).
  Qed.

  (** *** notifying object [a]: [full] if no sleeper of [a] is left *)
  Definition bumped (full : bool) (g : ghost) t p a m' :=
    let n := if full then fset (na g) a (S (na g a)) else na g in
    mkg (fset (lph g) t p) (reg g) (ent g) (wcl g) n (if full then cw g else fset (cw g) a (S (cw g a))) (cur g) (note m' (seen g) n).
  Lemma notify_step m g t p a (full : bool) m' : Inv m g ->
    (p = lph g t \/ lph g t = Hold (lockof a) /\ p = HoldN (lockof a)) ->
    (pooled (D a) = true -> own m (lockof a) = Some t) ->
    own m' = own m -> mx m' = mx m -> unl m' = unl m -> clk m' = clk m ->
    byt m' = byt m -> cel m' = cel m -> wl m' = wl m -> cnd m' = cnd m -> wct m' = wct m -> ntf m' = ntf m -> fault m' = fault m ->
    NoDup (map fst (slp m')) ->
    (forall v f, In (v, f) (slp m') -> In (v, f) (slp m) \/
       exists k, lk = LFutex /\ p = HoldN (lockof a) /\ f = FM (lockof a) /\ In (v, FC (lockof a) k) (slp m) /\
                 forall e, ent g v = Some e -> e_fut e = FC (lockof a) k -> e_n0 e < ntf m (lockof a) k) ->
    (full = true -> forall v f c, In (v, f) (slp m') -> (forall i, f <> FM i) -> cur g v = Some c -> k_obj c <> a) ->
    (full = true -> lk = LFutex -> forall v e c i k, ent g v = Some e -> cur g v = Some c -> k_obj c = a -> e_fut e = FC i k ->
       e_n0 e < ntf m i k) ->
    (full = false -> exists u v, u <> v /\ waits_on g a u /\ waits_on g a v) ->
    guar t m g m' (bumped full g t p a m') /\ Inv m' (bumped full g t p a m').
  Proof.
    intros I Hp Hown X1 X4 X5 X8 X10 X11 X3 X6 X9 X7 X2 Hnd Hs Hfull Hstale Hpart.
    set (g' := bumped full g t p a m').
    assert (P : forall u, u <> t /\ lph g' u = lph g u \/ u = t /\ lph g' u = p).
    { intros u. subst g'. unfold bumped. cbn. rewrite fset_if. destruct (Nat.eqb_spec u t); auto. }
    assert (Pl : forall u, lph g' u = lph g u \/ u = t /\ lph g u = Hold (lockof a) /\ lph g' u = HoldN (lockof a)).
    { intros u. destruct (P u) as [[_ E]|[-> E]]; auto. destruct Hp as [->|[H ->]]; auto. }
    assert (Nb : forall b, (na g b <= na g' b)%nat /\ (b <> a -> na g' b = na g b) /\ (full = false -> na g' b = na g b)).
    { intros b. subst g'. unfold bumped. cbn. destruct full; cbn; [rewrite fset_if; destruct (Nat.eqb_spec b a)|]; subst; repeat split; auto; try congruence. }
    assert (Cw : forall b, (cw g b <= cw g' b)%nat /\ ((cw g b < cw g' b)%nat -> b = a /\ full = false)).
    { intros b. subst g'. unfold bumped. cbn. destruct full; cbn; [split; [lia|intros; lia]|].
      rewrite fset_if. destruct (Nat.eqb_spec b a); subst; split; auto; lia. }
    assert (Hasl : forall v, asleep m v = false -> asleep m' v = false).
    { intros v H. rewrite awake_in in *. intros f Hf. destruct (Hs v f Hf) as [H'|(k & _ & _ & _ & H' & _)]; eapply H; eauto. }
    assert (Hm : mono m g m' g').
    { constructor; rewrite ?X5, ?X7, ?X8; intros; try lia; [apply Nb|apply Cw|]. left. auto. }
    split.
    - constructor; [exact Hm| |reflexivity|].
      + split; [intros b v e [H|(H1 & H2 & _)]; auto|]. intros b H. destruct (Cw b) as [_ C]. destruct (C H) as [-> Hf].
        destruct (Hpart Hf) as (u & v & N & H1 & H2). exists u, v. auto.
      + intros v Nv. destruct (P v) as [[_ E]|[-> _]]; [|congruence].
        constructor; [exact Hm|exact E|reflexivity|reflexivity|intros; tauto|
          apply Hasl|rewrite X1; auto|intros; now rewrite X10| |intros; rewrite X6, X7, X9; auto|auto|auto].
        intros i b Hi Hb Hl. destruct (Nb b) as (_ & N & _). apply N. intros ->. specialize (Hown Hb). congruence.
    - pose proof I as I0. destruct I.
      constructor; try (rewrite ?X1, ?X2, ?X3, ?X4, ?X5, ?X6, ?X7, ?X8, ?X9, ?X10, ?X11; assumption).
      + intros j u. rewrite X1, i_own. destruct (Pl u) as [E|(-> & E1 & E2)]; [now rewrite E|]. rewrite E1, E2.
        split; intros [H|H]; try discriminate; injection H as <-; auto.
      + intros v f Hin. rewrite X7.
        assert (Hv : forall f', In (v, f') (slp m) -> lph g' v = lph g v).
        { intros f' H'. destruct (Pl v) as [E|(-> & E1 & _)]; [exact E|]. specialize (i_asleep _ _ H').
          destruct f'; rewrite E1 in i_asleep; intuition discriminate. }
        destruct (Hs v f Hin) as [H'|(k & F & Hp' & -> & H' & Hk)].
        * rewrite (Hv _ H'). exact (i_asleep v f H').
        * rewrite (Hv _ H'). destruct (i_asleep _ _ H') as (Hl & e & He & Hf). split; [exact F|]. right. split; [exact Hl|].
          exists e, k. split; [exact He|]. auto.
      + intros v e Hv. rewrite X7. destruct (i_ent v e Hv) as (c & A1 & A2 & A3 & A4 & A5). exists c.
        split; [exact A1|]. split; [exact A2|]. split; [specialize (Nb (k_obj c)); lia|]. split; [intros; left; auto|].
        destruct (e_fut e) as [i|i k|b] eqn:Ef; try exact A5. destruct A5 as (B1 & B2 & B3). split; [exact B1|]. split; [exact B2|].
        intros F. destruct (B3 F) as [B4 B5]. split; [exact B4|]. intros Hlt.
        destruct (Nat.eq_dec (k_obj c) a) as [Ea|Na].
        * destruct full eqn:Ef'.
          -- eapply Hstale; eauto.
          -- destruct (Nb (k_obj c)) as (_ & _ & Nf). rewrite Nf in Hlt; auto.
        * destruct (Nb (k_obj c)) as (_ & Nf & _). rewrite Nf in Hlt; auto.
      + intros u j n H. rewrite X5. destruct (Pl u) as [E|(-> & E1 & E2)]; [rewrite E in H; eapply i_sig; eauto|].
        rewrite E2 in H. intuition discriminate.
      + intros b Hb. right. auto.
      + intros b v e [H|(_ & _ & ->)]; [|apply Nat.le_refl]. specialize (i_seen_le b v e H). destruct (Nb b). lia.
      + intros L. assert (L0 : lim pl m) by (unfold lim in *; now rewrite X5, X7 in L).
        destruct (i_lim L0). constructor.
        * intros j v Hin. rewrite X4. destruct (Hs v _ Hin) as [H'|(k & F & Hp' & Hf & H' & Hk)].
          -- destruct (l_mark j v H') as [H|[y H]]; [auto|]. right. exists y. destruct (Pl y) as [E|(-> & E1 & E2)]; congruence.
          -- right. injection Hf as ->. exists t. destruct (P t) as [[N _]|[_ E]]; congruence.
        * intros j v Hin. rewrite X1. intros Hj. destruct (Hs v _ Hin) as [H'|(k & F & Hp' & Hf & H' & Hk)].
          -- destruct (l_carry j v H' Hj) as (y & H1 & H2). exists y. split; auto. unfold carrier. rewrite X7.
             destruct H2 as [H2|[[n H2]|H2]].
             ++ left. destruct (Pl y) as [E|(-> & E1 & E2)]; congruence.
             ++ right; left. exists n. destruct (Pl y) as [E|(-> & E1 & E2)]; congruence.
             ++ right; right. exact H2.
          -- injection Hf as ->. assert (Ho : own m (lockof a) = Some t); [|congruence]. apply i_own.
             destruct Hp as [E|[E _]]; [right; congruence | left; exact E].
        * intros j n y v H. rewrite X5, X1. intros Hn Hj Hin. destruct (Pl y) as [E|(-> & E1 & E2)]; [|congruence]. rewrite E in H.
          destruct (Hs v _ Hin) as [H'|(k & F & Hp' & Hf & H' & Hk)]; [exact (l_clr j n y v H Hn Hj H')|].
          injection Hf as ->. assert (Ho : own m (lockof a) = Some t); [|congruence]. apply i_own.
          destruct Hp as [E'|[E' _]]; [right; congruence | left; exact E'].
        * intros v f Hin Hf. destruct (Hs v _ Hin) as [H'|(k & F & Hp' & Hf' & _)]; [|elim (Hf _ Hf')].
          destruct (l_cond v f H' Hf) as (c & e & A1 & A2 & A3). exists c, e. split; [exact A1|]. split; [exact A2|]. rewrite A3.
          destruct (Nb (k_obj c)) as (_ & N1 & N2). destruct full; [|rewrite N2; auto]. rewrite N1; auto. eapply Hfull; eauto.
      + intros v b Hin. destruct (Hs v _ Hin) as [H'|(k & F & Hp' & Hf' & _)]; [|discriminate].
        destruct (i_fo v b H') as (c & e & A1 & A2 & A3). exists c, e. split; [exact A1|]. split; [exact A2|]. rewrite A3.
        destruct (Nb (k_obj c)) as (_ & N1 & N2). destruct full; [|rewrite N2; auto]. rewrite N1; auto. eapply Hfull; eauto. discriminate.
  Qed.

  (** *** incrementing the counter of a record *)
  Lemma cadd_step m g t i k : Inv m g -> own m i = Some t ->
    let m' := set_cnd m i k (wrap 32 (cnd m i k + 1)) (ntf m i k + 1) in guar t m g m' g /\ Inv m' g.
  Proof.
    intros I Ho m'.
    assert (N : forall j l, (j = i /\ l = k /\ ntf m' j l = ntf m i k + 1 /\ cnd m' j l = wrap 32 (cnd m i k + 1)) \/
                            (ntf m' j l = ntf m j l /\ cnd m' j l = cnd m j l)).
    { intros j l. cbn. unfold fset2. rewrite !fset_if. destruct (Nat.eqb_spec j i); auto. rewrite !fset_if.
      destruct (Nat.eqb_spec l k); subst; auto. }
    assert (M : forall j l, ntf m j l <= ntf m' j l) by (intros j l; destruct (N j l) as [(-> & -> & E & _)|[E _]]; lia).
    assert (Hm : mono m g m' g) by (constructor; cbn; intros; auto; try lia; apply M).
    split.
    - constructor; [exact Hm|apply hist_refl|reflexivity|].
      intros u Nu. constructor; auto; [tauto|]. intros j l Hj. split; [|split; [reflexivity|]];
        destruct (N j l) as [(-> & _)|[E1 E2]]; congruence.
    - pose proof I as I0. destruct I. constructor; try assumption.
      + intros F j l. destruct (N j l) as [(-> & -> & E1 & E2)|[E1 E2]]; rewrite E1, E2; [|auto].
        rewrite (i_cnd F). unfold wrap. apply Zplus_mod_idemp_l.
      + destruct i_pos as (A & B & C). repeat split; auto. intros j l. specialize (M j l). specialize (B j l). lia.
      + intros u f Hin. specialize (i_asleep u f Hin). destruct f; auto. destruct i_asleep as [F [H|(H & e & l & H1 & H2 & H3)]]; auto.
        split; auto. right. split; auto. exists e, l. split; auto. split; auto. specialize (M i0 l). lia.
      + intros u e Hu. destruct (i_ent u e Hu) as (c & A1 & A2 & A3 & A4 & A5). exists c. repeat (split; [assumption|]).
        destruct (e_fut e); auto. destruct A5 as (B1 & B2 & B3). split; [exact B1|]. split; [exact B2|]. intros F.
        destruct (B3 F) as [B4 B5]. specialize (M i0 k0). split; [lia|]. intros H. specialize (B5 H). lia.
      + intros L. assert (L0 : lim pl m).
        { intros F. destruct (L F) as [A B]. split; auto. intros j l. specialize (M j l). specialize (B j l). lia. }
        destruct (i_lim L0). constructor; auto.
        intros j u Hin Hj. destruct (l_carry j u Hin Hj) as (v & H1 & H2). exists v. split; auto.
        destruct H2 as [H2|[H2|(e & l & H2 & H3 & H4)]]; [left; exact H2|right; left; exact H2|right; right].
        exists e, l. split; auto. split; auto. specialize (M j l). lia.
  Qed.

  (** *** counting a waiter in and out *)
  Definition counted (g : ghost) t i k e l := mkg (lph g) (reg g) (fset (ent g) t e) (fset2 (wcl g) i k l) (na g) (cw g) (cur g) (seen g).
  Lemma count_in_step m g t i k c : Inv m g -> lk = LFutex -> own m i = Some t -> ent g t = None -> asleep m t = false ->
    cur g t = Some c -> waits (k_op c) = true -> pooled (D (k_obj c)) = true -> In (t, (d_addr (D (k_obj c)), k)) (reg g i) ->
    (forall old, careful (D (k_obj c)) (k_op c) = Some old -> seen g (k_obj c) old (na g (k_obj c))) ->
    let m' := set_wct m i k (wct m i k + 1) in
    let g' := counted g t i k (Some (mke (FC i k) (na g (k_obj c)) (ntf m i k))) (t :: wcl g i k) in
    guar t m g m' g' /\ Inv m' g'.
  Proof.
    intros I F Ho He Ha Hcur Hwt Hk Hreg Hcare m' g'.
    assert (P : forall u, u <> t /\ ent g' u = ent g u \/ u = t /\ ent g' u = Some (mke (FC i k) (na g (k_obj c)) (ntf m i k))).
    { intros u. cbn. rewrite fset_if. destruct (Nat.eqb_spec u t); auto. }
    assert (W : forall j l, j = i /\ l = k /\ wct m' j l = wct m i k + 1 /\ wcl g' j l = t :: wcl g i k \/
                            (j <> i \/ l <> k) /\ wct m' j l = wct m j l /\ wcl g' j l = wcl g j l).
    { intros j l. cbn. unfold fset2. rewrite !fset_if. destruct (Nat.eqb_spec j i); auto. rewrite !fset_if.
      destruct (Nat.eqb_spec l k); subst; auto. }
    assert (Hm : mono m g m' g') by (subst m' g'; apply mono_same; auto; cbn; lia).
    split.
    - constructor; [exact Hm| |reflexivity|].
      + split; [auto|]. intros a H. cbn in H. lia.
      + intros u Nu. constructor; [exact Hm|reflexivity|cbn; now apply fset_neq|reflexivity|intros; tauto|auto|auto|auto|auto| |auto|].
        * intros j l Hj. destruct (W j l) as [(-> & _)|(_ & E & _)]; [congruence|]. auto.
        * intros j l v e Hj Hv Hf. destruct (P v) as [[_ E]|[-> E]]; [congruence|]. rewrite E in Hv. injection Hv as <-.
          cbn in Hf. injection Hf as <- <-. congruence.
    - pose proof I as I0. destruct I. constructor; try assumption.
      + intros _ j l. destruct (i_wct F j l) as (A & B & C).
        assert (Nt : forall j' l', ~ In t (wcl g j' l')).
        { intros j' l' H. destruct (i_wct F j' l') as (_ & _ & C'). apply C' in H. destruct H as (x & H & _). congruence. }
        destruct (W j l) as [(-> & -> & E1 & E2)|(N & E1 & E2)]; rewrite E1, E2.
        * split; [cbn [length]; rewrite A; lia|]. split; [constructor; auto|]. intros u. cbn [In]. rewrite C.
          destruct (P u) as [[Nu E]|[-> E]]; rewrite E; [intuition congruence|]. split; [|auto]. intros _. eexists. split; reflexivity.
        * split; [exact A|]. split; [exact B|]. intros u. rewrite C. destruct (P u) as [[Nu E]|[-> E]]; rewrite E; [tauto|].
          rewrite He. split; intros (x & H1 & H2); [discriminate|]. injection H1 as <-. cbn in H2. injection H2 as <- <-. intuition.
      + intros u f Hin. assert (Nu : u <> t) by (intros ->; elim (proj1 (awake_in m t) Ha f Hin)).
        destruct (P u) as [[_ E]|[-> _]]; [|congruence]. rewrite E. exact (i_asleep u f Hin).
      + intros u e Hu. destruct (P u) as [[_ E]|[-> E]]; rewrite E in Hu; [exact (i_ent u e Hu)|]. injection Hu as <-.
        exists c. split; [exact Hcur|]. split; [exact Hwt|]. split; [cbn; lia|]. split; [exact Hcare|]. cbn. split; [exact Hk|].
        split; [exact Hreg|]. intros _. destruct i_pos as (_ & B & _). specialize (B i k). split; lia.
      + intros L. destruct (i_lim L). constructor; auto.
        * intros j u Hin Hj. destruct (l_carry j u Hin Hj) as (v & H1 & H2). exists v. split; auto.
          destruct H2 as [H2|[H2|(e & l & H2 & H3 & H4)]]; [left; exact H2|right; left; exact H2|right; right].
          exists e, l. destruct (P v) as [[_ E]|[-> _]]; [rewrite E; auto|congruence].
        * intros u f Hin Hf. assert (Nu : u <> t) by (intros ->; elim (proj1 (awake_in m t) Ha f Hin)).
          destruct (P u) as [[_ E]|[-> _]]; [|congruence]. rewrite E. exact (l_cond u f Hin Hf).
      + intros u b Hin. assert (Nu : u <> t) by (intros ->; elim (proj1 (awake_in m t) Ha _ Hin)).
        destruct (P u) as [[_ E]|[-> _]]; [|congruence]. rewrite E. exact (i_fo u b Hin).
  Qed.

  Lemma remove_len (t : nat) l : NoDup l -> In t l -> length l = S (length (remove Nat.eq_dec t l)).
  Proof.
    induction l as [|x l IH]; intros N H; [destruct H|]. inversion N as [|? ? N1 N2]; subst. cbn.
    destruct (Nat.eq_dec t x) as [->|Nx].
    - rewrite notin_remove by auto. reflexivity.
    - cbn. rewrite <- IH; auto. destruct H; [congruence|auto].
  Qed.
  Lemma nodup_remove (t : nat) l : NoDup l -> NoDup (remove Nat.eq_dec t l).
  Proof.
    induction l as [|x l IH]; intros N; [constructor|]. inversion N as [|? ? N1 N2]; subst. cbn.
    destruct (Nat.eq_dec t x); auto. constructor; auto. intros H. apply in_remove in H. tauto.
  Qed.

  Lemma count_out_step m g t i k e : Inv m g -> lk = LFutex -> own m i = Some t -> ent g t = Some e -> e_fut e = FC i k ->
    asleep m t = false ->
    let m' := set_wct m i k (wct m i k - 1) in
    let g' := counted g t i k None (remove Nat.eq_dec t (wcl g i k)) in
    guar t m g m' g' /\ Inv m' g'.
  Proof.
    intros I F Ho He Hf Ha m' g'.
    assert (P : forall u, u <> t /\ ent g' u = ent g u \/ u = t /\ ent g' u = None).
    { intros u. cbn. rewrite fset_if. destruct (Nat.eqb_spec u t); auto. }
    assert (W : forall j l, j = i /\ l = k /\ wct m' j l = wct m i k - 1 /\ wcl g' j l = remove Nat.eq_dec t (wcl g i k) \/
                            (j <> i \/ l <> k) /\ wct m' j l = wct m j l /\ wcl g' j l = wcl g j l).
    { intros j l. cbn. unfold fset2. rewrite !fset_if. destruct (Nat.eqb_spec j i); auto. rewrite !fset_if.
      destruct (Nat.eqb_spec l k); subst; auto. }
    assert (Hm : mono m g m' g') by (subst m' g'; apply mono_same; auto; cbn; lia).
    split.
    - constructor; [exact Hm| |reflexivity|].
      + split; [auto|]. intros a H. cbn in H. lia.
      + intros u Nu. constructor; [exact Hm|reflexivity|cbn; now apply fset_neq|reflexivity|intros; tauto|auto|auto|auto|auto| |auto|].
        * intros j l Hj. destruct (W j l) as [(-> & _)|(_ & E & _)]; [congruence|]. auto.
        * intros j l v x Hj Hv Hx. destruct (P v) as [[_ E]|[-> E]]; congruence.
    - pose proof I as I0. destruct I. constructor; try assumption.
      + intros _ j l. destruct (i_wct F j l) as (A & B & C).
        destruct (W j l) as [(-> & -> & E1 & E2)|(N & E1 & E2)]; rewrite E1, E2.
        * assert (Hin : In t (wcl g i k)) by (apply C; eauto).
          split; [rewrite A, (remove_len t (wcl g i k)) by auto; lia|]. split; [now apply nodup_remove|]. intros u.
          destruct (P u) as [[Nu E]|[-> E]]; rewrite E.
          -- rewrite <- C. split; intros H; [now apply in_remove in H|apply in_in_remove; auto].
          -- split; [intros H; apply remove_In in H; destruct H|intros (x & H & _); discriminate].
        * split; [exact A|]. split; [exact B|]. intros u. rewrite C. destruct (P u) as [[Nu E]|[-> E]]; rewrite E; [tauto|].
          rewrite He. split; intros (x & H1 & H2); [injection H1 as <-|discriminate]. rewrite Hf in H2. injection H2 as <- <-. intuition.
      + intros u f Hin. assert (Nu : u <> t) by (intros ->; elim (proj1 (awake_in m t) Ha f Hin)).
        destruct (P u) as [[_ E]|[-> _]]; [|congruence]. rewrite E. exact (i_asleep u f Hin).
      + intros u x Hu. destruct (P u) as [[_ E]|[-> E]]; rewrite E in Hu; [exact (i_ent u x Hu)|discriminate].
      + intros L. destruct (i_lim L). constructor; auto.
        * intros j u Hin Hj. destruct (l_carry j u Hin Hj) as (v & H1 & H2). exists v. split; auto.
          destruct H2 as [H2|[H2|(x & l & H2 & H3 & H4)]]; [left; exact H2|right; left; exact H2|right; right].
          exists x, l. destruct (P v) as [[_ E]|[-> _]]; [rewrite E; auto|]. exfalso.
          assert (x = e) by congruence. subst x. rewrite Hf in H3. injection H3 as <- <-. change (own m i = None) in Hj. congruence.
        * intros u f Hin Hx. assert (Nu : u <> t) by (intros ->; elim (proj1 (awake_in m t) Ha f Hin)).
          destruct (P u) as [[_ E]|[-> _]]; [|congruence]. rewrite E. exact (l_cond u f Hin Hx).
      + intros u b Hin. assert (Nu : u <> t) by (intros ->; elim (proj1 (awake_in m t) Ha _ Hin)).
        destruct (P u) as [[_ E]|[-> _]]; [|congruence]. rewrite E. exact (i_fo u b Hin).
  Qed.

  (** *** a byte of a locked object is written *)
  Lemma in_two a b z : layout_ok D -> d_addr (D a) <= z < d_addr (D a) + Z.of_nat (d_size (D a)) ->
    d_addr (D b) <= z < d_addr (D b) + Z.of_nat (d_size (D b)) -> a = b.
  Proof. intros HD A B. destruct (Nat.eq_dec a b) as [E|N]; auto. destruct HD as [_ H]. specialize (H a b N). lia. Qed.
  Lemma bytes_set f z v x n : (forall j, (j < n)%nat -> x + Z.of_nat j <> z) -> bytes_at (bset f z v) x n = bytes_at f x n.
  Proof.
    intros H. unfold bytes_at. apply map_ext_in. intros j Hj. apply in_seq in Hj. unfold bset.
    destruct (Z.eqb_spec (x + Z.of_nat j) z) as [E|N]; auto. elim (H j); auto. lia.
  Qed.
  Lemma word_set m b z v : ~ (d_addr (D b) <= z < d_addr (D b) + Z.of_nat (d_size (D b))) ->
    word_at (set_byt m z v) b = word_at m b.
  Proof. intros H. unfold SleepInv.word_at. cbn. rewrite bytes_set; auto. intros j Hj. lia. Qed.
  Lemma bwr_step m g t a z v : layout_ok D -> Inv m g -> own m (lockof a) = Some t -> d_locked (D a) = true ->
    d_addr (D a) <= z < d_addr (D a) + Z.of_nat (d_size (D a)) ->
    guar t m g (set_byt m z v) g /\ Inv (set_byt m z v) g.
  Proof.
    intros HD I Ho Hd Hz.
    assert (Hm : mono m g (set_byt m z v) g) by (apply mono_same; auto; cbn; lia).
    split.
    - constructor; [exact Hm|apply hist_refl|reflexivity|]. intros u Nu.
      constructor; [exact Hm|reflexivity|reflexivity|reflexivity|intros; tauto|auto|auto| |auto|auto|auto|auto].
      intros i b y Hi Hb Hl Hy. cbn. unfold bset. destruct (Z.eqb_spec y z) as [->|]; auto.
      assert (a = b) by (eapply in_two; eauto). subst b. congruence.
    - destruct I. constructor; try assumption.
      + intros b Hb. rewrite word_set; [apply i_seen; exact Hb|]. intros Hy. assert (a = b) by (eapply in_two; eauto). subst b.
        specialize (Hb Hd). cbn in Hb. congruence.
      + intros L. destruct (i_lim L). constructor; assumption.
  Qed.

  (** *** a lock-free object is accessed *)
  Definition noted (g : ghost) m' := mkg (lph g) (reg g) (ent g) (wcl g) (na g) (cw g) (cur g) (note m' (seen g) (na g)).
  Lemma cell_step_ok m g t a v : Inv m g ->
    let m' := set_cel m a v in guar t m g m' (noted g m') /\ Inv m' (noted g m').
  Proof.
    intros I m'.
    assert (Hm : mono m g m' (noted g m')) by (subst m'; apply mono_same; auto; [cbn; lia | left; auto]).
    split.
    - constructor; [exact Hm| |reflexivity|].
      + split; [intros b w e [H|(H1 & H2 & _)]; auto|]. intros b H. cbn in H. lia.
      + intros u Nu. constructor; [exact Hm|reflexivity|reflexivity|reflexivity|intros; tauto|auto|auto|auto|auto|auto|auto|auto].
    - destruct I. constructor; try assumption.
      + intros u e Hu. destruct (i_ent u e Hu) as (c & A1 & A2 & A3 & A4 & A5). exists c. repeat (split; [assumption|]).
        split; [intros old Hold; left; auto | exact A5].
      + intros b Hb. right. auto.
      + intros b w e [H|(_ & _ & ->)]; [exact (i_seen_le _ _ _ H) | apply Nat.le_refl].
      + intros L. destruct (i_lim L). constructor; assumption.
  Qed.

  (** *** a wait list changes *)
  Definition set_reg (g : ghost) i r := mkg (lph g) (fset (reg g) i r) (ent g) (wcl g) (na g) (cw g) (cur g) (seen g).
  Lemma wl_step m g t i l r : Inv m g -> own m i = Some t -> ent g t = None ->
    RecordsProof.linv (pl_init pl) l (map snd r) -> NoDup (map fst r) ->
    (forall u x, u <> t -> In (u, x) r <-> In (u, x) (reg g i)) ->
    (forall z k, In (t, (z, k)) r -> exists c, cur g t = Some c /\ z = d_addr (D (k_obj c)) /\ i = lockof (k_obj c)) ->
    guar t m g (set_wl m i l) (set_reg g i r) /\ Inv (set_wl m i l) (set_reg g i r).
  Proof.
    intros I Ho He Hl Hnd Hoth Ht.
    assert (R : forall j u x, u <> t -> In (u, x) (reg (set_reg g i r) j) <-> In (u, x) (reg g j)).
    { intros j u x Nu. cbn. rewrite fset_if. destruct (Nat.eqb_spec j i) as [->|]; [auto | tauto]. }
    assert (Hm : mono m g (set_wl m i l) (set_reg g i r)) by (apply mono_same; auto; cbn; lia).
    split.
    - constructor; [exact Hm| |reflexivity|].
      + split; [auto|]. intros b H. cbn in H. lia.
      + intros u Nu. constructor; [exact Hm|reflexivity|reflexivity|reflexivity|intros; apply R; auto|auto|auto|auto|auto|auto| |auto].
        intros j Hj. cbn. apply fset_neq. congruence.
    - destruct I. constructor; try assumption.
      + intros j. cbn. rewrite !fset_if. destruct (Nat.eqb_spec j i); auto.
      + intros j. cbn. rewrite !fset_if. destruct (Nat.eqb_spec j i); auto.
      + intros j u z k Hin. destruct (Nat.eq_dec u t) as [->|Nu].
        * cbn in Hin. rewrite fset_if in Hin. destruct (Nat.eqb_spec j i) as [->|]; [exact (Ht z k Hin) | exact (i_reg j t z k Hin)].
        * apply R in Hin; auto. exact (i_reg j u z k Hin).
      + intros u e Hu. destruct (i_ent u e Hu) as (c & A1 & A2 & A3 & A4 & A5). exists c. repeat (split; [assumption|]).
        destruct (e_fut e); auto. destruct A5 as (B1 & B2 & B3). split; [exact B1|]. split; [|exact B3].
        apply R; auto. change (ent g u = Some e) in Hu. congruence.
      + intros L. destruct (i_lim L). constructor; assumption.
  Qed.

  (** *** a call begins or ends *)
  Definition set_cur (g : ghost) t c := mkg (lph g) (reg g) (ent g) (wcl g) (na g) (cw g) (fset (cur g) t c) (seen g).
  Lemma cur_step m g t c : Inv m g -> asleep m t = false -> ent g t = None -> (forall i x, ~ In (t, x) (reg g i)) ->
    Inv m (set_cur g t c) /\ mono m g m (set_cur g t c) /\ (cw (set_cur g t c) = cw g /\ seen (set_cur g t c) = seen g) /\
    forall u, u <> t -> rely u m g m (set_cur g t c).
  Proof.
    intros I Ha He Hr.
    assert (P : forall u, u <> t -> cur (set_cur g t c) u = cur g u) by (intros; cbn; now apply fset_neq).
    assert (Hm : mono m g m (set_cur g t c)) by (apply mono_same; auto; lia).
    split; [|split; [exact Hm|split; [auto|]]].
    - destruct I. constructor; try assumption.
      + intros i u z k Hin. rewrite P; [exact (i_reg i u z k Hin)|]. intros ->. elim (Hr _ _ Hin).
      + intros u e Hu. rewrite P; [exact (i_ent u e Hu)|]. intros ->. change (ent g t = Some e) in Hu. congruence.
      + intros L. destruct (i_lim L). constructor; try assumption.
        intros u f Hin Hf. rewrite P; [exact (l_cond u f Hin Hf)|]. intros ->. elim (proj1 (awake_in m t) Ha f Hin).
      + intros u b Hin. rewrite P; [exact (i_fo u b Hin)|]. intros ->. elim (proj1 (awake_in m t) Ha _ Hin).
    - intros u Nu. constructor; [exact Hm|reflexivity|reflexivity|auto|intros; tauto|auto|auto|auto|auto|auto|auto|auto].
  Qed.
End Steps.

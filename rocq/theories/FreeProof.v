(** * Lock-freedom of programs that write at most once. *)
From Coq Require Import ZArith List Bool Lia.
From Verif Require Import SpecInt SpecLin SpecAlone SpecFree Order Conv Prog Word Progress ProgressInt.
Import ListNotations.
Open Scope nat_scope.

(** ** [budget a p n Q]: [p] writes nothing but the cell [a], and that at most [n] times; with [k] of
    these writes left it returns [r] such that [Q k r]. *)
Fixpoint budget {R} (a : addr) (p : wprog R) (n : nat) (Q : nat -> R -> Prop) {struct p} : Prop :=
  match p with
  | Ret r => Q n r
  | Do ac k => forall t m w m' x, wexec t ac m w = Some (m', x) ->
      (m' = m /\ budget a (k x) n Q) \/
      (exists n', n = S n' /\ (forall b, b <> a -> m' b = m b) /\ budget a (k x) n' Q)
  | Loop body s k => exists K : nat -> _ -> Prop,
      (forall s', budget a (body s') n (fun n' y => match y with inl _ => n' = n | inr b => K n' b end)) /\
      (forall n' b, K n' b -> budget a (k b) n' Q)
  end.

Lemma budget_mono {R} a (p : wprog R) : forall n (Q Q' : nat -> R -> Prop),
  budget a p n Q -> (forall k r, Q k r -> Q' k r) -> budget a p n Q'.
Proof.
  induction p as [R r|R ac k IH|R X B body IHb s k IH]; simpl; intros n Q Q' H HQ; auto.
  - intros t m w m' x E. destruct (H t m w m' x E) as [[H1 H2]|(n' & H1 & H2 & H3)]; [left|right]; eauto 6.
  - destruct H as (K & H1 & H2). exists K. split; auto. intros n' b Hb. eapply IH; eauto.
Qed.

Lemma budget_bind {R R'} a (f : R -> wprog R') (p : wprog R) : forall n (Q : nat -> R -> Prop) (Q' : nat -> R' -> Prop),
  budget a p n Q -> (forall k r, Q k r -> budget a (f r) k Q') -> budget a (bind p f) n Q'.
Proof.
  induction p as [R r|R ac k IH|R X B body IHb s k IH]; simpl; intros n Q Q' H HQ; auto.
  - intros t m w m' x E. destruct (H t m w m' x E) as [[H1 H2]|(n' & H1 & H2 & H3)]; [left|right]; eauto 6.
  - destruct H as (K & H1 & H2). exists K. split; auto. intros n' b Hb. eapply IH; eauto.
Qed.

Lemma budget_step {R} a t w m (p : wprog R) n Q : budget a p n Q ->
  (fst (pstep wexec t w m p) = m /\ budget a (snd (pstep wexec t w m p)) n Q) \/
  (exists n', n = S n' /\ (forall b, b <> a -> fst (pstep wexec t w m p) b = m b) /\
              budget a (snd (pstep wexec t w m p)) n' Q).
Proof.
  destruct p as [r|ac k|X B body s k]; cbn [pstep]; intros H.
  - left. auto.
  - simpl in H. destruct (wexec t ac m w) as [[m' x]|] eqn:E; simpl; [|now left]. apply (H t m w m' x E).
  - left. split; auto. cbn [snd]. cbn [budget] in H. destruct H as (K & H1 & H2).
    eapply budget_bind; [apply H1|]. intros k' [s'|b] Hy.
    + cbn [budget]. subst k'. exists K. split; auto.
    + auto.
Qed.

Definition any {R} : nat -> R -> Prop := fun _ _ => True.
(** at most one write *)
Definition once {R} (a : addr) (p : wprog R) : Prop := budget a p 1 any.

(** ** Spurious failures *)
Lemma not_spurious {R} t w m (p : wprog R) :
  match p with Do x _ => negb (lucky w) && would_succeed m x | _ => false end = false ->
  pstep wexec t w m p = pstep wexec t (mkluck true (junk w)) m p.
Proof.
  destruct w as [[] j]; [reflexivity|]. destruct p as [r|ac k|X B body s k]; try reflexivity. simpl. intros H.
  destruct ac; cbn [would_succeed] in H; cbn [wexec lucky junk]; try reflexivity; now rewrite H.
Qed.

(** ** Sums over threads *)
Definition total (f : nat -> nat) (ts : list nat) : nat := list_sum (map f ts).

Lemma total_le f g ts d : (forall u, In u ts -> f u <= g u + d) -> total f ts <= total g ts + d * length ts.
Proof.
  unfold total. induction ts as [|u ts IH]; simpl; intros H; [lia|].
  assert (f u <= g u + d) by (apply H; auto). assert (list_sum (map f ts) <= list_sum (map g ts) + d * length ts) by (apply IH; auto). lia.
Qed.

Lemma total_change f g ts t d : NoDup ts -> In t ts -> (forall u, u <> t -> f u <= g u + d) ->
  total f ts + g t <= total g ts + f t + d * (length ts - 1).
Proof.
  unfold total. induction ts as [|u ts IH]; simpl; intros Hn Hi H; [contradiction|].
  inversion Hn as [|? ? Hu Hd]; subst. destruct Hi as [->|Hi].
  - assert (E := total_le f g ts d). unfold total in E.
    assert (list_sum (map f ts) <= list_sum (map g ts) + d * length ts).
    { apply E. intros v Hv. apply H. intros ->. contradiction. }
    replace (length ts - 0) with (length ts) by lia. lia.
  - assert (Hne : u <> t) by (intros ->; contradiction). specialize (IH Hd Hi H). specialize (H u Hne).
    assert (1 <= length ts) by (destruct ts; [contradiction | simpl; lia]).
    replace (d * (length ts - 0)) with (d * (length ts - 1) + d); [lia|].
    replace (length ts - 0) with (S (length ts - 1)) by lia. lia.
Qed.

(** ** The potential *)
Section Potential.
  Context {op ret : Type}.
  Variable impl : op -> wprog ret.
  Variable adr : op -> addr.
  Variable n : nat.
  Hypothesis Hob : forall o, ob (adr o) n (impl o).
  Hypothesis Honce : forall o, once (adr o) (impl o).
  Variable a : addr.
  Variable ts : list nat.
  Hypothesis Hnd : NoDup ts.
  Notation config := (config wact wresp wmem op ret).
  Notation P := (length ts).

  Definition unfinished (p : wprog ret) : bool := match p with Ret _ => false | _ => true end.

  Lemma working_run c t o p : c_thr c t = Run o p -> working adr a c t = unfinished p && Nat.eqb (adr o) a.
  Proof. unfold working. intros ->. destruct p; reflexivity. Qed.

  (** every call can still write [bg] times, and would finish in [rk] steps if left alone *)
  Definition good (c : config) (rk bg : nat -> nat) : Prop :=
    forall t o p, c_thr c t = Run o p ->
      ob (adr o) n p /\ bg t <= 1 /\ budget (adr o) p (bg t) any /\
      rk t <= n /\ (adr o = a -> ev a (rk t) (c_mem c a) p (fun _ _ => True)).

  Definition phi (c : config) (rk bg : nat -> nat) (t : nat) : nat :=
    if working adr a c t then rk t + n * (P - 1) * bg t else n * P.

  Notation "c '>>' e" := (fst (cstep wexec impl c e)) (at level 60).

  Definition b2n (b : bool) : nat := if b then 1 else 0.

  Lemma phi_ext c c' rk bg t : c_thr c' t = c_thr c t -> phi c' rk bg t = phi c rk bg t.
  Proof. unfold phi, working. now intros ->. Qed.

  Lemma tset_same {A} (f : nat -> A) t x : tset f t x t = x.
  Proof. unfold tset. now rewrite Nat.eqb_refl. Qed.
  Lemma tset_other {A} (f : nat -> A) t u x : u <> t -> tset f t x u = f u.
  Proof. unfold tset. intros H. destruct (Nat.eqb_spec u t); congruence. Qed.

  Lemma step_ok c rk bg e : good c rk bg -> (forall t w, e = SStep t w -> In t ts) ->
    exists rk' bg', good (c >> e) rk' bg' /\
      b2n (works adr a c e) + total (phi (c >> e) rk' bg') ts
      <= total (phi c rk bg) ts + n * P * b2n (finishes impl adr a c e) + S n * b2n (stumbles adr a c e).
  Proof.
    intros Hg Hin. destruct e as [t o|t w|t].
    - (* a call *)
      cbn [works finishes stumbles b2n]. rewrite ?Nat.mul_0_r, ?Nat.add_0_r.
      simpl. destruct (c_thr c t) as [|o' p'] eqn:E; simpl; [|exists rk, bg; split; [exact Hg | lia]].
      set (c' := mkc (c_mem c) (tset (c_thr c) t (Run o (impl o)))).
      exists (fun u => if Nat.eqb u t then n else rk u), (fun u => if Nat.eqb u t then 1 else bg u). split.
      + intros u o' p' Hu. unfold c' in Hu. simpl in Hu. destruct (Nat.eqb_spec u t) as [->|Hne].
        * rewrite tset_same in Hu. inversion Hu; subst. split; [apply Hob|]. split; [lia|]. split; [apply Honce|].
          split; [lia|]. intros <-. apply (Hob o' []).
        * rewrite tset_other in Hu by exact Hne. exact (Hg u o' p' Hu).
      + rewrite <- (Nat.add_0_r (total (phi c rk bg) ts)), <- (Nat.mul_0_l P). apply total_le.
        intros u Hu. rewrite Nat.add_0_r. destruct (Nat.eqb_spec u t) as [->|Hne].
        * assert (Hp : 1 <= P) by (destruct ts; [contradiction | simpl; lia]).
          unfold phi at 2. unfold working. rewrite E. unfold phi. rewrite Nat.eqb_refl, Nat.mul_1_r.
          destruct (working adr a c' t); [|lia].
          replace (n * P) with (n + n * (P - 1)); [lia|]. replace P with (S (P - 1)) at 2 by lia. lia.
        * unfold phi, working, c'. simpl. rewrite tset_other by exact Hne.
          destruct (Nat.eqb_spec u t); [contradiction | lia].
    - (* a step *)
      specialize (Hin t w eq_refl). assert (Hp : 1 <= P) by (destruct ts; [contradiction | simpl; lia]).
      cbn [works finishes stumbles]. unfold fails_spuriously.
      destruct (c_thr c t) as [|o p] eqn:E.
      { assert (Hw : working adr a c t = false) by (unfold working; now rewrite E).
        rewrite Hw. cbn [andb b2n]. simpl. rewrite E. simpl. exists rk, bg. split; [exact Hg | lia]. }
      destruct (Hg t o p E) as (G1 & G2 & G3 & G4 & G5).
      assert (Hw : working adr a c t = unfinished p && Nat.eqb (adr o) a) by (apply working_run; exact E).
      assert (Hc : c >> SStep t w = mkc (fst (pstep wexec t w (c_mem c) p)) (tset (c_thr c) t (Run o (snd (pstep wexec t w (c_mem c) p))))).
      { simpl. rewrite E. destruct (pstep wexec t w (c_mem c) p). reflexivity. }
      set (c' := c >> SStep t w) in *. set (m' := fst (pstep wexec t w (c_mem c) p)) in *.
      set (q := snd (pstep wexec t w (c_mem c) p)) in *.
      assert (Hq : c_thr c' t = Run o q) by (rewrite Hc; simpl; apply tset_same).
      assert (Hoth : forall u, u <> t -> c_thr c' u = c_thr c u) by (intros u Hu; rewrite Hc; simpl; now apply tset_other).
      assert (Hm : c_mem c' = m') by (rewrite Hc; reflexivity).
      assert (Hw' : working adr a c' t = unfinished q && Nat.eqb (adr o) a) by (apply working_run; exact Hq).
      assert (Gq : ob (adr o) n q) by (apply ob_step; exact G1).
      destruct (Nat.eqb_spec (adr o) a) as [Ha|Ha].
      2:{ (* a step on another object *)
          rewrite andb_false_r in Hw, Hw'. rewrite Hw. cbn [andb b2n].
          assert (Hma : m' a = c_mem c a).
          { destruct (budget_step (adr o) t w (c_mem c) p (bg t) any G3) as [[M _]|(k & _ & M & _)]; fold m' in M.
            - now rewrite M.
            - apply M. congruence. }
          assert (exists k, k <= 1 /\ budget (adr o) q k any) as (k & Hk1 & Hk2).
          { destruct (budget_step (adr o) t w (c_mem c) p (bg t) any G3) as [[_ M]|(k & Hk & _ & M)]; fold q in M.
            - eauto.
            - exists k. split; [lia | exact M]. }
          exists rk, (fun u => if Nat.eqb u t then k else bg u). split.
          - intros u o' p' Hu. rewrite Hm, Hma. destruct (Nat.eqb_spec u t) as [->|Hne].
            + rewrite Hq in Hu. inversion Hu; subst o' p'. repeat (split; auto). contradiction.
            + rewrite Hoth in Hu by exact Hne. exact (Hg u o' p' Hu).
          - assert (total (phi c' rk (fun u => if Nat.eqb u t then k else bg u)) ts <= total (phi c rk bg) ts + 0 * P); [|lia].
            apply total_le. intros u Hu. rewrite Nat.add_0_r. destruct (Nat.eqb_spec u t) as [->|Hne].
            + unfold phi. rewrite Hw, Hw'. lia.
            + unfold phi, working. rewrite Hoth by exact Hne. destruct (Nat.eqb_spec u t); [contradiction | lia]. }
      rewrite andb_true_r in Hw, Hw'.
      destruct (unfinished p) eqn:Hun.
      2:{ (* the call is over *)
          rewrite Hw. cbn [andb b2n]. destruct p as [r| |]; try discriminate. simpl in m', q. subst m' q.
          assert (Hthr : forall u, c_thr c' u = c_thr c u).
          { intros u. destruct (Nat.eq_dec u t) as [->|Hne]; [congruence | auto]. }
          exists rk, bg. split.
          - intros u o' p' Hu. rewrite Hthr in Hu. rewrite Hm. exact (Hg u o' p' Hu).
          - assert (total (phi c' rk bg) ts <= total (phi c rk bg) ts + 0 * P); [|lia].
            apply total_le. intros u _. rewrite (phi_ext c c') by apply Hthr. lia. }
      (* a step on the object *)
      rewrite Hw, Hw'. cbn [andb]. specialize (G5 Ha). rewrite Ha in *.
      set (sp := match p with Ret _ => false | Do x _ => negb (lucky w) && would_succeed (c_mem c) x | Loop _ _ _ => false end).
      assert (exists r, r <= n /\ ev a r (m' a) q (fun _ _ => True) /\ r + 1 <= rk t + S n * b2n sp) as (r & R1 & R2 & R3).
      { destruct sp eqn:Hsp.
        - exists n. split; [lia|]. split; [apply (Gq [])|]. simpl. lia.
        - destruct (rk t) as [|r] eqn:Er; [destruct p; simpl in G5; [discriminate | contradiction | contradiction]|].
          exists r. split; [lia|]. split; [|simpl; lia].
          assert (Hev : ev a r (fst (pstep wexec t (mkluck true (junk w)) (c_mem c) p) a)
                          (snd (pstep wexec t (mkluck true (junk w)) (c_mem c) p)) (fun _ _ => True)).
          { destruct p; [discriminate| |]; apply (G5 t (mkluck true (junk w)) (c_mem c) eq_refl eq_refl). }
          rewrite <- (not_spurious t w (c_mem c) p) in Hev by exact Hsp. exact Hev. }
      assert (exists k d, k <= 1 /\ budget a q k any /\ k + d = bg t /\ (d = 0 -> m' = c_mem c)) as (k & d & K1 & K2 & K3 & K4).
      { destruct (budget_step a t w (c_mem c) p (bg t) any G3) as [[M1 M2]|(k & Hk & _ & M2)]; fold q in M2.
        - exists (bg t), 0. repeat (split; auto).
        - exists k, 1. repeat (split; auto); try lia. }
      set (rk' := fun u => if Nat.eqb u t then r else if Nat.eqb d 0 then rk u else n).
      set (bg' := fun u => if Nat.eqb u t then k else bg u).
      exists rk', bg'. split.
      + intros u o' p' Hu. unfold rk', bg'. rewrite Hm. destruct (Nat.eqb_spec u t) as [->|Hne].
        * rewrite Hq in Hu. inversion Hu; subst o' p'. rewrite Ha. repeat (split; auto).
        * rewrite Hoth in Hu by exact Hne. destruct (Hg u o' p' Hu) as (H1 & H2 & H3 & H4 & H5).
          repeat (split; auto); destruct (Nat.eqb_spec d 0) as [Hd|Hd]; auto.
          -- intros Ho. rewrite K4 by exact Hd. auto.
          -- intros Ho. rewrite <- Ho. apply (H1 []).
      + assert (Ht : total (phi c' rk' bg') ts + phi c rk bg t <= total (phi c rk bg) ts + phi c' rk' bg' t + (n * d) * (P - 1)).
        { apply total_change; auto. intros u Hne. unfold phi, working. rewrite Hoth by exact Hne.
          unfold rk', bg'. destruct (Nat.eqb_spec u t); [contradiction|].
          assert (Hd : d = 0 \/ d = 1) by lia.
          destruct (c_thr c u) as [|o' p'] eqn:Eu; [lia|]. destruct (Hg u o' p' Eu) as (_ & _ & _ & H4 & _).
          destruct Hd as [-> | ->]; simpl; rewrite ?Nat.mul_0_r, ?Nat.mul_1_r, ?Nat.add_0_r.
          - lia.
          - destruct p'; try lia; destruct (Nat.eqb (adr o') a); lia. }
        assert (Eo : phi c rk bg t = rk t + n * (P - 1) * bg t) by (unfold phi; now rewrite Hw).
        assert (En : phi c' rk' bg' t = if unfinished q then r + n * (P - 1) * k else n * P).
        { unfold phi. rewrite Hw'. unfold rk', bg'. now rewrite Nat.eqb_refl. }
        rewrite Eo, En in Ht. clear -Ht R3 K3. fold sp. cbn [b2n].
        assert (Hb : n * (P - 1) * bg t = n * (P - 1) * k + n * d * (P - 1)) by (rewrite <- K3; lia).
        rewrite Hb in Ht. destruct (unfinished q); cbn [negb b2n]; lia.
    - (* a return *)
      cbn [works finishes stumbles b2n]. rewrite ?Nat.mul_0_r, ?Nat.add_0_r.
      simpl. destruct (c_thr c t) as [|o [r| |]] eqn:E; simpl; try (exists rk, bg; split; [exact Hg | lia]).
      exists rk, bg. split.
      + intros u o' p' Hu. simpl in Hu. unfold tset in Hu. destruct (Nat.eqb_spec u t); [discriminate | exact (Hg u o' p' Hu)].
      + match goal with |- total (phi ?c' _ _) _ <= _ => assert (total (phi c' rk bg) ts <= total (phi c rk bg) ts + 0 * P); [|lia] end.
        apply total_le. intros u _. unfold phi, working. simpl. unfold tset. destruct (Nat.eqb_spec u t) as [->|]; [rewrite E|]; lia.
  Qed.

  Lemma run_ok l : forall c rk bg, good c rk bg -> (forall t w, In (SStep t w) l -> In t ts) ->
    count impl (works adr a) c l
    <= total (phi c rk bg) ts + n * P * count impl (finishes impl adr a) c l + S n * count impl (stumbles adr a) c l.
  Proof.
    induction l as [|e l IH]; intros c rk bg Hg Hl; cbn [count]; [lia|].
    destruct (step_ok c rk bg e Hg) as (rk' & bg' & Hg' & H1); [intros t w ->; apply (Hl t w); simpl; auto|].
    specialize (IH _ _ _ Hg' (fun t w H => Hl t w (or_intror H))).
    fold (b2n (works adr a c e)) (b2n (finishes impl adr a c e)) (b2n (stumbles adr a c e)). lia.
  Qed.

  Definition sound (c : config) (bg : nat -> nat) : Prop :=
    forall t o p, c_thr c t = Run o p -> ob (adr o) n p /\ bg t <= 1 /\ budget (adr o) p (bg t) any.

  Lemma sound_good c bg : sound c bg -> good c (fun _ => n) bg.
  Proof.
    intros H t o p E. destruct (H t o p E) as (H1 & H2 & H3). repeat (split; auto). intros <-. apply (H1 []).
  Qed.

  Lemma sound_step c bg e : sound c bg -> exists bg', sound (c >> e) bg'.
  Proof.
    intros H. destruct e as [t o|t w|t]; simpl.
    - destruct (c_thr c t) as [|o' p'] eqn:E; simpl; [|eauto].
      exists (fun u => if Nat.eqb u t then 1 else bg u). intros u o' p' Hu. simpl in Hu.
      destruct (Nat.eqb_spec u t) as [->|Hne].
      + rewrite tset_same in Hu. inversion Hu; subst. split; [apply Hob|]. split; [lia | apply Honce].
      + rewrite tset_other in Hu by exact Hne. eauto.
    - destruct (c_thr c t) as [|o p] eqn:E; simpl; [eauto|]. destruct (H t o p E) as (H1 & H2 & H3).
      assert (exists k, k <= 1 /\ budget (adr o) (snd (pstep wexec t w (c_mem c) p)) k any) as (k & Hk1 & Hk2).
      { destruct (budget_step (adr o) t w (c_mem c) p (bg t) any H3) as [[_ M]|(k & Hk & _ & M)]; [eauto|].
        exists k. split; [lia | exact M]. }
      assert (H4 := ob_step (adr o) n t w (c_mem c) p H1).
      destruct (pstep wexec t w (c_mem c) p) as [m' q]. simpl in *.
      exists (fun u => if Nat.eqb u t then k else bg u). intros u o' p' Hu. simpl in Hu.
      destruct (Nat.eqb_spec u t) as [->|Hne].
      + rewrite tset_same in Hu. inversion Hu; subst. auto.
      + rewrite tset_other in Hu by exact Hne. eauto.
    - destruct (c_thr c t) as [|o [r| |]] eqn:E; simpl; eauto.
      exists bg. intros u o' p' Hu. simpl in Hu. unfold tset in Hu. destruct (Nat.eqb_spec u t); [discriminate | eauto].
  Qed.

  Lemma fst_run e l c : fst (run wexec impl c (e :: l)) = fst (run wexec impl (c >> e) l).
  Proof. simpl. destruct (cstep wexec impl c e) as [c1 h1]. simpl. now destruct (run wexec impl c1 l). Qed.

  Lemma sound_run l : forall c bg, sound c bg -> exists bg', sound (fst (run wexec impl c l)) bg'.
  Proof.
    induction l as [|e l IH]; intros c bg H; [simpl; eauto|]. rewrite fst_run.
    destruct (sound_step c bg e H) as [bg' H']. eauto.
  Qed.

  Lemma phi_le c bg t : In t ts -> bg t <= 1 -> phi c (fun _ => n) bg t <= n * P.
  Proof.
    intros Hin Hb. assert (Hp : 1 <= P) by (destruct ts; [contradiction | simpl; lia]).
    unfold phi. destruct (working adr a c t); [|lia].
    assert (n * (P - 1) * bg t <= n * (P - 1) * 1) by (apply Nat.mul_le_mono_l; exact Hb).
    replace (n * P) with (n + n * (P - 1)); [lia|]. replace P with (S (P - 1)) at 2 by lia. lia.
  Qed.

  Lemma free_run m0 l1 l2 : (forall t w, In (SStep t w) l2 -> In t ts) ->
    let c1 := fst (run wexec impl (start m0) l1) in
    count impl (works adr a) c1 l2
    <= n * P * (P + count impl (finishes impl adr a) c1 l2) + S n * count impl (stumbles adr a) c1 l2.
  Proof.
    intros Hl c1. destruct (sound_run l1 (start m0) (fun _ => 0)) as [bg Hs]; [intros t o p E; discriminate|].
    assert (Hr := run_ok l2 c1 (fun _ => n) bg (sound_good _ _ Hs) Hl).
    assert (total (phi c1 (fun _ => n) bg) ts <= total (fun _ => 0) ts + (n * P) * P).
    { apply total_le. intros u Hu. unfold phi at 1. fold (phi c1 (fun _ => n) bg u).
      destruct (c_thr c1 u) as [|o p] eqn:E.
      - unfold phi, working. rewrite E. lia.
      - destruct (Hs u o p E) as (_ & Hb & _). simpl. now apply phi_le. }
    assert (Z0 : total (fun _ => 0) ts = 0) by (unfold total; clear; induction ts; simpl; auto).
    rewrite Z0 in H. rewrite Nat.mul_add_distr_l. lia.
  Qed.

  (** a positive count has a first occurrence *)
  Lemma count_pos f l : forall c, 0 < count impl f c l ->
    exists before e after, l = before ++ e :: after /\ f (fst (run wexec impl c before)) e = true.
  Proof.
    induction l as [|e l IH]; intros c H; cbn [count] in H; [lia|].
    destruct (f c e) eqn:E; [exists [], e, l; auto|].
    destruct (IH (c >> e)) as (b & e' & af & -> & H2); [simpl in H; lia|].
    exists (e :: b), e', af. split; auto. rewrite fst_run. exact H2.
  Qed.

  Lemma run_snoc e l : forall c, fst (run wexec impl c (l ++ [e])) = fst (run wexec impl c l) >> e.
  Proof.
    induction l as [|e' l IH]; intros c.
    - rewrite app_nil_l, fst_run. reflexivity.
    - rewrite <- app_comm_cons, !fst_run. apply IH.
  Qed.

  Lemma finishes_ret c t w : finishes impl adr a c (SStep t w) = true ->
    working adr a c t = true /\ exists o r, adr o = a /\ c_thr (c >> SStep t w) t = Run o (Ret r).
  Proof.
    cbn [finishes]. intros H. apply andb_true_iff in H. destruct H as [H1 H2]. split; auto.
    destruct (c_thr c t) as [|o p] eqn:E; [unfold working in H1; rewrite E in H1; discriminate|].
    rewrite (working_run c t o p E) in H1. apply andb_true_iff in H1. destruct H1 as [_ H1].
    assert (Ec : c_thr (c >> SStep t w) t = Run o (snd (pstep wexec t w (c_mem c) p))).
    { simpl. rewrite E. destruct (pstep wexec t w (c_mem c) p). simpl. apply tset_same. }
    rewrite (working_run _ t o _ Ec), H1, andb_true_r in H2. exists o.
    destruct (snd (pstep wexec t w (c_mem c) p)) as [r| |]; try discriminate.
    exists r. split; [now apply Nat.eqb_eq | exact Ec].
  Qed.
End Potential.

Theorem lock_free_all {op ret} (impl : op -> wprog ret) (adr : op -> addr) n m0 :
  (forall o, ob (adr o) n (impl o)) -> (forall o, once (adr o) (impl o)) -> lock_free_within impl adr n m0.
Proof. intros H1 H2 l1 l2 ts a Hn Hl. now apply free_run. Qed.

Theorem someone_finishes_all {op ret} (impl : op -> wprog ret) (adr : op -> addr) n m0 :
  lock_free_within impl adr n m0 -> someone_finishes_within impl adr n m0.
Proof.
  intros H l1 l2 ts a Hn Hl c1 P Hc. specialize (H l1 l2 ts a Hn Hl). cbv zeta in H. fold c1 P in H.
  assert (0 < count impl (finishes impl adr a) c1 l2) as Hp by (destruct (count impl (finishes impl adr a) c1 l2); lia).
  destruct (count_pos impl _ l2 c1 Hp) as (b & e & af & -> & He).
  destruct e as [t o|t w|t]; try discriminate. exists b, t, w, af. split; auto. cbv zeta. rewrite run_snoc.
  now apply finishes_ret.
Qed.

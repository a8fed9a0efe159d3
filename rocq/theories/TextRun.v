(** * Runs of the text are runs of the model. *)
From Coq Require Import ZArith List String Bool Lia.
From Verif Require Import SpecInt SpecLin SpecObj SpecTyped Order Conv Prog Word CoreModel ExtraModel IntModel TypedModel
  TextModel SpecText TextTable TextProg SimProof WordFacts IntProof TypedProof IntConseq TypedConseq SpecHist UntornProof TextProof TextFront.
Import ListNotations.
Open Scope string_scope.
Open Scope list_scope.
Open Scope Z_scope.
Open Scope prog_scope.

(** ** Linearizations under other names *)
Section Names.
  Context {op op' ret state : Type}.
  Variables (spec : state -> op -> ret -> state -> Prop) (g : op' -> op) (P : op' -> Prop).
  Variable spec' : state -> op' -> ret -> state -> Prop.
  Hypothesis G : forall s o r s', P o -> spec s (g o) r s' -> spec' s o r s'.
  Definition ren_pend (p : pend op' ret) : pend op ret :=
    match p with PIdle => PIdle | PCalled o => PCalled (g o) | PDone o r => PDone (g o) r end.
  Definition pend_ok (p : pend op' ret) : Prop := match p with PIdle => True | PCalled o | PDone o _ => P o end.

  Lemma lrun_names : forall s th l s' th', lrun spec s th l s' th' ->
    forall h th1, erase l = map (rename_event g) h -> (forall t, th t = ren_pend (th1 t)) -> (forall t, pend_ok (th1 t)) ->
    (forall t o, In (EInv t o) h -> P o) ->
    exists l1 th1', lrun spec' s th1 l1 s' th1' /\ erase l1 = h /\ (forall t, th' t = ren_pend (th1' t)).
  Proof.
    intros s th l s' th' R.
    induction R as [s th|s th t o l s' th' i R IH|s th t o r s1 l s' th' c sp R IH|s th t o r l s' th' d R IH];
      intros h th1 E Ht Hp Hh; cbn [erase] in E.
    - destruct h as [|e h]; [|discriminate E]. exists [], th1. split; [constructor|]. split; [reflexivity|exact Ht].
    - destruct h as [|[t' o'|t' r'] h]; cbn [map rename_event] in E; try discriminate E. injection E as e1 e2 E. subst t' o.
      destruct (IH h (tset th1 t (PCalled o')) E) as [l1 [th1' [R1 [E1 H1]]]].
      + intros u. unfold tset. destruct (Nat.eqb u t); [reflexivity|apply Ht].
      + intros u. unfold tset. destruct (Nat.eqb u t); [|apply Hp]. cbn. apply (Hh t). left. reflexivity.
      + intros u o I. apply (Hh u). right. exact I.
      + exists (LInv t o' :: l1), th1'. split; [|split; [cbn [erase]; rewrite E1; reflexivity|exact H1]].
        apply lr_inv; [|exact R1]. rewrite Ht in i. destruct (th1 t); [reflexivity|discriminate i|discriminate i].
    - rewrite Ht in c. pose proof (Hp t) as Pt. destruct (th1 t) as [|o1|o1 r1] eqn:et; try discriminate c. injection c as c. subst o.
      destruct (IH h (tset th1 t (PDone o1 r)) E) as [l1 [th1' [R1 [E1 H1]]]].
      + intros u. unfold tset. destruct (Nat.eqb u t); [reflexivity|apply Ht].
      + intros u. unfold tset. destruct (Nat.eqb u t); [exact Pt|apply Hp].
      + exact Hh.
      + exists (LLin t :: l1), th1'. split; [|split; [exact E1|exact H1]].
        eapply lr_lin; [exact et|apply G; [exact Pt|exact sp]|exact R1].
    - destruct h as [|[t' o'|t' r'] h]; cbn [map rename_event] in E; try discriminate E. injection E as e1 e2 E. subst t' r'.
      rewrite Ht in d. destruct (th1 t) as [|o1|o1 r1] eqn:et; try discriminate d. injection d as d1 d2. subst o r1.
      destruct (IH h (tset th1 t PIdle) E) as [l1 [th1' [R1 [E1 H1]]]].
      + intros u. unfold tset. destruct (Nat.eqb u t); [reflexivity|apply Ht].
      + intros u. unfold tset. destruct (Nat.eqb u t); [exact I|apply Hp].
      + intros u o I. apply (Hh u). right. exact I.
      + exists (LRes t r :: l1), th1'. split; [|split; [cbn [erase]; rewrite E1; reflexivity|exact H1]].
        eapply lr_res; [exact et|exact R1].
  Qed.

  Lemma lin_names : forall s0 h s th, linearizable_to spec s0 (map (rename_event g) h) s th -> (forall t o, In (EInv t o) h -> P o) ->
    exists th', linearizable_to spec' s0 h s th' /\ forall t, th t = ren_pend (th' t).
  Proof.
    intros s0 h s th [l [R E]] Hh.
    destruct (lrun_names _ _ _ _ _ R h (fun _ => PIdle) E) as [l1 [th1 [R1 [E1 H1]]]]; try exact Hh; [reflexivity|exact (fun _ => I)|].
    exists th1. split; [|exact H1]. exists l1. split; [exact R1|exact E1].
  Qed.
End Names.

(** ** Memories that agree *)
Lemma wexec_ext : forall t a m m' w, (forall b, m b = m' b) ->
  match wexec t a m w, wexec t a m' w with
  | Some (m1, x), Some (m1', x') => x = x' /\ forall b, m1 b = m1' b
  | None, None => True
  | _, _ => False
  end.
Proof.
  intros t a m m' w e.
  assert (P : forall b v c, put m b v c = put m' b v c).
  { intros b v c. unfold put. destruct (Nat.eqb c b); rewrite ?e; reflexivity. }
  destruct a as [a|a n|a n hi|a v|a v|a n f|a x d|a x d|a x d|a|a n hi|a k v]; cbn [wexec]; rewrite <- ?(e a);
    repeat match goal with |- context[if ?b then _ else _] => destruct b end;
    (split; [reflexivity|]); first [exact e | intros b; apply P].
Qed.
Lemma pstep_ext : forall R (p : wprog R) t w m m', (forall b, m b = m' b) ->
  snd (pstep wexec t w m p) = snd (pstep wexec t w m' p) /\ forall b, fst (pstep wexec t w m p) b = fst (pstep wexec t w m' p) b.
Proof.
  intros R p t w m m' e. destruct p as [r|a k|X B body s k]; cbn [pstep]; try (split; [reflexivity|exact e]).
  pose proof (wexec_ext t a m m' w e) as H. destruct (wexec t a m w) as [[m1 x]|], (wexec t a m' w) as [[m1' x']|]; try contradiction.
  - destruct H as [H1 H2]. subst x'. split; [reflexivity|exact H2].
  - split; [reflexivity|exact e].
Qed.
Lemma run_ext : forall op ret (impl : op -> wprog ret) l m m' T, (forall b, m b = m' b) ->
  snd (run wexec impl (mkc m T) l) = snd (run wexec impl (mkc m' T) l) /\
  (forall b, c_mem (fst (run wexec impl (mkc m T) l)) b = c_mem (fst (run wexec impl (mkc m' T) l)) b) /\
  c_thr (fst (run wexec impl (mkc m T) l)) = c_thr (fst (run wexec impl (mkc m' T) l)).
Proof.
  intros op ret impl l. induction l as [|x l IH]; intros m m' T e; [split; [reflexivity|split; [exact e|reflexivity]]|].
  cbn [run].
  assert (step : exists m1 m1' T1 h, cstep wexec impl (mkc m T) x = (mkc m1 T1, h) /\ cstep wexec impl (mkc m' T) x = (mkc m1' T1, h) /\
            forall b, m1 b = m1' b).
  { destruct x as [t o|t w|t]; cbn [cstep c_thr c_mem]; destruct (T t) as [|o1 p].
    - eexists _, _, _, _. split; [reflexivity|split; [reflexivity|exact e]].
    - eexists _, _, _, _. split; [reflexivity|split; [reflexivity|exact e]].
    - eexists _, _, _, _. split; [reflexivity|split; [reflexivity|exact e]].
    - destruct (pstep_ext _ p t w m m' e) as [E1 E2].
      destruct (pstep wexec t w m p) as [m1 p1], (pstep wexec t w m' p) as [m1' p1']. cbn [fst snd] in *. subst p1'.
      eexists _, _, _, _. split; [reflexivity|split; [reflexivity|exact E2]].
    - eexists _, _, _, _. split; [reflexivity|split; [reflexivity|exact e]].
    - destruct p; eexists _, _, _, _; (split; [reflexivity|split; [reflexivity|exact e]]). }
  destruct step as [m1 [m1' [T1 [h [S1 [S2 e1]]]]]]. rewrite S1, S2. destruct (IH m1 m1' T1 e1) as [E1 [E2 E3]].
  assert (two : forall A B (p : A * list B) g, (let (c2, h2) := p in (c2, g ++ h2)) = (fst p, g ++ snd p)) by (intros A B [c2 h2] g; reflexivity).
  rewrite !two. cbn [fst snd]. split; [exact (f_equal (app h) E1)|split; [exact E2|exact E3]].
Qed.

(** ** The text and the model *)
Section Same.
  Context {B O : Type}.
  Variables (means : mcall -> option (morder * O)) (text : B -> mcall -> addr -> wprog iret)
    (model : B -> morder -> addr -> O -> wprog iret) (W : addr -> B) (word n0 : addr -> Z) (l : list (sched luck tcall)).
  Variables (d : morder * O) (m : wmem).
  Hypothesis Z : forall a, m a = mkcell (word a) (n0 a).
  Definition named (c : tcall) : addr * (morder * O) := (fst c, match means (snd c) with Some o => o | None => d end).
  Hypothesis H : forall t c, In (SInv t c) l -> exists mo o, means (snd c) = Some (mo, o) /\
    sim eq (text (W (fst c)) (snd c) (fst c)) (model (W (fst c)) mo (fst c) o).

  Let A := text_run text word W n0 l.
  Let M := run wexec (fun c => model (W (fst c)) (fst (snd c)) (fst c) (snd (snd c)))
             (start m) (map (rename_sched named) l).
  Lemma text_same : snd M = map (rename_event named) (snd A) /\ (forall a, c_mem (fst M) a = c_mem (fst A) a) /\ (quiet (fst A) -> quiet (fst M)).
  Proof.
    unfold A, M, text_run.
    destruct (start_rename wexec (fun c => model (W (fst c)) (fst (snd c)) (fst c) (snd (snd c))) named l
                (fun a => mkcell (word a) (n0 a))) as [E1 [E2 E3]].
    destruct (same_runs wexec (fun c : tcall => text (W (fst c)) (snd c) (fst c))
                (fun c => model (W (fst (named c))) (fst (snd (named c))) (fst (named c)) (snd (snd (named c)))) l
                (fun a => mkcell (word a) (n0 a))) as [F1 [F2 F3]].
    - intros t c i. destruct (H t c i) as [mo [o [e S]]]. unfold named. cbn [fst snd]. rewrite e. exact S.
    - destruct (run_ext _ _ (fun c => model (W (fst c)) (fst (snd c)) (fst c) (snd (snd c))) (map (rename_sched named) l) m _
                  (fun _ => Idle) Z) as [G1 [G2 G3]].
      split; [exact (eq_trans G1 (eq_trans E1 (f_equal _ (eq_sym F1))))|].
      split; [intros a; exact (eq_trans (G2 a) (f_equal (fun m => m a) (eq_trans E2 (eq_sym F2))))|].
      intros q t. exact (eq_trans (f_equal (fun f => f t) G3) (E3 (F3 q) t)).
  Qed.

  Context {V : Type}.
  Lemma text_lin : forall (spec : nat -> V -> morder * O -> iret -> V -> Prop) v0 (Q : (nat -> V) -> addr -> cell -> Prop),
    (exists v th, linearizable_to (objects spec) v0 (snd M) v th /\ (forall a, Q v a (c_mem (fst M) a)) /\
       (quiet (fst M) -> forall t, th t = PIdle)) ->
    exists v th, linearizable_to (objects (meant means spec)) v0 (snd A) v th /\ (forall a, Q v a (c_mem (fst A) a)) /\
       (quiet (fst A) -> forall t, th t = PIdle).
  Proof.
    intros spec v0 Q [v [th [L [q K]]]]. destruct text_same as [E1 [E2 E3]]. rewrite E1 in L.
    assert (G : forall s c r s', (exists o, means (snd c) = Some o) -> objects spec s (named c) r s' -> objects (meant means spec) s c r s').
    { intros s [a c] r s' [o e] [S1 S2]. unfold named in S1, S2. cbn [fst snd] in *. rewrite e in S1.
      split; [exists o; split; [exact e|exact S1]|exact S2]. }
    assert (N : forall t c, In (EInv t c) (snd A) -> exists o, means (snd c) = Some o).
    { intros t c i. assert (i' : In (SInv t c) l).
      { apply (gen_run_invoked (fun c : tcall => text (W (fst c)) (snd c) (fst c)) l (start (fun a => mkcell (word a) (n0 a)))).
        unfold invoked. apply in_flat_map. exists (EInv t c). split; [exact i|left; reflexivity]. }
      destruct (H t c i') as [mo [o [e _]]]. exists (mo, o). exact e. }
    destruct (lin_names (objects spec) named _ _ G _ _ _ _ L N) as [th' [L' R]].
    exists v, th'. split; [exact L'|]. split; [intros a; rewrite <- E2; exact (q a)|]. intros z t. specialize (K (E3 z) t). rewrite R in K.
    destruct (th' t); [reflexivity|discriminate K|discriminate K].
  Qed.
End Same.

Lemma legal_named : forall O (means : mcall -> option (morder * O)) d ok l, legal (says means ok) l ->
  @legal luck _ ok (map (rename_sched (named means d)) l).
Proof.
  intros O means d ok l H t o i. apply in_map_iff in i. destruct i as [e [E i]]. destruct e as [u c| |]; try discriminate E.
  cbn [rename_sched] in E. injection E as _ E. destruct (H _ _ i) as [x [e G]]. rewrite <- E. unfold named. destruct c as [a c]. cbn [fst snd] in *. rewrite e. exact G.
Qed.

Section Transport.
  Context {B O V : Type}.
  Variables (means : mcall -> option (morder * O)) (text : B -> mcall -> addr -> wprog iret)
    (model : B -> morder -> addr -> O -> wprog iret) (W : addr -> B) (word n0 : addr -> Z) (l : list (sched luck tcall))
    (d : morder * O) (m : wmem) (ok : addr * (morder * O) -> Prop).
  Hypothesis Z : forall a, m a = mkcell (word a) (n0 a).
  Hypothesis H : forall a call mo o, means call = Some (mo, o) -> sim eq (text (W a) call a) (model (W a) mo a o).
  Hypothesis L : legal (says means ok) l.

  Lemma called : forall t c, In (SInv t c) l -> exists mo o, means (snd c) = Some (mo, o) /\
    sim eq (text (W (fst c)) (snd c) (fst c)) (model (W (fst c)) mo (fst c) o).
  Proof. intros t c i. destruct (L _ _ i) as [[mo o] [e _]]. exists mo, o. split; [exact e|exact (H _ _ _ _ e)]. Qed.

  Let A := text_run text word W n0 l.
  Let M := run wexec (fun c => model (W (fst c)) (fst (snd c)) (fst c) (snd (snd c))) (start m) (map (rename_sched (named means d)) l).
  Lemma transport : forall (spec : nat -> V -> morder * O -> iret -> V -> Prop) v0 (Q : (nat -> V) -> addr -> cell -> Prop),
    (legal ok (map (rename_sched (named means d)) l) ->
     exists v th, linearizable_to (objects spec) v0 (snd M) v th /\ (forall a, Q v a (c_mem (fst M) a)) /\
       (quiet (fst M) -> forall t, th t = PIdle)) ->
    exists v th, linearizable_to (objects (meant means spec)) v0 (snd A) v th /\ (forall a, Q v a (c_mem (fst A) a)) /\
       (quiet (fst A) -> forall t, th t = PIdle).
  Proof.
    intros spec v0 Q G.
    exact (text_lin means text model W word n0 l d m Z called spec v0 Q (G (legal_named _ _ _ _ _ L))).
  Qed.
End Transport.

(** * Normal forms of register expressions, for AsmCheck.v. *)
From Coq Require Import ZArith Arith List Bool Lia.
From Verif Require Import Conv SpecInt AsmExpr.
Import ListNotations.
Open Scope Z_scope.
#[local] Arguments Nat.ltb : simpl never.

Scheme expr_mut := Induction for expr Sort Prop
  with cnd_mut := Induction for cnd Sort Prop.
Combined Scheme expr_cnd_ind from expr_mut, cnd_mut.

(** defining equations *)
Section Equations.
  Variables (r : nat -> Z) (f : nat -> bool).
  Lemma ev_EV n : eval r f (EV n) = (r n). Proof. reflexivity. Qed.
  Lemma ev_EC z : eval r f (EC z) = (z). Proof. reflexivity. Qed.
  Lemma ev_EBin b x y : eval r f (EBin b x y) = (bin_apply b (eval r f x) (eval r f y)). Proof. reflexivity. Qed.
  Lemma ev_EUn u x : eval r f (EUn u x) = (un_apply u (eval r f x)). Proof. reflexivity. Qed.
  Lemma ev_ELow k x : eval r f (ELow k x) = (wrap k (eval r f x)). Proof. reflexivity. Qed.
  Lemma ev_ESx k x : eval r f (ESx k x) = (sval k (wrap k (eval r f x))). Proof. reflexivity. Qed.
  Lemma ev_EIns k x y : eval r f (EIns k x y) = (eval r f x - wrap k (eval r f x) + wrap k (eval r f y)). Proof. reflexivity. Qed.
  Lemma ev_EHi k x : eval r f (EHi k x) = (eval r f x / 2 ^ k). Proof. reflexivity. Qed.
  Lemma ev_EJoin k x y : eval r f (EJoin k x y) = (wrap k (eval r f x) + 2 ^ k * eval r f y). Proof. reflexivity. Qed.
  Lemma ev_EB c : eval r f (EB c) = (if ceval r f c then 1 else 0). Proof. reflexivity. Qed.
  Lemma ev_EPow x : eval r f (EPow x) = (2 ^ eval r f x). Proof. reflexivity. Qed.
  Lemma ev_CT : ceval r f (CT) = (true). Proof. reflexivity. Qed.
  Lemma ev_CF : ceval r f (CF) = (false). Proof. reflexivity. Qed.
  Lemma ev_CV n : ceval r f (CV n) = (f n). Proof. reflexivity. Qed.
  Lemma ev_CEq k x y : ceval r f (CEq k x y) = (wrap k (eval r f x) =? wrap k (eval r f y)). Proof. reflexivity. Qed.
  Lemma ev_CLt k x y : ceval r f (CLt k x y) = (wrap k (eval r f x) <? wrap k (eval r f y)). Proof. reflexivity. Qed.
  Lemma ev_CCar k x y : ceval r f (CCar k x y) = (2 ^ k <=? wrap k (eval r f x) + wrap k (eval r f y)). Proof. reflexivity. Qed.
  Lemma ev_CBit x y : ceval r f (CBit x y) = (Z.testbit (eval r f x) (eval r f y)). Proof. reflexivity. Qed.
  Lemma ev_CNot c : ceval r f (CNot c) = (negb (ceval r f c)). Proof. reflexivity. Qed.
  Lemma ev_CAnd c d : ceval r f (CAnd c d) = (ceval r f c && ceval r f d). Proof. reflexivity. Qed.
End Equations.
#[export] Hint Rewrite ev_EV ev_EC ev_EBin ev_EUn ev_ELow ev_ESx ev_EIns ev_EHi ev_EJoin ev_EB ev_EPow ev_CT ev_CF ev_CV ev_CEq ev_CLt ev_CCar ev_CBit ev_CNot ev_CAnd : ev.

(** ** Equality *)
Definition binop_eqb (x y : binop) : bool :=
  match x, y with Add, Add | Sub, Sub | And, And | Or, Or | Xor, Xor => true | _, _ => false end.
Definition unop_eqb (x y : unop) : bool := match x, y with Neg, Neg | Not, Not => true | _, _ => false end.
Lemma binop_eqb_true x y : binop_eqb x y = true -> x = y.
Proof. destruct x, y; (reflexivity || discriminate). Qed.
Lemma unop_eqb_true x y : unop_eqb x y = true -> x = y.
Proof. destruct x, y; (reflexivity || discriminate). Qed.

Fixpoint expr_eqb (x y : expr) : bool :=
  match x, y with
  | EV n, EV m => Nat.eqb n m
  | EC z, EC t => z =? t
  | EBin b x1 x2, EBin c y1 y2 => binop_eqb b c && expr_eqb x1 y1 && expr_eqb x2 y2
  | EUn u x1, EUn v y1 => unop_eqb u v && expr_eqb x1 y1
  | ELow k x1, ELow j y1 => (k =? j) && expr_eqb x1 y1
  | ESx k x1, ESx j y1 => (k =? j) && expr_eqb x1 y1
  | EIns k x1 x2, EIns j y1 y2 => (k =? j) && expr_eqb x1 y1 && expr_eqb x2 y2
  | EHi k x1, EHi j y1 => (k =? j) && expr_eqb x1 y1
  | EJoin k x1 x2, EJoin j y1 y2 => (k =? j) && expr_eqb x1 y1 && expr_eqb x2 y2
  | EB c, EB d => cnd_eqb c d
  | EPow x1, EPow y1 => expr_eqb x1 y1
  | _, _ => false
  end
with cnd_eqb (c d : cnd) : bool :=
  match c, d with
  | CT, CT | CF, CF => true
  | CV n, CV m => Nat.eqb n m
  | CEq k x1 x2, CEq j y1 y2 => (k =? j) && expr_eqb x1 y1 && expr_eqb x2 y2
  | CLt k x1 x2, CLt j y1 y2 => (k =? j) && expr_eqb x1 y1 && expr_eqb x2 y2
  | CCar k x1 x2, CCar j y1 y2 => (k =? j) && expr_eqb x1 y1 && expr_eqb x2 y2
  | CBit x1 x2, CBit y1 y2 => expr_eqb x1 y1 && expr_eqb x2 y2
  | CNot c, CNot d => cnd_eqb c d
  | CAnd c1 c2, CAnd d1 d2 => cnd_eqb c1 d1 && cnd_eqb c2 d2
  | _, _ => false
  end.
Lemma eqb_true : (forall x y, expr_eqb x y = true -> x = y) /\ (forall c d, cnd_eqb c d = true -> c = d).
Proof.
  apply expr_cnd_ind; intros;
  match goal with
  | H : expr_eqb _ ?y = true |- _ => destruct y; try discriminate H
  | H : cnd_eqb _ ?d = true |- _ => destruct d; try discriminate H
  end; try reflexivity;
  match goal with H : _ = true |- _ => cbn in H; rewrite ?andb_true_iff in H end;
  repeat match goal with H : _ /\ _ |- _ => destruct H end;
  repeat match goal with
  | H : Nat.eqb _ _ = true |- _ => apply Nat.eqb_eq in H; subst
  | H : (_ =? _) = true |- _ => apply Z.eqb_eq in H; subst
  | H : binop_eqb _ _ = true |- _ => apply binop_eqb_true in H; subst
  | H : unop_eqb _ _ = true |- _ => apply unop_eqb_true in H; subst
  | IH : forall y, expr_eqb ?x y = true -> ?x = y, H : expr_eqb ?x _ = true |- _ => apply IH in H; subst
  | IH : forall y, cnd_eqb ?x y = true -> ?x = y, H : cnd_eqb ?x _ = true |- _ => apply IH in H; subst
  end; reflexivity.
Qed.
Lemma expr_eqb_true x y : expr_eqb x y = true -> x = y. Proof. apply (proj1 eqb_true). Qed.
Lemma cnd_eqb_true c d : cnd_eqb c d = true -> c = d. Proof. apply (proj2 eqb_true). Qed.

(** ** Variables *)
(** variables below [n], flags below [m] *)
Fixpoint ebelow (n m : nat) (e : expr) : bool :=
  match e with
  | EV i => Nat.ltb i n
  | EC _ => true
  | EBin _ x y | EIns _ x y | EJoin _ x y => ebelow n m x && ebelow n m y
  | EUn _ x | ELow _ x | ESx _ x | EHi _ x | EPow x => ebelow n m x
  | EB c => cbelow n m c
  end
with cbelow (n m : nat) (c : cnd) : bool :=
  match c with
  | CT | CF => true
  | CV i => Nat.ltb i m
  | CEq _ x y | CLt _ x y | CCar _ x y | CBit x y => ebelow n m x && ebelow n m y
  | CNot c => cbelow n m c
  | CAnd c d => cbelow n m c && cbelow n m d
  end.
Lemma below_agree n m r f r' f' : (forall i, (i < n)%nat -> r i = r' i) -> (forall i, (i < m)%nat -> f i = f' i) ->
  (forall e, ebelow n m e = true -> eval r f e = eval r' f' e) /\
  (forall c, cbelow n m c = true -> ceval r f c = ceval r' f' c).
Proof.
  intros R F. apply expr_cnd_ind; intros; autorewrite with ev; cbn [ebelow cbelow] in *;  rewrite ?andb_true_iff in *;
  repeat match goal with H : _ /\ _ |- _ => destruct H end;
  repeat match goal with
  | H : Nat.ltb _ _ = true |- _ => apply Nat.ltb_lt in H
  | IH : ?P = true -> _ = _, H : ?P = true |- _ => rewrite (IH H); clear IH
  end; auto.
Qed.

(** replace variables by expressions and flags by conditions *)
Section Sub.
  Variables (er : nat -> expr) (cf : nat -> cnd).
  Fixpoint esub (e : expr) : expr :=
    match e with
    | EV i => er i
    | EC z => EC z
    | EBin b x y => EBin b (esub x) (esub y)
    | EUn u x => EUn u (esub x)
    | ELow k x => ELow k (esub x)
    | ESx k x => ESx k (esub x)
    | EIns k x y => EIns k (esub x) (esub y)
    | EHi k x => EHi k (esub x)
    | EJoin k x y => EJoin k (esub x) (esub y)
    | EB c => EB (csub c)
    | EPow x => EPow (esub x)
    end
  with csub (c : cnd) : cnd :=
    match c with
    | CT => CT | CF => CF
    | CV i => cf i
    | CEq k x y => CEq k (esub x) (esub y)
    | CLt k x y => CLt k (esub x) (esub y)
    | CCar k x y => CCar k (esub x) (esub y)
    | CBit x y => CBit (esub x) (esub y)
    | CNot c => CNot (csub c)
    | CAnd c d => CAnd (csub c) (csub d)
    end.
  Lemma es_EV n : esub (EV n) = er n. Proof. reflexivity. Qed.
  Lemma es_EC z : esub (EC z) = EC z. Proof. reflexivity. Qed.
  Lemma es_EBin b x y : esub (EBin b x y) = EBin b (esub x) (esub y). Proof. reflexivity. Qed.
  Lemma es_EUn u x : esub (EUn u x) = EUn u (esub x). Proof. reflexivity. Qed.
  Lemma es_ELow k x : esub (ELow k x) = ELow k (esub x). Proof. reflexivity. Qed.
  Lemma es_ESx k x : esub (ESx k x) = ESx k (esub x). Proof. reflexivity. Qed.
  Lemma es_EIns k x y : esub (EIns k x y) = EIns k (esub x) (esub y). Proof. reflexivity. Qed.
  Lemma es_EHi k x : esub (EHi k x) = EHi k (esub x). Proof. reflexivity. Qed.
  Lemma es_EJoin k x y : esub (EJoin k x y) = EJoin k (esub x) (esub y). Proof. reflexivity. Qed.
  Lemma es_EB c : esub (EB c) = EB (csub c). Proof. reflexivity. Qed.
  Lemma es_EPow x : esub (EPow x) = EPow (esub x). Proof. reflexivity. Qed.
  Lemma es_CT : csub (CT) = CT . Proof. reflexivity. Qed.
  Lemma es_CF : csub (CF) = CF . Proof. reflexivity. Qed.
  Lemma es_CV n : csub (CV n) = cf n. Proof. reflexivity. Qed.
  Lemma es_CEq k x y : csub (CEq k x y) = CEq k (esub x) (esub y). Proof. reflexivity. Qed.
  Lemma es_CLt k x y : csub (CLt k x y) = CLt k (esub x) (esub y). Proof. reflexivity. Qed.
  Lemma es_CCar k x y : csub (CCar k x y) = CCar k (esub x) (esub y). Proof. reflexivity. Qed.
  Lemma es_CBit x y : csub (CBit x y) = CBit (esub x) (esub y). Proof. reflexivity. Qed.
  Lemma es_CNot c : csub (CNot c) = CNot (csub c). Proof. reflexivity. Qed.
  Lemma es_CAnd c d : csub (CAnd c d) = CAnd (csub c) (csub d). Proof. reflexivity. Qed.
  Hint Rewrite es_EV es_EC es_EBin es_EUn es_ELow es_ESx es_EIns es_EHi es_EJoin es_EB es_EPow es_CT es_CF es_CV es_CEq es_CLt es_CCar es_CBit es_CNot es_CAnd : ev.
  Lemma sub_eval n m r f r' f' : (forall i, (i < n)%nat -> eval r f (er i) = r' i) -> (forall i, (i < m)%nat -> ceval r f (cf i) = f' i) ->
    (forall e, ebelow n m e = true -> eval r f (esub e) = eval r' f' e) /\
    (forall c, cbelow n m c = true -> ceval r f (csub c) = ceval r' f' c).
  Proof.
    intros R F. apply expr_cnd_ind; intros; autorewrite with ev; cbn [ebelow cbelow] in *; rewrite ?andb_true_iff in *;
    repeat match goal with H : _ /\ _ |- _ => destruct H end;
    repeat match goal with
    | H : Nat.ltb _ _ = true |- _ => apply Nat.ltb_lt in H
    | IH : ?P = true -> _ = _, H : ?P = true |- _ => rewrite (IH H); clear IH
    end; auto.
  Qed.
End Sub.
#[export] Hint Rewrite es_EV es_EC es_EBin es_EUn es_ELow es_ESx es_EIns es_EHi es_EJoin es_EB es_EPow es_CT es_CF es_CV es_CEq es_CLt es_CCar es_CBit es_CNot es_CAnd : ev.
Lemma sub_eval_all er cf r f r' f' : (forall i, eval r f (er i) = r' i) -> (forall i, ceval r f (cf i) = f' i) ->
  (forall e, eval r f (esub er cf e) = eval r' f' e) /\ (forall c, ceval r f (csub er cf c) = ceval r' f' c).
Proof.
  intros R F. apply expr_cnd_ind; intros; autorewrite with ev; cbn [ebelow cbelow] in *; repeat match goal with IH : _ = _ |- _ => rewrite IH; clear IH end; auto.
Qed.

(** ** Known facts *)
Inductive fact := FFlag (n : nat) (b : bool) | FVar (n : nat) (e : expr) | FCnd (c : cnd) (b : bool).
Definition holds (r : nat -> Z) (f : nat -> bool) (x : fact) : Prop :=
  match x with FFlag n b => f n = b | FVar n e => r n = eval r f e | FCnd c b => ceval r f c = b end.
Definition fact_e (x : fact) (i : nat) : expr := match x with FVar n e => if Nat.eqb i n then e else EV i | _ => EV i end.
Definition fact_c (x : fact) (i : nat) : cnd :=
  match x with FFlag n b => if Nat.eqb i n then (if b then CT else CF) else CV i | _ => CV i end.
(** a condition that is known *)
Definition same_cond (c d : cnd) : bool := cnd_eqb c d || match c with CEq k x y => cnd_eqb (CEq k y x) d | _ => false end.
Lemma same_cond_ok r f c d : same_cond c d = true -> ceval r f c = ceval r f d.
Proof.
  unfold same_cond. rewrite orb_true_iff. intros [E|E]; [apply cnd_eqb_true in E; now subst|]. destruct c; try discriminate E.
  apply cnd_eqb_true in E. subst d. autorewrite with ev. apply Z.eqb_sym.
Qed.
Section Replace.
  Variables (c0 : cnd) (b0 : bool).
  Definition now (c : cnd) : cnd := if same_cond c0 c then if b0 then CT else CF else c.
  Fixpoint crep (c : cnd) : cnd :=
    match c with
    | CNot d => CNot (crep d)
    | CAnd d e => if same_cond c0 c then if b0 then CT else CF else CAnd (crep d) (crep e)
    | c => now c
    end.
  Fixpoint erep (e : expr) : expr :=
    match e with
    | EV i => EV i
    | EC z => EC z
    | EBin b x y => EBin b (erep x) (erep y)
    | EUn u x => EUn u (erep x)
    | ELow k x => ELow k (erep x)
    | ESx k x => ESx k (erep x)
    | EIns k x y => EIns k (erep x) (erep y)
    | EHi k x => EHi k (erep x)
    | EJoin k x y => EJoin k (erep x) (erep y)
    | EB c => EB (crep c)
    | EPow x => EPow (erep x)
    end.
  Lemma er_EV n : erep (EV n) = EV n. Proof. reflexivity. Qed.
  Lemma er_EC z : erep (EC z) = EC z. Proof. reflexivity. Qed.
  Lemma er_EBin b x y : erep (EBin b x y) = EBin b (erep x) (erep y). Proof. reflexivity. Qed.
  Lemma er_EUn u x : erep (EUn u x) = EUn u (erep x). Proof. reflexivity. Qed.
  Lemma er_ELow k x : erep (ELow k x) = ELow k (erep x). Proof. reflexivity. Qed.
  Lemma er_ESx k x : erep (ESx k x) = ESx k (erep x). Proof. reflexivity. Qed.
  Lemma er_EIns k x y : erep (EIns k x y) = EIns k (erep x) (erep y). Proof. reflexivity. Qed.
  Lemma er_EHi k x : erep (EHi k x) = EHi k (erep x). Proof. reflexivity. Qed.
  Lemma er_EJoin k x y : erep (EJoin k x y) = EJoin k (erep x) (erep y). Proof. reflexivity. Qed.
  Lemma er_EB c : erep (EB c) = EB (crep c). Proof. reflexivity. Qed.
  Lemma er_EPow x : erep (EPow x) = EPow (erep x). Proof. reflexivity. Qed.
  Lemma er_CNot c : crep (CNot c) = CNot (crep c). Proof. reflexivity. Qed.
  Lemma er_CAnd c d : crep (CAnd c d) = if same_cond c0 (CAnd c d) then if b0 then CT else CF else CAnd (crep c) (crep d). Proof. reflexivity. Qed.
  Lemma now_ok r f : ceval r f c0 = b0 -> forall c, ceval r f (now c) = ceval r f c.
  Proof. intros H c. unfold now. destruct (same_cond c0 c) eqn:E; [|reflexivity]. rewrite <- (same_cond_ok r f _ _ E), H. now destruct b0. Qed.
  Lemma rep_eval r f : ceval r f c0 = b0 -> (forall e, eval r f (erep e) = eval r f e) /\ (forall c, ceval r f (crep c) = ceval r f c).
  Proof.
    intros H. apply expr_cnd_ind; intros; try (change (crep ?c) with (now c); now apply now_ok);
      rewrite ?er_EV, ?er_EC, ?er_EBin, ?er_EUn, ?er_ELow, ?er_ESx, ?er_EIns, ?er_EHi, ?er_EJoin, ?er_EB, ?er_EPow, ?er_CNot, ?er_CAnd;
      try (autorewrite with ev; repeat match goal with IH : _ = _ |- _ => rewrite IH; clear IH end; reflexivity);
      try (match goal with |- ceval r f (crep ?c) = _ => exact (now_ok r f H c) end).
    destruct (same_cond c0 (CAnd c d)) eqn:E.
    - rewrite <- (same_cond_ok r f _ _ E), H. now destruct b0.
    - autorewrite with ev. now rewrite H0, H1.
  Qed.
End Replace.
Definition use_e (x : fact) (e : expr) : expr := match x with FCnd c b => erep c b e | _ => esub (fact_e x) (fact_c x) e end.
Definition use_c (x : fact) (d : cnd) : cnd := match x with FCnd c b => crep c b d | _ => csub (fact_e x) (fact_c x) d end.
Definition know (kn : list fact) (e : expr) : expr := fold_left (fun e x => use_e x e) kn e.
Definition knowc (kn : list fact) (c : cnd) : cnd := fold_left (fun c x => use_c x c) kn c.
Lemma fact_sub r f x : holds r f x ->
  (forall e, eval r f (esub (fact_e x) (fact_c x) e) = eval r f e) /\ (forall c, ceval r f (csub (fact_e x) (fact_c x) c) = ceval r f c).
Proof.
  intros H. apply sub_eval_all; intros i; destruct x as [n b|n e|c b]; unfold holds, fact_e, fact_c in *; try reflexivity.
  - destruct (Nat.eqb_spec i n) as [->|N]; [|reflexivity]. now rewrite H.
  - destruct (Nat.eqb_spec i n) as [->|N]; [|reflexivity]. rewrite H. now destruct b.
Qed.
Lemma use_ok r f x : holds r f x -> (forall e, eval r f (use_e x e) = eval r f e) /\ (forall c, ceval r f (use_c x c) = ceval r f c).
Proof. intros H. destruct x as [n b|n e|c b]; [apply (fact_sub r f _ H)|apply (fact_sub r f _ H)|]. exact (rep_eval c b r f H). Qed.
Lemma know_eval r f kn : Forall (holds r f) kn -> forall e, eval r f (know kn e) = eval r f e.
Proof.
  unfold know. induction 1 as [|x kn H _ IH]; intros e; [reflexivity|]. cbn [fold_left]. rewrite IH. apply (proj1 (use_ok r f x H)).
Qed.
Lemma knowc_eval r f kn : Forall (holds r f) kn -> forall c, ceval r f (knowc kn c) = ceval r f c.
Proof.
  unfold knowc. induction 1 as [|x kn H _ IH]; intros c; [reflexivity|]. cbn [fold_left]. rewrite IH. apply (proj2 (use_ok r f x H)).
Qed.

(** ** Arithmetic *)
Definition ceq (k x y : Z) : Prop := wrap k x = wrap k y.
Lemma ceq_refl k x : ceq k x x. Proof. reflexivity. Qed.
Lemma ceq_trans k x y z : ceq k x y -> ceq k y z -> ceq k x z. Proof. unfold ceq. congruence. Qed.
Lemma pow_pos k : 0 <= k -> 0 < 2 ^ k. Proof. intros. apply Z.pow_pos_nonneg; lia. Qed.
Lemma wrap_range k x : 0 <= k -> 0 <= wrap k x < 2 ^ k.
Proof. intros. unfold wrap. apply Z.mod_pos_bound, pow_pos; assumption. Qed.
Lemma wrap_small k x : 0 <= x < 2 ^ k -> wrap k x = x. Proof. intros. unfold wrap. now apply Z.mod_small. Qed.
Lemma wrap_ceq k x : 0 <= k -> ceq k (wrap k x) x.
Proof. intros. unfold ceq, wrap. apply Z.mod_mod. pose proof (pow_pos k H). lia. Qed.
Lemma ceq_wrap k j x : 0 <= k <= j -> ceq k (wrap j x) x.
Proof.
  intros [K J]. unfold ceq, wrap. replace j with (k + (j - k)) by lia. rewrite Z.pow_add_r by lia.
  rewrite Z.rem_mul_r; [|pose proof (pow_pos k K); lia|apply pow_pos; lia].
  rewrite Z.mul_comm, Z.mod_add by (pose proof (pow_pos k K); lia). apply Z.mod_mod. pose proof (pow_pos k K); lia.
Qed.
Lemma ceq_add k a b c d : 0 <= k -> ceq k a b -> ceq k c d -> ceq k (a + c) (b + d).
Proof. unfold ceq, wrap. intros K A B. rewrite Z.add_mod, A, B, <- Z.add_mod; [reflexivity| |]; pose proof (pow_pos k K); lia. Qed.
Lemma ceq_sub k a b c d : 0 <= k -> ceq k a b -> ceq k c d -> ceq k (a - c) (b - d).
Proof. unfold ceq, wrap. intros K A B. rewrite Zminus_mod, A, B, <- Zminus_mod. reflexivity. Qed.
Lemma ceq_mul k a b c : 0 <= k -> ceq k a b -> ceq k (c * a) (c * b).
Proof. unfold ceq, wrap. intros K A. rewrite Z.mul_mod, A, <- Z.mul_mod; [reflexivity| |]; pose proof (pow_pos k K); lia. Qed.
Lemma ceq_opp k a b : 0 <= k -> ceq k a b -> ceq k (- a) (- b).
Proof. intros K A. replace (- a) with (0 - a) by lia. replace (- b) with (0 - b) by lia. apply ceq_sub; [assumption|apply ceq_refl|exact A]. Qed.
Lemma ceq_lnot k a b : 0 <= k -> ceq k a b -> ceq k (Z.lnot a) (Z.lnot b).
Proof. intros K A. unfold Z.lnot. rewrite <- !Z.sub_1_r. apply ceq_sub; [assumption|now apply ceq_opp|apply ceq_refl]. Qed.
Lemma ceq_bits k x y : 0 <= k -> (ceq k x y <-> forall i, 0 <= i < k -> Z.testbit x i = Z.testbit y i).
Proof.
  intros K. unfold ceq, wrap. split.
  - intros E i I. rewrite <- (Z.mod_pow2_bits_low x k i), <- (Z.mod_pow2_bits_low y k i) by lia. now rewrite E.
  - intros E. apply Z.bits_inj'. intros i I. destruct (Z.lt_ge_cases i k) as [L|L].
    + rewrite !Z.mod_pow2_bits_low by lia. apply E. lia.
    + rewrite !Z.mod_pow2_bits_high by lia. reflexivity.
Qed.
Lemma ceq_bitwise k (op : Z -> Z -> Z) (f : bool -> bool -> bool) a b c d :
  (forall x y i, Z.testbit (op x y) i = f (Z.testbit x i) (Z.testbit y i)) ->
  0 <= k -> ceq k a b -> ceq k c d -> ceq k (op a c) (op b d).
Proof.
  intros O K A C. apply ceq_bits; [exact K|]. intros i I. rewrite !O.
  rewrite (proj1 (ceq_bits k a b K) A i I), (proj1 (ceq_bits k c d K) C i I). reflexivity.
Qed.
Lemma ceq_bin k b x x' y y' : 0 <= k -> ceq k x x' -> ceq k y y' -> ceq k (bin_apply b x y) (bin_apply b x' y').
Proof.
  intros K A B. destruct b; cbn.
  - now apply ceq_add.
  - now apply ceq_sub.
  - apply (ceq_bitwise k Z.land andb); auto using Z.land_spec.
  - apply (ceq_bitwise k Z.lor orb); auto using Z.lor_spec.
  - apply (ceq_bitwise k Z.lxor xorb); auto using Z.lxor_spec.
Qed.
Lemma ceq_un k u x x' : 0 <= k -> ceq k x x' -> ceq k (un_apply u x) (un_apply u x').
Proof. intros K A. destruct u; cbn; [now apply ceq_opp|now apply ceq_lnot]. Qed.
Lemma ceq_le k j x y : 0 <= k <= j -> ceq j x y -> ceq k x y.
Proof.
  intros K E. apply ceq_trans with (wrap j x); [symmetry; now apply ceq_wrap|]. rewrite E. now apply ceq_wrap.
Qed.
Lemma sval_ceq k x : 0 <= k -> ceq k (sval k (wrap k x)) x.
Proof.
  intros K. unfold sval. destruct (wrap k x <? 2 ^ (k - 1)); [now apply wrap_ceq|].
  apply ceq_trans with (wrap k x); [|now apply wrap_ceq]. unfold ceq, wrap.
  replace (x mod 2 ^ k - 2 ^ k) with (x mod 2 ^ k + (-1) * 2 ^ k) by lia. apply Z.mod_add. pose proof (pow_pos k K); lia.
Qed.
Lemma sval_inj k x y : 0 <= k -> sval k (wrap k x) = sval k (wrap k y) -> ceq k x y.
Proof. intros K E. apply ceq_trans with (sval k (wrap k x)); [symmetry; now apply sval_ceq|]. rewrite E. now apply sval_ceq. Qed.
(** the join of a pair *)
Lemma join_ceq k j a a' b b' : 0 <= j <= k -> ceq j a a' -> ceq (k - j) b b' -> ceq k (wrap j a + 2 ^ j * b) (wrap j a' + 2 ^ j * b').
Proof.
  intros J A B. rewrite A. apply ceq_add; [lia|apply ceq_refl|].
  unfold ceq, wrap in *. replace k with (j + (k - j)) by lia. rewrite Z.pow_add_r by lia.
  rewrite !Z.mul_mod_distr_l; [rewrite B; reflexivity| | | |]; try (pose proof (pow_pos j ltac:(lia)); lia); pose proof (pow_pos (k - j) ltac:(lia)); lia.
Qed.
Lemma join_low k j a b : 0 <= k <= j -> ceq k (wrap j a + 2 ^ j * b) a.
Proof.
  intros K. apply ceq_trans with (wrap j a + 0); [apply ceq_add; [lia|apply ceq_refl|]|rewrite Z.add_0_r; now apply ceq_wrap].
  unfold ceq, wrap. replace j with (k + (j - k)) by lia. rewrite Z.pow_add_r by lia.
  replace (2 ^ k * 2 ^ (j - k) * b) with (0 + (2 ^ (j - k) * b) * 2 ^ k) by ring. apply Z.mod_add. pose proof (pow_pos k ltac:(lia)); lia.
Qed.
Lemma ins_low k j x y : 0 <= k <= j -> ceq k (x - wrap j x + wrap j y) y.
Proof.
  intros K. apply ceq_trans with (x - x + y); [|replace (x - x + y) with y by lia; apply ceq_refl].
  apply ceq_add; [lia|apply ceq_sub; [lia|apply ceq_refl|now apply ceq_wrap]|now apply ceq_wrap].
Qed.
Lemma hi_ceq k j x y : 0 <= j -> 0 <= k -> ceq (k + j) x y -> ceq k (x / 2 ^ j) (y / 2 ^ j).
Proof.
  intros J K E. apply ceq_bits; [exact K|]. intros i I.
  rewrite <- !Z.shiftr_div_pow2, !Z.shiftr_spec by lia.
  apply (proj1 (ceq_bits (k + j) x y ltac:(lia)) E). lia.
Qed.
Lemma join_hi j a b : 0 <= j -> (wrap j a + 2 ^ j * b) / 2 ^ j = b.
Proof.
  intros J. pose proof (pow_pos j J). pose proof (wrap_range j a J). rewrite Z.mul_comm, Z.div_add by lia.
  rewrite Z.div_small by lia. lia.
Qed.
Lemma join_bits j a b i : 0 <= j -> 0 <= i -> Z.testbit (wrap j a + 2 ^ j * b) i = if i <? j then Z.testbit a i else Z.testbit b (i - j).
Proof.
  intros J I. destruct (Z.ltb_spec i j) as [L|L].
  - apply (proj1 (ceq_bits j _ a J)); [apply join_low; lia|lia].
  - replace i with ((i - j) + j) at 1 by lia. rewrite <- Z.shiftr_spec, Z.shiftr_div_pow2, join_hi by lia. reflexivity.
Qed.
Lemma join_bitwise j (op : Z -> Z -> Z) (f : bool -> bool -> bool) a b c d :
  (forall x y i, Z.testbit (op x y) i = f (Z.testbit x i) (Z.testbit y i)) -> 0 <= j ->
  op (wrap j a + 2 ^ j * b) (wrap j c + 2 ^ j * d) = wrap j (op a c) + 2 ^ j * op b d.
Proof.
  intros O J. apply Z.bits_inj'. intros i I. rewrite O, !join_bits by assumption. destruct (i <? j); rewrite O; reflexivity.
Qed.
Lemma join_lnot j a b : 0 <= j -> Z.lnot (wrap j a + 2 ^ j * b) = wrap j (Z.lnot a) + 2 ^ j * Z.lnot b.
Proof.
  intros J. apply Z.bits_inj'. intros i I. rewrite Z.lnot_spec, !join_bits by assumption.
  destruct (i <? j) eqn:L; [rewrite Z.lnot_spec by lia; reflexivity|]. apply Z.ltb_ge in L. rewrite Z.lnot_spec by lia. reflexivity.
Qed.
Lemma add_carry j a c : 0 <= j -> wrap j (a + c) + 2 ^ j * (if 2 ^ j <=? wrap j a + wrap j c then 1 else 0) = wrap j a + wrap j c.
Proof.
  intros J. pose proof (pow_pos j J). pose proof (wrap_range j a J). pose proof (wrap_range j c J).
  assert (E : wrap j (a + c) = wrap j (wrap j a + wrap j c)) by (apply ceq_add; [exact J|symmetry; now apply wrap_ceq|symmetry; now apply wrap_ceq]).
  rewrite E. destruct (Z.leb_spec (2 ^ j) (wrap j a + wrap j c)) as [L|L].
  - replace (wrap j a + wrap j c) with ((wrap j a + wrap j c - 2 ^ j) + 1 * 2 ^ j) at 1 by lia. unfold wrap at 1. rewrite Z.mod_add by lia.
    rewrite Z.mod_small by lia. lia.
  - rewrite (wrap_small j (wrap j a + wrap j c)) by lia. lia.
Qed.
Lemma sub_borrow j a c : 0 <= j -> wrap j (a - c) - 2 ^ j * (if wrap j a <? wrap j c then 1 else 0) = wrap j a - wrap j c.
Proof.
  intros J. pose proof (pow_pos j J). pose proof (wrap_range j a J). pose proof (wrap_range j c J).
  assert (E : wrap j (a - c) = wrap j (wrap j a - wrap j c)) by (apply ceq_sub; [exact J|symmetry; now apply wrap_ceq|symmetry; now apply wrap_ceq]).
  rewrite E. destruct (Z.ltb_spec (wrap j a) (wrap j c)) as [L|L].
  - replace (wrap j a - wrap j c) with ((wrap j a - wrap j c + 2 ^ j) + (-1) * 2 ^ j) at 1 by lia. unfold wrap at 1. rewrite Z.mod_add by lia.
    rewrite Z.mod_small by lia. lia.
  - rewrite (wrap_small j (wrap j a - wrap j c)) by lia. lia.
Qed.

(** ** Normal forms *)
Section Norm.
  Variable wd : nat -> option Z.  (* widths of variables *)

  (** a width of the value *)
  Fixpoint wid (e : expr) : option Z :=
    match e with
    | EV n => wd n
    | EC z => if 0 <=? z then Some (if z =? 0 then 0 else Z.log2 z + 1) else None
    | ELow k _ => if 0 <=? k then Some k else None
    | EB _ => Some 1
    | EBin b x y =>
        match wid x, wid y with
        | Some i, Some j => match b with And | Or | Xor => Some (Z.max i j) | _ => None end
        | _, _ => None
        end
    | EJoin k x y => match wid y with Some j => if 0 <=? k then Some (k + j) else None | None => None end
    | EHi k x => match wid x with Some j => if (0 <=? k) && (k <=? j) then Some (j - k) else None | None => None end
    | EIns k x y => match wid x with Some j => if (0 <=? k) && (k <=? j) then Some j else None | None => None end
    | _ => None
    end.

  Definition mklow (k : Z) (x : expr) : expr := match wid x with Some j => if j <=? k then x else ELow k x | None => ELow k x end.
  Definition mkhi (k : Z) (x : expr) : expr := match x with EJoin j a b => if j =? k then b else EHi k x | _ => EHi k x end.
  Definition mkjoin0 (j : Z) (a b : expr) : expr :=
    match b with
    | EHi i c => if (i =? j) && expr_eqb a c then a else EJoin j a b
    | EC y => match a with EC x => EC (wrap j x + 2 ^ j * y) | _ => EJoin j a b end
    | _ => EJoin j a b
    end.
  Definition bitwise (b : binop) : bool := match b with And | Or | Xor => true | _ => false end.
  (** the carry or borrow out of the low part *)
  Definition carried (o : binop) (j : Z) (x y c : expr) : bool :=
    match o, c with
    | Add, EB (CCar i x' y') => (i =? j) && expr_eqb x x' && expr_eqb y y'
    | Sub, EB (CLt i x' y') => (i =? j) && expr_eqb x x' && expr_eqb y y'
    | _, _ => false
    end.
  Definition carried_neg (j : Z) (x c : expr) : bool :=
    match c with
    | EB (CCar i (EUn Not x') (EC 1)) => (1 <=? j) && (i =? j) && expr_eqb x x'
    | _ => false
    end.
  Definition mkjoin (j : Z) (a b : expr) : expr :=
    match a, b with
    | EBin o x y, EBin o' x' y' =>
        if bitwise o && binop_eqb o o' then EBin o (mkjoin0 j x x') (mkjoin0 j y y')
        else match x' with
             | EBin o2 p q => if binop_eqb o o' && binop_eqb o o2 && carried o j x y y' then EBin o (mkjoin0 j x p) (mkjoin0 j y q) else EJoin j a b
             | _ => EJoin j a b
             end
    | EUn Not x, EUn Not x' => EUn Not (mkjoin0 j x x')
    | EUn Neg x, EBin Add (EUn Not x') c => if carried_neg j x c then EUn Neg (mkjoin0 j x x') else EJoin j a b
    | _, _ => mkjoin0 j a b
    end.
  Definition mkb (c : cnd) : expr := match c with CT => EC 1 | CF => EC 0 | _ => EB c end.
  Definition mknot (c : cnd) : cnd := match c with CT => CF | CF => CT | CNot c => c | _ => CNot c end.
  Definition mkand (c d : cnd) : cnd :=
    match c with CT => d | CF => CF | _ => match d with CT => c | CF => CF | _ => CAnd c d end end.
  Definition mkbin (k : Z) (b : binop) (x y : expr) : expr :=
    match x, y with
    | EC p, EC q => EC (wrap k (bin_apply b p q))
    | _, _ =>
        match b with
        | And | Or => if expr_eqb x y then x else EBin b x y
        | Xor => if expr_eqb x y then EC 0 else match x, y with EB c, EC 1 => mkb (mknot c) | _, _ => EBin b x y end
        | Sub => match x with EC 0 => EUn Neg y | _ => EBin b x y end
        | Add => match y with EC 0 => x | EC 1 => match x with EUn Not z => EUn Neg z | _ => EBin b x y end | _ => EBin b x y end
        end
    end.
  Definition unlow (m : Z) (e : expr) : expr := match e with ELow j x => if (0 <=? m) && (m <=? j) then x else e | _ => e end.
  Definition mkeq0 (k : Z) (x y : expr) : cnd :=
    match wid x, wid y with
    | Some i, Some j => let m := Z.max i j in if m <? k then CEq m (unlow m x) (unlow m y) else CEq k x y
    | _, _ => CEq k x y
    end.
  Definition mkeq (k : Z) (x y : expr) : cnd :=
    if expr_eqb x y then CT else
    match x, y with
    | EC p, EC q => if wrap k p =? wrap k q then CT else CF
    | EB c, EC z => if (1 <=? k) && (z =? 0) then mknot c else if (1 <=? k) && (z =? 1) then c else mkeq0 k x y
    | ESx i a, ESx j b => if (i =? j) && (0 <=? i) && (i <=? k) then CEq i a b else mkeq0 k x y
    | _, _ => mkeq0 k x y
    end.

  (** [strip k e] has the same low k bits as [e], [simp e] the same value *)
  Fixpoint strip (k : Z) (e : expr) {struct e} : expr :=
    match e with
    | EV n => EV n
    | EC z => EC (wrap k z)
    | EBin b x y => mkbin k b (strip k x) (strip k y)
    | EUn u x => EUn u (strip k x)
    | ELow j x => if 0 <=? j then if k <=? j then strip k x else mklow j (strip j x) else ELow j x
    | ESx j x => if 0 <=? j then if k <=? j then strip k x else ESx j (strip j x) else ESx j x
    | EIns j x y => if 0 <=? j then if k <=? j then strip k y else EIns j (strip k x) (strip j y) else EIns j x y
    | EHi j x => if 0 <=? j then mkhi j (strip (k + j) x) else EHi j x
    | EJoin j x y => if 0 <=? j then if k <=? j then strip k x else mkjoin j (strip j x) (strip (k - j) y) else EJoin j x y
    | EB c => mkb (csimp c)
    | EPow x => EPow (simp x)
    end
  with simp (e : expr) {struct e} : expr :=
    match e with
    | EV n => EV n
    | EC z => EC z
    | EBin b x y => EBin b (simp x) (simp y)
    | EUn u x => EUn u (simp x)
    | ELow j x => if 0 <=? j then mklow j (strip j x) else ELow j x
    | ESx j x => if 0 <=? j then ESx j (strip j x) else ESx j x
    | EIns j x y => if 0 <=? j then if expr_eqb (strip j x) (strip j y) then simp x else EIns j (simp x) (strip j y) else EIns j x y
    | EHi j x => if 0 <=? j then mkhi j (simp x) else EHi j x
    | EJoin j x y => if 0 <=? j then mkjoin j (strip j x) (simp y) else EJoin j x y
    | EB c => mkb (csimp c)
    | EPow x => EPow (simp x)
    end
  with csimp (c : cnd) {struct c} : cnd :=
    match c with
    | CT => CT
    | CF => CF
    | CV n => CV n
    | CEq j x y => if 0 <=? j then mkeq j (strip j x) (strip j y) else CEq j x y
    | CLt j x y => if 0 <=? j then CLt j (strip j x) (strip j y) else CLt j x y
    | CCar j x y => if 0 <=? j then CCar j (strip j x) (strip j y) else CCar j x y
    | CBit x y => CBit (simp x) (simp y)
    | CNot c => mknot (csimp c)
    | CAnd c d => mkand (csimp c) (csimp d)
    end.
  Lemma sk_EV k n : strip k (EV n) = (EV n). Proof. reflexivity. Qed.
  Lemma sk_EC k z : strip k (EC z) = (EC (wrap k z)). Proof. reflexivity. Qed.
  Lemma sk_EBin k b x y : strip k (EBin b x y) = (mkbin k b (strip k x) (strip k y)). Proof. reflexivity. Qed.
  Lemma sk_EUn k u x : strip k (EUn u x) = (EUn u (strip k x)). Proof. reflexivity. Qed.
  Lemma sk_ELow k j x : strip k (ELow j x) = (if 0 <=? j then if k <=? j then strip k x else mklow j (strip j x) else ELow j x). Proof. reflexivity. Qed.
  Lemma sk_ESx k j x : strip k (ESx j x) = (if 0 <=? j then if k <=? j then strip k x else ESx j (strip j x) else ESx j x). Proof. reflexivity. Qed.
  Lemma sk_EIns k j x y : strip k (EIns j x y) = (if 0 <=? j then if k <=? j then strip k y else EIns j (strip k x) (strip j y) else EIns j x y). Proof. reflexivity. Qed.
  Lemma sk_EHi k j x : strip k (EHi j x) = (if 0 <=? j then mkhi j (strip (k + j) x) else EHi j x). Proof. reflexivity. Qed.
  Lemma sk_EJoin k j x y : strip k (EJoin j x y) = (if 0 <=? j then if k <=? j then strip k x else mkjoin j (strip j x) (strip (k - j) y) else EJoin j x y). Proof. reflexivity. Qed.
  Lemma sk_EB k c : strip k (EB c) = (mkb (csimp c)). Proof. reflexivity. Qed.
  Lemma sk_EPow k x : strip k (EPow x) = (EPow (simp x)). Proof. reflexivity. Qed.
  Lemma sm_EV n : simp (EV n) = (EV n). Proof. reflexivity. Qed.
  Lemma sm_EC z : simp (EC z) = (EC z). Proof. reflexivity. Qed.
  Lemma sm_EBin b x y : simp (EBin b x y) = (EBin b (simp x) (simp y)). Proof. reflexivity. Qed.
  Lemma sm_EUn u x : simp (EUn u x) = (EUn u (simp x)). Proof. reflexivity. Qed.
  Lemma sm_ELow j x : simp (ELow j x) = (if 0 <=? j then mklow j (strip j x) else ELow j x). Proof. reflexivity. Qed.
  Lemma sm_ESx j x : simp (ESx j x) = (if 0 <=? j then ESx j (strip j x) else ESx j x). Proof. reflexivity. Qed.
  Lemma sm_EIns j x y : simp (EIns j x y) = (if 0 <=? j then if expr_eqb (strip j x) (strip j y) then simp x else EIns j (simp x) (strip j y) else EIns j x y). Proof. reflexivity. Qed.
  Lemma sm_EHi j x : simp (EHi j x) = (if 0 <=? j then mkhi j (simp x) else EHi j x). Proof. reflexivity. Qed.
  Lemma sm_EJoin j x y : simp (EJoin j x y) = (if 0 <=? j then mkjoin j (strip j x) (simp y) else EJoin j x y). Proof. reflexivity. Qed.
  Lemma sm_EB c : simp (EB c) = (mkb (csimp c)). Proof. reflexivity. Qed.
  Lemma sm_EPow x : simp (EPow x) = (EPow (simp x)). Proof. reflexivity. Qed.
  Lemma sc_CT : csimp (CT) = (CT). Proof. reflexivity. Qed.
  Lemma sc_CF : csimp (CF) = (CF). Proof. reflexivity. Qed.
  Lemma sc_CV n : csimp (CV n) = (CV n). Proof. reflexivity. Qed.
  Lemma sc_CEq j x y : csimp (CEq j x y) = (if 0 <=? j then mkeq j (strip j x) (strip j y) else CEq j x y). Proof. reflexivity. Qed.
  Lemma sc_CLt j x y : csimp (CLt j x y) = (if 0 <=? j then CLt j (strip j x) (strip j y) else CLt j x y). Proof. reflexivity. Qed.
  Lemma sc_CCar j x y : csimp (CCar j x y) = (if 0 <=? j then CCar j (strip j x) (strip j y) else CCar j x y). Proof. reflexivity. Qed.
  Lemma sc_CBit x y : csimp (CBit x y) = (CBit (simp x) (simp y)). Proof. reflexivity. Qed.
  Lemma sc_CNot c : csimp (CNot c) = (mknot (csimp c)). Proof. reflexivity. Qed.
  Lemma sc_CAnd c d : csimp (CAnd c d) = (mkand (csimp c) (csimp d)). Proof. reflexivity. Qed.
  Hint Rewrite sk_EV sk_EC sk_EBin sk_EUn sk_ELow sk_ESx sk_EIns sk_EHi sk_EJoin sk_EB sk_EPow sm_EV sm_EC sm_EBin sm_EUn sm_ELow sm_ESx sm_EIns sm_EHi sm_EJoin sm_EB sm_EPow sc_CT sc_CF sc_CV sc_CEq sc_CLt sc_CCar sc_CBit sc_CNot sc_CAnd : norm.

  (** *** Soundness *)
  Variables (r : nat -> Z) (f : nat -> bool).
  Hypothesis good : forall n k, wd n = Some k -> 0 <= k /\ 0 <= r n < 2 ^ k.
  Notation ev := (eval r f).
  Notation cv := (ceval r f).

  Lemma wid_ok e : forall k, wid e = Some k -> 0 <= k /\ 0 <= ev e < 2 ^ k.
  Proof.
    induction e as [n|z|b x IHx y IHy|u x IHx|j x IHx|j x IHx|j x IHx y IHy|j x IHx|j x IHx y IHy|c|x IHx];
      intros k H; cbn [wid] in H; autorewrite with ev.
    - now apply good.
    - destruct (Z.leb_spec 0 z) as [L|L]; [|discriminate H]. injection H as <-. destruct (Z.eqb_spec z 0) as [->|N].
      + split; [lia|]. rewrite Z.pow_0_r. lia.
      + pose proof (Z.log2_nonneg z). split; [lia|]. pose proof (Z.log2_spec z ltac:(lia)) as [_ U]. rewrite <- Z.add_1_r in U. lia.
    - destruct (wid x) as [i|]; [|discriminate H]. destruct (wid y) as [j|]; [|discriminate H].
      destruct (IHx i eq_refl) as [I1 I2]. destruct (IHy j eq_refl) as [J1 J2].
      assert (X : 0 <= ev x < 2 ^ Z.max i j) by (pose proof (Z.pow_le_mono_r 2 i (Z.max i j) ltac:(lia) ltac:(lia)); lia).
      assert (Y : 0 <= ev y < 2 ^ Z.max i j) by (pose proof (Z.pow_le_mono_r 2 j (Z.max i j) ltac:(lia) ltac:(lia)); lia).
      assert (B : forall (op : Z -> Z -> Z) (g : bool -> bool -> bool), g false false = false ->
         (forall a b n, Z.testbit (op a b) n = g (Z.testbit a n) (Z.testbit b n)) -> 0 <= op (ev x) (ev y) < 2 ^ Z.max i j).
      { intros op g G O. rewrite <- (wrap_small (Z.max i j) (ev x)), <- (wrap_small (Z.max i j) (ev y)) by assumption.
        replace (op (wrap (Z.max i j) (ev x)) (wrap (Z.max i j) (ev y))) with (wrap (Z.max i j) (op (ev x) (ev y))); [apply wrap_range; lia|].
        apply Z.bits_inj'. intros n Hn. unfold wrap. rewrite O. destruct (Z.lt_ge_cases n (Z.max i j)) as [L|L].
        - rewrite !Z.mod_pow2_bits_low by lia. apply O.
        - rewrite !Z.mod_pow2_bits_high by lia. now rewrite G. }
      destruct b; try discriminate H; injection H as <-; (split; [lia|]); cbn [bin_apply].
      + apply (B Z.land andb); [reflexivity|apply Z.land_spec].
      + apply (B Z.lor orb); [reflexivity|apply Z.lor_spec].
      + apply (B Z.lxor xorb); [reflexivity|apply Z.lxor_spec].
    - discriminate H.
    - destruct (Z.leb_spec 0 j) as [L|L]; [|discriminate H]. injection H as <-. split; [lia|]. now apply wrap_range.
    - discriminate H.
    - destruct (wid x) as [i|]; [|discriminate H]. destruct (Z.leb_spec 0 j) as [L|L]; [|discriminate H].
      destruct (Z.leb_spec j i) as [L'|L']; [|discriminate H]. cbn in H. injection H as <-. destruct (IHx i eq_refl) as [I1 I2].
      split; [lia|]. pose proof (wrap_range j (ev y) L) as W. pose proof (pow_pos j L) as P.
      pose proof (Z.div_mod (ev x) (2 ^ j) ltac:(lia)) as D. fold (wrap j (ev x)) in D.
      assert (U : ev x / 2 ^ j < 2 ^ (i - j)).
      { apply Z.div_lt_upper_bound; [lia|]. rewrite <- Z.pow_add_r by lia. replace (j + (i - j)) with i by lia. lia. }
      assert (V : 0 <= ev x / 2 ^ j) by (apply Z.div_pos; lia).
      assert (E : 2 ^ i = 2 ^ j * 2 ^ (i - j)) by (rewrite <- Z.pow_add_r by lia; f_equal; lia). nia.
    - destruct (wid x) as [i|]; [|discriminate H]. destruct (Z.leb_spec 0 j) as [L|L]; [|discriminate H].
      destruct (Z.leb_spec j i) as [L'|L']; [|discriminate H]. cbn in H. injection H as <-. destruct (IHx i eq_refl) as [I1 I2].
      split; [lia|]. split; [apply Z.div_pos; [lia|now apply pow_pos]|]. apply Z.div_lt_upper_bound; [now apply pow_pos|].
      rewrite <- Z.pow_add_r by lia. replace (j + (i - j)) with i by lia. lia.
    - destruct (wid y) as [i|]; [|discriminate H]. destruct (Z.leb_spec 0 j) as [L|L]; [|discriminate H]. injection H as <-.
      destruct (IHy i eq_refl) as [I1 I2]. split; [lia|]. pose proof (wrap_range j (ev x) L). pose proof (pow_pos j L). rewrite Z.pow_add_r by lia. nia.
    - injection H as <-. split; [lia|]. change (2 ^ 1) with 2. destruct (cv c); lia.
    - discriminate H.
  Qed.
  Lemma mklow_ok k x : ev (mklow k x) = wrap k (ev x).
  Proof.
    unfold mklow. destruct (wid x) as [j|] eqn:W; [|reflexivity]. destruct (Z.leb_spec j k) as [L|L]; [|reflexivity].
    destruct (wid_ok x j W) as [J1 J2]. rewrite wrap_small; [reflexivity|]. pose proof (Z.pow_le_mono_r 2 j k ltac:(lia) ltac:(lia)). lia.
  Qed.
  Lemma mkhi_ok k x : 0 <= k -> ev (mkhi k x) = ev x / 2 ^ k.
  Proof.
    intros K. destruct x; try reflexivity. cbn [mkhi]. destruct (Z.eqb_spec k0 k) as [->|N]; [|reflexivity].
    rewrite ev_EJoin. now rewrite join_hi.
  Qed.
  Lemma mkjoin0_ok j a b : 0 <= j -> ev (mkjoin0 j a b) = wrap j (ev a) + 2 ^ j * ev b.
  Proof.
    intros J. destruct b; try reflexivity.
    - cbn [mkjoin0]. destruct a; reflexivity.
    - cbn [mkjoin0]. destruct (Z.eqb_spec k j) as [->|N]; [|reflexivity]. destruct (expr_eqb a b) eqn:E; [|reflexivity].
      apply expr_eqb_true in E. subst b. cbn [andb]. rewrite ev_EHi. unfold wrap. pose proof (pow_pos j J).
      pose proof (Z.div_mod (ev a) (2 ^ j) ltac:(lia)). lia.
  Qed.
  Lemma carried_ok o j x y c : carried o j x y c = true ->
    (o = Add /\ c = EB (CCar j x y)) \/ (o = Sub /\ c = EB (CLt j x y)).
  Proof.
    unfold carried. destruct o, c; try discriminate; destruct c; try discriminate; intros H;
      rewrite !andb_true_iff in H; destruct H as [[H1 H2] H3]; apply Z.eqb_eq in H1; apply expr_eqb_true in H2; apply expr_eqb_true in H3; subst; auto.
  Qed.
  Lemma carried_neg_ok j x c : carried_neg j x c = true -> 1 <= j /\ c = EB (CCar j (EUn Not x) (EC 1)).
  Proof.
    unfold carried_neg. destruct c; try discriminate. destruct c; try discriminate. destruct x0; try discriminate. destruct u; try discriminate.
    destruct y; try discriminate. destruct z; try discriminate. destruct p; try discriminate. intros H. rewrite !andb_true_iff in H. destruct H as [[H0 H1] H2].
    apply Z.leb_le in H0. apply Z.eqb_eq in H1. apply expr_eqb_true in H2. now subst.
  Qed.
  Lemma mkjoin_ok j a b : 0 <= j -> ev (mkjoin j a b) = wrap j (ev a) + 2 ^ j * ev b.
  Proof.
    intros J. pose proof (mkjoin0_ok j a b J) as D.
    destruct a as [|? |o x y|u x|? ?|? ?|? ? ?|? ?|? ? ?|?|?]; try exact D.
    - destruct b as [|? |o' x' y'|? ?|? ?|? ?|? ? ?|? ?|? ? ?|?|?]; try exact D. clear D. cbn [mkjoin].
      destruct (bitwise o && binop_eqb o o') eqn:E.
      + rewrite andb_true_iff in E. destruct E as [E1 E2]. apply binop_eqb_true in E2. subst o'.
        rewrite !ev_EBin, !mkjoin0_ok by assumption. destruct o; try discriminate E1; cbn [bin_apply].
        * apply (join_bitwise j Z.land andb); [apply Z.land_spec|exact J].
        * apply (join_bitwise j Z.lor orb); [apply Z.lor_spec|exact J].
        * apply (join_bitwise j Z.lxor xorb); [apply Z.lxor_spec|exact J].
      + destruct x' as [|? |o2 p q|? ?|? ?|? ?|? ? ?|? ?|? ? ?|?|?]; try reflexivity.
        destruct (binop_eqb o o' && binop_eqb o o2 && carried o j x y y') eqn:C; [|reflexivity].
        rewrite !andb_true_iff in C. destruct C as [[C1 C2] C3]. apply binop_eqb_true in C1. apply binop_eqb_true in C2. subst o' o2.
        apply carried_ok in C3. destruct C3 as [[-> ->]|[-> ->]]; autorewrite with ev; rewrite !mkjoin0_ok by assumption; cbn [bin_apply].
        * pose proof (add_carry j (ev x) (ev y) J). lia.
        * pose proof (sub_borrow j (ev x) (ev y) J). lia.
    - destruct u.
      + destruct b as [|? |o' x' y'|? ?|? ?|? ?|? ? ?|? ?|? ? ?|?|?]; try exact D. destruct o'; try exact D.
        destruct x' as [|? |? ? ?|u' x'|? ?|? ?|? ? ?|? ?|? ? ?|?|?]; try exact D. destruct u'; try exact D. clear D. cbn [mkjoin].
        destruct (carried_neg j x y') eqn:C; [|reflexivity]. apply carried_neg_ok in C. destruct C as [J1 ->]. autorewrite with ev.
        rewrite mkjoin0_ok by assumption. cbn [bin_apply un_apply].
        pose proof (add_carry j (Z.lnot (ev x)) 1 J) as A. pose proof (join_lnot j (ev x) (ev x') J) as N.
        replace (Z.lnot (ev x) + 1) with (- ev x) in A by (unfold Z.lnot; lia).
        assert (W : wrap j 1 = 1) by (apply wrap_small; pose proof (Z.pow_le_mono_r 2 1 j ltac:(lia) ltac:(lia)); change (2 ^ 1) with 2 in *; lia).
        rewrite W in *. rewrite Z.mul_add_distr_l.
        assert (L : forall z, - z = Z.lnot z + 1) by (intros; unfold Z.lnot; lia). rewrite (L (wrap j (ev x) + _)), N. lia.
      + destruct b as [|? |? ? ?|u' x'|? ?|? ?|? ? ?|? ?|? ? ?|?|?]; try exact D. destruct u'; try exact D. clear D. cbn [mkjoin].
        rewrite !ev_EUn, mkjoin0_ok by assumption. cbn [un_apply]. now apply join_lnot.
  Qed.
  Lemma mkb_ok c : ev (mkb c) = if cv c then 1 else 0. Proof. now destruct c. Qed.
  Lemma mknot_ok c : cv (mknot c) = negb (cv c).
  Proof. destruct c; try reflexivity. cbn [mknot]. rewrite ev_CNot. now rewrite negb_involutive. Qed.
  Lemma mkand_ok c d : cv (mkand c d) = cv c && cv d.
  Proof. destruct c; try reflexivity; destruct d; cbn [mkand]; autorewrite with ev; rewrite ?andb_true_r, ?andb_false_r; reflexivity. Qed.
  Lemma mkbin_ok k b x y : 0 <= k -> ceq k (ev (mkbin k b x y)) (bin_apply b (ev x) (ev y)).
  Proof.
    intros K. assert (D : ceq k (ev (EBin b x y)) (bin_apply b (ev x) (ev y))) by reflexivity.
    assert (G : ceq k (ev (match b with
        | And | Or => if expr_eqb x y then x else EBin b x y
        | Xor => if expr_eqb x y then EC 0 else match x, y with EB c, EC 1 => mkb (mknot c) | _, _ => EBin b x y end
        | Sub => match x with EC 0 => EUn Neg y | _ => EBin b x y end
        | Add => match y with EC 0 => x | EC 1 => match x with EUn Not z => EUn Neg z | _ => EBin b x y end | _ => EBin b x y end
        end)) (bin_apply b (ev x) (ev y))).
    { destruct b.
      - destruct y; try exact D. destruct z as [|p|p]; try exact D.
        + autorewrite with ev. cbn [bin_apply]. rewrite Z.add_0_r. apply ceq_refl.
        + destruct p; try exact D. destruct x; try exact D. destruct u; try exact D. autorewrite with ev. cbn [bin_apply un_apply]. unfold Z.lnot.
          replace (Z.pred (- ev x) + 1) with (- ev x) by lia. apply ceq_refl.
      - destruct x; try exact D. destruct z; try exact D; autorewrite with ev; try apply ceq_refl.
      - destruct (expr_eqb x y) eqn:E; [|exact D]. apply expr_eqb_true in E. subst y. cbn [bin_apply]. rewrite Z.land_diag. apply ceq_refl.
      - destruct (expr_eqb x y) eqn:E; [|exact D]. apply expr_eqb_true in E. subst y. cbn [bin_apply]. rewrite Z.lor_diag. apply ceq_refl.
      - destruct (expr_eqb x y) eqn:E.
        + apply expr_eqb_true in E. subst y. cbn [bin_apply]. rewrite Z.lxor_nilpotent. apply ceq_refl.
        + destruct x; try exact D. destruct y; try exact D. destruct z; try exact D. destruct p; try exact D.
          rewrite mkb_ok, mknot_ok. autorewrite with ev. destruct (cv c); apply ceq_refl. }
    destruct x; try exact G. destruct y; try exact G. cbn [mkbin]. autorewrite with ev. now apply wrap_ceq.
  Qed.
  Lemma unlow_ok m e : ceq m (ev (unlow m e)) (ev e).
  Proof.
    destruct e; try apply ceq_refl. cbn [unlow]. destruct ((0 <=? m) && (m <=? k)) eqn:E; [|apply ceq_refl].
    rewrite andb_true_iff, !Z.leb_le in E. autorewrite with ev. symmetry. apply ceq_wrap. lia.
  Qed.
  Lemma mkeq0_ok k x y : 0 <= k -> cv (mkeq0 k x y) = (wrap k (ev x) =? wrap k (ev y)).
  Proof.
    intros K. unfold mkeq0. destruct (wid x) as [i|] eqn:X; [|reflexivity]. destruct (wid y) as [j|] eqn:Y; [|reflexivity].
    cbv zeta. destruct (Z.ltb_spec (Z.max i j) k) as [L|L]; [|reflexivity]. autorewrite with ev.
    rewrite (unlow_ok (Z.max i j) x), (unlow_ok (Z.max i j) y).
    destruct (wid_ok x i X) as [X1 X2]. destruct (wid_ok y j Y) as [Y1 Y2].
    assert (A : forall n, i <= n -> wrap n (ev x) = ev x) by (intros n N; apply wrap_small; pose proof (Z.pow_le_mono_r 2 i n ltac:(lia) N); lia).
    assert (B : forall n, j <= n -> wrap n (ev y) = ev y) by (intros n N; apply wrap_small; pose proof (Z.pow_le_mono_r 2 j n ltac:(lia) N); lia).
    rewrite !A, !B by lia. reflexivity.
  Qed.
  Lemma mkeq_ok k x y : 0 <= k -> cv (mkeq k x y) = (wrap k (ev x) =? wrap k (ev y)).
  Proof.
    intros K. pose proof (mkeq0_ok k x y K) as D. unfold mkeq. destruct (expr_eqb x y) eqn:E.
    - apply expr_eqb_true in E. subst y. rewrite Z.eqb_refl. reflexivity.
    - clear E. destruct x; try exact D; destruct y; try exact D.
      + autorewrite with ev. destruct (wrap k z =? wrap k z0); reflexivity.
      + destruct (Z.eqb_spec k0 k1) as [->|N]; [|exact D]. destruct (Z.leb_spec 0 k1) as [L|L]; [|exact D].
        destruct (Z.leb_spec k1 k) as [M|M]; [|exact D]. clear D. cbn [andb]. autorewrite with ev.
        destruct (Z.eqb_spec (wrap k1 (ev x)) (wrap k1 (ev y))) as [E|E].
        * rewrite E, Z.eqb_refl. reflexivity.
        * destruct (Z.eqb_spec (wrap k (sval k1 (wrap k1 (ev x)))) (wrap k (sval k1 (wrap k1 (ev y))))) as [F|F]; [|reflexivity]. exfalso.
          apply E. assert (C : ceq k1 (sval k1 (wrap k1 (ev x))) (sval k1 (wrap k1 (ev y)))) by (apply ceq_le with k; [lia|exact F]).
          apply ceq_trans with (sval k1 (wrap k1 (ev x))); [symmetry; now apply sval_ceq|]. eapply ceq_trans; [exact C|now apply sval_ceq].
      + destruct (Z.leb_spec 1 k) as [L|L]; [|exact D]. cbn [andb]. destruct (Z.eqb_spec z 0) as [->|N].
        * rewrite mknot_ok. autorewrite with ev. rewrite !wrap_small by (pose proof (Z.pow_le_mono_r 2 1 k ltac:(lia) L); change (2 ^ 1) with 2 in *; destruct (cv c); lia).
          destruct (cv c); reflexivity.
        * destruct (Z.eqb_spec z 1) as [->|N']; [|exact D]. autorewrite with ev.
          rewrite !wrap_small by (pose proof (Z.pow_le_mono_r 2 1 k ltac:(lia) L); change (2 ^ 1) with 2 in *; destruct (cv c); lia).
          destruct (cv c); reflexivity.
  Qed.

  Lemma norm_ok :
    (forall e, (forall k, 0 <= k -> ceq k (ev (strip k e)) (ev e)) /\ ev (simp e) = ev e) /\
    (forall c, cv (csimp c) = cv c).
  Proof.
    apply expr_cnd_ind.
    - intros n. split; [intros k K|]; autorewrite with norm; [apply ceq_refl|reflexivity].
    - intros z. split; [intros k K|]; autorewrite with norm ev; [now apply wrap_ceq|reflexivity].
    - intros b x [X1 X2] y [Y1 Y2]. split; [intros k K|]; autorewrite with norm.
      + apply ceq_trans with (bin_apply b (ev (strip k x)) (ev (strip k y))); [now apply mkbin_ok|]. autorewrite with ev. apply ceq_bin; auto.
      + autorewrite with ev. now rewrite X2, Y2.
    - intros u x [X1 X2]. split; [intros k K|]; autorewrite with norm ev; [apply ceq_un; auto|now rewrite X2].
    - intros j x [X1 X2]. split; [intros k K|]; autorewrite with norm.
      + destruct (Z.leb_spec 0 j) as [J|J]; [|apply ceq_refl]. rewrite ev_ELow. destruct (Z.leb_spec k j) as [L|L].
        * apply ceq_trans with (ev x); [auto|]. symmetry. now apply ceq_wrap.
        * rewrite mklow_ok. rewrite (X1 j J). apply ceq_refl.
      + destruct (Z.leb_spec 0 j) as [J|J]; [|reflexivity]. rewrite mklow_ok, ev_ELow. apply X1, J.
    - intros j x [X1 X2]. split; [intros k K|]; autorewrite with norm.
      + destruct (Z.leb_spec 0 j) as [J|J]; [|apply ceq_refl]. rewrite ev_ESx. destruct (Z.leb_spec k j) as [L|L].
        * apply ceq_trans with (ev x); [auto|]. symmetry. apply ceq_le with j; [lia|]. now apply sval_ceq.
        * rewrite ev_ESx, (X1 j J). apply ceq_refl.
      + destruct (Z.leb_spec 0 j) as [J|J]; [|reflexivity]. rewrite !ev_ESx, (X1 j J). reflexivity.
    - intros j x [X1 X2] y [Y1 Y2]. split; [intros k K|]; autorewrite with norm.
      + destruct (Z.leb_spec 0 j) as [J|J]; [|apply ceq_refl]. rewrite ev_EIns. destruct (Z.leb_spec k j) as [L|L].
        * apply ceq_trans with (ev y); [auto|]. symmetry. apply ins_low. lia.
        * rewrite ev_EIns, (Y1 j J). apply ceq_add; [lia| |apply ceq_refl]. apply ceq_sub; [lia|auto|].
          replace (wrap j (ev (strip k x))) with (wrap j (ev x)); [apply ceq_refl|]. symmetry. apply ceq_le with k; [lia|]. now apply X1.
      + destruct (Z.leb_spec 0 j) as [J|J]; [|reflexivity]. destruct (expr_eqb (strip j x) (strip j y)) eqn:E.
        * apply expr_eqb_true in E. rewrite X2, ev_EIns. rewrite <- (X1 j J), E, (Y1 j J). lia.
        * rewrite !ev_EIns, X2, (Y1 j J). reflexivity.
    - intros j x [X1 X2]. split; [intros k K|]; autorewrite with norm.
      + destruct (Z.leb_spec 0 j) as [J|J]; [|apply ceq_refl]. rewrite mkhi_ok, ev_EHi by assumption. apply hi_ceq; [assumption|assumption|]. apply X1. lia.
      + destruct (Z.leb_spec 0 j) as [J|J]; [|reflexivity]. rewrite mkhi_ok, ev_EHi, X2 by assumption. reflexivity.
    - intros j x [X1 X2] y [Y1 Y2]. split; [intros k K|]; autorewrite with norm.
      + destruct (Z.leb_spec 0 j) as [J|J]; [|apply ceq_refl]. rewrite ev_EJoin. destruct (Z.leb_spec k j) as [L|L].
        * apply ceq_trans with (ev x); [auto|]. symmetry. apply join_low. lia.
        * rewrite mkjoin_ok by assumption. apply join_ceq; [lia|now apply X1|apply Y1; lia].
      + destruct (Z.leb_spec 0 j) as [J|J]; [|reflexivity]. rewrite mkjoin_ok, ev_EJoin, (X1 j J), Y2 by assumption. reflexivity.
    - intros c C. split; [intros k K|]; autorewrite with norm; rewrite mkb_ok, C; [apply ceq_refl|reflexivity].
    - intros x [X1 X2]. split; [intros k K|]; autorewrite with norm ev; rewrite X2; [apply ceq_refl|reflexivity].
    - reflexivity.
    - reflexivity.
    - reflexivity.
    - intros j x [X1 X2] y [Y1 Y2]. autorewrite with norm. destruct (Z.leb_spec 0 j) as [J|J]; [|reflexivity].
      rewrite mkeq_ok by assumption. rewrite (X1 j J), (Y1 j J). reflexivity.
    - intros j x [X1 X2] y [Y1 Y2]. autorewrite with norm. destruct (Z.leb_spec 0 j) as [J|J]; [|reflexivity].
      rewrite !ev_CLt, (X1 j J), (Y1 j J). reflexivity.
    - intros j x [X1 X2] y [Y1 Y2]. autorewrite with norm. destruct (Z.leb_spec 0 j) as [J|J]; [|reflexivity].
      rewrite !ev_CCar, (X1 j J), (Y1 j J). reflexivity.
    - intros x [X1 X2] y [Y1 Y2]. autorewrite with norm ev. now rewrite X2, Y2.
    - intros c C. autorewrite with norm ev. now rewrite mknot_ok, C.
    - intros c C d D. autorewrite with norm ev. now rewrite mkand_ok, C, D.
  Qed.
  Lemma strip_ok k e : 0 <= k -> ceq k (ev (strip k e)) (ev e). Proof. apply (proj1 (proj1 norm_ok e)). Qed.
  Lemma simp_ok e : ev (simp e) = ev e. Proof. apply (proj2 (proj1 norm_ok e)). Qed.
  Lemma csimp_ok c : cv (csimp c) = cv c. Proof. apply (proj2 norm_ok). Qed.
End Norm.

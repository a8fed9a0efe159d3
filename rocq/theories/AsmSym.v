(** * Symbolic execution of assembler code beside a program, for AsmCheck.v. *)
From Coq Require Import ZArith Arith List Bool Lia.
From Verif Require Import Conv SpecInt Prog Word SpecHand HandProof AsmExpr AsmText AsmModel SpecAsm AsmNorm.
Import ListNotations.
Open Scope Z_scope.
Open Scope list_scope.

(** ** Programs as trees

    Variables are numbers; every access binds the next ones to its answer. *)
Inductive sact :=
| XLd | XHf (hi : bool) | XSt (e : expr) | XXc (e : expr) | XRm (b : binop) (e : expr) | XRu (u : unop)
| XCs (e d : expr)        (* binds a variable and a flag *)
| XLk | XLkH (hi : bool)  (* bind two variables: the value and the reservation *)
| XSc (t : nat) (e : expr).
Inductive stree :=
| SAct (x : sact) (k : stree)
| SIf (c : cnd) (t u : stree)
| SRet (old new : expr) (ok : cnd)
| SBack (e : expr).       (* once more, from e *)

Definition set {A} (r : nat -> A) (n : nat) (v : A) : nat -> A := fun i => if Nat.eqb i n then v else r i.

Section Sem.
  Variables (w : Z) (a : addr).
  Open Scope prog_scope.
  Fixpoint sprog (nx nf : nat) (t : stree) (r : nat -> Z) (f : nat -> bool) {struct t} : wprog (Z + result) :=
    match t with
    | SAct x k =>
        match x with
        | XLd => v <- ld a ;; sprog (S nx) nf k (set r nx v) f
        | XHf hi => v <- ldhalf a w hi ;; sprog (S nx) nf k (set r nx v) f
        | XSt e => st a (eval r f e) ;;; sprog nx nf k r f
        | XXc e => v <- xchg a (eval r f e) ;; sprog (S nx) nf k (set r nx v) f
        | XRm b e => v <- rmw a w (Bin b (eval r f e)) ;; sprog (S nx) nf k (set r nx v) f
        | XRu u => v <- rmw a w (Un u) ;; sprog (S nx) nf k (set r nx v) f
        | XCs e d => x <- cas a (eval r f e) (eval r f d) ;; sprog (S nx) (S nf) k (set r nx (snd x)) (set f nf (fst x))
        | XLk => x <- ll a ;; sprog (S (S nx)) nf k (set (set r nx (fst x)) (S nx) (snd x)) f
        | XLkH hi => x <- llhalf a w hi ;; sprog (S (S nx)) nf k (set (set r nx (fst x)) (S nx) (snd x)) f
        | XSc t e => b <- sc a (r t) (eval r f e) ;; sprog nx (S nf) k r (set f nf b)
        end
    | SIf c t u => if ceval r f c then sprog nx nf t r f else sprog nx nf u r f
    | SRet o n c => Ret (inr (Res (eval r f o) (eval r f n) (ceval r f c)))
    | SBack e => Ret (inl (eval r f e))
    end.
End Sem.

(** ** Comparison *)
Definition comm (b : binop) : bool := match b with Sub => false | _ => true end.
(** the same up to the order of operands *)
Fixpoint esame (x y : expr) : bool :=
  match x, y with
  | EBin b x1 x2, EBin c y1 y2 =>
      binop_eqb b c && ((esame x1 y1 && esame x2 y2) || (comm b && esame x1 y2 && esame x2 y1))
  | EUn u x1, EUn v y1 => unop_eqb u v && esame x1 y1
  | ELow k x1, ELow j y1 => (k =? j) && esame x1 y1
  | ESx k x1, ESx j y1 => (k =? j) && esame x1 y1
  | EHi k x1, EHi j y1 => (k =? j) && esame x1 y1
  | EJoin k x1 x2, EJoin j y1 y2 => (k =? j) && esame x1 y1 && esame x2 y2
  | _, _ => expr_eqb x y
  end.
Fixpoint csame (c d : cnd) : bool :=
  match c, d with
  | CEq k x1 x2, CEq j y1 y2 => (k =? j) && ((esame x1 y1 && esame x2 y2) || (esame x1 y2 && esame x2 y1))
  | CNot c, CNot d => csame c d
  | CAnd c1 c2, CAnd d1 d2 => (csame c1 d1 && csame c2 d2) || (csame c1 d2 && csame c2 d1)
  | CBit x1 x2, CBit y1 y2 => esame x1 y1 && esame x2 y2
  | _, _ => cnd_eqb c d
  end.
Lemma esame_ok r f : forall x y, esame x y = true -> eval r f x = eval r f y.
Proof.
  assert (D : forall x y, expr_eqb x y = true -> eval r f x = eval r f y) by (intros x y E; apply expr_eqb_true in E; now subst).
  induction x as [n|z|b x1 IH1 x2 IH2|u x1 IH1|k x1 IH1|k x1 IH1|k x1 IH1 x2 IH2|k x1 IH1|k x1 IH1 x2 IH2|c|x1 IH1]; intros y H;
    destruct y; try (exact (D _ _ H)); cbn [esame] in H; rewrite ?andb_true_iff, ?orb_true_iff, ?andb_true_iff in H.
  - destruct H as [B H]. apply binop_eqb_true in B. subst b0. autorewrite with ev. destruct H as [[H1 H2]|[[C H1] H2]]; rewrite (IH1 _ H1), (IH2 _ H2); [reflexivity|].
    destruct b; try discriminate C; cbn [bin_apply]; [lia|apply Z.land_comm|apply Z.lor_comm|apply Z.lxor_comm].
  - destruct H as [B H]. apply unop_eqb_true in B. subst u0. autorewrite with ev. now rewrite (IH1 _ H).
  - destruct H as [B H]. apply Z.eqb_eq in B. subst k0. autorewrite with ev. now rewrite (IH1 _ H).
  - destruct H as [B H]. apply Z.eqb_eq in B. subst k0. autorewrite with ev. now rewrite (IH1 _ H).
  - destruct H as [B H]. apply Z.eqb_eq in B. subst k0. autorewrite with ev. now rewrite (IH1 _ H).
  - destruct H as [[B H] H']. apply Z.eqb_eq in B. subst k0. autorewrite with ev. now rewrite (IH1 _ H), (IH2 _ H').
Qed.
Lemma csame_ok r f : forall c d, csame c d = true -> ceval r f c = ceval r f d.
Proof.
  assert (D : forall x y, cnd_eqb x y = true -> ceval r f x = ceval r f y) by (intros x y E; apply cnd_eqb_true in E; now subst).
  pose proof (esame_ok r f) as E.
  induction c as [| |n|k x1 x2|k x1 x2|k x1 x2|x1 x2|c IH|c1 IH1 c2 IH2]; intros d H; destruct d; try (exact (D _ _ H)); cbn [csame] in H;
    rewrite ?andb_true_iff, ?orb_true_iff, ?andb_true_iff in H; autorewrite with ev.
  - destruct H as [B H]. apply Z.eqb_eq in B. subst k0. destruct H as [[H1 H2]|[H1 H2]]; rewrite (E _ _ H1), (E _ _ H2); [reflexivity|apply Z.eqb_sym].
  - destruct H as [H1 H2]. now rewrite (E _ _ H1), (E _ _ H2).
  - now rewrite (IH _ H).
  - destruct H as [[H1 H2]|[H1 H2]]; rewrite (IH1 _ H1), (IH2 _ H2); [reflexivity|apply andb_comm].
Qed.

(** widths of variables *)
Definition wds := list (nat * Z).
Fixpoint look (l : wds) (n : nat) : option Z := match l with [] => None | (m, k) :: l => if Nat.eqb n m then Some k else look l n end.
Definition good (l : wds) (r : nat -> Z) : Prop := forall n k, look l n = Some k -> 0 <= k /\ 0 <= r n < 2 ^ k.
Lemma good_cons l r n k : good l r -> 0 <= k -> 0 <= r n < 2 ^ k -> good ((n, k) :: l) r.
Proof. intros G K V m j E. cbn [look] in E. destruct (Nat.eqb_spec m n) as [->|N]; [injection E as <-; auto|now apply G]. Qed.

Section Cmp.
  Variables (kn : list fact) (wd : wds).
  (** equal in the low k bits; equal *)
  Definition low_eq (k : Z) (x y : expr) : bool :=
    (0 <=? k) && esame (strip (look wd) k (know kn x)) (strip (look wd) k (know kn y)).
  Definition fits (k : Z) (x : expr) : bool := match wid (look wd) x with Some j => j <=? k | None => false end.
  Definition eq_all (x y : expr) : bool :=
    let x := simp (look wd) (know kn x) in
    let y := simp (look wd) (know kn y) in
    esame x y ||
    match wid (look wd) x, wid (look wd) y with
    | Some i, Some j => esame (strip (look wd) (Z.max i j) x) (strip (look wd) (Z.max i j) y)
    | _, _ => false
    end.
  Definition cnorm (c : cnd) : cnd := csimp (look wd) (knowc kn c).
  Definition ceq_all (c d : cnd) : bool := csame (cnorm c) (cnorm d).

  Variables (r : nat -> Z) (f : nat -> bool).
  Hypothesis (K : Forall (holds r f) kn) (G : good wd r).
  Lemma low_eq_ok k x y : low_eq k x y = true -> wrap k (eval r f x) = wrap k (eval r f y).
  Proof.
    unfold low_eq. rewrite andb_true_iff, Z.leb_le. intros [L E]. apply (esame_ok r f) in E.
    pose proof (strip_ok (look wd) r f G k (know kn x) L) as X. pose proof (strip_ok (look wd) r f G k (know kn y) L) as Y.
    rewrite (know_eval r f kn K) in X, Y. unfold ceq in *. congruence.
  Qed.
  Lemma fits_ok k x : fits k x = true -> 0 <= eval r f x < 2 ^ k.
  Proof.
    unfold fits. destruct (wid (look wd) x) as [j|] eqn:W; [|discriminate]. intros L. apply Z.leb_le in L.
    destruct (wid_ok (look wd) r f G x j W) as [J V]. pose proof (Z.pow_le_mono_r 2 j k ltac:(lia) L). lia.
  Qed.
  Lemma eq_all_ok x y : eq_all x y = true -> eval r f x = eval r f y.
  Proof.
    unfold eq_all. cbv zeta. rewrite orb_true_iff. rewrite <- (know_eval r f kn K x), <- (know_eval r f kn K y).
    rewrite <- (simp_ok (look wd) r f G (know kn x)), <- (simp_ok (look wd) r f G (know kn y)).
    set (x' := simp _ (know kn x)). set (y' := simp _ (know kn y)). intros [E|E]; [now apply esame_ok|].
    destruct (wid (look wd) x') as [i|] eqn:X; [|discriminate E]. destruct (wid (look wd) y') as [j|] eqn:Y; [|discriminate E].
    destruct (wid_ok (look wd) r f G _ _ X) as [I1 I2]. destruct (wid_ok (look wd) r f G _ _ Y) as [J1 J2].
    apply (esame_ok r f) in E. assert (M : 0 <= Z.max i j) by lia.
    pose proof (strip_ok (look wd) r f G (Z.max i j) x' M) as X'. pose proof (strip_ok (look wd) r f G (Z.max i j) y' M) as Y'.
    pose proof (Z.pow_le_mono_r 2 i (Z.max i j) ltac:(lia) ltac:(lia)). pose proof (Z.pow_le_mono_r 2 j (Z.max i j) ltac:(lia) ltac:(lia)).
    rewrite <- (wrap_small (Z.max i j) (eval r f x')), <- (wrap_small (Z.max i j) (eval r f y')) by lia. unfold ceq in *. congruence.
  Qed.
  Lemma cnorm_ok c : ceval r f (cnorm c) = ceval r f c.
  Proof. unfold cnorm. now rewrite (csimp_ok (look wd) r f G), (knowc_eval r f kn K). Qed.
  Lemma ceq_all_ok c d : ceq_all c d = true -> ceval r f c = ceval r f d.
  Proof. unfold ceq_all. intros E. apply (csame_ok r f) in E. now rewrite !cnorm_ok in E. Qed.

  (** what a condition tells *)
  Definition fact_of (k : Z) (x y : expr) : list fact :=
    match x with EV n => match look wd n with Some j => if j =? k then [FVar n (ELow k y)] else [] | None => [] end | _ => [] end.
  Fixpoint facts (c : cnd) (b : bool) : list fact :=
    match c with
    | CV n => [FFlag n b]
    | CNot c => facts c (negb b)
    | CAnd d e => if b then facts d true ++ facts e true else [FCnd c false]
    | CEq k x y => if b then match fact_of k x y with [] => match fact_of k y x with [] => [FCnd c true] | l => l end | l => l end else [FCnd c false]
    | CT | CF => []
    | _ => [FCnd c b]
    end.
  Lemma fact_of_ok k x y : wrap k (eval r f x) = wrap k (eval r f y) -> Forall (holds r f) (fact_of k x y).
  Proof.
    intros E. unfold fact_of. destruct x; try constructor. destruct (look wd n) as [j|] eqn:L; [|constructor].
    destruct (Z.eqb_spec j k) as [->|N]; [|constructor]. constructor; [|constructor]. unfold holds. autorewrite with ev in *. rewrite <- E.
    symmetry. apply wrap_small. now apply G.
  Qed.
  Lemma facts_ok c : forall b, ceval r f c = b -> Forall (holds r f) (facts c b).
  Proof.
    induction c as [| |n|k x1 x2|k x1 x2|k x1 x2|x1 x2|c IH|c1 IH1 c2 IH2]; intros b E; cbn [facts];
      assert (ONE : forall x, holds r f x -> Forall (holds r f) [x]) by (intros x Hx; constructor; [exact Hx|constructor]).
    - constructor.
    - constructor.
    - apply ONE. exact E.
    - destruct b; [|apply ONE; exact E]. assert (E' := E). autorewrite with ev in E'. apply Z.eqb_eq in E'.
      pose proof (fact_of_ok k x1 x2 E') as A. pose proof (fact_of_ok k x2 x1 (eq_sym E')) as B.
      destruct (fact_of k x1 x2); [|assumption]. destruct (fact_of k x2 x1); [|assumption]. apply ONE. exact E.
    - apply ONE. exact E.
    - apply ONE. exact E.
    - apply ONE. exact E.
    - autorewrite with ev in E. apply IH. rewrite <- E. now rewrite negb_involutive.
    - destruct b; [|constructor; [exact E|constructor]]. autorewrite with ev in E. rewrite andb_true_iff in E. apply Forall_app. split; [apply IH1|apply IH2]; apply E.
  Qed.

  (** branches of the tree that are decided *)
  Fixpoint settle (t : stree) : stree :=
    match t with
    | SIf c x y => match cnorm c with CT => settle x | CF => settle y | _ => t end
    | t => t
    end.
  Lemma settle_ok w a nx nf t : sprog w a nx nf (settle t) r f = sprog w a nx nf t r f.
  Proof.
    induction t as [x k IH|c x IHx y IHy|o n c|e]; try reflexivity. cbn [settle sprog]. pose proof (cnorm_ok c) as C.
    destruct (cnorm c); try reflexivity; autorewrite with ev in C; rewrite <- C; assumption.
  Qed.
End Cmp.

(** ** Symbolic states *)
(** contents of the locations, flags, the variable that holds the reservation *)
Record sst := Sy { sr : list expr; sf : list cnd; stk : option nat }.
Definition reg (s : sst) (i : nat) : expr := nth i (sr s) (EC 0).
Definition flag (s : sst) (i : nat) : cnd := nth i (sf s) CF.
Fixpoint put_at {A} (l : list A) (i : nat) (v : A) : list A :=
  match l, i with [], _ => [] | _ :: l, O => v :: l | x :: l, S i => x :: put_at l i v end.
Lemma nth_put {A} (l : list A) i v d j : (i < length l)%nat -> nth j (put_at l i v) d = if Nat.eqb j i then v else nth j l d.
Proof.
  revert i j. induction l as [|x l IH]; intros i j L; [inversion L|]. destruct i, j; cbn; try reflexivity. apply IH. cbn in L. lia.
Qed.
Lemma put_length {A} (l : list A) i v : length (put_at l i v) = length l.
Proof. revert i. induction l as [|x l IH]; intros i; [reflexivity|]. destruct i; cbn; [reflexivity|]. now rewrite IH. Qed.

Section Sim.
  Variables (code : list uop) (w : Z) (nl : nat) (rep : nat -> nat) (head : option nat).
  Variable final : sst -> list fact -> wds -> expr -> expr -> cnd -> bool.
  Variable cover : sst -> list fact -> wds -> expr -> bool.

  Definition sube (s : sst) (e : expr) : expr := esub (fun l => reg s (rep l)) (flag s) e.
  Definition subc (s : sst) (c : cnd) : cnd := csub (fun l => reg s (rep l)) (flag s) c.
  Definition set_reg (s : sst) (l : nat) (e : expr) : sst := Sy (put_at (sr s) (rep l) e) (sf s) (stk s).
  Definition set_flag (s : sst) (n : nat) (c : cnd) : sst := Sy (sr s) (put_at (sf s) n c) (stk s).
  Definition set_tk (s : sst) (t : option nat) : sst := Sy (sr s) (sf s) t.

  Definition is_base (s : sst) (kn : list fact) (wd : wds) (m : nat) : bool :=
    Nat.ltb m nl && eq_all kn wd (reg s (rep m)) (EV 0).
  (** one access *)
  Definition access (u : uop) (x : sact) (s : sst) (nx nf : nat) (kn : list fact) (wd : wds) : option (sst * nat * nat * wds) :=
    let ok (m : nat) (e e' : expr) := is_base s kn wd m && ebelow nl 3 e && eq_all kn wd (sube s e) e' in
    match u, x with
    | ULd m, XLd => if is_base s kn wd m then Some (set_reg s 0 (EV nx), S nx, nf, (nx, w) :: wd) else None
    | UHf m hi, XHf hi' => if is_base s kn wd m && eqb hi hi' then Some (set_reg s 0 (EV nx), S nx, nf, (nx, w / 2) :: wd) else None
    | USt m e, XSt e' => if ok m e e' then Some (s, nx, nf, wd) else None
    | UXc m e, XXc e' => if ok m e e' then Some (set_reg s 0 (EV nx), S nx, nf, (nx, w) :: wd) else None
    | URm m b e, XRm b' e' => if ok m e e' && binop_eqb b b' then Some (set_reg s 0 (EV nx), S nx, nf, (nx, w) :: wd) else None
    | URu m u, XRu u' => if is_base s kn wd m && unop_eqb u u' then Some (set_reg s 0 (EV nx), S nx, nf, (nx, w) :: wd) else None
    | UCs m e d, XCs e' d' =>
        if ok m e e' && ok m d d' then Some (set_flag (set_reg s 0 (EV nx)) fOk (CV nf), S nx, S nf, (nx, w) :: wd) else None
    | ULk m, XLk => if is_base s kn wd m then Some (set_tk (set_reg s 0 (EV nx)) (Some (S nx)), S (S nx), nf, (nx, w) :: wd) else None
    | ULkH m hi, XLkH hi' =>
        if is_base s kn wd m && eqb hi hi'
        then Some (set_tk (set_reg s 0 (EV nx)) (if hi then stk s else Some (S nx)), S (S nx), nf, (nx, w / 2) :: wd) else None
    | USc m e, XSc t e' =>
        match stk s with
        | Some t' => if ok m e e' && Nat.eqb t t' then Some (set_flag (set_tk s None) fOk (CV nf), nx, S nf, wd) else None
        | None => None
        end
    | _, _ => None
    end.

  Fixpoint sim (fuel : nat) (pc : nat) (first : bool) (s : sst) (nx nf : nat) (kn : list fact) (wd : wds) (t : stree) : bool :=
    match fuel with
    | O => false
    | S fuel =>
        if negb first && match head with Some h => Nat.eqb pc h | None => false end
        then match settle kn wd t with SBack e => cover s kn wd e | _ => false end
        else match nth_error code pc with
        | None => false
        | Some u =>
            match u with
            | UMov d e => Nat.ltb d nl && ebelow nl 3 e && sim fuel (S pc) false (set_reg s d (simp (look wd) (sube s e))) nx nf kn wd t
            | UFlag n c => Nat.ltb n 3 && cbelow nl 3 c && sim fuel (S pc) false (set_flag s n (csimp (look wd) (subc s c))) nx nf kn wd t
            | UJmp c (TAbs tg) =>
                cbelow nl 3 c &&
                let c' := cnorm kn wd (subc s c) in
                match c' with
                | CT => sim fuel tg false s nx nf kn wd t
                | CF => sim fuel (S pc) false s nx nf kn wd t
                | _ =>
                    let t := settle kn wd t in
                    let go (x y : stree) :=
                      sim fuel tg false s nx nf (facts wd c' true ++ kn) wd x && sim fuel (S pc) false s nx nf (facts wd c' false ++ kn) wd y in
                    match t with
                    | SIf d x y => if ceq_all kn wd c' d then go x y else if ceq_all kn wd (CNot c') d then go y x else go t t
                    | _ => go t t
                    end
                end
            | UJmp _ _ => false
            | UExit => match settle kn wd t with SRet o n c => final s kn wd o n c | _ => false end
            | UDiff x y => Nat.ltb x nl && Nat.ltb y nl && Nat.ltb 0 x && Nat.ltb 0 y && negb (Nat.eqb (rep x) (rep y)) && sim fuel (S pc) false s nx nf kn wd t
            | UBelow e n =>
                ebelow nl 3 e && match wid (look wd) (simp (look wd) (sube s e)) with Some k => 2 ^ k <=? n | None => false end
                && sim fuel (S pc) false s nx nf kn wd t
            | _ =>
                match settle kn wd t with
                | SAct x k => match access u x s nx nf kn wd with Some (s', nx', nf', wd') => sim fuel (S pc) false s' nx' nf' kn wd' k | None => false end
                | _ => false
                end
            end
        end
    end.

  (** *** Soundness *)
  Variables (alloc : nat -> nat) (base : Z) (a : addr) (g0 : nat -> Z).
  (** what is known of the first variables: among others, that the first is the address of the storage *)
  Variable Anchor : (nat -> Z) -> (nat -> bool) -> Prop.
  Hypothesis anchor_base : forall r f, Anchor r f -> r 0%nat = base.
  Hypothesis rep0 : rep 0%nat = 0%nat.
  Hypothesis nl0 : (0 < nl)%nat.
  Hypothesis w0 : 0 <= w.
  Hypothesis rep_range : forall l, (0 < l < nl)%nat -> (0 < rep l < nl)%nat.
  Hypothesis rep_ok : forall l m, (0 < l < nl)%nat -> (0 < m < nl)%nat -> (rep l = rep m <-> alloc l = alloc m).

  Record den (r : nat -> Z) (f : nat -> bool) (s : sst) (x : cst) : Prop := {
    dn_len : length (sr s) = nl /\ length (sf s) = 3%nat;
    dn_anchor : Anchor r f;
    dn_reg : forall l, (l < nl)%nat -> rd alloc x l = eval r f (reg s (rep l));
    dn_flag : forall n, (n < 3)%nat -> fl x n = ceval r f (flag s n);
    dn_tk : forall t, stk s = Some t -> tk x = Some (r t);
    dn_frame : forall m, (forall l, (0 < l < nl)%nat -> alloc l <> m) -> g x m = g0 m }.
  Definition agree (nx nf : nat) (r : nat -> Z) (f : nat -> bool) (r' : nat -> Z) (f' : nat -> bool) : Prop :=
    (forall i, (i < nx)%nat -> r i = r' i) /\ (forall i, (i < nf)%nat -> f i = f' i).
  Definition inv (r : nat -> Z) (f : nat -> bool) (nx nf : nat) (s : sst) (kn : list fact) (wd : wds) (x : cst) : Prop :=
    (0 < nx)%nat /\ forall r' f', agree nx nf r f r' f' -> den r' f' s x /\ Forall (holds r' f') kn /\ good wd r'.
  Lemma inv_here r f nx nf s kn wd x : inv r f nx nf s kn wd x -> den r f s x /\ Forall (holds r f) kn /\ good wd r.
  Proof. intros [_ H]. apply H. split; auto. Qed.

  Lemma rd_sub r f s x e : den r f s x -> ebelow nl 3 e = true -> ev alloc x e = eval r f (sube s e).
  Proof.
    intros D B. unfold ev, sube. symmetry. apply (proj1 (sub_eval _ _ nl 3 r f (rd alloc x) (fl x) (fun i L => eq_sym (dn_reg _ _ _ _ D i L))
      (fun i L => eq_sym (dn_flag _ _ _ _ D i L))) e B).
  Qed.
  Lemma rd_subc r f s x c : den r f s x -> cbelow nl 3 c = true -> cev alloc x c = ceval r f (subc s c).
  Proof.
    intros D B. unfold cev, subc. symmetry. apply (proj2 (sub_eval _ _ nl 3 r f (rd alloc x) (fl x) (fun i L => eq_sym (dn_reg _ _ _ _ D i L))
      (fun i L => eq_sym (dn_flag _ _ _ _ D i L))) c B).
  Qed.
  Lemma rep_lt l : (l < nl)%nat -> (rep l < nl)%nat.
  Proof. intros L. destruct l; [rewrite rep0; exact nl0|]. apply rep_range. lia. Qed.
  Lemma den_set_reg r f s x l e v : den r f s x -> (l < nl)%nat -> eval r f e = v -> den r f (set_reg s l e) (wr alloc x l v).
  Proof.
    intros D L E. pose proof (dn_len _ _ _ _ D) as [L1 L2]. pose proof (rep_lt l L) as RL. split.
    - cbn. rewrite put_length. auto.
    - exact (dn_anchor _ _ _ _ D).
    - intros m M. unfold reg, set_reg. cbn [sr]. rewrite nth_put by lia. unfold rd, wr.
      destruct (Nat.eqb_spec m 0) as [->|M0].
      + rewrite rep0. destruct (Nat.eqb_spec l 0) as [->|L0].
        * rewrite rep0. cbn. now rewrite E.
        * pose proof (rep_range l ltac:(lia)). destruct (Nat.eqb_spec 0 (rep l)) as [Z|_]; [lia|]. pose proof (dn_reg _ _ _ _ D 0%nat nl0) as R.
          rewrite rep0 in R. exact R.
      + destruct (Nat.eqb_spec l 0) as [->|L0].
        * rewrite rep0. pose proof (rep_range m ltac:(lia)). destruct (Nat.eqb_spec (rep m) 0) as [Z|_]; [lia|]. cbn [g].
          pose proof (dn_reg _ _ _ _ D m M) as R. unfold rd in R. destruct (Nat.eqb_spec m 0); [lia|]. exact R.
        * cbn [g]. pose proof (rep_ok m l ltac:(lia) ltac:(lia)) as RO. destruct (Nat.eqb_spec (rep m) (rep l)) as [Q|Q].
          -- apply RO in Q. rewrite Q, Nat.eqb_refl. now rewrite E.
          -- destruct (Nat.eqb_spec (alloc m) (alloc l)) as [Q'|Q']; [apply RO in Q'; contradiction|].
             pose proof (dn_reg _ _ _ _ D m M) as R. unfold rd in R. destruct (Nat.eqb_spec m 0); [lia|]. exact R.
    - intros n N. cbn. unfold wr. destruct (Nat.eqb l 0); apply (dn_flag _ _ _ _ D n N).
    - intros t T. unfold wr. destruct (Nat.eqb l 0); apply (dn_tk _ _ _ _ D t T).
    - intros m M. unfold wr. destruct (Nat.eqb_spec l 0) as [->|L0]; [apply (dn_frame _ _ _ _ D m M)|]. cbn.
      destruct (Nat.eqb_spec m (alloc l)) as [->|N]; [|apply (dn_frame _ _ _ _ D m M)]. exfalso. apply (M l); [lia|reflexivity].
  Qed.
  Lemma wr_0 x v : wr alloc x 0 v = wrl x v. Proof. reflexivity. Qed.
  Lemma den_set_flag r f s x n c v : den r f s x -> (n < 3)%nat -> ceval r f c = v -> den r f (set_flag s n c) (wrf x n v).
  Proof.
    intros D N E. pose proof (dn_len _ _ _ _ D) as [L1 L2]. split; cbn [set_flag wrf fl g lat tk sr sf stk]; try apply D.
    - cbn. rewrite put_length. auto.
    - intros m M. unfold flag. cbn [sf set_flag]. rewrite nth_put by lia. destruct (Nat.eqb_spec m n) as [->|Q]; [now rewrite E|]. apply (dn_flag _ _ _ _ D m M).
  Qed.
  Lemma den_set_tk r f s x t v : den r f s x -> (forall m, t = Some m -> v = Some (r m)) -> den r f (set_tk s t) (St (g x) (lat x) (fl x) v).
  Proof. intros D E. destruct D. split; cbn; try assumption. Qed.

  Lemma set_below {A} (r r' : nat -> A) nx v m : (forall i, (i < m)%nat -> set r nx v i = r' i) -> (nx < m)%nat ->
    (forall i, (i < nx)%nat -> r i = r' i) /\ r' nx = v.
  Proof.
    intros H L. split.
    - intros i I. rewrite <- (H i) by lia. unfold set. destruct (Nat.eqb_spec i nx); [lia|reflexivity].
    - rewrite <- (H nx L). unfold set. now rewrite Nat.eqb_refl.
  Qed.
  Lemma base_ok r f nx nf s kn wd x m : inv r f nx nf s kn wd x -> is_base s kn wd m = true -> (rd alloc x m =? base) = true.
  Proof.
    intros H B. apply inv_here in H. destruct H as (D & K & G). unfold is_base in B. rewrite andb_true_iff in B. destruct B as [L B]. apply Nat.ltb_lt in L.
    apply (eq_all_ok kn wd r f K G) in B. apply Z.eqb_eq. rewrite (dn_reg _ _ _ _ D m L), B. autorewrite with ev. apply anchor_base with f. apply (dn_anchor _ _ _ _ D).
  Qed.
  Lemma arg_ok r f nx nf s kn wd x m e e' : inv r f nx nf s kn wd x ->
    is_base s kn wd m && ebelow nl 3 e && eq_all kn wd (sube s e) e' = true -> (rd alloc x m =? base) = true /\ ev alloc x e = eval r f e'.
  Proof.
    intros H B. rewrite !andb_true_iff in B. destruct B as [[B1 B2] B3]. split; [exact (base_ok _ _ _ _ _ _ _ _ _ H B1)|].
    apply inv_here in H. destruct H as (D & K & G). rewrite (rd_sub r f s x e D B2). now apply (eq_all_ok kn wd r f K G).
  Qed.

  Notation fitting := (fitting w).
  Lemma inv_read r f nx nf s kn wd x v k : inv r f nx nf s kn wd x -> 0 <= k -> 0 <= v < 2 ^ k ->
    inv (set r nx v) f (S nx) nf (set_reg s 0 (EV nx)) kn ((nx, k) :: wd) (wrl x v).
  Proof.
    intros [P H] K V. split; [lia|]. intros r' f' [A B]. apply set_below in A; [|lia]. destruct A as [A1 A2].
    destruct (H r' f' (conj A1 B)) as (D & F & G). split; [|split; [exact F|]].
    - rewrite <- wr_0. apply den_set_reg; [exact D|exact nl0|]. exact A2.
    - apply good_cons; [exact G|exact K|]. now rewrite A2.
  Qed.
  Lemma inv_flag r f nx nf s kn wd x b : inv r f nx nf s kn wd x -> inv r (set f nf b) nx (S nf) (set_flag s fOk (CV nf)) kn wd (wrf x fOk b).
  Proof.
    intros [P H]. split; [exact P|]. intros r' f' [A B]. apply set_below in B; [|lia]. destruct B as [B1 B2].
    destruct (H r' f' (conj A B1)) as (D & F & G). split; [|split; [exact F|exact G]].
    apply den_set_flag; [exact D|unfold fOk; lia|exact B2].
  Qed.
  Lemma inv_linked r f nx nf s kn wd x v t k (hi : bool) : inv r f nx nf s kn wd x -> 0 <= k -> 0 <= v < 2 ^ k ->
    inv (set (set r nx v) (S nx) t) f (S (S nx)) nf (set_tk (set_reg s 0 (EV nx)) (if hi then stk s else Some (S nx))) kn ((nx, k) :: wd)
      (St (g x) v (fl x) (if hi then tk x else Some t)).
  Proof.
    intros [P H] K V. split; [lia|]. intros r' f' [A B]. apply set_below in A; [|lia]. destruct A as [A1 A2]. apply set_below in A1; [|lia].
    destruct A1 as [A1 A3]. destruct (H r' f' (conj A1 B)) as (D & F & G). split; [|split; [exact F|]].
    - apply (den_set_tk r' f' (set_reg s 0 (EV nx)) (wrl x v)).
      + rewrite <- wr_0. apply den_set_reg; [exact D|exact nl0|]. exact A3.
      + intros m E. destruct hi; [apply (dn_tk _ _ _ _ D m E)|]. injection E as <-. now rewrite A2.
    - apply good_cons; [exact G|exact K|]. now rewrite A3.
  Qed.

  Lemma access_ok u x s nx nf kn wd s' nx' nf' wd' r f c pc :
    access u x s nx nf kn wd = Some (s', nx', nf', wd') -> inv r f nx nf s kn wd c ->
    forall tr o, path (uexec alloc w base a u pc c) tr o -> Forall fitting tr ->
    (tr = [] /\ o = None) \/
    exists d c' r' f', tr = [d] /\ (o = None \/ o = Some (inl (S pc, c'))) /\ inv r' f' nx' nf' s' kn wd' c' /\
      forall k tr' o', path (sprog w a nx' nf' k r' f') tr' o' -> path (sprog w a nx nf (SAct x k) r f) (d :: tr') o'.
  Proof.
    intros E H tr o P FT.
    assert (W2 : 0 <= w / 2) by (apply Z.div_pos; lia).
    destruct u as [ | | | | | |m|m hi|m e|m e|m b e|m u|m e d|m|m hi|m e]; destruct x as [|hi'|e'|e'|b' e'|u'|e' d'| |hi'|t' e']; try discriminate E; cbn [access] in E.
    - destruct (is_base s kn wd m) eqn:B; [|discriminate E]. injection E as <- <- <- <-. cbn [uexec] in P. rewrite (base_ok _ _ _ _ _ _ _ _ _ H B) in P.
      destruct P as [P|(v & tr' & -> & -> & P)]; [left; exact P|right]. apply Forall_inv in FT. cbn in FT.
      exists (existT wresp (ALoad a) v), (wrl c v), (set r nx v), f. split; [reflexivity|]. split; [exact P|]. split; [now apply inv_read|].
      intros k tr' o' Q. right. exists v, tr'. auto.
    - destruct (is_base s kn wd m && eqb hi hi') eqn:B; [|discriminate E]. rewrite andb_true_iff in B. destruct B as [B B']. apply eqb_prop in B'. subst hi'.
      injection E as <- <- <- <-. cbn [uexec] in P. rewrite (base_ok _ _ _ _ _ _ _ _ _ H B) in P.
      destruct P as [P|(v & tr' & -> & -> & P)]; [left; exact P|right]. apply Forall_inv in FT. cbn in FT.
      exists (existT wresp (AHalf a w hi) v), (wrl c v), (set r nx v), f. split; [reflexivity|]. split; [exact P|]. split; [now apply inv_read|].
      intros k tr' o' Q. right. exists v, tr'. auto.
    - match type of E with (if ?b then _ else _) = _ => destruct b eqn:B; [|discriminate E] end. injection E as <- <- <- <-.
      destruct (arg_ok _ _ _ _ _ _ _ _ _ _ _ H B) as [B1 B2]. cbn [uexec] in P. rewrite B1, B2 in P.
      destruct P as [P|(v & tr' & -> & -> & P)]; [left; exact P|right].
      exists (existT wresp (AStore a (eval r f e')) v), c, r, f. split; [reflexivity|]. split; [exact P|]. split; [exact H|].
      intros k tr' o' Q. right. exists v, tr'. auto.
    - match type of E with (if ?b then _ else _) = _ => destruct b eqn:B; [|discriminate E] end. injection E as <- <- <- <-.
      destruct (arg_ok _ _ _ _ _ _ _ _ _ _ _ H B) as [B1 B2]. cbn [uexec] in P. rewrite B1, B2 in P.
      destruct P as [P|(v & tr' & -> & -> & P)]; [left; exact P|right]. apply Forall_inv in FT. cbn in FT.
      exists (existT wresp (AXchg a (eval r f e')) v), (wrl c v), (set r nx v), f. split; [reflexivity|]. split; [exact P|]. split; [now apply inv_read|].
      intros k tr' o' Q. right. exists v, tr'. auto.
    - match type of E with (if ?b && _ then _ else _) = _ => destruct b eqn:B; [|discriminate E] end. cbn [andb] in E.
      destruct (binop_eqb b b') eqn:B'; [|discriminate E]. apply binop_eqb_true in B'. subst b'. injection E as <- <- <- <-.
      destruct (arg_ok _ _ _ _ _ _ _ _ _ _ _ H B) as [B1 B2]. cbn [uexec] in P. rewrite B1, B2 in P.
      destruct P as [P|(v & tr' & -> & -> & P)]; [left; exact P|right]. apply Forall_inv in FT. cbn in FT.
      exists (existT wresp (ARmw a w (Bin b (eval r f e'))) v), (wrl c v), (set r nx v), f. split; [reflexivity|]. split; [exact P|]. split; [now apply inv_read|].
      intros k tr' o' Q. right. exists v, tr'. auto.
    - destruct (is_base s kn wd m && unop_eqb u u') eqn:B; [|discriminate E]. rewrite andb_true_iff in B. destruct B as [B B']. apply unop_eqb_true in B'. subst u'.
      injection E as <- <- <- <-. cbn [uexec] in P. rewrite (base_ok _ _ _ _ _ _ _ _ _ H B) in P.
      destruct P as [P|(v & tr' & -> & -> & P)]; [left; exact P|right]. apply Forall_inv in FT. cbn in FT.
      exists (existT wresp (ARmw a w (Un u)) v), (wrl c v), (set r nx v), f. split; [reflexivity|]. split; [exact P|]. split; [now apply inv_read|].
      intros k tr' o' Q. right. exists v, tr'. auto.
    - match type of E with (if ?b && ?b' then _ else _) = _ => destruct b eqn:B; [|discriminate E]; cbn [andb] in E; destruct b' eqn:B'; [|discriminate E] end.
      injection E as <- <- <- <-.
      destruct (arg_ok _ _ _ _ _ _ _ _ _ _ _ H B) as [B1 B2]. destruct (arg_ok _ _ _ _ _ _ _ _ _ _ _ H B') as [_ B3]. cbn [uexec] in P. rewrite B1, B2, B3 in P.
      destruct P as [P|(v & tr' & -> & P)]; [left; exact P|right]. destruct v as [b v]. destruct P as [-> P]. apply Forall_inv in FT. cbn in FT.
      exists (existT wresp (ACas a (eval r f e') (eval r f d')) (b, v)), (wrf (wrl c v) fOk b), (set r nx v), (set f nf b).
      split; [reflexivity|]. split; [exact P|]. split; [now apply inv_flag, inv_read|].
      intros k tr' o' Q. right. exists (b, v), tr'. auto.
    - destruct (is_base s kn wd m) eqn:B; [|discriminate E]. injection E as <- <- <- <-. cbn [uexec] in P. rewrite (base_ok _ _ _ _ _ _ _ _ _ H B) in P.
      destruct P as [P|(v & tr' & -> & P)]; [left; exact P|right]. destruct v as [v t]. destruct P as [-> P]. apply Forall_inv in FT. cbn in FT.
      exists (existT wresp (ALL a) (v, t)), (St (g c) v (fl c) (Some t)), (set (set r nx v) (S nx) t), f. split; [reflexivity|]. split; [exact P|].
      split; [now apply (inv_linked r f nx nf s kn wd c v t w false)|].
      intros k tr' o' Q. right. exists (v, t), tr'. auto.
    - destruct (is_base s kn wd m && eqb hi hi') eqn:B; [|discriminate E]. rewrite andb_true_iff in B. destruct B as [B B']. apply eqb_prop in B'. subst hi'.
      injection E as <- <- <- <-. cbn [uexec] in P. rewrite (base_ok _ _ _ _ _ _ _ _ _ H B) in P.
      destruct P as [P|(v & tr' & -> & P)]; [left; exact P|right]. destruct v as [v t]. destruct P as [-> P]. apply Forall_inv in FT. cbn in FT.
      exists (existT wresp (ALLHalf a w hi) (v, t)), (St (g c) v (fl c) (if hi then tk c else Some t)), (set (set r nx v) (S nx) t), f.
      split; [reflexivity|]. split; [exact P|]. split; [now apply inv_linked|].
      intros k tr' o' Q. right. exists (v, t), tr'. auto.
    - destruct (stk s) as [t0|] eqn:T; [|discriminate E].
      match type of E with (if ?b && _ then _ else _) = _ => destruct b eqn:B; [|discriminate E] end. cbn [andb] in E.
      destruct (Nat.eqb_spec t' t0) as [->|N]; [|discriminate E]. injection E as <- <- <- <-.
      destruct (arg_ok _ _ _ _ _ _ _ _ _ _ _ H B) as [B1 B2]. cbn [uexec] in P. rewrite B1, B2 in P.
      assert (TK : tk c = Some (r t0)) by (apply inv_here in H; destruct H as (D & _); exact (dn_tk _ _ _ _ D t0 T)). rewrite TK in P.
      destruct P as [P|(v & tr' & -> & -> & P)]; [left; exact P|right].
      exists (existT wresp (ASC a (r t0) (eval r f e')) v), (wrf (St (g c) (lat c) (fl c) None) fOk v), r, (set f nf v).
      split; [reflexivity|]. split; [exact P|]. split.
      + apply inv_flag. destruct H as [N H]. split; [exact N|]. intros r' f' A. destruct (H r' f' A) as (D & F & G). split; [|auto].
        apply den_set_tk; [exact D|discriminate].
      + intros k tr' o' Q. right. exists v, tr'. auto.
  Qed.

  (** runs with the number of instructions *)
  Inductive run_n : nat -> nat * cst -> list (did wact wresp) -> option (option cst) -> Prop :=
  | rn_in n x tr : path (body code alloc w base a x) tr None -> run_n n x tr None
  | rn_next n x x' tr tr' o : path (body code alloc w base a x) tr (Some (inl x')) -> run_n n x' tr' o -> run_n (S n) x (tr ++ tr') o
  | rn_out n x y tr o : path (body code alloc w base a x) tr (Some (inr y)) -> (o = None \/ o = Some y) -> run_n n x tr o.
  Lemma run_turns s tr o : path (asm_prog code alloc w base a s) tr o -> exists n, run_n n (0%nat, s) tr o.
  Proof.
    unfold asm_prog, loop. cbn [path]. intros H. induction H as [x tr H|x x' tr tr' o H T [n IH]|x y tr tr' o H [-> T]].
    - exists 0%nat. now apply rn_in.
    - exists (S n). now apply rn_next with x'.
    - exists 0%nat. rewrite app_nil_r. now apply rn_out with y.
  Qed.

  Variable Fin : cst -> result -> Prop.
  Variable Head : Z -> cst -> Prop.
  Hypothesis final_ok : forall s kn wd o n c r f x, final s kn wd o n c = true -> den r f s x -> Forall (holds r f) kn -> good wd r ->
    Fin x (Res (eval r f o) (eval r f n) (ceval r f c)).
  Hypothesis cover_ok : forall s kn wd e r f x, cover s kn wd e = true -> den r f s x -> Forall (holds r f) kn -> good wd r ->
    Head (eval r f e) x.

  Definition goes (first : bool) (n : nat) (p : wprog (Z + result)) (tr : list (did wact wresp)) (o : option (option cst)) : Prop :=
    (o = None /\ path p tr None) \/
    (exists res x, o = Some (Some x) /\ path p tr (Some (inr res)) /\ Fin x res) \/
    (exists h tr1 tr2 n' x y, head = Some h /\ tr = tr1 ++ tr2 /\ path p tr1 (Some (inl y)) /\ run_n n' (h, x) tr2 o /\
       (n' + (if first then 1 else 0) <= n)%nat /\ Head y x).

  Lemma next_inv n pc x tr o y : run_n n (pc, x) tr o -> (forall tr o, path (body code alloc w base a (pc, x)) tr o -> tr = [] /\ (o = None \/ o = Some (inl y))) ->
    (tr = [] /\ o = None) \/ exists m, n = S m /\ run_n m y tr o.
  Proof.
    intros R H. inversion R as [n0 x0 tr0 P|n0 x0 x' tr0 tr' o0 P Q|n0 x0 y0 tr0 o0 P Q]; subst.
    - apply H in P. destruct P as [-> _]. auto.
    - apply H in P. destruct P as [-> [P|P]]; [discriminate P|]. injection P as ->. right. exists n0. auto.
    - apply H in P. destruct P as [_ [P|P]]; discriminate P.
  Qed.
  Lemma goes_weaken first n m p tr o : goes false m p tr o -> n = S m -> goes first n p tr o.
  Proof.
    intros [G|[G|(h & tr1 & tr2 & n' & x & y & Hh & -> & P & R & L & HH)]] ->; [left; exact G|right; left; exact G|right; right].
    exists h, tr1, tr2, n', x, y. repeat split; auto. destruct first; cbn in *; lia.
  Qed.
  Lemma goes_same first n p p' tr o : (forall tr o, path p tr o -> path p' tr o) -> goes first n p tr o -> goes first n p' tr o.
  Proof.
    intros E [[-> P]|[(res & x & -> & P & F)|(h & tr1 & tr2 & n' & x & y & Hh & -> & P & R & L & HH)]].
    - left. auto.
    - right. left. exists res, x. auto.
    - right. right. exists h, tr1, tr2, n', x, y. repeat split; auto.
  Qed.

  Theorem sim_sound fuel : forall pc first s nx nf kn wd t, sim fuel pc first s nx nf kn wd t = true ->
    forall r f x n tr o, inv r f nx nf s kn wd x -> run_n n (pc, x) tr o -> Forall fitting tr -> goes first n (sprog w a nx nf t r f) tr o.
  Proof.
    induction fuel as [|fuel IH]; intros pc first s nx nf kn wd t C r f x n tr o I R FT; [discriminate C|]. cbn [sim] in C.
    pose proof (inv_here _ _ _ _ _ _ _ _ I) as (D & K & G). pose proof (settle_ok kn wd r f K G w a nx nf t) as ST.
    destruct (negb first && match head with Some h => Nat.eqb pc h | None => false end) eqn:HB.
    { rewrite andb_true_iff, negb_true_iff in HB. destruct HB as [-> HB]. destruct head as [h|] eqn:Hh; [|discriminate HB]. apply Nat.eqb_eq in HB. subst pc.
      destruct (settle kn wd t) as [| | |e] eqn:T; try discriminate C. right. right. exists h, [], tr, n, x, (eval r f e).
      split; [exact Hh|]. split; [reflexivity|]. split; [rewrite <- ST; split; auto|]. split; [exact R|]. split; [lia|]. exact (cover_ok _ _ _ _ _ _ _ C D K G). }
    clear HB. destruct (nth_error code pc) as [u|] eqn:N; [|discriminate C].
    assert (BD : body code alloc w base a (pc, x) = uexec alloc w base a u pc x) by (unfold body; cbn [fst snd]; now rewrite N).
    assert (STEP : forall y c', (forall tr o, path (uexec alloc w base a u pc x) tr o -> tr = [] /\ (o = None \/ o = Some (inl (y, c')))) ->
        (forall m, run_n m (y, c') tr o -> goes false m (sprog w a nx nf t r f) tr o) -> goes first n (sprog w a nx nf t r f) tr o).
    { intros y c' HS HN. destruct (next_inv n pc x tr o (y, c') R) as [[-> ->]|(m & -> & R')].
      - intros tr1 o1. rewrite BD. apply HS.
      - left. split; [reflexivity|apply path_nil].
      - apply goes_weaken with m; [|reflexivity]. now apply HN. }
    assert (ACC : match settle kn wd t with
                  | SAct x k => match access u x s nx nf kn wd with Some (s', nx', nf', wd') => sim fuel (S pc) false s' nx' nf' kn wd' k | None => false end
                  | _ => false end = true -> goes first n (sprog w a nx nf t r f) tr o).
    { intros C'. destruct (settle kn wd t) as [x0 k|?|?|?]; try discriminate C'. destruct (access u x0 s nx nf kn wd) as [[[[s' nx'] nf'] wd']|] eqn:A; [|discriminate C'].
      rewrite <- ST. inversion R as [n0 x1 tr0 P|n0 x1 x' tr0 tr' o0 P Q|n0 x1 y0 tr0 o0 P Q]; subst; rewrite BD in P.
      - destruct (access_ok _ _ _ _ _ _ _ _ _ _ _ r f x pc A I _ _ P FT) as [[-> _]|(d & c' & r' & f' & -> & _ & I' & T')].
        + left. split; [reflexivity|apply path_nil].
        + left. split; [reflexivity|]. apply T', path_nil.
      - apply Forall_app in FT. destruct FT as [F1 F2].
        destruct (access_ok _ _ _ _ _ _ _ _ _ _ _ r f x pc A I _ _ P F1) as [[_ Z]|(d & c' & r' & f' & -> & [Z|Z] & I' & T')]; [discriminate Z|discriminate Z|].
        injection Z as ->. specialize (IH _ _ _ _ _ _ _ _ C' _ _ _ _ _ _ I' Q F2).
        destruct IH as [[-> P']|[(res & x1 & -> & P' & F)|(h & tr1 & tr2 & n' & x1 & y & Hh & -> & P' & R' & L & HH)]].
        + left. split; [reflexivity|]. now apply T'.
        + right. left. exists res, x1. split; [reflexivity|]. split; [now apply T'|exact F].
        + right. right. exists h, (d :: tr1), tr2, n', x1, y. split; [exact Hh|]. split; [reflexivity|]. split; [now apply T'|]. split; [exact R'|].
          split; [destruct first; cbn in *; lia|exact HH].
      - destruct (access_ok _ _ _ _ _ _ _ _ _ _ _ r f x pc A I _ _ P FT) as [[_ Z]|(d & c' & r' & f' & -> & [Z|Z] & _ & _)]; discriminate Z. }
    destruct u as [d e|k c|c tg| |l m|e z|m|m hi|m e|m e|m b e|m u|m e d|m|m hi|m e]; try exact (ACC C).
    - rewrite !andb_true_iff in C. destruct C as [[C1 C2] C3]. apply Nat.ltb_lt in C1. apply (STEP (S pc) (wr alloc x d (ev alloc x e))).
      + intros tr1 o1 P. exact P.
      + intros m R'. refine (IH _ _ _ _ _ _ _ _ C3 r f (wr alloc x d (ev alloc x e)) m tr o _ R' FT). destruct I as [Z I]. split; [exact Z|]. intros r' f' A.
        destruct (I r' f' A) as (D' & K' & G'). split; [|auto]. apply den_set_reg; [exact D'|exact C1|].
        rewrite (simp_ok (look wd) r' f' G'). symmetry. now apply rd_sub.
    - rewrite !andb_true_iff in C. destruct C as [[C1 C2] C3]. apply Nat.ltb_lt in C1. apply (STEP (S pc) (wrf x k (cev alloc x c))).
      + intros tr1 o1 P. exact P.
      + intros m R'. refine (IH _ _ _ _ _ _ _ _ C3 r f (wrf x k (cev alloc x c)) m tr o _ R' FT). destruct I as [Z I]. split; [exact Z|]. intros r' f' A.
        destruct (I r' f' A) as (D' & K' & G'). split; [|auto]. apply den_set_flag; [exact D'|exact C1|].
        rewrite (csimp_ok (look wd) r' f' G'). symmetry. now apply rd_subc.
    - destruct tg as [| | |tg]; try discriminate C. rewrite andb_true_iff in C. destruct C as [C1 C]. cbv zeta in C.
      set (c' := cnorm kn wd (subc s c)) in *.
      assert (CV : forall r' f', agree nx nf r f r' f' -> ceval r' f' c' = cev alloc x c).
      { intros r' f' A. destruct I as [Z I]. destruct (I r' f' A) as (D' & K' & G'). unfold c'. rewrite (cnorm_ok kn wd r' f' K' G'). symmetry. now apply rd_subc. }
      assert (HERE : agree nx nf r f r f) by (split; auto).
      assert (GO : forall b (t' : stree), cev alloc x c = b -> sim fuel (if b then tg else S pc) false s nx nf (facts wd c' b ++ kn) wd t' = true ->
          sprog w a nx nf t' r f = sprog w a nx nf t r f -> goes first n (sprog w a nx nf t r f) tr o).
      { intros b t' E C' TT. apply (STEP (if b then tg else S pc) x).
        - intros tr1 o1 P. cbn [uexec] in P. rewrite E in P. exact P.
        - intros m R'. rewrite <- TT. refine (IH _ _ _ _ _ _ _ _ C' r f x m tr o _ R' FT). destruct I as [Z I]. split; [exact Z|]. intros r' f' A.
          destruct (I r' f' A) as (D' & K' & G'). split; [exact D'|]. split; [|exact G']. apply Forall_app. split; [|exact K'].
          apply facts_ok; [exact G'|]. now rewrite CV. }
      assert (GO0 : forall b, cev alloc x c = b -> sim fuel (if b then tg else S pc) false s nx nf kn wd t = true -> goes first n (sprog w a nx nf t r f) tr o).
      { intros b E C'. apply (STEP (if b then tg else S pc) x).
        - intros tr1 o1 P. cbn [uexec] in P. rewrite E in P. exact P.
        - intros m R'. exact (IH _ _ _ _ _ _ _ _ C' r f _ m tr o I R' FT). }
      set (t0 := settle kn wd t) in *.
      set (go := fun x y : stree => sim fuel tg false s nx nf (facts wd c' true ++ kn) wd x && sim fuel (S pc) false s nx nf (facts wd c' false ++ kn) wd y).
      assert (BOTH : go t0 t0 = true -> goes first n (sprog w a nx nf t r f) tr o).
      { unfold go. rewrite andb_true_iff. intros [A B]. destruct (cev alloc x c) eqn:E; [apply (GO true t0 eq_refl)|apply (GO false t0 eq_refl)]; assumption. }
      assert (REST : match t0 with
                     | SIf d x y => if ceq_all kn wd c' d then go x y else if ceq_all kn wd (CNot c') d then go y x else go t0 t0
                     | _ => go t0 t0 end = true -> goes first n (sprog w a nx nf t r f) tr o).
      { clear GO0 STEP ACC. destruct t0 as [x0 k0|d x0 y0|? ? ?|?] eqn:T0; try exact BOTH.
        destruct (ceq_all kn wd c' d) eqn:Q.
        - intros A. unfold go in A. rewrite andb_true_iff in A. destruct A as [A B]. apply (ceq_all_ok kn wd r f K G) in Q. rewrite (CV r f HERE) in Q.
          cbn [sprog] in ST. destruct (cev alloc x c) eqn:E; rewrite <- Q in ST; [apply (GO true x0 eq_refl A)|apply (GO false y0 eq_refl B)]; exact ST.
        - destruct (ceq_all kn wd (CNot c') d) eqn:Q'; [|exact BOTH].
          intros A. unfold go in A. rewrite andb_true_iff in A. destruct A as [A B]. apply (ceq_all_ok kn wd r f K G) in Q'. rewrite ev_CNot, (CV r f HERE) in Q'.
          cbn [sprog] in ST. destruct (cev alloc x c) eqn:E; cbn in Q'; rewrite <- Q' in ST; [apply (GO true y0 eq_refl A)|apply (GO false x0 eq_refl B)]; exact ST. }
      pose proof (CV r f HERE) as CVH.
      destruct c'; try exact (REST C).
      + apply (GO0 true); [symmetry; exact CVH|exact C].
      + apply (GO0 false); [symmetry; exact CVH|exact C].
    - destruct (settle kn wd t) as [? ?|? ? ?|o1 n1 c1|?] eqn:T; try discriminate C. pose proof (final_ok _ _ _ _ _ _ _ _ _ C D K G) as F. rewrite <- ST.
      inversion R as [n0 x1 tr0 P|n0 x1 x' tr0 tr' o0 P Q|n0 x1 y0 tr0 o0 P Q]; subst; rewrite BD in P; destruct P as [E P]; subst.
      + left. split; [reflexivity|]. split; auto.
      + destruct P as [P|P]; discriminate P.
      + destruct P as [P|P]; [discriminate P|]. injection P as ->. destruct Q as [Q|Q]; subst o; [left; split; [reflexivity|split; auto]|].
        right. left. exists (Res (eval r f o1) (eval r f n1) (ceval r f c1)), x. split; [reflexivity|]. split; [split; auto|exact F].
    - rewrite !andb_true_iff in C. destruct C as [[[[[C1 C2] C3] C4] C5] C6]. apply Nat.ltb_lt in C1, C2, C3, C4. rewrite negb_true_iff in C5. apply Nat.eqb_neq in C5.
      apply (STEP (S pc) x).
      + intros tr1 o1 P. cbn [uexec] in P. destruct (Nat.eqb_spec (alloc l) (alloc m)) as [E|E]; [|exact P]. exfalso. apply C5. apply rep_ok; [lia|lia|exact E].
      + intros k R'. exact (IH _ _ _ _ _ _ _ _ C6 r f _ k tr o I R' FT).
    - rewrite !andb_true_iff in C. destruct C as [[C1 C2] C3]. apply (STEP (S pc) x).
      + intros tr1 o1 P. cbn [uexec] in P. rewrite (rd_sub r f s x e D C1) in P. rewrite <- (simp_ok (look wd) r f G (sube s e)) in P.
        destruct (wid (look wd) (simp (look wd) (sube s e))) as [k|] eqn:W; [|discriminate C2]. apply Z.leb_le in C2.
        destruct (wid_ok (look wd) r f G _ _ W) as [W1 W2].
        destruct ((0 <=? eval r f (simp (look wd) (sube s e))) && (eval r f (simp (look wd) (sube s e)) <? z)) eqn:B; [exact P|].
        exfalso. rewrite andb_false_iff, Z.leb_gt, Z.ltb_ge in B. lia.
      + intros k R'. exact (IH _ _ _ _ _ _ _ _ C3 r f _ k tr o I R' FT).
  Qed.
End Sim.

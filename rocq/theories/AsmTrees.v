(** * The programs of SpecAsm.v as trees, for AsmCheck.v. *)
From Coq Require Import ZArith Arith List Bool Lia String.
From Verif Require Import Conv SpecInt Prog Word CoreModel ExtraModel SpecHand HandProof AsmExpr AsmText AsmModel SpecAsm AsmNorm AsmSym.
Import ListNotations.
Open Scope Z_scope.
Open Scope list_scope.

(** ** Related programs *)
Section Rel.
  Variable w : Z.
  Notation dids := (list (did wact wresp)).
  Definition orel {A B} (R : A -> B -> Prop) (o : option A) (o' : option B) : Prop :=
    match o, o' with None, None => True | Some x, Some y => R x y | _, _ => False end.
  (** every path of [p] is a path of [p'] with a related result *)
  Definition prel {A B} (R : A -> B -> Prop) (p : wprog A) (p' : wprog B) : Prop :=
    forall tr o, Forall (fitting w) tr -> path p tr o -> exists o', path p' tr o' /\ orel R o o'.
  Lemma prel_ret {A B} (R : A -> B -> Prop) x y : R x y -> prel R (Ret x) (Ret y).
  Proof.
    intros H tr o F [-> [->| ->]].
    - exists None. split; [split; auto|exact I].
    - exists (Some y). split; [split; auto|exact H].
  Qed.
  Lemma prel_do {A B} (R : A -> B -> Prop) a (k : wresp a -> wprog A) (k' : wresp a -> wprog B) :
    (forall x, fitting w (existT wresp a x) -> prel R (k x) (k' x)) -> prel R (Do a k) (Do a k').
  Proof.
    intros H tr o F [[-> ->]|(x & tr' & -> & P)].
    - exists None. split; [left; auto|exact I].
    - inversion F as [|d l F1 F2]; subst. destruct (H x F1 tr' o F2 P) as (o' & P' & Q). exists o'. split; [|exact Q]. right. exists x, tr'. auto.
  Qed.
  Definition bind_do {A} (a : wact) (f : wresp a -> wprog A) : bind (do a) f = Do a f := eq_refl.
End Rel.

(** ** Trees *)
Section Trees.
  Variables (b : block) (dc ls : bool) (V E D I : expr) (X nx : nat).
  Notation w := (b_bits b).
  Notation h := (b_bits b / 2).
  Definition nf : nat := 6.
  Definition upd (c : change) (x : expr) : expr :=
    let y := ELow w (match c with Set_ => V | Bin_ f => EBin f x V | Un_ u => EUn u x end) in
    match c with
    | Bin_ Add | Bin_ Sub =>
        if b_value b <? w then if b_signed b then ELow w (ESx (b_value b) y) else ELow (b_value b) y else y
    | _ => y
    end.
  Definition zero : expr := EC 0.
  Definition again : stree := SBack zero.
  Definition done : stree := SRet zero zero CT.
  Definition found (t : stree) : stree * stree := (t, again).
  Definition pair64 : bool := (w =? 64) && match b_arch b with Arm | AArch32 => true | _ => false end.

  Definition t_retry (c : change) (new : bool) : stree :=
    SAct XLk (SAct (XSc (S nx) (upd c (EV nx))) (SIf (CV nf) (SRet (if new then zero else EV nx) (upd c (EV nx)) CT) again)).
  Definition t_eq : cnd := if pair64 then CAnd (CEq h (EV nx) E) (CEq h (EHi h (EV nx)) (EHi h E)) else CEq w (EV nx) E.
  Definition t_casw : stree := SAct XLk (SIf t_eq (SAct (XSc (S nx) D) (SRet (EV nx) zero (CV nf))) (SRet (EV nx) zero CF)).
  Definition t_cas : stree :=
    SAct XLk (SIf t_eq (SAct (XSc (S nx) D) (SIf (CV nf) (SRet (EV nx) zero CT) again)) (SRet (EV nx) zero CF)).
  Definition llsc_tree (k : kind) : stree * stree :=
    match k with
    | KFence | KBit _ => found done
    | KLoad => found (SAct (if pair64 then XLk else XLd) (SRet (EV nx) zero CT))
    | KStore => if pair64 then (again, t_retry Set_ false) else found (SAct (XSt V) done)
    | KExchange => (again, t_retry Set_ false)
    | KWeak => found t_casw
    | KStrong => (again, t_cas)
    | KFetch c => (again, t_retry c false)
    | KNew c | KOpaque c | KTest c => (again, t_retry c true)
    end.

  Definition both_ : expr := EJoin h (EV nx) (EV (S (S nx))).
  Definition t_pair (f : expr -> expr) (new : bool) : stree :=
    SAct (XLkH false) (SAct (XLkH true) (SAct (XSc (S nx) (f both_)) (SIf (CV nf) (SRet (if new then zero else both_) (f both_) CT) again))).
  Definition t_eq2 : cnd := CAnd (CEq h (EV nx) E) (CEq h (EV (S (S nx))) (EHi h E)).
  Definition pair_tree (k : kind) : stree * stree :=
    match k with
    | KLoad => (again, t_pair (fun x => x) false)
    | KStore | KExchange => (again, t_pair (upd Set_) false)
    | KWeak => found (SAct (XLkH false) (SAct (XLkH true) (SIf t_eq2 (SAct (XSc (S nx) D) (SRet both_ zero (CV nf))) (SRet both_ zero CF))))
    | KStrong => (again, SAct (XLkH false) (SAct (XLkH true) (SIf t_eq2 (SAct (XSc (S nx) D) (SIf (CV nf) (SRet both_ zero CT) again)) (SRet both_ zero CF))))
    | KFetch c => (again, t_pair (upd c) false)
    | KNew c | KOpaque c | KTest c => (again, t_pair (upd c) true)
    | KFence | KBit _ => found done
    end.

  Definition lse_tree (k : kind) : stree * stree :=
    match k with
    | KExchange => found (SAct (XXc V) (SRet (EV nx) zero CT))
    | KWeak | KStrong => found (SAct (XCs E D) (SRet (EV nx) zero (CV nf)))
    | KFetch (Bin_ Sub) => found (SAct (XRm Add V) (SRet (EV nx) zero CT))
    | KFetch (Bin_ And) => found (SAct (XRm And (ELow w (EUn Not V))) (SRet (EV nx) zero CT))
    | KFetch (Bin_ f) => found (SAct (XRm f V) (SRet (EV nx) zero CT))
    | _ => found done
    end.
  Definition sparc_tree (k : kind) : stree * stree :=
    match k with
    | KExchange => found (SAct (XXc V) (SRet (EV nx) zero CT))
    | KWeak | KStrong => found (SAct (XCs E D) (SRet (EV nx) zero (CV nf)))
    | _ => found done
    end.
  Definition rm (f : binop) (e : expr) : stree * stree := found (SAct (XRm f e) (SRet (EV nx) (ELow w (EBin f (EV nx) e)) CT)).
  Definition rm_tree (c : change) : stree * stree :=
    match c with
    | Set_ => rm And zero
    | Bin_ f => rm f V
    | Un_ u => found (SAct (XRu u) (SRet (EV nx) (ELow w (EUn u (EV nx))) CT))
    end.
  Definition t_swap : stree * stree :=
    (SAct (XHf false) (SAct (XHf true) (SBack (EJoin h (EV nx) (EV (S nx))))),
     SAct (XCs (EV X) V) (SIf (CV nf) (SRet (EV nx) zero CT) (SBack (EV nx)))).
  Definition x86_tree (k : kind) : stree * stree :=
    match k with
    | KFence => found done
    | KLoad => if dc then found (SAct (XCs I I) (SRet (EV nx) zero CT)) else found (SAct XLd (SRet (EV nx) zero CT))
    | KStore => if dc then t_swap else found (SAct (XSt V) done)
    | KExchange => if dc then t_swap else found (SAct (XXc V) (SRet (EV nx) zero CT))
    | KWeak | KStrong => found (SAct (XCs E D) (SRet (EV nx) zero (CV nf)))
    | KFetch (Bin_ Add) => rm Add V
    | KFetch c => (SBack I, SAct (XCs (EV X) (upd c (EV X))) (SIf (CV nf) (SRet (EV nx) (upd c (EV nx)) CT) (SBack (EV nx))))
    | KNew c => (SBack I, SAct (XCs (EV X) (upd c (EV X))) (SIf (CV nf) (SRet zero (upd c (EV X)) CT) (SBack (EV nx))))
    | KOpaque c | KTest c => rm_tree c
    | KBit BSet => rm Or (EPow V)
    | KBit BReset => rm And (EUn Not (EPow V))
    | KBit BCompl => rm Xor (EPow V)
    end.
  Definition tree (k : kind) : stree * stree :=
    match b_arch b with
    | Alpha | PowerPC | Arm | AArch32 => llsc_tree k
    | AArch64 => if w =? 128 then pair_tree k else if ls then lse_tree k else llsc_tree k
    | Sparc => sparc_tree k
    | X86 => x86_tree k
    end.

  (** ** They are the programs *)
  Variables (a : addr) (q : call).
  Definition args_ok (r : nat -> Z) (f : nat -> bool) : Prop :=
    forall r' f', agree nx nf r f r' f' -> eval r' f' V = q_v q /\ eval r' f' E = q_e q /\ eval r' f' D = q_d q /\ eval r' f' I = q_i q.
  Definition again_or {Y B} (st : Z -> Y -> Prop) (after : B -> wprog result) (x : Z + result) (y : Y + B) : Prop :=
    match x, y with inl z, inl z' => st z z' | inr r, inr u => path (after u) [] (Some r) | _, _ => False end.
  Definition shape (P T : stree) (p : wprog result) (r0 : nat -> Z) (f0 : nat -> bool) : Prop :=
    exists (Y B : Type) (body : Y -> wprog (Y + B)) (after : B -> wprog result) (st : Z -> Y -> Prop),
      (forall y y' r f, args_ok r f -> r X = y -> 0 <= y < 2 ^ w -> st y y' ->
         prel w (again_or st after) (sprog w a nx nf T r f) (body y')) /\
      (forall tr o, Forall (fitting w) tr -> path (sprog w a nx nf P r0 f0) tr o ->
         match o with
         | None => path p tr None
         | Some (inr res) => path p tr (Some res)
         | Some (inl y) => 0 <= y < 2 ^ w -> exists y', st y y' /\
             forall tr' o', turns (fun s => path (body s)) (fun u => path (after u)) y' tr' o' -> path p (tr ++ tr') o'
         end).
  Hypothesis dc_ok : dc = dcas b.
  Hypothesis ls_ok : ls = lse b.
  Hypothesis Xlow : (X < nx)%nat.
  Hypothesis w_ok : 0 <= w.
  Hypothesis ranges : forall x, 0 <= arg_value q x < 2 ^ w.
  Variables (r0 : nat -> Z) (f0 : nat -> bool).
  Hypothesis args0 : args_ok r0 f0.

  Lemma set_same {A} (r : nat -> A) n v : set r n v n = v. Proof. unfold set. now rewrite Nat.eqb_refl. Qed.
  Lemma set_other {A} (r : nat -> A) n v i : i <> n -> set r n v i = r i. Proof. intros N. unfold set. now destruct (Nat.eqb_spec i n). Qed.
  Lemma args_set r f n v : args_ok r f -> (nx <= n)%nat -> args_ok (set r n v) f.
  Proof. intros H L r' f' [A B]. apply H. split; [|exact B]. intros i Hi. rewrite <- A by assumption. rewrite set_other; [reflexivity|lia]. Qed.
  Lemma args_setf r f n v : args_ok r f -> (nf <= n)%nat -> args_ok r (set f n v).
  Proof. intros H L r' f' [A B]. apply H. split; [exact A|]. intros i Hi. rewrite <- B by assumption. rewrite set_other; [reflexivity|lia]. Qed.
  Lemma args_here r f : args_ok r f -> eval r f V = q_v q /\ eval r f E = q_e q /\ eval r f D = q_d q /\ eval r f I = q_i q.
  Proof. intros H. apply H. split; auto. Qed.
  Lemma upd_ok r f c x : args_ok r f -> eval r f (upd c x) = updated b c (q_v q) (eval r f x).
  Proof.
    intros A. destruct (args_here r f A) as (EV_ & _). unfold upd, updated, reg_ext. cbv zeta. destruct c as [|c|u].
    - autorewrite with ev. now rewrite EV_.
    - destruct c; destruct (b_value b <? w); try destruct (b_signed b); autorewrite with ev; now rewrite EV_.
    - now autorewrite with ev.
  Qed.

  Lemma one_shape P p : prel w (fun x r => x = inr r) (sprog w a nx nf P r0 f0) p -> shape P again p r0 f0.
  Proof.
    intros H. exists unit, unit, (fun _ => Ret (inl tt)), (fun _ => Ret (Res 0 0 true)), (fun _ _ => True). split.
    - intros y y' r f _ _ _ _. apply prel_ret. exact Logic.I.
    - intros tr o F Q. destruct (H tr o F Q) as (o' & Q' & R). destruct o as [[z|res]|], o' as [r'|]; cbn in R; try contradiction; try discriminate R.
      + injection R as ->. exact Q'.
      + exact Q'.
  Qed.
  Lemma loop_shape {Y B : Type} (y0 : Y) (body : Y -> wprog (Y + B)) (after : B -> wprog result) (st : Z -> Y -> Prop) e T p :
    (forall y y' r f, args_ok r f -> r X = y -> 0 <= y < 2 ^ w -> st y y' -> prel w (again_or st after) (sprog w a nx nf T r f) (body y')) ->
    st (eval r0 f0 e) y0 -> p = Loop body y0 after -> shape (SBack e) T p r0 f0.
  Proof.
    intros H S ->. exists Y, B, body, after, st. split; [exact H|]. intros tr o F [-> [->| ->]].
    - apply path_nil.
    - intros _. exists y0. split; [exact S|]. intros tr' o' Q. exact Q.
  Qed.

  Lemma eq_w x : 0 <= x < 2 ^ w -> (wrap w x =? wrap w (q_e q)) = (x =? q_e q).
  Proof. intros H. pose proof (ranges AE). cbn [arg_value] in *. now rewrite !wrap_small. Qed.
  Lemma eq_halves n x y : 0 <= n -> 0 <= x < 2 ^ (n + n) -> 0 <= y < 2 ^ (n + n) ->
    (wrap n x =? wrap n y) && (wrap n (x / 2 ^ n) =? wrap n (y / 2 ^ n)) = (x =? y).
  Proof.
    intros N Hx Hy. rewrite Z.pow_add_r in Hx, Hy by assumption. pose proof (pow_pos n N) as P.
    rewrite (wrap_small n (x / 2 ^ n)), (wrap_small n (y / 2 ^ n)).
    - destruct (Z.eqb_spec x y) as [->|NE]; [now rewrite !Z.eqb_refl|]. apply andb_false_iff.
      destruct (Z.eqb_spec (wrap n x) (wrap n y)) as [E1|E1]; [right|now left]. apply Z.eqb_neq. intros E2. apply NE.
      rewrite (Z.div_mod x (2 ^ n)), (Z.div_mod y (2 ^ n)) by lia. unfold wrap in E1. congruence.
    - split; [apply Z.div_pos; lia|apply Z.div_lt_upper_bound; lia].
    - split; [apply Z.div_pos; lia|apply Z.div_lt_upper_bound; lia].
  Qed.
  Lemma t_eq_ok r f : args_ok r f -> 0 <= r nx < 2 ^ w -> ceval r f t_eq = (r nx =? q_e q).
  Proof.
    intros A R. destruct (args_here r f A) as (_ & EE & _). unfold t_eq. destruct pair64 eqn:P; autorewrite with ev; rewrite EE.
    - unfold pair64 in P. rewrite andb_true_iff in P. destruct P as [P _]. apply Z.eqb_eq in P. pose proof (ranges AE) as RE. cbn [arg_value] in RE.
      rewrite P in *. change (64 / 2) with 32. apply eq_halves; [lia|exact R|exact RE].
    - now apply eq_w.
  Qed.

  Ltac env := repeat first [apply args_setf; [|unfold nf; lia] | apply args_set; [|lia]]; try assumption.
  Ltac look := repeat first [rewrite set_same | rewrite set_other by lia].

  Lemma t_retry_ok c (new : bool) y y' r f : args_ok r f -> r X = y -> True ->
    prel w (again_or (fun _ _ => True) (fun x => Ret (Res (if new then 0 else x) (if new then x else updated b c (q_v q) x) true)))
      (sprog w a nx nf (t_retry c new) r f)
      ((fun _ : unit => bind (ll a) (fun x => let (x, tok) := x in bind (sc a tok (updated b c (q_v q) x))
         (fun ok => if ok : bool then Ret (inr (if new then updated b c (q_v q) x else x)) else Ret (inl tt)))) y').
  Proof.
    intros A _ _. unfold t_retry. cbn [sprog]. apply prel_do. intros [x t] F. cbn [bind fst snd] in *.
    assert (A1 : args_ok (set (set r nx x) (S nx) t) f) by env.
    rewrite (upd_ok _ _ c _ A1). autorewrite with ev. look.
    apply prel_do. intros ok _. cbn [bind] in *. look. destruct ok; [|apply prel_ret; exact Logic.I].
    assert (A2 : args_ok (set (set r nx x) (S nx) t) (set f nf true)) by env.
    apply prel_ret. cbn [again_or]. split; [reflexivity|]. right. rewrite (upd_ok _ _ c _ A2). autorewrite with ev. look.
    destruct new; autorewrite with ev; [reflexivity|]. look. reflexivity.
  Qed.

  Theorem llsc_shape k : shape (fst (llsc_tree k)) (snd (llsc_tree k)) (llsc_program b a q k) r0 f0.
  Proof.
    pose proof (args_here r0 f0 args0) as (EV_ & EE & ED & EI).
    assert (RETRY : forall c new, shape again (t_retry c new) (if new : bool then retry_new a (updated b c (q_v q)) else retry a (updated b c (q_v q))) r0 f0).
    { intros c new. refine (loop_shape tt _ _ (fun _ _ => True) zero _ _ (fun y y' r f A Xy _ _ => t_retry_ok c new y y' r f A Xy Logic.I) Logic.I _).
      destruct new; reflexivity. }
    destruct k as [| | | | | |c|c|c|c|c]; cbn [llsc_tree llsc_program fst snd found].
    - apply one_shape. apply prel_ret. reflexivity.
    - fold pair64. destruct pair64; apply one_shape; cbn [sprog].
      + apply prel_do. intros [x t] _. cbn [bind fst snd]. apply prel_ret. autorewrite with ev. look. reflexivity.
      + apply prel_do. intros x _. cbn [bind]. apply prel_ret. autorewrite with ev. look. reflexivity.
    - fold pair64. destruct pair64; [exact (RETRY Set_ false)|]. cbn [fst snd found]. apply one_shape. cbn [sprog]. rewrite EV_. apply prel_do. intros x _. apply prel_ret. reflexivity.
    - exact (RETRY Set_ false).
    - apply one_shape. unfold t_casw, ll_casw. cbn [sprog]. apply prel_do. intros [x t] F. cbn [bind fst snd]. cbn in F.
      assert (A1 : args_ok (set (set r0 nx x) (S nx) t) f0) by env.
      rewrite t_eq_ok; [|exact A1|look; exact F]. look.
      pose proof (args_here _ _ A1) as (_ & _ & ED1 & _). rewrite ED1. destruct (x =? q_e q).
      + apply prel_do. intros ok _. cbn [bind]. apply prel_ret. autorewrite with ev. look. reflexivity.
      + apply prel_ret. autorewrite with ev. look. reflexivity.
    - refine (loop_shape tt _ _ (fun _ _ => True) zero _ _ _ Logic.I _); [|unfold ll_cas, loop; cbn [bind]; reflexivity].
      intros y y' r f A Xy Ry _. unfold t_cas. cbn [sprog]. apply prel_do. intros [x t] F. cbn [bind fst snd]. cbn in F.
      assert (A1 : args_ok (set (set r nx x) (S nx) t) f) by env.
      rewrite t_eq_ok; [|exact A1|look; exact F]. look.
      pose proof (args_here _ _ A1) as (_ & _ & ED1 & _). rewrite ED1. destruct (x =? q_e q).
      + apply prel_do. intros ok _. cbn [bind]. look. destruct ok; apply prel_ret; cbn [again_or]; [|exact Logic.I].
        split; [reflexivity|]. right. autorewrite with ev. look. reflexivity.
      + apply prel_ret. cbn [again_or]. split; [reflexivity|]. right. autorewrite with ev. look. reflexivity.
    - exact (RETRY c false).
    - exact (RETRY c true).
    - exact (RETRY c true).
    - exact (RETRY c true).
    - apply one_shape. apply prel_ret. reflexivity.
  Qed.
  Lemma both_ok r f : 0 <= w / 2 -> 0 <= r nx < 2 ^ (w / 2) -> eval r f both_ = join w (r nx) (r (S (S nx))).
  Proof. intros W R. unfold both_, join. autorewrite with ev. now rewrite wrap_small. Qed.
  Lemma t_eq2_ok r f : args_ok r f -> 0 <= w / 2 -> 0 <= r nx < 2 ^ (w / 2) -> 0 <= r (S (S nx)) < 2 ^ (w / 2) -> w = w / 2 + w / 2 ->
    ceval r f t_eq2 = (r nx =? half w false (q_e q)) && (r (S (S nx)) =? half w true (q_e q)).
  Proof.
    intros A W R1 R2 WW. destruct (args_here r f A) as (_ & EE & _). unfold t_eq2, half. autorewrite with ev. rewrite EE, !(wrap_small _ (r _)) by assumption.
    reflexivity.
  Qed.

  Lemma t_pair_ok g fe (new : bool) y y' r f : w = 128 -> (forall r f x, args_ok r f -> eval r f (fe x) = g (eval r f x)) -> args_ok r f -> r X = y ->
    prel w (again_or (fun _ _ => True) (fun x => Ret (Res (if new then 0 else x) (if new then x else g x) true)))
      (sprog w a nx nf (t_pair fe new) r f)
      ((fun _ : unit => bind (ldxp a) (fun x => let (p, tok) := x in let (lo, hi) := p in bind (sc a tok (g (join w lo hi)))
         (fun ok => if ok : bool then Ret (inr (if new then g (join w lo hi) else join 128 lo hi)) else Ret (inl tt)))) y').
  Proof.
    intros W FE A _. unfold t_pair, ldxp. cbn [sprog]. rewrite <- W. apply prel_do. intros [lo t] F. cbn [bind fst snd] in *. cbn in F.
    apply prel_do. intros [hi t2] F2. cbn [bind fst snd] in *. cbn in F2.
    set (r1 := set (set (set (set r nx lo) (S nx) t) (S (S nx)) hi) (S (S (S nx))) t2).
    assert (A1 : args_ok r1 f) by (unfold r1; env).
    assert (L : r1 nx = lo) by (unfold r1; look; reflexivity). assert (H : r1 (S (S nx)) = hi) by (unfold r1; look; reflexivity).
    assert (T : r1 (S nx) = t) by (unfold r1; look; reflexivity).
    assert (B : forall f, eval r1 f both_ = join w lo hi).
    { intros f1. rewrite both_ok; [now rewrite L, H|rewrite W; easy|now rewrite L]. }
    rewrite (FE r1 f both_ A1), B, T. apply prel_do. intros ok _. cbn [bind] in *. look. destruct ok; [|apply prel_ret; exact Logic.I].
    apply prel_ret. cbn [again_or]. split; [reflexivity|]. right. rewrite (FE r1 _ both_) by env. rewrite B.
    destruct new; autorewrite with ev; [reflexivity|]. rewrite B. reflexivity.
  Qed.

  Theorem pair_shape k : w = 128 -> shape (fst (pair_tree k)) (snd (pair_tree k)) (pair_program b a q k) r0 f0.
  Proof.
    intros W. pose proof (args_here r0 f0 args0) as (EV_ & EE & ED & EI).
    assert (RETRY : forall g fe (new : bool), (forall r f x, args_ok r f -> eval r f (fe x) = g (eval r f x)) ->
      shape again (t_pair fe new) (if new : bool then pair_retry_new b a g else pair_retry b a g) r0 f0).
    { intros g fe new FE. refine (loop_shape tt _ _ (fun _ _ => True) zero _ _ (fun y y' r f A Xy _ _ => t_pair_ok g fe new y y' r f W FE A Xy) Logic.I _).
      destruct new; reflexivity. }
    assert (CMP : forall r f lo t hi t2, args_ok r f -> 0 <= lo < 2 ^ (w / 2) -> 0 <= hi < 2 ^ (w / 2) ->
      let r1 := set (set (set (set r nx lo) (S nx) t) (S (S nx)) hi) (S (S (S nx))) t2 in
      args_ok r1 f /\ r1 (S nx) = t /\ eval r1 f D = q_d q /\ (forall f, eval r1 f both_ = join w lo hi) /\
      ceval r1 f t_eq2 = (lo =? half w false (q_e q)) && (hi =? half w true (q_e q))).
    { intros r f lo t hi t2 A F1 F2 r1.
      assert (L : r1 nx = lo) by (unfold r1; look; reflexivity). assert (H : r1 (S (S nx)) = hi) by (unfold r1; look; reflexivity).
      assert (A1 : args_ok r1 f) by (unfold r1; env). split; [exact A1|]. split; [unfold r1; look; reflexivity|].
      split; [apply (args_here _ _ A1)|]. split.
      - intros f1. rewrite both_ok; [now rewrite L, H|rewrite W; easy|now rewrite L].
      - rewrite t_eq2_ok; [now rewrite L, H|exact A1|rewrite W; easy|now rewrite L|now rewrite H|rewrite W; reflexivity]. }
    destruct k as [| | | | | |c|c|c|c|c]; cbn [pair_tree pair_program fst snd found].
    - apply one_shape. apply prel_ret. reflexivity.
    - exact (RETRY (fun x => x) (fun x => x) false (fun _ _ _ _ => eq_refl)).
    - exact (RETRY _ _ false (fun r f x A => upd_ok r f Set_ x A)).
    - exact (RETRY _ _ false (fun r f x A => upd_ok r f Set_ x A)).
    - apply one_shape. unfold pair_casw, ldxp. cbn [sprog]. rewrite <- W. apply prel_do. intros [lo t] F. cbn [bind fst snd] in *. cbn in F.
      apply prel_do. intros [hi t2] F2. cbn [bind fst snd] in *. cbn in F2.
      destruct (CMP r0 f0 lo t hi t2 args0 F F2) as (A1 & T & ED1 & B & C). rewrite C. destruct ((lo =? _) && _).
      + rewrite T, ED1. apply prel_do. intros ok _. cbn [bind]. apply prel_ret. autorewrite with ev. rewrite B. look. reflexivity.
      + apply prel_ret. rewrite B. autorewrite with ev. reflexivity.
    - refine (loop_shape tt _ _ (fun _ _ => True) zero _ _ _ Logic.I _); [|unfold pair_cas, loop; cbn [bind]; reflexivity].
      intros y y' r f A Xy Ry _. unfold ldxp. cbn [sprog]. rewrite <- W. apply prel_do. intros [lo t] F. cbn [bind fst snd] in *. cbn in F.
      apply prel_do. intros [hi t2] F2. cbn [bind fst snd] in *. cbn in F2.
      destruct (CMP r f lo t hi t2 A F F2) as (A1 & T & ED1 & B & C). rewrite C. destruct ((lo =? _) && _).
      + rewrite T, ED1. apply prel_do. intros ok _. cbn [bind]. look. destruct ok; apply prel_ret; cbn [again_or]; [|exact Logic.I].
        split; [reflexivity|]. right. rewrite B. autorewrite with ev. reflexivity.
      + apply prel_ret. cbn [again_or]. split; [reflexivity|]. right. rewrite B. autorewrite with ev. reflexivity.
    - exact (RETRY _ _ false (fun r f x A => upd_ok r f c x A)).
    - exact (RETRY _ _ true (fun r f x A => upd_ok r f c x A)).
    - exact (RETRY _ _ true (fun r f x A => upd_ok r f c x A)).
    - exact (RETRY _ _ true (fun r f x A => upd_ok r f c x A)).
    - apply one_shape. apply prel_ret. reflexivity.
  Qed.

  Ltac one := apply one_shape; cbn [sprog fst snd found]; try apply prel_do; cbn [bind]; intros; try (apply prel_ret; autorewrite with ev; look; reflexivity).
  Theorem lse_shape k : shape (fst (lse_tree k)) (snd (lse_tree k)) (lse_program b a q k) r0 f0.
  Proof.
    pose proof (args_here r0 f0 args0) as (EV_ & EE & ED & EI).
    destruct k as [| | | | | |c|c|c|c|c]; cbn [lse_tree lse_program fst snd found];
      try (apply one_shape; apply prel_ret; reflexivity).
    - apply one_shape. cbn [sprog]. rewrite EV_. apply prel_do. intros x _. apply prel_ret. autorewrite with ev. look. reflexivity.
    - apply one_shape. cbn [sprog]. rewrite EE, ED. apply prel_do. intros [ok x] _. apply prel_ret. autorewrite with ev. look. reflexivity.
    - apply one_shape. cbn [sprog]. rewrite EE, ED. apply prel_do. intros [ok x] _. apply prel_ret. autorewrite with ev. look. reflexivity.
    - destruct c as [|[]|u]; cbn [fst snd found]; try (apply one_shape; apply prel_ret; reflexivity); apply one_shape; cbn [sprog]; autorewrite with ev; rewrite EV_;
        (apply prel_do; intros x _; apply prel_ret; autorewrite with ev; look; reflexivity).
  Qed.
  Theorem sparc_shape k : shape (fst (sparc_tree k)) (snd (sparc_tree k))
    (if match k with KFence => true | _ => false end then Ret (Res 0 0 true) else sparc_program a q k) r0 f0.
  Proof.
    pose proof (args_here r0 f0 args0) as (EV_ & EE & ED & EI).
    destruct k as [| | | | | |c|c|c|c|c]; cbn [sparc_tree sparc_program fst snd found];
      try (apply one_shape; apply prel_ret; reflexivity).
    - apply one_shape. cbn [sprog]. rewrite EV_. apply prel_do. intros x _. apply prel_ret. autorewrite with ev. look. reflexivity.
    - apply one_shape. cbn [sprog]. rewrite EE, ED. apply prel_do. intros [ok x] _. apply prel_ret. autorewrite with ev. look. reflexivity.
    - apply one_shape. cbn [sprog]. rewrite EE, ED. apply prel_do. intros [ok x] _. apply prel_ret. autorewrite with ev. look. reflexivity.
  Qed.

  Lemma rm_shape f e v : (forall r' f', agree nx nf r0 f0 r' f' -> eval r' f' e = v) ->
    shape (fst (rm f e)) (snd (rm f e)) (rmw_program b a (Bin f v)) r0 f0.
  Proof.
    intros H. unfold rm. cbn [fst snd found]. apply one_shape. cbn [sprog]. rewrite (H r0 f0) by (split; auto). apply prel_do. intros x _. cbn [bind]. apply prel_ret. autorewrite with ev. look.
    rewrite (H (set r0 nx x) f0); [reflexivity|]. split; [|auto]. intros i L. look. reflexivity.
  Qed.
  Lemma cas_loop_shape c : shape (SBack I)
      (SAct (XCs (EV X) (upd c (EV X))) (SIf (CV nf) (SRet (EV nx) (upd c (EV nx)) CT) (SBack (EV nx))))
      (bind (cas_loop cas a (updated b c (q_v q)) (q_i q)) (fun x => Ret (Res x (updated b c (q_v q) x) true))) r0 f0.
  Proof.
    pose proof (args_here r0 f0 args0) as (EV_ & EE & ED & EI).
    refine (loop_shape (q_i q) _ _ (fun y y' => y = y') I _ _ _ EI _); [|unfold cas_loop, loop; cbn [bind]; reflexivity].
    intros y y' r f A Xy Ry <-. cbn [sprog]. rewrite (upd_ok r f c _ A). autorewrite with ev. rewrite Xy. apply prel_do. intros [ok x] F. cbn [bind fst snd] in *. look.
    assert (A1 : args_ok (set r nx x) (set f nf ok)) by env.
    destruct ok; apply prel_ret; cbn [again_or]; [|autorewrite with ev; look; reflexivity].
    split; [reflexivity|]. right. rewrite (upd_ok _ _ c _ A1). autorewrite with ev. look. reflexivity.
  Qed.
  Lemma cas_loop_new_shape c : shape (SBack I)
      (SAct (XCs (EV X) (upd c (EV X))) (SIf (CV nf) (SRet zero (upd c (EV X)) CT) (SBack (EV nx))))
      (bind (cas_loop_new cas a (updated b c (q_v q)) (q_i q)) (fun y => Ret (Res 0 y true))) r0 f0.
  Proof.
    pose proof (args_here r0 f0 args0) as (EV_ & EE & ED & EI).
    refine (loop_shape (q_i q) _ _ (fun y y' => y = y') I _ _ _ EI _); [|unfold cas_loop_new, loop; cbn [bind]; reflexivity].
    intros y y' r f A Xy Ry <-. cbn [sprog]. rewrite (upd_ok r f c _ A). autorewrite with ev. rewrite Xy. apply prel_do. intros [ok x] F. cbn [bind fst snd] in *. look.
    assert (A1 : args_ok (set r nx x) (set f nf ok)) by env.
    destruct ok; apply prel_ret; cbn [again_or]; [|autorewrite with ev; look; reflexivity].
    split; [reflexivity|]. right. rewrite (upd_ok _ _ c _ A1). autorewrite with ev. look. rewrite Xy. reflexivity.
  Qed.
  Lemma swap_shape : shape (fst t_swap) (snd t_swap) (bind (dcas_swap w a (q_v q)) (fun x => Ret (Res x 0 true))) r0 f0.
  Proof.
    unfold t_swap, dcas_swap. cbn [fst snd].
    exists Z, Z, (fun old => bind (cas a old (q_v q)) (fun x => let (ok, e) := x in if ok : bool then Ret (inr e) else Ret (inl e))), (fun x => Ret (Res x 0 true)), (fun y y' => y = y').
    split.
    - intros y y' r f A Xy Ry <-. pose proof (args_here r f A) as (EV_ & _). cbn [sprog]. rewrite EV_. autorewrite with ev. rewrite Xy. apply prel_do. intros [ok x] F. cbn [bind fst snd] in *. look.
      destruct ok; apply prel_ret; cbn [again_or]; [|autorewrite with ev; look; reflexivity]. split; [reflexivity|]. right. autorewrite with ev. look. reflexivity.
    - cbn [sprog]. intros tr o F [[-> ->]|(lo & tr' & -> & [[-> ->]|(hi & tr'' & -> & Q)])].
      + left. auto.
      + right. exists lo, []. split; [reflexivity|]. left. auto.
      + destruct Q as [-> [->| ->]].
        * right. exists lo, [existT wresp (AHalf a w true) hi]. split; [reflexivity|]. right. exists hi, []. split; [reflexivity|]. apply path_nil.
        * intros R. eexists. split; [reflexivity|]. intros tr' o' Q. right. exists lo, (existT wresp (AHalf a w true) hi :: tr'). split; [reflexivity|].
          right. exists hi, tr'. split; [reflexivity|]. inversion F as [|d l F1 F2]; subst. cbn in F1.
          autorewrite with ev in Q. unfold set in Q. rewrite !Nat.eqb_refl in Q. destruct (Nat.eqb_spec nx (S nx)) as [C|_]; [lia|].
          rewrite wrap_small in Q by exact F1. exact Q.
  Qed.
  Theorem x86_shape k : shape (fst (x86_tree k)) (snd (x86_tree k)) (x86_program b a q k) r0 f0.
  Proof.
    pose proof (args_here r0 f0 args0) as (EV_ & EE & ED & EI).
    assert (VB : forall r' f', agree nx nf r0 f0 r' f' -> eval r' f' V = q_v q) by (intros r' f' G; apply (args0 r' f' G)).
    assert (RM : forall c, shape (fst (rm_tree c)) (snd (rm_tree c)) (rmw_program b a (effect_of q c)) r0 f0).
    { intros [|f|u]; [now apply rm_shape|now apply rm_shape|]. cbn [rm_tree fst snd found]. apply one_shape. cbn [sprog]. apply prel_do. intros x _. cbn [bind]. apply prel_ret. autorewrite with ev. look. reflexivity. }
    destruct k as [| | | | | |c|c|c|c|c]; cbn [x86_tree x86_program fst snd found]; try rewrite <- dc_ok.
    - apply one_shape. apply prel_ret. reflexivity.
    - destruct dc; cbn [fst snd found]; apply one_shape; cbn [sprog].
      + rewrite EI. apply prel_do. intros [ok x] _. apply prel_ret. autorewrite with ev. look. reflexivity.
      + apply prel_do. intros x _. apply prel_ret. autorewrite with ev. look. reflexivity.
    - destruct dc; [exact swap_shape|]. cbn [fst snd found]. apply one_shape. cbn [sprog]. rewrite EV_. apply prel_do. intros x _. apply prel_ret. reflexivity.
    - destruct dc; [exact swap_shape|]. cbn [fst snd found]. apply one_shape. cbn [sprog]. rewrite EV_. apply prel_do. intros x _. apply prel_ret. autorewrite with ev. look. reflexivity.
    - apply one_shape. cbn [sprog]. rewrite EE, ED. apply prel_do. intros [ok x] _. apply prel_ret. autorewrite with ev. look. reflexivity.
    - apply one_shape. cbn [sprog]. rewrite EE, ED. apply prel_do. intros [ok x] _. apply prel_ret. autorewrite with ev. look. reflexivity.
    - destruct c as [|[]|u]; first [apply rm_shape; exact VB | apply cas_loop_shape].
    - apply cas_loop_new_shape.
    - apply RM.
    - apply RM.
    - destruct c; apply rm_shape; intros r' f' G; autorewrite with ev; now rewrite (VB r' f' G).
  Qed.
  Theorem tree_ok k : shape (fst (tree k)) (snd (tree k)) (program b a q k) r0 f0.
  Proof.
    unfold tree, program. destruct (b_arch b); try apply llsc_shape.
    - destruct (Z.eqb_spec w 128) as [W|_]; [now apply pair_shape|]. rewrite <- ls_ok; destruct ls; [apply lse_shape|apply llsc_shape].
    - apply sparc_shape.
    - apply x86_shape.
  Qed.
End Trees.

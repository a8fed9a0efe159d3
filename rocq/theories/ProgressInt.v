(** * Every integer operation completes when left alone. *)
From Coq Require Import ZArith List Bool Lia.
From Verif Require Import SpecInt SpecLin SpecAlone Order Conv Prog Word CoreModel ExtraModel IntModel Progress.
Import ListNotations.
Open Scope Z_scope.
Open Scope prog_scope.

Opaque ob ev after.

Lemma put_same m a v : put m a v a = mkcell v (ver (m a) + 1).
Proof. unfold put. now rewrite Nat.eqb_refl. Qed.

Lemma ob_act {R} a ac (k : wresp ac -> R) : ob a 1 (Do ac (fun x => Ret (k x))).
Proof. apply ob_do. intros x. apply ob_ret. Qed.

Ltac obs := repeat first
  [ progress (cbn [bind do])
  | apply ob_ret
  | apply ob_do; intro
  | match goal with |- ob _ _ (match ?x with _ => _ end) => destruct x end
  | match goal with |- ob _ _ (if ?x then _ else _) => destruct x end ].

(** a compare-exchange that, left alone, fails only by reporting a different value it has found *)
Definition casw_fin (a : addr) (cn : nat) (casw : addr -> Z -> Z -> wprog (bool * Z)) : Prop :=
  (forall e d, ob a cn (casw a e d)) /\
  (forall c e d, ev a cn c (casw a e d) (fun r c' => fst r = true \/ (val c <> e /\ snd r = val c'))).

Ltac ev1 := apply ev_do; [|intros; apply exec_total];
  let t := fresh "t" in let w := fresh "w" in let m := fresh "m" in let m' := fresh "m'" in let x := fresh "x" in
  let Hm := fresh "Hm" in let Hw := fresh "Hw" in let E := fresh "E" in
  intros t w m m' x Hm Hw E; cbn [wexec] in E; rewrite ?Hm, ?Hw, ?andb_true_r in E.

Lemma cas_fin a : casw_fin a 1 (fun a e d => cas a e d).
Proof.
  split; intros; [unfold cas; obs|]. unfold cas. ev1.
  destruct (Z.eqb_spec (val c) e) as [->|Hne]; inversion E; subst; apply ev_ret; simpl; auto.
Qed.

Lemma weak_fin a : casw_fin a 1 (fun a e d => casw a e d).
Proof.
  split; intros; [unfold casw; obs|]. unfold casw. ev1.
  destruct (Z.eqb_spec (val c) e) as [->|Hne]; inversion E; subst; apply ev_ret; simpl; auto.
Qed.

Lemma sync_fin a : casw_fin a 1 sync_cas.
Proof.
  split; intros; [unfold sync_cas, cas; obs|]. unfold sync_cas, cas. cbn [bind do]. ev1.
  destruct (Z.eqb_spec (val c) e) as [Heq|Hne]; injection E as <- <-; cbn [bind];
    destruct (Z.eqb_spec (val c) e); try congruence; apply ev_ret; simpl; rewrite ?Hm; auto.
Qed.

Lemma sparc_fin a : casw_fin a 1 sparc_cas.
Proof.
  split; intros; [unfold sparc_cas, cas; obs|]. unfold sparc_cas, cas. cbn [bind do]. ev1.
  destruct (Z.eqb_spec (val c) e) as [Heq|Hne]; injection E as <- <-; cbn [bind];
    destruct (Z.eqb_spec (val c) e); try congruence; apply ev_ret; simpl; rewrite ?Hm; auto.
Qed.

Lemma karm_fin a : casw_fin a 2 karm_casw.
Proof.
  split; intros.
  - unfold karm_casw, kcas, ld. cbn [bind do]. apply ob_do. intros b. destruct b; [apply ob_ret | apply ob_act].
  - unfold karm_casw, kcas, ld. cbn [bind do]. ev1.
    destruct (Z.eqb_spec (val c) e) as [Heq|Hne]; inversion E; subst; [apply ev_ret; simpl; auto|].
    ev1. inversion E0; subst. apply ev_ret. simpl. right. split; congruence.
Qed.

Lemma ll_fin a : casw_fin a 2 ll_casw.
Proof.
  split; intros.
  - unfold ll_casw, ll, sc. cbn [bind do]. apply ob_do. intros [x tok]. destruct (x =? e); [apply ob_act | apply ob_ret].
  - unfold ll_casw, ll, sc. cbn [bind do]. ev1. inversion E; subst.
    destruct (Z.eqb_spec (val (m' a)) e) as [Heq|Hne]; [|apply ev_ret; simpl; auto].
    ev1. rewrite Z.eqb_refl in E0. inversion E0; subst. apply ev_ret. simpl; auto.
Qed.

(** ** Loops *)
Lemma cas_loop_fin a cn casw f i : casw_fin a cn casw -> ob a (3 * (cn + 1) + 0) (cas_loop casw a f i).
Proof.
  intros [H1 H2]. unfold cas_loop, loop.
  assert (HB : forall s, ob a cn ('(b, e) <- casw a s (f s) ;; if b then Ret (inr e) else Ret (inl e) : wprog (Z + Z))).
  { intros s. rewrite <- (Nat.add_0_r cn). apply ob_bind; auto. intros [[] e]; apply ob_ret. }
  apply (ob_loop a _ _ cn 0 (fun s c => s = val c)); auto.
  - intros s c. rewrite <- (Nat.add_0_r cn). eapply ev_bind; [apply H2|].
    intros [[] e] c' H; apply ev_ret; simpl in *; auto. destruct H as [H|[_ H]]; [discriminate | exact H].
  - intros s c ->. rewrite <- (Nat.add_0_r cn). eapply ev_bind; [apply H2|].
    intros [[] e] c' H; apply ev_ret; simpl in *; auto. destruct H as [H|[H _]]; [discriminate | congruence].
  - intros b. apply ob_ret.
Qed.

Lemma cas_loop_new_fin a cn casw f i : casw_fin a cn casw -> ob a (3 * (cn + 1) + 0) (cas_loop_new casw a f i).
Proof.
  intros [H1 H2]. unfold cas_loop_new, loop. cbv zeta.
  assert (HB : forall s, ob a cn ('(b, e) <- casw a s (f s) ;; if b then Ret (inr (f s)) else Ret (inl e) : wprog (Z + Z))).
  { intros s. rewrite <- (Nat.add_0_r cn). apply ob_bind; auto. intros [[] e]; apply ob_ret. }
  apply (ob_loop a _ _ cn 0 (fun s c => s = val c)); auto.
  - intros s c. rewrite <- (Nat.add_0_r cn). eapply ev_bind; [apply H2|].
    intros [[] e] c' H; apply ev_ret; simpl in *; auto. destruct H as [H|[_ H]]; [discriminate | exact H].
  - intros s c ->. rewrite <- (Nat.add_0_r cn). eapply ev_bind; [apply H2|].
    intros [[] e] c' H; apply ev_ret; simpl in *; auto. destruct H as [H|[H _]]; [discriminate | congruence].
  - intros b. apply ob_ret.
Qed.

(** loops whose every undisturbed iteration leaves the loop *)
Lemma once_fin {X B} a (body : X -> wprog (X + B)) bn s :
  (forall s, ob a bn (body s)) ->
  (forall s c, ev a bn c (body s) (fun y _ => match y with inr _ => True | inl _ => False end)) ->
  ob a (3 * (bn + 1) + 0) (loop s body).
Proof.
  intros H1 H2. apply (ob_loop a body _ bn 0 (fun _ _ => True)); auto.
  - intros s' c. eapply ev_mono; [apply H2 | lia | intros [] ?; auto].
  - intros b. apply ob_ret.
Qed.

Lemma ll_loop_fin a f : ob a 9 (ll_loop a f).
Proof.
  apply (once_fin a _ 2 tt).
  - intros _. unfold ll, sc. cbn [bind do]. apply ob_do. intros [x tok]. apply ob_do. intros [|]; apply ob_ret.
  - intros _ c. unfold ll, sc. cbn [bind do]. ev1. inversion E; subst. ev1. rewrite Z.eqb_refl in E0. inversion E0; subst.
    apply ev_ret. exact I.
Qed.

Lemma ll_loop_new_fin a f : ob a 9 (ll_loop_new a f).
Proof.
  apply (once_fin a _ 2 tt).
  - intros _. unfold ll, sc. cbn [bind do]. apply ob_do. intros [x tok]. apply ob_do. intros [|]; apply ob_ret.
  - intros _ c. unfold ll, sc. cbn [bind do]. ev1. inversion E; subst. ev1. rewrite Z.eqb_refl in E0. inversion E0; subst.
    apply ev_ret. exact I.
Qed.

Lemma ll_cas_fin a e d : ob a 9 (ll_cas a e d).
Proof.
  apply (once_fin a _ 2 tt).
  - intros _. unfold ll, sc. cbn [bind do]. apply ob_do. intros [x tok].
    destruct (x =? e); [|apply ob_ret]. apply ob_do. intros [|]; apply ob_ret.
  - intros _ c. unfold ll, sc. cbn [bind do]. ev1. inversion E; subst.
    destruct (val (m' a) =? e); [|now apply ev_ret].
    ev1. rewrite Z.eqb_refl in E0. inversion E0; subst. apply ev_ret. exact I.
Qed.

Lemma karm_cas_fin a e d : ob a 9 (karm_cas a e d).
Proof.
  apply (once_fin a _ 2 tt).
  - intros _. change 2%nat with (2 + 0)%nat. apply ob_bind; [apply karm_fin|].
    intros [[] x]; [apply ob_ret|]. destruct (x =? e); apply ob_ret.
  - intros _ c. unfold karm_casw, kcas, ld. cbn [bind do]. ev1.
    destruct (Z.eqb_spec (val c) e) as [Heq|Hne]; inversion E; subst; [now apply ev_ret|].
    cbn [bind]. ev1. inversion E0; subst. cbn [bind].
    destruct (Z.eqb_spec (val (m' a)) e); [congruence | now apply ev_ret].
Qed.

(** ** Core operations *)
Record core_fin (c : core) (a : addr) : Prop := {
  cf_load : forall o, ob a 12 (c_load c o a);
  cf_store : forall o v, ob a 12 (c_store c o a v);
  cf_xchg : forall v, ob a 12 (c_exchange c a v);
  cf_cas : forall e d, ob a 12 (c_cas c a e d);
  cf_casw : exists cn, (cn <= 2)%nat /\ casw_fin a cn (c_casw c);
  cf_fetch : forall b v, ob a 12 (c_fetch c b a v)
}.

Lemma ob_do' {R} a ac (k : wresp ac -> wprog R) n m : (forall x, ob a n (k x)) -> (S n <= m)%nat -> ob a m (Do ac k).
Proof. intros H Hm. eapply ob_mono; [apply ob_do; exact H | exact Hm]. Qed.

(** a single action and a pure continuation *)
Ltac one := eapply ob_do' with (n := 0%nat); [|lia]; let x := fresh "x" in intros x; first [apply ob_ret | destruct x; apply ob_ret | destruct x as [? ?]; match goal with |- context [if ?b then _ else _] => destruct b end; apply ob_ret].

Lemma loop1 a cn casw f i : casw_fin a cn casw -> (cn <= 2)%nat -> ob a 9 (cas_loop casw a f i).
Proof. intros H Hc. eapply ob_mono; [apply cas_loop_fin; exact H | lia]. Qed.
Lemma loop1n a cn casw f i : casw_fin a cn casw -> (cn <= 2)%nat -> ob a 9 (cas_loop_new casw a f i).
Proof. intros H Hc. eapply ob_mono; [apply cas_loop_new_fin; exact H | lia]. Qed.

Lemma racy_then {R} a w (f : Z -> wprog R) : (forall i, ob a 9 (f i)) -> ob a 12 (i <- racy a w ;; f i).
Proof. intros H. unfold racy. cbn [bind do]. eapply ob_do' with (n := 9%nat); [exact H | lia]. Qed.
Lemma ld_then {R} a (f : Z -> wprog R) : (forall i, ob a 9 (f i)) -> ob a 12 (i <- ld a ;; f i).
Proof. intros H. unfold ld. cbn [bind do]. eapply ob_do' with (n := 9%nat); [exact H | lia]. Qed.
Lemma dcas_swap_fin w a v : ob a 12 (dcas_swap w a v).
Proof.
  unfold dcas_swap, ldhalf. cbn [bind do]. eapply ob_do' with (n := 10%nat); [|lia]. intros lo.
  eapply ob_do' with (n := 9%nat); [|lia]. intros hi. apply (loop1 a 1); [apply cas_fin | lia].
Qed.
Lemma then_ret {R R'} a n (p : wprog R) (g : R -> wprog R') : ob a n p -> (forall r n', ob a n' (g r)) -> ob a n (bind p g).
Proof. intros H Hg. rewrite <- (Nat.add_0_r n). apply ob_bind; auto. Qed.

Lemma nine {R} a (p : wprog R) : ob a 9 p -> ob a 12 p.
Proof. intros H. eapply ob_mono; [exact H | lia]. Qed.

Lemma ms_bitop_fin intr w b a v : ob a 12 (ms_bitop intr w b a v).
Proof. unfold ms_bitop. destruct intr; [unfold rmw; one|]. apply ld_then. intros i. apply (loop1 a 1); [apply sparc_fin | lia]. Qed.

Lemma cas_based_fin c a :
  (forall o, ob a 12 (c_load c o a)) -> (forall o v, ob a 12 (c_store c o a v)) ->
  (forall v, ob a 12 (c_exchange c a v)) -> (forall e d, ob a 12 (c_cas c a e d)) ->
  (exists cn, (cn <= 2)%nat /\ casw_fin a cn (c_casw c)) -> core_fin (cas_based c) a.
Proof.
  intros H1 H2 H3 H4 (cn & Hc & H5). constructor; cbn -[bind]; auto; [exists cn; auto|].
  intros b v. apply racy_then. intros i. apply (loop1 a cn); auto.
Qed.

Lemma x86_loop_fin w b a v : ob a 12 (x86_loop w b a v).
Proof. apply ld_then. intros i. apply (loop1 a 1); [apply cas_fin | lia]. Qed.

Lemma racy_cas_load w a : ob a 12 (g <- racy a w ;; '(_, old) <- cas a g g ;; Ret old).
Proof. unfold racy, cas. cbn [bind do]. eapply ob_do' with (n := 1%nat); [|lia]. intros g. one. Qed.

Ltac fin1 := first
  [ solve [unfold ld, st, xchg, cas, casw, rmw, ll; cbn [bind do]; one]
  | solve [apply nine; first [apply ll_loop_fin | apply ll_cas_fin | apply karm_cas_fin]]
  | solve [apply x86_loop_fin | apply ms_bitop_fin | apply dcas_swap_fin | apply racy_cas_load]
  | solve [eapply ob_mono; [first [apply sync_fin | apply sparc_fin] | lia]]
  | solve [exists 1%nat; (split; [lia|]); first [apply weak_fin | apply sync_fin | apply cas_fin | apply sparc_fin]]
  | solve [exists 2%nat; (split; [lia|]); first [apply karm_fin | apply ll_fin]]
  | solve [apply racy_then; intros; first [apply (loop1 _ 1); [first [apply cas_fin | apply sparc_fin] | lia]
                                          | apply (loop1 _ 2); [apply karm_fin | lia]]]
  | solve [apply racy_then; intros; apply then_ret; [apply (loop1 _ 1); [apply cas_fin | lia] | intros; apply ob_ret]]
  | solve [apply then_ret; [first [apply dcas_swap_fin | apply nine, ll_loop_fin] | intros; apply ob_ret]] ].
Ltac fins := first [fin1 | match goal with |- ob _ _ (if ?b then _ else _) => destruct b; fin1
                                         | |- ob _ _ (match ?b with Add => _ | _ => _ end) => destruct b; fin1
                                         | |- ob _ _ ((if ?b then _ else _) _ _) => destruct b; fin1 end].
Ltac fields := cbn [c_bits c_full_cas c_load c_store c_exchange c_cas c_casw c_fetch].

Lemma base_core_fin k w a : core_fin (base_core k w) a.
Proof.
  destruct k; cbn [base_core];
    [unfold gcc_atomic | unfold gcc_sync | unfold x86 | unfold dcas_x86, dcas_x86_base | unfold linux_arm | unfold sparc
    | unfold llsc_native, llsc | unfold llsc_dword, llsc_native, llsc | unfold aarch64_lse | unfold windows | unfold msvc_x86 | unfold msvc_dcas_x86_64
    | unfold msvc_arm];
    first [apply cas_based_fin | constructor]; fields; intros; fins.
Qed.

Lemma obj_core_fin ob_ a : core_fin (obj_core ob_) a.
Proof.
  unfold obj_core. destruct (o_vw ob_ =? o_w ob_); [apply base_core_fin|].
  assert (HX : core_fin (extending (o_sg ob_) (o_vw ob_) (base_core (o_core ob_) (o_w ob_))) a).
  { destruct (base_core_fin (o_core ob_) (o_w ob_) a) as [H1 H2 H3 H4 (cn & Hc & H5) H6].
    constructor; cbn -[bind]; auto; [exists cn; auto|].
    intros b v. destruct b; auto; apply racy_then; intros i; apply (loop1 a cn); auto. }
  destruct (o_core ob_); auto.
  unfold llsc_narrow, llsc. constructor; fields; intros; fins.
Qed.

(** ** Extra operations *)
Record extra_fin (x : extra) (a : addr) : Prop := {
  ef_fetch_un : forall u, ob a 12 (x_fetch_un x u a);
  ef_bin : forall b v, ob a 12 (x_bin x b a v);
  ef_un : forall u, ob a 12 (x_un x u a);
  ef_obin : forall b v, ob a 12 (x_opaque_bin x b a v);
  ef_oun : forall u, ob a 12 (x_opaque_un x u a);
  ef_tbin : forall b v, ob a 12 (x_test_bin x b a v);
  ef_tun : forall u, ob a 12 (x_test_un x u a);
  ef_bit : forall k i, ob a 12 (x_bit x k a i)
}.

Ltac xfields := cbn [x_fetch_un x_bin x_un x_opaque_bin x_opaque_un x_test_bin x_test_un x_bit].
Ltac thn H := apply then_ret; [apply H | intros; apply ob_ret].

Lemma extra_generic_fin sg es c a : core_fin c a -> extra_fin (extra_generic sg es c) a.
Proof.
  intros [H1 H2 H3 H4 (cn & Hc & H5) H6].
  assert (HL : forall (f : Z -> Z) w, ob a 12 (i <- racy a w ;; cas_loop (c_casw c) a f i))
    by (intros; apply racy_then; intros i; apply (loop1 a cn); auto).
  assert (HN : forall (f : Z -> Z) w, ob a 12 (i <- racy a w ;; cas_loop_new (c_casw c) a f i))
    by (intros; apply racy_then; intros i; apply (loop1n a cn); auto).
  assert (HU : forall u, ob a 12 (gen_fetch_un sg es c u a)) by (intros []; [apply HL | apply H6]).
  assert (HB : forall b v, ob a 12 ((if c_full_cas c then gen_cas_bin sg es c else gen_bin c) b a v)).
  { intros b v. destruct (c_full_cas c); [apply HN | thn H6]. }
  assert (HR : forall u, ob a 12 (x_un (extra_generic sg es c) u a)).
  { intros [|]; cbn -[bind]; [apply HN|]. destruct (c_full_cas c); [apply HN | thn H6]. }
  unfold extra_generic. cbv zeta. constructor; xfields; intros; auto.
  - exact (HR u).
  - thn H6.
  - thn HU.
  - unfold gen_test_bin. thn HB.
  - unfold gen_test_un. thn HR.
  - unfold gen_bit. cbv zeta. destruct k; thn H6.
Qed.

Lemma extra_x86_fin sg c a : core_fin c a -> extra_fin (extra_x86 sg c) a.
Proof.
  intros H. destruct (extra_generic_fin sg (c_bits c) c a H) as [G1 G2 G3 G4 G5 G6 G7 G8].
  assert (HL : forall f, ob a 12 (x86_xloop a f)) by (intros; apply ld_then; intros i; apply (loop1 a 1); [apply cas_fin | lia]).
  assert (HN : forall f, ob a 12 (x86_xloop_new a f)) by (intros; apply ld_then; intros i; apply (loop1n a 1); [apply cas_fin | lia]).
  unfold extra_x86. cbv zeta. constructor; xfields; intros; auto.
  - destruct b; auto; apply (G2 _ v).
  - unfold rmw. cbn [bind do]. one.
  - unfold rmw. cbn [bind do]. one.
  - unfold rmw. cbn [bind do]. one.
  - thn HN.
  - destruct (c_bits c =? 8); [apply G8|]. unfold rmw. cbn [bind do]. one.
Qed.

Lemma extra_llsc_fin ro lse sg c a : core_fin c a -> extra_fin (extra_llsc ro lse sg c) a.
Proof.
  intros H. destruct (extra_generic_fin sg (c_bits c) c a H) as [G1 G2 G3 G4 G5 G6 G7 G8].
  assert (HL : forall f, ob a 12 (ll_loop a f)) by (intros; apply nine, ll_loop_fin).
  assert (HN : forall f, ob a 12 (ll_loop_new a f)) by (intros; apply nine, ll_loop_new_fin).
  assert (HF : forall u, ob a 12 (x_fetch_un (extra_llsc ro lse sg c) u a)).
  { intros []; [apply HL|]. cbn -[bind]. destruct lse; [apply (G1 Not) | apply HL]. }
  assert (HU : forall u, ob a 12 (x_un (extra_llsc ro lse sg c) u a)).
  { intros []; [apply HN|]. cbn -[bind extra_generic]. destruct lse; [apply (G3 Not) | apply HN]. }
  assert (HB : forall b v, ob a 12 (x_bin (extra_llsc ro lse sg c) b a v)).
  { intros b v. cbn -[bind extra_generic]. destruct lse; [apply (G2 b v) | apply HN]. }
  constructor; intros.
  - apply HF.
  - apply HB.
  - apply HU.
  - cbn -[bind extra_generic]. destruct ro; [thn (HB b v) | apply G4].
  - cbn -[bind extra_generic]. destruct ro; [thn (HU u) | thn (HF u)].
  - thn (HB b v).
  - thn (HU u).
  - apply G8.
Qed.

Lemma obj_extra_fin ob_ a : extra_fin (obj_extra ob_) a.
Proof.
  unfold obj_extra. destruct (o_extra ob_);
    [apply extra_generic_fin | apply extra_x86_fin | apply extra_llsc_fin]; apply obj_core_fin.
Qed.

Theorem int_prog_fin ob_ mo a o : ob a 12 (int_prog ob_ mo a o).
Proof.
  destruct (obj_core_fin ob_ a) as [H1 H2 H3 H4 (cn & Hc & H5 & _) H6].
  destruct (obj_extra_fin ob_ a) as [G1 G2 G3 G4 G5 G6 G7 G8].
  unfold int_prog, int_front, front. cbv zeta.
  destruct o as [v| |v|e d|e d|f e|k i].
  - thn H2.
  - thn H1.
  - thn H3.
  - apply then_ret; [apply H4 | intros [] ?; apply ob_ret].
  - apply then_ret; [eapply ob_mono; [apply H5 | lia] | intros [] ?; apply ob_ret].
  - destruct f, e; first [thn H6 | thn G1 | thn G2 | thn G3 | thn G4 | thn G5 | thn G6 | thn G7].
  - thn G8.
Qed.

(** ** From programs to schedules *)
Transparent ob ev after.
Section Sched.
  Context {op ret : Type}.
  Variable impl : op -> wprog ret.
  Notation config := (config wact wresp wmem op ret).

  Lemma after_app {R} ms ms' (p : wprog R) : after (ms ++ ms') p = after ms' (after ms p).
  Proof. revert p. induction ms as [|[[t w] m] ms IH]; simpl; auto. Qed.

  Definition reached (c : config) : Prop :=
    forall t o p, c_thr c t = Run o p -> exists ms, p = after ms (impl o).

  Lemma cstep_reached c e : reached c -> reached (fst (cstep wexec impl c e)).
  Proof.
    intros H t o p. destruct e as [u x|u w|u]; simpl.
    - destruct (c_thr c u) eqn:E; simpl; [|apply H]. unfold tset. destruct (Nat.eqb_spec t u); [|apply H].
      intros Eq. inversion Eq; subst. exists []. reflexivity.
    - destruct (c_thr c u) as [|o' p'] eqn:E; simpl; [apply H|].
      destruct (pstep wexec u w (c_mem c) p') as [m' q] eqn:Ep. simpl. unfold tset. destruct (Nat.eqb_spec t u); [|apply H].
      intros Eq. inversion Eq; subst. destruct (H _ _ _ E) as [ms ->].
      exists (ms ++ [(u, w, c_mem c)]). rewrite after_app. simpl. now rewrite Ep.
    - destruct (c_thr c u) as [|o' [| |]] eqn:E; simpl; try apply H.
      unfold tset. destruct (Nat.eqb_spec t u); [discriminate | apply H].
  Qed.

  Lemma run_reached l : forall c, reached c -> reached (fst (run wexec impl c l)).
  Proof.
    induction l as [|e l IH]; intros c H; simpl; auto.
    assert (H1 := cstep_reached c e H). destruct (cstep wexec impl c e) as [c1 h1]. simpl in H1.
    specialize (IH c1 H1). destruct (run wexec impl c1 l). exact IH.
  Qed.

  Lemma ev_sched t a o l : forall (c : config) n p,
    c_thr c t = Run o p -> ev a n (c_mem c a) p (fun _ _ => True) ->
    alone impl t a c l -> (n <= steps_by t l)%nat ->
    exists r, c_thr (fst (run wexec impl c l)) t = Run o (Ret r).
  Proof.
    induction l as [|e l IH]; intros c n p Hp He Hal Hn.
    - unfold steps_by in Hn. simpl in Hn. destruct n; [|lia]. destruct p; simpl in He; try contradiction. simpl. eauto.
    - destruct Hal as [Ha Hal]. simpl.
      destruct (cstep wexec impl c e) as [c1 h1] eqn:E1. simpl in Ha, Hal.
      assert (G : exists n' p', c_thr c1 t = Run o p' /\ ev a n' (c_mem c1 a) p' (fun _ _ => True) /\ (n' <= steps_by t l)%nat).
      { destruct e as [u x|u w|u]; simpl in E1.
        - exists n, p. unfold steps_by in *; simpl in Hn. destruct (c_thr c u) eqn:Eu; inversion E1; subst; auto.
          simpl. unfold tset. destruct (Nat.eqb_spec t u); [congruence | auto].
        - destruct (Nat.eqb_spec u t) as [->|Hne].
          + rewrite Hp in E1. destruct (pstep wexec t w (c_mem c) p) as [m' q] eqn:Ep. inversion E1; subst. simpl.
            unfold steps_by in *; simpl in Hn. rewrite Nat.eqb_refl in Hn. simpl in Hn.
            exists (pred n), q. split; [unfold tset; now rewrite Nat.eqb_refl|]. split; [|lia].
            destruct n as [|n]; [destruct p; simpl in He; try contradiction; simpl in Ep; inversion Ep; subst; exact I|].
            destruct p.
            * simpl in Ep. inversion Ep; subst. apply ev_ret. exact I.
            * specialize (He t w (c_mem c) eq_refl Ha). rewrite Ep in He. exact He.
            * specialize (He t w (c_mem c) eq_refl Ha). rewrite Ep in He. exact He.
          + exists n, p. unfold steps_by in *; simpl in Hn. destruct (Nat.eqb_spec u t); [congruence|].
            destruct (c_thr c u) as [|o' p'] eqn:Eu; [inversion E1; subst; auto|].
            destruct (pstep wexec u w (c_mem c) p') as [m' q]. inversion E1; subst. simpl in *.
            split; [unfold tset; destruct (Nat.eqb_spec t u); [congruence | auto]|]. rewrite Ha. auto.
        - exists n, p. unfold steps_by in *; simpl in Hn.
          destruct (c_thr c u) as [|o' [| |]] eqn:Eu; inversion E1; subst; auto.
          simpl. unfold tset. destruct (Nat.eqb_spec t u); [congruence | auto]. }
      destruct G as (n' & p' & G1 & G2 & G3).
      destruct (IH c1 n' p' G1 G2 Hal G3) as [r Hr]. destruct (run wexec impl c1 l). eauto.
  Qed.

  Theorem progress_sched (adr : op -> addr) n m0 l1 l2 t o :
    (forall o, ob (adr o) n (impl o)) ->
    let c1 := fst (run wexec impl (start m0) l1) in
    inside c1 t o -> alone impl t (adr o) c1 l2 -> (n <= steps_by t l2)%nat ->
    finished (fst (run wexec impl c1 l2)) t.
  Proof.
    intros Hob c1 Hin Hal Hn. unfold inside in Hin.
    destruct (c_thr c1 t) as [|o' p] eqn:E; [contradiction|]. subst o'.
    assert (Hr : reached c1) by (apply run_reached; intros u x q Hq; discriminate).
    destruct (Hr _ _ _ E) as [ms ->].
    destruct (ev_sched t (adr o) o l2 c1 n _ E (Hob o ms _) Hal Hn) as [r Hr2].
    unfold finished. now rewrite Hr2.
  Qed.
End Sched.

Theorem int_progress_aux W v0 n0 l1 l2 t a mo o :
  let c1 := fst (int_run W v0 n0 l1) in
  inside c1 t (a, (mo, o)) -> alone (int_impl W) t a c1 l2 -> (12 <= steps_by t l2)%nat ->
  finished (fst (run wexec (int_impl W) c1 l2)) t.
Proof.
  intros c1. unfold c1, int_run.
  apply (progress_sched (int_impl W) (fun c : icall => fst c) 12 (int_mem W v0 n0) l1 l2 t (a, (mo, o))).
  intros (b & mo' & o'). apply int_prog_fin.
Qed.

Theorem arm_terminates_aux W v0 n0 l1 l2 t a mo e d :
  o_core (W a) = KLinuxArm ->
  let c1 := fst (int_run W v0 n0 l1) in
  inside c1 t (a, (mo, CasStrong e d)) -> alone (int_impl W) t a c1 l2 -> (12 <= steps_by t l2)%nat ->
  finished (fst (run wexec (int_impl W) c1 l2)) t.
Proof. intros _. apply (int_progress_aux W v0 n0 l1 l2 t a mo). Qed.

(** * Every operation of the lock-free back ends writes its object at most once. *)
From Coq Require Import ZArith List Bool Lia.
From Verif Require Import SpecInt SpecLin SpecTyped SpecAlone SpecFree Order Conv Prog Word CoreModel ExtraModel IntModel TypedModel
  PairModel Progress ProgressInt ProgressPair FreeProof.
Import ListNotations.
Open Scope Z_scope.
Open Scope prog_scope.
Arguments half : simpl never.
Arguments join : simpl never.

Lemma put_other m a v b : b <> a -> put m a v b = m b.
Proof. unfold put. intros H. destruct (Nat.eqb_spec b a); congruence. Qed.

(** ** Single actions *)
Definition on (a : addr) (x : wact) : Prop :=
  match x with
  | AStore b _ | AXchg b _ | ARmw b _ _ | ACas b _ _ | ACasW b _ _ | AKCas b _ _ | ASC b _ _ => b = a
  | _ => True
  end.
Definition reads (x : wact) : Prop :=
  match x with ALoad _ | ARacy _ _ | AHalf _ _ _ | ALL _ | ALLHalf _ _ _ => True | _ => False end.

Lemma b_read {R} a n x (k : wresp x -> wprog R) Q : reads x -> (forall y, budget a (k y) n Q) -> budget a (Do x k) n Q.
Proof.
  intros Hr H t m w m' y E. left. destruct x; try contradiction; simpl in E; inversion E; subst; split; auto; apply H.
Qed.

Lemma b_any {R} a x (k : wresp x -> wprog R) Q :
  on a x -> (forall y, budget a (k y) 1 Q) -> (forall y, budget a (k y) 0 Q) -> budget a (Do x k) 1 Q.
Proof.
  intros Ho H1 H0 t m w m' y E.
  destruct x; simpl in Ho; try subst a0; simpl in E;
    try (destruct (_ : bool); simpl in E); inversion E; subst; clear E; eauto;
    right; exists 0%nat; repeat split; auto; intros b Hb; now apply put_other.
Qed.

(** a conditional write: a failure leaves the budget alone *)
Lemma b_cas {R} a e d (k : (bool * Z) -> wprog R) Q :
  budget a (k (true, e)) 0 Q -> (forall y, y <> e -> budget a (k (false, y)) 1 Q) -> budget a (Do (ACas a e d) k) 1 Q.
Proof.
  intros H0 H1 t m w m' y E. simpl in E. destruct (Z.eqb_spec (val (m a)) e) as [Heq|Hne]; inversion E; subst.
  - right. exists 0%nat. repeat split; auto. intros b Hb. now apply put_other.
  - left. split; auto.
Qed.
Lemma b_casw {R} a e d (k : (bool * Z) -> wprog R) Q :
  budget a (k (true, e)) 0 Q -> (forall y, budget a (k (false, y)) 1 Q) -> budget a (Do (ACasW a e d) k) 1 Q.
Proof.
  intros H0 H1 t m w m' y E. simpl in E. destruct (Z.eqb_spec (val (m a)) e) as [Heq|Hne].
  - destruct (lucky w); inversion E; subst; [right; exists 0%nat; repeat split; auto; intros b Hb; now apply put_other | left; split; auto].
  - simpl in E. inversion E; subst. left. split; auto.
Qed.
Lemma b_kcas {R} a e d (k : bool -> wprog R) Q :
  budget a (k true) 0 Q -> budget a (k false) 1 Q -> budget a (Do (AKCas a e d) k) 1 Q.
Proof.
  intros H0 H1 t m w m' y E. simpl in E. destruct (_ && _); inversion E; subst; [|left; split; auto].
  right. exists 0%nat. repeat split; auto. intros b Hb. now apply put_other.
Qed.
Lemma b_sc {R} a tok v (k : bool -> wprog R) Q :
  budget a (k true) 0 Q -> budget a (k false) 1 Q -> budget a (Do (ASC a tok v) k) 1 Q.
Proof.
  intros H0 H1 t m w m' y E. simpl in E. destruct (_ && _); inversion E; subst; [|left; split; auto].
  right. exists 0%nat. repeat split; auto. intros b Hb. now apply put_other.
Qed.
Lemma b_ret {R} a n (r : R) (Q : nat -> R -> Prop) : Q n r -> budget a (Ret r) n Q.
Proof. auto. Qed.
Lemma b_loop {X B} a (s : X) (body : X -> wprog (X + B)) Q :
  (forall s', budget a (body s') 1 (fun n y => match y with inl _ => n = 1%nat | inr b => Q n b end)) ->
  budget a (loop s body) 1 Q.
Proof. intros H. cbn [loop budget]. exists Q. split; auto. Qed.

Opaque budget ob ev after.
Lemma once_act {R} a x (g : wresp x -> R) : on a x -> once a (Do x (fun y => Ret (g y))).
Proof. intros H. apply b_any; auto; intros; apply b_ret; exact I. Qed.
Lemma once_then {R R'} a (p : wprog R) (f : R -> wprog R') : once a p -> (forall r k, budget a (f r) k any) -> once a (bind p f).
Proof. intros H Hf. eapply budget_bind; [exact H|]. intros; apply Hf. Qed.
Lemma once_ret {R R'} a (p : wprog R) (f : R -> R') : once a p -> once a (bind p (fun r => Ret (f r))).
Proof. intros H. apply once_then; auto. intros; apply b_ret; exact I. Qed.

(** ** Compare-exchange: a failure has not written *)
Definition casw_once (a : addr) (casw : addr -> Z -> Z -> wprog (bool * Z)) : Prop :=
  forall e d, budget a (casw a e d) 1 (fun n r => fst r = true \/ n = 1%nat).

Lemma once_of_casw a casw : casw_once a casw -> forall e d, once a (casw a e d).
Proof. intros H e d. eapply budget_mono; [apply H|]. intros; exact I. Qed.

Lemma casw_once_cas a : casw_once a (fun a e d => cas a e d).
Proof. intros e d. apply b_cas; intros; apply b_ret; simpl; auto. Qed.
Lemma casw_once_weak a : casw_once a (fun a e d => casw a e d).
Proof. intros e d. apply b_casw; intros; apply b_ret; simpl; auto. Qed.
Lemma casw_once_sync a : casw_once a sync_cas.
Proof.
  intros e d. unfold sync_cas, cas. cbn [bind do]. apply b_cas.
  - rewrite Z.eqb_refl. apply b_ret; simpl; auto.
  - intros y Hy. destruct (Z.eqb_spec y e); [contradiction|]. apply b_ret; simpl; auto.
Qed.
Lemma casw_once_sparc a : casw_once a sparc_cas.
Proof.
  intros e d. unfold sparc_cas, cas. cbn [bind do]. apply b_cas.
  - rewrite Z.eqb_refl. apply b_ret; simpl; auto.
  - intros y Hy. apply b_ret; simpl; auto.
Qed.
Lemma casw_once_karm a : casw_once a karm_casw.
Proof.
  intros e d. unfold karm_casw, kcas, ld. cbn [bind do]. apply b_kcas; [apply b_ret; simpl; auto|].
  apply b_read; [exact I|]. intros. apply b_ret; simpl; auto.
Qed.
Lemma casw_once_ll a : casw_once a ll_casw.
Proof.
  intros e d. unfold ll_casw, ll, sc. cbn [bind do]. apply b_read; [exact I|]. intros [x tok].
  destruct (x =? e); [|apply b_ret; simpl; auto]. apply b_sc; apply b_ret; simpl; auto.
Qed.
Lemma casw_once_pair a : casw_once a pair_casw.
Proof.
  intros e d. unfold pair_casw, ldxp, llhalf, sc. cbn [bind do]. apply b_read; [exact I|]. intros [lo tok].
  apply b_read; [exact I|]. intros [hi tok']. cbn [bind].
  destruct (_ && _); [|apply b_ret; simpl; auto]. apply b_sc; apply b_ret; simpl; auto.
Qed.

(** ** Loops *)
Lemma cas_loop_once a casw f i : casw_once a casw -> once a (cas_loop casw a f i).
Proof.
  intros H. apply b_loop. intros s. eapply budget_bind; [apply H|].
  intros k [[] e] Hk; apply b_ret; simpl in *; [exact I | destruct Hk; [discriminate | assumption]].
Qed.
Lemma cas_loop_new_once a casw f i : casw_once a casw -> once a (cas_loop_new casw a f i).
Proof.
  intros H. apply b_loop. intros s. cbv zeta. eapply budget_bind; [apply H|].
  intros k [[] e] Hk; apply b_ret; simpl in *; [exact I | destruct Hk; [discriminate | assumption]].
Qed.
Lemma ll_loop_once a f : once a (ll_loop a f).
Proof.
  apply b_loop. intros []. unfold ll, sc. cbn [bind do]. apply b_read; [exact I|]. intros [x tok].
  apply b_sc; apply b_ret; simpl; auto. exact I.
Qed.
Lemma ll_loop_new_once a f : once a (ll_loop_new a f).
Proof.
  apply b_loop. intros []. unfold ll, sc. cbn [bind do]. apply b_read; [exact I|]. intros [x tok].
  apply b_sc; apply b_ret; simpl; auto. exact I.
Qed.
Lemma ll_cas_once a e d : once a (ll_cas a e d).
Proof.
  apply b_loop. intros []. unfold ll, sc. cbn [bind do]. apply b_read; [exact I|]. intros [x tok].
  destruct (x =? e); [|apply b_ret; exact I]. apply b_sc; apply b_ret; simpl; auto. exact I.
Qed.
Lemma karm_cas_once a e d : once a (karm_cas a e d).
Proof.
  apply b_loop. intros []. eapply budget_bind; [apply casw_once_karm|].
  intros k [[] x] Hk; [apply b_ret; exact I|]. simpl in Hk. destruct Hk as [|Hk]; [discriminate|].
  destruct (x =? e); apply b_ret; [exact Hk | exact I].
Qed.
Lemma ldxp_gen_once a (f g : Z -> Z -> Z) :
  once a (loop tt (fun _ =>
          bind (ldxp a) (fun y => let (p, tok) := y in let (lo, hi) := p in
          bind (sc a tok (f lo hi)) (fun b => if b : bool then Ret (inr (g lo hi)) else Ret (inl tt))))).
Proof.
  apply b_loop. intros []. unfold ldxp, llhalf, sc. cbn [bind do]. apply b_read; [exact I|]. intros [lo tok].
  apply b_read; [exact I|]. intros [hi tok']. cbn [bind]. apply b_sc; apply b_ret; simpl; auto. exact I.
Qed.
Lemma pair_cas_once a e d : once a (pair_cas a e d).
Proof.
  apply b_loop. intros []. unfold ldxp, llhalf, sc. cbn [bind do]. apply b_read; [exact I|]. intros [lo tok].
  apply b_read; [exact I|]. intros [hi tok']. cbn [bind].
  destruct (_ && _); [|apply b_ret; exact I]. apply b_sc; apply b_ret; simpl; auto. exact I.
Qed.

Lemma racy_once {R} a w (f : Z -> wprog R) : (forall i, once a (f i)) -> once a (i <- racy a w ;; f i).
Proof. intros H. unfold racy. cbn [bind do]. apply b_read; [exact I | exact H]. Qed.
Lemma ld_once {R} a (f : Z -> wprog R) : (forall i, once a (f i)) -> once a (i <- ld a ;; f i).
Proof. intros H. unfold ld. cbn [bind do]. apply b_read; [exact I | exact H]. Qed.
Lemma dcas_swap_once w a v : once a (dcas_swap w a v).
Proof.
  unfold dcas_swap, ldhalf. cbn [bind do]. apply b_read; [exact I|]. intros lo. apply b_read; [exact I|]. intros hi.
  apply cas_loop_once, casw_once_cas.
Qed.
Lemma x86_loop_once w b a v : once a (x86_loop w b a v).
Proof. apply ld_once. intros i. apply cas_loop_once, casw_once_cas. Qed.
Lemma ms_bitop_once intr w b a v : once a (ms_bitop intr w b a v).
Proof.
  unfold ms_bitop. destruct intr; [apply once_act; reflexivity|].
  apply ld_once. intros i. apply cas_loop_once, casw_once_sparc.
Qed.

(** ** Core operations *)
Record core_once (c : core) (a : addr) : Prop := {
  co_load : forall o, once a (c_load c o a);
  co_store : forall o v, once a (c_store c o a v);
  co_xchg : forall v, once a (c_exchange c a v);
  co_cas : forall e d, once a (c_cas c a e d);
  co_casw : casw_once a (c_casw c);
  co_fetch : forall b v, once a (c_fetch c b a v)
}.

Lemma cas_based_once c a :
  (forall o, once a (c_load c o a)) -> (forall o v, once a (c_store c o a v)) ->
  (forall v, once a (c_exchange c a v)) -> (forall e d, once a (c_cas c a e d)) ->
  casw_once a (c_casw c) -> core_once (cas_based c) a.
Proof.
  intros H1 H2 H3 H4 H5. constructor; cbn -[bind]; auto.
  intros b v. apply racy_once. intros i. now apply cas_loop_once.
Qed.

Ltac act1 := unfold ld, st, xchg, cas, casw, rmw; cbn [bind do];
  first [ solve [apply once_act; first [reflexivity | exact I]]
        | solve [apply b_any; [first [reflexivity | exact I] | |]; intros;
                 repeat match goal with |- budget _ (let (_, _) := ?y in _) _ _ => destruct y end; apply b_ret; exact I] ].
Ltac cw := first [apply casw_once_cas | apply casw_once_weak | apply casw_once_sync | apply casw_once_sparc
                 | apply casw_once_karm | apply casw_once_ll].
Ltac on1 := first
  [ solve [act1]
  | solve [apply ll_loop_once | apply ll_cas_once | apply karm_cas_once | apply x86_loop_once | apply ms_bitop_once | apply dcas_swap_once]
  | solve [cw]
  | solve [apply once_of_casw; cw]
  | solve [apply racy_once; intros; first [apply cas_loop_once; cw | act1 | apply once_then; [apply cas_loop_once; cw | intros; apply b_ret; exact I]]]
  | solve [apply once_then; [first [apply dcas_swap_once | apply ll_loop_once] | intros; apply b_ret; exact I]]
  | solve [unfold ll; cbn [bind do]; apply b_read; [exact I|]; intros [? ?]; apply b_ret; exact I] ].
Ltac ons := first [on1 | match goal with |- once _ (if ?b then _ else _) => destruct b; on1
                                        | |- once _ (match ?b with Add => _ | _ => _ end) => destruct b; on1
                                        | |- once _ ((if ?b then _ else _) _ _) => destruct b; on1 end].

Lemma base_core_once k w a : core_once (base_core k w) a.
Proof.
  destruct k; cbn [base_core];
    [unfold gcc_atomic | unfold gcc_sync | unfold x86 | unfold dcas_x86, dcas_x86_base | unfold linux_arm | unfold sparc
    | unfold llsc_native, llsc | unfold llsc_dword, llsc_native, llsc | unfold aarch64_lse | unfold windows | unfold msvc_x86 | unfold msvc_dcas_x86_64
    | unfold msvc_arm];
    first [apply cas_based_once | constructor]; fields; intros; ons.
Qed.

Lemma obj_core_once o a : core_once (obj_core o) a.
Proof.
  unfold obj_core. destruct (o_vw o =? o_w o); [apply base_core_once|].
  assert (HX : core_once (extending (o_sg o) (o_vw o) (base_core (o_core o) (o_w o))) a).
  { destruct (base_core_once (o_core o) (o_w o) a) as [H1 H2 H3 H4 H5 H6].
    constructor; cbn -[bind]; auto.
    intros b v. destruct b; auto; apply racy_once; intros i; now apply cas_loop_once. }
  destruct (o_core o); auto.
  unfold llsc_narrow, llsc. constructor; fields; intros; ons.
Qed.

Lemma pair_core_once a : core_once aarch64_pair a.
Proof.
  assert (H1 : forall f, once a (ldxp_loop a f)) by (intros f; apply (ldxp_gen_once a f (join 128))).
  constructor; cbn [aarch64_pair c_load c_store c_exchange c_cas c_casw c_fetch]; intros; auto.
  - apply once_ret with (f := fun _ => tt). apply H1.
  - apply pair_cas_once.
  - apply casw_once_pair.
Qed.

(** ** Extra operations *)
Record extra_once (x : extra) (a : addr) : Prop := {
  eo_fetch_un : forall u, once a (x_fetch_un x u a);
  eo_bin : forall b v, once a (x_bin x b a v);
  eo_un : forall u, once a (x_un x u a);
  eo_obin : forall b v, once a (x_opaque_bin x b a v);
  eo_oun : forall u, once a (x_opaque_un x u a);
  eo_tbin : forall b v, once a (x_test_bin x b a v);
  eo_tun : forall u, once a (x_test_un x u a);
  eo_bit : forall k i, once a (x_bit x k a i)
}.
Ltac thn1 H := apply once_then; [apply H | intros; apply b_ret; exact I].

Lemma extra_generic_once sg es c a : core_once c a -> extra_once (extra_generic sg es c) a.
Proof.
  intros [H1 H2 H3 H4 H5 H6].
  assert (HL : forall (f : Z -> Z) w, once a (i <- racy a w ;; cas_loop (c_casw c) a f i))
    by (intros; apply racy_once; intros i; now apply cas_loop_once).
  assert (HN : forall (f : Z -> Z) w, once a (i <- racy a w ;; cas_loop_new (c_casw c) a f i))
    by (intros; apply racy_once; intros i; now apply cas_loop_new_once).
  assert (HU : forall u, once a (gen_fetch_un sg es c u a)) by (intros []; [apply HL | apply H6]).
  assert (HB : forall b v, once a ((if c_full_cas c then gen_cas_bin sg es c else gen_bin c) b a v)).
  { intros b v. destruct (c_full_cas c); [apply HN | thn1 H6]. }
  assert (HR : forall u, once a (x_un (extra_generic sg es c) u a)).
  { intros [|]; cbn -[bind]; [apply HN|]. destruct (c_full_cas c); [apply HN | thn1 H6]. }
  unfold extra_generic. cbv zeta. constructor; xfields; intros; auto.
  - exact (HR u).
  - thn1 H6.
  - thn1 HU.
  - unfold gen_test_bin. thn1 HB.
  - unfold gen_test_un. thn1 HR.
  - unfold gen_bit. cbv zeta. destruct k; thn1 H6.
Qed.

Lemma extra_x86_once sg c a : core_once c a -> extra_once (extra_x86 sg c) a.
Proof.
  intros H. destruct (extra_generic_once sg (c_bits c) c a H) as [G1 G2 G3 G4 G5 G6 G7 G8].
  assert (HL : forall f, once a (x86_xloop a f)) by (intros; apply ld_once; intros i; apply cas_loop_once, casw_once_cas).
  assert (HN : forall f, once a (x86_xloop_new a f)) by (intros; apply ld_once; intros i; apply cas_loop_new_once, casw_once_cas).
  unfold extra_x86. cbv zeta. constructor; xfields; intros; auto.
  - destruct b; auto; apply (G2 _ v).
  - act1.
  - act1.
  - act1.
  - thn1 HN.
  - destruct (c_bits c =? 8); [apply G8|]. act1.
Qed.

Lemma extra_llsc_once ro lse sg c a : core_once c a -> extra_once (extra_llsc ro lse sg c) a.
Proof.
  intros H. destruct (extra_generic_once sg (c_bits c) c a H) as [G1 G2 G3 G4 G5 G6 G7 G8].
  assert (HL := ll_loop_once a). assert (HN := ll_loop_new_once a).
  assert (HF : forall u, once a (x_fetch_un (extra_llsc ro lse sg c) u a)).
  { intros []; [apply HL|]. cbn -[bind]. destruct lse; [apply (G1 Not) | apply HL]. }
  assert (HU : forall u, once a (x_un (extra_llsc ro lse sg c) u a)).
  { intros []; [apply HN|]. cbn -[bind extra_generic]. destruct lse; [apply (G3 Not) | apply HN]. }
  assert (HB : forall b v, once a (x_bin (extra_llsc ro lse sg c) b a v)).
  { intros b v. cbn -[bind extra_generic]. destruct lse; [apply (G2 b v) | apply HN]. }
  constructor; intros.
  - apply HF.
  - apply HB.
  - apply HU.
  - cbn -[bind extra_generic]. destruct ro; [thn1 (HB b v) | apply G4].
  - cbn -[bind extra_generic]. destruct ro; [thn1 (HU u) | thn1 (HF u)].
  - thn1 (HB b v).
  - thn1 (HU u).
  - apply G8.
Qed.

Lemma extra_pair_once sg a : extra_once (extra_pair sg) a.
Proof.
  assert (H1 : forall f, once a (ldxp_loop a f)) by (intros f; apply (ldxp_gen_once a f (join 128))).
  assert (H2 : forall f, once a (ldxp_loop_new a f)) by (intros f; apply (ldxp_gen_once a f f)).
  unfold extra_pair. cbv zeta. constructor; xfields; intros; auto.
  - thn1 H2.
  - thn1 H2.
  - thn1 H2.
  - thn1 H2.
  - cbn [x_bit extra_generic]. unfold gen_bit. cbv zeta. destruct k; thn1 H1.
Qed.

Lemma obj_extra_once o a : extra_once (obj_extra o) a.
Proof.
  unfold obj_extra. destruct (o_extra o);
    [apply extra_generic_once | apply extra_x86_once | apply extra_llsc_once]; apply obj_core_once.
Qed.

(** ** Front ends *)
Lemma front_once c x enc dec mo a o : core_once c a -> extra_once x a -> once a (front c x enc dec mo a o).
Proof.
  intros [H1 H2 H3 H4 H5 H6] [G1 G2 G3 G4 G5 G6 G7 G8]. unfold front.
  destruct o as [v| |v|e d|e d|f e|k i].
  - thn1 H2.
  - thn1 H1.
  - thn1 H3.
  - apply once_then; [apply H4 | intros [] ?; apply b_ret; exact I].
  - apply once_then; [now apply once_of_casw | intros [] ?; apply b_ret; exact I].
  - destruct f, e; first [thn1 H6 | thn1 G1 | thn1 G2 | thn1 G3 | thn1 G4 | thn1 G5 | thn1 G6 | thn1 G7].
  - thn1 G8.
Qed.

Lemma front_fin c x enc dec mo a o : core_fin c a -> extra_fin x a -> ob a 12 (front c x enc dec mo a o).
Proof.
  intros [H1 H2 H3 H4 (cn & Hc & H5 & _) H6] [G1 G2 G3 G4 G5 G6 G7 G8]. unfold front.
  destruct o as [v| |v|e d|e d|f e|k i].
  - thn H2.
  - thn H1.
  - thn H3.
  - apply then_ret; [apply H4 | intros [] ?; apply ob_ret].
  - apply then_ret; [eapply ob_mono; [apply H5 | lia] | intros [] ?; apply ob_ret].
  - destruct f, e; first [thn H6 | thn G1 | thn G2 | thn G3 | thn G4 | thn G5 | thn G6 | thn G7].
  - thn G8.
Qed.

Definition obj_front_once o enc dec mo a i : once a (front (obj_core o) (obj_extra o) enc dec mo a i) :=
  front_once _ _ enc dec mo a i (obj_core_once o a) (obj_extra_once o a).
Definition obj_front_fin o enc dec mo a i : ob a 12 (front (obj_core o) (obj_extra o) enc dec mo a i) :=
  front_fin _ _ enc dec mo a i (obj_core_fin o a) (obj_extra_fin o a).

(** floating point *)
Lemma fp_loop_once f e g a : once a (fp_loop f e g a).
Proof.
  apply racy_once. intros i. apply b_loop. intros s. cbv zeta.
  eapply budget_bind; [apply (co_casw _ _ (obj_core_once (f_obj f) a))|].
  intros k [[] x] Hk; apply b_ret; simpl in *; [exact I | destruct Hk; [discriminate | assumption]].
Qed.

Lemma fp_loop_fin f e g a : ob a 12 (fp_loop f e g a).
Proof.
  apply racy_then. intros i. destruct (cf_casw _ _ (obj_core_fin (f_obj f) a)) as (cn & Hc & H1 & H2).
  unfold loop. cbv zeta. eapply ob_mono with (n := (3 * (cn + 1) + 0)%nat); [|lia].
  assert (HB : forall s, ob a cn ('(b, found) <- c_casw (obj_core (f_obj f)) a s (fp_enc f (fp_op f e (fp_dec f s))) ;;
     if b then Ret (inr (g (fp_dec f s) (fp_op f e (fp_dec f s)))) else Ret (inl found) : wprog (Z + Z))).
  { intros s. rewrite <- (Nat.add_0_r cn). apply ob_bind; auto. intros [[] x]; apply ob_ret. }
  apply (ob_loop a _ _ cn 0 (fun s c => s = val c)); auto.
  - intros s c. rewrite <- (Nat.add_0_r cn). eapply ev_bind; [apply H2|].
    intros [[] x] c' H; apply ev_ret; simpl in *; auto. destruct H as [H|[_ H]]; [discriminate | exact H].
  - intros s c ->. rewrite <- (Nat.add_0_r cn). eapply ev_bind; [apply H2|].
    intros [[] x] c' H; apply ev_ret; simpl in *; auto. destruct H as [H|[H _]]; [discriminate | congruence].
  - intros b. apply ob_ret.
Qed.

Lemma fp_prog_once f mo a o : once a (fp_prog f mo a o).
Proof.
  unfold fp_prog. cbv zeta. destruct o; try apply obj_front_once.
  destruct (obj_core_once (f_obj f) a) as [_ _ _ _ _ H6]. destruct (obj_extra_once (f_obj f) a) as [_ G2 _ G4 _ _ _ _].
  assert (HF := fun e g => fp_loop_once f e g a).
  unfold fp_rmw. destruct f0, e; try (thn1 HF); destruct (f_iec f); first [thn1 HF | thn1 H6 | thn1 G2 | thn1 G4].
Qed.
Lemma fp_prog_fin f mo a o : ob a 12 (fp_prog f mo a o).
Proof.
  unfold fp_prog. cbv zeta. destruct o; try apply obj_front_fin.
  destruct (obj_core_fin (f_obj f) a) as [_ _ _ _ _ H6]. destruct (obj_extra_fin (f_obj f) a) as [_ G2 _ G4 _ _ _ _].
  assert (HF := fun e g => fp_loop_fin f e g a).
  unfold fp_rmw. destruct f0, e; try (thn HF); destruct (f_iec f); first [thn HF | thn H6 | thn G2 | thn G4].
Qed.

(** flags *)
Lemma flag_prog_once f mo a o : once a (flag_prog f mo a o).
Proof.
  destruct (obj_core_once (fl_obj f) a) as [H1 H2 H3 _ _ _]. unfold flag_prog. cbv zeta.
  destruct o; try destruct (fl_byte f); try destruct (is_gcc_sync _); first [thn1 H1 | thn1 H2 | thn1 H3 | act1].
Qed.
Lemma flag_prog_fin f mo a o : ob a 12 (flag_prog f mo a o).
Proof.
  destruct (obj_core_fin (fl_obj f) a) as [H1 H2 H3 _ _ _]. unfold flag_prog. cbv zeta.
  destruct o; try destruct (fl_byte f); try destruct (is_gcc_sync _); first [thn H1 | thn H2 | thn H3 | unfold rmw, st; cbn [bind do]; one].
Qed.

(** references *)
Lemma ref_prog_once r mo a o : once a (ref_prog r mo a o).
Proof.
  unfold ref_prog. cbv zeta. destruct o as [|o]; [|apply obj_front_once].
  destruct (_ || _); [apply racy_once; intros; apply b_ret; exact I|].
  destruct (r_bytes r); [act1|]. apply ld_once. intros x. act1.
Qed.
Lemma ref_prog_fin r mo a o : ob a 12 (ref_prog r mo a o).
Proof.
  unfold ref_prog. cbv zeta. destruct o as [|o]; [|apply obj_front_fin].
  destruct (_ || _); [unfold racy; cbn [bind do]; one|].
  destruct (r_bytes r); [unfold rmw; cbn [bind do]; one|].
  apply ld_then. intros x. unfold st. cbn [bind do]. eapply ob_do' with (n := 0%nat); [intros; apply ob_ret | lia].
Qed.

(** * Calls that finish in a bounded number of steps, and calls that may not. *)
From Coq Require Import ZArith List Bool Lia.
From Verif Require Import SpecInt SpecLin SpecTyped SpecAlone SpecFree Order Conv Prog Word CoreModel ExtraModel IntModel TypedModel
  PairModel Progress ProgressInt FreeProof.
Import ListNotations.
Open Scope Z_scope.
Open Scope prog_scope.

(** ** Programs without loops *)
Fixpoint bnd {R} (n : nat) (p : wprog R) : Prop :=
  match p with
  | Ret _ => True
  | Do x k => match n with O => False | S n => forall y, bnd n (k y) end
  | Loop _ _ _ => False
  end.

Arguments bnd {R} !n !p.

Lemma bnd_mono {R} n : forall n' (p : wprog R), bnd n p -> (n <= n')%nat -> bnd n' p.
Proof.
  induction n as [|n IH]; intros n' p H Hn; destruct p; simpl in *; try contradiction; [destruct n'; exact I | destruct n'; exact I |].
  destruct n' as [|n']; [lia|]. intros y. apply IH; [apply H | lia].
Qed.

Lemma bnd_step {R} t w m n (p : wprog R) : bnd (S n) p -> bnd n (snd (pstep wexec t w m p)).
Proof.
  destruct p as [r|x k|X B body s k]; simpl; try contradiction; [destruct n; exact (fun H => H)|].
  intros H. destruct (wexec t x m w) as [[m' y]|] eqn:E; simpl; [apply H|]. exfalso. eapply exec_total; eauto.
Qed.

Lemma bnd_same {R} t w m n (p : wprog R) : bnd n p -> bnd n (snd (pstep wexec t w m p)).
Proof.
  intros H. destruct n as [|n]; [destruct p; simpl in *; try contradiction; exact I|].
  eapply bnd_mono; [apply bnd_step; exact H | lia].
Qed.

Section Sched.
  Context {op ret : Type}.
  Variable impl : op -> wprog ret.
  Notation config := (config wact wresp wmem op ret).
  Notation "c '>>' e" := (fst (cstep wexec impl c e)) (at level 60).

  Lemma bnd_sched t o l : forall (c : config) n p,
    c_thr c t = Run o p -> bnd n p -> ~ In (SRes t) l -> (n <= steps_by t l)%nat ->
    exists r, c_thr (fst (run wexec impl c l)) t = Run o (Ret r).
  Proof.
    induction l as [|e l IH]; intros c n p Hp Hb Hr Hn.
    - unfold steps_by in Hn. simpl in Hn. destruct n; [|lia]. destruct p; simpl in Hb; try contradiction. simpl. eauto.
    - rewrite fst_run. assert (Hr' : ~ In (SRes t) l) by (intros H; apply Hr; simpl; auto).
      destruct e as [u x|u w|u].
      + apply (IH _ n p); auto. simpl. destruct (c_thr c u) eqn:Eu; simpl; auto.
        rewrite tset_other; auto. intros ->. congruence.
      + unfold steps_by in *. simpl in Hn. destruct (Nat.eqb_spec u t) as [->|Hne].
        * apply (IH _ (pred n) (snd (pstep wexec t w (c_mem c) p))); auto; [| |simpl in Hn; lia].
          -- simpl. rewrite Hp. destruct (pstep wexec t w (c_mem c) p). simpl. apply tset_same.
          -- destruct n as [|n]; [now apply bnd_same | now apply bnd_step].
        * apply (IH _ n p); auto. simpl. destruct (c_thr c u) as [|o' p'] eqn:Eu; simpl; auto.
          destruct (pstep wexec u w (c_mem c) p'). simpl. rewrite tset_other; auto.
      + assert (u <> t) by (intros ->; apply Hr; simpl; auto).
        apply (IH _ n p); auto. simpl. destruct (c_thr c u) as [|o' [r| |]] eqn:Eu; simpl; auto.
        rewrite tset_other; auto.
  Qed.

  Lemma bnd_reached (m0 : wmem) l1 t o p n : bnd n (impl o) ->
    c_thr (fst (run wexec impl (start m0) l1)) t = Run o p -> bnd n p.
  Proof.
    intros Hb E. assert (Hr : reached impl (fst (run wexec impl (start m0) l1))) by (apply run_reached; intros u x q Hq; discriminate).
    destruct (Hr _ _ _ E) as [ms ->]. revert Hb. generalize (impl o). clear.
    induction ms as [|[[t w] m] ms IH]; intros q Hq; simpl; auto. apply IH. now apply bnd_same.
  Qed.

  Theorem wait_free_all n (calls : op -> Prop) m0 : (forall o, calls o -> bnd n (impl o)) -> wait_free_within impl n calls m0.
  Proof.
    intros H l1 l2 t o Ho c1 Hi Hr Hn. unfold inside in Hi. destruct (c_thr c1 t) as [|o' p] eqn:E; [contradiction|]. subst o'.
    destruct (bnd_sched t o l2 c1 n p E) as [r Er]; auto; [eapply bnd_reached; eauto|].
    unfold finished. now rewrite Er.
  Qed.
End Sched.

(** ** The calls that are straight-line code *)
Definition native_fetch (k : ckind) (b : binop) : bool :=
  match k with
  | KGccAtomic _ | KGccSync _ | KLse | KMsvcArm => true
  | KX86 => is_arith b
  | KWindows i | KMsvc i => is_arith b || i
  | KX86D _ | KMsvcD _ | KLinuxArm | KSparc | KLlsc | KLlscD => false
  end.
Definition straight_fetch (o : obj) (b : binop) : bool :=
  native_fetch (o_core o) b && ((o_vw o =? o_w o) || negb (is_arith b)).
Definition straight (o : obj) (mo : morder) (i : iop) : bool :=
  match i with
  | Load | CasWeak _ _ => true
  | Store _ => match o_core o with KLlscD => false | KX86D vec | KMsvcD vec => vec && negb (is_seq_cst mo) | _ => true end
  | Exchange _ =>
      match o_core o with
      | KX86D _ | KMsvcD _ | KLinuxArm | KLlsc | KLlscD => false
      | KSparc => o_w o =? 32
      | _ => true
      end
  | CasStrong _ _ => match o_core o with KLinuxArm | KLlsc | KLlscD => false | _ => true end
  | Rmw Fetch (Bin b _) => straight_fetch o b
  | Rmw Opaque (Bin b _) =>
      match o_extra o with XX86 => true | XGeneric => straight_fetch o b | XLlsc ro _ => negb ro && straight_fetch o b end
  | Rmw Test (Bin b _) => match o_extra o with XX86 => true | _ => false end
  | Rmw Opaque (Un _) => match o_extra o with XX86 => true | _ => false end
  | BitTest k _ => match o_extra o with XX86 => negb (o_w o =? 8) | _ => false end
  | _ => false
  end.

Ltac bn := repeat first
  [ exact I
  | progress cbn [bind do bnd ld st xchg rmw cas casw kcas ll sc racy ms_bitop sync_cas sparc_cas karm_casw ll_casw]
  | match goal with |- forall _, _ => intro end
  | match goal with |- bnd _ (let (_, _) := ?y in _) => destruct y end
  | match goal with |- bnd _ (if ?b then _ else _) => destruct b end
  | match goal with |- bnd _ (bind (if ?b then _ else _) _) => destruct b end ].

Lemma bnd_ret {R R'} n (p : wprog R) (f : R -> wprog R') : bnd n p -> (forall r, bnd 0 (f r)) -> bnd n (bind p f).
Proof.
  intros H Hf. revert p H. induction n as [|n IH]; intros p H; destruct p; cbn [bind] in H |- *;
    try (eapply bnd_mono; [apply Hf | lia]); simpl in H; try contradiction.
  intros y. apply IH, H.
Qed.
Ltac then_r H := apply bnd_ret; [apply H | intros; repeat match goal with |- bnd _ (let (_, _) := ?y in _) => destruct y end; exact I].

Lemma c_bits_obj o : kind_width (o_core o) (o_w o) -> c_bits (obj_core o) = o_w o.
Proof.
  unfold obj_core. destruct (o_vw o =? o_w o); destruct (o_core o); cbn; intros H; rewrite ?H; reflexivity.
Qed.

Lemma obj_fetch_bnd o b a v : straight_fetch o b = true -> bnd 2 (c_fetch (obj_core o) b a v).
Proof.
  unfold straight_fetch, obj_core. intros H. apply andb_true_iff in H. destruct H as [H1 H2].
  destruct (o_vw o =? o_w o); simpl in H2.
  - destruct (o_core o); try discriminate; destruct b; try discriminate; simpl in H1;
      cbn [base_core gcc_atomic gcc_sync x86 aarch64_lse windows msvc_x86 msvc_arm c_fetch]; unfold rmw, ms_bitop; rewrite ?H1; bn.
  - destruct (o_core o); try discriminate; destruct b; try discriminate; simpl in H1;
      cbn [base_core gcc_atomic gcc_sync x86 aarch64_lse windows msvc_x86 msvc_arm c_fetch extending]; unfold rmw, ms_bitop; rewrite ?H1; bn.
Qed.

Lemma straight_bnd o mo a i : kind_width (o_core o) (o_w o) -> straight o mo i = true -> bnd 2 (int_prog o mo a i).
Proof.
  intros Hk H. assert (Hbits := c_bits_obj o Hk).
  assert (HF := fun b v Hb => obj_fetch_bnd o b a v Hb).
  unfold int_prog, int_front, front.
  destruct i as [v| |v|e d|e d|f e|k i].
  - apply bnd_ret; [|intros; exact I]. unfold obj_core. simpl in H.
    destruct (o_vw o =? o_w o); destruct (o_core o); try discriminate;
      cbn [base_core gcc_atomic gcc_sync x86 dcas_x86 dcas_x86_base cas_based linux_arm sparc llsc_native llsc_narrow llsc_dword llsc
           aarch64_lse windows msvc_x86 msvc_dcas_x86_64 msvc_arm extending c_store]; rewrite ?H; unfold st, xchg; bn.
  - apply bnd_ret; [|intros; exact I]. unfold obj_core.
    destruct (o_vw o =? o_w o); destruct (o_core o);
      cbn [base_core gcc_atomic gcc_sync x86 dcas_x86 dcas_x86_base cas_based linux_arm sparc llsc_native llsc_narrow llsc_dword llsc
           aarch64_lse windows msvc_x86 msvc_dcas_x86_64 msvc_arm extending c_load]; unfold ld, cas, rmw, racy, ll; bn.
  - apply bnd_ret; [|intros; exact I]. unfold obj_core. simpl in H.
    destruct (o_vw o =? o_w o); destruct (o_core o); try discriminate;
      cbn [base_core gcc_atomic gcc_sync x86 dcas_x86 dcas_x86_base cas_based linux_arm sparc llsc_native llsc_narrow llsc_dword llsc
           aarch64_lse windows msvc_x86 msvc_dcas_x86_64 msvc_arm extending c_exchange]; rewrite ?H; unfold xchg; bn.
  - apply bnd_ret; [|intros []; exact I]. unfold obj_core. simpl in H.
    destruct (o_vw o =? o_w o); destruct (o_core o); try discriminate;
      cbn [base_core gcc_atomic gcc_sync x86 dcas_x86 dcas_x86_base cas_based linux_arm sparc llsc_native llsc_narrow llsc_dword llsc
           aarch64_lse windows msvc_x86 msvc_dcas_x86_64 msvc_arm extending c_cas]; unfold sync_cas, sparc_cas, cas; bn.
  - apply bnd_ret; [|intros []; exact I]. unfold obj_core.
    destruct (o_vw o =? o_w o); destruct (o_core o);
      cbn [base_core gcc_atomic gcc_sync x86 dcas_x86 dcas_x86_base cas_based linux_arm sparc llsc_native llsc_narrow llsc_dword llsc
           aarch64_lse windows msvc_x86 msvc_dcas_x86_64 msvc_arm extending c_casw];
      unfold sync_cas, sparc_cas, karm_casw, ll_casw, kcas, ld, cas, casw, ll, sc; bn.
  - destruct f, e as [b v|u]; simpl in H; try discriminate.
    + then_r (HF b (wrap (c_bits (obj_core o)) v) H).
    + apply bnd_ret; [|intros; exact I]. unfold obj_extra. destruct (o_extra o) as [| |ro lse]; simpl in H.
      * cbn [extra_generic x_opaque_bin]. unfold gen_opaque_bin. then_r (HF b (wrap (c_bits (obj_core o)) v) H).
      * cbn [extra_x86 x_opaque_bin]. unfold rmw. bn.
      * apply andb_true_iff in H. destruct H as [H1 H2]. destruct ro; try discriminate.
        cbn [extra_llsc x_opaque_bin extra_generic]. unfold gen_opaque_bin. then_r (HF b (wrap (c_bits (obj_core o)) v) H2).
    + apply bnd_ret; [|intros; exact I]. unfold obj_extra. destruct (o_extra o) as [| |ro lse]; try discriminate.
      cbn [extra_x86 x_opaque_un]. unfold rmw. bn.
    + apply bnd_ret; [|intros; exact I]. unfold obj_extra. destruct (o_extra o) as [| |ro lse]; try discriminate.
      cbn [extra_x86 x_test_bin]. unfold rmw. bn.
  - apply bnd_ret; [|intros; exact I]. unfold obj_extra. simpl in H. destruct (o_extra o) as [| |ro lse]; try discriminate.
    cbn [extra_x86 x_bit]. rewrite Hbits. destruct (o_w o =? 8); [discriminate|]. unfold rmw. bn.
Qed.

(** ** Starvation *)
Section Rounds.
  Context {op ret : Type}.
  Variable impl : op -> wprog ret.
  Notation config := (config wact wresp wmem op ret).
  Variables (t : nat) (o : op) (round : list (sched luck op)) (st0 : config -> Prop).
  Hypothesis Hone : (1 <= steps_by t round)%nat.
  Hypothesis Hlucky : forall u w, In (SStep u w) round -> lucky w = true.
  Hypothesis Hres : ~ In (SRes t) round.
  Hypothesis Hround : forall c, st0 c -> st0 (fst (run wexec impl c round)).
  Hypothesis Hst : forall c, st0 c -> inside c t o /\ ~ finished c t.

  Lemma run_app' l l' : forall c : config, fst (run wexec impl c (l ++ l')) = fst (run wexec impl (fst (run wexec impl c l)) l').
  Proof. induction l as [|e l IH]; intros c; [reflexivity|]. rewrite <- app_comm_cons, !fst_run. apply IH. Qed.

  Lemma steps_app l l' : steps_by (op := op) t (l ++ l') = (steps_by t l + steps_by t l')%nat.
  Proof. unfold steps_by. now rewrite filter_app, app_length. Qed.

  Lemma rounds n : forall c, st0 c -> exists l,
    (forall u w, In (SStep u w) l -> lucky w = true) /\ ~ In (SRes t) l /\ (n <= steps_by t l)%nat /\ st0 (fst (run wexec impl c l)).
  Proof.
    induction n as [|n IH]; intros c Hc.
    - exists []. simpl. repeat split; auto; try contradiction.
    - destruct (IH _ (Hround c Hc)) as (l & H1 & H2 & H3 & H4). exists (round ++ l). repeat split.
      + intros u w Hin. apply in_app_iff in Hin. destruct Hin; eauto.
      + intros Hin. apply in_app_iff in Hin. tauto.
      + rewrite steps_app. lia.
      + now rewrite run_app'.
  Qed.

  Lemma starve_all m0 pre :
    (forall u w, In (SStep u w) pre -> lucky w = true) -> ~ In (SRes t) pre ->
    st0 (fst (run wexec impl (start m0) (SInv t o :: pre))) -> may_starve impl t o m0.
  Proof.
    intros H1 H2 H3 n. destruct (rounds n _ H3) as (l & L1 & L2 & L3 & L4). exists (pre ++ l). repeat split.
    - intros u w Hin. apply in_app_iff in Hin. destruct Hin; eauto.
    - intros Hin. apply in_app_iff in Hin. tauto.
    - rewrite steps_app. lia.
    - change (SInv t o :: pre ++ l) with ((SInv t o :: pre) ++ l). rewrite run_app'. apply Hst, L4.
    - change (SInv t o :: pre ++ l) with ((SInv t o :: pre) ++ l). rewrite run_app'. apply Hst, L4.
  Qed.
End Rounds.

Definition fair : luck := mkluck true 0.

(** fetch_xor of a 32-bit integer with the x86 assembler back end: lock cmpxchg loses against a store
    in every round *)
Definition x86_world : world := fun _ => mkobj false 32 32 KX86 XX86.
Definition x86_call : icall := (0%nat, (SeqCst, Rmw Fetch (Bin Xor 1))).
Definition spoil (x : bool) : list (sched luck icall) :=
  [SStep 1 fair; SInv 2 (0%nat, (Relaxed, Store (Z.b2z x))); SStep 2 fair; SRes 2; SStep 1 fair].
Definition x86_body (old : Z) : wprog (Z + Z) :=
  '(b, e) <- cas 0%nat old (wrap 32 (bin_apply Xor 1 old)) ;; if b then Ret (inr e) else Ret (inl e).
Definition x86_cont (r : Z) : wprog iret := Ret (RVal (integral_truncate false 32 32 r)).
Definition at_loop (x : bool) (c : config wact wresp wmem icall iret) : Prop :=
  val (c_mem c 0%nat) = Z.b2z x /\ c_thr c 2%nat = Idle /\
  c_thr c 1%nat = Run x86_call (Loop x86_body (Z.b2z x) x86_cont).
Lemma at_loop_round x c : at_loop x c -> at_loop (negb x) (fst (run wexec (int_impl x86_world) c (spoil (negb x)))).
Proof.
  destruct c as [m th]. unfold at_loop. simpl. intros (H1 & H2 & H3).
  destruct x; repeat (first [rewrite H2 | rewrite H3]; simpl; unfold tset, put; simpl); auto.
Qed.
Lemma x86_starves : may_starve (int_impl x86_world) 1 x86_call (int_mem x86_world (fun _ => 0) (fun _ => 0)).
Proof.
  apply (starve_all (int_impl x86_world) 1 x86_call (spoil true ++ spoil false) (at_loop false)) with (pre := [SStep 1 fair]).
  - vm_compute. lia.
  - intros u w H. simpl in H. intuition (try discriminate); match goal with E : _ = _ |- _ => now inversion E end.
  - simpl. intuition discriminate.
  - intros c H. rewrite run_app'. apply (at_loop_round true), (at_loop_round false), H.
  - intros c (_ & _ & H). unfold inside, finished. rewrite H. auto.
  - intros u w [H|[]]. now inversion H.
  - simpl. intuition discriminate.
  - unfold at_loop. simpl. auto.
Qed.

(** load of a 128-bit integer on AArch64 without single-copy atomic pair loads: the store-exclusive
    loses against a store in every round *)
Definition pair_load : icall := (0%nat, (SeqCst, Load)).
Definition spoil_pair : list (sched luck icall) :=
  [SStep 1 fair; SStep 1 fair; SStep 1 fair; SInv 2 (0%nat, (Relaxed, Store 5))] ++ repeat (SStep 2 fair) 4 ++ [SRes 2; SStep 1 fair].
Definition pair_body (_ : unit) : wprog (unit + Z) :=
  '((lo, hi), tok) <- ldxp 0%nat ;;
  b <- (sc 0%nat tok (join 128 lo hi)) ;;
  if b then Ret (inr (join 128 lo hi)) else Ret (inl tt).
Definition pair_cont (r : Z) : wprog iret := Ret (RVal (integral_truncate false 128 128 r)).
Definition at_pair (c : config wact wresp wmem icall iret) : Prop :=
  c_thr c 2%nat = Idle /\ c_thr c 1%nat = Run pair_load (Loop pair_body tt pair_cont).
Arguments half : simpl never.
Arguments join : simpl never.
Arguments wrap : simpl never.
Arguments integral_truncate : simpl never.
Lemma at_pair_round c : at_pair c -> at_pair (fst (run wexec (pair_impl (fun _ => false)) c spoil_pair)).
Proof.
  destruct c as [m th]. unfold at_pair. simpl. intros (H2 & H3).
  assert (HV : (ver (m 0%nat) + 1 =? ver (m 0%nat)) = false) by (apply Z.eqb_neq; lia).
  repeat (first [rewrite H2 | rewrite H3 | rewrite Z.eqb_refl | rewrite HV]; simpl; unfold tset, put; simpl).
  auto.
Qed.
Lemma pair_load_starves : may_starve (pair_impl (fun _ => false)) 1 pair_load (pair_mem (fun _ => 0) (fun _ => 0)).
Proof.
  apply (starve_all (pair_impl (fun _ => false)) 1 pair_load spoil_pair at_pair) with (pre := []).
  - vm_compute. lia.
  - intros u w H. simpl in H. intuition (try discriminate); match goal with E : _ = _ |- _ => now inversion E end.
  - simpl. intuition discriminate.
  - exact at_pair_round.
  - intros c (_ & H). unfold inside, finished. rewrite H. auto.
  - intros u w [].
  - simpl. auto.
  - unfold at_pair. simpl. auto.
Qed.

(** store of a 64-bit integer on 32-bit ARM: the store-exclusive loses against another store in every round *)
Definition arm_world : world := fun _ => mkobj false 64 64 KLlscD (XLlsc true false).
Definition arm_store : icall := (0%nat, (SeqCst, Store 1)).
Definition spoil_arm : list (sched luck icall) :=
  [SStep 1 fair; SStep 1 fair; SInv 2 (0%nat, (Relaxed, Store 5))] ++ repeat (SStep 2 fair) 3 ++ [SRes 2; SStep 1 fair].
Definition at_arm (c : config wact wresp wmem icall iret) : Prop :=
  c_thr c 2%nat = Idle /\ c_thr c 1%nat = Run arm_store (int_impl arm_world arm_store).
Lemma at_arm_round c : at_arm c -> at_arm (fst (run wexec (int_impl arm_world) c spoil_arm)).
Proof.
  destruct c as [m th]. unfold at_arm. simpl. intros (H2 & H3).
  assert (HV : (ver (m 0%nat) + 1 =? ver (m 0%nat)) = false) by (apply Z.eqb_neq; lia).
  repeat (first [rewrite H2 | rewrite H3 | rewrite Z.eqb_refl | rewrite HV]; simpl; unfold tset, put; simpl).
  auto.
Qed.
Lemma arm_store_starves : may_starve (int_impl arm_world) 1 arm_store (int_mem arm_world (fun _ => 0) (fun _ => 0)).
Proof.
  apply (starve_all (int_impl arm_world) 1 arm_store spoil_arm at_arm) with (pre := []).
  - vm_compute. lia.
  - intros u w H. simpl in H. intuition (try discriminate); match goal with E : _ = _ |- _ => now inversion E end.
  - simpl. intuition discriminate.
  - exact at_arm_round.
  - intros c (_ & H). unfold inside, finished. rewrite H. auto.
  - intros u w [].
  - simpl. auto.
  - unfold at_arm. simpl. auto.
Qed.

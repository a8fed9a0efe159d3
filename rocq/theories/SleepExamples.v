(** * Concrete runs for the examples beside the theorems of PropSleep, and checkers that evaluate their hypotheses. *)
From Coq Require Import ZArith List Bool Arith Lia.
From Verif Require Import SpecInt SpecTyped SpecLin SpecObj SpecBytes SpecPool Conv Prog RG SleepLogic FindModel FindProof RecordsModel RecordsProof
  PoolModel PoolFront PoolProof PoolExamples SpecSleep.
Import ListNotations.
Open Scope Z_scope.

Lemma fset_if {A} (f : nat -> A) i x j : fset f i x j = if Nat.eqb j i then x else f j.
Proof. reflexivity. Qed.
(** ** Runs of fewer than 2^30 events keep the counters small *)
Section Short.
  Variables (search : Z -> list Z -> nat -> option nat) (init : nat).
  Context {op ret : Type} (impl : op -> pprog ret).
  Lemma counters_step t a m w m' x : pexec search init t a m w = Some (m', x) ->
    (forall i, unl m' i <= unl m i + 1) /\ (forall i k, ntf m' i k <= ntf m i k + 1).
  Proof.
    intros E.
    assert (G : forall j u m1, unl (guarded m j u m1) = unl m1 /\ ntf (guarded m j u m1) = ntf m1)
      by (intros j u m1; unfold guarded; now destruct (owned m j u)).
    assert (S : (forall i, unl m' i <= unl m i + 1) /\ (forall i k, ntf m' i k <= ntf m i k + 1) \/ (unl m' = unl m /\ ntf m' = ntf m)).
    { destruct a; cbn in E; try (injection E as E _; subst m'; right; try (destruct (G i t m) as [-> ->]); auto; fail).
      - destruct ((mx m i =? e) && (negb weak || f_lucky w)); injection E as E _; subst m'; [|right; auto]. left. cbn. split; [|intros; lia].
        intros j. rewrite fset_if. destruct (Nat.eqb_spec j i) as [->|]; [destruct (Z.odd e && negb (Z.odd d)); lia | lia].
      - injection E as E _. subst m'. left. cbn. split; [|intros; lia]. intros j. rewrite fset_if. destruct (Nat.eqb_spec j i) as [->|]; lia.
      - destruct (fword m f =? v); injection E as E _; subst m'; right; auto.
      - destruct (asleep m t); [|injection E as E _; subst m'; right; auto]. destruct (f_spur w); [injection E as E _; subst m'; right; auto|].
        destruct deadline as [d|]; [|discriminate]. destruct (d <=? clk m + Z.max 0 (f_adv w)); [|discriminate]. injection E as E _; subst m'; right; auto.
      - destruct all; [injection E as E _; subst m'; right; auto|]. destruct (picked m f (f_pick w)); injection E as E _; subst m'; right; auto.
      - destruct all; [injection E as E _; subst m'; right; auto|]. destruct (picked m (FC i k) (f_pick w)); injection E as E _; subst m'; right; auto.
      - injection E as E _. subst m'. left. cbn. split; [intros; lia|]. intros j n. unfold fset2. rewrite fset_if.
        destruct (Nat.eqb_spec j i) as [->|]; [rewrite fset_if; destruct (Nat.eqb_spec n k) as [->|]; lia | lia].
      - injection E as E _. subst m'. right. destruct (G i t (set_wct m i k v)) as [-> ->]. auto.
      - destruct (own m i); injection E as E _; subst m'; right; auto.
      - destruct (own m i); [discriminate|]. injection E as E _; subst m'; right; auto.
      - injection E as E _. subst m'. right. destruct (G i t (set_own m i None)) as [-> ->]. auto.
      - injection E as E _. subst m'. right. destruct (G i t (set_slp (set_own m i None) ((t, FC i k) :: slp m))) as [-> ->]. auto.
      - injection E as E _. subst m'. right. destruct (G i t (set_byt m z v)) as [-> ->]. auto.
      - destruct (allocate_wait_state _ _ _ _ _ _) as [[l r]|]; injection E as E _; subst m'; right; [destruct (G i t (set_wl m i l)) as [-> ->]|]; auto.
      - destruct (free_wait_state _ _) as [l|]; injection E as E _; subst m'; right; [destruct (G i t (set_wl m i l)) as [-> ->]|]; auto.
      - destruct (find _ _ _) as [l|]; injection E as E _; subst m'; right; [destruct (G i t m) as [-> ->]|]; auto.
      - destruct (cleanup _) as [l|]; injection E as E _; subst m'; right; [destruct (G i t (set_wl m i l)) as [-> ->]|]; auto. }
    destruct S as [S|[-> ->]]; [exact S|]. split; intros; lia.
  Qed.
  Lemma counters_run l : forall c : config pact presp pmem op ret,
    let c' := fst (run (pexec search init) impl c l) in
    (forall i, unl (c_mem c') i <= unl (c_mem c) i + Z.of_nat (length l)) /\
    (forall i k, ntf (c_mem c') i k <= ntf (c_mem c) i k + Z.of_nat (length l)).
  Proof.
    induction l as [|e l IH]; intros c c'; [subst c'; cbn; split; intros; lia|].
    subst c'. rewrite run_cons. specialize (IH (fst (cstep (pexec search init) impl c e))). cbn zeta in IH. destruct IH as [A B].
    assert (S : (forall i, unl (c_mem (fst (cstep (pexec search init) impl c e))) i <= unl (c_mem c) i + 1) /\
                (forall i k, ntf (c_mem (fst (cstep (pexec search init) impl c e))) i k <= ntf (c_mem c) i k + 1)).
    { destruct e as [u o|u w|u]; cbn.
      - destruct (c_thr c u); cbn; split; intros; lia.
      - destruct (c_thr c u) as [|o p]; [cbn; split; intros; lia|]. destruct p as [r|act k|S0 B0 body s k]; cbn; try (split; intros; lia).
        destruct (pexec search init u act (c_mem c) w) as [[m' y]|] eqn:E; cbn; [|split; intros; lia]. eapply counters_step; eauto.
      - destruct (c_thr c u) as [|o [r|act k|S0 B0 body s k]]; cbn; split; intros; lia. }
    destruct S as [S1 S2]. cbn [length]. split.
    - intros i. specialize (A i). specialize (S1 i). lia.
    - intros i k. specialize (B i k). specialize (S2 i k). lia.
  Qed.
End Short.
Lemma short_run pl T v m l : pool_start (fun a => t_desc (T a)) v m -> Z.of_nat (length l) < 2 ^ 30 -> counters_ok pl (c_mem (fst (t_run pl T m l))).
Proof.
  intros (A & B & _) Hl _. destruct (counters_run (pl_search pl) (pl_init pl) (t_impl pl T) l (start m)) as [C1 C2]. split.
  - intros i. specialize (C1 i). cbn in C1. destruct (A i) as (_ & _ & _ & E). rewrite E in C1. unfold t_run. lia.
  - intros i k. specialize (C2 i k). cbn in C2. destruct (B i k) as (_ & _ & E). rewrite E in C2. unfold t_run. lia.
Qed.

(** ** Checkers *)
Section Check.
  Variable pl : platform.
  Context {C R : Type} (impl : nat * C -> pprog R).
  Notation conf := (config pact presp pmem (nat * C) R).
  Notation exec := (pexec (pl_search pl) (pl_init pl)).
  Lemma idle_stays t l : forall c : conf, (forall o, ~ In (SInv t o) l) -> c_thr c t = Idle -> c_thr (fst (run exec impl c l)) t = Idle.
  Proof.
    induction l as [|e l IH]; intros c Hn Hi; [exact Hi|]. rewrite run_cons. apply IH; [intros o Ho; apply (Hn o); now right|].
    destruct e as [u o|u w|u]; cbn.
    - destruct (c_thr c u); [|exact Hi]. cbn. rewrite tset_neq; [exact Hi|]. intros ->. apply (Hn o). now left.
    - destruct (c_thr c u) as [|o p] eqn:E; [exact Hi|]. destruct (pstep exec u w (c_mem c) p) as [m' p']. cbn. rewrite tset_neq; [exact Hi | congruence].
    - destruct (c_thr c u) as [|o [r|act k|S0 B0 body s k]] eqn:E; try exact Hi. cbn. rewrite tset_neq; [exact Hi | congruence].
  Qed.
  Definition stuckb (c : conf) (t : nat) : bool :=
    match c_thr c t with
    | Idle => true
    | Run _ (Do (FSleep None) _) => asleep (c_mem c) t
    | Run _ (Do (OsLock i) _) => match own (c_mem c) i with Some _ => true | None => false end
    | _ => false
    end.
  Lemma stuckb_ok (c : conf) ts : (forall t, In t ts \/ c_thr c t = Idle) -> forallb (stuckb c) ts = true -> stuck pl c.
  Proof.
    intros Hi Hb t o p E. destruct (Hi t) as [Hin|Hin]; [|congruence]. rewrite forallb_forall in Hb. specialize (Hb t Hin). unfold stuckb in Hb. rewrite E in Hb.
    destruct p as [r|act k|S0 B0 body s k]; try discriminate. exists act, k. split; [reflexivity|]. intros w Hw.
    destruct act; try discriminate; cbn; [destruct deadline; [discriminate|]; rewrite Hb, Hw; reflexivity|]. destruct (own (c_mem c) i); [reflexivity | discriminate].
  Qed.
  Definition through (c : conf) (l : list (sched fate (nat * C))) (p : conf -> bool) : bool :=
    forallb (fun n => p (fst (run exec impl c (firstn n l)))) (seq 0 (S (length l))).
  Lemma through_ok c l (p : conf -> bool) (P : conf -> Prop) : (forall c, p c = true -> P c) -> through c l p = true -> throughout pl impl c l P.
  Proof.
    intros HP H l1 l2 E. apply HP. unfold through in H. rewrite forallb_forall in H.
    replace l1 with (firstn (length l1) l) by (rewrite E, firstn_app, Nat.sub_diag, firstn_O, app_nil_r, firstn_all; reflexivity). apply H.
    apply in_seq. rewrite E, app_length. lia.
  Qed.
End Check.

(** ** Objects: 0 lock-based, 1 lock-free and waiting through the pool, 2 waiting on a futex, 3 polling; all hold 0 *)
Definition z_obj (a : nat) : tobj :=
  mktobj (Build_odesc (64 * Z.of_nat a + 64) 4 4 true (match a with 1%nat => WPool | 2%nat => WFutex | 3%nat => WPoll | _ => WEmulated end)) (KInt true).
Notation z_D := (fun a => t_desc (z_obj a)).
Definition z_mem : pmem :=
  mkp (fun _ => 0) (fun _ => None) (fun _ => 0) (fun _ => 0) (fun _ => wlist0) (fun _ _ => 0) (fun _ _ => 0) [] 7 (fun _ => 0) (fun _ _ => 0) false.
Lemma z_target lk : target (pl_search (x_pl lk)) (pl_init (x_pl lk)).
Proof. left. split; [reflexivity|]. cbn. auto. Qed.
Lemma z_layout : layout_ok z_D.
Proof. split; intros; cbn [t_desc z_obj d_addr d_size d_align]; lia. Qed.
Lemma z_start : pool_start z_D (fun _ => 0) z_mem.
Proof.
  unfold pool_start. refine (conj _ (conj _ (conj _ (conj _ (conj _ _))))); cbn; auto; try lia.
  intros a. destruct a as [|[|[|[|a]]]]; reflexivity.
Qed.
Lemma z_idle pl l t : (forall o, ~ In (SInv t o) l) -> c_thr (fst (t_run pl z_obj z_mem l)) t = Idle.
Proof. intros H. unfold t_run. now apply idle_stays. Qed.

(** thread 1 waits for object [a] to change from 0, thread 2 stores 7; then thread 2 notifies *)
Definition z_sleep (a : nat) (c : tcall) : list (sched fate (nat * tcall)) := SInv 1%nat (a, c) :: go 1 60.
Definition z_change (a : nat) (c : tcall) := z_sleep a c ++ call 2 (a, TInt (Store 7)) 60.
Definition z_notify (a : nat) (all : bool) := call 2 (a, TNotify all) 60.
Lemma z_two (a : nat) c all t : t <> 1%nat -> t <> 2%nat -> forall o, ~ In (SInv t o) (z_change a c ++ z_notify a all).
Proof.
  intros N1 N2 o H. unfold z_change, z_notify, z_sleep, call in H. repeat (rewrite ?in_app_iff in H; cbn [In] in H).
  assert (G : forall u n, ~ In (SInv t o) (go u n)) by (intros u n K; apply repeat_spec in K; discriminate).
  repeat match goal with H : _ \/ _ |- _ => destruct H as [H|H] end; try discriminate; try congruence; try contradiction; eapply G; eauto.
Qed.
Lemma z_one (a : nat) c t : t <> 1%nat -> forall o, ~ In (SInv t o) (z_sleep a c).
Proof. intros N o [H|H]; [congruence | apply repeat_spec in H; discriminate]. Qed.

(** Booleans for the states of a run *)
Definition waitsb {R} (a : nat) (old : Z) (c : config pact presp pmem (nat * tcall) R) (t : nat) : bool :=
  match c_thr c t with
  | Run (b, TWait w) _ | Run (b, TTimed _ w _) _ => Nat.eqb a b && (w =? old)
  | _ => false
  end.
Definition sleepsb (m : pmem) (t : nat) : bool :=
  existsb (fun s => Nat.eqb (fst s) t && match snd s with FM _ => false | _ => true end) (slp m).
Lemma sleepsb_ok m t : sleepsb m t = true -> sleeps_in_wait m t.
Proof.
  intros H. apply existsb_exists in H as ([u f] & Hin & H). apply andb_true_iff in H as [E F]. apply Nat.eqb_eq in E. cbn in E, F. subst u.
  exists f. split; [exact Hin|]. intros i ->. discriminate.
Qed.
(** the operation thread [t] is in *)
Definition opof {O R} (c : config pact presp pmem O R) (t : nat) : option O := match c_thr c t with Run o _ => Some o | Idle => None end.
Lemma opof_ok {C R} (c : config pact presp pmem (nat * C) R) t o : opof c t = Some o -> running c t o.
Proof. unfold opof, running. destruct (c_thr c t) as [|o' p]; [discriminate|]. intros [= ->]. eauto. Qed.
Definition nextof {O R} (c : config pact presp pmem O R) (t : nat) : option pact :=
  match c_thr c t with Run _ (Do a _) => Some a | _ => None end.
Lemma nextof_ok {C R} (c : config pact presp pmem (nat * C) R) t a : nextof c t = Some a -> next c t a.
Proof. unfold nextof, next. destruct (c_thr c t) as [|o [r|b k|S B body s k]]; try discriminate. intros [= ->]. eauto. Qed.
Definition changedb (a : nat) (v : Z) (c : config pact presp pmem (nat * tcall) tret) : bool := negb (value_of z_D (c_mem c) a =? v).
Lemma changedb_ok pl a v c : changedb a v c = true -> at_rest pl z_D (c_mem c) a -> value_of z_D (c_mem c) a <> v.
Proof. unfold changedb. intros H _ E. rewrite E, Z.eqb_refl in H. discriminate. Qed.
Lemma z_lone pl (a : nat) c all : through pl (t_impl pl z_obj) (fst (t_run pl z_obj z_mem (z_change a c))) (z_notify a all)
    (fun c => match opof c 2 with Some (_, x) => negb (is_wait x) | None => true end) = true ->
  throughout pl (t_impl pl z_obj) (fst (t_run pl z_obj z_mem (z_change a c))) (z_notify a all) (lone_waiter a).
Proof.
  intros H l1 l2 E.
  set (c1 := fst (run (pexec (pl_search pl) (pl_init pl)) (t_impl pl z_obj) (fst (t_run pl z_obj z_mem (z_change a c))) l1)).
  assert (G : forall t x, running c1 t (a, x) -> is_wait x = true -> t = 1%nat).
  { intros t x [p R] W. destruct (Nat.eq_dec t 1) as [->|N1]; [reflexivity|]. exfalso. destruct (Nat.eq_dec t 2) as [->|N2].
    - assert (K : (match opof c1 2 with Some (_, x) => negb (is_wait x) | None => true end) = true).
      { refine (through_ok pl (t_impl pl z_obj) _ _ _ (fun c => _ = true) (fun c K => K) H l1 l2 E). }
      unfold opof in K. rewrite R, W in K. discriminate.
    - unfold c1, t_run in R. rewrite <- SleepLogic.run_app in R. fold (t_run pl z_obj z_mem (z_change a c ++ l1)) in R.
      rewrite (z_idle pl (z_change a c ++ l1) t) in R; [discriminate|]. intros o Ho. apply (z_two a c all t N1 N2 o). rewrite E.
      rewrite !in_app_iff in *. tauto. }
  intros t u x y R1 R2 W1 W2. rewrite (G t x R1 W1). symmetry. eapply G; eauto.
Qed.
Definition retof {O R} (c : config pact presp pmem O R) (t : nat) : option (O * R) := match c_thr c t with Run o (Ret r) => Some (o, r) | _ => None end.
Lemma retof_ok {O R} (c : config pact presp pmem O R) t o r : retof c t = Some (o, r) -> c_thr c t = Run o (Ret r).
Proof. unfold retof. destruct (c_thr c t) as [|o' [r'|b k|S B body s k]]; try discriminate. now intros [= -> ->]. Qed.
Lemma idleof_ok {O R} (c : config pact presp pmem O R) t : opof c t = None -> c_thr c t = Idle.
Proof. unfold opof. destruct (c_thr c t); [reflexivity | discriminate]. Qed.

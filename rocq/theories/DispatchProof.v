(** * Proofs about the choice of the search and the once flag. *)
From Coq Require Import ZArith List Bool Arith Lia.
From Verif Require Import SpecLin SpecHist SpecOnce Prog FindModel FindProof DispatchModel.
Import ListNotations.
Open Scope Z_scope.

Section Proof.
  Variables (b : build) (c : x86_cpu).
  Hypothesis Hfit : fit b c.

  (** a version that is there and that the processor can run *)
  Definition runs (v : version) : Prop :=
    v <> VDispatch /\ lacks c v = false /\ (v = VSse41 -> wide b = true).
  Definition installed (v : version) : Prop := runs v \/ v = VDispatch.

  Lemma land_bit x n : 0 <= n -> Z.land x (Z.shiftl 1 n) =? 0 = negb (Z.testbit x n).
  Proof.
    intros N. destruct (Z.testbit x n) eqn:B; cbn.
    - apply Z.eqb_neq. intros E. assert (T : Z.testbit (Z.land x (Z.shiftl 1 n)) n = false) by (rewrite E; apply Z.bits_0).
      rewrite Z.land_spec, B, Z.shiftl_spec, Z.sub_diag in T by lia. discriminate T.
    - apply Z.eqb_eq. apply Z.bits_inj'. intros k K. rewrite Z.land_spec, Z.bits_0, Z.shiftl_spec by lia.
      destruct (Z.eq_dec k n) as [->|N']; [rewrite B; reflexivity|].
      destruct (Z.lt_ge_cases k n); [rewrite (Z.testbit_neg_r 1 (k - n)) by lia; apply andb_false_r|].
      replace 1 with (2 ^ 0) by reflexivity. rewrite Z.pow2_bits_false by lia. apply andb_false_r.
  Qed.
  Lemma choose_runs e x d : 1 <= highest c -> x = features_c c -> d = features_d c -> runs (choose b e x d).
  Proof.
    intros H -> ->. unfold choose. rewrite !land_bit by lia. rewrite !negb_involutive.
    destruct (with_sse41 b && wide b) eqn:W; cbn [andb].
    - apply andb_true_iff in W. destruct W as [_ W]. destruct (Z.testbit (features_c c) 19) eqn:C.
      + split; [discriminate|]. split; [|auto]. unfold lacks. rewrite C. destruct (Z.leb_spec 1 (highest c)); [reflexivity|lia].
      + destruct (Z.testbit (features_d c) 26) eqn:D; (split; [discriminate|]; split; [unfold lacks|discriminate]); [|reflexivity].
        rewrite D. destruct (Z.leb_spec 1 (highest c)); [reflexivity|lia].
    - destruct (Z.testbit (features_d c) 26) eqn:D; (split; [discriminate|]; split; [unfold lacks|discriminate]); [|reflexivity].
      rewrite D. destruct (Z.leb_spec 1 (highest c)); [reflexivity|lia].
  Qed.
  Lemma generic_runs : runs VGeneric.
  Proof. split; [discriminate|]. split; [reflexivity|discriminate]. Qed.
  Lemma initial_installed : installed (initial_version b).
  Proof.
    unfold initial_version. destruct (with_sse41 b && wide b && negb (below (baseline b) Sse41)) eqn:E.
    - left. apply andb_true_iff in E. destruct E as [E1 E2]. apply andb_true_iff in E1. destruct E1 as [_ W].
      split; [discriminate|]. split; [|auto]. unfold fit in Hfit. destruct (baseline b); try discriminate E2.
      destruct Hfit as [_ [H B]]. unfold lacks. rewrite B. destruct (Z.leb_spec 1 (highest c)); [reflexivity|lia].
    - destruct (with_sse2 b && negb (wide b) && negb (below (baseline b) Sse2)) eqn:E'; [left|right; reflexivity].
      apply andb_true_iff in E'. destruct E' as [_ E2]. split; [discriminate|]. split; [|discriminate].
      unfold fit in Hfit. destruct (baseline b); try discriminate E2; unfold lacks; [destruct Hfit as [H B]|destruct Hfit as [[H B] _]];
        rewrite B; (destruct (Z.leb_spec 1 (highest c)); [reflexivity|lia]).
  Qed.

  (** ** Searches *)
  Section Search.
    Variables (addr : Z) (addrs : list Z) (size : nat).
    Definition answer (r : option nat) : Prop := exists v, runs v /\ r = code b v addr addrs size.
    Definition pre (a : dact) : Prop :=
      match a with
      | ALoadPtr | ACpuid _ => True
      | AStorePtr v => runs v
      | ACall v x l n => runs v
      | _ => False
      end.
    Definition post (a : dact) : dresp a -> Prop :=
      match a return dresp a -> Prop with
      | ALoadPtr => installed
      | ACpuid e => fun r => r = cpuid c e
      | ACall v x l n => fun r => r = code b v x l n
      | _ => fun _ => True
      end.
    Fixpoint good (p : dprog (option nat)) : Prop :=
      match p with
      | Ret r => answer r
      | Do a k => pre a /\ forall x, post a x -> good (k x)
      | Loop _ _ _ => False
      end.
    Lemma call_good v : runs v -> good (call v addr addrs size).
    Proof. intros H. split; [exact H|]. intros x E. exists v. auto. Qed.
    Lemma install_good v : runs v -> good (install addr addrs size v).
    Proof. intros H. split; [exact H|]. intros _ _. apply call_good. exact H. Qed.
    Lemma dispatch_good : good (dispatch b addr addrs size).
    Proof.
      unfold dispatch. destruct (with_sse2 b); [|apply install_good, generic_runs].
      split; [exact I|]. intros x E. cbn in E. unfold cpuid in E. destruct (rest c 0) as [[[a' b'] x'] d'] eqn:R. cbn in E. subst x.
      destruct (Z.leb_spec 1 (highest c)); [|apply install_good, generic_runs].
      split; [exact I|]. intros y E. cbn in E. unfold cpuid in E. destruct (rest c 1) as [[[a2 b2] x2] d2]. cbn in E. subst y.
      apply install_good. apply choose_runs; auto.
    Qed.
    Lemma find_good : good (find_address b addr addrs size).
    Proof.
      unfold find_address. destruct (with_sse2 b || with_sse41 b); [|apply call_good, generic_runs].
      split; [exact I|]. intros v [H| ->]; [|apply dispatch_good].
      destruct v; try (apply call_good; exact H). destruct H as [H _]. now elim H.
    Qed.
  End Search.

  (** ** The once flag *)
  Definition at_exit : dprog (option nat) := Do AAtExit (fun _ => Ret None).
  Definition at_exchange : dprog (option nat) := Do (AFlagExchange 1) (fun old : Z => if old =? 0 then at_exit else Ret None).
  Notation conf := (config dact dresp dmem dop (option nat)).
  Definition registers (x : conf) (t : nat) : Prop := c_thr x t = Run Register at_exit.

  Definition thread_ok (m : dmem) (o : dop) (p : dprog (option nat)) : Prop :=
    match o with
    | Search addr addrs size => good addr addrs size p
    | Register => p = register_cleanup \/ p = at_exchange \/ p = at_exit \/ p = Ret None /\ d_flag m = 1
    end.
  Record J (x : conf) : Prop := {
    j_ptr : installed (d_ptr (c_mem x));
    j_legal : d_illegal (c_mem x) = false;
    j_thr : forall t o p, c_thr x t = Run o p -> thread_ok (c_mem x) o p;
    j_flag : d_flag (c_mem x) = 0 /\ d_handlers (c_mem x) = 0%nat /\ (forall t, ~ registers x t) \/
             d_flag (c_mem x) = 1 /\ d_handlers (c_mem x) = 1%nat /\ (forall t, ~ registers x t) \/
             d_flag (c_mem x) = 1 /\ d_handlers (c_mem x) = 0%nat /\ exists t, registers x t /\ forall u, registers x u -> u = t }.

  Lemma J_start : J (start (d_start b)).
  Proof.
    constructor; cbn; [exact initial_installed | reflexivity | discriminate |].
    left. repeat split. intros t H. discriminate H.
  Qed.
  Lemma tset_same {A} (f : nat -> A) t x : tset f t x t = x.
  Proof. unfold tset. now rewrite Nat.eqb_refl. Qed.
  Lemma tset_other {A} (f : nat -> A) t x u : u <> t -> tset f t x u = f u.
  Proof. intros N. unfold tset. now rewrite (proj2 (Nat.eqb_neq u t) N). Qed.
  Lemma register_not_exit : register_cleanup <> at_exit. Proof. discriminate. Qed.
  Lemma exchange_not_exit : at_exchange <> at_exit. Proof. discriminate. Qed.

  (** a step of thread [t] that leaves the flag alone, and does not begin or end a registration *)
  Lemma J_quiet x s m' t : J x ->
    installed (d_ptr m') -> d_illegal m' = false -> d_flag m' = d_flag (c_mem x) -> d_handlers m' = d_handlers (c_mem x) ->
    ~ registers x t -> s <> Run Register at_exit ->
    (forall o p, s = Run o p -> thread_ok m' o p) -> J (mkc m' (tset (c_thr x) t s)).
  Proof.
    intros [J1 J2 J3 J4] P1 P2 P3 P4 N1 N2 G. set (e := mkc m' (tset (c_thr x) t s)).
    assert (RR : forall u, registers e u <-> registers x u).
    { intros u. unfold registers. cbn. destruct (Nat.eq_dec u t) as [->|N]; [|rewrite tset_other by exact N; tauto].
      rewrite tset_same. split; intros K; [elim (N2 K)|elim (N1 K)]. }
    constructor; auto.
    - intros u o p. cbn. destruct (Nat.eq_dec u t) as [->|N]; [rewrite tset_same; apply G|]. rewrite tset_other by exact N.
      intros K. specialize (J3 u o p K). unfold thread_ok in *. now rewrite P3.
    - cbn. rewrite P3, P4. destruct J4 as [(A & B & C)|[(A & B & C)|(A & B & v & C & D)]].
      + left. repeat split; auto. intros u. rewrite RR. apply C.
      + right; left. repeat split; auto. intros u. rewrite RR. apply C.
      + right; right. repeat split; auto. exists v. split; [now apply RR|]. intros u. rewrite RR. apply D.
  Qed.

  Lemma J_step x t w o p : J x -> c_thr x t = Run o p ->
    J (let (m', p') := pstep (dexec b c) t w (c_mem x) p in mkc m' (tset (c_thr x) t (Run o p'))) /\
    (d_flag (c_mem x) = 1 -> d_flag (fst (pstep (dexec b c) t w (c_mem x) p)) = 1).
  Proof.
    intros HJ E. pose proof HJ as HJ'. destruct HJ' as [J1 J2 J3 J4]. pose proof (J3 t o p E) as G. destruct o as [addr addrs size|].
    - cbn in G. assert (NR : ~ registers x t) by (unfold registers; rewrite E; discriminate).
      destruct p as [r|a k|? ? body s k]; [| |elim G].
      + cbn. split; [|auto]. apply J_quiet; auto; [discriminate|]. intros o' p' [= <- <-]. exact G.
      + destruct G as [G1 G2]. destruct a; try (elim G1); cbn in *.
        * split; [|auto]. apply J_quiet; auto; [discriminate|]. intros o' p' [= <- <-]. apply G2. exact J1.
        * split; [|auto]. apply J_quiet; auto; cbn; [now left|discriminate|]. intros o' p' [= <- <-]. apply (G2 tt I).
        * split; [|auto]. apply J_quiet; auto; [discriminate|]. intros o' p' [= <- <-]. apply G2. reflexivity.
        * split; [|auto]. apply J_quiet; auto; cbn; [|discriminate|].
          { destruct G1 as (_ & L & _). now rewrite J2, L. }
          intros o' p' [= <- <-]. apply G2. reflexivity.
    - cbn in G. destruct G as [->|[->|[->|[-> F]]]].
      + cbn. split; [|auto]. assert (NR : ~ registers x t) by (unfold registers; rewrite E; discriminate).
        destruct (d_flag (c_mem x) =? 0) eqn:Z.
        * apply J_quiet; auto; [discriminate|]. intros o' p' [= <- <-]. right; left. reflexivity.
        * apply J_quiet; auto; [discriminate|]. intros o' p' [= <- <-]. right; right; right. split; [reflexivity|].
          apply Z.eqb_neq in Z. tauto.
      + cbn. split; [|auto]. assert (NR : ~ registers x t) by (unfold registers; rewrite E; discriminate).
        destruct J4 as [(A & B & C)|J4].
        * rewrite A. cbn [Z.eqb]. constructor; cbn; auto.
          -- intros u o' p'. destruct (Nat.eq_dec u t) as [->|N]; [rewrite tset_same; intros [= <- <-]; right; right; left; reflexivity|].
             rewrite tset_other by exact N. intros K. specialize (J3 u o' p' K). destruct o'; [exact J3|]. cbn in *. tauto.
          -- right; right. repeat split; auto. exists t. split; [unfold registers; cbn; apply tset_same|].
             intros u K. destruct (Nat.eq_dec u t) as [|N]; [assumption|]. unfold registers in K. cbn in K. rewrite tset_other in K by exact N.
             elim (C u K).
        * assert (A : d_flag (c_mem x) = 1) by tauto. rewrite A. cbn [Z.eqb].
          replace (DMem (d_ptr (c_mem x)) 1 (d_handlers (c_mem x)) (d_illegal (c_mem x))) with (c_mem x) by (destruct (c_mem x); cbn in *; congruence).
          apply J_quiet; auto; [discriminate|]. intros o' p' [= <- <-]. right; right; right. auto.
      + cbn. split; [|auto]. assert (R : registers x t) by exact E.
        destruct J4 as [(A & B & C)|[(A & B & C)|(A & B & v & C & D)]]; [elim (C t R)|elim (C t R)|]. pose proof (D t R) as <-.
        constructor; cbn; auto.
        * intros u o' p'. destruct (Nat.eq_dec u t) as [->|N]; [rewrite tset_same; intros [= <- <-]; right; right; right; auto|].
          rewrite tset_other by exact N. intros K. exact (J3 u o' p' K).
        * right; left. rewrite B. repeat split; auto. intros u K. unfold registers in K. cbn in K.
          destruct (Nat.eq_dec u t) as [->|N]; [rewrite tset_same in K; discriminate K|]. rewrite tset_other in K by exact N.
          elim N. apply D. exact K.
      + cbn. split; [|auto]. apply J_quiet; auto; [unfold registers; rewrite E; discriminate|discriminate|].
        intros o' p' [= <- <-]. right; right; right. auto.
  Qed.

  Definition matches (q : nat -> option dop) (x : conf) : Prop :=
    forall t, q t = match c_thr x t with Run o _ => Some o | Idle => None end.
  Lemma matches_tset q x t s m' : matches q x ->
    matches (tset q t (match s with Run o _ => Some o | Idle => None end)) (mkc m' (tset (c_thr x) t s)).
  Proof.
    intros M u. cbn. destruct (Nat.eq_dec u t) as [->|N]; [now rewrite !tset_same|]. rewrite !tset_other by exact N. apply M.
  Qed.

  Definition right_call (f : Z) (k : nat * dop * option nat) : Prop :=
    match k with (t, o, r) => thread_ok (DMem VGeneric f 0 false) o (Ret r) end.
  Lemma J_run l : forall x q, J x -> matches q x ->
    let e := fst (run (dexec b c) (dimpl b) x l) in let h := snd (run (dexec b c) (dimpl b) x l) in
    J e /\ (d_flag (c_mem x) = 1 -> d_flag (c_mem e) = 1) /\ forall k, In k (completed_from q h) -> right_call (d_flag (c_mem e)) k.
  Proof.
    induction l as [|s l IH]; intros x q HJ M; cbn [run]; [cbn; split; [exact HJ|]; split; [auto|intros ? []]|].
    destruct s as [t o|t w|t]; cbn [cstep].
    - destruct (c_thr x t) as [|o' p'] eqn:E.
      + set (y := mkc (c_mem x) (tset (c_thr x) t (Run o (dimpl b o)))).
        assert (Jy : J y).
        { apply J_quiet; auto; try apply HJ; [unfold registers; rewrite E; discriminate| |].
          - intros [= -> K]. discriminate K.
          - intros o' p' [= <- <-]. destruct o; [apply find_good|left; reflexivity]. }
        specialize (IH y (tset q t (Some o)) Jy (matches_tset q x t (Run o (dimpl b o)) (c_mem x) M)).
        destruct (run (dexec b c) (dimpl b) y l) as [e h]. exact IH.
      + specialize (IH x q HJ M). destruct (run (dexec b c) (dimpl b) x l) as [e h]. exact IH.
    - destruct (c_thr x t) as [|o p] eqn:E.
      + specialize (IH x q HJ M). destruct (run (dexec b c) (dimpl b) x l) as [e h]. exact IH.
      + pose proof (J_step x t w o p HJ E) as [Jy Fy]. destruct (pstep (dexec b c) t w (c_mem x) p) as [m' p'] eqn:P. cbn [fst] in Fy.
        set (y := mkc m' (tset (c_thr x) t (Run o p'))) in *.
        assert (My : matches q y).
        { intros u. cbn. destruct (Nat.eq_dec u t) as [->|N]; [rewrite tset_same; specialize (M t); now rewrite E in M|].
          rewrite tset_other by exact N. apply M. }
        specialize (IH y q Jy My). destruct (run (dexec b c) (dimpl b) y l) as [e h]. destruct IH as (I1 & I2 & I3).
        split; [exact I1|]. split; [intros F; apply I2, Fy, F|exact I3].
    - assert (Stay : let e := fst (let (c2, h2) := run (dexec b c) (dimpl b) x l in (c2, [] ++ h2)) in
                     let h := snd (let (c2, h2) := run (dexec b c) (dimpl b) x l in (c2, [] ++ h2)) in
                     J e /\ (d_flag (c_mem x) = 1 -> d_flag (c_mem e) = 1) /\ forall k, In k (completed_from q h) -> right_call (d_flag (c_mem e)) k).
      { specialize (IH x q HJ M). destruct (run (dexec b c) (dimpl b) x l) as [e h]. exact IH. }
      destruct (c_thr x t) as [|o [r|a k|? ? body s k]] eqn:E; [exact Stay| |exact Stay|exact Stay]. clear Stay.
      pose proof (j_thr x HJ t o (Ret r) E) as G.
      set (y := mkc (c_mem x) (tset (c_thr x) t Idle)).
      assert (Jy : J y).
      { apply J_quiet; auto; try apply HJ; [|discriminate|discriminate]. unfold registers. rewrite E. intros K. unfold at_exit in K. discriminate K. }
      specialize (IH y (tset q t None) Jy (matches_tset q x t Idle (c_mem x) M)).
      destruct (run (dexec b c) (dimpl b) y l) as [e h]. destruct IH as (I1 & I2 & I3).
      split; [exact I1|]. split; [exact I2|]. cbn [fst snd app completed_from] in I3 |- *. rewrite (M t), E. cbn [In]. intros k [<-|K].
      + destruct o as [addr addrs size|]; [exact G|]. cbn in G |- *. destruct G as [G|[G|[G|[G1 G2]]]]; try discriminate G.
        right; right; right. split; [exact G1|]. apply I2. exact G2.
      + apply I3. exact K.
  Qed.

  (** ** Results *)
  Lemma run_ok l : J (fst (d_run b c l)).
  Proof. apply (J_run l (start (d_start b)) (fun _ => None) J_start). intros t. reflexivity. Qed.
  Lemma run_calls l k : In k (completed (snd (d_run b c l))) -> right_call (d_flag (c_mem (fst (d_run b c l)))) k.
  Proof. apply (J_run l (start (d_start b)) (fun _ => None) J_start). intros t. reflexivity. Qed.

  Lemma code_finds v k addr addrs size : runs v ->
    length addrs = ((if wide b then 2 else 4) * 2 ^ k)%nat -> (size <= length addrs)%nat ->
    exists pos, code b v addr addrs size = Some pos /\ finds addr addrs size pos.
  Proof.
    intros (N & _ & W) L S. destruct (wide b) eqn:E.
    - apply (versions64_ok k addr addrs size (code b v) L S). destruct v; cbn; rewrite ?E; tauto.
    - apply (versions32_ok k addr addrs size (code b v) L S). destruct v; cbn; rewrite ?E; try tauto. specialize (W eq_refl). discriminate W.
  Qed.
End Proof.

(** * The text of the lock pool does what PoolModel.v says: the locks *)
From Coq Require Import ZArith List Bool String Lia Arith.
From Verif Require Import SpecInt SpecBytes SpecPool Order Conv Prog FindModel RecordsModel SimProof PoolModel PoolText PoolTable PoolLayers.
Import ListNotations.
Local Open Scope string_scope.
Local Open Scope Z_scope.
Local Open Scope prog_scope.

(** running the text: everything but the numbers and the layers below *)
Ltac go := lazy beta iota zeta delta [
  runf call lookup cond_ok bind_params finals forallb pf_name pf_cond pf_params pf_body
  block exec eval evals invoke conv convop cut num truth bin un field opt puts put get result after
  system done is fst snd rev app firstn List.length String.eqb Ascii.eqb Bool.eqb andb orb negb
  String.append member
  bind pdo do loop
  as_lock as_bool as_num as_void a_lock a_bool a_num a_record a_state ret_val ret_bool ret_unit ret_cas ret_waited
  bin_name res_name un_name unres_name bin_apply un_apply
  conf sys_sleep stuck no_own locks records pool_api addresses guards base_lock scopes outside extra_base object
  pthread_lock_fns futex_lock_fns srw_lock_fns pthread_cond_fns futex_cond_fns srw_cond_fns
  pool_fns fence_fns hash_fns slock_fns swait_fns core_emulated_fns extra_emulated_fns
  wait_emulated_fns wait_pool_fns wait_poll_fns wait_futex_fns ].

Lemma for_block : forall pl d tpl ext own it z b rest E R kn kr kb kg,
  block pl d tpl ext own it (SFor (ENum z) b :: rest) E R kn kr kb kg =
  rounds (fun E1 next => block pl d tpl ext own it b E1 R (fun E2 => next (cut E E2)) (fun v E2 => kr v (cut E E2))
            (fun E2 => block pl d tpl ext own it rest (cut E E2) R kn kr kb kg)
            (fun l E2 => (fix seek (c : list pstmt) : pprog R :=
                   match c with
                   | [] => kg l (cut E E2)
                   | s :: c' => match s with
                                | SLabel l' => if String.eqb l l' then block pl d tpl ext own it c' (cut E E2) R kn kr kb kg else seek c'
                                | _ => seek c'
                                end
                   end) rest)) (count z) E
    (fun E => block pl d tpl ext own it rest E R kn kr kb kg).
Proof. reflexivity. Qed.

Lemma iter_S : forall pl d tpl ext n s E E1,
  iter pl d tpl ext (S n) s E E1 =
    let leave v := Ret (inr v) in
    let run b E2 kn :=
      block pl d tpl ext no_own (iter pl d tpl ext n) b E2 _ kn (fun v E3 => leave (XR v (cut E E3)))
        (fun E3 => leave (XN (cut E E3))) (fun l E3 => leave (XG l (cut E E3))) in
    match s with
    | SWhile c b =>
        eval pl d tpl ext no_own c E1 _ (fun v E2 => opt (truth v) (fun t =>
          if t then run b E2 (fun E3 => Ret (inl (cut E E3))) else leave (XN (cut E E2))))
    | SDoWhile b c =>
        run b E1 (fun E3 => eval pl d tpl ext no_own c E3 _ (fun v E4 => opt (truth v) (fun t =>
          if t then Ret (inl (cut E E4)) else leave (XN (cut E E4)))))
    | _ => stuck
    end.
Proof. reflexivity. Qed.
Ltac round := unfold lock_iter, cond_iter, wait_iter; rewrite iter_S; go.

(** one step on both sides *)
Ltac resp x := cbn [presp] in x; match type of x with unit => destruct x | bool => idtac | _ => idtac end.
Ltac act1 := apply sim_do; let x := fresh "x" in intros x; resp x.
Ltac leaf := apply sim_ret; cbn [sum_rel]; try reflexivity.
Ltac steps := repeat (first [ leaf; [] | act1 ]); try (leaf; fail).

Ltac unroll := lazy beta iota zeta delta [
  runf call lookup cond_ok bind_params finals forallb pf_name pf_cond pf_params pf_body fst snd andb orb
  String.eqb Ascii.eqb Bool.eqb app
  pthread_lock_fns futex_lock_fns srw_lock_fns wait_poll_fns].
Ltac sub H := eapply sim_bind_eq; [exact H|]; let r := fresh "r" in intros r; match type of r with unit => destruct r | _ => idtac end.
(** ... whose value is made from that of the other one *)
Lemma sim_map : forall R R' Q Q' (E : Q -> Q' -> Prop) (p : pprog R) (q : pprog R') g (f : R -> pprog Q) (h : R' -> pprog Q'),
  sim eq p (x <- q ;; Ret (g x)) -> (forall x, sim E (f (g x)) (h x)) -> sim E (x <- p ;; f x) (x <- q ;; h x).
Proof.
  intros R R' Q Q' E p q g f h H K. apply (sim_bind _ _ _ _ (fun v x => v = g x)).
  - refine (sim_mono _ _ _ _ _ _ _ (sim_trans _ _ _ _ _ _ _ _ H _)).
    + intros v x [u [e k]]. subst u. exact k.
    + apply sim_bind_ret_r. apply sim_bind_eq; [apply sim_refl|]. intros x. apply sim_ret. reflexivity.
  - intros v x e. subst v. apply K.
Qed.
Ltac subm H := eapply sim_map; [exact H|]; let r := fresh "r" in intros r; match type of r with unit => destruct r | _ => idtac end.

Section Locks.
  Variables (pl : platform) (d : odesc).

  Notation mine i := ("this", (TO, PLk i)).
  Lemma clear_bit : forall x, u32 (Z.land (u32 x) (Z.lnot 2)) = Z.land (u32 x) (Z.lnot 2).
  Proof.
    intros x. unfold u32, wrap. apply Z.bits_inj'. intros n Hn.
    rewrite <- !Z.land_ones by lia. rewrite !Z.land_spec.
    destruct (Z.testbit x n), (Z.testbit (Z.ones 32) n), (Z.testbit (Z.lnot 2) n); reflexivity.
  Qed.

  Lemma text_unlock : forall i, sim eq (lock_text pl d "unlock" i) (release (pl_lock pl) i).
  Proof.
    intros i. unfold lock_text, lock_fns, release. destruct (pl_lock pl).
    - go. act1. leaf.
    - go. unfold futex_unlock. go. act1.
      apply (sim_loop _ _ _ _ _
        (fun (E : env) (y : Z) => exists n, E = [mine i; ("prev_state", (TF, PZ y)); ("new_state", (TF, n))])
        (fun (b : exit) (y : Z * Z) =>
           exists n, snd y = u32 n /\ b = XN [mine i; ("prev_state", (TF, PZ (fst y))); ("new_state", (TF, PZ (snd y)))])).
      + intros E y [n e]. subst E. round. act1. destruct x0 as [[|] cur]; leaf.
        * eexists. split; reflexivity.
        * eexists. reflexivity.
      + eexists. reflexivity.
      + intros b [p q] [n [e f]]. cbn [fst snd] in e, f. subst b. go.
        change (Z.land p (u32 (Z.shiftl 1 1)) =? 0) with (Z.land p contended =? 0).
        destruct (Z.land p contended =? 0); [leaf|].
        act1. change 0 with (Z.of_nat 0).
        destruct (Nat.eqb_spec x0 0) as [z|z].
        * subst x0. cbn [Z.of_nat]. change (0 =? 0) with true. cbn iota. change (u32 (Z.shiftl 1 1)) with 2.
          rewrite e, clear_bit. act1. leaf.
        * destruct (Z.eqb_spec (Z.of_nat x0) (Z.of_nat 0)) as [z'|z']; [lia|]. leaf.
    - go. act1. leaf.
  Qed.

  (** what follows the spinning *)
  Lemma text_slow : forall i,
    sim eq (runf pl d (conf pl d false false) system (lock_iter pl d) futex_lock_fns [mine i] "lock_slow_path" [] (fun _ _ _ => Ret tt))
      (lock_slow_path i).
  Proof.
    intros i. unfold lock_slow_path, futex_wait_on. go. act1.
    apply (sim_loop _ _ _ _ _
      (fun (E : env) (y : Z) => E = [mine i; ("prev_state", (TF, PZ y))])
      (fun (b : exit) (_ : unit) => exists v E, b = XR v E)).
    - intros E y e. subst E. round. change locked with 1.
      destruct (Z.land y 1 =? 0).
      + act1. destruct x0 as [[|] cur]; leaf. do 2 eexists. reflexivity.
      + change (u32 (Z.shiftl 1 1)) with contended. act1. destruct x0 as [[|] cur].
        * act1. destruct x0.
          -- act1. destruct x0; act1; leaf.
          -- act1. leaf.
        * leaf.
    - reflexivity.
    - intros b [] [v [E e]]. subst b. leaf.
  Qed.

Lemma text_long : forall i, sim eq (lock_text pl d "long_lock" i) (acquire (pl_lock pl) i).
  Proof.
    intros i. unfold lock_text, lock_fns, acquire. destruct (pl_lock pl).
    - unroll. rewrite for_block.
      match goal with |- sim _ (rounds ?s _ _ ?k) _ => set (STEP := s); set (K := k) end.
      change (os_spin 5 i) with (os_spin (count 5) i). generalize (count 5) as n. induction n as [|n IH].
      + change (rounds STEP 0 [mine i] K) with (K [mine i]). unfold K. go. act1. leaf.
      + change (rounds STEP (S n) [mine i] K) with (STEP [mine i] (fun E => rounds STEP n E K)).
        unfold STEP at 1. cbn [os_spin]. go. act1. destruct x; [leaf|]. act1. exact IH.
    - unroll. rewrite for_block.
      match goal with |- sim _ (rounds ?s _ _ ?k) _ => set (STEP := s); set (K := k) end.
      change (futex_spin 10 i) with (futex_spin (count 10) i). generalize (count 10) as n. induction n as [|n IH].
      + change (rounds STEP 0 [mine i] K) with (K [mine i]). unfold K. exact (text_slow i).
      + change (rounds STEP (S n) [mine i] K) with (STEP [mine i] (fun E => rounds STEP n E K)).
        unfold STEP at 1. cbn [futex_spin]. change locked with 1. go. act1. destruct (Z.land x 1 =? 0).
        * act1. destruct x0 as [[|] cur]; [leaf|]. act1. exact IH.
        * act1. exact IH.
    - go. act1. leaf.
  Qed.
  Lemma text_short : forall i, sim eq (lock_text pl d "short_lock" i) (acquire (pl_lock pl) i).
  Proof.
    intros i. refine (sim_eq_trans _ _ _ _ _ (text_long i)).
    unfold lock_text, lock_fns. destruct (pl_lock pl); go; apply sim_refl.
  Qed.
End Locks.

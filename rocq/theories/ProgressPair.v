(** * 128-bit AArch64 operations complete when left alone. *)
From Coq Require Import ZArith List Bool Lia.
From Verif Require Import SpecInt SpecLin SpecAlone Order Conv Prog Word CoreModel ExtraModel IntModel PairModel Progress ProgressInt.
Import ListNotations.
Open Scope Z_scope.
Open Scope prog_scope.
Opaque ob ev after.
Arguments half : simpl never.
Arguments join : simpl never.

Lemma ldxp_gen_fin a (f g : Z -> Z -> Z) :
  ob a 12 (loop tt (fun _ =>
          bind (ldxp a) (fun y => let (p, tok) := y in let (lo, hi) := p in
          bind (sc a tok (f lo hi)) (fun b => if b : bool then Ret (inr (g lo hi)) else Ret (inl tt))))).
Proof.
  apply (once_fin a _ 3 tt).
  - intros _. unfold ldxp, llhalf, sc. cbn [bind do]. apply ob_do. intros [x tok]. apply ob_do. intros [y tok'].
    apply ob_do. intros [|]; apply ob_ret.
  - intros _ c. unfold ldxp, llhalf, sc. cbn [bind do]. ev1. inversion E; subst. ev1. inversion E0; subst. cbn [bind].
    ev1. rewrite Hm, Z.eqb_refl in E1. inversion E1; subst. apply ev_ret. exact I.
Qed.

Lemma pair_cas_fin a e d : ob a 12 (pair_cas a e d).
Proof.
  apply (once_fin a _ 3 tt).
  - intros _. unfold ldxp, llhalf, sc. cbn [bind do]. apply ob_do. intros [x tok]. apply ob_do. intros [y tok'].
    cbn [bind]. destruct (_ && _); [|apply ob_ret]. apply ob_do. intros [|]; apply ob_ret.
  - intros _ c. unfold ldxp, llhalf, sc. cbn [bind do]. ev1. inversion E; subst. ev1. inversion E0; subst. cbn [bind].
    destruct (_ && _); [|apply ev_ret; exact I].
    ev1. rewrite Hm, Z.eqb_refl in E1. inversion E1; subst. apply ev_ret. exact I.
Qed.

Lemma pair_casw_fin a e d : ob a 12 (pair_casw a e d).
Proof.
  unfold pair_casw, ldxp, llhalf, sc. cbn [bind do]. apply ob_do. intros [x tok]. apply ob_do. intros [y tok'].
  cbn [bind]. destruct (_ && _); [|apply ob_ret]. apply ob_do. intros b. apply ob_ret.
Qed.

Lemma pair_prog_fin sg mo a o : ob a 12 (int_front aarch64_pair (extra_pair sg) sg 128 mo a o).
Proof.
  assert (H1 : forall f, ob a 12 (ldxp_loop a f)) by (intros f; apply (ldxp_gen_fin a f (join 128))).
  assert (H2 : forall f, ob a 12 (ldxp_loop_new a f)) by (intros f; apply (ldxp_gen_fin a f f)).
  assert (T : forall R R' (p : wprog R) (f : R -> R'), ob a 12 p -> ob a 12 (bind p (fun r => Ret (f r)))).
  { intros R R' p f Hp. rewrite <- (Nat.add_0_r 12). apply ob_bind; auto. intros r. apply ob_ret. }
  unfold int_front, front. cbv zeta.
  destruct o as [v| |v|e d|e d|f e|k i].
  - cbn [c_store aarch64_pair]. apply (T _ _ _ (fun _ => RUnit)). apply (T _ _ _ (fun _ => tt)). apply H1.
  - apply (T _ _ _ (fun r => RVal _)). apply H1.
  - apply (T _ _ _ (fun r => RVal _)). apply H1.
  - rewrite <- (Nat.add_0_r 12). apply ob_bind; [apply pair_cas_fin | intros [b r]; apply ob_ret].
  - rewrite <- (Nat.add_0_r 12). apply ob_bind; [apply pair_casw_fin | intros [b r]; apply ob_ret].
  - destruct f, e; cbn [x_fetch_un x_bin x_un x_opaque_bin x_opaque_un x_test_bin x_test_un extra_pair].
    + apply (T _ _ _ (fun r => RVal _)). apply H1.
    + apply (T _ _ _ (fun r => RVal _)). apply H1.
    + apply (T _ _ _ (fun r => RVal _)). apply H2.
    + apply (T _ _ _ (fun r => RVal _)). apply H2.
    + apply (T _ _ _ (fun r => RUnit)). apply (T _ _ _ (fun _ => tt)). apply H2.
    + apply (T _ _ _ (fun r => RUnit)). apply (T _ _ _ (fun _ => tt)). apply H2.
    + apply (T _ _ _ (fun r => RBool r)). apply (T _ _ _ (fun r => negb (r =? 0))). apply H2.
    + apply (T _ _ _ (fun r => RBool r)). apply (T _ _ _ (fun r => negb (r =? 0))). apply H2.
  - apply (T _ _ _ (fun r => RBool r)). cbn [x_bit extra_pair extra_generic]. unfold gen_bit.
    apply (T _ _ _ (fun r => negb (Z.land r _ =? 0))). destruct k; apply H1.
Qed.

Theorem pair_progress_aux W v0 n0 l1 l2 t a mo o :
  let c1 := fst (pair_run W v0 n0 l1) in
  inside c1 t (a, (mo, o)) -> alone (pair_impl W) t a c1 l2 -> (12 <= steps_by t l2)%nat ->
  finished (fst (run wexec (pair_impl W) c1 l2)) t.
Proof.
  intros c1. unfold c1, pair_run.
  apply (progress_sched (pair_impl W) (fun c : icall => fst c) 12 (pair_mem v0 n0) l1 l2 t (a, (mo, o))).
  intros (b & mo' & o'). apply pair_prog_fin.
Qed.

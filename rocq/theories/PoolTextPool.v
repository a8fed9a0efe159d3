(** * The text of the lock pool does what PoolModel.v says: the functions of the pool, the guards *)
From Coq Require Import ZArith List Bool String Lia Arith.
From Verif Require Import SpecInt SpecBytes SpecPool Order Conv Prog FindModel RecordsModel SimProof PoolModel PoolText PoolTable PoolLayers PoolTextProof PoolTextCond.
Import ListNotations.
Local Open Scope string_scope.
Local Open Scope Z_scope.
Local Open Scope prog_scope.

Section Pool.
  Variables (pl : platform) (d : odesc).
  Notation lk := (pl_lock pl).
  Notation idx h := (Z.to_nat (get_lock_index pl h)).
  Notation wsv := a_record.

  Lemma pool_lock : forall (long : bool) h,
    sim eq (pool_text pl d (if long then "long_lock" else "short_lock") [PZ h] as_lock) (acquire lk (idx h) ;;; Ret (idx h)).
  Proof.
    intros long h. unfold pool_text. destruct long; go; fold (get_lock_index pl h).
    - sub (text_long pl d (idx h)). leaf.
    - sub (text_short pl d (idx h)). leaf.
  Qed.
  Lemma pool_unlock : forall i, sim eq (pool_text pl d "unlock" [PLk i] as_void) (release lk i).
  Proof. intros i. unfold pool_text. apply sim_bind_ret_r. go. sub (text_unlock pl d i). leaf. Qed.
  Lemma pool_wait_text : forall i ws, sim eq (pool_text pl d "wait" [PLk i; wsv i ws] as_void) (pool_wait pl i ws).
  Proof.
    intros i ws. unfold pool_text, pool_wait. destruct ws as [k|]; unfold wsv; go.
    - rewrite Nat.eqb_refl. go. apply sim_bind_ret_r. pose proof (text_wait pl d i k) as H. unfold cond_wait in H. sub H. leaf.
    - sub (text_unlock pl d i). unfold pdo, do. cbn [bind]. act1. apply sim_bind_ret_r. sub (text_long pl d i). leaf.
  Qed.

  Lemma lexico : forall t u, (t <=? u) = ((t / 1000000000 <? u / 1000000000) ||
    ((u / 1000000000 =? t / 1000000000) && (t mod 1000000000 <=? u mod 1000000000))).
  Proof.
    intros t u. pose proof (Z.div_mod t 1000000000) as A. pose proof (Z.div_mod u 1000000000) as B.
    pose proof (Z.mod_pos_bound t 1000000000) as A'. pose proof (Z.mod_pos_bound u 1000000000) as B'.
    destruct (Z.leb_spec t u), (Z.ltb_spec (t / 1000000000) (u / 1000000000)), (Z.eqb_spec (u / 1000000000) (t / 1000000000)),
      (Z.leb_spec (t mod 1000000000) (u mod 1000000000)); cbn; try reflexivity; exfalso; lia.
  Qed.
  Lemma pool_until_text : forall i ws t, lk <> LSrw ->
    sim eq (pool_text pl d "wait_until" [PLk i; wsv i ws; PU; PZ t] as_bool) (pool_wait_until pl i ws t).
  Proof.
    intros i ws t N. unfold pool_text, conf, cond_ok. 
    assert (B : match lk with LSrw => false | _ => true end = true) by (destruct lk; congruence). rewrite B. clear B.
    destruct ws as [k|]; unfold wsv.
    - apply sim_bind_ret_r. go; rewrite Nat.eqb_refl; go. sub (sim_refl _ (pool_wait_until pl i (Some k) t)). leaf.
    - go. unfold pool_wait_until. sub (text_unlock pl d i). unfold pdo, do. cbn [bind]. act1. 
      sub (text_long pl d i). cbn [bind]. act1. change (0 =? 0) with true. cbn iota.
      rewrite (lexico t x).
      destruct (t / 1000000000 <? x / 1000000000); [leaf|]. cbn [orb]. destruct (x / 1000000000 =? t / 1000000000); leaf.
  Qed.
  Lemma pool_for_text : forall i ws t,
    sim eq (pool_text pl d "wait_for" [PLk i; wsv i ws; PZ t] as_bool) (pool_wait_for pl i ws t).
  Proof.
    intros i ws t. unfold pool_text. destruct ws as [k|]; unfold wsv; go.
    - apply sim_bind_ret_r. rewrite Nat.eqb_refl; go. sub (sim_refl _ (pool_wait_for pl i (Some k) t)). leaf.
    - unfold pool_wait_for, pdo, do. cbn [bind]. act1. sub (text_unlock pl d i). cbn [bind]. act1.
      sub (text_long pl d i). cbn [bind]. act1. leaf.
  Qed.
  Lemma pool_notify_text : forall i (all : bool),
    sim eq (pool_text pl d (if all then "notify_all" else "notify_one") [PLk i; PAddr] as_void) (pool_notify pl i (d_addr d) all).
  Proof.
    intros i all. unfold pool_text, pool_notify. unfold pdo at 1, do at 1. cbn [bind].
    pose proof (fun k => text_notify pl d i k all) as H. unfold cond_notify in H.
    destruct all; go; act1; (destruct x as [k|]; [|leaf]); go; rewrite Nat.eqb_refl; go; apply sim_bind_ret_r; sub (H k); leaf.
  Qed.

  (** the guards *)
  Notation i := (lock_of pl d).
  Lemma hash_eq : hash_text pl d = Ret (hash_ptr (pl_malloc pl) (d_align d) (d_addr d)).
  Proof. unfold hash_text, hash_ptr. go. destruct (d_align d =? pl_malloc pl); reflexivity. Qed.
  Lemma guard_new : forall long, sim eq (slock_new pl d long) (acquire lk i ;;; Ret i).
  Proof.
    intros long. unfold slock_new. pose proof (pool_lock long (hash_ptr (pl_malloc pl) (d_align d) (d_addr d))) as H.
    fold (lock_of pl d) in H. destruct long; go; rewrite hash_eq; go; subm H; leaf.
  Qed.
  Lemma guard_del : forall j, sim eq (slock_do pl d "~scoped_lock" (PLk j) as_void) (release lk j).
  Proof. intros j. unfold slock_do. apply sim_bind_ret_r. go. sub (pool_unlock j). leaf. Qed.
  Lemma guard_get : forall j, slock_do pl d "get_lock_state" (PLk j) as_lock = Ret j.
  Proof. reflexivity. Qed.

  Lemma state_new : sim eq (swait_new pl d) (acquire lk i ;;; ws <- pdo (WlBegin i (d_addr d)) ;; Ret (i, ws)).
  Proof.
    unfold swait_new. go. subm (guard_new true). rewrite guard_get. go. act1.
    destruct x; [|leaf]. cbn iota. rewrite Nat.eqb_refl. leaf.
  Qed.
  Lemma state_del : forall j ws, sim eq (swait_del pl d (PLk j) (wsv j ws))
    ((match ws with Some k => pdo (WlEnd j k) | None => Ret tt end) ;;; release lk j).
  Proof.
    intros j ws. unfold swait_del, swait_do. destruct ws as [k|]; go; rewrite guard_get; go.
    - rewrite Nat.eqb_refl. go. act1. exact (guard_del j).
    - exact (guard_del j).
  Qed.
  Lemma state_wait : forall j ws, sim eq (swait_do pl d "wait" (PLk j) (wsv j ws) [] as_void) (pool_wait pl j ws).
  Proof.
    intros j ws. unfold swait_do. apply sim_bind_ret_r. destruct ws as [k|]; go; rewrite guard_get; go.
    - sub (pool_wait_text j (Some k)). leaf.
    - sub (pool_wait_text j None). leaf.
  Qed.
  Lemma state_until : forall j ws t, lk <> LSrw ->
    sim eq (swait_do pl d "wait_until" (PLk j) (wsv j ws) [PU; PZ t] as_bool) (pool_wait_until pl j ws t).
  Proof.
    intros j ws t N. unfold swait_do, conf at 1.
    assert (B : match lk with LSrw => false | _ => true end = true) by (destruct lk; congruence). rewrite B. clear B.
    apply sim_bind_ret_r. destruct ws as [k|]; go; rewrite guard_get; go.
    - sub (pool_until_text j (Some k) t N). leaf.
    - sub (pool_until_text j None t N). leaf.
  Qed.
  Lemma state_for : forall j ws t,
    sim eq (swait_do pl d "wait_for" (PLk j) (wsv j ws) [PZ t] as_bool) (pool_wait_for pl j ws t).
  Proof.
    intros j ws t. unfold swait_do. apply sim_bind_ret_r. destruct ws as [k|]; go; rewrite guard_get; go.
    - sub (pool_for_text j (Some k) t). leaf.
    - sub (pool_for_text j None t). leaf.
  Qed.

  (** a state guard, from its creation and to its end *)
  Lemma state_begin : forall R (f : nat * option nat -> pprog R) h, (forall ws, sim eq (f (i, ws)) (h ws)) ->
    sim eq (x <- swait_new pl d ;; f x) (acquire lk i ;;; ws <- pdo (WlBegin i (d_addr d)) ;; h ws).
  Proof.
    intros R f h H. refine (sim_eq_trans _ _ _ _ (sim_bind_eq _ _ _ _ _ _ _ _ state_new (fun r => sim_refl _ _)) _).
    apply sim_assoc_l. sub (sim_refl _ (acquire lk i)). unfold pdo, do. cbn [bind]. act1. apply H.
  Qed.
  Lemma state_end : forall R (f : pprog R) h j ws, sim eq f h ->
    sim eq (swait_del pl d (PLk j) (handle j ws) ;;; f) ((match ws with Some k => pdo (WlEnd j k) | None => Ret tt end) ;;; release lk j ;;; h).
  Proof.
    intros R f h j ws H. refine (sim_eq_trans _ _ _ _ (sim_bind_eq _ _ _ _ _ _ _ _ (state_del j ws) (fun r => sim_refl _ _)) _).
    apply sim_assoc_l. eapply sim_bind_eq; [apply sim_refl|intros _]. sub (sim_refl _ (release lk j)). exact H.
  Qed.
End Pool.

(** * The text of the lock pool does what PoolModel.v says: the wait records and the functions of the pool *)
From Coq Require Import ZArith List Bool String Lia Arith.
From Verif Require Import SpecInt SpecBytes SpecPool Order Conv Prog FindModel RecordsModel SimProof PoolModel PoolText PoolTable PoolLayers PoolTextProof.
Import ListNotations.
Local Open Scope string_scope.
Local Open Scope Z_scope.
Local Open Scope prog_scope.

Section Cond.
  Variables (pl : platform) (d : odesc).

  (** the wait records *)
  Definition cond_wait (lk : lockkind) (i k : nat) : pprog unit :=
    match lk with
    | LFutex => pc <- futex_enter i k ;; cond_loop i k pc None ;;; futex_leave i k
    | _ => os_wait i k None ;;; Ret tt
    end.
  Definition cond_notify (lk : lockkind) (i k : nat) (all : bool) : pprog unit :=
    match lk with
    | LFutex =>
        pdo (CAdd i k) ;;;
        c <- pdo (WcGet i k) ;;
        (if 0 <? (c : Z) then (pdo (FRequeue i k all) ;;; pdo (MOr i contended Relaxed)) else Ret tt)
    | _ => pdo (FWake (FC i k) all) ;;; Ret tt
    end.


  Lemma text_notify : forall i k (all : bool),
    sim eq (cond_text pl d (if all then "notify_all" else "notify_one") i k) (cond_notify (pl_lock pl) i k all).
  Proof.
    intros i k all. unfold cond_text, cond_fns, cond_notify. destruct (pl_lock pl), all; go; change (1 =? 1) with true; cbn iota; go.
    1,2,5,6: act1; leaf.
    - act1. act1. destruct (0 <? x); [|leaf]. rewrite Nat.eqb_refl. go. do 2 act1. leaf.
    - act1. act1. destruct (0 <? x); [|leaf]. rewrite Nat.eqb_refl. go. do 2 act1. leaf.
  Qed.

  Lemma text_wait : forall i k, sim eq (cond_text pl d "wait" i k) (cond_wait (pl_lock pl) i k).
  Proof.
    intros i k. pose proof (text_unlock pl d i) as HU. pose proof (text_long pl d i) as HL.
    unfold cond_text, cond_fns, cond_wait. destruct (pl_lock pl); go; unfold release, acquire in *.
    - rewrite Nat.eqb_refl. go. do 3 act1. leaf.
    - unfold futex_enter, futex_leave, cond_loop, cond_sleep, pdo, do. cbn [bind].
      do 3 act1. apply sim_assoc_r. sub HU. cbn [bind]. unfold loop. cbn [bind].
      apply (sim_loop _ _ _ _ _
        (fun (E : env) (y : unit) => E = [("this", (TO, PRec i k)); ("state", (TO, PLk i)); ("prev_cond", (TF, PZ x))])
        (fun (b : exit) (_ : bool) => b = XN [("this", (TO, PRec i k)); ("state", (TO, PLk i)); ("prev_cond", (TF, PZ x))])).
      + intros E [] e. subst E. round. act1. destruct x1.
        * cbn [bind]. act1. destruct x1.
          1: change (0 <? 0) with false. 2, 3: change (-1 <? 0) with true. all: cbn iota.
          1, 2: act1; destruct (x1 =? x); leaf.
          leaf.
        * leaf.
      + reflexivity.
      + intros b y e. subst b. go. sub HL. do 2 act1. leaf.
    - go. rewrite Nat.eqb_refl. go. do 3 act1. leaf.
  Qed.
End Cond.

(** * Consequences for the lock pool: the choice of the lock; waits. *)
From Coq Require Import ZArith List Bool Arith Lia.
From Verif Require Import SpecInt SpecTyped SpecLin SpecObj SpecInstant SpecPool Conv Prog InstantProof PoolModel PoolFront PoolProof PoolTyped.
Import ListNotations.
Open Scope Z_scope.
Open Scope prog_scope.

(** the lock an action concerns *)
Definition lock_used (a : pact) : option nat :=
  match a with
  | MLoad i _ | MCas _ i _ _ _ _ | MOr i _ _ | FRequeue i _ _ | CLoad i _ | CAdd i _ | WcGet i _ | WcSet i _ _
  | OsTry i | OsLock i | OsUnlock i | CvWait i _ | BRd i _ | BWr i _ _ | WlBegin i _ | WlEnd i _ | WlFind i _ | WlCleanup i => Some i
  | FWait f _ | FWake f _ => match f with FM i | FC i _ => Some i | FO _ => None end
  | _ => None
  end.
(** every action a program can make satisfies [P] *)
Fixpoint everywhere (P : pact -> Prop) {R} (p : pprog R) : Prop :=
  match p with
  | Ret _ => True
  | Do a k => P a /\ forall x, everywhere P (k x)
  | Loop body s k => (forall s, everywhere P (body s)) /\ forall b, everywhere P (k b)
  end.
Definition only_lock (i : nat) (a : pact) : Prop := lock_used a = None \/ lock_used a = Some i.

Section Locks.
  Variable i : nat.
  Notation ev := (everywhere (only_lock i)).
  Lemma ev_bind {R R'} (p : pprog R) (f : R -> pprog R') : ev p -> (forall r, ev (f r)) -> ev (bind p f).
  Proof. intros H Hf. induction p as [R r|R a k IH|R X B body IHb s k IH]; simpl in *; auto; destruct H as [A B']; auto. Qed.
  Lemma ev_do a : only_lock i a -> ev (pdo a).
  Proof. simpl. auto. Qed.
  Lemma ev_loop {X B} (s : X) (body : X -> pprog (X + B)) : (forall s, ev (body s)) -> ev (loop s body).
  Proof. simpl. auto. Qed.

  Ltac evs := cbv zeta; repeat match goal with
    | |- everywhere _ (Ret _) => exact I
    | |- everywhere _ (bind _ _) => apply ev_bind; [|intros ?]
    | |- everywhere _ (loop _ _) => apply ev_loop; intros ?
    | |- everywhere _ (pdo _) => apply ev_do; solve [left; reflexivity | right; reflexivity]
    | |- everywhere _ (if ?b then _ else _) => destruct b
    | |- everywhere _ (match ?b with _ => _ end) => destruct b
    end.

  Lemma ev_slow : ev (lock_slow_path i).
  Proof. unfold lock_slow_path, futex_wait_on. evs. Qed.
  Lemma ev_spin n : ev (futex_spin n i).
  Proof. induction n as [|n IH]; cbn [futex_spin]; [apply ev_slow|]. evs; try exact IH. Qed.
  Lemma ev_funlock : ev (futex_unlock i).
  Proof. unfold futex_unlock. evs. Qed.
  Lemma ev_ospin n : ev (os_spin n i).
  Proof. induction n as [|n IH]; cbn [os_spin]; evs; try exact IH. Qed.
  Lemma ev_acquire lk : ev (acquire lk i).
  Proof. destruct lk; unfold acquire; [apply ev_ospin | apply ev_spin | evs]. Qed.
  Lemma ev_release lk : ev (release lk i).
  Proof. destruct lk; unfold release; [evs | apply ev_funlock | evs]. Qed.
  Lemma ev_enter k : ev (futex_enter i k).
  Proof. unfold futex_enter. evs; try apply ev_funlock. Qed.
  Lemma ev_leave k : ev (futex_leave i k).
  Proof. unfold futex_leave. evs; try apply ev_spin. Qed.
  Lemma ev_cond k pc dl : ev (cond_loop i k pc dl).
  Proof. unfold cond_loop, cond_sleep. evs. Qed.
  Lemma ev_cond_rel req k pc dl : ev (cond_loop_rel req i k pc dl).
  Proof. unfold cond_loop_rel, cond_sleep. evs. Qed.

  Variable pl : platform.
  Lemma ev_wait ws : ev (pool_wait pl i ws).
  Proof.
    unfold pool_wait, os_wait. destruct ws as [k|]; [destruct (pl_lock pl)|]; evs;
      auto using ev_release, ev_acquire, ev_enter, ev_cond, ev_leave.
  Qed.
  Lemma ev_wait_until ws dl : ev (pool_wait_until pl i ws dl).
  Proof.
    unfold pool_wait_until, os_wait_for, os_wait. destruct ws as [k|]; [destruct (pl_lock pl)|]; evs;
      auto using ev_release, ev_acquire, ev_enter, ev_cond, ev_cond_rel, ev_leave.
  Qed.
  Lemma ev_wait_for ws d : ev (pool_wait_for pl i ws d).
  Proof.
    unfold pool_wait_for, os_wait_for, os_wait, cond_sleep. destruct ws as [k|]; [destruct (pl_lock pl)|]; evs;
      auto using ev_release, ev_acquire, ev_enter, ev_cond, ev_cond_rel, ev_leave.
  Qed.
  Lemma ev_notify z all : ev (pool_notify pl i z all).
  Proof. unfold pool_notify. evs. Qed.

  Variable d : odesc.
  Hypothesis Hi : lock_of pl d = i.
  Lemma ev_rd_from n : forall z, ev (rd_from pl d z n).
  Proof. induction n as [|n IH]; intros z; cbn [rd_from]; rewrite ?Hi; evs; try apply IH. Qed.
  Lemma ev_wr_from l : forall z, ev (wr_from pl d z l).
  Proof. induction l as [|b l IH]; intros z; cbn [wr_from]; rewrite ?Hi; evs; try apply IH. Qed.
  Lemma ev_rd : ev (rd pl d).
  Proof. unfold rd. evs; try apply ev_rd_from. Qed.
  Lemma ev_wr v : ev (wr pl d v).
  Proof. apply ev_wr_from. Qed.
  Lemma ev_body o : ev (emu_body pl d o).
  Proof. destruct o as [u| |u|e v|e v|[] [b u|u]|k b]; cbn [emu_body]; evs; auto using ev_rd, ev_wr. Qed.
  Lemma ev_upd f g : ev (emu_upd pl d f g).
  Proof. unfold emu_upd. evs; auto using ev_rd, ev_wr. Qed.
  Lemma ev_scoped {R} (p : pprog R) : ev p -> ev (scoped pl d p).
  Proof. intros H. unfold scoped. rewrite Hi. evs; auto using ev_acquire, ev_release. Qed.
  Lemma ev_scoped_wait {R} (p : option nat -> pprog R) : (forall ws, ev (p ws)) -> ev (scoped_wait pl d p).
  Proof. intros H. unfold scoped_wait. rewrite Hi. evs; auto using ev_acquire, ev_release. Qed.
  Lemma ev_wait_body ld old ws : ev ld -> ev (wait_body pl d ld old ws).
  Proof. intros H. unfold wait_body. rewrite Hi. evs; auto using ev_wait. Qed.
  Lemma ev_fallback ld old limit now new ws : ev ld -> ev (fallback_from pl d ld old limit now new ws).
  Proof. intros H. unfold fallback_from. rewrite Hi. evs; auto using ev_wait_for. Qed.
  Lemma ev_abs ld old limit new ws : ev ld -> ev (abs_from pl d ld old limit new ws).
  Proof. intros H. unfold abs_from. rewrite Hi. evs; auto using ev_wait_until. Qed.
  Lemma ev_ld a : ev (ld d a).
  Proof. unfold ld. evs. Qed.
  Lemma ev_poll_fast a old k n : ev k -> ev (poll_fast d a n old k).
  Proof. intros H. induction n as [|n IH]; cbn [poll_fast]; auto. evs; auto using ev_ld. Qed.
  Lemma ev_poll_fast_timed a old limit k n : (forall now, ev (k now)) -> forall now, ev (poll_fast_timed d a n old limit now k).
  Proof. intros H. induction n as [|n IH]; intros now; cbn [poll_fast_timed]; auto. evs; auto using ev_ld. Qed.

  Definition concerns (o : aop) : bool := match o with AFence | AExit => false | _ => true end.
  Lemma ev_notify_prog all : ev (notify_prog pl d all).
  Proof. unfold notify_prog. apply ev_scoped. rewrite Hi. evs; try apply ev_notify. Qed.
  Lemma ev_obj a o : concerns o = true -> ev (obj_prog pl d a o).
  Proof.
    intros Hc. unfold obj_prog. destruct (d_locked d).
    - destruct o as [o|f g|old|k old limit|all| |]; cbn [emu_prog]; try discriminate.
      + apply ev_scoped. evs. apply ev_body.
      + apply ev_scoped. evs. apply ev_upd.
      + apply ev_scoped_wait. intros ws. apply ev_wait_body, ev_rd.
      + unfold emu_timed. destruct (sys_clock pl k).
        * apply ev_scoped_wait. intros ws. evs; [apply ev_rd | apply ev_abs, ev_rd].
        * evs. apply ev_scoped_wait. intros ws. evs; [apply ev_rd | apply ev_fallback, ev_rd].
      + apply ev_notify_prog.
    - destruct o as [o|f g|old|k old limit|all| |]; cbn [free_prog]; try discriminate.
      + evs.
      + evs.
      + destruct (d_wait d); unfold pool_wait_prog, poll_wait, native_wait, native_sleep; evs; auto using ev_ld.
        * apply ev_scoped_wait. intros ws. apply ev_wait_body, ev_ld.
        * apply ev_scoped_wait. intros ws. apply ev_wait_body, ev_ld.
        * apply ev_poll_fast. evs; apply ev_ld.
      + assert (Hp : ev (pool_timed pl d a k old limit)).
        { unfold pool_timed. destruct (sys_clock pl k); evs; auto using ev_ld; apply ev_scoped_wait; intros ws;
            [apply ev_abs, ev_ld | apply ev_fallback, ev_ld]. }
        destruct (d_wait d); auto.
        * unfold poll_timed. evs; auto using ev_ld. apply ev_poll_fast_timed. intros now. evs; auto using ev_ld.
        * unfold native_timed, native_abs, native_fallback, native_sleep. evs; auto using ev_ld.
      + destruct (d_wait d); try apply ev_notify_prog; evs.
  Qed.
End Locks.

(** ** The index *)
Lemma index_range pl h : 0 <= pl_log2 pl -> get_lock_index pl h = h mod 2 ^ pl_log2 pl /\ lock_pool_size pl = 2 ^ pl_log2 pl.
Proof.
  intros H. unfold get_lock_index, lock_pool_size. rewrite Z.shiftl_1_l. split; [|reflexivity].
  replace (2 ^ pl_log2 pl - 1) with (Z.ones (pl_log2 pl)) by (rewrite Z.ones_equiv; lia).
  now apply Z.land_ones.
Qed.

(** ** Waits *)
Lemma typed_waits pl (T : nat -> tobj) :
  platform_ok pl -> layout_ok (fun a => t_desc (T a)) -> (forall a, t_ok (T a)) ->
  forall m (v0 : nat -> Z) l,
  pool_start (fun a => t_desc (T a)) (fun a => t_enc (T a) (v0 a)) m -> (forall a, tvalue (t_type (T a)) (v0 a)) ->
  legal (fun c => tcall_ok (t_type (T (fst c))) (snd c)) l ->
  forall h1 t a c h2 r h3, answered (snd (t_run pl T m l)) h1 t (a, c) h2 r h3 ->
  exists s v', during (objects (fun a => tstep (t_type (T a)))) (fun a => t_holds (T a) (v0 a)) h1 t (a, c) h2 r h3 s /\
    tstep (t_type (T a)) (s a) c r v'.
Proof.
  intros Hpl HD HT m v0 l Hm Hv Hl h1 t a c h2 r h3 Ha.
  destruct (typed_sound pl T Hpl HD HT m v0 l Hm Hv Hl) as (v & th & HL & _).
  destruct (answered_instant _ _ _ _ _ _ _ _ _ _ _ HL Ha) as (s & s2 & A & B & _). simpl in B.
  exists s, (s2 a). split; [exact A|exact B].
Qed.

(** A flag is set or clear at every instant of every history. *)
Lemma flag_instant (T : nat -> tobj) a v0 h1 h2 s : t_type (T a) = OFlag -> (v0 a = 0 \/ v0 a = 1) ->
  at_instant (objects (fun a => tstep (t_type (T a)))) v0 h1 h2 s -> s a = 0 \/ s a = 1.
Proof.
  intros Ka H0 (l1 & l2 & th & s9 & th9 & A & _). revert H0. clear s9 th9 l2.
  induction A as [s th|s th u o l s' th' _ _ IH|s th u o r s1 l s' th' _ HS _ IH|s th u o r l s' th' _ _ IH]; auto.
  intros H0. apply IH. destruct o as [b c]. destruct HS as [HS HN]. cbn [fst snd] in *. destruct (Nat.eq_dec a b) as [<-|N].
  - rewrite Ka in HS. inversion HS; subst; auto; try congruence. destruct b'; auto.
  - rewrite HN by auto. exact H0.
Qed.

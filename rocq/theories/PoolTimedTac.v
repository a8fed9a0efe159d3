(** * The text of the timed waits on futexes: arithmetic and tactics *)
From Coq Require Import ZArith List Bool String Lia Arith.
From Verif Require Import SpecInt SpecBytes SpecPool Order Conv Prog FindModel RecordsModel SimProof PoolModel PoolText PoolLayers PoolTimedTable PoolTimedLayers PoolTextProof.
Import ListNotations.
Local Open Scope string_scope.
Local Open Scope Z_scope.
Local Open Scope prog_scope.

Local Opaque ld.

Ltac goT := lazy beta iota zeta delta [
native_text timed_futex_fns timed_conf timed_ext
runf call lookup cond_ok bind_params finals forallb pf_name pf_cond pf_params pf_body
block exec eval evals invoke conv convop cut num truth bin un field opt puts put get result after
system done is fst snd rev app firstn List.length String.eqb Ascii.eqb Bool.eqb andb orb negb
String.append member bind pdo do loop ret_waited sys_sleep stuck no_own ].
Ltac roundT := unfold timed_iter; rewrite iter_S; goT.

Lemma units_1 : forall pl, wide_times pl -> forall n, units pl n = n.
Proof.
  intros pl Wide n. unfold units. rewrite (proj1 Wide). destruct (pl_std pl); unfold ceil_std, ceil_old.
  - rewrite Z.div_1_r. lia.
  - rewrite Z.quot_1_r, Z.rem_1_r. cbn. lia.
Qed.
Lemma whole : forall n, n / 1000000000 * 1000000000 + n mod 1000000000 = n.
Proof. intros n. pose proof (Z.div_mod n 1000000000). lia. Qed.
Lemma shifted : forall now t, (now / 1000000000 + (now mod 1000000000 + t) / 1000000000) * 1000000000
  + (now mod 1000000000 + t) mod 1000000000 = now + t.
Proof. intros now t. pose proof (whole now). pose proof (whole (now mod 1000000000 + t)). lia. Qed.

(** the loop of wait_until_fallback *)
Ltac loadsub d a := sub (sim_refl _ (ld d a)).
Ltac fallback Wide d a old limit :=
  let Env := fresh "Env" in
  set (Env := fun v now t s n => [("old_val", (TS, PZ old)); ("timeout", (TO, PZ limit)); ("now", (TO, PZ now)); ("order", (TO, PO SeqCst));
     ("timed_out", (TO, PB t)); ("ts.tv_sec", (TO, PZ s)); ("ts.tv_nsec", (TO, PZ n)); ("new_val", (TS, PZ v))]);
  apply (sim_loop _ _ _ _ _ (fun E y => exists s n, E = Env (fst y) (snd y) false s n)
    (fun b r => exists v now t s n, b = XN (Env v now t s n) /\ r = RWaited v t));
  [ let y := fresh "y" in let now := fresh "now" in intros ? [y now] [? [? ->]]; unfold Env; cbn [fst snd]; roundT;
    rewrite (units_1 _ Wide); destruct (y =? old);
    [ destruct (limit - now <=? 0);
      [ leaf; do 5 eexists; split; reflexivity
      | rewrite whole; unfold native_sleep, pdo, do; cbn [bind]; apply sim_do; let st := fresh "st" in intros st;
        rewrite (proj2 Wide); cbn [bind]; apply sim_do; let q := fresh "q" in intros q; cbn [presp] in q; destruct q; cbn [bind];
        [ apply sim_do; let w := fresh "w" in intros w; cbn [presp] in w; destruct w; cbn [bind]; act1; loadsub d a; leaf; do 2 eexists; reflexivity
        | act1; loadsub d a; leaf; do 2 eexists; reflexivity ] ]
    | leaf; do 5 eexists; split; reflexivity ]
  | do 2 eexists; reflexivity
  | let b := fresh "b" in let r := fresh "r" in intros b r [? [? [? [? [? [? ?]]]]]]; subst b r; unfold Env; goT; leaf ].

Lemma div_sign3 : forall t, (0 <=? t / 1000000000) = (0 <=? t).
Proof.
  intros t. pose proof (Z.div_mod t 1000000000) as A. pose proof (Z.mod_pos_bound t 1000000000) as A'.
  destruct (Z.leb_spec 0 (t / 1000000000)), (Z.leb_spec 0 t); try reflexivity; exfalso; lia.
Qed.
Ltac signs := try change (0 <? 0) with false; try change (-1 <? 0) with true; cbn iota.
(** the loop around futex_wait_until, [Env v t] being the variables *)
Ltac absolute d a Env old rw :=
  apply (sim_loop _ _ _ _ _ (fun E y => E = Env y false) (fun b r => exists v t, b = XN (Env v t) /\ r = RWaited v t));
  [ let y := fresh "y" in intros ? y ->; unfold Env; roundT; destruct (y =? old);
    [ rw; unfold native_sleep, pdo, do; cbn [bind]; apply sim_do; let q := fresh "q" in intros q; cbn [presp] in q; destruct q; cbn [bind];
      [ apply sim_do; let w := fresh "w" in intros w; cbn [presp] in w; destruct w; cbn [bind]; signs; loadsub d a; leaf;
        do 2 eexists; split; reflexivity
      | signs; loadsub d a; leaf ]
    | leaf; do 2 eexists; split; reflexivity ]
  | reflexivity
  | let b := fresh "b" in let r := fresh "r" in intros b r [? [? [? ?]]]; subst b r; unfold Env; goT; leaf ].


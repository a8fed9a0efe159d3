(** * Proofs for C38-C41. *)
From Coq Require Import ZArith Arith List Bool Lia.
Require Import Verif.Order Verif.Reorder Verif.SpecOrder Verif.FenceModel Verif.SpecFence.
Import ListNotations.
Open Scope nat_scope.

(** ** Places *)

Lemma nth_pre : forall (A : Type) (p q : list A) i x,
  nth_error p i = Some x -> nth_error (p ++ q) i = Some x.
Proof.
  intros A p q i x H. rewrite nth_error_app1; [exact H|].
  apply nth_error_Some. rewrite H. discriminate.
Qed.

Lemma nth_post : forall (A : Type) (p q : list A) i x,
  nth_error q i = Some x -> nth_error (p ++ q) (length p + i) = Some x.
Proof.
  intros A p q i x H. rewrite nth_error_app2; [|lia].
  replace (length p + i - length p) with i by lia. exact H.
Qed.

Lemma nth_lt : forall (A : Type) (p : list A) i x, nth_error p i = Some x -> i < length p.
Proof. intros A p i x H. apply nth_error_Some. rewrite H. discriminate. Qed.

Lemma existsb_nth : forall (A : Type) (f : A -> bool) l,
  existsb f l = true -> exists i x, nth_error l i = Some x /\ f x = true.
Proof.
  intros A f l H. apply existsb_exists in H. destruct H as [x [Hi Hf]].
  apply In_nth_error in Hi. destruct Hi as [i Hi]. exists i, x. split; assumption.
Qed.

Lemma place_lt_clob : forall m p place time i j x y,
  execution m p place time -> i < j ->
  nth_error p i = Some x -> nth_error p j = Some y ->
  clobbers x = true \/ clobbers y = true -> place i < place j.
Proof.
  intros m p place time i j x y E L Hi Hj H.
  apply (ex_compiler m p place time E i j x y L Hi Hj). unfold compiler_keeps.
  destruct H as [H|H]; rewrite H; [reflexivity|rewrite orb_true_r; reflexivity].
Qed.

(** ** Enough for an access to come before everything that follows the code *)

Definition is_rd (k : kind) : bool := match k with Rd => true | Wr => false end.
Definition is_tso (m : machine) : bool := match m with TSO => true | Weak => false end.
Definition is_isync (x : item) : bool := match x with Isync => true | _ => false end.

Definition after_ok (m : machine) (x : access) (rest : list item) : bool :=
  (existsb (covers (a_kind x) Rd) rest && existsb (covers (a_kind x) Wr) rest)
  || (a_acq x && (a_clob x || existsb clobbers rest))
  || (a_br x && is_rd (a_kind x) && existsb is_isync rest)
  || (is_tso m && is_rd (a_kind x) && (a_clob x || existsb clobbers rest)).

Lemma covers_clobbers : forall k1 k2 z, covers k1 k2 z = true -> clobbers z = true.
Proof. intros k1 k2 z H. destruct z; try discriminate; reflexivity. Qed.

Lemma after_ok_sound : forall m x a rest b place time j y,
  execution m (a ++ (Access x :: rest) ++ b) place time ->
  after_ok m x rest = true ->
  nth_error b j = Some (Access y) ->
  time (length a) < time (length a + S (length rest) + j).
Proof.
  intros m x a rest b place time j y E H Hj.
  set (p := a ++ (Access x :: rest) ++ b) in *.
  assert (Px : nth_error p (length a) = Some (Access x)).
  { unfold p. replace (length a) with (length a + 0) by lia. apply nth_post. reflexivity. }
  assert (Py : nth_error p (length a + S (length rest) + j) = Some (Access y)).
  { unfold p. rewrite <- Nat.add_assoc. apply nth_post.
    replace (S (length rest) + j) with (length (Access x :: rest) + j) by reflexivity.
    apply nth_post. exact Hj. }
  assert (Pr : forall i z, nth_error rest i = Some z -> nth_error p (length a + S i) = Some z).
  { intros i z Hz. unfold p. apply nth_post. apply nth_pre. exact Hz. }
  assert (B : forall i z, nth_error rest i = Some z -> clobbers z = true ->
    place (length a) < place (length a + S i) /\
    place (length a + S i) < place (length a + S (length rest) + j)).
  { intros i z Hz C. pose proof (nth_lt _ _ _ _ Hz) as L. split.
    - apply (place_lt_clob m p place time _ _ (Access x) z E); auto; lia.
    - apply (place_lt_clob m p place time _ _ z (Access y) E); auto; lia. }
  assert (C : a_clob x || existsb clobbers rest = true ->
    place (length a) < place (length a + S (length rest) + j)).
  { intros HC. apply orb_true_iff in HC. destruct HC as [HC|HC].
    - apply (place_lt_clob m p place time _ _ (Access x) (Access y) E); auto; lia.
    - apply existsb_nth in HC. destruct HC as [i [z [Hz Cz]]].
      destruct (B i z Hz Cz). lia. }
  unfold after_ok in H. repeat rewrite orb_true_iff in H.
  destruct H as [[[H|H]|H]|H].
  - apply andb_true_iff in H. destruct H as [H1 H2].
    assert (existsb (covers (a_kind x) (a_kind y)) rest = true) as Hc
      by (destruct (a_kind y); assumption).
    apply existsb_nth in Hc. destruct Hc as [i [z [Hz Cz]]].
    pose proof (covers_clobbers _ _ _ Cz) as Cb. destruct (B i z Hz Cb) as [L1 L2].
    apply (ex_processor m p place time E _ _ x y Px Py); [lia|].
    apply kept_barrier. exists (length a + S i), z. auto.
  - apply andb_true_iff in H. destruct H as [H1 H2]. specialize (C H2).
    apply (ex_processor m p place time E _ _ x y Px Py C). apply kept_acquire. exact H1.
  - apply andb_true_iff in H. destruct H as [H H2]. apply andb_true_iff in H.
    destruct H as [H0 H1]. apply existsb_nth in H2. destruct H2 as [i [z [Hz Cz]]].
    assert (clobbers z = true) as Cb by (destruct z; try discriminate; reflexivity).
    destruct (B i z Hz Cb) as [L1 L2].
    apply (ex_processor m p place time E _ _ x y Px Py); [lia|].
    apply kept_isync; [destruct (a_kind x); [reflexivity|discriminate]|exact H0|].
    exists (length a + S i), z. auto.
  - apply andb_true_iff in H. destruct H as [H H2]. apply andb_true_iff in H.
    destruct H as [H0 H1]. specialize (C H2).
    apply (ex_processor m p place time E _ _ x y Px Py C). apply kept_tso.
    + destruct m; [reflexivity|discriminate].
    + intros [K _]. rewrite K in H1. discriminate.
Qed.

Lemma after_ok_app : forall m x r s, after_ok m x r = true -> after_ok m x (r ++ s) = true.
Proof.
  intros m x r s H. unfold after_ok in *. repeat rewrite existsb_app.
  destruct (existsb (covers (a_kind x) Rd) r), (existsb (covers (a_kind x) Wr) r),
    (a_acq x), (a_clob x), (existsb clobbers r), (a_br x), (is_rd (a_kind x)),
    (existsb is_isync r), (is_tso m); simpl in *; try discriminate; try reflexivity;
    repeat rewrite orb_true_r; reflexivity.
Qed.

Lemma after_ok_app_r : forall m x r s, after_ok m x s = true -> after_ok m x (r ++ s) = true.
Proof.
  intros m x r s H. unfold after_ok in *. repeat rewrite existsb_app.
  destruct (existsb (covers (a_kind x) Rd) s), (existsb (covers (a_kind x) Wr) s),
    (a_acq x), (a_clob x), (existsb clobbers s), (a_br x), (is_rd (a_kind x)),
    (existsb is_isync s), (is_tso m); simpl in *; try discriminate;
    repeat rewrite orb_true_r; try reflexivity.
Qed.

Definition same_kind (k k' : kind) : bool :=
  match k, k' with Rd, Rd | Wr, Wr => true | _, _ => false end.

Lemma same_kind_eq : forall k k', same_kind k k' = true <-> k = k'.
Proof. intros [] []; simpl; split; congruence. Qed.

Fixpoint check_after (m : machine) (k : kind) (c : list item) : bool :=
  match c with
  | [] => true
  | Access x :: rest =>
      (if same_kind (a_kind x) k then after_ok m x rest else true) && check_after m k rest
  | _ :: rest => check_after m k rest
  end.

Lemma check_after_sound : forall m k c a b place time r j x y,
  check_after m k c = true ->
  execution m (a ++ c ++ b) place time ->
  nth_error c r = Some (Access x) -> a_kind x = k ->
  nth_error b j = Some (Access y) ->
  time (length a + r) < time (length a + length c + j).
Proof.
  intros m k c. induction c as [|z c IH]; intros a b place time r j x y H E Hr K Hj;
    [destruct r; discriminate|].
  destruct r as [|r].
  - simpl in Hr. inversion Hr; subst z; clear Hr. simpl in H.
    destruct (same_kind (a_kind x) k) eqn:S.
    2:{ exfalso. apply same_kind_eq in K. congruence. }
    apply andb_true_iff in H. destruct H as [H _].
    replace (length a + 0) with (length a) by lia.
    exact (after_ok_sound m x a c b place time j y E H Hj).
  - simpl in Hr.
    assert (H' : check_after m k c = true).
    { destruct z; simpl in H; auto. apply andb_true_iff in H. destruct H. assumption. }
    assert (E' : execution m ((a ++ [z]) ++ c ++ b) place time).
    { rewrite <- app_assoc. exact E. }
    specialize (IH (a ++ [z]) b place time r j x y H' E' Hr K Hj).
    rewrite app_length in IH. simpl in IH.
    replace (length a + S r) with (length a + 1 + r) by lia.
    replace (length a + length (z :: c) + j) with (length a + 1 + length c + j) by (simpl; lia).
    exact IH.
Qed.

(** All accesses of kind [k] of [c] are safe if [d] follows. *)
Definition guarded (m : machine) (k : kind) (c d : list item) : bool :=
  forallb (fun z => match z with
                    | Access x => if same_kind (a_kind x) k then after_ok m x d else true
                    | _ => true
                    end) c.

Lemma check_after_app : forall m k c d,
  guarded m k c d = true -> check_after m k d = true -> check_after m k (c ++ d) = true.
Proof.
  intros m k c d. induction c as [|z c IH]; intros G D; [exact D|].
  simpl in G. apply andb_true_iff in G. destruct G as [G1 G2]. specialize (IH G2 D).
  destruct z as [x|ll ls sl ss| |]; simpl; auto.
  rewrite IH, andb_true_r. destruct (same_kind (a_kind x) k); auto.
  apply after_ok_app_r. exact G1.
Qed.

Lemma guarded_app : forall m k c c' d,
  guarded m k c d = true -> guarded m k c' d = true -> guarded m k (c ++ c') d = true.
Proof.
  intros m k c c' d H H'. unfold guarded. rewrite forallb_app. apply andb_true_iff. auto.
Qed.

Lemma guarded_repeat : forall m k n c d,
  guarded m k c d = true -> guarded m k (repeat_code n c) d = true.
Proof.
  intros m k n c d H. induction n as [|n IH]; [reflexivity|].
  simpl. apply guarded_app; assumption.
Qed.

Lemma acquire_check : forall m c, check_after m Rd c = true -> acquire_operation m c.
Proof.
  intros m c H pre post place time E r j [x [Hx Kx]] [y Hy].
  exact (check_after_sound m Rd c pre post place time r j x y H E Hx Kx Hy).
Qed.

Lemma order_after : forall m c1 (k1 : kind -> Prop) c2 k2,
  (forall k, k1 k -> check_after m k c1 = true) -> in_order m c1 k1 c2 k2.
Proof.
  intros m c1 k1 c2 k2 H pre mid post place time E a b ka kb Ha Hb [x [Hx Kx]] [y [Hy Ky]].
  pose proof (check_after_sound m ka c1 pre (mid ++ c2 ++ post) place time a
    (length mid + b) x y (H ka Ha) E Hx Kx) as T.
  replace (length pre + length c1 + length mid + b)
    with (length pre + length c1 + (length mid + b)) by lia.
  apply T. apply nth_post. apply nth_pre. exact Hy.
Qed.

(** ** Enough for an access to come after everything that precedes the code *)

Definition before_ok (m : machine) (first : list item) (y : access) : bool :=
  (existsb (covers Rd (a_kind y)) first && existsb (covers Wr (a_kind y)) first)
  || (a_rel y && (a_clob y || existsb clobbers first))
  || (is_tso m && negb (is_rd (a_kind y)) && (a_clob y || existsb clobbers first)).

Lemma before_ok_sound : forall m y a first b place time i x,
  execution m (a ++ first ++ Access y :: b) place time ->
  before_ok m first y = true ->
  nth_error a i = Some (Access x) ->
  time i < time (length a + length first).
Proof.
  intros m y a first b place time i x E H Hi.
  set (p := a ++ first ++ Access y :: b) in *.
  assert (Px : nth_error p i = Some (Access x)) by (unfold p; apply nth_pre; exact Hi).
  assert (Py : nth_error p (length a + length first) = Some (Access y)).
  { unfold p. apply nth_post. replace (length first) with (length first + 0) by lia.
    apply nth_post. reflexivity. }
  pose proof (nth_lt _ _ _ _ Hi) as Li.
  assert (B : forall q z, nth_error first q = Some z -> clobbers z = true ->
    nth_error p (length a + q) = Some z /\
    place i < place (length a + q) /\
    place (length a + q) < place (length a + length first)).
  { intros q z Hz C. pose proof (nth_lt _ _ _ _ Hz) as L.
    assert (Pz : nth_error p (length a + q) = Some z).
    { unfold p. apply nth_post. apply nth_pre. exact Hz. }
    split; [exact Pz|split].
    - apply (place_lt_clob m p place time _ _ (Access x) z E); auto; lia.
    - apply (place_lt_clob m p place time _ _ z (Access y) E); auto; lia. }
  assert (C : a_clob y || existsb clobbers first = true ->
    place i < place (length a + length first)).
  { intros HC. apply orb_true_iff in HC. destruct HC as [HC|HC].
    - apply (place_lt_clob m p place time _ _ (Access x) (Access y) E); auto; lia.
    - apply existsb_nth in HC. destruct HC as [q [z [Hz Cz]]].
      destruct (B q z Hz Cz) as [_ [? ?]]. lia. }
  unfold before_ok in H. repeat rewrite orb_true_iff in H.
  destruct H as [[H|H]|H].
  - apply andb_true_iff in H. destruct H as [H1 H2].
    assert (existsb (covers (a_kind x) (a_kind y)) first = true) as Hc
      by (destruct (a_kind x); assumption).
    apply existsb_nth in Hc. destruct Hc as [q [z [Hz Cz]]].
    pose proof (covers_clobbers _ _ _ Cz) as Cb. destruct (B q z Hz Cb) as [Pz [L1 L2]].
    apply (ex_processor m p place time E _ _ x y Px Py); [lia|].
    apply kept_barrier. exists (length a + q), z. auto.
  - apply andb_true_iff in H. destruct H as [H1 H2]. specialize (C H2).
    apply (ex_processor m p place time E _ _ x y Px Py C). apply kept_release. exact H1.
  - apply andb_true_iff in H. destruct H as [H H2]. apply andb_true_iff in H.
    destruct H as [H0 H1]. specialize (C H2).
    apply (ex_processor m p place time E _ _ x y Px Py C). apply kept_tso.
    + destruct m; [reflexivity|discriminate].
    + intros [_ K]. rewrite K in H1. discriminate.
Qed.

Lemma before_ok_app : forall m y r s, before_ok m r y = true -> before_ok m (r ++ s) y = true.
Proof.
  intros m y r s H. unfold before_ok in *. repeat rewrite existsb_app.
  destruct (existsb (covers Rd (a_kind y)) r), (existsb (covers Wr (a_kind y)) r),
    (a_rel y), (a_clob y), (existsb clobbers r), (is_rd (a_kind y)), (is_tso m);
    simpl in *; try discriminate; try reflexivity; repeat rewrite orb_true_r; reflexivity.
Qed.

Fixpoint check_before (m : machine) (k : kind) (first c : list item) : bool :=
  match c with
  | [] => true
  | z :: c =>
      match z with
      | Access y => if same_kind (a_kind y) k then before_ok m first y else true
      | _ => true
      end && check_before m k (first ++ [z]) c
  end.

Lemma check_before_sound : forall m k c a first b place time i w x y,
  check_before m k first c = true ->
  execution m (a ++ first ++ c ++ b) place time ->
  nth_error c w = Some (Access y) -> a_kind y = k ->
  nth_error a i = Some (Access x) ->
  time i < time (length a + length first + w).
Proof.
  intros m k c. induction c as [|z c IH]; intros a first b place time i w x y H E Hw K Hi;
    [destruct w; discriminate|].
  simpl in H. apply andb_true_iff in H. destruct H as [H1 H2]. destruct w as [|w].
  - simpl in Hw. inversion Hw; subst z; clear Hw.
    destruct (same_kind (a_kind y) k) eqn:S.
    2:{ exfalso. apply same_kind_eq in K. congruence. }
    rewrite Nat.add_0_r.
    exact (before_ok_sound m y a first (c ++ b) place time i x E H1 Hi).
  - simpl in Hw.
    assert (E' : execution m (a ++ (first ++ [z]) ++ c ++ b) place time).
    { rewrite <- (app_assoc first). exact E. }
    specialize (IH a (first ++ [z]) b place time i w x y H2 E' Hw K Hi).
    rewrite app_length in IH. simpl in IH.
    replace (length a + length first + S w) with (length a + (length first + 1) + w) by lia.
    exact IH.
Qed.

Lemma before_ok_subset : forall m y r s,
  (forall f : item -> bool, existsb f r = true -> existsb f s = true) ->
  before_ok m r y = true -> before_ok m s y = true.
Proof.
  intros m y r s M H. unfold before_ok in *.
  repeat rewrite orb_true_iff in *. repeat rewrite andb_true_iff in *.
  destruct H as [[[H1 H2]|[H1 H2]]|[H1 H2]].
  - left. left. split; apply M; assumption.
  - left. right. split; [exact H1|]. rewrite orb_true_iff in *.
    destruct H2 as [H2|H2]; [left; exact H2|right; apply M; exact H2].
  - right. split; [exact H1|]. rewrite orb_true_iff in *.
    destruct H2 as [H2|H2]; [left; exact H2|right; apply M; exact H2].
Qed.

Lemma check_before_subset : forall m k c r s,
  (forall f : item -> bool, existsb f r = true -> existsb f s = true) ->
  check_before m k r c = true -> check_before m k s c = true.
Proof.
  intros m k c. induction c as [|z c IH]; intros r s M H; [reflexivity|].
  simpl in *. apply andb_true_iff in H. destruct H as [H1 H2]. apply andb_true_iff. split.
  - destruct z; auto. destruct (same_kind (a_kind a) k); auto.
    exact (before_ok_subset m a r s M H1).
  - apply (IH (r ++ [z])); [|exact H2].
    intros f. repeat rewrite existsb_app. repeat rewrite orb_true_iff.
    intros [H|H]; [left; apply M; exact H|right; exact H].
Qed.

Definition guarded_by (m : machine) (k : kind) (first c : list item) : bool :=
  forallb (fun z => match z with
                    | Access y => if same_kind (a_kind y) k then before_ok m first y else true
                    | _ => true
                    end) c.

Lemma check_before_app : forall m k c d first,
  guarded_by m k first c = true -> check_before m k first d = true ->
  check_before m k first (c ++ d) = true.
Proof.
  intros m k c d. induction c as [|z c IH]; intros first G D; [exact D|].
  simpl in G. apply andb_true_iff in G. destruct G as [G1 G2].
  simpl. apply andb_true_iff. split; [exact G1|].
  apply IH.
  - unfold guarded_by in *. rewrite forallb_forall in *. intros q Hq. specialize (G2 q Hq).
    destruct q; auto. destruct (same_kind (a_kind a) k); auto. apply before_ok_app. exact G2.
  - apply (check_before_subset m k d first); [|exact D].
    intros f Hf. rewrite existsb_app, Hf. reflexivity.
Qed.

Lemma guarded_by_repeat : forall m k n first c,
  guarded_by m k first c = true -> guarded_by m k first (repeat_code n c) = true.
Proof.
  intros m k n first c H. induction n as [|n IH]; [reflexivity|].
  simpl. unfold guarded_by in *. rewrite forallb_app. apply andb_true_iff. auto.
Qed.

Lemma release_check : forall m c, check_before m Wr [] c = true -> release_operation m c.
Proof.
  intros m c H pre post place time E i w [x Hx] [y [Hy Ky]].
  pose proof (check_before_sound m Wr c pre [] post place time i w x y H E Hy Ky Hx) as T.
  rewrite Nat.add_0_r in T. exact T.
Qed.

Lemma order_before : forall m c1 k1 c2 (k2 : kind -> Prop),
  (forall k, k2 k -> check_before m k [] c2 = true) -> in_order m c1 k1 c2 k2.
Proof.
  intros m c1 k1 c2 k2 H pre mid post place time E a b ka kb Ha Hb [x [Hx Kx]] [y [Hy Ky]].
  assert (E' : execution m ((pre ++ c1 ++ mid) ++ [] ++ c2 ++ post) place time).
  { simpl. repeat rewrite <- app_assoc. exact E. }
  pose proof (check_before_sound m kb c2 (pre ++ c1 ++ mid) [] post place time
    (length pre + a) b x y (H kb Hb) E' Hy Ky) as T.
  repeat rewrite app_length in T. simpl in T.
  replace (length pre + length c1 + length mid + b)
    with (length pre + (length c1 + length mid) + 0 + b) by lia.
  apply T. apply nth_post. apply nth_pre. exact Hx.
Qed.

Lemma guarded_more : forall m k c r d,
  guarded m k c d = true -> guarded m k c (r ++ d) = true.
Proof.
  intros m k c r d H. unfold guarded in *. rewrite forallb_forall in *. intros z Hz.
  specialize (H z Hz). destruct z; auto. destruct (same_kind (a_kind a) k); auto.
  apply after_ok_app_r. exact H.
Qed.

(** ** Instructions that order by themselves *)

(** Enough for [in_order] with acquire and release instructions only. *)
Definition sc_first (x : access) : bool :=
  a_vol x && match a_kind x with Rd => a_acq x | Wr => a_sc x end.
Definition sc_second (y : access) : bool :=
  a_vol y && match a_kind y with Rd => a_sc y | Wr => a_rel y end.

Definition check_all (f : access -> bool) (k : kind) (c : list item) : bool :=
  forallb (fun z => match z with
                    | Access x => if same_kind (a_kind x) k then f x else true
                    | _ => true
                    end) c.

Lemma check_all_nth : forall f k c i x,
  check_all f k c = true -> nth_error c i = Some (Access x) -> a_kind x = k -> f x = true.
Proof.
  intros f k c i x H Hi K. unfold check_all in H. rewrite forallb_forall in H.
  specialize (H (Access x) (nth_error_In _ _ Hi)). simpl in H.
  apply same_kind_eq in K. rewrite K in H. exact H.
Qed.

Lemma check_all_app : forall f k c d,
  check_all f k c = true -> check_all f k d = true -> check_all f k (c ++ d) = true.
Proof. intros f k c d H H'. unfold check_all. rewrite forallb_app. apply andb_true_iff. auto. Qed.

Lemma check_all_repeat : forall f k n c,
  check_all f k c = true -> check_all f k (repeat_code n c) = true.
Proof.
  intros f k n c H. induction n as [|n IH]; [reflexivity|]. simpl. apply check_all_app; assumption.
Qed.

Lemma order_sc : forall m c1 (k1 : kind -> Prop) c2 (k2 : kind -> Prop),
  (forall k, k1 k -> check_all sc_first k c1 = true) ->
  (forall k, k2 k -> check_all sc_second k c2 = true) ->
  in_order m c1 k1 c2 k2.
Proof.
  intros m c1 k1 c2 k2 H1 H2 pre mid post place time E a b ka kb Ha Hb [x [Hx Kx]] [y [Hy Ky]].
  pose proof (check_all_nth _ _ _ _ _ (H1 ka Ha) Hx Kx) as F.
  pose proof (check_all_nth _ _ _ _ _ (H2 kb Hb) Hy Ky) as G.
  unfold sc_first in F. unfold sc_second in G.
  apply andb_true_iff in F. apply andb_true_iff in G. destruct F as [Vx F]. destruct G as [Vy G].
  pose proof (nth_lt _ _ _ _ Hx) as La.
  set (p := pre ++ c1 ++ mid ++ c2 ++ post) in *.
  assert (Px : nth_error p (length pre + a) = Some (Access x)).
  { unfold p. apply nth_post. apply nth_pre. exact Hx. }
  assert (Py : nth_error p (length pre + length c1 + length mid + b) = Some (Access y)).
  { unfold p. rewrite <- !Nat.add_assoc. apply nth_post. apply nth_post. apply nth_post.
    apply nth_pre. exact Hy. }
  assert (L : place (length pre + a) < place (length pre + length c1 + length mid + b)).
  { eapply (ex_compiler m p place time E); [|exact Px|exact Py|]; [lia|].
    unfold compiler_keeps. simpl. rewrite Vx, Vy. rewrite orb_true_r. reflexivity. }
  apply (ex_processor m p place time E _ _ x y Px Py L).
  destruct (a_kind x) eqn:Ex.
  - apply kept_acquire. exact F.
  - destruct (a_kind y) eqn:Ey.
    + apply kept_sc; assumption.
    + apply kept_release. exact G.
Qed.

(** ** The back ends *)

Ltac after :=
  first
    [ reflexivity
    | apply check_after_app;
      [ first [ reflexivity | apply guarded_repeat; reflexivity
              | apply guarded_more; reflexivity
              | apply guarded_repeat; apply guarded_more; reflexivity ]
      | after ] ].

Lemma check_before_cat : forall m k c d first,
  check_before m k first c = true -> check_before m k (first ++ c) d = true ->
  check_before m k first (c ++ d) = true.
Proof.
  intros m k c. induction c as [|z c IH]; intros d first H D.
  - rewrite app_nil_r in D. exact D.
  - simpl in *. apply andb_true_iff in H. destruct H as [H1 H2]. apply andb_true_iff.
    split; [exact H1|]. apply IH; [exact H2|]. rewrite <- app_assoc. exact D.
Qed.

Ltac before :=
  first
    [ reflexivity
    | apply check_before_app; [ apply guarded_by_repeat; reflexivity | before ]
    | apply check_before_cat; [ reflexivity | before ] ].

Ltac orders o H := destruct o; try (exfalso; exact H).

Ltac expose :=
  cbv beta iota zeta delta
    [emit x86_emit x86_store x86_load x86_exchange x86_cas x86_fetch
     x86w_emit x86w_loop x86w_store x86w_load
     ppc_emit ppc_store ppc_load ppc_rmw ppc_cas
     arm_emit armw_emit arm_store arm_load arm_rmw arm_cas
     a64_emit a64w_emit a32w_emit a64_store a64_load a64_rmw a64_cas a64w_store a64w_load
     a32w_load mo_switch
     sparc_emit sparc_store sparc_load sparc_cas sparc_exchange sparc_fetch
     sync_emit syncw_emit sync_store sync_load sync_exchange sync_clear
     linux_emit linux_store linux_load linux_cas
     windows_emit windows_rmw msvc_emit msvc_store msvc_load
     msvca_emit msvca_store msvca_load is_seq_cst].

Ltac impossible X := try (exfalso; apply X; first [discriminate | intros Y; exact Y]).

Lemma acquire_ok : forall b l p o,
  read_order p = Some o -> acquiring o -> ~ acquire_exception b p ->
  check_after (machine_of b) Rd (emit b l p) = true.
Proof.
  intros b l p o R A X.
  destruct p as [n o'|n o'|n o'|ar n o'|ok n so fo|n o'|n o']; simpl in R;
    try discriminate R; try (destruct ok); inversion R; subst; clear R.
  all: destruct b as [|al|pp| | | | |rc| | | | | | | | |]; simpl in X;
    try (exfalso; apply X; exact I);
    try (exfalso; apply X; exact A);
    try (destruct al); try (destruct pp); try (destruct rc); try (destruct ar).
  all: try (destruct o; try (exfalso; exact A); impossible X;
            first [reflexivity | expose; after]).
  all: destruct o; try (exfalso; exact A); try (destruct so); try (destruct fo); impossible X;
            first [reflexivity | expose; after].
Qed.

Theorem acquire_holds : forall b l p o,
  read_order p = Some o -> acquiring o -> ~ acquire_exception b p ->
  acquire_operation (machine_of b) (emit b l p).
Proof. intros. apply acquire_check. eapply acquire_ok; eassumption. Qed.

Lemma release_ok : forall b l p o,
  write_order p = Some o -> releasing o ->
  check_before (machine_of b) Wr [] (emit b l p) = true.
Proof.
  intros b l p o R A.
  destruct p as [n o'|n o'|n o'|ar n o'|ok n so fo|n o'|n o']; simpl in R;
    try discriminate R; try (destruct ok); inversion R; subst; clear R.
  all: destruct b as [|al|pp| | | | |rc| | | | | | | | |];
    try (destruct al); try (destruct pp); try (destruct rc); try (destruct ar).
  all: try (destruct o; try (exfalso; exact A); first [reflexivity | expose; before]).
  all: destruct o; try (exfalso; exact A); destruct fo; first [reflexivity | expose; before].
Qed.

Theorem release_holds : forall b l p o,
  write_order p = Some o -> releasing o ->
  release_operation (machine_of b) (emit b l p).
Proof. intros. apply release_check. eapply release_ok; eassumption. Qed.

(** ** seq_cst operations of one thread *)

(** The shapes of a seq_cst operation. *)
Lemma seq_cst_shape : forall p, seq_cst_operation p -> accepted p ->
  match p with
  | OStore _ o | OLoad _ o | OExchange _ o | OFetch _ _ o | OTestAndSet _ o | OClear _ o =>
      o = SeqCst
  | OCas _ _ so _ => so = SeqCst
  end.
Proof.
  intros p [R W] A.
  destruct p as [n o|n o|n o|ar n o|ok n so fo|n o|n o]; simpl in *;
    try (destruct R as [R|R]; [discriminate R|inversion R; reflexivity]);
    try (destruct W as [W|W]; [discriminate W|inversion W; reflexivity]).
  destruct ok.
  - destruct R as [R|R]; [discriminate R|inversion R; reflexivity].
  - destruct R as [R|R]; [discriminate R|inversion R; subst].
    destruct so; try reflexivity; discriminate A.
Qed.

Definition by_after (b : backend) : bool :=
  match b with
  | Ppc _ | Aarch32 | Aarch32Wide | Aarch64 _ | Aarch64Wide => false
  | _ => true
  end.

Lemma seq_cst_after : forall b l p k, by_after b = true ->
  seq_cst_operation p -> accepted p ->
  ~ (b = LinuxArm /\ exists n so fo, p = OCas false n so fo) ->
  own p k -> check_after (machine_of b) k (emit b l p) = true.
Proof.
  intros b l p k B S A X O. pose proof (seq_cst_shape p S A) as H.
  destruct p as [n o|n o|n o|ar n o|ok n so fo|n o|n o]; simpl in O, H.
  all: try (destruct ok); subst.
  all: try (destruct S as [[R|R] _]; [discriminate R|]; simpl in R; inversion R; subst fo).
  all: destruct b as [|al|pp| | | | |rc| | | | | | | | |]; try discriminate B;
    try (exfalso; apply X; split; [reflexivity|eauto]; fail);
    try (destruct al); try (destruct ar); try (destruct k).
  all: try (first [reflexivity | expose; after]).
  all: destruct fo; first [reflexivity | expose; after].
Qed.

Lemma seq_cst_before : forall pp l p k,
  seq_cst_operation p -> accepted p -> own p k ->
  check_before Weak k [] (emit (Ppc pp) l p) = true.
Proof.
  intros pp l p k S A O. pose proof (seq_cst_shape p S A) as H.
  destruct p as [n o|n o|n o|ar n o|ok n so fo|n o|n o]; simpl in O, H.
  all: try (destruct ok); subst; destruct pp; try (destruct k).
  all: try (first [reflexivity | expose; before]).
  all: destruct fo; first [reflexivity | expose; before].
Qed.

Definition by_sc (b : backend) : bool :=
  match b with
  | Aarch32 | Aarch32Wide | Aarch64 _ | Aarch64Wide => true
  | _ => false
  end.

Ltac every :=
  first
    [ reflexivity
    | apply check_all_app; [ first [reflexivity | apply check_all_repeat; reflexivity] | every ] ].

Lemma seq_cst_sc : forall b l p k, by_sc b = true ->
  seq_cst_operation p -> accepted p -> own p k ->
  check_all sc_first k (emit b l p) = true /\ check_all sc_second k (emit b l p) = true.
Proof.
  intros b l p k B S A O. pose proof (seq_cst_shape p S A) as H.
  destruct p as [n o|n o|n o|ar n o|ok n so fo|n o|n o]; simpl in O, H.
  all: try (destruct ok); subst.
  all: destruct b as [|al|pp| | | | |rc| | | | | | | | |]; try discriminate B;
    try (destruct rc); try (destruct k).
  all: split; first [reflexivity | expose; every].
Qed.

Theorem seq_cst_in_order : forall b l1 l2 p1 p2,
  seq_cst_operation p1 -> accepted p1 -> seq_cst_operation p2 -> accepted p2 ->
  ~ (b = LinuxArm /\ exists n so fo, p1 = OCas false n so fo) ->
  in_order (machine_of b) (emit b l1 p1) (own p1) (emit b l2 p2) (own p2).
Proof.
  intros b l1 l2 p1 p2 S1 A1 S2 A2 X.
  destruct (by_after b) eqn:B.
  - apply order_after. intros k O. apply seq_cst_after; assumption.
  - destruct (by_sc b) eqn:C.
    + apply order_sc; intros k O; apply (seq_cst_sc b); assumption.
    + destruct b; try discriminate B; try discriminate C.
      apply order_before. intros k O. apply seq_cst_before; assumption.
Qed.

(** ** Fences *)

Definition fence_check (m : machine) (k1 k2 : kind) (c : list item) : bool :=
  existsb (covers k1 k2) c
  || (is_tso m && (is_rd k1 || negb (is_rd k2)) && existsb clobbers c).

Lemma fence_check_sound : forall m c (k1 k2 : kind -> Prop),
  (forall k k', k1 k -> k2 k' -> fence_check m k k' c = true) -> fence_keeps m c k1 k2.
Proof.
  intros m c k1 k2 H pre post place time E i j k k' Hk Hk' [x [Hx Kx]] [y [Hy Ky]].
  specialize (H k k' Hk Hk').
  set (p := pre ++ c ++ post) in *.
  assert (Px : nth_error p i = Some (Access x)) by (unfold p; apply nth_pre; exact Hx).
  assert (Py : nth_error p (length pre + length c + j) = Some (Access y)).
  { unfold p. rewrite <- Nat.add_assoc. apply nth_post. apply nth_post. exact Hy. }
  pose proof (nth_lt _ _ _ _ Hx) as Li.
  assert (B : forall q z, nth_error c q = Some z -> clobbers z = true ->
    nth_error p (length pre + q) = Some z /\
    place i < place (length pre + q) /\
    place (length pre + q) < place (length pre + length c + j)).
  { intros q z Hz C. pose proof (nth_lt _ _ _ _ Hz) as L.
    assert (Pz : nth_error p (length pre + q) = Some z).
    { unfold p. apply nth_post. apply nth_pre. exact Hz. }
    split; [exact Pz|split].
    - apply (place_lt_clob m p place time _ _ (Access x) z E); auto; lia.
    - apply (place_lt_clob m p place time _ _ z (Access y) E); auto; lia. }
  unfold fence_check in H. apply orb_true_iff in H. destruct H as [H|H].
  - apply existsb_nth in H. destruct H as [q [z [Hz Cz]]].
    destruct (B q z Hz (covers_clobbers _ _ _ Cz)) as [Pz [L1 L2]].
    apply (ex_processor m p place time E _ _ x y Px Py); [lia|].
    apply kept_barrier. exists (length pre + q), z. rewrite Kx, Ky. auto.
  - apply andb_true_iff in H. destruct H as [H H2]. apply andb_true_iff in H.
    destruct H as [H0 H1]. apply existsb_nth in H2. destruct H2 as [q [z [Hz Cz]]].
    destruct (B q z Hz Cz) as [Pz [L1 L2]].
    apply (ex_processor m p place time E _ _ x y Px Py); [lia|].
    apply kept_tso.
    + destruct m; [reflexivity|discriminate].
    + intros [K1 K2]. rewrite <- Kx, K1, <- Ky, K2 in H1. discriminate H1.
Qed.

Theorem thread_fence_holds : forall b o,
  ~ ((b = X86 \/ exists al, b = X86Wide al) /\ o = Consume) ->
  fence_of_order (machine_of b) (thread_fence b o) o.
Proof.
  intros b o X. split; [|split].
  - intros A. apply fence_check_sound. unfold reads, anything. intros k k' -> _.
    destruct b as [|al|pp| | | | |rc| | | | | | | | |]; try (destruct pp);
      destruct o; try (exfalso; exact A); try (destruct k'; reflexivity).
    + exfalso. apply X. auto.
    + exfalso. apply X. eauto.
  - intros A. apply fence_check_sound. unfold writes, anything. intros k k' _ ->.
    destruct b as [|al|pp| | | | |rc| | | | | | | | |]; try (destruct pp);
      destruct o; try (exfalso; exact A); destruct k; reflexivity.
  - intros ->. apply fence_check_sound. unfold anything. intros k k' _ _.
    destruct b as [|al|pp| | | | |rc| | | | | | | | |]; try (destruct pp);
      destruct k, k'; reflexivity.
Qed.

Theorem signal_fence_holds : forall b o, o <> Relaxed ->
  signal_fence_keeps (machine_of b) (signal_fence b o).
Proof.
  intros b o H pre post place time E i j [x Hx] [y Hy].
  assert (F : signal_fence b o = [Clobber]) by (destruct o; try reflexivity; congruence).
  rewrite F in *. set (p := pre ++ [Clobber] ++ post) in *.
  assert (Px : nth_error p i = Some (Access x)) by (unfold p; apply nth_pre; exact Hx).
  assert (Pz : nth_error p (length pre) = Some Clobber).
  { unfold p. replace (length pre) with (length pre + 0) by lia. apply nth_post. reflexivity. }
  assert (Py : nth_error p (length pre + length [Clobber] + j) = Some (Access y)).
  { unfold p. rewrite <- Nat.add_assoc. apply nth_post. apply nth_post. exact Hy. }
  pose proof (nth_lt _ _ _ _ Hx) as Li.
  assert (place i < place (length pre)).
  { apply (place_lt_clob _ p place time _ _ (Access x) Clobber E); auto. }
  assert (place (length pre) < place (length pre + length [Clobber] + j)).
  { apply (place_lt_clob _ p place time _ _ Clobber (Access y) E); auto. simpl. lia. }
  lia.
Qed.

(** ** Two threads *)

Theorem message_passes : forall m wcode rcode,
  release_operation m wcode -> acquire_operation m rcode -> passes_message m wcode rcode.
Proof.
  intros m wcode rcode R A wpre wpost wplace wtime rpre rpost rplace rtime Ew Er w r Hw Hr L
    i j Hi Hj.
  pose proof (R wpre wpost wplace wtime Ew i w Hi Hw).
  pose proof (A rpre rpost rplace rtime Er r j Hr Hj). lia.
Qed.

Theorem fence_message_passes : forall m wfence rfence,
  fence_keeps m wfence anything writes -> fence_keeps m rfence reads anything ->
  fences_pass_message m wfence rfence.
Proof.
  intros m wcode rcode R A wpre wpost wplace wtime rpre rpost rplace rtime Ew Er w r Hw Hr L
    i j [x Hx] [y Hy].
  assert (wtime i < wtime (length wpre + length wcode + w)).
  { apply (R wpre wpost wplace wtime Ew i w (a_kind x) Wr); try (exact I); try reflexivity; auto.
    exists x. auto. }
  assert (rtime r < rtime (length rpre + length rcode + j)).
  { apply (A rpre rpost rplace rtime Er r j Rd (a_kind y)); try (exact I); try reflexivity; auto.
    exists y. auto. }
  lia.
Qed.

(** ** SPARC *)

Definition after_w_ok (rest : list item) : bool := existsb (covers Rd Wr) rest.

Fixpoint check_after_w (c : list item) : bool :=
  match c with
  | [] => true
  | Access x :: rest =>
      (if same_kind (a_kind x) Rd then after_w_ok rest else true) && check_after_w rest
  | _ :: rest => check_after_w rest
  end.

Lemma check_after_w_sound : forall m c a b place time r j x y,
  check_after_w c = true ->
  execution m (a ++ c ++ b) place time ->
  nth_error c r = Some (Access x) -> a_kind x = Rd ->
  nth_error b j = Some (Access y) -> a_kind y = Wr ->
  time (length a + r) < time (length a + length c + j).
Proof.
  intros m c. induction c as [|z c IH]; intros a b place time r j x y H E Hr K Hj Ky;
    [destruct r; discriminate|].
  destruct r as [|r].
  - simpl in Hr. inversion Hr; subst z; clear Hr. simpl in H. rewrite K in H. simpl in H.
    apply andb_true_iff in H. destruct H as [H _].
    replace (length a + 0) with (length a) by lia.
    set (p := a ++ (Access x :: c) ++ b) in *.
    assert (Px : nth_error p (length a) = Some (Access x)).
    { unfold p. replace (length a) with (length a + 0) by lia. apply nth_post. reflexivity. }
    assert (Py : nth_error p (length a + length (Access x :: c) + j) = Some (Access y)).
    { unfold p. rewrite <- Nat.add_assoc. apply nth_post. apply nth_post. exact Hj. }
    apply existsb_nth in H. destruct H as [i [z [Hz Cz]]].
    pose proof (covers_clobbers _ _ _ Cz) as Cb.
    assert (Pz : nth_error p (length a + S i) = Some z).
    { unfold p. apply nth_post. apply nth_pre. exact Hz. }
    pose proof (nth_lt _ _ _ _ Hz) as L.
    assert (place (length a) < place (length a + S i)) as L1
      by (apply (place_lt_clob m p place time _ _ (Access x) z E); auto; lia).
    assert (place (length a + S i) < place (length a + length (Access x :: c) + j)) as L2.
    { apply (place_lt_clob m p place time _ _ z (Access y) E); auto. simpl. lia. }
    apply (ex_processor m p place time E _ _ x y Px Py); [lia|].
    apply kept_barrier. exists (length a + S i), z. rewrite K, Ky. auto.
  - simpl in Hr.
    assert (H' : check_after_w c = true).
    { destruct z; simpl in H; auto. apply andb_true_iff in H. destruct H. assumption. }
    assert (E' : execution m ((a ++ [z]) ++ c ++ b) place time).
    { rewrite <- app_assoc. exact E. }
    specialize (IH (a ++ [z]) b place time r j x y H' E' Hr K Hj Ky).
    rewrite app_length in IH. simpl in IH.
    replace (length a + S r) with (length a + 1 + r) by lia.
    replace (length a + length (z :: c) + j) with (length a + 1 + length c + j) by (simpl; lia).
    exact IH.
Qed.

Lemma check_after_w_app : forall c d,
  after_w_ok d = true -> check_after_w d = true -> check_after_w (c ++ d) = true.
Proof.
  intros c d A D. induction c as [|z c IH]; [exact D|].
  destruct z as [x|ll ls sl ss| |]; simpl; auto.
  rewrite IH, andb_true_r. destruct (same_kind (a_kind x) Rd); auto.
  unfold after_w_ok in *. rewrite existsb_app, A. apply orb_true_r.
Qed.

Theorem sparc_writes_ok : forall l p o,
  read_order p = Some o -> acquiring o ->
  acquire_for_writes (machine_of Sparc) (emit Sparc l p).
Proof.
  intros l p o R A pre post place time E r j [x [Hx Kx]] [y [Hy Ky]].
  refine (check_after_w_sound _ _ pre post place time r j x y _ E Hx Kx Hy Ky).
  destruct p as [n o'|n o'|n o'|ar n o'|ok n so fo|n o'|n o']; simpl in R;
    try discriminate R; try (destruct ok); inversion R; subst; clear R.
  4:{ destruct o; try (exfalso; exact A); destruct fo; reflexivity. }
  4:{ destruct o; try (exfalso; exact A); destruct so; reflexivity. }
  all: destruct o; try (exfalso; exact A); try reflexivity.
  all: expose; apply check_after_w_app; [| apply check_after_w_app; reflexivity].
  all: unfold after_w_ok; rewrite existsb_app; apply orb_true_iff; right; reflexivity.
Qed.

Theorem sparc_tso_ok : forall l p o,
  read_order p = Some o -> acquiring o -> acquire_operation TSO (emit Sparc l p).
Proof.
  intros l p o R A. apply acquire_check.
  destruct p as [n o'|n o'|n o'|ar n o'|ok n so fo|n o'|n o']; simpl in R;
    try discriminate R; try (destruct ok); inversion R; subst; clear R.
  all: destruct o; try (exfalso; exact A); first [reflexivity | expose; after | idtac].
  all: try (destruct so); try (destruct fo); first [reflexivity | expose; after].
Qed.

(** ** Executions, for witnesses *)

Definition indices (p : list item) : list nat := seq 0 (length p).

Definition between_b (p : list item) (pl : list nat) (i j : nat) (f : item -> bool) : bool :=
  existsb (fun b => match nth_error p b with
                    | Some z => f z && (nth i pl 0 <? nth b pl 0) && (nth b pl 0 <? nth j pl 0)
                    | None => false
                    end) (indices p).

Definition kept_b (m : machine) (between : (item -> bool) -> bool) (x y : access) : bool :=
  (is_tso m && negb (negb (is_rd (a_kind x)) && is_rd (a_kind y)))
  || between (covers (a_kind x) (a_kind y))
  || (is_rd (a_kind x) && a_br x && between is_isync)
  || a_acq x || a_rel y
  || (negb (is_rd (a_kind x)) && is_rd (a_kind y) && a_sc x && a_sc y).

Definition pair_ok (m : machine) (p : list item) (pl ti : list nat) (i j : nat) : bool :=
  (implb (nth i pl 0 =? nth j pl 0) (i =? j)) &&
  match nth_error p i, nth_error p j with
  | Some x, Some y =>
      implb ((i <? j) && compiler_keeps x y) (nth i pl 0 <? nth j pl 0) &&
      match x, y with
      | Access x, Access y =>
          implb ((nth i pl 0 <? nth j pl 0) && kept_b m (between_b p pl i j) x y)
            (nth i ti 0 <? nth j ti 0)
      | _, _ => true
      end
  | _, _ => true
  end.

Definition execution_b (m : machine) (p : list item) (pl ti : list nat) : bool :=
  forallb (fun i => forallb (fun j => pair_ok m p pl ti i j) (indices p)) (indices p).

Lemma between_b_complete : forall p pl i j (f : item -> bool),
  (exists b z, nth_error p b = Some z /\ f z = true /\
     nth i pl 0 < nth b pl 0 /\ nth b pl 0 < nth j pl 0) ->
  between_b p pl i j f = true.
Proof.
  intros p pl i j f [b [z [Hz [Fz [L1 L2]]]]]. unfold between_b. apply existsb_exists.
  exists b. split.
  - unfold indices. apply in_seq. pose proof (nth_lt _ _ _ _ Hz). lia.
  - rewrite Hz, Fz. apply Nat.ltb_lt in L1. apply Nat.ltb_lt in L2. rewrite L1, L2. reflexivity.
Qed.

Lemma kept_b_complete : forall m p pl i j x y,
  kept m (fun f => exists b z, nth_error p b = Some z /\ f z = true /\
                     nth i pl 0 < nth b pl 0 /\ nth b pl 0 < nth j pl 0) x y ->
  kept_b m (between_b p pl i j) x y = true.
Proof.
  intros m p pl i j x y K. unfold kept_b.
  destruct K as [T N|B|R Br B|A|A|W R S1 S2].
  - subst m. replace (negb (negb (is_rd (a_kind x)) && is_rd (a_kind y))) with true; [reflexivity|].
    destruct (a_kind x), (a_kind y); try reflexivity. exfalso. apply N. auto.
  - rewrite (between_b_complete _ _ _ _ _ B). rewrite orb_true_r. reflexivity.
  - assert (between_b p pl i j is_isync = true) as Q by (apply between_b_complete; exact B).
    rewrite Q, R, Br. simpl. rewrite orb_true_r. reflexivity.
  - rewrite A. rewrite orb_true_r. reflexivity.
  - rewrite A. rewrite orb_true_r. reflexivity.
  - rewrite W, R, S1, S2. simpl. rewrite orb_true_r. reflexivity.
Qed.

Lemma execution_b_sound : forall m p pl ti, execution_b m p pl ti = true ->
  execution m p (fun i => nth i pl 0) (fun i => nth i ti 0).
Proof.
  intros m p pl ti H.
  assert (P : forall i j, i < length p -> j < length p -> pair_ok m p pl ti i j = true).
  { intros i j Hi Hj. unfold execution_b in H. rewrite forallb_forall in H.
    assert (In i (indices p)) as Ii by (apply in_seq; lia).
    assert (In j (indices p)) as Ij by (apply in_seq; lia).
    specialize (H i Ii). rewrite forallb_forall in H. exact (H j Ij). }
  constructor.
  - intros i j Hi Hj E. specialize (P i j Hi Hj). unfold pair_ok in P.
    apply andb_true_iff in P. destruct P as [P _]. rewrite E, Nat.eqb_refl in P. simpl in P.
    apply Nat.eqb_eq. exact P.
  - intros i j x y L Hi Hj C.
    specialize (P i j (nth_lt _ _ _ _ Hi) (nth_lt _ _ _ _ Hj)). unfold pair_ok in P.
    apply andb_true_iff in P. destruct P as [_ P]. rewrite Hi, Hj in P.
    apply andb_true_iff in P. destruct P as [P _].
    apply Nat.ltb_lt in L. rewrite L, C in P. apply Nat.ltb_lt. exact P.
  - intros i j x y Hi Hj L K.
    specialize (P i j (nth_lt _ _ _ _ Hi) (nth_lt _ _ _ _ Hj)). unfold pair_ok in P.
    apply andb_true_iff in P. destruct P as [_ P]. rewrite Hi, Hj in P.
    apply andb_true_iff in P. destruct P as [_ P].
    apply Nat.ltb_lt in L. rewrite L, (kept_b_complete _ _ _ _ _ _ _ K) in P.
    apply Nat.ltb_lt. exact P.
Qed.

(** Program order is always an execution. *)
Theorem program_order : forall m p, execution m p (fun i => i) (fun i => i).
Proof. intros m p. constructor; intros; assumption. Qed.

(** The access after [code] takes effect before the access [r] of [code]. *)
Definition overtakes (m : machine) (code : list item) (later : access) (r : nat)
    (pl ti : list nat) : bool :=
  execution_b m ([] ++ code ++ [Access later]) pl ti &&
  (nth (length code) ti 0 <? nth r ti 0).

Lemma not_acquire : forall m code later r pl ti,
  overtakes m code later r pl ti = true -> accesses_of code Rd r ->
  ~ acquire_operation m code.
Proof.
  intros m code later r pl ti O A H. apply andb_true_iff in O. destruct O as [E L].
  apply execution_b_sound in E.
  specialize (H [] [Access later] _ _ E r 0 A (ex_intro _ later eq_refl)). simpl in H.
  replace (length code + 0) with (length code) in H by lia.
  apply Nat.ltb_lt in L. lia.
Qed.

(** An access of another object. *)
Definition plain_read (l : nat) : access := Acc Rd l false false false false false false.
Definition plain_write (l : nat) : access := Acc Wr l false false false false false false.

Theorem sparc_acquire_refuted : forall l, exists p,
  read_order p = Some Acquire /\ ~ acquire_operation (machine_of Sparc) (emit Sparc l p).
Proof.
  intros l. exists (OLoad 0 Acquire). split; [reflexivity|].
  apply (not_acquire _ _ (plain_read (S l)) 0 [0;1;2] [1;0;0]).
  - reflexivity.
  - eexists. split; reflexivity.
Qed.

Theorem aarch32_wide_load_refuted : forall l n o, acquiring o ->
  ~ acquire_operation (machine_of Aarch32Wide) (emit Aarch32Wide l (OLoad n o)).
Proof.
  intros l n o A.
  apply (not_acquire _ _ (plain_read (S l)) 0 [1;0] [1;0]).
  - destruct o; try (exfalso; exact A); reflexivity.
  - eexists. split; reflexivity.
Qed.

Theorem armv8_failed_cas_refuted : forall b l, In b [Aarch32; Aarch32Wide; Aarch64 false; Aarch64 true; Aarch64Wide] ->
  exists p, accepted p /\ read_order p = Some Acquire /\
    ~ acquire_operation (machine_of b) (emit b l p).
Proof.
  intros b l B. exists (OCas false 0 Release Acquire). split; [reflexivity|]. split; [reflexivity|].
  apply (not_acquire _ _ (plain_read (S l)) 0 [0;1] [1;0]).
  - simpl in B. repeat (destruct B as [<-|B]; [reflexivity|]). destruct B.
  - simpl in B. repeat (destruct B as [<-|B]; [eexists; split; reflexivity|]). destruct B.
Qed.

Theorem linux_arm_failed_cas_refuted : forall l o, acquiring o -> failure_order o ->
  exists p, accepted p /\ read_order p = Some o /\
    ~ acquire_operation (machine_of LinuxArm) (emit LinuxArm l p).
Proof.
  intros l o A F. exists (OCas false 0 SeqCst o).
  split; [destruct F; destruct o; try reflexivity; congruence|]. split; [reflexivity|].
  apply (not_acquire _ _ (plain_read (S l)) 3 [0;1;2;3;4] [0;0;0;2;1]).
  - reflexivity.
  - eexists. split; reflexivity.
Qed.

(** A failed seq_cst compare_exchange followed by a seq_cst store. *)
Theorem linux_arm_seq_cst_refuted : forall l1 l2, exists p1 p2,
  seq_cst_operation p1 /\ accepted p1 /\ seq_cst_operation p2 /\ accepted p2 /\
  ~ in_order (machine_of LinuxArm) (emit LinuxArm l1 p1) (own p1) (emit LinuxArm l2 p2) (own p2).
Proof.
  intros l1 l2. exists (OCas false 0 SeqCst SeqCst), (OLoad 0 SeqCst).
  split; [split; [right|left]; reflexivity|]. split; [reflexivity|].
  split; [split; [right|left]; reflexivity|]. split; [exact I|].
  intros H.
  assert (E : execution_b Weak ([] ++ emit LinuxArm l1 (OCas false 0 SeqCst SeqCst) ++ [] ++
                                emit LinuxArm l2 (OLoad 0 SeqCst) ++ [])
                [0;1;2;3;4;5] [0;0;0;2;1;0] = true) by reflexivity.
  apply execution_b_sound in E.
  specialize (H [] [] [] _ _ E 3 0 Rd Rd eq_refl eq_refl).
  simpl in H. assert (2 < 1); [|lia].
  apply H; eexists; split; reflexivity.
Qed.

Theorem x86_consume_fence_refuted : forall b, (b = X86 \/ exists al, b = X86Wide al) ->
  ~ fence_of_order (machine_of b) (thread_fence b Consume) Consume.
Proof.
  intros b B [H _]. specialize (H I).
  assert (T : machine_of b = TSO) by (destruct B as [->|[al ->]]; reflexivity).
  assert (F : thread_fence b Consume = []) by (destruct B as [->|[al ->]]; reflexivity).
  rewrite T, F in H.
  set (x := plain_read 0). set (y := plain_read 1).
  assert (E : execution_b TSO ([Access x] ++ [] ++ [Access y]) [1;0] [1;0] = true) by reflexivity.
  apply execution_b_sound in E.
  specialize (H [Access x] [Access y] _ _ E 0 0 Rd Rd eq_refl I).
  simpl in H. assert (1 < 0); [|lia].
  apply H; eexists; split; reflexivity.
Qed.

(** ** Orders *)

Theorem failure_order_ok : forall o,
  failure_order (deduce_failure_order o) /\ weaker (deduce_failure_order o) o /\
  (forall o', failure_order o' -> weaker o' o -> weaker o' (deduce_failure_order o)) /\
  cas_orders_accepted o (deduce_failure_order o) = true.
Proof.
  intros o. split; [|split; [|split]].
  - destruct o; split; discriminate.
  - destruct o; simpl; constructor; auto.
  - intros o' [F1 F2] W. destruct o; simpl; try exact W;
      inversion W; subst; try constructor; try congruence; auto.
    destruct H as [H|H]; discriminate.
  - destruct o; reflexivity.
Qed.

Theorem accepted_orders : forall so fo,
  cas_orders_accepted so fo = true <->
  failure_order fo /\ (weaker fo so \/ so = Release /\ (fo = Consume \/ fo = Acquire)).
Proof.
  intros so fo. split.
  - intros H. split.
    + destruct fo; split; discriminate.
    + destruct so, fo; try discriminate H; try (right; auto; fail); left;
        first [apply weaker_same | apply weaker_relaxed | apply weaker_seq_cst | constructor; auto].
  - intros [[F1 F2] [W|[-> [-> | ->]]]]; try reflexivity.
    inversion W; subst; try congruence.
    + destruct so; try reflexivity; congruence.
    + destruct so; reflexivity.
    + destruct H as [->| ->]; reflexivity.
    + reflexivity.
    + destruct fo; try reflexivity; congruence.
Qed.

Theorem convert_exact : forall o,
  compiler_order (convert_memory_order_to_gcc (code o)) = Some o.
Proof. intros o. destruct o; reflexivity. Qed.

Theorem convert_other : forall z, (forall o, z <> code o) ->
  compiler_order (convert_memory_order_to_gcc z) = Some SeqCst.
Proof.
  intros z H. unfold convert_memory_order_to_gcc.
  destruct (Z.eqb_spec z (code Relaxed)) as [E|_]; [destruct (H _ E)|].
  destruct (Z.eqb_spec z (code Consume)) as [E|_]; [destruct (H _ E)|].
  destruct (Z.eqb_spec z (code Acquire)) as [E|_]; [destruct (H _ E)|].
  destruct (Z.eqb_spec z (code Release)) as [E|_]; [destruct (H _ E)|].
  destruct (Z.eqb_spec z (code AcqRel)) as [E|_]; [destruct (H _ E)|].
  reflexivity.
Qed.

(** ** The exceptions are exact *)

(** Nothing keeps the read [x] before the accesses of [rest]; [seen] is what
    stands between. *)
Fixpoint free_after (x : access) (seen rest : list item) : bool :=
  match rest with
  | [] => true
  | z :: rest =>
      match z with
      | Access y => negb (existsb (covers (a_kind x) (a_kind y)) seen) && negb (a_rel y)
      | _ => true
      end && free_after x (seen ++ [z]) rest
  end.

Definition free_read (x : access) : bool := is_rd (a_kind x) && negb (a_acq x) && negb (a_br x).

Lemma free_after_nth : forall x rest seen j y,
  free_after x seen rest = true -> nth_error rest j = Some (Access y) ->
  existsb (covers (a_kind x) (a_kind y)) (seen ++ firstn j rest) = false /\ a_rel y = false.
Proof.
  intros x rest. induction rest as [|z rest IH]; intros seen j y F H; [destruct j; discriminate|].
  simpl in F. apply andb_true_iff in F. destruct F as [F1 F2]. destruct j as [|j].
  - simpl in H. inversion H; subst z. apply andb_true_iff in F1. destruct F1 as [F1 F3].
    apply negb_true_iff in F1. apply negb_true_iff in F3. simpl. rewrite app_nil_r. auto.
  - simpl in H. specialize (IH (seen ++ [z]) j y F2 H). rewrite <- app_assoc in IH. exact IH.
Qed.

Lemma late_read : forall p a x rest,
  p = a ++ Access x :: rest -> free_read x = true -> free_after x [] rest = true ->
  execution Weak p (fun i => i) (fun i => if i =? length a then S (length p) else i).
Proof.
  intros p a x rest Hp Fx Fr.
  assert (Px : nth_error p (length a) = Some (Access x)).
  { subst p. replace (length a) with (length a + 0) by lia. apply nth_post. reflexivity. }
  unfold free_read in Fx. apply andb_true_iff in Fx. destruct Fx as [Fx Fb].
  apply andb_true_iff in Fx. destruct Fx as [Fk Fa].
  apply negb_true_iff in Fa. apply negb_true_iff in Fb.
  constructor.
  - intros i j _ _ E. exact E.
  - intros i j u v L _ _ _. exact L.
  - intros i j u v Hu Hv L K.
    destruct (Nat.eqb_spec i (length a)) as [Ei|Ei], (Nat.eqb_spec j (length a)) as [Ej|Ej];
      try lia.
    + exfalso. subst i. rewrite Px in Hu. inversion Hu; subst u. clear Hu Px.
      assert (Hj : nth_error rest (j - S (length a)) = Some (Access v)).
      { subst p. rewrite nth_error_app2 in Hv by lia.
        replace (j - length a) with (S (j - S (length a))) in Hv by lia. exact Hv. }
      destruct (free_after_nth x rest [] (j - S (length a)) v Fr Hj) as [C R]. simpl in C.
      inversion K as [T N|B|R' Br B|A|A|W R' S1 S2]; try congruence; try discriminate.
      * destruct B as [b [z [Hz [Cz [L1 L2]]]]].
        assert (existsb (covers (a_kind x) (a_kind v)) (firstn (j - S (length a)) rest) = true);
          [|congruence].
        apply existsb_exists. exists z. split; [|exact Cz].
        assert (Hb : nth_error rest (b - S (length a)) = Some z).
        { subst p. rewrite nth_error_app2 in Hz by lia.
          replace (b - length a) with (S (b - S (length a))) in Hz by lia. exact Hz. }
        apply (nth_error_In _ (b - S (length a))).
        rewrite <- (firstn_skipn (j - S (length a)) rest) in Hb.
        rewrite nth_error_app1 in Hb; [exact Hb|].
        rewrite firstn_length. pose proof (nth_lt _ _ _ _ Hj). lia.
      * rewrite W in Fk. discriminate.
    + subst j. pose proof (nth_lt _ _ _ _ Hu). lia.
Qed.

Lemma not_acquire_late : forall code a x rest later,
  code = a ++ Access x :: rest -> free_read x = true ->
  free_after x [] (rest ++ [Access later]) = true ->
  ~ acquire_operation Weak code.
Proof.
  intros code a x rest later Hc Fx Fr H.
  assert (E : execution Weak ([] ++ code ++ [Access later]) (fun i => i)
    (fun i => if i =? length a then S (length ([] ++ code ++ [Access later])) else i)).
  { apply (late_read _ a x (rest ++ [Access later])); auto. subst code. simpl.
    rewrite <- app_assoc. reflexivity. }
  assert (A : accesses_of code Rd (length a)).
  { exists x. split.
    - subst code. replace (length a) with (length a + 0) by lia. apply nth_post. reflexivity.
    - unfold free_read in Fx. destruct (a_kind x); [reflexivity|discriminate]. }
  specialize (H [] [Access later] _ _ E (length a) 0 A (ex_intro _ later eq_refl)).
  simpl in H. rewrite Nat.eqb_refl in H.
  assert (L : length a < length code) by (subst code; rewrite app_length; simpl; lia).
  destruct (Nat.eqb_spec (length code + 0) (length a)); [lia|].
  rewrite app_length in H. simpl in H. lia.
Qed.

Theorem exceptions_exact : forall b l p o,
  read_order p = Some o -> acquiring o -> acquire_exception b p ->
  ~ acquire_operation (machine_of b) (emit b l p).
Proof.
  intros b l p o R A X.
  destruct b as [|al|pp| | | | |rc| | | | | | | | |]; try (exfalso; exact X).
  - (* Aarch32 *)
    destruct p as [n o'|n o'|n o'|ar n o'|ok n so fo|n o'|n o']; try (exfalso; exact X).
    destruct ok; [exfalso; exact X|]. simpl in X.
    apply (not_acquire_late _ (repeat_code n [ld_mo true false l]) (Acc Rd l true true false false false false)
             [] (plain_read (S l))); try reflexivity.
    destruct so; try reflexivity; exfalso; apply X; exact I.
  - destruct p as [n o'|n o'|n o'|ar n o'|ok n so fo|n o'|n o']; try (exfalso; exact X).
    + simpl in R. inversion R; subst o'. apply aarch32_wide_load_refuted. exact A.
    + destruct ok; [exfalso; exact X|]. simpl in X.
      apply (not_acquire_late _ (repeat_code n [ld_mo true false l])
               (Acc Rd l true true false false false false) [] (plain_read (S l))); try reflexivity.
      destruct so; try reflexivity; exfalso; apply X; exact I.
  - destruct p as [n o'|n o'|n o'|ar n o'|ok n so fo|n o'|n o']; try (exfalso; exact X).
    destruct ok; [exfalso; exact X|]. simpl in X.
    apply (not_acquire_late _ (repeat_code n [ld_mo true false l])
             (Acc Rd l true true false false false false) [] (plain_read (S l))); try reflexivity.
    destruct so; try reflexivity; exfalso; apply X; exact I.
  - destruct p as [n o'|n o'|n o'|ar n o'|ok n so fo|n o'|n o']; try (exfalso; exact X).
    destruct ok; [exfalso; exact X|]. simpl in X.
    apply (not_acquire_late _ (repeat_code n [ld_mo true false l])
             (Acc Rd l true true false false false false) [] (plain_read (S l))); try reflexivity.
    destruct so; try reflexivity; exfalso; apply X; exact I.
  - (* Sparc *)
    simpl in X. rewrite R in X.
    assert (N : o <> SeqCst) by congruence. clear X.
    assert (F : sparc_fence_after o = [storestore_loadstore])
      by (destruct o; try reflexivity; try (exfalso; exact A); congruence).
    destruct p as [n o'|n o'|n o'|ar n o'|ok n so fo|n o'|n o']; try discriminate R;
      try (destruct ok); simpl in R; inversion R; subst; clear R; simpl.
    + unfold sparc_load. rewrite F.
      apply (not_acquire_late _ [] (Acc Rd l false true false false false false)
               [storestore_loadstore] (plain_read (S l))); reflexivity.
    + unfold sparc_exchange. rewrite F.
      apply (not_acquire_late _ (sparc_fence_before o) (Acc Rd l true true false false false false)
               [st_asm l; storestore_loadstore] (plain_read (S l))); reflexivity.
    + unfold sparc_fetch, sparc_cas at 2. rewrite F.
      apply (not_acquire_late _ ([ld l] ++ repeat_code n (sparc_cas false l o Relaxed)
                 ++ sparc_fence_before o)
               (Acc Rd l true true false false false false)
               [st_asm l; storestore_loadstore] (plain_read (S l))); try reflexivity.
      rewrite <- !app_assoc. reflexivity.
    + unfold sparc_cas. rewrite F.
      apply (not_acquire_late _ (sparc_fence_before o) (Acc Rd l true true false false false false)
               [st_asm l; storestore_loadstore] (plain_read (S l))); reflexivity.
    + unfold sparc_cas. rewrite F.
      apply (not_acquire_late _ (sparc_fence_before so) (Acc Rd l true true false false false false)
               [storestore_loadstore] (plain_read (S l))); reflexivity.
    + unfold sparc_exchange. rewrite F.
      apply (not_acquire_late _ (sparc_fence_before o) (Acc Rd l true true false false false false)
               [st_asm l; storestore_loadstore] (plain_read (S l))); reflexivity.
  - (* LinuxArm *)
    destruct p as [n o'|n o'|n o'|ar n o'|ok n so fo|n o'|n o']; try (exfalso; exact X).
    destruct ok; [exfalso; exact X|].
    apply (not_acquire_late _ (repeat_code n (linux_cas false l) ++ full_read l)
             (Acc Rd l false true false false false false) [] (plain_read (S l))); try reflexivity.
    simpl. rewrite <- app_assoc. reflexivity.
Qed.

Theorem fences_pass : forall b ow or,
  releasing ow -> acquiring or ->
  ~ ((b = X86 \/ exists al, b = X86Wide al) /\ or = Consume) ->
  fences_pass_message (machine_of b) (thread_fence b ow) (thread_fence b or).
Proof.
  intros b ow or Rl A X. apply fence_message_passes.
  - apply (thread_fence_holds b ow); [|exact Rl]. intros [_ E]. subst ow. exact Rl.
  - apply (thread_fence_holds b or X). exact A.
Qed.

(** Every operation accesses its object, and nothing else. *)
Definition at_loc (l : nat) (k : kind) (x : item) : bool :=
  match x with Access a => same_kind (a_kind a) k && (a_loc a =? l) | _ => false end.

Lemma emits_check : forall b l p k, own p k -> existsb (at_loc l k) (emit b l p) = true.
Proof.
  intros b l p k O.
  assert (Q : (l =? l) = true) by apply Nat.eqb_refl.
  assert (T : forall c d, existsb (at_loc l k) d = true -> existsb (at_loc l k) (c ++ d) = true).
  { intros c d H. rewrite existsb_app, H. apply orb_true_r. }
  assert (T' : forall c d, existsb (at_loc l k) c = true -> existsb (at_loc l k) (c ++ d) = true).
  { intros c d H. rewrite existsb_app, H. reflexivity. }
  assert (base : forall x c, at_loc l k x = true -> existsb (at_loc l k) (x :: c) = true).
  { intros x c H. simpl. rewrite H. reflexivity. }
  assert (base' : forall x c, existsb (at_loc l k) c = true -> existsb (at_loc l k) (x :: c) = true).
  { intros x c H. simpl. rewrite H. apply orb_true_r. }
  destruct p as [n o|n o|n o|ar n o|ok n so fo|n o|n o]; try (destruct ok); simpl in O;
    try subst k.
  all: destruct b as [|al|pp| | | | |rc| | | | | | | | |]; try (destruct al); try (destruct pp);
       try (destruct rc); try (destruct ar); try (destruct k).
  all: try (destruct o).
  all: try (destruct so).
  all: try (destruct fo).
  all: try (cbn; rewrite ?Q; reflexivity).
  all: expose.
  all: repeat first [ cbn; rewrite ?Q; reflexivity | apply T ].
Qed.

Theorem emits_own : forall b l p k, own p k ->
  exists r x, nth_error (emit b l p) r = Some (Access x) /\ a_kind x = k /\ a_loc x = l.
Proof.
  intros b l p k O. pose proof (emits_check b l p k O) as H. apply existsb_nth in H.
  destruct H as [r [z [Hz Cz]]]. destruct z as [x| | |]; try discriminate.
  simpl in Cz. apply andb_true_iff in Cz. destruct Cz as [C1 C2].
  exists r, x. split; [exact Hz|]. split; [apply same_kind_eq; exact C1|apply Nat.eqb_eq; exact C2].
Qed.

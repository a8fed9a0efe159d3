(** * Proof of C51. *)
From Coq Require Import Arith List Bool Lia.
Require Import Verif.Order Verif.Reorder Verif.SpecOrder Verif.FenceModel Verif.SpecFence
  Verif.FenceProof Verif.SpecLock.
Import ListNotations.
Open Scope nat_scope.

(** ** Every operation that writes writes once *)
Definition is_wr (x : item) : bool :=
  match x with Access a => match a_kind a with Wr => true | Rd => false end | _ => false end.
Definition writes_in (c : list item) : nat := length (filter is_wr c).

Lemma writes_app : forall c d, writes_in (c ++ d) = writes_in c + writes_in d.
Proof. intros. unfold writes_in. now rewrite filter_app, app_length. Qed.

Lemma writes_repeat : forall n c, writes_in c = 0 -> writes_in (repeat_code n c) = 0.
Proof.
  intros n c H. induction n; [reflexivity|]. simpl. rewrite writes_app. lia.
Qed.

Lemma one_write_check : forall b l p, own p Wr -> writes_in (emit b l p) = 1.
Proof.
  intros b l p O.
  destruct p as [n o|n o|n o|ar n o|ok n so fo|n o|n o]; try (destruct ok); simpl in O;
    try discriminate O.
  all: destruct b as [|al|pp| | | | |rc| | | | | | | | |]; try (destruct al); try (destruct pp);
       try (destruct rc); try (destruct ar).
  all: try (destruct o).
  all: try (destruct so).
  all: try (destruct fo).
  all: try reflexivity.
  all: expose.
  all: cbn [negb andb orb].
  all: rewrite ?writes_app, ?writes_repeat by reflexivity; reflexivity.
Qed.

Lemma writes_nth : forall c w, accesses_of c Wr w -> 1 <= writes_in c.
Proof.
  induction c as [|z c IH]; intros [|w] [x [E K]]; try discriminate E.
  - injection E as E. subst z. unfold writes_in. simpl. rewrite K. simpl. lia.
  - assert (1 <= writes_in c) by (apply (IH w); exists x; split; [exact E|exact K]).
    unfold writes_in in *. simpl. destruct (is_wr z); simpl; lia.
Qed.

Lemma writes_unique : forall c w w', writes_in c <= 1 ->
  accesses_of c Wr w -> accesses_of c Wr w' -> w = w'.
Proof.
  induction c as [|z c IH]; intros w w' L A A'.
  - destruct A as [x [E _]]. destruct w; discriminate E.
  - assert (S0 : writes_in (z :: c) = (if is_wr z then 1 else 0) + writes_in c).
    { unfold writes_in. simpl. destruct (is_wr z); reflexivity. }
    assert (Z : forall u, accesses_of (z :: c) Wr (S u) -> accesses_of c Wr u).
    { intros u [x [E K]]. exists x. split; [exact E|exact K]. }
    assert (Z0 : accesses_of (z :: c) Wr 0 -> is_wr z = true).
    { intros [x [E K]]. injection E as E. subst z. simpl. now rewrite K. }
    destruct w as [|w], w' as [|w'].
    + reflexivity.
    + apply Z0 in A. apply Z in A'. apply writes_nth in A'. rewrite A in S0. lia.
    + apply Z0 in A'. apply Z in A. apply writes_nth in A. rewrite A' in S0. lia.
    + f_equal. apply IH; [lia|apply Z; exact A|apply Z; exact A'].
Qed.

Lemma one_write : forall b l q w w', own q Wr ->
  accesses_of (emit b l q) Wr w -> accesses_of (emit b l q) Wr w' -> w = w'.
Proof.
  intros b l q w w' O. apply writes_unique. rewrite one_write_check by exact O. lia.
Qed.

Lemma write_order_own : forall p o, write_order p = Some o -> own p Wr.
Proof.
  intros p o H. destruct p as [n o'|n o'|n o'|ar n o'|ok n so fo|n o'|n o']; simpl in *;
    try discriminate H; try exact I; try reflexivity.
  destruct ok; [exact I || reflexivity|discriminate H].
Qed.

(** ** The last read of an operation *)
Lemma accesses_of_dec : forall c k i, {accesses_of c k i} + {~ accesses_of c k i}.
Proof.
  intros c k i. unfold accesses_of. destruct (nth_error c i) as [[x| | |]|].
  - destruct (a_kind x) eqn:K, k; (left; exists x; split; [reflexivity|exact K]) ||
      (right; intros [y [E K']]; injection E as E; subst y; congruence).
  - right. intros [y [E _]]. discriminate E.
  - right. intros [y [E _]]. discriminate E.
  - right. intros [y [E _]]. discriminate E.
  - right. intros [y [E _]]. discriminate E.
Qed.

Lemma accesses_length : forall c k i, accesses_of c k i -> i < length c.
Proof.
  intros c k i [x [E _]]. apply nth_error_Some. rewrite E. discriminate.
Qed.

Lemma last_read_exists : forall c i, accesses_of c Rd i -> exists r, last_read c r.
Proof.
  intros c i A.
  assert (G : forall n, (exists r, r < n /\ accesses_of c Rd r /\
                          forall r', r' < n -> accesses_of c Rd r' -> r' <= r) \/
                        forall r', r' < n -> ~ accesses_of c Rd r').
  { induction n as [|n [[r [L [Hr Hm]]]|N]].
    - right. intros r' H. lia.
    - left. destruct (accesses_of_dec c Rd n) as [D|D].
      + exists n. split; [lia|]. split; [exact D|]. intros r' H _. lia.
      + exists r. split; [lia|]. split; [exact Hr|]. intros r' H A'.
        destruct (Nat.eq_dec r' n) as [->|Ne]; [contradiction|]. apply Hm; [lia|exact A'].
    - destruct (accesses_of_dec c Rd n) as [D|D].
      + left. exists n. split; [lia|]. split; [exact D|]. intros r' H _. lia.
      + right. intros r' H A'. destruct (Nat.eq_dec r' n) as [->|Ne]; [contradiction|].
        apply (N r'); [lia|exact A']. }
  destruct (G (length c)) as [[r [L [Hr Hm]]]|N].
  - exists r. split; [exact Hr|]. intros r' A'. apply Hm; [|exact A'].
    apply (accesses_length _ _ _ A').
  - exfalso. apply (N i); [|exact A]. apply (accesses_length _ _ _ A).
Qed.

Lemma is_access_app_r : forall c d i, is_access d i -> is_access (c ++ d) (length c + i).
Proof.
  intros c d i [x E]. exists x. rewrite nth_error_app2 by lia.
  replace (length c + i - length c) with i by lia. exact E.
Qed.

Lemma is_access_app_l : forall c d i, is_access c i -> is_access (c ++ d) i.
Proof.
  intros c d i [x E]. exists x. rewrite nth_error_app1; [exact E|].
  apply nth_error_Some. rewrite E. discriminate.
Qed.

Lemma is_access_take : forall c d i, i < length c -> is_access (c ++ d) i -> is_access c i.
Proof. intros c d i L [x E]. rewrite nth_error_app1 in E by exact L. now exists x. Qed.

Lemma is_access_drop : forall c d i, length c <= i -> is_access (c ++ d) i ->
  is_access d (i - length c).
Proof. intros c d i L [x E]. rewrite nth_error_app2 in E by exact L. now exists x. Qed.

Lemma accesses_is : forall c k i, accesses_of c k i -> is_access c i.
Proof. intros c k i [x [E _]]. now exists x. Qed.

(** ** The sections *)
Section Lock.
Variables (m : machine) (b : backend) (l : nat) (threads : nat -> list part)
  (place time : nat -> nat -> nat) (leaves : nat -> nat -> bool).
Let code t := code_of b l (threads t).
Hypothesis T : together m code place time.
Hypothesis U : used_as_lock b l threads time leaves.
Hypothesis Xa : forall t k p body q, section_at b l threads t k p body q ->
  acquire_operation m (emit b l p).
Hypothesis Xr : forall t k p body q, section_at b l threads t k p body q ->
  release_operation m (emit b l q).

Lemma section_code : forall t k p body q, section_at b l threads t k p body q ->
  exists pre post, code t = pre ++ emit b l p ++ body ++ emit b l q ++ post /\ length pre = k.
Proof.
  intros t k p body q [pre [post [E L]]].
  exists (code_of b l pre), (code_of b l post). split; [|symmetry; exact L].
  unfold code. rewrite E. unfold code_of. rewrite map_app, concat_app. simpl.
  rewrite <- !app_assoc. reflexivity.
Qed.

(** The read [r] of the lock operation comes before everything after it. *)
Lemma section_acquire : forall t k p body q r j, section_at b l threads t k p body q ->
  accesses_of (emit b l p) Rd r -> is_access (code t) j -> k + length (emit b l p) <= j ->
  time t (k + r) < time t j.
Proof.
  intros t k p body q r j S R A L.
  destruct (section_code _ _ _ _ _ S) as [pre [post [E K]]].
  pose proof (to_thread _ _ _ _ T t) as Ex. rewrite E in Ex.
  pose proof (Xa _ _ _ _ _ S _ _ _ _ Ex r
                (j - (k + length (emit b l p))) R) as H.
  rewrite K in H. replace (k + length (emit b l p) + (j - (k + length (emit b l p)))) with j in H by lia.
  apply H. rewrite E, app_assoc in A.
  apply is_access_drop in A; [|rewrite app_length; lia].
  rewrite app_length, K in A. exact A.
Qed.

(** The write [w] of the unlock operation comes after everything before it. *)
Lemma section_release : forall t k p body q w i, section_at b l threads t k p body q ->
  accesses_of (emit b l q) Wr w -> is_access (code t) i ->
  i < k + length (emit b l p) + length body ->
  time t i < time t (k + length (emit b l p) + length body + w).
Proof.
  intros t k p body q w i S W A L.
  destruct (section_code _ _ _ _ _ S) as [pre [post [E K]]].
  pose proof (to_thread _ _ _ _ T t) as Ex. rewrite E in Ex.
  assert (E' : pre ++ emit b l p ++ body ++ emit b l q ++ post
             = (pre ++ emit b l p ++ body) ++ emit b l q ++ post) by (rewrite <- !app_assoc; reflexivity).
  rewrite E' in Ex.
  assert (Len : length (pre ++ emit b l p ++ body) = k + length (emit b l p) + length body).
  { rewrite !app_length. lia. }
  pose proof (Xr _ _ _ _ _ S _ _ _ _ Ex i w) as H.
  rewrite Len in H. apply H; [|exact W].
  rewrite E, E' in A. apply is_access_take in A; [exact A|]. rewrite Len. exact L.
Qed.

Lemma lock_access : forall t k p body q i, section_at b l threads t k p body q ->
  is_access (emit b l p) i -> is_access (code t) (k + i).
Proof.
  intros t k p body q i S A.
  destruct (section_code _ _ _ _ _ S) as [pre [post [E K]]]. rewrite E, <- K.
  apply is_access_app_r, is_access_app_l. exact A.
Qed.

Lemma unlock_access : forall t k p body q i, section_at b l threads t k p body q ->
  is_access (emit b l q) i -> is_access (code t) (k + length (emit b l p) + length body + i).
Proof.
  intros t k p body q i S A.
  destruct (section_code _ _ _ _ _ S) as [pre [post [E K]]]. rewrite E, <- K.
  rewrite <- !Nat.add_assoc.
  apply is_access_app_r, is_access_app_r, is_access_app_r, is_access_app_l. exact A.
Qed.

Lemma split_cases : forall (A : Type) (pre pre' : list A) x x' post post',
  pre ++ x :: post = pre' ++ x' :: post' ->
  (pre = pre' /\ x = x') \/ (exists m, pre' = pre ++ x :: m) \/ (exists m, pre = pre' ++ x' :: m).
Proof.
  intros A pre. induction pre as [|y pre IH]; intros [|y' pre'] x x' post post' E.
  - injection E as -> _. left. split; reflexivity.
  - injection E as -> _. right. left. exists pre'. reflexivity.
  - injection E as -> _. right. right. exists pre. reflexivity.
  - injection E as -> E. destruct (IH _ _ _ _ _ E) as [[-> ->]|[[ms ->]|[ms ->]]].
    + left. split; reflexivity.
    + right. left. exists ms. reflexivity.
    + right. right. exists ms. reflexivity.
Qed.

(** Two sections of one thread are the same or do not overlap. *)
Lemma section_apart : forall t k p body q k' p' body' q',
  section_at b l threads t k p body q -> section_at b l threads t k' p' body' q' ->
  (k = k' /\ p = p' /\ body = body' /\ q = q') \/
  k + length (emit b l p) + length body + length (emit b l q) <= k' \/
  k' + length (emit b l p') + length body' + length (emit b l q') <= k.
Proof.
  intros t k p body q k' p' body' q' [pre [post [E K]]] [pre' [post' [E' K']]].
  rewrite E in E'.
  assert (Len : forall ps p body q m,
    length (code_of b l ps) + length (emit b l p) + length body + length (emit b l q)
    <= length (code_of b l (ps ++ Section p body q :: m))).
  { intros. unfold code_of. rewrite map_app, concat_app. simpl. rewrite !app_length. lia. }
  destruct (split_cases _ _ _ _ _ _ _ E') as [[Ep Ex]|[[ms Em]|[ms Em]]].
  - left. injection Ex as -> -> ->. subst pre' k k'. repeat split; reflexivity.
  - right. left. subst k k' pre'. apply Len.
  - right. right. subst k k' pre. apply Len.
Qed.

(** The last read of the lock operation of a section, and the write of its
    unlock operation. *)
Lemma last_read_unique : forall c r r', last_read c r -> last_read c r' -> r = r'.
Proof.
  intros c r r' [A M] [A' M']. pose proof (M r' A'). pose proof (M' r A). lia.
Qed.

Lemma lock_write : forall t k p body q, section_at b l threads t k p body q ->
  exists w, accesses_of (emit b l p) Wr w /\ writes_to code l (t, k + w).
Proof.
  intros t k p body q S.
  destruct (ul_lock _ _ _ _ _ U _ _ _ _ _ S) as [_ [O _]].
  destruct (emits_own b l p Wr O) as [w [x [Ew [Kw Lw]]]].
  assert (Aw : accesses_of (emit b l p) Wr w) by (exists x; split; [exact Ew|exact Kw]).
  exists w. split; [exact Aw|].
  destruct (section_code _ _ _ _ _ S) as [pre [post [E K]]]. exists x.
  cbn [fst snd]. rewrite E, <- K.
  rewrite nth_error_app2 by lia. replace (length pre + w - length pre) with w by lia.
  rewrite nth_error_app1; [split; [exact Ew|split; [exact Kw|exact Lw]]|].
  apply (accesses_length _ _ _ Aw).
Qed.

(** Accesses of the lock operations of two sections happen at one time only if
    the sections are the same. *)
Lemma lock_times : forall t k p body q i u k' p' body' q' i' ki ki',
  section_at b l threads t k p body q -> accesses_of (emit b l p) ki i ->
  section_at b l threads u k' p' body' q' -> accesses_of (emit b l p') ki' i' ->
  time t (k + i) = time u (k' + i') -> t = u /\ k = k' /\ p = p' /\ body = body' /\ q = q' /\ i = i'.
Proof.
  intros t k p body q i u k' p' body' q' i' ki ki' S A S' A' Eq.
  assert (D : is_access (code t) (k + i)) by (eapply lock_access; [exact S|apply (accesses_is _ _ _ A)]).
  assert (D' : is_access (code u) (k' + i')) by (eapply lock_access; [exact S'|apply (accesses_is _ _ _ A')]).
  destruct (to_clock _ _ _ _ T _ _ _ _ D D' Eq) as [-> Ek].
  pose proof (accesses_length _ _ _ A) as L. pose proof (accesses_length _ _ _ A') as L'.
  destruct (section_apart _ _ _ _ _ _ _ _ _ S S') as [[-> [-> [-> ->]]]|[H|H]]; try lia.
  repeat split; lia.
Qed.

(** Where an access of a thread belongs. *)
Lemma code_index : forall ps i x, nth_error (code_of b l ps) i = Some x ->
  exists pre y post j, ps = pre ++ y :: post /\ i = length (code_of b l pre) + j /\
    nth_error (part_code b l y) j = Some x.
Proof.
  induction ps as [|y ps IH]; intros i x E; [destruct i; discriminate E|].
  change (code_of b l (y :: ps)) with (part_code b l y ++ code_of b l ps) in E.
  destruct (Nat.lt_ge_cases i (length (part_code b l y))) as [L|L].
  - rewrite nth_error_app1 in E by exact L. exists [], y, ps, i. repeat split. exact E.
  - rewrite nth_error_app2 in E by exact L. destruct (IH _ _ E) as [pre [z [post [j [E1 [E2 E3]]]]]].
    exists (y :: pre), z, post, j. split; [rewrite E1; reflexivity|]. split; [|exact E3].
    change (code_of b l (y :: pre)) with (part_code b l y ++ code_of b l pre).
    rewrite app_length. lia.
Qed.

(** Every write of the lock is the write of a lock or unlock operation or of
    an attempt. *)
Lemma write_cases : forall t i, writes_to code l (t, i) ->
  (exists k p body q w, section_at b l threads t k p body q /\
     accesses_of (emit b l p) Wr w /\ i = k + w) \/
  (exists k p body q w, section_at b l threads t k p body q /\
     accesses_of (emit b l q) Wr w /\ i = k + length (emit b l p) + length body + w) \/
  (exists k p w, part_at b l threads t k (Attempt p) /\
     accesses_of (emit b l p) Wr w /\ i = k + w).
Proof.
  intros t i [x [E [K L]]]. cbn [fst snd] in E.
  destruct (code_index _ _ _ E) as [pre [y [post [j [E1 [E2 E3]]]]]].
  assert (P : part_at b l threads t (length (code_of b l pre)) y)
    by (exists pre, post; split; [exact E1|reflexivity]).
  destruct y as [c|p|p body q]; cbn [part_code] in E3.
  - exfalso. exact (ul_outside _ _ _ _ _ U _ _ _ _ _ P E3 K L).
  - right. right. exists (length (code_of b l pre)), p, j. split; [exact P|].
    split; [exists x; split; [exact E3|exact K]|exact E2].
  - destruct (Nat.lt_ge_cases j (length (emit b l p))) as [L1|L1].
    + rewrite nth_error_app1 in E3 by exact L1. left.
      exists (length (code_of b l pre)), p, body, q, j. split; [exact P|].
      split; [exists x; split; [exact E3|exact K]|exact E2].
    + rewrite nth_error_app2 in E3 by exact L1.
      destruct (Nat.lt_ge_cases (j - length (emit b l p)) (length body)) as [L2|L2].
      * rewrite nth_error_app1 in E3 by exact L2. exfalso.
        exact (ul_body _ _ _ _ _ U _ _ _ _ _ _ _ P E3 K L).
      * rewrite nth_error_app2 in E3 by exact L2. right. left.
        exists (length (code_of b l pre)), p, body, q, (j - length (emit b l p) - length body).
        split; [exact P|]. split; [exists x; split; [exact E3|exact K]|lia].
Qed.

Lemma attempt_access : forall t k p i, part_at b l threads t k (Attempt p) ->
  is_access (emit b l p) i -> is_access (code t) (k + i).
Proof.
  intros t k p i [pre [post [E K]]] A. unfold code. rewrite E, K. unfold code_of.
  rewrite map_app, concat_app. simpl. apply is_access_app_r, is_access_app_l. exact A.
Qed.

(** If the lock is found free at time [now], every section that took it before
    was followed by the end of a section. *)
Lemma freed_since : forall n now, now <= n ->
  finds code time leaves l now true ->
  forall t k p body q w, section_at b l threads t k p body q -> accesses_of (emit b l p) Wr w ->
  time t (k + w) < now ->
  exists u k' p' body' q' c, section_at b l threads u k' p' body' q' /\
    accesses_of (emit b l q') Wr c /\
    time t (k + w) <= time u (k' + length (emit b l p') + length body' + c) /\
    time u (k' + length (emit b l p') + length body' + c) < now.
Proof.
  induction n as [|n IH]; intros now N F t k p body q w S W L; [lia|].
  assert (WA : writes_to code l (t, k + w)).
  { destruct (lock_write _ _ _ _ _ S) as [w0 [W0 V0]].
    destruct (ul_lock _ _ _ _ _ U _ _ _ _ _ S) as [_ [O _]].
    rewrite (one_write b l p w w0 O W W0). exact V0. }
  destruct F as [[[u i]|] [G V]].
  2:{ pose proof (G _ WA) as P. cbn [fst snd] in P. lia. }
  destruct G as [G0 [G1 G2]]. cbn [fst snd] in G1, G2.
  pose proof (G2 _ WA L) as P. cbn [fst snd] in P.
  destruct (write_cases _ _ G0) as [C|[C|C]].
  - destruct C as [k' [p' [body' [q' [w' [S' [W' Ei]]]]]]]. exfalso.
    rewrite Ei, (ul_held _ _ _ _ _ U _ _ _ _ _ _ S' W') in V. discriminate V.
  - destruct C as [k' [p' [body' [q' [c [S' [C' Ei]]]]]]].
    exists u, k', p', body', q', c. split; [exact S'|]. split; [exact C'|].
    rewrite <- Ei. split; [exact P|exact G1].
  - destruct C as [k' [p' [w' [S' [W' Ei]]]]].
    destruct (ul_attempt _ _ _ _ _ U _ _ _ S') as [O _].
    destruct (emits_own b l p' Rd O) as [r0 [x0 [E0 [K0 _]]]].
    destruct (last_read_exists (emit b l p') r0) as [r R]; [exists x0; split; [exact E0|exact K0]|].
    destruct (ul_attempt_atomic _ _ _ _ _ U _ _ _ _ _ S' R W') as [[A1 A2] F].
    rewrite <- Ei, <- V in F. rewrite <- Ei in A1, A2.
    pose proof (A2 _ WA) as Q. cbn [fst snd] in Q.
    assert (Dw : is_access (code t) (k + w)) by (eapply lock_access; [exact S|apply (accesses_is _ _ _ W)]).
    assert (Di : is_access (code u) i)
      by (rewrite Ei; eapply attempt_access; [exact S'|apply (accesses_is _ _ _ W')]).
    assert (Dr : is_access (code u) (k' + r))
      by (eapply attempt_access; [exact S'|apply (accesses_is _ _ _ (proj1 R))]).
    (* the writes are different: they are in different parts *)
    assert (N1 : time t (k + w) <> time u i).
    { intros Eq. destruct (to_clock _ _ _ _ T _ _ _ _ Dw Di Eq) as [-> Ek].
      pose proof (accesses_length _ _ _ W) as Lw. pose proof (accesses_length _ _ _ W') as Lw'.
      destruct S as [pre [post [E K]]], S' as [pre' [post' [E' K']]]. rewrite E in E'.
      assert (Len : forall ps x ms, length (code_of b l ps) + length (part_code b l x)
        <= length (code_of b l (ps ++ x :: ms))).
      { intros. unfold code_of. rewrite map_app, concat_app. simpl. rewrite !app_length. lia. }
      destruct (split_cases _ _ _ _ _ _ _ E') as [[_ Ex]|[[ms Em]|[ms Em]]].
      - discriminate Ex.
      - pose proof (Len pre (Section p body q) ms) as Q1. rewrite <- Em, <- K, <- K' in Q1.
        simpl in Q1. rewrite app_length in Q1. lia.
      - pose proof (Len pre' (Attempt p') ms) as Q1. rewrite <- Em, <- K, <- K' in Q1.
        simpl in Q1. lia. }
    (* a write is not a read *)
    assert (N2 : time t (k + w) <> time u (k' + r)).
    { intros Eq. destruct (to_clock _ _ _ _ T _ _ _ _ Dw Dr Eq) as [-> Ek].
      destruct WA as [y [Ny [Ky _]]]. cbn [fst snd] in Ny. rewrite Ek in Ny.
      destruct (proj1 R) as [z [Nz Kz]].
      destruct S' as [pre [post [E K]]]. unfold code, code_of in Ny. rewrite E, K in Ny.
      rewrite map_app, concat_app in Ny. unfold code_of in Ny. rewrite nth_error_app2 in Ny by lia.
      match type of Ny with nth_error _ ?e = _ => replace e with r in Ny by lia end.
      simpl in Ny. rewrite nth_error_app1 in Ny by (apply (accesses_length _ _ _ (proj1 R))).
      rewrite Nz in Ny. injection Ny as ->. congruence. }
    destruct (IH (time u (k' + r)) ltac:(lia) F _ _ _ _ _ _ S W ltac:(lia))
      as [u2 [k2 [p2 [body2 [q2 [c2 [S2 [C2 [P2 L2]]]]]]]]].
    exists u2, k2, p2, body2, q2, c2. split; [exact S2|]. split; [exact C2|]. split; [exact P2|lia].
Qed.

(** When [A] took the lock before [B] did, it gave it back before that. *)
Lemma earlier_left : forall n t k p body q r c u k' p' body' q' r',
  section_at b l threads t k p body q -> last_read (emit b l p) r ->
  accesses_of (emit b l q) Wr c ->
  section_at b l threads u k' p' body' q' -> last_read (emit b l p') r' ->
  time t (k + r) < time u (k' + r') -> time u (k' + r') <= n ->
  time t (k + length (emit b l p) + length body + c) < time u (k' + r').
Proof.
  induction n as [|n IH]; intros t k p body q r c u k' p' body' q' r' SA RA CA SB RB L N; [lia|].
  destruct (lock_write _ _ _ _ _ SA) as [w [Aw WA]].
  destruct (lock_write _ _ _ _ _ SB) as [w' [Aw' WB]].
  destruct (ul_atomic _ _ _ _ _ U _ _ _ _ _ _ _ SA RA Aw) as [A1 A2].
  destruct (ul_atomic _ _ _ _ _ U _ _ _ _ _ _ _ SB RB Aw') as [B1 B2].
  (* the write of A comes before the read of B *)
  assert (H1 : time t (k + w) < time u (k' + r')).
  { destruct (Nat.lt_ge_cases (time t (k + w)) (time u (k' + r'))) as [Lt|Ge]; [exact Lt|exfalso].
    assert (Ne : time t (k + w) <> time u (k' + r')).
    { intros Eq.
      destruct (lock_times _ _ _ _ _ _ _ _ _ _ _ _ _ _ SA Aw SB (proj1 RB) Eq)
        as [-> [-> [-> [_ [_ ->]]]]].
      destruct Aw as [y [Ny Ky]]. destruct (proj1 RB) as [z [Nz Kz]].
      rewrite Nz in Ny. injection Ny as ->. congruence. }
    pose proof (B2 _ WA) as P. cbn [fst snd] in P.
    pose proof (A2 _ WB) as Q. cbn [fst snd] in Q.
    assert (Eq : time t (k + w) = time u (k' + w')) by lia.
    destruct (lock_times _ _ _ _ _ _ _ _ _ _ _ _ _ _ SA Aw SB Aw' Eq)
      as [-> [-> [-> [_ [_ _]]]]].
    rewrite (last_read_unique _ _ _ RA RB) in L. lia. }
  destruct (freed_since _ _ (le_n _) (ul_free _ _ _ _ _ U _ _ _ _ _ _ SB RB) _ _ _ _ _ _ SA Aw H1)
    as [v [kc [pc [bc [qc [i' [SC [CC [P G1]]]]]]]]].
  remember (kc + length (emit b l pc) + length bc + i') as i eqn:Ei.
  (* C: the section whose end B saw *)
  destruct (ul_lock _ _ _ _ _ U _ _ _ _ _ SC) as [OC _].
  destruct (emits_own b l pc Rd OC) as [r0 [x0 [E0 [K0 _]]]].
  destruct (last_read_exists (emit b l pc) r0) as [rc RC]; [exists x0; split; [exact E0|exact K0]|].
  assert (HC : time v (kc + rc) < time v i).
  { eapply section_acquire; [exact SC|exact (proj1 RC)| |lia].
    rewrite Ei. eapply unlock_access; [exact SC|apply (accesses_is _ _ _ CC)]. }
  destruct (Nat.lt_trichotomy (time v (kc + rc)) (time t (k + r))) as [Lt|[Eq|Gt]].
  - (* C had left before A entered *)
    assert (Q : time v (kc + length (emit b l pc) + length bc + i') < time t (k + r)).
    { eapply IH; [exact SC|exact RC|exact CC|exact SA|exact RA|exact Lt|lia]. }
    rewrite <- Ei in Q. lia.
  - (* C is A *)
    destruct (lock_times _ _ _ _ _ _ _ _ _ _ _ _ _ _ SC (proj1 RC) SA (proj1 RA) Eq)
      as [-> [-> [-> [-> [-> _]]]]].
    destruct (ul_unlock _ _ _ _ _ U _ _ _ _ _ SA) as [o [Wo _]].
    rewrite (one_write b l q c i' (write_order_own _ _ Wo) CA CC), <- Ei. exact G1.
  - (* C entered after A, so A had left before *)
    assert (Q : time t (k + length (emit b l p) + length body + c) < time v (kc + rc)).
    { eapply IH; [exact SA|exact RA|exact CA|exact SC|exact RC|exact Gt|lia]. }
    lia.
Qed.

Theorem sections_serial : forall t k p body q u k' p' body' q',
  section_at b l threads t k p body q -> section_at b l threads u k' p' body' q' ->
  (t, k) <> (u, k') ->
  handed_over b l threads time t k p body u k' p' \/
  handed_over b l threads time u k' p' body' t k p.
Proof.
  intros t k p body q u k' p' body' q' SA SB Ne.
  assert (Get : forall t k p body q, section_at b l threads t k p body q ->
    exists r c, last_read (emit b l p) r /\ accesses_of (emit b l q) Wr c).
  { intros t0 k0 p0 body0 q0 S0.
    destruct (ul_lock _ _ _ _ _ U _ _ _ _ _ S0) as [O _].
    destruct (emits_own b l p0 Rd O) as [r0 [x0 [E0 [K0 _]]]].
    destruct (last_read_exists (emit b l p0) r0) as [r R]; [exists x0; split; [exact E0|exact K0]|].
    destruct (ul_unlock _ _ _ _ _ U _ _ _ _ _ S0) as [o [Wo _]].
    destruct (emits_own b l q0 Wr (write_order_own _ _ Wo)) as [c [y [Ec [Kc _]]]].
    exists r, c. split; [exact R|]. exists y. split; [exact Ec|exact Kc]. }
  assert (Main : forall t k p body q u k' p' body' q' r r',
    section_at b l threads t k p body q -> section_at b l threads u k' p' body' q' ->
    last_read (emit b l p) r -> last_read (emit b l p') r' ->
    time t (k + r) < time u (k' + r') -> handed_over b l threads time t k p body u k' p').
  { intros t0 k0 p0 body0 q0 u0 k0' p0' body0' q0' r r' S S' R R' Lt i j Ai Li Aj Lj.
    destruct (Get _ _ _ _ _ S) as [_ [c [_ C]]].
    pose proof (section_release _ _ _ _ _ _ _ S C Ai Li) as H1.
    pose proof (earlier_left _ _ _ _ _ _ _ _ _ _ _ _ _ _ S R C S' R' Lt (le_n _)) as H2.
    pose proof (section_acquire _ _ _ _ _ _ _ S' (proj1 R') Aj Lj) as H3. lia. }
  destruct (Get _ _ _ _ _ SA) as [r [_ [R _]]]. destruct (Get _ _ _ _ _ SB) as [r' [_ [R' _]]].
  destruct (Nat.lt_trichotomy (time t (k + r)) (time u (k' + r'))) as [Lt|[Eq|Gt]].
  - left. eapply Main; [exact SA|exact SB|exact R|exact R'|exact Lt].
  - exfalso. apply Ne.
    destruct (lock_times _ _ _ _ _ _ _ _ _ _ _ _ _ _ SA (proj1 R) SB (proj1 R') Eq)
      as [-> [-> _]]. reflexivity.
  - right. eapply Main; [exact SB|exact SA|exact R'|exact R|exact Gt].
Qed.
End Lock.

(** ** Every back end on its processor, and SPARC in total store order mode *)
Theorem sections_serial_backends : forall b l threads place time leaves,
  together (machine_of b) (fun t => code_of b l (threads t)) place time ->
  used_as_lock b l threads time leaves ->
  (b = Sparc -> forall t k p body q, section_at b l threads t k p body q ->
    read_order p = Some SeqCst) ->
  forall t k p body q u k' p' body' q',
    section_at b l threads t k p body q -> section_at b l threads u k' p' body' q' ->
    (t, k) <> (u, k') ->
    handed_over b l threads time t k p body u k' p' \/
    handed_over b l threads time u k' p' body' t k p.
Proof.
  intros b l threads place time leaves T U Sp.
  apply (sections_serial (machine_of b) b l threads place time leaves T U).
  - intros t k p body q S. destruct (ul_lock _ _ _ _ _ U _ _ _ _ _ S) as [_ [O [o [Ro Ac]]]].
    apply (acquire_holds b l p o Ro Ac). intros E.
    assert (NF : forall n so fo, p <> OCas false n so fo) by (intros n so fo ->; discriminate O).
    destruct b; simpl in E; try exact E; try (apply E, (Sp eq_refl _ _ _ _ _ S)).
    all: destruct p as [n1 o1|n1 o1|n1 o1|ar n1 o1|[|] n1 so fo|n1 o1|n1 o1]; try exact E;
      try discriminate O; apply (NF _ _ _ eq_refl).
  - intros t k p body q S. destruct (ul_unlock _ _ _ _ _ U _ _ _ _ _ S) as [o [Wo Re]].
    apply (release_holds b l q o Wo Re).
Qed.

Lemma tso_is_weak : forall p place time, execution TSO p place time -> execution Weak p place time.
Proof.
  intros p place time [D C P]. constructor; [exact D|exact C|].
  intros i j x y Ex Ey L K. apply (P i j x y Ex Ey L).
  destruct K as [E _|K|K1 K2 K3|K|K|K1 K2 K3 K4].
  - discriminate E.
  - now apply kept_barrier.
  - now apply kept_isync.
  - now apply kept_acquire.
  - now apply kept_release.
  - now apply kept_sc.
Qed.

Theorem sections_serial_sparc_tso : forall l threads place time leaves,
  together TSO (fun t => code_of Sparc l (threads t)) place time ->
  used_as_lock Sparc l threads time leaves ->
  forall t k p body q u k' p' body' q',
    section_at Sparc l threads t k p body q -> section_at Sparc l threads u k' p' body' q' ->
    (t, k) <> (u, k') ->
    handed_over Sparc l threads time t k p body u k' p' \/
    handed_over Sparc l threads time u k' p' body' t k p.
Proof.
  intros l threads place time leaves T U.
  apply (sections_serial TSO Sparc l threads place time leaves T U).
  - intros t k p body q S. destruct (ul_lock _ _ _ _ _ U _ _ _ _ _ S) as [_ [O [o [Ro Ac]]]].
    apply (sparc_tso_ok l p o Ro Ac).
  - intros t k p body q S. destruct (ul_unlock _ _ _ _ _ U _ _ _ _ _ S) as [o [Wo Re]].
    intros pre post pl ti Ex. apply tso_is_weak in Ex. revert Ex.
    apply (release_holds Sparc l q o Wo Re).
Qed.

(** ** Concrete threads *)

(** The writes of [l] by a thread. *)
Fixpoint writes_from (l i : nat) (c : list item) : list nat :=
  match c with
  | [] => []
  | z :: c =>
      (if is_wr z && match z with Access a => a_loc a =? l | _ => false end then [i] else []) ++
      writes_from l (S i) c
  end.

Lemma writes_from_in : forall l c i n x, nth_error c n = Some (Access x) ->
  a_kind x = Wr -> a_loc x = l -> In (i + n) (writes_from l i c).
Proof.
  intros l c. induction c as [|z c IH]; intros i [|n] x E K L; try discriminate E.
  - injection E as E. subst z. simpl. rewrite K, L, Nat.eqb_refl. left. lia.
  - simpl. apply in_or_app. right. replace (i + S n) with (S i + n) by lia. eapply IH; eassumption.
Qed.

Lemma writes_to_in : forall code l u i, writes_to code l (u, i) -> In i (writes_from l 0 (code u)).
Proof.
  intros code l u i [x [E [K L]]]. exact (writes_from_in l (code u) 0 i x E K L).
Qed.

(** *** Two threads on Arm *)
Definition spin_threads (t : nat) : list part :=
  match t with
  | 0 => [Section (OTestAndSet 0 Acquire) [Access (plain_read 1); Access (plain_write 1)] (OClear 0 Release)]
  | 1 => [Attempt (OTestAndSet 0 Acquire);
          Section (OTestAndSet 0 Acquire) [Access (plain_read 1); Access (plain_write 1)] (OClear 0 Release)]
  | _ => []
  end.
Definition spin_time (t i : nat) : nat :=
  match t with
  | 0 => nth i [0; 1; 0; 2; 5; 0; 6] 0
  | 1 => nth i [3; 4; 0; 7; 8; 0; 9; 10; 0; 11] 0
  | _ => 0
  end.
(** Only the end of thread 0's section leaves the lock free for another. *)
Definition spin_leaves (t i : nat) : bool :=
  match t, i with 0, 6 => true | 1, 9 => true | _, _ => false end.
Definition spin_place (t i : nat) : nat :=
  match t with
  | 0 => nth i [0; 1; 2; 3; 4; 5; 6] 0
  | 1 => nth i [0; 1; 2; 3; 4; 5; 6; 7; 8; 9] 0
  | _ => 0
  end.

Lemma clocked : forall (code : nat -> list item) (time : nat -> nat -> nat),
  (forall t i, is_access (code t) i -> t < 2) ->
  NoDup (map (fun ti => time (fst ti) (snd ti))
    (map (pair 0) (filter (fun i => match nth_error (code 0) i with Some (Access _) => true | _ => false end)
       (seq 0 (length (code 0)))) ++
     map (pair 1) (filter (fun i => match nth_error (code 1) i with Some (Access _) => true | _ => false end)
       (seq 0 (length (code 1)))))) ->
  forall t u i j, is_access (code t) i -> is_access (code u) j ->
    time t i = time u j -> t = u /\ i = j.
Proof.
  intros code time Two ND.
  set (acc := map (pair 0) _ ++ map (pair 1) _) in ND.
  assert (In0 : forall t i, is_access (code t) i -> In (t, i) acc).
  { intros t i A. pose proof (Two t i A) as L.
    assert (F : In i (filter (fun i => match nth_error (code t) i with Some (Access _) => true | _ => false end)
                        (seq 0 (length (code t))))).
    { destruct A as [x E]. apply filter_In. split.
      - apply in_seq. split; [lia|]. apply nth_error_Some. rewrite E. discriminate.
      - rewrite E. reflexivity. }
    unfold acc. apply in_or_app. destruct t as [|[|t]]; [left|right|lia]; apply in_map; exact F. }
  intros t u i j A B E.
  assert (G : forall (f : nat * nat -> nat) s x y, NoDup (map f s) -> In x s -> In y s -> f x = f y -> x = y).
  { intros f s. induction s as [|z s IH]; intros x y N X Y F; [destruct X|].
    simpl in N. inversion N as [|z' s' N1 N2]. subst.
    destruct X as [-> | X], Y as [-> | Y].
    - reflexivity.
    - exfalso. apply N1. rewrite F. apply in_map. exact Y.
    - exfalso. apply N1. rewrite <- F. apply in_map. exact X.
    - apply IH; assumption. }
  assert (H : (t, i) = (u, j)) by (apply (G _ _ _ _ ND (In0 _ _ A) (In0 _ _ B) E)).
  injection H as -> ->. split; reflexivity.
Qed.

Ltac distinct := repeat constructor; simpl; intuition discriminate.

Lemma none_there : forall i, ~ is_access [] i.
Proof. intros [|i] [x E]; discriminate E. Qed.

Lemma idle : forall m, execution m [] (fun _ => 0) (fun _ => 0).
Proof.
  intros m. constructor.
  - intros i j H. inversion H.
  - intros i j x y _ E. destruct i; discriminate E.
  - intros i j x y E. destruct i; discriminate E.
Qed.

Lemma spin_together : together (machine_of Arm) (fun t => code_of Arm 0 (spin_threads t))
  spin_place spin_time.
Proof.
  constructor.
  - intros [|[|t]].
    + apply execution_b_sound. reflexivity.
    + apply execution_b_sound. reflexivity.
    + apply idle.
  - apply clocked.
    + intros [|[|t]] i A; try lia. exfalso. exact (none_there _ A).
    + distinct.
Qed.

Lemma spin_parts : forall t k x, part_at Arm 0 spin_threads t k x ->
  (t = 0 /\ k = 0 \/ t = 1 /\ k = 3) /\
    x = Section (OTestAndSet 0 Acquire) [Access (plain_read 1); Access (plain_write 1)] (OClear 0 Release) \/
  t = 1 /\ k = 0 /\ x = Attempt (OTestAndSet 0 Acquire).
Proof.
  intros t k x [pre [post [E K]]]. destruct t as [|[|t]]; simpl in E.
  - destruct pre as [|y pre].
    + injection E as <- <-. subst k. left. auto.
    + injection E as <- E. destruct pre; discriminate E.
  - destruct pre as [|y pre].
    + injection E as <- <-. subst k. right. auto.
    + injection E as <- E. destruct pre as [|y pre].
      * injection E as <- <-. subst k. left. auto.
      * injection E as <- E. destruct pre; discriminate E.
  - destruct pre; discriminate E.
Qed.

Lemma spin_sections : forall t k p body q, section_at Arm 0 spin_threads t k p body q ->
  (t = 0 /\ k = 0 \/ t = 1 /\ k = 3) /\ p = OTestAndSet 0 Acquire /\
  body = [Access (plain_read 1); Access (plain_write 1)] /\ q = OClear 0 Release.
Proof.
  intros t k p body q S. apply spin_parts in S. destruct S as [[P E]|[_ [_ E]]].
  - injection E as -> -> ->. auto.
  - discriminate E.
Qed.

Lemma spin_writes : forall u i, writes_to (fun t => code_of Arm 0 (spin_threads t)) 0 (u, i) ->
  u = 0 /\ (i = 1 \/ i = 6) \/ u = 1 /\ (i = 1 \/ i = 4 \/ i = 9).
Proof.
  intros u i W. apply writes_to_in in W. destruct u as [|[|u]]; vm_compute in W; intuition auto.
Qed.

Lemma spin_lock_read : forall r, last_read (emit Arm 0 (OTestAndSet 0 Acquire)) r -> r = 0.
Proof.
  intros r [[x [E K]] _]. destruct r as [|[|[|[|r]]]]; try discriminate E; [reflexivity|].
  injection E as <-. discriminate K.
Qed.
Lemma spin_lock_write : forall w, accesses_of (emit Arm 0 (OTestAndSet 0 Acquire)) Wr w -> w = 1.
Proof.
  intros w [x [E K]]. destruct w as [|[|[|[|w]]]]; try discriminate E; [|reflexivity].
  injection E as <-. discriminate K.
Qed.

Lemma spin_gets : forall now w, gets (fun t => code_of Arm 0 (spin_threads t)) spin_time 0 now (Some w) <->
  writes_to (fun t => code_of Arm 0 (spin_threads t)) 0 w /\ spin_time (fst w) (snd w) < now /\
      forall v, writes_to (fun t => code_of Arm 0 (spin_threads t)) 0 v -> spin_time (fst v) (snd v) < now ->
        spin_time (fst v) (snd v) <= spin_time (fst w) (snd w).
Proof. intros. reflexivity. Qed.

Ltac spin_last :=
  apply spin_gets; split; [eexists; split; [reflexivity|split; reflexivity]|];
  split; [simpl; lia|]; intros [u i] V; apply spin_writes in V;
  destruct V as [[-> [-> | ->]]|[-> [-> | [-> | ->]]]]; simpl; lia.

Lemma spin_used : used_as_lock Arm 0 spin_threads spin_time spin_leaves.
Proof.
  constructor.
  - intros t k p body q S. apply spin_sections in S. destruct S as [_ [-> _]].
    repeat split; auto. exists Acquire. split; [reflexivity|exact I].
  - intros t k p body q r w S R W. apply spin_sections in S. destruct S as [P [-> _]].
    apply spin_lock_read in R. apply spin_lock_write in W. subst r w.
    destruct P as [[-> ->]|[-> ->]]; (split; [simpl; lia|]); intros [u i] V;
      apply spin_writes in V; destruct V as [[-> [-> | ->]]|[-> [-> | [-> | ->]]]]; simpl; lia.
  - intros t k p body q r S R. apply spin_sections in S. destruct S as [P [-> _]].
    apply spin_lock_read in R. subst r.
    destruct P as [[-> ->]|[-> ->]].
    + exists None. split; [|reflexivity]. intros [u i] V. simpl. lia.
    + exists (Some (0, 6)). split; [spin_last|reflexivity].
  - intros t k p body q w S W. apply spin_sections in S. destruct S as [P [-> _]].
    apply spin_lock_write in W. subst w. destruct P as [[-> ->]|[-> ->]]; reflexivity.
  - intros t k p body q S. apply spin_sections in S. destruct S as [_ [_ [_ ->]]].
    exists Release. split; [reflexivity|exact I].
  - intros t k p P. apply spin_parts in P. destruct P as [[_ E]|[_ [_ E]]]; [discriminate E|].
    injection E as ->. split; reflexivity || exact I.
  - intros t k p r w P R W. apply spin_parts in P. destruct P as [[_ E]|[-> [-> E]]]; [discriminate E|].
    injection E as ->. apply spin_lock_read in R. apply spin_lock_write in W. subst r w. split.
    + split; [simpl; lia|]. intros [u i] V.
      apply spin_writes in V; destruct V as [[-> [-> | ->]]|[-> [-> | [-> | ->]]]]; simpl; lia.
    + exists (Some (0, 1)). split; [spin_last|reflexivity].
  - intros t k c i x P. apply spin_parts in P. destruct P as [[_ E]|[_ [_ E]]]; discriminate E.
  - intros t k p body q i x S E K. apply spin_sections in S. destruct S as [_ [_ [-> _]]].
    destruct i as [|[|[|i]]]; try discriminate E; injection E as <-; discriminate.
Qed.

(** *** Two threads on SPARC, whose processor may reorder reads *)
Definition torn_threads (t : nat) : list part :=
  match t with
  | 0 => [Section (OTestAndSet 0 Acquire) [Access (plain_read 1); Access (plain_read 2)] (OClear 0 Release)]
  | 1 => [Section (OTestAndSet 0 Acquire) [Access (plain_write 1); Access (plain_write 2)] (OClear 0 Release)]
  | _ => []
  end.
(** The read of the first variable overtakes the lock operation. *)
Definition torn_time (t i : nat) : nat :=
  match t with
  | 0 => nth i [6; 7; 0; 0; 8; 0; 9] 0
  | 1 => nth i [1; 2; 0; 3; 4; 0; 5] 0
  | _ => 0
  end.
Definition torn_leaves (t i : nat) : bool := i =? 6.
Definition torn_place (t i : nat) : nat :=
  match t with
  | 0 | 1 => nth i [0; 1; 2; 3; 4; 5; 6] 0
  | _ => 0
  end.

Lemma torn_together : together (machine_of Sparc) (fun t => code_of Sparc 0 (torn_threads t))
  torn_place torn_time.
Proof.
  constructor.
  - intros [|[|t]].
    + apply execution_b_sound. reflexivity.
    + apply execution_b_sound. reflexivity.
    + apply idle.
  - apply clocked.
    + intros [|[|t]] i A; try lia. exfalso. exact (none_there _ A).
    + distinct.
Qed.

Lemma torn_parts : forall t k x, part_at Sparc 0 torn_threads t k x ->
  (t = 0 \/ t = 1) /\ k = 0 /\ exists z1 z2, (forall y, In y [z1; z2] -> y <> 0) /\
    exists k1 k2, x = Section (OTestAndSet 0 Acquire)
      [Access (Acc k1 z1 false false false false false false);
       Access (Acc k2 z2 false false false false false false)] (OClear 0 Release).
Proof.
  assert (N : forall y : nat, In y [1; 2] -> y <> 0)
    by (intros y [<- | [<- | []]]; discriminate).
  intros t k x [pre [post [E K]]]. destruct t as [|[|t]]; simpl in E.
  - destruct pre as [|y pre].
    + injection E as <- <-. subst k. split; [auto|]. split; [reflexivity|]. exists 1, 2.
      split; [exact N|]. exists Rd, Rd. reflexivity.
    + injection E as <- E. destruct pre; discriminate E.
  - destruct pre as [|y pre].
    + injection E as <- <-. subst k. split; [auto|]. split; [reflexivity|]. exists 1, 2.
      split; [exact N|]. exists Wr, Wr. reflexivity.
    + injection E as <- E. destruct pre; discriminate E.
  - destruct pre; discriminate E.
Qed.

Lemma torn_sections : forall t k p body q, section_at Sparc 0 torn_threads t k p body q ->
  (t = 0 \/ t = 1) /\ k = 0 /\ p = OTestAndSet 0 Acquire /\ q = OClear 0 Release.
Proof.
  intros t k p body q S. apply torn_parts in S.
  destruct S as [T [K [z1 [z2 [_ [k1 [k2 E]]]]]]]. injection E as -> -> ->. auto.
Qed.

Lemma torn_writes : forall u i, writes_to (fun t => code_of Sparc 0 (torn_threads t)) 0 (u, i) ->
  (u = 0 \/ u = 1) /\ (i = 1 \/ i = 6).
Proof.
  intros u i W. apply writes_to_in in W. destruct u as [|[|u]]; vm_compute in W; intuition auto.
Qed.

Lemma torn_lock_read : forall r, last_read (emit Sparc 0 (OTestAndSet 0 Acquire)) r -> r = 0.
Proof.
  intros r [[x [E K]] _]. destruct r as [|[|[|[|r]]]]; try discriminate E; [reflexivity|].
  injection E as <-. discriminate K.
Qed.
Lemma torn_lock_write : forall w, accesses_of (emit Sparc 0 (OTestAndSet 0 Acquire)) Wr w -> w = 1.
Proof.
  intros w [x [E K]]. destruct w as [|[|[|[|w]]]]; try discriminate E; [|reflexivity].
  injection E as <-. discriminate K.
Qed.

Lemma torn_used : used_as_lock Sparc 0 torn_threads torn_time torn_leaves.
Proof.
  constructor.
  - intros t k p body q S. apply torn_sections in S. destruct S as [_ [_ [-> _]]].
    repeat split; auto. exists Acquire. split; [reflexivity|exact I].
  - intros t k p body q r w S R W. apply torn_sections in S. destruct S as [P [-> [-> _]]].
    apply torn_lock_read in R. apply torn_lock_write in W. subst r w.
    destruct P as [-> | ->]; (split; [simpl; lia|]); intros [u i] V;
      apply torn_writes in V; destruct V as [[-> | ->] [-> | ->]]; simpl; lia.
  - intros t k p body q r S R. apply torn_sections in S. destruct S as [P [-> [-> _]]].
    apply torn_lock_read in R. subst r.
    destruct P as [-> | ->].
    + exists (Some (1, 6)). split; [|reflexivity].
      split; [|split].
      * eexists. split; [reflexivity|split; reflexivity].
      * simpl. lia.
      * intros [u i] V. apply torn_writes in V.
        destruct V as [[-> | ->] [-> | ->]]; simpl; lia.
    + exists None. split; [|reflexivity]. intros [u i] V. apply torn_writes in V.
      destruct V as [[-> | ->] [-> | ->]]; simpl; lia.
  - intros t k p body q w S W. apply torn_sections in S. destruct S as [P [-> [-> _]]].
    apply torn_lock_write in W. subst w. reflexivity.
  - intros t k p body q S. apply torn_sections in S. destruct S as [_ [_ [_ ->]]].
    exists Release. split; [reflexivity|exact I].
  - intros t k p P. apply torn_parts in P. destruct P as [_ [_ [z1 [z2 [_ [k1 [k2 E]]]]]]]. discriminate E.
  - intros t k p r w P. apply torn_parts in P. destruct P as [_ [_ [z1 [z2 [_ [k1 [k2 E]]]]]]]. discriminate E.
  - intros t k c i x P. apply torn_parts in P. destruct P as [_ [_ [z1 [z2 [_ [k1 [k2 E]]]]]]]. discriminate E.
  - intros t k p body q i x S E K. apply torn_parts in S.
    destruct S as [_ [_ [z1 [z2 [Nz [k1 [k2 Ex]]]]]]]. injection Ex as -> -> ->.
    destruct i as [|[|[|i]]]; try discriminate E; injection E as <-; apply Nz; simpl; auto.
Qed.

Theorem sparc_sections_refuted : exists l threads place time leaves,
  together (machine_of Sparc) (fun t => code_of Sparc l (threads t)) place time /\
  used_as_lock Sparc l threads time leaves /\
  exists t k p body q u k' p' body' q' i i' j j',
    section_at Sparc l threads t k p body q /\ section_at Sparc l threads u k' p' body' q' /\
    t <> u /\
    is_access body i /\ is_access body i' /\ is_access body' j /\ is_access body' j' /\
    time t (k + length (emit Sparc l p) + i) < time u (k' + length (emit Sparc l p') + j) /\
    time u (k' + length (emit Sparc l p') + j') < time t (k + length (emit Sparc l p) + i').
Proof.
  exists 0, torn_threads, torn_place, torn_time, torn_leaves.
  split; [exact torn_together|]. split; [exact torn_used|].
  exists 0, 0, (OTestAndSet 0 Acquire), [Access (plain_read 1); Access (plain_read 2)], (OClear 0 Release).
  exists 1, 0, (OTestAndSet 0 Acquire), [Access (plain_write 1); Access (plain_write 2)], (OClear 0 Release).
  exists 0, 1, 0, 1.
  split; [exists [], []; split; reflexivity|].
  split; [exists [], []; split; reflexivity|].
  split; [discriminate|].
  do 4 (split; [eexists; reflexivity|]).
  split; vm_compute; lia.
Qed.

(** The same about the bodies of the sections only. *)
Theorem bodies_serial : forall b l threads place time leaves,
  together (machine_of b) (fun t => code_of b l (threads t)) place time ->
  used_as_lock b l threads time leaves ->
  (b = Sparc -> forall t k p body q, section_at b l threads t k p body q ->
    read_order p = Some SeqCst) ->
  forall t k p body q u k' p' body' q',
    section_at b l threads t k p body q -> section_at b l threads u k' p' body' q' ->
    (t, k) <> (u, k') ->
    (forall i j, is_access body i -> is_access body' j ->
      time t (k + length (emit b l p) + i) < time u (k' + length (emit b l p') + j)) \/
    (forall i j, is_access body i -> is_access body' j ->
      time u (k' + length (emit b l p') + j) < time t (k + length (emit b l p) + i)).
Proof.
  intros b l threads place time leaves T U Sp t k p body q u k' p' body' q' S S' Ne.
  assert (In : forall t k p body q i, section_at b l threads t k p body q -> is_access body i ->
    is_access (code_of b l (threads t)) (k + length (emit b l p) + i) /\ i < length body).
  { intros t0 k0 p0 body0 q0 i [pre [post [E K]]] A. split.
    - rewrite E, K. unfold code_of. rewrite map_app, concat_app. simpl. rewrite <- !app_assoc.
      rewrite <- Nat.add_assoc.
      apply is_access_app_r, is_access_app_r, is_access_app_l. exact A.
    - destruct A as [x A]. apply nth_error_Some. rewrite A. discriminate. }
  destruct (sections_serial_backends b l threads place time leaves T U Sp _ _ _ _ _ _ _ _ _ _ S S' Ne) as [H|H].
  - left. intros i j A A'. destruct (In _ _ _ _ _ _ S A) as [A1 L1].
    destruct (In _ _ _ _ _ _ S' A') as [A2 L2]. apply H; [exact A1|lia|exact A2|lia].
  - right. intros i j A A'. destruct (In _ _ _ _ _ _ S A) as [A1 L1].
    destruct (In _ _ _ _ _ _ S' A') as [A2 L2]. apply H; [exact A2|lia|exact A1|lia].
Qed.

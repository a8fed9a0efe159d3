(** * Locks whose word is also changed by its holder and by waiting threads: proofs for C56. *)
From Coq Require Import Arith List Bool Lia.
Require Import Verif.Order Verif.Reorder Verif.SpecOrder Verif.FenceModel Verif.SpecFence
  Verif.FenceProof Verif.SpecLock Verif.LockProof.
Import ListNotations.
Open Scope nat_scope.

(** What a step of a thread does to the lock: takes it, gives it back, changes the word but leaves the lock free or
    held as it was, or does not write the word. *)
Inductive role := Take | Give | Keep | Rest.
Definition turn (b : bool) (x : role) : bool := match x with Take => true | Give => false | _ => b end.
Definition inside (s : list role) : bool := fold_left turn s false.
Definition cat {X} (s : list (X * list item)) : list item := concat (map snd s).

Lemma cat_app {X} (s s' : list (X * list item)) : cat (s ++ s') = cat s ++ cat s'.
Proof. unfold cat. now rewrite map_app, concat_app. Qed.
Lemma cat_cons {X} (x : X) c s : cat ((x, c) :: s) = c ++ cat s.
Proof. reflexivity. Qed.
Lemma inside_snoc s x : inside (s ++ [x]) = turn (inside s) x.
Proof. unfold inside. now rewrite fold_left_app. Qed.
Lemma firstn_snoc {A} (s : list A) : forall n x, nth_error s n = Some x -> firstn (S n) s = firstn n s ++ [x].
Proof.
  induction s as [|y s IH]; intros [|n] x E; try discriminate E.
  - injection E as ->. reflexivity.
  - cbn [firstn app]. f_equal. now apply IH.
Qed.

(** the step a position of the code belongs to *)
Definition off {X} (s : list (X * list item)) (n : nat) : nat := length (cat (firstn n s)).
Lemma off_succ {X} (s : list (X * list item)) n x c : nth_error s n = Some (x, c) -> off s (S n) = off s n + length c.
Proof. intros E. unfold off. rewrite (firstn_snoc s n _ E), cat_app, app_length. cbn. now rewrite app_nil_r. Qed.
Lemma off_mono {X} (s : list (X * list item)) n n' : n <= n' -> off s n <= off s n'.
Proof.
  intros L. induction L as [|n' L IH]; [lia|]. destruct (nth_error s n') as [[x c]|] eqn:E.
  - rewrite (off_succ s n' x c E). lia.
  - apply nth_error_None in E. unfold off in *. rewrite (firstn_all2 (n := S n') s) by lia.
    rewrite (firstn_all2 (n := n') s) in IH by exact E. exact IH.
Qed.
Lemma off_lt {X} (s : list (X * list item)) n n' x c : nth_error s n = Some (x, c) -> n < n' -> off s n + length c <= off s n'.
Proof. intros E L. rewrite <- (off_succ s n x c E). apply off_mono. lia. Qed.
Lemma cat_split {X} (s : list (X * list item)) n x c : nth_error s n = Some (x, c) ->
  cat s = cat (firstn n s) ++ c ++ cat (skipn (S n) s).
Proof.
  intros E. rewrite <- (firstn_skipn (S n) s) at 1. rewrite (firstn_snoc s n _ E), !cat_app, <- app_assoc. cbn [app].
  rewrite cat_cons. cbn. now rewrite app_nil_r.
Qed.
Lemma cat_in {X} (s : list (X * list item)) n x c j z : nth_error s n = Some (x, c) -> nth_error c j = Some z ->
  nth_error (cat s) (off s n + j) = Some z.
Proof.
  intros E J. rewrite (cat_split s n x c E). unfold off. rewrite nth_error_app2 by lia.
  replace (length (cat (firstn n s)) + j - length (cat (firstn n s))) with j by lia. rewrite nth_error_app1; [exact J|].
  apply nth_error_Some. congruence.
Qed.
Lemma cat_at {X} (s : list (X * list item)) : forall i z, nth_error (cat s) i = Some z ->
  exists n x c j, nth_error s n = Some (x, c) /\ nth_error c j = Some z /\ i = off s n + j.
Proof.
  induction s as [|[x c] s IH]; intros i z E; [destruct i; discriminate E|]. rewrite cat_cons in E.
  destruct (Nat.lt_ge_cases i (length c)) as [L|L].
  - rewrite nth_error_app1 in E by exact L. exists 0, x, c, i. repeat split. exact E.
  - rewrite nth_error_app2 in E by exact L. destruct (IH _ _ E) as (n & y & d & j & A & B & C).
    exists (S n), y, d, j. split; [exact A|]. split; [exact B|]. unfold off in *. cbn [firstn]. rewrite cat_cons, app_length. lia.
Qed.
Lemma off_unique {X} (s : list (X * list item)) n x c j n' x' c' j' :
  nth_error s n = Some (x, c) -> j < length c -> nth_error s n' = Some (x', c') -> j' < length c' ->
  off s n + j = off s n' + j' -> n = n' /\ j = j'.
Proof.
  intros E L E' L' Q. destruct (Nat.lt_trichotomy n n') as [H|[H|H]].
  - pose proof (off_lt s n n' x c E H). lia.
  - subst n'. lia.
  - pose proof (off_lt s n' n x' c' E' H). lia.
Qed.

Section Flat.
  Variables (m : machine) (l : nat) (T : nat -> list (role * list item)) (place time : nat -> nat -> nat) (leaves : nat -> nat -> bool).
  Let code t := cat (T t).
  Definition step (t n : nat) (x : role) (c : list item) : Prop := nth_error (T t) n = Some (x, c).
  Notation pos t n j := (off (T t) n + j).
  Hypothesis To : together m code place time.
  Hypothesis Hrest : forall t n c j x, step t n Rest c -> nth_error c j = Some (Access x) -> a_kind x = Wr -> a_loc x <> l.
  Hypothesis Hone : forall t n x c, step t n x c -> x <> Rest ->
    exists w a, nth_error c w = Some (Access a) /\ a_kind a = Wr /\ a_loc a = l /\ forall w', accesses_of c Wr w' -> w' = w.
  Hypothesis Hread : forall t n x c, step t n x c -> x = Take \/ x = Keep -> exists r, last_read c r.
  Hypothesis Hatomic : forall t n x c r w, step t n x c -> x = Take \/ x = Keep -> last_read c r -> accesses_of c Wr w ->
    atomic_at code time l t (pos t n r) (pos t n w).
  Hypothesis Hfree : forall t n c r, step t n Take c -> last_read c r -> finds code time leaves l (time t (pos t n r)) true.
  Hypothesis Hheld : forall t n c w, step t n Take c -> accesses_of c Wr w -> leaves t (pos t n w) = false.
  Hypothesis Hkeep : forall t n c r w, step t n Keep c -> last_read c r -> accesses_of c Wr w ->
    finds code time leaves l (time t (pos t n r)) (leaves t (pos t n w)).
  Hypothesis Hacq : forall t n c, step t n Take c -> acquire_operation m c.
  Hypothesis Hrel : forall t n c, step t n Give c -> release_operation m c.
  Hypothesis Hbr : forall t n c, step t n Give c -> inside (map fst (firstn n (T t))) = true.

  (** step [n'] ends what step [n] began *)
  Definition closes (t n n' : nat) (c' : list item) : Prop :=
    n < n' /\ step t n' Give c' /\ forall i x d, n < i < n' -> step t i x d -> x = Keep \/ x = Rest.

  Lemma opened t n c : step t n Give c -> exists n0 c0, step t n0 Take c0 /\ closes t n0 n c.
  Proof.
    intros G. assert (X : forall k, k <= n -> inside (map fst (firstn k (T t))) = true ->
      exists n0 c0, n0 < k /\ step t n0 Take c0 /\ forall i x d, n0 < i < k -> step t i x d -> x = Keep \/ x = Rest).
    { induction k as [|k IH]; intros L I; [discriminate I|].
      destruct (nth_error (T t) k) as [[x d]|] eqn:E.
      - rewrite (firstn_snoc _ _ _ E), map_app in I. cbn [map fst] in I. rewrite inside_snoc in I.
        destruct x; cbn [turn] in I; try discriminate I.
        + exists k, d. split; [lia|]. split; [exact E|]. intros i y e H. lia.
        + destruct (IH ltac:(lia) I) as (n0 & c0 & A & B & C). exists n0, c0. split; [lia|]. split; [exact B|].
          intros i y e H D. destruct (Nat.eq_dec i k) as [->|N]; [left; unfold step in D; congruence|]. apply (C i y e); [lia|exact D].
        + destruct (IH ltac:(lia) I) as (n0 & c0 & A & B & C). exists n0, c0. split; [lia|]. split; [exact B|].
          intros i y e H D. destruct (Nat.eq_dec i k) as [->|N]; [right; unfold step in D; congruence|]. apply (C i y e); [lia|exact D].
      - apply nth_error_None in E. unfold step in G. assert (n < length (T t)) by (apply nth_error_Some; congruence). lia. }
    destruct (X n (le_n _) (Hbr t n c G)) as (n0 & c0 & A & B & C). exists n0, c0. split; [exact B|]. split; [exact A|]. split; [exact G|exact C].
  Qed.
  Lemma closes_unique t n n' c' n'' c'' : closes t n n' c' -> closes t n n'' c'' -> n' = n'' /\ c' = c''.
  Proof.
    intros (A & B & C) (A' & B' & C'). assert (E : n' = n'').
    { destruct (Nat.lt_trichotomy n' n'') as [H|[H|H]]; [|exact H|].
      - destruct (C' n' Give c' ltac:(lia) B); discriminate.
      - destruct (C n'' Give c'' ltac:(lia) B'); discriminate. }
    subst n''. unfold step in *. split; congruence.
  Qed.

  Lemma step_access t n x c j : step t n x c -> is_access c j -> is_access (code t) (pos t n j).
  Proof. intros E [a J]. exists a. unfold code. exact (cat_in (T t) n x c j _ E J). Qed.
  Lemma step_write t n x c w a : step t n x c -> nth_error c w = Some (Access a) -> a_kind a = Wr -> a_loc a = l ->
    writes_to code l (t, pos t n w).
  Proof. intros E W K L. exists a. cbn [fst snd]. split; [exact (cat_in (T t) n x c w _ E W)|auto]. Qed.
  Lemma same_time t n x c j u n' x' c' j' : step t n x c -> is_access c j -> step u n' x' c' -> is_access c' j' ->
    time t (pos t n j) = time u (pos u n' j') -> t = u /\ n = n' /\ j = j'.
  Proof.
    intros E J E' J' Q. destruct (to_clock _ _ _ _ To _ _ _ _ (step_access t n x c j E J) (step_access u n' x' c' j' E' J') Q) as [<- P].
    split; [reflexivity|]. destruct J as [a J], J' as [a' J'].
    apply (off_unique (T t) n x c j n' x' c' j' E); [apply nth_error_Some; congruence|exact E'|apply nth_error_Some; congruence|exact P].
  Qed.
  Lemma acquired t n c r j : step t n Take c -> accesses_of c Rd r -> is_access (code t) j -> off (T t) n + length c <= j ->
    time t (pos t n r) < time t j.
  Proof.
    intros E R A L. pose proof (to_thread _ _ _ _ To t) as X. unfold code in X, A. rewrite (cat_split (T t) n Take c E) in X, A.
    pose proof (Hacq t n c E _ _ _ _ X r (j - (off (T t) n + length c)) R) as H. fold (off (T t) n) in H.
    replace (off (T t) n + length c + (j - (off (T t) n + length c))) with j in H by lia. apply H.
    rewrite app_assoc in A. apply is_access_drop in A; rewrite app_length in *; [exact A|exact L].
  Qed.
  Lemma released t n c w i : step t n Give c -> accesses_of c Wr w -> is_access (code t) i -> i < off (T t) n ->
    time t i < time t (pos t n w).
  Proof.
    intros E W A L. pose proof (to_thread _ _ _ _ To t) as X. unfold code in X, A. rewrite (cat_split (T t) n Give c E) in X, A.
    apply (Hrel t n c E _ _ _ _ X i w); [|exact W]. apply is_access_take in A; [exact A|exact L].
  Qed.
  Lemma the_write t n x c w : step t n x c -> x <> Rest -> accesses_of c Wr w -> writes_to code l (t, pos t n w).
  Proof.
    intros E N W. destruct (Hone t n x c E N) as (w0 & a & A & B & C & D). rewrite (D w W). exact (step_write t n x c w0 a E A B C).
  Qed.
  Lemma a_write t n x c : step t n x c -> x <> Rest -> exists w, accesses_of c Wr w.
  Proof. intros E N. destruct (Hone t n x c E N) as (w0 & a & A & B & _). exists w0, a. auto. Qed.

  Lemma freed_since : forall k now, now <= k -> finds code time leaves l now true ->
    forall t n c w, step t n Take c -> accesses_of c Wr w -> time t (pos t n w) < now ->
    exists u n' c' w', step u n' Give c' /\ accesses_of c' Wr w' /\
      time t (pos t n w) <= time u (pos u n' w') /\ time u (pos u n' w') < now.
  Proof.
    induction k as [|k IH]; intros now N F t n c w E W L; [lia|].
    assert (WA : writes_to code l (t, pos t n w)) by (apply (the_write t n Take c w); [exact E|discriminate|exact W]).
    destruct F as [[[u i]|] [G V]].
    2:{ pose proof (G _ WA) as P. cbn [fst snd] in P. lia. }
    destruct G as (G0 & G1 & G2). cbn [fst snd] in G1. pose proof (G2 _ WA L) as P. cbn [fst snd] in P.
    pose proof G0 as (a & Ea & Ka & La). cbn [fst snd] in Ea. destruct (cat_at (T u) i _ Ea) as (n' & x & c' & j & E' & J & Ei). subst i.
    assert (W' : accesses_of c' Wr j) by (exists a; auto). destruct x.
    - exfalso. rewrite (Hheld u n' c' j E' W') in V. discriminate V.
    - exists u, n', c', j. auto.
    - destruct (Hread u n' Keep c' E' ltac:(auto)) as [r R].
      destruct (Hatomic u n' Keep c' r j E' ltac:(auto) R W') as [A1 A2].
      pose proof (Hkeep u n' c' r j E' R W') as F. rewrite <- V in F.
      pose proof (A2 _ WA) as Q. cbn [fst snd] in Q.
      assert (Iw : is_access c w) by (apply (accesses_is _ _ _ W)).
      assert (N1 : time t (pos t n w) <> time u (pos u n' j)).
      { intros Z. destruct (same_time t n Take c w u n' Keep c' j E Iw E' (accesses_is _ _ _ W') Z) as (<- & <- & _).
        unfold step in *. congruence. }
      assert (N2 : time t (pos t n w) <> time u (pos u n' r)).
      { intros Z. destruct (same_time t n Take c w u n' Keep c' r E Iw E' (accesses_is _ _ _ (proj1 R)) Z) as (<- & <- & _).
        unfold step in *. congruence. }
      destruct (IH (time u (pos u n' r)) ltac:(lia) F t n c w E W ltac:(lia)) as (u2 & n2 & c2 & w2 & B1 & B2 & B3 & B4).
      exists u2, n2, c2, w2. repeat split; auto. lia.
    - exfalso. exact (Hrest u n' c' j a E' J Ka La).
  Qed.

  (** If [A] took the lock before [B] did, it gave it back before that. *)
  Lemma earlier_left : forall k t n c r u n' c' r',
    step t n Take c -> last_read c r -> step u n' Take c' -> last_read c' r' ->
    time t (pos t n r) < time u (pos u n' r') -> time u (pos u n' r') <= k ->
    exists g d w, closes t n g d /\ accesses_of d Wr w /\ time t (pos t g w) < time u (pos u n' r').
  Proof.
    induction k as [|k IH]; intros t n c r u n' c' r' EA RA EB RB L K; [lia|].
    destruct (a_write t n Take c EA ltac:(discriminate)) as [w Aw]. destruct (a_write u n' Take c' EB ltac:(discriminate)) as [w' Aw'].
    pose proof (the_write t n Take c w EA ltac:(discriminate) Aw) as WA. pose proof (the_write u n' Take c' w' EB ltac:(discriminate) Aw') as WB.
    destruct (Hatomic t n Take c r w EA ltac:(auto) RA Aw) as [A1 A2]. destruct (Hatomic u n' Take c' r' w' EB ltac:(auto) RB Aw') as [B1 B2].
    assert (H1 : time t (pos t n w) < time u (pos u n' r')).
    { destruct (Nat.lt_ge_cases (time t (pos t n w)) (time u (pos u n' r'))) as [Lt|Ge]; [exact Lt|exfalso].
      assert (Ne : time t (pos t n w) <> time u (pos u n' r')).
      { intros Z. destruct (same_time t n Take c w u n' Take c' r' EA (accesses_is _ _ _ Aw) EB (accesses_is _ _ _ (proj1 RB)) Z) as (<- & <- & ->).
        assert (c = c') by (unfold step in *; congruence). subst c'. destruct Aw as (y & Y & Ky). destruct (proj1 RB) as (z & Y' & Kz). congruence. }
      pose proof (B2 _ WA) as P. pose proof (A2 _ WB) as Q. cbn [fst snd] in P, Q.
      assert (Z : time t (pos t n w) = time u (pos u n' w')) by lia.
      destruct (same_time t n Take c w u n' Take c' w' EA (accesses_is _ _ _ Aw) EB (accesses_is _ _ _ Aw') Z) as (<- & <- & _).
      assert (c = c') by (unfold step in *; congruence). subst c'. rewrite (last_read_unique _ _ _ RA RB) in L. lia. }
    destruct (freed_since _ _ (le_n _) (Hfree u n' c' r' EB RB) t n c w EA Aw H1) as (v & ng & cg & wg & EG & WG & P & Q).
    destruct (opened v ng cg EG) as (nc & cc & EC & CL). pose proof CL as (Lc & _ & _).
    destruct (Hread v nc Take cc EC ltac:(auto)) as [rc RC].
    assert (HC : time v (pos v nc rc) < time v (pos v ng wg)).
    { apply (acquired v nc cc rc); [exact EC|exact (proj1 RC)|apply (step_access v ng Give cg wg EG (accesses_is _ _ _ WG))|].
      pose proof (off_lt (T v) nc ng Take cc EC Lc). lia. }
    destruct (Nat.lt_trichotomy (time v (pos v nc rc)) (time t (pos t n r))) as [Lt|[Eq|Gt]].
    - destruct (IH v nc cc rc t n c r EC RC EA RA Lt ltac:(lia)) as (g & d & w2 & C2 & W2 & T2).
      destruct (closes_unique v nc ng cg g d CL C2) as [<- <-].
      destruct (Hone v ng Give cg EG ltac:(discriminate)) as (w0 & a & _ & _ & _ & U). rewrite (U wg WG) in *. rewrite (U w2 W2) in T2. lia.
    - destruct (same_time v nc Take cc rc t n Take c r EC (accesses_is _ _ _ (proj1 RC)) EA (accesses_is _ _ _ (proj1 RA)) Eq) as (-> & -> & _).
      exists ng, cg, wg. auto.
    - destruct (IH t n c r v nc cc rc EA RA EC RC Gt ltac:(lia)) as (g & d & w2 & C2 & W2 & T2).
      exists g, d, w2. split; [exact C2|]. split; [exact W2|]. lia.
  Qed.

  (** Of two steps that take the lock one is first; what its thread does until it gives the lock back is done before
      what the other thread does after taking it. *)
  Theorem one_first t n c u n' c' : step t n Take c -> step u n' Take c' -> (t, n) <> (u, n') ->
    (exists g d, closes t n g d /\ forall i j, is_access (code t) i -> i < off (T t) g ->
       is_access (code u) j -> off (T u) n' + length c' <= j -> time t i < time u j) \/
    (exists g d, closes u n' g d /\ forall i j, is_access (code u) i -> i < off (T u) g ->
       is_access (code t) j -> off (T t) n + length c <= j -> time u i < time t j).
  Proof.
    assert (Main : forall t n c u n' c' r r', step t n Take c -> step u n' Take c' -> last_read c r -> last_read c' r' ->
      time t (pos t n r) < time u (pos u n' r') ->
      exists g d, closes t n g d /\ forall i j, is_access (code t) i -> i < off (T t) g ->
       is_access (code u) j -> off (T u) n' + length c' <= j -> time t i < time u j).
    { intros t0 n0 c0 u0 n1 c1 r r' E E' R R' L. destruct (earlier_left _ t0 n0 c0 r u0 n1 c1 r' E R E' R' L (le_n _)) as (g & d & w & C & W & Q).
      exists g, d. split; [exact C|]. intros i j Ai Li Aj Lj. destruct C as (_ & G & _).
      pose proof (released t0 g d w i G W Ai Li). pose proof (acquired u0 n1 c1 r' j E' (proj1 R') Aj Lj). lia. }
    intros E E' N. destruct (Hread t n Take c E ltac:(auto)) as [r R]. destruct (Hread u n' Take c' E' ltac:(auto)) as [r' R'].
    destruct (Nat.lt_trichotomy (time t (pos t n r)) (time u (pos u n' r'))) as [L|[L|L]].
    - left. exact (Main t n c u n' c' r r' E E' R R' L).
    - exfalso. apply N. destruct (same_time t n Take c r u n' Take c' r' E (accesses_is _ _ _ (proj1 R)) E' (accesses_is _ _ _ (proj1 R')) L) as (-> & -> & _).
      reflexivity.
    - right. exact (Main u n' c' t n c r' r E' E R' R L).
  Qed.
End Flat.

(** * The address search: proofs. *)
From Coq Require Import ZArith List Bool Arith Lia ZifyBool ZifyNat.
From Verif Require Import SpecFind FindModel.
Import ListNotations.
Open Scope Z_scope.
Ltac Zify.zify_post_hook ::= Z.div_mod_to_equations.

(** ** Trailing zeros *)
Definition low (w x : Z) : Prop := x mod 2 ^ w <> 0.

Lemma zeros_shift k x r : 0 <= k -> Z.land x (Z.ones k) = 0 -> zeros_below (Z.shiftr x k) r -> zeros_below x (r + k).
Proof.
  intros Hk H0 (H1 & H2 & H3). split; [lia|]. split.
  - now rewrite <- Z.shiftr_spec.
  - intros j Hj. destruct (Z_lt_dec j k) as [L|L].
    + assert (E : Z.testbit (Z.land x (Z.ones k)) j = false) by (rewrite H0; apply Z.bits_0).
      rewrite Z.land_spec, Z.ones_spec_low, andb_true_r in E by lia. exact E.
    + specialize (H3 (j - k)). rewrite Z.shiftr_spec in H3 by lia.
      replace (j - k + k) with j in H3 by lia. apply H3. lia.
Qed.
Lemma low_shift w k x : 0 <= k -> 0 <= w -> Z.land x (Z.ones k) = 0 -> low (k + w) x -> low w (Z.shiftr x k).
Proof.
  unfold low. intros Hk Hw H0 H E. apply H. rewrite Z.land_ones in H0 by lia. rewrite Z.shiftr_div_pow2 in E by lia.
  rewrite Z.pow_add_r by lia. rewrite Z.rem_mul_r by (apply Z.pow_nonzero || apply Z.pow_pos_nonneg; lia).
  rewrite H0, E. lia.
Qed.
Lemma low_keep k x : 0 <= k -> Z.land x (Z.ones k) <> 0 -> low k x.
Proof. intros Hk H. unfold low. now rewrite Z.land_ones in H. Qed.

Lemma ctz_ok x : 0 < x < 2 ^ 32 -> zeros_below x (count_trailing_zeros x).
Proof.
  intros Hx. unfold count_trailing_zeros.
  assert (L : low (16 + 16) x) by (unfold low; change (16 + 16) with 32; rewrite Z.mod_small; lia).
  change 0xFFFF with (Z.ones 16). change 0xFF with (Z.ones 8). change 0xF with (Z.ones 4).
  change 0x3 with (Z.ones 2). change 0x1 with (Z.ones 1).
  (* generic last steps *)
  assert (S1 : forall y, low (1 + 1) y -> zeros_below y (if Z.land y (Z.ones 1) =? 0 then 1 else 0)).
  { intros y Ly. destruct (Z.land y (Z.ones 1) =? 0) eqn:E; apply Z.eqb_eq in E || apply Z.eqb_neq in E.
    - apply low_shift in Ly; try lia. change 1 with (0 + 1). apply zeros_shift; try lia.
      split; [lia|]. split; [|lia]. rewrite Z.bit0_odd. unfold low in Ly. change (2 ^ 1) with 2 in Ly.
      rewrite Zmod_odd in Ly. now destruct (Z.odd (Z.shiftr y 1)).
    - apply low_keep in E; [|lia]. split; [lia|]. split; [|lia]. rewrite Z.bit0_odd. unfold low in E.
      change (2 ^ 1) with 2 in E. rewrite Zmod_odd in E. now destruct (Z.odd y). }
  assert (GO : forall (k : Z) (f : Z -> Z -> Z) (y i : Z), 0 <= k -> low (k + k) y ->
      (forall z j, low k z -> exists r, f z j = r + j /\ zeros_below z r) ->
      exists r, (let '(z, j) := if Z.land y (Z.ones k) =? 0 then (Z.shiftr y k, i + k) else (y, i) in f z j) = r + i /\ zeros_below y r).
  { intros k f y i Hk Ly Hf. destruct (Z.land y (Z.ones k) =? 0) eqn:E; [apply Z.eqb_eq in E | apply Z.eqb_neq in E].
    - destruct (Hf (Z.shiftr y k) (i + k)) as (r & A & B); [now apply low_shift|].
      exists (r + k). split; [lia|]. now apply zeros_shift.
    - destruct (Hf y i) as (r & A & B); [now apply low_keep|]. exists r. auto. }
  set (f1 := fun y i => if Z.land y (Z.ones 1) =? 0 then i + 1 else i).
  assert (F1 : forall z j, low 2 z -> exists r, f1 z j = r + j /\ zeros_below z r).
  { intros z j Lz. specialize (S1 z Lz). unfold f1. destruct (Z.land z (Z.ones 1) =? 0);
      [exists 1 | exists 0]; split; auto; lia. }
  set (f2 := fun y i => let '(z, j) := if Z.land y (Z.ones 2) =? 0 then (Z.shiftr y 2, i + 2) else (y, i) in f1 z j).
  assert (F2 : forall z j, low 4 z -> exists r, f2 z j = r + j /\ zeros_below z r).
  { intros z j Lz. apply GO; auto; lia. }
  set (f4 := fun y i => let '(z, j) := if Z.land y (Z.ones 4) =? 0 then (Z.shiftr y 4, i + 4) else (y, i) in f2 z j).
  assert (F4 : forall z j, low 8 z -> exists r, f4 z j = r + j /\ zeros_below z r).
  { intros z j Lz. apply GO; auto; lia. }
  set (f8 := fun y i => let '(z, j) := if Z.land y (Z.ones 8) =? 0 then (Z.shiftr y 8, i + 8) else (y, i) in f4 z j).
  assert (F8 : forall z j, low 16 z -> exists r, f8 z j = r + j /\ zeros_below z r).
  { intros z j Lz. apply GO; auto; lia. }
  destruct (GO 16 f8 x 0) as (r & A & B); auto; [lia|].
  rewrite Z.add_0_r in A. rewrite <- A in B. exact B.
Qed.

Lemma zeros_unique x r r' : zeros_below x r -> zeros_below x r' -> r = r'.
Proof.
  intros (A & B & C) (A' & B' & C').
  destruct (Z_lt_dec r r') as [L|L]; [rewrite C' in B by lia; discriminate|].
  destruct (Z_lt_dec r' r) as [L'|L']; [rewrite C in B' by lia; discriminate|]. lia.
Qed.

(** ** Masks *)
Fixpoint bits (l : list bool) : Z := match l with [] => 0 | b :: r => (if b then 1 else 0) + 2 * bits r end.
Definition mw (w : Z) (b : bool) : Z := if b then 2 ^ w - 1 else 0.

Lemma bits_range l : 0 <= bits l < 2 ^ Z.of_nat (length l).
Proof.
  induction l as [|b l IH]; [cbn; lia|]. cbn [bits length]. rewrite Nat2Z.inj_succ, Z.pow_succ_r by lia. destruct b; lia.
Qed.
Lemma bits_testbit l : forall k, Z.testbit (bits l) (Z.of_nat k) = nth k l false.
Proof.
  induction l as [|b l IH]; intros k.
  - cbn [bits]. rewrite Z.bits_0. now destruct k.
  - cbn [bits]. replace ((if b then 1 else 0) + 2 * bits l) with (2 * bits l + Z.b2z b) by (destruct b; cbn [Z.b2z]; ring).
    destruct k as [|k].
    + change (Z.of_nat 0) with 0. rewrite Z.testbit_0_r. reflexivity.
    + rewrite Nat2Z.inj_succ, Z.testbit_succ_r by lia. apply IH.
Qed.
Lemma bits_zero l : bits l = 0 -> forall k, nth k l false = false.
Proof. intros H k. rewrite <- bits_testbit, H. apply Z.bits_0. Qed.
Lemma bits_first l r : zeros_below (bits l) r -> nth (Z.to_nat r) l false = true /\
  forall j, (j < Z.to_nat r)%nat -> nth j l false = false.
Proof.
  intros (A & B & C). split.
  - rewrite <- bits_testbit, Z2Nat.id by lia. exact B.
  - intros j Hj. rewrite <- bits_testbit. apply C. lia.
Qed.

Lemma movemask_bits w l : 0 < w -> movemask w (map (mw w) l) = bits l.
Proof.
  intros Hw. induction l as [|b l IH]; [reflexivity|]. cbn [map movemask bits]. rewrite IH. f_equal.
  unfold mw. destruct b.
  - rewrite Z.sub_1_r, <- Z.ones_equiv, Z.ones_spec_low by lia. reflexivity.
  - now rewrite Z.bits_0.
Qed.
Lemma packs32_map a b : packs32 (map (mw 32) a) (map (mw 32) b) = map (mw 16) (a ++ b).
Proof. unfold packs32. rewrite <- map_app, map_map. apply map_ext. now intros []. Qed.
Lemma packs16_map a b : packs16 (map (mw 16) a) (map (mw 16) b) = map (mw 8) (a ++ b).
Proof. unfold packs16. rewrite <- map_app, map_map. apply map_ext. now intros []. Qed.
Definition dup (l : list bool) : list bool := flat_map (fun b => [b; b]) l.
Lemma bytes_map a : bytes_of16 (map (mw 16) a) = map (mw 8) (dup a).
Proof.
  induction a as [|b a IH]; [reflexivity|]. unfold bytes_of16, dup in *. cbn [map flat_map]. rewrite IH. now destruct b.
Qed.
Lemma dup_nth l : forall k, nth k (dup l) false = nth (k / 2) l false.
Proof.
  induction l as [|b l IH]; intros k.
  - assert (N : forall n, nth n (@nil bool) false = false) by (now intros []). now rewrite !N.
  - unfold dup in *. cbn [flat_map app]. destruct k as [|[|k]]; [reflexivity|reflexivity|].
    cbn [nth]. rewrite IH. replace (S (S k) / 2)%nat with (S (k / 2)) by lia. reflexivity.
Qed.

(** ** Blocks *)
Section Find.
  Variables (addr : Z) (addrs : list Z).
  Definition hit (j : nat) : bool := match nth_error addrs j with Some a => a =? addr | None => false end.
  Definition hits (pos n : nat) : list bool := map (fun i => hit (pos + i)) (seq 0 n).

  Lemma hits_nth pos n k : nth k (hits pos n) false = if (k <? n)%nat then hit (pos + k) else false.
  Proof.
    unfold hits. destruct (k <? n)%nat eqn:E.
    - rewrite (nth_indep _ false (hit (pos + n))) by (rewrite map_length, seq_length; lia).
      rewrite (map_nth (fun i => hit (pos + i)) (seq 0 n) n k), seq_nth by lia. reflexivity.
    - apply nth_overflow. rewrite map_length, seq_length. lia.
  Qed.
  Lemma in_range j : (j < length addrs)%nat -> exists p, nth_error addrs j = Some p /\ hit j = (p =? addr).
  Proof.
    intros H. unfold hit. destruct (nth_error addrs j) eqn:E; [eauto|]. apply nth_error_None in E. lia.
  Qed.

  (** the state after the main loop or a tail block: found first, or nothing before [pos] *)
  Definition good (st : nat + nat) : Prop :=
    match st with
    | inl p => hit p = true /\ forall j, (j < p)%nat -> hit j = false
    | inr p => forall j, (j < p)%nat -> hit j = false
    end.

  Definition block_ok (b : block) (len al : nat) (per : bool) : Prop := forall pos,
    (pos mod al = 0)%nat -> (pos + len <= length addrs)%nat ->
    b addrs pos = Some (bits (if per then dup (hits pos len) else hits pos len)).

  Lemma found_in pos len (per : bool) :
    (len <= 16)%nat -> bits (if per then dup (hits pos len) else hits pos len) <> 0 ->
    good (inr pos) ->
    good (inl (pos + Z.to_nat (count_trailing_zeros (bits (if per then dup (hits pos len) else hits pos len)) / (if per then 2 else 1)))%nat).
  Proof.
    intros Hlen Hne G. set (l := if per then dup (hits pos len) else hits pos len) in *.
    assert (Ll : (length l <= 32)%nat).
    { unfold l. destruct per.
      - unfold dup. rewrite flat_map_concat_map. rewrite <- (map_length (fun b : bool => b)).
        assert (H : forall l : list bool, length (flat_map (fun b => [b; b]) l) = (2 * length l)%nat)
          by (induction l0 as [|x l0 IH]; cbn [flat_map app length]; lia).
        rewrite map_id, <- flat_map_concat_map, H. unfold hits. rewrite map_length, seq_length. lia.
      - unfold hits. rewrite map_length, seq_length. lia. }
    assert (R := bits_range l).
    assert (R2 : 2 ^ Z.of_nat (length l) <= 2 ^ 32) by (apply Z.pow_le_mono_r; lia).
    assert (Z0 : zeros_below (bits l) (count_trailing_zeros (bits l))) by (apply ctz_ok; lia).
    destruct (bits_first _ _ Z0) as [A B].
    assert (Hr : 0 <= count_trailing_zeros (bits l)) by apply Z0.
    set (r := count_trailing_zeros (bits l)) in *.
    assert (Hnth : forall k, nth k l false = nth (if per then k / 2 else k)%nat (hits pos len) false).
    { intros k. unfold l. destruct per; [apply dup_nth | reflexivity]. }
    set (q := Z.to_nat (r / (if per then 2 else 1))).
    assert (Hq : q = if per then (Z.to_nat r / 2)%nat else Z.to_nat r).
    { unfold q. destruct per; lia. }
    simpl in G. split.
    - rewrite Hnth in A. replace (if per then (Z.to_nat r / 2)%nat else Z.to_nat r) with q in A.
      rewrite hits_nth in A. destruct (q <? len)%nat; [exact A | discriminate].
    - intros j Hj. destruct (lt_dec j pos) as [L|L]; [now apply G|].
      assert (Hj2 : (j - pos < q)%nat) by lia.
      assert (E : nth (j - pos) (hits pos len) false = false).
      { destruct per.
        - specialize (B (2 * (j - pos))%nat). rewrite Hnth in B. replace (2 * (j - pos) / 2)%nat with (j - pos)%nat in B by lia.
          apply B. lia.
        - specialize (B (j - pos)%nat). rewrite Hnth in B. apply B. lia. }
      rewrite hits_nth in E. replace (pos + (j - pos))%nat with j in E by lia.
      destruct (j - pos <? len)%nat eqn:EL; [exact E|].
      (* beyond the block: impossible, the hit is inside *)
      rewrite Hnth in A. replace (if per then (Z.to_nat r / 2)%nat else Z.to_nat r) with q in A.
      rewrite hits_nth in A. destruct (q <? len)%nat eqn:EQ; [lia | discriminate].
  Qed.
  Lemma none_in pos len (per : bool) :
    bits (if per then dup (hits pos len) else hits pos len) = 0 -> good (inr pos) -> good (inr (pos + len)%nat).
  Proof.
    intros H0 G j Hj. simpl in G. destruct (lt_dec j pos) as [L|L]; [now apply G|].
    assert (E : nth (j - pos) (hits pos len) false = false).
    { destruct per.
      - assert (X := bits_zero _ H0 (2 * (j - pos))%nat). rewrite dup_nth in X.
        replace (2 * (j - pos) / 2)%nat with (j - pos)%nat in X by lia. exact X.
      - apply (bits_zero _ H0). }
    rewrite hits_nth in E. replace (pos + (j - pos))%nat with j in E by lia.
    destruct (j - pos <? len)%nat eqn:EL; [exact E | lia].
  Qed.

  Lemma scan16_ok b al m : (16 mod al = 0)%nat -> (al <> 0)%nat ->
    block_ok b 16 al false -> (m mod 16 = 0)%nat -> (m <= length addrs)%nat ->
    forall fuel pos, (pos mod 16 = 0)%nat -> (pos <= m)%nat -> (m - pos <= 16 * fuel)%nat -> good (inr pos) ->
    exists st, scan16 b addrs fuel pos m = Some st /\ good st /\ (forall p, st = inr p -> p = m).
  Proof.
    intros Hal Hal0 Hb Hm Hlen. induction fuel as [|fuel IH]; intros pos Hp Hle Hf G.
    - assert (pos = m) by lia. subst pos. cbn [scan16]. rewrite Nat.ltb_irrefl.
      exists (inr m). split; [reflexivity|]. split; auto. now intros p [= <-].
    - cbn [scan16]. destruct (pos <? m)%nat eqn:E.
      + assert (Hpal : (pos mod al = 0)%nat).
        { assert (exists q, pos = 16 * q)%nat as [q ->] by (exists (pos / 16)%nat; lia).
          apply Nat.mod_divides in Hal; auto. destruct Hal as [c Hc]. apply Nat.mod_divides; auto.
          exists (c * q)%nat. rewrite Hc. lia. }
        rewrite (Hb pos Hpal) by lia. cbn [obind].
        destruct (bits (hits pos 16) =? 0) eqn:E0.
        * apply Z.eqb_eq in E0. apply IH; try lia. now apply (none_in pos 16 false).
        * apply Z.eqb_neq in E0. eexists. split; [reflexivity|]. split; [|discriminate].
          pose proof (found_in pos 16 false ltac:(lia) E0 G) as F. cbn [good] in F |- *.
          rewrite Z.div_1_r in F. exact F.
      + assert (pos = m) by lia. subst pos. exists (inr m). split; [reflexivity|]. split; auto. now intros p [= <-].
  Qed.

  Lemma tail_ok b len al (per : bool) cond st : (len <= 16)%nat -> block_ok b len al per -> good st ->
    (forall p, st = inr p -> cond = true -> (p mod al = 0)%nat /\ (p + len <= length addrs)%nat) ->
    exists st', tail b addrs cond (if per then 2 else 1) len st = Some st' /\ good st' /\
      (forall p', st' = inr p' -> exists p, st = inr p /\ p' = if cond then (p + len)%nat else p).
  Proof.
    intros Hlen Hb G Hc. destruct st as [p|p]; cbn [tail].
    - exists (inl p). split; [reflexivity|]. split; auto. discriminate.
    - destruct cond.
      + destruct (Hc p eq_refl eq_refl) as [H1 H2]. rewrite (Hb p H1 H2). cbn [obind].
        destruct (_ =? 0) eqn:E0.
        * apply Z.eqb_eq in E0. eexists. split; [reflexivity|]. split; [now apply none_in in E0|].
          intros p' [= <-]. eauto.
        * apply Z.eqb_neq in E0. eexists. split; [reflexivity|]. split; [|discriminate]. now apply found_in.
      + exists (inr p). split; [reflexivity|]. split; auto. intros p' [= <-]. eauto.
  Qed.

  (** ** The result *)
  Definition finds (size : nat) (pos : nat) : Prop :=
    ((pos < size)%nat -> first_at addr (firstn size addrs) pos) /\ ((size <= pos)%nat -> ~ In addr (firstn size addrs)).

  Lemma hit_spec j : hit j = true <-> nth_error addrs j = Some addr.
  Proof.
    unfold hit. destruct (nth_error addrs j) as [a|]; [|split; discriminate].
    rewrite Z.eqb_eq. split; [now intros -> | now intros [= ->]].
  Qed.
  Lemma hit_false j : hit j = false <-> nth_error addrs j <> Some addr.
  Proof. rewrite <- hit_spec. destruct (hit j); intuition congruence. Qed.
  Lemma nth_firstn_lt {A} (l : list A) : forall n j, (j < n)%nat -> nth_error (firstn n l) j = nth_error l j.
  Proof.
    induction l as [|x l IH]; intros n j H; [now rewrite firstn_nil|].
    destruct n as [|n]; [lia|]. destruct j as [|j]; [reflexivity|]. cbn. apply IH. lia.
  Qed.

  Lemma good_finds size st : (size <= length addrs)%nat -> good st -> (forall p, st = inr p -> (size <= p)%nat) -> finds size (at_pos st).
  Proof.
    intros Hs G Hp. split.
    - intros H. destruct st as [p|p]; [|specialize (Hp p eq_refl); simpl in H; lia]. simpl in *. destruct G as [G1 G2].
      split.
      + rewrite nth_firstn_lt by auto. now apply hit_spec.
      + intros j Hj. rewrite nth_firstn_lt by lia. now apply hit_false, G2.
    - intros H Hin. apply In_nth_error in Hin. destruct Hin as [j Hj].
      assert (Hjs : (j < size)%nat).
      { assert (X : (j < length (firstn size addrs))%nat) by (apply nth_error_Some; congruence).
        rewrite firstn_length in X. lia. }
      rewrite nth_firstn_lt in Hj by auto. apply hit_spec in Hj.
      destruct st as [p|p]; simpl in *.
      + destruct G as [_ G]. rewrite G in Hj by lia. discriminate.
      + rewrite G in Hj by (specialize (Hp p eq_refl); lia). discriminate.
  Qed.

  Lemma generic_ok size : (size <= length addrs)%nat -> exists pos, find_address_generic addr addrs size = Some pos /\ finds size pos /\ (pos <= size)%nat.
  Proof.
    intros Hs. unfold find_address_generic.
    assert (X : forall n i, (i + n = size)%nat -> good (inr i) ->
      exists st, generic_from addr addrs i n = Some (at_pos st) /\ good st /\ (forall p, st = inr p -> p = size) /\ (at_pos st <= size)%nat).
    { induction n as [|n IH]; intros i E G.
      - exists (inr i). cbn. split; [reflexivity|]. split; [exact G|]. split; [intros p [= <-]; lia | lia].
      - cbn [generic_from]. destruct (in_range i) as (p & A & B); [lia|]. rewrite A.
        destruct (p =? addr) eqn:Ep.
        + exists (inl i). split; [reflexivity|]. split; [|split; [discriminate|cbn; lia]]. split; [congruence|exact G].
        + apply IH; [lia|]. intros j Hj. destruct (Nat.eq_dec j i) as [->|]; [congruence|]. apply G. lia. }
    destruct (X size O) as (st & A & B & C & D); [lia | intros j Hj; lia |].
    exists (at_pos st). split; [exact A|]. split; [|exact D]. apply good_finds; auto.
    intros p Hp. specialize (C p Hp). lia.
  Qed.

  Lemma find64_ok b16 b8 b4 b2 size :
    block_ok b16 16 2 false -> block_ok b8 8 2 true -> block_ok b4 4 2 false -> block_ok b2 2 2 false ->
    (length addrs mod 2 = 0)%nat -> (size <= length addrs)%nat ->
    exists pos, find64 b16 b8 b4 b2 addr addrs size = Some pos /\ finds size pos.
  Proof.
    intros H16 H8 H4 H2 Hev Hs. unfold find64.
    destruct (size <? 12)%nat.
    { destruct (generic_ok size Hs) as (pos & A & B & _). eauto. }
    set (n := ((size + 1) / 2 * 2)%nat). set (m := (n / 16 * 16)%nat).
    assert (Hn : (size <= n /\ n <= length addrs /\ n mod 2 = 0)%nat) by lia.
    assert (Hm : (m mod 16 = 0 /\ m <= n < m + 16)%nat) by lia.
    clearbody m. clearbody n.
    destruct (scan16_ok b16 2 m) with (fuel := (m / 16)%nat) (pos := O) as (s0 & E0 & G0 & P0); auto; try lia.
    { intros j Hj. lia. }
    rewrite E0. cbn [obind].
    destruct (tail_ok b8 8 2 true (8 <=? n - at_pos s0)%nat s0) as (s1 & E1 & G1 & P1); auto; try lia.
    { intros p -> Hc. specialize (P0 p eq_refl). cbn [at_pos] in Hc. lia. }
    cbn [obind] in E1 |- *. rewrite E1. cbn [obind].
    assert (Q1 : forall p, s1 = inr p -> (p mod 2 = 0 /\ m <= p <= n /\ n < p + 8)%nat).
    { intros p Hp. destruct (P1 p Hp) as (p0 & -> & ->). specialize (P0 p0 eq_refl). subst p0. cbn [at_pos].
      destruct (8 <=? n - m)%nat eqn:E; lia. }
    destruct (tail_ok b4 4 2 false (4 <=? n - at_pos s1)%nat s1) as (s2 & E2 & G2 & P2); auto; try lia.
    { intros p -> Hc. specialize (Q1 p eq_refl). cbn [at_pos] in Hc. lia. }
    rewrite E2. cbn [obind].
    assert (Q2 : forall p, s2 = inr p -> (p mod 2 = 0 /\ m <= p <= n /\ n < p + 4)%nat).
    { intros p Hp. destruct (P2 p Hp) as (p0 & -> & ->). specialize (Q1 p0 eq_refl). cbn [at_pos].
      destruct (4 <=? n - p0)%nat eqn:E; lia. }
    destruct (tail_ok b2 2 2 false (at_pos s2 <? n)%nat s2) as (s3 & E3 & G3 & P3); auto; try lia.
    { intros p -> Hc. specialize (Q2 p eq_refl). cbn [at_pos] in Hc. lia. }
    rewrite E3. cbn [obind]. exists (at_pos s3). split; [reflexivity|]. apply good_finds; auto.
    intros p Hp. destruct (P3 p Hp) as (p0 & -> & ->). specialize (Q2 p0 eq_refl). cbn [at_pos].
    destruct (p0 <? n)%nat eqn:E; lia.
  Qed.

  (** ** 64-bit pointers *)
    Lemma halves_eq p : (p mod 2 ^ 32 =? addr mod 2 ^ 32) && (p / 2 ^ 32 =? addr / 2 ^ 32) = (p =? addr).
    Proof. lia. Qed.

    Lemma load64_ok pos : (pos mod 2 = 0)%nat -> (pos + 2 <= length addrs)%nat ->
      exists p q, load64 addrs pos = Some (halves p ++ halves q) /\ hit pos = (p =? addr) /\ hit (pos + 1) = (q =? addr).
    Proof.
      intros He Hl. unfold load64. replace ((8 * Z.of_nat pos) mod 16 =? 0) with true by lia.
      destruct (in_range pos) as (p & A & B); [lia|]. destruct (in_range (pos + 1)) as (q & C & D); [lia|].
      exists p, q. rewrite A, C. auto.
    Qed.

    Lemma cmp41_ok pos : (pos mod 2 = 0)%nat -> (pos + 2 <= length addrs)%nat ->
      cmp41 addr addrs pos = Some (map (mw 32) [hit pos; hit pos; hit (pos + 1); hit (pos + 1)]).
    Proof.
      intros He Hl. destruct (load64_ok pos He Hl) as (p & q & A & B & C). unfold cmp41. rewrite A. cbn [obind].
      f_equal. rewrite B, C. unfold set1_epiptr, halves. cbn [app cmpeq64]. rewrite !halves_eq.
      destruct (p =? addr), (q =? addr); reflexivity.
    Qed.
    Lemma two41_ok pos : (pos mod 2 = 0)%nat -> (pos + 4 <= length addrs)%nat ->
      two41 addr addrs pos = Some (map (mw 32) (hits pos 4)).
    Proof.
      intros He Hl. unfold two41. rewrite !cmp41_ok by lia. cbn [obind]. unfold shuffle_ps, hits. cbn [map nth seq].
      rewrite <- Nat.add_assoc, Nat.add_0_r. reflexivity.
    Qed.

    Lemma cmp2_ok pos : (pos mod 2 = 0)%nat -> (pos + 2 <= length addrs)%nat ->
      exists a b c d, cmp2 addr addrs pos = Some (map (mw 32) [a; b; c; d]) /\ a && b = hit pos /\ c && d = hit (pos + 1).
    Proof.
      intros He Hl. destruct (load64_ok pos He Hl) as (p & q & A & B & C). unfold cmp2. rewrite A. cbn [obind].
      exists (p mod 2 ^ 32 =? addr mod 2 ^ 32), (p / 2 ^ 32 =? addr / 2 ^ 32),
             (q mod 2 ^ 32 =? addr mod 2 ^ 32), (q / 2 ^ 32 =? addr / 2 ^ 32).
      rewrite !halves_eq, B, C. split; [reflexivity | auto].
    Qed.
    Lemma mw_and w a b : Z.land (mw w a) (mw w b) = mw w (a && b).
    Proof. destruct a, b; cbn [mw andb]; rewrite ?Z.land_diag, ?Z.land_0_r; reflexivity. Qed.
    Lemma two2_ok pos : (pos mod 2 = 0)%nat -> (pos + 4 <= length addrs)%nat ->
      two2 addr addrs pos = Some (map (mw 32) (hits pos 4)).
    Proof.
      intros He Hl. unfold two2.
      destruct (cmp2_ok pos) as (a & b & c & d & E1 & E2 & E3); [lia|lia|].
      destruct (cmp2_ok (pos + 2)) as (a' & b' & c' & d' & E1' & E2' & E3'); [lia|lia|].
      rewrite E1, E1'. cbn [obind]. f_equal. unfold pand, shuffle_ps, hits. cbn [map nth seq combine fst snd].
      rewrite !mw_and. rewrite E2, E3, E2', E3'. rewrite <- Nat.add_assoc, Nat.add_0_r. reflexivity.
    Qed.

    Lemma hits_app pos n k : hits pos n ++ hits (pos + n) k = hits pos (n + k).
    Proof.
      unfold hits. rewrite seq_app, map_app. f_equal. cbn [plus].
      replace (seq n k) with (map (plus n) (seq 0 k)).
      { rewrite map_map. apply map_ext. intros i. f_equal. lia. }
      clear. rewrite <- (Nat.add_0_r n) at 2. generalize O. induction k as [|k IH]; intros s; [reflexivity|].
      cbn [seq map]. f_equal. rewrite IH. f_equal. lia.
    Qed.

    Lemma wide_blocks (two : Z -> list Z -> nat -> option (list Z)) :
      (forall pos, (pos mod 2 = 0)%nat -> (pos + 4 <= length addrs)%nat -> two addr addrs pos = Some (map (mw 32) (hits pos 4))) ->
      block_ok (fun addrs pos => mm1 <-? two addr addrs pos ;; mm3 <-? two addr addrs (pos + 4)%nat ;;
        mm5 <-? two addr addrs (pos + 8)%nat ;; mm7 <-? two addr addrs (pos + 12)%nat ;;
        Some (movemask 8 (packs16 (packs32 mm1 mm3) (packs32 mm5 mm7)))) 16 2 false /\
      block_ok (fun addrs pos => mm1 <-? two addr addrs pos ;; mm3 <-? two addr addrs (pos + 4)%nat ;;
        Some (movemask 8 (bytes_of16 (packs32 mm1 mm3)))) 8 2 true /\
      block_ok (fun addrs pos => mm1 <-? two addr addrs pos ;; Some (movemask 32 mm1)) 4 2 false.
    Proof.
      intros H. refine (conj _ (conj _ _)); intros pos He Hl.
      - rewrite !H by lia. cbn [obind]. rewrite !packs32_map, packs16_map, movemask_bits by lia. do 2 f_equal.
        rewrite (hits_app pos 4 4). replace (pos + 12)%nat with (pos + 8 + 4)%nat by lia.
        rewrite (hits_app (pos + 8) 4 4). change (4 + 4)%nat with 8%nat. now rewrite (hits_app pos 8 8).
      - rewrite !H by lia. cbn [obind]. rewrite !packs32_map, bytes_map, movemask_bits by lia. do 3 f_equal.
        now rewrite (hits_app pos 4 4).
      - rewrite H by lia. cbn [obind]. now rewrite movemask_bits by lia.
    Qed.

    Lemma sse41_ok size : (length addrs mod 2 = 0)%nat -> (size <= length addrs)%nat ->
      exists pos, find_address_sse41 addr addrs size = Some pos /\ finds size pos.
    Proof.
      destruct (wide_blocks two41 two41_ok) as (A & B & C). intros He Hs. apply find64_ok; auto.
      intros pos Hp Hl. unfold block2_41. rewrite cmp41_ok by lia. cbn [obind]. f_equal. unfold movemask_pd, hits.
      cbn [map nth seq]. rewrite Nat.add_0_r. rewrite <- (movemask_bits 32) by lia. reflexivity.
    Qed.
    Lemma sse2_64_ok size : (length addrs mod 2 = 0)%nat -> (size <= length addrs)%nat ->
      exists pos, find_address_sse2_64 addr addrs size = Some pos /\ finds size pos.
    Proof.
      destruct (wide_blocks two2 two2_ok) as (A & B & C). intros He Hs. apply find64_ok; auto.
      intros pos Hp Hl. unfold block2_2. destruct (cmp2_ok pos) as (a & b & c & d & E1 & E2 & E3); [lia|lia|].
      rewrite E1. cbn [obind]. f_equal. unfold movemask_pd, pand, shuffle_epi32, hits. cbn [map nth seq combine fst snd].
      rewrite !mw_and. rewrite E2, E3. rewrite Nat.add_0_r. rewrite <- (movemask_bits 32) by lia. reflexivity.
    Qed.

  (** ** 32-bit pointers *)
  Lemma cmp32_ok pos : (pos mod 4 = 0)%nat -> (pos + 4 <= length addrs)%nat ->
    cmp32 addr addrs pos = Some (map (mw 32) (hits pos 4)).
  Proof.
    intros He Hl. unfold cmp32, load32. replace ((4 * Z.of_nat pos) mod 16 =? 0) with true by lia.
    destruct (in_range pos) as (p & A & B); [lia|]. destruct (in_range (pos + 1)) as (q & A1 & B1); [lia|].
    destruct (in_range (pos + 2)) as (r & A2 & B2); [lia|]. destruct (in_range (pos + 3)) as (s & A3 & B3); [lia|].
    rewrite A, A1, A2, A3. cbn [obind]. f_equal. unfold hits, cmpeq32. cbn [map seq combine fst snd].
    rewrite Nat.add_0_r, B, B1, B2, B3. reflexivity.
  Qed.
  Lemma sse2_32_ok size : (length addrs mod 4 = 0)%nat -> (size <= length addrs)%nat ->
    exists pos, find_address_sse2_32 addr addrs size = Some pos /\ finds size pos.
  Proof.
    intros Hev Hs. unfold find_address_sse2_32.
    destruct (size <? 10)%nat.
    { destruct (generic_ok size Hs) as (pos & A & B & _). eauto. }
    assert (H16 : block_ok (block16_32 addr) 16 4 false).
    { intros pos He Hl. unfold block16_32. rewrite !cmp32_ok by lia. cbn [obind].
      rewrite !packs32_map, packs16_map, movemask_bits by lia. do 2 f_equal.
      rewrite (hits_app pos 4 4). replace (pos + 12)%nat with (pos + 8 + 4)%nat by lia.
      rewrite (hits_app (pos + 8) 4 4). change (4 + 4)%nat with 8%nat. now rewrite (hits_app pos 8 8). }
    assert (H8 : block_ok (block8_32 addr) 8 4 true).
    { intros pos He Hl. unfold block8_32. rewrite !cmp32_ok by lia. cbn [obind].
      rewrite !packs32_map, bytes_map, movemask_bits by lia. do 3 f_equal. now rewrite (hits_app pos 4 4). }
    assert (H4 : block_ok (block4_32 addr) 4 4 false).
    { intros pos He Hl. unfold block4_32. rewrite cmp32_ok by lia. cbn [obind]. now rewrite movemask_bits by lia. }
    set (n := ((size + 3) / 4 * 4)%nat). set (m := (n / 16 * 16)%nat).
    assert (Hn : (size <= n /\ n <= length addrs /\ n mod 4 = 0)%nat) by lia.
    assert (Hm : (m mod 16 = 0 /\ m <= n < m + 16)%nat) by lia.
    clearbody m. clearbody n.
    destruct (scan16_ok (block16_32 addr) 4 m) with (fuel := (m / 16)%nat) (pos := O) as (s0 & E0 & G0 & P0); auto; try lia.
    { intros j Hj. lia. }
    rewrite E0. cbn [obind].
    destruct (tail_ok (block8_32 addr) 8 4 true (8 <=? n - at_pos s0)%nat s0) as (s1 & E1 & G1 & P1); auto; try lia.
    { intros p -> Hc. specialize (P0 p eq_refl). cbn [at_pos] in Hc. lia. }
    cbn [obind] in E1 |- *. rewrite E1. cbn [obind].
    assert (Q1 : forall p, s1 = inr p -> (p mod 4 = 0 /\ m <= p <= n /\ n < p + 8)%nat).
    { intros p Hp. destruct (P1 p Hp) as (p0 & -> & ->). specialize (P0 p0 eq_refl). subst p0. cbn [at_pos].
      destruct (8 <=? n - m)%nat eqn:E; lia. }
    destruct (tail_ok (block4_32 addr) 4 4 false (at_pos s1 <? n)%nat s1) as (s2 & E2 & G2 & P2); auto; try lia.
    { intros p -> Hc. specialize (Q1 p eq_refl). cbn [at_pos] in Hc. lia. }
    rewrite E2. cbn [obind]. exists (at_pos s2). split; [reflexivity|]. apply good_finds; auto.
    intros p Hp. destruct (P2 p Hp) as (p0 & -> & ->). specialize (Q1 p0 eq_refl). cbn [at_pos].
    destruct (p0 <? n)%nat eqn:E; lia.
  Qed.
End Find.

(** ** All versions *)
Lemma pow2_even k : ((2 * 2 ^ k) mod 2 = 0)%nat.
Proof. rewrite Nat.mul_comm. now apply Nat.mod_mul. Qed.
Lemma pow2_four k : ((4 * 2 ^ k) mod 4 = 0)%nat.
Proof. rewrite Nat.mul_comm. now apply Nat.mod_mul. Qed.

Lemma versions64_ok k addr addrs size find : length addrs = (2 * 2 ^ k)%nat -> (size <= length addrs)%nat ->
  In find (versions64) -> exists pos, find addr addrs size = Some pos /\ finds addr addrs size pos.
Proof.
  intros Hk Hs Hin.
  assert (He : (length addrs mod 2 = 0)%nat) by (rewrite Hk; apply pow2_even).
  assert (G := generic_ok addr addrs size Hs). assert (A := sse2_64_ok addr addrs size He Hs).
  assert (B := sse41_ok addr addrs size He Hs).
  assert (G' : exists pos, find_address_generic addr addrs size = Some pos /\ finds addr addrs size pos)
    by (destruct G as (pos & X & Y & _); eauto).
  cbn [versions64 In] in Hin. unfold find_address_dispatch in Hin. intuition (subst; auto).
Qed.
Lemma versions32_ok k addr addrs size find : length addrs = (4 * 2 ^ k)%nat -> (size <= length addrs)%nat ->
  In find (versions32) -> exists pos, find addr addrs size = Some pos /\ finds addr addrs size pos.
Proof.
  intros Hk Hs Hin.
  assert (He : (length addrs mod 4 = 0)%nat) by (rewrite Hk; apply pow2_four).
  assert (G := generic_ok addr addrs size Hs). assert (A := sse2_32_ok addr addrs size He Hs).
  assert (G' : exists pos, find_address_generic addr addrs size = Some pos /\ finds addr addrs size pos)
    by (destruct G as (pos & X & Y & _); eauto).
  cbn [versions32 In] in Hin. unfold find_address_dispatch_32 in Hin. intuition (subst; auto).
Qed.

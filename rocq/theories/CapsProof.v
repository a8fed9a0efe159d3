(** * Proofs about lock-free reporting and native waits. *)
From Coq Require Import ZArith List Bool Lia.
Require Import Verif.SpecCaps Verif.BytesModel Verif.CapsModel.
Import ListNotations.
Open Scope Z_scope.

Definition known (n : Z) : Prop := n = 1 \/ n = 2 \/ n = 4 \/ n = 8 \/ n = 16.

Lemma known_size_iff : forall n, known_size n = true <-> known n.
Proof.
  intros n; unfold known_size, known; rewrite !orb_true_iff, !Z.eqb_eq; tauto.
Qed.

(** ** The processor's macros *)
(** The assembler has 0: nothing, 1: up to 4 bytes, 2: up to 8, 3: up to 16. *)
Definition arch_rank (t : target) : Z :=
  match arch t with
  | None => 0
  | Some p => match arch_macro p 16, arch_macro p 8 with
              | Some _, _ => 3
              | None, Some _ => 2
              | None, None => 1
              end
  end.

Lemma arch_macro_of_rank : forall t n, known n ->
  arch_macro_of t n =
  if (n =? 16) && (arch_rank t =? 3) || (n =? 8) && (2 <=? arch_rank t) ||
     ((n =? 1) || (n =? 2) || (n =? 4)) && (1 <=? arch_rank t) then Some 2 else None.
Proof.
  intros t n Hn; unfold arch_macro_of, arch_rank.
  destruct (arch t) as [p|]; [|destruct Hn as [-> | [-> | [-> | [-> | ->]]]]; reflexivity].
  destruct p as [m a b c d e| | |l a b c d|a b| | | |a b c d e]; destruct Hn as [-> | [-> | [-> | [-> | ->]]]];
    try reflexivity; cbv [arch_macro when has_cmpxchg8b has_cmpxchg16b arm_ldrexd Z.eqb Pos.eqb orb andb negb];
    repeat match goal with
           | |- context [match ?x with _ => _ end] => is_var x; destruct x
           end; reflexivity.
Qed.

Lemma arch_rank_range : forall t, arch_rank t = 0 \/ arch_rank t = 1 \/ arch_rank t = 2 \/ arch_rank t = 3.
Proof.
  intros t; unfold arch_rank; destruct (arch t) as [p|]; auto.
  destruct (arch_macro p 16); auto; destruct (arch_macro p 8); auto.
Qed.

Lemma arch_storage_rank : forall t n, known n ->
  match arch t with
  | None => default_class t n = Impl LockPool n
  | Some p => match arch_macro p n with
              | Some v => v = 2 /\ exists s, default_class t n = Impl Assembler s /\ known s /\ n <= s /\
                                            (s = n \/ n < 4 /\ s = 4)
              | None => default_class t n = Impl LockPool n
              end
  end.
Proof.
  intros t n Hn; unfold default_class; destruct (arch t) as [p|]; [|reflexivity].
  destruct p as [m a b c d e| | |l a b c d|a b| | | |a b c d e]; destruct Hn as [-> | [-> | [-> | [-> | ->]]]];
    cbv [arch_macro arch_storage when has_cmpxchg8b has_cmpxchg16b arm_ldrexb arm_ldrexh arm_ldrexd
         Z.eqb Pos.eqb orb andb negb];
    repeat match goal with
           | |- context [match ?x with _ => _ end] => is_var x; destruct x
           end;
    try reflexivity; (split; [reflexivity|]); eexists; (split; [reflexivity|]); unfold known; lia.
Qed.

(** ** __atomic intrinsics *)
Definition gcc_macro (t : target) (n : Z) : Z :=
  if n =? 1 then gcc_macro1 t else if n =? 2 then gcc_macro2 t
  else if n =? 4 then gcc_macro4 t else if n =? 8 then gcc_macro8 t
  else if n =? 16 then gcc_macro16 t else 0.

Lemma level_of_size_range : forall t n, sane t -> 0 <= level_of_size t n <= 2.
Proof.
  intros t n (_ & _ & _ & R & _); unfold level_of_size.
  repeat match goal with |- context [if ?b then _ else _] => destruct b end; try apply R; lia.
Qed.

Lemma gcc_level_range : forall t n, sane t -> gcc_level t n = 0 \/ gcc_level t n = 1 \/ gcc_level t n = 2.
Proof.
  intros t n S; pose proof (level_of_size_range t n S); unfold gcc_level.
  repeat match goal with |- context [if ?b then _ else _] => destruct b end; lia.
Qed.

Definition chosen (t : target) (n : Z) (i : implementation) : Prop :=
  (exists s, i = Impl CompilerAtomic s /\ known s /\ n <= s /\ gcc_macro t n > 0 /\ gcc_level t s >= gcc_macro t n) \/
  (i = default_class t n /\ (gcc_macro t n = 0 /\ arch_macro_of t n = None \/
                             gcc_macro t n = 2 /\ arch_macro_of t n = Some 2)).

Lemma raise_max : forall o n, 0 <= n -> raise o n = Z.max (orelse o) n.
Proof.
  intros [v|] n H; cbn [raise orelse]; [destruct (Z.ltb_spec v n)|]; lia.
Qed.
Lemma raise2_max : forall o a b, 0 <= a -> 0 <= b -> raise2 o a b = Z.max (orelse o) (Z.max a b).
Proof.
  intros [v|] a b Ha Hb; cbn [raise2 orelse]; rewrite Z.geb_leb;
    [destruct (Z.ltb_spec v a); destruct (Z.ltb_spec v b)|]; destruct (Z.leb_spec b a); cbn [orb]; lia.
Qed.

Lemma gcc_level_nonneg : forall t n, sane t -> 0 <= gcc_level t n.
Proof.
  intros t n S; destruct (gcc_level_range t n S) as [-> | [-> | ->]]; lia.
Qed.
Lemma gcc_macro16_max : forall t, sane t ->
  gcc_macro16 t = Z.max (orelse (arch_macro_of t 16)) (gcc_level t 16).
Proof.
  intros t S; apply raise_max; apply gcc_level_nonneg; exact S.
Qed.
Lemma gcc_macro16_nonneg : forall t, sane t -> 0 <= gcc_macro16 t.
Proof.
  intros t S; rewrite (gcc_macro16_max t S); pose proof (gcc_level_nonneg t 16 S); lia.
Qed.
Lemma gcc_macro8_max : forall t, sane t ->
  gcc_macro8 t = Z.max (orelse (arch_macro_of t 8)) (Z.max (gcc_level t 8) (gcc_macro16 t)).
Proof.
  intros t S; apply raise2_max; [apply gcc_level_nonneg | apply gcc_macro16_nonneg]; exact S.
Qed.
Lemma gcc_macro8_nonneg : forall t, sane t -> 0 <= gcc_macro8 t.
Proof.
  intros t S; rewrite (gcc_macro8_max t S); pose proof (gcc_level_nonneg t 8 S); lia.
Qed.
Lemma gcc_macro4_max : forall t, sane t ->
  gcc_macro4 t = Z.max (orelse (arch_macro_of t 4)) (Z.max (gcc_level t 4) (gcc_macro8 t)).
Proof.
  intros t S; apply raise2_max; [apply gcc_level_nonneg | apply gcc_macro8_nonneg]; exact S.
Qed.
Lemma gcc_macro4_nonneg : forall t, sane t -> 0 <= gcc_macro4 t.
Proof.
  intros t S; rewrite (gcc_macro4_max t S); pose proof (gcc_level_nonneg t 4 S); lia.
Qed.
Lemma gcc_macro2_max : forall t, sane t ->
  gcc_macro2 t = Z.max (orelse (arch_macro_of t 2)) (Z.max (gcc_level t 2) (gcc_macro4 t)).
Proof.
  intros t S; apply raise2_max; [apply gcc_level_nonneg | apply gcc_macro4_nonneg]; exact S.
Qed.
Lemma gcc_macro2_nonneg : forall t, sane t -> 0 <= gcc_macro2 t.
Proof.
  intros t S; rewrite (gcc_macro2_max t S); pose proof (gcc_level_nonneg t 2 S); lia.
Qed.
Lemma gcc_macro1_max : forall t, sane t ->
  gcc_macro1 t = Z.max (orelse (arch_macro_of t 1)) (Z.max (gcc_level t 1) (gcc_macro2 t)).
Proof.
  intros t S; apply raise2_max; [apply gcc_level_nonneg | apply gcc_macro2_nonneg]; exact S.
Qed.

Lemma specialize_cases : forall t n m br,
  (specialize t n m br = [] /\ (m <= 0 \/ forall b, In b br -> gcc_level t (fst b) < m)) \/
  (exists b, specialize t n m br = [snd b] /\ In b br /\ m > 0 /\ gcc_level t (fst b) >= m).
Proof.
  intros t n m br; unfold specialize; destruct (Z.gtb_spec m 0) as [P | P]; [|left; split; [reflexivity | left; lia]].
  destruct (filter _ br) as [|b l] eqn:F.
  - left; split; [reflexivity|]; right; intros b Hb.
    destruct (Z.ltb_spec (gcc_level t (fst b)) m) as [L | L]; [exact L|].
    assert (I : In b []) by (rewrite <- F; apply filter_In; split; [exact Hb | rewrite Z.geb_leb; apply Z.leb_le; lia]).
    destruct I.
  - right; exists b.
    assert (I : In b (b :: l)) by (left; reflexivity).
    rewrite <- F in I; apply filter_In in I as [I1 I2]; rewrite Z.geb_leb in I2; apply Z.leb_le in I2.
    repeat split; [exact I1 | lia | lia].
Qed.

Definition branches (n : Z) : list (Z * specialization) :=
  if n =? 16 then [(16, For 16 16)]
  else if n =? 8 then [(8, For 8 8); (16, For 8 16)]
  else if n =? 4 then [(4, For 4 4); (8, For 4 8); (16, For 8 16)]
  else if n =? 2 then [(2, For 2 2); (4, For 2 4); (8, For 2 8); (16, For 2 16)]
  else [(1, For 1 1); (2, For 1 2); (4, For 1 4); (8, For 1 8); (16, For 1 16)].
Definition specs (t : target) (n : Z) : list specialization := specialize t n (gcc_macro t n) (branches n).

Lemma gcc_specializations_specs : forall t,
  gcc_specializations t = specs t 16 ++ specs t 8 ++ specs t 4 ++ specs t 2 ++ specs t 1.
Proof. reflexivity. Qed.

(** The macros grow towards smaller sizes. *)
Lemma gcc_macro_chain : forall t, sane t ->
  0 <= gcc_macro16 t <= gcc_macro8 t /\ gcc_macro8 t <= gcc_macro4 t /\
  gcc_macro4 t <= gcc_macro2 t /\ gcc_macro2 t <= gcc_macro1 t.
Proof.
  intros t S; rewrite (gcc_macro1_max t S).
  pose proof (gcc_macro2_max t S). pose proof (gcc_macro4_max t S). pose proof (gcc_macro8_max t S).
  pose proof (gcc_macro16_nonneg t S). lia.
Qed.
Lemma orelse_arch_le : forall t n, orelse (arch_macro_of t n) <= 2.
Proof.
  intros t n; unfold arch_macro_of; destruct (arch t) as [p|]; [|cbn; lia].
  unfold arch_macro, when; repeat match goal with |- context [if ?b then _ else _] => destruct b end; cbn; try lia;
    destruct p; cbn; try lia; repeat match goal with |- context [if ?b then _ else _] => destruct b end; cbn; lia.
Qed.
Lemma gcc_level_le : forall t n, sane t -> gcc_level t n <= 2.
Proof.
  intros t n S; destruct (gcc_level_range t n S) as [-> | [-> | ->]]; lia.
Qed.
Lemma gcc_macro1_le : forall t, sane t -> gcc_macro1 t <= 2.
Proof.
  intros t S; rewrite (gcc_macro1_max t S), (gcc_macro2_max t S), (gcc_macro4_max t S), (gcc_macro8_max t S),
    (gcc_macro16_max t S).
  pose proof (orelse_arch_le t 1). pose proof (orelse_arch_le t 2). pose proof (orelse_arch_le t 4).
  pose proof (orelse_arch_le t 8). pose proof (orelse_arch_le t 16).
  pose proof (gcc_level_le t 1 S). pose proof (gcc_level_le t 2 S). pose proof (gcc_level_le t 4 S).
  pose proof (gcc_level_le t 8 S). pose proof (gcc_level_le t 16 S). lia.
Qed.

Lemma specs_for : forall t n s, known n -> In s (specs t n) ->
  spec_for s = n \/ n = 4 /\ s = For 8 16 /\ gcc_macro4 t > 0 /\ gcc_level t 16 >= gcc_macro4 t.
Proof.
  intros t n s Hn Hs; unfold specs in Hs.
  destruct (specialize_cases t n (gcc_macro t n) (branches n)) as [(E & _) | (b & E & I & P & G)];
    rewrite E in Hs; [destruct Hs | destruct Hs as [<- | []]].
  destruct Hn as [-> | [-> | [-> | [-> | ->]]]]; cbn in I;
    repeat (destruct I as [<- | I]; [cbn in *; auto 6|]); destruct I.
Qed.

Lemma filter_none : forall (A : Type) (f : A -> bool) l, (forall x, In x l -> f x = false) -> filter f l = [].
Proof.
  intros A f l; induction l as [|x l IH]; intros H; [reflexivity|].
  cbn; rewrite (H x (or_introl eq_refl)); apply IH; intros y Hy; apply H; right; exact Hy.
Qed.
Lemma filter_all : forall (A : Type) (f : A -> bool) l, (forall x, In x l -> f x = true) -> filter f l = l.
Proof.
  intros A f l; induction l as [|x l IH]; intros H; [reflexivity|].
  cbn; rewrite (H x (or_introl eq_refl)); f_equal; apply IH; intros y Hy; apply H; right; exact Hy.
Qed.
Lemma repeated_app : forall l x l1 l2, l = x :: l1 ++ x :: l2 -> repeated l = true.
Proof.
  intros l x l1 l2 ->; cbn [repeated]; apply orb_true_iff; left; apply existsb_exists; exists x; split;
    [apply in_or_app; right; left; reflexivity | apply Z.eqb_refl].
Qed.
Lemma repeated_tail : forall l l', repeated l' = true -> repeated (l ++ l') = true.
Proof.
  induction l as [|x l IH]; intros l' H; [exact H|]; cbn; rewrite (IH l' H); apply orb_true_r.
Qed.

(** Without a repetition, the wrong specialization is not there. *)
Lemma no_wrong : forall t, sane t -> repeated (map spec_for (gcc_specializations t)) = false ->
  forall s, In s (specs t 4) -> spec_for s = 4.
Proof.
  intros t S N s Hs.
  destruct (specs_for t 4 s ltac:(unfold known; lia) Hs) as [E | (_ & -> & P & G)]; [exact E | exfalso].
  destruct (gcc_macro_chain t S) as (C16 & C8 & _).
  assert (L8 : exists u, specs t 8 = [For 8 u]).
  { unfold specs.
    destruct (specialize_cases t 8 (gcc_macro t 8) (branches 8)) as [(_ & Q) | (b & E & I & _)].
    - exfalso; change (gcc_macro t 8) with (gcc_macro8 t) in Q.
      pose proof (gcc_macro16_max t S). pose proof (gcc_macro8_max t S).
      destruct Q as [Q | Q]; [lia|].
      specialize (Q (16, For 8 16) (or_intror (or_introl eq_refl))). cbn in Q. lia.
    - rewrite E; cbn in I; destruct I as [<- | [<- | []]]; eexists; reflexivity. }
  destruct L8 as (u & L8).
  assert (L4 : specs t 4 = [For 8 16]).
  { unfold specs in *; destruct (specialize_cases t 4 (gcc_macro t 4) (branches 4)) as [(E & _) | (b & E & _)];
      rewrite E in *; [destruct Hs | destruct Hs as [-> | []]; reflexivity]. }
  rewrite gcc_specializations_specs, L8, L4, map_app in N.
  rewrite (repeated_tail _ _) in N; [discriminate N|].
  cbn [app map]. reflexivity.
Qed.

Lemma filter_specs : forall t n, sane t -> known n ->
  repeated (map spec_for (gcc_specializations t)) = false ->
  filter (fun s => spec_for s =? n) (gcc_specializations t) = specs t n.
Proof.
  intros t n S Hn N.
  assert (F : forall k, known k -> forall s, In s (specs t k) -> spec_for s = k).
  { intros k Hk s Hs; destruct (specs_for t k s Hk Hs) as [E | (-> & _)]; [exact E|].
    apply (no_wrong t S N s Hs). }
  assert (Same : filter (fun s => spec_for s =? n) (specs t n) = specs t n).
  { apply filter_all; intros s Hs; apply Z.eqb_eq; apply F; assumption. }
  assert (Diff : forall k, known k -> k <> n -> filter (fun s => spec_for s =? n) (specs t k) = []).
  { intros k Hk D; apply filter_none; intros s Hs; rewrite (F k Hk s Hs); apply Z.eqb_neq; exact D. }
  rewrite gcc_specializations_specs, !filter_app.
  destruct Hn as [-> | [-> | [-> | [-> | ->]]]]; rewrite Same;
    rewrite ?(Diff 1), ?(Diff 2), ?(Diff 4), ?(Diff 8), ?(Diff 16) by (unfold known; lia);
    cbn [app]; rewrite ?app_nil_r; reflexivity.
Qed.

Lemma gcc_chosen : forall t n i, sane t -> known n ->
  pick t n (gcc_specializations t) = Some i -> chosen t n i.
Proof.
  intros t n i S Hn E; unfold pick in E.
  destruct (repeated (map spec_for (gcc_specializations t))) eqn:N; [discriminate E|].
  rewrite (filter_specs t n S Hn N) in E.
  assert (W := no_wrong t S N).
  unfold specs in E, W.
  destruct (gcc_macro_chain t S) as (C16 & C8 & C4 & C2); pose proof (gcc_macro1_le t S) as C1.
  destruct (specialize_cases t n (gcc_macro t n) (branches n)) as [(L & Q) | (b & L & I & P & G)];
    rewrite L in E; injection E as <-.
  - right; split; [reflexivity|].
    assert (R := arch_rank_range t).
    pose proof (arch_macro_of_rank t 1 (or_introl eq_refl)) as A1.
    pose proof (arch_macro_of_rank t 2 (or_intror (or_introl eq_refl))) as A2.
    pose proof (arch_macro_of_rank t 4 (or_intror (or_intror (or_introl eq_refl)))) as A4.
    pose proof (arch_macro_of_rank t 8 (or_intror (or_intror (or_intror (or_introl eq_refl))))) as A8.
    pose proof (arch_macro_of_rank t 16 (or_intror (or_intror (or_intror (or_intror eq_refl))))) as A16.
    pose proof (gcc_macro16_max t S) as M16. pose proof (gcc_macro8_max t S) as M8.
    pose proof (gcc_macro4_max t S) as M4. pose proof (gcc_macro2_max t S) as M2.
    pose proof (gcc_macro1_max t S) as M1.
    pose proof (gcc_level_nonneg t 16 S). pose proof (gcc_level_nonneg t 8 S).
    pose proof (gcc_level_nonneg t 4 S). pose proof (gcc_level_nonneg t 2 S).
    pose proof (gcc_level_nonneg t 1 S).
    destruct Hn as [-> | [-> | [-> | [-> | ->]]]]; cbn [gcc_macro Z.eqb Pos.eqb] in Q |- *;
    unfold gcc_macro in *; cbn [Z.eqb Pos.eqb] in *.
    all: destruct R as [R | [R | [R | R]]]; rewrite R in A1, A2, A4, A8, A16; cbn in A1, A2, A4, A8, A16;
      rewrite A1 in *; rewrite A2 in *; rewrite A4 in *; rewrite A8 in *; rewrite A16 in *; cbn [orelse] in *;
      first [right; split; [clear Q; lia | reflexivity] | left; split; [|reflexivity]];
      (destruct Q as [Q | Q]; [clear W; lia|]); apply Forall_forall in Q;
      cbn [branches Z.eqb Pos.eqb] in Q; rewrite !Forall_cons_iff in Q; cbn [fst] in Q; clear W; lia.
  - left; exists (spec_uses (snd b)); split; [reflexivity|].
    assert (V : n = 4 -> spec_for (snd b) = 4).
    { intros ->; apply W; rewrite L; left; reflexivity. }
    destruct Hn as [-> | [-> | [-> | [-> | ->]]]]; cbn in I;
      repeat (destruct I as [<- | I]; [cbn in V, G, P |- *; try (specialize (V eq_refl); discriminate V);
        unfold known; repeat split; lia|]); destruct I.
Qed.

(** ** All back ends *)
Lemma gcc_specializations_known : forall t s, In s (gcc_specializations t) -> known (spec_for s).
Proof.
  intros t s; rewrite gcc_specializations_specs, !in_app_iff; unfold known.
  assert (K : forall n, known n -> In s (specs t n) ->
    spec_for s = 1 \/ spec_for s = 2 \/ spec_for s = 4 \/ spec_for s = 8 \/ spec_for s = 16).
  { intros n Hn Hs; destruct (specs_for t n s Hn Hs) as [Q | (_ & -> & _)]; [rewrite Q; exact Hn | cbn; auto]. }
  intros [H | [H | [H | [H | H]]]]; eapply K; try exact H; unfold known; auto 6.
Qed.

Lemma unknown_default : forall t n, known_size n = false -> default_class t n = Impl LockPool n.
Proof.
  intros t n K; unfold known_size in K; rewrite !orb_false_iff in K; destruct K as ((((E1 & E2) & E4) & E8) & E16).
  unfold default_class, arch_storage; destruct (arch t) as [p|]; [|reflexivity].
  rewrite E1, E2, E4, E8, E16; reflexivity.
Qed.
Lemma unknown_macro : forall t n, known_size n = false -> int_macro t n = 0.
Proof.
  intros t n K; unfold known_size in K; rewrite !orb_false_iff in K; destruct K as ((((E1 & E2) & E4) & E8) & E16).
  unfold int_macro, arch_macro_of, arch_macro; rewrite E1, E2, E4, E8, E16; cbn.
  destruct (core_backend t) as [[]|]; try reflexivity; destruct (arch t); reflexivity.
Qed.
Lemma unknown_class : forall t n i, known_size n = false -> core_class t n = Some i -> i = Impl LockPool n.
Proof.
  intros t n i K E; assert (D := unknown_default t n K); assert (K' := K); unfold known_size in K';
    rewrite !orb_false_iff in K'; destruct K' as ((((E1 & E2) & E4) & E8) & E16).
  unfold core_class in E; destruct (core_backend t) as [[]|].
  - unfold pick in E; destruct (repeated _); [discriminate E|].
    rewrite filter_none in E.
    + injection E as <-; exact D.
    + intros s Hs; apply Z.eqb_neq; intros Q.
      apply gcc_specializations_known in Hs; apply known_size_iff in Hs; congruence.
  - rewrite K in E; cbn in E; injection E as <-; exact D.
  - rewrite E1, E2, E4 in E; cbn in E; injection E as <-; exact D.
  - rewrite E1, E2, E4 in E; cbn in E; injection E as <-; exact D.
  - injection E as <-; exact D.
Qed.

Lemma gcc_level_type : forall t s, sane t -> known s -> gcc_level t s > 0 ->
  exists c, sizeof t c = s /\ level t c = gcc_level t s.
Proof.
  intros t s S Hs G.
  assert (E : gcc_level t s = level_of_size t s).
  { unfold gcc_level in *; repeat match goal with |- context [if ?b then _ else _] => destruct b end; lia. }
  rewrite E in *; unfold level_of_size in *.
  destruct (Z.eqb_spec s 1) as [-> | _]; [exists CChar; split; [apply S | reflexivity]|].
  destruct (Z.eqb_spec (sizeof t CShort) s) as [P | _]; [exists CShort; auto|].
  destruct (Z.eqb_spec (sizeof t CInt) s) as [P | _]; [exists CInt; auto|].
  destruct (Z.eqb_spec (sizeof t CLong) s) as [P | _]; [exists CLong; auto|].
  destruct (Z.eqb_spec (sizeof t CLlong) s) as [P | _]; [exists CLlong; auto | lia].
Qed.

Lemma arch_storage_executes : forall p n s, arch_storage p n = Some s -> executes p s.
Proof.
  intros p n s E; unfold arch_storage in E.
  destruct (n =? 1); [|destruct (n =? 2); [|destruct (n =? 4); [|destruct (n =? 8); [|destruct (n =? 16); [|discriminate E]]]]];
    destruct p as [m a b c d e| | |l a b c d|a b| | | |a b c d e];
    cbv [when has_cmpxchg8b has_cmpxchg16b arm_ldrexb arm_ldrexh arm_ldrexd orb andb negb] in E;
    repeat match type of E with
           | context [match ?x with _ => _ end] => is_var x; destruct x
           end;
    try discriminate E; injection E as <-; cbn [executes In]; repeat split; auto 10;
    repeat match goal with |- context [match ?x with _ => _ end] => is_var x; destruct x end; auto 10.
Qed.

Lemma default_never_locks : forall t n, known n -> arch_macro_of t n = Some 2 ->
  never_locks t (default_class t n) /\ n <= storage_bytes (default_class t n) /\
  always_lock_free (default_class t n) = true.
Proof.
  intros t n Hn A; pose proof (arch_storage_rank t n Hn) as R; unfold arch_macro_of in A.
  destruct (arch t) as [p|] eqn:P; [|discriminate A].
  rewrite A in R; destruct R as (_ & s & D & Ks & L & _).
  rewrite D; cbn [storage_bytes always_lock_free made_of]; repeat split; [|exact L].
  exists p; split; [unfold arch in P; destruct (fallback t); [discriminate P | exact P]|].
  cbn [storage_bytes]; unfold default_class in D; rewrite P in D; destruct (arch_storage p n) as [s'|] eqn:E;
    [injection D as ->; apply (arch_storage_executes p n s E) | discriminate D].
Qed.
Lemma default_locks : forall t n, known n -> arch_macro_of t n = None -> default_class t n = Impl LockPool n.
Proof.
  intros t n Hn A; pose proof (arch_storage_rank t n Hn) as R; unfold arch_macro_of in A.
  destruct (arch t) as [p|]; [rewrite A in R|]; exact R.
Qed.
Lemma arch_macro_of_cases : forall t n, arch_macro_of t n = None \/ arch_macro_of t n = Some 2.
Proof.
  intros t n; unfold arch_macro_of; destruct (arch t) as [p|]; [|auto].
  unfold arch_macro, when; destruct (_ || _); [auto|]; destruct (n =? 8);
    [|destruct (n =? 16); [|auto]]; destruct p; auto;
    match goal with |- context [if ?b then _ else _] => destruct b; auto end.
Qed.

(** The size of the __sync intrinsic. *)
Lemma sync_storage_ok : forall t n, known n -> int_macro t n > 0 -> core_backend t = Some GccSync ->
  sync_sizes t (sync_storage t n) = true /\ n <= sync_storage t n /\ known (sync_storage t n).
Proof.
  intros t n Hn M B; unfold int_macro in M; rewrite B in M; unfold sync_storage, two_if in *.
  destruct Hn as [-> | [-> | [-> | [-> | ->]]]]; cbn in M |- *;
    destruct (sync_sizes t 1) eqn:S1; destruct (sync_sizes t 2) eqn:S2; destruct (sync_sizes t 4) eqn:S4;
    destruct (sync_sizes t 8) eqn:S8; destruct (sync_sizes t 16) eqn:S16; cbn in M; try lia;
    rewrite ?S1, ?S2, ?S4, ?S8, ?S16; unfold known; (split; [reflexivity | lia]).
Qed.

(** What [core_operations< n >] is. *)
Lemma core_summary : forall t n i, sane t -> core_class t n = Some i ->
  (i = Impl LockPool n /\ int_macro t n = 0) \/
  (always_lock_free i = true /\ known n /\ known (storage_bytes i) /\ n <= storage_bytes i /\
   (int_macro t n = 2 /\ never_locks t i \/
    int_macro t n = 1 /\ core_backend t = Some GccAtomic /\ exists s, i = Impl CompilerAtomic s)).
Proof.
  intros t n i S E.
  destruct (known_size n) eqn:K;
    [|left; split; [exact (unknown_class t n i K E) | exact (unknown_macro t n K)]].
  apply known_size_iff in K.
  assert (NA : core_backend t = Some GccSync \/ core_backend t = Some LinuxArm \/ core_backend t = Some Windows ->
               arch t = None /\ (core_backend t = Some LinuxArm -> linux_arm t = true) /\
               (core_backend t = Some Windows -> windows t = true)).
  { unfold core_backend, none; destruct (fallback t) eqn:F; [intuition discriminate|].
    destruct (_ && _); [intuition discriminate|].
    destruct (arch t); cbn [andb]; [intuition discriminate|].
    destruct (_ || _); [intuition discriminate|].
    destruct (linux_arm t); [intuition discriminate|].
    destruct (windows t); intuition discriminate. }
  assert (DA : arch t = None -> default_class t n = Impl LockPool n) by (intros A; unfold default_class; rewrite A; reflexivity).
  assert (KD : arch_macro_of t n = Some 2 -> known (storage_bytes (default_class t n))).
  { intros A; pose proof (arch_storage_rank t n K) as R; unfold arch_macro_of in A; destruct (arch t); [|discriminate A].
    rewrite A in R; destruct R as (_ & s & -> & Ks & _); exact Ks. }
  unfold core_class in E; destruct (core_backend t) as [b|] eqn:B.
  - assert (I : int_macro t n = int_macro t n) by reflexivity.
    destruct b.
    + assert (M : int_macro t n = gcc_macro t n) by (unfold int_macro; rewrite B; reflexivity).
      destruct (gcc_chosen t n i S K E) as [(s & -> & Ks & L & P & G) | (-> & [(M0 & A) | (M2 & A)])].
      * right; cbn [storage_bytes]; repeat split; try assumption.
        destruct (gcc_level_range t s S) as [G0 | [G1 | G2]]; [lia | right | ].
        -- rewrite M; repeat split; [lia | exists s; reflexivity].
        -- destruct (Z.eq_dec (gcc_macro t n) 2) as [M2 | M2].
           ++ left; rewrite M; split; [exact M2|]; cbn [never_locks made_of storage_bytes].
              destruct (gcc_level_type t s S Ks ltac:(lia)) as (c & C1 & C2); exists c; split; [exact C1 | lia].
           ++ right; rewrite M; repeat split; [lia | exists s; reflexivity].
      * left; split; [apply default_locks; assumption | lia].
      * destruct (default_never_locks t n K A) as (D1 & D2 & D3).
        right; repeat split; try assumption; [exact (KD A) | left; split; [lia | exact D1]].
    + destruct (NA (or_introl eq_refl)) as (A & _).
      apply known_size_iff in K; rewrite K in E; apply known_size_iff in K; cbn [andb] in E.
      destruct (Z.gtb_spec (int_macro t n) 0) as [M | M]; injection E as <-.
      * destruct (sync_storage_ok t n K ltac:(lia) B) as (S1 & S2 & S3).
        right; cbn [storage_bytes]; repeat split; try assumption; left; split; [|exact S1].
        unfold int_macro in *; rewrite B in *; unfold two_if in *.
        destruct K as [-> | [-> | [-> | [-> | ->]]]]; cbn in *;
          match goal with |- context [if ?b then _ else _] => destruct b; [reflexivity | lia] end.
      * left; split; [apply DA; exact A|].
        unfold int_macro in *; rewrite B in *; unfold two_if in *.
        destruct K as [-> | [-> | [-> | [-> | ->]]]]; cbn in *;
          match goal with |- context [if ?b then _ else _] => destruct b; [lia | reflexivity] end.
    + destruct (NA (or_intror (or_introl eq_refl))) as (A & NL & _); specialize (NL eq_refl).
      unfold int_macro; rewrite B.
      destruct K as [-> | [-> | [-> | [-> | ->]]]]; cbn in E; injection E as <-;
        first [left; split; [apply DA; exact A | reflexivity]
              | right; cbn; unfold known; repeat split; try lia; left; repeat split; exact NL].
    + destruct (NA (or_intror (or_intror eq_refl))) as (A & _ & NW); specialize (NW eq_refl).
      unfold int_macro; rewrite B.
      destruct K as [-> | [-> | [-> | [-> | ->]]]]; cbn in E; injection E as <-;
        first [left; split; [apply DA; exact A | reflexivity]
              | right; cbn; unfold known; repeat split; try lia; left; repeat split; exact NW].
  - injection E as <-; unfold int_macro; rewrite B.
    destruct (arch_macro_of_cases t n) as [A | A]; rewrite A; cbn [orelse].
    + left; split; [apply default_locks; assumption | reflexivity].
    + destruct (default_never_locks t n K A) as (D1 & D2 & D3).
      right; repeat split; try assumption; [exact (KD A) | left; split; [reflexivity | exact D1]].
Qed.

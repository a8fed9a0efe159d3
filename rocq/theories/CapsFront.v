(** * Proofs about the macros, the classes of the interface and native waits. *)
From Coq Require Import ZArith List Bool Lia.
Require Import Verif.SpecCaps Verif.BytesModel Verif.CapsModel Verif.CapsProof.
Import ListNotations.
Open Scope Z_scope.

(** ** Macros and classes *)
Lemma macro_two : forall t n i, sane t -> core_class t n = Some i -> int_macro t n = 2 ->
  always_lock_free i = true /\ never_locks t i.
Proof.
  intros t n i S E M; destruct (core_summary t n i S E) as [(_ & Z) | (A & _ & _ & _ & [(_ & N) | (Z & _)])];
    [lia | split; assumption | lia].
Qed.
Lemma macro_zero : forall t n i, sane t -> core_class t n = Some i -> int_macro t n = 0 -> i = Impl LockPool n.
Proof.
  intros t n i S E M; destruct (core_summary t n i S E) as [(Q & _) | (_ & _ & _ & _ & [(Z & _) | (Z & _)])];
    [exact Q | lia | lia].
Qed.
Lemma lock_free_iff : forall t n i, sane t -> core_class t n = Some i ->
  (always_lock_free i = true <-> int_macro t n <> 0).
Proof.
  intros t n i S E; destruct (core_summary t n i S E) as [(-> & Z) | (A & _ & _ & _ & [(Z & _) | (Z & _)])];
    (split; [intros Q; try discriminate Q; lia | intros Q; first [assumption | lia]]).
Qed.
Lemma storage_fits : forall t n i, sane t -> core_class t n = Some i -> n <= storage_bytes i.
Proof.
  intros t n i S E; destruct (core_summary t n i S E) as [(-> & _) | (_ & _ & _ & L & _)]; [cbn; lia | exact L].
Qed.
Lemma macro_cases : forall t n, sane t -> int_macro t n = 0 \/ int_macro t n = 1 \/ int_macro t n = 2.
Proof.
  intros t n S; unfold int_macro; destruct (core_backend t) as [[]|].
  - destruct (gcc_macro_chain t S) as (? & ? & ? & ?); pose proof (gcc_macro1_le t S).
    repeat match goal with |- context [if ?b then _ else _] => destruct b end; lia.
  - unfold two_if; repeat match goal with |- context [if ?b then _ else _] => destruct b end; lia.
  - unfold two_if; repeat match goal with |- context [if ?b then _ else _] => destruct b end; lia.
  - unfold two_if; repeat match goal with |- context [if ?b then _ else _] => destruct b end; lia.
  - destruct (arch_macro_of_cases t n) as [-> | ->]; cbn; lia.
Qed.

Lemma decided_level : forall t n, decided t -> gcc_level t n = 0 \/ gcc_level t n = 2.
Proof.
  intros t n D; unfold gcc_level, level_of_size.
  repeat match goal with |- context [if ?b then _ else _] => destruct b end; auto; apply D.
Qed.
Lemma decided_macro : forall t n, sane t -> decided t -> int_macro t n <> 1.
Proof.
  intros t n S D; unfold int_macro; destruct (core_backend t) as [[]|].
  - assert (O : forall k, orelse (arch_macro_of t k) = 0 \/ orelse (arch_macro_of t k) = 2)
      by (intros k; destruct (arch_macro_of_cases t k) as [-> | ->]; cbn; auto).
    assert (Mx : forall a b, (a = 0 \/ a = 2) -> (b = 0 \/ b = 2) -> Z.max a b = 0 \/ Z.max a b = 2) by (intros; lia).
    assert (H16 : gcc_macro16 t = 0 \/ gcc_macro16 t = 2)
      by (rewrite (gcc_macro16_max t S); apply Mx; [apply O | apply decided_level; exact D]).
    assert (H8 : gcc_macro8 t = 0 \/ gcc_macro8 t = 2)
      by (rewrite (gcc_macro8_max t S); apply Mx; [apply O | apply Mx; [apply decided_level; exact D | exact H16]]).
    assert (H4 : gcc_macro4 t = 0 \/ gcc_macro4 t = 2)
      by (rewrite (gcc_macro4_max t S); apply Mx; [apply O | apply Mx; [apply decided_level; exact D | exact H8]]).
    assert (H2 : gcc_macro2 t = 0 \/ gcc_macro2 t = 2)
      by (rewrite (gcc_macro2_max t S); apply Mx; [apply O | apply Mx; [apply decided_level; exact D | exact H4]]).
    assert (H1 : gcc_macro1 t = 0 \/ gcc_macro1 t = 2)
      by (rewrite (gcc_macro1_max t S); apply Mx; [apply O | apply Mx; [apply decided_level; exact D | exact H2]]).
    repeat match goal with |- context [if ?b then _ else _] => destruct b end; lia.
  - unfold two_if; repeat match goal with |- context [if ?b then _ else _] => destruct b end; lia.
  - unfold two_if; repeat match goal with |- context [if ?b then _ else _] => destruct b end; lia.
  - unfold two_if; repeat match goal with |- context [if ?b then _ else _] => destruct b end; lia.
  - destruct (arch_macro_of_cases t n) as [-> | ->]; cbn; lia.
Qed.
Lemma decided_true : forall t n i, sane t -> decided t -> core_class t n = Some i ->
  always_lock_free i = true -> int_macro t n = 2 /\ never_locks t i.
Proof.
  intros t n i S D E A; assert (M : int_macro t n = 2).
  { apply (lock_free_iff t n i S E) in A; pose proof (decided_macro t n S D).
    destruct (macro_cases t n S) as [? | [? | ?]]; lia. }
  split; [exact M | apply (macro_two t n i S E M)].
Qed.

(** Larger objects are not better supported. *)
Lemma macro_monotone : forall t n m, sane t -> known n -> known m -> n <= m -> int_macro t m <= int_macro t n.
Proof.
  intros t n m S Hn Hm L; unfold int_macro; destruct (core_backend t) as [[]|].
  - destruct (gcc_macro_chain t S) as (? & ? & ? & ?).
    destruct Hn as [-> | [-> | [-> | [-> | ->]]]]; destruct Hm as [-> | [-> | [-> | [-> | ->]]]]; cbn; lia.
  - unfold two_if; destruct Hn as [-> | [-> | [-> | [-> | ->]]]]; destruct Hm as [-> | [-> | [-> | [-> | ->]]]];
      cbn; try lia;
      destruct (sync_sizes t 1), (sync_sizes t 2), (sync_sizes t 4), (sync_sizes t 8), (sync_sizes t 16); cbn; lia.
  - destruct Hn as [-> | [-> | [-> | [-> | ->]]]]; destruct Hm as [-> | [-> | [-> | [-> | ->]]]]; cbn; lia.
  - destruct Hn as [-> | [-> | [-> | [-> | ->]]]]; destruct Hm as [-> | [-> | [-> | [-> | ->]]]]; cbn; lia.
  - rewrite (arch_macro_of_rank t n Hn), (arch_macro_of_rank t m Hm).
    destruct (arch_rank_range t) as [-> | [-> | [-> | ->]]];
      destruct Hn as [-> | [-> | [-> | [-> | ->]]]]; destruct Hm as [-> | [-> | [-> | [-> | ->]]]]; cbn; lia.
Qed.

(** ** Compilation *)
Lemma not_repeated : forall t, sane t -> gcc_level t 16 = 0 ->
  repeated (map spec_for (gcc_specializations t)) = false.
Proof.
  intros t S G.
  assert (One : forall n, known n -> specs t n = [] \/ exists u, specs t n = [For n u]).
  { intros n Hn; unfold specs; destruct (specialize_cases t n (gcc_macro t n) (branches n)) as [(E & _) | (b & E & I & P & Q)];
      [left; exact E | right; rewrite E].
    destruct Hn as [-> | [-> | [-> | [-> | ->]]]]; cbn in I;
      repeat (destruct I as [<- | I]; [first [eexists; reflexivity | unfold gcc_macro in *; cbn in P, Q; lia]|]); destruct I. }
  rewrite gcc_specializations_specs.
  destruct (One 16 ltac:(unfold known; lia)) as [-> | (u16 & ->)];
  destruct (One 8 ltac:(unfold known; lia)) as [-> | (u8 & ->)];
  destruct (One 4 ltac:(unfold known; lia)) as [-> | (u4 & ->)];
  destruct (One 2 ltac:(unfold known; lia)) as [-> | (u2 & ->)];
  destruct (One 1 ltac:(unfold known; lia)) as [-> | (u1 & ->)]; reflexivity.
Qed.
Lemma compiles : forall t n, sane t -> (forall c, sizeof t c <> 16) -> exists i, core_class t n = Some i.
Proof.
  intros t n S N; unfold core_class; destruct (core_backend t) as [[]|];
    try (repeat match goal with |- context [if ?b then _ else _] => destruct b end; eexists; reflexivity).
  unfold pick; rewrite not_repeated; [|exact S|].
  - destruct (filter _ _); eexists; reflexivity.
  - unfold gcc_level, level_of_size.
    pose proof (N CShort); pose proof (N CInt); pose proof (N CLong); pose proof (N CLlong).
    destruct (_ && _ && _); [reflexivity|].
    cbn [Z.eqb Pos.eqb andb].
    repeat match goal with |- context [?x =? 16] => destruct (Z.eqb_spec x 16); [contradiction|] end; reflexivity.
Qed.
(** With 16-byte integers the program compiles if some smaller type does at
    least as well. *)
Lemma compiles_16 : forall t n, sane t -> (gcc_level t 4 >= gcc_macro4 t \/ gcc_level t 8 >= gcc_macro4 t) ->
  exists i, core_class t n = Some i.
Proof.
  intros t n S G; unfold core_class; destruct (core_backend t) as [[]|];
    try (repeat match goal with |- context [if ?b then _ else _] => destruct b end; eexists; reflexivity).
  unfold pick.
  assert (R : repeated (map spec_for (gcc_specializations t)) = false).
  { assert (One : forall n, known n -> n <> 4 -> specs t n = [] \/ exists u, specs t n = [For n u]).
    { intros k Hk N4; unfold specs; destruct (specialize_cases t k (gcc_macro t k) (branches k)) as [(E & _) | (b & E & I & P & Q)];
        [left; exact E | right; rewrite E].
      destruct Hk as [-> | [-> | [-> | [-> | ->]]]]; cbn in I; try (exfalso; lia);
        repeat (destruct I as [<- | I]; [eexists; reflexivity|]); destruct I. }
    assert (One4 : specs t 4 = [] \/ exists u, specs t 4 = [For 4 u]).
    { unfold specs, specialize, branches, gcc_macro; cbn [Z.eqb Pos.eqb filter fst].
      destruct (gcc_macro4 t >? 0); [|left; reflexivity].
      destruct (Z.geb_spec (gcc_level t 4) (gcc_macro4 t)) as [G4 | G4]; [right; eexists; reflexivity|].
      destruct (Z.geb_spec (gcc_level t 8) (gcc_macro4 t)) as [G8 | G8]; [right; eexists; reflexivity|]. lia. }
    rewrite gcc_specializations_specs.
    destruct (One 16 ltac:(unfold known; lia) ltac:(lia)) as [-> | (u16 & ->)];
    destruct (One 8 ltac:(unfold known; lia) ltac:(lia)) as [-> | (u8 & ->)];
    destruct One4 as [-> | (u4 & ->)];
    destruct (One 2 ltac:(unfold known; lia) ltac:(lia)) as [-> | (u2 & ->)];
    destruct (One 1 ltac:(unfold known; lia) ltac:(lia)) as [-> | (u1 & ->)]; reflexivity. }
  rewrite R; destruct (filter _ _); eexists; reflexivity.
Qed.

(** ** The macros for types *)
Lemma type_macro_exact : forall t size, known size -> size < 16 -> type_macro t size = int_macro t (storage_size size).
Proof.
  intros t size [-> | [-> | [-> | [-> | ->]]]] H; try reflexivity; lia.
Qed.
Lemma float_macro_exact : forall t size, size = 2 \/ size = 4 \/ size = 8 \/ 9 <= size <= 16 ->
  float_macro t size = int_macro t (storage_size size).
Proof.
  intros t size H; unfold float_macro, float_by_size, storage_size.
  destruct H as [-> | [-> | [-> | H]]]; try reflexivity.
  rewrite !(proj2 (Z.eqb_neq _ _)) by lia.
  assert (E : (8 <? size) && (size <=? 16) = true)
    by (rewrite andb_true_iff, Z.ltb_lt, Z.leb_le; lia).
  rewrite E.
  destruct (Z.leb_spec 5 size); [|lia]; destruct (Z.leb_spec size 7); [lia|]; cbn [andb].
  destruct (Z.leb_spec 9 size); [|lia]; destruct (Z.leb_spec size 15); cbn [andb]; [reflexivity|].
  replace size with 16 by lia; reflexivity.
Qed.

(** ** References *)
Lemma ref_storage : forall t size i, ref_class t size = Some i ->
  storage_bytes i = size /\
  (always_lock_free i = true -> core_class t size = Some i) /\
  (always_lock_free i = false -> i = Impl LockPool size).
Proof.
  intros t size i E; unfold ref_class in E; destruct (core_class t size) as [j|]; [|discriminate E].
  injection E as <-; destruct ((size =? storage_bytes j) && always_lock_free j) eqn:Q.
  - apply andb_true_iff in Q as (Q1 & Q2); apply Z.eqb_eq in Q1; repeat split; auto; congruence.
  - repeat split; intros; try reflexivity; discriminate.
Qed.
Lemma ref_two : forall t size i j, sane t -> ref_class t size = Some i -> core_class t size = Some j ->
  int_macro t size = 2 -> storage_bytes j = size -> always_lock_free i = true /\ never_locks t i.
Proof.
  intros t size i j S E J M Q; unfold ref_class in E; rewrite J in E; injection E as <-.
  destruct (macro_two t size j S J M) as (A & N); rewrite A, Q, Z.eqb_refl; cbn; split; assumption.
Qed.

(** ** Pointers *)
Lemma level_of_size_type : forall t c, sane t -> In c [CChar; CShort; CInt; CLong; CLlong] ->
  level_of_size t (sizeof t c) = level t c.
Proof.
  intros t c (S1 & S2 & S3 & _) Hc; unfold level_of_size.
  destruct (Z.eqb_spec (sizeof t c) 1) as [E | E]; [apply S3; lia|].
  destruct (Z.eqb_spec (sizeof t CShort) (sizeof t c)) as [E1 | E1]; [apply S3; exact E1|].
  destruct (Z.eqb_spec (sizeof t CInt) (sizeof t c)) as [E2 | E2]; [apply S3; exact E2|].
  destruct (Z.eqb_spec (sizeof t CLong) (sizeof t c)) as [E3 | E3]; [apply S3; exact E3|].
  destruct (Z.eqb_spec (sizeof t CLlong) (sizeof t c)) as [E4 | E4]; [apply S3; exact E4|].
  exfalso; cbn in Hc; destruct Hc as [<- | [<- | [<- | [<- | [<- | []]]]]]; congruence.
Qed.

Lemma arch_cpu : forall t p, arch t = Some p -> cpu t = Some p.
Proof. intros t p; unfold arch; destruct (fallback t); [discriminate | auto]. Qed.

Lemma pointer_arch : forall t, sane t -> pointers_fit t -> arch t <> None ->
  arch_macro_of t (sizeof t CPointer) = Some 2.
Proof.
  intros t S (_ & F) A; unfold arch_macro_of; destruct (arch t) as [p|] eqn:P; [|contradiction].
  rewrite (arch_cpu t p P) in F.
  destruct S as (_ & _ & _ & _ & S5).
  destruct (S5 CPointer) as [E | [E | [E | [E | E]]]]; rewrite E in *; try reflexivity;
    destruct p as [m a b c d e| | |l a b c d|a b| | | |a b c d e]; cbn in F |- *; try lia; try reflexivity;
    try (destruct m; [|lia]); try (destruct b; [|lia]); try (destruct a; [|lia]); cbn; try reflexivity; lia.
Qed.

Lemma backend_outside : forall t, core_backend t = Some LinuxArm \/ core_backend t = Some Windows ->
  cpu t = None /\ (linux_arm t = true \/ windows t = true).
Proof.
  intros t; unfold core_backend, none, arch; destruct (fallback t); [intuition discriminate|].
  destruct (_ && _); [intuition discriminate|].
  destruct (cpu t); cbn [andb]; [intuition discriminate|].
  destruct (_ || _); [intuition discriminate|].
  destruct (linux_arm t); [auto|]; destruct (windows t); [auto|]; intuition discriminate.
Qed.
Lemma pointer_small : forall t, sane t -> core_backend t = Some LinuxArm \/ core_backend t = Some Windows ->
  sizeof t CPointer <= 4 -> int_macro t (sizeof t CPointer) = 2.
Proof.
  intros t S B L; unfold int_macro; destruct S as (_ & _ & _ & _ & S5).
  destruct B as [-> | ->]; destruct (S5 CPointer) as [E | [E | [E | [E | E]]]]; rewrite E in *; cbn; lia.
Qed.

Lemma pointer_two : forall t i, sane t -> pointers_fit t ->
  (cpu t = None -> linux_arm t = true \/ windows t = true -> sizeof t CPointer <= 4) ->
  core_class t (sizeof t CPointer) = Some i -> pointer_macro t = 2 ->
  always_lock_free i = true /\ never_locks t i.
Proof.
  intros t i S F O E M; apply (macro_two t _ i S E).
  assert (BO := backend_outside t); assert (PS := pointer_small t S).
  unfold pointer_macro in M; destruct (core_backend t) as [b|] eqn:B.
  - destruct b; [clear BO PS O | clear BO PS O | | ];
      try (apply PS; auto; destruct BO as (BO1 & BO2); auto).
    + unfold raise in M.
      assert (LE := macro_cases t (sizeof t CPointer) S).
      assert (G2 : 2 <= int_macro t (sizeof t CPointer)); [|lia].
      destruct (arch t) as [p|] eqn:P.
      * pose proof (pointer_arch t S F ltac:(congruence)) as A.
        destruct S as (S1 & S2 & S3 & S4 & S5); assert (S : sane t) by (repeat split; try assumption; apply S4).
        unfold int_macro; rewrite B.
        pose proof (gcc_macro1_max t S). pose proof (gcc_macro2_max t S). pose proof (gcc_macro4_max t S).
        pose proof (gcc_macro8_max t S). pose proof (gcc_macro16_max t S).
        destruct (S5 CPointer) as [Q | [Q | [Q | [Q | Q]]]]; rewrite Q in *; rewrite A in *; cbn [Z.eqb Pos.eqb orelse] in *; lia.
      * destruct F as ((c & Hc & Ec) & _).
        assert (S3 := proj1 (proj2 (proj2 S))); assert (S5 := proj2 (proj2 (proj2 (proj2 S)))).
        assert (G : gcc_level t (sizeof t CPointer) = 2).
        { unfold gcc_level, arch_test; rewrite P, !andb_false_r; cbn [andb].
          rewrite <- Ec, (level_of_size_type t c S Hc), (S3 c CPointer Ec); exact M. }
        unfold int_macro; rewrite B.
        pose proof (gcc_macro1_max t S). pose proof (gcc_macro2_max t S). pose proof (gcc_macro4_max t S).
        pose proof (gcc_macro8_max t S). pose proof (gcc_macro16_max t S).
        destruct (S5 CPointer) as [Q | [Q | [Q | [Q | Q]]]]; rewrite Q in *; cbn [Z.eqb Pos.eqb orelse] in *; lia.
    + unfold pointer_by_size in M.
      destruct (Z.eqb_spec (sizeof t CPointer) 8) as [-> | _]; [exact M|].
      destruct (Z.eqb_spec (sizeof t CPointer) 4) as [-> | _]; [exact M | lia].
  - destruct (arch t) as [p|] eqn:P.
    + unfold int_macro; rewrite B, (pointer_arch t S F ltac:(congruence)); reflexivity.
    + unfold pointer_by_size in M.
      destruct (Z.eqb_spec (sizeof t CPointer) 8) as [-> | _]; [exact M|].
      destruct (Z.eqb_spec (sizeof t CPointer) 4) as [-> | _]; [exact M | lia].
Qed.

(** ** Native waits *)
Lemma native_waits : forall t i ipc, always_native t i ipc = true ->
  always_lock_free i = true /\ system_waits t (storage_bytes i) ipc.
Proof.
  intros t i ipc H; unfold always_native in H; apply andb_true_iff in H as (A & N); split; [exact A|].
  unfold native_storage, wait_system in N; destruct (fallback t); [discriminate N|].
  unfold system_waits; destruct (sys t) as [| |u64 shared|wu w| |].
  - rewrite andb_true_iff, negb_true_iff, !orb_true_iff, !Z.eqb_eq in N; destruct N as (-> & N).
    split; [tauto | reflexivity].
  - apply Z.eqb_eq; exact N.
  - destruct ipc, u64, shared; cbn [negb orb andb] in N; rewrite ?andb_true_r, ?andb_false_r, ?orb_false_r in N;
      try discriminate N; rewrite ?orb_true_iff, ?Z.eqb_eq in N; split; auto; try discriminate; tauto.
  - rewrite orb_true_iff, !andb_true_iff, !Z.eqb_eq in N; tauto.
  - apply Z.eqb_eq; exact N.
  - discriminate N.
Qed.

Ltac native_fin :=
  split; intros H;
  first [split; [exact H | reflexivity] | exfalso; apply H; reflexivity | destruct H as (_ & H); discriminate H
        | destruct H as (H & _); exact H].

Lemma wait_macro_native : forall t n i ipc, sane t -> usual_sizes t -> core_class t n = Some i -> storage_bytes i = n ->
  (wait_macro t n ipc <> 0 <-> always_native t i ipc = true).
Proof.
  intros t n i ipc S U E Q; pose proof (lock_free_iff t n i S E) as LF.
  unfold always_native; rewrite Q, andb_true_iff, LF; clear LF.
  unfold wait_macro, native_storage, wait_system, usual_sizes in *.
  destruct (fallback t); [split; [intros H; exfalso; lia | intros (_ & H); discriminate H]|].
  destruct (sys t) as [| |u64 shared|wu w| |].
  - destruct (negb ipc && _); native_fin.
  - destruct (Z.eqb_spec n 4) as [-> | D]; native_fin.
  - destruct (Z.eqb_spec n 4) as [-> | D4]; [cbn [Z.eqb Pos.eqb andb orb]; destruct (negb ipc || shared); cbn; native_fin|].
    destruct (Z.eqb_spec n 8) as [-> | D8]; cbn [andb orb].
    + destruct (u64 && (negb ipc || shared)) eqn:B; native_fin.
    + native_fin.
  - destruct U as (Ui & Ul); rewrite Ui.
    destruct Ul as [Ul | Ul]; rewrite Ul; cbn [Z.eqb Pos.eqb Z.ltb Z.compare Pos.compare Pos.compare_cont]; rewrite ?andb_true_r, ?andb_false_r, ?orb_false_r;
      destruct (Z.eqb_spec n 4) as [-> | D4]; cbn [Z.eqb Pos.eqb andb orb]; rewrite ?andb_true_r, ?andb_false_r, ?orb_false_r;
      try (destruct (Z.eqb_spec n 8) as [-> | D8]); cbn [Z.eqb Pos.eqb andb orb]; rewrite ?andb_true_r, ?andb_false_r, ?orb_false_r;
      destruct wu, w; cbn; native_fin.
  - rewrite U; destruct (Z.eqb_spec n 4) as [-> | D]; native_fin.
  - native_fin.
Qed.
Lemma wait_macro_value : forall t n ipc, wait_macro t n ipc <> 0 -> wait_macro t n ipc = int_macro t n.
Proof.
  intros t n ipc; unfold wait_macro; destruct (wait_system t) as [| |u64 shared|wu w| |];
    repeat match goal with
           | |- context [if ?b then _ else _] => destruct b eqn:?
           end; intros H; try reflexivity; try lia;
    rewrite ?andb_true_iff in *;
    repeat match goal with H : _ /\ _ |- _ => destruct H end;
    repeat match goal with H : (n =? _) = true |- _ => apply Z.eqb_eq in H; subst n end; try reflexivity; lia.
Qed.

(** ** Types the compiler reports as lock-free *)

(** The __atomic intrinsics are used if the compiler has them and reports some
    type as always lock-free. *)
Theorem intrinsics_chosen : forall t, core_backend t = Some GccAtomic <->
  fallback t = false /\ intrinsics t = true /\ exists c, c <> CPointer /\ level t c = 2.
Proof.
  intros t; unfold core_backend; destruct (fallback t); [split; [discriminate|intros [H _]; discriminate]|].
  destruct (intrinsics t); cbn [andb].
  2:{ split; [|intros [_ [H _]]; discriminate].
      destruct (none (arch t) && _); [discriminate|]. destruct (none (arch t)); [|discriminate].
      destruct (linux_arm t); [discriminate|]. destruct (windows t); discriminate. }
  match goal with |- context [if ?e then Some GccAtomic else _] => destruct e eqn:E end.
  - split; [intros _|reflexivity]. repeat split.
    rewrite !orb_true_iff in E. destruct E as [[[[[E|E]|E]|E]|E]|E]; apply Z.eqb_eq in E;
      eexists; (split; [|exact E]); discriminate.
  - rewrite !orb_false_iff in E. destruct E as [[[[[E1 E2] E3] E4] E5] E6].
    apply Z.eqb_neq in E1, E2, E3, E4, E5, E6. split.
    + destruct (none (arch t) && _); [discriminate|]. destruct (none (arch t)); [|discriminate].
      destruct (linux_arm t); [discriminate|]. destruct (windows t); discriminate.
    + intros [_ [_ [c [N L]]]]. destruct c; contradiction.
Qed.

Lemma level_of_size_sizeof : forall t c, sane t -> In c [CChar; CShort; CInt; CLong; CLlong; CBool] ->
  level_of_size t (sizeof t c) = level t c.
Proof.
  intros t c [S1 [S2 [S3 _]]] H. unfold level_of_size.
  destruct (sizeof t c =? 1) eqn:E1; [apply Z.eqb_eq in E1; apply S3; congruence|].
  destruct (sizeof t CShort =? sizeof t c) eqn:E2; [apply Z.eqb_eq in E2; apply S3; congruence|].
  destruct (sizeof t CInt =? sizeof t c) eqn:E3; [apply Z.eqb_eq in E3; apply S3; congruence|].
  destruct (sizeof t CLong =? sizeof t c) eqn:E4; [apply Z.eqb_eq in E4; apply S3; congruence|].
  destruct (sizeof t CLlong =? sizeof t c) eqn:E5; [apply Z.eqb_eq in E5; apply S3; congruence|].
  exfalso. apply Z.eqb_neq in E1, E2, E3, E4, E5.
  destruct H as [<-|[<-|[<-|[<-|[<-|[<-|[]]]]]]]; congruence.
Qed.

Lemma raise_ge : forall old new, new <= raise old new /\ forall v, old = Some v -> v <= raise old new.
Proof.
  intros [v|] new; simpl; [destruct (v <? new) eqn:E|].
  - apply Z.ltb_lt in E. split; [lia|]. intros v' [= <-]. lia.
  - apply Z.ltb_ge in E. split; [lia|]. intros v' [= <-]. lia.
  - split; [lia|]. discriminate.
Qed.
Lemma raise2_ge : forall old own larger, own <= raise2 old own larger /\
  forall v, old = Some v -> v <= raise2 old own larger.
Proof.
  intros [v|] own larger; unfold raise2.
  - destruct ((v <? own) || (v <? larger)) eqn:E.
    + apply orb_true_iff in E. rewrite !Z.ltb_lt in E. rewrite Z.geb_leb.
      destruct (larger <=? own) eqn:G; [apply Z.leb_le in G|apply Z.leb_gt in G];
        (split; [lia|]; intros v' [= <-]; lia).
    + apply orb_false_iff in E. rewrite !Z.ltb_ge in E. split; [lia|]. intros v' [= <-]. lia.
  - rewrite Z.geb_leb. destruct (larger <=? own) eqn:G; [apply Z.leb_le in G|apply Z.leb_gt in G];
      (split; [lia|discriminate]).
Qed.

(** A type the compiler reports as always lock-free has macro 2, but for
    16-byte integers. *)
Theorem lock_free_types : forall t c, sane t -> fallback t = false -> intrinsics t = true ->
  In c [CChar; CShort; CInt; CLong; CLlong; CBool] -> sizeof t c <= 8 -> level t c = 2 ->
  int_macro t (sizeof t c) = 2.
Proof.
  intros t c S F I H Sz L.
  assert (B : core_backend t = Some GccAtomic).
  { apply intrinsics_chosen. repeat split; try assumption. exists c. split; [|exact L].
    intros ->. destruct H as [H|[H|[H|[H|[H|[H|[]]]]]]]; discriminate H. }
  assert (G : 2 <= int_macro t (sizeof t c)).
  { pose proof (level_of_size_sizeof t c S H) as Q. rewrite L in Q.
    pose proof S as [_ [_ [_ [_ K]]]]. specialize (K c).
    unfold int_macro. rewrite B.
    destruct K as [K|[K|[K|[K|K]]]]; rewrite K in *; cbn [Z.eqb Pos.eqb]; try lia.
    - pose proof (proj1 (raise2_ge (arch_macro_of t 1) (gcc_level t 1) (gcc_macro2 t))) as R.
      unfold gcc_macro1. replace (gcc_level t 1) with 2 in * by (symmetry; exact Q). exact R.
    - pose proof (proj1 (raise2_ge (arch_macro_of t 2) (gcc_level t 2) (gcc_macro4 t))) as R.
      unfold gcc_macro2. replace (gcc_level t 2) with 2 in * by (symmetry; exact Q). exact R.
    - pose proof (proj1 (raise2_ge (arch_macro_of t 4) (gcc_level t 4) (gcc_macro8 t))) as R.
      unfold gcc_macro4. replace (gcc_level t 4) with 2 in * by (symmetry; exact Q). exact R.
    - destruct (raise2_ge (arch_macro_of t 8) (gcc_level t 8) (gcc_macro16 t)) as [R1 R2].
      unfold gcc_macro8. destruct (arch_test has_cmpxchg8b t && clang t) eqn:X.
      + apply R2. apply andb_true_iff in X. destruct X as [X _].
        unfold arch_test in X. unfold arch_macro_of. destruct (arch t) as [p|]; [|discriminate X].
        unfold arch_macro. cbn [Z.eqb Pos.eqb]. destruct p; try discriminate X; rewrite ?X, ?orb_true_r; reflexivity.
      + replace (gcc_level t 8) with 2 in *; [exact R1|].
        unfold gcc_level. cbn [Z.eqb Pos.eqb andb]. rewrite X. symmetry. exact Q. }
  destruct (macro_cases t (sizeof t c) S) as [M|[M|M]]; lia.
Qed.

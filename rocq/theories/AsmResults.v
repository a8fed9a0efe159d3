(** * The checker run on all blocks. *)
From Coq Require Import ZArith Arith List Bool Lia String.
From Verif Require Import Conv Prog Word SpecHand AsmExpr AsmText AsmModel SpecAsm AsmCheck AsmCheckProof AsmRefute AsmBlocks.
Import ListNotations.
Open Scope string_scope.
Open Scope Z_scope.

Lemma decided careful bad bs : forallb (fun b => if bad b : bool then wrong careful b else check careful b) bs = true ->
  forall b, In b bs -> (block_ok careful b <-> bad b = false).
Proof.
  intros F b I. rewrite forallb_forall in F. specialize (F b I). destruct (bad b) eqn:B.
  - apply wrong_ok in F. split; [contradiction|discriminate].
  - apply check_sound in F. split; auto.
Qed.
Lemma careful_all : forallb (fun b => if always_wrong b then wrong true b else check true b) blocks = true.
Proof. vm_cast_no_check (eq_refl true). Qed.
Lemma any_all : forallb (fun b => if unlucky b then wrong false b else check false b) blocks = true.
Proof. vm_cast_no_check (eq_refl true). Qed.
Lemma blocks_careful b : In b blocks -> (block_ok true b <-> always_wrong b = false).
Proof. exact (decided true always_wrong blocks careful_all b). Qed.
Lemma blocks_any b : In b blocks -> (block_ok false b <-> unlucky b = false).
Proof. exact (decided false unlucky blocks any_all b). Qed.
Lemma blocks_refuted : exists b, In b blocks /\ b_arch b = X86 /\ ~ block_ok true b.
Proof.
  destruct (List.find always_wrong blocks) as [b|] eqn:F; [|vm_compute in F; discriminate F]. apply find_some in F. destruct F as [I W].
  exists b. split; [exact I|]. split; [unfold always_wrong in W; destruct (b_arch b); try discriminate W; reflexivity|].
  intros OK. apply (blocks_careful b I) in OK. congruence.
Qed.

(** ** Writes *)
Lemma writes_all : forallb (fun b => match b_arch b with Alpha => true | _ => says_it_writes b || match assemble b with Some code => negb (writes code) | None => false end end) blocks = true.
Proof. vm_cast_no_check (eq_refl true). Qed.
Lemma writes_declared b code : In b blocks -> b_arch b <> Alpha -> assemble b = Some code -> writes code = true -> says_it_writes b = true.
Proof.
  intros I N A W. pose proof writes_all as F. rewrite forallb_forall in F. specialize (F b I). rewrite A, W in F. cbn [negb] in F. rewrite orb_false_r in F.
  destruct (b_arch b); try exact F. now elim N.
Qed.
Lemma writes_refuted : exists b code, In b blocks /\ assemble b = Some code /\ writes code = true /\ says_it_writes b = false.
Proof.
  destruct (List.find (fun b => negb (says_it_writes b) && match assemble b with Some code => writes code | None => false end) blocks) as [b|] eqn:F; [|vm_compute in F; discriminate F].
  apply find_some in F. destruct F as [I W]. rewrite andb_true_iff, negb_true_iff in W. destruct W as [W1 W2]. destruct (assemble b) as [code|] eqn:A; [|discriminate W2].
  exists b, code. auto.
Qed.

(** ** Conditional instructions *)
Lemma it_all : forallb (fun b => match b_arch b with Arm | AArch32 => it_ok b | _ => true end) blocks = true.
Proof. vm_cast_no_check (eq_refl true). Qed.
Lemma it_blocks b : In b blocks -> b_arch b = Arm \/ b_arch b = AArch32 -> it_ok b = true.
Proof. intros I A. pose proof it_all as F. rewrite forallb_forall in F. specialize (F b I). destruct A as [A|A]; rewrite A in F; exact F. Qed.

(** ** Every block can start and finish *)
Lemma runs_all : forallb (runs true) blocks = true.
Proof. vm_cast_no_check (eq_refl true). Qed.
Lemma blocks_run b : In b blocks -> can_run true b.
Proof. intros I. apply runs_ok. pose proof runs_all as F. rewrite forallb_forall in F. exact (F b I). Qed.
Lemma runs_any : forallb (runs false) (blocks_alpha ++ blocks_sparc) = true.
Proof. vm_cast_no_check (eq_refl true). Qed.
Lemma blocks_run_any b : In b (blocks_alpha ++ blocks_sparc) -> can_run false b.
Proof. intros I. apply runs_ok. pose proof runs_any as F. rewrite forallb_forall in F. exact (F b I). Qed.

(** * Counterexamples on widened storage: the schedules and their histories. *)
From Coq Require Import ZArith List Bool Lia.
From Verif Require Import SpecInt SpecLin SpecObj SpecHist Order Prog Word IntModel HistProof IntConseq.
Import ListNotations.
Open Scope Z_scope.

(** an 8-bit unsigned integer kept in a 32-bit word, compiler intrinsics *)
Definition wide_world : world := fun _ => mkobj false 8 32 (KGccAtomic false) XGeneric.
Definition ok_luck := mkluck true 0.

(** [n] uninterrupted steps of one call *)
Definition call_now (t : nat) (o : iop) (n : nat) : list (sched luck icall) :=
  solo t (0%nat, (SeqCst, o)) (repeat ok_luck n).

Definition wide_test_run := call_now 0 (Rmw Test (Bin Add 1)) 6.
Definition wide_negate_run :=
  call_now 0 (Rmw Fetch (Un Neg)) 6 ++ call_now 0 Load 3 ++ call_now 0 (CasStrong 255 0) 6.

Lemma wide_test_history :
  snd (int_run wide_world (fun _ => 255) (fun _ => 0) wide_test_run) =
  one_by_one 0 [((0%nat, (SeqCst, Rmw Test (Bin Add 1))), RBool true)].
Proof. vm_compute. reflexivity. Qed.

Lemma wide_negate_history :
  snd (int_run wide_world (fun _ => 1) (fun _ => 0) wide_negate_run) =
  one_by_one 0 [((0%nat, (SeqCst, Rmw Fetch (Un Neg))), RVal 1);
                ((0%nat, (SeqCst, Load)), RVal 255);
                ((0%nat, (SeqCst, CasStrong 255 0)), RCas false 255)].
Proof. vm_compute. reflexivity. Qed.

Lemma wide_test_bad : ~ linearizable (objects (int_spec wide_world)) (fun _ => 255)
   (snd (int_run wide_world (fun _ => 255) (fun _ => 0) wide_test_run)).
Proof.
  rewrite wide_test_history. intros H. apply lin_one_by_one in H. destruct H as [s' H].
  inversion H as [|? ? ? ? ? ? ? Hs]; subst. destruct Hs as [Hs _]. unfold int_spec in Hs. simpl in Hs. inversion Hs.
Qed.

Lemma wide_negate_bad : ~ linearizable (objects (int_spec wide_world)) (fun _ => 1)
   (snd (int_run wide_world (fun _ => 1) (fun _ => 0) wide_negate_run)).
Proof.
  rewrite wide_negate_history. intros H. apply lin_one_by_one in H. destruct H as [s' H].
  inversion H as [|? ? ? ? s1 ? ? Hs1 H1]; subst. inversion H1 as [|? ? ? ? s2 ? ? Hs2 H2]; subst.
  inversion H2 as [|? ? ? ? s3 ? ? Hs3 H3]; subst.
  destruct Hs2 as [Hs2 _]. destruct Hs3 as [Hs3 _]. unfold int_spec in *. simpl in Hs2, Hs3.
  inversion Hs2; subst. inversion Hs3; subst. congruence.
Qed.

Lemma wide_test_refuted :
  exists (W : world) (v0 n0 : addr -> Z) (l : list (sched luck icall)),
  world_ok W v0 /\
  (forall t a mo o, In (SInv t (a, (mo, o))) l -> iop_ok (o_sg (W a)) (o_vw (W a)) o) /\
  ~ linearizable (objects (int_spec W)) v0 (snd (int_run W v0 n0 l)).
Proof.
  exists wide_world, (fun _ => 255), (fun _ => 0), wide_test_run. refine (conj _ (conj _ wide_test_bad)).
  - intros a. unfold obj_ok, rng. simpl. repeat split; auto; lia.
  - intros t a mo o Hin. simpl in Hin.
    repeat (destruct Hin as [Hin|Hin]; [inversion Hin; subst; simpl; unfold rng; lia|]). destruct Hin.
Qed.

Lemma wide_negate_refuted :
  let c o := (0%nat, (SeqCst, o)) in
  exists (W : world) (v0 n0 : addr -> Z) (l : list (sched luck icall)),
  world_ok W v0 /\
  (forall t a mo o, In (SInv t (a, (mo, o))) l -> iop_ok (o_sg (W a)) (o_vw (W a)) o) /\
  snd (int_run W v0 n0 l) =
    [EInv 0 (c (Rmw Fetch (Un Neg))); ERes 0 (RVal 1); EInv 0 (c Load); ERes 0 (RVal 255);
     EInv 0 (c (CasStrong 255 0)); ERes 0 (RCas false 255)]%nat /\
  ~ linearizable (objects (int_spec W)) v0 (snd (int_run W v0 n0 l)).
Proof.
  intros c. exists wide_world, (fun _ => 1), (fun _ => 0), wide_negate_run.
  refine (conj _ (conj _ (conj wide_negate_history wide_negate_bad))).
  - intros a. unfold obj_ok, rng. simpl. repeat split; auto; lia.
  - intros t a mo o Hin. simpl in Hin.
    repeat (destruct Hin as [Hin|Hin]; [inversion Hin; subst; simpl; unfold rng; (exact I || lia)|]). destruct Hin.
Qed.

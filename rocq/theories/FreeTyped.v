(** * Lock-freedom of all atomic objects: instances. *)
From Coq Require Import ZArith List Bool Lia.
From Verif Require Import SpecInt SpecLin SpecTyped SpecAlone SpecFree Order Conv Prog Word CoreModel ExtraModel IntModel TypedModel
  PairModel Progress ProgressInt ProgressPair FreeProof FreeInt FreeWait.
Import ListNotations.
Open Scope Z_scope.
Opaque ob ev after.

Lemma free_both {op ret} (impl : op -> wprog ret) (adr : op -> addr) n m0 :
  (forall o, ob (adr o) n (impl o)) -> (forall o, once (adr o) (impl o)) ->
  lock_free_within impl adr n m0 /\ someone_finishes_within impl adr n m0.
Proof. intros H1 H2. assert (H := lock_free_all impl adr n m0 H1 H2). split; auto. now apply someone_finishes_all. Qed.

Theorem int_free W v0 n0 :
  lock_free_within (int_impl W) fst 12 (int_mem W v0 n0) /\ someone_finishes_within (int_impl W) fst 12 (int_mem W v0 n0).
Proof. apply free_both; intros (a & mo & o); [apply int_prog_fin | apply obj_front_once]. Qed.
Theorem ptr_free W m0 : lock_free_within (ptr_impl W) fst 12 m0 /\ someone_finishes_within (ptr_impl W) fst 12 m0.
Proof. apply free_both; intros (a & mo & o); [apply int_prog_fin | apply obj_front_once]. Qed.
Theorem bool_free W m0 : lock_free_within (bool_impl W) fst 12 m0 /\ someone_finishes_within (bool_impl W) fst 12 m0.
Proof. apply free_both; intros (a & mo & o); [apply obj_front_fin | apply obj_front_once]. Qed.
Theorem enum_free W m0 : lock_free_within (enum_impl W) fst 12 m0 /\ someone_finishes_within (enum_impl W) fst 12 m0.
Proof. apply free_both; intros (a & mo & o); [apply obj_front_fin | apply obj_front_once]. Qed.
Theorem fp_free W m0 : lock_free_within (fp_impl W) fst 12 m0 /\ someone_finishes_within (fp_impl W) fst 12 m0.
Proof. apply free_both; intros (a & mo & o); [apply fp_prog_fin | apply fp_prog_once]. Qed.
Theorem gen_free W m0 : lock_free_within (gen_impl W) fst 12 m0 /\ someone_finishes_within (gen_impl W) fst 12 m0.
Proof. apply free_both; intros (a & mo & o); [apply obj_front_fin | apply obj_front_once]. Qed.
Theorem flag_free W m0 : lock_free_within (flag_impl W) fst 12 m0 /\ someone_finishes_within (flag_impl W) fst 12 m0.
Proof. apply free_both; intros (a & mo & o); [apply flag_prog_fin | apply flag_prog_once]. Qed.
Theorem ref_free W m0 : lock_free_within (ref_impl W) fst 12 m0 /\ someone_finishes_within (ref_impl W) fst 12 m0.
Proof. apply free_both; intros (a & mo & o); [apply ref_prog_fin | apply ref_prog_once]. Qed.
Theorem pair_free W m0 : lock_free_within (pair_impl W) fst 12 m0 /\ someone_finishes_within (pair_impl W) fst 12 m0.
Proof.
  apply free_both; intros (a & mo & o); unfold pair_impl; cbn [fst snd]; [apply pair_prog_fin | apply front_once; [apply pair_core_once | apply extra_pair_once]].
Qed.

(** ** Left alone, every call finishes *)
Theorem alone_all {op ret} (impl : op -> wprog ret) (adr : op -> addr) n m0 :
  (forall o, ob (adr o) n (impl o)) -> completes_alone impl adr n m0.
Proof. intros H l1 l2 t o. now apply progress_sched. Qed.
Theorem typed_alone m0 :
  (forall W, completes_alone (ptr_impl W) fst 12 m0) /\ (forall W, completes_alone (bool_impl W) fst 12 m0) /\
  (forall W, completes_alone (enum_impl W) fst 12 m0) /\ (forall W, completes_alone (fp_impl W) fst 12 m0) /\
  (forall W, completes_alone (gen_impl W) fst 12 m0) /\ (forall W, completes_alone (flag_impl W) fst 12 m0) /\
  (forall W, completes_alone (ref_impl W) fst 12 m0) /\ (forall W, completes_alone (pair_impl W) fst 12 m0).
Proof.
  repeat split; intros W; apply alone_all; intros (a & mo & o);
    [apply int_prog_fin | apply obj_front_fin | apply obj_front_fin | apply fp_prog_fin | apply obj_front_fin | apply flag_prog_fin
    | apply ref_prog_fin | unfold pair_impl; cbn [fst snd]; apply pair_prog_fin].
Qed.

Theorem int_wait_free (W : world) (m0 : wmem) :
  (forall a, kind_width (o_core (W a)) (o_w (W a))) ->
  wait_free_within (int_impl W) 2
    (fun c => match snd (snd c) with
              | Load | CasWeak _ _ => True
              | o => straight (W (fst c)) (fst (snd c)) o = true end) m0.
Proof.
  intros Hk. apply wait_free_all. intros (a & mo & o) H. apply straight_bnd; [apply Hk|]. simpl in H. destruct o; auto.
Qed.

Theorem fetch_starves : exists (W : world) (c : icall) (v0 n0 : addr -> Z),
  world_ok W v0 /\ icall_ok W c /\ snd (snd c) = Rmw Fetch (Bin Xor 1) /\ may_starve (int_impl W) 1 c (int_mem W v0 n0).
Proof.
  exists x86_world, x86_call, (fun _ => 0), (fun _ => 0). repeat split; try exact x86_starves; simpl; auto; try lia; try discriminate;
  unfold rng; simpl; lia.
Qed.
Theorem store_starves : exists (W : world) (c : icall) (v0 n0 : addr -> Z),
  world_ok W v0 /\ icall_ok W c /\ snd (snd c) = Store 1 /\ may_starve (int_impl W) 1 c (int_mem W v0 n0).
Proof.
  exists arm_world, arm_store, (fun _ => 0), (fun _ => 0). repeat split; try exact arm_store_starves; simpl; auto; try lia; try discriminate;
  unfold rng; simpl; lia.
Qed.
Theorem load_starves : exists (W : addr -> bool) (a : addr) (v0 n0 : addr -> Z),
  may_starve (pair_impl W) 1 (a, (SeqCst, Load)) (pair_mem v0 n0).
Proof. exists (fun _ => false), 0%nat, (fun _ => 0), (fun _ => 0). exact pair_load_starves. Qed.

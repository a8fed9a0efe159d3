(** * Properties C17 and C46: progress of the retry loops. *)
From Coq Require Import ZArith List Bool Permutation Lia.
From Verif Require Import SpecInt SpecLin SpecObj SpecHist SpecAlone SpecCount Order Prog Word IntModel IntConseq
  WideCex IntExamples ProgressInt TypedModel PairModel FreeTyped.
Import ListNotations.
Open Scope Z_scope.

(** ** C17: wherever a call has got to after an arbitrary execution, twelve further steps of its own
    finish it, provided nobody else writes the object meanwhile and nothing fails spuriously (the
    first, racy read may return anything).  Equivalently: a call that needs more steps has lost
    against a write by another thread or a spurious failure. *)
Theorem C17_completes_when_undisturbed :
  forall (W : world) (v0 n0 : addr -> Z) (l1 l2 : list (sched luck icall)) (t : nat) (a : addr) (mo : morder) (o : iop),
  let c1 := fst (int_run W v0 n0 l1) in
  inside c1 t (a, (mo, o)) ->
  alone (int_impl W) t a c1 l2 ->
  (12 <= steps_by t l2)%nat ->
  finished (fst (run wexec (int_impl W) c1 l2)) t.
Proof. exact int_progress_aux. Qed.

(** Thread 1 is in the middle of its loop when thread 2 overwrites the object; then it is left alone,
    while thread 2 goes on with another object. *)
Definition disturbed (a : addr) (o : iop) : list (sched luck icall) :=
  [SInv 1 (a, (SeqCst, o)); SInv 2 (a, (SeqCst, Store 3))] ++ repeat (SStep 1 (mkluck false 77)) 2 ++
  steps_of 2 12 ++ [SRes 2].
Arguments disturbed a%nat_scope o.
Definition then_alone : list (sched luck icall) :=
  [SInv 2 (5%nat, (SeqCst, Store 9))] ++ steps_of 1 6 ++ steps_of 2 8 ++ steps_of 1 6.
Example C17_applies :
  let c1 := fst (int_run mixed mixed0 (fun _ => 0) (disturbed 1 (Rmw Fetch (Bin Add 4)))) in
  inside c1 1 (1%nat, (SeqCst, Rmw Fetch (Bin Add 4))) /\
  alone (int_impl mixed) 1 1 c1 then_alone /\
  steps_by 1 then_alone = 12%nat /\
  ~ finished c1 1 /\
  shown mixed (c_mem (fst (run wexec (int_impl mixed) c1 then_alone))) 1 = 7.
Proof. vm_compute. intuition discriminate. Qed.

(** the same for all other kinds of objects *)
Theorem C17_all_kinds : forall m0 : wmem,
  (forall W, completes_alone (ptr_impl W) fst 12 m0) /\ (forall W, completes_alone (bool_impl W) fst 12 m0) /\
  (forall W, completes_alone (enum_impl W) fst 12 m0) /\ (forall W, completes_alone (fp_impl W) fst 12 m0) /\
  (forall W, completes_alone (gen_impl W) fst 12 m0) /\ (forall W, completes_alone (flag_impl W) fst 12 m0) /\
  (forall W, completes_alone (ref_impl W) fst 12 m0) /\ (forall W, completes_alone (pair_impl W) fst 12 m0).
Proof. exact typed_alone. Qed.

(** ** C46 *)
Theorem C46_arm_strong_cas_genuine :
  forall (W : world) (v0 n0 : addr -> Z) (l : list (sched luck icall)) (a : addr),
  world_ok W v0 -> legal (icall_ok W) l -> o_core (W a) = KLinuxArm ->
  let res := int_run W v0 n0 l in
  forall t mo e d r, In (t, (mo, CasStrong e d), r) (calls_on a (completed (snd res))) ->
    r = RCas true e \/ exists x, x <> e /\ rng (o_sg (W a)) (o_vw (W a)) x /\ r = RCas false x.
Proof. exact arm_genuine_aux. Qed.

Theorem C46_arm_strong_cas_terminates :
  forall (W : world) (v0 n0 : addr -> Z) (l1 l2 : list (sched luck icall)) (t : nat) (a : addr) (mo : morder) (e d : Z),
  o_core (W a) = KLinuxArm ->
  let c1 := fst (int_run W v0 n0 l1) in
  inside c1 t (a, (mo, CasStrong e d)) ->
  alone (int_impl W) t a c1 l2 ->
  (12 <= steps_by t l2)%nat ->
  finished (fst (run wexec (int_impl W) c1 l2)) t.
Proof. exact arm_terminates_aux. Qed.

(** The helper fails spuriously twice, then the exchange is found to be impossible. *)
Example C46_applies :
  let l := disturbed 2 (CasStrong 5 6) in
  o_core (mixed 2%nat) = KLinuxArm /\
  let c1 := fst (int_run mixed mixed0 (fun _ => 0) l) in
  inside c1 1 (2%nat, (SeqCst, CasStrong 5 6)) /\ ~ finished c1 1 /\
  alone (int_impl mixed) 1 2 c1 then_alone /\
  snd (run wexec (int_impl mixed) c1 (then_alone ++ [SRes 1])) =
    [EInv 2 (5%nat, (SeqCst, Store 9)); ERes 1 (RCas false 3)].
Proof. vm_compute. intuition discriminate. Qed.

Print Assumptions C17_completes_when_undisturbed.
Print Assumptions C17_all_kinds.
Print Assumptions C46_arm_strong_cas_genuine.
Print Assumptions C46_arm_strong_cas_terminates.

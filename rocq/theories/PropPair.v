(** * Properties C18 and C19: atomics as wide as two machine words. *)
From Coq Require Import ZArith List Bool Lia.
From Verif Require Import SpecInt SpecLin SpecObj SpecHist SpecUntorn SpecPair SpecAlone Order Prog Word IntModel
  IntConseq WideCex IntExamples PropInt PairModel PairProof UntornProof ProgressPair.
Import ListNotations.
Open Scope Z_scope.

(** ** C18 *)

(** The operations that start from two separate half reads (cmpxchg8b / cmpxchg16b) are linearizable
    in any mixture with other atomics. *)
Theorem C18_double_width_linearizable :
  forall (W : world) (v0 n0 : addr -> Z) (l : list (sched luck icall)) (a : addr) (b : bool),
  world_ok W v0 -> legal (icall_ok W) l -> o_core (W a) = KX86D b \/ o_core (W a) = KMsvcD b ->
  let res := int_run W v0 n0 l in
  exists v th, linearizable_to (objects (int_spec W)) v0 (snd res) v th /\
               v a = shown W (c_mem (fst res)) a.
Proof.
  intros W v0 n0 l a b HW Hl Hk. destruct (int_main W v0 n0 l HW Hl) as (v & th & H1 & H2 & H3).
  exists v, th. split; [exact H1 | apply H2].
Qed.

(** If only whole values are stored, exchanged and compare-exchanged, then every value reported and, at
    every instant, the value shown, is the initial one or the whole argument of some call. *)
Theorem C18_double_width_untorn :
  forall (W : world) (v0 n0 : addr -> Z) (l : list (sched luck icall)) (a : addr) (b : bool),
  world_ok W v0 -> legal (icall_ok W) l -> o_core (W a) = KX86D b \/ o_core (W a) = KMsvcD b ->
  let res := int_run W v0 n0 l in
  (forall t mo o, In (t, (mo, o)) (invoked_on a (snd res)) -> plain o = true) ->
  source (v0 a) (invoked_on a (snd res)) (shown W (c_mem (fst res)) a) /\
  forall t o r x, In (t, o, r) (calls_on a (completed (snd res))) -> reads r x ->
    source (v0 a) (invoked_on a (snd res)) x.
Proof. intros W v0 n0 l a b HW Hl _. exact (int_untorn_aux W v0 n0 l a HW Hl). Qed.

(** Thread 1's exchange reads one half before and one half after thread 2's store. *)
Definition whole1 := 1 * 2^32 + 1.
Definition whole2 := 2 * 2^32 + 2.
Definition torn_start : list (sched luck icall) :=
  [SInv 1 (5%nat, (SeqCst, Exchange whole1)); SInv 2 (5%nat, (SeqCst, Store whole2)); SStep 1 ok_luck] ++
  steps_of 2 6 ++ steps_of 1 6 ++ [SRes 2; SRes 1].
Example C18_applies :
  o_core (mixed 5%nat) = KX86D false /\
  let res := int_run mixed mixed0 (fun _ => 0) torn_start in
  (forall t mo o, In (t, (mo, o)) (invoked_on 5 (snd res)) -> plain o = true) /\
  calls_on 5 (completed (snd res)) =
    [(2%nat, (SeqCst, Store whole2), RUnit); (1%nat, (SeqCst, Exchange whole1), RVal whole2)] /\
  legal (icall_ok mixed) torn_start.
Proof.
  split; [reflexivity|]. split; [|split].
  - intros t mo o H. vm_compute in H. destruct H as [H|[H|[]]]; inversion H; reflexivity.
  - vm_compute. reflexivity.
  - intros t o H. unfold torn_start, steps_of in H. simpl in H.
    repeat (destruct H as [H|H]; [inversion H; subst; try (unfold icall_ok, iop_ok, rng, whole1, whole2; simpl; lia)|]). destruct H.
Qed.

(** ** C19 *)

(** Full property: 128-bit atomics on AArch64 are linearizable objects.  Proved: they are, except that
    a failed compare_exchange may report a value the object never held ([pair_step]). *)
Theorem C19_pair_linearizable_partial :
  forall (W : pworld) (v0 n0 : addr -> Z) (l : list (sched luck icall)),
  (forall a, rng (W a) 128 (v0 a)) ->
  (forall t a mo o, In (SInv t (a, (mo, o))) l -> iop_ok (W a) 128 o) ->
  let res := pair_run W v0 n0 l in
  exists v th, linearizable_to (objects (pair_spec W)) v0 (snd res) v th /\
               (forall a, v a = pair_shown W (c_mem (fst res)) a) /\
               (quiet (fst res) -> forall t, th t = PIdle).
Proof. exact pair_linearizable_aux. Qed.

(** Loads, exchanges and successful compare-exchanges report whole values, and only whole values are
    ever stored. *)
Theorem C19_pair_untorn_partial :
  forall (W : pworld) (v0 n0 : addr -> Z) (l : list (sched luck icall)) (a : addr),
  (forall a, rng (W a) 128 (v0 a)) ->
  (forall t a mo o, In (SInv t (a, (mo, o))) l -> iop_ok (W a) 128 o) ->
  let res := pair_run W v0 n0 l in
  (forall t mo o, In (t, (mo, o)) (invoked_on a (snd res)) -> plain o = true) ->
  source (v0 a) (invoked_on a (snd res)) (pair_shown W (c_mem (fst res)) a) /\
  forall t o r x, In (t, o, r) (calls_on a (completed (snd res))) -> reads_ok r x ->
    source (v0 a) (invoked_on a (snd res)) x.
Proof. exact pair_untorn_aux. Qed.

(** The full property fails: thread 1's compare_exchange_strong reads the low half, thread 2 stores a
    new whole value, thread 1 reads the high half, finds a mismatch, and reports the mixture. *)
Definition pw1 := 1 * 2^64 + 1.
Definition pw2 := 2 * 2^64 + 2.
Definition pair_torn : list (sched luck icall) :=
  [SInv 1 (0%nat, (SeqCst, CasStrong 0 7)); SInv 2 (0%nat, (SeqCst, Store pw2)); SStep 1 ok_luck; SStep 1 ok_luck] ++
  steps_of 2 6 ++ steps_of 1 6 ++ [SRes 2; SRes 1].
Theorem C19_failed_cas_torn_refuted :
  exists (W : pworld) (v0 n0 : addr -> Z) (l : list (sched luck icall)) (a : addr),
  (forall a, rng (W a) 128 (v0 a)) /\
  (forall t a mo o, In (SInv t (a, (mo, o))) l -> iop_ok (W a) 128 o) /\
  let res := pair_run W v0 n0 l in
  (forall t mo o, In (t, (mo, o)) (invoked_on a (snd res)) -> plain o = true) /\
  exists t o r x, In (t, o, r) (calls_on a (completed (snd res))) /\ reads r x /\
    ~ source (v0 a) (invoked_on a (snd res)) x.
Proof.
  exists (fun _ => false), (fun _ => pw1), (fun _ => 0), pair_torn, 0%nat.
  refine (conj _ (conj _ (conj _ _))).
  - intros _. unfold rng, pw1. lia.
  - intros t a mo o H. unfold pair_torn, steps_of in H. simpl in H.
    repeat (destruct H as [H|H]; [inversion H; subst; try (unfold iop_ok, rng, pw2; simpl; lia)|]). destruct H.
  - intros t mo o H. vm_compute in H. destruct H as [H|[H|[]]]; inversion H; reflexivity.
  - exists 1%nat, (SeqCst, CasStrong 0 7), (RCas false (2 * 2^64 + 1)), (2 * 2^64 + 1).
    refine (conj _ (conj _ _)).
    + vm_compute. auto.
    + right. now exists false.
    + intros [H|(t & mo & o & Hin & Hw)]; [discriminate H|].
      vm_compute in Hin. destruct Hin as [E|[E|[]]]; inversion E; subst;
        destruct Hw as [Hw|[Hw|[[e Hw]|[e Hw]]]]; discriminate Hw.
Qed.

(** The hypotheses are met; a carry crosses the halves, and a store is retried. *)
Definition pair_race : list (sched luck icall) :=
  [SInv 1 (0%nat, (SeqCst, Rmw Fetch (Bin Add 1))); SInv 2 (0%nat, (SeqCst, Exchange (2^64 - 1)))] ++
  repeat (SStep 1 unlucky) 2 ++ steps_of 2 6 ++ steps_of 1 8 ++ [SRes 2; SRes 1].
Example C19_applies :
  (forall t a mo o, In (SInv t (a, (mo, o))) pair_race -> iop_ok false 128 o) /\
  let res := pair_run (fun _ => false) (fun _ => pw1) (fun _ => 0) pair_race in
  completed (snd res) =
    [(2%nat, (0%nat, (SeqCst, Exchange (2^64 - 1))), RVal pw1);
     (1%nat, (0%nat, (SeqCst, Rmw Fetch (Bin Add 1))), RVal (2^64 - 1))] /\
  pair_shown (fun _ => false) (c_mem (fst res)) 0 = 2^64.
Proof.
  split; [|vm_compute; auto].
  intros t a mo o H. unfold pair_race, steps_of in H. simpl in H.
  repeat (destruct H as [H|H]; [inversion H; subst; try (unfold iop_ok, rng; simpl; lia); exact I|]). destruct H.
Qed.

(** Left alone, each operation completes in twelve of its own steps. *)
Theorem C19_pair_completes_when_undisturbed :
  forall (W : pworld) (v0 n0 : addr -> Z) (l1 l2 : list (sched luck icall)) (t : nat) (a : addr) (mo : morder) (o : iop),
  let c1 := fst (pair_run W v0 n0 l1) in
  inside c1 t (a, (mo, o)) ->
  alone (pair_impl W) t a c1 l2 ->
  (12 <= steps_by t l2)%nat ->
  finished (fst (run wexec (pair_impl W) c1 l2)) t.
Proof. exact pair_progress_aux. Qed.
Example C19_progress_applies :
  let l1 := [SInv 1 (0%nat, (SeqCst, Load)); SInv 2 (0%nat, (SeqCst, Store 3)); SStep 1 ok_luck] ++ steps_of 2 6 in
  let c1 := fst (pair_run (fun _ => false) (fun _ => pw1) (fun _ => 0) l1) in
  inside c1 1 (0%nat, (SeqCst, Load)) /\ ~ finished c1 1 /\
  alone (pair_impl (fun _ => false)) 1 0 c1 (steps_of 1 12).
Proof. vm_compute. intuition discriminate. Qed.

Print Assumptions C18_double_width_linearizable.
Print Assumptions C18_double_width_untorn.
Print Assumptions C19_pair_linearizable_partial.
Print Assumptions C19_pair_untorn_partial.
Print Assumptions C19_failed_cas_torn_refuted.
Print Assumptions C19_pair_completes_when_undisturbed.

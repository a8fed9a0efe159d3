(** * Properties C52 and C53: lock-freedom and wait-freedom. *)
From Coq Require Import ZArith List Bool Lia.
From Verif Require Import SpecInt SpecLin SpecTyped SpecAlone SpecFree Order Prog Word IntModel TypedModel PairModel
  WideCex IntExamples FreeProof FreeInt FreeWait FreeTyped.
Import ListNotations.
Open Scope Z_scope.

(** ** C52: whatever the threads have done and are doing on an object, at most [12 P (P + finished calls)] steps
    are made inside calls on it by [P] threads, plus 13 for every spurious failure; so among enough
    steps, however interleaved, some call gets to its end, even if other threads stop for ever. *)
Theorem C52_integers : forall (W : world) (v0 n0 : addr -> Z),
  lock_free_within (int_impl W) fst 12 (int_mem W v0 n0) /\ someone_finishes_within (int_impl W) fst 12 (int_mem W v0 n0).
Proof. exact int_free. Qed.
Theorem C52_pointers : forall (W : addr -> pobj) (m0 : wmem),
  lock_free_within (ptr_impl W) fst 12 m0 /\ someone_finishes_within (ptr_impl W) fst 12 m0.
Proof. exact ptr_free. Qed.
Theorem C52_booleans : forall (W : world) (m0 : wmem),
  lock_free_within (bool_impl W) fst 12 m0 /\ someone_finishes_within (bool_impl W) fst 12 m0.
Proof. exact bool_free. Qed.
Theorem C52_enumerations : forall (W : addr -> eobj) (m0 : wmem),
  lock_free_within (enum_impl W) fst 12 m0 /\ someone_finishes_within (enum_impl W) fst 12 m0.
Proof. exact enum_free. Qed.
Theorem C52_floating_point : forall (W : addr -> fobj) (m0 : wmem),
  lock_free_within (fp_impl W) fst 12 m0 /\ someone_finishes_within (fp_impl W) fst 12 m0.
Proof. exact fp_free. Qed.
Theorem C52_values : forall (W : addr -> gobj) (m0 : wmem),
  lock_free_within (gen_impl W) fst 12 m0 /\ someone_finishes_within (gen_impl W) fst 12 m0.
Proof. exact gen_free. Qed.
Theorem C52_flags : forall (W : addr -> flobj) (m0 : wmem),
  lock_free_within (flag_impl W) fst 12 m0 /\ someone_finishes_within (flag_impl W) fst 12 m0.
Proof. exact flag_free. Qed.
Theorem C52_references : forall (W : addr -> robj) (m0 : wmem),
  lock_free_within (ref_impl W) fst 12 m0 /\ someone_finishes_within (ref_impl W) fst 12 m0.
Proof. exact ref_free. Qed.
(** 16-byte integers on AArch64 without single-copy atomic pair loads: [true] for signed *)
Theorem C52_aarch64_pairs : forall (W : addr -> bool) (m0 : wmem),
  lock_free_within (pair_impl W) fst 12 m0 /\ someone_finishes_within (pair_impl W) fst 12 m0.
Proof. exact pair_free. Qed.

(** Threads 1 and 2 add to the same object (load-linked/store-conditional); thread 1 is
    overtaken once and fails spuriously twice, thread 3 is stuck in the middle of a call. *)
Definition duel : list (sched luck icall) :=
  [SInv 1 (1%nat, (SeqCst, Rmw Fetch (Bin Add 4))); SInv 2 (1%nat, (SeqCst, Rmw Fetch (Bin Add 3)))] ++
  steps_of 1 2 ++ steps_of 2 12 ++ [SRes 2] ++ repeat (SStep 1 unlucky) 7 ++ steps_of 1 12.
Example C52_applies :
  let c1 := fst (int_run mixed mixed0 (fun _ => 0) [SInv 3 (1%nat, (SeqCst, Rmw Fetch (Bin Add 1))); SStep 3 ok_luck]) in
  working fst 1%nat c1 3 = true /\
  NoDup [1; 2]%nat /\
  forallb (fun e => match e with SStep t _ => (t =? 1)%nat || (t =? 2)%nat | _ => true end) duel = true /\
  count (int_impl mixed) (works fst 1%nat) c1 duel = 15%nat /\
  count (int_impl mixed) (stumbles fst 1%nat) c1 duel = 2%nat /\
  count (int_impl mixed) (finishes (int_impl mixed) fst 1%nat) c1 duel = 2%nat.
Proof. vm_compute. intuition (try discriminate). repeat constructor; simpl; intuition discriminate. Qed.

(** ** C53 *)
(** load and compare_exchange_weak everywhere but in the 16-byte AArch64 case; plain stores, exchange,
    compare_exchange_strong and the fetch operations where the target has an instruction for them
    ([straight] in FreeWait.v lists them) *)
Theorem C53_bounded_calls_partial : forall (W : world) (m0 : wmem),
  (forall a, kind_width (o_core (W a)) (o_w (W a))) ->
  wait_free_within (int_impl W) 2
    (fun c => match snd (snd c) with
              | Load | CasWeak _ _ => True
              | o => straight (W (fst c)) (fst (snd c)) o = true end) m0.
Proof. exact int_wait_free. Qed.

Example C53_applies :
  (forall a, kind_width (o_core (mixed a)) (o_w (mixed a))) /\
  straight (mixed 0%nat) Relaxed (Rmw Fetch (Bin Add 1)) = true /\
  straight (mixed 0%nat) Relaxed (Rmw Fetch (Bin Xor 1)) = false /\
  let c1 := fst (int_run mixed mixed0 (fun _ => 0) [SInv 1 (2%nat, (SeqCst, CasWeak 5 6)); SStep 1 unlucky]) in
  inside c1 1 (2%nat, (SeqCst, CasWeak 5 6)) /\ ~ finished c1 1.
Proof. split; [apply mixed_ok | vm_compute; intuition discriminate]. Qed.

(** A loop on compare-and-swap may lose for ever, and so may a store of 8 bytes on 32-bit ARM and a load made of
    load- and store-exclusive pairs. *)
Theorem C53_fetch_refuted : exists (W : world) (c : icall) (v0 n0 : addr -> Z),
  world_ok W v0 /\ icall_ok W c /\ snd (snd c) = Rmw Fetch (Bin Xor 1) /\
  may_starve (int_impl W) 1 c (int_mem W v0 n0).
Proof. exact fetch_starves. Qed.

Theorem C53_store_refuted : exists (W : world) (c : icall) (v0 n0 : addr -> Z),
  world_ok W v0 /\ icall_ok W c /\ snd (snd c) = Store 1 /\
  may_starve (int_impl W) 1 c (int_mem W v0 n0).
Proof. exact store_starves. Qed.

Theorem C53_load_refuted : exists (W : addr -> bool) (a : addr) (v0 n0 : addr -> Z),
  may_starve (pair_impl W) 1 (a, (SeqCst, Load)) (pair_mem v0 n0).
Proof. exact load_starves. Qed.

Print Assumptions C52_integers.
Print Assumptions C52_pointers.
Print Assumptions C52_booleans.
Print Assumptions C52_enumerations.
Print Assumptions C52_floating_point.
Print Assumptions C52_values.
Print Assumptions C52_flags.
Print Assumptions C52_references.
Print Assumptions C52_aarch64_pairs.
Print Assumptions C53_bounded_calls_partial.
Print Assumptions C53_fetch_refuted.
Print Assumptions C53_store_refuted.
Print Assumptions C53_load_refuted.

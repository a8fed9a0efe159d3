(** * Example for C56: a message passed through a lock-based object on Arm. *)
From Coq Require Import ZArith Arith List Bool Lia.
From Verif Require Import SpecInt SpecBytes SpecPool Conv Order Reorder SpecOrder FenceModel SpecFence FenceProof SpecLock LockProof Prog
  FindModel RecordsModel PoolModel SpecHand HandThread.
Import ListNotations.
Open Scope nat_scope.

Definition h_pl : platform := Build_platform LFutex 1 16 true find_address_generic 2 (fun _ d => d) 1 true.
Definition h_objects (a : nat) : odesc := Build_odesc 0 1 1 false WEmulated.
Notation "a ~> x" := (existT presp a x) (at level 60).

(** Thread 0 writes variable 2 and then stores 5 in the object.  Thread 1 meets the lock held once, then loads the 5, and
    reads variable 2.  The byte of the object is variable 1, the lock variable 0. *)
Definition h_store : list (did pact presp * list item) :=
  [(MLoad 0 Relaxed ~> 0%Z, emit Arm 0 (OLoad 0 Relaxed));
   (MCas false 0 0 1 Acquire Relaxed ~> (true, 0%Z), emit Arm 0 (OCas true 0 Acquire Relaxed));
   (BWr 0 0 5 ~> tt, [Access (plain_write 1)]);
   (MLoad 0 Relaxed ~> 1%Z, emit Arm 0 (OLoad 0 Relaxed));
   (MCas true 0 1 4 Release Relaxed ~> (true, 1%Z), emit Arm 0 (OCas true 0 Release Relaxed))].
Definition h_load : list (did pact presp * list item) :=
  [(MLoad 0 Relaxed ~> 1%Z, emit Arm 0 (OLoad 0 Relaxed));
   (Pause ~> tt, []);
   (MLoad 0 Relaxed ~> 4%Z, emit Arm 0 (OLoad 0 Relaxed));
   (MCas false 0 4 5 Acquire Relaxed ~> (true, 4%Z), emit Arm 0 (OCas true 1 Acquire Relaxed));
   (BRd 0 0 ~> 5%Z, [Access (plain_read 1)]);
   (MLoad 0 Relaxed ~> 5%Z, emit Arm 0 (OLoad 0 Relaxed));
   (MCas true 0 5 8 Release Relaxed ~> (true, 5%Z), emit Arm 0 (OCas true 0 Release Relaxed))].
Definition h_threads (t : nat) : list event :=
  match t with
  | 0 => [User [Access (plain_write 2)]; Call (0, AData (Store 5)) h_store (Some (RI RUnit))]
  | 1 => [Call (0, AData Load) h_load (Some (RI (RVal 5))); User [Access (plain_read 2)]]
  | _ => []
  end.
Definition h_place (t i : nat) : nat :=
  match t with
  | 0 => nth i [0; 1; 2; 3; 4; 5; 6; 7; 8; 9] 0
  | 1 => nth i [0; 1; 2; 3; 4; 5; 6; 7; 8; 9; 10; 11] 0
  | _ => 0
  end.
(** The write of variable 2 is late, the read of it early. *)
Definition h_time (t i : nat) : nat :=
  match t with
  | 0 => nth i [4; 0; 1; 2; 0; 5; 6; 0; 7; 8] 0
  | 1 => nth i [3; 9; 10; 11; 12; 0; 14; 13; 0; 16; 17; 15] 0
  | _ => 0
  end.
Definition h_val (t i : nat) : Z :=
  match t, i with 0, 3 => 1%Z | 0, 9 => 4%Z | 1, 4 => 5%Z | 1, 10 => 8%Z | _, _ => 0%Z end.

Ltac act x := right; exists x; eexists; split; [reflexivity|].
Lemma h_store_path : path (pool_impl h_pl h_objects (0, AData (Store 5))) (map fst h_store) (Some (RI RUnit)).
Proof.
  act 0%Z. act (true, 0%Z). act tt. act 1%Z.
  apply (turn_out _ _ _ (1%Z, 4%Z) [existT presp (MCas true 0 1 4 Release Relaxed) (true, 1%Z)] []).
  - act (true, 1%Z). split; [reflexivity|right; reflexivity].
  - split; [reflexivity|right; reflexivity].
Qed.
Lemma h_load_path : path (pool_impl h_pl h_objects (0, AData Load)) (map fst h_load) (Some (RI (RVal 5))).
Proof.
  act 1%Z. act tt. act 4%Z. act (true, 4%Z). act 5%Z. act 5%Z.
  apply (turn_out _ _ _ (5%Z, 8%Z) [existT presp (MCas true 0 5 8 Release Relaxed) (true, 5%Z)] []).
  - act (true, 5%Z). split; [reflexivity|right; reflexivity].
  - split; [reflexivity|right; reflexivity].
Qed.
Lemma h_together : together (machine_of Arm) (fun t => code_of (h_threads t)) h_place h_time.
Proof.
  constructor.
  - intros [|[|t]]; [apply execution_b_sound; reflexivity|apply execution_b_sound; reflexivity|apply idle].
  - apply clocked; [|distinct]. intros [|[|t]] i A; try lia. exfalso. exact (none_there _ A).
Qed.
Lemma h_writes u i : writes_to (fun t => code_of (h_threads t)) 0 (u, i) -> u = 0 /\ (i = 3 \/ i = 9) \/ u = 1 /\ (i = 4 \/ i = 10).
Proof. intros W. apply writes_to_in in W. destruct u as [|[|u]]; vm_compute in W; intuition auto. Qed.
Ltac each V := apply h_writes in V; destruct V as [[-> [-> | ->]]|[-> [-> | ->]]].
Ltac latest := split; [eexists; split; [reflexivity|split; reflexivity]|]; split; [simpl; lia|];
  intros [u i] V; each V; simpl; lia.
Lemma h_last c r x : last_read c r -> accesses_of c Rd x -> (forall y, accesses_of c Rd y -> y <= x) -> r = x.
Proof. intros [A B] X M. pose proof (B x X). pose proof (M r A). lia. Qed.
Ltac read_is R r k := assert (r = k) by (apply (h_last _ _ _ R); [eexists; split; reflexivity|];
  intros y [z [Hy Ky]]; destruct y as [|[|[|[|[|y]]]]]; try lia; try discriminate Hy; try (injection Hy as <-; discriminate Ky); destruct y; discriminate Hy); subst r.
Ltac write_is W w k := assert (w = k) by (destruct W as [z [Hw Kw]]; destruct w as [|[|[|[|[|w]]]]]; try reflexivity; try discriminate Hw;
  try (injection Hw as <-; discriminate Kw); destruct w; discriminate Hw); subst w.
Lemma h_word : word_works h_threads h_time h_val 0 0.
Proof.
  intros t n k d c r w [H ->] R W. destruct t as [|[|t]]; [| |destruct n; discriminate H].
  - destruct n as [|[|[|[|[|[|n]]]]]]; try discriminate H; try (destruct n; discriminate H); injection H as <- <-; try exact I; intros _ _.
    + read_is R r 0. write_is W w 1. split; [|split; [|reflexivity]].
      * split; [simpl; lia|]. intros [u i] V. each V; simpl; lia.
      * exists None. split; [|reflexivity]. intros [u i] V. each V; simpl; lia.
    + read_is R r 1. write_is W w 2. split; [|split; [|reflexivity]].
      * split; [simpl; lia|]. intros [u i] V. each V; simpl; lia.
      * exists (Some (0, 3)). split; [latest|reflexivity].
  - destruct n as [|[|[|[|[|[|[|[|n]]]]]]]]; try discriminate H; try (destruct n; discriminate H); injection H as <- <-; try exact I; intros _ _.
    + read_is R r 1. write_is W w 2. split; [|split; [|reflexivity]].
      * split; [simpl; lia|]. intros [u i] V. each V; simpl; lia.
      * exists (Some (0, 9)). split; [latest|reflexivity].
    + read_is R r 1. write_is W w 2. split; [|split; [|reflexivity]].
      * split; [simpl; lia|]. intros [u i] V. each V; simpl; lia.
      * exists (Some (1, 4)). split; [latest|reflexivity].
Qed.
Lemma h_execution : execution_of Arm Weak h_pl h_objects 0 0 h_threads h_place h_time h_val.
Proof.
  constructor.
  - reflexivity.
  - reflexivity.
  - intros [|[|t]]; cbn [runs h_threads].
    + split; [exact h_store_path|]. split; [discriminate|exact I].
    + split; [exact h_load_path|]. split; [discriminate|exact I].
    + exact I.
  - assert (K : forall x : access, a_loc x <> 0 -> keeps_off 0 [Access x]).
    { intros x N [|j] y Hy Ky; [injection Hy as <-; exact N|destruct j; discriminate Hy]. }
    intros [|[|t]]; unfold rendered; [| |constructor].
    + repeat (apply Forall_cons || apply Forall_nil); cbn; try (exists 0; reflexivity); try (exists 1; reflexivity); apply K; discriminate.
    + repeat (apply Forall_cons || apply Forall_nil); cbn; try (exists 0; reflexivity); try (exists 1; reflexivity); try (apply K; discriminate).
      intros j x Hx. destruct j; discriminate Hx.
  - exact h_together.
  - exact h_word.
Qed.
Lemma h_applies :
  execution_of Arm Weak h_pl h_objects 0 0 h_threads h_place h_time h_val /\
  call_at h_threads 0 1 1 (0, AData (Store 5)) h_store (Some (RI RUnit)) /\ byte_access 0 1 h_store 5 /\
  call_at h_threads 1 0 0 (0, AData Load) h_load (Some (RI (RVal 5))) /\ byte_access 0 0 h_load 6 /\
  gets (fun t => code_of (h_threads t)) h_time 1 (h_time 1 6) (Some (0, 5)) /\
  uses h_pl h_objects 0 (0, AData (Store 5)) /\ one_section h_objects (0, AData Load).
Proof.
  split; [exact h_execution|]. split; [split; reflexivity|]. split.
  { exists (firstn 2 h_store), (existT presp (BWr 0 0 5) tt), [Access (plain_write 1)], (skipn 3 h_store), 0.
    split; [reflexivity|]. split; [reflexivity|]. split; [eexists; reflexivity|reflexivity]. }
  split; [split; reflexivity|]. split.
  { exists (firstn 4 h_load), (existT presp (BRd 0 0) 5%Z), [Access (plain_read 1)], (skipn 5 h_load), 0.
    split; [reflexivity|]. split; [reflexivity|]. split; [eexists; reflexivity|reflexivity]. }
  split.
  { split; [eexists; split; [reflexivity|split; reflexivity]|]. split; [simpl; lia|]. intros [u i] V. apply writes_to_in in V.
    destruct u as [|[|u]]; vm_compute in V; [|destruct V|destruct V]. destruct V as [<-|[]]. simpl. lia. }
  split; [split; reflexivity|]. split; [reflexivity|exact I].
Qed.

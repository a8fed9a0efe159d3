(** * Properties C01 - C08 and C47: integer atomics on the lock-free back ends.

    Statements only; the vocabulary is that of SpecInt.v (integers and calls),
    SpecLin.v / SpecObj.v / SpecHist.v (histories), SpecCount.v, and of
    IntModel.v ([int_run]: all executions of the library's code). *)
From Coq Require Import ZArith List Bool Permutation Lia.
From Verif Require Import SpecInt SpecLin SpecObj SpecHist SpecCount Order Prog Word IntModel IntProof HistProof IntConseq WideCex IntExamples.
Import ListNotations.
Open Scope Z_scope.

(** ** C01 *)
Theorem C01_integral_linearizable :
  forall (W : world) (v0 n0 : addr -> Z) (l : list (sched luck icall)),
  world_ok W v0 ->
  (forall a, o_vw (W a) = o_w (W a)) ->
  (forall t a mo o, In (SInv t (a, (mo, o))) l -> iop_ok (o_sg (W a)) (o_vw (W a)) o) ->
  linearizable (objects (int_spec W)) v0 (snd (int_run W v0 n0 l)).
Proof. exact C01_aux. Qed.

(** The linearization ends in the values the objects then show. *)
Theorem C01_final_state :
  forall (W : world) (v0 n0 : addr -> Z) (l : list (sched luck icall)),
  world_ok W v0 -> legal (icall_ok W) l ->
  let res := int_run W v0 n0 l in
  exists v th, linearizable_to (objects (int_spec W)) v0 (snd res) v th /\
    (forall a, v a = shown W (c_mem (fst res)) a /\ val (c_mem (fst res) a) = stored_word W a (v a) /\
               rng (o_sg (W a)) (o_vw (W a)) (v a)) /\
    (quiet (fst res) -> forall t, th t = PIdle).
Proof. exact int_main. Qed.

Definition native : world := fun a =>
  match a with 1%nat => mkobj true 32 32 KLlsc (XLlsc false false) | 2%nat => mixed 2%nat | 3%nat => mkobj true 8 8 (KGccSync false) XGeneric | _ => mixed 0%nat end.
Example C01_applies :
  world_ok native (fun _ => 7) /\
  (forall a, o_vw (native a) = o_w (native a)) /\
  (forall t a mo o, In (SInv t (a, (mo, o))) (race 1 (Rmw Fetch (Un Neg)) (BitTest BCompl 31)) ->
     iop_ok (o_sg (native a)) (o_vw (native a)) o) /\
  snd (int_run native (fun _ => 7) (fun _ => 0) (race 1 (Rmw Fetch (Un Neg)) (BitTest BCompl 31))) =
    [EInv 1 (1%nat, (SeqCst, Rmw Fetch (Un Neg))); EInv 2 (1%nat, (AcqRel, BitTest BCompl 31));
     ERes 2 (RBool false); ERes 1 (RVal (-2147483641))].
Proof.
  split; [|split; [|split]].
  - intros [|[|[|[|a]]]]; unfold native, mixed, obj_ok, rng; simpl; repeat split; auto; lia.
  - intros [|[|[|[|a]]]]; reflexivity.
  - intros t a mo o Hin. simpl in Hin.
    repeat (destruct Hin as [Hin|Hin]; [inversion Hin; subst; simpl; (exact I || lia)|]). destruct Hin.
  - vm_compute. reflexivity.
Qed.

(** ** C02: also in storage wider than the value *)
Theorem C02_wraps_on_any_storage :
  forall (W : world) (v0 n0 : addr -> Z) (l : list (sched luck icall)),
  world_ok W v0 ->
  (forall t a mo o, In (SInv t (a, (mo, o))) l ->
     core_call o = true /\ iop_ok (o_sg (W a)) (o_vw (W a)) o) ->
  let res := int_run W v0 n0 l in
  linearizable (objects (int_spec W)) v0 (snd res) /\
  (forall a, rng (o_sg (W a)) (o_vw (W a)) (shown W (c_mem (fst res)) a) /\
             val (c_mem (fst res) a) = stored_word W a (shown W (c_mem (fst res)) a)).
Proof. exact C02_aux. Qed.

(** An [int16_t] at its maximum in a 32-bit LL/SC word: the wrap is exact and the word is sign-extended. *)
Example C02_applies :
  let l := race 1 (Rmw Fetch (Bin Add 32767)) (Rmw Fetch (Bin Add 2)) in
  world_ok mixed mixed0 /\
  (forall t a mo o, In (SInv t (a, (mo, o))) l -> core_call o = true /\ iop_ok (o_sg (mixed a)) (o_vw (mixed a)) o) /\
  (let res := int_run mixed mixed0 (fun _ => 0) l in
   snd res = [EInv 1 (1%nat, (SeqCst, Rmw Fetch (Bin Add 32767))); EInv 2 (1%nat, (AcqRel, Rmw Fetch (Bin Add 2)));
              ERes 2 (RVal (-1)); ERes 1 (RVal 1)] /\
   shown mixed (c_mem (fst res)) 1 = -32768 /\ val (c_mem (fst res) 1%nat) = 4294934528).
Proof.
  split; [exact mixed_ok | split].
  - intros t a mo o Hin. simpl in Hin.
    repeat (destruct Hin as [Hin|Hin]; [inversion Hin; subst; simpl; unfold rng; (split; [reflexivity | lia])|]). destruct Hin.
  - vm_compute. auto.
Qed.

(** ** C03, C04: every returned compare_exchange has its place in a one-at-a-time execution, where it
    either found [expected] and replaced it, or found the value it reports and changed nothing. *)
Theorem C03_strong_cas :
  forall (W : world) (v0 n0 : addr -> Z) (l : list (sched luck icall)) (a : addr),
  world_ok W v0 -> legal (icall_ok W) l ->
  let res := int_run W v0 n0 l in
  exists c E,
    steps (int_spec W a) (v0 a) c (shown W (c_mem (fst res)) a) /\
    Permutation c (calls_on a (completed (snd res)) ++ E) /\
    (quiet (fst res) -> E = []) /\
    forall t mo e d r, In (t, (mo, CasStrong e d), r) (calls_on a (completed (snd res))) ->
      exists c1 x x' c2, c = c1 ++ (t, (mo, CasStrong e d), r) :: c2 /\
        steps (int_spec W a) (v0 a) c1 x /\
        steps (int_spec W a) x' c2 (shown W (c_mem (fst res)) a) /\
        ((x = e /\ r = RCas true e /\ x' = d) \/ (x <> e /\ r = RCas false x /\ x' = x)).
Proof. exact C03_aux. Qed.

Theorem C04_weak_cas :
  forall (W : world) (v0 n0 : addr -> Z) (l : list (sched luck icall)) (a : addr),
  world_ok W v0 -> legal (icall_ok W) l ->
  let res := int_run W v0 n0 l in
  exists c E,
    steps (int_spec W a) (v0 a) c (shown W (c_mem (fst res)) a) /\
    Permutation c (calls_on a (completed (snd res)) ++ E) /\
    (quiet (fst res) -> E = []) /\
    forall t mo e d r, In (t, (mo, CasWeak e d), r) (calls_on a (completed (snd res))) ->
      exists c1 x x' c2, c = c1 ++ (t, (mo, CasWeak e d), r) :: c2 /\
        steps (int_spec W a) (v0 a) c1 x /\
        steps (int_spec W a) x' c2 (shown W (c_mem (fst res)) a) /\
        ((x = e /\ r = RCas true e /\ x' = d) \/ (r = RCas false x /\ x' = x)).
Proof. exact C04_aux. Qed.

(** Among strong compare-exchanges that all try to replace the initial value at most one succeeds;
    when all have returned exactly one has, its value is in the object, and every other call reports it. *)
Theorem C03_one_winner :
  forall (W : world) (v0 n0 : addr -> Z) (l : list (sched luck icall)) (a : addr),
  world_ok W v0 -> legal (icall_ok W) l ->
  let res := int_run W v0 n0 l in
  (forall t mo o, In (t, (mo, o)) (invoked_on a (snd res)) -> exists d, d <> v0 a /\ o = CasStrong (v0 a) d) ->
  (count (fun _ r => succeeded r) (calls_on a (completed (snd res))) <= 1)%nat /\
  (quiet (fst res) -> calls_on a (completed (snd res)) <> [] ->
   exists t mo d, In (t, (mo, CasStrong (v0 a) d), RCas true (v0 a)) (calls_on a (completed (snd res))) /\
     shown W (c_mem (fst res)) a = d /\
     count (fun _ r => succeeded r) (calls_on a (completed (snd res))) = 1%nat /\
     forall t mo o r, In (t, (mo, o), r) (calls_on a (completed (snd res))) ->
       r = RCas true (v0 a) \/ r = RCas false d).
Proof. exact election_aux. Qed.

(** The ARM kernel helper fails spuriously in thread 1, thread 2 wins. *)
Example C03_applies :
  let l := race 2 (CasStrong 5 6) (CasStrong 5 7) in
  world_ok mixed mixed0 /\ legal (icall_ok mixed) l /\
  (let res := int_run mixed mixed0 (fun _ => 0) l in
   (forall t mo o, In (t, (mo, o)) (invoked_on 2 (snd res)) -> exists d, d <> mixed0 2%nat /\ o = CasStrong (mixed0 2%nat) d) /\
   calls_on 2 (completed (snd res)) =
     [(2%nat, (AcqRel, CasStrong 5 7), RCas true 5); (1%nat, (SeqCst, CasStrong 5 6), RCas false 7)]).
Proof.
  split; [exact mixed_ok | split].
  - apply race_legal; (split; [simpl; unfold rng; lia | left; reflexivity]).
  - split; [|vm_compute; reflexivity].
    intros t mo o Hin. vm_compute in Hin.
    repeat (destruct Hin as [Hin|Hin]; [inversion Hin; subst; eexists; (split; [|reflexivity]); vm_compute; discriminate|]). destruct Hin.
Qed.

Example C04_applies :
  let l := race 1 (CasWeak (-1) 6) (CasWeak (-1) 7) in
  world_ok mixed mixed0 /\ legal (icall_ok mixed) l /\
  calls_on 1 (completed (snd (int_run mixed mixed0 (fun _ => 0) l))) =
     [(2%nat, (AcqRel, CasWeak (-1) 7), RCas true (-1)); (1%nat, (SeqCst, CasWeak (-1) 6), RCas false (-1))].
Proof.
  split; [exact mixed_ok | split].
  - apply race_legal; (split; [simpl; unfold rng; lia | right; reflexivity]).
  - vm_compute. reflexivity.
Qed.

(** ** C05 *)
Theorem C05_no_lost_update :
  forall (W : world) (v0 n0 : addr -> Z) (l : list (sched luck icall)) (a : addr),
  world_ok W v0 -> legal (icall_ok W) l ->
  let res := int_run W v0 n0 l in
  quiet (fst res) ->
  (forall t mo o, In (t, (mo, o)) (invoked_on a (snd res)) -> delta o <> None) ->
  shown W (c_mem (fst res)) a =
    norm (o_sg (W a)) (o_vw (W a)) (v0 a + total (calls_on a (completed (snd res)))).
Proof. exact no_lost_update_aux. Qed.

Example C05_applies :
  let l := race 3 (Rmw Fetch (Bin Add 3)) (Rmw Fetch (Bin Sub 1)) in
  world_ok mixed mixed0 /\ legal (icall_ok mixed) l /\
  (let res := int_run mixed mixed0 (fun _ => 0) l in
   quiet (fst res) /\
   (forall t mo o, In (t, (mo, o)) (invoked_on 3 (snd res)) -> delta o <> None) /\
   length (calls_on 3 (completed (snd res))) = 2%nat /\ shown mixed (c_mem (fst res)) 3 = 1).
Proof.
  split; [exact mixed_ok | split; [|split; [|split]]].
  - apply race_legal; (split; [simpl; unfold rng; lia | right; reflexivity]).
  - apply race_quiet. intros t [-> | ->]; vm_compute; reflexivity.
  - intros t mo o Hin. vm_compute in Hin.
    repeat (destruct Hin as [Hin|Hin]; [inversion Hin; subst; simpl; discriminate|]). destruct Hin.
  - vm_compute. auto.
Qed.

(** ** C06 *)
Theorem C06_distinct_tickets :
  forall (W : world) (v0 n0 : addr -> Z) (l : list (sched luck icall)) (a : addr),
  world_ok W v0 -> legal (icall_ok W) l ->
  let res := int_run W v0 n0 l in
  (forall t mo o, In (t, (mo, o)) (invoked_on a (snd res)) -> o = Rmw Fetch (Bin Add 1)) ->
  Z.of_nat (length (invoked_on a (snd res))) <= 2 ^ o_vw (W a) ->
  NoDup (map snd (calls_on a (completed (snd res)))) /\
  forall r, In r (map snd (calls_on a (completed (snd res)))) ->
     exists i, 0 <= i < Z.of_nat (length (invoked_on a (snd res))) /\
               r = RVal (norm (o_sg (W a)) (o_vw (W a)) (v0 a + i)).
Proof. exact tickets_aux. Qed.

Example C06_applies :
  let l := race 0 (Rmw Fetch (Bin Add 1)) (Rmw Fetch (Bin Add 1)) in
  world_ok mixed mixed0 /\ legal (icall_ok mixed) l /\
  (let res := int_run mixed mixed0 (fun _ => 0) l in
   (forall t mo o, In (t, (mo, o)) (invoked_on 0 (snd res)) -> o = Rmw Fetch (Bin Add 1)) /\
   Z.of_nat (length (invoked_on 0 (snd res))) <= 2 ^ o_vw (mixed 0%nat) /\
   map snd (calls_on 0 (completed (snd res))) = [RVal (-128); RVal 127]).
Proof.
  split; [exact mixed_ok | split; [|split; [|split]]].
  - apply race_legal; (split; [simpl; unfold rng; lia | right; reflexivity]).
  - intros t mo o Hin. vm_compute in Hin.
    repeat (destruct Hin as [Hin|Hin]; [inversion Hin; subst; reflexivity|]). destruct Hin.
  - vm_compute. discriminate.
  - vm_compute. reflexivity.
Qed.

(** ** C07: from the same state the four forms of an operation leave the same value and report it
    in their four ways, on every back end (the call runs alone, with any spurious failures). *)
Theorem C07_forms_agree :
  forall (W : world) (v0 n0 : addr -> Z) (t : nat) (a : addr) (mo : morder) (f : form) (e : effect)
         (ws : list luck) (r : iret),
  world_ok W v0 -> o_vw (W a) = o_w (W a) -> iop_ok (o_sg (W a)) (o_vw (W a)) (Rmw f e) ->
  let res := int_run W v0 n0 (solo t (a, (mo, Rmw f e)) ws) in
  snd res = [EInv t (a, (mo, Rmw f e)); ERes t r] ->
  let new := norm (o_sg (W a)) (o_vw (W a)) (eff_apply e (v0 a)) in
  shown W (c_mem (fst res)) a = new /\
  r = match f with Fetch => RVal (v0 a) | Result => RVal new | Opaque => RUnit | Test => RBool (negb (new =? 0)) end.
Proof. exact C07_aux. Qed.

Example C07_applies :
  let call f := solo 4 (1%nat, (AcqRel, Rmw f (Bin Add (-7)))) ([ok_luck; unlucky; ok_luck; unlucky] ++ repeat ok_luck 12) in
  let hist f := snd (int_run native (fun _ => 7) (fun _ => 0) (call f)) in
  let c f := (1%nat, (AcqRel, Rmw f (Bin Add (-7)))) in
  hist Fetch = [EInv 4 (c Fetch); ERes 4 (RVal 7)] /\ hist Result = [EInv 4 (c Result); ERes 4 (RVal 0)] /\
  hist Opaque = [EInv 4 (c Opaque); ERes 4 RUnit] /\ hist Test = [EInv 4 (c Test); ERes 4 (RBool false)].
Proof. vm_compute. auto. Qed.

(** ** C08 *)
Theorem C08_one_bit :
  forall (W : world) (v0 n0 : addr -> Z) (t : nat) (a : addr) (mo : morder) (k : bitop) (i : Z)
         (ws : list luck) (r : iret),
  world_ok W v0 -> o_vw (W a) = o_w (W a) -> 0 <= i < o_vw (W a) ->
  let res := int_run W v0 n0 (solo t (a, (mo, BitTest k i)) ws) in
  snd res = [EInv t (a, (mo, BitTest k i)); ERes t r] ->
  r = RBool (Z.testbit (v0 a) i) /\
  forall j, 0 <= j < o_vw (W a) ->
    Z.testbit (shown W (c_mem (fst res)) a) j =
    if j =? i then match k with BSet => true | BReset => false | BCompl => negb (Z.testbit (v0 a) i) end
    else Z.testbit (v0 a) j.
Proof. exact C08_aux. Qed.

(** Concurrent bit_test_and_set calls: exactly the named bits are set, and for each bit exactly one
    caller is told that it was clear (none if it was already set). *)
Theorem C08_bits_claimed_once :
  forall (W : world) (v0 n0 : addr -> Z) (l : list (sched luck icall)) (a : addr),
  world_ok W v0 -> legal (icall_ok W) l ->
  let res := int_run W v0 n0 l in
  quiet (fst res) ->
  (forall t mo o, In (t, (mo, o)) (invoked_on a (snd res)) -> exists j, o = BitTest BSet j) ->
  forall i, 0 <= i < o_vw (W a) ->
  let done := calls_on a (completed (snd res)) in
  Z.testbit (shown W (c_mem (fst res)) a) i =
    Z.testbit (v0 a) i || negb (Nat.eqb (count (fun o _ => sets_bit i o) done) 0) /\
  count (fun o r => sets_bit i o && negb (succeeded r)) done =
    (if Z.testbit (v0 a) i then 0 else Nat.min 1 (count (fun o _ => sets_bit i o) done))%nat.
Proof. exact bits_claimed_aux. Qed.

Example C08_applies :
  let l := race 1 (BitTest BSet 31) (BitTest BSet 31) in
  world_ok native (fun _ => 7) /\ legal (icall_ok native) l /\
  (let res := int_run native (fun _ => 7) (fun _ => 0) l in
   quiet (fst res) /\
   (forall t mo o, In (t, (mo, o)) (invoked_on 1 (snd res)) -> exists j, o = BitTest BSet j) /\
   map snd (calls_on 1 (completed (snd res))) = [RBool false; RBool true] /\
   shown native (c_mem (fst res)) 1 = -2147483641).
Proof.
  split; [exact (proj1 C01_applies) | split; [|split; [|split]]].
  - apply race_legal; (split; [simpl; unfold rng; lia | left; reflexivity]).
  - apply race_quiet. intros t [-> | ->]; vm_compute; reflexivity.
  - intros t mo o Hin. vm_compute in Hin.
    repeat (destruct Hin as [Hin|Hin]; [inversion Hin; subst; eauto|]). destruct Hin.
  - vm_compute. auto.
Qed.

(** ** C47: the operations the library adds to the standard's, on storage wider than the value.

    Full claim: as C01, for every object.  It is proved for the calls [wide_safe] lists and refuted
    for the others: the operations work on the whole storage word. *)
Theorem C47_extra_on_wide_storage_partial :
  forall (W : world) (v0 n0 : addr -> Z) (l : list (sched luck icall)),
  world_ok W v0 ->
  (forall t a mo o, In (SInv t (a, (mo, o))) l ->
     wide_safe (W a) o = true /\ iop_ok (o_sg (W a)) (o_vw (W a)) o) ->
  linearizable (objects (int_spec W)) v0 (snd (int_run W v0 n0 l)).
Proof. exact C47_aux. Qed.

(** [atomic<uint8_t>] holding 255: add_and_test(1) answers true although the new value is 0. *)
Theorem C47_add_and_test_refuted :
  exists (W : world) (v0 n0 : addr -> Z) (l : list (sched luck icall)),
  world_ok W v0 /\
  (forall t a mo o, In (SInv t (a, (mo, o))) l -> iop_ok (o_sg (W a)) (o_vw (W a)) o) /\
  ~ linearizable (objects (int_spec W)) v0 (snd (int_run W v0 n0 l)).
Proof. exact wide_test_refuted. Qed.

(** [atomic<uint8_t>] holding 1: after fetch_negate() load() gives 255 but
    compare_exchange_strong(255, ...) fails and reports 255. *)
Theorem C47_negate_refuted :
  let c o := (0%nat, (SeqCst, o)) in
  exists (W : world) (v0 n0 : addr -> Z) (l : list (sched luck icall)),
  world_ok W v0 /\
  (forall t a mo o, In (SInv t (a, (mo, o))) l -> iop_ok (o_sg (W a)) (o_vw (W a)) o) /\
  snd (int_run W v0 n0 l) =
    [EInv 0 (c (Rmw Fetch (Un Neg))); ERes 0 (RVal 1); EInv 0 (c Load); ERes 0 (RVal 255);
     EInv 0 (c (CasStrong 255 0)); ERes 0 (RCas false 255)]%nat /\
  ~ linearizable (objects (int_spec W)) v0 (snd (int_run W v0 n0 l)).
Proof. exact wide_negate_refuted. Qed.

Print Assumptions C01_integral_linearizable.
Print Assumptions C01_final_state.
Print Assumptions C02_wraps_on_any_storage.
Print Assumptions C03_strong_cas.
Print Assumptions C03_one_winner.
Print Assumptions C04_weak_cas.
Print Assumptions C05_no_lost_update.
Print Assumptions C06_distinct_tickets.
Print Assumptions C07_forms_agree.
Print Assumptions C08_one_bit.
Print Assumptions C08_bits_claimed_once.
Print Assumptions C47_extra_on_wide_storage_partial.
Print Assumptions C47_add_and_test_refuted.
Print Assumptions C47_negate_refuted.

(** * Properties C09 - C13, C20 and C43: pointers, floating point, bool, enumerations, plain
    values, flags and references on the lock-free back ends.

    Statements only.  Vocabulary: SpecTyped.v (the sequential objects), SpecFlag.v
    (being inside a lock), SpecLin.v / SpecObj.v / SpecHist.v (histories), and the [.._run]
    of TypedModel.v (all executions of the library's code). *)
From Coq Require Import ZArith List Bool Lia.
From Verif Require Import SpecInt SpecLin SpecObj SpecHist SpecTyped SpecFlag Order Prog Word IntModel HistProof
  TypedModel TypedConseq TypedCex WideCex IntExamples.
Import ListNotations.
Open Scope Z_scope.

(** ** C09 *)
Theorem C09_pointers_linearizable :
  forall (W : addr -> pobj) (v0 n0 : addr -> Z) (l : list (sched luck pcall)),
  ptr_world_ok W v0 -> legal (pcall_ok W) l ->
  let res := ptr_run W v0 n0 l in
  exists v th, linearizable_to (objects (ptr_spec W)) v0 (snd res) v th /\
    (forall a, ptr_shown W (c_mem (fst res)) a = v a /\ is_addr (p_bits (W a)) (v a)) /\
    (quiet (fst res) -> forall t, th t = PIdle).
Proof. exact ptr_main. Qed.

(** A 64-bit pointer to 12-byte elements on LL/SC; one call crosses zero. *)
Example C09_applies :
  let W := fun _ : addr => mkpobj (mkobj false 64 64 KLlsc (XLlsc false false)) 12 in
  let l := clash (at0 (PSub Fetch 3)) (at0 (PAdd Test (-2))) in
  ptr_world_ok W (fun _ => 24) /\ legal (pcall_ok W) l /\
  (let res := ptr_run W (fun _ => 24) (fun _ => 0) l in
   snd res = [EInv 1 (at0 (PSub Fetch 3)); EInv 2 (at0 (PAdd Test (-2))); ERes 2 (RBool false); ERes 1 (RVal 0)] /\
   ptr_shown W (c_mem (fst res)) 0 = 2 ^ 64 - 36).
Proof.
  split; [|split].
  - intros a. unfold obj_ok, is_addr. simpl. repeat split; auto; lia.
  - apply clash_legal; (split; [exact I | left; reflexivity]).
  - vm_compute. auto.
Qed.

(** ** C10: any functions on patterns as arithmetic *)
Theorem C10_floats_linearizable :
  forall (W : addr -> fobj) (v0 n0 : addr -> Z) (l : list (sched luck fcall)),
  fp_world_ok W v0 -> legal (fcall_ok W) l ->
  let res := fp_run W v0 n0 l in
  exists v th, linearizable_to (objects (fp_spec W)) v0 (snd res) v th /\
    (forall a, fp_shown W (c_mem (fst res)) a = v a) /\
    (quiet (fst res) -> forall t, th t = PIdle).
Proof. exact fp_main. Qed.

(** A 32-bit pattern with a stand-in addition on compiler intrinsics; xor negation. *)
Example C10_applies :
  let W := fun _ : addr => mkfobj (mkobj false 32 32 (KGccAtomic false) XGeneric) 32 false toy_arith true in
  let l := clash (at0 (FRmw FFetch (FAdd 7))) (at0 (FRmw FResult FNeg)) in
  fp_world_ok W (fun _ => 5) /\ legal (fcall_ok W) l /\
  (let res := fp_run W (fun _ => 5) (fun _ => 0) l in
   snd res = [EInv 1 (at0 (FRmw FFetch (FAdd 7))); EInv 2 (at0 (FRmw FResult FNeg));
              ERes 2 (RVal (2 ^ 31 + 5)); ERes 1 (RVal (2 ^ 31 + 5))] /\
   fp_shown W (c_mem (fst res)) 0 = 2 ^ 31 + 19).
Proof.
  split; [|split].
  - intros a. unfold obj_ok, pattern, f_w, g_w. simpl. refine (conj _ (conj _ (conj toy_ok (conj (fun _ => conj toy_sign (or_introl eq_refl)) _))));
      repeat split; auto; lia.
  - apply clash_legal; [|exact I]. split; vm_compute; congruence.
  - vm_compute. auto.
Qed.

(** Negation by xor flips the wrong bit on a big-endian machine when the storage is wider than
    the value: every hypothesis of the theorem but that one holds, and the value is not negated. *)
Theorem C10_wide_big_endian_negation_refuted :
  exists (W : addr -> fobj) (v0 n0 : addr -> Z) (l : list (sched luck fcall)),
  (forall a, obj_ok (f_obj (W a)) /\ 0 < f_vw (W a) <= f_w (W a) /\
     arith_ok (f_vw (W a)) (f_ar (W a)) /\ sign_neg (f_vw (W a)) (f_ar (W a)) /\ pattern (f_vw (W a)) (v0 a)) /\
  legal (fcall_ok W) l /\
  ~ linearizable (objects (fp_spec W)) v0 (snd (fp_run W v0 n0 l)).
Proof.
  exists be_float, (fun _ => 5), (fun _ => 0), neg_run. refine (conj _ (conj neg_legal neg_bad)).
  intros a. unfold obj_ok, pattern, f_w, g_w. simpl. refine (conj _ (conj _ (conj toy_ok (conj toy_sign _)))); repeat split; auto; lia.
Qed.

(** ** C11 *)
Theorem C11_bool_linearizable :
  forall (W : world) (v0 : addr -> bool) (n0 : addr -> Z) (l : list (sched luck bcall)),
  (forall a, obj_ok (W a)) ->
  let res := bool_run W v0 n0 l in
  exists v th, linearizable_to (objects bool_spec) v0 (snd res) v th /\
    (forall a, bool_shown (c_mem (fst res)) a = Z.b2z (v a)) /\
    (quiet (fst res) -> forall t, th t = PIdle).
Proof. exact bool_main. Qed.

(** A value nobody writes and which is not the initial one is never seen. *)
Theorem C11_no_invented_value :
  forall (W : world) (v0 : addr -> bool) (n0 : addr -> Z) (l : list (sched luck bcall)) (a : addr),
  (forall a, obj_ok (W a)) ->
  let res := bool_run W v0 n0 l in
  (forall t mo o, In (t, (mo, o)) (invoked_on a (snd res)) -> bool_writes o <> Some (negb (v0 a))) ->
  bool_shown (c_mem (fst res)) a = Z.b2z (v0 a) /\
  forall t o r z, In (t, o, r) (calls_on a (completed (snd res))) -> bool_reports r = Some z -> z = Z.b2z (v0 a).
Proof. exact bool_const_aux. Qed.

(** A [bool] in a 32-bit LL/SC word. *)
Example C11_applies :
  let W := fun _ : addr => mkobj false 8 32 KLlsc (XLlsc true false) in
  let l := clash (at0 (BCasStrong false true)) (at0 (BExchange true)) in
  (forall a, obj_ok (W a)) /\
  (let res := bool_run W (fun _ => false) (fun _ => 0) l in
   snd res = [EInv 1 (at0 (BCasStrong false true)); EInv 2 (at0 (BExchange true)); ERes 2 (RVal 0); ERes 1 (RCas false 1)] /\
   bool_shown (c_mem (fst res)) 0 = 1).
Proof. split; [intros a; unfold obj_ok; simpl; repeat split; auto; lia | vm_compute; auto]. Qed.
Example C11_no_invented_value_applies :
  let W := fun _ : addr => mkobj false 8 32 KLlsc (XLlsc true false) in
  let res := bool_run W (fun _ => true) (fun _ => 0) (clash (at0 (BCasWeak false true)) (at0 (BExchange true))) in
  (forall t mo o, In (t, (mo, o)) (invoked_on 0 (snd res)) -> bool_writes o <> Some (negb true)) /\
  calls_on 0 (completed (snd res)) = [(2%nat, (SeqCst, BExchange true), RVal 1); (1%nat, (SeqCst, BCasWeak false true), RCas false 1)].
Proof.
  split; [|vm_compute; reflexivity].
  intros t mo o Hin. vm_compute in Hin. repeat (destruct Hin as [Hin|Hin]; [inversion Hin; subst; discriminate|]). destruct Hin.
Qed.

(** ** C12: when the storage is as wide as the type, or on a little-endian machine for the calls of
    [enum_wide_safe] *)
Theorem C12_enum_linearizable_partial :
  forall (W : addr -> eobj) (v0 n0 : addr -> Z) (l : list (sched luck icall)),
  enum_world_ok W v0 -> legal (ecall_ok W) l ->
  let res := enum_run W v0 n0 l in
  exists v th, linearizable_to (objects (enum_spec W)) v0 (snd res) v th /\
    (forall a, rng (e_sg (W a)) (e_vw (W a)) (v a)) /\
    (forall a, e_be (W a) = false \/ e_vw (W a) = e_w (W a) -> enum_shown W (c_mem (fst res)) a = v a) /\
    (quiet (fst res) -> forall t, th t = PIdle).
Proof. exact enum_main. Qed.

(** A signed 8-bit enumeration, native and in a 32-bit word. *)
Example C12_applies :
  let W := fun a : addr => match a with 0%nat => mkeobj true 8 8 true KX86 XX86 | _ => mkeobj true 8 32 false KLlsc (XLlsc true false) end in
  let call o := (1%nat, (SeqCst, o)) in
  let l := clash (at0 (Rmw Fetch (Un Not))) (at0 (BitTest BSet 7)) ++ clash (call (Rmw Result (Un Not))) (call (BitTest BSet 6)) in
  enum_world_ok W (fun _ => 5) /\ legal (ecall_ok W) l /\
  (let res := enum_run W (fun _ => 5) (fun _ => 0) l in
   enum_shown W (c_mem (fst res)) 0 = -6 /\ enum_shown W (c_mem (fst res)) 1 = -70 /\
   quiet (fst res)).
Proof.
  split; [|split].
  - intros [|a]; unfold obj_ok, rng; simpl; repeat split; auto; lia.
  - apply legal_app; apply clash_legal; unfold ecall_ok; simpl; repeat split; auto; lia.
  - split; [vm_compute; reflexivity | split; [vm_compute; reflexivity|]].
    intros [|[|[|t]]]; reflexivity.
Qed.

(** On wider storage the full statement fails, in three ways: on a big-endian machine
    [store(1)] is followed by [load() == 0]; after the complement of an unsigned one, or
    setting the sign bit of a signed one, compare_exchange_strong fails although [expected] was
    just loaded. *)
Theorem C12_wide_enum_refuted :
  enum_wide_statement false true 0 be_run /\
  enum_wide_statement false false 1 compl_run /\
  enum_wide_statement true false 0 sign_run.
Proof.
  refine (conj (conj _ (conj be_legal be_bad)) (conj (conj _ (conj compl_legal compl_bad)) (conj _ (conj sign_legal sign_bad))));
    apply wide_enum_ok; unfold rng; simpl; lia.
Qed.

(** ** C13 *)
Theorem C13_values_linearizable :
  forall (W : addr -> gobj) (v0 n0 : addr -> Z) (l : list (sched luck gcall)),
  gen_world_ok W v0 -> legal (gcall_ok W) l ->
  let res := gen_run W v0 n0 l in
  exists v th, linearizable_to (objects (gen_spec W)) (fun a => vbits (g_live (W a)) (v0 a)) (snd res) v th /\
    (forall a, gen_shown W (c_mem (fst res)) a = v a /\ vbits (g_live (W a)) (v a) = v a /\
               val (c_mem (fst res) a) = place (g_be (W a)) (g_w (W a)) (g_vw (W a)) (v a)) /\
    (quiet (fst res) -> forall t, th t = PIdle).
Proof. exact gen_main. Qed.

(** Three bytes, the middle one padding, in a big-endian 32-bit word: [expected] has garbage padding. *)
Example C13_applies :
  let W := fun _ : addr => mkgobj (mkobj false 32 32 (KGccAtomic false) XGeneric) 24 true 0xff00ff true in
  let l := clash (at0 (GCasStrong 0x115533 0x22aa44)) (at0 (GStore 0x117733)) in
  gen_world_ok W (fun _ => 0x019902) /\ legal (gcall_ok W) l /\
  (let res := gen_run W (fun _ => 0x019902) (fun _ => 0) l in
   snd res = [EInv 1 (at0 (GCasStrong 0x115533 0x22aa44)); EInv 2 (at0 (GStore 0x117733)); ERes 2 RUnit; ERes 1 (RCas false 0x010002)] /\
   val (c_mem (fst res) 0%nat) = 0x11003300).
Proof.
  split; [|split].
  - intros a. unfold obj_ok, pattern, f_w, g_w. simpl. repeat split; auto; lia.
  - apply clash_legal; unfold gcall_ok, gop_ok, pattern; simpl; lia.
  - vm_compute. auto.
Qed.
Example C13_padding_ignored :
  let W := fun _ : addr => mkgobj (mkobj false 32 32 KLinuxArm XGeneric) 24 true 0xff00ff true in
  let l := in_turn [at0 (GStore 0x117733); at0 (GCasStrong 0x115533 0x22aa44)] in
  legal (gcall_ok W) l /\
  snd (gen_run W (fun _ => 0) (fun _ => 0) l) =
    one_by_one 0 [(at0 (GStore 0x117733), RUnit); (at0 (GCasStrong 0x115533 0x22aa44), RCas true 0x110033)].
Proof.
  split; [apply in_turn_legal; repeat constructor; simpl; lia | vm_compute; reflexivity].
Qed.

(** ** C20 *)
Theorem C20_flag_linearizable :
  forall (W : addr -> flobj) (n0 : addr -> Z) (l : list (sched luck flcall)),
  flag_world_ok W ->
  let res := flag_run W n0 l in
  exists v th, linearizable_to (objects flag_spec) (fun _ => false) (snd res) v th /\
    (forall a, v a = flag_shown (c_mem (fst res)) a) /\
    (quiet (fst res) -> forall t, th t = PIdle).
Proof. exact flag_main. Qed.

(** While only the thread inside clears the flag, at most one thread is inside, and the flag is set. *)
Theorem C20_mutual_exclusion :
  forall (W : addr -> flobj) (n0 : addr -> Z) (l : list (sched luck flcall)) (a : addr) (t : nat),
  flag_world_ok W ->
  let res := flag_run W n0 l in
  only_owner_clears a (snd res) -> inside a (snd res) t = true ->
  flag_shown (c_mem (fst res)) a = true /\ forall u, inside a (snd res) u = true -> u = t.
Proof. exact mutex_aux. Qed.

(** Without a clear, at most one test_and_set returns false; exactly one once all have returned. *)
Theorem C20_one_winner :
  forall (W : addr -> flobj) (n0 : addr -> Z) (l : list (sched luck flcall)) (a : addr),
  flag_world_ok W ->
  let res := flag_run W n0 l in
  (forall t mo, ~ In (t, (mo, FlagClear)) (invoked_on a (snd res))) ->
  (length (filter won (calls_on a (completed (snd res)))) <= 1)%nat /\
  (quiet (fst res) -> filter tas_call (calls_on a (completed (snd res))) <> [] ->
   length (filter won (calls_on a (completed (snd res)))) = 1%nat /\ flag_shown (c_mem (fst res)) a = true).
Proof. exact one_winner_aux. Qed.

(** Thread 2 gets in, thread 1 does not; thread 2 leaves, thread 0 gets in. *)
Definition big_flag : addr -> flobj := fun _ => mkflobj (mkobj false 32 32 (KGccAtomic false) XGeneric) true true.
Definition lock_run : list (sched luck flcall) :=
  clash (at0 FlagTestAndSet) (at0 FlagTestAndSet) ++
  [SInv 1 (at0 FlagClear); SStep 1 ok_luck; SRes 1] ++ in_turn [at0 FlagTestAndSet].
Example C20_applies :
  flag_world_ok big_flag /\
  (let h := snd (flag_run big_flag (fun _ => 0) lock_run) in
   only_owner_clears 0 h /\ inside 0 h 0 = true /\ map snd (completed h) = [RBool true; RBool false; RUnit; RBool false]).
Proof.
  split; [intros a; unfold obj_ok, fl_w; simpl; repeat split; auto; lia|].
  split; [vm_compute; tauto | vm_compute; auto].
Qed.
Example C20_one_winner_applies :
  let res := flag_run big_flag (fun _ => 0) (clash (at0 FlagTestAndSet) (at0 FlagTestAndSet)) in
  (forall t mo, ~ In (t, (mo, FlagClear)) (invoked_on 0 (snd res))) /\ quiet (fst res) /\
  map snd (calls_on 0 (completed (snd res))) = [RBool true; RBool false].
Proof.
  refine (conj _ (conj _ _)).
  - intros t mo Hin. vm_compute in Hin. repeat (destruct Hin as [Hin|Hin]; [discriminate|]). destruct Hin.
  - intros [|[|[|t]]]; reflexivity.
  - vm_compute. reflexivity.
Qed.

(** ** C43: when padding, if any, is cleared by storing to padding bytes only *)
Theorem C43_references_linearizable_partial :
  forall (W : addr -> robj) (x0 n0 : addr -> Z) (l : list (sched luck rcall)),
  ref_world_ok W x0 -> legal (rcall_ok W) l ->
  let res := ref_run W x0 n0 l in
  exists v th, linearizable_to (objects (ref_spec W)) x0 (snd res) v th /\
    (forall a, val (c_mem (fst res) a) = v a) /\
    (quiet (fst res) -> forall t, th t = PIdle).
Proof. exact ref_main. Qed.

(** A 16-bit object whose high byte is padding and dirty: one thread binds while another exchanges. *)
Example C43_applies :
  let W := fun _ : addr => mkrobj (mkgobj (mkobj false 16 16 KX86 XX86) 16 false 0xff true) true in
  let l := clash (at0 RBind) (at0 (ROp (GExchange 0x1203))) in
  ref_world_ok W (fun _ => 0x9907) /\ legal (rcall_ok W) l /\
  (let res := ref_run W (fun _ => 0x9907) (fun _ => 0) l in
   snd res = [EInv 1 (at0 RBind); EInv 2 (at0 (ROp (GExchange 0x1203))); ERes 2 (RVal 0x07); ERes 1 RUnit] /\
   val (c_mem (fst res) 0%nat) = 3).
Proof.
  split; [|split].
  - intros a. unfold obj_ok, pattern, f_w, g_w. simpl. repeat split; auto; lia.
  - apply clash_legal; [left; reflexivity|]. unfold rcall_ok, gop_ok, pattern. simpl. lia.
  - vm_compute. auto.
Qed.

(** With padding inside a byte, binding a reference can undo a store made through another one:
    the run is finished, and its outcome is not that of the calls in any order. *)
Theorem C43_binding_loses_update_refuted :
  exists (W : addr -> robj) (x0 n0 : addr -> Z) (l : list (sched luck rcall)),
  ref_world_ok W x0 /\
  (forall t a mo o, In (SInv t (a, (mo, ROp o))) l -> gop_ok (g_vw (r_obj (W a))) o) /\
  let res := ref_run W x0 n0 l in
  quiet (fst res) /\
  ~ exists v th, linearizable_to (objects (ref_spec W)) x0 (snd res) v th /\
      (forall a, val (c_mem (fst res) a) = v a) /\ (forall t, th t = PIdle).
Proof.
  exists (bitfield false), (fun _ => 1), (fun _ => 0), bind_run. refine (conj _ (conj _ (conj bind_quiet bind_bad))).
  - intros a. unfold obj_ok, pattern, f_w, g_w. simpl. repeat split; auto; lia.
  - intros t a mo o Hin. simpl in Hin. repeat (destruct Hin as [Hin|Hin]; [inversion Hin; subst; simpl; unfold pattern; lia|]). destruct Hin.
Qed.

Print Assumptions C09_pointers_linearizable.
Print Assumptions C10_floats_linearizable.
Print Assumptions C10_wide_big_endian_negation_refuted.
Print Assumptions C11_bool_linearizable.
Print Assumptions C11_no_invented_value.
Print Assumptions C12_enum_linearizable_partial.
Print Assumptions C12_wide_enum_refuted.
Print Assumptions C13_values_linearizable.
Print Assumptions C20_flag_linearizable.
Print Assumptions C20_mutual_exclusion.
Print Assumptions C20_one_winner.
Print Assumptions C43_references_linearizable_partial.
Print Assumptions C43_binding_loses_update_refuted.

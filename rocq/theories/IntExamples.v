(** * Concrete worlds and schedules used by the examples of PropInt.v *)
From Coq Require Import ZArith List Bool Lia.
From Verif Require Import SpecInt SpecLin SpecObj SpecHist Order Prog Word IntModel IntConseq WideCex.
Import ListNotations.
Open Scope Z_scope.

(** ** A mixed world used in the examples: address 0 is an [int8_t] on x86, 1 an [int16_t] in a
    32-bit LL/SC word, 2 a [uint32_t] through the ARM kernel helper, 3 an [uint8_t] in a 32-bit word
    with GCC intrinsics, the rest [uint64_t] in memory handled by cmpxchg8b. *)
Definition mixed : world := fun a =>
  match a with
  | 0%nat => mkobj true 8 8 KX86 XX86
  | 1%nat => mkobj true 16 32 KLlsc (XLlsc true false)
  | 2%nat => mkobj false 32 32 KLinuxArm XGeneric
  | 3%nat => mkobj false 8 32 (KGccAtomic false) XGeneric
  | _ => mkobj false 64 64 (KX86D false) XX86
  end.
Definition mixed0 : addr -> Z := fun a =>
  match a with 0%nat => 127 | 1%nat => -1 | 2%nat => 5 | 3%nat => 255 | _ => 0 end.

Example mixed_ok : world_ok mixed mixed0.
Proof.
  intros [|[|[|[|a]]]]; unfold mixed, mixed0, obj_ok, rng; simpl; repeat split; auto; lia.
Qed.

Definition unlucky := mkluck false 0.
Definition steps_of (t : nat) (n : nat) : list (sched luck icall) := repeat (SStep t ok_luck) n.
(** Two threads race on one object; the first store-conditional or weak CAS fails spuriously. *)
Definition race (a : addr) (o1 o2 : iop) : list (sched luck icall) :=
  [SInv 1 (a, (SeqCst, o1)); SInv 2 (a, (AcqRel, o2))] ++
  repeat (SStep 1 unlucky) 3 ++ steps_of 2 12 ++ steps_of 1 16 ++ [SRes 2; SRes 1].

Arguments race a%nat_scope o1 o2.

Lemma race_legal W a o1 o2 :
  icall_ok W (a, (SeqCst, o1)) -> icall_ok W (a, (AcqRel, o2)) -> legal (icall_ok W) (race a o1 o2).
Proof.
  intros H1 H2 t o Hin. unfold race, steps_of in Hin. simpl in Hin.
  repeat (destruct Hin as [Hin|Hin]; [inversion Hin; subst; assumption|]). destruct Hin.
Qed.


Lemma idle_unless_called W v n l t :
  (forall o, ~ In (SInv t o) l) -> c_thr (fst (int_run W v n l)) t = Idle.
Proof.
  unfold int_run. intros H.
  assert (Hs : c_thr (start (act := wact) (resp := wresp) (op := icall) (ret := iret) (int_mem W v n)) t = Idle) by reflexivity.
  revert Hs. generalize (start (act := wact) (resp := wresp) (op := icall) (ret := iret) (int_mem W v n)).
  induction l as [|e l IH]; intros c Hc; simpl; auto.
  destruct (cstep wexec (int_impl W) c e) as [c1 h1] eqn:E.
  assert (H1 : c_thr c1 t = Idle).
  { destruct e as [u o|u w|u]; simpl in E.
    - destruct (c_thr c u) eqn:Eu; inversion E; subst; auto. simpl. unfold tset.
      destruct (Nat.eqb_spec t u); auto. subst. exfalso. apply (H o). now left.
    - destruct (c_thr c u) eqn:Eu; [inversion E; subst; auto|].
      destruct (pstep wexec u w (c_mem c) p). inversion E; subst. simpl. unfold tset.
      destruct (Nat.eqb_spec t u); auto. subst. congruence.
    - destruct (c_thr c u) as [|? [| |]] eqn:Eu; inversion E; subst; auto. simpl. unfold tset.
      destruct (Nat.eqb_spec t u); auto. }
  specialize (IH (fun o Hin => H o (or_intror Hin)) c1 H1).
  destruct (run wexec (int_impl W) c1 l); auto.
Qed.

Lemma race_quiet W v n a o1 o2 :
  (forall t, (t = 1 \/ t = 2)%nat -> c_thr (fst (int_run W v n (race a o1 o2))) t = Idle) ->
  quiet (fst (int_run W v n (race a o1 o2))).
Proof.
  intros H t. destruct (Nat.eq_dec t 1); [now apply H; left|]. destruct (Nat.eq_dec t 2); [now apply H; right|].
  apply idle_unless_called. intros o Hin. unfold race, steps_of in Hin. simpl in Hin.
  repeat (destruct Hin as [Hin|Hin]; [inversion Hin; subst; congruence|]). destruct Hin.
Qed.

(** * A concrete collection of objects for the examples beside the theorems. *)
From Coq Require Import ZArith List Bool Arith Lia.
From Verif Require Import SpecInt SpecTyped SpecLin SpecObj SpecBytes SpecInstant SpecPool Conv Prog FindModel RecordsModel PoolModel PoolFront.
Import ListNotations.
Open Scope Z_scope.

(** Object 0: a signed 128-bit integer; object 1: a lock-free structure of 4 bytes, one of them padding, waiting through
    the pool; object 2: a 10-byte floating point number; the others like object 0. *)
Definition x_arith : arith := mkarith (fun x v => (x + v) mod 2 ^ 80) (fun x v => (x - v) mod 2 ^ 80) (fun x => Z.lxor x (2 ^ 79)).
Definition x_desc (a size : nat) (al : Z) (wk : wkind) : odesc := Build_odesc (64 * Z.of_nat a + 64) size al true wk.
Definition x_obj (a : nat) : tobj :=
  match a with
  | 1%nat => mktobj (x_desc a 4 4 WPool) (KVal 32 0xFFFFFF00 true)
  | 2%nat => mktobj (x_desc a 16 16 WEmulated) (KFp 80 x_arith)
  | _ => mktobj (x_desc a 16 16 WEmulated) (KInt true)
  end.
Definition x_pl (lk : lockkind) : platform := Build_platform lk 1 16 true find_address_generic 2 (fun _ d => d) 1 true.
Definition x_mem (v0 : nat -> Z) : pmem :=
  mkp (fun _ => 0) (fun _ => None)
    (fun z => nth (Z.to_nat (z mod 64)) (bytes true 16 (t_enc (x_obj (Z.to_nat (z / 64 - 1))) (v0 (Z.to_nat (z / 64 - 1))))) 0)
    (fun a => t_enc (x_obj a) (v0 a)) (fun _ => wlist0) (fun _ _ => 0) (fun _ _ => 0) [] 7 (fun _ => 0) (fun _ _ => 0) false.

Definition go (t n : nat) : list (sched fate (nat * tcall)) := repeat (SStep t (mkf true false 0 0 true true)) n.
Definition call (t : nat) (c : nat * tcall) (n : nat) : list (sched fate (nat * tcall)) := SInv t c :: go t n ++ [SRes t].

Lemma x_platform lk : platform_ok (x_pl lk).
Proof. unfold platform_ok. simpl. lia. Qed.
Lemma x_layout : layout_ok (fun a => t_desc (x_obj a)).
Proof.
  assert (H : forall a, d_addr (t_desc (x_obj a)) = 64 * Z.of_nat a + 64 /\ (0 < d_size (t_desc (x_obj a)) <= 16)%nat /\
                        0 < d_align (t_desc (x_obj a))).
  { intros [|[|[|a]]]; cbn; repeat split; lia. }
  split.
  - intros a. destruct (H a) as (-> & ? & ?). lia.
  - intros a b N. destruct (H a) as (-> & ? & ?). destruct (H b) as (-> & ? & ?). lia.
Qed.
Lemma x_ok a : t_ok (x_obj a).
Proof.
  destruct a as [|[|[|a]]]; cbn; auto.
  - unfold pattern, t_w. cbn. lia.
  - unfold pattern, t_w, arith_ok, pattern. cbn. split; [lia|]. intros x v Hx Hv.
    change (2 ^ 80) with 1208925819614629174706176 in *. refine (conj _ (conj _ _)); try (apply Z.mod_pos_bound; lia).
    assert (H : Z.lxor x (2 ^ 79) = (Z.lxor x (2 ^ 79)) mod 2 ^ 80).
    { apply Z.bits_inj'. intros n Hn. rewrite Z.lxor_spec. destruct (Z.ltb_spec n 80).
      - rewrite Z.mod_pow2_bits_low by lia. now rewrite Z.lxor_spec.
      - rewrite Z.mod_pow2_bits_high by lia. rewrite Z.pow2_bits_false by lia.
        assert (x mod 2 ^ 80 = x) by (apply Z.mod_small; exact Hx). rewrite <- H0.
        rewrite Z.mod_pow2_bits_high by lia. reflexivity. }
    change (604462909807314587353088) with (2 ^ 79). rewrite H. apply Z.mod_pos_bound. lia.
Qed.
Lemma x_start v0 : pool_start (fun a => t_desc (x_obj a)) (fun a => t_enc (x_obj a) (v0 a)) (x_mem v0).
Proof.
  unfold pool_start. refine (conj _ (conj _ (conj _ (conj _ (conj _ _))))); cbn; auto; try lia.
  intros a. unfold shows. destruct (d_locked (t_desc (x_obj a))) eqn:L; [|reflexivity].
  assert (Hd : d_size (t_desc (x_obj a)) = 16%nat /\ d_be (t_desc (x_obj a)) = true /\ d_addr (t_desc (x_obj a)) = 64 * Z.of_nat a + 64).
  { destruct a as [|[|[|a]]]; cbn in *; auto. discriminate. }
  destruct Hd as (-> & -> & ->). unfold x_mem, bytes_at. cbn [byt].
  set (l := bytes true 16 (t_enc (x_obj a) (v0 a))).
  assert (Hl : length l = 16%nat) by (unfold l, bytes; rewrite rev_length; reflexivity).
  assert (Hz : forall j, (j < 16)%nat -> (64 * Z.of_nat a + 64 + Z.of_nat j) mod 64 = Z.of_nat j /\ (64 * Z.of_nat a + 64 + Z.of_nat j) / 64 - 1 = Z.of_nat a).
  { intros j Hj. split; [symmetry; apply (Z.mod_unique _ _ (Z.of_nat a + 1)); lia|].
    assert ((64 * Z.of_nat a + 64 + Z.of_nat j) / 64 = Z.of_nat a + 1) by (symmetry; apply (Z.div_unique _ _ _ (Z.of_nat j)); lia). lia. }
  transitivity (map (fun j => nth j l 0) (seq 0 16)).
  - apply map_ext_in. intros j Hj. apply in_seq in Hj. destruct (Hz j) as [-> ->]; [lia|]. rewrite !Nat2Z.id. reflexivity.
  - rewrite <- Hl at 1. clear. generalize 0 at 1. intros z. induction l as [|x l IH] using rev_ind; [reflexivity|].
    rewrite app_length. simpl length. rewrite Nat.add_1_r, seq_S, map_app. simpl. f_equal.
    + rewrite <- IH at 2. apply map_ext_in. intros j Hj. apply in_seq in Hj. apply app_nth1. lia.
    + rewrite app_nth2 by lia. now rewrite Nat.sub_diag.
Qed.

(** Thread 1 waits on object 0, threads 2 and 3 change it at the same time, thread 2 notifies. *)
Definition x_v0 (a : nat) : Z := match a with 0%nat => -5 | _ => 5 end.
Definition x_sched : list (sched fate (nat * tcall)) :=
  SInv 1%nat (0%nat, TWait (-5)) :: go 1 60 ++
  SInv 2%nat (0%nat, TInt (Store (2 ^ 100))) :: go 2 20 ++
  SInv 3%nat (0%nat, TInt (Rmw Fetch (Bin Add 1))) :: go 3 30 ++ go 2 30 ++ [SRes 2%nat] ++ go 3 80 ++ [SRes 3%nat] ++
  call 2 (0%nat, TNotify true) 60 ++ go 1 80 ++ [SRes 1%nat].
(** A timed wait with a deadline in the past, on the lock-free object. *)
Definition x_late : list (sched fate (nat * tcall)) := call 1 (1%nat, TTimed UntilOther 257 3) 60.

Lemma x_v0_ok a : tvalue (t_type (x_obj a)) (x_v0 a).
Proof. destruct a as [|[|[|a]]]; cbn; unfold rng, pattern; lia. Qed.
Lemma legal_app {o p} ok (l1 l2 : list (sched o p)) : legal ok l1 -> legal ok l2 -> legal ok (l1 ++ l2).
Proof. intros H1 H2 t c H. apply in_app_or in H. destruct H; [apply (H1 t) | apply (H2 t)]; auto. Qed.
Lemma legal_cons {o p} (ok : p -> Prop) t c (l : list (sched o p)) : ok c -> legal ok l -> legal ok (SInv t c :: l).
Proof. intros H1 H2 u d [H|H]; [injection H as -> ->; auto | apply (H2 u); auto]. Qed.
Lemma legal_res {o p} (ok : p -> Prop) t : legal ok [@SRes o p t].
Proof. intros u d [H|[]]. discriminate. Qed.
Lemma legal_go ok t n : legal ok (go t n).
Proof. intros u d H. apply repeat_spec in H. discriminate. Qed.
Lemma legal_call (ok : nat * tcall -> Prop) t c n : ok c -> legal ok (call t c n).
Proof. intros H. unfold call. apply legal_cons; auto. apply legal_app; [apply legal_go | apply legal_res]. Qed.
Notation x_legal := (legal (fun c => tcall_ok (t_type (x_obj (fst c))) (snd c))).
Lemma x_sched_legal : x_legal x_sched.
Proof.
  unfold x_sched. apply legal_cons; [cbn; unfold rng; lia|]. apply legal_app; [apply legal_go|].
  apply legal_cons; [cbn; unfold rng; lia|]. apply legal_app; [apply legal_go|].
  apply legal_cons; [cbn; unfold rng; lia|].
  repeat (apply legal_app; [first [apply legal_go | apply legal_res | apply legal_call; exact I]|]). apply legal_res.
Qed.
Lemma x_late_legal : x_legal x_late.
Proof. apply legal_call. cbn. unfold pattern. lia. Qed.

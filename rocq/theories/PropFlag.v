(** * Property C50: waiting on an atomic_flag; pointers, booleans and flags behind the pool and the waits.

    Statements only.  Vocabulary: that of PropPool.v. *)
From Coq Require Import ZArith List Bool Arith Lia.
From Verif Require Import SpecInt SpecTyped SpecLin SpecObj SpecInstant SpecPool Prog FindModel PoolModel PoolFront PoolTyped PoolConseq
  PoolExamples SleepExamples PropPool.
Import ListNotations.
Open Scope Z_scope.

(** ** Examples of C21, C31 and C34 for pointers, booleans and flags.  Objects: 0 a flag with the byte-wide intrinsics and
    the futex, 1 a flag waiting through the pool, 2 a lock-based flag, 3 a lock-based pointer to elements of 12 bytes,
    4 a lock-free bool waiting through the pool; all little-endian. *)
Definition f_obj (a : nat) : tobj :=
  match a with
  | 0%nat => mktobj (Build_odesc 64 4 4 false WFutex) (KFlag (Some 0))
  | 1%nat => mktobj (Build_odesc 128 4 4 false WPool) (KFlag None)
  | 2%nat => mktobj (Build_odesc 192 4 4 false WEmulated) (KFlag None)
  | 3%nat => mktobj (Build_odesc 256 8 8 false WEmulated) (KPtr 12)
  | _ => mktobj (Build_odesc (64 * Z.of_nat a + 64) 1 1 false WPool) KBool
  end.
Notation f_legal := (legal (fun c => tcall_ok (t_type (f_obj (fst c))) (snd c))).
Example C50_objects : forall lk,
  platform_ok (x_pl lk) /\ layout_ok (fun a => t_desc (f_obj a)) /\ (forall a, t_ok (f_obj a)) /\
  pool_start (fun a => t_desc (f_obj a)) (fun a => t_enc (f_obj a) 0) z_mem /\ (forall a, tvalue (t_type (f_obj a)) 0).
Proof.
  intros lk. refine (conj (x_platform lk) (conj _ (conj _ (conj _ _)))).
  - assert (H : forall a, d_addr (t_desc (f_obj a)) = 64 * Z.of_nat a + 64 /\ (0 < d_size (t_desc (f_obj a)) <= 8)%nat /\
                          0 < d_align (t_desc (f_obj a))).
    { intros [|[|[|[|a]]]]; cbn [f_obj t_desc d_addr d_size d_align]; repeat split; lia. }
    split.
    + intros a. destruct (H a) as (-> & ? & ?). lia.
    + intros a b N. destruct (H a) as (-> & ? & ?). destruct (H b) as (-> & ? & ?). lia.
  - intros [|[|[|[|a]]]]; cbn; auto. right. split; [reflexivity | unfold t_w; cbn; lia].
  - unfold pool_start. refine (conj _ (conj _ (conj _ (conj _ (conj _ _))))); cbn; auto; try lia.
    intros [|[|[|[|a]]]]; reflexivity.
  - intros [|[|[|[|a]]]]; cbn; auto. unfold is_addr. lia.
Qed.
(** a pointer moved back over the end of the address space; a bool that a waiter sees change *)
Example C50_pointer_and_bool : forall lk,
  let l := call 2 (3%nat, TPtr (PAdd Fetch (-1))) 120 ++ SInv 1%nat (4%nat, TWait 0) :: go 1 60 ++
           call 2 (4%nat, TBool (BExchange true)) 60 ++ call 2 (4%nat, TNotify false) 60 ++ go 1 60 ++ [SRes 1%nat] ++
           call 2 (3%nat, TPtr PLoad) 60 in
  f_legal l /\
  snd (t_run (x_pl lk) f_obj z_mem l) =
    [EInv 2 (3%nat, TPtr (PAdd Fetch (-1))); ERes 2 (TRet (RVal 0)); EInv 1 (4%nat, TWait 0);
     EInv 2 (4%nat, TBool (BExchange true)); ERes 2 (TRet (RVal 0)); EInv 2 (4%nat, TNotify false); ERes 2 (TRet RUnit);
     ERes 1 (TWaited 1 false); EInv 2 (3%nat, TPtr PLoad); ERes 2 (TRet (RVal (2 ^ 64 - 12)))].
Proof.
  intros lk l. split.
  - unfold l. apply legal_app; [apply legal_call; exact I|]. apply legal_cons; [cbn; auto|]. apply legal_app; [apply legal_go|].
    repeat (apply legal_app; [first [apply legal_go | apply legal_res | apply legal_call; exact I]|]). apply legal_call. exact I.
  - destruct lk; vm_compute; reflexivity.
Qed.

(** ** C50.  The value a wait on a flag returns is the other one, and the flag had it at an instant of the call.  Missing
    for the full property: big-endian targets with the byte-wide intrinsics. *)
Theorem C50_flag_wait_partial : forall pl (T : nat -> tobj) m (v0 : nat -> Z) l,
  platform_ok pl -> layout_ok (fun a => t_desc (T a)) -> (forall a, t_ok (T a)) ->
  pool_start (fun a => t_desc (T a)) (fun a => t_enc (T a) (v0 a)) m -> (forall a, tvalue (t_type (T a)) (v0 a)) ->
  legal (fun c => tcall_ok (t_type (T (fst c))) (snd c)) l ->
  forall h1 t a first old h2 r h3, t_kind (T a) = KFlag first ->
  answered (snd (t_run pl T m l)) h1 t (a, TWait (Z.b2z old)) h2 r h3 ->
  r = TWaited (Z.b2z (negb old)) false /\
  exists s, during (objects (fun a => tstep (t_type (T a)))) (fun a => t_holds (T a) (v0 a)) h1 t (a, TWait (Z.b2z old)) h2 r h3 s /\
    s a = Z.b2z (negb old).
Proof.
  intros pl T m v0 l Hpl HD HT Hm Hv Hl h1 t a first old h2 r h3 K Ha.
  destruct (typed_waits pl T Hpl HD HT m v0 l Hm Hv Hl _ _ _ _ _ _ _ Ha) as (s & v' & A & B).
  assert (Ka : t_type (T a) = OFlag) by (unfold t_type; now rewrite K).
  assert (Hs : s a = Z.b2z (negb old)).
  { destruct A as (h2a & h2b & _ & A). apply (flag_instant T a) in A; [|exact Ka|].
    - inversion B; subst. rewrite Ka in *. cbn in *. destruct old; cbn in *; lia.
    - specialize (Hv a). rewrite Ka in Hv. unfold t_holds. rewrite Ka. exact Hv. }
  split; [|exists s; auto]. inversion B; subst. now rewrite Hs.
Qed.
Print Assumptions C50_flag_wait_partial.

Theorem C50_flag_timed_wait_partial : forall pl (T : nat -> tobj) m (v0 : nat -> Z) l,
  platform_ok pl -> layout_ok (fun a => t_desc (T a)) -> (forall a, t_ok (T a)) ->
  pool_start (fun a => t_desc (T a)) (fun a => t_enc (T a) (v0 a)) m -> (forall a, tvalue (t_type (T a)) (v0 a)) ->
  legal (fun c => tcall_ok (t_type (T (fst c))) (snd c)) l ->
  forall h1 t a first k old limit h2 r h3, t_kind (T a) = KFlag first ->
  answered (snd (t_run pl T m l)) h1 t (a, TTimed k (Z.b2z old) limit) h2 r h3 ->
  (r = TWaited (Z.b2z (negb old)) false \/ r = TWaited (Z.b2z old) true) /\
  exists s b, during (objects (fun a => tstep (t_type (T a)))) (fun a => t_holds (T a) (v0 a)) h1 t
    (a, TTimed k (Z.b2z old) limit) h2 r h3 s /\ r = TWaited (s a) b.
Proof.
  intros pl T m v0 l Hpl HD HT Hm Hv Hl h1 t a first k old limit h2 r h3 K Ha.
  destruct (C34_timed_wait_values pl T m v0 l Hpl HD HT Hm Hv Hl _ _ _ _ _ _ _ _ _ Ha) as (s & b & A & -> & B).
  split; [|exists s, b; auto].
  assert (Ka : t_type (T a) = OFlag) by (unfold t_type; now rewrite K). rewrite Ka in B. cbn in B.
  assert (Hs : s a = 0 \/ s a = 1).
  { destruct A as (h2a & h2b & _ & A). apply (flag_instant T a) in A; [exact A|exact Ka|].
    specialize (Hv a). rewrite Ka in Hv. unfold t_holds. rewrite Ka. exact Hv. }
  destruct b.
  - right. now rewrite (proj1 B eq_refl).
  - left. assert (N : Z.b2z old <> s a) by (intros E; now apply B in E). destruct Hs as [E | E]; rewrite E in *; destruct old; cbn in *; congruence.
Qed.
Print Assumptions C50_flag_timed_wait_partial.
(** on each of the three flags of [C50_objects], a waiter for the end of a critical section *)
Example C50_applies : forall lk a, In a [0; 1; 2]%nat ->
  let l := call 2 (a, TFlag FlagTestAndSet) 60 ++ SInv 1%nat (a, TWait (Z.b2z true)) :: go 1 60 ++ call 2 (a, TFlag FlagClear) 60 ++
           call 2 (a, TNotify true) 60 ++ go 1 60 ++ [SRes 1%nat] in
  f_legal l /\ (exists first, t_kind (f_obj a) = KFlag first) /\
  answered (snd (t_run (x_pl lk) f_obj z_mem l)) [EInv 2 (a, TFlag FlagTestAndSet); ERes 2 (TRet (RBool false))] 1 (a, TWait (Z.b2z true))
    [EInv 2 (a, TFlag FlagClear); ERes 2 (TRet RUnit); EInv 2 (a, TNotify true); ERes 2 (TRet RUnit)] (TWaited (Z.b2z false) false) [].
Proof.
  intros lk a Ha l. split; [|split].
  - assert (Ka : t_type (f_obj a) = OFlag) by (destruct Ha as [<-|[<-|[<-|[]]]]; reflexivity).
    unfold l. apply legal_app; [apply legal_call; cbn [fst snd]; rewrite Ka; exact I|].
    apply legal_cons; [cbn [fst snd]; rewrite Ka; cbn; auto|].
    apply legal_app; [apply legal_go|]. apply legal_app; [apply legal_call; cbn [fst snd]; rewrite Ka; exact I|].
    apply legal_app; [apply legal_call; exact I|]. apply legal_app; [apply legal_go | apply legal_res].
  - destruct Ha as [<-|[<-|[<-|[]]]]; eexists; reflexivity.
  - split; [|cbn; intros e [<-|[<-|[<-|[<-|[]]]]]; cbn; discriminate].
    destruct Ha as [<-|[<-|[<-|[]]]]; destruct lk; vm_compute; reflexivity.
Qed.

(** Big-endian targets with the byte-wide intrinsics (core_ops_gcc_atomic.hpp 147-155): a set flag is the word 2^24, and
    the waits compare with 1.  wait(true) returns at once, with the value true, although nobody has cleared the flag. *)
Theorem C50_flag_wait_refuted : exists pl (T : nat -> tobj) m l,
  platform_ok pl /\ layout_ok (fun a => t_desc (T a)) /\
  (forall a, t_desc (T a) = Build_odesc (64 * Z.of_nat a + 64) 4 4 true WFutex /\ t_kind (T a) = KFlag (Some 24)) /\
  pool_start (fun a => t_desc (T a)) (fun a => t_enc (T a) 0) m /\
  legal (fun c => tcall_ok (t_type (T (fst c))) (snd c)) l /\
  snd (t_run pl T m l) =
    [EInv 1 (0%nat, TFlag FlagTestAndSet); ERes 1 (TRet (RBool false));
     EInv 2 (0%nat, TWait (Z.b2z true)); ERes 2 (TWaited (Z.b2z true) false);
     EInv 2 (0%nat, TFlag FlagTest); ERes 2 (TRet (RBool true))].
Proof.
  exists (x_pl LFutex), (fun a => mktobj (Build_odesc (64 * Z.of_nat a + 64) 4 4 true WFutex) (KFlag (Some 24))), z_mem,
    (call 1 (0%nat, TFlag FlagTestAndSet) 60 ++ call 2 (0%nat, TWait 1) 60 ++ call 2 (0%nat, TFlag FlagTest) 60).
  refine (conj (x_platform _) (conj _ (conj _ (conj _ (conj _ _))))).
  - split; intros; cbn [t_desc d_addr d_size d_align]; lia.
  - intros a. split; reflexivity.
  - unfold pool_start. refine (conj _ (conj _ (conj _ (conj _ (conj _ _))))); cbn; auto; try lia.
  - apply legal_app; [apply legal_call; exact I|]. apply legal_app; apply legal_call; cbn; auto.
  - vm_compute. reflexivity.
Qed.
Print Assumptions C50_flag_wait_refuted.

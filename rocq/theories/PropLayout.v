(** * Property C54: atomic objects lie in memory where the processor can access them in one piece.

    Statements only.  Vocabulary: SpecLayout.v (types, places, what the platform decides), SpecCaps.v (targets). *)
From Coq Require Import ZArith List Bool Lia.
Require Import Verif.SpecCaps Verif.SpecLayout Verif.BytesModel Verif.CapsModel Verif.CapsProof Verif.CapsFront Verif.LayoutModel Verif.LayoutProof.
Import ListNotations.
Open Scope Z_scope.

(** ** [atomic< T >], for every type [T] and every target.  Wherever such an object may lie, alone or as an element of an
    array: if it is lock-free, its whole storage is one piece, large enough for a [T], and belongs to this object alone. *)
Theorem C54_atomic_one_piece : forall t b type i l base k,
  sane t -> abi_ok b -> legal type ->
  atomic_class t (l_size type) = Some i -> always_lock_free i = true -> atomic_layout t b type = Some l -> may_lie l base ->
  one_piece (storage_bytes i) (element l base k) /\
  l_size type <= storage_bytes i /\ element l base k + storage_bytes i <= element l base (k + 1).
Proof.
  intros t b type i l base k S B T E F L M. destruct (atomic_ok t b type S B T l L) as (A1 & A2 & A3 & A4).
  destruct (A4 i E) as (_ & (B1 & B2) & B3). destruct (B3 F) as (P & D). split; [split; [exact P|]|].
  - eapply element_div; eauto.
  - split; [exact B1|]. unfold element. lia.
Qed.
Print Assumptions C54_atomic_one_piece.
(** Lock-free or not: the object is itself a legal type, it has room for a [T] where a [T] may lie, and the alignment the
    library asks the compiler for is one the compiler must accept. *)
Theorem C54_atomic_holds_value : forall t b type i l base k,
  sane t -> abi_ok b -> legal type -> atomic_class t (l_size type) = Some i -> atomic_layout t b type = Some l -> may_lie l base ->
  legal l /\ may_lie type (element l base k) /\ l_size type <= l_size l /\
  alignas_legal (fst (atomic_member t b i (l_align type))) (snd (atomic_member t b i (l_align type))).
Proof.
  intros t b type i l base k S B T E L M. destruct (atomic_ok t b type S B T l L) as (A1 & A2 & A3 & A4).
  destruct (A4 i E) as (A5 & _). split; [exact A1|]. split; [eapply element_div; eauto|]. auto.
Qed.
Print Assumptions C54_atomic_holds_value.
(** 32-bit x86 with 8-byte instructions; [unsigned long long] has alignment 4 in structures there. *)
Definition i386 : target := {| fallback := false; cpu := Some (X86 false true true true true false); intrinsics := true;
  level := fun _ => 2; clang := false; clang_before_3_5 := false; gcc_7 := false; sync_sizes := fun _ => false;
  linux_arm := false; windows := false;
  sizeof := fun c => match c with CChar | CBool => 1 | CShort => 2 | CInt | CLong | CPointer => 4 | CLlong => 8 end; sys := SysFutex |}.
Definition i386_abi : abi := {| int_align := fun n => if n <=? 4 then n else 4; int128 := false; max_align := 16; aligner := None |}.
Lemma i386_ok : sane i386 /\ abi_ok i386_abi.
Proof.
  split.
  - unfold sane. cbn. repeat split; auto; try lia. intros []; cbn; auto.
  - split; [|split; [exists 4; split; [lia|reflexivity]|cbn; auto with zarith]].
    intros n [<-|[<-|[<-|[<-|[<-|[]]]]]]; cbn; (split; [|lia]); [exists 0|exists 1|exists 2|exists 2|exists 2]; lia.
Qed.
(** an 8-byte integer and a structure of three [int]: 8 and 16 bytes of storage; only the first is lock-free *)
Example C54_atomic_applies :
  legal (Layout 8 4) /\ atomic_class i386 8 = Some (Impl CompilerAtomic 8) /\ atomic_layout i386 i386_abi (Layout 8 4) = Some (Layout 8 8) /\
  may_lie (Layout 8 8) 24 /\ one_piece 8 (element (Layout 8 8) 24 3) /\ ~ may_lie (Layout 8 8) 20 /\ may_lie (Layout 8 4) 20 /\
  legal (Layout 12 4) /\ atomic_class i386 12 = Some (Impl LockPool 16) /\ atomic_layout i386 i386_abi (Layout 12 4) = Some (Layout 16 16).
Proof.
  unfold legal, may_lie, one_piece, element. cbn [l_size l_align].
  repeat split; try lia; try reflexivity; try (exists 2; lia); try (exists 3; lia); try (exists 6; lia); try (exists 5; lia).
  intros (k & K). lia.
Qed.

(** ** [atomic_flag] *)
Theorem C54_flag_one_piece : forall t b i l base k,
  sane t -> abi_ok b -> flag_class t = Some i -> always_lock_free i = true -> flag_layout t b = Some l -> may_lie l base ->
  one_piece (storage_bytes i) (element l base k) /\ element l base k + storage_bytes i <= element l base (k + 1).
Proof.
  intros t b i l base k S B E F L M. destruct (flag_ok t b i l S B E L) as (A1 & A2 & A3). destruct (A3 F) as (P & D).
  split; [split; [exact P|eapply element_div; eauto]|]. unfold element. lia.
Qed.
Print Assumptions C54_flag_one_piece.
Example C54_flag_applies : flag_class i386 = Some (Impl CompilerAtomic 4) /\ flag_layout i386 i386_abi = Some (Layout 4 4) /\ may_lie (Layout 4 4) 20.
Proof. repeat split. exists 5. reflexivity. Qed.

(** ** [atomic_ref< T >].  [required_alignment] is a multiple of the alignment of [T], and the constructor's assertion
    accepts exactly its multiples.  The storage the operations access is exactly the referenced object.  If the reference
    is lock-free, every object the assertion accepts is one piece; otherwise every object of type [T] is accepted. *)
Theorem C54_ref_one_piece : forall t b type i l r address,
  sane t -> abi_ok b -> legal type ->
  ref_class t (l_size type) = Some i -> ref_storage t b type = Some l -> required_alignment t type = Some r ->
  power_of_two r /\ (l_align type | r) /\ (ref_assertion r address = true <-> (r | address)) /\
  l_size l = l_size type /\ storage_bytes i = l_size type /\
  (ref_assertion r address = true -> may_lie type address /\ may_lie l address) /\
  (always_lock_free i = true -> ref_assertion r address = true -> one_piece (l_size type) address) /\
  (always_lock_free i = false -> may_lie type address -> ref_assertion r address = true).
Proof.
  intros t b type i l r address S B T E L R.
  destruct (ref_ok t b type S B T i l r E L R) as (A1 & A2 & A3 & A4 & A5 & A6 & A7 & A8). pose proof (assertion_ok r address A1) as K.
  split; [exact A1|]. split; [exact A2|]. split; [exact K|]. split; [exact A6|]. split; [exact A5|]. split; [|split].
  - rewrite K. intros D. split; [eapply Z.divide_trans; [exact A2|exact D]|]. unfold may_lie.
    eapply div_le_trans; [| |exact A4|exact D]; [apply A3|exact A1].
  - intros F. rewrite K. intros D. destruct (A7 F) as [P Q]. split; [exact P|]. eapply Z.divide_trans; [exact Q|exact D].
  - intros F. rewrite K, (A8 F). auto.
Qed.
Print Assumptions C54_ref_one_piece.
(** there, an 8-byte integer must lie at a multiple of 8 to be referred to; a structure of 12 bytes may lie anywhere *)
Example C54_ref_applies :
  ref_class i386 8 = Some (Impl CompilerAtomic 8) /\ ref_storage i386 i386_abi (Layout 8 4) = Some (Layout 8 4) /\
  required_alignment i386 (Layout 8 4) = Some 8 /\ ref_assertion 8 24 = true /\ ref_assertion 8 20 = false /\
  ref_class i386 12 = Some (Impl LockPool 12) /\ ref_storage i386 i386_abi (Layout 12 4) = Some (Layout 12 1) /\
  required_alignment i386 (Layout 12 4) = Some 4 /\ ref_assertion 4 20 = true.
Proof. repeat split. Qed.

(** * C55: the search is chosen safely at run time, and the clean-up is registered once. *)
From Coq Require Import ZArith List Bool Arith Lia.
From Verif Require Import SpecLin SpecHist SpecFind SpecOnce Prog FindModel FindProof DispatchModel DispatchProof.
Import ListNotations.
Open Scope Z_scope.

(** Any number of threads search lists of addresses, and begin to allocate buffers, in any interleaving.  [l] is the
    schedule; [d_run] starts from the static initialization.  The first searches may all find that nothing has been
    chosen yet, and choose at the same time. *)

(** C55.  On every processor that can run the program at all, no thread ever executes a search made of instructions
    the processor does not have. *)
Theorem C55_only_present_instructions : forall b c l,
  fit b c -> d_illegal (c_mem (fst (d_run b c l))) = false.
Proof. intros b c l F. exact (j_legal b c _ (run_ok b c F l)). Qed.
Print Assumptions C55_only_present_instructions.

(** what is counted as such an instruction, in the words of the processor's manual *)
Theorem C55_instructions : forall c,
  (lacks c VSse2 = false <-> cpu_sse2 c) /\ (lacks c VSse41 = false <-> cpu_sse41 c).
Proof.
  intros c. unfold lacks, cpu_sse2, cpu_sse41. rewrite !negb_false_iff, !andb_true_iff, !Z.leb_le. tauto.
Qed.
Print Assumptions C55_instructions.

(** C55.  Whatever the other threads do, every search that returns answers what a linear search answers. *)
Theorem C55_search_while_choosing : forall b c l t k addr addrs size r,
  fit b c ->
  length addrs = ((if wide b then 2 else 4) * 2 ^ k)%nat -> (size <= length addrs)%nat ->
  In (t, Search addr addrs size, r) (completed (snd (d_run b c l))) ->
  exists pos, r = Some pos /\
    ((pos < size)%nat -> first_at addr (firstn size addrs) pos) /\
    ((size <= pos)%nat -> ~ In addr (firstn size addrs)).
Proof.
  intros b c l t k addr addrs size r F L S K. destruct (run_calls b c F l _ K) as (v & V & ->).
  exact (code_finds b c v k addr addrs size V L S).
Qed.
Print Assumptions C55_search_while_choosing.

(** C55.  The clean-up is never registered twice; once a thread is past the registration, it has been registered or
    some thread is about to do so. *)
Theorem C55_cleanup_at_most_once : forall b c l,
  fit b c -> (d_handlers (c_mem (fst (d_run b c l))) <= 1)%nat.
Proof. intros b c l F. destruct (j_flag b c _ (run_ok b c F l)) as [(_ & -> & _)|[(_ & -> & _)|(_ & -> & _)]]; lia. Qed.
Print Assumptions C55_cleanup_at_most_once.

Theorem C55_cleanup_registered : forall b c l t r,
  fit b c -> In (t, Register, r) (completed (snd (d_run b c l))) ->
  d_handlers (c_mem (fst (d_run b c l))) = 1%nat \/ exists u p, c_thr (fst (d_run b c l)) u = Run Register p.
Proof.
  intros b c l t r F K. pose proof (run_calls b c F l _ K) as G. cbn in G.
  assert (E : d_flag (c_mem (fst (d_run b c l))) = 1).
  { destruct G as [G|[G|[G|[_ G]]]]; [discriminate G|discriminate G|discriminate G|exact G]. }
  destruct (j_flag b c _ (run_ok b c F l)) as [(A & _)|[(_ & A & _)|(_ & _ & u & A & _)]]; [congruence|left; exact A|].
  right. exists u, at_exit. exact A.
Qed.
Print Assumptions C55_cleanup_registered.

Theorem C55_cleanup_once : forall b c l t r,
  fit b c -> quiet (fst (d_run b c l)) -> In (t, Register, r) (completed (snd (d_run b c l))) ->
  d_handlers (c_mem (fst (d_run b c l))) = 1%nat.
Proof.
  intros b c l t r F Q K. destruct (C55_cleanup_registered b c l t r F K) as [E|(u & p & E)]; [exact E|].
  rewrite (Q u) in E. discriminate E.
Qed.
Print Assumptions C55_cleanup_once.

(** A finding: two kinds of builds refer to a function that is not there (DESIGN.md, finding 31). *)
Theorem C55_undeclared_dispatch : forall b,
  compiles b = false <->
  wide b = true /\ baseline b = Sse41 /\ with_sse2 b = true /\ with_sse41 b = false \/
  wide b = false /\ baseline b <> NoSse2 /\ with_sse2 b = false /\ with_sse41 b = true.
Proof. intros [[] [] [] []]; cbn; split; intros H; try discriminate H; try reflexivity; intuition congruence. Qed.
Print Assumptions C55_undeclared_dispatch.

(** The hypotheses can be met: a 64-bit build for any x86-64 processor, a processor without SSE4.1, two threads that
    both find nothing chosen, and two that both see the flag unset. *)
Definition d_build : build := Build true true true Sse2.
Definition d_cpu : x86_cpu := Cpu 13 0 (2 ^ 26) (fun _ => (0, 0, 0, 0)).
Definition d_list : list Z := [10; 20; 30; 40; 50; 60; 70; 80; 90; 100; 110; 120; 130; 140; 0; 0].
Definition d_sched : list (sched unit dop) :=
  [SInv 0 (Search 130 d_list 14); SInv 1 (Search 135 d_list 14); SStep 0 tt; SStep 1 tt;
   SInv 2 Register; SInv 3 Register; SStep 2 tt; SStep 3 tt; SStep 3 tt; SStep 2 tt; SRes 2; SStep 3 tt; SRes 3]
  ++ repeat (SStep 0 tt) 4 ++ repeat (SStep 1 tt) 4 ++ [SRes 0; SRes 1].
Example C55_applies : fit d_build d_cpu /\ length d_list = ((if wide d_build then 2 else 4) * 2 ^ 3)%nat /\
  completed (snd (d_run d_build d_cpu d_sched)) =
    [(2, Register, None); (3, Register, None); (0, Search 130 d_list 14, Some 12); (1, Search 135 d_list 14, Some 14)]%nat /\
  d_ptr (c_mem (fst (d_run d_build d_cpu d_sched))) = VSse2 /\ d_handlers (c_mem (fst (d_run d_build d_cpu d_sched))) = 1%nat.
Proof. split; [split; [cbn; lia|reflexivity]|]. split; [reflexivity|]. vm_compute. repeat split. Qed.

(** * C42: the x86 back end on a processor with store buffers. *)
From Coq Require Import ZArith List.
Require Import Verif.Order Verif.SpecTso Verif.TsoModel Verif.TsoProof Verif.TsoCoherence
  Verif.TsoExamples.
Import ListNotations.
Open Scope nat_scope.

(** Any program without data races whose atomic operations are all seq_cst shows
    on the store-buffer machine only what it shows when its actions are
    interleaved: for every schedule of instructions and arrivals of stores there
    is an interleaving with the same actions and results in the same order and
    the same states of the threads and, once the buffers are empty, the same
    memory.  (Races are looked for in the interleavings only.) *)
Theorem C42_race_free_sequentially_consistent : forall (p : program) init threads,
  (forall sched, race_free (sc_trace (sc_run (sc_start p init threads) sched))) ->
  (forall sched, Forall (fun e => seq_cst_action (action_of e))
                   (sc_trace (sc_run (sc_start p init threads) sched))) ->
  forall sched, exists sched',
    let s := tso_run (tso_start p init threads) sched in
    let c := sc_run (sc_start p init threads) sched' in
    map observed (t_trace s) = sc_trace c /\
    (forall t, t_threads s t = sc_threads c t) /\
    ((forall t, t_buffer s t = []) -> forall l, fst (last (t_mem s l) (0%Z, None)) = sc_mem c l).
Proof. exact drf_sc. Qed.
Print Assumptions C42_race_free_sequentially_consistent.

(** Any program, with any orders and races: the run is coherent. *)
Theorem C42_coherent : forall (p : program) (init : nat -> Z) threads sched,
  let s := tso_run (tso_start p init threads) sched in
  coherent (t_trace s) (fun l => map snd (t_mem s l)).
Proof. exact run_coherent. Qed.
Print Assumptions C42_coherent.

Theorem C42_values : forall (p : program) (init : nat -> Z) threads sched,
  values_explained init (t_trace (tso_run (tso_start p init threads) sched)).
Proof. exact run_values. Qed.
Print Assumptions C42_values.

(** When the buffers are empty, the memory has all the writes of the run, each
    once, after the initial value. *)
Theorem C42_all_writes_arrive : forall (p : program) (init : nat -> Z) threads sched,
  let s := tso_run (tso_start p init threads) sched in
  (forall t, t_buffer s t = []) ->
  forall l, NoDup (map snd (t_mem s l)) /\
    (exists r, map snd (t_mem s l) = None :: r /\ ~ In None r) /\
    forall i, writes (t_trace s) i l <-> In (Some i) (map snd (t_mem s l)).
Proof. exact run_complete. Qed.
Print Assumptions C42_all_writes_arrive.

(** Store buffering (Dekker): thread A writes [x] (event [i]), makes a strong
    operation ([i'], which may be the write itself) and reads [y] ([j]); thread
    B does the same the other way round.  They do not both miss the other's
    write. *)
Theorem C42_store_buffering : forall (p : program) (init : nat -> Z) threads sched
    x y i i' j k k' m wj wm ei ei' ej ek ek' em,
  let s := tso_run (tso_start p init threads) sched in
  let tr := t_trace s in
  nth_error tr i = Some ei -> nth_error tr i' = Some ei' -> nth_error tr j = Some ej ->
  nth_error tr k = Some ek -> nth_error tr k' = Some ek' -> nth_error tr m = Some em ->
  e_thread ei = e_thread ei' -> e_thread ei' = e_thread ej -> i <= i' -> i' < j ->
  e_thread ek = e_thread ek' -> e_thread ek' = e_thread em -> k <= k' -> k' < m ->
  e_thread ei <> e_thread ek ->
  strong (e_op ei') -> strong (e_op ek') ->
  writes tr i x -> writes tr k y -> reads_from tr j y wj -> reads_from tr m x wm ->
  older (map snd (t_mem s y)) wj (Some k) -> older (map snd (t_mem s x)) wm (Some i) -> False.
Proof.
  exact (fun p init threads sched x y i i' j k k' m wj wm ei ei' ej ek ek' em =>
    store_buffering _ _ x y i i' j k k' m wj wm ei ei' ej ek ek' em
      (run_coherent p init threads sched)).
Qed.
Print Assumptions C42_store_buffering.

(** Message passing: thread A writes [d] (event [i]) and then [f] ([k]); thread
    B reads that write of [f] ([j]) and then reads [d] ([m]): it does not get an
    older value than A's. *)
Theorem C42_message_passing : forall (p : program) (init : nat -> Z) threads sched
    d f i k j m w ei ek ej em,
  let s := tso_run (tso_start p init threads) sched in
  let tr := t_trace s in
  nth_error tr i = Some ei -> nth_error tr k = Some ek ->
  nth_error tr j = Some ej -> nth_error tr m = Some em ->
  e_thread ei = e_thread ek -> i < k -> e_thread ej = e_thread em -> j < m ->
  writes tr i d -> reads_from tr j f (Some k) -> reads_from tr m d w ->
  ~ older (map snd (t_mem s d)) w (Some i).
Proof.
  exact (fun p init threads sched d f i k j m w ei ek ej em =>
    message_passing _ _ d f i k j m w ei ek ej em (run_coherent p init threads sched)).
Qed.
Print Assumptions C42_message_passing.

(** ** Examples *)

(** The hypotheses of the first theorem are met by a program with ordinary data
    and a seq_cst flag, on which the theorem gives the expected result. *)
Example C42_mp_race_free :
  (forall sched, race_free (sc_trace (sc_run mp_sc sched))) /\
  (forall sched, Forall (fun e => seq_cst_action (action_of e)) (sc_trace (sc_run mp_sc sched))).
Proof. exact (conj mp_race_free mp_seq_cst). Qed.

Example C42_mp_reads_42 : forall sched e, In e (t_trace (tso_run mp_tso sched)) ->
  e_op e = PlainLoad 0 -> e_value e = 42%Z.
Proof. exact mp_reads_42. Qed.

Example C42_mp_run :
  map e_value (t_trace (tso_run mp_tso [Exec 0; Exec 1; Flush 0; Exec 0; Exec 1; Exec 1]))
  = [0; 0; 0; 1; 42]%Z.
Proof. reflexivity. Qed.

(** Store buffering with release stores: both threads may read 0; with seq_cst
    stores, this schedule gives 0 and 1. *)
Example C42_release_stores_pass :
  let s := tso_run (sb Release) [Exec 0; Exec 1; Exec 0; Exec 1; Flush 0; Flush 1] in
  snd (t_threads s 0) = [0; 0]%Z /\ snd (t_threads s 1) = [0; 0]%Z.
Proof. split; reflexivity. Qed.

Example C42_seq_cst_stores :
  let s := tso_run (sb SeqCst) [Exec 0; Exec 0; Exec 1; Exec 1] in
  snd (t_threads s 0) = [0; 0]%Z /\ snd (t_threads s 1) = [0; 1]%Z.
Proof. split; reflexivity. Qed.

(** The run of the release stores has stale reads: the hypotheses of
    [C42_store_buffering] other than the strong operations are met. *)
Example C42_release_stores_stale :
  let s := tso_run (sb Release) [Exec 0; Exec 1; Exec 0; Exec 1; Flush 0; Flush 1] in
  reads_from (t_trace s) 2 1 None /\ older (map snd (t_mem s 1)) None (Some 1) /\
  reads_from (t_trace s) 3 0 None /\ older (map snd (t_mem s 0)) None (Some 0).
Proof.
  split; [eexists; repeat split|]. split; [exists [], [], []; reflexivity|].
  split; [eexists; repeat split|]. exists [], [], []. reflexivity.
Qed.

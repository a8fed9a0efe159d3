(** C35, C36, C37: the arithmetic of time-outs. *)
From Coq Require Import ZArith List Bool Lia.
From Verif Require Import SpecTime PoolModel TimeModel TimeProof PoolExamples.
Open Scope Z_scope.

(** ** C35: time-outs are not cut short *)

(** As long as the deadline is ahead, a native wait calls the system; the time asked for is at least what is left, or
    the most the call can express (more than half an hour; the loop then waits again, as the time-out is only reported
    by the next theorem's condition); it is at most one unit longer than what is left; it is not the 'no time-out' value
    nor one the system rejects.  The clock may tick in any multiple num/den of the unit of the call. *)
Theorem C35_asks_for_the_rest : forall b std num den limit now, fits b -> 0 < num -> 0 < den ->
  now < limit -> is_count ((limit - now) * num) ->
  exists x len, decide b std num den limit now = Some (Sleep x) /\ meaning b x = Some len /\
    0 < len /\
    Z.min ((limit - now) * num * unit_ns b) (capacity b * den) <= len * den /\
    len * den < (limit - now) * num * unit_ns b + unit_ns b * den.
Proof. exact decide_sleep. Qed.
Print Assumptions C35_asks_for_the_rest.
Theorem C35_capacity : forall b, fits b -> 2000000000000 < capacity b.
Proof. exact capacity_big. Qed.
Print Assumptions C35_capacity.
(** non-trivial: Windows, a nanosecond clock, 1.5 ms left: 2 ms are asked for; 100 days left: 49.7 days *)
Example C35_asks_example :
  fits WaitOnAddress /\ is_count ((1500000 - 0) * 1) /\
  decide WaitOnAddress false 1 1000000 1500000 0 = Some (Sleep (Num 2)) /\
  decide WaitOnAddress false 1 1000000 8640000000000000 0 = Some (Sleep (Num 4294967294)) /\
  decide (Futex 32) false 1 1 8640000000000000000 0 = Some (Sleep (Ts (mkts 2147483647 999999999))) /\
  meaning (Futex 32) (Ts (mkts 2147483647 999999999)) = Some (capacity (Futex 32)).
Proof. repeat split; vm_compute; congruence. Qed.

(** A native wait reports the time-out only when its clock shows the deadline or a later time. *)
Theorem C35_late_only_after_deadline : forall b std num den limit now, 0 < num -> 0 < den ->
  decide b std num den limit now = Some Late -> limit <= now.
Proof. exact decide_late. Qed.
Print Assumptions C35_late_only_after_deadline.
Example C35_late_example : decide Ulock false 1 1000 5000 6000 = Some Late.
Proof. reflexivity. Qed.
(** Once the deadline is reached it does so: at once where std::chrono::ceil is available or the overdue time is whole
    units, otherwise at the latest when a whole unit is overdue. *)
Theorem C35_late_after_deadline : forall b std num den limit now, 0 < num -> 0 < den ->
  is_count (limit - now) -> is_count ((limit - now) * num) -> limit <= now ->
  std = true \/ (den | (limit - now) * num) \/ (limit - now) * num <= - den ->
  decide b std num den limit now = Some Late.
Proof. exact decide_over. Qed.
Print Assumptions C35_late_after_deadline.
Example C35_overdue_example :
  is_count (5000 - 6000) /\ 5000 <= 6000 /\ (5000 - 6000) * 1 <= - 1000 /\
  (* without it, half a microsecond after the deadline another microsecond is asked for *)
  decide Ulock false 1 1000 5000 5500 = Some (Sleep (Num 1)) /\ decide Ulock true 1 1000 5000 5500 = Some Late.
Proof. repeat split; vm_compute; congruence. Qed.

(** The same for the waits of lock-based objects on Windows, which round twice. *)
Theorem C35_pooled_asks_for_the_rest : forall std num den limit now, 0 < num -> 0 < den ->
  now < limit -> is_count ((limit - now) * num) ->
  exists x len, decide_cv std num den limit now = Some (Sleep x) /\ meaning SleepCv x = Some len /\
    0 < len /\
    Z.min ((limit - now) * num) (capacity SleepCv * den) <= len * den /\
    len * den < (limit - now) * num + 1000000 * den.
Proof. exact decide_cv_sleep. Qed.
Print Assumptions C35_pooled_asks_for_the_rest.
Theorem C35_pooled_late_only_after_deadline : forall std num den limit now, 0 < num -> 0 < den ->
  decide_cv std num den limit now = Some Late -> limit <= now.
Proof. exact decide_cv_late. Qed.
Print Assumptions C35_pooled_late_only_after_deadline.
Example C35_pooled_example :
  decide_cv false 1 10 15 0 = Some (Sleep (Num 1)) /\ decide_cv false 100 1 (2 ^ 50) 0 = Some (Sleep (Num 4294967294)) /\
  decide_cv false 1 1 5 5 = Some Late.
Proof. repeat split. Qed.

(** The waits of the whole-program model (PoolModel.v) ask for such a time when given one of these back ends; the theorems
    about time-outs there (C34) hold whatever they ask for. *)
Theorem C35_model_asks : forall pl b std n start, fits b -> 0 < n < 2 ^ 63 ->
  let p := with_backend pl b std in
  Z.min n (capacity b) <= pl_req p start (units p n) < n + unit_ns b.
Proof. exact with_backend_asks. Qed.
Print Assumptions C35_model_asks.
Example C35_model_example :
  let p := with_backend (x_pl LPthread) UmtxSleep false in
  pl_req p 0 (units p 1500) = 2000 /\ pl_req p 0 (units p 3600000000000) = 2147483647000.
Proof. split; vm_compute; reflexivity. Qed.

(** Absolute deadlines: [wait_for] with futexes and umtx waits until exactly the present time plus the time-out rounded
    up to nanoseconds, in a normalised timespec. *)
Theorem C35_absolute_deadline : forall std w num den now timeout ts, 0 < den -> is_time_t w ->
  normalised now -> 0 <= tv_sec now -> 0 <= timeout * num ->
  for_timespec std w num den now timeout = Some (Some ts) ->
  normalised ts /\ 0 <= tv_sec ts <= time_max w /\
  exists c, ceiling_of num den timeout c /\ ts_ns ts = ts_ns now + c.
Proof. exact for_timespec_ok. Qed.
Print Assumptions C35_absolute_deadline.
(** Waits on condition variables: exactly the time left, or the end of time_t. *)
Theorem C35_condvar_deadline : forall w now rel ts, is_time_t w -> normalised now -> 0 <= tv_sec now -> 0 <= rel ->
  cv_timespec w now rel = Some ts ->
  normalised ts /\ 0 <= tv_sec ts <= time_max w /\
  ts_ns ts = Z.min (ts_ns now + rel) (time_max w * 1000000000 + 999999999).
Proof. exact cv_timespec_ok. Qed.
Print Assumptions C35_condvar_deadline.
Example C35_absolute_example :
  for_timespec false 64 1 10 (mkts 7 999999999) 11 = Some (Some (mkts 8 1)) /\
  for_timespec true 32 1000000000 1 (mkts 7 0) 2147483647 = Some None /\
  cv_timespec 32 (mkts 7 5) (2147483647 * 1000000000) = Some (mkts 2147483647 999999999) /\
  cv_timespec 64 (mkts 7 999999999) 2 = Some (mkts 8 1).
Proof. repeat split. Qed.

(** system_clock time points become timespecs exactly where time_t has 64 bits (the clock counts nanoseconds), before
    and after the epoch; so does any instant within a 32-bit time_t. *)
Theorem C35_system_deadline_64 : forall t, is_count t -> let ts := to_timespec 64 0 t in
  normalised ts /\ ts_ns ts = t.
Proof.
  intros t H. pose proof (quot_small t H). destruct (to_timespec_ok 64 0 t) as [A B]; [right; reflexivity | lia | lia|].
  split; [exact A | exact B].
Qed.
Print Assumptions C35_system_deadline_64.
Theorem C35_system_deadline_partial : forall w epoch t, is_time_t w ->
  - 2 ^ (w - 1) < Z.quot t 1000000000 < 2 ^ (w - 1) -> - 2 ^ (w - 1) < epoch + Z.quot t 1000000000 < 2 ^ (w - 1) ->
  let ts := to_timespec w epoch t in
  normalised ts /\ ts_ns ts = epoch * 1000000000 + t.
Proof. exact to_timespec_ok. Qed.
Print Assumptions C35_system_deadline_partial.
Example C35_system_example :
  is_count (- 1500000000) /\ to_timespec 64 0 (- 1500000000) = mkts (-2) 500000000 /\
  to_timespec 32 5 1700000000123456789 = mkts 1700000005 123456789.
Proof. repeat split; vm_compute; congruence. Qed.
(** With a 32-bit time_t the deadlines from 2038 on are misread: this one, in 2040, becomes an instant before 1970, for
    which the wait reports a time-out immediately. *)
Theorem C35_system_deadline_32_refuted : exists t now, is_count t /\ 0 < now < t /\
  tv_sec (to_timespec 32 0 t) < 0 /\ ts_ns (to_timespec 32 0 t) < now.
Proof. exists 2208988800000000000, 1700000000000000000. repeat split; vm_compute; congruence. Qed.
Print Assumptions C35_system_deadline_32_refuted.

(** The comparison of timespecs in the pool's wait_until. *)
Theorem C35_reached : forall now limit, normalised now -> normalised limit ->
  reached now limit = true <-> ts_ns limit <= ts_ns now.
Proof. exact reached_ok. Qed.
Print Assumptions C35_reached.
Theorem C35_left : forall limit now r, ts_left limit now = Some r -> r = ts_ns limit - ts_ns now.
Proof. exact ts_left_ok. Qed.
Print Assumptions C35_left.
Example C35_reached_example :
  reached (mkts 3 5) (mkts 3 5) = true /\ reached (mkts 3 4) (mkts 3 5) = false /\ reached (mkts 4 0) (mkts 3 5) = true /\
  ts_left (mkts 4 0) (mkts 3 5) = Some 999999995.
Proof. repeat split. Qed.

(** ** C36: overflow *)

(** The full claim is false in every version: with futexes and umtx, [wait_for] of the longest time-out in nanoseconds
    or of 2562048 hours; elsewhere, of the longest time-out, any time after the clock's epoch;
    [wait_until] the earliest time point. *)
Theorem C36_wait_for_absolute_refuted : forall std w, exists now timeout, normalised now /\ 0 <= tv_sec now /\ is_count timeout /\
  for_timespec std w 1 1 now timeout = None.
Proof. intros std w. exists (mkts 1 1), (2 ^ 63 - 1). destruct std; repeat split; vm_compute; congruence. Qed.
Print Assumptions C36_wait_for_absolute_refuted.
Theorem C36_wait_for_hours_refuted : forall std w now, exists hours, 0 <= hours < 2562048 + 1 /\
  for_timespec std w 3600000000000 1 now hours = None.
Proof. intros std w now. exists 2562048. split; [lia|]. destruct std; reflexivity. Qed.
Print Assumptions C36_wait_for_hours_refuted.
Theorem C36_wait_for_relative_refuted : forall now, 0 < now -> exists timeout, is_count timeout /\ for_deadline now timeout = None.
Proof. intros now H. exists (2 ^ 63 - 1). split; [split; lia|]. apply i64_none. unfold is_count. lia. Qed.
Print Assumptions C36_wait_for_relative_refuted.
Theorem C36_condvar_refuted : forall w, exists now rel, normalised now /\ 0 <= tv_sec now /\ is_count rel /\ cv_timespec w now rel = None.
Proof. intros w. exists (mkts 1 1), (2 ^ 63 - 1). repeat split; vm_compute; congruence. Qed.
Print Assumptions C36_condvar_refuted.
Theorem C36_wait_until_refuted : forall b std num den now, 0 < now -> exists limit, is_count limit /\ decide b std num den limit now = None.
Proof.
  intros b std num den now H. exists (- 2 ^ 63). split; [split; lia|]. unfold decide. rewrite i64_none; [reflexivity|]. unfold is_count. lia.
Qed.
Print Assumptions C36_wait_until_refuted.

(** What holds: no overflow when the time-out is one second short of the longest, or the deadline representable. *)
Theorem C36_wait_for_absolute_partial : forall std w num den now timeout, 0 < den -> normalised now -> 0 <= tv_sec now < 2 ^ 62 ->
  0 <= timeout * num < 2 ^ 63 - 1000000000 -> exists r, for_timespec std w num den now timeout = Some r.
Proof. exact for_timespec_some. Qed.
Print Assumptions C36_wait_for_absolute_partial.
Theorem C36_wait_for_relative_partial : forall now timeout, 0 <= now -> - 2 ^ 63 <= timeout -> now + timeout < 2 ^ 63 ->
  for_deadline now timeout = Some (now + timeout).
Proof. exact for_deadline_some. Qed.
Print Assumptions C36_wait_for_relative_partial.
Theorem C36_condvar_partial : forall w now rel, normalised now -> 0 <= tv_sec now < 2 ^ 62 -> 0 <= rel < 2 ^ 63 - 1000000000 ->
  exists ts, cv_timespec w now rel = Some ts.
Proof. exact cv_timespec_some. Qed.
Print Assumptions C36_condvar_partial.
Theorem C36_wait_until_partial : forall b std num den limit now, 0 < den -> is_count (limit - now) -> is_count ((limit - now) * num) ->
  exists v, decide b std num den limit now = Some v.
Proof. exact decide_some. Qed.
Print Assumptions C36_wait_until_partial.
(** [wait_until] of a system_clock time point through the pool, 64-bit time_t: never. *)
Theorem C36_system_wait_until : forall t now, is_count t -> 0 <= tv_sec now -> normalised now -> ts_ns now < t ->
  ts_left (to_timespec 64 0 t) now = Some (t - ts_ns now).
Proof. exact ts_left_some. Qed.
Print Assumptions C36_system_wait_until.
Example C36_example :
  for_timespec false 64 3600000000000 1 (mkts 5 6) 2562047 = Some (Some (mkts 9223369205 6)) /\
  for_deadline 1 (- 2 ^ 63) = Some (1 - 2 ^ 63) /\
  cv_timespec 64 (mkts 5 6) (2 ^ 62) = Some (mkts 4611686023 427387910) /\
  decide UmtxSleep false 1 1000 (2 ^ 63 - 1) 0 = Some (Sleep (Num 2147483647)) /\
  ts_left (to_timespec 64 0 (2 ^ 63 - 1)) (mkts 0 0) = Some (2 ^ 63 - 1).
Proof. repeat split. Qed.

(** ** C37: rounding *)
(** False as stated: half a millisecond ago is rounded up to one millisecond from now. *)
Theorem C37_ceiling_refuted : exists num den n r, 0 < num /\ 0 < den /\ is_count n /\ ceil_lib num den n = Some r /\
  ~ ceiling_of num den n r.
Proof.
  exists 1, 1000000, (-500000), 1. repeat split; try (vm_compute; congruence). intros [_ H]. specialize (H 0). lia.
Qed.
Print Assumptions C37_ceiling_refuted.
(** True of durations that are not negative, and of whole numbers of units. *)
Theorem C37_ceiling_partial : forall num den n r, 0 < den -> 0 <= n * num \/ (den | n * num) ->
  ceil_lib num den n = Some r -> ceiling_of num den n r.
Proof. intros num den n r D [H|H]; [apply ceil_lib_nonneg | apply ceil_lib_whole]; assumption. Qed.
Print Assumptions C37_ceiling_partial.
(** The rest is exactly one too large: never too small. *)
Theorem C37_negative : forall num den n r, 0 < den -> n * num < 0 -> ~ (den | n * num) ->
  ceil_lib num den n = Some r -> ceiling_of num den n (r - 1).
Proof. exact ceil_lib_wrong. Qed.
Print Assumptions C37_negative.
(** The replacement in the standard library, as modelled, is right for all. *)
Theorem C37_standard : forall num den n r, 0 < den -> ceil_cxx num den n = Some r -> ceiling_of num den n r.
Proof. exact ceil_cxx_ok. Qed.
Print Assumptions C37_standard.
(** Neither fails except when the product overflows. *)
Theorem C37_defined : forall std num den n, 0 < den -> is_count (n * num) -> exists r, ceil_to std num den n = Some r.
Proof. exact ceil_to_some. Qed.
Print Assumptions C37_defined.
Example C37_example :
  ceil_lib 1 1000000 1500000 = Some 2 /\ ceil_lib 1 1000000 (- 2000000) = Some (- 2) /\ (1000000 | -2000000 * 1) /\
  ceil_lib 1 1000000 (- 1500000) = Some 0 /\ ceil_cxx 1 1000000 (- 1500000) = Some (- 1) /\ ceil_lib 5 3 4 = Some 7.
Proof. repeat split; try reflexivity. exists (-2). reflexivity. Qed.

(** Proofs about the arithmetic of the timed waits. *)
From Coq Require Import ZArith Bool Lia.
From Verif Require Import SpecTime PoolModel TimeModel.
Open Scope Z_scope.

Lemma i64_some z : is_count z -> i64 z = Some z.
Proof.
  intros [H1 H2]. unfold i64. apply Z.leb_le in H1. apply Z.ltb_lt in H2. now rewrite H1, H2.
Qed.
Lemma i64_inv z r : i64 z = Some r -> r = z /\ is_count z.
Proof.
  unfold i64, is_count. destruct (Z.leb_spec (- 2 ^ 63) z), (Z.ltb_spec z (2 ^ 63)); cbn [andb]; intros E; try discriminate.
  injection E as <-. lia.
Qed.
Lemma i64_none z : ~ is_count z -> i64 z = None.
Proof. intros H. destruct (i64 z) eqn:E; [|reflexivity]. apply i64_inv in E. tauto. Qed.

(** ** Rounding *)
Lemma ceiling_unique num den n r r' : ceiling_of num den n r -> ceiling_of num den n r' -> r = r'.
Proof. intros [A1 A2] [B1 B2]. apply Z.le_antisymm; auto. Qed.

Lemma ceiling_bound num den n r : 0 < den -> ceiling_of num den n r <-> n * num <= r * den < n * num + den.
Proof.
  intros D. unfold ceiling_of. split.
  - intros [A B]. split; [exact A|]. destruct (Z.lt_ge_cases (r * den) (n * num + den)) as [|L]; [assumption|].
    specialize (B (r - 1)). nia.
  - intros [A B]. split; [exact A|]. intros q Hq. nia.
Qed.

Lemma quot_rem_facts p den : 0 < den ->
  p = den * Z.quot p den + Z.rem p den /\
  (0 <= p -> 0 <= Z.rem p den < den) /\ (p <= 0 -> - den < Z.rem p den <= 0).
Proof.
  intros D. split; [apply Z.quot_rem; lia|]. split; intros P.
  - apply Z.rem_bound_pos; lia.
  - pose proof (Z.rem_bound_pos (- p) den). rewrite Z.rem_opp_l in H by lia. lia.
Qed.

(** what the library's version gives, overflow apart *)
Lemma ceil_lib_inv num den n r : 0 < den -> ceil_lib num den n = Some r ->
  is_count (n * num) /\ n * num <= r * den < n * num + 2 * den /\
  (0 <= n * num -> r * den < n * num + den) /\ (n * num <= - den -> r <= 0) /\ (Z.rem (n * num) den = 0 -> r * den = n * num).
Proof.
  intros D. unfold ceil_lib. destruct (i64 (n * num)) as [p|] eqn:E; [|discriminate]. apply i64_inv in E. destruct E as [-> Ip].
  cbn [obind]. intros E. apply i64_inv in E. destruct E as [-> _]. split; [exact Ip|].
  set (p := n * num) in *. destruct (quot_rem_facts p den D) as (Q & P1 & P2).
  set (q := Z.quot p den) in *. set (m := Z.rem p den) in *.
  destruct (Z.leb_spec 0 p) as [L|L]; [specialize (P1 L); clear P2 | specialize (P2 ltac:(lia)); clear P1]; destruct (Z.eqb_spec m 0); repeat split; nia.
Qed.
Lemma ceil_cxx_inv num den n r : 0 < den -> ceil_cxx num den n = Some r ->
  is_count (n * num) /\ n * num <= r * den < n * num + den.
Proof.
  intros D. unfold ceil_cxx. destruct (i64 (n * num)) as [p|] eqn:E; [|discriminate]. apply i64_inv in E. destruct E as [-> Ip].
  cbn [obind]. intros E. apply i64_inv in E. destruct E as [-> _]. split; [exact Ip|].
  set (p := n * num) in *. destruct (quot_rem_facts p den D) as (Q & P1 & P2).
  set (q := Z.quot p den) in *. set (m := Z.rem p den) in *.
  destruct (Z.leb_spec 0 p) as [L|L]; [specialize (P1 L); clear P2 | specialize (P2 ltac:(lia)); clear P1]; destruct (Z.ltb_spec (q * den) p); nia.
Qed.
Lemma small_count x y den : 0 < den -> is_count x -> - x <= 0 -> y * den < x + den -> 0 <= y -> is_count y.
Proof. unfold is_count. intros D [H1 H2] P H Y. split; [lia|]. nia. Qed.

Lemma ceil_to_some std num den n : 0 < den -> is_count (n * num) -> exists r, ceil_to std num den n = Some r.
Proof.
  intros D H. unfold ceil_to, ceil_cxx, ceil_lib. rewrite (i64_some _ H). cbn [obind].
  set (p := n * num) in *. destruct (quot_rem_facts p den D) as (Q & P1 & P2).
  set (q := Z.quot p den) in *. set (m := Z.rem p den) in *. unfold is_count in H.
  assert (is_count q /\ (q + 1 < 2 ^ 63 \/ m = 0 /\ q * den = p)) as [Hq Hq1].
  { unfold is_count. destruct (Z.leb_spec 0 p) as [L|L]; [specialize (P1 L); clear P2 | specialize (P2 ltac:(lia)); clear P1].
    - assert (0 <= q) by nia. assert (q <= p) by nia. split; [lia|].
      destruct (Z.eq_dec m 0); [right; nia|left].
      destruct (Z.eq_dec den 1); [lia|]. assert (2 * q <= p) by nia. lia.
    - assert (q <= 0) by nia. assert (p <= q) by nia. lia. }
  unfold is_count in Hq. destruct std.
  - eexists. apply i64_some. unfold is_count. destruct (Z.ltb_spec (q * den) p); [|lia]. destruct Hq1 as [|[_ ?]]; lia.
  - eexists. apply i64_some. unfold is_count. destruct (Z.eqb_spec m 0); [lia|]. destruct Hq1 as [|[? _]]; lia.
Qed.
Lemma ceil_to_pos std num den n : 0 < den -> 0 <= n * num -> is_count (n * num) ->
  exists r, ceil_to std num den n = Some r /\ n * num <= r * den < n * num + den.
Proof.
  intros D P H. destruct (ceil_to_some std num den n D H) as [r E]. exists r. split; [exact E|].
  destruct std; cbn [ceil_to] in E.
  - now apply ceil_cxx_inv in E.
  - apply ceil_lib_inv in E; [|exact D]. destruct E as (_ & A & B & _). specialize (B P). lia.
Qed.
Lemma ceil_to_le std num den n r : 0 < den -> ceil_to std num den n = Some r -> n * num <= r * den.
Proof.
  intros D E. destruct std; cbn [ceil_to] in E.
  - apply ceil_cxx_inv in E; [|exact D]. lia.
  - apply ceil_lib_inv in E; [|exact D]. lia.
Qed.

Lemma ceil_lib_nonneg num den n r : 0 < den -> 0 <= n * num -> ceil_lib num den n = Some r -> ceiling_of num den n r.
Proof.
  intros D P E. apply ceil_lib_inv in E; [|exact D]. destruct E as (_ & A & B & _). specialize (B P). apply ceiling_bound; lia.
Qed.
Lemma ceil_lib_whole num den n r : 0 < den -> (den | n * num) -> ceil_lib num den n = Some r -> ceiling_of num den n r.
Proof.
  intros D [q Hq] E. apply ceil_lib_inv in E; [|exact D]. destruct E as (_ & _ & _ & _ & B). apply ceiling_bound; [exact D|].
  assert (R : Z.rem (n * num) den = 0) by (rewrite Hq; apply Z.rem_mul; lia). specialize (B R). lia.
Qed.
Lemma ceil_cxx_ok num den n r : 0 < den -> ceil_cxx num den n = Some r -> ceiling_of num den n r.
Proof. intros D E. apply ceil_cxx_inv in E; [|exact D]. apply ceiling_bound; lia. Qed.
(** exactly one too many for the rest *)
Lemma ceil_lib_wrong num den n r : 0 < den -> n * num < 0 -> ~ (den | n * num) -> ceil_lib num den n = Some r ->
  ceiling_of num den n (r - 1).
Proof.
  intros D N W E. unfold ceil_lib in E. destruct (i64 (n * num)) as [p|] eqn:Ep; [|discriminate]. apply i64_inv in Ep. destruct Ep as [-> _].
  cbn [obind] in E. apply i64_inv in E. destruct E as [-> _]. destruct (quot_rem_facts (n * num) den D) as (Q & _ & P). specialize (P ltac:(lia)).
  destruct (Z.eqb_spec (Z.rem (n * num) den) 0) as [R|R].
  - elim W. exists (Z.quot (n * num) den). lia.
  - apply ceiling_bound; [exact D|]. nia.
Qed.

(** ** Relative waits *)
Lemma time_max_ge w : is_time_t w -> 2147483647 <= time_max w.
Proof. intros [->| ->]; cbn; lia. Qed.

Lemma rel_timespec_ok w n : is_time_t w -> 0 <= n -> let ts := rel_timespec w n in
  0 <= tv_sec ts <= time_max w /\ normalised ts /\ ts_ns ts = Z.min n (time_max w * 1000000000 + 999999999).
Proof.
  intros W N. cbv zeta. unfold rel_timespec, normalised, ts_ns. pose proof (time_max_ge w W).
  destruct (quot_rem_facts n 1000000000) as (Q & P & _); [lia|]. specialize (P N).
  set (q := Z.quot n 1000000000) in *. set (m := Z.rem n 1000000000) in *.
  destruct (Z.leb_spec q (time_max w)); cbn [tv_sec tv_nsec]; lia.
Qed.

Lemma ask_ok b rest : fits b -> 0 < rest < 2 ^ 63 ->
  exists x len, ask b rest = Sleep x /\ meaning b x = Some len /\ len = Z.min (rest * unit_ns b) (capacity b).
Proof.
  intros W R. unfold ask. destruct (Z.leb_spec rest 0); [lia|].
  assert (T : forall w, is_time_t w -> exists len, (if (0 <=? tv_sec (rel_timespec w rest)) && (tv_sec (rel_timespec w rest) <=? time_max w) &&
      (0 <=? tv_nsec (rel_timespec w rest)) && (tv_nsec (rel_timespec w rest) <? 1000000000) then Some (ts_ns (rel_timespec w rest)) else None) = Some len /\
      len = Z.min (rest * 1) (time_max w * 1000000000 + 999999999)).
  { intros w Hw. destruct (rel_timespec_ok w rest Hw) as (A & B & C); [lia|]. unfold normalised in B. eexists.
    destruct (Z.leb_spec 0 (tv_sec (rel_timespec w rest))); [|lia].
    destruct (Z.leb_spec (tv_sec (rel_timespec w rest)) (time_max w)); [|lia].
    destruct (Z.leb_spec 0 (tv_nsec (rel_timespec w rest))); [|lia].
    destruct (Z.ltb_spec (tv_nsec (rel_timespec w rest)) 1000000000); [|lia]. cbn [andb]. split; [reflexivity|]. lia. }
  destruct b; cbn [unit_ns capacity]; eexists.
  1, 2: (destruct (T w W) as (len & E1 & E2); exists len; split; [reflexivity|]; split; [exact E1 | exact E2]).
  all: eexists; split; [reflexivity|]; cbn [meaning]; split; [|reflexivity].
  - rewrite Z.mod_small by lia. destruct (Z.ltb_spec 0 rest); [|lia]. destruct (Z.ltb_spec rest (2 ^ 64)); [|lia].
    cbn [andb]. f_equal. lia.
  - destruct (Z.leb_spec rest (2 ^ 32 - 1)).
    + rewrite Z.mod_small by lia. destruct (Z.ltb_spec 0 rest); [|lia]. destruct (Z.ltb_spec rest (2 ^ 32)); [|lia].
      cbn [andb]. f_equal. lia.
    + change (Some ((2 ^ 32 - 1) * 1000) = Some (Z.min (rest * 1000) ((2 ^ 32 - 1) * 1000))). f_equal. lia.
  - destruct (Z.leb_spec rest (2 ^ 31 - 1)).
    + destruct (Z.ltb_spec 0 rest); [|lia]. destruct (Z.ltb_spec rest (2 ^ 31)); [|lia].
      cbn [andb]. f_equal. lia.
    + change (Some ((2 ^ 31 - 1) * 1000) = Some (Z.min (rest * 1000) ((2 ^ 31 - 1) * 1000))). f_equal. lia.
  - destruct (Z.leb_spec rest (2 ^ 32 - 2)).
    + rewrite Z.mod_small by lia. destruct (Z.leb_spec 0 rest); [|lia]. destruct (Z.ltb_spec rest (2 ^ 32 - 1)); [|lia].
      cbn [andb]. f_equal. lia.
    + change (Some ((2 ^ 32 - 2) * 1000000) = Some (Z.min (rest * 1000000) ((2 ^ 32 - 2) * 1000000))). f_equal. lia.
  - destruct (Z.ltb_spec rest (2 ^ 32 - 2)).
    + rewrite Z.mod_small by lia. destruct (Z.leb_spec 0 rest); [|lia]. destruct (Z.ltb_spec rest (2 ^ 32 - 1)); [|lia].
      cbn [andb]. f_equal. lia.
    + change (Some ((2 ^ 32 - 2) * 1000000) = Some (Z.min (rest * 1000000) ((2 ^ 32 - 2) * 1000000))). f_equal. lia.
Qed.

Lemma capacity_big b : fits b -> 2000000000000 < capacity b.
Proof. destruct b; cbn [capacity]; intros H; try reflexivity; pose proof (time_max_ge w H); lia. Qed.

Lemma pos_count num den d r : 0 < den -> 0 < num -> 0 < d -> is_count (d * num) -> d * num <= r * den < d * num + den -> 0 < r < 2 ^ 63.
Proof.
  unfold is_count. intros D N P H B. assert (0 < d * num) by nia. assert (0 < r) by nia. split; [assumption|].
  destruct (Z.eq_dec den 1); [nia|]. nia.
Qed.

Lemma decide_sleep b std num den limit now : fits b -> 0 < num -> 0 < den -> now < limit ->
  is_count ((limit - now) * num) ->
  exists x len, decide b std num den limit now = Some (Sleep x) /\ meaning b x = Some len /\
    0 < len /\
    (Z.min ((limit - now) * num * unit_ns b) (capacity b * den) <= len * den) /\
    len * den < (limit - now) * num * unit_ns b + unit_ns b * den.
Proof.
  intros F N D L I. set (d := limit - now) in *. assert (P : 0 < d) by lia.
  unfold decide. rewrite i64_some. 2: { unfold is_count in *. fold d. nia. }
  cbn [obind]. fold d. destruct (ceil_to_pos std num den d D) as (r & E & B); [nia | exact I|]. rewrite E. cbn [obind].
  pose proof (pos_count num den d r D N P I B) as R.
  destruct (ask_ok b r F R) as (x & len & E1 & E2 & E3). exists x, len. rewrite E1. split; [reflexivity|]. split; [exact E2|].
  pose proof (capacity_big b F). assert (U : 0 < unit_ns b) by (destruct b; reflexivity). set (u := unit_ns b) in *. set (c := capacity b) in *.
  clearbody u c. clear E E1 E2 I F. assert (0 < r * u) by nia. split; [lia|].
  assert (d * num * u <= r * u * den < d * num * u + u * den) by nia.
  destruct (Z.le_ge_cases (r * u) c) as [K|K]; [rewrite Z.min_l in E3 by lia | rewrite Z.min_r in E3 by lia]; subst len; [lia|]. split; [lia|].
  nia.
Qed.
Lemma decide_late b std num den limit now : 0 < num -> 0 < den ->
  decide b std num den limit now = Some Late -> limit <= now.
Proof.
  intros N D. unfold decide. destruct (i64 (limit - now)) as [d|] eqn:E; [|discriminate]. apply i64_inv in E. destruct E as [-> _].
  cbn [obind]. destruct (ceil_to std num den (limit - now)) as [r|] eqn:E; [|discriminate]. cbn [obind]. intros A.
  apply (ceil_to_le std num den _ r D) in E.
  assert (r <= 0). { unfold ask in A. destruct (Z.leb_spec r 0); [assumption|]. destruct b; discriminate. }
  nia.
Qed.
(** and the time-out is reported at the latest one unit after the deadline *)
Lemma decide_over b std num den limit now : 0 < num -> 0 < den -> is_count (limit - now) -> is_count ((limit - now) * num) ->
  limit <= now -> (std = true \/ (den | (limit - now) * num) \/ (limit - now) * num <= - den) ->
  decide b std num den limit now = Some Late.
Proof.
  intros N D I J L K. unfold decide. rewrite (i64_some _ I). cbn [obind]. set (d := limit - now) in *.
  destruct (ceil_to_some std num den d D J) as [r E]. rewrite E. cbn [obind]. f_equal. unfold ask.
  assert (R : r <= 0); [|destruct (Z.leb_spec r 0); [reflexivity | lia]].
  assert (d * num <= 0) by nia. destruct std; cbn [ceil_to] in E.
  - apply ceil_cxx_inv in E; [|exact D]. nia.
  - destruct K as [|[K|K]]; [discriminate | |].
    + destruct (ceil_lib_whole num den d r D K E) as [_ A]. apply A. lia.
    + apply ceil_lib_inv in E; [|exact D]. tauto.
Qed.

Lemma decide_cv_sleep std num den limit now : 0 < num -> 0 < den -> now < limit ->
  is_count ((limit - now) * num) ->
  exists x len, decide_cv std num den limit now = Some (Sleep x) /\ meaning SleepCv x = Some len /\
    0 < len /\
    Z.min ((limit - now) * num) (capacity SleepCv * den) <= len * den /\
    len * den < (limit - now) * num + 1000000 * den.
Proof.
  intros N D L I. set (d := limit - now) in *. assert (P : 0 < d) by lia.
  unfold decide_cv. rewrite i64_some. 2: { unfold is_count in *. fold d. nia. }
  cbn [obind]. fold d. destruct (ceil_to_pos std num den d D) as (r & E & B); [nia | exact I|]. rewrite E. cbn [obind].
  pose proof (pos_count num den d r D N P I B) as R. destruct (Z.leb_spec r 0); [lia|].
  destruct (ceil_to_pos std 1 1000000 r) as (m & E' & B'); [lia | lia | unfold is_count; lia|]. rewrite E'. cbn [obind].
  destruct (ask_ok SleepCv m) as (x & len & E1 & E2 & E3); [exact Logic.I | lia|]. exists x, len. rewrite E1. split; [reflexivity|]. split; [exact E2|].
  cbn [unit_ns capacity] in *. assert (m * 1000000 < r + 1000000) by lia. assert (r <= m * 1000000) by lia.
  split; [lia|]. 
  destruct (Z.le_ge_cases (m * 1000000) ((2 ^ 32 - 2) * 1000000)) as [K|K]; [rewrite Z.min_l in E3 by lia | rewrite Z.min_r in E3 by lia]; subst len.
  - split; [nia|]. destruct (Z.eq_dec (m * 1000000) (r + 999999)); nia.
  - split; [nia|]. nia.
Qed.
Lemma decide_cv_late std num den limit now : 0 < num -> 0 < den ->
  decide_cv std num den limit now = Some Late -> limit <= now.
Proof.
  intros N D. unfold decide_cv. destruct (i64 (limit - now)) as [d|] eqn:E; [|discriminate]. apply i64_inv in E. destruct E as [-> _].
  cbn [obind]. destruct (ceil_to std num den (limit - now)) as [r|] eqn:E; [|discriminate]. cbn [obind]. intros A.
  apply (ceil_to_le std num den _ r D) in E. destruct (Z.leb_spec r 0); [nia|].
  destruct (ceil_to std 1 1000000 r) as [m|] eqn:E'; [|discriminate]. cbn [obind] in A. apply ceil_to_le in E'; [|lia].
  unfold ask in A. destruct (Z.leb_spec m 0); [lia | discriminate].
Qed.

(** ** Absolute deadlines *)
Lemma for_timespec_ok std w num den now timeout ts : 0 < den -> is_time_t w -> normalised now -> 0 <= tv_sec now -> 0 <= timeout * num ->
  for_timespec std w num den now timeout = Some (Some ts) ->
  normalised ts /\ 0 <= tv_sec ts <= time_max w /\
  exists c, ceiling_of num den timeout c /\ ts_ns ts = ts_ns now + c.
Proof.
  intros D W [N1 N2] S T. unfold for_timespec. destruct (ceil_to std num den timeout) as [c|] eqn:E; [|discriminate]. cbn [obind].
  destruct (i64 (tv_nsec now + c)) as [n|] eqn:E1; [|discriminate]. cbn [obind]. apply i64_inv in E1. destruct E1 as [-> I1].
  destruct (i64 (tv_sec now + Z.quot (tv_nsec now + c) 1000000000)) as [s|] eqn:E2; [|discriminate]. cbn [obind]. apply i64_inv in E2. destruct E2 as [-> I2].
  destruct (Z.leb_spec (tv_sec now + Z.quot (tv_nsec now + c) 1000000000) (time_max w)) as [L|L]; intros X; [|discriminate]. injection X as <-.
  assert (C : ceiling_of num den timeout c).
  { destruct std; cbn [ceil_to] in E; [now apply ceil_cxx_ok | now apply ceil_lib_nonneg]. }
  assert (0 <= c) by (destruct C; nia).
  destruct (quot_rem_facts (tv_nsec now + c) 1000000000) as (Q & P & _); [lia|]. specialize (P ltac:(lia)).
  assert (0 <= Z.quot (tv_nsec now + c) 1000000000) by (apply Z.quot_pos; lia).
  unfold normalised, ts_ns. cbn [tv_sec tv_nsec]. split; [exact P|]. split; [lia|]. exists c. split; [exact C|]. unfold ts_ns. lia.
Qed.
Lemma cv_timespec_ok w now rel ts : is_time_t w -> normalised now -> 0 <= tv_sec now -> 0 <= rel ->
  cv_timespec w now rel = Some ts ->
  normalised ts /\ 0 <= tv_sec ts <= time_max w /\ ts_ns ts = Z.min (ts_ns now + rel) (time_max w * 1000000000 + 999999999).
Proof.
  intros W [N1 N2] S T. unfold cv_timespec.
  destruct (i64 (rel + tv_nsec now)) as [n|] eqn:E1; [|discriminate]. cbn [obind]. apply i64_inv in E1. destruct E1 as [-> I1].
  destruct (i64 (tv_sec now + Z.quot (rel + tv_nsec now) 1000000000)) as [s|] eqn:E2; [|discriminate]. cbn [obind]. apply i64_inv in E2. destruct E2 as [-> I2].
  destruct (quot_rem_facts (rel + tv_nsec now) 1000000000) as (Q & P & _); [lia|]. specialize (P ltac:(lia)).
  assert (0 <= Z.quot (rel + tv_nsec now) 1000000000) by (apply Z.quot_pos; lia). pose proof (time_max_ge w W).
  destruct (Z.leb_spec (tv_sec now + Z.quot (rel + tv_nsec now) 1000000000) (time_max w)) as [L|L]; intros X; injection X as <-;
    unfold normalised, ts_ns; cbn [tv_sec tv_nsec]; lia.
Qed.
Lemma to_time_t_id w z : is_time_t w -> - 2 ^ (w - 1) <= z < 2 ^ (w - 1) -> to_time_t w z = z.
Proof.
  intros W H. unfold to_time_t. assert (E : 2 ^ w = 2 * 2 ^ (w - 1)) by (destruct W as [->| ->]; reflexivity).
  rewrite Z.mod_small; lia.
Qed.
Lemma to_timespec_ok w epoch t : is_time_t w -> - 2 ^ (w - 1) < Z.quot t 1000000000 < 2 ^ (w - 1) ->
  - 2 ^ (w - 1) < epoch + Z.quot t 1000000000 < 2 ^ (w - 1) -> let ts := to_timespec w epoch t in
  normalised ts /\ ts_ns ts = epoch * 1000000000 + t.
Proof.
  intros W H K. cbv zeta. unfold to_timespec, normalised, ts_ns. rewrite (to_time_t_id w (Z.quot t 1000000000)) by (assumption || lia).
  rewrite to_time_t_id by (assumption || lia). destruct (quot_rem_facts t 1000000000) as (Q & P1 & P2); [lia|].
  destruct (Z.ltb_spec (Z.rem t 1000000000) 0); cbn [tv_sec tv_nsec].
  - split; [|lia]. destruct (Z.leb_spec t 0); [lia|]. specialize (P1 ltac:(lia)). lia.
  - split; [|lia]. destruct (Z.leb_spec t 0); [specialize (P2 ltac:(lia)); lia|]. lia.
Qed.
Lemma quot_small t : is_count t -> - 2 ^ 62 < Z.quot t 1000000000 < 2 ^ 62.
Proof.
  intros H. unfold is_count in H. destruct (quot_rem_facts t 1000000000) as (Q & P1 & P2); [lia|].
  destruct (Z.leb_spec t 0); [specialize (P2 ltac:(lia)) | specialize (P1 ltac:(lia))]; lia.
Qed.

Lemma reached_ok now limit : normalised now -> normalised limit -> reached now limit = true <-> ts_ns limit <= ts_ns now.
Proof.
  unfold normalised, reached, ts_ns. intros A B.
  destruct (Z.ltb_spec (tv_sec limit) (tv_sec now)), (Z.eqb_spec (tv_sec now) (tv_sec limit)), (Z.leb_spec (tv_nsec limit) (tv_nsec now));
    cbn [orb andb]; split; intros; try discriminate; try reflexivity; nia.
Qed.
Lemma ts_left_ok limit now r : ts_left limit now = Some r -> r = ts_ns limit - ts_ns now.
Proof.
  unfold ts_left, ts_ns. destruct (i64 (tv_sec limit - tv_sec now)) as [s|] eqn:E; [|discriminate]. apply i64_inv in E. destruct E as [-> _].
  cbn [obind]. destruct (i64 ((tv_sec limit - tv_sec now) * 1000000000)) as [s|] eqn:E; [|discriminate]. apply i64_inv in E. destruct E as [-> _].
  cbn [obind]. intros E. apply i64_inv in E. lia.
Qed.
(** no overflow: the deadline comes from a 64-bit count, and the clock shows a time after its epoch and not past the deadline *)
Lemma ts_left_some t now : is_count t -> 0 <= tv_sec now -> normalised now -> ts_ns now < t ->
  ts_left (to_timespec 64 0 t) now = Some (t - ts_ns now).
Proof.
  intros I S N L. assert (W : is_time_t 64) by (right; reflexivity). pose proof (quot_small t I) as Hq.
  destruct (to_timespec_ok 64 0 t W) as [M E]; [lia | lia|]. unfold is_count in I. unfold normalised, ts_ns in *. set (l := to_timespec 64 0 t) in *.
  unfold ts_left. rewrite i64_some by (unfold is_count; lia). cbn [obind].
  rewrite i64_some by (unfold is_count; lia). cbn [obind]. rewrite i64_some by (unfold is_count; lia). f_equal. lia.
Qed.

(** ** Overflow *)
Lemma for_deadline_some now timeout : 0 <= now -> - 2 ^ 63 <= timeout -> now + timeout < 2 ^ 63 -> for_deadline now timeout = Some (now + timeout).
Proof. intros. apply i64_some. unfold is_count. lia. Qed.
Lemma for_timespec_some std w num den now timeout : 0 < den -> normalised now -> 0 <= tv_sec now < 2 ^ 62 ->
  0 <= timeout * num < 2 ^ 63 - 1000000000 -> exists r, for_timespec std w num den now timeout = Some r.
Proof.
  intros D [N1 N2] S T. unfold for_timespec. destruct (ceil_to_pos std num den timeout D) as (c & E & B); [lia | unfold is_count; lia|].
  rewrite E. cbn [obind]. assert (0 <= c) by nia. assert (c <= timeout * num) by (destruct (Z.eq_dec c 0); nia).
  rewrite i64_some by (unfold is_count; lia). cbn [obind].
  assert (0 <= Z.quot (tv_nsec now + c) 1000000000) by (apply Z.quot_pos; lia).
  destruct (quot_rem_facts (tv_nsec now + c) 1000000000) as (Q & P & _); [lia|]. specialize (P ltac:(lia)).
  rewrite i64_some by (unfold is_count; lia). cbn [obind]. eauto.
Qed.
Lemma cv_timespec_some w now rel : normalised now -> 0 <= tv_sec now < 2 ^ 62 -> 0 <= rel < 2 ^ 63 - 1000000000 ->
  exists ts, cv_timespec w now rel = Some ts.
Proof.
  intros [N1 N2] S T. unfold cv_timespec.
  rewrite i64_some by (unfold is_count; lia). cbn [obind].
  assert (0 <= Z.quot (rel + tv_nsec now) 1000000000) by (apply Z.quot_pos; lia).
  destruct (quot_rem_facts (rel + tv_nsec now) 1000000000) as (Q & P & _); [lia|]. specialize (P ltac:(lia)).
  rewrite i64_some by (unfold is_count; lia). cbn [obind]. eauto.
Qed.
Lemma decide_some b std num den limit now : 0 < den -> is_count (limit - now) -> is_count ((limit - now) * num) ->
  exists v, decide b std num den limit now = Some v.
Proof.
  intros D I J. unfold decide. rewrite (i64_some _ I). cbn [obind]. destruct (ceil_to_some std num den (limit - now) D J) as [r ->].
  cbn [obind]. eauto.
Qed.

(** ** The platform of the pool model *)
Lemma units_ceiling pl n : pl_std pl = true \/ 0 <= n -> ceiling_of 1 (Zpos (pl_unit pl)) n (units pl n).
Proof.
  intros H. unfold units, ceil_std, ceil_old. set (u := Zpos (pl_unit pl)). assert (U : 0 < u) by reflexivity. apply ceiling_bound; [exact U|].
  destruct (pl_std pl).
  - pose proof (Z.div_mod (- n) u). pose proof (Z.mod_pos_bound (- n) u U). nia.
  - destruct H as [H|H]; [discriminate|]. destruct (quot_rem_facts n u U) as (Q & P & _). specialize (P H).
    destruct (Z.eqb_spec (Z.rem n u) 0); nia.
Qed.
Lemma with_backend_asks pl b std n start : fits b -> 0 < n < 2 ^ 63 ->
  let p := with_backend pl b std in
  Z.min n (capacity b) <= pl_req p start (units p n) < n + unit_ns b.
Proof.
  intros F N. cbv zeta. set (p := with_backend pl b std).
  assert (U : Zpos (pl_unit p) = unit_ns b) by (destruct b; reflexivity).
  assert (C : ceiling_of 1 (unit_ns b) n (units p n)) by (rewrite <- U; apply units_ceiling; lia).
  apply ceiling_bound in C; [|destruct b; reflexivity]. assert (0 < unit_ns b) by (destruct b; reflexivity).
  assert (R : 0 < units p n < 2 ^ 63) by (split; nia).
  destruct (ask_ok b (units p n) F R) as (x & len & E1 & E2 & E3).
  assert (E : pl_req p start (units p n) = len). { cbn [p with_backend pl_req]. unfold asked. fold p. now rewrite E1, E2. }
  rewrite E. lia.
Qed.

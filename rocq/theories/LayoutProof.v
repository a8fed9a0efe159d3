(** * Proofs about size and alignment. *)
From Coq Require Import ZArith Znumtheory List Bool Lia.
Require Import Verif.SpecCaps Verif.SpecLayout Verif.BytesModel Verif.CapsModel Verif.CapsProof Verif.CapsFront Verif.LayoutModel.
Import ListNotations.
Open Scope Z_scope.

(** ** Arithmetic *)
Lemma p2_pos a : power_of_two a -> 0 < a.
Proof. intros (k & K & ->). apply Z.pow_pos_nonneg; lia. Qed.
Lemma p2_div a b : power_of_two a -> power_of_two b -> a <= b -> (a | b).
Proof.
  intros (k & K & ->) (j & J & ->) L. assert (k <= j) by (apply (Z.pow_le_mono_r_iff 2); lia).
  exists (2 ^ (j - k)). rewrite <- Z.pow_add_r by lia. f_equal. lia.
Qed.
Lemma p2_max a b : power_of_two a -> power_of_two b -> power_of_two (Z.max a b).
Proof. intros A B. destruct (Z.max_spec a b) as [[_ ->]|[_ ->]]; assumption. Qed.
Lemma known_p2 n : known n -> power_of_two n.
Proof. intros [-> | [-> | [-> | [-> | ->]]]]; [exists 0|exists 1|exists 2|exists 3|exists 4]; lia. Qed.
Lemma known_le n : known n -> 0 < n <= 16.
Proof. intros [-> | [-> | [-> | [-> | ->]]]]; lia. Qed.
Lemma up_div n a : 0 < a -> (a | round_up n a).
Proof. intros A. exists ((n + a - 1) / a). reflexivity. Qed.
Lemma up_le n a : 0 < a -> n <= round_up n a.
Proof. intros A. unfold round_up. pose proof (Z.div_mod (n + a - 1) a). pose proof (Z.mod_pos_bound (n + a - 1) a A). lia. Qed.
Lemma up_id n a : 0 < a -> (a | n) -> round_up n a = n.
Proof.
  intros A (k & ->). unfold round_up. replace (k * a + a - 1) with (a - 1 + k * a) by lia.
  rewrite Z.div_add by lia. rewrite Z.div_small by lia. lia.
Qed.
Lemma div_le_trans a b e : power_of_two a -> power_of_two b -> a <= b -> (b | e) -> (a | e).
Proof. intros A B L D. eapply Z.divide_trans; [exact (p2_div _ _ A B L)|exact D]. Qed.

(** ** Members *)
Lemma member_ok b a l : abi_ok b -> power_of_two a -> legal l ->
  legal (aligned_member b a l) /\ l_size l <= l_size (aligned_member b a l) /\ l_align (aligned_member b a l) = Z.max a (l_align l).
Proof.
  intros Hb Ha (S & P & D). pose proof (p2_max _ _ Ha P) as Pm. pose proof (p2_pos _ Pm) as Mp.
  unfold aligned_member. cbn [l_size l_align].
  set (n := match aligner b with None => l_size l | Some f => Z.max (l_size l) (f a) end).
  assert (N : l_size l <= n) by (unfold n; destruct (aligner b); lia).
  pose proof (up_le n _ Mp). split; [|split; [lia|reflexivity]]. split; [cbn; lia|]. split; [exact Pm|apply up_div; exact Mp].
Qed.
(** a member whose size is a multiple of the alignment: no padding *)
Lemma member_tight b a l : abi_ok b -> power_of_two a -> legal l -> a <= 16 -> (a | l_size l) ->
  l_size (aligned_member b a l) = l_size l.
Proof.
  intros (_ & _ & _ & Hb) Ha (S & P & D) L A. unfold aligned_member. cbn [l_size].
  pose proof (p2_pos _ (p2_max _ _ Ha P)) as Mp.
  assert (X : match aligner b with None => l_size l | Some f => Z.max (l_size l) (f a) end = l_size l).
  { destruct (aligner b) as [f|]; [|reflexivity]. destruct (Hb a Ha) as (_ & _ & F). rewrite (F L).
    apply Z.divide_pos_le in A; lia. }
  rewrite X. apply up_id; [exact Mp|]. destruct (Z.max_spec a (l_align l)) as [[_ ->]|[_ ->]]; assumption.
Qed.
Lemma one_p2 : power_of_two 1.
Proof. exists 0; lia. Qed.
Lemma buffer_ok b n a : abi_ok b -> 0 < n -> power_of_two a ->
  legal (buffer_storage b n a) /\ n <= l_size (buffer_storage b n a) /\ l_align (buffer_storage b n a) = a.
Proof.
  intros Hb Hn Ha. destruct (member_ok b a (Layout n 1) Hb Ha) as (A & B & C).
  - split; [exact Hn|]. split; [exact one_p2|apply Z.divide_1_l].
  - split; [exact A|]. split; [exact B|]. unfold buffer_storage. rewrite C. cbn. pose proof (p2_pos _ Ha). lia.
Qed.
Lemma buffer_tight b n a : abi_ok b -> 0 < n -> power_of_two a -> a <= 16 -> (a | n) -> l_size (buffer_storage b n a) = n.
Proof.
  intros Hb Hn Ha L D. apply (member_tight b a (Layout n 1) Hb Ha); auto. split; [exact Hn|]. split; [exact one_p2|apply Z.divide_1_l].
Qed.

(** ** Traits *)
Lemma known_cases n : known_size n = true -> known n.
Proof.
  unfold known_size, known. intros H. repeat (apply orb_true_iff in H; destruct H as [H|H]); apply Z.eqb_eq in H; auto 6.
Qed.
Lemma known_true n : known n -> known_size n = true.
Proof. intros [-> | [-> | [-> | [-> | ->]]]]; reflexivity. Qed.
Lemma traits_align_known n : known n -> traits_alignment n = n.
Proof. intros H. unfold traits_alignment. now rewrite (known_true n H). Qed.
Lemma traits_align_p2 n : power_of_two (traits_alignment n).
Proof.
  unfold traits_alignment. destruct (known_size n) eqn:K; [apply known_p2, known_cases, K|exists 4; lia].
Qed.
Lemma native_align b n : abi_ok b -> 0 < n -> power_of_two (traits_native b n) /\ traits_native b n <= 16 /\
  l_align (traits_type b n) = (if n =? 1 then int_align b 1 else traits_native b n) /\
  legal (traits_type b n) /\ l_size (traits_type b n) = n /\
  traits_native b n <= traits_alignment n.
Proof.
  intros Hb Hn. pose proof Hb as (I & M & M16 & _). unfold traits_native, traits_type, traits_alignment, known_size.
  destruct (Z.eqb_spec n 1) as [->|N1].
  { destruct (I 1) as [P L]; [cbn; auto|]. cbn. pose proof (p2_pos _ P). repeat (split; [first [exact one_p2 | lia | exact P]|]).
    split; [|split; [reflexivity|lia]]. split; [cbn; lia|]. split; [exact P|]. cbn. apply p2_div; [exact P|exact one_p2|lia]. }
  destruct ((n =? 2) || (n =? 4) || (n =? 8)) eqn:K.
  - assert (Kn : n = 2 \/ n = 4 \/ n = 8).
    { repeat (apply orb_true_iff in K; destruct K as [K|K]); apply Z.eqb_eq in K; auto. }
    destruct (I n) as [P L]; [cbn; lia|].
    assert (Pn : power_of_two n) by (apply known_p2; unfold known; lia).
    destruct Kn as [-> | [-> | ->]]; cbn; (repeat (split; [first [exact P | lia | reflexivity]|]));
      (split; [|split; [reflexivity|lia]]; split; [cbn; lia|]; split; [exact P|cbn; apply p2_div; assumption]).
  - assert (K' : (false || (n =? 2) || (n =? 4) || (n =? 8)) = false) by (rewrite orb_false_l; exact K). rewrite K'.
    destruct (Z.eqb_spec n 16) as [->|N16]; cbn [orb].
    + destruct (int128 b).
      * destruct (I 16) as [P L]; [cbn; auto 6|]. cbn. repeat (split; [first [exact P | lia | reflexivity]|]).
        split; [|split; [reflexivity|lia]]. split; [cbn; lia|]. split; [exact P|cbn]. apply p2_div; [exact P|exists 4; lia|exact L].
      * destruct (buffer_ok b 16 (max_align b) Hb ltac:(lia) M) as (A & _ & C).
        repeat (split; [first [exact M | lia | exact C]|]). split; [exact A|]. split; [|lia].
        refine (buffer_tight b 16 (max_align b) Hb _ M M16 _); [lia|]. apply p2_div; [exact M|exists 4; lia|lia].
    + destruct (buffer_ok b n 1 Hb Hn one_p2) as (A & _ & C).
      repeat (split; [first [exact one_p2 | lia | exact C]|]). split; [exact A|]. split; [|lia].
      refine (buffer_tight b n 1 Hb Hn one_p2 _ (Z.divide_1_l n)). lia.
Qed.
Lemma traits_le b n : abi_ok b -> 0 < n -> l_align (traits_type b n) <= traits_alignment n.
Proof.
  intros Hb Hn. destruct (native_align b n Hb Hn) as (_ & _ & E & _ & _ & L). rewrite E. destruct (Z.eqb_spec n 1) as [->|]; [|exact L].
  destruct Hb as (I & _). destruct (I 1) as [_ X]; [cbn; auto|]. exact X.
Qed.

(** ** Classes *)
Lemma assembler_arch t n i : core_class t n = Some i -> made_of i = Assembler -> exists p, arch t = Some p.
Proof.
  assert (Dc : made_of (default_class t n) = Assembler -> exists p, arch t = Some p).
  { unfold default_class. destruct (arch t) as [p|]; [eauto|discriminate]. }
  unfold core_class, pick. intros E M.
  destruct (core_backend t) as [[]|]; repeat match type of E with context [if ?c then _ else _] => destruct c end;
    try discriminate E; try (injection E as <-; first [exact (Dc M) | discriminate M]).
  destruct (filter _ _); injection E as <-; [exact (Dc M) | discriminate M].
Qed.
Lemma arch_alignment_ok p s : known s -> executes p s -> arch_alignment p s = s.
Proof.
  intros K X. destruct p; cbn [arch_alignment executes] in *.
  - destruct K as [-> | [-> | [-> | [-> | ->]]]]; cbn; try reflexivity. now destruct (negb _ && _).
  - destruct K as [-> | [-> | [-> | [-> | ->]]]]; reflexivity.
  - destruct K as [-> | [-> | [-> | [-> | ->]]]]; try reflexivity. cbn in X; lia.
  - destruct K as [-> | [-> | [-> | [-> | ->]]]]; try reflexivity. destruct ldrex as [[[]]|]; cbn in X; lia.
  - destruct K as [-> | [-> | [-> | [-> | ->]]]]; try reflexivity. cbn in X; lia.
  - destruct K as [-> | [-> | [-> | [-> | ->]]]]; try reflexivity; cbn in X; lia.
  - destruct K as [-> | [-> | [-> | [-> | ->]]]]; try reflexivity; cbn in X; lia.
  - apply traits_align_known; exact K.
  - destruct K as [-> | [-> | [-> | [-> | ->]]]]; cbn; try reflexivity. now destruct (negb _ && _).
Qed.
Lemma free_alignment t n i a : sane t -> core_class t n = Some i -> always_lock_free i = true ->
  class_alignment t i a = storage_bytes i /\ known (storage_bytes i) /\ n <= storage_bytes i /\ made_of i <> LockPool.
Proof.
  intros S E F. destruct (core_summary t n i S E) as [(-> & _)|(_ & Kn & K & L & X)]; [discriminate F|].
  assert (NL : made_of i <> LockPool) by (unfold always_lock_free in F; destruct (made_of i); congruence).
  split; [|auto]. unfold class_alignment. destruct (made_of i) eqn:M; try (apply traits_align_known; exact K); [| |congruence].
  - destruct (assembler_arch t n i E M) as (p & P). rewrite P. apply arch_alignment_ok; [exact K|].
    destruct X as [(_ & N)|(_ & _ & s & ->)]; [|discriminate M]. unfold never_locks in N. rewrite M in N.
    destruct N as (q & Q & N). unfold arch in P. destruct (fallback t); [discriminate|]. assert (q = p) by congruence. subst q. exact N.
  - destruct X as [(_ & N)|(_ & _ & s & ->)]; [|discriminate M]. unfold never_locks in N. rewrite M in N. symmetry. apply N.
Qed.
Lemma size_pos n : 0 < n -> n <= storage_size n.
Proof. intros H. unfold storage_size. repeat match goal with |- context [if ?c then _ else _] => destruct c eqn:? end; lia. Qed.

Lemma emulated_align_p2 n a : power_of_two a -> power_of_two (emulated_alignment n a) /\ emulated_alignment n a <= a.
Proof.
  intros A. unfold emulated_alignment. destruct (Z.geb_spec a (traits_alignment n)); [split; [apply traits_align_p2|lia]|split; [exact A|lia]].
Qed.
Lemma emulated_ok b n a : abi_ok b -> 0 < n -> power_of_two a ->
  legal (emulated_type b n a) /\ n <= l_size (emulated_type b n a) /\ l_align (emulated_type b n a) <= emulated_alignment n a /\
  ((a | n) -> l_size (emulated_type b n a) = n).
Proof.
  intros Hb Hn Ha. destruct (native_align b n Hb Hn) as (P & L16 & E & Lg & Sz & LA). pose proof (traits_le b n Hb Hn) as TL.
  unfold emulated_type, emulated_alignment. destruct (Z.geb_spec a (traits_native b n)) as [G|G].
  - split; [exact Lg|]. split; [lia|]. split; [|intros; exact Sz].
    destruct (Z.geb_spec a (traits_alignment n)); [exact TL|]. rewrite E. destruct (Z.eqb_spec n 1) as [->|]; [|lia].
    pose proof (p2_pos _ Ha). destruct Hb as (I & _). destruct (I 1) as [_ X]; [cbn; auto|]. lia.
  - destruct (buffer_ok b n a Hb Hn Ha) as (A & B & C). split; [exact A|]. split; [exact B|]. split.
    + rewrite C. destruct (Z.geb_spec a (traits_alignment n)); lia.
    + intros D. apply buffer_tight; auto. lia.
Qed.

(** *** Any class, used in an atomic object *)
Lemma class_ok t b n i a : sane t -> abi_ok b -> 0 < n -> power_of_two a -> core_class t n = Some i \/ i = Impl LockPool n ->
  legal (class_type b i a) /\ n <= l_size (class_type b i a) /\ power_of_two (class_alignment t i a) /\
  l_align (class_type b i a) <= class_alignment t i a /\ storage_bytes i <= l_size (class_type b i a).
Proof.
  intros S Hb Hn Ha E.
  assert (LP : i = Impl LockPool n \/ core_class t n = Some i /\ always_lock_free i = true).
  { destruct E as [E|E]; [|auto]. destruct (core_summary t n i S E) as [(-> & _)|(F & _)]; auto. }
  destruct LP as [-> | [Ei F]].
  - unfold class_type, class_alignment. cbn [made_of storage_bytes]. destruct (emulated_ok b n a Hb Hn Ha) as (A & B & C & _).
    split; [exact A|]. split; [exact B|]. split; [apply emulated_align_p2; exact Ha|]. split; [exact C|exact B].
  - destruct (free_alignment t n i a S Ei F) as (EA & K & L & NL). rewrite EA. pose proof (known_le _ K) as Kp.
    destruct (native_align b (storage_bytes i) Hb ltac:(lia)) as (_ & _ & _ & Lg & Sz & _).
    pose proof (traits_le b (storage_bytes i) Hb ltac:(lia)) as TL. rewrite (traits_align_known _ K) in TL.
    assert (EC : class_type b i a = traits_type b (storage_bytes i)) by (unfold class_type; destruct (made_of i); congruence).
    rewrite EC. split; [exact Lg|]. split; [lia|]. split; [apply known_p2; exact K|]. split; [exact TL|lia].
Qed.
Lemma member_align_ok t i a align : power_of_two (class_alignment t i a) -> power_of_two align ->
  power_of_two (member_alignment t i a align) /\ class_alignment t i a <= member_alignment t i a align /\
  align <= member_alignment t i a align.
Proof.
  intros A B. unfold member_alignment. destruct (Z.leb_spec align (class_alignment t i a)); (split; [assumption|split; lia]).
Qed.

Section Atomic.
  Variables (t : target) (b : abi) (type : layout).
  Hypotheses (S : sane t) (Hb : abi_ok b) (Ty : legal type).
  Lemma atomic_ok l : atomic_layout t b type = Some l ->
    legal l /\ l_size type <= l_size l /\ (l_align type | l_align l) /\
    forall i, atomic_class t (l_size type) = Some i ->
      alignas_legal (fst (atomic_member t b i (l_align type))) (snd (atomic_member t b i (l_align type))) /\
      l_size type <= storage_bytes i <= l_size l /\
      (always_lock_free i = true -> 0 < storage_bytes i /\ (storage_bytes i | l_align l)).
  Proof.
    intros E. unfold atomic_layout in E. destruct (atomic_class t (l_size type)) as [i|] eqn:Ei; [|discriminate E]. injection E as <-.
    destruct Ty as (Sp & P & D). pose proof (size_pos _ Sp) as Sz. unfold atomic_class in Ei.
    set (a := traits_alignment (storage_bytes i)).
    destruct (class_ok t b (storage_size (l_size type)) i a S Hb ltac:(lia) (traits_align_p2 _) (or_introl Ei)) as (A1 & A2 & A3 & A4 & A5).
    destruct (member_align_ok t i a (l_align type) A3 P) as (B1 & B2 & B3).
    destruct (member_ok b (member_alignment t i a (l_align type)) (class_type b i a) Hb B1 A1) as (C1 & C2 & C3).
    unfold atomic_member. fold a. cbn [fst snd]. split; [exact C1|]. split; [lia|].
    assert (Pl : power_of_two (l_align (aligned_member b (member_alignment t i a (l_align type)) (class_type b i a)))) by apply C1.
    assert (C4 : l_align (aligned_member b (member_alignment t i a (l_align type)) (class_type b i a)) = member_alignment t i a (l_align type)) by (rewrite C3; lia).
    split; [apply p2_div; [exact P|exact Pl|lia]|]. intros j Ej. injection Ej as <-. split; [split; [exact B1|cbn [snd]; fold a; lia]|].
    split; [split; [|lia]|].
    - destruct (core_summary t _ i S Ei) as [(-> & _)|(_ & _ & _ & L & _)]; [cbn; lia|lia].
    - intros F. destruct (free_alignment t _ i a S Ei F) as (EA & K & _ & _). pose proof (known_le _ K). split; [lia|].
      apply p2_div; [apply known_p2; exact K|exact Pl|]. rewrite <- EA. lia.
  Qed.
  Lemma ref_ok i l r : ref_class t (l_size type) = Some i -> ref_storage t b type = Some l -> required_alignment t type = Some r ->
    power_of_two r /\ (l_align type | r) /\ legal l /\ l_align l <= r /\ storage_bytes i = l_size type /\
    l_size l = l_size type /\
    (always_lock_free i = true -> 0 < l_size type /\ (l_size type | r)) /\
    (always_lock_free i = false -> r = l_align type).
  Proof.
    unfold ref_storage, required_alignment. intros Ei El Er. rewrite Ei in El, Er. injection El as <-. injection Er as <-.
    destruct Ty as (Sp & P & D). unfold ref_class in Ei. destruct (core_class t (l_size type)) as [j|] eqn:Ej; [|discriminate Ei].
    assert (LP : i = Impl LockPool (l_size type) \/ i = j /\ storage_bytes j = l_size type /\ always_lock_free j = true).
    { destruct (Z.eqb_spec (l_size type) (storage_bytes j)) as [Es|]; cbn in Ei; [|left; congruence].
      destruct (always_lock_free j) eqn:F; [right|left; congruence]. split; [congruence|]. split; [congruence|reflexivity]. }
    assert (Ci : core_class t (l_size type) = Some i \/ i = Impl LockPool (l_size type)) by (destruct LP as [->|(-> & _)]; auto).
    destruct (class_ok t b (l_size type) i (l_align type) S Hb Sp P Ci) as (A1 & A2 & A3 & A4 & A5).
    destruct (member_align_ok t i (l_align type) (l_align type) A3 P) as (B1 & B2 & B3).
    split; [exact B1|]. split; [apply p2_div; auto; lia|]. split; [exact A1|]. split; [lia|].
    destruct LP as [-> | (-> & Es & F)].
    - split; [reflexivity|]. split; [|split; [discriminate|]].
      + unfold class_type. cbn [made_of storage_bytes]. apply (emulated_ok b (l_size type) (l_align type) Hb Sp P); auto.
      + intros _. unfold member_alignment, class_alignment. cbn [made_of storage_bytes].
        destruct (emulated_align_p2 (l_size type) (l_align type) P) as [_ L].
        destruct (Z.leb_spec (l_align type) (emulated_alignment (l_size type) (l_align type))); lia.
    - destruct (free_alignment t _ j (l_align type) S Ej F) as (EA & K & _ & NL). split; [exact Es|]. split; [|split; [|rewrite F; discriminate]].
      + assert (EC : class_type b j (l_align type) = traits_type b (storage_bytes j)) by (unfold class_type; destruct (made_of j); congruence).
        rewrite EC, Es. destruct (native_align b (l_size type) Hb Sp) as (_ & _ & _ & _ & X & _). exact X.
      + intros _. split; [exact Sp|]. apply p2_div; [rewrite <- Es; apply known_p2; exact K|exact B1|]. rewrite <- Es. rewrite <- EA at 1. lia.
  Qed.
End Atomic.

Lemma flag_ok t b i l : sane t -> abi_ok b -> flag_class t = Some i -> flag_layout t b = Some l ->
  legal l /\ 4 <= storage_bytes i <= l_size l /\ (always_lock_free i = true -> 0 < storage_bytes i /\ (storage_bytes i | l_align l)).
Proof.
  intros S Hb Ei El. unfold flag_layout in El. rewrite Ei in El. injection El as <-. unfold flag_class in Ei.
  set (a := traits_alignment (storage_bytes i)).
  destruct (class_ok t b 4 i a S Hb ltac:(lia) (traits_align_p2 _) (or_introl Ei)) as (A1 & A2 & A3 & A4 & A5).
  destruct (member_ok b (class_alignment t i a) (class_type b i a) Hb A3 A1) as (C1 & C2 & C3).
  split; [exact C1|]. split.
  - split; [|lia]. destruct (core_summary t _ i S Ei) as [(-> & _)|(_ & _ & _ & L & _)]; [cbn; lia|lia].
  - intros F. destruct (free_alignment t _ i a S Ei F) as (EA & K & _ & _). pose proof (known_le _ K). split; [lia|].
    apply p2_div; [apply known_p2; exact K|apply C1|]. rewrite C3, EA. lia.
Qed.
Lemma element_div l base k d : legal l -> (d | l_align l) -> may_lie l base -> (d | element l base k).
Proof.
  intros (_ & _ & D) H M. unfold element. apply Z.divide_add_r; [eapply Z.divide_trans; eauto|].
  apply Z.divide_mul_r. eapply Z.divide_trans; eauto.
Qed.
Lemma assertion_ok r x : power_of_two r -> ref_assertion r x = true <-> (r | x).
Proof.
  intros (k & K & ->). unfold ref_assertion. rewrite Z.eqb_eq.
  replace (2 ^ k - 1) with (Z.ones k) by (rewrite Z.ones_equiv; lia). rewrite Z.land_ones by exact K.
  apply Z.mod_divide. pose proof (Z.pow_pos_nonneg 2 k). lia.
Qed.

(** * The list of wait records: proofs. *)
From Coq Require Import ZArith List Bool Arith Lia.
From Verif Require Import SpecFind SpecRecords FindModel FindProof RecordsModel.
Import ListNotations.
Open Scope nat_scope.

(** ** Lists *)
Lemma upd_mid {A} (l1 : list A) : forall l2 x y, upd (l1 ++ x :: l2) (length l1) y = Some (l1 ++ y :: l2).
Proof. induction l1 as [|z l1 IH]; intros l2 x y; [reflexivity|]. cbn. rewrite IH. reflexivity. Qed.
Lemma nth_mid {A} (l1 : list A) : forall l2 x, nth_error (l1 ++ x :: l2) (length l1) = Some x.
Proof. induction l1 as [|z l1 IH]; intros l2 x; [reflexivity|]. cbn. apply IH. Qed.
Lemma upd_at {A} (l1 l2 : list A) x y i : i = length l1 -> upd (l1 ++ x :: l2) i y = Some (l1 ++ y :: l2).
Proof. intros ->. apply upd_mid. Qed.
Lemma nth_at {A} (l1 l2 : list A) x i : i = length l1 -> nth_error (l1 ++ x :: l2) i = Some x.
Proof. intros ->. apply nth_mid. Qed.
Lemma nth_app_l {A} (l1 l2 : list A) i : i < length l1 -> nth_error (l1 ++ l2) i = nth_error l1 i.
Proof. intros H. now rewrite nth_error_app1. Qed.
Lemma nodup_mid {A} (l1 l2 : list A) x : NoDup (l1 ++ x :: l2) <-> NoDup (x :: l1 ++ l2).
Proof.
  split; intros H.
  - apply NoDup_cons_iff. split; [now apply NoDup_remove_2|now apply NoDup_remove_1 in H].
  - apply NoDup_cons_iff in H. destruct H as [A1 A2]. revert A1 A2.
    induction l1 as [|y l1 IH]; cbn; intros A1 A2.
    + now constructor.
    + inversion A2; subst. constructor.
      * intros I. apply in_app_or in I. destruct I as [I|[I|I]].
        -- apply H1, in_or_app. auto.
        -- subst. apply A1. auto.
        -- apply H1, in_or_app. auto.
      * apply IH; tauto.
Qed.
Lemma nth_unique {A} (l : list A) i j x : NoDup l -> nth_error l i = Some x -> nth_error l j = Some x -> i = j.
Proof.
  intros N H1 H2. apply (proj1 (NoDup_nth_error l) N); [|congruence]. apply nth_error_Some. congruence.
Qed.
Lemma repeat_cons_sub {A} (x : A) C n : n < C -> repeat x (C - n) = x :: repeat x (C - S n).
Proof. intros H. replace (C - n) with (S (C - S n)) by lia. reflexivity. Qed.

(** ** The shape of the buffer *)
Definition ids (slots : list (Z * nat)) (spare : list nat) : list nat := map snd slots ++ spare.
Definition mkbuf (C : nat) (slots : list (Z * nat)) (spare : list nat) : buf :=
  {| b_size := length slots; b_cap := C;
     b_addrs := map fst slots ++ repeat 0%Z (C - length slots);
     b_ws := map Some (ids slots spare) ++ repeat None (C - length (ids slots spare)) |}.

(** waits that use a record *)
Definition uses (r : nat) (act : list (Z * nat)) : nat := length (filter (fun x => Nat.eqb (snd x) r) act).

Arguments uses : simpl never.

Definition the_buf (l : wlist) (h : nat) (b : buf) : Prop := forall k, bufs l k = if Nat.eqb k h then Some b else None.

Section Proofs.
  Variables (search : Z -> list Z -> nat -> option nat) (init : nat).
  Definition search_ok : Prop := forall c addr addrs size,
    length addrs = init * 2 ^ c -> size <= length addrs ->
    exists pos, search addr addrs size = Some pos /\
      (pos < size -> first_at addr (firstn size addrs) pos) /\ (size <= pos -> ~ In addr (firstn size addrs)).
  Hypothesis Hsearch : search_ok.
  Hypothesis Hinit : 0 < init.

  Notation find := (find search).
  Notation find_or_create := (find_or_create search init).
  Notation allocate_wait_state := (allocate_wait_state search init).

  Record parts (l : wlist) (act : list (Z * nat)) (h c : nat) (slots : list (Z * nat)) (spare : list nat) : Prop := {
    p_buf : the_buf l h (mkbuf (init * 2 ^ c) slots spare);
    p_room : length (ids slots spare) <= init * 2 ^ c;
    p_ids : NoDup (ids slots spare);
    p_addrs : NoDup (map fst slots);
    p_recs : forall i r, nth_error (ids slots spare) i = Some r -> recs l r = Some {| r_refs := uses r act; r_index := i |};
    p_only : forall r, recs l r <> None -> In r (ids slots spare);
    p_fresh : h < next l /\ forall r, In r (ids slots spare) -> r < next l;
    p_act : forall x, In x act <-> In x slots;
    p_free : free_memory l = true -> spare = []
  }.
  Definition linv (l : wlist) (act : list (Z * nat)) : Prop :=
    match hdr l with
    | None => (forall k, bufs l k = None) /\ (forall k, recs l k = None) /\ act = []
    | Some h => exists c slots spare, parts l act h c slots spare
    end.

  Lemma linv0 : linv wlist0 [].
  Proof. cbn. auto. Qed.

  (** *** find *)
  Lemma nth_firstn_map (slots : list (Z * nat)) n C : n = length slots -> n <= C ->
    firstn n (map fst slots ++ repeat 0%Z (C - n)) = map fst slots.
  Proof.
    intros -> H. rewrite <- (map_length fst slots) at 1. rewrite firstn_app, firstn_all, Nat.sub_diag, firstn_O, app_nil_r. reflexivity.
  Qed.
  Lemma len_addrs (slots : list (Z * nat)) C : length slots <= C -> length (map fst slots ++ repeat 0%Z (C - length slots)) = C.
  Proof. intros H. rewrite app_length, map_length, repeat_length. lia. Qed.
  Lemma slots_ids slots spare : length slots <= length (ids slots spare).
  Proof. unfold ids. rewrite app_length, map_length. lia. Qed.

  Lemma get_the_buf l h b : hdr l = Some h -> the_buf l h b -> get_buf l (hdr l) = Some (h, b).
  Proof. intros E H. unfold get_buf. rewrite E. cbn. rewrite H, Nat.eqb_refl. reflexivity. Qed.

  Lemma find_parts l act h c slots spare a : hdr l = Some h -> parts l act h c slots spare ->
    exists r, find l a = Some r /\ match r with Some r => In (a, r) slots | None => ~ In a (map fst slots) end.
  Proof.
    intros E P. pose proof (p_room _ _ _ _ _ _ P) as Hroom. pose proof (slots_ids slots spare) as Hsi.
    unfold find. rewrite (get_the_buf _ _ _ E (p_buf _ _ _ _ _ _ P)). rewrite E. cbn [obind mkbuf b_addrs b_size b_ws].
    set (C := init * 2 ^ c) in *.
    destruct (Hsearch c a (map fst slots ++ repeat 0%Z (C - length slots)) (length slots)) as (pos & Hs & H1 & H2).
    { apply len_addrs. lia. }
    { rewrite len_addrs; lia. }
    rewrite Hs. cbn [obind]. rewrite nth_firstn_map in H1, H2 by lia.
    destruct (pos <? length slots) eqn:L.
    - apply Nat.ltb_lt in L. destruct (H1 L) as [N _].
      rewrite nth_error_map in N. destruct (nth_error slots pos) as [[a' r]|] eqn:Np; [|discriminate].
      cbn in N. injection N as ->. exists (Some r). split; [|now apply nth_error_In in Np].
      rewrite nth_app_l by (rewrite map_length; lia). rewrite nth_error_map. unfold ids. rewrite nth_app_l by (rewrite map_length; lia).
      rewrite nth_error_map, Np. reflexivity.
    - apply Nat.ltb_ge in L. exists None. split; auto.
  Qed.

  Lemma fst_slot_unique (slots : list (Z * nat)) a r r' : NoDup (map fst slots) -> In (a, r) slots -> In (a, r') slots -> r = r'.
  Proof.
    intros N H1 H2. apply In_nth_error in H1, H2. destruct H1 as [i H1], H2 as [j H2].
    assert (i = j).
    { apply (nth_unique (map fst slots) i j a N); rewrite nth_error_map; [rewrite H1 | rewrite H2]; reflexivity. }
    subst. congruence.
  Qed.
  Lemma snd_slot_unique (slots : list (Z * nat)) spare a a' r : NoDup (ids slots spare) -> In (a, r) slots -> In (a', r) slots -> a = a'.
  Proof.
    intros N H1 H2. apply In_nth_error in H1, H2. destruct H1 as [i H1], H2 as [j H2].
    assert (i = j).
    { apply (nth_unique (ids slots spare) i j r N); unfold ids; rewrite nth_app_l;
        try (rewrite map_length; apply nth_error_Some; congruence); rewrite nth_error_map; [rewrite H1 | rewrite H2]; reflexivity. }
    subst. congruence.
  Qed.
  Lemma linv_find l act a : linv l act ->
    exists r, find l a = Some r /\ forall x, r = Some x <-> In (a, x) act.
  Proof.
    intros H. unfold linv in H. destruct (hdr l) as [h|] eqn:E.
    - destruct H as (c & slots & spare & P). destruct (find_parts _ _ _ _ _ _ a E P) as (r & F & G). exists r. split; auto.
      intros x. rewrite (p_act _ _ _ _ _ _ P). destruct r as [r|].
      + split; [now intros [= <-]|]. intros I. f_equal. eapply fst_slot_unique; eauto using p_addrs.
      + split; [discriminate|]. intros I. elim G. now apply (in_map fst) in I.
    - destruct H as (_ & _ & ->). unfold find. rewrite E. exists None. split; auto. intros x. split; [discriminate|intros []].
  Qed.

  (** *** uses *)
  Lemma uses_cons r a x act : uses r ((a, x) :: act) = (if Nat.eqb x r then 1 else 0) + uses r act.
  Proof. unfold uses. cbn. now destruct (Nat.eqb x r). Qed.
  Lemma uses_pos r act : 0 < uses r act <-> exists a, In (a, r) act.
  Proof.
    induction act as [|[a x] act IH].
    - split; [cbv; lia|intros [? []]].
    - rewrite uses_cons. split.
      + intros H. destruct (Nat.eqb_spec x r) as [->|N]; [exists a; now left|].
        destruct (proj1 IH) as [b Hb]; [lia|]. exists b. now right.
      + intros [b [Hb|Hb]].
        * injection Hb as -> ->. rewrite Nat.eqb_refl. lia.
        * assert (0 < uses r act) by (apply IH; eauto). lia.
  Qed.
  Lemma uses_zero r act : (forall a, ~ In (a, r) act) -> uses r act = 0.
  Proof. intros H. destruct (uses r act) eqn:E; auto. destruct (proj1 (uses_pos r act)) as [a Ha]; [lia|]. now elim (H a). Qed.

  (** *** taking a slot *)
  Lemma put_the_buf l h b b' : hdr l = Some h -> the_buf l h b ->
    exists l', put_buf l b' = Some l' /\ hdr l' = hdr l /\ free_memory l' = free_memory l /\ next l' = next l /\
      (forall r, recs l' r = recs l r) /\ the_buf l' h b'.
  Proof.
    intros E H. unfold put_buf. rewrite (get_the_buf _ _ _ E H). cbn [obind]. eexists. split; [reflexivity|].
    cbn. repeat (split; [auto|]). intros k. cbn. unfold set_fn. specialize (H k). destruct (Nat.eqb k h); auto.
  Qed.

  Lemma take_slot_ok l act h c slots spare a ro : hdr l = Some h -> parts l act h c slots spare ->
    length slots < init * 2 ^ c -> ~ In a (map fst slots) ->
    exists l' r, take_slot l a ro = Some (l', r) /\ hdr l' = Some h /\ free_memory l' = free_memory l /\
      match r with
      | Some r => (forall b, ~ In (b, r) act) /\ (spare = [] -> r = next l /\ ro = true) /\ exists spare',
          (forall w s, spare = w :: s -> spare' = s /\ r = w) /\ (spare = [] -> spare' = []) /\
          the_buf l' h (mkbuf (init * 2 ^ c) (slots ++ [(a, r)]) spare') /\
          length (ids (slots ++ [(a, r)]) spare') <= init * 2 ^ c /\
          NoDup (ids (slots ++ [(a, r)]) spare') /\
          (forall i q, nth_error (ids (slots ++ [(a, r)]) spare') i = Some q -> recs l' q = Some {| r_refs := uses q act; r_index := i |}) /\
          (forall q, recs l' q <> None -> In q (ids (slots ++ [(a, r)]) spare')) /\
          (h < next l' /\ forall q, In q (ids (slots ++ [(a, r)]) spare') -> q < next l')
      | None => ro = false /\ spare = [] /\ l' = l
      end.
  Proof.
    intros E P Hlt Hna. set (C := init * 2 ^ c) in *.
    pose proof (p_buf _ _ _ _ _ _ P) as Pb. pose proof (p_room _ _ _ _ _ _ P) as Proom. fold C in Pb, Proom.
    unfold take_slot. rewrite (get_the_buf _ _ _ E Pb). cbn [obind mkbuf b_size b_cap b_ws].
    replace (length slots <? C) with true by (symmetry; now apply Nat.ltb_lt). cbn [check obind].
    assert (Eids : forall w s, ids (slots ++ [(a, w)]) s = ids slots (w :: s)).
    { intros w s. unfold ids. rewrite map_app. cbn. now rewrite <- app_assoc. }
    destruct spare as [|w spare].
    - (* no spare record *)
      assert (Hl : length (ids slots []) = length slots) by (unfold ids; rewrite app_nil_r, map_length; auto).
      rewrite Hl. rewrite (repeat_cons_sub None) by auto.
      assert (Em : length slots = length (map Some (ids slots []))) by (rewrite map_length; auto).
      rewrite (nth_at _ _ _ _ Em). cbn [obind].
      destruct ro.
      + rewrite (upd_at _ _ _ _ _ Em). cbn [obind].
        set (k := next l). assert (Ek : k = next l) by reflexivity. clearbody k. set (l1 := with_next _ _).
        destruct (put_the_buf l1 h (mkbuf C slots []) {| b_size := length slots; b_cap := C; b_addrs := map fst slots ++ repeat 0%Z (C - length slots);
          b_ws := map Some (ids slots []) ++ Some k :: repeat None (C - S (length slots)) |}) as (l2 & E2 & A1 & A2 & A3 & A4 & A5).
        { exact E. }
        { intros j. exact (Pb j). }
        cbn [b_addrs mkbuf] in E2 |- *. rewrite E2. cbn [obind].
        assert (E3 : hdr l2 = Some h) by (rewrite A1; exact E).
        rewrite (get_the_buf _ _ _ E3 A5). cbn [obind b_addrs b_size b_cap b_ws].
        rewrite (repeat_cons_sub 0%Z) by auto. rewrite upd_at by (now rewrite map_length). cbn [obind].
        destruct (put_the_buf l2 h _ {| b_size := S (length slots); b_cap := C; b_addrs := map fst slots ++ a :: repeat 0%Z (C - S (length slots));
          b_ws := map Some (ids slots []) ++ Some k :: repeat None (C - S (length slots)) |} E3 A5) as (l3 & E4 & B1 & B2 & B3 & B4 & B5).
        rewrite E4. cbn [obind]. exists l3, (Some k). split; [reflexivity|]. split; [rewrite B1; auto|]. split; [rewrite B2, A2; reflexivity|].
        assert (Hk : ~ In k (ids slots [])) by (intros I; apply (p_fresh _ _ _ _ _ _ P) in I; lia).
        split; [intros b Hb; apply (p_act _ _ _ _ _ _ P) in Hb; apply Hk; unfold ids; apply in_or_app; left; now apply (in_map snd) in Hb|].
        split; [auto|]. exists []. split; [discriminate|]. split; [auto|]. rewrite Eids.
        assert (Hi2 : ids slots [k] = ids slots [] ++ [k]) by (unfold ids; now rewrite app_nil_r).
        split.
        { intros j. rewrite B5. destruct (Nat.eqb j h); auto. f_equal. unfold mkbuf. rewrite Eids, Hi2, !app_length, !map_app, <- !app_assoc, Hl. cbn.
          rewrite !Nat.add_1_r. reflexivity. }
        rewrite Hi2. split; [rewrite app_length, Hl; cbn; lia|]. split.
        { apply nodup_mid. rewrite app_nil_r. constructor; auto. exact (p_ids _ _ _ _ _ _ P). }
        assert (Hrec : forall q, recs l3 q = if Nat.eqb q k then Some {| r_refs := 0; r_index := length slots |} else recs l q).
        { intros q. rewrite B4, A4. reflexivity. }
        split; [|split].
        * intros i q Hq. rewrite Hrec. destruct (lt_dec i (length (ids slots []))) as [L|L].
          -- rewrite nth_app_l in Hq by auto. destruct (Nat.eqb_spec q k) as [Eq|N]; [elim Hk; rewrite <- Eq; exact (nth_error_In _ _ Hq)|].
             now apply (p_recs _ _ _ _ _ _ P).
          -- rewrite nth_error_app2 in Hq by lia. destruct (i - length (ids slots [])) eqn:D; [|now destruct n].
             injection Hq as <-. rewrite Nat.eqb_refl. do 2 f_equal; [|lia]. symmetry. apply uses_zero.
             intros b Hb. apply (p_act _ _ _ _ _ _ P) in Hb. apply Hk. unfold ids. apply in_or_app. left. now apply (in_map snd) in Hb.
        * intros q Hq. rewrite Hrec in Hq. apply in_or_app. destruct (Nat.eqb_spec q k) as [Eq|N]; [right; left; auto|].
          left. now apply (p_only _ _ _ _ _ _ P).
        * rewrite B3, A3. cbn. destruct (p_fresh _ _ _ _ _ _ P) as [F1 F2]. split; [lia|].
          intros q Hq. apply in_app_or in Hq. destruct Hq as [Hq|[<-|[]]]; [apply F2 in Hq|]; lia.
      + cbn [obind]. exists l, None. repeat (split; [auto; reflexivity|]). reflexivity.
    - (* a spare record is reused *)
      assert (Hsp : ids slots (w :: spare) = map snd slots ++ w :: spare) by reflexivity.
      assert (Hn0 : forall R, nth_error (map Some (ids slots (w :: spare)) ++ R) (length slots) = Some (Some w)).
      { intros R. rewrite Hsp, map_app. cbn [map]. rewrite <- app_assoc. apply nth_at. now rewrite !map_length. }
      rewrite Hn0. cbn [obind].
      rewrite (get_the_buf _ _ _ E Pb). cbn [obind mkbuf b_size b_cap b_ws b_addrs].
      rewrite (repeat_cons_sub 0%Z) by auto. rewrite upd_at by (now rewrite map_length). cbn [obind].
      match goal with |- context [put_buf l ?b] => destruct (put_the_buf l h _ b E Pb) as (l3 & E4 & B1 & B2 & B3 & B4 & B5) end.
      rewrite E4. cbn [obind]. exists l3, (Some w). split; [reflexivity|]. split; [rewrite B1; auto|]. split; [auto|].
      assert (Hn : nth_error (ids slots (w :: spare)) (length (map snd slots)) = Some w) by apply nth_mid.
      split.
      { intros b Hb. apply (p_act _ _ _ _ _ _ P) in Hb. apply (in_map snd) in Hb. cbn in Hb.
        pose proof (p_ids _ _ _ _ _ _ P) as N. rewrite Hsp in N. apply NoDup_remove_2 in N. apply N. apply in_or_app. auto. }
      split; [discriminate|].
      exists spare. split; [now intros ? ? [= -> ->]|]. split; [discriminate|]. rewrite Eids. split.
      { intros j. rewrite B5. destruct (Nat.eqb j h); auto. f_equal. unfold mkbuf. rewrite Eids, !app_length, map_app, <- app_assoc. cbn.
        rewrite !Nat.add_1_r. reflexivity. }
      split; [auto|]. split; [exact (p_ids _ _ _ _ _ _ P)|]. rewrite B3.
      split; [intros i q Hq; rewrite B4; now apply (p_recs _ _ _ _ _ _ P)|].
      split; [intros q Hq; rewrite B4 in Hq; now apply (p_only _ _ _ _ _ _ P)|]. exact (p_fresh _ _ _ _ _ _ P).
  Qed.

  (** *** allocate_wait_state *)
  Lemma bump_ok l act h c slots spare a r : hdr l = Some h ->
    the_buf l h (mkbuf (init * 2 ^ c) slots spare) -> length (ids slots spare) <= init * 2 ^ c ->
    NoDup (ids slots spare) -> NoDup (map fst slots) ->
    (forall i q, nth_error (ids slots spare) i = Some q -> recs l q = Some {| r_refs := uses q act; r_index := i |}) ->
    (forall q, recs l q <> None -> In q (ids slots spare)) ->
    (h < next l /\ forall q, In q (ids slots spare) -> q < next l) ->
    (free_memory l = true -> spare = []) ->
    (forall x, In x ((a, r) :: act) <-> In x slots) ->
    exists l', (q <-? recs l r ;; Some (with_recs l (set_fn (recs l) r (Some {| r_refs := S (r_refs q); r_index := r_index q |})), Some r)) = Some (l', Some r) /\
      hdr l' = Some h /\ free_memory l' = free_memory l /\ parts l' ((a, r) :: act) h c slots spare.
  Proof.
    intros E Pb Proom Pids Paddrs Precs Ponly Pfresh Pfree Hact.
    assert (Hin : In (a, r) slots) by (apply Hact; now left).
    assert (Hr : In r (ids slots spare)) by (unfold ids; apply in_or_app; left; now apply (in_map snd) in Hin).
    apply In_nth_error in Hr. destruct Hr as [i0 Hi0]. pose proof (Precs _ _ Hi0) as R0. rewrite R0. cbn [obind r_refs r_index].
    eexists. split; [reflexivity|]. cbn -[uses ids mkbuf]. split; [auto|]. split; [auto|]. constructor; cbn -[uses ids mkbuf]; auto.
    - intros i q Hq. unfold set_fn. rewrite uses_cons. destruct (Nat.eqb_spec q r) as [->|N].
      + rewrite Nat.eqb_refl. rewrite (nth_unique _ _ _ _ Pids Hq Hi0). reflexivity.
      + destruct (Nat.eqb_spec r q) as [Eq|_]; [congruence|]. now apply Precs.
    - intros q Hq. unfold set_fn in Hq. destruct (Nat.eqb_spec q r) as [Eq|N]; auto. rewrite Eq. exact (nth_error_In _ _ Hi0).
  Qed.

  Lemma nodup_snoc (slots : list (Z * nat)) a r : NoDup (map fst slots) -> ~ In a (map fst slots) -> NoDup (map fst (slots ++ [(a, r)])).
  Proof. intros N H. rewrite map_app. cbn. apply nodup_mid. rewrite app_nil_r. now constructor. Qed.

  (** from a list with room for a new address *)
  Lemma create_ok l act h c slots spare a ro : hdr l = Some h -> parts l act h c slots spare ->
    length slots < init * 2 ^ c -> ~ In a (map fst slots) ->
    exists l' r, (' (l, ws) <-? take_slot l a ro ;;
        match ws with
        | None => Some (l, None)
        | Some w => r <-? recs l w ;; Some (with_recs l (set_fn (recs l) w (Some {| r_refs := S (r_refs r); r_index := r_index r |})), Some w)
        end) = Some (l', r) /\ hdr l' = Some h /\ free_memory l' = free_memory l /\
      match r with Some r => linv l' ((a, r) :: act) | None => ro = false /\ l' = l end.
  Proof.
    intros E P Hlt Hna. destruct (take_slot_ok l act h c slots spare a ro E P Hlt Hna) as (l1 & r & T & E1 & F1 & R).
    rewrite T. cbn [obind]. destruct r as [r|].
    - destruct R as (R1 & R2 & spare' & S1 & S2 & B1 & B2 & B3 & B4 & B5 & B6).
      destruct (bump_ok l1 act h c (slots ++ [(a, r)]) spare' a r) as (l' & U & E2 & F2 & P2); auto.
      + apply nodup_snoc; auto. exact (p_addrs _ _ _ _ _ _ P).
      + intros Hf. rewrite F1 in Hf. apply S2, (p_free _ _ _ _ _ _ P), Hf.
      + intros x. rewrite in_app_iff. cbn. rewrite (p_act _ _ _ _ _ _ P). tauto.
      + rewrite U. exists l', (Some r). split; [reflexivity|]. split; [auto|]. split; [congruence|].
        unfold linv. rewrite E2. eauto.
    - destruct R as (-> & _ & ->). exists l, None. split; [reflexivity|]. auto.
  Qed.

  Lemma begin_ok l act a bo ro : linv l act ->
    exists l' r, allocate_wait_state l a bo ro = Some (l', r) /\ free_memory l' = free_memory l /\
      match r with Some r => linv l' ((a, r) :: act) | None => linv l' act /\ (bo = false \/ ro = false) /\ forall x, ~ In (a, x) act end.
  Proof.
    intros H. unfold allocate_wait_state, find_or_create. unfold linv in H. destruct (hdr l) as [h|] eqn:E.
    - destruct H as (c & slots & spare & P). destruct (find_parts _ _ _ _ _ _ a E P) as (ws & F & G).
      unfold find in F. rewrite E in F. unfold find. rewrite E. rewrite F. cbn [obind]. destruct ws as [w|].
      + (* found *)
        cbn [obind]. destruct (bump_ok l act h c slots spare a w) as (l' & U & E2 & F2 & P2); auto; try (now apply P).
        { intros x. cbn. rewrite (p_act _ _ _ _ _ _ P). split; [|now right]. intros [<-|]; auto. }
        rewrite U. exists l', (Some w). split; [reflexivity|]. split; [auto|]. unfold linv. rewrite E2. eauto.
      + pose proof (p_buf _ _ _ _ _ _ P) as Pb. pose proof (p_room _ _ _ _ _ _ P) as Proom.
        assert (NA : forall x, ~ In (a, x) act) by (intros x Hx; apply (p_act _ _ _ _ _ _ P) in Hx; apply G; now apply (in_map fst) in Hx).
        pose proof (slots_ids slots spare) as Hsi. rewrite <- E.
        rewrite (get_the_buf _ _ _ E Pb). cbn [obind mkbuf b_size b_cap].
        destruct (length slots =? init * 2 ^ c) eqn:Efull.
        * (* grow *)
          apply Nat.eqb_eq in Efull. unfold allocate_buffer. destruct bo.
          -- rewrite E. cbn [obind]. rewrite <- E. rewrite (get_the_buf _ _ _ E Pb). cbn [obind mkbuf b_size b_cap b_addrs b_ws].
             replace (init * 2 ^ c <=? init * 2 ^ c * 2) with true by (symmetry; apply Nat.leb_le; lia). cbn [check obind].
             replace (length slots <=? length (map fst slots ++ repeat 0%Z (init * 2 ^ c - length slots))) with true
               by (symmetry; apply Nat.leb_le; rewrite len_addrs; lia). cbn [check obind].
             assert (Lw : length (map Some (ids slots spare) ++ repeat None (init * 2 ^ c - length (ids slots spare))) = init * 2 ^ c)
               by (rewrite app_length, map_length, repeat_length; lia).
             replace (init * 2 ^ c <=? length (map Some (ids slots spare) ++ repeat None (init * 2 ^ c - length (ids slots spare)))) with true
               by (symmetry; apply Nat.leb_le; lia). cbn [check obind].
             rewrite nth_firstn_map by lia. rewrite firstn_all2 by lia.
             set (k := next l). set (l1 := with_next _ _).
             assert (E1 : hdr l1 = Some h) by exact E.
             assert (Kh : h <> k) by (pose proof (p_fresh _ _ _ _ _ _ P); unfold k; lia).
             unfold free_buf, get_buf. rewrite E1. cbn [obind].
             assert (B1 : bufs l1 h = bufs l h) by (cbn; unfold set_fn; destruct (Nat.eqb_spec h k); congruence).
             rewrite B1, (Pb h), Nat.eqb_refl. cbn [obind].
             set (l2 := with_hdr _ _).
             assert (P2 : parts l2 act k (S c) slots spare).
             { assert (Hpow : init * 2 ^ S c = init * 2 ^ c * 2) by (cbn; lia).
               constructor; try (now apply P).
               - intros j. cbn. unfold set_fn. destruct (Nat.eqb_spec j h) as [->|N1].
                 + destruct (Nat.eqb_spec h k); congruence.
                 + destruct (Nat.eqb_spec j k) as [->|N2].
                   * f_equal. rewrite <- Hpow. unfold mkbuf. f_equal. rewrite <- app_assoc. f_equal.
                     rewrite <- repeat_app. f_equal. lia.
                   * rewrite Pb. now destruct (Nat.eqb_spec j h).
               - lia.
               - cbn. pose proof (p_fresh _ _ _ _ _ _ P) as [F1 F2]. split; [unfold k; lia|]. intros q Hq. apply F2 in Hq. lia. }
             destruct (create_ok l2 act k (S c) slots spare a ro) as (l' & r & U & E3 & F3 & R); auto.
             { cbn [Nat.pow]. assert (0 < 2 ^ c) by (apply Nat.neq_0_lt_0, Nat.pow_nonzero; lia). nia. }
             rewrite U. exists l', r. split; [reflexivity|]. split; [auto|]. destruct r as [r|]; auto.
             destruct R as [-> ->]. split; [unfold linv; cbn [hdr l2 with_hdr]; eauto|]. split; auto.
          -- cbn [obind]. exists l, None. split; [reflexivity|]. split; [auto|]. split; [unfold linv; rewrite E; eauto|]. split; auto.
        * apply Nat.eqb_neq in Efull.
          destruct (create_ok l act h c slots spare a ro E P) as (l' & r & U & E3 & F3 & R); auto; [lia|].
          rewrite U. exists l', r. split; [reflexivity|]. split; [auto|]. destruct r as [r|]; auto.
          destruct R as [-> ->]. split; [unfold linv; rewrite E; eauto|]. split; auto.
    - destruct H as (Hb & Hr & ->). unfold allocate_buffer. destruct bo.
      + cbn [obind]. set (k := next l). set (l1 := with_hdr _ _).
        assert (P1 : parts l1 [] k 0 [] []).
        { constructor.
          - intros j. cbn. unfold set_fn. rewrite Hb, Nat.mul_1_r. destruct (Nat.eqb j k); auto.
            unfold mkbuf. cbn. now rewrite Nat.sub_0_r.
          - cbn. lia.
          - constructor.
          - constructor.
          - intros [|i] r Hi; discriminate.
          - intros r Hq. cbn in Hq. now rewrite Hr in Hq.
          - cbn. split; [lia|]. intros r [].
          - intros x. tauto.
          - auto. }
        destruct (create_ok l1 [] k 0 [] [] a ro) as (l' & r & U & E3 & F3 & R); auto.
        { cbn. lia. }
        rewrite U. exists l', r. split; [reflexivity|]. split; [auto|]. destruct r as [r|]; auto.
        destruct R as [-> ->]. split; [unfold linv; cbn [hdr l1 with_hdr]; eauto|]. split; auto.
      + cbn [obind]. exists (with_hdr l None), None. split; [reflexivity|]. split; [auto|]. split; [|split; auto].
        unfold linv. cbn. auto.
  Qed.

  (** *** free_spare *)
  Lemma free_from_ok n0 : forall spare l pre, NoDup spare -> (forall r, In r spare -> recs l r <> None) ->
    exists l', free_from l (pre ++ map Some spare ++ repeat None n0) (length pre) (length spare + n0) =
        Some (l', pre ++ repeat None (length spare + n0)) /\
      hdr l' = hdr l /\ free_memory l' = free_memory l /\ next l' = next l /\ (forall k, bufs l' k = bufs l k) /\
      (forall r, In r spare -> recs l' r = None) /\ (forall r, ~ In r spare -> recs l' r = recs l r).
  Proof.
    induction spare as [|w spare IH]; intros l pre N Hr.
    - cbn [map app length plus]. destruct n0 as [|n0]; cbn [free_from repeat].
      + exists l. repeat (split; [auto; reflexivity|]). split; auto. intros r [].
      + rewrite nth_mid. cbn [obind]. exists l. repeat (split; [auto; reflexivity|]). split; auto. intros r [].
    - cbn [map app length plus free_from]. rewrite nth_mid. cbn [obind]. unfold free_rec.
      destruct (recs l w) as [rw|] eqn:Ew; [|elim (Hr w); auto; now left]. cbn [obind]. rewrite upd_mid. cbn [obind].
      inversion N as [|? ? Nw Ns]; subst.
      set (l1 := with_recs _ _).
      destruct (IH l1 (pre ++ [None]) Ns) as (l' & F & A1 & A2 & A3 & A4 & A5 & A6).
      { intros r Hi. cbn. unfold set_fn. destruct (Nat.eqb_spec r w) as [Eq|_]; [subst; contradiction|]. apply Hr. now right. }
      rewrite <- app_assoc, app_length, Nat.add_1_r in F. cbn [app] in F. rewrite F. exists l'.
      split; [now rewrite <- app_assoc|]. repeat (split; [solve [auto]|]). split.
      + intros r [<-|Hi]; auto. rewrite A6 by auto. cbn. unfold set_fn. now rewrite Nat.eqb_refl.
      + intros r Hn. rewrite A6 by (intros I; apply Hn; now right). cbn. unfold set_fn.
        destruct (Nat.eqb_spec r w) as [Eq|_]; auto. subst. elim Hn. now left.
  Qed.

  Lemma free_spare_ok l act h c slots spare : hdr l = Some h -> 
    the_buf l h (mkbuf (init * 2 ^ c) slots spare) -> length (ids slots spare) <= init * 2 ^ c ->
    NoDup (ids slots spare) -> NoDup (map fst slots) ->
    (forall i q, nth_error (ids slots spare) i = Some q -> recs l q = Some {| r_refs := uses q act; r_index := i |}) ->
    (forall q, recs l q <> None -> In q (ids slots spare)) ->
    (h < next l /\ forall q, In q (ids slots spare) -> q < next l) ->
    (forall x, In x act <-> In x slots) ->
    exists l', free_spare l = Some l' /\ free_memory l' = free_memory l /\ linv l' act /\ (act = [] -> hdr l' = None).
  Proof.
    intros E Pb Proom Pids Paddrs Precs Ponly Pfresh Pact. set (C := init * 2 ^ c) in *.
    unfold free_spare. rewrite (get_the_buf _ _ _ E Pb). rewrite E. cbn [obind mkbuf b_ws b_size b_cap b_addrs].
    assert (Li : length (ids slots spare) = length slots + length spare) by (unfold ids; rewrite app_length, map_length; lia).
    assert (Ns : NoDup spare).
    { clear - Pids. unfold ids in Pids. induction (map snd slots) as [|x l IH]; auto. inversion Pids; auto. }
    destruct (free_from_ok (C - length (ids slots spare)) spare l (map Some (map snd slots)) Ns) as (l1 & F & A1 & A2 & A3 & A4 & A5 & A6).
    { intros r Hr. assert (I : In r (ids slots spare)) by (unfold ids; apply in_or_app; auto).
      apply In_nth_error in I. destruct I as [i Hi]. apply Precs in Hi. congruence. }
    rewrite !map_length in F. unfold ids at 1. rewrite map_app, <- app_assoc.
    replace (C - length slots) with (length spare + (C - length (ids slots spare))) by lia.
    rewrite F. cbn [obind].
    assert (E1 : hdr l1 = Some h) by congruence.
    assert (Pb1 : the_buf l1 h (mkbuf C slots spare)) by (intros k; rewrite A4; apply Pb).
    match goal with |- context [put_buf l1 ?b] => destruct (put_the_buf l1 h _ b E1 Pb1) as (l2 & E4 & B1 & B2 & B3 & B4 & B5) end.
    rewrite E4. cbn [obind].
    assert (E2 : hdr l2 = Some h) by congruence.
    assert (Hgone : forall r, recs l2 r <> None -> In r (map snd slots)).
    { intros r Hr. rewrite B4 in Hr. destruct (in_dec Nat.eq_dec r spare) as [I|I]; [rewrite A5 in Hr; tauto|].
      rewrite A6 in Hr by auto. apply Ponly in Hr. unfold ids in Hr. apply in_app_or in Hr. tauto. }
    destruct (length slots =? 0) eqn:E0.
    - apply Nat.eqb_eq, length_zero_iff_nil in E0. subst slots.
      unfold free_buf. rewrite (get_the_buf _ _ _ E2 B5). cbn [obind]. eexists. split; [reflexivity|].
      split; [cbn; congruence|]. split; [|reflexivity]. unfold linv. cbn. split; [|split].
      + intros k. unfold set_fn. destruct (Nat.eqb_spec k h) as [Eq|Nq]; auto. rewrite B5. destruct (Nat.eqb_spec k h); [contradiction|auto].
      + intros k. destruct (recs l2 k) eqn:Ek; auto. elim (Hgone k). congruence.
      + destruct act as [|x act]; auto. elim (proj1 (Pact x)). now left.
    - apply Nat.eqb_neq in E0. exists l2. split; [reflexivity|]. split; [congruence|]. split.
      + unfold linv. rewrite E2. exists c, slots, []. constructor.
        * intros k. rewrite B5. destruct (Nat.eqb k h); auto. f_equal. unfold mkbuf. fold C. f_equal.
          -- do 2 f_equal. lia.
          -- unfold ids. rewrite !app_nil_r. do 2 f_equal. rewrite app_length, map_length. lia.
        * unfold ids. rewrite app_nil_r, map_length. lia.
        * unfold ids in *. rewrite app_nil_r. clear - Pids. induction (map snd slots) as [|x l IH]; [constructor|].
          cbn in Pids. inversion Pids; subst. constructor; [|auto]. intros I. apply H1, in_or_app. auto.
        * auto.
        * intros i r Hi. unfold ids in Hi. rewrite app_nil_r in Hi. rewrite B4.
          assert (Hi2 : nth_error (ids slots spare) i = Some r).
          { unfold ids. rewrite nth_app_l; auto. apply nth_error_Some. congruence. }
          rewrite A6; auto. intros I. apply In_nth_error in I. destruct I as [j Hj].
          assert (Hj2 : nth_error (ids slots spare) (length (map snd slots) + j) = Some r).
          { unfold ids. rewrite nth_error_app2 by lia. now replace (length (map snd slots) + j - length (map snd slots)) with j by lia. }
          pose proof (nth_unique _ _ _ _ Pids Hi2 Hj2). assert (i < length (map snd slots)) by (apply nth_error_Some; congruence). lia.
        * intros r Hr. unfold ids. rewrite app_nil_r. auto.
        * rewrite B3, A3. split; [tauto|]. intros r Hr. unfold ids in Hr. rewrite app_nil_r in Hr. apply Pfresh. unfold ids. apply in_or_app. auto.
        * auto.
        * auto.
      + intros ->. destruct slots as [|x slots]; [cbn in E0; lia|]. elim (proj2 (Pact x)). now left.
  Qed.

  (** *** erase *)
  Lemma erase_ok l act h c slots spare a r : hdr l = Some h ->
    the_buf l h (mkbuf (init * 2 ^ c) slots spare) -> length (ids slots spare) <= init * 2 ^ c ->
    NoDup (ids slots spare) -> NoDup (map fst slots) ->
    (forall i q, nth_error (ids slots spare) i = Some q -> recs l q = Some {| r_refs := uses q act; r_index := i |}) ->
    (forall q, recs l q <> None -> In q (ids slots spare)) ->
    (h < next l /\ forall q, In q (ids slots spare) -> q < next l) ->
    (free_memory l = true -> spare = []) ->
    In (a, r) slots -> (forall x, In x slots <-> x = (a, r) \/ In x act) -> ~ In (a, r) act ->
    exists l', erase l r = Some l' /\ free_memory l' = free_memory l /\ linv l' act /\
      (free_memory l = true -> act = [] -> hdr l' = None).
  Proof.
    intros E Pb Proom Pids Paddrs Precs Ponly Pfresh Pfree Hin Hact Hgone. set (C := init * 2 ^ c) in *.
    apply in_split in Hin. destruct Hin as (s1 & s2 & Hs).
    assert (Hnr : nth_error (ids slots spare) (length s1) = Some r).
    { rewrite Hs. unfold ids. rewrite map_app. cbn [map snd]. rewrite <- app_assoc. apply nth_at. now rewrite map_length. }
    pose proof (Precs _ _ Hnr) as R0.
    assert (Lslots : length slots = length s1 + S (length s2)) by (rewrite Hs, app_length; reflexivity).
    assert (Li : length (ids slots spare) = length slots + length spare) by (unfold ids; rewrite app_length, map_length; lia).
    unfold erase. rewrite (get_the_buf _ _ _ E Pb). cbn [obind]. rewrite R0. cbn [obind r_index mkbuf b_size b_ws b_cap b_addrs].
    replace (length s1 <? length slots) with true by (symmetry; apply Nat.ltb_lt; lia). cbn [check obind].
    rewrite nth_error_app1 by (rewrite map_length; lia). rewrite nth_error_map, Hnr. cbn [option_map obind]. rewrite Nat.eqb_refl. cbn [check obind].
    (* the final state, in both cases *)
    assert (FIN : forall l1 slots' pa pw, hdr l1 = Some h -> free_memory l1 = free_memory l -> next l1 = next l ->
      (forall k, bufs l1 k = bufs l k) ->
      {| b_size := length slots - 1; b_cap := C; b_addrs := pa; b_ws := pw |} = mkbuf C slots' (r :: spare) ->
      NoDup (ids slots' (r :: spare)) -> (forall x, In x (ids slots' (r :: spare)) <-> In x (ids slots spare)) ->
      length (ids slots' (r :: spare)) = length (ids slots spare) ->
      NoDup (map fst slots') -> (forall x, In x act <-> In x slots') ->
      (forall i q, nth_error (ids slots' (r :: spare)) i = Some q -> recs l1 q = Some {| r_refs := uses q act; r_index := i |}) ->
      (forall q, recs l1 q <> None -> In q (ids slots spare)) ->
      exists l', (l <-? put_buf l1 {| b_size := length slots - 1; b_cap := C; b_addrs := pa; b_ws := pw |} ;;
                  if free_memory l then free_spare l else Some l) = Some l' /\
        free_memory l' = free_memory l /\ linv l' act /\ (free_memory l = true -> act = [] -> hdr l' = None)).
    { intros l1 slots' pa pw E1 F1 X1 B1 Eb N1 I1 L1 N2 A1 Rc1 O1.
      assert (Pb1 : the_buf l1 h (mkbuf C slots spare)) by (intros k; rewrite B1; apply Pb).
      match goal with |- context [put_buf l1 ?b] => destruct (put_the_buf l1 h _ b E1 Pb1) as (l2 & E4 & C1 & C2 & C3 & C4 & C5) end.
      rewrite E4. cbn [obind]. rewrite Eb in C5.
      assert (E2 : hdr l2 = Some h) by congruence.
      assert (Rc2 : forall i q, nth_error (ids slots' (r :: spare)) i = Some q -> recs l2 q = Some {| r_refs := uses q act; r_index := i |})
        by (intros i q Hq; rewrite C4; auto).
      assert (O2 : forall q, recs l2 q <> None -> In q (ids slots' (r :: spare))) by (intros q Hq; rewrite C4 in Hq; apply I1; auto).
      assert (Fr2 : h < next l2 /\ forall q, In q (ids slots' (r :: spare)) -> q < next l2).
      { rewrite C3, X1. split; [tauto|]. intros q Hq. apply I1 in Hq. now apply Pfresh. }
      assert (Rm2 : length (ids slots' (r :: spare)) <= C) by lia.
      destruct (free_memory l2) eqn:Fm.
      - destruct (free_spare_ok l2 act h c slots' (r :: spare) E2 C5 Rm2 N1 N2 Rc2 O2 Fr2 A1) as (l' & G1 & G2 & G3 & G4).
        exists l'. split; [exact G1|]. split; [congruence|]. split; auto.
      - exists l2. split; [reflexivity|]. split; [congruence|]. split; [|congruence]. unfold linv. rewrite E2.
        exists c, slots', (r :: spare). constructor; auto. congruence. }
    assert (Hnd : NoDup (map fst slots)) by auto.
    destruct s2 as [|x s2] using rev_ind; [|clear IHs2].
    - (* the last slot *)
      cbn [length] in Lslots. replace (length s1 =? length slots - 1) with true by (symmetry; apply Nat.eqb_eq; lia). cbn [negb].
      assert (Ea : map fst slots ++ repeat 0%Z (C - length slots) = map fst s1 ++ a :: repeat 0%Z (C - length slots)).
      { rewrite Hs, map_app. cbn. now rewrite <- app_assoc. }
      rewrite Ea. rewrite upd_at by (now rewrite map_length). cbn [obind].
      assert (Ei : ids s1 (r :: spare) = ids slots spare).
      { unfold ids. rewrite Hs, map_app. cbn. now rewrite <- app_assoc. }
      apply (FIN l s1); auto; rewrite ?Ei; auto; try tauto.
      + unfold mkbuf. rewrite Ei. f_equal; [lia|]. f_equal. rewrite (repeat_cons_sub 0%Z C (length s1)) by lia. do 2 f_equal. lia.
      + rewrite Hs, map_app in Hnd. cbn in Hnd. apply NoDup_remove_1 in Hnd. now rewrite app_nil_r in Hnd.
      + intros x. split; intros H.
        * assert (In x slots) by (apply Hact; auto). rewrite Hs in H0. apply in_app_or in H0. destruct H0 as [H0|[H0|[]]]; auto. subst x. contradiction.
        * assert (I : In x slots) by (rewrite Hs; apply in_or_app; auto). apply Hact in I. destruct I as [->|I]; auto.
          rewrite Hs, map_app in Hnd. cbn in Hnd. apply NoDup_remove_2 in Hnd. elim Hnd. apply in_or_app. left. now apply (in_map fst) in H.
    - destruct x as [b q]. rewrite app_length in Lslots. cbn [length] in Lslots.
      replace (length s1 =? length slots - 1) with false by (symmetry; apply Nat.eqb_neq; lia). cbn [negb].
      set (N := C - length slots) in *.
      assert (Ea : map fst slots ++ repeat 0%Z N = (map fst s1 ++ a :: map fst s2) ++ b :: repeat 0%Z N).
      { rewrite Hs. repeat (rewrite ?map_app, <- ?app_assoc; cbn [map fst app]). reflexivity. }
      assert (Ew : ids slots spare = (map snd s1 ++ r :: map snd s2) ++ q :: spare).
      { unfold ids. rewrite Hs. repeat (rewrite ?map_app, <- ?app_assoc; cbn [map snd app]). reflexivity. }
      set (W := repeat None (C - length (ids slots spare))) in *.
      assert (Ew2 : map Some (ids slots spare) ++ W = (map Some (map snd s1) ++ Some r :: map Some (map snd s2)) ++ Some q :: map Some spare ++ W).
      { rewrite Ew. repeat (rewrite ?map_app, <- ?app_assoc; cbn [map snd app]). reflexivity. }
      rewrite Ea, Ew2.
      assert (Llast : length slots - 1 = length s1 + S (length s2)) by lia.
      rewrite nth_at by (rewrite app_length, !map_length; cbn [length]; rewrite map_length; lia). cbn [obind].
      rewrite <- app_assoc. cbn [app]. rewrite upd_at by (now rewrite map_length). cbn [obind].
      rewrite app_comm_cons, app_assoc. rewrite upd_at by (rewrite app_length, !map_length; cbn [length]; rewrite map_length; lia). cbn [obind].
      rewrite nth_at by (rewrite app_length, !map_length; cbn [length]; rewrite !map_length; lia). cbn [obind].
      rewrite <- app_assoc. cbn [app]. rewrite upd_at by (now rewrite !map_length). cbn [obind].
      rewrite (app_comm_cons (map Some (map snd s2))), app_assoc. rewrite upd_at by (rewrite app_length, !map_length; cbn [length]; rewrite !map_length; lia). cbn [obind].
      assert (Hnq : nth_error (ids slots spare) (length slots - 1) = Some q).
      { rewrite Ew. apply nth_at. rewrite app_length, !map_length. cbn [length]. rewrite map_length. lia. }
      pose proof (Precs _ _ Hnq) as Rq. unfold set_index. rewrite Rq. cbn [obind r_refs].
      assert (Nqr : q <> r).
      { intros ->. pose proof (nth_unique _ _ _ _ Pids Hnq Hnr). lia. }
      cbn [recs with_recs]. unfold set_fn at 1. destruct (Nat.eqb_spec r q) as [Eq|_]; [congruence|]. rewrite R0. cbn [obind r_refs].
      set (l1 := with_recs _ _).
      set (slots' := s1 ++ (b, q) :: s2).
      assert (Ei : ids slots' (r :: spare) = (map snd s1 ++ q :: map snd s2) ++ r :: spare).
      { unfold ids, slots'. rewrite map_app. reflexivity. }
      apply (FIN l1 slots'); auto.
      + unfold mkbuf. rewrite Ei. f_equal.
        * unfold slots'. rewrite app_length. cbn [length]. lia.
        * unfold slots'. rewrite map_app. cbn [map fst]. f_equal. rewrite app_length. cbn [length].
          rewrite repeat_cons_sub by lia. do 2 f_equal. unfold N. lia.
        * replace (length ((map snd s1 ++ q :: map snd s2) ++ r :: spare)) with (length (ids slots spare))
            by (rewrite Ew, !app_length; cbn [length]; lia).
          repeat (rewrite ?map_app, <- ?app_assoc; cbn [map snd app]). reflexivity.
      + rewrite Ei. rewrite Ew in Pids. apply nodup_mid in Pids. apply nodup_mid.
        rewrite <- app_assoc in *. cbn [app] in *. rewrite app_comm_cons in Pids. apply (nodup_mid (q :: map snd s1)) in Pids.
        rewrite app_comm_cons. apply (nodup_mid (r :: map snd s1)).
        cbn [app] in *. exact Pids || (inversion Pids as [|? ? P1 P2]; subst; inversion P2 as [|? ? P3 P4]; subst; constructor; [intros [I|I]; [congruence|contradiction]|constructor; auto; intros I; apply P1; now right]).
      + intros x. rewrite Ei, Ew, !in_app_iff. cbn [In]. rewrite ?in_app_iff. cbn [In]. tauto.
      + rewrite Ei, Ew, !app_length. cbn [length]. lia.
      + unfold slots'. rewrite Hs in Hnd. repeat (rewrite map_app in Hnd; cbn [map fst] in Hnd). rewrite map_app. cbn [map fst].
        apply NoDup_remove_1 in Hnd. rewrite app_assoc in Hnd. apply nodup_mid in Hnd. rewrite app_nil_r in Hnd. now apply nodup_mid.
      + assert (Eqv : forall x, In x slots <-> x = (a, r) \/ In x slots').
        { intros x. rewrite Hs. unfold slots'. rewrite !in_app_iff. cbn [In]. rewrite in_app_iff. cbn [In]. intuition congruence. }
        intros x. split; intros H.
        * assert (I : In x slots) by (apply Hact; auto). apply Eqv in I. destruct I as [->|I]; [contradiction|auto].
        * assert (I : In x slots) by (apply Eqv; auto). apply Hact in I. destruct I as [->|I]; auto.
          exfalso. assert (I2 : In r (map snd slots')) by (now apply (in_map snd) in H).
          assert (ND : NoDup ((map snd s1 ++ q :: map snd s2) ++ r :: spare)).
          { rewrite Ew in Pids. clear - Pids Nqr. apply nodup_mid in Pids. apply nodup_mid.
            rewrite <- app_assoc in *. cbn [app] in *. rewrite app_comm_cons in Pids. apply (nodup_mid (q :: map snd s1)) in Pids.
            rewrite app_comm_cons. apply (nodup_mid (r :: map snd s1)). cbn [app] in *.
            inversion Pids as [|? ? P1 P2]; subst; inversion P2 as [|? ? P3 P4]; subst; constructor;
              [intros [I|I]; [congruence|contradiction]|constructor; auto; intros I; apply P1; now right]. }
          apply NoDup_remove_2 in ND. apply ND. apply in_or_app. left. unfold slots' in I2. rewrite map_app in I2. exact I2.
      + rewrite Ei. intros i x Hx. cbn [recs with_recs l1]. unfold set_fn.
        destruct (Nat.eqb_spec x r) as [->|Nr].
        * assert (Hr2 : nth_error ((map snd s1 ++ q :: map snd s2) ++ r :: spare) (length slots - 1) = Some r).
          { apply nth_at. rewrite app_length, !map_length. cbn [length]. rewrite map_length. lia. }
          assert (i = length slots - 1); [|subst; reflexivity].
          destruct (lt_dec i (length (map snd s1 ++ q :: map snd s2))) as [L|L].
          -- exfalso. rewrite nth_app_l in Hx by auto. apply nth_error_In in Hx. rewrite Ew in Pids.
             apply in_app_or in Hx. cbn [In] in Hx.
             rewrite <- app_assoc in Pids. cbn [app] in Pids. apply NoDup_remove_2 in Pids. apply Pids.
             rewrite ?in_app_iff; cbn [In]; rewrite ?in_app_iff; cbn [In]. destruct Hx as [Hx|[Hx|Hx]]; [tauto|congruence|tauto].
          -- rewrite nth_error_app2 in Hx by lia. rewrite app_length, map_length in *. cbn [length] in *. rewrite map_length in *.
             destruct (i - (length s1 + S (length s2))) as [|j] eqn:Ej; [lia|]. cbn in Hx. exfalso.
             apply nth_error_In in Hx. rewrite Ew in Pids. rewrite <- app_assoc in Pids. cbn [app] in Pids. apply NoDup_remove_2 in Pids. apply Pids.
             rewrite ?in_app_iff; cbn [In]; rewrite ?in_app_iff; cbn [In]. tauto.
        * destruct (Nat.eqb_spec x q) as [->|Nq].
          -- assert (i = length s1); [|subst; reflexivity].
             destruct (lt_dec i (length (map snd s1))) as [L|L].
             ++ exfalso. rewrite <- app_assoc, nth_app_l in Hx by auto. apply nth_error_In in Hx. rewrite Ew in Pids.
                apply NoDup_remove_2 in Pids. apply Pids. rewrite !in_app_iff. tauto.
             ++ rewrite <- app_assoc in Hx. rewrite nth_error_app2 in Hx by lia. rewrite map_length in *.
                destruct (i - length s1) as [|j] eqn:Ej; [lia|]. cbn in Hx. exfalso. apply nth_error_In in Hx.
                rewrite Ew in Pids. apply NoDup_remove_2 in Pids. apply Pids. rewrite in_app_iff in Hx. cbn [In] in Hx.
                rewrite !in_app_iff. cbn [In]. destruct Hx as [Hx|[Hx|Hx]]; [tauto|congruence|tauto].
          -- apply Precs. rewrite Ew.
             (* all other positions agree *)
             destruct (lt_dec i (length (map snd s1 ++ q :: map snd s2))) as [L|L].
             ++ rewrite nth_app_l in Hx by auto. rewrite nth_app_l by (rewrite app_length in *; cbn [length] in *; auto).
                destruct (lt_dec i (length (map snd s1))) as [L1|L1].
                ** rewrite nth_app_l in * by auto. auto.
                ** rewrite nth_error_app2 in * by lia. destruct (i - length (map snd s1)) as [|j]; cbn in *; [congruence|auto].
             ++ rewrite nth_error_app2 in Hx by lia. rewrite nth_error_app2 by (rewrite app_length in *; cbn [length] in *; lia).
                replace (length (map snd s1 ++ r :: map snd s2)) with (length (map snd s1 ++ q :: map snd s2)) by (rewrite !app_length; reflexivity).
                destruct (i - length (map snd s1 ++ q :: map snd s2)) as [|j]; cbn in *; [congruence|auto].
      + intros x Hx. cbn in Hx. unfold set_fn in Hx. destruct (Nat.eqb_spec x r) as [Eq|_]; [rewrite Eq; exact (nth_error_In _ _ Hnr)|].
        destruct (Nat.eqb_spec x q) as [Eq|_]; [rewrite Eq; exact (nth_error_In _ _ Hnq)|]. auto.
  Qed.

  (** *** free_wait_state, cleanup *)
  Lemma end_ok l act act' a r : linv l act ->
    (forall q, uses q act = (if Nat.eqb q r then 1 else 0) + uses q act') ->
    (forall x, In x act <-> x = (a, r) \/ In x act') ->
    exists l', free_wait_state l r = Some l' /\ free_memory l' = free_memory l /\ linv l' act' /\
      (free_memory l = true -> act' = [] -> hdr l' = None).
  Proof.
    intros H Hu Hi. assert (Ha : In (a, r) act) by (apply Hi; auto).
    unfold linv in H. destruct (hdr l) as [h|] eqn:E; [|destruct H as (_ & _ & ->); destruct Ha].
    destruct H as (c & slots & spare & P).
    assert (Hs : In (a, r) slots) by (now apply (p_act _ _ _ _ _ _ P)).
    assert (Hr : In r (ids slots spare)) by (unfold ids; apply in_or_app; left; now apply (in_map snd) in Hs).
    apply In_nth_error in Hr. destruct Hr as [i0 Hi0]. pose proof (p_recs _ _ _ _ _ _ P _ _ Hi0) as R0.
    assert (Ur : uses r act = S (uses r act')) by (rewrite Hu, Nat.eqb_refl; reflexivity).
    unfold free_wait_state. rewrite R0. cbn [obind r_refs r_index]. rewrite Ur.
    set (l1 := with_recs _ _).
    assert (R1 : forall i q, nth_error (ids slots spare) i = Some q -> recs l1 q = Some {| r_refs := uses q act'; r_index := i |}).
    { intros i q Hq. cbn. unfold set_fn. destruct (Nat.eqb_spec q r) as [Eq|N].
      - rewrite Eq in *. rewrite (nth_unique _ _ _ _ (p_ids _ _ _ _ _ _ P) Hq Hi0). reflexivity.
      - rewrite (p_recs _ _ _ _ _ _ P _ _ Hq), Hu. destruct (Nat.eqb_spec q r); [contradiction|reflexivity]. }
    assert (O1 : forall q, recs l1 q <> None -> In q (ids slots spare)).
    { intros q Hq. cbn in Hq. unfold set_fn in Hq. destruct (Nat.eqb_spec q r) as [Eq|_]; [rewrite Eq; exact (nth_error_In _ _ Hi0)|now apply (p_only _ _ _ _ _ _ P)]. }
    destruct (uses r act' =? 0) eqn:E0.
    - apply Nat.eqb_eq in E0.
      destruct (erase_ok l1 act' h c slots spare a r) as (l' & A1 & A2 & A3 & A4); auto; try (now apply P).
      + intros x. rewrite <- (p_act _ _ _ _ _ _ P). apply Hi.
      + intros I. assert (0 < uses r act') by (apply uses_pos; eauto). lia.
      + exists l'. rewrite A1. auto.
    - apply Nat.eqb_neq in E0. exists l1. split; [reflexivity|]. split; [reflexivity|].
      assert (Ha' : In (a, r) act').
      { destruct (proj1 (uses_pos r act')) as [b Hb]; [lia|]. assert (In (b, r) slots) by (apply (p_act _ _ _ _ _ _ P), Hi; auto).
        now rewrite (snd_slot_unique slots spare a b r (p_ids _ _ _ _ _ _ P) Hs H). }
      split; [|intros _ ->; destruct Ha'].
      unfold linv. replace (hdr l1) with (Some h) by (symmetry; exact E). exists c, slots, spare. constructor; auto; try (now apply P).
      intros x. rewrite <- (p_act _ _ _ _ _ _ P), Hi. split; [auto|]. intros [->|]; auto.
  Qed.

  Lemma cleanup_ok l act : linv l act ->
    exists l', cleanup l = Some l' /\ free_memory l' = true /\ linv l' act /\ (act = [] -> hdr l' = None).
  Proof.
    intros H. unfold cleanup. unfold linv in H. destruct (hdr l) as [h|] eqn:E.
    - destruct H as (c & slots & spare & P).
      destruct (free_spare_ok (with_free l) act h c slots spare) as (l' & A1 & A2 & A3 & A4); auto; try (now apply P).
      exists l'. auto.
    - exists (with_free l). unfold free_spare. cbn [hdr with_free]. rewrite E. split; [reflexivity|]. split; [reflexivity|].
      split; [|reflexivity || (intros _; exact E)]. unfold linv. cbn [hdr with_free]. rewrite E. exact H.
  Qed.

  (** ** The pool *)
  Definition per (i : nat) (w : waits) : list (Z * nat) :=
    map (fun x => (snd (fst x), snd x)) (filter (fun x => Nat.eqb (fst (fst x)) i) w).
  Lemma per_in i w a r : In (a, r) (per i w) <-> In (i, a, r) w.
  Proof.
    unfold per. rewrite in_map_iff. split.
    - intros ([[j b] q] & E & I). cbn in E. injection E as -> ->. apply filter_In in I. destruct I as [I J]. cbn in J.
      apply Nat.eqb_eq in J. now subst.
    - intros I. exists (i, a, r). split; auto. apply filter_In. split; auto. cbn. apply Nat.eqb_refl.
  Qed.
  Lemma per_cons i j a r w : per i ((j, a, r) :: w) = if Nat.eqb j i then (a, r) :: per i w else per i w.
  Proof. unfold per. cbn. destruct (Nat.eqb j i); reflexivity. Qed.
  Lemma per_minus j a r w w' : minus (j, a, r) w w' -> forall i,
    (i <> j -> per i w' = per i w) /\
    (i = j -> (forall q, uses q (per i w) = (if Nat.eqb q r then 1 else 0) + uses q (per i w')) /\
              (forall x, In x (per i w) <-> x = (a, r) \/ In x (per i w'))).
  Proof.
    induction 1 as [l|[[k b] q0] l l' M IH]; intros i; rewrite !per_cons.
    - split.
      + intros N. now destruct (Nat.eqb_spec j i); [subst; contradiction|].
      + intros ->. rewrite Nat.eqb_refl. split.
        * intros q. rewrite uses_cons, (Nat.eqb_sym r q). reflexivity.
        * intros x. cbn. intuition congruence.
    - destruct (IH i) as [A B]. split.
      + intros N. rewrite (A N). reflexivity.
      + intros E. destruct (B E) as [B1 B2]. destruct (Nat.eqb k i); [|auto]. split.
        * intros q. rewrite !uses_cons, B1. lia.
        * intros x. cbn. rewrite B2. tauto.
  Qed.

  Variable n : nat.
  Notation wstep := (wstep search init n).
  Notation reached := (reached search init n).

  Record pinv (p : pool) (w : waits) : Prop := {
    i_lists : forall i, linv (lists p i) (per i w);
    i_range : forall i, n <= i -> lists p i = wlist0;
    i_unreg : registered p = false -> handlers p = 0 /\ forall i, hdr (lists p i) = None;
    i_once : handlers p <= 1;
    i_done : registered p = true -> handlers p = 0 -> forall i, i < n -> free_memory (lists p i) = true;
    i_wait : handlers p = 1 \/ registered p = false -> forall i, free_memory (lists p i) = false
  }.
  Definition tidy (p : pool) (w : waits) : Prop :=
    forall i, free_memory (lists p i) = true -> per i w = [] -> hdr (lists p i) = None.

  Lemma pinv0 : pinv pool0 [].
  Proof. constructor; cbn; auto; try lia; try discriminate. Qed.
  Lemma range_lt p w i a r : pinv p w -> In (i, a, r) w -> i < n.
  Proof.
    intros I H. destruct (le_lt_dec n i) as [L|L]; auto. exfalso.
    pose proof (i_lists _ _ I i) as Q. rewrite (i_range _ _ I i L) in Q. cbn in Q. destruct Q as (_ & _ & Q).
    apply per_in in H. rewrite Q in H. destruct H.
  Qed.

  Lemma cleanup_all_ok : forall m p w, m <= n -> (forall i, linv (lists p i) (per i w)) ->
    exists p', cleanup_all m p = Some p' /\ registered p' = registered p /\ handlers p' = handlers p /\
      (forall i, linv (lists p' i) (per i w)) /\ (forall i, m <= i -> lists p' i = lists p i) /\
      (forall i, i < m -> free_memory (lists p' i) = true /\ (per i w = [] -> hdr (lists p' i) = None)).
  Proof.
    induction m as [|m IH]; intros p w Hm H.
    - exists p. cbn. repeat (split; [auto; fail|]). intros i L. lia.
    - destruct (IH p w) as (p1 & A1 & A2 & A3 & A4 & A5 & A6); [lia|auto|]. cbn [cleanup_all]. rewrite A1. cbn [obind].
      destruct (cleanup_ok _ _ (A4 m)) as (l & B1 & B2 & B3 & B4). rewrite B1. cbn [obind].
      eexists. split; [reflexivity|]. cbn. split; [auto|]. split; [auto|]. unfold set_fn. split; [|split].
      + intros i. destruct (Nat.eqb_spec i m) as [->|]; auto.
      + intros i L. destruct (Nat.eqb_spec i m) as [->|]; [lia|]. apply A5. lia.
      + intros i L. destruct (Nat.eqb_spec i m) as [->|]; [auto|]. apply A6. lia.
  Qed.

  Lemma needs_buffer_ok l act a : linv l act -> exists b, needs_buffer search l a = Some b /\ (hdr l = None -> b = true).
  Proof.
    intros H. unfold needs_buffer. destruct (linv_find l act a H) as (r & F & _). unfold linv in H.
    destruct (hdr l) as [h|] eqn:E.
    - rewrite F. cbn [obind]. destruct H as (c & slots & spare & P). rewrite <- E. rewrite (get_the_buf _ _ _ E (p_buf _ _ _ _ _ _ P)). cbn [obind].
      eexists. split; [reflexivity|]. congruence.
    - eauto.
  Qed.

  Lemma step_ok p w o : pinv p w -> allowed n w o ->
    exists p' r, wstep o p = Some (p', r) /\ (forall w', waits_step w o r w' -> pinv p' w' /\
      (tidy p w -> memory_ok o -> tidy p' w')) /\
      (exists w', waits_step w o r w') /\
      (o <> Exit -> forall i, free_memory (lists p' i) = free_memory (lists p i)).
  Proof.
    intros I Ha. destruct o as [i a bo ro|i a r|i a|]; cbn [allowed] in Ha.
    - (* Begin *)
      destruct (needs_buffer_ok _ _ a (i_lists _ _ I i)) as (nb & N1 & N2). cbn [RecordsModel.wstep]. rewrite N1. cbn [obind].
      set (p1 := if nb then register p else p).
      assert (L1 : lists p1 = lists p) by (unfold p1, register; destruct nb, (registered p); reflexivity).
      assert (G1 : registered p1 = true).
      { unfold p1, register. destruct (registered p) eqn:Er; [destruct nb; auto|].
        rewrite N2 by (now apply (i_unreg _ _ I)). reflexivity. }
      assert (H1 : handlers p1 <= 1 /\ (handlers p1 = 0 -> registered p = true /\ handlers p = 0) /\
                   (handlers p1 = 1 -> forall i, free_memory (lists p i) = false)).
      { unfold p1, register. pose proof (i_once _ _ I). pose proof (i_unreg _ _ I). pose proof (i_wait _ _ I).
        destruct (registered p) eqn:Er.
        - destruct nb; auto.
        - rewrite N2 in * by (now apply H0). destruct (H0 eq_refl) as [Z1 Z2]. cbn. rewrite Z1. split; [lia|]. split; [discriminate|].
          intros _. apply H1. auto. }
      destruct H1 as (H1 & H2 & H3).
      destruct (begin_ok _ _ a bo ro (i_lists _ _ I i)) as (l' & r & B1 & B2 & B3). rewrite L1, B1. cbn [obind].
      eexists. eexists. split; [reflexivity|].
      assert (FM : forall j, free_memory (lists (set_list p1 i l') j) = free_memory (lists p j)).
      { intros j. cbn. unfold set_fn. rewrite L1. destruct (Nat.eqb_spec j i) as [->|]; auto. }
      split; [|split; [destruct r; eexists; [eapply ws_begin | eapply ws_begin_fail]|intros _; exact FM]].
      intros w' W.
      assert (LI : forall j, linv (lists (set_list p1 i l') j) (per j w')).
      { intros j. cbn. unfold set_fn. rewrite L1. inversion W; subst.
        - rewrite per_cons, (Nat.eqb_sym i j). destruct (Nat.eqb_spec j i) as [->|]; auto. apply I.
        - destruct (Nat.eqb_spec j i) as [->|]; [tauto|]. apply I. }
      split.
      + constructor; auto.
        * intros j L. cbn. unfold set_fn. rewrite L1. destruct (Nat.eqb_spec j i) as [->|]; [lia|]. now apply I.
        * cbn. rewrite G1. discriminate.
        * cbn. intros _ Z0 j Lj. change (free_memory (lists (set_list p1 i l') j) = true). rewrite FM. destruct (H2 Z0). now apply I.
        * intros [Z1|Z1] j; [rewrite FM; now apply H3|]. cbn in Z1. congruence.
      + intros T [-> ->] j Fj Pj. rewrite FM in Fj. cbn. unfold set_fn. rewrite L1. inversion W; subst.
        * rewrite per_cons, (Nat.eqb_sym i j) in Pj. destruct (Nat.eqb_spec j i) as [->|]; [discriminate|]. now apply T.
        * destruct B3 as [_ [[?|?] _]]; discriminate.
    - (* End *)
      assert (Hm : exists w0, minus (i, a, r) w w0).
      { clear - Ha. induction w as [|y w IH]; [destruct Ha|]. destruct Ha as [->|Ha]; [exists w; constructor|].
        destruct (IH Ha) as [w0 M]. exists (y :: w0). now constructor. }
      destruct Hm as [w0 M0]. pose proof (range_lt _ _ _ _ _ I Ha) as Hin.
      assert (ALL : forall w', minus (i, a, r) w w' -> exists l', free_wait_state (lists p i) r = Some l' /\
         free_memory l' = free_memory (lists p i) /\ linv l' (per i w') /\ (free_memory (lists p i) = true -> per i w' = [] -> hdr l' = None)).
      { intros w' M. destruct (per_minus _ _ _ _ _ M i) as [_ P]. destruct (P eq_refl) as [P1 P2]. eapply end_ok; eauto. apply I. }
      destruct (ALL w0 M0) as (l' & B1 & B2 & _). cbn [RecordsModel.wstep]. rewrite B1. cbn [obind]. eexists. eexists. split; [reflexivity|].
      assert (FM : forall j, free_memory (lists (set_list p i l') j) = free_memory (lists p j)).
      { intros j. cbn. unfold set_fn. destruct (Nat.eqb_spec j i) as [->|]; auto. }
      split; [|split; [exists w0; now constructor|intros _; exact FM]].
      intros w' W. assert (H1 : minus (i, a, r) w w') by (inversion W; subst; auto). destruct (ALL w' H1) as (l2 & C1 & C2 & C3 & C4). rewrite B1 in C1. injection C1 as <-.
      pose proof (fun j => proj1 (per_minus _ _ _ _ _ H1 j)) as PM.
      split.
      + constructor.
        * intros j. cbn. unfold set_fn. destruct (Nat.eqb_spec j i) as [->|N]; auto. rewrite PM by auto. apply I.
        * intros j L. cbn. unfold set_fn. destruct (Nat.eqb_spec j i) as [->|]; [lia|]. now apply I.
        * cbn. intros U. exfalso. destruct (i_unreg _ _ I U) as [_ U2]. pose proof (i_lists _ _ I i) as Q. unfold linv in Q. rewrite U2 in Q.
          destruct Q as (_ & _ & Q). apply per_in in Ha. rewrite Q in Ha. destruct Ha.
        * apply I.
        * cbn. intros U Z0 j Lj. change (free_memory (lists (set_list p i l') j) = true). rewrite FM. now apply I.
        * intros Z1 j. rewrite FM. now apply I.
      + intros T _ j Fj Pj. rewrite FM in Fj. cbn. unfold set_fn. destruct (Nat.eqb_spec j i) as [->|N]; auto. rewrite PM in Pj by auto. now apply T.
    - (* Notify *)
      destruct (linv_find _ _ a (i_lists _ _ I i)) as (r & F & _). cbn [RecordsModel.wstep]. rewrite F. cbn [obind].
      eexists. eexists. split; [reflexivity|]. split; [|split; [exists w; constructor|auto]].
      intros w' W. inversion W; subst. auto.
    - (* Exit *)
      cbn [RecordsModel.wstep]. pose proof (i_once _ _ I) as O1. destruct (handlers p) as [|[|k]] eqn:Eh; [| |lia].
      + cbn [run_handlers obind]. eexists. eexists. split; [reflexivity|]. split; [|split; [exists w; constructor|congruence]].
        intros w' W. inversion W; subst. auto.
      + cbn [run_handlers]. destruct (cleanup_all_ok n p w) as (p1 & A1 & A2 & A3 & A4 & A5 & A6); [lia|apply I|].
        rewrite A1. cbn [obind]. eexists. eexists. split; [reflexivity|]. split; [|split; [exists w; constructor|congruence]].
        assert (Rg : registered p = true).
        { destruct (registered p) eqn:Er; auto. destruct (i_unreg _ _ I Er). congruence. }
        intros w' W. inversion W; subst. split.
        * constructor; cbn; auto.
          -- intros i L. rewrite A5 by auto. now apply I.
          -- congruence.
          -- rewrite A3, Eh. cbn. lia.
          -- intros _ _ i L. now apply A6.
          -- rewrite A3, Eh. intros [?|?]; [discriminate|congruence].
        * intros T _ i Fi Pi. cbn in *. destruct (le_lt_dec n i) as [L|L]; [|now apply A6].
          rewrite A5, (i_range _ _ I) by auto. reflexivity.
  Qed.

  Lemma reached_inv t p w : reached t p w -> pinv p w /\ (~ In Exit t -> forall i, free_memory (lists p i) = false).
  Proof.
    induction 1 as [|t p w o p' r w' R IH A S W].
    - split; [exact pinv0|reflexivity].
    - destruct IH as [IH1 IH2]. destruct (step_ok p w o IH1 A) as (p2 & r2 & S2 & S3 & _ & S4). rewrite S in S2. injection S2 as <- <-.
      split; [now apply S3|]. intros N i.
      assert (o <> Exit) by (intros ->; apply N, in_or_app; right; now left).
      rewrite S4 by auto. apply IH2. intros I. apply N, in_or_app. auto.
  Qed.
  Lemma no_ub t p w o : reached t p w -> allowed n w o -> exists p' r w', wstep o p = Some (p', r) /\ waits_step w o r w'.
  Proof.
    intros R A. destruct (reached_inv _ _ _ R) as [I _]. destruct (step_ok p w o I A) as (p' & r & S & _ & (w' & W) & _). eauto.
  Qed.
  Lemma tidy_reached t p w : reached t p w -> forall pre post, t = pre ++ Exit :: post -> ~ In Exit pre -> Forall memory_ok post -> tidy p w.
  Proof.
    induction 1 as [|t p w o p' r w' R IH A S W]; intros pre post E NE M.
    - destruct pre; discriminate.
    - destruct (reached_inv _ _ _ R) as [I F]. destruct (step_ok p w o I A) as (p2 & r2 & S2 & S3 & _ & S4). rewrite S in S2. injection S2 as <- <-.
      destruct post as [|x post] using rev_ind.
      + apply app_inj_tail in E. destruct E as [-> ->]. apply S3; auto.
        intros i Fi. rewrite F in Fi by auto. discriminate.
      + clear IHpost. rewrite app_comm_cons, app_assoc in E. apply app_inj_tail in E. destruct E as [-> ->].
        apply Forall_app in M. destruct M as [M1 M2]. inversion M2; subst. apply S3; auto. eapply IH; eauto.
  Qed.
  Lemma nothing_left t p : reached t p [] -> forall pre post, t = pre ++ Exit :: post -> ~ In Exit pre -> Forall memory_ok post ->
    handlers p = 0 -> forall i k, bufs (lists p i) k = None /\ recs (lists p i) k = None.
  Proof.
    intros R pre post E NE M H0 i k. pose proof (tidy_reached _ _ _ R _ _ E NE M) as T. destruct (reached_inv _ _ _ R) as [I _].
    assert (hdr (lists p i) = None).
    { destruct (le_lt_dec n i) as [L|L]; [rewrite (i_range _ _ I i L); reflexivity|].
      destruct (registered p) eqn:Er; [|now apply (i_unreg _ _ I)].
      apply T; [now apply I|reflexivity]. }
    pose proof (i_lists _ _ I i) as Q. unfold linv in Q. rewrite H in Q. destruct Q as (Q1 & Q2 & _). auto.
  Qed.
End Proofs.

Definition target (search : Z -> list Z -> nat -> option nat) (initial : nat) : Prop :=
  (initial = 2 /\ In search versions64) \/ (initial = 4 /\ In search versions32).

(** ** The targets *)
Lemma search64_ok find : In find versions64 -> search_ok find 2.
Proof. intros H c addr addrs size L S. exact (versions64_ok c addr addrs size find L S H). Qed.
Lemma search32_ok find : In find versions32 -> search_ok find 4.
Proof. intros H c addr addrs size L S. exact (versions32_ok c addr addrs size find L S H). Qed.
Lemma target_ok search init : target search init -> search_ok search init /\ 0 < init.
Proof. intros [[-> H]|[-> H]]; (split; [|lia]); [now apply search64_ok | now apply search32_ok]. Qed.

(** ** Consequences in terms of the waits in progress *)
Section Facts.
  Variables (search : Z -> list Z -> nat -> option nat) (init n : nat).
  Hypothesis T : target search init.
  Variables (t : list wop) (p : pool) (w : waits).
  Hypothesis R : reached search init n t p w.

  Lemma pinv_here : pinv init n p w.
  Proof. destruct (target_ok _ _ T) as [A B]. exact (proj1 (reached_inv search init A B n t p w R)). Qed.

  Lemma notify_finds i a : exists r, wstep search init n (Notify i a) p = Some (p, Found r) /\ forall x, r = Some x <-> In (i, a, x) w.
  Proof.
    destruct (target_ok _ _ T) as [A B]. destruct (linv_find search init A B _ _ a (i_lists _ _ _ _ pinv_here i)) as (r & F & G).
    exists r. cbn. rewrite F. split; [reflexivity|]. intros x. rewrite G. apply per_in.
  Qed.
  Lemma records_distinct i a b r q : In (i, a, r) w -> In (i, b, q) w -> (a = b <-> r = q).
  Proof.
    intros H1 H2. destruct (target_ok _ _ T) as [A B]. pose proof (i_lists _ _ _ _ pinv_here i) as L.
    apply per_in in H1, H2. unfold linv in L. destruct (hdr (lists p i)); [|destruct L as (_ & _ & L); rewrite L in H1; destruct H1].
    destruct L as (c & slots & spare & P). apply (p_act _ _ _ _ _ _ _ P) in H1, H2. split.
    - intros <-. eapply fst_slot_unique; eauto using p_addrs.
    - intros <-. eapply snd_slot_unique; eauto using p_ids.
  Qed.
  Lemma record_alive i a r : In (i, a, r) w ->
    exists x, recs (lists p i) r = Some x /\ r_refs x = length (filter (fun y => (fst (fst y) =? i) && (snd y =? r))%bool w).
  Proof.
    intros H1. destruct (target_ok _ _ T) as [A B]. pose proof (i_lists _ _ _ _ pinv_here i) as L.
    apply per_in in H1. unfold linv in L. destruct (hdr (lists p i)); [|destruct L as (_ & _ & L); rewrite L in H1; destruct H1].
    destruct L as (c & slots & spare & P). apply (p_act _ _ _ _ _ _ _ P) in H1.
    assert (I : In r (ids slots spare)) by (unfold ids; apply in_or_app; left; now apply (in_map snd) in H1).
    apply In_nth_error in I. destruct I as [k Hk]. rewrite (p_recs _ _ _ _ _ _ _ P _ _ Hk). eexists. split; [reflexivity|]. cbn.
    unfold uses, per. clear. induction w as [|[[j b] q] w' IH]; [reflexivity|]. cbn. destruct (j =? i); cbn; [|exact IH].
    destruct (q =? r); cbn; now rewrite IH.
  Qed.
  Lemma begin_result i a bo ro : i < n -> exists p' r, wstep search init n (Begin i a bo ro) p = Some (p', Obtained r) /\
    match r with
    | Some x => (forall b, In (i, b, x) w -> b = a) /\ (forall y, In (i, a, y) w -> x = y)
    | None => (bo = false \/ ro = false) /\ forall y, ~ In (i, a, y) w
    end.
  Proof.
    intros Hi. destruct (target_ok _ _ T) as [A B]. pose proof (i_lists _ _ _ _ pinv_here i) as L.
    destruct (needs_buffer_ok search init A B _ _ a L) as (nb & N1 & _).
    destruct (begin_ok search init A B _ _ a bo ro L) as (l' & r & B1 & _ & B3). cbn [wstep]. rewrite N1. cbn [obind].
    replace (lists (if nb then register p else p) i) with (lists p i) by (unfold register; destruct nb, (registered p); reflexivity).
    rewrite B1. cbn [obind]. eexists. exists r. split; [reflexivity|]. destruct r as [x|].
    - unfold linv in B3. destruct (hdr l'); [|destruct B3 as (_ & _ & B3); discriminate].
      destruct B3 as (c & slots & spare & P).
      assert (Ha : In (a, x) slots) by (apply (p_act _ _ _ _ _ _ _ P); now left).
      split.
      + intros b Hb. apply per_in in Hb. assert (Hb2 : In (b, x) slots) by (apply (p_act _ _ _ _ _ _ _ P); now right).
        eapply snd_slot_unique; eauto using p_ids.
      + intros y Hy. apply per_in in Hy. assert (Hy2 : In (a, y) slots) by (apply (p_act _ _ _ _ _ _ _ P); now right).
        eapply fst_slot_unique; eauto using p_addrs.
    - destruct B3 as (_ & B3 & B4). split; auto. intros y Hy. apply per_in in Hy. now apply (B4 y).
  Qed.
  Lemma capacity i h b : hdr (lists p i) = Some h -> bufs (lists p i) h = Some b ->
    exists c, length (b_addrs b) = init * 2 ^ c /\ b_size b <= length (b_addrs b).
  Proof.
    intros E Hb. pose proof (i_lists _ _ _ _ pinv_here i) as L. unfold linv in L. rewrite E in L.
    destruct L as (c & slots & spare & P). pose proof (p_buf _ _ _ _ _ _ _ P h) as Q. rewrite Nat.eqb_refl, Hb in Q. injection Q as ->.
    exists c. cbn. pose proof (p_room _ _ _ _ _ _ _ P).
    assert (length slots <= length (ids slots spare)) by (unfold ids; rewrite app_length, map_length; lia).
    rewrite app_length, map_length, repeat_length. lia.
  Qed.
End Facts.

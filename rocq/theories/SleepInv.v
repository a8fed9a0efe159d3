(** * Auxiliary state and invariant for mutual exclusion, sleeping and waking.

    [D] abbreviates the objects.  The auxiliary state records for each thread in which part of a lock function it is, what it
    is registered for and what it waits for, and for each object how many notifications were complete ([na]) and which
    values it has shown since ([seen]). *)
From Coq Require Import ZArith List Bool Arith Lia.
From Verif Require Import SpecInt SpecLin SpecObj SpecBytes SpecPool Conv WordFacts Prog RG SleepLogic FindModel RecordsModel
  RecordsProof PoolModel PoolProof.
Import ListNotations.
Open Scope Z_scope.

(** ** The word of the futex mutex *)
Definition mword (u : Z) (c l : bool) : Z := 4 * (u mod 2 ^ 30) + 2 * Z.b2z c + Z.b2z l.
Lemma mword_odd u c l : Z.odd (mword u c l) = l.
Proof.
  unfold mword. rewrite !Z.odd_add, !Z.odd_mul. destruct c, l; reflexivity.
Qed.
Lemma mword_bits u c l n : 0 <= n ->
  Z.testbit (mword u c l) n = if n =? 0 then l else if n =? 1 then c else Z.testbit (u mod 2 ^ 30) (n - 2).
Proof.
  intros Hn. unfold mword.
  replace (4 * (u mod 2 ^ 30) + 2 * Z.b2z c + Z.b2z l) with (2 * (2 * (u mod 2 ^ 30) + Z.b2z c) + Z.b2z l) by lia.
  destruct (Z.eqb_spec n 0) as [->|N0]; [now rewrite Z.testbit_0_r|].
  replace n with (Z.succ (n - 1)) at 1 by lia. rewrite Z.testbit_succ_r by lia.
  destruct (Z.eqb_spec n 1) as [->|N1]; [now rewrite Z.testbit_0_r|].
  replace (n - 1) with (Z.succ (n - 2)) by lia. now rewrite Z.testbit_succ_r by lia.
Qed.
Lemma bit_of_1 n : 0 <= n -> Z.testbit 1 n = (n =? 0).
Proof. intros H. change 1 with (2 ^ 0). rewrite Z.pow2_bits_eqb by lia. apply Z.eqb_sym. Qed.
Lemma bit_of_2 n : 0 <= n -> Z.testbit 2 n = (n =? 1).
Proof. intros H. change 2 with (2 ^ 1) at 1. rewrite Z.pow2_bits_eqb by lia. apply Z.eqb_sym. Qed.
Lemma mword_lock u c l : Z.lor (mword u c l) locked = mword u c true.
Proof.
  apply Z.bits_inj'. intros n Hn. rewrite Z.lor_spec. unfold locked. rewrite !mword_bits, bit_of_1 by auto.
  destruct (n =? 0), (n =? 1); rewrite ?orb_true_r, ?orb_false_r; reflexivity.
Qed.
Lemma mword_contend u c l : Z.lor (mword u c l) contended = mword u true l.
Proof.
  apply Z.bits_inj'. intros n Hn. rewrite Z.lor_spec. unfold contended. rewrite !mword_bits, bit_of_2 by auto.
  destruct (Z.eqb_spec n 0) as [->|]; [now rewrite orb_false_r|].
  destruct (n =? 1); rewrite ?orb_true_r, ?orb_false_r; reflexivity.
Qed.
Lemma mword_clear u c l : Z.land (mword u c l) (Z.lnot contended) = mword u false l.
Proof.
  apply Z.bits_inj'. intros n Hn. rewrite Z.land_spec, Z.lnot_spec by auto. unfold contended.
  rewrite !mword_bits, bit_of_2 by auto.
  destruct (Z.eqb_spec n 0) as [->|]; [apply andb_true_r|].
  destruct (n =? 1); cbn; rewrite ?andb_true_r, ?andb_false_r; reflexivity.
Qed.
Lemma mword_unlock u c l : 0 <= u -> u32 (Z.land (mword u c l) (Z.lnot locked) + counter_one) = mword (u + 1) c false.
Proof.
  intros Hu. assert (E : Z.land (mword u c l) (Z.lnot locked) = mword u c false).
  { apply Z.bits_inj'. intros n Hn. rewrite Z.land_spec, Z.lnot_spec by auto. unfold locked.
    rewrite !mword_bits, bit_of_1 by auto. destruct (n =? 0), (n =? 1); cbn; rewrite ?andb_true_r, ?andb_false_r; reflexivity. }
  rewrite E. unfold u32, wrap, counter_one, mword.
  assert (B : 0 <= 2 * Z.b2z c + Z.b2z false < 4) by (destruct c; cbn; lia).
  rewrite <- (Zplus_mod_idemp_l u 1). set (q := u mod 2 ^ 30). assert (0 <= q < 2 ^ 30) by (apply Z.mod_pos_bound; lia).
  destruct (Z.eq_dec q (2 ^ 30 - 1)) as [Eq|Nq].
  - rewrite Eq. replace (2 ^ 30 - 1 + 1) with (2 ^ 30) by lia. rewrite Z_mod_same_full.
    replace (4 * (2 ^ 30 - 1) + 2 * Z.b2z c + Z.b2z false + 4) with (2 * Z.b2z c + Z.b2z false + 1 * 2 ^ 32) by lia.
    rewrite Z_mod_plus_full, Z.mod_small; lia.
  - rewrite (Z.mod_small (q + 1)) by lia. rewrite Z.mod_small; lia.
Qed.
Lemma mword_inj u c l u' c' l' : mword u c l = mword u' c' l' -> u mod 2 ^ 30 = u' mod 2 ^ 30 /\ c = c' /\ l = l'.
Proof.
  unfold mword. generalize (u mod 2 ^ 30) (u' mod 2 ^ 30). intros q q' H.
  destruct c, l, c', l'; cbn [Z.b2z] in H; (split; [lia|]); split; try reflexivity; exfalso; lia.
Qed.
Lemma mword_contended u c l : (Z.land (mword u c l) contended =? 0) = negb c.
Proof.
  destruct c; cbn [negb].
  - apply Z.eqb_neq. intros E. assert (X : Z.testbit (Z.land (mword u true l) contended) 1 = true).
    { rewrite Z.land_spec, mword_bits by lia. reflexivity. } rewrite E in X. discriminate.
  - apply Z.eqb_eq. apply Z.bits_inj'. intros n Hn. rewrite Z.land_spec, mword_bits, Z.bits_0 by auto. unfold contended.
    rewrite bit_of_2 by auto. destruct (Z.eqb_spec n 0) as [->|]; [apply andb_false_r|].
    destruct (n =? 1); cbn; rewrite ?andb_false_r; reflexivity.
Qed.

(** ** Sleeping threads *)
Lemma asleep_in m t : asleep m t = true <-> exists f, In (t, f) (slp m).
Proof.
  unfold asleep. rewrite existsb_exists. split.
  - intros ([u f] & H & E). cbn in E. apply Nat.eqb_eq in E. subst. eauto.
  - intros (f & H). exists (t, f). split; auto. cbn. apply Nat.eqb_refl.
Qed.
Lemma awake_in m t : asleep m t = false <-> forall f, ~ In (t, f) (slp m).
Proof.
  split.
  - intros H f I. assert (asleep m t = true) by (apply asleep_in; eauto). congruence.
  - intros H. destruct (asleep m t) eqn:E; auto. apply asleep_in in E. destruct E as [f I]. elim (H f I).
Qed.
Lemma rouse_in t u f l : In (u, f) (rouse t l) <-> u <> t /\ In (u, f) l.
Proof.
  unfold rouse. rewrite filter_In. cbn. rewrite negb_true_iff, Nat.eqb_neq. tauto.
Qed.
Lemma nodup_filter_fst {A B} (p : A * B -> bool) l : NoDup (map fst l) -> NoDup (map fst (filter p l)).
Proof.
  induction l as [|x l IH]; cbn; intros H; [constructor|]. inversion H as [|? ? N H']; subst.
  destruct (p x); cbn; auto. constructor; auto. intros I. apply N. apply in_map_iff in I. destruct I as (y & E & I).
  apply filter_In in I. rewrite <- E. apply in_map. tauto.
Qed.
Lemma fst_unique {A B} (l : list (A * B)) x y z : NoDup (map fst l) -> In (x, y) l -> In (x, z) l -> y = z.
Proof.
  induction l as [|[a b] l IH]; cbn; intros N H1 H2; [destruct H1|]. inversion N as [|? ? N1 N2]; subst.
  destruct H1 as [E1|H1], H2 as [E2|H2].
  - congruence.
  - injection E1 as -> ->. elim N1. now apply (in_map fst) in H2.
  - injection E2 as -> ->. elim N1. now apply (in_map fst) in H1.
  - auto.
Qed.
Lemma on_eq f p : on f p = true <-> snd p = f.
Proof.
  unfold on. destruct (snd p) as [i|i k|a], f as [j|j l|b]; cbn; rewrite ?andb_true_iff, ?Nat.eqb_eq; split; try discriminate;
    try (intros; subst; reflexivity); try congruence; intuition congruence.
Qed.
Lemma sleepers_in m f u : In u (sleepers m f) <-> In (u, f) (slp m).
Proof.
  unfold sleepers. rewrite in_map_iff. split.
  - intros ([v h] & E & I). apply filter_In in I. destruct I as [I O]. apply on_eq in O. cbn in *. now subst.
  - intros I. exists (u, f). split; auto. apply filter_In. split; auto. now apply on_eq.
Qed.
Lemma picked_some m f n u : picked m f n = Some u -> In (u, f) (slp m).
Proof. unfold picked. intros H. apply nth_error_In in H. now apply sleepers_in. Qed.
Lemma picked_none m f n : picked m f n = None -> forall u, ~ In (u, f) (slp m).
Proof.
  unfold picked. intros H u I. apply sleepers_in in I. destruct (sleepers m f) as [|x l] eqn:E; [destruct I|].
  apply nth_error_None in H. assert (Nat.modulo n (length (x :: l)) < length (x :: l))%nat by (apply Nat.mod_upper_bound; discriminate). lia.
Qed.
(** one sleeper at most: the one picked is all of them *)
Lemma picked_sole m f n u : picked m f n = Some u -> (length (sleepers m f) <= 1)%nat -> forall v, In (v, f) (slp m) -> v = u.
Proof.
  intros H L v I. apply picked_some, sleepers_in in H. apply sleepers_in in I.
  destruct (sleepers m f) as [|x [|y l]]; cbn in *; [contradiction|intuition congruence|lia].
Qed.
Lemma sleepers_two m f : NoDup (map fst (slp m)) -> (1 < length (sleepers m f))%nat ->
  exists u v, u <> v /\ In (u, f) (slp m) /\ In (v, f) (slp m).
Proof.
  intros N L. assert (N' : NoDup (sleepers m f)) by (apply nodup_filter_fst; exact N).
  destruct (sleepers m f) as [|u [|v l]] eqn:E; cbn in L; try lia. exists u, v.
  split; [inversion N' as [|? ? X _]; intros ->; apply X; now left|].
  split; apply sleepers_in; rewrite E; cbn; auto.
Qed.

(** ** Auxiliary state *)
(** where a thread is: outside the lock functions, acquiring lock [i], holding it, holding it between moving sleepers to the
    mutex and marking the mutex contended, having released it (for the [n]-th time) and about to wake a sleeper, having
    found none and about to clear the mark *)
Inductive phase := Out | Want (i : nat) | Hold (i : nat) | HoldN (i : nat) | Sig (i : nat) (n : Z) | Clr (i : nat) (n : Z).
(** what a thread in a wait sleeps on, the number of notifications of the object and of increments of the counter when it
    decided to sleep *)
Record entry := mke { e_fut : fut; e_ep : nat; e_n0 : Z }.
(** a call in progress: object, operation; notifications and time when it began *)
Record call := mkcall { k_obj : nat; k_op : aop; k_na : nat; k_cw : nat; k_clk : Z }.
Record ghost := mkg {
  lph : nat -> phase;
  reg : nat -> list (nat * (Z * nat));      (* per lock: thread, address, record *)
  ent : nat -> option entry;
  wcl : nat -> nat -> list nat;             (* threads counted in the record *)
  na : nat -> nat;                          (* notifications that left no sleeper *)
  cw : nat -> nat;                          (* notifications of one among several waiters *)
  cur : nat -> option call;
  seen : nat -> Z -> nat -> Prop            (* object showed value after so many notifications *)
}.

Definition waits (o : aop) : bool := match o with AWait _ | ATimed _ _ _ => true | _ => false end.
Definition pooled (d : odesc) : bool := match d_wait d with WEmulated | WPool => true | _ => false end.
(** the value a wait has checked after it became visible to notifications *)
Definition careful (d : odesc) (o : aop) : option Z :=
  match o with
  | AWait old => Some old
  | ATimed _ old _ => match d_wait d with WPool => None | _ => Some old end
  | _ => None
  end.

Section Inv.
  Variable pl : platform.
  Variable D : nat -> odesc.
  Notation lk := (pl_lock pl).
  Notation lockof a := (lock_of pl (D a)).
  Notation linv := (linv (pl_init pl)).

  Definition word_at (m : pmem) (a : nat) : Z :=
    if d_locked (D a) then number (d_be (D a)) (bytes_at (byt m) (d_addr (D a)) (d_size (D a))) else cel m a.
  Definition settled (m : pmem) (a : nat) : Prop := d_locked (D a) = true -> own m (lockof a) = None.
  Definition lim (m : pmem) : Prop := lk = LFutex -> (forall i, unl m i < 2 ^ 30) /\ forall i k, ntf m i k < 2 ^ 32.

  (** awake and bound to take lock [i], or to wake a sleeper of it *)
  Definition carrier (m : pmem) (g : ghost) (i t : nat) : Prop :=
    lph g t = Want i \/ (exists n, lph g t = Sig i n) \/
    exists e k, ent g t = Some e /\ e_fut e = FC i k /\ e_n0 e < ntf m i k.

  Record LInv (m : pmem) (g : ghost) : Prop := {
    l_mark : forall i u, In (u, FM i) (slp m) -> Z.testbit (mx m i) 1 = true \/ exists t, lph g t = HoldN i;
    l_carry : forall i u, In (u, FM i) (slp m) -> own m i = None -> exists t, asleep m t = false /\ carrier m g i t;
    l_clr : forall i n t u, lph g t = Clr i n -> unl m i = n -> own m i = None -> ~ In (u, FM i) (slp m);
    l_cond : forall u f, In (u, f) (slp m) -> (forall i, f <> FM i) ->
      exists c e, cur g u = Some c /\ ent g u = Some e /\ e_ep e = na g (k_obj c)
  }.

  Record Inv (m : pmem) (g : ghost) : Prop := {
    i_own : forall i t, own m i = Some t <-> lph g t = Hold i \/ lph g t = HoldN i;
    i_fault : fault m = false;
    i_recs : forall i, linv (wl m i) (map snd (reg g i));
    i_regn : forall i, NoDup (map fst (reg g i));
    i_reg : forall i t z k, In (t, (z, k)) (reg g i) ->
      exists c, cur g t = Some c /\ z = d_addr (D (k_obj c)) /\ i = lockof (k_obj c);
    i_word : lk = LFutex -> forall i, exists b, mx m i = mword (unl m i) b (match own m i with Some _ => true | None => false end);
    i_cnd : lk = LFutex -> forall i k, cnd m i k = wrap 32 (ntf m i k);
    i_pos : (forall i, 0 <= unl m i) /\ (forall i k, 0 <= ntf m i k) /\ 0 <= clk m;
    i_wct : lk = LFutex -> forall i k, wct m i k = Z.of_nat (length (wcl g i k)) /\ NoDup (wcl g i k) /\
      forall t, In t (wcl g i k) <-> exists e, ent g t = Some e /\ e_fut e = FC i k;
    i_slp : NoDup (map fst (slp m));
    i_asleep : forall t f, In (t, f) (slp m) ->
      match f with
      | FM i => lk = LFutex /\ (lph g t = Want i \/
                  lph g t = Out /\ exists e k, ent g t = Some e /\ e_fut e = FC i k /\ e_n0 e < ntf m i k)
      | _ => lph g t = Out /\ exists e, ent g t = Some e /\ e_fut e = f
      end;
    i_ent : forall t e, ent g t = Some e ->
      exists c, cur g t = Some c /\ waits (k_op c) = true /\ (e_ep e <= na g (k_obj c))%nat /\
        (forall old, careful (D (k_obj c)) (k_op c) = Some old -> seen g (k_obj c) old (e_ep e)) /\
        match e_fut e with
        | FM _ => False
        | FO a => a = k_obj c /\ d_wait (D a) = WFutex
        | FC i k => pooled (D (k_obj c)) = true /\ In (t, (d_addr (D (k_obj c)), k)) (reg g i) /\
            (lk = LFutex -> 0 <= e_n0 e <= ntf m i k /\ ((e_ep e < na g (k_obj c))%nat -> e_n0 e < ntf m i k))
        end;
    i_sig : forall t i n, lph g t = Sig i n \/ lph g t = Clr i n -> n <= unl m i;
    i_seen : forall a, settled m a -> seen g a (word_at m a) (na g a);
    i_seen_le : forall a v e, seen g a v e -> (e <= na g a)%nat;
    i_lim : lim m -> LInv m g;
    i_fo : forall u a, In (u, FO a) (slp m) -> exists c e, cur g u = Some c /\ ent g u = Some e /\ e_ep e = na g (k_obj c)
  }.

  Record mono (m : pmem) (g : ghost) (m' : pmem) (g' : ghost) : Prop := {
    o_unl : forall i, unl m i <= unl m' i;
    o_ntf : forall i k, ntf m i k <= ntf m' i k;
    o_clk : clk m <= clk m';
    o_na : forall a, (na g a <= na g' a)%nat;
    o_cw : forall a, (cw g a <= cw g' a)%nat;
    o_seen : forall a v e, seen g a v e -> seen g' a v e
  }.
  Lemma mono_refl m g : mono m g m g.
  Proof. constructor; intros; auto; lia. Qed.
  Lemma mono_trans m g m1 g1 m2 g2 : mono m g m1 g1 -> mono m1 g1 m2 g2 -> mono m g m2 g2.
  Proof.
    intros [A1 A2 A3 A4 A5 A6] [B1 B2 B3 B4 B5 B6]. constructor; intros; auto.
    - specialize (A1 i). specialize (B1 i). lia.
    - specialize (A2 i k). specialize (B2 i k). lia.
    - lia.
    - specialize (A4 a). specialize (B4 a). lia.
    - specialize (A5 a). specialize (B5 a). lia.
  Qed.

  Definition waits_on (g : ghost) (a t : nat) : Prop := exists c, cur g t = Some c /\ k_obj c = a /\ waits (k_op c) = true.
  Definition hist (m : pmem) (g : ghost) (m' : pmem) (g' : ghost) : Prop :=
    (forall a v e, seen g' a v e -> seen g a v e \/ (settled m' a /\ word_at m' a = v)) /\
    (forall a, (cw g a < cw g' a)%nat -> exists t u, t <> u /\ waits_on g' a t /\ waits_on g' a u).
  Lemma hist_refl m g : hist m g m g.
  Proof. split; [auto|]. intros a H. lia. Qed.

  (** what thread [u] may assume of the others *)
  Record rely (u : nat) (m : pmem) (g : ghost) (m' : pmem) (g' : ghost) : Prop := {
    r_mono : mono m g m' g';
    r_lph : lph g' u = lph g u;
    r_ent : ent g' u = ent g u;
    r_cur : cur g' u = cur g u;
    r_reg : forall i x, In (u, x) (reg g' i) <-> In (u, x) (reg g i);
    r_awake : asleep m u = false -> asleep m' u = false;
    r_own : forall i, own m i = Some u -> own m' i = Some u;
    r_byt : forall i a z, own m i = Some u -> d_locked (D a) = true -> lockof a = i ->
      d_addr (D a) <= z < d_addr (D a) + Z.of_nat (d_size (D a)) -> byt m' z = byt m z;
    r_na : forall i a, own m i = Some u -> pooled (D a) = true -> lockof a = i -> na g' a = na g a;
    r_cnd : forall i k, own m i = Some u -> cnd m' i k = cnd m i k /\ wct m' i k = wct m i k /\ ntf m' i k = ntf m i k;
    r_regs : forall i, own m i = Some u -> reg g' i = reg g i;
    r_ents : forall i k v e, own m i = Some u -> ent g' v = Some e -> e_fut e = FC i k -> ent g v = Some e
  }.
  Lemma rely_refl u m g : rely u m g m g.
  Proof. constructor; intros; auto; try tauto. apply mono_refl. Qed.
  Lemma rely_trans u m g m1 g1 m2 g2 : rely u m g m1 g1 -> rely u m1 g1 m2 g2 -> rely u m g m2 g2.
  Proof.
    intros A B. assert (O : forall i, own m i = Some u -> own m1 i = Some u) by apply A.
    constructor; intros.
    - eapply mono_trans; [apply A | apply B].
    - rewrite (r_lph _ _ _ _ _ B). apply A.
    - rewrite (r_ent _ _ _ _ _ B). apply A.
    - rewrite (r_cur _ _ _ _ _ B). apply A.
    - rewrite (r_reg _ _ _ _ _ B). apply A.
    - apply B. now apply A.
    - apply B. auto.
    - rewrite (r_byt _ _ _ _ _ B i a z); auto. eapply (r_byt _ _ _ _ _ A); eauto.
    - rewrite (r_na _ _ _ _ _ B i a); auto. eapply (r_na _ _ _ _ _ A); eauto.
    - destruct (r_cnd _ _ _ _ _ B i k) as (-> & -> & ->); auto. apply A. auto.
    - rewrite (r_regs _ _ _ _ _ B i); auto. apply A. auto.
    - eapply (r_ents _ _ _ _ _ A); eauto. eapply (r_ents _ _ _ _ _ B); eauto.
  Qed.

  Record guar (t : nat) (m : pmem) (g : ghost) (m' : pmem) (g' : ghost) : Prop := {
    g_mono : mono m g m' g';
    g_hist : hist m g m' g';
    g_cur : cur g' t = cur g t;
    g_rely : forall u, u <> t -> rely u m g m' g'
  }.
  Lemma guar_rely t u m g m' g' : t <> u -> guar t m g m' g' -> rely u m g m' g'.
  Proof. intros N H. apply H. congruence. Qed.
  Lemma guar_refl t m g : guar t m g m g.
  Proof. constructor; auto using mono_refl, hist_refl, rely_refl. Qed.

  (** what is demanded of a thread about to make an action *)
  Definition ok (t : nat) (a : pact) (m : pmem) (g : ghost) : Prop :=
    match a with
    | BRd i _ | BWr i _ _ | WcGet i _ | WcSet i _ _ | WlBegin i _ | WlEnd i _ | WlFind i _ | WlCleanup i
    | OsUnlock i | CvWait i _ => own m i = Some t
    | OsLock i => lk <> LFutex /\ forall j, own m j <> Some t
    | FSleep None => forall f, In (t, f) (slp m) -> (exists i, f = FM i) \/ exists c old, cur g t = Some c /\ k_op c = AWait old
    | _ => True
    end.

  (** noting what the objects show now *)
  Definition note (m : pmem) (s : nat -> Z -> nat -> Prop) (n : nat -> nat) (a : nat) (v : Z) (e : nat) : Prop :=
    s a v e \/ (settled m a /\ word_at m a = v /\ e = n a).
End Inv.

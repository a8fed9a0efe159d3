(** * The checker of AsmCheck.v is sound. *)
From Coq Require Import ZArith Arith List Bool Lia String Ascii.
From Verif Require Import Conv SpecInt Prog Word SpecHand HandProof AsmExpr AsmText AsmModel SpecAsm AsmNorm AsmSym AsmTrees AsmCheck.
Import ListNotations.
Open Scope string_scope.
Open Scope Z_scope.
Open Scope list_scope.

(** ** Lists *)
Lemma find_seq (f : nat -> bool) n : forall i m, List.find f (seq i n) = Some m -> (i <= m < i + n)%nat /\ f m = true /\ forall j, (i <= j < m)%nat -> f j = false.
Proof.
  induction n as [|n IH]; intros i m F; cbn [seq List.find] in F; [discriminate F|]. destruct (f i) eqn:Q.
  - injection F as <-. split; [lia|]. split; [exact Q|]. intros j J. lia.
  - apply IH in F. destruct F as (A & B & C). split; [lia|]. split; [exact B|]. intros j J. destruct (Nat.eq_dec j i) as [->|N]; [exact Q|]. apply C. lia.
Qed.
Lemma find_seq_none (f : nat -> bool) n : forall i, List.find f (seq i n) = None -> forall j, (i <= j < i + n)%nat -> f j = false.
Proof.
  induction n as [|n IH]; intros i F j J; [lia|]. cbn [seq List.find] in F. destruct (f i) eqn:Q; [discriminate F|].
  destruct (Nat.eq_dec j i) as [->|N]; [exact Q|]. apply (IH (S i) F). lia.
Qed.
Lemma nth_map_seq {A} (f : nat -> A) n d i : (i < n)%nat -> nth i (map f (seq 0 n)) d = f i.
Proof. intros L. rewrite (nth_indep _ d (f 0%nat)) by now rewrite map_length, seq_length. rewrite map_nth. now rewrite seq_nth by exact L. Qed.
Lemma forallb_combine {A} (P : nat -> A -> bool) d : forall l i n, forallb (fun '(c, t) => P c t) (combine (seq i n) l) = true -> List.length l = n ->
  forall c, (c < n)%nat -> P (i + c)%nat (nth c l d) = true.
Proof.
  induction l as [|x l IH]; intros i n F L c C; destruct n as [|n]; try (cbn in *; lia). cbn [seq combine forallb] in F. rewrite andb_true_iff in F. destruct F as [F1 F2].
  destruct c as [|c]; [now rewrite Nat.add_0_r|]. cbn [nth]. replace (i + S c)%nat with (S i + c)%nat by lia. apply (IH (S i) n F2); [cbn in L; lia|lia].
Qed.
Lemma all_some_in {A} (l : list (option A)) r : all_some l = Some r -> forall x, In x l -> exists y, x = Some y /\ In y r.
Proof.
  revert r. induction l as [|o l IH]; intros r E x I; [destruct I|]. cbn [all_some] in E. destruct o as [z|]; [|discriminate E].
  destruct (all_some l) as [r'|]; [|discriminate E]. injection E as <-. destruct I as [<-|I]; [exists z; split; [reflexivity|now left]|].
  destruct (IH r' eq_refl x I) as (y & -> & J). exists y. split; [reflexivity|now right].
Qed.

(** ** Every allocation of registers is one of the choices *)
Section Choice.
  Variable alloc : nat -> nat.
  Definition least (l : nat) : nat := match List.find (fun m => Nat.eqb (alloc m) (alloc l)) (seq 1 l) with Some m => m | None => 0%nat end.
  Lemma least_spec l : (0 < l)%nat -> (0 < least l <= l)%nat /\ alloc (least l) = alloc l /\ forall m, (0 < m < least l)%nat -> alloc m <> alloc l.
  Proof.
    intros L. unfold least. destruct (List.find _ (seq 1 l)) as [m|] eqn:F.
    - apply find_seq in F. destruct F as (A & B & C). apply Nat.eqb_eq in B. split; [lia|]. split; [exact B|]. intros j J. apply Nat.eqb_neq, C. lia.
    - exfalso. pose proof (find_seq_none _ _ _ F l ltac:(lia)) as Q. cbv beta in Q. now rewrite Nat.eqb_refl in Q.
  Qed.
  Lemma least_iff l m : (0 < l)%nat -> (0 < m)%nat -> (least l = least m <-> alloc l = alloc m).
  Proof.
    intros L M. destruct (least_spec l L) as (A & B & C). destruct (least_spec m M) as (A' & B' & C'). split; intros E.
    - congruence.
    - destruct (lt_eq_lt_dec (least l) (least m)) as [[Q|Q]|Q]; [|exact Q|]; exfalso.
      + apply (C' (least l)); [lia|congruence].
      + apply (C (least m)); [lia|congruence].
  Qed.
  Lemma least_least l : least (least l) = least l.
  Proof. destruct l as [|l]; [reflexivity|]. destruct (least_spec (S l)) as (A & B & C); [lia|]. apply least_iff; [lia|lia|exact B]. Qed.

  Variables (careful : bool) (b : block).
  Hypothesis LG : legal careful b alloc.
  Notation ps := (places b).
  Notation nm := (nmach (b_arch b)).
  Notation rows := (map (row_of careful b ps) ps).
  Notation clob := (filter (clobbered b) (seq 1 nm)).
  Hypothesis fixed_ok : forall p l m, In p ps -> fixed b p = Some l -> In m l -> (1 <= m <= nm)%nat.
  Hypothesis low : forall p, In p ps -> (nm < p_loc p)%nat.
  Lemma least_machine m : (1 <= m <= nm)%nat -> least m = m.
  Proof.
    intros M. destruct (least_spec m) as (A & B & C); [lia|]. pose proof (lg_machine _ _ _ LG (least m) ltac:(lia)) as P. pose proof (lg_machine _ _ _ LG m M). congruence.
  Qed.
  Lemma candidate_ok p : In p ps -> candidate nm clob (row_of careful b ps p) (map least (seq 0 (p_loc p))) (least (p_loc p)) = true.
  Proof.
    intros I. pose proof (low p I) as Lp. destruct (least_spec (p_loc p)) as (A & B & C); [lia|]. set (c := least (p_loc p)) in *. unfold candidate, row_of. cbn [w_loc w_fixed w_file w_share].
    rewrite !andb_true_iff. repeat split.
    - destruct (Nat.eqb_spec c (p_loc p)) as [E|N]; [reflexivity|]. cbn [orb]. rewrite nth_map_seq by lia. apply Nat.eqb_eq. unfold c. apply least_least.
    - destruct (fixed b p) as [l|] eqn:F; [|reflexivity]. pose proof (lg_fixed _ _ _ LG p l I F) as J. pose proof (fixed_ok p l _ I F J) as M.
      assert (E : alloc (p_loc p) = c).
      { pose proof (lg_machine _ _ _ LG _ M) as Q. assert (c <= alloc (p_loc p))%nat.
        { destruct (le_gt_dec c (alloc (p_loc p))) as [Q'|Q']; [exact Q'|]. exfalso. apply (C (alloc (p_loc p))); [lia|exact Q]. }
        rewrite <- B. apply (lg_machine _ _ _ LG). lia. }
      apply existsb_exists. exists (alloc (p_loc p)). split; [exact J|]. apply Nat.eqb_eq. now symmetry.
    - destruct (Nat.leb_spec c nm) as [Q|Q]; [|reflexivity]. pose proof (lg_machine _ _ _ LG c ltac:(lia)) as M. rewrite andb_true_iff. split.
      + apply Nat.eqb_eq. destruct (Nat.eq_dec (file b p) 0) as [E|N]; [exact E|]. pose proof (lg_file _ _ _ LG p I N). lia.
      + apply negb_true_iff. destruct (existsb (Nat.eqb c) clob) eqn:X; [|reflexivity]. exfalso. apply existsb_exists in X. destruct X as (m & X & E). apply Nat.eqb_eq in E. subst m.
        apply filter_In in X. destruct X as [_ X]. apply (lg_clobber _ _ _ LG p c I X). congruence.
    - apply forallb_forall. intros [l ok] J. apply in_map_iff in J. destruct J as (p' & E & J). injection E as <- <-.
      destruct (Nat.ltb_spec (p_loc p') (p_loc p)) as [Q|Q]; [|reflexivity]. cbn [andb]. rewrite nth_map_seq by exact Q.
      destruct (Nat.eqb_spec (least (p_loc p')) c) as [E|N]; [|reflexivity]. apply (lg_share _ _ _ LG p p' I J); [lia|].
      apply least_iff in E; [now symmetry| |]; pose proof (low p' J); lia.
  Qed.
  Lemma choices_from (l : list place) : forall vs, (forall p, In p l -> In p ps) -> forall i, map p_loc l = seq i (List.length l) -> (0 < i)%nat -> In (map least (seq 0 i)) vs ->
    In (map least (seq 0 (i + List.length l))) (fold_left (fun vs x => flat_map (extend nm clob x) vs) (map (row_of careful b ps) l) vs).
  Proof.
    induction l as [|p l IH]; intros vs In_ i E P I; cbn [map fold_left List.length seq] in *; [now rewrite Nat.add_0_r|]. injection E as E1 E2.
    replace (i + S (List.length l))%nat with (S i + List.length l)%nat by lia. apply IH; [intros p' I'; apply In_; now right|exact E2|lia|].
    apply in_flat_map. exists (map least (seq 0 i)). split; [exact I|]. unfold extend. apply in_map_iff. exists (least i). split.
    - rewrite seq_S, map_app. reflexivity.
    - apply filter_In. split.
      + cbn [row_of w_loc]. rewrite E1. apply in_seq. destruct (least_spec i P) as (A & _). lia.
      + rewrite <- E1. apply candidate_ok. apply In_. now left.
  Qed.
  Theorem choices_complete : map p_loc ps = seq (S nm) (List.length ps) -> In (map least (seq 0 (S nm + List.length ps))) (choices nm clob rows).
  Proof.
    intros E. unfold choices. apply choices_from; [auto|exact E|lia|]. left. change (seq 0 (S nm)) with (0%nat :: seq 1 nm). cbn [map]. f_equal.
    rewrite <- (map_id (seq 1 nm)) at 1. apply map_ext_in. intros m M. apply in_seq in M. symmetry. apply least_machine. lia.
  Qed.
End Choice.

(** ** Arithmetic *)
Lemma half_join w x : w = 2 * (w / 2) -> 0 <= w / 2 -> 0 <= x < 2 ^ w -> half w false x + 2 ^ (w / 2) * half w true x = x.
Proof.
  intros W H X. unfold half. pose proof (pow_pos _ H). rewrite (wrap_small (w / 2) (x / 2 ^ (w / 2))).
  - unfold wrap. pose proof (Z.div_mod x (2 ^ (w / 2)) ltac:(lia)). lia.
  - rewrite W in X. replace (2 * (w / 2)) with (w / 2 + w / 2) in X by lia. rewrite Z.pow_add_r in X by lia. split; [apply Z.div_pos; lia|].
    apply Z.div_lt_upper_bound; lia.
Qed.
Lemma wrap_sval j x : 0 <= j -> 0 <= x < 2 ^ j -> wrap j (sval j x) = x.
Proof.
  intros J X. unfold sval. destruct (x <? 2 ^ (j - 1)); [now apply wrap_small|]. unfold wrap. rewrite <- (Z_mod_plus_full (x - 2 ^ j) 1).
  rewrite Z.mul_1_l, Z.sub_add. now apply Z.mod_small.
Qed.

(** ** One choice of registers *)
Section OneProof.
  Variables (careful : bool) (b : block) (k : kind) (alloc : nat -> nat) (q : call) (base : Z) (a : addr) (s0 : cst) (v : list nat)
    (conds : list (cnd * outcome)).
  Hypothesis LG : legal careful b alloc.
  Hypothesis AR : arguments b k q.
  Hypothesis BG : begins careful b alloc q base s0.
  Hypothesis BR : 0 <= base < 2 ^ address_bits (b_arch b).
  Notation w := (b_bits b).
  Notation h := (b_bits b / 2).
  Notation ps := (places b).
  Notation nm := (nmach (b_arch b)).
  Notation nl := (nlocs b).
  Notation abits := (address_bits (b_arch b)).
  Notation infos := (map (info_of careful b k) ps).
  Notation clob := (filter (clobbered b) (seq 1 nm)).
  Notation cc := (flags_declared b).
  Notation anyload := (match b_arch b with X86 => String.eqb (b_func b) "load" | _ => false end).
  Notation one := (guarded b).
  Notation big := (b_big b).
  Notation rep := (rep v).
  Hypothesis W2 : w = 2 * h.
  Hypothesis W0 : 0 <= w.
  Hypothesis KB : match k with KBit _ => w = 2 ^ Z.log2 w | _ => True end.
  Hypothesis locs : forall p, In p ps -> (nm < p_loc p < nl)%nat.
  Hypothesis nml : (nm < nl)%nat.
  Hypothesis rep0 : rep 0%nat = 0%nat.
  Hypothesis rep_range : forall l, (0 < l < nl)%nat -> (0 < rep l < nl)%nat.
  Hypothesis rep_ok : forall l m, (0 < l < nl)%nat -> (0 < m < nl)%nat -> (rep l = rep m <-> alloc l = alloc m).
  Hypothesis rep_idem : forall l, (l < nl)%nat -> rep (rep l) = rep l.
  Hypothesis rep_mach : forall m, (1 <= m <= nm)%nat -> rep m = m.
  Hypothesis CO : the_conds b k = Some conds.

  Definition r0 (i : nat) : Z :=
    if Nat.eqb i 0 then base
    else if Nat.ltb i nl then g s0 (alloc i)
    else if Nat.eqb i (xB nl) then q_v q
    else if Nat.eqb i (x_of nl AV) then q_v q
    else if Nat.eqb i (x_of nl AE) then q_e q
    else if Nat.eqb i (x_of nl AD) then q_d q
    else if Nat.eqb i (x_of nl AI) then q_i q
    else if Nat.eqb i (xX nl) then 0
    else lat s0.
  Definition f0 : nat -> bool := fl s0.
  Definition Anchor (r : nat -> Z) (f : nat -> bool) : Prop :=
    (forall i, (i < xX nl)%nat -> r i = r0 i) /\ (forall i, (i < 3)%nat -> f i = f0 i).
  Ltac var := unfold r0, xB, x_of, xX, xgen;
    repeat match goal with |- context [Nat.eqb ?i ?j] => destruct (Nat.eqb_spec i j) as [?|?]; try lia end;
    repeat match goal with |- context [Nat.ltb ?i ?j] => destruct (Nat.ltb_spec i j) as [?|?]; try lia end; try reflexivity.
  Lemma r0_0 : r0 0 = base. Proof. reflexivity. Qed.
  Lemma r0_loc i : (0 < i < nl)%nat -> r0 i = g s0 (alloc i). Proof. intros. var. Qed.
  Lemma r0_B : r0 (xB nl) = q_v q. Proof. var. Qed.
  Lemma r0_x x : r0 (x_of nl x) = arg_value q x. Proof. destruct x; var. Qed.
  Lemma r0_X : r0 (xX nl) = 0. Proof. var. Qed.
  Lemma r0_gen : r0 (xgen nl 0) = lat s0. Proof. var. Qed.
  Lemma H0 : 0 <= h. Proof. apply Z.div_pos; lia. Qed.

  Lemma alloc_rep l : (0 < l < nl)%nat -> alloc (rep l) = alloc l.
  Proof. intros L. apply rep_ok; [now apply rep_range|exact L|]. apply rep_idem. lia. Qed.

  Lemma piece_range p x : 0 <= piece_of b p (arg_value q x) < 2 ^ piece_bits b p.
  Proof. destruct AR as [A _]. pose proof H0. destruct p; cbn [piece_of piece_bits]; [apply A| |]; unfold half; destruct (xorb _ _) || destruct hi; now apply wrap_range. Qed.
  Lemma piece_bits_0 p : 0 <= piece_bits b p. Proof. pose proof H0. destruct p; cbn; auto. Qed.
  (** what is in the register of an argument *)
  Lemma piece_content p x c : In p ps -> is_in p = true -> is_address p = false -> is_success p = false -> arg_of b p = Some (x, c) ->
    wrap (piece_bits b c) (g s0 (alloc (p_loc p))) = piece_of b c (arg_value q x).
  Proof.
    intros I N A S_ E. pose proof (bg_content _ _ _ _ _ _ BG p I N) as C. unfold content in C. rewrite A, S_, E in C. cbv zeta in C.
    pose proof (piece_range c x). pose proof (piece_bits_0 c). destruct (above_of careful b p); [exact C| |]; rewrite C; [now apply wrap_small|now apply wrap_sval].
  Qed.

  Lemma special_in_ok c sp : special_in infos v c = Some sp ->
    exists p, In p ps /\ is_in p = true /\ rep (p_loc p) = c /\ special_of careful b k p = Some sp.
  Proof.
    unfold special_in. assert (G : forall l, (forall p, In p l -> In p ps) -> fold_right (fun i r => if i_in i && in_class v c i then match i_special i with Some s => Some s | None => r end else r) None
      (map (info_of careful b k) l) = Some sp -> exists p, In p ps /\ is_in p = true /\ rep (p_loc p) = c /\ special_of careful b k p = Some sp); [|now apply G].
    induction l as [|p l IH]; intros L F; [discriminate F|]. cbn [map fold_right] in F.
    assert (L' : forall p, In p l -> In p ps) by (intros; apply L; now right).
    destruct (i_in (info_of careful b k p) && in_class v c (info_of careful b k p)) eqn:B; [|now apply IH].
    destruct (i_special (info_of careful b k p)) as [s|] eqn:Q; [|now apply IH]. injection F as <-. rewrite andb_true_iff in B. destruct B as [B1 B2].
    exists p. split; [apply L; now left|]. split; [exact B1|]. split; [apply Nat.eqb_eq; exact B2|exact Q].
  Qed.
  Lemma init_ok r f c : Anchor r f -> (0 < c < nl)%nat -> rep c = c -> eval r f (init w nl infos v c) = g s0 (alloc c).
  Proof.
    intros [AN _] C RC. unfold init. destruct (Nat.eqb_spec c 0) as [?|_]; [lia|].
    assert (E0 : r 0%nat = base) by (rewrite AN; [reflexivity|unfold xX; lia]).
    assert (EB_ : r (xB nl) = q_v q) by (rewrite AN; [apply r0_B|unfold xB, xX; lia]).
    assert (EC_ : r c = g s0 (alloc c)) by (rewrite AN; [now apply r0_loc|unfold xX; lia]).
    destruct (special_in infos v c) as [sp|] eqn:Q; [|autorewrite with ev; exact EC_].
    apply special_in_ok in Q. destruct Q as (p & I & N & R & S_). pose proof (bg_content _ _ _ _ _ _ BG p I N) as CT.
    assert (AP : alloc (p_loc p) = alloc c) by (rewrite <- R; symmetry; apply alloc_rep; pose proof (locs p I); lia). rewrite AP in CT.
    unfold content in CT. unfold special_of in S_. destruct (is_address p); [injection S_ as <-; autorewrite with ev; congruence|].
    destruct (is_success p); [injection S_ as <-; autorewrite with ev; rewrite EC_, CT; change (wrap 8 0) with 0; lia|].
    destruct (arg_of b p) as [[x pc]|]; [|discriminate S_]. cbv zeta in CT. pose proof (piece_range pc x). pose proof (piece_bits_0 pc). destruct (above_of careful b p).
    - assert (S' : k <> KFence /\ x = AV /\ pc = Whole /\ sp = SpBit) by (destruct k; try discriminate S_; destruct x; try discriminate S_; destruct pc; try discriminate S_; injection S_ as <-; repeat split; discriminate).
      destruct S' as (_ & -> & -> & ->). cbn [piece_bits piece_of arg_value] in *. autorewrite with ev. rewrite EC_, EB_, CT, (wrap_small w (q_v q)) by assumption. lia.
    - injection S_ as <-. autorewrite with ev. rewrite EC_, CT. now apply wrap_small.
    - injection S_ as <-. autorewrite with ev. rewrite EC_. rewrite CT at 1. rewrite wrap_sval by assumption. now symmetry.
  Qed.

  Lemma find_piece_ok x want c : find_piece infos v x want = Some c ->
    exists p d, In p ps /\ is_in p = true /\ is_address p = false /\ is_success p = false /\ arg_of b p = Some (x, d) /\ want d = true /\ rep (p_loc p) = c.
  Proof.
    unfold find_piece. match goal with |- fold_right ?F None _ = _ -> ?G => set (FF := F); set (GG := G) end.
    assert (G : forall l, (forall p, In p l -> In p ps) -> fold_right FF None (map (info_of careful b k) l) = Some c -> GG); [|now apply G].
    induction l as [|p l IH]; intros L F; [discriminate F|]. cbn [map fold_right] in F.
    assert (L' : forall p, In p l -> In p ps) by (intros; apply L; now right).
    unfold FF at 1 in F. cbn [i_arg info_of i_in i_loc] in F. destruct (is_address p) eqn:A; [now apply IH|]. destruct (is_success p) eqn:S_; [now apply IH|]. cbn [orb] in F.
    destruct (arg_of b p) as [[y d]|] eqn:Q; [|now apply IH].
    destruct (is_in p && match x, y with AV, AV | AE, AE | AD, AD | AI, AI => true | _, _ => false end && want d) eqn:B; [|now apply IH].
    rewrite !andb_true_iff in B. destruct B as [[B1 B2] B3]. injection F as <-. exists p, d.
    assert (x = y) by (destruct x, y; try reflexivity; discriminate B2). subst y. repeat split; auto. apply L. now left.
  Qed.
  Lemma want_half_ok hi c : want_half big hi c = true -> piece_bits b c = h /\ forall x, piece_of b c x = half w hi x.
  Proof. destruct c; cbn [want_half]; intros E; [discriminate E| |]; apply eqb_prop in E; subst hi; split; reflexivity. Qed.
  Notation ax := (arg_expr big anyload one w h nl infos v).
  Lemma arg_expr_ok r f x : Anchor r f -> eval r f (ax x) = arg_value q x.
  Proof.
    intros AN. destruct AR as (AR1 & _ & AR3).
    assert (REG : forall p d, In p ps -> is_in p = true -> is_address p = false -> is_success p = false -> arg_of b p = Some (x, d) ->
      wrap (piece_bits b d) (eval r f (init w nl infos v (rep (p_loc p)))) = piece_of b d (arg_value q x)).
    { intros p d I N A S_ E. pose proof (locs p I). rewrite init_ok; [|exact AN|apply rep_range; lia|apply rep_idem; lia].
      rewrite alloc_rep by lia. now apply piece_content. }
    assert (OWN : eval r f (EV (x_of nl x)) = arg_value q x).
    { autorewrite with ev. destruct AN as [AN _]. rewrite AN; [apply r0_x|unfold x_of, xX; destruct x; lia]. }
    assert (ANY : x = AI -> anyload = true -> eval r f (EJoin h (init w nl infos v ebx) (ELow h (init w nl infos v ecx))) = arg_value q x).
    { intros -> AL0. assert (AB : b_arch b = X86 /\ b_func b = "load") by (clear - AL0; destruct (b_arch b); try discriminate AL0; apply String.eqb_eq in AL0; auto).
      destruct AB as [AB AL]. cbn [arg_value].
      assert (M : (1 <= ebx <= nm)%nat /\ (1 <= ecx <= nm)%nat) by (rewrite AB; unfold ebx, ecx; cbn; lia). destruct M as [M1 M2].
      rewrite (bg_any _ _ _ _ _ _ BG AB AL). autorewrite with ev. unfold join.
      rewrite !init_ok; try exact AN; try lia; try (now apply rep_mach).
      rewrite !(lg_machine _ _ _ LG) by assumption. reflexivity. }
    unfold arg_expr. destruct (find_piece infos v x want_whole) as [c|] eqn:F.
    - apply find_piece_ok in F. destruct F as (p & d & I & N & A & S_ & E & W & <-). destruct d; try discriminate W. autorewrite with ev. exact (REG p Whole I N A S_ E).
    - clear F. destruct (find_piece infos v x (want_half big false)) as [c|] eqn:F1.
      + destruct (find_piece infos v x (want_half big true)) as [d|] eqn:F2.
        * apply find_piece_ok in F1, F2. destruct F1 as (p & c1 & I & N & A & S_ & E & W & <-). destruct F2 as (p' & c2 & I' & N' & A' & S' & E' & W' & <-).
          apply want_half_ok in W, W'. destruct W as [W Wx]. destruct W' as [W' Wx']. pose proof (REG _ _ I N A S_ E) as R1. pose proof (REG _ _ I' N' A' S' E') as R2.
          rewrite W, Wx in R1. rewrite W', Wx' in R2. autorewrite with ev. rewrite R1, R2. apply half_join; [exact W2|apply H0|apply AR1].
        * destruct x; try exact OWN; [destruct one eqn:O; [symmetry; now apply AR3|exact OWN]|]. destruct anyload eqn:O; [now apply ANY|exact OWN].
      + destruct x; try exact OWN; [destruct one eqn:O; [symmetry; now apply AR3|exact OWN]|]. destruct anyload eqn:O; [now apply ANY|exact OWN].
  Qed.

  (** *** At the end *)
  Notation Den := (den nl rep alloc (g s0) Anchor).
  Notation fin := (final big anyload one w h nl nm infos conds clob cc v).
  Lemma den_loc r f s x l : Den r f s x -> (0 < l < nl)%nat -> g x (alloc l) = eval r f (reg s (rep l)).
  Proof. intros D L. pose proof (dn_reg _ _ _ _ _ _ _ _ _ D l ltac:(lia)) as R. unfold rd in R. destruct (Nat.eqb_spec l 0); [lia|exact R]. Qed.
  Lemma fits_simp wd r f j e : good wd r -> fits wd j (simp (look wd) e) = true -> 0 <= eval r f e < 2 ^ j.
  Proof. intros G F. apply (fits_ok wd r f G) in F. now rewrite (simp_ok (look wd) r f G) in F. Qed.
  Lemma truth_cnd_ok kn wd r f o old new ok : Anchor r f -> Forall (holds r f) kn -> good wd r -> truth_fits w wd o new = true ->
    ceval r f (truth_cnd big anyload one w h nl infos v o old new ok) = truth o q (Res (eval r f old) (eval r f new) (ceval r f ok)).
  Proof.
    intros AN K G F. destruct o; cbn [truth_cnd truth r_ok r_new r_old]; try reflexivity.
    - autorewrite with ev. cbn [truth_fits] in F. apply (fits_simp wd r f w new G) in F. rewrite (wrap_small w (eval r f new)) by exact F.
      rewrite (wrap_small w 0) by (pose proof (pow_pos w W0); lia). reflexivity.
    - autorewrite with ev. rewrite (arg_expr_ok r f AV AN). reflexivity.
  Qed.
  Lemma half_ok_ok kn wd r f s c new hi e : Forall (holds r f) kn -> good wd r -> half_ok big w h infos v s kn wd c new hi e = true ->
    wrap h (eval r f (reg s c)) = half w hi (eval r f e).
  Proof.
    intros K G C. pose proof H0 as HH. unfold half_ok in C. apply orb_true_iff in C. destruct C as [C|C].
    - apply (low_eq_ok kn wd r f K G) in C. rewrite C. unfold half. destruct hi; autorewrite with ev; reflexivity.
    - destruct (half_at big infos v new (negb hi)) as [d|]; [|discriminate C]. apply (low_eq_ok kn wd r f K G) in C. unfold half. destruct hi; autorewrite with ev in C.
      + assert (C' : ceq (h + h) (wrap h (eval r f (reg s d)) + 2 ^ h * wrap h (eval r f (reg s c))) (eval r f e)) by (unfold ceq; replace (h + h) with w by lia; exact C).
        apply hi_ceq in C'; [|exact HH|exact HH]. rewrite join_hi in C' by exact HH. unfold ceq in C'. rewrite <- C'. symmetry. apply wrap_small. now apply wrap_range.
      + pose proof (join_low h h (eval r f (reg s c)) (wrap h (eval r f (reg s d))) ltac:(lia)) as J. apply (ceq_le h w) in C; [|lia]. unfold ceq in *. congruence.
  Qed.
  Lemma final_ok s kn wd o n c r f x : fin s kn wd o n c = true -> Den r f s x -> Forall (holds r f) kn -> good wd r ->
    ends b k alloc q s0 x (Res (eval r f o) (eval r f n) (ceval r f c)).
  Proof.
    intros C D K G. unfold final in C. rewrite !andb_true_iff in C. destruct C as [[[C1 C2] C3] C4]. rewrite forallb_forall in C1, C2, C3.
    pose proof (dn_anchor _ _ _ _ _ _ _ _ _ D) as AN. split.
    - intros p t I O PO. pose proof (locs p I) as Lp. specialize (C1 (info_of careful b k p) (in_map _ _ _ I)). cbn [info_of i_outcome i_out i_loc i_bits] in C1. rewrite PO, O in C1.
      rewrite (den_loc r f s x (p_loc p) D) by lia.
      assert (PIECE : forall new pc e, piece_ok big w h infos v s kn wd (rep (p_loc p)) new pc e = true -> wrap (piece_bits b pc) (eval r f (reg s (rep (p_loc p)))) = piece_of b pc (eval r f e)).
      { intros new pc e P. destruct pc; cbn [piece_ok piece_bits piece_of] in *.
        - rewrite andb_true_iff in P. destruct P as [P1 P2]. apply (low_eq_ok kn wd r f K G) in P1. apply (fits_simp wd r f w e G) in P2. rewrite P1. now apply wrap_small.
        - exact (half_ok_ok _ _ _ _ _ _ _ _ _ K G P).
        - exact (half_ok_ok _ _ _ _ _ _ _ _ _ K G P). }
      assert (TRUTH : match t with OOld _ | ONew _ => False | _ => True end -> (1 <=? outcome_bits b p t) && truth_fits w wd t n
          && low_eq kn wd (outcome_bits b p t) (reg s (rep (p_loc p))) (EB (truth_cnd big anyload one w h nl infos v t o n c)) = true ->
          wrap (outcome_bits b p t) (eval r f (reg s (rep (p_loc p)))) = if truth t q (Res (eval r f o) (eval r f n) (ceval r f c)) then 1 else 0).
      { intros _ P. rewrite !andb_true_iff in P. destruct P as [[P1 P2] P3]. apply Z.leb_le in P1. apply (low_eq_ok kn wd r f K G) in P3. rewrite P3. autorewrite with ev.
        rewrite (truth_cnd_ok kn wd r f t o n c AN K G P2). pose proof (Z.pow_le_mono_r 2 1 (outcome_bits b p t) ltac:(lia) P1). apply wrap_small. destruct (truth _ _ _); lia. }
      destruct t; cbn [outcome_ok outcome_value outcome_bits r_old r_new] in *; try (now apply TRUTH); eapply PIECE; exact C1.
    - intros y I A. unfold the_conds in CO.
      assert (J : In (match condition (o_con y), outcome_of b k (o_expr y) with Some c, Some o => Some (c, o) | _, _ => None end)
        (map (fun x => match condition (o_con x), outcome_of b k (o_expr x) with Some c, Some o => Some (c, o) | _, _ => None end)
           (filter (fun x => has "@"%char (o_con x)) (b_outs b)))).
      { apply (in_map (fun x => match condition (o_con x), outcome_of b k (o_expr x) with Some c, Some o => Some (c, o) | _, _ => None end)). now apply filter_In. }
      destruct (all_some_in _ _ CO _ J) as ([c1 o1] & E & J'). destruct (condition (o_con y)) as [c2|]; [|discriminate E].
      destruct (outcome_of b k (o_expr y)) as [o2|]; [|discriminate E]. injection E as -> ->. exists c1, o1. split; [reflexivity|]. split; [reflexivity|].
      specialize (C2 _ J'). cbn in C2. rewrite !andb_true_iff in C2. destruct C2 as [[P1 P2] P3].
      rewrite (rd_subc nl rep alloc (g s0) Anchor r f s x c1 D P1). apply (ceq_all_ok kn wd r f K G) in P3. rewrite P3. exact (truth_cnd_ok kn wd r f o1 o n c AN K G P2).
    - intros m M CL. destruct (List.find (fun l => Nat.eqb (alloc l) m) (seq 1 (nl - 1))) as [l|] eqn:F.
      + apply find_seq in F. destruct F as (L & E & _). apply Nat.eqb_eq in E. assert (L' : (0 < l < nl)%nat) by lia. pose proof (rep_range l L') as RL. pose proof (alloc_rep l L') as AL.
        specialize (C3 (rep l)). rewrite in_seq in C3. specialize (C3 ltac:(lia)). rewrite !orb_true_iff in C3. destruct C3 as [[[C3|C3]|C3]|C3].
        * exfalso. rewrite rep_idem in C3 by lia. rewrite Nat.eqb_refl in C3. discriminate C3.
        * exfalso. apply existsb_exists in C3. destruct C3 as (i & I & C3). apply in_map_iff in I. destruct I as (p & <- & I). rewrite andb_true_iff in C3. destruct C3 as [O C3].
          apply (M p I O). unfold in_class in C3. apply Nat.eqb_eq in C3. cbn [info_of i_loc] in C3. pose proof (locs p I). rewrite <- E, <- AL, <- C3. symmetry. apply alloc_rep. lia.
        * exfalso. rewrite andb_true_iff in C3. destruct C3 as [Q C3]. apply Nat.leb_le in Q. apply existsb_exists in C3. destruct C3 as (c1 & I & C3). apply Nat.eqb_eq in C3. subst c1.
          apply filter_In in I. destruct I as [_ I]. rewrite <- (lg_machine _ _ _ LG (rep l)) in I by lia. congruence.
        * apply (eq_all_ok kn wd r f K G) in C3. rewrite init_ok in C3; [|exact AN|exact RL|apply rep_idem; lia]. rewrite <- E. rewrite (den_loc r f s x l D L'). congruence.
      + apply (dn_frame _ _ _ _ _ _ _ _ _ D). intros l L E. pose proof (find_seq_none _ _ _ F l ltac:(lia)) as Q. apply Nat.eqb_neq in Q. congruence.
    - intros FD. rewrite FD in C4. cbn [orb] in C4. rewrite andb_true_iff in C4. destruct C4 as [Q1 Q2]. apply (ceq_all_ok kn wd r f K G) in Q1, Q2.
      autorewrite with ev in Q1, Q2. destruct AN as [_ AN]. split; rewrite (dn_flag _ _ _ _ _ _ _ _ _ D) by (unfold fZ, fC; lia);
        [change fZ with 0%nat; rewrite Q1; apply AN; lia|change fC with 1%nat; rewrite Q2; apply AN; lia].
  Qed.

  (** *** At the top of the loop *)
  Notation wd0 := (wd0 w abits nl k).
  Notation X := (xX nl).
  Lemma good_env r : (forall i, (i < X)%nat -> r i = r0 i) -> 0 <= r X < 2 ^ w -> good wd0 r.
  Proof.
    intros AN RX. destruct AR as (AR1 & AR2 & _). unfold AsmCheck.wd0.
    assert (XV : forall x, r (x_of nl x) = arg_value q x) by (intros x; rewrite AN; [apply r0_x|unfold x_of, xX; destruct x; lia]).
    repeat apply good_cons; try exact W0; rewrite ?XV; try apply AR1; try exact RX.
    - intros n j E. discriminate E.
    - unfold bit_width. destruct k; try exact W0. apply Z.log2_nonneg.
    - rewrite AN by (unfold xB, xX; lia). rewrite r0_B. pose proof (AR1 AV) as V. cbn [arg_value] in V. unfold bit_width. destruct k; try exact V. rewrite <- KB. lia.
    - destruct (b_arch b); cbn; lia.
    - rewrite AN by (unfold xX; lia). exact BR.
  Qed.

  Variables (tm : list tmpl) (tf : list (option cnd)).
  Notation hs := (head_state nl tm tf).
  Definition Head (y : Z) (x : cst) : Prop :=
    0 <= y < 2 ^ w /\ exists r f, Den r f hs x /\ r X = y.
  Lemma fill_nth l : forall i c d, (c < List.length l)%nat -> nth c (fill nl i l) d = filled nl (i + c) (nth c l TGen).
  Proof.
    induction l as [|t l IH]; intros i c d L; [cbn in L; lia|]. destruct c as [|c]; cbn [fill nth]; [now rewrite Nat.add_0_r|].
    rewrite IH by (cbn in L; lia). f_equal. lia.
  Qed.
  Lemma fill_flags_nth l : forall i c d, (c < List.length l)%nat -> nth c (fill_flags i l) d = match nth c l None with Some e => e | None => CV (3 + (i + c)) end.
  Proof.
    induction l as [|t l IH]; intros i c d L; [cbn in L; lia|]. destruct c as [|c]; destruct t; cbn [fill_flags nth]; rewrite ?Nat.add_0_r; try reflexivity;
    rewrite IH by (cbn in L; lia); replace (S i + c)%nat with (i + S c)%nat by lia; reflexivity.
  Qed.
  Lemma fill_length l : forall i, List.length (fill nl i l) = List.length l.
  Proof. induction l as [|t l IH]; intros i; [reflexivity|]. cbn. now rewrite IH. Qed.
  Lemma fill_flags_length l : forall i, List.length (fill_flags i l) = List.length l.
  Proof. induction l as [|t l IH]; intros i; [reflexivity|]. destruct t; cbn; now rewrite IH. Qed.
  Hypothesis tm_len : List.length tm = nl.
  Hypothesis tf_len : List.length tf = 3%nat.
  Lemma rep_lt' l : (l < nl)%nat -> (rep l < nl)%nat.
  Proof. intros L. destruct l; [rewrite rep0; lia|]. apply rep_range. lia. Qed.

  Lemma cover_ok s kn wd e r f x : cover w nl v tm tf s kn wd e = true -> Den r f s x -> Forall (holds r f) kn -> good wd r -> Head (eval r f e) x.
  Proof.
    intros C D K G. unfold cover in C. rewrite !andb_true_iff in C. destruct C as [[C1 C2] C3]. apply (fits_simp wd r f w e G) in C1. split; [exact C1|].
    pose proof (dn_anchor _ _ _ _ _ _ _ _ _ D) as [AN AF].
    set (r' := fun i => if Nat.ltb i X then r i else if Nat.eqb i X then eval r f e else eval r f (reg s (i - (nl + 6)))).
    set (f' := fun n => if Nat.ltb n 3 then f n else ceval r f (flag s (n - 3))).
    assert (R1 : forall i, (i < X)%nat -> r' i = r i) by (intros i I; unfold r'; destruct (Nat.ltb_spec i X); [reflexivity|lia]).
    assert (R2 : r' X = eval r f e) by (unfold r'; rewrite Nat.ltb_irrefl, Nat.eqb_refl; reflexivity).
    assert (R3 : forall c, r' (xgen nl c) = eval r f (reg s c)).
    { intros c. unfold r', xgen, xX. destruct (Nat.ltb_spec (nl + 6 + c) (nl + 5)); [lia|]. destruct (Nat.eqb_spec (nl + 6 + c) (nl + 5)); [lia|].
      replace (nl + 6 + c - (nl + 6))%nat with c by lia. reflexivity. }
    assert (F1 : forall i, (i < 3)%nat -> f' i = f i) by (intros i I; unfold f'; destruct (Nat.ltb_spec i 3); [reflexivity|lia]).
    assert (F2 : forall n, f' (3 + n)%nat = ceval r f (flag s n)).
    { intros n. unfold f'. destruct (Nat.ltb_spec (3 + n) 3); [lia|]. replace (3 + n - 3)%nat with n by lia. reflexivity. }
    assert (WX : forall y, ebelow (S X) 3 y = true -> eval r f (with_x nl e y) = eval r' f' y).
    { apply sub_eval; [|intros i I; autorewrite with ev; symmetry; now apply F1]. intros i I. destruct (Nat.eqb_spec i X) as [->|N]; [now rewrite R2|].
      autorewrite with ev. symmetry. apply R1. lia. }
    exists r', f'. split; [|exact R2]. split.
    - unfold head_state. cbn [sr sf]. rewrite fill_length, fill_flags_length. split; assumption.
    - split; intros i I; [rewrite R1 by exact I; now apply AN|rewrite F1 by exact I; now apply AF].
    - intros l L. rewrite (dn_reg _ _ _ _ _ _ _ _ _ D l L). pose proof (rep_lt' l L) as LC. pose proof (rep_idem l L) as RC. set (c := rep l) in *.
      unfold reg at 2, head_state. cbn [sr]. rewrite fill_nth by lia. cbn [Nat.add].
      pose proof (forallb_combine (fun c t => tmpl_ok nl v s kn wd e c t) TGen tm 0 nl C2 tm_len c LC) as T. cbn [Nat.add] in T.
      unfold tmpl_ok in T. rewrite RC, Nat.eqb_refl in T. cbn [negb orb] in T. destruct (nth c tm TGen) as [y| |j y]; cbn [filled].
      + rewrite andb_true_iff in T. destruct T as [T1 T2]. apply (eq_all_ok kn wd r f K G) in T2. rewrite T2. now apply WX.
      + autorewrite with ev. now rewrite R3.
      + rewrite andb_true_iff in T. destruct T as [T1 T2]. apply (low_eq_ok kn wd r f K G) in T2. autorewrite with ev. rewrite R3, <- (WX y T1), <- T2. lia.
    - intros n N. rewrite (dn_flag _ _ _ _ _ _ _ _ _ D n N). unfold flag at 2, head_state. cbn [sf]. rewrite fill_flags_nth by lia. cbn [Nat.add].
      pose proof (forallb_combine (fun n t => match t with Some c => cbelow 0 3 c && ceq_all kn wd (flag s n) c | None => true end) None tf 0 3 C3 tf_len n N) as T. cbn [Nat.add] in T.
      destruct (nth n tf None) as [c|].
      + rewrite andb_true_iff in T. destruct T as [T1 T2]. apply (ceq_all_ok kn wd r f K G) in T2. rewrite T2. apply (below_agree 0 3); [intros; lia|intros; symmetry; now apply F1|exact T1].
      + autorewrite with ev. symmetry. apply F2.
    - intros t T. discriminate T.
    - apply (dn_frame _ _ _ _ _ _ _ _ _ D).
  Qed.

  (** *** The whole block *)
  Variables (code : list uop) (head : option nat) (fuel : nat).
  Notation trees := (the_trees b (dcas b) (lse b) big anyload one w h nl k infos v).
  Hypothesis HB : forallb (ebelow (nx0 nl) 6) (sr hs) = true /\ forallb (cbelow (nx0 nl) 6) (sf hs) = true.
  Hypothesis PRE : sim code w nl rep head fin (cover w nl v tm tf) fuel 0 false (init_state w nl infos v) (nx0 nl) 6 [] wd0 (fst trees) = true.
  Hypothesis LOOP : forall p, head = Some p -> sim code w nl rep head fin (cover w nl v tm tf) fuel p true hs (nx0 nl) 6 [] wd0 (snd trees) = true.
  Notation goes' := (goes code w head alloc base a (ends b k alloc q s0) Head).
  Lemma sound : forall pc first s t, sim code w nl rep head fin (cover w nl v tm tf) fuel pc first s (nx0 nl) 6 [] wd0 t = true ->
    forall r f x n tr o, inv nl rep alloc (g s0) Anchor r f (nx0 nl) 6 s [] wd0 x -> run_n code w alloc base a n (pc, x) tr o -> Forall (fitting w) tr ->
    goes' first n (sprog w a (nx0 nl) 6 t r f) tr o.
  Proof.
    intros pc first s t S_. refine (sim_sound code w nl rep head fin (cover w nl v tm tf) alloc base a (g s0) Anchor _ rep0 _ W0 rep_range rep_ok (ends b k alloc q s0) Head final_ok cover_ok fuel
      pc first s (nx0 nl) 6 [] wd0 t S_).
    - intros r f [A _]. rewrite A; [reflexivity|unfold xX; lia].
    - lia.
  Qed.
  Lemma anchor_agree r f r' f' : Anchor r f -> agree (nx0 nl) 6 r f r' f' -> Anchor r' f'.
  Proof. intros [A B] [C D]. split; intros i I; [rewrite <- C by (unfold nx0, xX in *; lia); now apply A|rewrite <- D by lia; now apply B]. Qed.
  Lemma args_env r f : Anchor r f -> args_ok (ax AV) (ax AE) (ax AD) (ax AI) (nx0 nl) q r f.
  Proof. intros A r' f' G. pose proof (anchor_agree r f r' f' A G) as A'. repeat split; rewrite arg_expr_ok by exact A'; reflexivity. Qed.
  Lemma anchor0 : Anchor r0 f0. Proof. split; reflexivity. Qed.
  Lemma inv_init : inv nl rep alloc (g s0) Anchor r0 f0 (nx0 nl) 6 (init_state w nl infos v) [] wd0 s0.
  Proof.
    split; [unfold nx0; lia|]. intros r f A. pose proof (anchor_agree r0 f0 r f anchor0 A) as AN. destruct A as [A B]. split; [|split; [constructor|]].
    - split.
      + unfold init_state. cbn [sr sf]. split; [|reflexivity]. rewrite map_length. apply seq_length.
      + exact AN.
      + intros l L. unfold reg, init_state. cbn [sr]. rewrite nth_map_seq by now apply rep_lt'. unfold rd. destruct (Nat.eqb_spec l 0) as [->|N].
        * rewrite rep0. unfold init. cbn [Nat.eqb]. autorewrite with ev. rewrite <- A by (unfold xgen, nx0; lia). symmetry. apply r0_gen.
        * rewrite init_ok; [f_equal; symmetry; apply alloc_rep; lia|exact AN|apply rep_range; lia|apply rep_idem; lia].
      + intros n N. destruct AN as [_ AF]. unfold flag, init_state. cbn [sf]. destruct n as [|[|[|n]]]; [| | |lia]; cbn [nth]; autorewrite with ev; rewrite AF by lia; reflexivity.
      + intros t T. discriminate T.
      + reflexivity.
    - apply good_env; [apply AN|]. rewrite <- A by (unfold xX, nx0; lia). rewrite r0_X. pose proof (pow_pos w W0). lia.
  Qed.
  Lemma inv_head r f x : Den r f hs x -> 0 <= r X < 2 ^ w -> inv nl rep alloc (g s0) Anchor r f (nx0 nl) 6 hs [] wd0 x.
  Proof.
    intros D RX. split; [unfold nx0; lia|]. intros r' f' A. pose proof (dn_anchor _ _ _ _ _ _ _ _ _ D) as AN0. pose proof (anchor_agree r f r' f' AN0 A) as AN.
    destruct HB as [B1 B2]. rewrite forallb_forall in B1, B2. pose proof (dn_len _ _ _ _ _ _ _ _ _ D) as [L1 L2]. destruct A as [A B]. split; [|split; [constructor|]].
    - split.
      + split; assumption.
      + exact AN.
      + intros l L. rewrite (dn_reg _ _ _ _ _ _ _ _ _ D l L). apply (below_agree (nx0 nl) 6); [exact A|exact B|]. apply B1, nth_In. rewrite L1. now apply rep_lt'.
      + intros n N. rewrite (dn_flag _ _ _ _ _ _ _ _ _ D n N). apply (below_agree (nx0 nl) 6); [exact A|exact B|]. apply B2, nth_In. now rewrite L2.
      + intros t T. discriminate T.
      + apply (dn_frame _ _ _ _ _ _ _ _ _ D).
    - apply good_env; [apply AN|]. rewrite <- A by (unfold xX, nx0; lia). exact RX.
  Qed.

  Lemma loop_sound {Y B : Type} (bd : Y -> wprog (Y + B)) (after : B -> wprog result) (st : Z -> Y -> Prop) p : head = Some p ->
    (forall y y' r f, args_ok (ax AV) (ax AE) (ax AD) (ax AI) (nx0 nl) q r f -> r X = y -> 0 <= y < 2 ^ w -> st y y' ->
       prel w (again_or st after) (sprog w a (nx0 nl) 6 (snd trees) r f) (bd y')) ->
    forall n y y' x tr o, st y y' -> Head y x -> run_n code w alloc base a n (p, x) tr o -> Forall (fitting w) tr ->
    match o with
    | None => turns (fun s => path (bd s)) (fun u => path (after u)) y' tr None
    | Some None => False
    | Some (Some c) => exists res, turns (fun s => path (bd s)) (fun u => path (after u)) y' tr (Some res) /\ ends b k alloc q s0 c res
    end.
  Proof.
    intros HP BODY n. induction n as [n IH] using (well_founded_induction lt_wf). intros y y' x tr o ST HH R FT.
    destruct HH as (RY & r & f & D & RX). pose proof (dn_anchor _ _ _ _ _ _ _ _ _ D) as AN.
    assert (I : inv nl rep alloc (g s0) Anchor r f (nx0 nl) 6 hs [] wd0 x) by (apply inv_head; [exact D|now rewrite RX]).
    specialize (BODY y y' r f (args_env r f AN) RX RY ST).
    destruct (sound p true hs (snd trees) (LOOP p HP) r f x n tr o I R FT) as [[-> P]|[(res & c & -> & P & F)|(p' & tr1 & tr2 & n' & x' & z & HP' & -> & P & R' & L & HH)]].
    - destruct (BODY tr None FT P) as ([o'|] & P' & Q); [destruct Q|]. now apply turn_in.
    - destruct (BODY tr _ FT P) as ([o'|] & P' & Q); [|destruct Q]. cbn [orel] in Q. destruct o' as [y1|u]; [destruct Q|]. cbn [again_or] in Q.
      exists res. split; [|exact F]. rewrite <- (app_nil_r tr). apply turn_out with u; [exact P'|exact Q].
    - rewrite HP in HP'. injection HP' as <-. apply Forall_app in FT. destruct FT as [F1 F2].
      destruct (BODY tr1 _ F1 P) as ([o'|] & P' & Q); [|destruct Q]. cbn [orel] in Q. destruct o' as [y1|u]; [|destruct Q]. cbn [again_or] in Q.
      specialize (IH n' ltac:(lia) z y1 x' tr2 o Q HH R' F2). destruct o as [[c|]|].
      + destruct IH as (res & T & E). exists res. split; [|exact E]. now apply turn_next with y1.
      + exact IH.
      + now apply turn_next with y1.
  Qed.

  Theorem one_sound tr o : Forall (fitting w) tr -> path (asm_prog code alloc w base a s0) tr o ->
    match o with
    | None => path (program b a q k) tr None
    | Some None => False
    | Some (Some s') => exists r, path (program b a q k) tr (Some r) /\ ends b k alloc q s0 s' r
    end.
  Proof.
    intros FT P. apply run_turns in P. destruct P as (n & R). destruct AR as (AR1 & _).
    pose proof (tree_ok b (dcas b) (lse b) (ax AV) (ax AE) (ax AD) (ax AI) X (nx0 nl) a q eq_refl eq_refl ltac:(unfold xX, nx0; lia) W0 AR1 r0 f0 (args_env r0 f0 anchor0) k) as SH.
    destruct SH as (Y & B & bd & after & st & BODY & ENTRY).
    destruct (sound 0 false (init_state w nl infos v) (fst trees) PRE r0 f0 s0 n tr o inv_init R FT) as [[-> P]|[(res & c & -> & P & F)|(p & tr1 & tr2 & n' & x' & z & HP & -> & P & R' & L & HH)]].
    - exact (ENTRY tr None FT P).
    - exists res. split; [exact (ENTRY tr _ FT P)|exact F].
    - apply Forall_app in FT. destruct FT as [F1 F2]. destruct (ENTRY tr1 _ F1 P) as (y' & ST & T); [apply HH|].
      pose proof (loop_sound bd after st p HP BODY n' z y' x' tr2 o ST HH R' F2) as Q. destruct o as [[c|]|].
      + destruct Q as (res & Q & E). exists res. split; [now apply T|exact E].
      + exact Q.
      + now apply T.
  Qed.
End OneProof.

(** ** The checker *)
Lemma combine_locs l : forall i, forallb (fun '(p, n) => Nat.eqb (p_loc p) n) (combine l (seq i (List.length l))) = true -> map p_loc l = seq i (List.length l).
Proof.
  induction l as [|p l IH]; intros i E; [reflexivity|]. cbn [List.length seq combine forallb map] in *. rewrite andb_true_iff in E. destruct E as [E1 E2].
  apply Nat.eqb_eq in E1. f_equal; [exact E1|now apply IH].
Qed.
Lemma check_choice_some b dc ls anyload one k code infos conds clob cc v : check_choice b dc ls anyload one k code infos conds clob cc v = true ->
  exists head tm tf fuel, accept b dc ls (b_big b) anyload one (b_bits b) (b_bits b / 2) (address_bits (b_arch b)) (nlocs b) (nmach (b_arch b)) k code infos conds clob cc v head tm tf fuel = true.
Proof.
  unfold check_choice. cbv zeta. match goal with |- (let '(tm, tf) := ?G in _) = true -> _ => destruct G as [tm tf] end. intros C. eexists. exists tm, tf. eexists. exact C.
Qed.
Lemma accept_sound careful b k alloc q base a s conds code v head tm tf fuel :
  accept b (dcas b) (lse b) (b_big b) (match b_arch b with X86 => String.eqb (b_func b) "load" | _ => false end) (guarded b) (b_bits b) (b_bits b / 2)
    (address_bits (b_arch b)) (nlocs b) (nmach (b_arch b)) k code (map (info_of careful b k) (places b)) conds (filter (clobbered b) (seq 1 (nmach (b_arch b)))) (flags_declared b)
    v head tm tf fuel = true ->
  legal careful b alloc -> arguments b k q -> begins careful b alloc q base s -> 0 <= base < 2 ^ address_bits (b_arch b) ->
  b_bits b = 2 * (b_bits b / 2) -> 0 <= b_bits b -> match k with KBit _ => b_bits b = 2 ^ Z.log2 (b_bits b) | _ => True end ->
  (forall p, In p (places b) -> (nmach (b_arch b) < p_loc p < nlocs b)%nat) -> (nmach (b_arch b) < nlocs b)%nat ->
  (forall l, (l < nlocs b)%nat -> rep v l = least alloc l) -> the_conds b k = Some conds ->
  forall tr o, Forall (fitting (b_bits b)) tr -> path (asm_prog code alloc (b_bits b) base a s) tr o ->
  match o with
  | None => path (program b a q k) tr None
  | Some None => False
  | Some (Some s') => exists r, path (program b a q k) tr (Some r) /\ ends b k alloc q s s' r
  end.
Proof.
  intros C LG AR BG BR W2 W0 KB LOCS NM RV CO tr o FT P.
  assert (R0 : rep v 0%nat = 0%nat) by (rewrite RV by lia; reflexivity).
  assert (RR : forall l, (0 < l < nlocs b)%nat -> (0 < rep v l < nlocs b)%nat) by (intros l L; rewrite RV by lia; destruct (least_spec alloc l) as (A & _); lia).
  unfold accept in C. rewrite !andb_true_iff in C. destruct C as [[RH RP] RL]. unfold run_head in RH. rewrite !andb_true_iff in RH. destruct RH as [[[T1 T2] T3] T4].
  apply Nat.eqb_eq in T1, T2. unfold run_pre in RP. unfold run_loop in RL.
  refine (one_sound careful b k alloc q base a s v conds LG AR BG BR W2 W0 KB LOCS NM R0 RR _ _ _ CO tm tf T1 T2 code head fuel (conj T3 T4) RP _ tr o FT P).
  - intros l m L M. rewrite !RV by lia. apply least_iff; lia.
  - intros l L. destruct l as [|l]; [now rewrite !R0|]. rewrite RV; [|apply RR; lia]. rewrite !RV by exact L. apply least_least.
  - intros m M. rewrite RV by lia. now apply (least_machine alloc careful b LG).
  - intros p HP. clear RP. destruct head as [p'|]; [|discriminate HP]. injection HP as ->. exact RL.
Qed.
Theorem check_sound careful b : check careful b = true -> block_ok careful b.
Proof.
  intros C. unfold check in C. destruct (assemble b) as [code|] eqn:AS; [|discriminate C]. destruct (kind_of b) as [k|] eqn:KI; [|discriminate C].
  destruct (the_conds b k) as [conds|] eqn:CO; [|discriminate C]. cbv zeta in C. rewrite andb_true_iff in C. destruct C as [SA CH].
  unfold sane in SA. cbv zeta in SA. rewrite !andb_true_iff in SA. destruct SA as [[[[[S1 S2] S3] S4] S5] S6]. apply Z.eqb_eq in S1. apply Z.leb_le in S2. apply Nat.eqb_eq in S4.
  apply combine_locs in S5. rewrite forallb_forall in S6, CH.
  exists code, k. split; [exact AS|]. split; [exact KI|]. intros alloc q base a s LG AR BG BR.
  assert (LOCS : forall p, In p (places b) -> (nmach (b_arch b) < p_loc p < nlocs b)%nat).
  { intros p I. apply (in_map p_loc) in I. rewrite S5 in I. apply in_seq in I. lia. }
  assert (FIX : forall p l m, In p (places b) -> fixed b p = Some l -> In m l -> (1 <= m <= nmach (b_arch b))%nat).
  { intros p l m I F J. specialize (S6 _ (in_map (row_of careful b (places b)) _ _ I)). cbn [row_of w_fixed] in S6. rewrite F in S6. rewrite forallb_forall in S6.
    specialize (S6 m J). rewrite andb_true_iff in S6. destruct S6 as [A B]. apply Nat.leb_le in A, B. lia. }
  pose proof (choices_complete alloc careful b LG FIX (fun p I => proj1 (LOCS p I)) S5) as IN. rewrite <- S4 in IN. specialize (CH _ IN).
  apply check_choice_some in CH. destruct CH as (head & tm & tf & fuel & CH).
  refine (accept_sound careful b k alloc q base a s conds code _ head tm tf fuel CH LG AR BG BR S1 S2 _ LOCS _ _ CO).
  - destruct k; try exact I. now apply Z.eqb_eq.
  - lia.
  - intros l L. unfold rep. now apply nth_map_seq.
Qed.

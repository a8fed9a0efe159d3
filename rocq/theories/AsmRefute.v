(** * Runs that show that a block is wrong. *)
From Coq Require Import ZArith Arith List Bool Lia String Ascii.
From Verif Require Import Conv SpecInt Prog Word CoreModel SpecHand HandProof AsmExpr AsmText AsmModel SpecAsm.
Import ListNotations.
Open Scope string_scope.
Open Scope Z_scope.
Open Scope list_scope.

(** ** Running a block with given answers *)
Section Drive.
  Variables (ans : forall x : wact, wresp x) (code : list uop) (alloc : nat -> nat) (w base : Z) (a : addr).
  Notation step := (body code alloc w base a).
  Fixpoint drive (fuel : nat) (x : nat * cst) : list (did wact wresp) * option (option cst) :=
    match fuel with
    | O => ([], None)
    | S fuel =>
        match step x with
        | Ret (inl y) => drive fuel y
        | Ret (inr o) => ([], Some o)
        | Do c k => match k (ans c) with
                    | Ret (inl y) => let (tr, o) := drive fuel y in (existT wresp c (ans c) :: tr, o)
                    | Ret (inr o) => ([existT wresp c (ans c)], Some o)
                    | _ => ([], None)
                    end
        | Loop _ _ _ => ([], None)
        end
    end.
  Lemma drive_turns fuel : forall x tr o, drive fuel x = (tr, Some o) -> turns (fun s => path (step s)) (fun o => path (Ret o)) x tr (Some o).
  Proof.
    induction fuel as [|fuel IH]; intros x tr o D; [discriminate D|]. cbn [drive] in D. destruct (step x) as [[y|o']|c kc|? ? ? ? ?] eqn:E.
    - apply (turn_next _ _ x y [] tr); [rewrite E; split; auto|now apply IH].
    - injection D as <- ->. apply (turn_out _ _ x o [] []); [rewrite E; split; auto|split; auto].
    - destruct (kc (ans c)) as [[y|o']|? ?|? ? ? ? ?] eqn:K; try discriminate D.
      + destruct (drive fuel y) as [tr' o'] eqn:DR. injection D as <- ->. apply (turn_next _ _ x y [existT wresp c (ans c)] tr'); [|now apply IH].
        rewrite E. right. exists (ans c), []. split; [reflexivity|]. rewrite K. split; auto.
      + injection D as <- ->. apply (turn_out _ _ x o [existT wresp c (ans c)] []); [|split; auto].
        rewrite E. right. exists (ans c), []. split; [reflexivity|]. rewrite K. split; auto.
    - discriminate D.
  Qed.
End Drive.

(** ** Deciding the hypotheses *)
Section Decide.
  Variables (careful : bool) (b : block) (k : kind) (alloc : nat -> nat) (q : call) (base : Z) (s : cst).
  Notation ps := (places b).
  Notation nm := (nmach (b_arch b)).
  Definition legalb : bool :=
    forallb (fun m => Nat.eqb (alloc m) m) (seq 1 nm)
    && forallb (fun p => match fixed b p with Some l => existsb (Nat.eqb (alloc (p_loc p))) l | None => true end
                         && negb (clobbered b (alloc (p_loc p)))
                         && (Nat.eqb (file b p) 0 || Nat.ltb nm (alloc (p_loc p)))
                         && forallb (fun p' => Nat.eqb (p_loc p) (p_loc p') || negb (Nat.eqb (alloc (p_loc p)) (alloc (p_loc p'))) || may_share careful b p p') ps) ps.
  Lemma legalb_ok : legalb = true -> legal careful b alloc.
  Proof.
    unfold legalb. rewrite andb_true_iff, !forallb_forall. intros [M P].
    assert (P' : forall p, In p ps -> match fixed b p with Some l => existsb (Nat.eqb (alloc (p_loc p))) l | None => true end = true /\ clobbered b (alloc (p_loc p)) = false /\
      (file b p = 0%nat \/ (nm < alloc (p_loc p))%nat) /\
      forall p', In p' ps -> (Nat.eqb (p_loc p) (p_loc p') || negb (Nat.eqb (alloc (p_loc p)) (alloc (p_loc p'))) || may_share careful b p p') = true).
    { intros p I. specialize (P p I). rewrite !andb_true_iff, negb_true_iff, orb_true_iff, forallb_forall, Nat.eqb_eq, Nat.ltb_lt in P. tauto. }
    split.
    - intros m L. apply Nat.eqb_eq, M, in_seq. lia.
    - intros p l I F. destruct (P' p I) as (A & _). rewrite F in A. apply existsb_exists in A. destruct A as (x & X & E). apply Nat.eqb_eq in E. now subst x.
    - intros p m I C E. destruct (P' p I) as (_ & A & _). congruence.
    - intros p I F. destruct (P' p I) as (_ & _ & A & _). destruct A as [A|A]; [contradiction|exact A].
    - intros p p' I I' N E. destruct (P' p I) as (_ & _ & _ & A). specialize (A p' I'). rewrite !orb_true_iff, negb_true_iff, Nat.eqb_eq, Nat.eqb_neq in A. tauto.
  Qed.
  Definition contentb (p : place) (z : Z) : bool :=
    if is_address p then z =? base
    else if is_success p then wrap 8 z =? 0
    else match arg_of b p with
    | Some (x, c) =>
        let v := piece_of b c (arg_value q x) in
        match above_of careful b p with
        | Any => wrap (piece_bits b c) z =? v
        | Zero => z =? v
        | Sign => z =? sval (piece_bits b c) v
        end
    | None => true
    end.
  Lemma contentb_ok p z : contentb p z = true -> content careful b q base p z.
  Proof.
    unfold contentb, content. destruct (is_address p); [apply Z.eqb_eq|]. destruct (is_success p); [apply Z.eqb_eq|].
    destruct (arg_of b p) as [[x c]|]; [|auto]. cbv zeta. destruct (above_of careful b p); apply Z.eqb_eq.
  Qed.
  Definition beginsb : bool :=
    forallb (fun p => negb (is_in p) || contentb p (g s (alloc (p_loc p)))) ps
    && (negb (String.eqb (b_func b) "load") || match b_arch b with X86 => false | _ => true end
        || (q_i q =? join (b_bits b) (wrap (b_bits b / 2) (g s ebx)) (wrap (b_bits b / 2) (g s ecx)))).
  Lemma beginsb_ok : beginsb = true -> begins careful b alloc q base s.
  Proof.
    unfold beginsb. rewrite andb_true_iff, forallb_forall, !orb_true_iff, negb_true_iff. intros [C L]. split.
    - intros p I N. specialize (C p I). rewrite N in C. now apply contentb_ok.
    - intros A F. rewrite F, A in L. destruct L as [[L|L]|L]; [discriminate L|discriminate L|now apply Z.eqb_eq].
  Qed.
  Definition argumentsb : bool :=
    forallb (fun x => (0 <=? arg_value q x) && (arg_value q x <? 2 ^ b_bits b)) [AV; AE; AD; AI]
    && match k with KBit _ => q_v q <? b_bits b | _ => true end && (negb (guarded b) || (q_v q =? 1)).
  Lemma argumentsb_ok : argumentsb = true -> arguments b k q.
  Proof.
    unfold argumentsb. rewrite !andb_true_iff, forallb_forall. intros [[A B] C]. split; [|split].
    - intros x. specialize (A x). rewrite andb_true_iff, Z.leb_le, Z.ltb_lt in A. apply A. destruct x; cbn; tauto.
    - destruct k; try exact I. now apply Z.ltb_lt.
    - intros G. rewrite G in C. now apply Z.eqb_eq.
  Qed.
  Definition fittingb (d : did wact wresp) : bool :=
    let w := b_bits b in
    match d with
    | existT _ (ALoad _) x | existT _ (AXchg _ _) x | existT _ (ARmw _ _ _) x => (0 <=? x) && (x <? 2 ^ w)
    | existT _ (AHalf _ _ _) x => (0 <=? x) && (x <? 2 ^ (w / 2))
    | existT _ (ACas _ _ _) x => (0 <=? snd x) && (snd x <? 2 ^ w)
    | existT _ (ALL _) x => (0 <=? fst x) && (fst x <? 2 ^ w)
    | existT _ (ALLHalf _ _ _) x => (0 <=? fst x) && (fst x <? 2 ^ (w / 2))
    | _ => true
    end.
  Lemma fittingb_ok d : fittingb d = true -> fitting (b_bits b) d.
  Proof. destruct d as [c x]. destruct c; cbn [fittingb fitting]; try (intros; exact I); rewrite andb_true_iff, Z.leb_le, Z.ltb_lt; auto. Qed.

  (** *** Three ways to be wrong *)
  (** a register is changed that is neither output nor clobber *)
  Definition spoils (s' : cst) : bool :=
    existsb (fun m => negb (clobbered b m) && forallb (fun p => negb (is_out p && Nat.eqb (alloc (p_loc p)) m)) ps && negb (g s' m =? g s m)) (map (fun p => alloc (p_loc p)) ps ++ seq 1 nm).
  Lemma spoils_ok s' r : spoils s' = true -> ends b k alloc q s s' r -> False.
  Proof.
    unfold spoils. rewrite existsb_exists. intros (m & _ & C) E. rewrite !andb_true_iff, !negb_true_iff, forallb_forall in C. destruct C as [[C1 C2] C3].
    apply Z.eqb_neq in C3. apply C3. apply (en_frame _ _ _ _ _ _ _ E); [|exact C1]. intros p I O Q. specialize (C2 p I). rewrite O, Q, Nat.eqb_refl in C2. discriminate C2.
  Qed.
  (** a compare_exchange gives up although the value found is the expected one *)
  Definition gives_up (tr : list (did wact wresp)) : bool :=
    match b_arch b with Alpha | PowerPC => true | _ => false end
    && match k with KWeak | KStrong => true | _ => false end
    && match tr with [existT _ (ALL _) x] => fst x =? q_e q | _ => false end.
  Definition alone (e : Z) (tr : list (did wact wresp)) : Prop := match tr with [existT _ (ALL _) x] => fst x = e | _ => False end.
  Lemma alone_do {R} a e (p : Z -> Z -> wprog R) tr tr' o : alone e (tr ++ tr') -> path (Do (ALL a) (fun x => p (fst x) (snd x))) tr (Some o) ->
    exists t, tr = [existT wresp (ALL a) (e, t)] /\ path (p e t) [] (Some o).
  Proof.
    intros A [[_ P]|([y t] & tr1 & -> & P)]; [discriminate P|]. cbn [app alone] in A. destruct tr1 as [|d tr1]; [|destruct A].
    destruct tr'; [|destruct A]. cbn in A. subst y. exists t. split; [reflexivity|exact P].
  Qed.
  Lemma gives_up_ok a tr r : gives_up tr = true -> path (program b a q k) tr (Some r) -> False.
  Proof.
    unfold gives_up. rewrite !andb_true_iff. intros [[A K] T] P.
    assert (PR : program b a q k = llsc_program b a q k) by (unfold program; destruct (b_arch b); try discriminate A; reflexivity). rewrite PR in P. clear PR A.
    assert (AL : alone (q_e q) tr). { destruct tr as [|[c x] [|d tr]]; [discriminate T| |destruct c; discriminate T]. destruct c; try discriminate T. now apply Z.eqb_eq in T. }
    assert (STOP : forall X (p : bool -> wprog X) t d o, path (Do (ASC a t d) p) [] (Some o) -> False).
    { intros X p t d o [[_ Q]|(x & tr' & Q & _)]; discriminate Q. }
    destruct k; try discriminate K; cbn [llsc_program] in P.
    - rewrite <- (app_nil_r tr) in AL.
      destruct (alone_do a (q_e q) (fun x t => bind (if x =? q_e q then Do (ASC a t (q_d q)) (fun b => Ret (b, x)) else Ret (false, x)) (fun '(ok, x) => Ret (Res x 0 ok))) tr [] r AL) as (t & _ & Q).
      + destruct P as [P|([y t] & tr' & E & P)]; [left; exact P|right; exists (y, t), tr'; auto].
      + rewrite Z.eqb_refl in Q. exact (STOP _ _ _ _ _ Q).
    - unfold ll_cas, loop in P. cbn [bind] in P.
      set (bd := fun x t => if x =? q_e q then Do (ASC a t (q_d q)) (fun b : bool => if b then Ret (inr (true, x)) else Ret (inl tt)) else Ret (inr (false, x)) : wprog (unit + bool * Z)).
      assert (ONE : forall tr tr' o, alone (q_e q) (tr ++ tr') -> path (Do (ALL a) (fun x => bd (fst x) (snd x))) tr (Some o) -> False).
      { intros tr1 tr2 o A1 Q. destruct (alone_do a (q_e q) bd tr1 tr2 o A1 Q) as (t & _ & Q'). unfold bd in Q'. rewrite Z.eqb_refl in Q'. exact (STOP _ _ _ _ _ Q'). }
      assert (SAME : forall s tr o, path ((fun _ : unit => bind (ll a) (fun '(x, tok) => if x =? q_e q then bind (sc a tok (q_d q)) (fun b => if b then Ret (inr (true, x)) else Ret (inl tt)) else Ret (inr (false, x)))) s) tr o ->
        path (Do (ALL a) (fun x => bd (fst x) (snd x))) tr o).
      { intros s1 tr1 o [Q|([y t] & tr' & E & Q)]; [left; exact Q|right; exists (y, t), tr'; auto]. }
      cbn [path] in P. inversion P as [s1 tr1 Q|s1 s2 tr1 tr2 o Q R|s1 x tr1 tr2 o Q R]; subst; exact (ONE tr1 tr2 _ AL (SAME tt _ _ Q)).
  Qed.

  (** *** The claim fails *)
  Definition refutes (code : list uop) (ans : forall x : wact, wresp x) : bool :=
    legalb && argumentsb && beginsb && (0 <=? base) && (base <? 2 ^ address_bits (b_arch b))
    && let (tr, o) := drive ans code alloc (b_bits b) base 0%nat 100 (0%nat, s) in
       forallb fittingb tr && match o with Some (Some s') => spoils s' || gives_up tr | Some None => true | None => false end.
  Theorem refutes_ok code ans : assemble b = Some code -> kind_of b = Some k -> refutes code ans = true -> ~ block_ok careful b.
  Proof.
    intros AS KI R (code' & k' & AS' & KI' & OK). rewrite AS in AS'. injection AS' as <-. rewrite KI in KI'. injection KI' as <-.
    unfold refutes in R. rewrite !andb_true_iff, Z.leb_le, Z.ltb_lt in R. destruct R as [[[[[R1 R2] R3] R4] R5] R6].
    destruct (drive ans code alloc (b_bits b) base 0%nat 100 (0%nat, s)) as [tr o] eqn:D. rewrite andb_true_iff, forallb_forall in R6. destruct R6 as [F R].
    destruct o as [o|]; [|discriminate R]. apply drive_turns in D.
    specialize (OK alloc q base 0%nat s (legalb_ok R1) (argumentsb_ok R2) (beginsb_ok R3) (conj R4 R5) tr (Some o)).
    specialize (OK ltac:(apply Forall_forall; intros d I; apply fittingb_ok; now apply F) D). destruct o as [s'|]; [|exact OK].
    destruct OK as (r & P & E). rewrite orb_true_iff in R. destruct R as [R|R]; [exact (spoils_ok s' r R E)|exact (gives_up_ok 0%nat tr r R P)].
  Qed.
End Decide.

(** ** Runs to try *)
Section Try.
  Variables (careful : bool) (b : block) (q : call) (share : bool).
  (** each location in a register of its own, as far as the constraints allow; if [share], the first register of the
      desired value is the one of the success flag *)
  Definition own (p : place) : nat := match fixed b p with Some (m :: _) => m | _ => p_loc p end.
  Definition success_loc : option nat := match List.find is_success (places b) with Some p => Some (p_loc p) | None => None end.
  Definition try_alloc (l : nat) : nat :=
    match List.find (fun p => Nat.eqb (p_loc p) l) (places b) with
    | Some p => if share && String.eqb (o_expr (p_op p)) "desired" && Nat.eqb (p_part p) 0 then match success_loc with Some m => m | None => own p end else own p
    | None => l
    end.
  Definition try_base : Z := 1024.
  Definition try_value (p : place) : Z :=
    if is_address p then try_base
    else if is_success p then 0
    else match arg_of b p with
    | Some (x, c) =>
        let v := piece_of b c (arg_value q x) in
        match above_of careful b p with
        | Any => v + 2 ^ piece_bits b c
        | Zero => v
        | Sign => sval (piece_bits b c) v
        end
    | None => 7
    end.
  Definition try_state : cst :=
    St (fun m => match List.find (fun p => is_in p && Nat.eqb (try_alloc (p_loc p)) m) (places b) with Some p => try_value p | None => 4096 + Z.of_nat m end) 0 (fun _ => false) None.
  Definition try_answer (x : wact) : wresp x :=
    match x with
    | ALoad _ | ARacy _ _ | AHalf _ _ _ | AXchg _ _ | ARmw _ _ _ => 0
    | AStore _ _ => tt
    | ACas _ _ _ | ACasW _ _ _ => (true, 0)
    | AKCas _ _ _ | ASC _ _ _ => true
    | ALL _ | ALLHalf _ _ _ => (1, 5)
    end.
End Try.
Definition wrong (careful : bool) (b : block) : bool :=
  match assemble b, kind_of b with
  | Some code, Some k => existsb (fun share => refutes careful b k (try_alloc b share) (Call 3 1 0 0) try_base (try_state careful b (Call 3 1 0 0) share) code try_answer) [false; true]
  | _, _ => false
  end.
Theorem wrong_ok careful b : wrong careful b = true -> ~ block_ok careful b.
Proof.
  unfold wrong. destruct (assemble b) as [code|] eqn:A; [|discriminate]. destruct (kind_of b) as [k|] eqn:K; [|discriminate].
  rewrite existsb_exists. intros (share & _ & R). exact (refutes_ok _ _ _ _ _ _ _ _ _ A K R).
Qed.

(** ** Blocks can be entered and left *)

(** some choice of registers, arguments and answers of the memory meets all conditions, and the block ends *)
Definition can_run (careful : bool) (b : block) : Prop :=
  exists code k alloc q base a s tr s', assemble b = Some code /\ kind_of b = Some k /\
  legal careful b alloc /\ arguments b k q /\ begins careful b alloc q base s /\ 0 <= base < 2 ^ address_bits (b_arch b) /\
  Forall (fitting (b_bits b)) tr /\ path (asm_prog code alloc (b_bits b) base a s) tr (Some (Some s')).
Definition run_call (careful : bool) (b : block) : call :=
  let one := wrap (b_bits b) 1 in
  let s := try_state careful b (Call one one 0 0) false in
  Call one one 0 (match b_arch b with
              | X86 => if String.eqb (b_func b) "load" then join (b_bits b) (wrap (b_bits b / 2) (g s ebx)) (wrap (b_bits b / 2) (g s ecx)) else 0
              | _ => 0
              end).
Definition runs (careful : bool) (b : block) : bool :=
  match assemble b, kind_of b with
  | Some code, Some k =>
      let q := run_call careful b in
      let alloc := try_alloc b false in
      let s := try_state careful b q false in
      legalb careful b alloc && argumentsb b k q && beginsb careful b alloc q try_base s
      && let (tr, o) := drive try_answer code alloc (b_bits b) try_base 0%nat 100 (0%nat, s) in
         forallb (fittingb b) tr && match o with Some (Some _) => true | _ => false end
  | _, _ => false
  end.
Lemma runs_ok careful b : runs careful b = true -> can_run careful b.
Proof.
  unfold runs. destruct (assemble b) as [code|] eqn:A; [|discriminate]. destruct (kind_of b) as [k|] eqn:K; [|discriminate]. cbv zeta.
  rewrite !andb_true_iff. intros [[[L AR] B] R].
  destruct (drive try_answer code (try_alloc b false) (b_bits b) try_base 0%nat 100 (0%nat, try_state careful b (run_call careful b) false)) as [tr o] eqn:D.
  rewrite andb_true_iff, forallb_forall in R. destruct R as [F R]. destruct o as [[s'|]|]; try discriminate R. apply drive_turns in D.
  exists code, k, (try_alloc b false), (run_call careful b), try_base, 0%nat, (try_state careful b (run_call careful b) false), tr, s'.
  split; [exact A|]. split; [exact K|]. split; [exact (legalb_ok _ _ _ L)|]. split; [exact (argumentsb_ok _ _ _ AR)|]. split; [exact (beginsb_ok _ _ _ _ _ _ B)|].
  split; [unfold try_base; destruct (b_arch b); cbn [address_bits]; split; reflexivity || discriminate|].
  split; [apply Forall_forall; intros d I; apply fittingb_ok; now apply F|exact D].
Qed.

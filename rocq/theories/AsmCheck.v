(** * A checker of assembler blocks. *)
From Coq Require Import ZArith Arith List Bool Lia String Ascii.
From Verif Require Import Conv SpecInt Prog Word SpecHand HandProof AsmExpr AsmText AsmModel SpecAsm AsmNorm AsmSym AsmTrees.
Import ListNotations.
Open Scope string_scope.
Open Scope Z_scope.
Open Scope list_scope.

(** ** What matters about a place *)
Inductive special := SpAddress | SpSuccess | SpZero (k : Z) | SpSign (k : Z) | SpBit.
Record info := Info { i_loc : nat; i_in : bool; i_out : bool; i_special : option special; i_arg : option (arg * piece); i_outcome : option outcome; i_bits : Z }.
Definition special_of (careful : bool) (b : block) (k : kind) (p : place) : option special :=
  if is_address p then Some SpAddress
  else if is_success p then Some SpSuccess
  else match arg_of b p with
  | Some (x, c) =>
      match above_of careful b p with
      | Zero => Some (SpZero (piece_bits b c))
      | Sign => Some (SpSign (piece_bits b c))
      | Any => match k, x, c with KBit _, AV, Whole => Some SpBit | _, _, _ => None end
      end
  | None => None
  end.
Definition info_of (careful : bool) (b : block) (k : kind) (p : place) : info :=
  let o := place_outcome b k p in
  Info (p_loc p) (is_in p) (is_out p) (special_of careful b k p) (if is_address p || is_success p then None else arg_of b p) o
    (match o with Some o => outcome_bits b p o | None => 0 end).

(** ** The choices of registers *)
Record row := Row { w_loc : nat; w_fixed : option (list nat); w_file : nat; w_share : list (nat * bool) }.
Definition row_of (careful : bool) (b : block) (ps : list place) (p : place) : row :=
  Row (p_loc p) (fixed b p) (file b p) (map (fun p' => (p_loc p', may_share careful b p p')) ps).
Section Enum.
  Variables (nm : nat) (clob : list nat).
  Definition candidate (x : row) (v : list nat) (c : nat) : bool :=
    (Nat.eqb c (w_loc x) || Nat.eqb (nth c v 0%nat) c)
    && match w_fixed x with None => true | Some l => existsb (Nat.eqb c) l end
    && (if Nat.leb c nm then Nat.eqb (w_file x) 0 && negb (existsb (Nat.eqb c) clob) else true)
    && forallb (fun '(l, ok) => if Nat.ltb l (w_loc x) && Nat.eqb (nth l v 0%nat) c then ok else true) (w_share x).
  Definition extend (x : row) (v : list nat) : list (list nat) :=
    map (fun c => v ++ [c]) (filter (candidate x v) (seq 1 (w_loc x))).
  Definition choices (rows : list row) : list (list nat) :=
    fold_left (fun vs x => flat_map (extend x) vs) rows [seq 0 (S nm)].
End Enum.

(** ** One choice *)
Inductive tmpl := TX (e : expr) | TGen | TLow (k : Z) (e : expr).

Section One.
  Variables (b : block) (dc ls big anyload one : bool) (w h abits : Z) (nl nm : nat) (k : kind) (code : list uop).
  Variables (infos : list info) (conds : list (cnd * outcome)) (clob : list nat) (cc : bool).
  Variable v : list nat.  (* the representative of each location *)
  Definition rep (l : nat) : nat := nth l v 0%nat.
  Definition xB : nat := nl.
  Definition x_of (x : arg) : nat := (nl + match x with AV => 1 | AE => 2 | AD => 3 | AI => 4 end)%nat.
  Definition xX : nat := (nl + 5)%nat.
  Definition xgen (c : nat) : nat := (nl + 6 + c)%nat.
  Definition nx0 : nat := (nl + 6 + nl)%nat.
  Definition bit_width : Z := match k with KBit _ => Z.log2 w | _ => w end.
  Definition wd0 : wds := [(0%nat, abits); (xB, bit_width); (x_of AV, w); (x_of AE, w); (x_of AD, w); (x_of AI, w); (xX, w)].

  Definition in_class (c : nat) (i : info) : bool := Nat.eqb (rep (i_loc i)) c.
  Definition special_in (c : nat) : option special :=
    fold_right (fun i r => if i_in i && in_class c i then match i_special i with Some s => Some s | None => r end else r) None infos.
  Definition init (c : nat) : expr :=
    if Nat.eqb c 0 then EV (xgen 0) else
    match special_in c with
    | Some SpAddress => EV 0
    | Some SpSuccess => EIns 8 (EV c) (EC 0)
    | Some (SpZero j) => ELow j (EV c)
    | Some (SpSign j) => ESx j (EV c)
    | Some SpBit => EIns w (EV c) (EV xB)
    | None => EV c
    end.
  Definition init_state : sst := Sy (map init (seq 0 nl)) [CV 0; CV 1; CV 2] None.

  Definition find_piece (x : arg) (want : piece -> bool) : option nat :=
    fold_right (fun i r => match i_arg i with
      | Some (y, c) => if i_in i && match x, y with AV, AV | AE, AE | AD, AD | AI, AI => true | _, _ => false end && want c then Some (rep (i_loc i)) else r
      | None => r end) None infos.
  Definition want_whole (c : piece) : bool := match c with Whole => true | _ => false end.
  Definition want_half (hi : bool) (c : piece) : bool :=
    match c with Whole => false | Word_ s => Bool.eqb (xorb s big) hi | Half_ i => Bool.eqb i hi end.
  Definition arg_expr (x : arg) : expr :=
    match find_piece x want_whole with
    | Some c => ELow w (init c)
    | None =>
        match find_piece x (want_half false), find_piece x (want_half true) with
        | Some c, Some d => EJoin h (init c) (ELow h (init d))
        | _, _ => match x with
                  | AI => if anyload then EJoin h (init ebx) (ELow h (init ecx)) else EV (x_of AI)
                  | AV => if one then EC 1 else EV (x_of AV)
                  | _ => EV (x_of x)
                  end
        end
    end.
  Definition the_trees : stree * stree := tree b dc ls (arg_expr AV) (arg_expr AE) (arg_expr AD) (arg_expr AI) xX nx0 k.

  (** *** At the end *)
  (** the place of the other half, when both are outputs *)
  Definition half_at (new hi : bool) : option nat :=
    fold_right (fun i r => match i_outcome i with
      | Some (OOld c) => if negb new && want_half hi c && i_out i then Some (rep (i_loc i)) else r
      | Some (ONew c) => if new && want_half hi c && i_out i then Some (rep (i_loc i)) else r
      | _ => r end) None infos.
  Definition half_ok (s : sst) kn wd (c : nat) (new hi : bool) (e : expr) : bool :=
    low_eq kn wd h (reg s c) (if hi then EHi h e else e)
    || match half_at new (negb hi) with
       | Some d => low_eq kn wd w (if hi then EJoin h (reg s d) (ELow h (reg s c)) else EJoin h (reg s c) (ELow h (reg s d))) e
       | None => false
       end.
  Definition piece_ok (s : sst) kn wd (c : nat) (new : bool) (p : piece) (e : expr) : bool :=
    match p with
    | Whole => low_eq kn wd w (reg s c) e && fits wd w (simp (look wd) e)
    | Word_ t => half_ok s kn wd c new (xorb t big) e
    | Half_ hi => half_ok s kn wd c new hi e
    end.
  Definition truth_cnd (o : outcome) (old new : expr) (ok : cnd) : cnd :=
    match o with
    | OOk => ok
    | OTest => CNot (CEq w new (EC 0))
    | OBit => CBit old (arg_expr AV)
    | _ => CF
    end.
  Definition truth_fits wd (o : outcome) (new : expr) : bool := match o with OTest => fits wd w (simp (look wd) new) | _ => true end.
  Definition outcome_ok (s : sst) kn wd (c : nat) (bits : Z) (o : outcome) (old new : expr) (ok : cnd) : bool :=
    match o with
    | OOld p => piece_ok s kn wd c false p old
    | ONew p => piece_ok s kn wd c true p new
    | _ => (1 <=? bits) && truth_fits wd o new && low_eq kn wd bits (reg s c) (EB (truth_cnd o old new ok))
    end.
  Definition final (s : sst) (kn : list fact) (wd : wds) (old new : expr) (ok : cnd) : bool :=
    forallb (fun i => match i_outcome i with Some o => if i_out i then outcome_ok s kn wd (rep (i_loc i)) (i_bits i) o old new ok else true | None => true end) infos
    && forallb (fun '(c, o) => cbelow nl 3 c && truth_fits wd o new && ceq_all kn wd (subc rep s c) (truth_cnd o old new ok)) conds
    && forallb (fun l => negb (Nat.eqb (rep l) l) || existsb (fun i => i_out i && in_class l i) infos
                         || (Nat.leb l nm && existsb (Nat.eqb l) clob) || eq_all kn wd (reg s l) (init l)) (seq 1 (nl - 1))
    && (cc || (ceq_all kn wd (flag s 0) (CV 0) && ceq_all kn wd (flag s 1) (CV 1))).

  (** *** At the top of the loop *)
  Variables (head : option nat) (tm : list tmpl) (tf : list (option cnd)).
  Definition with_x (e : expr) (x : expr) : expr := esub (fun l => if Nat.eqb l xX then e else EV l) CV x.
  Definition filled (c : nat) (t : tmpl) : expr :=
    match t with TX e => e | TGen => EV (xgen c) | TLow j e => EIns j (EV (xgen c)) e end.
  Fixpoint fill (c : nat) (l : list tmpl) : list expr := match l with [] => [] | t :: l => filled c t :: fill (S c) l end.
  Fixpoint fill_flags (n : nat) (l : list (option cnd)) : list cnd :=
    match l with [] => [] | Some c :: l => c :: fill_flags (S n) l | None :: l => CV (3 + n) :: fill_flags (S n) l end.
  Definition head_state : sst := Sy (fill 0 tm) (fill_flags 0 tf) None.
  Definition tmpl_ok (s : sst) kn wd e (c : nat) (t : tmpl) : bool :=
    negb (Nat.eqb (rep c) c) ||
    match t with
    | TX x => ebelow (S xX) 3 x && eq_all kn wd (reg s c) (with_x e x)
    | TGen => true
    | TLow j x => ebelow (S xX) 3 x && low_eq kn wd j (reg s c) (with_x e x)
    end.
  Definition cover (s : sst) (kn : list fact) (wd : wds) (e : expr) : bool :=
    fits wd w (simp (look wd) e)
    && forallb (fun '(c, t) => tmpl_ok s kn wd e c t) (combine (seq 0 nl) tm)
    && forallb (fun '(n, t) => match t with Some c => cbelow 0 3 c && ceq_all kn wd (flag s n) c | None => true end) (combine (seq 0 3) tf).
  Variable fuel : nat.
  Definition run_pre : bool := sim code w nl rep head final cover fuel 0 false init_state nx0 6 [] wd0 (fst the_trees).
  Definition run_loop : bool :=
    match head with Some p => sim code w nl rep head final cover fuel p true head_state nx0 6 [] wd0 (snd the_trees) | None => true end.
  Definition run_head : bool :=
    Nat.eqb (List.length tm) nl && Nat.eqb (List.length tf) 3
    && forallb (ebelow nx0 6) (sr head_state) && forallb (cbelow nx0 6) (sf head_state).
  Definition accept : bool := run_head && run_pre && run_loop.
End One.

(** ** Guessing the state at the top of the loop (not trusted) *)
Section Guess.
  Variables (code : list uop) (w h : Z) (nl : nat) (rep : nat -> nat) (xX : nat) (fill : nat -> option tmpl) (head : option nat).
  Fixpoint back_jumps (pc : nat) (c : list uop) : list (nat * nat) :=
    match c with
    | UJmp _ (TAbs t) :: c => (if Nat.leb t pc then [(t, pc)] else []) ++ back_jumps (S pc) c
    | _ :: c => back_jumps (S pc) c
    | [] => []
    end.
  Definition range : nat * nat := match back_jumps 0 code with (t, p) :: l => (t, fold_right (fun x m => Nat.max (snd x) m) p l) | [] => (0, 0)%nat end.
  Definition touched : list uop := let '(t, p) := range in firstn (S p - t) (skipn t code).
  Definition wrote (c : nat) : bool := Nat.eqb c 0 || existsb (fun u => match u with UMov d _ => Nat.eqb (rep d) c | _ => false end) touched.
  Definition wrote_flag (n : nat) : bool := Nat.eqb n 2 || existsb (fun u => match u with UFlag d _ => Nat.eqb d n | _ => false end) touched.
  (** the first path to the top of the loop *)
  Fixpoint entry (fuel pc : nat) (s : sst) (nx nf : nat) (kn : list fact) (wd : wds) (t : stree) : option (sst * list fact * wds * expr) :=
    match fuel with
    | O => None
    | S fuel =>
        if match head with Some h => Nat.eqb pc h | None => false end
        then match settle kn wd t with SBack e => Some (s, kn, wd, e) | _ => None end
        else match nth_error code pc with
        | Some (UMov d e) => entry fuel (S pc) (set_reg rep s d (simp (look wd) (sube rep s e))) nx nf kn wd t
        | Some (UFlag n c) => entry fuel (S pc) (set_flag s n (csimp (look wd) (subc rep s c))) nx nf kn wd t
        | Some (UJmp c (TAbs tg)) => match cnorm kn wd (subc rep s c) with CT => entry fuel tg s nx nf kn wd t | _ => entry fuel (S pc) s nx nf kn wd t end
        | Some (UDiff _ _) | Some (UBelow _ _) => entry fuel (S pc) s nx nf kn wd t
        | Some UExit | Some (UJmp _ _) | None => None
        | Some u =>
            match settle kn wd t with
            | SAct x k => match access w nl rep u x s nx nf kn wd with Some (s', nx', nf', wd') => entry fuel (S pc) s' nx' nf' kn wd' k | None => None end
            | _ => None
            end
        end
    end.
  Definition guess_one (s : sst) kn wd (e : expr) (c : nat) : tmpl :=
    let x := reg s c in
    if Nat.eqb c 0 then TGen else if wrote c then
      match e with
      | EC _ => match fill c with Some (TLow j y) => if low_eq kn wd j x y then TLow j y else TGen | Some t => t | None => TGen end
      | _ =>
          if low_eq kn wd w x e then TLow w (EV xX)
          else if low_eq kn wd h x e then TLow h (EV xX)
          else if low_eq kn wd h x (EHi h e) then TLow h (EHi h (EV xX))
          else TGen
      end
    else TX x.
  Definition guess (r : option (sst * list fact * wds * expr)) : list tmpl * list (option cnd) :=
    match r with
    | Some (s, kn, wd, e) =>
        (map (guess_one s kn wd e) (seq 0 nl), map (fun n => if wrote_flag n then None else Some (flag s n)) (seq 0 3))
    | None => (repeat TGen nl, repeat None 3)
    end.
End Guess.

(** ** A block *)
Definition the_conds (b : block) (k : kind) : option (list (cnd * outcome)) :=
  all_some (map (fun x => match condition (o_con x), outcome_of b k (o_expr x) with Some c, Some o => Some (c, o) | _, _ => None end)
    (filter (fun x => has "@"%char (o_con x)) (b_outs b))).
Definition sane (b : block) (k : kind) (ps : list place) (rows : list row) : bool :=
  let nm := nmach (b_arch b) in
  (b_bits b =? 2 * (b_bits b / 2)) && (0 <=? b_bits b)
  && match k with KBit _ => b_bits b =? 2 ^ Z.log2 (b_bits b) | _ => true end
  && Nat.eqb (nlocs b) (S nm + List.length ps)
  && forallb (fun '(p, n) => Nat.eqb (p_loc p) n) (combine ps (seq (S nm) (List.length ps)))
  && forallb (fun x => match w_fixed x with Some l => forallb (fun m => Nat.leb 1 m && Nat.leb m nm) l | None => true end) rows.

Definition check_choice (b : block) (dc ls anyload one : bool) (k : kind) (code : list uop) (infos : list info) conds clob (cc : bool) (v : list nat) : bool :=
  let nl := nlocs b in let w := b_bits b in let h := w / 2 in
  let head := match back_jumps 0 code with (t, _) :: _ => Some t | [] => None end in
  let rep := rep v in
  let trees := the_trees b dc ls (b_big b) anyload one w h nl k infos v in
  let abits := address_bits (b_arch b) in
  let fill c :=
    match special_in infos v c with
    | Some SpSuccess => Some (TLow 8 (EC 0))
    | Some _ => Some (TX (init w nl infos v c))
    | None =>
        if existsb (fun i => in_class v c i && match i_outcome i with Some OOk => true | _ => false end) infos then Some (TLow 8 (EC 0))
        else if existsb (fun i => i_in i && in_class v c i && match i_arg i with Some (AE, _) => true | _ => false end) infos then Some (TLow w (init w nl infos v c)) else None
    end in
  let '(tm, tf) := guess code w h nl rep (xX nl) fill
                     (entry code w nl rep head 200 0 (init_state w nl infos v) (nx0 nl) 6 [] (wd0 w abits nl k) (fst trees)) in
  accept b dc ls (b_big b) anyload one w h abits nl (nmach (b_arch b)) k code infos conds clob cc v head tm tf 200.

Definition check (careful : bool) (b : block) : bool :=
  match assemble b, kind_of b with
  | Some code, Some k =>
      match the_conds b k with
      | Some conds =>
          let ps := places b in
          let nm := nmach (b_arch b) in
          let rows := map (row_of careful b ps) ps in
          let infos := map (info_of careful b k) ps in
          let clob := filter (clobbered b) (seq 1 nm) in
          let anyload := match b_arch b with X86 => String.eqb (b_func b) "load" | _ => false end in
          sane b k ps rows
          && forallb (check_choice b (dcas b) (lse b) anyload (guarded b) k code infos conds clob (flags_declared b)) (choices nm clob rows)
      | None => false
      end
  | _, _ => false
  end.

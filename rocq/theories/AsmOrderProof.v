(** * The text of assembler blocks has the barriers of FenceModel.v. *)
From Coq Require Import ZArith Arith List Bool String Ascii.
From Verif Require Import Order AsmText AsmModel SpecAsm AsmBlocks AsmOrder.
From Verif Require Reorder FenceModel SpecOrder SpecFence FenceProof.
Import ListNotations.
Open Scope string_scope.
Open Scope Z_scope.
Open Scope list_scope.

(** ** Another place *)

Definition put_at (l : nat) (x : item) : item :=
  match x with
  | Reorder.Access a => Reorder.Access (Reorder.Acc (Reorder.a_kind a) l (Reorder.a_clob a) (Reorder.a_vol a) (Reorder.a_acq a) (Reorder.a_rel a) (Reorder.a_sc a) (Reorder.a_br a))
  | x => x
  end.
Lemma barrier_put ar op args x l : barrier ar op args = Some x -> put_at l x = x.
Proof.
  unfold barrier. destruct ar.
  - destruct (op =? "mb")%string; intros E; inversion E; reflexivity.
  - cbn [find]. repeat (match goal with |- context [if ?c then _ else _] => destruct c end); intros E; inversion E; reflexivity.
  - destruct (mem _ _); intros E; inversion E; reflexivity.
  - destruct (op =? "dmb")%string; [|discriminate]. cbn [find]. repeat (match goal with |- context [if ?c then _ else _] => destruct c end); intros E; inversion E; reflexivity.
  - destruct (op =? "dmb")%string; [|discriminate]. cbn [find]. repeat (match goal with |- context [if ?c then _ else _] => destruct c end); intros E; inversion E; reflexivity.
  - destruct (op =? "membar")%string; [|discriminate]. destruct (mem "#Sync" args); intros E; inversion E; reflexivity.
  - discriminate.
Qed.
Lemma line_items_put b l rest n : line_items b l rest n = option_map (map (put_at n)) (line_items b l rest 0).
Proof.
  unfold line_items. destruct (barrier _ _ _) as [x|] eqn:B.
  { apply barrier_put with (l := n) in B. destruct (mem _ _); cbn; [now rewrite B|reflexivity]. }
  destruct (l_lock l && _); [destruct (mem _ _); reflexivity|].
  destruct (line_code b l) as [c|]; [|reflexivity].
  destruct (existsb reads_it c), (existsb writes_it c), (b_arch b), (mem "memory" (b_clob b)); reflexivity.
Qed.
Lemma items_of_put b ls n : items_of b ls n = option_map (map (put_at n)) (items_of b ls 0).
Proof.
  induction ls as [|l ls IH]; [reflexivity|]. cbn [items_of]. rewrite line_items_put, IH.
  destruct (line_items b l ls 0); [|reflexivity]. destruct (items_of b ls 0); [|reflexivity]. cbn. now rewrite map_app.
Qed.
Lemma items_put b n : items b n = option_map (fun p => (map (put_at n) (fst p), map (put_at n) (snd p))) (items b 0).
Proof.
  unfold items. rewrite (items_of_put b (fst (split b)) n), (items_of_put b (snd (split b)) n).
  destruct (items_of b (fst (split b)) 0) as [x|]; [|reflexivity]. destruct (items_of b (snd (split b)) 0) as [[|y l]|]; [|reflexivity|reflexivity].
  cbn. destruct (b_text b); [destruct (mem _ _)|]; reflexivity.
Qed.
Lemma unstored_put n c : unstored (map (put_at n) c) = map (put_at n) (unstored c).
Proof.
  induction c as [|x c IH]; [reflexivity|]. unfold unstored in *. cbn [map filter].
  assert (E : is_write (put_at n x) = is_write x) by (destruct x; reflexivity). rewrite E. destruct (is_write x); cbn [negb]; [exact IH|]. cbn [map]. now rewrite IH.
Qed.

(** ** The loops of FenceModel.v *)

Definition shape (bk : FenceModel.backend) (l : nat) (p : FenceModel.op) : list item * list item * list item :=
  let whole := ([], [], FenceModel.emit bk l p) in
  match bk with
  | FenceModel.X86 =>
      match p with FenceModel.OFetch false _ _ => ([FenceModel.ld l], FenceModel.x86_cas false l, FenceModel.x86_cas true l) | _ => whole end
  | FenceModel.X86Wide al =>
      let loop := ([FenceModel.ld_asm l; FenceModel.ld_asm l], FenceModel.x86_cas false l, FenceModel.x86_cas true l) in
      match p with
      | FenceModel.OStore _ o | FenceModel.OClear _ o => if negb (is_seq_cst o) && al then ([], [], [FenceModel.st_asm l]) else loop
      | FenceModel.OExchange _ _ | FenceModel.OTestAndSet _ _ | FenceModel.OFetch _ _ _ => loop
      | _ => whole
      end
  | FenceModel.Ppc p64 =>
      match p with
      | FenceModel.OExchange _ o | FenceModel.OTestAndSet _ o | FenceModel.OFetch _ _ o =>
          (FenceModel.ppc_fence_before p64 o, [FenceModel.ld_branch false l], [FenceModel.ld_branch false l; FenceModel.st l] ++ FenceModel.ppc_fence_after o)
      | FenceModel.OCas ok _ so fo =>
          (FenceModel.ppc_fence_before p64 so, [FenceModel.ld_branch false l],
           if ok then [FenceModel.ld_branch false l; FenceModel.st l] ++ FenceModel.ppc_fence_after so
           else [FenceModel.ld_branch false l] ++ FenceModel.ppc_fence_after fo)
      | _ => whole
      end
  | FenceModel.Arm | FenceModel.Alpha | FenceModel.ArmWide =>
      let rmw o := (FenceModel.arm_fence_before o, [FenceModel.ld l], [FenceModel.ld l; FenceModel.st l] ++ FenceModel.arm_fence_after o) in
      match p with
      | FenceModel.OExchange _ o | FenceModel.OTestAndSet _ o | FenceModel.OFetch _ _ o => rmw o
      | FenceModel.OStore _ o | FenceModel.OClear _ o => match bk with FenceModel.ArmWide => rmw o | _ => whole end
      | FenceModel.OCas ok _ so fo =>
          (FenceModel.arm_fence_before so, [FenceModel.ld l],
           if ok then [FenceModel.ld l; FenceModel.st l] ++ FenceModel.arm_fence_after so else [FenceModel.ld l] ++ FenceModel.arm_fence_after fo)
      | _ => whole
      end
  | FenceModel.Aarch32 | FenceModel.Aarch64 _ | FenceModel.Aarch32Wide | FenceModel.Aarch64Wide =>
      let ld o := FenceModel.ld_mo true (fst (FenceModel.mo_switch o)) l in let st o := FenceModel.st_mo (snd (FenceModel.mo_switch o)) l in
      match p with
      | FenceModel.OExchange _ o | FenceModel.OTestAndSet _ o | FenceModel.OFetch _ _ o => ([], [ld o], [ld o; st o])
      | FenceModel.OCas ok _ so _ => ([], [ld so], [ld so] ++ FenceModel.when ok [st so])
      | FenceModel.OStore _ o | FenceModel.OClear _ o =>
          match bk with
          | FenceModel.Aarch32Wide | FenceModel.Aarch64Wide =>
              ([], [FenceModel.ld_mo true false l], [FenceModel.ld_mo true false l; FenceModel.st_mo (FenceModel.with_release o) l])
          | _ => whole
          end
      | FenceModel.OLoad _ o =>
          match bk with
          | FenceModel.Aarch64Wide =>
              ([], [FenceModel.ld_mo true (FenceModel.with_acquire o) l], [FenceModel.ld_mo true (FenceModel.with_acquire o) l; FenceModel.st_mo false l])
          | _ => whole
          end
      end
  | FenceModel.Sparc => match p with FenceModel.OFetch _ _ _ => ([], [], []) | _ => whole end
  | _ => ([], [], [])
  end.
Definition passes_of (p : FenceModel.op) : nat :=
  match p with
  | FenceModel.OStore n _ | FenceModel.OLoad n _ | FenceModel.OExchange n _ | FenceModel.OFetch _ n _ | FenceModel.OCas _ n _ _
  | FenceModel.OTestAndSet n _ | FenceModel.OClear n _ => n
  end.
Definition in_asm (bk : FenceModel.backend) (p : FenceModel.op) : bool :=
  match bk with
  | FenceModel.GccSync | FenceModel.GccSyncWide | FenceModel.LinuxArm | FenceModel.Windows | FenceModel.MsvcX86 | FenceModel.MsvcArm => false
  | FenceModel.Sparc => match p with FenceModel.OFetch _ _ _ => false | _ => true end
  | _ => true
  end.
Lemma repeat_none n : FenceModel.repeat_code n [] = [].
Proof. induction n; auto. Qed.
Lemma shape_ok bk l p : in_asm bk p = true ->
  FenceModel.emit bk l p = let '(x, r, y) := shape bk l p in x ++ FenceModel.repeat_code (passes_of p) r ++ y.
Proof.
  intros A. destruct bk, p; try discriminate A; cbn [shape passes_of FenceModel.emit]; try (rewrite repeat_none; reflexivity); try reflexivity.
  all: try (destruct arith; [rewrite repeat_none|]; reflexivity).
  all: try (unfold FenceModel.x86w_emit, FenceModel.x86w_store; destruct (negb (is_seq_cst o) && aligned); [rewrite repeat_none|]; reflexivity).
  all: try (destruct ok; reflexivity).
  all: try (destruct o; reflexivity).
  all: try (destruct so; reflexivity).
Qed.
Lemma shape_put bk l p : let '(x, r, y) := shape bk 0 p in shape bk l p = (map (put_at l) x, map (put_at l) r, map (put_at l) y).
Proof.
  destruct bk, p; try reflexivity.
  all: repeat match goal with b : bool |- _ => destruct b | o : morder |- _ => destruct o end; reflexivity.
Qed.

(** ** Evaluation *)

Definition kind_eqb (x y : Reorder.kind) : bool := match x, y with Reorder.Rd, Reorder.Rd | Reorder.Wr, Reorder.Wr => true | _, _ => false end.
Definition item_eqb (x y : item) : bool :=
  match x, y with
  | Reorder.Access a, Reorder.Access b =>
      kind_eqb (Reorder.a_kind a) (Reorder.a_kind b) && Nat.eqb (Reorder.a_loc a) (Reorder.a_loc b) && Bool.eqb (Reorder.a_clob a) (Reorder.a_clob b) &&
      Bool.eqb (Reorder.a_vol a) (Reorder.a_vol b) && Bool.eqb (Reorder.a_acq a) (Reorder.a_acq b) && Bool.eqb (Reorder.a_rel a) (Reorder.a_rel b) &&
      Bool.eqb (Reorder.a_sc a) (Reorder.a_sc b) && Bool.eqb (Reorder.a_br a) (Reorder.a_br b)
  | Reorder.Barrier a b c d, Reorder.Barrier a' b' c' d' => Bool.eqb a a' && Bool.eqb b b' && Bool.eqb c c' && Bool.eqb d d'
  | Reorder.Isync, Reorder.Isync | Reorder.Clobber, Reorder.Clobber => true
  | _, _ => false
  end.
Lemma item_eqb_ok x y : item_eqb x y = true -> x = y.
Proof.
  destruct x as [[k l c v a r s b]| | |], y as [[k' l' c' v' a' r' s' b']| | |]; cbn; try discriminate; try reflexivity; intros H; repeat (apply andb_true_iff in H; destruct H as [H ?]);
    repeat match goal with E : Bool.eqb _ _ = true |- _ => apply Bool.eqb_prop in E; subst | E : Nat.eqb _ _ = true |- _ => apply Nat.eqb_eq in E; subst end; [|reflexivity].
  destruct k, k'; try discriminate H; reflexivity.
Qed.
Fixpoint list_eqb (x y : list item) : bool :=
  match x, y with [], [] => true | a :: x, b :: y => item_eqb a b && list_eqb x y | _, _ => false end.
Lemma list_eqb_ok x : forall y, list_eqb x y = true -> x = y.
Proof.
  induction x as [|a x IH]; intros [|b y]; cbn; try discriminate; [reflexivity|]. intros H. apply andb_true_iff in H. destruct H as [H1 H2].
  now rewrite (item_eqb_ok _ _ H1), (IH _ H2).
Qed.

Definition orders : list morder := [Relaxed; Consume; Acquire; Release; AcqRel; SeqCst].
Definition bools : list bool := [false; true].
Lemma in_orders o : In o orders.
Proof. destruct o; cbn; tauto. Qed.
Lemma in_bools x : In x bools.
Proof. destruct x; cbn; tauto. Qed.
Definition configs : list config := flat_map (fun x => flat_map (fun y => map (fun z => Config x y z) bools) bools) bools.
Lemma in_configs c : In c configs.
Proof. destruct c as [x y z]. destruct x, y, z; cbn; tauto. Qed.

(** the texts of the fence functions *)
Definition fence_model (c : config) (ar : arch) (f : string) (w : Z) (o : morder) : list item :=
  let is := String.eqb f in
  match ar with
  | Alpha => if is "fence_before" then FenceModel.arm_fence_before o else if is "fence_after" then FenceModel.arm_fence_after o
             else if is "fence_after_store" then FenceModel.arm_fence_after_store o else []
  | PowerPC => if is "fence_before" then FenceModel.ppc_fence_before (c_ppc64 c) o else if is "fence_after" then FenceModel.ppc_fence_after o
               else if is "load" then FenceModel.when (negb (w =? 128) && is_seq_cst o) [full] else []
  | Sparc => if is "fence_before" then FenceModel.sparc_fence_before o else if is "fence_after" then FenceModel.sparc_fence_after o
             else if is "fence_after_store" then FenceModel.sparc_fence_after_store o else []
  | X86 => if is "fence_before" then FenceModel.x86_fence_before o else if is "fence_after" then FenceModel.x86_fence_after o else []
  | _ => []
  end.
Definition archs : list arch := [Alpha; PowerPC; Arm; AArch32; AArch64; Sparc; X86].
Lemma in_archs ar : In ar archs.
Proof. destruct ar; cbn; tauto. Qed.
Definition places : list (string * Z) :=
  [("fence_before", 0); ("fence_after", 0); ("fence_after_store", 0); ("load", 8); ("load", 16); ("load", 32); ("load", 64); ("load", 128)].
Definition fence_blocks (ar : arch) (f : string) (w : Z) : list block := filter (fence_in ar f w) (blocks ++ fences).
Definition text_of (c : config) (o : morder) (l : list block) : list item := flat_map (fun b => if executed c b o then block_items b else []) l.
Lemma fence_text_blocks c ar f w o : fence_text c ar f w o = text_of c o (fence_blocks ar f w).
Proof.
  unfold fence_text, fence_blocks, text_of. induction (blocks ++ fences) as [|b l IH]; [reflexivity|]. cbn [flat_map filter]. rewrite IH.
  destruct (fence_in ar f w b); reflexivity.
Qed.
Definition all_cases (g : config -> morder -> bool) : bool := forallb (fun c => forallb (g c) orders) configs.
Lemma all_cases_ok g : all_cases g = true -> forall c o, g c o = true.
Proof.
  unfold all_cases. intros H c o. rewrite forallb_forall in H. specialize (H c (in_configs c)). rewrite forallb_forall in H. exact (H o (in_orders o)).
Qed.
Definition check_texts (m : config -> morder -> list item) (l : list block) : bool := all_cases (fun c o => list_eqb (text_of c o l) (m c o)).
Lemma check_texts_ok m l : check_texts m l = true -> forall c o, text_of c o l = m c o.
Proof. intros H c o. apply list_eqb_ok. exact (all_cases_ok _ H c o). Qed.
Definition check_place (ar : arch) (p : string * Z) : bool := check_texts (fun c => fence_model c ar (fst p) (snd p)) (fence_blocks ar (fst p) (snd p)).
Definition check_places : bool := forallb (fun ar => forallb (check_place ar) places) archs.
Local Strategy opaque [blocks fences fence_blocks text_of].
Lemma places_checked : check_places = true.
Proof. vm_cast_no_check (eq_refl true). Qed.
Lemma check_places_ok : check_places = true -> forall ar f w, In (f, w) places -> check_place ar (f, w) = true.
Proof.
  unfold check_places. intros H ar f w P. rewrite forallb_forall in H. specialize (H ar (in_archs ar)). cbn beta in H. rewrite forallb_forall in H. exact (H _ P).
Qed.
Lemma place_ok c ar f w o : In (f, w) places -> fence_text c ar f w o = fence_model c ar f w o.
Proof.
  intros P. pose proof (check_places_ok places_checked ar f w P) as H. unfold check_place in H. cbn [fst snd] in H.
  rewrite fence_text_blocks. apply (check_texts_ok _ _ H c o).
Qed.

(** ** Fence functions *)

Definition check_thread (ar : arch) : bool :=
  match ar with Arm => true | _ => check_texts (fun c => FenceModel.thread_fence (fence_backend c ar)) (fence_blocks ar "thread_fence" 0) end.
Definition check_signal (ar : arch) : bool :=
  check_texts (fun c => FenceModel.signal_fence (fence_backend c ar)) (fence_blocks ar "signal_fence" 0).
Lemma thread_checked : forallb check_thread archs = true.
Proof. vm_cast_no_check (eq_refl true). Qed.
Lemma signal_checked : forallb check_signal archs = true.
Proof. vm_cast_no_check (eq_refl true). Qed.
Lemma on_archs g : forallb g archs = true -> forall ar, g ar = true.
Proof. intros H ar. rewrite forallb_forall in H. exact (H ar (in_archs ar)). Qed.
Definition check_arm (b : block) : bool :=
  negb (arch_eqb (b_arch b) Arm && String.eqb (b_func b) "hardware_full_fence") || list_eqb (block_items b) [full].
Lemma arm_checked : forallb check_arm fences = true.
Proof. vm_cast_no_check (eq_refl true). Qed.
Lemma arm_fence_full f : arm_fence f -> block_items f = [full].
Proof.
  intros [I [A N]]. assert (H : check_arm f = true) by exact (proj1 (forallb_forall check_arm fences) arm_checked f I).
  unfold check_arm in H. rewrite A, N in H. cbn [arch_eqb andb negb] in H. rewrite String.eqb_refl in H. apply list_eqb_ok. exact H.
Qed.
Lemma thread_fence_text c ar o : ar <> Arm -> fence_text c ar "thread_fence" 0 o = FenceModel.thread_fence (fence_backend c ar) o.
Proof.
  intros N. pose proof (on_archs _ thread_checked ar) as H. unfold check_thread in H. rewrite fence_text_blocks.
  destruct ar; try (exact (check_texts_ok _ _ H c o)). now contradiction N.
Qed.
Lemma signal_fence_text c ar o : fence_text c ar "signal_fence" 0 o = FenceModel.signal_fence (fence_backend c ar) o.
Proof.
  pose proof (on_archs _ signal_checked ar) as H. unfold check_signal in H. rewrite fence_text_blocks. exact (check_texts_ok _ _ H c o).
Qed.
Lemma arm_thread_fence f o : arm_fence f -> (if relaxed o then [] else block_items f) = FenceModel.thread_fence FenceModel.Arm o.
Proof. intros F. rewrite (arm_fence_full f F). destruct o; reflexivity. Qed.

(** ** Operations *)

Definition before_model (c : config) (b : block) (k : kind) (o : morder) : list item :=
  match k, b_arch b with
  | KLoad, ar => fence_model c ar "load" (b_bits b) o
  | _, Arm => FenceModel.arm_fence_before o
  | (KFetch _ | KNew _), X86 => if single k then [] else [FenceModel.ld 0]
  | _, X86 => []
  | _, ar => fence_model c ar "fence_before" 0 o
  end.
Definition after_model (c : config) (b : block) (k : kind) (o : morder) : list item :=
  match k, b_arch b with
  | KStore, _ => []
  | _, Arm => FenceModel.arm_fence_after o
  | KLoad, _ | _, X86 => []
  | _, ar => fence_model c ar "fence_after" 0 o
  end.
Definition sizes : list Z := [8; 16; 32; 64; 128].
Lemma fence_model_put c ar f w o n : map (put_at n) (fence_model c ar f w o) = fence_model c ar f w o.
Proof.
  unfold fence_model. destruct ar; try reflexivity.
  all: repeat match goal with |- context [if ?x then _ else _] => destruct x end; destruct o; try reflexivity; destruct (c_ppc64 c), (w =? 128); reflexivity.
Qed.
Local Opaque fence_text fence_model.
Lemma before_ok c f b k o n : arm_fence f -> In (b_bits b) sizes -> before c f b k o n = map (put_at n) (before_model c b k o).
Proof.
  intros F S. assert (L : fence_text c (b_arch b) "load" (b_bits b) o = map (put_at n) (fence_model c (b_arch b) "load" (b_bits b) o)).
  { rewrite fence_model_put. apply place_ok. cbn in S. cbn. intuition congruence. }
  assert (P : forall ar, fence_text c ar "fence_before" 0 o = map (put_at n) (fence_model c ar "fence_before" 0 o)).
  { intros ar. rewrite fence_model_put. apply place_ok. cbn. tauto. }
  assert (A : (if rel o then block_items f else []) = map (put_at n) (FenceModel.arm_fence_before o)).
  { rewrite (arm_fence_full f F). destruct o; reflexivity. }
  unfold before, before_model. destruct k; try exact L; destruct (b_arch b); try exact (P _); try exact A; try reflexivity; destruct (single _); reflexivity.
Qed.
Lemma after_ok c f b k o n : arm_fence f -> after c f b k o = map (put_at n) (after_model c b k o).
Proof.
  intros F.
  assert (P : forall ar, fence_text c ar "fence_after" 0 o = map (put_at n) (fence_model c ar "fence_after" 0 o)).
  { intros ar. rewrite fence_model_put. apply place_ok. cbn. tauto. }
  assert (A : (if acq o then block_items f else []) = map (put_at n) (FenceModel.arm_fence_after o)).
  { rewrite (arm_fence_full f F). destruct o; reflexivity. }
  unfold after, after_model. destruct k; try reflexivity; destruct (b_arch b); try exact (P _); try exact A; reflexivity.
Qed.

Local Transparent fence_text fence_model.

Definition check_case (c : config) (b : block) (k : kind) (lp : bool) (x y : list item) (ok : bool) (so fo : morder) : bool :=
  let p := op_of k ok 0 so fo in
  in_asm (backend_of c b) p &&
  let '(x', r', y') := shape (backend_of c b) 0 p in
  let first := before_model c b k so ++ x in
  let last := (if ok then y else unstored y) ++ after_model c b k (if ok then so else fo) in
  if lp then list_eqb first x' && list_eqb (unstored y) r' && list_eqb last y' else list_eqb (first ++ last) (x' ++ y').
Definition check_block (b : block) : bool :=
  match kind_of b with
  | None | Some KFence => true
  | Some k =>
      match items b 0 with
      | Some (x, y) =>
          let lp := loops b in
          existsb (Z.eqb (b_bits b)) sizes &&
          all_cases (fun c so => negb (executed c b so) ||
            check_case c b k lp x y true so so && (negb (may_fail k) || forallb (fun fo => check_case c b k lp x y false so fo) orders))
      | None => false
      end
  end.
Lemma blocks_checked : forallb check_block blocks = true.
Proof. vm_cast_no_check (eq_refl true). Qed.
Lemma block_checked b : In b blocks -> check_block b = true.
Proof. exact (proj1 (forallb_forall check_block blocks) blocks_checked b). Qed.

Lemma repeat_put m n r : FenceModel.repeat_code n (map (put_at m) r) = map (put_at m) (FenceModel.repeat_code n r).
Proof. induction n as [|n IH]; [reflexivity|]. cbn [FenceModel.repeat_code]. now rewrite IH, map_app. Qed.
Lemma shape_passes bk l k ok n so fo : in_asm bk (op_of k ok 0 so fo) = true -> shape bk l (op_of k ok n so fo) = shape bk l (op_of k ok 0 so fo).
Proof.
  destruct bk, k; intros A; try discriminate A; try reflexivity.
  all: cbn [op_of]; try (destruct ok; reflexivity); try (destruct (single _); reflexivity); try (cbn [shape]; destruct (negb _ && _); reflexivity).
Qed.
Lemma shape_ok_order bk l k n so fo fo' : shape bk l (op_of k true n so fo) = shape bk l (op_of k true n so fo').
Proof. destruct bk, k; reflexivity. Qed.
Lemma in_asm_passes bk k ok n so fo ok' n' so' fo' : in_asm bk (op_of k ok n so fo) = in_asm bk (op_of k ok' n' so' fo').
Proof. destruct bk, k; reflexivity. Qed.
Lemma passes_op k ok n so fo : passes_of (op_of k ok n so fo) = n.
Proof. destruct k; reflexivity. Qed.

Lemma in_sizes z : existsb (Z.eqb z) sizes = true -> In z sizes.
Proof. intros H. apply existsb_exists in H. destruct H as [x [I E]]. apply Z.eqb_eq in E. now subst. Qed.

Lemma case_ok c f b k x y ok n so fo l : arm_fence f -> In (b_bits b) sizes -> items b 0 = Some (x, y) -> (loops b = false -> n = 0%nat) ->
  check_case c b k (loops b) x y ok so fo = true ->
  FenceModel.emit (backend_of c b) l (op_of k ok n so fo) =
    before c f b k so l ++ map (put_at l) x ++ FenceModel.repeat_code n (unstored (map (put_at l) y)) ++
    (if ok then map (put_at l) y else unstored (map (put_at l) y)) ++ after c f b k (if ok then so else fo).
Proof.
  intros F S I L H. unfold check_case in H. apply andb_true_iff in H. destruct H as [A H].
  rewrite (shape_ok (backend_of c b) l (op_of k ok n so fo)) by (rewrite (in_asm_passes _ k ok n so fo ok 0%nat so fo); exact A).
  rewrite (passes_op k ok n so fo), (shape_passes _ l k ok n so fo A).
  pose proof (shape_put (backend_of c b) l (op_of k ok 0 so fo)) as P.
  destruct (shape (backend_of c b) 0 (op_of k ok 0 so fo)) as [[x' r'] y'] eqn:E. cbv beta iota zeta in H. rewrite P. clear P E.
  rewrite (before_ok c f b k so l F S), (after_ok c f b k (if ok then so else fo) l F), unstored_put, !repeat_put.
  replace (if ok then map (put_at l) y else map (put_at l) (unstored y)) with (map (put_at l) (if ok then y else unstored y)) by (destruct ok; reflexivity).
  rewrite <- !map_app. f_equal.
  destruct (loops b).
  - apply andb_true_iff in H. destruct H as [H H3]. apply andb_true_iff in H. destruct H as [H1 H2].
    apply list_eqb_ok in H1, H2, H3. subst x' r' y'. now rewrite <- app_assoc.
  - rewrite (L eq_refl). cbn [FenceModel.repeat_code app]. apply list_eqb_ok in H. rewrite <- H, <- app_assoc. reflexivity.
Qed.

Lemma operation_text c f b k ok n so fo l : runs c f b k ok n so ->
  text_code c f b k l ok n so fo = Some (FenceModel.emit (backend_of c b) l (op_of k ok n so fo)).
Proof.
  intros [B [K [NF [F [X [M L]]]]]]. unfold text_code. pose proof (block_checked b B) as H. unfold check_block in H. rewrite K in H.
  assert (H' : match items b 0 with
      | Some (x, y) => existsb (Z.eqb (b_bits b)) sizes &&
          all_cases (fun c so => negb (executed c b so) ||
            check_case c b k (loops b) x y true so so && (negb (may_fail k) || forallb (fun fo => check_case c b k (loops b) x y false so fo) orders))
      | None => false
      end = true) by (destruct k; try exact H; contradiction NF; reflexivity).
  clear H. rename H' into H. rewrite (items_put b l). destruct (items b 0) as [[x y]|] eqn:I; [|discriminate H].
  apply andb_true_iff in H. destruct H as [S H]. apply in_sizes in S. pose proof (all_cases_ok _ H c so) as C. cbv beta in C. rewrite X in C. cbn [negb orb] in C.
  apply andb_true_iff in C. destruct C as [C1 C2]. cbn [option_map fst snd]. f_equal. symmetry.
  apply (case_ok c f b k x y ok n so fo l F S I L). destruct ok.
  - unfold check_case in C1 |- *. rewrite (in_asm_passes _ k true 0 so fo true 0%nat so so), (shape_ok_order _ 0 k 0 so fo so). exact C1.
  - destruct (may_fail k); [|now discriminate M]. cbn [negb orb] in C2. exact (proj1 (forallb_forall _ orders) C2 fo (in_orders fo)).
Qed.

(** ** Copies for the memory orders *)

Definition same_place (x y : block) : bool :=
  if b_line x =? b_line y then
    (b_value x =? b_value y) && Bool.eqb (b_signed x) (b_signed y) && (b_bits x =? b_bits y) && Bool.eqb (b_big x) (b_big y) && arch_eqb (b_arch x) (b_arch y) &&
    String.eqb (b_func x) (b_func y) && String.eqb (b_file x) (b_file y)
  else false.
Definition has_letters (p : bool * bool) (b : block) : bool :=
  match b_mo b with Some (x, y) => Bool.eqb x (fst p) && Bool.eqb y (snd p) | None => false end.
Definition with_letters : list block := filter (fun b => match b_mo b with Some _ => true | None => false end) blocks.
Definition check_copies (l : list block) : bool :=
  forallb (fun b => let same := filter (same_place b) l in forallb (fun p => existsb (has_letters p) same) [(false, false); (true, false); (false, true); (true, true)]) l.
Lemma copies_checked : check_copies with_letters = true.
Proof. vm_cast_no_check (eq_refl true). Qed.
Lemma check_copies_ok l : check_copies l = true -> forall b o, In b l -> exists b', In b' l /\ same_place b b' = true /\ has_letters (FenceModel.mo_switch o) b' = true.
Proof.
  intros H b o I. unfold check_copies in H. rewrite forallb_forall in H. specialize (H b I). cbv beta zeta in H. rewrite forallb_forall in H.
  assert (E : existsb (has_letters (FenceModel.mo_switch o)) (filter (same_place b) l) = true) by (apply H; destruct o; cbn; tauto).
  apply existsb_exists in E. destruct E as [b' [I' L]]. apply filter_In in I'. destruct I' as [I' S]. now exists b'.
Qed.
Lemma arch_eqb_ok x y : arch_eqb x y = true -> x = y.
Proof. destruct x, y; cbn; congruence. Qed.
Lemma copies b o : In b blocks -> b_mo b <> None ->
  exists b', In b' blocks /\ (b_arch b', b_file b', b_line b', b_func b') = (b_arch b, b_file b, b_line b, b_func b) /\
    (b_bits b', b_value b', b_signed b', b_big b') = (b_bits b, b_value b, b_signed b, b_big b) /\ b_mo b' = Some (FenceModel.mo_switch o).
Proof.
  intros I N. assert (W : In b with_letters) by (unfold with_letters; apply filter_In; split; [exact I|]; destruct (b_mo b); [reflexivity|contradiction N; reflexivity]).
  destruct (check_copies_ok with_letters copies_checked b o W) as [b' [I' [S L]]]. exists b'.
  unfold with_letters in I'. apply filter_In in I'. destruct I' as [I' _]. split; [exact I'|].
  unfold same_place in S. destruct (b_line b =? b_line b') eqn:E; [|discriminate S]. repeat (apply andb_true_iff in S; destruct S as [S ?]).
  apply Z.eqb_eq in E, S. repeat match goal with
    | H : Bool.eqb _ _ = true |- _ => apply Bool.eqb_prop in H
    | H : (_ =? _) = true |- _ => apply Z.eqb_eq in H
    | H : String.eqb _ _ = true |- _ => apply String.eqb_eq in H
    | H : arch_eqb _ _ = true |- _ => apply arch_eqb_ok in H
    end. split; [congruence|]. split; [congruence|].
  unfold has_letters in L. destruct (b_mo b') as [[x y]|]; [|discriminate L]. apply andb_true_iff in L. destruct L as [L1 L2].
  apply Bool.eqb_prop in L1, L2. subst x y. now destruct (FenceModel.mo_switch o).
Qed.

(** ** Orders *)

Lemma processor_ok c b : FenceModel.machine_of (backend_of c b) = processor (b_arch b).
Proof. unfold backend_of. destruct (b_arch b); try reflexivity; match goal with |- context [if ?x then _ else _] => destruct x end; reflexivity. Qed.
Lemma fence_processor c ar : FenceModel.machine_of (fence_backend c ar) = processor ar.
Proof. destruct ar; reflexivity. Qed.
Lemma read_asked k ok n so fo : k <> KFence -> (may_fail k = false -> ok = true) -> SpecFence.read_order (op_of k ok n so fo) = asked_read k ok so fo.
Proof. intros N M. destruct k; try (rewrite (M eq_refl)); try reflexivity; destruct ok; reflexivity. Qed.
Lemma write_asked k ok n so fo : k <> KFence -> (may_fail k = false -> ok = true) -> SpecFence.write_order (op_of k ok n so fo) = asked_write k ok so.
Proof. intros N M. destruct k; try (rewrite (M eq_refl)); try reflexivity; destruct ok; reflexivity. Qed.
Lemma exception_text c b k ok n so fo o : k <> KFence -> (may_fail k = false -> ok = true) -> asked_read k ok so fo = Some o ->
  SpecFence.acquire_exception (backend_of c b) (op_of k ok n so fo) <-> missing_acquire b k ok so o.
Proof.
  intros N M R. rewrite <- (read_asked k ok n so fo N M) in R. unfold backend_of, missing_acquire. destruct (b_arch b) eqn:A.
  - cbn. tauto.
  - cbn. tauto.
  - destruct (b_bits b =? 64); cbn; tauto.
  - destruct (b_bits b =? 64) eqn:B; [apply Z.eqb_eq in B|apply Z.eqb_neq in B].
    + destruct k; cbn in M |- *; try (specialize (M eq_refl)); try (destruct ok); intuition (try congruence).
    + destruct k; cbn in M |- *; try (specialize (M eq_refl)); try (destruct ok); intuition (try congruence).
  - destruct (b_bits b =? 128); destruct k; cbn in M |- *; try (specialize (M eq_refl)); try (destruct ok); intuition (try congruence).
  - cbn [SpecFence.acquire_exception]. rewrite R. split; intros H E; apply H; congruence.
  - destruct (orb _ _); cbn; tauto.
Qed.
Lemma text_acquire c f b k l ok n so fo o code : runs c f b k ok n so -> asked_read k ok so fo = Some o -> SpecOrder.acquiring o ->
  text_code c f b k l ok n so fo = Some code ->
  SpecOrder.acquire_operation (processor (b_arch b)) code <-> ~ missing_acquire b k ok so o.
Proof.
  intros R A Q E. rewrite (operation_text _ _ _ _ _ _ _ _ _ R) in E. injection E as <-. destruct R as [_ [_ [NF [_ [_ [M _]]]]]].
  rewrite <- (exception_text c b k ok n so fo o NF M A), <- (processor_ok c b).
  rewrite <- (read_asked k ok n so fo NF M) in A. split.
  - intros H X. exact (FenceProof.exceptions_exact _ l _ o A Q X H).
  - exact (FenceProof.acquire_holds _ l _ o A Q).
Qed.
Lemma text_release c f b k l ok n so fo o code : runs c f b k ok n so -> asked_write k ok so = Some o -> SpecOrder.releasing o ->
  text_code c f b k l ok n so fo = Some code -> SpecOrder.release_operation (processor (b_arch b)) code.
Proof.
  intros R A Q E. rewrite (operation_text _ _ _ _ _ _ _ _ _ R) in E. injection E as <-. destruct R as [_ [_ [NF [_ [_ [M _]]]]]].
  rewrite <- (processor_ok c b). rewrite <- (write_asked k ok n so fo NF M) in A. exact (FenceProof.release_holds _ l _ o A Q).
Qed.
Lemma text_fence c ar o : ar <> Arm -> SpecOrder.fence_of_order (processor ar) (fence_text c ar "thread_fence" 0 o) o <-> ~ (ar = X86 /\ o = Consume).
Proof.
  intros N. rewrite (thread_fence_text c ar o N), <- (fence_processor c ar). split.
  - intros H [-> ->]. exact (FenceProof.x86_consume_fence_refuted FenceModel.X86 (or_introl eq_refl) H).
  - intros H. apply FenceProof.thread_fence_holds. intros [[E|[al E]] C]; destruct ar; try discriminate E. now apply H.
Qed.
Lemma text_arm_fence f o : arm_fence f -> SpecOrder.fence_of_order (processor Arm) (if relaxed o then [] else block_items f) o.
Proof.
  intros F. rewrite (arm_thread_fence f o F). apply (FenceProof.thread_fence_holds FenceModel.Arm). intros [[E|[al E]] _]; discriminate E.
Qed.
Lemma text_signal c ar o : o <> Relaxed -> SpecOrder.signal_fence_keeps (processor ar) (fence_text c ar "signal_fence" 0 o).
Proof. intros N. rewrite signal_fence_text, <- (fence_processor c ar). apply FenceProof.signal_fence_holds, N. Qed.
Lemma text_seq_cst c f b1 b2 k1 k2 l1 l2 ok1 ok2 n1 n2 code1 code2 :
  runs c f b1 k1 ok1 n1 SeqCst -> runs c f b2 k2 ok2 n2 SeqCst -> backend_of c b1 = backend_of c b2 ->
  text_code c f b1 k1 l1 ok1 n1 SeqCst SeqCst = Some code1 -> text_code c f b2 k2 l2 ok2 n2 SeqCst SeqCst = Some code2 ->
  SpecOrder.in_order (processor (b_arch b1)) code1 (SpecFence.own (op_of k1 ok1 n1 SeqCst SeqCst)) code2 (SpecFence.own (op_of k2 ok2 n2 SeqCst SeqCst)).
Proof.
  intros R1 R2 B E1 E2. rewrite (operation_text _ _ _ _ _ _ _ _ _ R1) in E1. rewrite (operation_text _ _ _ _ _ _ _ _ _ R2) in E2.
  injection E1 as <-. injection E2 as <-. rewrite <- B, <- (processor_ok c b1).
  assert (S : forall k ok n, SpecFence.seq_cst_operation (op_of k ok n SeqCst SeqCst)).
  { intros k ok n. split; destruct k; cbn; try destruct ok; auto. }
  assert (A : forall k ok n, SpecFence.accepted (op_of k ok n SeqCst SeqCst)) by (intros k ok n; destruct k; cbn; auto).
  apply FenceProof.seq_cst_in_order; auto. intros [E _]. unfold backend_of in E. destruct (b_arch b1); try discriminate E; match type of E with context [if ?x then _ else _] => destruct x end; discriminate E.
Qed.

(** ** Every statement is executed at some time *)

Definition check_runs (b : block) : bool :=
  match kind_of b with
  | None => false
  | Some KFence => true
  | Some _ => existsb (fun c => existsb (executed c b) orders) configs
  end.
Lemma runs_checked : forallb check_runs blocks = true.
Proof. vm_cast_no_check (eq_refl true). Qed.
Lemma an_arm_fence : exists f, arm_fence f.
Proof.
  assert (H : existsb (fun f => arch_eqb (b_arch f) Arm && String.eqb (b_func f) "hardware_full_fence") fences = true) by (vm_cast_no_check (eq_refl true)).
  apply existsb_exists in H. destruct H as [f [I H]]. apply andb_true_iff in H. destruct H as [H1 H2]. exists f. split; [exact I|].
  split; [now apply arch_eqb_ok|now apply String.eqb_eq].
Qed.
Lemma every_statement_runs b : In b blocks -> kind_of b = Some KFence \/ exists c f k o, runs c f b k true 0 o.
Proof.
  intros I. assert (H : check_runs b = true) by exact (proj1 (forallb_forall check_runs blocks) runs_checked b I). unfold check_runs in H.
  destruct (kind_of b) as [k|] eqn:K; [|discriminate H]. destruct an_arm_fence as [f F].
  assert (D : k = KFence \/ existsb (fun c => existsb (executed c b) orders) configs = true) by (destruct k; auto).
  destruct D as [->|D]; [left; reflexivity|]. destruct (match k with KFence => true | _ => false end) eqn:N.
  { left. destruct k; try discriminate N. reflexivity. }
  right. apply existsb_exists in D. destruct D as [c [_ D]]. apply existsb_exists in D. destruct D as [o [_ D]].
  exists c, f, k, o. repeat (split; [assumption || (intros ->; discriminate N)|]). split; [reflexivity|]. intros _. reflexivity.
Qed.

(** ** Loads and stores in C++ *)

Lemma plain_store_text c f ar l o : arm_fence f -> plain_stores ar o -> plain_store c f ar l o = FenceModel.emit (fence_backend c ar) l (FenceModel.OStore 0 o).
Proof.
  intros F P. unfold plain_store. rewrite (arm_fence_full f F), !(place_ok c ar _ 0 o) by (cbn; tauto).
  destruct ar; cbn in P; try solve [destruct P]; destruct o; try reflexivity. elim P; reflexivity.
Qed.
Lemma plain_load_text c f ar l o : arm_fence f -> plain_loads ar -> plain_load c f ar l o = FenceModel.emit (fence_backend c ar) l (FenceModel.OLoad 0 o).
Proof.
  intros F P. unfold plain_load. rewrite (arm_fence_full f F), !(place_ok c ar _ 0 o) by (cbn; tauto).
  destruct ar; cbn in P; try contradiction P; destruct o; reflexivity.
Qed.
Lemma plain_store_release c f ar l o : arm_fence f -> plain_stores ar o -> SpecOrder.releasing o ->
  SpecOrder.release_operation (processor ar) (plain_store c f ar l o).
Proof.
  intros F P R. rewrite (plain_store_text c f ar l o F P), <- (fence_processor c ar). exact (FenceProof.release_holds _ l (FenceModel.OStore 0 o) o eq_refl R).
Qed.
Lemma plain_load_acquire c f ar l o : arm_fence f -> plain_loads ar -> SpecOrder.acquiring o ->
  SpecOrder.acquire_operation (processor ar) (plain_load c f ar l o) <-> ~ (ar = Sparc /\ o <> SeqCst).
Proof.
  intros F P A. rewrite (plain_load_text c f ar l o F P), <- (fence_processor c ar). split.
  - intros H [E N]. refine (FenceProof.exceptions_exact _ l (FenceModel.OLoad 0 o) o eq_refl A _ H). rewrite E. cbn. congruence.
  - intros N. apply (FenceProof.acquire_holds _ l (FenceModel.OLoad 0 o) o eq_refl A). intros X. apply N.
    destruct ar; cbn in P, X; try solve [destruct P]; try solve [destruct X]. split; [reflexivity|congruence].
Qed.
Lemma plain_store_seq_cst c f ar l1 l2 : arm_fence f -> plain_stores ar SeqCst ->
  SpecOrder.in_order (processor ar) (plain_store c f ar l1 SeqCst) SpecOrder.writes (plain_load c f ar l2 SeqCst) SpecOrder.reads.
Proof.
  intros F P. assert (L : plain_loads ar) by (destruct ar; cbn in *; auto).
  rewrite (plain_store_text c f ar l1 SeqCst F P), (plain_load_text c f ar l2 SeqCst F L), <- (fence_processor c ar).
  refine (FenceProof.seq_cst_in_order _ l1 l2 (FenceModel.OStore 0 SeqCst) (FenceModel.OLoad 0 SeqCst) _ I _ I _); try (split; cbn; auto).
  intros [E _]. destruct ar; discriminate E.
Qed.

(** * The programs that blocks are compared with, and the back ends of the other properties. *)
From Coq Require Import ZArith List Bool Lia String.
From Verif Require Import Order SpecInt Conv Prog Word CoreModel ExtraModel SpecHand HandProof PairProof AsmExpr AsmText AsmModel SpecAsm.
Import ListNotations.
Open Scope string_scope.
Open Scope Z_scope.

Section Same.
  Lemma same_refl {R} (p : wprog R) : same p p.
  Proof. intros tr o. reflexivity. Qed.
  Lemma same_do {R} a (k k' : wresp a -> wprog R) : (forall x, same (k x) (k' x)) -> same (Do a k) (Do a k').
  Proof.
    intros H tr o. cbn [path]. split; (intros [P|(x & tr' & E & P)]; [left; exact P|right; exists x, tr'; split; [exact E|now apply H]]).
  Qed.
  Lemma turns_mono {X B R} (b b' : X -> list (did wact wresp) -> option (X + B) -> Prop) (k k' : B -> list (did wact wresp) -> option R -> Prop) :
    (forall s tr o, b s tr o -> b' s tr o) -> (forall x tr o, k x tr o -> k' x tr o) -> forall s tr o, turns b k s tr o -> turns b' k' s tr o.
  Proof.
    intros HB HK s tr o T. induction T as [s tr H|s s' tr tr' o H T IH|s x tr tr' o H K];
      [apply turn_in|apply turn_next with s'|apply turn_out with x]; auto.
  Qed.
  Lemma same_loop {R X B} (body body' : X -> wprog (X + B)) s (k k' : B -> wprog R) :
    (forall s, same (body s) (body' s)) -> (forall x, same (k x) (k' x)) -> same (Loop body s k) (Loop body' s k').
  Proof. intros HB HK tr o. cbn [path]. split; apply turns_mono; intros; first [now apply HB|now apply HK]. Qed.
End Same.

Lemma bin_comm f x v : f <> Sub -> bin_apply f x v = bin_apply f v x.
Proof. destruct f; cbn; intros H; [apply Z.add_comm|now elim H|apply Z.land_comm|apply Z.lor_comm|apply Z.lxor_comm]. Qed.

Local Open Scope prog_scope.
Section X86.
  Variables (b : block) (a : addr) (v e d : Z).
  Notation w := (b_bits b).
  Hypotheses (A : b_arch b = X86) (N : b_value b = w).
  Notation call i := (Call v e d i).
  Lemma prog_x86 i k : program b a (call i) k = x86_program b a (call i) k.
  Proof. unfold program. now rewrite A. Qed.
  Lemma upd_bin f x : updated b (Bin_ f) v x = wrap w (bin_apply f x v).
  Proof. unfold updated. rewrite N, Z.ltb_irrefl. now destruct f. Qed.

  Lemma x86_link i o : dcas b = false ->
    same (program b a (call i) KLoad) (x <- c_load (CoreModel.x86 w) o a ;; Ret (Res x 0 true)) /\
    (is_seq_cst o = false -> same (program b a (call i) KStore) (c_store (CoreModel.x86 w) o a v ;;; Ret (Res 0 0 true))) /\
    same (program b a (call i) KExchange) (x <- c_exchange (CoreModel.x86 w) a v ;; Ret (Res x 0 true)) /\
    same (program b a (call i) KWeak) ('(ok, x) <- c_casw (CoreModel.x86 w) a e d ;; Ret (Res x 0 ok)) /\
    same (program b a (call i) KStrong) ('(ok, x) <- c_cas (CoreModel.x86 w) a e d ;; Ret (Res x 0 ok)).
  Proof.
    intros D. rewrite !prog_x86. cbn [x86_program q_v q_e q_d q_i]. rewrite D. cbn [CoreModel.x86 c_load c_store c_exchange c_casw c_cas].
    split; [apply same_refl|]. split; [intros S_; rewrite S_; apply same_refl|]. split; [apply same_refl|]. split; apply same_refl.
  Qed.
  Lemma x86_link_fetch :
    (forall i, same (program b a (call i) (KFetch (Bin_ Add))) (x <- c_fetch (CoreModel.x86 w) Add a v ;; Ret (Res x (updated b (Bin_ Add) v x) true))) /\
    (forall i, same (x <- program b a (Call (wrap w (- v)) e d i) (KFetch (Bin_ Add)) ;; Ret (r_old x)) (c_fetch (CoreModel.x86 w) Sub a v)) /\
    (forall f, f <> Add -> f <> Sub ->
      same (i <- ld a ;; program b a (call i) (KFetch (Bin_ f))) (x <- c_fetch (CoreModel.x86 w) f a v ;; Ret (Res x (updated b (Bin_ f) v x) true))).
  Proof.
    split; [|split].
    - intros i. rewrite prog_x86. cbn [x86_program CoreModel.x86 c_fetch q_v]. unfold rmw_program. cbn [rmw bind do]. apply same_do. intros x. cbn [bind].
      rewrite upd_bin. apply same_refl.
    - intros i. unfold program. rewrite A. apply same_refl.
    - intros f F1 F2. assert (Q : c_fetch (CoreModel.x86 w) f a v = x86_loop w f a v) by (destruct f; [now elim F1|now elim F2| | |]; reflexivity). rewrite Q.
      unfold x86_loop. cbn [ld bind do]. apply same_do. intros i. rewrite prog_x86.
      assert (P : x86_program b a (call i) (KFetch (Bin_ f)) = (x <- cas_loop cas a (updated b (Bin_ f) v) i ;; Ret (Res x (updated b (Bin_ f) v x) true))) by (destruct f; [now elim F1|now elim F2| | |]; reflexivity).
      rewrite P. unfold cas_loop. cbn [loop bind]. apply same_loop; [|intros; apply same_refl].
      intros s. rewrite upd_bin, (bin_comm f s v F2). apply same_refl.
  Qed.
  Lemma x86_link_extra sg :
    let x := extra_x86 sg (CoreModel.x86 w) in
    (forall u, same (i <- ld a ;; program b a (call i) (KFetch (Un_ u))) (r <- x_fetch_un x u a ;; Ret (Res r (updated b (Un_ u) v r) true))) /\
    (forall f, f <> Add -> f <> Sub -> same (i <- ld a ;; program b a (call i) (KNew (Bin_ f))) (r <- x_bin x f a v ;; Ret (Res 0 r true))) /\
    (forall u, same (i <- ld a ;; program b a (call i) (KNew (Un_ u))) (r <- x_un x u a ;; Ret (Res 0 r true))) /\
    (forall f i, same (program b a (call i) (KOpaque (Bin_ f)) ;;; Ret tt) (x_opaque_bin x f a v)) /\
    (forall u i, same (program b a (call i) (KOpaque (Un_ u)) ;;; Ret tt) (x_opaque_un x u a)) /\
    (forall f i, same (r <- program b a (call i) (KTest (Bin_ f)) ;; Ret (negb (r_new r =? 0))) (x_test_bin x f a v)) /\
    (w <> 8 -> forall f i, same (r <- program b a (call i) (KBit f) ;; Ret (Z.testbit (r_old r) v)) (x_bit x f a v)).
  Proof.
    cbv zeta. unfold extra_x86. change (c_bits (CoreModel.x86 w)) with w. cbn [x_fetch_un x_bin x_un x_opaque_bin x_opaque_un x_test_bin x_bit].
    split; [|split; [|split; [|split; [|split; [|split]]]]].
    - intros u. unfold x86_xloop. cbn [ld bind do]. apply same_do. intros i. rewrite prog_x86. apply same_refl.
    - intros f F1 F2. destruct f; [now elim F1|now elim F2| | |]; unfold x86_xloop_new; cbn [ld bind do]; apply same_do; intros i; rewrite prog_x86;
        cbn [x86_program q_v q_i]; unfold cas_loop_new; cbn [loop bind]; (apply same_loop; [|intros; apply same_refl]); intros s;
        rewrite upd_bin, bin_comm by discriminate; apply same_refl.
    - intros u. unfold x86_xloop_new. cbn [ld bind do]. apply same_do. intros i. rewrite prog_x86. apply same_refl.
    - intros f i. rewrite prog_x86. apply same_refl.
    - intros u i. rewrite prog_x86. apply same_refl.
    - intros f i. rewrite prog_x86. cbn [x86_program]. unfold rmw_program, effect_of. cbn [rmw bind do q_v r_new eff_apply]. apply same_refl.
    - intros H f i. apply Z.eqb_neq in H. rewrite H, prog_x86. destruct f; apply same_refl.
  Qed.
  Lemma x86_link_dcas i o vec : dcas b = true ->
    same (g <- racy a w ;; program b a (call g) KLoad) (x <- c_load (dcas_x86 false w) o a ;; Ret (Res x 0 true)) /\
    (vec = false \/ is_seq_cst o = true -> same (program b a (call i) KStore ;;; Ret tt) (c_store (dcas_x86 vec w) o a v)) /\
    same (program b a (call i) KExchange) (x <- c_exchange (dcas_x86 vec w) a v ;; Ret (Res x 0 true)) /\
    same (program b a (call i) KWeak) ('(ok, x) <- c_casw (dcas_x86 vec w) a e d ;; Ret (Res x 0 ok)) /\
    same (program b a (call i) KStrong) ('(ok, x) <- c_cas (dcas_x86 vec w) a e d ;; Ret (Res x 0 ok)).
  Proof.
    intros D. rewrite !prog_x86. cbn [x86_program q_v q_e q_d q_i dcas_x86 dcas_x86_base cas_based c_load c_store c_exchange c_casw c_cas]. rewrite D.
    split; [|split; [|split; [apply same_refl|split; apply same_refl]]].
    - cbn [racy bind do]. apply same_do. intros g. rewrite prog_x86. cbn [x86_program]. rewrite D. cbn [cas bind do q_i]. apply same_do. intros [ok x]. apply same_refl.
    - intros S_. assert (E : vec && negb (is_seq_cst o) = false) by (destruct S_ as [->|S_]; [reflexivity|rewrite S_; apply andb_false_r]). rewrite E. apply same_refl.
  Qed.
End X86.

Lemma x86_programs : forall b a v e d o sg, b_arch b = X86 -> b_value b = b_bits b ->
  let w := b_bits b in let c := CoreModel.x86 w in let x := extra_x86 sg c in
  (dcas b = false -> forall i,
    same (program b a (Call v e d i) KLoad) (x <- c_load c o a ;; Ret (Res x 0 true)) /\
    (is_seq_cst o = false -> same (program b a (Call v e d i) KStore) (c_store c o a v ;;; Ret (Res 0 0 true))) /\
    same (program b a (Call v e d i) KExchange) (x <- c_exchange c a v ;; Ret (Res x 0 true)) /\
    same (program b a (Call v e d i) KWeak) ('(ok, x) <- c_casw c a e d ;; Ret (Res x 0 ok)) /\
    same (program b a (Call v e d i) KStrong) ('(ok, x) <- c_cas c a e d ;; Ret (Res x 0 ok))) /\
  (forall i, same (program b a (Call v e d i) (KFetch (Bin_ Add))) (x <- c_fetch c Add a v ;; Ret (Res x (updated b (Bin_ Add) v x) true))) /\
  (forall i, same (x <- program b a (Call (wrap w (- v)) e d i) (KFetch (Bin_ Add)) ;; Ret (r_old x)) (c_fetch c Sub a v)) /\
  (forall f, f <> Add -> f <> Sub ->
    same (i <- ld a ;; program b a (Call v e d i) (KFetch (Bin_ f))) (x <- c_fetch c f a v ;; Ret (Res x (updated b (Bin_ f) v x) true))) /\
  (forall u, same (i <- ld a ;; program b a (Call v e d i) (KFetch (Un_ u))) (r <- x_fetch_un x u a ;; Ret (Res r (updated b (Un_ u) v r) true))) /\
  (forall f, f <> Add -> f <> Sub -> same (i <- ld a ;; program b a (Call v e d i) (KNew (Bin_ f))) (r <- x_bin x f a v ;; Ret (Res 0 r true))) /\
  (forall u, same (i <- ld a ;; program b a (Call v e d i) (KNew (Un_ u))) (r <- x_un x u a ;; Ret (Res 0 r true))) /\
  (forall f i, same (program b a (Call v e d i) (KOpaque (Bin_ f)) ;;; Ret tt) (x_opaque_bin x f a v)) /\
  (forall u i, same (program b a (Call v e d i) (KOpaque (Un_ u)) ;;; Ret tt) (x_opaque_un x u a)) /\
  (forall f i, same (r <- program b a (Call v e d i) (KTest (Bin_ f)) ;; Ret (negb (r_new r =? 0))) (x_test_bin x f a v)) /\
  (w <> 8 -> forall f i, same (r <- program b a (Call v e d i) (KBit f) ;; Ret (Z.testbit (r_old r) v)) (x_bit x f a v)) /\
  (dcas b = true -> forall i vec,
    same (g <- racy a w ;; program b a (Call v e d g) KLoad) (x <- c_load (dcas_x86 false w) o a ;; Ret (Res x 0 true)) /\
    (vec = false \/ is_seq_cst o = true -> same (program b a (Call v e d i) KStore ;;; Ret tt) (c_store (dcas_x86 vec w) o a v)) /\
    same (program b a (Call v e d i) KExchange) (x <- c_exchange (dcas_x86 vec w) a v ;; Ret (Res x 0 true)) /\
    same (program b a (Call v e d i) KWeak) ('(ok, x) <- c_casw (dcas_x86 vec w) a e d ;; Ret (Res x 0 ok)) /\
    same (program b a (Call v e d i) KStrong) ('(ok, x) <- c_cas (dcas_x86 vec w) a e d ;; Ret (Res x 0 ok))).
Proof.
  intros b a v e d o sg A N. cbv zeta.
  split; [intros D i; exact (x86_link b a v e d A i o D)|].
  pose proof (x86_link_fetch b a v e d A N) as (F1 & F2 & F3). split; [exact F1|]. split; [exact F2|]. split; [exact F3|].
  pose proof (x86_link_extra b a v e d A N sg) as (X1 & X2 & X3 & X4 & X5 & X6 & X7).
  split; [exact X1|]. split; [exact X2|]. split; [exact X3|]. split; [exact X4|]. split; [exact X5|]. split; [exact X6|]. split; [exact X7|].
  intros D i vec. exact (x86_link_dcas b a v e d A i o vec D).
Qed.

Section Sparc.
  Variables (b : block) (a : addr) (v e d : Z).
  Notation w := (b_bits b).
  Hypothesis A : b_arch b = Sparc.
  Notation call := (Call v e d 0).
  (** after the block, "success = (previous == expected)" is computed in C++ *)
  Lemma sparc_link :
    (w = 32 -> same (r <- program b a call KExchange ;; Ret (r_old r)) (c_exchange (CoreModel.sparc w) a v)) /\
    same (r <- program b a call KWeak ;; Ret (r_old r =? e, r_old r)) (c_casw (CoreModel.sparc w) a e d) /\
    same (r <- program b a call KStrong ;; Ret (r_old r =? e, r_old r)) (c_cas (CoreModel.sparc w) a e d).
  Proof.
    unfold program. rewrite A. cbn [sparc_program CoreModel.sparc cas_based c_exchange c_casw c_cas q_v q_e q_d]. split; [|split].
    - intros W. rewrite W, Z.eqb_refl. apply same_refl.
    - unfold sparc_cas. cbn [cas bind do]. apply same_do. intros [ok x]. apply same_refl.
    - unfold sparc_cas. cbn [cas bind do]. apply same_do. intros [ok x]. apply same_refl.
  Qed.
End Sparc.

Section Lse.
  Variables (b : block) (a : addr) (v e d : Z).
  Notation w := (b_bits b).
  Hypotheses (A : b_arch b = AArch64) (L : lse b = true) (W : w <> 128).
  Notation call v := (Call v e d 0).
  (** the operand of a subtraction is negated, and that of a conjunction inverted, before the block *)
  Lemma lse_link :
    same (r <- program b a (call v) KExchange ;; Ret (r_old r)) (c_exchange (aarch64_lse w) a v) /\
    same (r <- program b a (call v) KWeak ;; Ret (r_old r =? e, r_old r)) (c_casw (aarch64_lse w) a e d) /\
    same (r <- program b a (call v) KStrong ;; Ret (r_old r =? e, r_old r)) (c_cas (aarch64_lse w) a e d) /\
    forall f, same (r <- program b a (call (match f with Sub => wrap w (- v) | And => wrap w (Z.lnot v) | _ => v end)) (KFetch (Bin_ f)) ;; Ret (r_old r))
                   (c_fetch (aarch64_lse w) f a v).
  Proof.
    apply Z.eqb_neq in W. unfold program. rewrite A, W, L. cbn [lse_program aarch64_lse c_exchange c_casw c_cas c_fetch q_v q_e q_d].
    split; [apply same_refl|]. split; [unfold sparc_cas; cbn [cas bind do]; apply same_do; intros [ok x]; apply same_refl|].
    split; [unfold sparc_cas; cbn [cas bind do]; apply same_do; intros [ok x]; apply same_refl|].
    intros f. destruct f; apply same_refl.
  Qed.
End Lse.

Section Pair.
  Variables (b : block) (a : addr) (v e d i : Z).
  Hypotheses (A : b_arch b = AArch64) (W : b_bits b = 128) (N : b_value b = 128) (V : 0 <= v < 2 ^ 128).
  Notation call := (Call v e d i).
  Lemma prog_pair k : program b a call k = pair_program b a call k.
  Proof. unfold program. now rewrite A, W. Qed.
  Lemma pair_link o :
    same (program b a call KLoad) (x <- c_load aarch64_pair o a ;; Ret (Res x x true)) /\
    same (program b a call KStore ;;; Ret tt) (c_store aarch64_pair o a v) /\
    same (program b a call KExchange) (x <- c_exchange aarch64_pair a v ;; Ret (Res x v true)) /\
    same (program b a call KWeak) ('(ok, x) <- c_casw aarch64_pair a e d ;; Ret (Res x 0 ok)) /\
    same (program b a call KStrong) ('(ok, x) <- c_cas aarch64_pair a e d ;; Ret (Res x 0 ok)) /\
    forall f x, 0 <= x < 2 ^ 128 ->
      (let (lo, hi) := pair_apply f (half 128 false x) (half 128 true x) (half 128 false v) (half 128 true v) in join 128 lo hi) = updated b (Bin_ f) v x.
  Proof.
    rewrite !prog_pair. cbn [pair_program aarch64_pair c_load c_store c_exchange c_casw c_cas q_v q_e q_d]. unfold pair_retry. rewrite W.
    assert (E : updated b Set_ v = fun _ => v) by (unfold updated; rewrite W; cbn; unfold wrap; now rewrite (Z.mod_small _ _ V)). rewrite E.
    split; [apply same_refl|]. split; [apply same_refl|]. split; [apply same_refl|]. split; [apply same_refl|]. split; [apply same_refl|].
    intros f x X. pose proof (pair_apply_ok f x v X V) as Q. unfold pairf in Q. etransitivity; [exact Q|]. unfold updated. rewrite N, W. destruct f; reflexivity.
  Qed.
End Pair.

(** * The text of the lock-based floating-point operations does what PoolModel.v says *)
From Coq Require Import ZArith List Bool String Lia Arith.
From Verif Require Import SpecInt SpecTyped SpecBytes SpecPool Order Conv Prog FindModel RecordsModel SimProof TypedProof PoolModel PoolFront PoolText PoolTable PoolFpTable
  PoolLayers PoolFpLayers PoolTextProof PoolTextCond PoolTextPool.
Import ListNotations.
Local Open Scope string_scope.
Local Open Scope Z_scope.
Local Open Scope prog_scope.

Local Opaque slock_new slock_do swait_new swait_do swait_del rd wr ld acquire release pool_text.

Ltac gofp := lazy beta iota zeta delta [
  runf call lookup cond_ok bind_params finals forallb pf_name pf_cond pf_params pf_body
  block exec eval evals invoke conv convop cut num truth bin un field opt puts put get result after
  done is fst snd rev app firstn List.length String.eqb Ascii.eqb Bool.eqb andb orb negb String.append member
  bind pdo do loop
  as_lock as_bool as_num as_void a_lock a_bool a_num ret_val ret_unit
  conf stuck pool_api guards base_lock scopes fp_calls extra_fp_base fp_emulated_fns extra_fp_emulated_fns ].

Section Fp.
  Variables (pl : platform) (t : tobj) (vw : Z) (ar : arith).
  Notation d := (t_desc t).
  Notation i := (lock_of pl d).
  Hypothesis K : t_kind t = KFp vw ar.
  Hypothesis W : 0 < vw <= t_w t.

  Lemma back x : t_dec t (t_enc t (wrap vw x)) = wrap vw x.
  Proof.
    unfold t_dec, t_enc. rewrite K. apply unplace_place; [exact W|]. unfold pattern, wrap. apply Z.mod_pos_bound. lia.
  Qed.

  Ltac assoc := repeat apply sim_assoc_r.
  Ltac along :=
    repeat (assoc; repeat apply sim_assoc_l; cbn [bind];
      first [ leaf
            | eapply sim_bind_eq; [exact (guard_del pl d i)|intros []]
            | eapply sim_bind_eq; [exact (sim_refl _ (rd pl d))|let x := fresh "x" in intros x]
            | match goal with |- context [wr pl d ?v] => eapply sim_bind_eq; [exact (sim_refl _ (wr pl d v))|intros []] end ]).

  Theorem text_fp_sim : forall f e, sim eq (text_fp pl t vw ar f e)
    (x <- scoped pl d (emu_upd pl d (fp_form f) (fp_upd t vw ar e)) ;;
     Ret (dec_iret (t_dec t) x)).
  Proof.
    intros f e. unfold text_fp, fp_text, extra_fp_text, scoped, emu_upd, fp_upd. destruct f, e as [v|v|]; gofp.
    all: try (unfold fp_text; gofp).
    all: repeat apply sim_assoc_l; cbn [bind].
    all: assoc.
    all: subm (guard_new pl d false).
    all: along.
    all: cbn [fp_form report feff_apply dec_iret]; rewrite ?back; reflexivity.
  Qed.
End Fp.

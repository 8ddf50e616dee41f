(** * Rounding error of float64 operations *)
From Coq Require Import Lia ZifyBool Reals Lra.
From Flocq Require Import Core BinarySingleNaN Relative.
From Verif Require Import GoBase F64 F64Facts.
Local Open Scope R_scope.

Definition u53 : R := bp (-53).
Definition eta : R := bp (-1075).

Lemma u53_pos : 0 < u53. Proof. apply bpow_gt_0. Qed.
Lemma eta_pos : 0 < eta. Proof. apply bpow_gt_0. Qed.
Lemma u53_val : u53 = / 9007199254740992.
Proof. reflexivity. Qed.
Lemma eta_small k : (-1075 <= k)%Z -> eta <= bp k.
Proof. intro; apply bpow_le; assumption. Qed.

Lemma rnd_err x : Rabs (rnd x - x) <= u53 * Rabs x + eta.
Proof.
  rewrite fexp_FLT.
  destruct (error_N_FLT radix2 (-1074) 53 prec_gt_0_53 (fun z => negb (Z.even z)) x)
    as (eps & et & He & Het & _ & E).
  change (Znearest (fun z => negb (Z.even z))) with ZnearestE in E. rewrite E.
  replace (x * (1 + eps) + et - x) with (x * eps + et) by ring.
  apply Rle_trans with (1 := Rabs_triang _ _). apply Rplus_le_compat.
  - rewrite Rabs_mult, Rmult_comm. apply Rmult_le_compat_r; [apply Rabs_pos|].
    apply Rle_trans with (1 := He). right. unfold u53.
    change (/ 2 * bp (-52) = bp (-53)). change (/ 2) with (bp (-1)). rewrite <- bpow_plus. reflexivity.
  - apply Rle_trans with (1 := Het). right. unfold eta.
    replace (-1075)%Z with (-1 + -1074)%Z by reflexivity. rewrite bpow_plus. reflexivity.
Qed.

Lemma rnd_no_overflow x : Rabs x <= bp 1000 -> Rabs (rnd x) < bp 1024.
Proof.
  intro H. pose proof (rnd_err x) as He.
  assert (Rabs (rnd x) <= Rabs x + Rabs (rnd x - x)).
  { replace (rnd x) with (x + (rnd x - x)) at 1 by ring. apply Rabs_triang. }
  assert (H1: eta <= bp 1000) by (apply eta_small; lia).
  assert (H2: u53 <= 1) by (rewrite u53_val; lra).
  assert (H3: bp 1024 = 16777216 * bp 1000).
  { replace 1024%Z with (24 + 1000)%Z by reflexivity. rewrite bpow_plus. reflexivity. }
  pose proof (bpow_gt_0 radix2 1000). pose proof (Rabs_pos x).
  assert (u53 * Rabs x <= 1 * bp 1000) by (apply Rmult_le_compat; try lra; apply Rlt_le, u53_pos).
  lra.
Qed.

Definition fin (x : f64) : Prop := is_finite x = true.

Lemma fmul_err x y : fin x -> fin y -> Rabs (val x * val y) <= bp 1000 ->
  fin (fmul x y) /\ Rabs (val (fmul x y) - val x * val y) <= u53 * Rabs (val x * val y) + eta.
Proof.
  intros Fx Fy Hb. generalize (Bmult_correct 53 1024 _ _ mode_NE x y).
  simpl round_mode. rewrite Rlt_bool_true by (apply rnd_no_overflow; assumption).
  intros (H1 & H2 & _). unfold fmul, fin in *. rewrite H1, H2, Fx, Fy. split; [reflexivity|]. apply rnd_err.
Qed.

Lemma fdiv_err x y : fin x -> val y <> 0 -> Rabs (val x / val y) <= bp 1000 ->
  fin (fdiv x y) /\ Rabs (val (fdiv x y) - val x / val y) <= u53 * Rabs (val x / val y) + eta.
Proof.
  intros Fx Hy Hb. generalize (Bdiv_correct 53 1024 _ _ mode_NE x y Hy).
  simpl round_mode. rewrite Rlt_bool_true by (apply rnd_no_overflow; assumption).
  intros (H1 & H2 & _). unfold fdiv, fin in *. rewrite H1, H2, Fx. split; [reflexivity|]. apply rnd_err.
Qed.

Lemma fadd_err x y : fin x -> fin y -> Rabs (val x + val y) <= bp 1000 ->
  fin (fadd x y) /\ Rabs (val (fadd x y) - (val x + val y)) <= u53 * Rabs (val x + val y) + eta.
Proof.
  intros Fx Fy Hb. generalize (Bplus_correct 53 1024 _ _ mode_NE x y Fx Fy).
  simpl round_mode. rewrite Rlt_bool_true by (apply rnd_no_overflow; assumption).
  intros (H1 & H2 & _). unfold fadd, fin in *. rewrite H1, H2. split; [reflexivity|]. apply rnd_err.
Qed.

Lemma fsub_err x y : fin x -> fin y -> Rabs (val x - val y) <= bp 1000 ->
  fin (fsub x y) /\ Rabs (val (fsub x y) - (val x - val y)) <= u53 * Rabs (val x - val y) + eta.
Proof.
  intros Fx Fy Hb. generalize (Bminus_correct 53 1024 _ _ mode_NE x y Fx Fy).
  simpl round_mode. rewrite Rlt_bool_true by (apply rnd_no_overflow; assumption).
  intros (H1 & H2 & _). unfold fsub, fin in *. rewrite H1, H2. split; [reflexivity|]. apply rnd_err.
Qed.

Lemma val_fopp x : val (fopp x) = - val x.
Proof. apply B2R_Bopp. Qed.
Lemma fin_fopp x : fin x -> fin (fopp x).
Proof. unfold fin, fopp. rewrite is_finite_Bopp. trivial. Qed.
Lemma ffma_err x y z : fin x -> fin y -> fin z -> Rabs (val x * val y + val z) <= bp 1000 ->
  fin (ffma x y z) /\ Rabs (val (ffma x y z) - (val x * val y + val z)) <= u53 * Rabs (val x * val y + val z) + eta.
Proof.
  intros Fx Fy Fz Hb. generalize (Bfma_correct 53 1024 _ _ mode_NE x y z Fx Fy Fz). cbv zeta.
  simpl round_mode. rewrite Rlt_bool_true by (apply rnd_no_overflow; assumption).
  intros (H1 & H2 & _). unfold ffma, fin in *. rewrite H1, H2. split; [reflexivity|]. apply rnd_err.
Qed.

(** dividing a number of magnitude at least 1 by 2^32 is exact *)
Lemma fmt_unscale x k : (0 <= k <= 1000)%Z -> fmt x -> (x = 0 \/ 1 <= Rabs x) -> fmt (x * bp (- k)).
Proof.
  intros Hk Hx [->|H1].
  - rewrite Rmult_0_l. apply generic_format_0.
  - unfold generic_format in Hx.
    set (m := Ztrunc (scaled_mantissa radix2 (SpecFloat.fexp 53 1024) x)) in *.
    set (e := cexp radix2 (SpecFloat.fexp 53 1024) x) in *.
    assert (Hmag: (1 <= mag radix2 x)%Z).
    { apply mag_ge_bpow. simpl. exact H1. }
    assert (He: e = (mag radix2 x - 53)%Z).
    { unfold e, cexp. unfold SpecFloat.fexp, SpecFloat.emin. lia. }
    apply generic_format_FLT. exists (Float radix2 m (e - k)).
    + rewrite Hx at 1. unfold F2R; simpl Fnum; simpl Fexp.
      replace (e - k)%Z with (e + - k)%Z by ring. rewrite bpow_plus. ring.
    + simpl Fnum. apply lt_IZR. rewrite abs_IZR.
      change (IZR (radix2 ^ 53)) with (bp 53).
      apply (Rmult_lt_reg_r (bp e)); [apply bpow_gt_0|].
      rewrite <- bpow_plus. rewrite <- (Rabs_pos_eq (bp e)) by apply bpow_ge_0. rewrite <- Rabs_mult.
      change (IZR m * bp e) with (F2R (Float radix2 m e)). rewrite <- Hx.
      replace (53 + e)%Z with (mag radix2 x : Z) by lia.
      apply bpow_mag_gt.
    + change (-1074 <= e - k)%Z. lia.
Qed.

(** * Facts about the float64 model *)
From Coq Require Import Lia ZifyBool Reals Lra.
From Flocq Require Import Core BinarySingleNaN.
From Verif Require Import GoBase F64.
Local Open Scope Z_scope.

Notation fmt := (generic_format radix2 (SpecFloat.fexp 53 1024)).
Notation val := (@B2R 53 1024).
Notation rnd := (round radix2 (SpecFloat.fexp 53 1024) ZnearestE).
Notation bp := (bpow radix2).

Lemma fexp_FLT : SpecFloat.fexp 53 1024 = FLT_exp (-1074) 53.
Proof. reflexivity. Qed.

Lemma fmt_mk m e : Z.abs m <= 2 ^ 53 -> -1074 <= e -> fmt (F2R (Float radix2 m e)).
Proof.
  intros Hm He. destruct (Z.eq_dec (Z.abs m) (2 ^ 53)) as [E|E].
  - assert (Hb: forall s, fmt (cond_Ropp s (bp (53 + e)))).
    { intro s. assert (fmt (bp (53 + e))).
      { apply generic_format_bpow. unfold SpecFloat.fexp, SpecFloat.emin. lia. }
      destruct s; simpl; [apply generic_format_opp|]; assumption. }
    assert (E2: F2R (Float radix2 m e) = cond_Ropp (m <? 0) (bp (53 + e))).
    { unfold F2R; simpl Fnum; simpl Fexp. rewrite bpow_plus.
      change (bp 53) with 9007199254740992%R. change (2 ^ 53) with 9007199254740992 in E.
      destruct (Z.ltb_spec m 0); simpl.
      - assert (Em: m = -9007199254740992) by lia. rewrite Em. lra.
      - assert (Em: m = 9007199254740992) by lia. rewrite Em. lra. }
    rewrite E2. apply Hb.
  - apply generic_format_FLT. exists (Float radix2 m e); simpl; [reflexivity| |assumption].
    change (Z.abs m < 2 ^ 53). lia.
Qed.

Lemma F2R_bound m e k : Z.abs m <= 2 ^ 53 -> e + 54 <= k -> (Rabs (F2R (Float radix2 m e)) < bp k)%R.
Proof.
  intros Hm He. rewrite <- F2R_Zabs. apply Rlt_le_trans with (F2R (Float radix2 (2^54) e)).
  - apply F2R_lt. apply Z.le_lt_trans with (2^53); [assumption|reflexivity].
  - replace (F2R (Float radix2 (2^54) e)) with (bp (54 + e)).
    + apply bpow_le. lia.
    + rewrite bpow_plus. reflexivity.
Qed.

Lemma rnd_fmt x : fmt x -> rnd x = x.
Proof. intro; apply round_generic; [apply valid_rnd_N|assumption]. Qed.

Lemma flit_exact m e : Z.abs m <= 2 ^ 53 -> -1074 <= e -> e <= 970 ->
  val (flit m e) = F2R (Float radix2 m e) /\ is_finite (flit m e) = true.
Proof.
  intros Hm He1 He2.
  generalize (binary_normalize_correct 53 1024 prec_gt_0_53 prec_lt_emax_1024 mode_NE m e false).
  simpl round_mode. cbv zeta. rewrite rnd_fmt by (apply fmt_mk; assumption).
  rewrite Rlt_bool_true by (apply F2R_bound; [assumption|lia]).
  intros (H1 & H2 & _). split; [exact H1|exact H2].
Qed.

Lemma normalize_exact m e s : Z.abs m <= 2 ^ 53 -> -1074 <= e -> e <= 970 ->
  val (binary_normalize 53 1024 _ _ mode_NE m e s) = F2R (Float radix2 m e)
  /\ is_finite (binary_normalize 53 1024 _ _ mode_NE m e s) = true.
Proof.
  intros Hm He1 He2.
  generalize (binary_normalize_correct 53 1024 prec_gt_0_53 prec_lt_emax_1024 mode_NE m e s).
  simpl round_mode. cbv zeta. rewrite rnd_fmt by (apply fmt_mk; assumption).
  rewrite Rlt_bool_true by (apply F2R_bound; [assumption|lia]).
  intros (H1 & H2 & _). split; [exact H1|exact H2].
Qed.

Lemma f_of_Z_exact z : Z.abs z <= 2 ^ 53 -> val (f_of_Z z) = IZR z /\ is_finite (f_of_Z z) = true.
Proof.
  intro H. destruct (flit_exact z 0 H) as [H1 H2]; [lia|lia|]. split; [|exact H2].
  unfold f_of_Z. rewrite H1. unfold F2R; simpl. ring.
Qed.

Lemma f_pow2_exact s : -1074 <= s <= 970 -> val (f_pow2 s) = bp s /\ is_finite (f_pow2 s) = true.
Proof.
  intro H. destruct (flit_exact 1 s) as [H1 H2]; [simpl; lia|lia|lia|]. split; [|exact H2].
  unfold f_pow2. rewrite H1. unfold F2R; simpl. ring.
Qed.

Lemma fmul_exact x y r : is_finite x = true -> is_finite y = true ->
  (val x * val y = r)%R -> fmt r -> (Rabs r < bp 1024)%R ->
  val (fmul x y) = r /\ is_finite (fmul x y) = true.
Proof.
  intros Fx Fy E Hr Hb. generalize (Bmult_correct 53 1024 _ _ mode_NE x y).
  simpl round_mode. rewrite E, rnd_fmt by assumption. rewrite Rlt_bool_true by assumption.
  intros (H1 & H2 & _). split; [exact H1|]. unfold fmul; rewrite H2, Fx, Fy; reflexivity.
Qed.

Lemma fdiv_exact x y r : is_finite x = true -> val y <> 0%R ->
  (val x / val y = r)%R -> fmt r -> (Rabs r < bp 1024)%R ->
  val (fdiv x y) = r /\ is_finite (fdiv x y) = true.
Proof.
  intros Fx Hy E Hr Hb. generalize (Bdiv_correct 53 1024 _ _ mode_NE x y Hy).
  simpl round_mode. rewrite E, rnd_fmt by assumption. rewrite Rlt_bool_true by assumption.
  intros (H1 & H2 & _). split; [exact H1|]. unfold fdiv; rewrite H2, Fx; reflexivity.
Qed.

Lemma fadd_exact x y r : is_finite x = true -> is_finite y = true ->
  (val x + val y = r)%R -> fmt r -> (Rabs r < bp 1024)%R ->
  val (fadd x y) = r /\ is_finite (fadd x y) = true.
Proof.
  intros Fx Fy E Hr Hb. generalize (Bplus_correct 53 1024 _ _ mode_NE x y Fx Fy).
  simpl round_mode. rewrite E, rnd_fmt by assumption. rewrite Rlt_bool_true by assumption.
  intros (H1 & H2 & _). split; [exact H1|exact H2].
Qed.

(** ** integer part *)
Lemma F2R_neg_div m e : e < 0 -> F2R (Float radix2 m e) = (IZR m / IZR (2 ^ (- e)))%R.
Proof.
  intro He. unfold F2R, Rdiv; simpl Fnum; simpl Fexp. f_equal.
  replace e with (- (- e)) at 1 by lia. rewrite bpow_opp. f_equal.
  rewrite <- (IZR_Zpower radix2) by lia. reflexivity.
Qed.

Lemma Zfloor_div m d : 0 < d -> Zfloor (IZR m / IZR d) = m / d.
Proof. intro. apply Zfloor_div. lia. Qed.

Lemma Ztrunc_F2R_pos m e : 0 <= m ->
  Ztrunc (F2R (Float radix2 m e)) = if 0 <=? e then m * 2 ^ e else m / 2 ^ (- e).
Proof.
  intro Hm. destruct (Z.leb_spec 0 e).
  - unfold F2R; simpl Fnum; simpl Fexp. rewrite <- IZR_Zpower by lia.
    rewrite <- mult_IZR. rewrite Ztrunc_IZR. reflexivity.
  - rewrite F2R_neg_div by assumption.
    rewrite Ztrunc_floor.
    + apply Zfloor_div. apply Z.pow_pos_nonneg; lia.
    + unfold Rdiv. apply Rmult_le_pos; [apply IZR_le; assumption|].
      apply Rlt_le, Rinv_0_lt_compat, IZR_lt, Z.pow_pos_nonneg; lia.
Qed.

Lemma ftrunc_correct x : ftrunc x = Ztrunc (val x).
Proof.
  destruct x as [s|s| |s m e H]; simpl; try (rewrite Ztrunc_IZR; reflexivity).
  rewrite F2R_cond_Zopp. destruct s; simpl cond_Ropp; simpl cond_Zopp.
  - rewrite Ztrunc_opp. rewrite Ztrunc_F2R_pos by lia. reflexivity.
  - rewrite Ztrunc_F2R_pos by lia. reflexivity.
Qed.

Lemma f_int64_correct other x : is_finite x = true -> - two63 <= Ztrunc (val x) < two63 ->
  f_int64 other x = Ztrunc (val x).
Proof.
  intros Hf H. destruct x as [s|s| |s m e Hb]; try discriminate Hf.
  - simpl. rewrite Ztrunc_IZR; reflexivity.
  - unfold f_int64. rewrite <- ftrunc_correct in H. rewrite <- ftrunc_correct.
    destruct (Z.leb_spec (- two63) (ftrunc (B754_finite s m e Hb))); [|lia].
    destruct (Z.ltb_spec (ftrunc (B754_finite s m e Hb)) two63); [reflexivity|lia].
Qed.

(** ** math.Mod(x, 1) *)
Lemma bounded_mant m e : SpecFloat.bounded 53 1024 m e = true ->
  Z.pos m < 2 ^ 53 /\ -1074 <= e <= 971.
Proof.
  intro H. unfold SpecFloat.bounded in H. apply andb_prop in H. destruct H as [H1 H2].
  unfold SpecFloat.canonical_mantissa in H1. apply Zeq_bool_eq in H1.
  unfold SpecFloat.fexp, SpecFloat.emin in H1.
  rewrite Digits.Zpos_digits2_pos in H1.
  split.
  - pose proof (Digits.Zdigits_correct radix2 (Z.pos m)) as [_ Hd].
    rewrite Z.abs_eq in Hd by lia. apply Z.lt_le_trans with (1 := Hd).
    change (radix_val radix2) with 2. apply Z.pow_le_mono_r; lia.
  - lia.
Qed.

Lemma fmod1_correct x : is_finite x = true ->
  val (fmod1 x) = (val x - IZR (Ztrunc (val x)))%R /\ is_finite (fmod1 x) = true.
Proof.
  intro Hf. destruct x as [s|s| |s m e Hb]; try discriminate Hf.
  - simpl. rewrite Ztrunc_IZR. split; [ring|reflexivity].
  - destruct (bounded_mant m e Hb) as [Hm He].
    rewrite <- ftrunc_correct. unfold fmod1, ftrunc. destruct (Z.leb_spec 0 e) as [H0|H0].
    + split; [|reflexivity]. simpl B2R.
      rewrite F2R_cond_Zopp. unfold F2R; simpl Fnum; simpl Fexp.
      rewrite <- IZR_Zpower by assumption. change (Z.pow (radix_val radix2)) with (Z.pow 2).
      destruct s; unfold cond_Ropp, cond_Zopp; rewrite ?opp_IZR, <- ?mult_IZR; ring.
    + pose proof (Z.pow_pos_nonneg 2 (- e) ltac:(lia) ltac:(lia)) as Hp.
      pose proof (Z.mod_pos_bound (Z.pos m) (2 ^ (- e)) Hp) as Hr.
      pose proof (Z.mod_le (Z.pos m) (2 ^ (-e)) ltac:(lia) Hp) as Hle.
      destruct (normalize_exact (cond_Zopp s (Z.pos m mod 2 ^ (- e))) e s) as [Hv Hfin].
      * rewrite abs_cond_Zopp. rewrite Z.abs_eq by lia. lia.
      * lia.
      * lia.
      * split; [|exact Hfin]. rewrite Hv. simpl B2R.
        rewrite !F2R_cond_Zopp, !F2R_neg_div by assumption.
        rewrite (Z.div_mod (Z.pos m) (2 ^ (- e))) at 2 by lia.
        rewrite plus_IZR, mult_IZR.
        assert (IZR (2 ^ (- e)) <> 0%R) by (apply IZR_neq; lia).
        destruct s; unfold cond_Ropp, cond_Zopp; rewrite ?opp_IZR; field; assumption.
Qed.

Lemma val_fmt x : fmt (val x).
Proof. apply generic_format_B2R. Qed.

(** scaling by a power of two upward is exact *)
Lemma fmt_scale x k : 0 <= k -> fmt x -> fmt (x * bp k)%R.
Proof.
  intros Hk Hx. rewrite fexp_FLT in *. apply FLT_format_generic in Hx; [|exact prec_gt_0_53].
  destruct Hx as [f Hf1 Hf2 Hf3].
  apply generic_format_FLT. exists (Float radix2 (Fnum f) (Fexp f + k)).
  - rewrite Hf1. unfold F2R; simpl. rewrite bpow_plus. ring.
  - assumption.
  - simpl. lia.
Qed.

Lemma Ztrunc_bound_lt1 x : (Rabs (x - IZR (Ztrunc x)) < 1)%R.
Proof.
  destruct (Rle_or_lt 0 x) as [H|H].
  - rewrite Ztrunc_floor by assumption. pose proof (Zfloor_lb x). pose proof (Zfloor_ub x).
    rewrite Rabs_pos_eq; lra.
  - rewrite Ztrunc_ceil by lra. pose proof (Zceil_ub x). pose proof (Zceil_lb x).
    rewrite Rabs_left1; lra.
Qed.

Lemma Ztrunc_abs_bound x (B : Z) : (Rabs x < IZR B)%R -> Z.abs (Ztrunc x) < B \/ (Ztrunc x = 0 /\ 0 < B).
Proof.
  intro H. left. rewrite <- Ztrunc_abs. apply lt_IZR. apply Rle_lt_trans with (2 := H).
  rewrite Ztrunc_floor by apply Rabs_pos. apply Zfloor_lb.
Qed.

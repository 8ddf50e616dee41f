(** * The float64 transform: accuracy of products and exactness of the round trip *)
From Coq Require Import ZArith List Lia ZifyBool Reals Lra Psatz.
From Flocq Require Import Core BinarySingleNaN.
From Coquelicot Require Import Complex.
From Verif Require Import GoBase Spec GoFacts GoMem F64 F64Facts F64Err Poly Laws NegFacts Fft FftFacts FftTab FftOps CSum RSum FftReal CErr BfErr FftErr FftInv FftRound FftTabErr.
Local Open Scope R_scope.

Lemma kap0 : kap tau0 = 21 * u53. Proof. unfold kap. rewrite tau0_val. ring. Qed.

Section F.
Context (mc : machine).
Notation FA := (f64_arith mc).
Notation RA := real_arith.
Context (h : Z) (Hh : (3 <= h)%Z) (Hh2 : (h <= 50)%Z).
Notation HF := (2 ^ h)%Z.
Notation NF := (2 * 2 ^ h)%Z.
Notation cxf := (cx FA).
Notation ea := (ea mc).
Notation af := (af mc).
Notation lfin := (lfin mc h).
Context (tf tfi : list (f64 * f64)) (Htf : near_tw mc tau0 h tf) (Htfi : near_twi mc tau0 h tfi).
Context (tw twi : list C) (Htw : exact_tw h tw) (Htwi : exact_twi h twi).
Context (Lt : (HF - 1 <= zlen tf)%Z) (Li : (HF - 1 <= zlen tfi)%Z).
Notation LF := (fft_laws FA HF (H_pos h Hh) (H_4 h Hh) h Hh eq_refl tf tfi Lt Li).
Notation LR := (fft_laws RA HF (H_pos h Hh) (H_4 h Hh) h Hh eq_refl tw twi (proj1 Htw) (proj1 Htwi)).

Definition ef : R := 31.5 * IZR h * u53.
Lemma h_R : 3 <= IZR h <= 50. Proof. split; apply IZR_le; assumption. Qed.
Lemma ef_eq : 1.5 * IZR h * kap tau0 = ef. Proof. rewrite kap0. unfold ef. lra. Qed.
Lemma ef_ok : 0 <= ef <= / 100.
Proof. pose proof h_R. pose proof u53_pos. unfold ef. split; [apply Rmult_le_pos; lra|]. apply Rle_trans with (31.5 * 50 * u53); [apply Rmult_le_compat_r; lra|]. rewrite u53_val. lra. Qed.
Lemma Hk0 : 1.5 * IZR h * kap tau0 <= / 100. Proof. rewrite ef_eq. apply ef_ok. Qed.

(** ** the converted polynomial *)
Lemma cvt_pt p c : (0 <= c < HF)%Z -> cfin (cxf (cvt FA HF p) c) /\ cval (cxf (cvt FA HF p) c) = cxr (cvt RA HF p) c.
Proof.
  intro Hc. rewrite (cxr_cvt h Hh p c Hc). unfold cvt. rewrite (cx_lay FA HF (H_4 h Hh) _ c Hc). cbn [a_of f64_arith].
  assert (B: forall x, (Z.abs (int32 x) <= 2 ^ 53)%Z) by (intro x; pose proof (int32_range x); unfold two31 in *; lia).
  destruct (f_of_Z_exact _ (B (zn p c))) as [V1 F1]. destruct (f_of_Z_exact _ (B (zn p (c + HF)))) as [V2 F2].
  split; [split; assumption|]. unfold cval. cbn [fst snd]. rewrite V1, V2. unfold fphi. rewrite !ext_small by lia. reflexivity.
Qed.
Lemma cvt_fin p : lfin (cvt FA HF p). Proof. intros c Hc. apply cvt_pt. assumption. Qed.
Lemma cvt_err p : n2 HF (ea (cvt FA HF p) (cvt RA HF p)) <= 0.
Proof.
  apply n2_le_sq; [lra|]. apply Rle_trans with (rsum HF (fun _ => 0)).
  - apply rsum_le. intros c Hc. unfold FftErr.ea. destruct (cvt_pt p c Hc) as [_ ->].
    replace (Cminus (cxr (cvt RA HF p) c) (cxr (cvt RA HF p) c)) with (RtoC 0) by ring. rewrite Cmod_0. lra.
  - rewrite rsum_const by (pose proof (H_pos h Hh); lia). lra.
Qed.
(** Euclidean norm *)
Definition Xp (D : Z) : R := sqrt (IZR NF) * IZR D.
Lemma cvt_norm p D : (1 <= D)%Z -> (forall i, (0 <= i < NF)%Z -> (Z.abs (sgn p i) <= D)%Z) -> n2 HF (aa (cvt RA HF p)) <= Xp D.
Proof.
  intros HD HB. pose proof (H_pos h Hh) as HP. assert (0 <= IZR D) by (apply IZR_le; lia).
  apply n2_le_sq; [apply Rmult_le_pos; [apply sqrt_pos|assumption]|].
  unfold Xp. replace (sqrt (IZR NF) * IZR D * (sqrt (IZR NF) * IZR D)) with (sqrt (IZR NF) * sqrt (IZR NF) * (IZR D * IZR D)) by ring.
  rewrite sqrt_sqrt by (apply IZR_le; lia). rewrite mult_IZR.
  apply Rle_trans with (rsum HF (fun _ => 2 * (IZR D * IZR D))); [|rewrite rsum_const by lia; right; ring].
  apply rsum_le. intros c Hc. unfold aa. rewrite Cmod_sq, (cxr_cvt h Hh p c Hc). unfold fphi. cbn [fst snd]. rewrite !ext_small by lia.
  assert (S: forall i, (0 <= i < NF)%Z -> IZR (sgn p i) * IZR (sgn p i) <= IZR D * IZR D).
  { intros i Hi. rewrite <- !mult_IZR. apply IZR_le. specialize (HB i Hi). rewrite <- (Z.abs_square (sgn p i)). apply Z.mul_le_mono_nonneg; lia. }
  pose proof (S c ltac:(lia)). pose proof (S (c + HF)%Z ltac:(lia)). lra.
Qed.

Lemma Xp_1 D : (1 <= D)%Z -> 1 <= Xp D.
Proof.
  intro HD. unfold Xp. rewrite <- (Rmult_1_l 1). pose proof (H_pos h Hh). apply Rmult_le_compat; try lra; [|apply IZR_le; assumption].
  rewrite <- sqrt_1. apply sqrt_le_1_alt. apply IZR_le. lia.
Qed.
Lemma NF_bp : IZR NF <= bp 51.
Proof. change (bp 51) with (IZR (2 ^ 51)). apply IZR_le. rewrite <- p2S by lia. apply Z.pow_le_mono_r; lia. Qed.
Lemma Xp_le D : (1 <= D <= 2 ^ 31)%Z -> Xp D <= bp 82.
Proof.
  intro HD. change (bp 82) with (bp (51 + 31)). rewrite bpow_plus. pose proof (H_pos h Hh). pose proof NF_bp as NB.
  assert (N1: 1 <= IZR NF) by (apply IZR_le; lia).
  apply Rmult_le_compat; [apply sqrt_pos|apply IZR_le; lia| |change (bp 31) with (IZR (2 ^ 31)); apply IZR_le; lia].
  apply Rle_trans with (2 := NB). rewrite <- (sqrt_square (IZR NF)) at 2 by lra. apply sqrt_le_1_alt.
  rewrite <- (Rmult_1_l (IZR NF)) at 1. apply Rmult_le_compat_r; lra.
Qed.
Lemma HF_bp : IZR HF <= bp 50.
Proof. change (bp 50) with (IZR (2 ^ 50)). apply IZR_le. apply Z.pow_le_mono_r; lia. Qed.

(** the transform of a polynomial bounded by D *)
Notation Xh D := (Xs (Xp D) (Z.to_nat h)).
Lemma of_err p D : (1 <= D <= 2 ^ 31)%Z -> (forall i, (0 <= i < NF)%Z -> (Z.abs (sgn p i) <= D)%Z) ->
  lfin (Fof LF p) /\ n2 HF (aa (Fof LR p)) <= Xh D /\ n2 HF (ea (Fof LF p) (Fof LR p)) <= ef * Xh D.
Proof.
  intros HD HB. rewrite <- ef_eq.
  apply (fft_err mc tau0 tau0_ok h Hh Hh2 tf tw Htf Htw Hk0 (Xp D)).
  - apply Xp_1. lia.
  - apply Rle_trans with (bp 50 * bp 82); [|rewrite <- bpow_plus; apply bpow_le; lia].
    apply Rmult_le_compat; [apply IZR_le; pose proof (H_pos h Hh); lia|pose proof (Xp_1 D ltac:(lia)); lra|apply HF_bp|apply Xp_le; assumption].
  - apply cvt_fin.
  - apply cvt_norm; [lia|assumption].
  - apply cvt_err.
Qed.

Lemma Xs_mul X Y : Xs X (Z.to_nat h) * Xs Y (Z.to_nat h) = IZR HF * (X * Y).
Proof.
  unfold Xs. replace (sqrt 2 ^ Z.to_nat h * X * (sqrt 2 ^ Z.to_nat h * Y)) with ((sqrt 2 * sqrt 2) ^ Z.to_nat h * (X * Y)) by (rewrite Rpow_mult_distr; ring).
  rewrite sqrt_sqrt by lra. f_equal. rewrite pow_IZR. f_equal. rewrite Z2Nat.id by lia. reflexivity.
Qed.
Lemma Xp_mul D E : Xp D * Xp E = IZR (NF * (D * E)).
Proof.
  unfold Xp. replace (sqrt (IZR NF) * IZR D * (sqrt (IZR NF) * IZR E)) with (sqrt (IZR NF) * sqrt (IZR NF) * (IZR D * IZR E)) by ring.
  rewrite sqrt_sqrt by (apply IZR_le; pose proof (H_pos h Hh); lia). rewrite !mult_IZR. ring.
Qed.
Definition ZZ (D E : Z) : R := Xh D * Xh E.
Lemma ZZ_eq D E : ZZ D E = IZR HF * IZR (NF * (D * E)).
Proof. unfold ZZ. rewrite Xs_mul, Xp_mul. reflexivity. Qed.
Lemma ZZ_1 D E : (1 <= D)%Z -> (1 <= E)%Z -> 1 <= ZZ D E.
Proof.
  intros. unfold ZZ. rewrite <- (Rmult_1_l 1). apply Rmult_le_compat; try lra; apply Xs_1; apply Xp_1; assumption.
Qed.
Lemma ZZ_le D E : (1 <= D <= 2 ^ 31)%Z -> (1 <= E <= 2 ^ 31)%Z -> ZZ D E <= bp 300.
Proof.
  intros HD HE. unfold ZZ. rewrite Xs_mul. apply Rle_trans with (bp 50 * (bp 82 * bp 82)).
  - pose proof (Xp_1 D ltac:(lia)). pose proof (Xp_1 E ltac:(lia)). pose proof (HF1 h Hh).
    apply Rmult_le_compat; [lra|apply Rmult_le_pos; lra|apply HF_bp|]. apply Rmult_le_compat; try lra; apply Xp_le; assumption.
  - rewrite <- !bpow_plus. apply bpow_le. lia.
Qed.

(** from the accumulated spectrum to the coefficients *)
Lemma to_close xf x t B D delta : 1 <= B -> 0 <= D <= / 50 * B -> B <= bp 500 -> lfin xf -> rsum HF (aa x) <= B -> rsum HF (ea xf x) <= D ->
  (forall i, (0 <= i < HF)%Z -> cxr x i = evalc HF (zpt h i) (fphi h t)) ->
  (D + (1.1 * IZR h * kap tau0 + 1.1 * u53) * B) / IZR HF + eta < IZR delta + / 2 ->
  forall k, (0 <= k < NF)%Z -> close delta (zn (Fto LF xf) k) (t k).
Proof.
  intros HB HD BB Fx SA SE Hx Hr k Hk. pose proof (H_pos h Hh) as HP. cbn [Fto fft_laws]. unfold Fto_list. rewrite zn_tab by assumption.
  set (l := lay RA HF (fun c => fphi h t c)).
  assert (Ll: zlen l = (2 * HF)%Z) by (apply zlen_lay; [apply (H_pos h Hh)|apply (H_4 h Hh)]).
  assert (Hc: forall c, (0 <= c < HF)%Z -> cxr (ifft RA HF h twi x) c = fphi h t c).
  { intros c Hc. rewrite (ifft_fft h Hh tw twi Htw Htwi x l Ll); [exact (cxr_lay h Hh _ c Hc)| |assumption].
    intros c' Hc'. rewrite Hx by assumption. rewrite (fft_eval h Hh tw Htw l c' Ll Hc'). unfold evalc. apply csum_ext.
    intros q Hq. unfold l. rewrite (cxr_lay h Hh _ q Hq). reflexivity. }
  assert (BB6: B <= bp 600) by (apply Rle_trans with (1 := BB); apply bpow_le; lia).
  pose proof (ifft_err mc tau0 tau0_ok h Hh Hh2 tfi twi Htfi Htwi Hk0 xf x B D HB HD BB6 Fx SA SE) as IE. cbv zeta in IE.
  set (r := (D + (1.1 * IZR h * kap tau0 + 1.1 * u53) * B) / IZR HF + eta) in *.
  set (y := ifft FA HF h tfi xf) in *.
  assert (Ly: zlen y = (2 * HF)%Z) by (apply zlen_stl; [apply (H_pos h Hh)|apply (H_4 h Hh)]).
  assert (Hrb: r <= bp 500).
  { pose proof (HF1 h Hh) as H1. pose proof h_R as HR. pose proof u53_pos as Up. assert (Us: u53 <= / 1000000) by (rewrite u53_val; lra).
    assert (0 <= 1.1 * IZR h * kap tau0 + 1.1 * u53 <= / 50).
    { rewrite kap0. assert (0 <= IZR h * u53 <= 50 * u53) by (split; [apply Rmult_le_pos; lra|apply Rmult_le_compat_r; lra]).
      assert (50 * u53 <= / 10000) by lra. lra. }
    assert (0 <= (1.1 * IZR h * kap tau0 + 1.1 * u53) * B <= / 50 * B) by (split; [apply Rmult_le_pos; lra|apply Rmult_le_compat_r; lra]).
    assert (Hq: (D + (1.1 * IZR h * kap tau0 + 1.1 * u53) * B) / IZR HF <= / 25 * B).
    { apply Rle_trans with ((/ 25 * B) / 1); [|lra]. unfold Rdiv. apply Rmult_le_compat; [lra|apply Rlt_le, Rinv_0_lt_compat; lra|lra|apply Rinv_le_contravar; lra]. }
    assert (eta <= / 25) by (apply Rle_trans with (bp (-10)); [apply eta_small; lia|change (bp (-10)) with (/ 1024); lra]).
    unfold r. lra. }
  assert (Fin: forall v (u : R), is_finite v = true -> Rabs (val v - u) <= r -> Rabs u <= B -> u = IZR (t k) -> close delta (w32 (f_int64 (m_int64 mc) (modQ FA (Q32 FA) v))) (t k)).
  { intros v u Fv Ev Bu Eu. apply modQ_close; [exact Fv| |rewrite <- Eu; lra].
    replace (val v) with (u + (val v - u)) by ring. eapply Rle_trans; [apply Rabs_triang|].
    apply Rle_trans with (2 * bp 500); [lra|]. change 2 with (bp 1). rewrite <- bpow_plus. apply bpow_le. lia. }
  assert (Bz: forall z : C, Cmod z <= B / IZR HF -> Cmod z <= B).
  { intros z Hz. apply Rle_trans with (1 := Hz). pose proof (HF1 h Hh). apply Rle_trans with (B / 1); [|lra]. unfold Rdiv. apply Rmult_le_compat_l; [lra|]. apply Rinv_le_contravar; lra. }
  assert (Em: forall p, (0 <= p < 2 * HF)%Z -> znd (a_zero FA) (map (modQ FA (Q32 FA)) y) p = modQ FA (Q32 FA) (znd (a_zero FA) y p)).
  { intros p Hp. apply (znd_map (modQ FA (Q32 FA)) (a_zero FA)). lia. }
  unfold ucoef. destruct (Z.ltb_spec k HF) as [Hlt|Hge].
  - pose proof (pos_range HF (H_4 h Hh) k ltac:(lia)) as Pk. destruct (IE k ltac:(lia)) as ([F1 F2] & E1 & E2 & E3). rewrite (Hc k ltac:(lia)) in E1, E2, E3.
    specialize (Bz _ E3). unfold FftFacts.cx in *. cbn [fst snd] in *. rewrite Em by lia.
    apply (Fin _ (fst (fphi h t k))); [exact F1|exact E1|apply Rle_trans with (2 := Bz); apply re_le|]. unfold fphi. cbn [fst]. rewrite ext_small by lia. reflexivity.
  - pose proof (pos_range HF (H_4 h Hh) (k - HF) ltac:(lia)) as Pk. destruct (IE (k - HF)%Z ltac:(lia)) as ([F1 F2] & E1 & E2 & E3). rewrite (Hc (k - HF)%Z ltac:(lia)) in E1, E2, E3.
    specialize (Bz _ E3). unfold FftFacts.cx in *. cbn [fst snd] in *. rewrite Em by lia.
    apply (Fin _ (snd (fphi h t (k - HF)%Z))); [exact F2|exact E2|apply Rle_trans with (2 := Bz); apply im_le|]. unfold fphi. cbn [snd]. rewrite ext_small by lia. f_equal. f_equal. lia.
Qed.

Lemma sum_zero : rsum HF (fun c => 0) = 0. Proof. rewrite rsum_const by (pose proof (H_pos h Hh); lia). ring. Qed.

Lemma zero_fin : lfin (Fzero LF) /\ rsum HF (aa (Fzero LR)) <= 0 /\ rsum HF (ea (Fzero LF) (Fzero LR)) <= 0.
Proof.
  destruct (f_of_Z_exact 0) as [V F]; [lia|].
  assert (Zf: forall c, (0 <= c < HF)%Z -> cxf (Fzero LF) c = (f_of_Z 0, f_of_Z 0)).
  { intros c Hc. cbn [Fzero fft_laws]. pose proof (pos_range HF (H_4 h Hh) c Hc). unfold FftFacts.cx. rewrite repeat_tab. rewrite !znd_tab by lia. reflexivity. }
  assert (Zr: forall c, (0 <= c < HF)%Z -> cxr (Fzero LR) c = RtoC 0).
  { intros c Hc. cbn [Fzero fft_laws]. pose proof (pos_range HF (H_4 h Hh) c Hc). unfold cxr, FftFacts.cx. rewrite repeat_tab. rewrite !znd_tab by lia. reflexivity. }
  split; [intros c Hc; rewrite Zf by assumption; split; exact F|]. pose proof sum_zero as S0. split; rewrite <- S0; apply rsum_le; intros c Hc.
  - unfold aa. rewrite Zr by assumption. rewrite Cmod_0. lra.
  - unfold FftErr.ea. rewrite Zf, Zr by assumption. unfold cval. cbn [fst snd]. rewrite V.
    change (IZR 0, IZR 0) with (RtoC 0). replace (Cminus (RtoC 0) (RtoC 0)) with (RtoC 0) by ring. rewrite Cmod_0. lra.
Qed.

Section Acc.
Context (K D E : Z) (HK : (1 <= K <= 2 ^ 30)%Z) (HD : (1 <= D <= 2 ^ 31)%Z) (HE : (1 <= E <= 2 ^ 31)%Z).
Definition alp : R := 2.01 * ef + 3.2 * u53 + 1.2 * u53 * IZR K.
Lemma K_R : 1 <= IZR K <= bp 30. Proof. split; [apply IZR_le; lia|change (bp 30) with (IZR (2 ^ 30)); apply IZR_le; lia]. Qed.
Lemma alp_ok : 0 <= alp <= / 50.
Proof.
  pose proof ef_ok as He. pose proof K_R as HKr. pose proof u53_pos as Up. unfold alp.
  assert (E2: ef <= / 1000). { unfold ef. pose proof h_R. apply Rle_trans with (31.5 * 50 * u53); [apply Rmult_le_compat_r; lra|]. rewrite u53_val. lra. }
  assert (0 <= u53 * IZR K <= u53 * bp 30) by (split; [apply Rmult_le_pos; lra|apply Rmult_le_compat_l; lra]).
  assert (u53 * bp 30 <= / 1000) by (unfold u53; rewrite <- bpow_plus; change (bp (-53 + 30)) with (/ 8388608); lra).
  assert (u53 <= / 1000) by (rewrite u53_val; lra). lra.
Qed.

Lemma acc_err d r : (forall j, (0 <= j < K)%Z -> forall i, (0 <= i < NF)%Z -> (Z.abs (sgn (d j) i) <= D)%Z /\ (Z.abs (sgn (r j) i) <= E)%Z) ->
  forall n, (Z.of_nat n <= K)%Z ->
  let xf := Fsum_nat LF n (fun j => Fof LF (d j)) (fun j => Fof LF (r j)) in
  let x := Fsum_nat LR n (fun j => Fof LR (d j)) (fun j => Fof LR (r j)) in
  lfin xf /\ rsum HF (aa x) <= INR n * ZZ D E /\ rsum HF (ea xf x) <= INR n * alp * ZZ D E.
Proof.
  intros HB. induction n as [|n IH]; intros Hn.
  - cbn [Fsum_nat INR]. destruct zero_fin as (F & A & B). split; [exact F|]. split; lra.
  - destruct IH as (F & A & B); [lia|]. cbn [Fsum_nat].
    destruct (of_err (d (Z.of_nat n)) D HD (fun i Hi => proj1 (HB (Z.of_nat n) ltac:(lia) i Hi))) as (F1 & A1 & B1).
    destruct (of_err (r (Z.of_nat n)) E HE (fun i Hi => proj2 (HB (Z.of_nat n) ltac:(lia) i Hi))) as (F2 & A2 & B2).
    pose proof (ZZ_1 D E ltac:(lia) ltac:(lia)) as Z1. pose proof (ZZ_le D E HD HE) as Z2. pose proof alp_ok as Al. pose proof u53_pos as Up.
    assert (Kn: 0 <= INR n /\ INR n + 1 <= IZR K).
    { split; [apply pos_INR|]. rewrite <- S_INR, INR_IZR_INZ. apply IZR_le. assumption. }
    pose proof K_R as KR.
    assert (Q1: 0 <= INR n * ZZ D E) by (apply Rmult_le_pos; lra).
    assert (Q2: INR n * alp * ZZ D E <= / 50 * (INR n * ZZ D E)).
    { replace (INR n * alp * ZZ D E) with (alp * (INR n * ZZ D E)) by ring. apply Rmult_le_compat_r; lra. }
    assert (Bd: INR n * ZZ D E + INR n * alp * ZZ D E <= bp 700).
    { apply Rle_trans with (2 * (bp 30 * bp 300)).
      - assert (INR n * ZZ D E <= bp 30 * bp 300) by (apply Rmult_le_compat; lra). lra.
      - change 2 with (bp 1). rewrite <- !bpow_plus. apply bpow_le. lia. }
    assert (Z600: Xh D * Xh E <= bp 600) by (apply Rle_trans with (1 := Z2); apply bpow_le; lia).
    destruct (ma_err mc h Hh Hh2 ef ef_ok _ _ _ _ (Xh D) (Xh E) F1 F2 (Xs_1 _ _ (Xp_1 D ltac:(lia))) (Xs_1 _ _ (Xp_1 E ltac:(lia))) Z600 A1 A2 B1 B2
      _ _ (INR n * ZZ D E) (INR n * alp * ZZ D E) F A B Bd) as (F' & A' & B').
    change (Xh D * Xh E) with (ZZ D E) in A', B'. rewrite S_INR.
    split; [exact F'|]. split; [apply Rle_trans with (1 := A'); right; ring|].
    apply Rle_trans with (1 := B').
    assert (G: u53 * (INR n * ZZ D E + INR n * alp * ZZ D E + 1.1 * ZZ D E) <= 1.2 * u53 * IZR K * ZZ D E).
    { replace (1.2 * u53 * IZR K * ZZ D E) with (u53 * (1.2 * IZR K * ZZ D E)) by ring. apply Rmult_le_compat_l; [lra|].
      assert ((INR n + 1) * ZZ D E <= IZR K * ZZ D E) by (apply Rmult_le_compat_r; lra). lra. }
    replace ((INR n + 1) * alp * ZZ D E) with (INR n * alp * ZZ D E + (2.01 * ef + 3.2 * u53) * ZZ D E + 1.2 * u53 * IZR K * ZZ D E) by (unfold alp; ring). lra.
Qed.

(** the final bound *)
Lemma acc_bound delta : (K * (NF * (D * E)) * (87 * h + 5 + 2 * K) < (2 * delta + 1) * 2 ^ 52)%Z ->
  (IZR K * alp * ZZ D E + (1.1 * IZR h * kap tau0 + 1.1 * u53) * (IZR K * ZZ D E)) / IZR HF + eta < IZR delta + / 2.
Proof.
  intro Hd. pose proof (HF1 h Hh) as H1. pose proof K_R as KR. pose proof h_R as HR. pose proof u53_pos as Up. rewrite ZZ_eq.
  set (P := IZR (NF * (D * E))). assert (P1: 1 <= P).
  { apply IZR_le. pose proof (H_pos h Hh). assert (1 <= D * E)%Z by (pose proof (Z.mul_le_mono_nonneg 1 D 1 E); lia).
    pose proof (Z.mul_le_mono_nonneg 1 NF 1 (D * E)); lia. }
  assert (KP: 1 <= IZR K * P) by (rewrite <- (Rmult_1_l 1); apply Rmult_le_compat; lra).
  replace ((IZR K * alp * (IZR HF * P) + (1.1 * IZR h * kap tau0 + 1.1 * u53) * (IZR K * (IZR HF * P))) / IZR HF)
    with (IZR K * P * (alp + 1.1 * IZR h * kap tau0 + 1.1 * u53)) by (field; lra).
  assert (Es: eta <= / 100 * u53).
  { apply Rle_trans with (bp (-7) * u53); [unfold eta, u53; rewrite <- bpow_plus; apply bpow_le; lia|]. apply Rmult_le_compat_r; [lra|]. change (bp (-7)) with (/ 128). lra. }
  apply IZR_lt in Hd.
  assert (EL: IZR (K * (NF * (D * E)) * (87 * h + 5 + 2 * K)) = IZR K * P * (87 * IZR h + 5 + 2 * IZR K)) by (unfold P; rewrite (mult_IZR _ (87 * h + 5 + 2 * K)), (mult_IZR K), !plus_IZR, (mult_IZR 87), (mult_IZR 2 K); reflexivity).
  assert (ER: IZR ((2 * delta + 1) * 2 ^ 52) = (2 * IZR delta + 1) * bp 52) by (rewrite mult_IZR, plus_IZR, mult_IZR; reflexivity).
  rewrite EL, ER in Hd.
  assert (U2: u53 * bp 52 = / 2) by (unfold u53; rewrite <- bpow_plus; reflexivity).
  assert (G: u53 * (IZR K * P * (87 * IZR h + 5 + 2 * IZR K)) < IZR delta + / 2).
  { apply Rlt_le_trans with (u53 * ((2 * IZR delta + 1) * bp 52)); [apply Rmult_lt_compat_l; assumption|].
    replace (u53 * ((2 * IZR delta + 1) * bp 52)) with ((2 * IZR delta + 1) * (u53 * bp 52)) by ring. rewrite U2. lra. }
  apply Rle_lt_trans with (2 := G). rewrite kap0. unfold alp, ef.
  assert (u53 * 1 <= u53 * (IZR K * P)) by (apply Rmult_le_compat_l; lra).
  assert (0 <= IZR h * u53) by (apply Rmult_le_pos; lra). assert (0 <= IZR K * u53) by (apply Rmult_le_pos; lra).
  assert (Q: IZR K * P * ((2.01 * (31.5 * IZR h * u53) + 3.2 * u53 + 1.2 * u53 * IZR K) + 1.1 * IZR h * (21 * u53) + 1.1 * u53)
    <= IZR K * P * (u53 * (87 * IZR h + 5 + 2 * IZR K) - / 10 * u53)) by (apply Rmult_le_compat_l; lra).
  replace (u53 * (IZR K * P * (87 * IZR h + 5 + 2 * IZR K))) with (IZR K * P * (u53 * (87 * IZR h + 5 + 2 * IZR K) - / 10 * u53) + / 10 * (u53 * (IZR K * P))) by ring.
  lra.
Qed.

Context (delta : Z) (Hdel : (K * (NF * (D * E)) * (87 * h + 5 + 2 * K) < (2 * delta + 1) * 2 ^ 52)%Z).

Lemma INR_K : INR (Z.to_nat K) = IZR K. Proof. rewrite INR_IZR_INZ, Z2Nat.id by lia. reflexivity. Qed.

Lemma BK : 1 <= IZR K * ZZ D E <= bp 500 /\ 0 <= IZR K * alp * ZZ D E <= / 50 * (IZR K * ZZ D E).
Proof.
  pose proof (ZZ_1 D E ltac:(lia) ltac:(lia)) as Z1. pose proof (ZZ_le D E HD HE) as Z2. pose proof alp_ok as Al. pose proof K_R as KR.
  assert (KZ: 1 <= IZR K * ZZ D E) by (rewrite <- (Rmult_1_l 1); apply Rmult_le_compat; lra). split.
  - split; [exact KZ|]. apply Rle_trans with (bp 30 * bp 300); [apply Rmult_le_compat; lra|]. rewrite <- bpow_plus. apply bpow_le. lia.
  - replace (IZR K * alp * ZZ D E) with (alp * (IZR K * ZZ D E)) by ring. split; [apply Rmult_le_pos; lra|apply Rmult_le_compat_r; lra].
Qed.

Lemma f64_sum d r : (forall j, (0 <= j < K)%Z -> forall i, (0 <= i < NF)%Z -> (Z.abs (sgn (d j) i) <= D)%Z /\ (Z.abs (sgn (r j) i) <= E)%Z) ->
  forall k, (0 <= k < NF)%Z ->
  close delta (zn (Fto LF (Fsum LF K (fun i => Fof LF (d i)) (fun i => Fof LF (r i)))) k) (zsum K (fun i => negacyclic NF (zn (d i)) (zn (r i)) k)).
Proof.
  intros HB k Hk. destruct (acc_err d r HB (Z.to_nat K) ltac:(lia)) as (F & A & B). rewrite INR_K in A, B.
  destruct BK as [K1 K2]. destruct K1 as [K1 K1'].
  assert (G: close delta (zn (Fto LF (Fsum LF K (fun i => Fof LF (d i)) (fun i => Fof LF (r i)))) k) (zsum K (fun i => negacyclic NF (sgn (d i)) (sgn (r i)) k))).
  { apply (to_close (Fsum LF K (fun i => Fof LF (d i)) (fun i => Fof LF (r i))) (Fsum LR K (fun i => Fof LR (d i)) (fun i => Fof LR (r i)))
      (fun j => zsum K (fun i => negacyclic NF (sgn (d i)) (sgn (r i)) j)) (IZR K * ZZ D E) (IZR K * alp * ZZ D E) delta); try assumption.
    - exact (Fsum_phi h Hh tw twi Htw Htwi K d r ltac:(lia)).
    - apply acc_bound. exact Hdel. }
  eapply close_proper; [reflexivity| |exact G]. apply zsum_eqm. intros i Hi. apply neg_eqm_args; [assumption| |]; intros; symmetry; apply sgn_eqm.
Qed.

Lemma f64_mul a b : (forall i, (0 <= i < NF)%Z -> (Z.abs (sgn a i) <= D)%Z /\ (Z.abs (sgn b i) <= E)%Z) ->
  forall k, (0 <= k < NF)%Z -> close delta (zn (Fto LF (Fmul LF (Fof LF a) (Fof LF b))) k) (negacyclic NF (zn a) (zn b) k).
Proof.
  intros HB k Hk.
  destruct (of_err a D HD (fun i Hi => proj1 (HB i Hi))) as (F1 & A1 & B1). destruct (of_err b E HE (fun i Hi => proj2 (HB i Hi))) as (F2 & A2 & B2).
  pose proof (ZZ_1 D E ltac:(lia) ltac:(lia)) as Z1. pose proof (ZZ_le D E HD HE) as Z2. pose proof alp_ok as Al. pose proof u53_pos as Up. pose proof K_R as KR.
  assert (Z600: Xh D * Xh E <= bp 600) by (apply Rle_trans with (1 := Z2); apply bpow_le; lia).
  destruct (mul_err mc h Hh Hh2 ef ef_ok _ _ _ _ (Xh D) (Xh E) F1 F2 (Xs_1 _ _ (Xp_1 D ltac:(lia))) (Xs_1 _ _ (Xp_1 E ltac:(lia))) Z600 A1 A2 B1 B2) as (F & A & B).
  change (Xh D * Xh E) with (ZZ D E) in A, B. destruct BK as [K1 K2]. destruct K1 as [K1 K1'].
  assert (KZ: 1 * ZZ D E <= IZR K * ZZ D E) by (apply Rmult_le_compat_r; lra).
  assert (G: close delta (zn (Fto LF (Fmul LF (Fof LF a) (Fof LF b))) k) (negacyclic NF (sgn a) (sgn b) k)).
  { apply (to_close (Fmul LF (Fof LF a) (Fof LF b)) (Fmul LR (Fof LR a) (Fof LR b)) (negacyclic NF (sgn a) (sgn b)) (IZR K * ZZ D E) (IZR K * alp * ZZ D E) delta); try assumption.
    - apply Rle_trans with (1 := A). lra.
    - apply Rle_trans with (1 := B).
      replace (IZR K * alp * ZZ D E) with (alp * (IZR K * ZZ D E)) by ring. apply Rmult_le_compat; try lra; unfold alp.
      + pose proof ef_ok. lra.
      + assert (0 <= u53 * IZR K) by (apply Rmult_le_pos; lra). lra.
    - intros i Hi. cbn [Fmul fft_laws Fof]. unfold elw. rewrite (cxr_lay h Hh) by assumption.
      rewrite (eval_mul h Hh) by (apply (zpt_root h Hh); assumption). rewrite <- !(fft_phi h Hh tw Htw) by assumption. reflexivity.
    - apply acc_bound. exact Hdel. }
  eapply close_proper; [reflexivity| |exact G]. apply neg_eqm_args; [assumption| |]; intros; symmetry; apply sgn_eqm.
Qed.
End Acc.

(** ** round trip *)
Lemma sgn_31 p i : (Z.abs (sgn p i) <= 2 ^ 31)%Z.
Proof. unfold sgn. pose proof (int32_range (zn p i)). unfold two31 in *. lia. Qed.

Lemma sqrt_HF X : 0 <= X -> sqrt (IZR HF) * Xs X (Z.to_nat h) = IZR HF * X.
Proof.
  intro HX. pose proof (HF1 h Hh) as H1. apply Rsqr_inj.
  - apply Rmult_le_pos; [apply sqrt_pos|]. unfold Xs. apply Rmult_le_pos; [apply pow_le; apply sqrt_pos|assumption].
  - apply Rmult_le_pos; lra.
  - unfold Rsqr. replace (sqrt (IZR HF) * Xs X (Z.to_nat h) * (sqrt (IZR HF) * Xs X (Z.to_nat h))) with (sqrt (IZR HF) * sqrt (IZR HF) * (Xs X (Z.to_nat h) * Xs X (Z.to_nat h))) by ring.
    rewrite sqrt_sqrt by lra. rewrite Xs_mul. ring.
Qed.

Lemma f64_roundtrip p : (h <= 20)%Z -> forall k, (0 <= k < NF)%Z -> zn (Fto LF (Fof LF p)) k == zn p k.
Proof.
  intros Hh20 k Hk.
  assert (D31: (1 <= 2 ^ 31 <= 2 ^ 31)%Z) by lia.
  destruct (of_err p (2 ^ 31) D31 (fun i _ => sgn_31 p i)) as (F & A & B).
  pose proof (H_pos h Hh) as HP. pose proof (HF1 h Hh) as H1. pose proof ef_ok as Ef. pose proof h_R as HR. pose proof u53_pos as Up.
  set (X := Xp (2 ^ 31)) in *. pose proof (Xp_1 (2 ^ 31) ltac:(lia)) as X1. fold X in X1. pose proof (Xp_le (2 ^ 31) ltac:(lia)) as X2. fold X in X2.
  assert (A1: rsum HF (aa (Fof LR p)) <= IZR HF * X).
  { rewrite <- sqrt_HF by lra. apply Rle_trans with (1 := n1_n2 HF _ ltac:(lia)). apply Rmult_le_compat_l; [apply sqrt_pos|exact A]. }
  assert (B1: rsum HF (ea (Fof LF p) (Fof LR p)) <= ef * (IZR HF * X)).
  { rewrite <- sqrt_HF by lra. apply Rle_trans with (1 := n1_n2 HF _ ltac:(lia)).
    replace (ef * (sqrt (IZR HF) * Xs X (Z.to_nat h))) with (sqrt (IZR HF) * (ef * Xs X (Z.to_nat h))) by ring. apply Rmult_le_compat_l; [apply sqrt_pos|exact B]. }
  assert (HX1: 1 <= IZR HF * X) by (rewrite <- (Rmult_1_l 1); apply Rmult_le_compat; lra).
  assert (G: close 0 (zn (Fto LF (Fof LF p)) k) (sgn p k)).
  { apply (to_close (Fof LF p) (Fof LR p) (sgn p) (IZR HF * X) (ef * (IZR HF * X)) 0); try assumption.
    - split; [apply Rmult_le_pos; lra|]. apply Rmult_le_compat_r; [lra|]. unfold ef. apply Rle_trans with (31.5 * 50 * u53); [apply Rmult_le_compat_r; lra|]. rewrite u53_val. lra.
    - apply Rle_trans with (bp 50 * bp 82); [apply Rmult_le_compat; try lra; apply HF_bp|]. rewrite <- bpow_plus. apply bpow_le. lia.
    - exact (fft_phi h Hh tw Htw p).
    - replace ((ef * (IZR HF * X) + (1.1 * IZR h * kap tau0 + 1.1 * u53) * (IZR HF * X)) / IZR HF) with (X * (ef + 1.1 * IZR h * kap tau0 + 1.1 * u53)) by (field; lra).
      rewrite kap0. unfold ef. pose proof (IZR_le h 20 Hh20) as H20.
      assert (Eh: IZR h * u53 <= 20 * u53) by (apply Rmult_le_compat_r; lra).
      assert (XB: X <= 1449 * 2147483648).
      { unfold X, Xp. change (IZR (2 ^ 31)) with 2147483648. apply Rmult_le_compat_r; [lra|]. rewrite <- (sqrt_square 1449) by lra. apply sqrt_le_1_alt.
        apply Rle_trans with (IZR (2 ^ 21)); [|change (IZR (2 ^ 21)) with 2097152; lra]. apply IZR_le. rewrite <- p2S by lia. apply Z.pow_le_mono_r; lia. }
      apply Rle_lt_trans with (1449 * 2147483648 * (1094 * u53) + eta).
      + apply Rplus_le_compat_r. apply Rmult_le_compat; [lra| |exact XB|lra]. assert (0 <= IZR h * u53) by (apply Rmult_le_pos; lra). lra.
      + rewrite u53_val. assert (eta <= / 1024) by (apply Rle_trans with (bp (-10)); [apply eta_small; lia|change (bp (-10)) with (/ 1024); lra]). lra. }
  destruct G as (e & He & G). replace e with 0%Z in G by lia. rewrite Z.add_0_r in G. rewrite G. apply sgn_eqm.
Qed.

(** ** the accuracy laws *)
Lemma f64_facc K D delta : (1 <= K <= 2 ^ 30)%Z -> (1 <= D <= 2 ^ 31)%Z ->
  (K * (NF * (D * 2 ^ 31)) * (87 * h + 5 + 2 * K) < (2 * delta + 1) * 2 ^ 52)%Z -> facc LF K D delta.
Proof.
  intros HK HD Hd d r Hdr k Hk. apply (f64_sum K D (2 ^ 31) HK HD ltac:(lia) delta Hd); [|assumption].
  intros j Hj i Hi. destruct (Hdr j Hj) as (_ & Sb & _). split; [exact (Sb i Hi)|apply sgn_31].
Qed.
Lemma f64_facc_mul D E delta : (1 <= D <= 2 ^ 31)%Z -> (1 <= E <= 2 ^ 31)%Z ->
  (NF * (D * E) * (87 * h + 7) < (2 * delta + 1) * 2 ^ 52)%Z -> facc_mul LF D E delta.
Proof.
  intros HD HE Hd a b Ha Hb Sa Sb k Hk. apply (f64_mul 1 D E ltac:(lia) HD HE delta); [|intros i Hi; split; [exact (Sa i Hi)|exact (Sb i Hi)]|assumption].
  replace (1 * (NF * (D * E)) * (87 * h + 5 + 2 * 1))%Z with (NF * (D * E) * (87 * h + 7))%Z by ring. exact Hd.
Qed.
End F.

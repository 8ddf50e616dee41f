(** * Accuracy of the float64 twiddle tables *)
From Coq Require Import ZArith List Lia ZifyBool Reals Lra Psatz Machin Ratan.
From Flocq Require Import Core BinarySingleNaN.
From Coquelicot Require Import Complex.
From Verif Require Import GoBase Spec GoFacts F64 F64Facts F64Err Poly Fft FftFacts FftTab CSum RSum FftReal CErr BfErr FftErr FftInv.
Local Open Scope R_scope.

(** cmplx.Exp(ix) is within 3/2 units in the last place of 1/2 of the true
    value, in modulus, for arguments up to 4 *)
Definition cis_ok (cis : f64 -> f64 * f64) : Prop :=
  forall x, fin x -> Rabs (val x) <= 4 -> cfin (cis x) /\ Cmod (Cminus (cval (cis x)) (cisr (val x))) <= 3 * bp (-53).

(** the only condition on the machine: it may fuse or not *)
Definition mc_ok (mc : machine) : Prop := cis_ok (m_cis mc).

Lemma pi4 : 0.78539816339744830961 <= PI / 4 <= 0.78539816339744830962.
Proof.
  pose proof (PI_2_3_7_ineq 11) as H. unfold PI_2_3_7_tg in H.
  unfold sum_f_R0, tg_alt, Ratan_seq in H. cbn [Nat.mul Nat.add INR pow] in H. simpl in H. lra.
Qed.

Lemma twopi_val : val f_twopi = 7074237752028440 * bp (-50) /\ fin f_twopi.
Proof. exact (flit_exact 7074237752028440 (-50) ltac:(lia) ltac:(lia) ltac:(lia)). Qed.

Lemma twopi_err : Rabs (val f_twopi - 2 * PI) <= 2.3 * u53 /\ 6 <= val f_twopi <= 6.284.
Proof.
  destruct twopi_val as [-> _]. pose proof pi4. change (bp (-50)) with (/ 1125899906842624). rewrite u53_val.
  split; [apply Rabs_le; split; lra|split; lra].
Qed.

Lemma sin_le_abs x : Rabs (sin x) <= Rabs x.
Proof.
  assert (P: forall y, 0 <= y -> Rabs (sin y) <= y).
  { intros y [Hy|<-]; [|rewrite sin_0, Rabs_R0; lra]. apply Rabs_le. split.
    - destruct (Rle_or_lt y 1) as [H1|H1]; [|pose proof (SIN_bound y); lra].
      assert (0 < sin y) by (apply sin_gt_0; [assumption|]; pose proof pi4; lra). lra.
    - apply Rlt_le, sin_lt_x. assumption. }
  destruct (Rle_or_lt 0 x) as [H|H]; [rewrite (Rabs_pos_eq x) by assumption; apply P; assumption|].
  rewrite (Rabs_left x) by assumption. replace (sin x) with (- sin (- x)) by (rewrite sin_neg; ring). rewrite Rabs_Ropp. apply P. lra.
Qed.

Lemma cis_lip a b : Cmod (Cminus (cisr a) (cisr b)) <= Rabs (a - b).
Proof.
  apply Cmod_le_sq; [apply Rabs_pos|]. unfold cisr, Cminus, Cplus, Copp. cbn [fst snd].
  assert (E: (cos a + - cos b) * (cos a + - cos b) + (sin a + - sin b) * (sin a + - sin b) = 4 * (sin ((a - b) / 2) * sin ((a - b) / 2))).
  { pose proof (sin2_cos2 a) as Sa. pose proof (sin2_cos2 b) as Sb. unfold Rsqr in Sa, Sb.
    assert (Ec: cos (a - b) = 1 - 2 * (sin ((a - b) / 2) * sin ((a - b) / 2))).
    { replace (a - b) with (2 * ((a - b) / 2)) at 1 by field. rewrite cos_2a_sin. ring. }
    rewrite cos_minus in Ec. lra. }
  rewrite E. pose proof (sin_le_abs ((a - b) / 2)) as S. 
  assert (S2: Rabs (sin ((a - b) / 2)) * Rabs (sin ((a - b) / 2)) <= Rabs ((a - b) / 2) * Rabs ((a - b) / 2)) by (apply Rmult_le_compat; try apply Rabs_pos; assumption).
  rewrite <- !Rabs_mult in S2. rewrite (Rabs_pos_eq (sin _ * _)), (Rabs_pos_eq ((a - b) / 2 * _)) in S2 by apply Rle_0_sqr.
  rewrite <- Rabs_mult, Rabs_pos_eq by apply Rle_0_sqr. lra.
Qed.

(** an angle fl(fl(q * i) / 2^k) *)
Lemma angle_err q th i k : fin q -> Rabs (val q - th) <= 2.3 * u53 -> 6 <= Rabs (val q) <= 6.284 -> (0 <= i <= 2 ^ 50)%Z -> (0 <= k <= 53)%Z ->
  let x := fdiv (fmul q (f_of_Z i)) (f_of_Z (2 ^ k)) in
  fin x /\ Rabs (val x - th * IZR i / IZR (2 ^ k)) <= 8.7 * u53 * (IZR i / IZR (2 ^ k)).
Proof.
  intros Fq Eq Bq Hi Hk x.
  destruct (f_of_Z_exact i) as [Vi Fi]; [lia|].
  destruct (f_of_Z_exact (2 ^ k)) as [Vk Fk].
  { rewrite Z.abs_eq by (apply Z.pow_nonneg; lia). apply Z.pow_le_mono_r; lia. }
  assert (Ek: IZR (2 ^ k) = bp k) by (rewrite <- (IZR_Zpower radix2) by lia; reflexivity).
  assert (Hi': 0 <= IZR i <= bp 50) by (split; [apply IZR_le; lia|change (bp 50) with (IZR (2 ^ 50)); apply IZR_le; lia]).
  assert (Bm: Rabs (val q * val (f_of_Z i)) <= 6.284 * IZR i).
  { rewrite Vi, Rabs_mult, (Rabs_pos_eq (IZR i)) by lra. apply Rmult_le_compat_r; lra. }
  destruct (fmul_err q (f_of_Z i) Fq Fi) as [Fm Em].
  { apply Rle_trans with (1 := Bm). apply Rle_trans with (8 * bp 50); [lra|]. change 8 with (bp 3). rewrite <- bpow_plus. apply bpow_le. lia. }
  pose proof u53_pos as Up. pose proof u53_small as Us. pose proof eta_pos as Ep.
  assert (Es: eta <= / 100 * u53).
  { apply Rle_trans with (bp (-7) * u53); [unfold eta, u53; rewrite <- bpow_plus; apply bpow_le; lia|]. apply Rmult_le_compat_r; [lra|]. change (bp (-7)) with (/ 128). lra. }
  set (m := fmul q (f_of_Z i)) in *.
  assert (Hz: val m = 0 /\ i = 0%Z \/ 1 <= Rabs (val m) /\ (1 <= i)%Z).
  { destruct (Z.eq_dec i 0) as [E|NE].
    - left. split; [|exact E]. assert (Eq0: val q * val (f_of_Z i) = 0) by (rewrite Vi, E; ring).
      destruct (fmul_exact q (f_of_Z i) 0 Fq Fi Eq0) as [V _]; [apply generic_format_0|rewrite Rabs_R0; apply bpow_gt_0|]. exact V.
    - right. split; [|lia]. assert (1 <= IZR i) by (apply IZR_le; lia).
      assert (L: 6 * 1 <= Rabs (val q * val (f_of_Z i))) by (rewrite Vi, Rabs_mult, (Rabs_pos_eq (IZR i)) by lra; apply Rmult_le_compat; lra).
      assert (Rabs (val q * val (f_of_Z i)) <= Rabs (val m) + Rabs (val m - val q * val (f_of_Z i))).
      { replace (val q * val (f_of_Z i)) with (val m - (val m - val q * val (f_of_Z i))) at 1 by ring. eapply Rle_trans; [apply Rabs_triang|]. rewrite Rabs_Ropp. lra. }
      assert (u53 * Rabs (val q * val (f_of_Z i)) <= / 2 * Rabs (val q * val (f_of_Z i))) by (apply Rmult_le_compat_r; [apply Rabs_pos|lra]). lra. }
  pose proof (bpow_gt_0 radix2 k) as Bk.
  assert (Bmm: Rabs (val m) <= bp 60).
  { replace (val m) with (val q * val (f_of_Z i) + (val m - val q * val (f_of_Z i))) by ring. eapply Rle_trans; [apply Rabs_triang|].
    assert (u53 * Rabs (val q * val (f_of_Z i)) <= 1 * Rabs (val q * val (f_of_Z i))) by (apply Rmult_le_compat_r; [apply Rabs_pos|lra]).
    change (bp 60) with (bp (10 + 50)). rewrite bpow_plus. change (bp 10) with 1024. assert (1 <= bp 50) by (change 1 with (bp 0); apply bpow_le; lia). lra. }
  destruct (fdiv_exact m (f_of_Z (2 ^ k)) (val m * bp (- k)) Fm) as [Vx Fx].
  { rewrite Vk, Ek. lra. }
  { rewrite Vk, Ek. unfold Rdiv. rewrite bpow_opp. reflexivity. }
  { apply fmt_unscale; [lia|apply val_fmt|]. destruct Hz as [[Hz _]|[Hz _]]; [left|right]; assumption. }
  { rewrite Rabs_mult, (Rabs_pos_eq (bp (- k))) by apply bpow_ge_0. apply Rle_lt_trans with (bp 60 * bp 0).
    - apply Rmult_le_compat; [apply Rabs_pos|apply bpow_ge_0|exact Bmm|apply bpow_le; lia].
    - rewrite <- bpow_plus. apply bpow_lt. lia. }
  split; [exact Fx|]. unfold x. rewrite Vx, Ek.
  assert (Core: Rabs (val m - th * IZR i) <= 8.7 * u53 * IZR i).
  { destruct Hz as [[Hz1 Hz2]|[_ Hz]].
    - rewrite Hz1, Hz2. rewrite !Rmult_0_r, Rminus_0_r, Rabs_R0. lra.
    - assert (1 <= IZR i) by (apply IZR_le; lia).
      replace (val m - th * IZR i) with ((val m - val q * val (f_of_Z i)) + (val q - th) * IZR i) by (rewrite Vi; ring).
      eapply Rle_trans; [apply Rabs_triang|].
      assert (Rabs ((val q - th) * IZR i) <= 2.3 * u53 * IZR i) by (rewrite Rabs_mult, (Rabs_pos_eq (IZR i)) by lra; apply Rmult_le_compat_r; lra).
      assert (u53 * Rabs (val q * val (f_of_Z i)) <= u53 * (6.284 * IZR i)) by (apply Rmult_le_compat_l; lra).
      assert (u53 * 1 <= u53 * IZR i) by (apply Rmult_le_compat_l; lra). lra. }
  replace (val m * bp (- k) - th * IZR i / bp k) with ((val m - th * IZR i) * / bp k) by (rewrite bpow_opp; field; lra).
  rewrite Rabs_mult, (Rabs_pos_eq (/ bp k)) by (apply Rlt_le, Rinv_0_lt_compat; assumption).
  unfold Rdiv. rewrite <- Rmult_assoc. apply Rmult_le_compat_r; [apply Rlt_le, Rinv_0_lt_compat; assumption|exact Core].
Qed.

Definition tau0 : R := bp (-49).
Lemma tau0_val : tau0 = 16 * u53. Proof. unfold tau0, u53. change 16 with (bp 4). rewrite <- bpow_plus. reflexivity. Qed.
Lemma tau0_ok : 0 <= tau0 <= / 1000. Proof. rewrite tau0_val, u53_val. lra. Qed.

Section Tab.
Context (mc : machine) (Hcis : mc_ok mc).
Notation FA := (f64_arith mc).
Context (h : Z) (Hh : (3 <= h)%Z) (Hh2 : (h <= 50)%Z).
Notation HF := (2 ^ h)%Z.

(** product of two tabulated values *)
Lemma tab_prod x y a b : fin x -> fin y -> Rabs (val x - a) <= 8.7 * u53 * / 2 -> Rabs (val y - b) <= 8.7 * u53 * / 8 ->
  Rabs a <= 3.5 -> Rabs b <= 3.5 ->
  let w := cxmul FA STables (m_cis mc x) (m_cis mc y) in cfin w /\ Cmod (Cminus (cval w) (cisr (a + b))) <= tau0.
Proof.
  intros Fx Fy Ex Ey Ba Bb w. pose proof u53_pos as Up. pose proof u53_small as Us. pose proof eta_pos as Ep.
  assert (Es: 8 * eta <= / 100 * u53).
  { apply Rle_trans with (bp (-7) * u53); [unfold eta, u53; change 8 with (bp 3); rewrite <- !bpow_plus; apply bpow_le; lia|]. apply Rmult_le_compat_r; [lra|]. change (bp (-7)) with (/ 128). lra. }
  assert (One: forall z c e, fin z -> Rabs (val z - c) <= e -> e <= / 1000 -> Rabs c <= 3.5 -> cfin (m_cis mc z) /\ Cmod (Cminus (cval (m_cis mc z)) (cisr c)) <= 3 * u53 + e /\ Cmod (cval (m_cis mc z)) <= 1 + (3 * u53 + e)).
  { intros z c e Fz Ez He Bc. destruct (Hcis z Fz) as [F E].
    { replace (val z) with (c + (val z - c)) by ring. eapply Rle_trans; [apply Rabs_triang|]. lra. }
    assert (G: Cmod (Cminus (cval (m_cis mc z)) (cisr c)) <= 3 * u53 + e).
    { eapply Rle_trans; [apply (Cmod_tri3 _ (cisr (val z)))|]. pose proof (cis_lip (val z) c). unfold u53. lra. }
    split; [exact F|]. split; [exact G|]. pose proof (Cmod_near (cval (m_cis mc z)) (cisr c)) as N. rewrite cis_mod in N. lra. }
  destruct (One x a _ Fx Ex ltac:(lra) Ba) as (F1 & E1 & M1). destruct (One y b _ Fy Ey ltac:(lra) Bb) as (F2 & E2 & M2).
  assert (M12: Cmod (cval (m_cis mc x)) * Cmod (cval (m_cis mc y)) <= 1.01).
  { apply Rle_trans with (1.001 * 1.001); [|lra]. apply Rmult_le_compat; try apply Cmod_ge_0; lra. }
  destruct (cmul_err mc STables (m_cis mc x) (m_cis mc y) F1 F2) as [F E].
  { apply Rle_trans with (1 := M12). apply Rle_trans with (bp 1); [change (bp 1) with 2; lra|apply bpow_le; lia]. }
  split; [exact F|]. eapply Rle_trans; [apply (Cmod_tri3 _ (Cmult (cval (m_cis mc x)) (cval (m_cis mc y))))|].
  pose proof (Cmul_diff (cval (m_cis mc x)) (cval (m_cis mc y)) (cisr a) (cisr b)) as D. rewrite !cis_mod in D. rewrite cis_add.
  assert (E12: Cmod (Cminus (cval (m_cis mc x)) (cisr a)) * Cmod (Cminus (cval (m_cis mc y)) (cisr b)) <= u53 * 1).
  { apply Rle_trans with ((3 * u53 + 8.7 * u53 * / 2) * (3 * u53 + 8.7 * u53 * / 8)); [apply Rmult_le_compat; try apply Cmod_ge_0; assumption|].
    apply Rle_trans with (u53 * 8 * (8 * u53)); [apply Rmult_le_compat; lra|]. rewrite Rmult_assoc. apply Rmult_le_compat_l; lra. }
  assert (u53 * (Cmod (cval (m_cis mc x)) * Cmod (cval (m_cis mc y))) <= u53 * 1.01) by (apply Rmult_le_compat_l; lra).
  fold w in E. rewrite tau0_val. lra.
Qed.

Lemma neg_twopi : fin (fopp f_twopi) /\ val (fopp f_twopi) = - val f_twopi.
Proof. split; [unfold fin, fopp; rewrite is_finite_Bopp; apply twopi_val|apply B2R_Bopp]. Qed.

Lemma q_pos : fin f_twopi /\ Rabs (val f_twopi - 2 * PI) <= 2.3 * u53 /\ 6 <= Rabs (val f_twopi) <= 6.284.
Proof. destruct twopi_err as [E B]. split; [apply twopi_val|]. split; [exact E|]. rewrite Rabs_pos_eq by lra. exact B. Qed.
Lemma q_neg : fin (fopp f_twopi) /\ Rabs (val (fopp f_twopi) - - (2 * PI)) <= 2.3 * u53 /\ 6 <= Rabs (val (fopp f_twopi)) <= 6.284.
Proof.
  destruct neg_twopi as [F V]. destruct twopi_err as [E B]. rewrite V. split; [exact F|]. split.
  - replace (- val f_twopi - - (2 * PI)) with (- (val f_twopi - 2 * PI)) by ring. rewrite Rabs_Ropp. exact E.
  - rewrite Rabs_Ropp, Rabs_pos_eq by lra. exact B.
Qed.

Lemma E4H : (4 * HF = 2 ^ (h + 2))%Z. Proof. rewrite p2split by lia. change (2 ^ 2)%Z with 4%Z. lia. Qed.

(** the two angles of a table entry *)
Lemma ratio a b r : (0 <= a)%Z -> (0 < b)%Z -> IZR a <= r * IZR b -> 0 <= IZR a / IZR b <= r.
Proof.
  intros Ha Hb Hr. pose proof (IZR_lt 0 b Hb). pose proof (IZR_le 0 a Ha). split.
  - unfold Rdiv. apply Rmult_le_pos; [lra|]. apply Rlt_le, Rinv_0_lt_compat. lra.
  - apply Rmult_le_reg_r with (IZR b); [lra|]. unfold Rdiv. rewrite Rmult_assoc, Rinv_l by lra. lra.
Qed.

Lemma entry_angles s i : (Z.of_nat s < h)%Z -> (0 <= i < 2 ^ Z.of_nat s)%Z ->
  let r := rv (Z.to_nat (h - 1)) i in let t := (2 ^ (h - 1 - Z.of_nat s))%Z in
  (0 <= IZR r / IZR HF <= / 2) /\ (0 <= IZR t / IZR (4 * HF) <= / 8) /\ (0 <= r <= 2 ^ 50)%Z /\ (0 <= t <= 2 ^ 50)%Z.
Proof.
  intros Hs Hi r t. pose proof (rv_bound (Z.to_nat (h - 1)) i) as Hr. rewrite Z2Nat.id in Hr by lia. fold r in Hr.
  assert (EH: HF = (2 * 2 ^ (h - 1))%Z) by (replace h with (h - 1 + 1)%Z at 1 by lia; apply p2S; lia).
  pose proof (p2 (h - 1) ltac:(lia)) as P1. assert (Pt: (0 < t)%Z) by (apply p2; lia).
  assert (Ht: (t <= 2 ^ (h - 1))%Z) by (apply Z.pow_le_mono_r; lia).
  assert (H50: (2 ^ (h - 1) <= 2 ^ 50)%Z) by (apply Z.pow_le_mono_r; lia).
  split; [|split; [|split; lia]].
  - apply ratio; [lia|lia|]. rewrite EH, mult_IZR. pose proof (IZR_le r (2 ^ (h - 1)) ltac:(lia)). lra.
  - apply ratio; [lia|lia|]. rewrite EH, !mult_IZR. pose proof (IZR_le t (2 ^ (h - 1)) ltac:(lia)). lra.
Qed.

Lemma f64_tables : exists tf tfi, genTwiddleFactors FA HF = Ok (tf, tfi) /\ near_tw mc tau0 h tf /\ near_twi mc tau0 h tfi.
Proof.
  eexists _, _. split; [apply genTwiddleFactors_ok; lia|]. pose proof (p2 h ltac:(lia)) as HP.
  assert (HB: forall s, (Z.of_nat s < h)%Z -> (2 * 2 ^ Z.of_nat s <= HF)%Z).
  { intros s Hs. rewrite <- p2S by lia. apply Z.pow_le_mono_r; lia. }
  pose proof pi4 as P4.
  assert (Pr: forall a, 0 <= a <= / 2 -> Rabs (2 * PI * a) <= 3.5).
  { intros a Ha. rewrite Rabs_pos_eq by (apply Rmult_le_pos; lra). apply Rle_trans with (2 * PI * / 2); [apply Rmult_le_compat_l; lra|lra]. }
  split; (split; [rewrite zlen_tab by lia; lia|]); intros s i Hs Hi; specialize (HB s Hs); unfold twz;
    destruct (entry_angles s i Hs Hi) as (R1 & R2 & B1 & B2); pose proof E4H as E4; pose proof u53_pos as Up;
    set (r := rv (Z.to_nat (h - 1)) i) in *; set (t := (2 ^ (h - 1 - Z.of_nat s))%Z) in *.
  - rewrite znd_tab by lia. rewrite tw_at_ok by lia. unfold tw_val. fold r t.
    destruct q_neg as (Fq & Eq & Bq). destruct q_pos as (Fq' & Eq' & Bq').
    destruct (angle_err _ _ r h Fq Eq Bq B1 ltac:(lia)) as [F1 E1].
    destruct (angle_err _ _ t (h + 2) Fq' Eq' Bq' B2 ltac:(lia)) as [F2 E2]. rewrite <- E4 in F2, E2.
    destruct (tab_prod _ _ (- (2 * PI) * IZR r / IZR HF) (2 * PI * IZR t / IZR (4 * HF)) F1 F2) as [F E].
    + apply Rle_trans with (1 := E1). apply Rmult_le_compat_l; lra.
    + apply Rle_trans with (1 := E2). apply Rmult_le_compat_l; lra.
    + replace (- (2 * PI) * IZR r / IZR HF) with (- (2 * PI * (IZR r / IZR HF))) by (unfold Rdiv; ring). rewrite Rabs_Ropp. apply Pr. lra.
    + replace (2 * PI * IZR t / IZR (4 * HF)) with (2 * PI * (IZR t / IZR (4 * HF))) by (unfold Rdiv; ring). apply Pr. lra.
    + split; [exact F|]. unfold wv. rewrite <- (angle_sum h Hh s i Hs Hi). exact E.
  - rewrite znd_tab by lia. rewrite twi_at_ok by lia. unfold twi_val. fold r t.
    destruct q_neg as (Fq & Eq & Bq).
    destruct (angle_err _ _ r h Fq Eq Bq B1 ltac:(lia)) as [F1 E1].
    destruct (angle_err _ _ t (h + 2) Fq Eq Bq B2 ltac:(lia)) as [F2 E2]. rewrite <- E4 in F2, E2.
    set (x := fdiv (fmul (fopp f_twopi) (f_of_Z r)) (f_of_Z HF)) in *.
    assert (F1': fin (fopp x)) by (unfold fin, fopp; rewrite is_finite_Bopp; exact F1).
    assert (V1: val (fopp x) = - val x) by apply B2R_Bopp.
    destruct (tab_prod (fopp x) _ (2 * PI * IZR r / IZR HF) (- (2 * PI) * IZR t / IZR (4 * HF)) F1' F2) as [F E].
    + rewrite V1. replace (- val x - 2 * PI * IZR r / IZR HF) with (- (val x - - (2 * PI) * IZR r / IZR HF)) by (unfold Rdiv; ring). rewrite Rabs_Ropp.
      apply Rle_trans with (1 := E1). apply Rmult_le_compat_l; lra.
    + apply Rle_trans with (1 := E2). apply Rmult_le_compat_l; lra.
    + replace (2 * PI * IZR r / IZR HF) with (2 * PI * (IZR r / IZR HF)) by (unfold Rdiv; ring). apply Pr. lra.
    + replace (- (2 * PI) * IZR t / IZR (4 * HF)) with (- (2 * PI * (IZR t / IZR (4 * HF)))) by (unfold Rdiv; ring). rewrite Rabs_Ropp. apply Pr. lra.
    + replace (2 * PI * IZR r / IZR HF + - (2 * PI) * IZR t / IZR (4 * HF)) with (- tht s i) in E; [split; [exact F|exact E]|].
      rewrite <- (angle_sum h Hh s i Hs Hi). fold r t. unfold Rdiv. ring.
Qed.
End Tab.

(** such a function exists: cosine and sine rounded to 53 binary places *)
Definition cis0 (x : f64) : f64 * f64 := (flit (ZnearestE (cos (val x) * bp 53)) (-53), flit (ZnearestE (sin (val x) * bp 53)) (-53)).
Lemma cis0_ok : cis_ok cis0.
Proof.
  intros x Fx Bx.
  assert (P: forall y, -1 <= y <= 1 -> fin (flit (ZnearestE (y * bp 53)) (-53)) /\ Rabs (val (flit (ZnearestE (y * bp 53)) (-53)) - y) <= bp (-54)).
  { intros y Hy. set (n := ZnearestE (y * bp 53)).
    pose proof (Znearest_half (fun z => negb (Z.even z)) (y * bp 53)) as G. change (Znearest (fun z => negb (Z.even z))) with ZnearestE in G. fold n in G.
    assert (Hn: (Z.abs n <= 2 ^ 53)%Z).
    { apply Z.lt_succ_r. apply lt_IZR. rewrite abs_IZR, succ_IZR. change (IZR (2 ^ 53)) with (bp 53).
      replace (IZR n) with (y * bp 53 - (y * bp 53 - IZR n)) by ring. eapply Rle_lt_trans; [apply Rabs_triang|]. rewrite Rabs_Ropp, Rabs_mult, (Rabs_pos_eq (bp 53)) by apply bpow_ge_0.
      assert (Rabs y * bp 53 <= 1 * bp 53) by (apply Rmult_le_compat_r; [apply bpow_ge_0|apply Rabs_le; lra]). lra. }
    destruct (flit_exact n (-53) Hn ltac:(lia) ltac:(lia)) as [V F]. split; [exact F|]. rewrite V. unfold F2R. cbn [Fnum Fexp].
    assert (E1: bp 53 * bp (-53) = 1) by (rewrite <- bpow_plus; reflexivity).
    replace (IZR n * bp (-53) - y) with (- ((y * bp 53 - IZR n) * bp (-53))) by (rewrite Rmult_minus_distr_r, Rmult_assoc, E1; ring).
    rewrite Rabs_Ropp, Rabs_mult, (Rabs_pos_eq (bp (-53))) by apply bpow_ge_0. apply Rle_trans with (/ 2 * bp (-53)); [apply Rmult_le_compat_r; [apply bpow_ge_0|exact G]|].
    change (/ 2) with (bp (-1)). rewrite <- bpow_plus. right; reflexivity. }
  destruct (P (cos (val x)) (COS_bound _)) as [F1 E1]. destruct (P (sin (val x)) (SIN_bound _)) as [F2 E2].
  split; [split; assumption|].
  eapply Rle_trans; [apply (Cmod_mono _ _ _ _ E1 E2)|]. eapply Rle_trans; [apply Cmod_diag; apply bpow_ge_0|].
  change (bp (-54)) with (bp (-1 + -53)). rewrite bpow_plus. change (bp (-1)) with (/ 2). pose proof (bpow_gt_0 radix2 (-53)). lra.
Qed.

Definition mc0 : machine := unfused cis0.
Lemma mc0_ok : mc_ok mc0.
Proof. exact cis0_ok. Qed.

(** * Rounding to the nearest integer modulo 2^32 in float64 *)
From Coq Require Import ZArith List Lia ZifyBool Reals Lra Psatz.
From Flocq Require Import Core BinarySingleNaN.
From Verif Require Import GoBase Spec GoFacts F64 F64Facts F64Err Fft.
Local Open Scope R_scope.

Lemma ZnearestA_IZR n : ZnearestA (IZR n) = n.
Proof. apply Znearest_imp. rewrite Rminus_diag_eq by reflexivity. rewrite Rabs_R0. lra. Qed.

Lemma ZnearestA_opp x : ZnearestA (- x) = (- ZnearestA x)%Z.
Proof.
  rewrite Znearest_opp. f_equal. unfold Znearest. destruct (Rcompare _ _); try reflexivity.
  replace (negb (0 <=? - (Zfloor x + 1)))%Z with (0 <=? Zfloor x)%Z by lia. reflexivity.
Qed.

Lemma ZnearestA_div m d : (0 <= m)%Z -> (0 < d)%Z -> ZnearestA (IZR m / IZR d) = ((2 * m + d) / (2 * d))%Z.
Proof.
  intros Hm Hd. pose proof (Z.div_mod m d ltac:(lia)) as Dv. pose proof (Z.mod_pos_bound m d Hd) as Hr.
  assert (Hf: (0 <= m / d)%Z) by (apply Z.div_pos; lia).
  set (f := (m / d)%Z) in *. set (r := (m mod d)%Z) in *.
  assert (Hd': 0 < IZR d) by (apply IZR_lt; assumption).
  assert (Ex: IZR m / IZR d - IZR f = IZR r / IZR d) by (rewrite Dv, plus_IZR, mult_IZR; field; lra).
  unfold Znearest. rewrite Zfloor_div by assumption. fold f. rewrite Ex.
  assert (Cmp: Rcompare (IZR r / IZR d) (/ 2) = Z.compare (2 * r) d).
  { rewrite <- Rcompare_IZR. rewrite <- (Rcompare_mult_r (2 * IZR d)) by lra. rewrite mult_IZR. f_equal; field; lra. }
  rewrite Cmp. destruct (Z.compare_spec (2 * r) d) as [E|E|E].
  - replace (0 <=? f)%Z with true by lia.
    assert (Zceil (IZR m / IZR d) = (f + 1)%Z).
    { rewrite Zceil_floor_neq; rewrite Zfloor_div by assumption; fold f; [reflexivity|]. intro G. assert (IZR r / IZR d = 0) by lra.
      assert (IZR r = 0) by (apply Rmult_eq_reg_r with (/ IZR d); [rewrite Rmult_0_l; exact H|apply Rinv_neq_0_compat; lra]). apply eq_IZR in H0. lia. }
    rewrite H. apply (Z.div_unique_pos _ _ _ 0); lia.
  - apply (Z.div_unique_pos _ _ _ (2 * r + d)); lia.
  - assert (Zceil (IZR m / IZR d) = (f + 1)%Z).
    { rewrite Zceil_floor_neq; rewrite Zfloor_div by assumption; fold f; [reflexivity|]. intro G. assert (IZR r / IZR d = 0) by lra.
      assert (IZR r = 0) by (apply Rmult_eq_reg_r with (/ IZR d); [rewrite Rmult_0_l; exact H|apply Rinv_neq_0_compat; lra]). apply eq_IZR in H0. lia. }
    rewrite H. apply (Z.div_unique_pos _ _ _ (2 * r - d)); lia.
Qed.

Lemma fround_correct x : is_finite x = true -> val (fround x) = IZR (ZnearestA (val x)) /\ is_finite (fround x) = true.
Proof.
  intro Hf. destruct x as [s|s| |s m e Hb]; try discriminate Hf.
  - cbn. split; [|reflexivity]. rewrite (ZnearestA_IZR 0). reflexivity.
  - unfold fround. pose proof (bounded_mant m e Hb) as [Hm He]. destruct (Z.leb_spec 0 e) as [Hp|Hn].
    + split; [|reflexivity]. cbn [val B2R]. 
      assert (E: F2R (Float radix2 (cond_Zopp s (Z.pos m)) e) = IZR (cond_Zopp s (Z.pos m) * 2 ^ e)).
      { unfold F2R. cbn [Fnum Fexp]. rewrite mult_IZR. f_equal. rewrite <- (IZR_Zpower radix2) by lia. reflexivity. }
      unfold B2R. rewrite E, ZnearestA_IZR. reflexivity.
    + set (d := (2 ^ (- e))%Z). assert (Hd: (2 <= d)%Z) by (unfold d; change 2%Z with (2 ^ 1)%Z at 1; apply Z.pow_le_mono_r; lia).
      set (q := ((2 * Z.pos m + d) / (2 * d))%Z).
      assert (Hq: (0 <= q <= 2 ^ 53)%Z).
      { unfold q. split; [apply Z.div_pos; lia|]. apply Z.div_le_upper_bound; [lia|].
        assert (2 * d * 2 ^ 53 = 2 ^ 53 * d + 2 ^ 53 * d)%Z by ring.
        assert (2 ^ 53 * 2 <= 2 ^ 53 * d)%Z by (apply Z.mul_le_mono_nonneg_l; lia). assert (1 * d <= 2 ^ 53 * d)%Z by (apply Z.mul_le_mono_nonneg_r; lia). lia. }
      destruct (normalize_exact (cond_Zopp s q) 0 s) as [E F]; [destruct s; cbn [cond_Zopp]; lia|lia|lia|].
      split; [|exact F]. rewrite E.
      assert (Ev: val (B754_finite s m e Hb : f64) = cond_Ropp s (IZR (Z.pos m) / IZR d)).
      { unfold B2R. rewrite F2R_cond_Zopp. f_equal. unfold d. apply F2R_neg_div. assumption. }
      rewrite Ev.
      assert (En: ZnearestA (cond_Ropp s (IZR (Z.pos m) / IZR d)) = cond_Zopp s q).
      { destruct s; cbn [cond_Ropp cond_Zopp]; [rewrite ZnearestA_opp|]; rewrite ZnearestA_div by lia; reflexivity. }
      rewrite En. unfold F2R. cbn [Fnum Fexp]. change (bp 0) with 1. ring.
Qed.

Lemma near_half x : Rabs (IZR (ZnearestA x) - x) <= / 2.
Proof. rewrite <- Rabs_Ropp, Ropp_minus_distr. exact (Znearest_half (Z.leb 0) x). Qed.

Lemma near_small x : Rabs x < / 2 -> ZnearestA x = 0%Z.
Proof. intro Hx. apply Znearest_imp. rewrite Rminus_0_r. exact Hx. Qed.

Lemma IZR_two32 : IZR two32 = bp 32. Proof. reflexivity. Qed.

(** subtraction of the nearest multiple of 2^32 is exact *)
Lemma sub_mult_fmt c : fmt c -> let k := ZnearestA (c * bp (- 32)) in fmt (c - bp 32 * IZR k) /\ Rabs (c - bp 32 * IZR k) <= bp 31.
Proof.
  intros Fc k.
  assert (Hn: Rabs (c - bp 32 * IZR k) <= bp 31).
  { pose proof (near_half (c * bp (- 32))) as G. fold k in G.
    replace (c - bp 32 * IZR k) with (- (bp 32 * (IZR k - c * bp (-32)))).
    - rewrite Rabs_Ropp, Rabs_mult, (Rabs_pos_eq (bp 32)) by apply bpow_ge_0.
      apply Rle_trans with (bp 32 * / 2); [apply Rmult_le_compat_l; [apply bpow_ge_0|exact G]|]. change (/ 2) with (bp (-1)). rewrite <- bpow_plus. right; reflexivity.
    - assert (bp 32 * bp (-32) = 1) by (rewrite <- bpow_plus; reflexivity). replace (- (bp 32 * (IZR k - c * bp (-32)))) with ((bp 32 * bp (-32)) * c - bp 32 * IZR k) by ring. rewrite H. ring. }
  split; [|exact Hn].
  destruct (Z.eq_dec k 0) as [E|NE].
  { rewrite E, Rmult_0_r, Rminus_0_r. exact Fc. }
  assert (Hc: bp 31 <= Rabs c).
  { destruct (Rle_or_lt (bp 31) (Rabs c)) as [G|G]; [exact G|]. exfalso. apply NE. unfold k. apply near_small.
    rewrite Rabs_mult, (Rabs_pos_eq (bp (-32))) by apply bpow_ge_0. apply Rlt_le_trans with (bp 31 * bp (-32)).
    - apply Rmult_lt_compat_r; [apply bpow_gt_0|exact G].
    - rewrite <- bpow_plus. change (bp (31 + -32)) with (/ 2). lra. }
  unfold generic_format in Fc. set (e := cexp radix2 (SpecFloat.fexp 53 1024) c) in *. set (M := Ztrunc (scaled_mantissa radix2 (SpecFloat.fexp 53 1024) c)) in *.
  assert (He: (-21 <= e)%Z).
  { unfold e, cexp. assert (32 <= mag radix2 c)%Z by (apply mag_ge_bpow; exact Hc). unfold SpecFloat.fexp. rewrite <- Z.le_max_l || idtac. 
    unfold SpecFloat.fexp, SpecFloat.emin in *. lia. }
  destruct (Z.le_gt_cases e 32) as [Hle|Hgt].
  - assert (Ed: c - bp 32 * IZR k = F2R (Float radix2 (M - k * 2 ^ (32 - e)) e)).
    { rewrite Fc at 1. unfold F2R. cbn [Fnum Fexp]. rewrite minus_IZR, mult_IZR.
      assert (E2: IZR (2 ^ (32 - e)) = bp (32 - e)) by (rewrite <- (IZR_Zpower radix2) by lia; reflexivity). rewrite E2.
      replace (bp 32) with (bp (32 - e) * bp e) by (rewrite <- bpow_plus; f_equal; lia). ring. }
    rewrite Ed in *. apply fmt_mk; [|lia].
    apply le_IZR. apply Rmult_le_reg_r with (bp e); [apply bpow_gt_0|].
    rewrite abs_IZR. replace (Rabs (IZR (M - k * 2 ^ (32 - e))) * bp e) with (Rabs (F2R (Float radix2 (M - k * 2 ^ (32 - e)) e))).
    2:{ unfold F2R. cbn [Fnum Fexp]. rewrite Rabs_mult, (Rabs_pos_eq (bp e)) by apply bpow_ge_0. reflexivity. }
    apply Rle_trans with (1 := Hn). change (IZR (2 ^ 53)) with (bp 53). rewrite <- bpow_plus. apply bpow_le. lia.
  - assert (Ek: c * bp (-32) = IZR (M * 2 ^ (e - 32))).
    { rewrite Fc. unfold F2R. cbn [Fnum Fexp]. rewrite mult_IZR, Rmult_assoc, <- bpow_plus. f_equal. rewrite <- (IZR_Zpower radix2) by lia. reflexivity. }
    assert (c - bp 32 * IZR k = 0).
    { unfold k. rewrite Ek, ZnearestA_IZR, <- Ek. rewrite (Rmult_comm c), <- Rmult_assoc, <- bpow_plus. change (bp (32 + -32)) with 1. ring. }
    rewrite H. apply generic_format_0.
Qed.

Section ModQ.
Context (mc : machine).
Notation FA := (f64_arith mc).

Lemma modQ_val c : is_finite c = true -> Rabs (val c) <= bp 600 ->
  exists k : Z, Rabs (val c - bp 32 * IZR k) <= bp 31 /\
    val (modQ FA (Q32 FA) c) = IZR (ZnearestA (val c - bp 32 * IZR k)) /\ is_finite (modQ FA (Q32 FA) c) = true.
Proof.
  intros Fc Bc. unfold modQ, Q32. cbn [a_round a_nac a_div a_of f64_arith].
  destruct (f_of_Z_exact two32) as [VQ FQ]; [unfold two32; lia|]. rewrite IZR_two32 in VQ.
  set (Q := f_of_Z two32) in *. set (k := ZnearestA (val c * bp (- 32))).
  assert (Hdiv: val c / val Q = val c * bp (-32)) by (rewrite VQ; unfold Rdiv; rewrite <- bpow_opp; reflexivity).
  assert (Rk: val (fround (fdiv c Q)) = IZR k /\ is_finite (fround (fdiv c Q)) = true).
  { assert (NQ: val Q <> 0) by (rewrite VQ; apply Rgt_not_eq, bpow_gt_0).
    destruct (Rle_or_lt 1 (Rabs (val c))) as [G|G].
    - destruct (fdiv_exact c Q (val c * bp (-32)) Fc NQ Hdiv) as [V F].
      + apply (fmt_unscale (val c) 32); [lia|apply val_fmt|right; exact G].
      + rewrite Rabs_mult, (Rabs_pos_eq (bp (-32))) by apply bpow_ge_0.
        apply Rle_lt_trans with (bp 600 * bp (-32)); [apply Rmult_le_compat_r; [apply bpow_ge_0|exact Bc]|]. rewrite <- bpow_plus. apply bpow_lt. lia.
      + destruct (fround_correct _ F) as [V2 F2]. split; [|exact F2]. rewrite V2, V. reflexivity.
    - assert (Hb: Rabs (val c * bp (-32)) < bp (-32)).
      { rewrite Rabs_mult, (Rabs_pos_eq (bp (-32))) by apply bpow_ge_0. rewrite <- (Rmult_1_l (bp (-32))) at 2. apply Rmult_lt_compat_r; [apply bpow_gt_0|exact G]. }
      destruct (fdiv_err c Q Fc NQ) as [F E].
      { rewrite Hdiv. apply Rlt_le. apply Rlt_trans with (1 := Hb). apply bpow_lt. lia. }
      rewrite Hdiv in E. destruct (fround_correct _ F) as [V2 F2]. split; [|exact F2]. rewrite V2. 
      assert (B32: bp (-32) <= / 1000) by (change (bp (-32)) with (/ 4294967296); lra).
      assert (Es: eta <= / 1000) by (apply Rle_trans with (2 := B32); apply eta_small; lia).
      assert (U1: u53 <= 1) by (rewrite u53_val; lra). pose proof u53_pos.
      unfold k. rewrite !near_small; [reflexivity|lra|].
      replace (val (fdiv c Q)) with (val c * bp (-32) + (val (fdiv c Q) - val c * bp (-32))) by ring.
      eapply Rle_lt_trans; [apply Rabs_triang|].
      assert (u53 * Rabs (val c * bp (-32)) <= 1 * Rabs (val c * bp (-32))) by (apply Rmult_le_compat_r; [apply Rabs_pos|exact U1]). lra. }
  destruct Rk as [Vk Fk].
  destruct (sub_mult_fmt (val c) (val_fmt c)) as [Fs Bs]. fold k in Fs, Bs.
  assert (Bk: Rabs (bp 32 * IZR k) <= bp 601).
  { replace (bp 32 * IZR k) with (val c - (val c - bp 32 * IZR k)) by ring. eapply Rle_trans; [apply Rabs_triang|]. rewrite Rabs_Ropp.
    change 601%Z with (600 + 1)%Z. rewrite bpow_plus. change (bp 1) with 2. assert (bp 31 <= bp 600) by (apply bpow_le; lia). lra. }
  destruct (fmul_exact Q (fround (fdiv c Q)) (bp 32 * IZR k) FQ Fk) as [Vm Fm].
  { rewrite VQ, Vk. reflexivity. }
  { rewrite Rmult_comm. apply fmt_scale; [lia|]. rewrite <- Vk. apply val_fmt. }
  { apply Rle_lt_trans with (1 := Bk). apply bpow_lt. lia. }
  assert (Hs: val (f_nac (m_nac mc) c Q (fround (fdiv c Q))) = val c - bp 32 * IZR k /\ is_finite (f_nac (m_nac mc) c Q (fround (fdiv c Q))) = true).
  { unfold f_nac. destruct (m_nac mc).
    - generalize (Bfma_correct 53 1024 _ _ mode_NE (fopp Q) (fround (fdiv c Q)) c (fin_fopp Q FQ) Fk Fc). cbv zeta.
      change (B2R (fopp Q)) with (val (fopp Q)). rewrite val_fopp.
      simpl round_mode. rewrite VQ, Vk. replace (- bp 32 * IZR k + val c) with (val c - bp 32 * IZR k) by ring.
      rewrite rnd_fmt by exact Fs. rewrite Rlt_bool_true.
      + intros (V & F & _). split; assumption.
      + apply Rle_lt_trans with (1 := Bs). apply bpow_lt. lia.
    - generalize (Bminus_correct 53 1024 _ _ mode_NE c (fmul Q (fround (fdiv c Q))) Fc Fm).
      simpl round_mode. rewrite Vm. rewrite rnd_fmt by exact Fs. rewrite Rlt_bool_true.
      + intros (V & F & _). split; assumption.
      + apply Rle_lt_trans with (1 := Bs). apply bpow_lt. lia. }
  destruct Hs as [Vs Fss]. destruct (fround_correct _ Fss) as [V F]. exists k. split; [exact Bs|]. split; [|exact F].
  rewrite V, Vs. reflexivity.
Qed.

(** a float within delta + 1/2 of an integer t gives t up to delta, modulo 2^32 *)
Lemma modQ_close c t delta : is_finite c = true -> Rabs (val c) <= bp 600 -> Rabs (val c - IZR t) < IZR delta + / 2 ->
  close delta (w32 (f_int64 (m_int64 mc) (modQ FA (Q32 FA) c))) t.
Proof.
  intros Fc Bc Hd. destruct (modQ_val c Fc Bc) as (k & Bk & V & F). set (n := ZnearestA (val c - bp 32 * IZR k)) in *.
  assert (Hn: Rabs (IZR n - (val c - bp 32 * IZR k)) <= / 2) by apply near_half.
  assert (Bn: Rabs (IZR n) < IZR (2 ^ 32)).
  { replace (IZR n) with ((val c - bp 32 * IZR k) + (IZR n - (val c - bp 32 * IZR k))) by ring. eapply Rle_lt_trans; [apply Rabs_triang|].
    change (bp 31) with 2147483648 in Bk. change (IZR (2 ^ 32)) with 4294967296. lra. }
  rewrite <- abs_IZR in Bn. apply lt_IZR in Bn.
  rewrite f_int64_correct; [|exact F|rewrite V, Ztrunc_IZR; unfold two63; lia]. rewrite V, Ztrunc_IZR.
  assert (Hc: (Z.abs (n - (t - two32 * k)) <= delta)%Z).
  { apply Z.lt_succ_r. apply lt_IZR. rewrite abs_IZR, succ_IZR. rewrite minus_IZR, minus_IZR, mult_IZR, IZR_two32.
    replace (IZR n - (IZR t - bp 32 * IZR k)) with ((IZR n - (val c - bp 32 * IZR k)) + (val c - IZR t)) by ring.
    eapply Rle_lt_trans; [apply Rabs_triang|]. lra. }
  exists (n - (t - two32 * k))%Z. split; [exact Hc|]. unfold eqm, w32. rewrite Zmod_mod.
  replace (t + (n - (t - two32 * k)))%Z with (n + k * two32)%Z by ring. rewrite Z_mod_plus_full. reflexivity.
Qed.
End ModQ.

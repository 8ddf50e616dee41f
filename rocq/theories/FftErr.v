(** * Rounding error of the transform in float64 *)
From Coq Require Import ZArith List Lia ZifyBool Reals Lra Psatz.
From Flocq Require Import Core BinarySingleNaN.
From Coquelicot Require Import Complex.
From Verif Require Import GoBase Spec GoFacts GoMem F64 F64Facts F64Err Poly Fft FftFacts FftOps CSum RSum FftReal CErr BfErr.
Local Open Scope R_scope.

Lemma sqrt2_lo : 1.414 <= sqrt 2.
Proof. rewrite <- (sqrt_square 1.414) by lra. apply sqrt_le_1_alt. lra. Qed.
Lemma sqrt2_hi : sqrt 2 <= 1.4143.
Proof. rewrite <- (sqrt_square 1.4143) by lra. apply sqrt_le_1_alt. lra. Qed.

Lemma cis_mod x : Cmod (cisr x) = 1.
Proof.
  apply Rle_antisym.
  - apply Cmod_le_sq; [lra|]. cbn [fst snd cisr]. pose proof (sin2_cos2 x) as E. unfold Rsqr in E. lra.
  - pose proof (Cmod_sq (cisr x)) as E. cbn [fst snd cisr] in E. pose proof (sin2_cos2 x) as E2. unfold Rsqr in E2.
    pose proof (Cmod_ge_0 (cisr x)). nra.
Qed.

(** ** pairs of one stage *)
Definition pr (T : Z) (a : Z -> R) (c : Z) : R := if lowb T c then a c + a (c + T)%Z else a (c - T)%Z + a c.

Section Pairs.
Context (H T : Z) (HH : (0 < H)%Z) (H4 : (H mod 4 = 0)%Z) (HT : (0 < T)%Z) (H2T : (H mod (2 * T) = 0)%Z).

Lemma n2_pair g a k : 0 <= k -> (forall c, 0 <= g c) ->
  (forall c, (0 <= c < H)%Z -> lowb T c = true -> (c + T < H)%Z ->
     g c * g c + g (c + T)%Z * g (c + T)%Z <= k * k * (a c * a c + a (c + T)%Z * a (c + T)%Z)) ->
  n2 H g <= k * n2 H a.
Proof.
  intros Hk Hg Hs. apply n2_le_sq; [apply Rmult_le_pos; [assumption|apply n2_pos]|].
  replace (k * n2 H a * (k * n2 H a)) with (k * k * (n2 H a * n2 H a)) by ring. rewrite n2_sq, <- rsum_mul_l.
  apply (rsum_pair_le H T); try assumption. intros c Hc El Hc2. specialize (Hs c Hc El Hc2). lra.
Qed.

Lemma n2_pr a : (forall c, 0 <= a c) -> n2 H (pr T a) <= 2 * n2 H a.
Proof.
  intro Ha. apply n2_pair; [lra| |].
  - intro c. unfold pr. destruct (lowb T c); apply Rplus_le_le_0_compat; apply Ha.
  - intros c Hc El Hc2. destruct (low_hi H HH H4 T HT H2T c El) as [El' _]. unfold pr. rewrite El, El'.
    replace (c + T - T)%Z with c by lia. pose proof (Rle_0_sqr (a c - a (c + T)%Z)) as Q. unfold Rsqr in Q. lra.
Qed.
End Pairs.

Section Err.
Context (mc : machine).
Notation FA := (f64_arith mc).
Notation RA := real_arith.
Context (tau : R) (Ht : 0 <= tau <= / 1000).
Notation kap := (kap tau).
Context (h : Z) (Hh : (3 <= h)%Z) (Hh2 : (h <= 50)%Z).
Notation HF := (2 ^ h)%Z.
Notation NF := (2 * 2 ^ h)%Z.
Notation cxf := (cx FA).

(** float tables within tau of the roots *)
Definition near_tw (tf : list (f64 * f64)) : Prop :=
  (HF - 1 <= zlen tf)%Z /\ forall s i, (Z.of_nat s < h)%Z -> (0 <= i < 2 ^ Z.of_nat s)%Z ->
    cfin (twz FA tf (2 ^ Z.of_nat s - 1 + i)) /\ Cmod (Cminus (cval (twz FA tf (2 ^ Z.of_nat s - 1 + i))) (wv s i)) <= tau.
Definition near_twi (tf : list (f64 * f64)) : Prop :=
  (HF - 1 <= zlen tf)%Z /\ forall s i, (Z.of_nat s < h)%Z -> (0 <= i < 2 ^ Z.of_nat s)%Z ->
    cfin (twz FA tf (HF - 2 * 2 ^ Z.of_nat s + i)) /\ Cmod (Cminus (cval (twz FA tf (HF - 2 * 2 ^ Z.of_nat s + i))) (wvi s i)) <= tau.

Definition ea (lf : list f64) (l : list R) (c : Z) : R := Cmod (Cminus (cval (cxf lf c)) (cxr l c)).
Definition aa (l : list R) (c : Z) : R := Cmod (cxr l c).
Definition af (lf : list f64) (c : Z) : R := Cmod (cval (cxf lf c)).
Definition lfin (lf : list f64) : Prop := forall c, (0 <= c < HF)%Z -> cfin (cxf lf c).

Lemma ea_pos lf l c : 0 <= ea lf l c. Proof. apply Cmod_ge_0. Qed.
Lemma aa_pos l c : 0 <= aa l c. Proof. apply Cmod_ge_0. Qed.
Lemma af_pos l c : 0 <= af l c. Proof. apply Cmod_ge_0. Qed.
Lemma af_le lf l c : af lf c <= aa l c + ea lf l c.
Proof. apply Cmod_near. Qed.
Lemma n2_af lf l : n2 HF (af lf) <= n2 HF (aa l) + n2 HF (ea lf l).
Proof.
  apply Rle_trans with (n2 HF (fun c => aa l c + ea lf l c)); [|apply n2_tri].
  apply n2_mono. intros; split; [apply af_pos|apply af_le].
Qed.

Lemma kap_lo : 5 * u53 <= kap. Proof. unfold BfErr.kap. lra. Qed.
Lemma kap_pos : 0 < kap. Proof. pose proof kap_lo. pose proof u53_pos. lra. Qed.
Lemma Hmu : IZR HF * mu <= / 100 * u53.
Proof.
  apply Rle_trans with (bp 60 * mu).
  - apply Rmult_le_compat_r; [apply Rlt_le, mu_pos|]. change (bp 60) with (IZR (2 ^ 60)). apply IZR_le. apply Z.pow_le_mono_r; lia.
  - unfold mu, u53. rewrite <- bpow_plus. apply Rle_trans with (bp (-7) * bp (-53)).
    + rewrite <- bpow_plus. apply bpow_le. lia.
    + apply Rmult_le_compat_r; [apply bpow_ge_0|]. change (bp (-7)) with (/ 128). lra.
Qed.
Lemma HF1 : 1 <= IZR HF.
Proof. apply IZR_le. pose proof (p2 h ltac:(lia)). lia. Qed.

Section Fwd.
Context (tf : list (f64 * f64)) (tw : list C) (Htf : near_tw tf) (Htw : exact_tw h tw).

(** the exact stage on functions *)
Definition sR (s : nat) (f : Z -> C) (c : Z) : C :=
  let T := (2 ^ (h - 1 - Z.of_nat s))%Z in
  if lowb T c then Cplus (f c) (Cmult (f (c + T)%Z) (wv s (c / (2 * T))))
  else Cminus (f (c - T)%Z) (Cmult (f c) (wv s (c / (2 * T)))).

Section One.
Context (s : nat) (Hs : (Z.of_nat s < h)%Z).
Notation T := (2 ^ (h - 1 - Z.of_nat s))%Z.
Lemma T_pos : (0 < T)%Z. Proof. apply p2. lia. Qed.
Lemma T_div : (HF mod (2 * T) = 0)%Z.
Proof.
  rewrite <- p2S by lia. replace h with (Z.of_nat s + (h - 1 - Z.of_nat s + 1))%Z at 1 by lia. rewrite p2split by lia. apply Z.mod_mul.
  pose proof (p2 (h - 1 - Z.of_nat s + 1) ltac:(lia)). lia.
Qed.
Lemma idx_ok c : (0 <= c < HF)%Z -> (0 <= c / (2 * T) < 2 ^ Z.of_nat s)%Z.
Proof.
  intro Hc. pose proof T_pos. split; [apply Z.div_pos; lia|]. apply Z.div_lt_upper_bound; [lia|].
  rewrite <- Z.mul_assoc, <- p2split by lia. rewrite <- p2S by lia.
  replace (h - 1 - Z.of_nat s + Z.of_nat s + 1)%Z with h by lia. lia.
Qed.

Lemma n2_sR f : n2 HF (fun c => Cmod (sR s f c)) <= sqrt 2 * n2 HF (fun c => Cmod (f c)).
Proof.
  apply (n2_pair HF T (H_pos h Hh) T_pos T_div); [apply sqrt_pos|intros; apply Cmod_ge_0|].
  intros c Hc El Hc2. destruct (low_hi HF (H_pos h Hh) (H_4 h Hh) T T_pos T_div c El) as [El' Ed].
  rewrite sqrt_sqrt by lra. unfold sR. rewrite El, El', Ed. replace (c + T - T)%Z with c by lia.
  set (x := f c). set (v := Cmult (f (c + T)%Z) (wv s (c / (2 * T)))).
  assert (Ev: Cmod (f (c + T)%Z) = Cmod v) by (unfold v, wv; rewrite Cmod_mult, cis_mod; ring). rewrite Ev.
  rewrite !Cmod_sq. unfold Cminus, Cplus, Copp. cbn [fst snd]. right; ring.
Qed.

Lemma cx_stf l c : (0 <= c < HF)%Z ->
  cxf (fstage FA HF tf (2 ^ Z.of_nat s) T l) c = st FA T (butterfly FA) (fun i => twz FA tf (2 ^ Z.of_nat s - 1 + i)) (cxf l) c.
Proof. intro Hc. exact (cx_lay FA HF (H_4 h Hh) _ c Hc). Qed.

Lemma cxr_sR l c : (0 <= c < HF)%Z -> cxr (fstage RA HF tw (2 ^ Z.of_nat s) T l) c = sR s (cxr l) c.
Proof. intro Hc. exact (cx_fstage h Hh tw Htw s l c Hs Hc). Qed.

(** one forward stage *)
Lemma stage_err lf l X E : lfin lf -> n2 HF (aa l) <= X -> n2 HF (ea lf l) <= E -> X + E <= bp 700 ->
  let lf' := fstage FA HF tf (2 ^ Z.of_nat s) T lf in
  let l' := fstage RA HF tw (2 ^ Z.of_nat s) T l in
  lfin lf' /\ n2 HF (aa l') <= sqrt 2 * X /\ n2 HF (ea lf' l') <= sqrt 2 * E + 2 * kap * (X + E) + IZR HF * mu.
Proof.
  intros Fl HX HE Hb lf' l'.
  assert (HA: n2 HF (af lf) <= X + E) by (pose proof (n2_af lf l); lra).
  assert (Hpt: forall c, (0 <= c < HF)%Z -> af lf c <= bp 700).
  { intros c Hc. pose proof (n2_term HF (af lf) c Hc (af_pos lf c)). lra. }
  assert (Hpair: forall a b, a <= bp 700 -> b <= bp 700 -> a + b <= bp 800).
  { intros a b Ha Hb'. apply Rle_trans with (2 * bp 700); [lra|]. change 2 with (bp 1). rewrite <- bpow_plus. apply bpow_le. lia. }
  (* pointwise *)
  assert (Pw: forall c, (0 <= c < HF)%Z -> cfin (cxf lf' c) /\
     ea lf' l' c <= Cmod (sR s (fun c => Cminus (cval (cxf lf c)) (cxr l c)) c) + (kap * pr T (af lf) c + mu)).
  { intros c Hc. pose proof (idx_ok c Hc) as Hi. destruct Htf as [_ Htf']. destruct (Htf' s (c / (2 * T))%Z Hs Hi) as [Fw Ew].
    assert (W1: Cmod (wv s (c / (2 * T))) <= 1) by (unfold wv; rewrite cis_mod; lra).
    unfold ea, lf', l'. rewrite cx_stf, cxr_sR by assumption.
    destruct (lowb T c) eqn:El.
    - pose proof (low_range HF (H_pos h Hh) (H_4 h Hh) T T_pos T_div c Hc El) as Hr. pose proof T_pos.
      destruct (bfly_err mc tau Ht (cxf lf c) (cxf lf (c + T)) _ _ (Fl c Hc) (Fl (c + T)%Z ltac:(lia)) Fw Ew W1) as [[F1 B1] _].
      { apply Hpair; apply Hpt; lia. }
      unfold st. rewrite El. split; [exact F1|].
      unfold sR, pr. rewrite El.
      eapply Rle_trans; [apply (Cmod_tri3 _ (Cplus (cval (cxf lf c)) (Cmult (cval (cxf lf (c + T)%Z)) (wv s (c / (2 * T))))))|].
      rewrite Rplus_comm. apply Rplus_le_compat; [|exact B1]. right. f_equal. ring.
    - pose proof (hi_range HF (H_pos h Hh) (H_4 h Hh) T T_pos T_div c (proj1 Hc) El) as Hr. pose proof T_pos.
      destruct (bfly_err mc tau Ht (cxf lf (c - T)) (cxf lf c) _ _ (Fl (c - T)%Z ltac:(lia)) (Fl c Hc) Fw Ew W1) as [_ [F1 B1]].
      { apply Hpair; apply Hpt; lia. }
      unfold st. rewrite El. split; [exact F1|].
      unfold sR, pr. rewrite El.
      eapply Rle_trans; [apply (Cmod_tri3 _ (Cminus (cval (cxf lf (c - T)%Z)) (Cmult (cval (cxf lf c)) (wv s (c / (2 * T))))))|].
      rewrite Rplus_comm. apply Rplus_le_compat; [|exact B1]. right. f_equal. ring. }
  split; [intros c Hc; apply Pw; assumption|]. split.
  - apply Rle_trans with (sqrt 2 * n2 HF (aa l)); [|apply Rmult_le_compat_l; [apply sqrt_pos|assumption]].
    rewrite (n2_ext HF (aa l') (fun c => Cmod (sR s (cxr l) c))) by (intros c Hc; unfold aa, l'; rewrite cxr_sR by assumption; reflexivity).
    apply n2_sR.
  - apply Rle_trans with (n2 HF (fun c => Cmod (sR s (fun c => Cminus (cval (cxf lf c)) (cxr l c)) c) + (kap * pr T (af lf) c + mu))).
    { apply n2_mono. intros c Hc. split; [apply ea_pos|apply Pw; assumption]. }
    eapply Rle_trans; [apply n2_tri|].
    pose proof (n2_tri HF (fun c => kap * pr T (af lf) c) (fun _ => mu)) as T1.
    rewrite n2_scal in T1 by (apply Rlt_le, kap_pos).
    pose proof (n2_const HF mu ltac:(pose proof (H_pos h Hh); lia) (Rlt_le _ _ mu_pos)) as T2.
    pose proof (n2_pr HF T (H_pos h Hh) (H_4 h Hh) T_pos T_div (af lf) (af_pos lf)) as T3.
    pose proof (n2_sR (fun c => Cminus (cval (cxf lf c)) (cxr l c))) as T4.
    assert (T5: sqrt 2 * n2 HF (fun c => Cmod (Cminus (cval (cxf lf c)) (cxr l c))) <= sqrt 2 * E) by (apply Rmult_le_compat_l; [apply sqrt_pos|exact HE]).
    assert (T6: kap * n2 HF (pr T (af lf)) <= kap * (2 * (X + E))) by (apply Rmult_le_compat_l; [apply Rlt_le, kap_pos|lra]).
    lra.
Qed.
End One.

Definition Xs (X : R) (s : nat) : R := sqrt 2 ^ s * X.
Definition Es (X : R) (s : nat) : R := 1.5 * INR s * kap * Xs X s.

Context (Hk : 1.5 * IZR h * kap <= / 100).

Lemma Xs_1 X s : 1 <= X -> 1 <= Xs X s.
Proof.
  intro HX. unfold Xs. rewrite <- (Rmult_1_l 1). apply Rmult_le_compat; try lra. apply pow_R1_Rle. pose proof sqrt2_lo. lra.
Qed.
Lemma Xs_le X s : 1 <= X -> (Z.of_nat s <= h)%Z -> Xs X s <= IZR HF * X.
Proof.
  intros HX Hs. apply Rmult_le_compat_r; [lra|].
  apply Rle_trans with (2 ^ s)%R; [apply pow_incr; pose proof sqrt2_hi; pose proof sqrt2_lo; lra|].
  rewrite pow_IZR. apply IZR_le. apply Z.pow_le_mono_r; lia.
Qed.

Lemma fwd_err X lf l : 1 <= X -> IZR HF * X <= bp 600 -> lfin lf -> n2 HF (aa l) <= X -> n2 HF (ea lf l) <= 0 ->
  forall s, (Z.of_nat s <= h)%Z ->
  let lf' := fwd FA HF tf s 1 (HF / 2) lf in let l' := fwd RA HF tw s 1 (HF / 2) l in
  lfin lf' /\ n2 HF (aa l') <= Xs X s /\ n2 HF (ea lf' l') <= Es X s.
Proof.
  intros HX Hb Fl HA HE. induction s as [|s IH]; intros Hs.
  - cbn [fwd]. unfold Xs, Es. cbn [pow INR]. split; [assumption|split; lra].
  - destruct IH as (F & A & E); [lia|]. cbv zeta.
    assert (E1: (HF / 2 / 2 ^ Z.of_nat s = 2 ^ (h - 1 - Z.of_nat s))%Z) by (change (HF / 2)%Z with (HF / 2 ^ 1)%Z; rewrite !p2div by lia; reflexivity).
    rewrite !fwd_snoc, E1, Z.mul_1_l.
    pose proof (Xs_1 X s HX) as X1. pose proof (Xs_le X s HX ltac:(lia)) as X2.
    pose proof kap_pos as Kp. pose proof kap_lo as Kl. pose proof Hmu as Hm. pose proof u53_pos as Up.
    assert (Hs1: 0 <= INR s <= IZR h) by (split; [apply pos_INR|rewrite INR_IZR_INZ; apply IZR_le; lia]).
    assert (Ek: 1.5 * INR s * kap <= / 100).
    { apply Rle_trans with (2 := Hk). apply Rmult_le_compat_r; lra. }
    assert (Ek0: 0 <= 1.5 * INR s * kap) by (apply Rmult_le_pos; lra).
    assert (EX: Es X s <= / 100 * Xs X s) by (unfold Es; apply Rmult_le_compat_r; lra).
    assert (Bx: Xs X s + Es X s <= bp 700).
    { apply Rle_trans with (2 * bp 600); [lra|]. change 2 with (bp 1). rewrite <- bpow_plus. apply bpow_le. lia. }
    destruct (stage_err s ltac:(lia) _ _ _ _ F A E Bx) as (F' & A' & E').
    split; [exact F'|]. split.
    + apply Rle_trans with (1 := A'). unfold Xs. cbn [pow]. right; ring.
    + apply Rle_trans with (1 := E'). unfold Es. rewrite S_INR.
      replace (Xs X (S s)) with (sqrt 2 * Xs X s) by (unfold Xs; cbn [pow]; ring).
      set (x := Xs X s) in *. pose proof sqrt2_lo as S2. fold (Es X s).
      assert (G: 2 * kap * (x + Es X s) + IZR HF * mu <= 1.5 * kap * (sqrt 2 * x)).
      { assert (kap * Es X s <= kap * (/ 100 * x)) by (apply Rmult_le_compat_l; lra).
        assert (kap * x * 1.414 <= kap * x * sqrt 2) by (apply Rmult_le_compat_l; [apply Rmult_le_pos; lra|assumption]).
        assert (kap * 1 <= kap * x) by (apply Rmult_le_compat_l; lra). lra. }
      assert (E0: Es X s = 1.5 * INR s * kap * x) by reflexivity.
      replace (1.5 * (INR s + 1) * kap * (sqrt 2 * x)) with (sqrt 2 * (1.5 * INR s * kap * x) + 1.5 * kap * (sqrt 2 * x)) by ring.
      rewrite <- E0. lra.
Qed.

Lemma fft_err X lf l : 1 <= X -> IZR HF * X <= bp 600 -> lfin lf -> n2 HF (aa l) <= X -> n2 HF (ea lf l) <= 0 ->
  let lf' := fft FA HF h tf lf in let l' := fft RA HF h tw l in
  lfin lf' /\ n2 HF (aa l') <= Xs X (Z.to_nat h) /\ n2 HF (ea lf' l') <= 1.5 * IZR h * kap * Xs X (Z.to_nat h).
Proof.
  intros HX Hb Fl HA HE. pose proof (fwd_err X lf l HX Hb Fl HA HE (Z.to_nat h) ltac:(lia)) as G.
  unfold Es in G. rewrite INR_IZR_INZ, Z2Nat.id in G by lia. exact G.
Qed.

Lemma Xs_sq X : Xs X (Z.to_nat h) * Xs X (Z.to_nat h) = IZR HF * (X * X).
Proof.
  unfold Xs. replace (sqrt 2 ^ Z.to_nat h * X * (sqrt 2 ^ Z.to_nat h * X)) with ((sqrt 2 * sqrt 2) ^ Z.to_nat h * (X * X)) by (rewrite Rpow_mult_distr; ring).
  rewrite sqrt_sqrt by lra. f_equal. rewrite pow_IZR. f_equal. rewrite Z2Nat.id by lia. reflexivity.
Qed.
End Fwd.
End Err.

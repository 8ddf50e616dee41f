(** * Rounding error of products, sums and the inverse transform in float64 *)
From Coq Require Import ZArith List Lia ZifyBool Reals Lra Psatz.
From Flocq Require Import Core BinarySingleNaN.
From Coquelicot Require Import Complex.
From Verif Require Import GoBase Spec GoFacts GoMem F64 F64Facts F64Err Poly Fft FftFacts FftOps CSum RSum FftReal CErr BfErr FftErr.
Local Open Scope R_scope.

Lemma lowb_div T c : (0 < T)%Z -> lowb T c = true -> (c / T = 2 * (c / (2 * T)))%Z /\ ((c + T) / T = 2 * (c / (2 * T)) + 1)%Z.
Proof.
  intros HT El. unfold lowb in El. pose proof (Z.mod_pos_bound c (2 * T) ltac:(lia)). pose proof (Z.div_mod c (2 * T) ltac:(lia)) as Dv.
  set (q := (c / (2 * T))%Z) in *. set (r := (c mod (2 * T))%Z) in *. split; symmetry; apply (Z.div_unique_pos _ _ _ r); lia.
Qed.
Lemma hib_div T c : (0 < T)%Z -> lowb T c = false -> (c / T = 2 * (c / (2 * T)) + 1)%Z /\ ((c - T) / T = 2 * (c / (2 * T)))%Z.
Proof.
  intros HT El. unfold lowb in El. pose proof (Z.mod_pos_bound c (2 * T) ltac:(lia)). pose proof (Z.div_mod c (2 * T) ltac:(lia)) as Dv.
  set (q := (c / (2 * T))%Z) in *. set (r := (c mod (2 * T))%Z) in *. split; symmetry; apply (Z.div_unique_pos _ _ _ (r - T)); lia.
Qed.
Lemma blk_idx T m c : (0 < T)%Z -> (0 <= c < T * m)%Z -> (0 <= c / T < m)%Z.
Proof. intros HT Hc. split; [apply Z.div_pos; lia|]. apply Z.div_lt_upper_bound; lia. Qed.

Section Inv.
Context (mc : machine).
Notation FA := (f64_arith mc).
Notation RA := real_arith.
Context (tau : R) (Ht : 0 <= tau <= / 1000).
Notation kap := (kap tau).
Context (h : Z) (Hh : (3 <= h)%Z) (Hh2 : (h <= 50)%Z).
Notation HF := (2 ^ h)%Z.
Notation cxf := (cx FA).
Notation ea := (ea mc).
Notation af := (af mc).
Notation lfin := (lfin mc h).

Lemma bp_mul2 k x y : x <= bp k -> y <= bp k -> x + y <= bp (k + 1).
Proof. intros. rewrite bpow_plus. change (bp 1) with 2. lra. Qed.

(** ** products *)
Lemma Cmul_diff a b x y : Cmod (Cminus (Cmult a b) (Cmult x y)) <= Cmod (Cminus a x) * Cmod y + Cmod x * Cmod (Cminus b y) + Cmod (Cminus a x) * Cmod (Cminus b y).
Proof.
  rewrite <- !Cmod_mult.
  replace (Cminus (Cmult a b) (Cmult x y)) with (Cplus (Cplus (Cmult (Cminus a x) y) (Cmult x (Cminus b y))) (Cmult (Cminus a x) (Cminus b y))) by ring.
  eapply Rle_trans; [apply Cmod_triangle|]. apply Rplus_le_compat_r. apply Cmod_triangle.
Qed.

Section Prod.
Context (ef : R) (Hef : 0 <= ef <= / 100).
Context (xf yf : list f64) (x y : list R) (X Y : R).
Context (Fx : lfin xf) (Fy : lfin yf) (HX : 1 <= X) (HY : 1 <= Y) (HXY : X * Y <= bp 600)
  (Ax : n2 HF (aa x) <= X) (Ay : n2 HF (aa y) <= Y) (Ex : n2 HF (ea xf x) <= ef * X) (Ey : n2 HF (ea yf y) <= ef * Y).
Notation Z1 := (X * Y).

Lemma Z1_1 : 1 <= Z1.
Proof. rewrite <- (Rmult_1_l 1). apply Rmult_le_compat; lra. Qed.

(** pointwise error of one product, and the three sums *)
Definition pe (c : Z) : R := ea xf x c * aa y c + aa x c * ea yf y c + ea xf x c * ea yf y c + 3 * u53 * (af xf c * af yf c) + 8 * eta.
Lemma n2_x : n2 HF (af xf) <= 1.01 * X.
Proof. pose proof (n2_af mc h xf x). assert (ef * X <= / 100 * X) by (apply Rmult_le_compat_r; lra). lra. Qed.
Lemma n2_y : n2 HF (af yf) <= 1.01 * Y.
Proof. pose proof (n2_af mc h yf y). assert (ef * Y <= / 100 * Y) by (apply Rmult_le_compat_r; lra). lra. Qed.

Lemma dot2 a b A B : n2 HF a <= A -> n2 HF b <= B -> rsum HF (fun c => a c * b c) <= A * B.
Proof.
  intros Ha Hb. apply Rle_trans with (1 := dot_le HF a b). apply Rmult_le_compat; try assumption; apply n2_pos.
Qed.

Lemma prod_amp : rsum HF (fun c => aa x c * aa y c) <= Z1.
Proof. apply dot2; assumption. Qed.
Lemma prod_famp : rsum HF (fun c => af xf c * af yf c) <= 1.03 * Z1.
Proof. apply Rle_trans with (1 := dot2 _ _ _ _ n2_x n2_y). pose proof Z1_1. lra. Qed.
Lemma Heta : IZR HF * (8 * eta) <= / 1000 * u53.
Proof.
  pose proof (Hmu h Hh2) as G. pose proof eta_mu as G2. pose proof (HF1 h Hh) as G3.
  assert (IZR HF * (1000 * eta) <= IZR HF * mu) by (apply Rmult_le_compat_l; lra). pose proof eta_pos.
  assert (0 <= IZR HF * eta) by (apply Rmult_le_pos; lra). lra.
Qed.
Lemma prod_err_sum : rsum HF pe <= (2.01 * ef + 3.1 * u53) * Z1.
Proof.
  unfold pe. rewrite !rsum_add, rsum_mul_l, rsum_const by (pose proof (H_pos h Hh); lia).
  pose proof (dot2 _ _ _ _ Ex Ay) as T1. pose proof (dot2 _ _ _ _ Ax Ey) as T2. pose proof (dot2 _ _ _ _ Ex Ey) as T3.
  pose proof prod_famp as T4. pose proof Heta as T5. pose proof Z1_1 as Z1'. pose proof u53_pos as Up.
  assert (ef * X * (ef * Y) <= / 100 * ef * Z1).
  { replace (ef * X * (ef * Y)) with (ef * (ef * Z1)) by ring. replace (/ 100 * ef * Z1) with (ef * (/ 100 * Z1)) by ring.
    apply Rmult_le_compat_l; [lra|]. apply Rmult_le_compat_r; lra. }
  assert (u53 * rsum HF (fun c => af xf c * af yf c) <= u53 * (1.03 * Z1)) by (apply Rmult_le_compat_l; lra).
  assert (u53 * 1 <= u53 * Z1) by (apply Rmult_le_compat_l; lra). lra.
Qed.

Lemma famp_pt c : (0 <= c < HF)%Z -> af xf c * af yf c <= bp 700.
Proof.
  intro Hc. apply Rle_trans with (rsum HF (fun c => af xf c * af yf c)).
  - apply (rsum_term HF (fun c => af xf c * af yf c) c Hc). intros; apply Rmult_le_pos; apply af_pos.
  - pose proof prod_famp as P. pose proof Z1_1. apply Rle_trans with (2 * bp 600); [lra|]. change 2 with (bp 1). rewrite <- bpow_plus. apply bpow_le. lia.
Qed.

Lemma prod_pt s c : (0 <= c < HF)%Z ->
  cfin (cxmul FA s (cxf xf c) (cxf yf c)) /\ Cmod (Cminus (cval (cxmul FA s (cxf xf c) (cxf yf c))) (Cmult (cxr x c) (cxr y c))) <= pe c.
Proof.
  intro Hc. destruct (cmul_err mc s (cxf xf c) (cxf yf c) (Fx c Hc) (Fy c Hc)) as [F E].
  { apply Rle_trans with (1 := famp_pt c Hc). apply bpow_le. lia. }
  split; [exact F|]. eapply Rle_trans; [apply (Cmod_tri3 _ (Cmult (cval (cxf xf c)) (cval (cxf yf c))))|].
  pose proof (Cmul_diff (cval (cxf xf c)) (cval (cxf yf c)) (cxr x c) (cxr y c)) as D.
  unfold pe, FftErr.ea, FftErr.aa, FftErr.af. lra.
Qed.

(** the product buffer *)
Lemma mul_err : let zf := elw FA HF (fun a b _ => cxmul FA SMul a b) xf yf xf in let z := elw RA HF (fun a b _ => cxmul RA SMul a b) x y x in
  lfin zf /\ rsum HF (aa z) <= Z1 /\ rsum HF (ea zf z) <= (2.01 * ef + 3.1 * u53) * Z1.
Proof.
  intros zf z.
  assert (Ez: forall c, (0 <= c < HF)%Z -> cxf zf c = cxmul FA SMul (cxf xf c) (cxf yf c)) by (intros c Hc; exact (cx_lay FA HF (H_4 h Hh) _ c Hc)).
  assert (Er: forall c, (0 <= c < HF)%Z -> cxr z c = Cmult (cxr x c) (cxr y c)) by (intros c Hc; exact (cx_lay RA HF (H_4 h Hh) _ c Hc)).
  split; [intros c Hc; rewrite Ez by assumption; apply prod_pt; assumption|]. split.
  - apply Rle_trans with (2 := prod_amp). apply rsum_le. intros c Hc. unfold aa. rewrite Er by assumption. rewrite Cmod_mult. lra.
  - apply Rle_trans with (2 := prod_err_sum). apply rsum_le. intros c Hc. unfold FftErr.ea. rewrite Ez, Er by assumption. apply prod_pt. assumption.
Qed.

(** one multiply-add *)
Lemma ma_err af0 a0 B D : lfin af0 -> rsum HF (aa a0) <= B -> rsum HF (ea af0 a0) <= D -> B + D <= bp 700 ->
  let zf := elw FA HF (fun a b o => cxadd FA o (cxmul FA SMulAdd a b)) xf yf af0 in let z := elw RA HF (fun a b o => cxadd RA o (cxmul RA SMulAdd a b)) x y a0 in
  lfin zf /\ rsum HF (aa z) <= B + Z1 /\ rsum HF (ea zf z) <= D + (2.01 * ef + 3.2 * u53) * Z1 + u53 * (B + D + 1.1 * Z1).
Proof.
  intros Fa HB HD Hb zf z.
  assert (Ez: forall c, (0 <= c < HF)%Z -> cxf zf c = cxadd FA (cxf af0 c) (cxmul FA SMulAdd (cxf xf c) (cxf yf c))) by (intros c Hc; exact (cx_lay FA HF (H_4 h Hh) _ c Hc)).
  assert (Er: forall c, (0 <= c < HF)%Z -> cxr z c = Cplus (cxr a0 c) (Cmult (cxr x c) (cxr y c))) by (intros c Hc; exact (cx_lay RA HF (H_4 h Hh) _ c Hc)).
  pose proof u53_pos as Up. pose proof u53_small as Us. pose proof eta_pos as Ep. pose proof Z1_1 as Zp. pose proof prod_err_sum as PE. pose proof prod_amp as PA.
  assert (Pp: forall c, (0 <= c < HF)%Z -> 0 <= pe c).
  { intros c Hc. destruct (prod_pt SMulAdd c Hc) as [_ G]. apply Rle_trans with (2 := G). apply Cmod_ge_0. }
  assert (Pe1: (2.01 * ef + 3.1 * u53) * Z1 <= / 10 * Z1) by (apply Rmult_le_compat_r; lra).
  (* the two addends *)
  set (S := fun c => (aa a0 c + ea af0 a0 c) + (aa x c * aa y c + pe c)).
  assert (HS: rsum HF S <= B + D + 1.1 * Z1) by (unfold S; rewrite !rsum_add; lra).
  assert (Sp: forall c, (0 <= c < HF)%Z -> 0 <= S c).
  { intros c Hc. unfold S. pose proof (aa_pos a0 c). pose proof (ea_pos mc af0 a0 c). specialize (Pp c Hc).
    pose proof (Rmult_le_pos _ _ (aa_pos x c) (aa_pos y c)). lra. }
  assert (Sum: forall c, (0 <= c < HF)%Z -> Cmod (cval (cxf af0 c)) + Cmod (cval (cxmul FA SMulAdd (cxf xf c) (cxf yf c))) <= S c).
  { intros c Hc. destruct (prod_pt SMulAdd c Hc) as [_ G]. pose proof (af_le mc af0 a0 c) as G1. unfold FftErr.af in G1.
    pose proof (Cmod_near (cval (cxmul FA SMulAdd (cxf xf c) (cxf yf c))) (Cmult (cxr x c) (cxr y c))) as G2. rewrite Cmod_mult in G2.
    unfold S, aa in *. lra. }
  assert (Spt: forall c, (0 <= c < HF)%Z -> S c <= bp 900).
  { intros c Hc. apply Rle_trans with (rsum HF S); [apply (rsum_term HF S c Hc); exact Sp|]. apply Rle_trans with (1 := HS).
    assert (1.1 * Z1 <= 2 * bp 600) by lra.
    assert (2 * bp 600 <= bp 700) by (change 2 with (bp 1); rewrite <- bpow_plus; apply bpow_le; lia).
    apply Rle_trans with (2 * bp 700); [lra|]. change 2 with (bp 1). rewrite <- bpow_plus. apply bpow_le. lia. }
  assert (Pt: forall c, (0 <= c < HF)%Z -> cfin (cxf zf c) /\ ea zf z c <= ea af0 a0 c + pe c + u53 * S c + 2 * eta).
  { intros c Hc. unfold FftErr.ea. rewrite Ez, Er by assumption. destruct (prod_pt SMulAdd c Hc) as [F1 E1].
    destruct (cadd_err mc (cxf af0 c) (cxmul FA SMulAdd (cxf xf c) (cxf yf c)) (Fa c Hc) F1) as [F2 E2].
    { apply Rle_trans with (1 := Sum c Hc). apply Spt. assumption. }
    split; [exact F2|].
    eapply Rle_trans; [apply (Cmod_tri3 _ (Cplus (cval (cxf af0 c)) (cval (cxmul FA SMulAdd (cxf xf c) (cxf yf c)))))|].
    assert (u53 * Cmod (Cplus (cval (cxf af0 c)) (cval (cxmul FA SMulAdd (cxf xf c) (cxf yf c)))) <= u53 * S c).
    { apply Rmult_le_compat_l; [lra|]. eapply Rle_trans; [apply Cmod_triangle|]. apply Sum. assumption. }
    assert (Cmod (Cminus (Cplus (cval (cxf af0 c)) (cval (cxmul FA SMulAdd (cxf xf c) (cxf yf c)))) (Cplus (cxr a0 c) (Cmult (cxr x c) (cxr y c))))
      <= Cmod (Cminus (cval (cxf af0 c)) (cxr a0 c)) + Cmod (Cminus (cval (cxmul FA SMulAdd (cxf xf c) (cxf yf c))) (Cmult (cxr x c) (cxr y c)))).
    { eapply Rle_trans; [|apply Cmod_triangle]. right. f_equal. ring. }
    lra. }
  split; [intros c Hc; apply Pt; assumption|]. split.
  - apply Rle_trans with (rsum HF (fun c => aa a0 c + aa x c * aa y c)); [|rewrite rsum_add; lra].
    apply rsum_le. intros c Hc. unfold aa. rewrite Er by assumption. rewrite <- Cmod_mult. apply Cmod_triangle.
  - apply Rle_trans with (rsum HF (fun c => ea af0 a0 c + pe c + u53 * S c + 2 * eta)); [apply rsum_le; intros c Hc; apply Pt; assumption|].
    rewrite !rsum_add, rsum_mul_l, rsum_const by (pose proof (H_pos h Hh); lia).
    assert (u53 * rsum HF S <= u53 * (B + D + 1.1 * Z1)) by (apply Rmult_le_compat_l; lra).
    pose proof Heta as He. assert (u53 * 1 <= u53 * Z1) by (apply Rmult_le_compat_l; lra). 
    assert (0 <= IZR HF * eta) by (apply Rmult_le_pos; pose proof (HF1 h Hh); lra). lra.
Qed.
End Prod.

(** ** inverse stages *)
Section Bwd.
Context (tf : list (f64 * f64)) (tw : list C) (Htf : near_twi mc tau h tf) (Htw : exact_twi h tw).

Definition blk (j : nat) (lf : list f64) (l : list R) (B D : R) : Prop :=
  exists b d : Z -> R, (forall i, 0 <= b i) /\ (forall i, 0 <= d i) /\
  rsum (2 ^ (h - Z.of_nat j)) b <= B /\ rsum (2 ^ (h - Z.of_nat j)) d <= D /\
  forall c, (0 <= c < HF)%Z -> aa l c <= b (c / 2 ^ Z.of_nat j)%Z /\ ea lf l c <= d (c / 2 ^ Z.of_nat j)%Z.

Lemma blk_stage j lf l B D : (Z.of_nat j < h)%Z -> lfin lf -> blk j lf l B D -> B + D <= bp 700 ->
  let s := (Z.to_nat h - S j)%nat in let T := (2 ^ Z.of_nat j)%Z in
  let lf' := istage FA HF tf (2 ^ Z.of_nat s) T lf in let l' := istage RA HF tw (2 ^ Z.of_nat s) T l in
  lfin lf' /\ blk (S j) lf' l' B (D + kap * (B + D) + IZR HF * mu).
Proof.
  intros Hj Fl (b & d & Hb & Hd & SB & SD & Hp) Hbd s T lf' l'.
  assert (Es: Z.of_nat s = (h - 1 - Z.of_nat j)%Z) by (unfold s; lia).
  assert (ET: T = (2 ^ (h - 1 - Z.of_nat s))%Z) by (unfold T; f_equal; lia).
  assert (HT: (0 < T)%Z) by (apply p2; lia).
  assert (H2T: (HF mod (2 * T) = 0)%Z) by (rewrite ET; apply (T_div h s); lia).
  assert (E2T: (2 ^ Z.of_nat (S j) = 2 * T)%Z) by (unfold T; rewrite Nat2Z.inj_succ, Z.pow_succ_r by lia; reflexivity).
  pose proof (kap_pos tau Ht) as Kp. pose proof mu_pos as Mp.
  assert (Rb: forall g, rsum (2 ^ (h - Z.of_nat j)) g = rsum (2 ^ (h - Z.of_nat (S j))) (fun q => g (2 * q)%Z + g (2 * q + 1)%Z)).
  { intro g. replace (h - Z.of_nat j)%Z with (h - Z.of_nat (S j) + 1)%Z by lia. rewrite p2S by lia. apply rsum_pairs. pose proof (p2 (h - Z.of_nat (S j)) ltac:(lia)). lia. }
  set (b' := fun q => b (2 * q)%Z + b (2 * q + 1)%Z). set (d0 := fun q => d (2 * q)%Z + d (2 * q + 1)%Z).
  pose proof (fun c => lowb_div T c HT) as Dlow. pose proof (fun c => hib_div T c HT) as Dhi.
  assert (EHF: HF = (2 * T * 2 ^ (h - Z.of_nat (S j)))%Z) by (rewrite <- E2T, <- p2split by lia; f_equal; lia).
  assert (HTT: (0 < 2 * T)%Z) by (clear - HT; lia).
  assert (Hq: forall c, (0 <= c < HF)%Z -> (0 <= c / (2 * T) < 2 ^ (h - Z.of_nat (S j)))%Z) by (intros c Hc; rewrite EHF in Hc; exact (blk_idx _ _ _ HTT Hc)).
  assert (Tot: forall q, (0 <= q < 2 ^ (h - Z.of_nat (S j)))%Z -> b' q + d0 q <= bp 700).
  { intros q Hq'. assert (b' q + d0 q <= rsum (2 ^ (h - Z.of_nat (S j))) (fun q => b' q + d0 q)).
    { apply (rsum_term _ (fun q => b' q + d0 q) q Hq'). intros i Hi. unfold b', d0. pose proof (Hb (2 * i)%Z). pose proof (Hb (2 * i + 1)%Z). pose proof (Hd (2 * i)%Z). pose proof (Hd (2 * i + 1)%Z). lra. }
    rewrite rsum_add in H. rewrite Rb in SB, SD.
    change (rsum (2 ^ (h - Z.of_nat (S j))) b' <= B) in SB. change (rsum (2 ^ (h - Z.of_nat (S j))) d0 <= D) in SD. apply Rle_trans with (1 := H). clear - SB SD Hbd. lra. }
  assert (Pt: forall c, (0 <= c < HF)%Z -> cfin (cxf lf' c) /\ aa l' c <= b' (c / (2 * T))%Z /\ ea lf' l' c <= d0 (c / (2 * T))%Z + kap * (b' (c / (2 * T))%Z + d0 (c / (2 * T))%Z) + mu).
  { intros c Hc. destruct Htf as [_ Htf'].
    assert (Hi: (0 <= c / (2 * T) < 2 ^ Z.of_nat s)%Z) by (rewrite Es; replace (h - 1 - Z.of_nat j)%Z with (h - Z.of_nat (S j))%Z by lia; apply Hq; assumption).
    destruct (Htf' s (c / (2 * T))%Z ltac:(lia) Hi) as [Fw Ew].
    assert (W1: Cmod (wvi s (c / (2 * T))) = 1) by (unfold wvi; apply cis_mod).
    specialize (Tot _ (Hq c Hc)).
    assert (Cf: cxf lf' c = st FA T (invButterfly FA) (fun i => twz FA tf (HF - 2 * 2 ^ Z.of_nat s + i)) (cxf lf) c) by exact (cx_lay FA HF (H_4 h Hh) _ c Hc).
    assert (Cr: cxr l' c = if lowb T c then Cplus (cxr l c) (cxr l (c + T)) else Cmult (Cminus (cxr l (c - T)) (cxr l c)) (wvi s (c / (2 * T)))).
    { unfold l'. rewrite ET. exact (cx_istage h Hh tw Htw s l c ltac:(lia) Hc). }
    unfold aa at 1, FftErr.ea at 1. rewrite Cf, Cr. unfold st.
    set (q := (c / (2 * T))%Z) in *.
    destruct (lowb T c) eqn:El.
    - pose proof (low_range HF (H_pos h Hh) (H_4 h Hh) T HT H2T c Hc El) as Hr. destruct (Dlow c El) as [D1 D2].
      destruct (Hp c Hc) as [A1 E1]. destruct (Hp (c + T)%Z ltac:(lia)) as [A2 E2]. fold T in A1, E1, A2, E2. rewrite D1 in A1, E1. rewrite D2 in A2, E2. fold q in A1, E1, A2, E2.
      pose proof (af_le mc lf l c) as L1. pose proof (af_le mc lf l (c + T)%Z) as L2. unfold FftErr.af in L1, L2.
      assert (Su: Cmod (cval (cxf lf c)) + Cmod (cval (cxf lf (c + T)%Z)) <= b' q + d0 q) by (unfold b', d0; lra).
      destruct (ibfly_err mc tau Ht (cxf lf c) (cxf lf (c + T)) _ _ (Fl c Hc) (Fl (c + T)%Z ltac:(lia)) Fw Ew ltac:(rewrite W1; lra)) as [[F1 B1] _].
      { apply Rle_trans with (1 := Su). apply Rle_trans with (1 := Tot). apply bpow_le. lia. }
      split; [exact F1|]. split.
      { unfold b'. eapply Rle_trans; [apply Cmod_triangle|]. unfold aa in A1, A2. lra. }
      eapply Rle_trans; [apply (Cmod_tri3 _ (Cplus (cval (cxf lf c)) (cval (cxf lf (c + T)%Z))))|].
      assert (kap * (Cmod (cval (cxf lf c)) + Cmod (cval (cxf lf (c + T)%Z))) <= kap * (b' q + d0 q)) by (apply Rmult_le_compat_l; lra).
      assert (Cmod (Cminus (Cplus (cval (cxf lf c)) (cval (cxf lf (c + T)%Z))) (Cplus (cxr l c) (cxr l (c + T)))) <= d0 q).
      { replace (Cminus (Cplus (cval (cxf lf c)) (cval (cxf lf (c + T)%Z))) (Cplus (cxr l c) (cxr l (c + T))))
          with (Cplus (Cminus (cval (cxf lf c)) (cxr l c)) (Cminus (cval (cxf lf (c + T)%Z)) (cxr l (c + T)))) by ring.
        eapply Rle_trans; [apply Cmod_triangle|]. unfold FftErr.ea in E1, E2. unfold d0. lra. }
      cbv zeta in B1. lra.
    - pose proof (hi_range HF (H_pos h Hh) (H_4 h Hh) T HT H2T c (proj1 Hc) El) as Hr. destruct (Dhi c El) as [D1 D2].
      destruct (Hp c Hc) as [A1 E1]. destruct (Hp (c - T)%Z ltac:(lia)) as [A2 E2]. fold T in A1, E1, A2, E2. rewrite D1 in A1, E1. rewrite D2 in A2, E2. fold q in A1, E1, A2, E2.
      pose proof (af_le mc lf l c) as L1. pose proof (af_le mc lf l (c - T)%Z) as L2. unfold FftErr.af in L1, L2.
      assert (Su: Cmod (cval (cxf lf (c - T)%Z)) + Cmod (cval (cxf lf c)) <= b' q + d0 q) by (unfold b', d0; lra).
      destruct (ibfly_err mc tau Ht (cxf lf (c - T)) (cxf lf c) _ _ (Fl (c - T)%Z ltac:(lia)) (Fl c Hc) Fw Ew ltac:(rewrite W1; lra)) as [_ [F1 B1]].
      { apply Rle_trans with (1 := Su). apply Rle_trans with (1 := Tot). apply bpow_le. lia. }
      split; [exact F1|]. split.
      { unfold b'. rewrite Cmod_mult, W1, Rmult_1_r. eapply Rle_trans; [apply Cmod_minus|]. unfold aa in A1, A2. lra. }
      eapply Rle_trans; [apply (Cmod_tri3 _ (Cmult (Cminus (cval (cxf lf (c - T)%Z)) (cval (cxf lf c))) (wvi s q)))|].
      assert (kap * (Cmod (cval (cxf lf (c - T)%Z)) + Cmod (cval (cxf lf c))) <= kap * (b' q + d0 q)) by (apply Rmult_le_compat_l; lra).
      assert (Cmod (Cminus (Cmult (Cminus (cval (cxf lf (c - T)%Z)) (cval (cxf lf c))) (wvi s q)) (Cmult (Cminus (cxr l (c - T)) (cxr l c)) (wvi s q))) <= d0 q).
      { replace (Cminus (Cmult (Cminus (cval (cxf lf (c - T)%Z)) (cval (cxf lf c))) (wvi s q)) (Cmult (Cminus (cxr l (c - T)) (cxr l c)) (wvi s q)))
          with (Cmult (Cminus (Cminus (cval (cxf lf (c - T)%Z)) (cxr l (c - T))) (Cminus (cval (cxf lf c)) (cxr l c))) (wvi s q)) by ring.
        rewrite Cmod_mult, W1, Rmult_1_r.
        eapply Rle_trans; [apply Cmod_minus|]. unfold FftErr.ea in E1, E2. unfold d0. lra. }
      cbv zeta in B1. lra. }
  split; [intros c Hc; apply Pt; assumption|].
  exists b', (fun q => d0 q + kap * (b' q + d0 q) + mu).
  assert (Hb': forall i, 0 <= b' i) by (intro i; unfold b'; pose proof (Hb (2 * i)%Z); pose proof (Hb (2 * i + 1)%Z); lra).
  assert (Hd': forall i, 0 <= d0 i) by (intro i; unfold d0; pose proof (Hd (2 * i)%Z); pose proof (Hd (2 * i + 1)%Z); lra).
  rewrite Rb in SB, SD.
  change (rsum (2 ^ (h - Z.of_nat (S j))) b' <= B) in SB. change (rsum (2 ^ (h - Z.of_nat (S j))) d0 <= D) in SD.
  split; [exact Hb'|]. split.
  { intro i. specialize (Hb' i). specialize (Hd' i). assert (0 <= kap * (b' i + d0 i)) by (apply Rmult_le_pos; lra). lra. }
  split; [exact SB|]. split.
  - pose proof (p2 (h - Z.of_nat (S j)) ltac:(lia)) as Hp2.
    rewrite !rsum_add, rsum_mul_l, rsum_add, rsum_const by lia.
    assert (IZR (2 ^ (h - Z.of_nat (S j))) * mu <= IZR HF * mu).
    { apply Rmult_le_compat_r; [lra|]. apply IZR_le. apply Z.pow_le_mono_r; lia. }
    assert (kap * (rsum (2 ^ (h - Z.of_nat (S j))) b' + rsum (2 ^ (h - Z.of_nat (S j))) d0) <= kap * (B + D)).
    { apply Rmult_le_compat_l; [lra|]. clear - SB SD. lra. }
    clear - SD H H0. lra.
  - intros c Hc. rewrite E2T. split; apply Pt; assumption.
Qed.

Context (Hk : 1.5 * IZR h * kap <= / 100).

Lemma bwd_err lf l B D : 1 <= B -> 0 <= D <= / 50 * B -> B <= bp 600 -> lfin lf -> blk 0 lf l B D ->
  forall j, (Z.of_nat j <= h)%Z ->
  let lf' := bwd FA HF tf j (HF / 2) 1 lf in let l' := bwd RA HF tw j (HF / 2) 1 l in
  lfin lf' /\ blk j lf' l' B (D + 1.1 * INR j * kap * B).
Proof.
  intros HB HD Hbb Fl H0. induction j as [|j IH]; intros Hj.
  - cbn [bwd INR]. split; [assumption|]. replace (D + 1.1 * 0 * kap * B) with D by ring. exact H0.
  - destruct IH as [F K]; [lia|]. cbv zeta.
    rewrite (bwd_snoc FA HF h), (bwd_snoc RA HF h).
    set (s := (Z.to_nat h - S j)%nat). assert (Es: Z.of_nat s = (h - 1 - Z.of_nat j)%Z) by (unfold s; lia).
    assert (E1: (HF / 2 / 2 ^ Z.of_nat j = 2 ^ Z.of_nat s)%Z).
    { change (HF / 2)%Z with (HF / 2 ^ 1)%Z. rewrite !p2div by lia. f_equal. lia. }
    rewrite E1, Z.mul_1_l.
    pose proof (kap_pos tau Ht) as Kp. pose proof (kap_lo tau Ht) as Kl. pose proof (Hmu h Hh2) as Hm. pose proof u53_pos as Up.
    assert (Hs1: 0 <= INR j <= IZR h) by (split; [apply pos_INR|rewrite INR_IZR_INZ; apply IZR_le; lia]).
    assert (Ek: 1.1 * INR j * kap <= / 100).
    { apply Rle_trans with (2 := Hk). apply Rmult_le_compat_r; lra. }
    assert (Ek0: 0 <= 1.1 * INR j * kap) by (apply Rmult_le_pos; lra).
    assert (EB: 1.1 * INR j * kap * B <= / 100 * B) by (apply Rmult_le_compat_r; lra).
    assert (EB0: 0 <= 1.1 * INR j * kap * B) by (apply Rmult_le_pos; lra).
    assert (Bx: B + (D + 1.1 * INR j * kap * B) <= bp 700).
    { apply Rle_trans with (2 * bp 600); [lra|]. change 2 with (bp 1). rewrite <- bpow_plus. apply bpow_le. lia. }
    destruct (blk_stage j _ _ B (D + 1.1 * INR j * kap * B) ltac:(lia) F K Bx) as [F' K'].
    split; [exact F'|].
    destruct K' as (b & d & Hb & Hd & SB & SD & Hp). exists b, d. split; [assumption|]. split; [assumption|]. split; [assumption|]. split; [|exact Hp].
    apply Rle_trans with (1 := SD). rewrite S_INR.
    assert (kap * (B + (D + 1.1 * INR j * kap * B)) <= kap * (1.03 * B)) by (apply Rmult_le_compat_l; lra).
    assert (kap * 1 <= kap * B) by (apply Rmult_le_compat_l; lra).
    replace (1.1 * (INR j + 1) * kap * B) with (1.1 * INR j * kap * B + 1.1 * kap * B) by ring. lra.
Qed.

Lemma blk0 lf l B D : rsum HF (aa l) <= B -> rsum HF (ea lf l) <= D -> blk 0 lf l B D.
Proof.
  intros HB HD. exists (aa l), (ea lf l). split; [apply aa_pos|]. split; [apply ea_pos|].
  change (Z.of_nat 0) with 0%Z. rewrite Z.sub_0_r. split; [assumption|]. split; [assumption|].
  intros c Hc. change (2 ^ 0)%Z with 1%Z. rewrite Z.div_1_r. lra.
Qed.

Lemma cx_ifft R tw' l c : (0 <= c < HF)%Z -> cx R (ifft R HF h tw' l) c = cscale R (a_of R HF) (cx R (bwd R HF tw' (Z.to_nat h) (HF / 2) 1 l) c).
Proof.
  intro Hc. unfold ifft, stl. rewrite (cx_lay R HF (H_4 h Hh) _ c Hc).
  replace (Z.to_nat h) with (S (Z.to_nat (h - 1))) by lia. rewrite (bwd_snoc R HF h).
  assert (E1: (HF / 2 / 2 ^ Z.of_nat (Z.to_nat (h - 1)) = 1)%Z).
  { change (HF / 2)%Z with (HF / 2 ^ 1)%Z. rewrite !p2div by lia. rewrite Z2Nat.id by lia. replace (h - 1 - (h - 1))%Z with 0%Z by lia. reflexivity. }
  assert (E2: (1 * 2 ^ Z.of_nat (Z.to_nat (h - 1)) = HF / 2)%Z).
  { change (HF / 2)%Z with (HF / 2 ^ 1)%Z. rewrite p2div by lia. rewrite Z2Nat.id by lia. lia. }
  rewrite E1, E2. unfold istage, stl. rewrite (cx_lay R HF (H_4 h Hh) _ c Hc). unfold st. destruct (lowb _ c); reflexivity.
Qed.

(** the inverse transform, coefficientwise *)
Lemma ifft_err lf l B D : 1 <= B -> 0 <= D <= / 50 * B -> B <= bp 600 -> lfin lf -> rsum HF (aa l) <= B -> rsum HF (ea lf l) <= D ->
  let r := (D + (1.1 * IZR h * kap + 1.1 * u53) * B) / IZR HF + eta in
  forall c, (0 <= c < HF)%Z ->
  let zf := cxf (ifft FA HF h tf lf) c in let z := cxr (ifft RA HF h tw l) c in
  cfin zf /\ Rabs (val (fst zf) - fst z) <= r /\ Rabs (val (snd zf) - snd z) <= r /\ Cmod z <= B / IZR HF.
Proof.
  intros HB HD Hbb Fl SA SE r c Hc zf z.
  destruct (bwd_err lf l B D HB HD Hbb Fl (blk0 _ _ _ _ SA SE) (Z.to_nat h) ltac:(lia)) as [F (b & d & Hb & Hd & SB & SD & Hp)].
  rewrite INR_IZR_INZ in SD. rewrite !Z2Nat.id in * by lia. rewrite Z.sub_diag in SB, SD. change (2 ^ 0)%Z with 1%Z in SB, SD.
  assert (R1: forall g, rsum 1 g = g 0%Z) by (intro g; change 1%Z with (0 + 1)%Z; rewrite rsum_S, rsum_0 by lia; ring). rewrite R1 in SB, SD.
  specialize (Hp c Hc). specialize (F c Hc). rewrite ?Z2Nat.id in Hp by lia. rewrite (Z.div_small c)  in Hp by assumption. destruct Hp as [A E].
  set (yf := cxf (bwd FA HF tf (Z.to_nat h) (HF / 2) 1 lf) c) in *. set (y := cxr (bwd RA HF tw (Z.to_nat h) (HF / 2) 1 l) c).
  assert (Ezf: zf = cscale FA (f_of_Z HF) yf) by (unfold zf; rewrite cx_ifft by assumption; reflexivity).
  assert (Ez: z = cscale RA (IZR HF) y) by (exact (cx_ifft RA tw l c Hc)).
  assert (A': Cmod y <= B) by (apply Rle_trans with (2 := SB); exact A).
  assert (E': Cmod (Cminus (cval yf) y) <= D + 1.1 * IZR h * kap * B) by (apply Rle_trans with (2 := SD); exact E).
  pose proof (HF1 h Hh) as H1.
  destruct (f_of_Z_exact HF) as [Vz Fz].
  { rewrite Z.abs_eq by (pose proof (H_pos h Hh); lia). apply Z.pow_le_mono_r; lia. }
  assert (Hinv: 0 < / IZR HF <= 1) by (split; [apply Rinv_0_lt_compat; lra|rewrite <- Rinv_1; apply Rinv_le_contravar; lra]).
  pose proof u53_pos as Up. pose proof u53_small as Us. pose proof (kap_pos tau Ht) as Kp. pose proof eta_pos as Ep.
  set (D' := D + 1.1 * IZR h * kap * B) in *.
  assert (HD': D' <= / 10 * B).
  { assert (1.1 * IZR h * kap <= / 100) by (apply Rle_trans with (2 := Hk); apply Rmult_le_compat_r; [lra|]; pose proof (IZR_le 3 h Hh); lra).
    assert (1.1 * IZR h * kap * B <= / 100 * B) by (apply Rmult_le_compat_r; lra). unfold D'. lra. }
  assert (Comp: forall xf x, is_finite xf = true -> Rabs (val xf - x) <= D' -> Rabs x <= B ->
     is_finite (fdiv xf (f_of_Z HF)) = true /\ Rabs (val (fdiv xf (f_of_Z HF)) - x / IZR HF) <= r).
  { intros xf x Fx Ex Ax.
    assert (Hx: Rabs (val xf) <= 1.1 * B).
    { replace (val xf) with (x + (val xf - x)) by ring. eapply Rle_trans; [apply Rabs_triang|]. lra. }
    assert (Hq: Rabs (val xf / IZR HF) <= 1.1 * B * / IZR HF).
    { unfold Rdiv. rewrite Rabs_mult. rewrite (Rabs_pos_eq (/ IZR HF)) by lra. apply Rmult_le_compat_r; lra. }
    destruct (fdiv_err xf (f_of_Z HF) Fx) as [F1 E1].
    { rewrite Vz. lra. }
    { rewrite Vz. apply Rle_trans with (1 := Hq). apply Rle_trans with (1.1 * B * 1); [apply Rmult_le_compat_l; lra|].
      apply Rle_trans with (2 * bp 600); [lra|]. change 2 with (bp 1). rewrite <- bpow_plus. apply bpow_le. lia. }
    split; [exact F1|]. rewrite Vz in E1.
    replace (val (fdiv xf (f_of_Z HF)) - x / IZR HF) with ((val (fdiv xf (f_of_Z HF)) - val xf / IZR HF) + (val xf - x) * / IZR HF) by (field; lra).
    eapply Rle_trans; [apply Rabs_triang|].
    assert (Rabs ((val xf - x) * / IZR HF) <= D' * / IZR HF).
    { rewrite Rabs_mult. rewrite (Rabs_pos_eq (/ IZR HF)) by lra. apply Rmult_le_compat_r; lra. }
    assert (u53 * Rabs (val xf / IZR HF) <= u53 * (1.1 * B * / IZR HF)) by (apply Rmult_le_compat_l; lra).
    unfold r. replace ((D + (1.1 * IZR h * kap + 1.1 * u53) * B) / IZR HF) with (D' * / IZR HF + u53 * (1.1 * B * / IZR HF)) by (unfold D'; field; lra). lra. }
  destruct F as [Fr Fi].
  assert (Er: Rabs (val (fst yf) - fst y) <= D') by (apply Rle_trans with (2 := E'); exact (re_le (Cminus (cval yf) y))).
  assert (Ei: Rabs (val (snd yf) - snd y) <= D') by (apply Rle_trans with (2 := E'); exact (im_le (Cminus (cval yf) y))).
  destruct (Comp _ _ Fr Er ltac:(apply Rle_trans with (2 := A'); apply re_le)) as [G1 G2].
  destruct (Comp _ _ Fi Ei ltac:(apply Rle_trans with (2 := A'); apply im_le)) as [G3 G4].
  rewrite Ezf, Ez. split; [split; assumption|]. split; [exact G2|]. split; [exact G4|].
  replace (cscale RA (IZR HF) y) with (Cmult (RtoC (/ IZR HF)) y).
  - rewrite Cmod_mult, Cmod_R, Rabs_pos_eq by lra. unfold Rdiv. rewrite Rmult_comm. apply Rmult_le_compat_r; lra.
  - clearbody y. destruct y as [y1 y2]. unfold cscale, Cmult, RtoC. cbn [fst snd real_arith a_div].
    assert (Q: forall a b c d : R, a = c -> b = d -> (a, b) = (c, d) :> C) by congruence. apply Q; field; lra.
Qed.
End Bwd.
End Inv.

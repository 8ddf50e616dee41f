(** * What the transform computes over the real numbers

    The code of Fft.v over real numbers with exact roots of unity evaluates
    the folded polynomial p(c) + i p(c+H) at H-th roots of i; the inverse code
    inverts it; so products of transforms give products modulo X^N + 1. *)
From Coq Require Import ZArith List Lia ZifyBool Reals Lra.
From Flocq Require Import Core.
From Coquelicot Require Import Complex.
From Verif Require Import GoBase Spec GoFacts GoMem Poly Fft FftFacts FftOps FftTab CSum NegFacts Laws.
Local Open Scope Z_scope.

(** exact arithmetic; math.Round rounds halves away from zero *)
Definition real_arith : arith := {|
  AN := R; a_zero := 0%R; a_add := Rplus; a_sub := Rminus; a_mul := Rmult; a_div := Rdiv; a_neg := Ropp;
  a_mms := fun _ x y z w => (x * y - z * w)%R; a_mma := fun _ x y z w => (x * y + z * w)%R;
  a_acc := fun o x y => (o + x * y)%R; a_nac := fun o x y => (o - x * y)%R;
  a_of := IZR; a_round := fun x => IZR (ZnearestA x); a_int64 := Ztrunc; a_twopi := (2 * PI)%R;
  a_cis := fun x => (cos x, sin x)
|}.

(** ** roots of unity *)
Definition cisr (x : R) : C := (cos x, sin x).
Lemma cis_add x y : cisr (x + y) = Cmult (cisr x) (cisr y).
Proof. unfold cisr, Cmult. cbn [fst snd]. rewrite cos_plus, sin_plus. f_equal. ring. Qed.
Lemma cis_0 : cisr 0 = RtoC 1.
Proof. unfold cisr. rewrite cos_0, sin_0. reflexivity. Qed.
Lemma cis_opp x : Cmult (cisr x) (cisr (- x)) = RtoC 1.
Proof. rewrite <- cis_add. replace (x + - x)%R with 0%R by ring. apply cis_0. Qed.
Lemma cis_sub_PI x : cisr (x - PI) = Copp (cisr x).
Proof.
  unfold cisr, Copp. cbn [fst snd]. unfold Rminus. rewrite cos_plus, sin_plus, cos_neg, sin_neg, cos_PI, sin_PI. f_equal; ring.
Qed.
Lemma cis_PI2 : cisr (PI / 2) = Ci.
Proof. unfold cisr. rewrite cos_PI2, sin_PI2. reflexivity. Qed.

(** angle of factor i of the stage with 2^s groups *)
Definition tht (s : nat) (i : Z) : R := (2 * PI * IZR (1 - 4 * rv s i) / IZR (8 * 2 ^ Z.of_nat s))%R.
Definition wv (s : nat) (i : Z) : C := cisr (tht s i).
Definition wvi (s : nat) (i : Z) : C := cisr (- tht s i).
(** evaluation point of group i when there are 2^s groups *)
Definition cpt (s : nat) (i : Z) : C := cisr (2 * tht s i).

Lemma IZR_p2 s : IZR (2 ^ Z.of_nat s) <> 0%R.
Proof. apply Rgt_not_eq. apply IZR_lt. apply p2. lia. Qed.

Lemma cpt_0 : cpt 0 0 = Ci.
Proof. unfold cpt, tht. cbn [rv]. change (8 * 2 ^ Z.of_nat 0) with 8. rewrite <- cis_PI2. f_equal. change (1 - 4 * 0) with 1. field. Qed.
Lemma wv_sq s i : Cmult (wv s i) (wv s i) = cpt s i.
Proof. unfold wv, cpt. rewrite <- cis_add. f_equal. ring. Qed.
Lemma tht_even s i : (2 * tht (S s) (2 * i))%R = tht s i.
Proof.
  unfold tht. rewrite rv_even. rewrite Nat2Z.inj_succ, Z.pow_succ_r by lia. rewrite !mult_IZR. pose proof (IZR_p2 s). field. assumption.
Qed.
Lemma tht_odd s i : (2 * tht (S s) (2 * i + 1))%R = (tht s i - PI)%R.
Proof.
  unfold tht. rewrite rv_odd. rewrite Nat2Z.inj_succ, Z.pow_succ_r by lia.
  rewrite !mult_IZR, !minus_IZR, !mult_IZR, plus_IZR. pose proof (IZR_p2 s). field. assumption.
Qed.
Lemma cpt_even s i : cpt (S s) (2 * i) = wv s i.
Proof. unfold cpt. rewrite tht_even. reflexivity. Qed.
Lemma cpt_odd s i : cpt (S s) (2 * i + 1) = Copp (wv s i).
Proof. unfold cpt. rewrite tht_odd. apply cis_sub_PI. Qed.
Lemma wv_wvi s i : Cmult (wv s i) (wvi s i) = RtoC 1.
Proof. apply cis_opp. Qed.

(** the evaluation points are H-th roots of i *)
Lemma cpt_root s i : 0 <= i < 2 ^ Z.of_nat s -> cpow (cpt s i) (2 ^ Z.of_nat s) = Ci.
Proof.
  revert i. induction s as [|s IH]; intros i Hi.
  - change (2 ^ Z.of_nat 0) with 1 in *. assert (i = 0) by lia. subst. rewrite cpow_1. apply cpt_0.
  - rewrite Nat2Z.inj_succ, Z.pow_succ_r in * by lia. rewrite cpow_double by (pose proof (p2 (Z.of_nat s) ltac:(lia)); lia).
    pose proof (Z.div_mod i 2 ltac:(lia)) as D. pose proof (Z.mod_pos_bound i 2 ltac:(lia)).
    set (b := i / 2) in *. rewrite <- (IH b) by lia. f_equal. rewrite <- (wv_sq s b).
    assert (i = 2 * b \/ i = 2 * b + 1) as Ei by lia. destruct Ei as [Ei|Ei]; rewrite Ei.
    + rewrite cpt_even. reflexivity.
    + rewrite cpt_odd. ring.
Qed.

(** value of f(0) + f(1) z + ... + f(n-1) z^(n-1) *)
Definition evalc (n : Z) (z : C) (f : Z -> C) : C := csum n (fun q => Cmult (f q) (cpow z q)).

(** complex number c of a list *)
Definition cxr (l : list R) (c : Z) : C := cx real_arith l c.

Section Real.
Context (h : Z) (Hh : 3 <= h).
Notation HF := (2 ^ h).
Notation RA := real_arith.
Lemma H_pos : 0 < HF. Proof. apply p2. lia. Qed.
Lemma H_4 : HF mod 4 = 0. Proof. apply p2mul4. lia. Qed.

(** tables holding the exact roots *)
Definition exact_tw (tw : list C) : Prop :=
  HF - 1 <= zlen tw /\ forall s i, (Z.of_nat s < h) -> 0 <= i < 2 ^ Z.of_nat s -> twz RA tw (2 ^ Z.of_nat s - 1 + i) = wv s i.
Definition exact_twi (twInv : list C) : Prop :=
  HF - 1 <= zlen twInv /\ forall s i, (Z.of_nat s < h) -> 0 <= i < 2 ^ Z.of_nat s -> twz RA twInv (HF - 2 * 2 ^ Z.of_nat s + i) = wvi s i.

Context (tw twInv : list C) (Htw : exact_tw tw) (Htwi : exact_twi twInv).

Definition fst_ (s : nat) (l : list R) : list R := fwd RA HF tw s 1 (HF / 2) l.

Lemma fst_S s l : Z.of_nat s < h -> fst_ (S s) l = fstage RA HF tw (2 ^ Z.of_nat s) (2 ^ (h - 1 - Z.of_nat s)) (fst_ s l).
Proof.
  intro Hs. unfold fst_. rewrite fwd_snoc. f_equal; [lia|].
  change (HF / 2) with (HF / 2 ^ 1). rewrite !p2div by lia. reflexivity.
Qed.

Lemma cx_fstage s l c : Z.of_nat s < h -> 0 <= c < HF ->
  let T := 2 ^ (h - 1 - Z.of_nat s) in
  cxr (fstage RA HF tw (2 ^ Z.of_nat s) T l) c =
  if lowb T c then Cplus (cxr l c) (Cmult (cxr l (c + T)) (wv s (c / (2 * T))))
  else Cminus (cxr l (c - T)) (Cmult (cxr l c) (wv s (c / (2 * T)))).
Proof.
  intros Hs Hc T. unfold cxr at 1. unfold fstage, stl. rewrite cx_lay by (try apply H_4; assumption).
  assert (Ew: twz RA tw (2 ^ Z.of_nat s - 1 + c / (2 * T)) = wv s (c / (2 * T))).
  { assert (0 < T) by (apply p2; lia).
    apply Htw; [assumption|]. split; [apply Z.div_pos; lia|]. apply Z.div_lt_upper_bound; [lia|].
    unfold T. rewrite <- Z.mul_assoc, <- p2split by lia. rewrite <- p2S by lia.
    replace (h - 1 - Z.of_nat s + Z.of_nat s + 1) with h by lia. lia. }
  unfold st. cbv beta. rewrite Ew. destruct (lowb T c); reflexivity.
Qed.

(** after s stages the groups hold partial evaluations *)
Lemma fwd_eval s l : Z.of_nat s <= h -> zlen l = 2 * HF ->
  forall i r, 0 <= i < 2 ^ Z.of_nat s -> 0 <= r < 2 ^ (h - Z.of_nat s) ->
  cxr (fst_ s l) (i * 2 ^ (h - Z.of_nat s) + r) =
  evalc (2 ^ Z.of_nat s) (cpt s i) (fun q => cxr l (q * 2 ^ (h - Z.of_nat s) + r)).
Proof.
  intros Hs Hl. induction s as [|s IH]; intros i r Hi Hr.
  - change (2 ^ Z.of_nat 0) with 1 in *. unfold evalc. change (csum 1) with (csum (0 + 1)). rewrite csum_S, csum_0, cpow_0 by lia.
    assert (i = 0) by lia. subst i. unfold fst_. cbn [fwd]. rewrite !Z.mul_0_l, !Z.add_0_l. ring.
  - rewrite fst_S by lia. set (T := 2 ^ (h - 1 - Z.of_nat s)).
    assert (ET: 2 ^ (h - Z.of_nat (S s)) = T) by (unfold T; f_equal; lia). rewrite ET in *.
    assert (E2T: 2 ^ (h - Z.of_nat s) = 2 * T) by (unfold T; rewrite <- p2S by lia; f_equal; lia).
    assert (HT: 0 < T) by (apply p2; lia).
    assert (Em: 2 ^ Z.of_nat (S s) = 2 * 2 ^ Z.of_nat s) by (rewrite Nat2Z.inj_succ, Z.pow_succ_r by lia; reflexivity).
    assert (EHm: HF = 2 ^ Z.of_nat s * (2 * T)) by (unfold T; rewrite <- p2S, <- p2split by lia; f_equal; lia).
    rewrite Em in Hi.
    pose proof (Z.div_mod i 2 ltac:(lia)) as D. pose proof (Z.mod_pos_bound i 2 ltac:(lia)).
    set (b := i / 2) in *. assert (Hb: 0 <= b < 2 ^ Z.of_nat s) by lia.
    assert (Hbm: 2 * T * (b + 1) <= HF).
    { rewrite EHm, Z.mul_comm. apply Z.mul_le_mono_nonneg_r; lia. }
    specialize (IH ltac:(lia) b). rewrite E2T in IH.
    rewrite Em. unfold evalc in *. rewrite csum_pairs by lia.
    assert (i mod 2 = 0 \/ i mod 2 = 1) as [E|E] by lia.
    + assert (Ei: i * T + r = b * (2 * T) + r) by (rewrite D, E; ring). rewrite Ei.
      assert (Elow: lowb T (b * (2 * T) + r) = true).
      { unfold lowb. rewrite Z.add_comm, Z_mod_plus_full, Z.mod_small by lia. lia. }
      assert (Ediv: (b * (2 * T) + r) / (2 * T) = b) by (rewrite Z.div_add_l, (Z.div_small r) by lia; lia).
      unfold T. rewrite cx_fstage by lia. fold T. rewrite Elow, Ediv.
      rewrite <- Z.add_assoc. rewrite !IH by lia.
      rewrite <- csum_mul_r, <- csum_add. apply csum_ext. intros q Hq.
      replace i with (2 * b) by lia. rewrite cpt_even. rewrite cpow_S, cpow_double, wv_sq by lia.
      replace (2 * q * T + r) with (q * (2 * T) + r) by ring. replace ((2 * q + 1) * T + r) with (q * (2 * T) + (r + T)) by ring. ring.
    + assert (Ei: i * T + r = b * (2 * T) + (r + T)) by (rewrite D, E; ring). rewrite Ei.
      assert (Elow: lowb T (b * (2 * T) + (r + T)) = false).
      { unfold lowb. rewrite Z.add_comm, Z_mod_plus_full, Z.mod_small by lia. lia. }
      assert (Ediv: (b * (2 * T) + (r + T)) / (2 * T) = b) by (rewrite Z.div_add_l, (Z.div_small (r + T)) by lia; lia).
      unfold T. rewrite cx_fstage by lia. fold T. rewrite Elow, Ediv.
      replace (b * (2 * T) + (r + T) - T) with (b * (2 * T) + r) by lia. rewrite !IH by lia.
      replace (csum (2 ^ Z.of_nat s) (fun q => Cplus (Cmult (cxr l (2 * q * T + r)) (cpow (cpt (S s) i) (2 * q)))
                (Cmult (cxr l ((2 * q + 1) * T + r)) (cpow (cpt (S s) i) (2 * q + 1)))))
      with (csum (2 ^ Z.of_nat s) (fun q => Cplus (Cmult (cxr l (q * (2 * T) + r)) (cpow (cpt s b) q))
                (Cmult (Cmult (cxr l (q * (2 * T) + (r + T))) (cpow (cpt s b) q)) (Copp (wv s b))))).
      * rewrite csum_add, csum_mul_r. ring.
      * apply csum_ext. intros q Hq. replace i with (2 * b + 1) by lia. rewrite cpt_odd. rewrite cpow_S, cpow_double by lia.
        replace (Cmult (Copp (wv s b)) (Copp (wv s b))) with (cpt s b) by (rewrite <- wv_sq; ring).
        replace (2 * q * T + r) with (q * (2 * T) + r) by ring. replace ((2 * q + 1) * T + r) with (q * (2 * T) + (r + T)) by ring. ring.
Qed.

Notation hn := (Z.to_nat h).
Definition zpt (i : Z) : C := cpt hn i.
Lemma zpt_root i : 0 <= i < HF -> cpow (zpt i) HF = Ci.
Proof. intro Hi. pose proof (cpt_root hn i) as E. rewrite Z2Nat.id in E by lia. apply E. assumption. Qed.

(** the transform evaluates at the HF points [zpt] *)
Lemma fft_eval l i : zlen l = 2 * HF -> 0 <= i < HF -> cxr (fft RA HF h tw l) i = evalc HF (zpt i) (cxr l).
Proof.
  intros Hl Hi. pose proof (fwd_eval hn l ltac:(lia) Hl i 0) as E. rewrite Z2Nat.id in E by lia.
  replace (h - h) with 0 in E by lia. change (2 ^ 0) with 1 in E. specialize (E Hi ltac:(lia)).
  unfold fst_ in E. unfold fft. replace (i * 1 + 0) with i in E by lia. rewrite E. unfold evalc. apply csum_ext.
  intros q Hq. replace (q * 1 + 0) with q by lia. reflexivity.
Qed.

(** ** inverse *)
Lemma cx_istage s l c : Z.of_nat s < h -> 0 <= c < HF ->
  let T := 2 ^ (h - 1 - Z.of_nat s) in
  cxr (istage RA HF twInv (2 ^ Z.of_nat s) T l) c =
  if lowb T c then Cplus (cxr l c) (cxr l (c + T))
  else Cmult (Cminus (cxr l (c - T)) (cxr l c)) (wvi s (c / (2 * T))).
Proof.
  intros Hs Hc T. unfold cxr at 1. unfold istage, stl. rewrite cx_lay by (try apply H_4; assumption).
  assert (Ew: twz RA twInv (HF - 2 * 2 ^ Z.of_nat s + c / (2 * T)) = wvi s (c / (2 * T))).
  { assert (0 < T) by (apply p2; lia).
    apply Htwi; [assumption|]. split; [apply Z.div_pos; lia|]. apply Z.div_lt_upper_bound; [lia|].
    unfold T. rewrite <- Z.mul_assoc, <- p2split by lia. rewrite <- p2S by lia.
    replace (h - 1 - Z.of_nat s + Z.of_nat s + 1) with h by lia. lia. }
  unfold st. cbv beta. rewrite Ew. destruct (lowb T c); reflexivity.
Qed.

(** an inverse stage undoes a forward stage and doubles *)
Lemma istage_fstage s x l lam : Z.of_nat s < h ->
  let m := 2 ^ Z.of_nat s in let T := 2 ^ (h - 1 - Z.of_nat s) in
  (forall c, 0 <= c < HF -> cxr x c = Cmult lam (cxr (fstage RA HF tw m T l) c)) ->
  forall c, 0 <= c < HF -> cxr (istage RA HF twInv m T x) c = Cmult (Cmult lam (RtoC 2)) (cxr l c).
Proof.
  intros Hs m T Hx c Hc. unfold m, T. rewrite cx_istage by assumption. fold T.
  assert (HT: 0 < T) by (apply p2; lia).
  assert (H2T: HF mod (2 * T) = 0).
  { unfold T. rewrite <- p2S by lia. replace h with (Z.of_nat s + (h - 1 - Z.of_nat s + 1)) at 1 by lia. rewrite p2split by lia. apply Z.mod_mul.
    pose proof (p2 (h - 1 - Z.of_nat s + 1) ltac:(lia)). lia. }
  pose proof (wv_wvi s (c / (2 * T))) as Ew.
  destruct (lowb T c) eqn:El.
  - destruct (low_hi HF H_pos H_4 T HT H2T c El) as [El' Ed].
    assert (Hc': 0 <= c + T < HF) by (pose proof (low_range HF H_pos H_4 T HT H2T c Hc El); lia).
    rewrite !Hx by assumption. unfold m, T. rewrite !cx_fstage by assumption. fold T. rewrite El, El', Ed.
    replace (c + T - T) with c by lia. 
    replace (RtoC 2) with (Cplus (RtoC 1) (RtoC 1)) by (rewrite <- RtoC_plus; f_equal; ring). ring.
  - destruct (hi_low HF H_pos H_4 T HT H2T c El) as [El' Ed].
    assert (Hc': 0 <= c - T < HF) by (pose proof (hi_range HF H_pos H_4 T HT H2T c (proj1 Hc) El); lia).
    rewrite !Hx by assumption. unfold m, T. rewrite !cx_fstage by assumption. fold T. rewrite El, El', Ed.
    replace (c - T + T) with c by lia.
    replace (RtoC 2) with (Cplus (RtoC 1) (RtoC 1)) by (rewrite <- RtoC_plus; f_equal; ring).
    transitivity (Cmult (Cmult lam (Cplus (RtoC 1) (RtoC 1))) (Cmult (cxr l c) (Cmult (wv s (c / (2 * T))) (wvi s (c / (2 * T)))))); [ring|].
    rewrite Ew. ring.
Qed.

Lemma fst_full l : fst_ hn l = fft RA HF h tw l.
Proof. reflexivity. Qed.

Lemma RtoC_pow2 j : RtoC (IZR (2 ^ Z.of_nat (S j))) = Cmult (RtoC (IZR (2 ^ Z.of_nat j))) (RtoC 2).
Proof. rewrite Nat2Z.inj_succ, Z.pow_succ_r by lia. rewrite mult_IZR, RtoC_mult. ring. Qed.

Lemma bwd_inv x l : zlen l = 2 * HF -> (forall c, 0 <= c < HF -> cxr x c = cxr (fst_ hn l) c) ->
  forall j, Z.of_nat j <= h - 1 -> forall c, 0 <= c < HF ->
  cxr (bwd RA HF twInv j (HF / 2) 1 x) c = Cmult (RtoC (IZR (2 ^ Z.of_nat j))) (cxr (fst_ (hn - j) l) c).
Proof.
  intros Hl Hx. induction j as [|j IH]; intros Hj c Hc.
  - cbn [bwd]. change (2 ^ Z.of_nat 0) with 1. rewrite Nat.sub_0_r. rewrite Hx by assumption. ring.
  - rewrite (bwd_snoc RA HF h). set (s := (hn - S j)%nat). assert (Es: Z.of_nat s = h - 1 - Z.of_nat j) by lia.
    assert (E1: HF / 2 / 2 ^ Z.of_nat j = 2 ^ Z.of_nat s).
    { change (HF / 2) with (HF / 2 ^ 1). rewrite !p2div by lia. f_equal. lia. }
    assert (E2: 1 * 2 ^ Z.of_nat j = 2 ^ (h - 1 - Z.of_nat s)) by (rewrite Z.mul_1_l; f_equal; lia).
    rewrite E1, E2. rewrite RtoC_pow2.
    apply (istage_fstage s _ (fst_ s l)); [lia| |assumption]. intros c' Hc'. rewrite IH by (assumption || lia).
    replace (hn - j)%nat with (S s) by lia. rewrite fst_S by lia. reflexivity.
Qed.

(** the inverse code inverts the forward code *)
Lemma ifft_fft x l : zlen l = 2 * HF -> (forall c, 0 <= c < HF -> cxr x c = cxr (fft RA HF h tw l) c) ->
  forall c, 0 <= c < HF -> cxr (ifft RA HF h twInv x) c = cxr l c.
Proof.
  intros Hl Hx c Hc. unfold ifft. set (y := bwd RA HF twInv (Z.to_nat (h - 1)) (HF / 2) 1 x).
  assert (Hy: forall c, 0 <= c < HF -> cxr y c = Cmult (RtoC (IZR (2 ^ (h - 1)))) (cxr (fstage RA HF tw (2 ^ Z.of_nat 0) (2 ^ (h - 1 - Z.of_nat 0)) l) c)).
  { intros c' Hc'. unfold y. rewrite (bwd_inv x l Hl Hx) by lia. rewrite Z2Nat.id by lia.
    replace (hn - Z.to_nat (h - 1))%nat with 1%nat by lia. rewrite fst_S by lia. reflexivity. }
  pose proof (istage_fstage 0 y l (RtoC (IZR (2 ^ (h - 1)))) ltac:(lia) Hy c Hc) as E.
  assert (ES: cxr (stl RA HF (ibfly_s RA (a_of RA HF)) (HF / 2) (fun i => twz RA twInv (HF - 2 + i)) y) c =
              (fst (cxr (istage RA HF twInv (2 ^ Z.of_nat 0) (2 ^ (h - 1 - Z.of_nat 0)) y) c) / IZR HF,
               snd (cxr (istage RA HF twInv (2 ^ Z.of_nat 0) (2 ^ (h - 1 - Z.of_nat 0)) y) c) / IZR HF)%R).
  { unfold cxr, istage, stl. rewrite !cx_lay by (try apply H_4; assumption).
    change (2 * 2 ^ Z.of_nat 0) with 2. replace (HF / 2) with (2 ^ (h - 1 - Z.of_nat 0)) by (change (HF / 2) with (HF / 2 ^ 1); rewrite p2div by lia; f_equal; lia).
    unfold st, ibfly_s. cbv beta. destruct (lowb _ c); reflexivity. }
  rewrite ES, E.
  assert (P: IZR HF = (IZR (2 ^ (h - 1)) * 2)%R).
  { replace h with (h - 1 + 1) at 1 by lia. rewrite p2S by lia. rewrite mult_IZR. ring. }
  assert (N0: IZR (2 ^ (h - 1)) <> 0%R) by (apply Rgt_not_eq, IZR_lt, p2; lia).
  rewrite P. destruct (cxr l c) as [u v]. unfold Cmult, RtoC. cbn [fst snd]. f_equal; field; assumption.
Qed.

(** ** folding and products *)
Notation NF := (2 * 2 ^ h).
Definition fphi (p : Z -> Z) (k : Z) : C := (IZR (ext NF p k), IZR (ext NF p (k + HF))).

Lemma fphi_shift p k : fphi p (k - HF) = Cmult Ci (fphi p k).
Proof.
  unfold fphi, Ci, Cmult. cbn [fst snd].
  replace (k - HF + HF) with k by lia.
  pose proof (ext_antiper NF p (k - HF) ltac:(pose proof H_pos; lia)) as E. replace (k - HF + NF) with (k + HF) in E by lia.
  replace (ext NF p (k - HF)) with (- ext NF p (k + HF)) by lia. rewrite opp_IZR. f_equal; ring.
Qed.

Lemma eval_shift z g : cpow z HF = Ci -> (forall k, g (k - HF) = Cmult Ci (g k)) -> forall a, 0 <= a ->
  evalc HF z (fun c => g (c - a)) = Cmult (cpow z a) (evalc HF z g).
Proof.
  intros Hz Hg. unfold evalc.
  apply (zsum_ind (fun a => csum HF (fun q => Cmult (g (q - a)) (cpow z q)) = Cmult (cpow z a) (csum HF (fun q => Cmult (g q) (cpow z q))))).
  - rewrite cpow_0. transitivity (csum HF (fun q => Cmult (g q) (cpow z q))); [|ring]. apply csum_ext. intros q Hq. rewrite Z.sub_0_r. reflexivity.
  - intros a Ha IH. rewrite cpow_S by assumption.
    transitivity (Cmult z (csum HF (fun q => Cmult (g (q - a)) (cpow z q)))); [|rewrite IH; ring].
    assert (EH: HF = HF - 1 + 1) by lia. pose proof H_pos.
    rewrite csum_first1 by assumption.
    rewrite (csum_ext (HF - 1) _ (fun i => Cmult z (Cmult (g (i - a)) (cpow z i)))).
    2:{ intros i Hi. replace (i + 1 - (a + 1)) with (i - a) by lia. rewrite cpow_S by lia. ring. }
    rewrite csum_mul_l.
    replace (csum HF (fun q => Cmult (g (q - a)) (cpow z q))) with (Cplus (csum (HF - 1) (fun q => Cmult (g (q - a)) (cpow z q))) (Cmult (g (HF - 1 - a)) (cpow z (HF - 1)))).
    + rewrite cpow_0.
      assert (E1: Cmult (cpow z (HF - 1)) z = Ci) by (rewrite <- cpow_S by lia; rewrite <- EH; assumption).
      replace (0 - (a + 1)) with (HF - 1 - a - HF) by lia. rewrite Hg. rewrite <- E1. ring.
    + symmetry. apply csum_last1. assumption.
Qed.

Lemma csum_pair n f g : csum n (fun i => (IZR (f i), IZR (g i))) = (IZR (zsum n f), IZR (zsum n g)).
Proof.
  revert n. apply csum_neg.
  - intros n Hn. rewrite csum_0 by assumption. rewrite !zsum_0 by assumption. reflexivity.
  - intros n Hn IH. rewrite csum_S by assumption. rewrite IH. rewrite !zsum_S by assumption. rewrite !plus_IZR. reflexivity.
Qed.

Lemma fphi_neg p q c : fphi (negacyclic NF p q) c = csum HF (fun a => Cmult (fphi p a) (fphi q (c - a))).
Proof.
  pose proof H_pos as HP. unfold fphi at 1. rewrite !neg_ext by lia. unfold conv.
  assert (Esp: forall F, zsum NF F = zsum HF F + zsum HF (fun i => F (HF + i))).
  { intro F. replace NF with (HF + HF) by lia. apply zsum_split; lia. }
  rewrite !Esp. rewrite <- !zsum_add. rewrite <- csum_pair.
  apply csum_ext. intros a Ha. unfold fphi, Cmult. cbn [fst snd].
  assert (Ep: forall x, ext NF q (x - HF) = - ext NF q (x + HF)).
  { intro x. pose proof (ext_antiper NF q (x - HF) ltac:(lia)) as E. replace (x - HF + NF) with (x + HF) in E by lia. lia. }
  replace (c - (HF + a)) with (c - a - HF) by lia. rewrite Ep.
  replace (c + HF - a) with (c - a + HF) by lia. replace (c + HF - (HF + a)) with (c - a) by lia.
  replace (HF + a) with (a + HF) by lia.
  rewrite !plus_IZR, !mult_IZR, opp_IZR. f_equal; ring.
Qed.

Lemma eval_mul z p q : cpow z HF = Ci ->
  evalc HF z (fphi (negacyclic NF p q)) = Cmult (evalc HF z (fphi p)) (evalc HF z (fphi q)).
Proof.
  intro Hz. unfold evalc at 1.
  rewrite (csum_ext HF _ (fun c => csum HF (fun a => Cmult (fphi p a) (Cmult (fphi q (c - a)) (cpow z c))))).
  2:{ intros c Hc. rewrite fphi_neg. rewrite <- csum_mul_r. apply csum_ext. intros; ring. }
  rewrite csum_swap.
  rewrite (csum_ext HF _ (fun a => Cmult (Cmult (fphi p a) (cpow z a)) (evalc HF z (fphi q)))).
  2:{ intros a Ha. rewrite csum_mul_l.
      pose proof (eval_shift z (fphi q) Hz (fphi_shift q) a ltac:(lia)) as E. unfold evalc in E at 1. rewrite E. ring. }
  rewrite csum_mul_r. reflexivity.
Qed.

Lemma fphi_sum n (t : Z -> Z -> Z) c : csum n (fun k => fphi (t k) c) = fphi (fun i => zsum n (fun k => t k i)) c.
Proof.
  unfold fphi. rewrite csum_pair.
  assert (E: forall x, zsum n (fun k => ext NF (t k) x) = ext NF (fun i => zsum n (fun k => t k i)) x).
  { intro x. unfold ext. destruct (Z.even _); [reflexivity|]. apply zsum_opp. }
  rewrite !E. reflexivity.
Qed.

Lemma evalc_sum n z t : csum n (fun k => evalc HF z (fphi (t k))) = evalc HF z (fphi (fun i => zsum n (fun k => t k i))).
Proof.
  unfold evalc. rewrite csum_swap. apply csum_ext. intros c Hc. rewrite csum_mul_r. rewrite fphi_sum. reflexivity.
Qed.

(** ** the operations *)
Notation LR := (fft_laws RA HF H_pos H_4 h Hh eq_refl tw twInv (proj1 Htw) (proj1 Htwi)).
Definition sgn (p : list Z) (i : Z) : Z := int32 (zn p i).

Lemma cxr_cvt p c : 0 <= c < HF -> cxr (cvt RA HF p) c = fphi (sgn p) c.
Proof.
  intro Hc. unfold cxr, cvt. rewrite cx_lay by (try apply H_4; assumption). unfold fphi. rewrite !ext_small by lia. reflexivity.
Qed.

Lemma fft_phi p i : 0 <= i < HF -> cxr (fft RA HF h tw (cvt RA HF p)) i = evalc HF (zpt i) (fphi (sgn p)).
Proof.
  intro Hi. rewrite fft_eval by (first [assumption | apply zlen_lay; [apply H_pos|apply H_4]]).
  unfold evalc. apply csum_ext. intros q Hq. rewrite cxr_cvt by assumption. reflexivity.
Qed.

Lemma cxr_lay f c : 0 <= c < HF -> cxr (lay RA HF f) c = f c.
Proof. intro Hc. exact (cx_lay RA HF H_4 f c Hc). Qed.

(** the Fourier accumulator after K multiply-adds is the transform of the sum of products *)
Lemma Fsum_phi K d r : 0 <= K -> forall i, 0 <= i < HF ->
  cxr (Fsum LR K (fun k => Fof LR (d k)) (fun k => Fof LR (r k))) i =
  evalc HF (zpt i) (fphi (fun j => zsum K (fun k => negacyclic NF (sgn (d k)) (sgn (r k)) j))).
Proof.
  intros HK i Hi. rewrite <- (evalc_sum K _ (fun k => negacyclic NF (sgn (d k)) (sgn (r k)))).
  unfold Fsum, csum. induction (Z.to_nat K) as [|n IH]; cbn [Fsum_nat csumf].
  - unfold cxr, FftFacts.cx. cbn [Fzero fft_laws]. rewrite repeat_tab.
    pose proof (pos_range HF H_4 i Hi) as Hp. rewrite !znd_tab by lia. reflexivity.
  - rewrite <- IH. rewrite eval_mul by (apply zpt_root; assumption). rewrite <- !fft_phi by assumption.
    cbn [Fma fft_laws Fof]. unfold elw. rewrite cxr_lay by assumption. reflexivity.
Qed.

Lemma modQ_real (t : Z) : w32 (a_int64 RA (modQ RA (Q32 RA) (IZR t))) = w32 t.
Proof.
  unfold modQ. cbn [a_round a_nac a_div real_arith a_int64]. unfold Q32. cbn [a_of real_arith].
  rewrite <- mult_IZR, <- minus_IZR. rewrite Ztrunc_IZR. rewrite Znearest_imp with (n := t - two32 * ZnearestA (IZR t / IZR two32)).
  - unfold w32. rewrite <- Z_mod_plus_full with (b := ZnearestA (IZR t / IZR two32)). f_equal. ring.
  - rewrite Rminus_diag_eq by reflexivity. rewrite Rabs_R0. lra.
Qed.

Lemma Fto_phi (x : list R) t : (forall i, 0 <= i < HF -> cxr x i = evalc HF (zpt i) (fphi t)) ->
  forall k, 0 <= k < NF -> zn (Fto_list RA HF h twInv x) k = w32 (t k).
Proof.
  intros Hx k Hk. pose proof H_pos as HP. unfold Fto_list. rewrite zn_tab by assumption.
  set (l := lay RA HF (fun c => fphi t c)).
  assert (Ll: zlen l = 2 * HF) by (apply zlen_lay; [apply H_pos|apply H_4]).
  assert (Hc: forall c, 0 <= c < HF -> cxr (ifft RA HF h twInv x) c = fphi t c).
  { intros c Hc. rewrite (ifft_fft x l Ll); [apply cxr_lay; assumption| |assumption].
    intros c' Hc'. rewrite Hx by assumption. rewrite fft_eval by assumption. unfold evalc. apply csum_ext.
    intros q Hq. unfold l. rewrite cxr_lay by assumption. reflexivity. }
  set (y := ifft RA HF h twInv x) in *.
  assert (Ly: zlen y = 2 * HF) by (apply zlen_stl; [apply H_pos|apply H_4]).
  assert (Em: forall p, 0 <= p < 2 * HF -> znd 0%R (map (modQ RA (Q32 RA)) y) p = modQ RA (Q32 RA) (znd 0%R y p)).
  { intros p Hp. apply (znd_map (modQ RA (Q32 RA)) 0%R). lia. }
  rewrite <- (modQ_real (t k)). do 2 f_equal. unfold ucoef. destruct (Z.ltb_spec k HF).
  - pose proof (pos_range HF H_4 k ltac:(lia)). specialize (Hc k ltac:(lia)). unfold cxr in Hc.
    unfold FftFacts.cx in *. cbn [fst a_zero real_arith] in *. rewrite Em by lia. f_equal.
    apply (f_equal fst) in Hc. cbn [fst] in Hc. unfold fphi in Hc. cbn [fst] in Hc. rewrite ext_small in Hc by lia. exact Hc.
  - pose proof (pos_range HF H_4 (k - HF) ltac:(lia)). specialize (Hc (k - HF) ltac:(lia)). unfold cxr in Hc.
    unfold FftFacts.cx in *. cbn [snd a_zero real_arith] in *. rewrite Em by lia. f_equal.
    apply (f_equal snd) in Hc. cbn [snd] in Hc. unfold fphi in Hc. cbn [snd] in Hc.
    rewrite ext_small in Hc by lia. replace (k - HF + HF) with k in Hc by lia. exact Hc.
Qed.

Lemma sgn_eqm p i : sgn p i == zn p i.
Proof. apply eqm_int32. Qed.

(** with exact roots the accumulated products are exact *)
Lemma real_acc K d r : 0 <= K -> forall k, 0 <= k < NF ->
  zn (Fto LR (Fsum LR K (fun i => Fof LR (d i)) (fun i => Fof LR (r i)))) k =
  w32 (zsum K (fun i => negacyclic NF (zn (d i)) (zn (r i)) k)).
Proof.
  intros HK k Hk. cbn [Fto fft_laws].
  rewrite (Fto_phi _ (fun j => zsum K (fun i => negacyclic NF (sgn (d i)) (sgn (r i)) j))); [|apply Fsum_phi; assumption|assumption].
  apply w32_eqm. apply zsum_eqm. intros i Hi. apply neg_eqm_args; [assumption| |]; intros; apply sgn_eqm.
Qed.

Lemma real_mul a b : forall k, 0 <= k < NF ->
  zn (Fto LR (Fmul LR (Fof LR a) (Fof LR b))) k = w32 (negacyclic NF (zn a) (zn b) k).
Proof.
  intros k Hk. cbn [Fto fft_laws].
  rewrite (Fto_phi _ (negacyclic NF (sgn a) (sgn b))); [| |assumption].
  - apply w32_eqm. apply neg_eqm_args; [assumption| |]; intros; apply sgn_eqm.
  - intros i Hi. cbn [Fmul fft_laws Fof]. unfold elw. rewrite cxr_lay by assumption.
    rewrite eval_mul by (apply zpt_root; assumption). rewrite <- !fft_phi by assumption. reflexivity.
Qed.
End Real.

(** ** the generated tables are the exact roots *)
Section Tables.
Context (h : Z) (Hh : 3 <= h).
Notation HF := (2 ^ h).
Notation RA := real_arith.

Lemma angle_sum s i : Z.of_nat s < h -> 0 <= i < 2 ^ Z.of_nat s ->
  (- (2 * PI) * IZR (rv (Z.to_nat (h - 1)) i) / IZR HF + 2 * PI * IZR (2 ^ (h - 1 - Z.of_nat s)) / IZR (4 * HF))%R = tht s i.
Proof.
  intros Hs Hi. set (e := Z.to_nat (h - 1 - Z.of_nat s)).
  replace (Z.to_nat (h - 1)) with (s + e)%nat by lia. rewrite rv_more by assumption.
  replace (h - 1 - Z.of_nat s) with (Z.of_nat e) by lia.
  replace HF with (2 * (2 ^ Z.of_nat s * 2 ^ Z.of_nat e)) by (rewrite <- p2split, <- p2S by lia; f_equal; lia).
  unfold tht. rewrite !mult_IZR, minus_IZR, !mult_IZR. pose proof (IZR_p2 s). pose proof (IZR_p2 e). field. split; assumption.
Qed.

Lemma real_tables : exists tw twInv, genTwiddleFactors RA HF = Ok (tw, twInv) /\ exact_tw h tw /\ exact_twi h twInv.
Proof.
  eexists _, _. split; [apply genTwiddleFactors_ok; lia|]. pose proof (p2 h ltac:(lia)) as HP.
  assert (HB: forall s, Z.of_nat s < h -> 2 * 2 ^ Z.of_nat s <= HF).
  { intros s Hs. rewrite <- p2S by lia. apply Z.pow_le_mono_r; lia. }
  split; (split; [rewrite zlen_tab by lia; lia|]); intros s i Hs Hi; specialize (HB s Hs); unfold twz.
  - rewrite znd_tab by lia. rewrite tw_at_ok by lia. unfold tw_val.
    transitivity (Cmult (cisr (- (2 * PI) * IZR (rv (Z.to_nat (h - 1)) i) / IZR HF)) (cisr (2 * PI * IZR (2 ^ (h - 1 - Z.of_nat s)) / IZR (4 * HF)))); [reflexivity|].
    rewrite <- cis_add. unfold wv. f_equal. apply angle_sum; assumption.
  - rewrite znd_tab by lia. rewrite twi_at_ok by lia. unfold twi_val.
    transitivity (Cmult (cisr (- (- (2 * PI) * IZR (rv (Z.to_nat (h - 1)) i) / IZR HF))) (cisr (- (2 * PI) * IZR (2 ^ (h - 1 - Z.of_nat s)) / IZR (4 * HF)))); [reflexivity|].
    rewrite <- cis_add. unfold wvi. f_equal. rewrite <- (angle_sum s i Hs Hi). unfold Rdiv. ring.
Qed.
End Tables.

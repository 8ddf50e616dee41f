(** * The transform behind the public functions of package poly

    Statements about NewEvaluator, MulPoly, ToFourierPoly, ToPoly and sums of
    products, put together from the lemmas about the transform. *)
From Coq Require Import Lia Reals ZifyBool.
From Flocq Require Import Core BinarySingleNaN.
From Coquelicot Require Import Coquelicot.
From Verif Require Import GoBase GoFacts GoMem F64 Spec Poly PolyFacts Fft NegFacts Laws FftFacts FftOps FftTab CSum FftReal
  RSum F64Facts F64Err CErr BfErr FftErr FftInv FftRound FftTabErr FftF64 TrlweFacts.
Local Open Scope Z_scope.

(** the accumulator pattern of the external product: the polynomial read back
    from the Fourier sum of the products d(i) * r(i) *)
Definition AccumulateProducts (O : fops) (N K : Z) (d r : Z -> list Z) : res (FP O) :=
  acc <- f_new O N ;;
  for_range 0 K (fun i acc =>
           x <- (o <- f_new O N ;; f_of_poly O (d i) o) ;;
           y <- (o <- f_new O N ;; f_of_poly O (r i) o) ;;
           f_muladd O x y acc) acc.
Definition SumOfProducts (O : fops) (N K : Z) (d r : Z -> list Z) : res (list Z) :=
  acc <- AccumulateProducts O N K d r ;;
  p <- NewPoly N ;;
  '(_, p) <- f_to_poly O acc p ;;
  Ok p.

(** ToPoly(ToFourierPoly(p)), with the contents [o] and [q] of the output
    buffers *)
Definition FourierRoundTrip (O : fops) (p : list Z) (o : FP O) (q : list Z) : res (list Z) :=
  x <- f_of_poly O p o ;; '(_, q) <- f_to_poly O x q ;; Ok q.

Section Gen.
Context {O : fops} {N : Z} (L : flaws O N).

Lemma Fsum_fok (d r : Z -> list Z) K : (forall i, 0 <= i < Z.of_nat K -> zlen (d i) = N /\ zlen (r i) = N) ->
  fok L (Fsum_nat L K (fun i => Fof L (d i)) (fun i => Fof L (r i))).
Proof.
  induction K as [|K IH]; intro Hd; cbn [Fsum_nat]; [apply law_zero|].
  destruct (Hd (Z.of_nat K) ltac:(lia)). apply law_ma_ok; try (apply law_of_ok; assumption). apply IH. intros i Hi. apply Hd. lia.
Qed.

Lemma AccumulateProducts_ok K d r : 0 <= K -> (forall i, 0 <= i < K -> zlen (d i) = N /\ zlen (r i) = N) ->
  AccumulateProducts O N K d r = Ok (Fsum L K (fun i => Fof L (d i)) (fun i => Fof L (r i))).
Proof.
  intros HK Hd. unfold AccumulateProducts. rewrite (law_new L). cbn [bind].
  match goal with |- context [for_range 0 K ?b ?x] =>
    destruct (for_range_inv (fun i (acc : FP O) => acc = Fsum L i (fun i => Fof L (d i)) (fun i => Fof L (r i))) 0 K b x) as (s & E1 & E2) end.
  - lia.
  - unfold Fsum. reflexivity.
  - intros i acc Hi ->. destruct (Hd i Hi) as [H1 H2].
    rewrite (law_of L) by (assumption || apply (law_zero L)). cbn [bind].
    rewrite (law_of L) by (assumption || apply (law_zero L)). cbn [bind].
    eexists; split; [apply (law_ma L); try (apply law_of_ok; assumption)|].
    + unfold Fsum. apply Fsum_fok. intros j Hj. apply Hd. lia.
    + unfold Fsum. replace (Z.to_nat (i + 1)) with (S (Z.to_nat i)) by lia. cbn [Fsum_nat]. rewrite Z2Nat.id by lia. reflexivity.
  - rewrite E1. subst s. reflexivity.
Qed.
Lemma SumOfProducts_ok K d r : 0 <= K -> (forall i, 0 <= i < K -> zlen (d i) = N /\ zlen (r i) = N) ->
  SumOfProducts O N K d r = Ok (Fto L (Fsum L K (fun i => Fof L (d i)) (fun i => Fof L (r i)))).
Proof.
  intros HK Hd. unfold SumOfProducts. rewrite (AccumulateProducts_ok K d r HK Hd). cbn [bind]. rewrite (NewPoly_ok L). cbn [bind].
  destruct (law_to L (Fsum L K (fun i => Fof L (d i)) (fun i => Fof L (r i))) (repeat 0 (Z.to_nat N))) as (x' & E & _).
  - unfold Fsum. apply Fsum_fok. intros j Hj. apply Hd. lia.
  - rewrite zlen_repeat. pose proof (law_N L). lia.
  - rewrite E. reflexivity.
Qed.

Lemma FourierRoundTrip_ok p o q : zlen p = N -> fok L o -> zlen q = N -> FourierRoundTrip O p o q = Ok (Fto L (Fof L p)).
Proof.
  intros Hp Ho Hq. unfold FourierRoundTrip. rewrite (law_of L) by assumption. cbn [bind].
  destruct (law_to L (Fof L p) q) as (x' & E & _); [apply law_of_ok; assumption|assumption|]. rewrite E. reflexivity.
Qed.
End Gen.

Lemma pow_half k : 4 <= k -> 2 ^ k = 2 * 2 ^ (k - 1) /\ 2 ^ k / 2 = 2 ^ (k - 1) /\ 3 <= k - 1.
Proof.
  intro Hk. assert (E: 2 ^ k = 2 * 2 ^ (k - 1)) by (rewrite <- Z.pow_succ_r by lia; f_equal; lia).
  split; [exact E|]. split; [|lia]. rewrite E, Z.mul_comm. apply Z.div_mul. lia.
Qed.

(** ** every arithmetic: tables exist, no operation panics *)
Lemma tables_len (R : arith) k : 4 <= k -> exists tw twi, genTwiddleFactors R (2 ^ k / 2) = Ok (tw, twi) /\
  2 ^ (k - 1) - 1 <= zlen tw /\ 2 ^ (k - 1) - 1 <= zlen twi.
Proof.
  intro Hk. destruct (pow_half k Hk) as (E1 & E2 & Hh). rewrite E2. eexists _, _.
  split; [apply genTwiddleFactors_ok; lia|]. pose proof (p2 (k - 1) ltac:(lia)). rewrite !zlen_tab by lia. lia.
Qed.

Definition pow_laws (R : arith) (k : Z) (Hk : 4 <= k) tw twi (Lt : 2 ^ (k - 1) - 1 <= zlen tw) (Li : 2 ^ (k - 1) - 1 <= zlen twi) :
  flaws (fft_ops R tw twi) (2 * 2 ^ (k - 1)) :=
  let Hh := proj2 (proj2 (pow_half k Hk)) in
  fft_laws R (2 ^ (k - 1)) (H_pos (k - 1) Hh) (H_4 (k - 1) Hh) (k - 1) Hh eq_refl tw twi Lt Li.

Section Safe.
Context (R : arith) (k : Z) (Hk : 4 <= k).
Notation N := (2 ^ k).

(** what "stays inside its buffers" means for a call: it returns, with a
    result of the right length *)
Definition returns {A} (n : Z) (r : res (list A)) : Prop := exists v, r = Ok v /\ zlen v = n.
Definition returns2 {A B} (n : Z) (r : res (list A * list B)) : Prop := exists x y, r = Ok (x, y) /\ zlen x = n /\ zlen y = n.

Lemma degree_ok : check_degree N = Ok tt.
Proof.
  destruct (pow_half k Hk) as (-> & _ & Hh). apply (check_degree_pow2 (2 ^ (k - 1)) (k - 1)); [assumption|reflexivity].
Qed.

Lemma evaluator_ok : exists tw twi, genTwiddleFactors R (N / 2) = Ok (tw, twi) /\ fft_evaluator R N = Ok (fft_ops R tw twi).
Proof.
  destruct (tables_len R k Hk) as (tw & twi & E & _). exists tw, twi. split; [exact E|].
  unfold fft_evaluator. rewrite degree_ok. cbn [bind]. rewrite E. reflexivity.
Qed.

Lemma fft_safe tw twi : genTwiddleFactors R (N / 2) = Ok (tw, twi) ->
  forall (p q : list Z) (x y z : list (AN R)) (c : AN R),
  zlen p = N -> zlen q = N -> zlen x = N -> zlen y = N -> zlen z = N ->
  returns N (NewFourierPoly R N) /\ returns N (FourierPoly_Clear R x) /\
  returns N (toFourier R tw p x) /\
  returns2 N (toPoly R twi x q) /\ returns2 N (toPolyCopy R twi y x q) /\
  returns2 N (toPolyAdd R twi x q) /\ returns2 N (toPolySub R twi x q) /\
  returns N (addCmplxAssign R x y z) /\ returns N (subCmplxAssign R x y z) /\
  returns N (floatMulCmplxAssign R x c z) /\ returns N (floatMulAddCmplxAssign R x c z) /\
  returns N (elementWiseMulCmplxAssign R x y z) /\ returns N (elementWiseMulAddCmplxAssign R x y z) /\
  returns N (elementWiseMulSubCmplxAssign R x y z).
Proof.
  intros Et p q x y z c Hp Hq Hx Hy Hz.
  destruct (tables_len R k Hk) as (tw' & twi' & E & Lt & Li). rewrite Et in E. injection E as <- <-.
  pose proof (pow_laws R k Hk tw twi Lt Li) as L.
  destruct (pow_half k Hk) as (EN & _ & Hh). rewrite EN in *. set (H := 2 ^ (k - 1)) in *.
  pose proof (H_pos (k - 1) Hh) as HP. pose proof (H_4 (k - 1) Hh) as H4. fold H in HP, H4.
  assert (EW: forall f a b o, zlen a = 2 * H -> zlen b = 2 * H -> zlen o = 2 * H -> returns (2 * H) (elementwise R f a b o)).
  { intros f a b o Ha Hb Ho. eexists. split; [apply (elementwise_ok R H HP H4); assumption|]. apply zlen_lay; assumption. }
  assert (TP: forall op w, zlen w = 2 * H -> exists fp pp,
     (fp <- ifftInPlace R w twi ;; fp <- floatModQInPlace R fp (Q32 R) ;; pOut <- convertFourierPolyToPoly R op fp q ;; Ok (fp, pOut)) = Ok (fp, pp)
     /\ zlen fp = 2 * H /\ zlen pp = 2 * H).
  { intros op w Hw. rewrite (ifftInPlace_ok R H HP H4 (k - 1) Hh eq_refl) by assumption. cbn [bind].
    assert (Hl: zlen (ifft R H (k - 1) twi w) = 2 * H).
    { apply zlen_stl; assumption. }
    rewrite (floatModQ_ok R H HP H4) by assumption. cbn [bind].
    rewrite (convertBack_ok R H HP H4) by (rewrite ?zlen_map; assumption). cbn [bind]. eexists _, _. split; [reflexivity|].
    split; [rewrite zlen_map; assumption|apply zlen_tab; lia]. }
  repeat split.
  - eexists. split; [exact (law_new (pow_laws R k Hk tw twi Lt Li))|]. exact (law_zero (pow_laws R k Hk tw twi Lt Li)).
  - eexists. split; [exact (law_clear (pow_laws R k Hk tw twi Lt Li) x Hx)|]. exact (law_zero (pow_laws R k Hk tw twi Lt Li)).
  - eexists. split; [exact (law_of (pow_laws R k Hk tw twi Lt Li) p x Hp Hx)|]. exact (law_of_ok (pow_laws R k Hk tw twi Lt Li) p Hp).
  - apply TP. assumption.
  - apply TP. rewrite copy_slice_same_len by congruence. assumption.
  - apply TP. assumption.
  - apply TP. assumption.
  - apply EW; assumption.
  - apply EW; assumption.
  - apply EW; assumption.
  - apply EW; assumption.
  - apply EW; assumption.
  - apply EW; assumption.
  - apply EW; assumption.
Qed.
End Safe.

(** ** exact arithmetic *)
Lemma real_evaluator k : 4 <= k -> exists O, fft_evaluator real_arith (2 ^ k) = Ok O /\
  (forall a b, zlen a = 2 ^ k -> zlen b = 2 ^ k ->
     MulPoly O (2 ^ k) a b = Ok (tab (2 ^ k) (fun i => negacyclic (2 ^ k) (zn a) (zn b) i mod two32))) /\
  (forall K d r, 0 <= K -> (forall i, 0 <= i < K -> zlen (d i) = 2 ^ k /\ zlen (r i) = 2 ^ k) ->
     SumOfProducts O (2 ^ k) K d r =
       Ok (tab (2 ^ k) (fun i => zsum K (fun j => negacyclic (2 ^ k) (zn (d j)) (zn (r j)) i) mod two32))).
Proof.
  intro Hk. destruct (pow_half k Hk) as (EN & E2 & Hh).
  destruct (real_tables (k - 1) Hh) as (tw & twi & Et & Htw & Htwi).
  exists (fft_ops real_arith tw twi). split.
  { unfold fft_evaluator. rewrite degree_ok by assumption. cbn [bind]. rewrite E2, Et. reflexivity. }
  set (L := fft_laws real_arith (2 ^ (k - 1)) (H_pos (k - 1) Hh) (H_4 (k - 1) Hh) (k - 1) Hh eq_refl tw twi (proj1 Htw) (proj1 Htwi)). pose proof (H_pos (k - 1) Hh) as HP. rewrite EN.
  split.
  - intros a b Ha Hb. rewrite (MulPoly_ok L) by assumption. f_equal.
    apply (eq_tab 0); [apply zlen_mulp; assumption|]. intros i Hi. unfold mulp.
    exact (real_mul (k - 1) Hh tw twi Htw Htwi a b i Hi).
  - intros K d r HK Hd. rewrite (SumOfProducts_ok L) by assumption. f_equal.
    apply (eq_tab 0); [apply law_to_len; apply Fsum_fok; intros j Hj; apply Hd; lia|]. intros i Hi.
    exact (real_acc (k - 1) Hh tw twi Htw Htwi K d r HK i Hi).
Qed.

(** ** binary64 arithmetic *)
Definition all_finite (l : list f64) : Prop := Forall (fun x => BinarySingleNaN.is_finite x = true) l.

Lemma lfin_all mc h l : 3 <= h -> zlen l = 2 * 2 ^ h -> lfin mc h l -> all_finite l.
Proof.
  intros Hh Hl F. apply Forall_forall. intros x Hx.
  destruct (In_nth l x (f_of_Z 0) Hx) as (n & Hn & E).
  assert (Hp: 0 <= Z.of_nat n < 2 * 2 ^ h) by (unfold zlen in Hl; lia).
  destruct (pos_cases (2 ^ h) (H_4 h Hh) (Z.of_nat n) Hp) as (c & Hc & P). destruct (F c Hc) as [F1 F2].
  unfold cx in F1, F2. cbn [fst snd] in F1, F2. rewrite <- E. unfold znd in F1, F2. destruct P as [P|P].
  - rewrite <- P, Nat2Z.id in F1. exact F1.
  - rewrite <- P, Nat2Z.id in F2. exact F2.
Qed.

Lemma f64_evaluator mc k : mc_ok mc -> 4 <= k <= 51 -> exists tf tfi,
  genTwiddleFactors (f64_arith mc) (2 ^ k / 2) = Ok (tf, tfi) /\
  fft_evaluator (f64_arith mc) (2 ^ k) = Ok (fft_ops (f64_arith mc) tf tfi) /\
  (forall p o, zlen p = 2 ^ k -> zlen o = 2 ^ k -> exists fp, toFourier (f64_arith mc) tf p o = Ok fp /\ all_finite fp) /\
  (forall K d r, 1 <= K <= 2 ^ 30 -> (forall j, 0 <= j < K -> zlen (d j) = 2 ^ k /\ zlen (r j) = 2 ^ k) ->
     exists acc, AccumulateProducts (fft_ops (f64_arith mc) tf tfi) (2 ^ k) K d r = Ok acc /\ all_finite acc) /\
  (forall a b D E delta, poly_ok (2 ^ k) a -> poly_ok (2 ^ k) b -> 1 <= D <= 2 ^ 31 -> 1 <= E <= 2 ^ 31 ->
     sbound (2 ^ k) D a -> sbound (2 ^ k) E b ->
     2 ^ k * (D * E) * (87 * (k - 1) + 7) < (2 * delta + 1) * 2 ^ 52 ->
     exists c, MulPoly (fft_ops (f64_arith mc) tf tfi) (2 ^ k) a b = Ok c /\ poly_ok (2 ^ k) c /\
       forall i, 0 <= i < 2 ^ k -> close delta (zn c i) (negacyclic (2 ^ k) (zn a) (zn b) i)) /\
  (forall K d r D E delta, 1 <= K <= 2 ^ 30 -> 1 <= D <= 2 ^ 31 -> 1 <= E <= 2 ^ 31 ->
     (forall j, 0 <= j < K -> poly_ok (2 ^ k) (d j) /\ poly_ok (2 ^ k) (r j) /\ sbound (2 ^ k) D (d j) /\ sbound (2 ^ k) E (r j)) ->
     K * (2 ^ k * (D * E)) * (87 * (k - 1) + 5 + 2 * K) < (2 * delta + 1) * 2 ^ 52 ->
     exists c, SumOfProducts (fft_ops (f64_arith mc) tf tfi) (2 ^ k) K d r = Ok c /\ poly_ok (2 ^ k) c /\
       forall i, 0 <= i < 2 ^ k -> close delta (zn c i) (zsum K (fun j => negacyclic (2 ^ k) (zn (d j)) (zn (r j)) i))) /\
  (k <= 21 -> forall p o q, poly_ok (2 ^ k) p -> zlen o = 2 ^ k -> zlen q = 2 ^ k ->
     FourierRoundTrip (fft_ops (f64_arith mc) tf tfi) p o q = Ok p).
Proof.
  intros Hcis Hk. assert (Hk4: 4 <= k) by lia. destruct (pow_half k Hk4) as (EN & E2 & Hh). assert (Hh2: k - 1 <= 50) by lia.
  destruct (f64_tables mc Hcis (k - 1) Hh Hh2) as (tf & tfi & Et & Htf & Htfi).
  destruct (real_tables (k - 1) Hh) as (tw & twi & _ & Htw & Htwi).
  exists tf, tfi. rewrite E2. split; [exact Et|]. split.
  { unfold fft_evaluator. rewrite degree_ok by assumption. cbn [bind]. rewrite E2, Et. reflexivity. }
  pose proof (H_pos (k - 1) Hh) as HP. set (Lt := proj1 Htf). set (Li := proj1 Htfi).
  set (L := fft_laws (f64_arith mc) (2 ^ (k - 1)) (H_pos (k - 1) Hh) (H_4 (k - 1) Hh) (k - 1) Hh eq_refl tf tfi Lt Li).
  rewrite EN. split; [|split; [|split; [|split]]].
  - intros p o Hp Ho. eexists. split; [exact (law_of L p o Hp Ho)|].
    apply (lfin_all mc (k - 1)); [assumption|exact (law_of_ok L p Hp)|].
    assert (D31: 1 <= 2 ^ 31 <= 2 ^ 31) by lia.
    exact (proj1 (of_err mc (k - 1) Hh Hh2 tf tfi Htf tw twi Htw Htwi Lt Li p (2 ^ 31) D31 (fun i _ => sgn_31 (k - 1) Hh p i))).
  - intros K d r HK HL. eexists. split; [apply (AccumulateProducts_ok L); [lia|exact HL]|].
    apply (lfin_all mc (k - 1)); [assumption|apply (Fsum_fok L); intros j Hj; apply HL; lia|].
    assert (D31: 1 <= 2 ^ 31 <= 2 ^ 31) by lia.
    exact (proj1 (acc_err mc (k - 1) Hh Hh2 tf tfi Htf tw twi Htw Htwi Lt Li K (2 ^ 31) (2 ^ 31) HK D31 D31 d r
      (fun j _ i _ => conj (sgn_31 (k - 1) Hh (d j) i) (sgn_31 (k - 1) Hh (r j) i)) (Z.to_nat K) ltac:(lia))).
  - intros a b D E delta Ha Hb HD HE Sa Sb Hd. eexists. split; [apply (MulPoly_ok L); [apply Ha|apply Hb]|].
    split; [split; [apply zlen_mulp; [apply Ha|apply Hb]|apply tok_mulp; [apply Ha|apply Hb]]|].
    exact (f64_facc_mul mc (k - 1) Hh Hh2 tf tfi Htf Htfi tw twi Htw Htwi Lt Li D E delta HD HE Hd a b Ha Hb Sa Sb).
  - intros K d r D E delta HK HD HE Hdr Hd.
    assert (HL: forall i, 0 <= i < K -> zlen (d i) = 2 * 2 ^ (k - 1) /\ zlen (r i) = 2 * 2 ^ (k - 1)).
    { intros i Hi. destruct (Hdr i Hi) as ([A1 _] & [A2 _] & _). split; assumption. }
    eexists. split; [apply (SumOfProducts_ok L); [lia|exact HL]|].
    assert (FK: fok L (Fsum L K (fun i => Fof L (d i)) (fun i => Fof L (r i)))) by (apply Fsum_fok; intros j Hj; apply HL; lia).
    split; [split; [apply law_to_len; exact FK|apply law_to_tok; exact FK]|].
    intros i Hi. apply (f64_sum mc (k - 1) Hh Hh2 tf tfi Htf Htfi tw twi Htw Htwi Lt Li K D E HK HD HE delta Hd d r); [|assumption].
    intros j Hj x Hx. destruct (Hdr j Hj) as (_ & _ & S1 & S2). split; [exact (S1 x Hx)|exact (S2 x Hx)].
  - intros Hk21 p o q [Hp Tp] Ho Hq. rewrite (FourierRoundTrip_ok L) by assumption. f_equal.
    assert (FK: fok L (Fof L p)) by (apply law_of_ok; assumption).
    apply list_ext_zn; [rewrite law_to_len by exact FK; symmetry; exact Hp|]. rewrite law_to_len by exact FK. intros i Hi.
    pose proof (f64_roundtrip mc (k - 1) Hh Hh2 tf tfi Htf Htfi tw twi Htw Htwi Lt Li p ltac:(lia) i Hi) as G.
    pose proof (zn_tok _ i (law_to_tok L _ FK)) as T1. pose proof (zn_tok _ i Tp) as T2.
    unfold eqm, tok in *. rewrite !Z.mod_small in G by assumption. exact G.
Qed.

Lemma f64_product_error mc k : mc_ok mc -> 4 <= k <= 51 -> exists O,
  fft_evaluator (f64_arith mc) (2 ^ k) = Ok O /\
  (forall a b D E delta, poly_ok (2 ^ k) a -> poly_ok (2 ^ k) b -> 1 <= D <= 2 ^ 31 -> 1 <= E <= 2 ^ 31 ->
     sbound (2 ^ k) D a -> sbound (2 ^ k) E b ->
     2 ^ k * (D * E) * (87 * (k - 1) + 7) < (2 * delta + 1) * 2 ^ 52 ->
     exists c, MulPoly O (2 ^ k) a b = Ok c /\ poly_ok (2 ^ k) c /\
       forall i, 0 <= i < 2 ^ k -> close delta (zn c i) (negacyclic (2 ^ k) (zn a) (zn b) i)) /\
  (forall K d r D E delta, 1 <= K <= 2 ^ 30 -> 1 <= D <= 2 ^ 31 -> 1 <= E <= 2 ^ 31 ->
     (forall j, 0 <= j < K -> poly_ok (2 ^ k) (d j) /\ poly_ok (2 ^ k) (r j) /\ sbound (2 ^ k) D (d j) /\ sbound (2 ^ k) E (r j)) ->
     K * (2 ^ k * (D * E)) * (87 * (k - 1) + 5 + 2 * K) < (2 * delta + 1) * 2 ^ 52 ->
     exists c, SumOfProducts O (2 ^ k) K d r = Ok c /\ poly_ok (2 ^ k) c /\
       forall i, 0 <= i < 2 ^ k -> close delta (zn c i) (zsum K (fun j => negacyclic (2 ^ k) (zn (d j)) (zn (r j)) i))).
Proof.
  intros Hc Hk. destruct (f64_evaluator mc k Hc Hk) as (tf & tfi & _ & E & _ & _ & M & S & _).
  exists (fft_ops (f64_arith mc) tf tfi). split; [exact E|]. split; [exact M|exact S].
Qed.

Lemma f64_finite mc k : mc_ok mc -> 4 <= k <= 51 -> exists tf tfi,
  genTwiddleFactors (f64_arith mc) (2 ^ k / 2) = Ok (tf, tfi) /\
  (forall p o, zlen p = 2 ^ k -> zlen o = 2 ^ k -> exists fp, toFourier (f64_arith mc) tf p o = Ok fp /\ all_finite fp) /\
  (forall K d r, 1 <= K <= 2 ^ 30 -> (forall j, 0 <= j < K -> zlen (d j) = 2 ^ k /\ zlen (r j) = 2 ^ k) ->
     exists acc, AccumulateProducts (fft_ops (f64_arith mc) tf tfi) (2 ^ k) K d r = Ok acc /\ all_finite acc).
Proof.
  intros Hc Hk. destruct (f64_evaluator mc k Hc Hk) as (tf & tfi & T & _ & F & A & _).
  exists tf, tfi. split; [exact T|]. split; [exact F|exact A].
Qed.

Lemma f64_round_trip mc k : mc_ok mc -> 4 <= k <= 21 -> exists tf tfi,
  fft_evaluator (f64_arith mc) (2 ^ k) = Ok (fft_ops (f64_arith mc) tf tfi) /\
  forall p o q, poly_ok (2 ^ k) p -> zlen o = 2 ^ k -> zlen q = 2 ^ k ->
    FourierRoundTrip (fft_ops (f64_arith mc) tf tfi) p o q = Ok p.
Proof.
  intros Hc Hk. destruct (f64_evaluator mc k Hc ltac:(lia)) as (tf & tfi & _ & E & _ & _ & _ & _ & RT).
  exists tf, tfi. split; [exact E|]. apply RT. lia.
Qed.

Lemma centered_bound x : Z.abs (centered x) <= 2 ^ 31.
Proof. unfold centered, two32, two31. pose proof (Z.mod_pos_bound (x + 2147483648) 4294967296 ltac:(lia)). lia. Qed.
Lemma bin_sbound n s : bin_key n s -> poly_ok n s /\ sbound n 1 s.
Proof.
  intros [Hn F]. split; [split; [exact Hn|]|].
  - eapply Forall_impl; [|exact F]. intros x [->| ->]; unfold tok, two32; lia.
  - intros i Hi. assert (H: zn s i = 0 \/ zn s i = 1).
    { unfold zn. rewrite Forall_forall in F. apply F. apply nth_In. unfold zlen in Hn. lia. }
    destruct H as [->| ->]; vm_compute; discriminate.
Qed.

Lemma f64_key_product mc k : mc_ok mc -> 4 <= k <= 11 -> exists O,
  fft_evaluator (f64_arith mc) (2 ^ k) = Ok O /\
  forall a s, poly_ok (2 ^ k) a -> bin_key (2 ^ k) s ->
    MulPoly O (2 ^ k) a s = Ok (tab (2 ^ k) (fun i => negacyclic (2 ^ k) (zn a) (zn s) i mod two32)).
Proof.
  intros Hc Hk. destruct (f64_product_error mc k Hc ltac:(lia)) as (O & E & M & _). exists O. split; [exact E|].
  intros a s Ha Hs. destruct (bin_sbound _ s Hs) as [Ps Bs].
  destruct (M a s (2 ^ 31) 1 0 Ha Ps ltac:(lia) ltac:(lia) (fun i _ => centered_bound _) Bs) as (c & Em & [Hc1 Tc] & Cl).
  { assert (2 ^ k <= 2 ^ 11) by (apply Z.pow_le_mono_r; lia). pose proof (p2 k ltac:(lia)).
    assert (2 ^ k * (87 * (k - 1) + 7) <= 2 ^ 11 * 877) by (apply Z.mul_le_mono_nonneg; lia). lia. }
  rewrite Em. f_equal. apply (eq_tab 0); [exact Hc1|]. intros i Hi. destruct (Cl i Hi) as (e & He & Eq).
  replace e with 0 in Eq by lia. rewrite Z.add_0_r in Eq. pose proof (zn_tok c i Tc) as T. unfold eqm, tok in *.
  rewrite (Z.mod_small (zn c i)) in Eq by assumption. exact Eq.
Qed.

Lemma fft_in_bounds (R : arith) k : 4 <= k -> exists tw twi,
  fft_evaluator R (2 ^ k) = Ok (fft_ops R tw twi) /\
  forall (p q : list Z) (x y z : list (AN R)) (c : AN R),
  let N := 2 ^ k in
  zlen p = N -> zlen q = N -> zlen x = N -> zlen y = N -> zlen z = N ->
  returns N (NewFourierPoly R N) /\ returns N (FourierPoly_Clear R x) /\
  returns N (toFourier R tw p x) /\
  returns2 N (toPoly R twi x q) /\ returns2 N (toPolyCopy R twi y x q) /\
  returns2 N (toPolyAdd R twi x q) /\ returns2 N (toPolySub R twi x q) /\
  returns N (addCmplxAssign R x y z) /\ returns N (subCmplxAssign R x y z) /\
  returns N (floatMulCmplxAssign R x c z) /\ returns N (floatMulAddCmplxAssign R x c z) /\
  returns N (elementWiseMulCmplxAssign R x y z) /\ returns N (elementWiseMulAddCmplxAssign R x y z) /\
  returns N (elementWiseMulSubCmplxAssign R x y z).
Proof.
  intro Hk. destruct (evaluator_ok R k Hk) as (tw & twi & T & E). exists tw, twi. split; [exact E|].
  intros p q x y z c N. exact (fft_safe R k Hk tw twi T p q x y z c).
Qed.

Lemma land_pred_pow2 N : 0 < N -> Z.land N (N - 1) = 0 -> N = 2 ^ Z.log2 N.
Proof.
  intros HN H. destruct (Z.log2_spec N HN) as [L1 L2]. destruct (Z.eq_dec N (2 ^ Z.log2 N)) as [E|NE]; [exact E|exfalso].
  assert (HL: 0 <= Z.log2 N) by apply Z.log2_nonneg.
  assert (B1: Z.testbit N (Z.log2 N) = true) by (apply Z.bit_log2; assumption).
  assert (B2: Z.testbit (N - 1) (Z.log2 N) = true).
  { assert (EL: Z.log2 (N - 1) = Z.log2 N) by (apply Z.log2_unique; [assumption|lia]).
    rewrite <- EL. apply Z.bit_log2. pose proof (p2 _ HL). lia. }
  assert (Z.testbit (Z.land N (N - 1)) (Z.log2 N) = true) by (rewrite Z.land_spec, B1, B2; reflexivity).
  rewrite H, Z.bits_0 in H0. discriminate.
Qed.

Lemma fft_bad_degree (R : arith) N : (forall k, 4 <= k -> N <> 2 ^ k) -> exists m, fft_evaluator R N = Panic (PMsg m).
Proof.
  intro HN. unfold fft_evaluator, check_degree. destruct (isPowerOfTwo N) eqn:E; cbn [negb].
  - unfold MinDegree. destruct (Z.ltb_spec N 16); [eexists; reflexivity|exfalso].
    unfold isPowerOfTwo in E. apply andb_prop in E. destruct E as [E1 E2]. apply Z.eqb_eq in E2.
    apply (HN (Z.log2 N)).
    + change 4 with (Z.log2 16). apply Z.log2_le_mono. assumption.
    + apply land_pred_pow2; lia.
  - eexists. reflexivity.
Qed.

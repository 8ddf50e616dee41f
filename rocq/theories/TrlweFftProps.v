(** * Facts about the Fourier form of a TRLWE ciphertext *)
From Coq Require Import Lia ZifyBool.
From Verif Require Import GoBase GoFacts F64 Params Poly Fft FftFacts FftTab FftOps FftTabErr FftProps Laws LevelSpec LenFacts Trlwe Trgsw TrlweFft.
Local Open Scope Z_scope.
Ltac Zify.zify_post_hook ::= idtac.

(** ** Tables are too short for a slice twice as long *)
Section Long.
Context (R : arith).
Notation cplx := (AN R * AN R)%type.

Definition up (s s' : list (AN R) * Z) : Prop := snd s <= snd s'.
Lemma up_refl s : up s s. Proof. unfold up. lia. Qed.
Lemma up_trans a b c : up a b -> up b c -> up a c. Proof. unfold up. lia. Qed.

Lemma mid_up bf (tw : list cplx) m t s s' : mid_stage R bf tw m t s = Ok s' -> up s s'.
Proof.
  unfold mid_stage, for_range. apply (loop_rel up); [exact up_refl|exact up_trans|].
  intros i [c w] s1 E. inv_bind E. inv_bind E. injection E as <-. unfold up. cbn [snd]. lia.
Qed.
Lemma fft_mid_up (tw : list cplx) N : forall fuel m t s s', fft_mid R fuel tw N m t s = Ok s' -> up s s'.
Proof.
  induction fuel as [|f IH]; intros m t s s' E; cbn [fft_mid] in E; [discriminate|].
  destruct (m <=? N / 16); [|injection E as <-; apply up_refl]. cbv zeta in E. inv_bind E.
  eapply up_trans; [eapply mid_up; exact E0|eapply IH; exact E].
Qed.

(** a loop that reads two entries of a table each time *)
Lemma loop_two (L : Z) (body : Z -> list (AN R) * Z -> res (list (AN R) * Z)) step :
  (forall i s s', body i s = Ok s' -> snd s' = snd s + 2 /\ snd s + 2 <= L) ->
  forall n i s s', loop n i step body s = Ok s' -> snd s' = snd s + 2 * Z.of_nat n /\ (n <> O -> snd s' <= L).
Proof.
  intro HB. induction n as [|n IH]; intros i s s' E; cbn [loop] in E.
  - injection E as <-. split; [lia|congruence].
  - inv_bind E. destruct (HB _ _ _ E0) as [A1 A2]. destruct (IH _ _ _ E) as [B1 B2]. split; [lia|]. intros _.
    destruct n as [|n]; [lia|]. apply B2. discriminate.
Qed.

Lemma two_bf bf (tw : list cplx) j (s s' : list (AN R) * Z) :
  (let '(c, wIdx) := s in w0 <- get tw wIdx ;; w1 <- get tw (wIdx + 1) ;; c <- bf_pair1 R bf w0 w1 j c ;; Ok (c, wIdx + 2)) = Ok s' ->
  snd s' = snd s + 2 /\ snd s + 2 <= zlen tw.
Proof.
  destruct s as [c w]. intro E. inv_bind E. inv_bind E. inv_bind E. injection E as <-. cbn [snd]. split; [lia|].
  apply (get_inv x0) in E1. lia.
Qed.

Context (k : Z) (Hk : 4 <= k) (tw : list cplx) (Htw : zlen tw = 2 ^ (k - 1) - 1).

Lemma blocks : Z.of_nat (Z.to_nat ((2 * 2 ^ k - 0 + 8 - 1) / 8)) = 2 ^ (k - 2) /\ 2 ^ (k - 1) = 2 * 2 ^ (k - 2) /\ 0 < 2 ^ (k - 2).
Proof.
  assert (E1: 2 ^ (k - 1) = 2 * 2 ^ (k - 2)) by (rewrite <- Z.pow_succ_r by lia; f_equal; lia).
  assert (E2: 2 ^ k = 2 * 2 ^ (k - 1)) by (rewrite <- Z.pow_succ_r by lia; f_equal; lia).
  assert (P: 0 < 2 ^ (k - 2)) by (apply Z.pow_pos_nonneg; lia).
  split; [|split; assumption].
  assert (E3: (2 * 2 ^ k - 0 + 8 - 1) / 8 = 2 ^ (k - 2)).
  { symmetry. apply (Z.div_unique_pos _ _ _ 7); [lia|]. rewrite E2, E1. lia. }
  rewrite E3. lia.
Qed.

Lemma ifft_long c : zlen c = 2 * 2 ^ k -> panics (ifftInPlace R c tw).
Proof.
  intro Hc. unfold ifftInPlace. apply bind_panics1. rewrite Hc. unfold for_step.
  match goal with |- panics (loop ?n ?i ?st ?b ?s) => destruct (loop n i st b s) as [s'|e] eqn:E; [exfalso|exists e; reflexivity] end.
  destruct blocks as (B1 & B2 & B3).
  destruct (loop_two (zlen tw) _ _ (fun i s s' E => two_bf _ tw i s s' E) _ _ _ _ E) as [A1 A2].
  cbn [snd] in A1. rewrite B1 in A1. assert (snd s' <= zlen tw) by (apply A2; intro Z0; rewrite Z0 in B1; lia). lia.
Qed.

Lemma fft_long c : zlen c = 2 * 2 ^ k -> panics (fftInPlace R c tw).
Proof.
  intro Hc. unfold fftInPlace. rewrite Hc. apply bind_panics2. intros w _. apply bind_panics2. intros c1 _.
  apply bind_panics2. intros [c2 w2] E2. apply fft_mid_up in E2. unfold up in E2. cbn [snd] in E2.
  apply bind_panics2. intros [c3 w3] E3. apply bind_panics1.
  assert (H3: up (c2, w2) (c3, w3)).
  { eapply (loop_rel up); [exact up_refl|exact up_trans| |exact E3].
    intros i [d v] s1 E. inv_bind E. inv_bind E. injection E as <-. unfold up. cbn [snd]. lia. }
  unfold up in H3. cbn [snd] in H3. unfold for_step.
  match goal with |- panics (loop ?n ?i ?st ?b ?s) => destruct (loop n i st b s) as [s'|e] eqn:E; [exfalso|exists e; reflexivity] end.
  destruct blocks as (B1 & B2 & B3).
  destruct (loop_two (zlen tw) _ _ (fun i s s' E => two_bf _ tw i s s' E) _ _ _ _ E) as [A1 A2].
  cbn [snd] in A1. rewrite B1 in A1. assert (snd s' <= zlen tw) by (apply A2; intro Z0; rewrite Z0 in B1; lia). lia.
Qed.

Lemma toFourier_long p c : zlen c = 2 * 2 ^ k -> panics (toFourier R tw p c).
Proof.
  intro Hc. unfold toFourier. apply bind_panics2. intros c' E. apply fft_long. rewrite <- Hc. change (len_eq c c').
  unfold convertPolyToFourierPolyAssign in E. eapply loop_len; [|exact E]. intros i a b E'. do 4 inv_bind E'.
  eapply len_trans; [eapply loop_len; [|exact E3]|eapply loop_len; [|exact E']]; intros j u v E5; inv_bind E5; eapply set_len; exact E5.
Qed.
Lemma toPoly_long c q : zlen c = 2 * 2 ^ k ->
  panics (toPoly R tw c q) /\ panics (toPolyAdd R tw c q) /\ panics (toPolySub R tw c q).
Proof. intro Hc. repeat split; apply bind_panics1, ifft_long; exact Hc. Qed.
Lemma elementwise_long f a b o : zlen a = 2 ^ k \/ zlen b = 2 ^ k -> zlen o = 2 * 2 ^ k -> panics (elementwise R f a b o).
Proof.
  intros Hab Ho. assert (E: 2 ^ k = 8 * 2 ^ (k - 3)) by (change 8 with (2 ^ 3); rewrite <- Z.pow_add_r by lia; f_equal; lia).
  assert (P: 0 < 2 ^ (k - 3)) by (apply Z.pow_pos_nonneg; lia).
  destruct Hab as [Ha|Hb]; [|apply (elementwise_short R f a b o (2 ^ (k - 3))); lia].
  unfold elementwise. apply (step_panics _ 0 _ 8 (2 ^ (k - 3))); try lia. intro s. apply bind_panics1. unfold ptr. exists PIndex.
  assert (G: (0 + 2 ^ (k - 3) * 8 <? 0) || (zlen a <=? 0 + 2 ^ (k - 3) * 8) = true) by lia. rewrite G. reflexivity.
Qed.
End Long.

(** ** What lies behind the first N floats of an operand is not read *)
Lemma loop_ext {S} (body body' : Z -> S -> res S) step : forall n i s,
  (forall j s, (j < n)%nat -> body (i + Z.of_nat j * step) s = body' (i + Z.of_nat j * step) s) -> loop n i step body s = loop n i step body' s.
Proof.
  induction n as [|n IH]; intros i s H; [reflexivity|]. cbn [loop].
  pose proof (H O s ltac:(lia)) as H0. rewrite Z.mul_0_l, Z.add_0_r in H0. rewrite H0. destruct (body' i s) as [s'|e]; [|reflexivity]. cbn [bind].
  apply IH. intros j t Hj. replace (i + step + Z.of_nat j * step) with (i + Z.of_nat (Datatypes.S j) * step) by lia. apply H. lia.
Qed.
Lemma get_front {A} (l w : list A) i : i < zlen l -> get (l ++ w) i = get l i.
Proof.
  intro H. destruct (Z.ltb_spec i 0) as [L|L].
  - rewrite !get_panic by lia. reflexivity.
  - destruct l as [|d l']; [change (zlen (@nil A)) with 0 in H; lia|]. pose proof (zlen_nonneg w).
    rewrite !(get_ok d) by (rewrite ?zlen_app; lia). rewrite znd_app1 by lia. reflexivity.
Qed.
Lemma ptr_front {A} (l w : list A) i : 0 <= i -> i + 8 <= zlen l -> ptr (l ++ w) i 8 = ptr l i 8.
Proof.
  intros H0 H. pose proof (zlen_nonneg w). unfold ptr. rewrite zlen_app.
  destruct ((i <? 0) || (zlen l + zlen w <=? i)) eqn:E1; [lia|]. destruct ((i <? 0) || (zlen l <=? i)) eqn:E2; [lia|].
  destruct (zlen l + zlen w <? i + 8) eqn:E3; [lia|]. destruct (zlen l <? i + 8) eqn:E4; [lia|]. reflexivity.
Qed.
Lemma elementwise_front (R : arith) f (v0 v1 w0 w1 v : list (AN R)) K : 0 <= K -> zlen v = 8 * K -> zlen v0 = 8 * K -> zlen v1 = 8 * K ->
  elementwise R f (v0 ++ w0) (v1 ++ w1) v = elementwise R f v0 v1 v.
Proof.
  intros HK Hv H0 H1. unfold elementwise, for_step. rewrite Hv. apply loop_ext. intros j s Hj.
  assert (Hn: (8 * K - 0 + 8 - 1) / 8 = K) by (symmetry; apply (Z.div_unique_pos _ _ _ 7); lia). rewrite Hn in Hj.
  rewrite !ptr_front by lia. destruct (ptr v0 _ _); [|reflexivity]. destruct (ptr v1 _ _); [|reflexivity]. destruct (ptr s _ _); [|reflexivity]. cbn [bind].
  unfold for_range. apply loop_ext. intros i t Hi. rewrite !get_front by lia. reflexivity.
Qed.

(** ** Back to the ciphertext *)
Lemma trlwe_form mc k : mc_ok mc -> 4 <= k <= 21 -> exists tw twi,
  fft_evaluator (f64_arith mc) (2 ^ k) = Ok (fft_ops (f64_arith mc) tw twi) /\
  forall t, poly_ok (2 ^ k) (tA t) -> poly_ok (2 ^ k) (tB t) -> exists u,
    NewTRLWELv1FFT (fft_ops (f64_arith mc) tw twi) (2 ^ k) t = Ok u /\
    zlen (fA u) = 2 ^ k /\ zlen (fB u) = 2 ^ k /\ all_finite (fA u) /\ all_finite (fB u) /\
    forall buf q, zlen buf = 2 ^ k -> zlen q = 2 ^ k -> exists b1 b2,
      toPolyCopy (f64_arith mc) twi buf (fA u) q = Ok (b1, tA t) /\ toPolyCopy (f64_arith mc) twi buf (fB u) q = Ok (b2, tB t).
Proof.
  intros Hmc Hk. destruct (f64_evaluator mc k Hmc ltac:(lia)) as (tw & twi & Et & EO & FIN & _ & _ & _ & RT0).
  pose proof (RT0 (proj2 Hk)) as RT. exists tw, twi. split; [exact EO|].
  assert (NEW: exists o, NewFourierPoly (f64_arith mc) (2 ^ k) = Ok o /\ zlen o = 2 ^ k).
  { destruct (fft_safe (f64_arith mc) k ltac:(lia) tw twi Et (repeat 0 (Z.to_nat (2 ^ k))) (repeat 0 (Z.to_nat (2 ^ k)))
      (repeat (a_zero (f64_arith mc)) (Z.to_nat (2 ^ k))) (repeat (a_zero (f64_arith mc)) (Z.to_nat (2 ^ k))) (repeat (a_zero (f64_arith mc)) (Z.to_nat (2 ^ k)))
      (a_zero (f64_arith mc))) as [N0 _]; try exact N0; rewrite zlen_repeat; pose proof (Z.pow_pos_nonneg 2 k); lia. }
  destruct NEW as (o & EN & Ho).
  assert (G: forall p, poly_ok (2 ^ k) p -> exists u, ToFourierPoly (fft_ops (f64_arith mc) tw twi) (2 ^ k) p = Ok u /\ zlen u = 2 ^ k /\ all_finite u /\
    forall buf q, zlen buf = 2 ^ k -> zlen q = 2 ^ k -> exists b, toPolyCopy (f64_arith mc) twi buf u q = Ok (b, p)).
  { intros p Hp. destruct (FIN p o (proj1 Hp) Ho) as (u & Eu & Fu). exists u.
    unfold ToFourierPoly. cbn [f_new f_of_poly fft_ops]. rewrite EN. cbn [bind]. split; [exact Eu|].
    assert (Lu: zlen u = 2 ^ k) by (apply toFourier_len in Eu; unfold len_eq in Eu; congruence).
    split; [exact Lu|]. split; [exact Fu|]. intros buf q Hb Hq. unfold toPolyCopy. rewrite copy_slice_same_len by congruence.
    pose proof (RT p o q Hp Ho Hq) as E. unfold FourierRoundTrip in E. cbn [f_of_poly f_to_poly fft_ops] in E. rewrite Eu in E. cbn [bind] in E.
    destruct (toPoly (f64_arith mc) twi u q) as [[b p']|]; [|discriminate]. cbn [bind] in E. exists b. congruence. }
  intros t HA HB. destruct (G _ HA) as (u & Eu & Lu & Fu & Bu). destruct (G _ HB) as (v & Ev & Lv & Fv & Bv).
  exists {| fA := u; fB := v |}. unfold NewTRLWELv1FFT. rewrite Eu, Ev. cbn [bind fA fB]. split; [reflexivity|]. do 4 (split; [assumption|]).
  intros buf q Hb Hq. destruct (Bu buf q Hb Hq) as (b1 & E1). destruct (Bv buf q Hb Hq) as (b2 & E2). exists b1, b2. split; assumption.
Qed.

(** ** The dummy *)
Lemma repeat_split {A} (x : A) n m : repeat x (n + m) = repeat x n ++ repeat x m.
Proof. apply repeat_app. Qed.

Lemma copy_front {A} (dst l w : list A) : zlen dst = zlen l -> copy_slice dst (l ++ w) = copy_slice dst l.
Proof.
  intro H. unfold copy_slice. assert (E: length dst = length l) by (unfold zlen in H; lia).
  rewrite E, firstn_app, Nat.sub_diag, firstn_O, app_nil_r. f_equal. rewrite !skipn_all2; [reflexivity| |]; rewrite ?app_length; lia.
Qed.

Lemma trlwe_dummy (R : arith) k pr : 4 <= k -> trlwe_N pr = 2 ^ k -> exists tw twi D zero,
  fft_evaluator R (2 ^ k) = Ok (fft_ops R tw twi) /\
  NewTRLWELv1FFTDummy R pr = Ok {| fA := D; fB := D |} /\ zlen D = 2 * 2 ^ k /\
  NewFourierPoly R (2 ^ k) = Ok zero /\ zlen zero = 2 ^ k /\
  (forall p q x y c, zlen x = 2 ^ k -> zlen y = 2 ^ k ->
     panics (toFourier R tw p D) /\ panics (toPoly R twi D q) /\ panics (toPolyAdd R twi D q) /\ panics (toPolySub R twi D q) /\
     panics (addCmplxAssign R x y D) /\ panics (subCmplxAssign R x y D) /\
     panics (floatMulCmplxAssign R x c D) /\ panics (floatMulAddCmplxAssign R x c D) /\
     panics (elementWiseMulCmplxAssign R x y D) /\ panics (elementWiseMulAddCmplxAssign R x y D) /\ panics (elementWiseMulSubCmplxAssign R x y D)) /\
  (forall q x z c, zlen x = 2 ^ k -> zlen z = 2 ^ k ->
     toPolyCopy R twi x D q = toPolyCopy R twi x zero q /\
     addCmplxAssign R x D z = addCmplxAssign R x zero z /\ subCmplxAssign R x D z = subCmplxAssign R x zero z /\
     floatMulCmplxAssign R D c z = floatMulCmplxAssign R zero c z /\ floatMulAddCmplxAssign R D c z = floatMulAddCmplxAssign R zero c z /\
     elementWiseMulCmplxAssign R x D z = elementWiseMulCmplxAssign R x zero z /\
     elementWiseMulAddCmplxAssign R x D z = elementWiseMulAddCmplxAssign R x zero z /\
     elementWiseMulSubCmplxAssign R x D z = elementWiseMulSubCmplxAssign R x zero z).
Proof.
  intros Hk HN. destruct (pow_half k Hk) as (E1 & E2 & Hh). pose proof (Z.pow_pos_nonneg 2 k ltac:(lia) ltac:(lia)) as P.
  pose proof (Z.pow_pos_nonneg 2 (k - 1) ltac:(lia) ltac:(lia)) as P1.
  assert (Et: genTwiddleFactors R (2 ^ k / 2) = Ok (tab (2 ^ (k - 1) - 1) (tw_at R (k - 1)), tab (2 ^ (k - 1) - 1) (twi_at R (k - 1)))).
  { rewrite E2. apply genTwiddleFactors_ok. lia. }
  set (tw := tab (2 ^ (k - 1) - 1) (tw_at R (k - 1))) in *. set (twi := tab (2 ^ (k - 1) - 1) (twi_at R (k - 1))) in *.
  assert (Lt: zlen tw = 2 ^ (k - 1) - 1) by (apply zlen_tab; lia). assert (Li: zlen twi = 2 ^ (k - 1) - 1) by (apply zlen_tab; lia).
  set (zero := repeat (a_zero R) (Z.to_nat (2 ^ k))). assert (Lz: zlen zero = 2 ^ k) by (unfold zero; rewrite zlen_repeat; lia).
  set (D := repeat (a_zero R) (Z.to_nat (2 * 2 ^ k))). assert (LD: zlen D = 2 * 2 ^ k) by (unfold D; rewrite zlen_repeat; lia).
  assert (ED: D = zero ++ zero).
  { unfold D, zero. rewrite <- repeat_split. f_equal. lia. }
  assert (E8: 2 ^ k = 8 * 2 ^ (k - 3)) by (change 8 with (2 ^ 3); rewrite <- Z.pow_add_r by lia; f_equal; lia).
  assert (P8: 0 <= 2 ^ (k - 3)) by (apply Z.pow_nonneg; lia).
  exists tw, twi, D, zero. split; [unfold fft_evaluator; rewrite (degree_ok k) by lia; cbn [bind]; rewrite Et; reflexivity|].
  split; [unfold NewTRLWELv1FFTDummy; rewrite HN, make_ok by lia; reflexivity|]. split; [exact LD|].
  split; [unfold NewFourierPoly; rewrite (degree_ok k) by lia; cbn [bind]; rewrite make_ok by lia; reflexivity|]. split; [exact Lz|]. split.
  - intros p q x y c Hx Hy. split; [apply (toFourier_long R k Hk tw Lt); exact LD|].
    destruct (toPoly_long R k Hk twi Li D q LD) as (A1 & A2 & A3). do 3 (split; [assumption|]).
    repeat split; apply (elementwise_long R k Hk); auto.
  - intros q x z c Hx Hz.
    assert (EW: forall f v, zlen v = 2 ^ k -> elementwise R f v D z = elementwise R f v zero z).
    { intros f v Hv. rewrite ED. rewrite <- (app_nil_r v) at 1. apply (elementwise_front R f v zero [] zero z (2 ^ (k - 3))); lia. }
    assert (EW2: forall f, elementwise R f D D z = elementwise R f zero zero z).
    { intros f. rewrite ED. apply (elementwise_front R f zero zero zero zero z (2 ^ (k - 3))); lia. }
    split; [unfold toPolyCopy; rewrite ED, copy_front by congruence; reflexivity|].
    repeat split; first [apply EW; exact Hx|apply EW2].
Qed.

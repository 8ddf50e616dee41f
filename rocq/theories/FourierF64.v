(** * The polynomial API in float64

    One lemma per operation: what a value within [e] * 2^-53 * [S] of its
    exact counterpart becomes.  Then programs within the budget. *)
From Coq Require Import ZArith List Lia ZifyBool Reals Lra Psatz.
From Flocq Require Import Core BinarySingleNaN.
From Coquelicot Require Import Complex.
From Verif Require Import GoBase Spec GoFacts GoMem TlweFacts PolyFacts F64 F64Facts F64Err Poly Laws NegFacts Fft FftFacts FftTab FftOps CSum RSum FftReal CErr BfErr FftErr FftInv FftRound FftTabErr FftF64 FftProps
  FourierApi FourierSpec FourierFacts FourierRel FourierReal.
Local Open Scope R_scope.
Ltac Zify.zify_post_hook ::= idtac.

(** ** one complex number *)
Section Pt.
Context (mc : machine).
Notation FA := (f64_arith mc).

Record near (x : f64 * f64) (X : C) (S E : R) : Prop := {
  ne_fin : cfin x;
  ne_S : 1 <= S <= bp 400;
  ne_E : 0 <= E <= bp 25;
  ne_mod : Cmod X <= S;
  ne_err : Cmod (Cminus (cval x) X) <= E * u53 * S
}.

Lemma Eu_small E : 0 <= E <= bp 25 -> 0 <= E * u53 <= / 1000.
Proof.
  intro HE. pose proof u53_pos as U. split; [apply Rmult_le_pos; lra|]. apply Rle_trans with (bp 25 * u53); [apply Rmult_le_compat_r; lra|].
  unfold u53. rewrite <- bpow_plus. change (bp (25 + -53)) with (/ 268435456). lra.
Qed.
Lemma near_abs x X S E : near x X S E -> Cmod (cval x) <= 1.001 * S.
Proof.
  intros [F HS HE M Er]. pose proof (Cmod_near (cval x) X) as N. pose proof (Eu_small E HE) as Eu.
  assert (E * u53 * S <= / 1000 * S) by (apply Rmult_le_compat_r; lra). lra.
Qed.
Lemma big S : S <= bp 400 -> 4 * S <= bp 900.
Proof. intro HS. apply (bp_900 S 400); [lia|exact HS]. Qed.
Lemma eta_u S : 1 <= S -> 100 * eta <= u53 * S.
Proof.
  intro HS. pose proof u53_pos as U. apply Rle_trans with (bp 7 * bp (-1075)).
  - apply Rmult_le_compat_r; [apply bpow_ge_0|]. change (bp 7) with 128. lra.
  - rewrite <- bpow_plus. apply Rle_trans with (u53 * 1); [rewrite Rmult_1_r; unfold u53; apply bpow_le; lia|apply Rmult_le_compat_l; lra].
Qed.

Lemma near_add x y X Y S T E F M : near x X S E -> near y Y T F -> S + T <= bp 400 -> E <= M -> F <= M -> M + 2 <= bp 25 ->
  near (cxadd FA x y) (Cplus X Y) (S + T) (M + 2).
Proof.
  intros Nx Ny HB HM1 HM2 HM. pose proof (near_abs _ _ _ _ Nx) as Ax. pose proof (near_abs _ _ _ _ Ny) as Ay.
  destruct Nx as [Fx HS HE Mx Ex]. destruct Ny as [Fy HT HF My Ey]. pose proof u53_pos as U.
  destruct (cadd_err mc x y Fx Fy) as [Fz Ez]; [pose proof (big (S + T) HB); lra|].
  assert (St: 0 <= M * u53 <= / 1000) by (apply Eu_small; lra).
  assert (Sum: Cmod (Cminus (Cplus (cval x) (cval y)) (Cplus X Y)) <= M * u53 * (S + T)).
  { replace (Cminus (Cplus (cval x) (cval y)) (Cplus X Y)) with (Cplus (Cminus (cval x) X) (Cminus (cval y) Y)) by ring.
    apply Rle_trans with (1 := Cmod_triangle _ _).
    assert (E * u53 * S <= M * u53 * S) by (apply Rmult_le_compat_r; [lra|apply Rmult_le_compat_r; lra]).
    assert (F * u53 * T <= M * u53 * T) by (apply Rmult_le_compat_r; [lra|apply Rmult_le_compat_r; lra]). lra. }
  split.
  - exact Fz. - lra. - lra.
  - apply Rle_trans with (1 := Cmod_triangle _ _). lra.
  - apply Rle_trans with (1 := Cmod_tri3 _ (Cplus (cval x) (cval y)) _).
    assert (Cmod (Cplus (cval x) (cval y)) <= 1.001 * (S + T)) by (apply Rle_trans with (1 := Cmod_triangle _ _); lra).
    assert (u53 * Cmod (Cplus (cval x) (cval y)) <= u53 * (1.001 * (S + T))) by (apply Rmult_le_compat_l; lra).
    pose proof (eta_u (S + T) ltac:(lra)). assert (0 <= u53 * (S + T)) by (apply Rmult_le_pos; lra). lra.
Qed.
Lemma near_sub x y X Y S T E F M : near x X S E -> near y Y T F -> S + T <= bp 400 -> E <= M -> F <= M -> M + 2 <= bp 25 ->
  near (cxsub FA x y) (Cminus X Y) (S + T) (M + 2).
Proof.
  intros Nx Ny HB HM1 HM2 HM. pose proof (near_abs _ _ _ _ Nx) as Ax. pose proof (near_abs _ _ _ _ Ny) as Ay.
  destruct Nx as [Fx HS HE Mx Ex]. destruct Ny as [Fy HT HF My Ey]. pose proof u53_pos as U.
  destruct (csub_err mc x y Fx Fy) as [Fz Ez]; [pose proof (big (S + T) HB); lra|].
  assert (St: 0 <= M * u53 <= / 1000) by (apply Eu_small; lra).
  assert (Sum: Cmod (Cminus (Cminus (cval x) (cval y)) (Cminus X Y)) <= M * u53 * (S + T)).
  { replace (Cminus (Cminus (cval x) (cval y)) (Cminus X Y)) with (Cminus (Cminus (cval x) X) (Cminus (cval y) Y)) by ring.
    apply Rle_trans with (1 := Cmod_minus _ _).
    assert (E * u53 * S <= M * u53 * S) by (apply Rmult_le_compat_r; [lra|apply Rmult_le_compat_r; lra]).
    assert (F * u53 * T <= M * u53 * T) by (apply Rmult_le_compat_r; [lra|apply Rmult_le_compat_r; lra]). lra. }
  split.
  - exact Fz. - lra. - lra.
  - apply Rle_trans with (1 := Cmod_minus _ _). lra.
  - apply Rle_trans with (1 := Cmod_tri3 _ (Cminus (cval x) (cval y)) _).
    assert (Cmod (Cminus (cval x) (cval y)) <= 1.001 * (S + T)) by (apply Rle_trans with (1 := Cmod_minus _ _); lra).
    assert (u53 * Cmod (Cminus (cval x) (cval y)) <= u53 * (1.001 * (S + T))) by (apply Rmult_le_compat_l; lra).
    pose proof (eta_u (S + T) ltac:(lra)). assert (0 <= u53 * (S + T)) by (apply Rmult_le_pos; lra). lra.
Qed.
Lemma near_mul s x y X Y S T E F : near x X S E -> near y Y T F -> S * T <= bp 400 -> E + F + 4 <= bp 25 ->
  near (cxmul FA s x y) (Cmult X Y) (S * T) (E + F + 4).
Proof.
  intros Nx Ny HB HM. pose proof (near_abs _ _ _ _ Nx) as Ax. pose proof (near_abs _ _ _ _ Ny) as Ay.
  destruct Nx as [Fx HS HE Mx Ex]. destruct Ny as [Fy HT HF My Ey]. pose proof u53_pos as U.
  assert (ST: 1 <= S * T) by (rewrite <- (Rmult_1_l 1); apply Rmult_le_compat; lra).
  assert (Pr: Cmod (cval x) * Cmod (cval y) <= 1.003 * (S * T)).
  { apply Rle_trans with (1.001 * S * (1.001 * T)); [apply Rmult_le_compat; try apply Cmod_ge_0; assumption|].
    replace (1.001 * S * (1.001 * T)) with (1.002001 * (S * T)) by lra. lra. }
  destruct (cmul_err mc s x y Fx Fy) as [Fz Ez]; [pose proof (big (S * T) HB); lra|].
  split.
  - exact Fz. - lra. - lra.
  - rewrite Cmod_mult. apply Rmult_le_compat; try apply Cmod_ge_0; assumption.
  - apply Rle_trans with (1 := Cmod_tri3 _ (Cmult (cval x) (cval y)) _).
    pose proof (Cmul_diff (cval x) (cval y) X Y) as D.
    assert (D1: Cmod (Cminus (cval x) X) * Cmod Y <= E * u53 * S * T) by (apply Rmult_le_compat; try apply Cmod_ge_0; assumption).
    assert (D2: Cmod X * Cmod (Cminus (cval y) Y) <= S * (F * u53 * T)) by (apply Rmult_le_compat; try apply Cmod_ge_0; assumption).
    assert (D3: Cmod (Cminus (cval x) X) * Cmod (Cminus (cval y) Y) <= E * u53 * S * (F * u53 * T)) by (apply Rmult_le_compat; try apply Cmod_ge_0; assumption).
    assert (EF: E * F * u53 <= / 8).
    { apply Rle_trans with (bp 25 * bp 25 * u53).
      - apply Rmult_le_compat_r; [lra|]. apply Rmult_le_compat; lra.
      - unfold u53. rewrite <- !bpow_plus. change (bp (25 + 25 + -53)) with (/ 8). lra. }
    assert (D3': E * u53 * S * (F * u53 * T) <= / 8 * (u53 * (S * T))).
    { replace (E * u53 * S * (F * u53 * T)) with (E * F * u53 * (u53 * (S * T))) by ring. apply Rmult_le_compat_r; [|exact EF].
      apply Rmult_le_pos; lra. }
    assert (D4: 3 * u53 * (Cmod (cval x) * Cmod (cval y)) <= 3 * u53 * (1.003 * (S * T))) by (apply Rmult_le_compat_l; lra).
    pose proof (eta_u (S * T) ST) as Et.
    replace ((E + F + 4) * u53 * (S * T)) with (E * u53 * S * T + S * (F * u53 * T) + 4 * (u53 * (S * T))) by ring.
    assert (0 <= u53 * (S * T)) by (apply Rmult_le_pos; lra). lra.
Qed.
Lemma near_scale k x X S E : near x X S E -> (Z.abs k <= 2 ^ 53)%Z -> IZR (Z.max 1 (Z.abs k)) * S <= bp 400 -> E + 2 <= bp 25 ->
  near (lane FA (fun x _ _ => a_mul FA (a_of FA k) x) x x x) (Cmult (RtoC (IZR k)) X) (IZR (Z.max 1 (Z.abs k)) * S) (E + 2).
Proof.
  intros Nx Hk HB HM. pose proof (near_abs _ _ _ _ Nx) as Ax. destruct Nx as [[Fx1 Fx2] HS HE Mx Ex]. pose proof u53_pos as U. pose proof eta_pos as Et.
  destruct (f_of_Z_exact k Hk) as [Vk Fk]. set (K := IZR (Z.max 1 (Z.abs k))) in *.
  assert (K1: 1 <= K) by (apply IZR_le; lia). assert (Kk: Rabs (IZR k) <= K) by (rewrite <- abs_IZR; apply IZR_le; lia).
  assert (KS: 1 <= K * S) by (rewrite <- (Rmult_1_l 1); apply Rmult_le_compat; lra).
  pose proof (Rabs_pos (IZR k)) as Kp.
  set (z := Cmult (RtoC (IZR k)) (cval x)).
  assert (Zm: Cmod z <= 1.001 * (K * S)).
  { unfold z. rewrite Cmod_mult, Cmod_R. replace (1.001 * (K * S)) with (K * (1.001 * S)) by lra. apply Rmult_le_compat; try apply Cmod_ge_0; assumption. }
  assert (Z1: fst z = IZR k * val (fst x)) by (unfold z, Cmult, RtoC, cval; cbn [fst snd]; ring).
  assert (Z2: snd z = IZR k * val (snd x)) by (unfold z, Cmult, RtoC, cval; cbn [fst snd]; ring).
  pose proof (re_le z) as R1. pose proof (im_le z) as R2. pose proof (big (K * S) HB) as Bg.
  destruct (fmul_err (f_of_Z k) (fst x) Fk Fx1) as [G1 E1]; [rewrite Vk, <- Z1; apply big_trans; lra|].
  destruct (fmul_err (f_of_Z k) (snd x) Fk Fx2) as [G2 E2]; [rewrite Vk, <- Z2; apply big_trans; lra|].
  rewrite Vk, <- Z1 in E1. rewrite Vk, <- Z2 in E2.
  assert (Cm: Cmod (u53 * Rabs (fst z), u53 * Rabs (snd z)) <= u53 * Cmod z).
  { apply Cmod_le_sq; [apply Rmult_le_pos; [lra|apply Cmod_ge_0]|]. cbn [fst snd].
    replace (u53 * Cmod z * (u53 * Cmod z)) with (u53 * u53 * (Cmod z * Cmod z)) by ring. rewrite Cmod_sq. right.
    replace (u53 * Rabs (fst z) * (u53 * Rabs (fst z))) with (u53 * u53 * (Rabs (fst z) * Rabs (fst z))) by ring.
    replace (u53 * Rabs (snd z) * (u53 * Rabs (snd z))) with (u53 * u53 * (Rabs (snd z) * Rabs (snd z))) by ring.
    rewrite <- !Rabs_mult, !Rabs_pos_eq by apply Rle_0_sqr. ring. }
  split.
  - split; assumption. - lra. - lra.
  - rewrite Cmod_mult, Cmod_R. apply Rmult_le_compat; try apply Cmod_ge_0; assumption.
  - apply Rle_trans with (1 := Cmod_tri3 _ z _).
    assert (A1: Cmod (Cminus (cval (lane FA (fun x _ _ => a_mul FA (a_of FA k) x) x x x)) z) <= u53 * Cmod z + 2 * eta).
    { apply Rle_trans with (Cmod (u53 * Rabs (fst z), u53 * Rabs (snd z)) + 2 * eta); [|lra].
      apply (Cmod_comp _ _ _ _ eta); try lra; try (apply Rmult_le_pos; [lra|apply Rabs_pos]); assumption. }
    assert (A2: Cmod (Cminus z (Cmult (RtoC (IZR k)) X)) <= K * (E * u53 * S)).
    { unfold z. replace (Cminus (Cmult (RtoC (IZR k)) (cval x)) (Cmult (RtoC (IZR k)) X)) with (Cmult (RtoC (IZR k)) (Cminus (cval x) X)) by ring.
      rewrite Cmod_mult, Cmod_R. apply Rmult_le_compat; try apply Cmod_ge_0; assumption. }
    assert (A3: u53 * Cmod z <= u53 * (1.001 * (K * S))) by (apply Rmult_le_compat_l; lra).
    pose proof (eta_u (K * S) KS). assert (0 <= u53 * (K * S)) by (apply Rmult_le_pos; lra). replace ((E + 2) * u53 * (K * S)) with (K * (E * u53 * S) + 2 * (u53 * (K * S))) by ring. lra.
Qed.
(** o + k*x, rounded once or twice *)
Lemma near_scadd k x y o X T S U E G M : near x X S E -> near o T U G -> (Z.abs k <= 2 ^ 53)%Z ->
  U + IZR (Z.max 1 (Z.abs k)) * S <= bp 400 -> G <= M -> E + 2 <= M -> M + 2 <= bp 25 ->
  near (lane FA (fun x _ o => a_acc FA o (a_of FA k) x) x y o) (Cplus T (Cmult (RtoC (IZR k)) X)) (U + IZR (Z.max 1 (Z.abs k)) * S) (M + 2).
Proof.
  intros Nx No Hk HB HM1 HM2 HM.
  assert (K1: 1 <= IZR (Z.max 1 (Z.abs k))) by (apply IZR_le; lia).
  assert (HKS: IZR (Z.max 1 (Z.abs k)) * S <= bp 400) by (destruct No; lra).
  pose proof (near_scale k x X S E Nx Hk HKS ltac:(lra)) as Ns.
  unfold lane in *. cbn [f64_arith a_acc a_mul a_of fst snd] in *. unfold f_acc. destruct (m_acc mc).
  2:{ exact (near_add o _ T _ U _ G (E + 2) M No Ns HB HM1 HM2 HM). }
  clear Ns. pose proof (near_abs _ _ _ _ Nx) as Ax. pose proof (near_abs _ _ _ _ No) as Ao.
  destruct Nx as [[Fx1 Fx2] HS HE Mx Ex]. destruct No as [[Fo1 Fo2] HU HG Mo Eo]. pose proof u53_pos as Up. pose proof eta_pos as Et.
  destruct (f_of_Z_exact k Hk) as [Vk Fk]. set (K := IZR (Z.max 1 (Z.abs k))) in *.
  assert (Kk: Rabs (IZR k) <= K) by (rewrite <- abs_IZR; apply IZR_le; lia).
  assert (KS: 1 <= K * S) by (rewrite <- (Rmult_1_l 1); apply Rmult_le_compat; lra).
  pose proof (Rabs_pos (IZR k)) as Kp.
  set (w := Cmult (RtoC (IZR k)) (cval x)).
  assert (Wm: Cmod w <= 1.001 * (K * S)).
  { unfold w. rewrite Cmod_mult, Cmod_R. replace (1.001 * (K * S)) with (K * (1.001 * S)) by lra. apply Rmult_le_compat; try apply Cmod_ge_0; assumption. }
  set (z := Cplus (cval o) w).
  assert (Zm: Cmod z <= 1.001 * (U + K * S)) by (apply Rle_trans with (1 := Cmod_triangle _ _); lra).
  assert (Z1: fst z = IZR k * val (fst x) + val (fst o)) by (unfold z, w, Cmult, Cplus, RtoC, cval; cbn [fst snd]; ring).
  assert (Z2: snd z = IZR k * val (snd x) + val (snd o)) by (unfold z, w, Cmult, Cplus, RtoC, cval; cbn [fst snd]; ring).
  pose proof (re_le z) as R1. pose proof (im_le z) as R2. pose proof (big (U + K * S) HB) as Bg.
  destruct (ffma_err (f_of_Z k) (fst x) (fst o) Fk Fx1 Fo1) as [G1 E1]; [rewrite Vk, <- Z1; apply big_trans; lra|].
  destruct (ffma_err (f_of_Z k) (snd x) (snd o) Fk Fx2 Fo2) as [G2 E2]; [rewrite Vk, <- Z2; apply big_trans; lra|].
  rewrite Vk, <- Z1 in E1. rewrite Vk, <- Z2 in E2.
  assert (Cm: Cmod (u53 * Rabs (fst z), u53 * Rabs (snd z)) <= u53 * Cmod z).
  { apply Cmod_le_sq; [apply Rmult_le_pos; [lra|apply Cmod_ge_0]|]. cbn [fst snd].
    replace (u53 * Cmod z * (u53 * Cmod z)) with (u53 * u53 * (Cmod z * Cmod z)) by ring. rewrite Cmod_sq. right.
    replace (u53 * Rabs (fst z) * (u53 * Rabs (fst z))) with (u53 * u53 * (Rabs (fst z) * Rabs (fst z))) by ring.
    replace (u53 * Rabs (snd z) * (u53 * Rabs (snd z))) with (u53 * u53 * (Rabs (snd z) * Rabs (snd z))) by ring.
    rewrite <- !Rabs_mult, !Rabs_pos_eq by apply Rle_0_sqr. ring. }
  split.
  - split; assumption. - lra. - lra.
  - apply Rle_trans with (1 := Cmod_triangle _ _). rewrite Cmod_mult, Cmod_R.
    assert (Rabs (IZR k) * Cmod X <= K * S) by (apply Rmult_le_compat; try apply Cmod_ge_0; assumption). lra.
  - apply Rle_trans with (1 := Cmod_tri3 _ z _).
    assert (A1: Cmod (Cminus (cval (ffma (f_of_Z k) (fst x) (fst o), ffma (f_of_Z k) (snd x) (snd o))) z) <= u53 * Cmod z + 2 * eta).
    { apply Rle_trans with (Cmod (u53 * Rabs (fst z), u53 * Rabs (snd z)) + 2 * eta); [|lra].
      apply (Cmod_comp _ _ _ _ eta); try lra; try (apply Rmult_le_pos; [lra|apply Rabs_pos]); assumption. }
    assert (A2: Cmod (Cminus z (Cplus T (Cmult (RtoC (IZR k)) X))) <= G * u53 * U + K * (E * u53 * S)).
    { unfold z, w. replace (Cminus (Cplus (cval o) (Cmult (RtoC (IZR k)) (cval x))) (Cplus T (Cmult (RtoC (IZR k)) X)))
        with (Cplus (Cminus (cval o) T) (Cmult (RtoC (IZR k)) (Cminus (cval x) X))) by ring.
      apply Rle_trans with (1 := Cmod_triangle _ _). rewrite Cmod_mult, Cmod_R.
      assert (Rabs (IZR k) * Cmod (Cminus (cval x) X) <= K * (E * u53 * S)) by (apply Rmult_le_compat; try apply Cmod_ge_0; assumption). lra. }
    assert (A3: u53 * Cmod z <= u53 * (1.001 * (U + K * S))) by (apply Rmult_le_compat_l; lra).
    assert (A4: G * u53 * U <= M * u53 * U) by (apply Rmult_le_compat_r; [lra|apply Rmult_le_compat_r; lra]).
    assert (A5: K * (E * u53 * S) <= M * u53 * (K * S)).
    { replace (K * (E * u53 * S)) with (E * u53 * (K * S)) by ring. apply Rmult_le_compat_r; [lra|apply Rmult_le_compat_r; lra]. }
    pose proof (eta_u (U + K * S) ltac:(lra)). assert (0 <= u53 * (U + K * S)) by (apply Rmult_le_pos; lra).
    replace ((M + 2) * u53 * (U + K * S)) with (M * u53 * U + M * u53 * (K * S) + 2 * (u53 * (U + K * S))) by ring.
    apply Rle_trans with (1 := Rplus_le_compat _ _ _ _ A1 A2). lra.
Qed.
End Pt.

(** ** buffers *)
Section Buf.
Context (mc : machine).
Notation FA := (f64_arith mc).
Notation RA := real_arith.
Context (h : Z) (Hh : (3 <= h)%Z) (Hh2 : (h <= 50)%Z).
Notation HF := (2 ^ h)%Z.
Notation NF := (2 * 2 ^ h)%Z.
Notation ev P := (fun c => evalc HF (zpt h c) (fphi h P)).
Context (tf tfi : list (f64 * f64)) (Htf : near_tw mc tau0 h tf) (Htfi : near_twi mc tau0 h tfi).
Context (tw twi : list C) (Htw : exact_tw h tw) (Htwi : exact_twi h twi).

Definition frel_F (b : Z * Z) (P : poly) (x : list f64) : Prop :=
  forall c, (0 <= c < HF)%Z -> near (cx FA x c) (ev P c) (IZR (fst b)) (IZR (snd b)).

Lemma fits_inv s e c : fits s e = Some c -> c = (s, e) /\ IZR s <= bp 400 /\ IZR e <= bp 25.
Proof.
  unfold fits. destruct (s <=? 2 ^ 400)%Z eqn:E1; [|discriminate]. destruct (e <=? 2 ^ 25)%Z eqn:E2; [|discriminate]. cbn [andb].
  intro E. injection E as <-. split; [reflexivity|]. split; [change (bp 400) with (IZR (2 ^ 400))|change (bp 25) with (IZR (2 ^ 25))]; apply IZR_le; lia.
Qed.
Lemma cx_elw f x y o c : (0 <= c < HF)%Z -> cx FA (elw FA HF f x y o) c = f (cx FA x c) (cx FA y c) (cx FA o c).
Proof. intro Hc. unfold elw. rewrite (cx_lay FA HF (H_4 h Hh) _ c Hc). reflexivity. Qed.

Lemma max_le2 e f : IZR e <= IZR (Z.max e f) /\ IZR f <= IZR (Z.max e f).
Proof. split; apply IZR_le; lia. Qed.

Lemma F_zero : frel_F (1%Z, 0%Z) pzero (repeat (a_zero FA) (Z.to_nat NF)).
Proof.
  intros c Hc. cbn [fst snd]. rewrite (ev_zero h Hh). pose proof (pos_range HF (H_4 h Hh) c Hc). unfold cx. rewrite !znd_repeat by lia.
  assert (V: cval (a_zero FA, a_zero FA) = RtoC 0) by reflexivity.
  split.
  - split; reflexivity.
  - split; [lra|]. change 1 with (bp 0). apply bpow_le. lia.
  - split; [lra|apply bpow_ge_0].
  - rewrite Cmod_0. lra.
  - rewrite V. replace (Cminus (RtoC 0) (RtoC 0)) with (RtoC 0) by ring. rewrite Cmod_0. lra.
Qed.

Lemma F_of D b p : c_of (f64_costs h) D = Some b -> poly_ok NF p -> (forall i, (0 <= i < NF)%Z -> (Z.abs (centered (zn p i)) <= D)%Z) ->
  frel_F b (psigned (zn p)) (fft FA HF h tf (cvt FA HF p)).
Proof.
  intros E Hp HD c Hc. cbn [c_of f64_costs] in E. apply fits_inv in E. destruct E as (-> & B1 & B2). cbn [fst snd].
  pose proof (H_pos h Hh) as HP. set (D' := Z.min (Z.max 1 D) (2 ^ 31)).
  assert (HD': forall i, (0 <= i < NF)%Z -> (Z.abs (sgn p i) <= D')%Z).
  { intros i Hi. pose proof (HD i Hi) as D1. pose proof (centered_bound (zn p i)) as D2. change (sgn p i) with (centered (zn p i)) in *. unfold D'. lia. }
  destruct (of_err mc h Hh Hh2 tf tfi Htf tw twi Htw Htwi (proj1 Htf) (proj1 Htfi) p D' ltac:(unfold D'; lia) HD') as (F & A & Er).
  cbn [Fof fft_laws] in F, A, Er.
  assert (XS: Xs (Xp h D') (Z.to_nat h) <= IZR (NF * Z.max 1 D)).
  { apply Rle_trans with (IZR (NF * D')); [|apply IZR_le; apply Z.mul_le_mono_nonneg_l; unfold D'; lia].
    assert (N0: 0 <= IZR (NF * D')) by (apply IZR_le; unfold D'; lia).
    assert (X0: 0 <= Xs (Xp h D') (Z.to_nat h)).
    { apply Rle_trans with (2 := A). apply n2_pos. }
    apply Rsqr_incr_0_var; [|assumption]. unfold Rsqr. rewrite Xs_mul, Xp_mul by assumption. rewrite <- !mult_IZR. apply IZR_le.
    replace (NF * D' * (NF * D'))%Z with (2 * (HF * (NF * (D' * D'))))%Z by ring.
    assert (0 <= HF * (NF * (D' * D')))%Z by (apply Z.mul_nonneg_nonneg; [lia|apply Z.mul_nonneg_nonneg; [lia|apply Z.mul_nonneg_nonneg; unfold D'; lia]]). lia. }
  assert (T1 := n2_term HF _ c Hc (Cmod_ge_0 _) : _ <= n2 HF (aa (fft RA HF h tw (cvt RA HF p)))).
  assert (T2 := n2_term HF _ c Hc (Cmod_ge_0 _) : _ <= n2 HF (ea mc (fft FA HF h tf (cvt FA HF p)) (fft RA HF h tw (cvt RA HF p)))).
  assert (Eq: cxr (fft RA HF h tw (cvt RA HF p)) c = evalc HF (zpt h c) (fphi h (psigned (zn p)))).
  { rewrite (fft_phi h Hh tw Htw) by assumption. apply (ev_ext h Hh). reflexivity. }
  unfold aa at 1 in T1. unfold ea at 1 in T2. rewrite Eq in T1, T2. pose proof u53_pos as U. pose proof (h_R h Hh Hh2) as HR. pose proof (ef_ok h Hh Hh2) as EO.
  set (S := IZR (NF * Z.max 1 D)) in *. assert (S1: 1 <= S) by (apply IZR_le; lia).
  assert (He: IZR (32 * h) = 32 * IZR h) by (rewrite mult_IZR; reflexivity).
  split.
  - apply F. assumption.
  - split; assumption.
  - split; [rewrite He; lra|assumption].
  - lra.
  - apply Rle_trans with (1 := T2). apply Rle_trans with (1 := Er). rewrite He. apply Rle_trans with (ef h * S); [apply Rmult_le_compat_l; lra|].
    apply Rmult_le_compat_r; [lra|]. unfold ef. apply Rmult_le_compat_r; lra.
Qed.

Lemma F_read b P x : c_read (f64_costs h) b = true -> frel_F b P x -> forall i, (0 <= i < NF)%Z -> zn (Fto_list FA HF h tfi x) i = (P i mod two32)%Z.
Proof.
  destruct b as [s e]. cbn [c_read f64_costs]. intros Hr V i Hi. apply Z.ltb_lt in Hr. pose proof (H_pos h Hh) as HP. pose proof u53_pos as U.
  unfold frel_F in V. cbn [fst snd] in V. pose proof (h_R h Hh Hh2) as HR. pose proof (HF1 h Hh) as H1.
  destruct (V 0%Z ltac:(lia)) as [_ HS HE _ _].
  set (S := IZR s) in *. set (E := IZR e) in *. pose proof (Eu_small E HE) as Eu.
  set (X := lay RA HF (ev P)).
  assert (CX: forall c, (0 <= c < HF)%Z -> cxr X c = evalc HF (zpt h c) (fphi h P)) by (intros c Hc; unfold X; rewrite (cxr_lay h Hh) by assumption; reflexivity).
  assert (HS1: 1 <= IZR HF * S) by (rewrite <- (Rmult_1_l 1); apply Rmult_le_compat; lra).
  assert (Cl: close 0 (zn (Fto_list FA HF h tfi x) i) (P i)).
  { apply (to_close mc h Hh Hh2 tf tfi Htfi tw twi Htw Htwi (proj1 Htf) (proj1 Htfi) x X P (IZR HF * S) (IZR HF * (E * u53 * S)) 0).
    - exact HS1.
    - split; [apply Rmult_le_pos; [lra|apply Rmult_le_pos; lra]|]. replace (/ 50 * (IZR HF * S)) with (IZR HF * (/ 50 * S)) by ring.
      apply Rmult_le_compat_l; [lra|]. apply Rmult_le_compat_r; lra.
    - apply Rle_trans with (bp 50 * bp 400); [apply Rmult_le_compat; try lra; apply HF_bp; assumption|]. rewrite <- bpow_plus. apply bpow_le. lia.
    - intros c Hc. apply V. assumption.
    - apply Rle_trans with (rsum HF (fun _ => S)); [|rewrite rsum_const by lia; lra]. apply rsum_le. intros c Hc. unfold aa. rewrite CX by assumption. apply V. assumption.
    - apply Rle_trans with (rsum HF (fun _ => E * u53 * S)); [|rewrite rsum_const by lia; lra]. apply rsum_le. intros c Hc. unfold ea. rewrite CX by assumption. apply V. assumption.
    - exact CX.
    - rewrite kap0. replace (IZR HF * (E * u53 * S) + (1.1 * IZR h * (21 * u53) + 1.1 * u53) * (IZR HF * S)) with (IZR HF * (u53 * (S * (E + (23.1 * IZR h + 1.1))))) by lra.
      replace (IZR HF * (u53 * (S * (E + (23.1 * IZR h + 1.1)))) / IZR HF) with (u53 * (S * (E + (23.1 * IZR h + 1.1)))) by (field; lra).
      assert (Q: S * (E + (24 * IZR h + 3)) <= bp 52 - 1).
      { change (bp 52) with (IZR (2 ^ 52)). rewrite <- minus_IZR. apply Rle_trans with (IZR (s * (e + 24 * h + 3))); [|apply IZR_le; lia].
        rewrite mult_IZR, !plus_IZR, mult_IZR. unfold S, E. lra. }
      assert (Q2: u53 * (S * (E + (24 * IZR h + 3))) <= u53 * (bp 52 - 1)) by (apply Rmult_le_compat_l; lra).
      assert (Q3: u53 * bp 52 = / 2) by (unfold u53; rewrite <- bpow_plus; reflexivity).
      assert (Q4: S * (E + (23.1 * IZR h + 1.1)) <= S * (E + (24 * IZR h + 3))) by (apply Rmult_le_compat_l; lra).
      assert (Q5: u53 * (S * (E + (23.1 * IZR h + 1.1))) <= u53 * (S * (E + (24 * IZR h + 3)))) by (apply Rmult_le_compat_l; lra).
      pose proof (eta_u 1 ltac:(lra)). lra.
    - assumption. }
  destruct Cl as (d & Hd & Eq). replace d with 0%Z in Eq by lia. rewrite Z.add_0_r in Eq.
  assert (T: tok (zn (Fto_list FA HF h tfi x) i)).
  { unfold Fto_list. rewrite zn_tab by lia. unfold tok, w32, two32. apply Z.mod_pos_bound. lia. }
  unfold eqm, tok in *. rewrite (Z.mod_small (zn _ i)) in Eq by assumption. exact Eq.
Qed.

Lemma F_prod D1 D2 p q : c_prod (f64_costs h) D1 D2 = true -> poly_ok NF p -> poly_ok NF q ->
  (forall i, (0 <= i < NF)%Z -> (Z.abs (centered (zn p i)) <= D1)%Z) -> (forall i, (0 <= i < NF)%Z -> (Z.abs (centered (zn q i)) <= D2)%Z) ->
  forall i, (0 <= i < NF)%Z -> zn (Fto_list FA HF h tfi (prodl FA tf h p q)) i = (negacyclic NF (psigned (zn p)) (psigned (zn q)) i mod two32)%Z.
Proof.
  intros E Hp Hq Bp Bq i Hi. cbn [c_prod f64_costs] in E. apply Z.ltb_lt in E. pose proof (H_pos h Hh) as HP.
  set (D := Z.min (Z.max 1 D1) (2 ^ 31)). set (D' := Z.min (Z.max 1 D2) (2 ^ 31)).
  assert (L1: (1 <= D <= 2 ^ 31)%Z) by (unfold D; lia). assert (L2: (1 <= D' <= 2 ^ 31)%Z) by (unfold D'; lia).
  assert (Cl: close 0 (zn (Fto_list FA HF h tfi (prodl FA tf h p q)) i) (negacyclic NF (zn p) (zn q) i)).
  { pose proof (f64_facc_mul mc h Hh Hh2 tf tfi Htf Htfi tw twi Htw Htwi (proj1 Htf) (proj1 Htfi) D D' 0 L1 L2) as FM.
    unfold facc_mul in FM. cbn [Fto Fmul Fof fft_laws] in FM. apply FM; try assumption.
    - apply Z.le_lt_trans with (2 := E). apply Z.mul_le_mono_nonneg_r; [lia|]. apply Z.mul_le_mono_nonneg_l; [lia|]. apply Z.mul_le_mono_nonneg; unfold D, D'; lia.
    - intros j Hj. pose proof (Bp j Hj). pose proof (centered_bound (zn p j)). unfold D. lia.
    - intros j Hj. pose proof (Bq j Hj). pose proof (centered_bound (zn q j)). unfold D'. lia. }
  destruct Cl as (d & Hd & Eq). replace d with 0%Z in Eq by lia. rewrite Z.add_0_r in Eq.
  assert (T: tok (zn (Fto_list FA HF h tfi (prodl FA tf h p q)) i)).
  { unfold Fto_list. rewrite zn_tab by lia. apply tok_w32. }
  assert (Sg: eqm (negacyclic NF (zn p) (zn q) i) (negacyclic NF (psigned (zn p)) (psigned (zn q)) i)).
  { apply neg_eqm_args; [assumption| |]; intros j Hj; unfold psigned; symmetry; apply TlweFacts.centered_eq. }
  unfold eqm, tok in *. rewrite (Z.mod_small (zn _ i)) in Eq by assumption. rewrite Eq. exact Sg.
Qed.

Lemma f64_sound : sound FA tf tfi h (f64_costs h) frel_F.
Proof.
  split.
  - intros b P Q x E V c Hc. rewrite <- (ev_ext h Hh P Q) by assumption. apply V. assumption.
  - exact F_zero.
  - exact F_of.
  - intros [s e] [t f] b P Q x y o E V W c Hc. cbn [c_add f64_costs] in E. apply fits_inv in E. destruct E as (-> & B1 & B2). cbn [fst snd].
    rewrite cx_elw, (ev_add h Hh) by assumption. rewrite !plus_IZR in *. destruct (max_le2 e f).
    apply (near_add mc _ _ _ _ _ _ (IZR e) (IZR f)); try assumption; [apply V|apply W]; assumption.
  - intros [s e] [t f] b P Q x y o E V W c Hc. cbn [c_add f64_costs] in E. apply fits_inv in E. destruct E as (-> & B1 & B2). cbn [fst snd].
    rewrite cx_elw, (ev_sub h Hh) by assumption. rewrite !plus_IZR in *. destruct (max_le2 e f).
    apply (near_sub mc _ _ _ _ _ _ (IZR e) (IZR f)); try assumption; [apply V|apply W]; assumption.
  - intros [s e] [t f] b P Q x y o E V W c Hc. cbn [c_mul f64_costs] in E. apply fits_inv in E. destruct E as (-> & B1 & B2). cbn [fst snd].
    rewrite cx_elw by assumption. rewrite (eval_mul h Hh) by (apply (zpt_root h Hh); assumption). rewrite !plus_IZR, mult_IZR in *.
    apply near_mul; try assumption; [apply V|apply W]; assumption.
  - intros [s e] [t f] [u g] b P Q T x y o E V W Z c Hc. cbn [c_ma f64_costs] in E. apply fits_inv in E. destruct E as (-> & B1 & B2). cbn [fst snd].
    rewrite cx_elw, (ev_add h Hh) by assumption. rewrite (eval_mul h Hh) by (apply (zpt_root h Hh); assumption).
    destruct (max_le2 g (e + f + 4)). rewrite (plus_IZR (Z.max _ _)) in *. rewrite (plus_IZR u), mult_IZR in *. rewrite !plus_IZR in H0.
    specialize (V c Hc). specialize (W c Hc). specialize (Z c Hc). cbn [fst snd] in V, W, Z.
    destruct V as [? ? ? ? ?], Z as [? ? ? ? ?].
    apply (near_add mc _ _ _ _ _ _ (IZR g) (IZR e + IZR f + 4)); try assumption; [split; assumption|].
    apply near_mul; try assumption; [split; assumption|lra|lra].
  - intros [s e] [t f] [u g] b P Q T x y o E V W Z c Hc. cbn [c_ma f64_costs] in E. apply fits_inv in E. destruct E as (-> & B1 & B2). cbn [fst snd].
    rewrite cx_elw, (ev_sub h Hh) by assumption. rewrite (eval_mul h Hh) by (apply (zpt_root h Hh); assumption).
    destruct (max_le2 g (e + f + 4)). rewrite (plus_IZR (Z.max _ _)) in *. rewrite (plus_IZR u), mult_IZR in *. rewrite !plus_IZR in H0.
    specialize (V c Hc). specialize (W c Hc). specialize (Z c Hc). cbn [fst snd] in V, W, Z.
    destruct V as [? ? ? ? ?], Z as [? ? ? ? ?].
    apply (near_sub mc _ _ _ _ _ _ (IZR g) (IZR e + IZR f + 4)); try assumption; [split; assumption|].
    apply near_mul; try assumption; [split; assumption|lra|lra].
  - intros k [s e] b P x y o E V c Hc. cbn [c_scale f64_costs] in E. destruct (Z.abs k <=? 2 ^ 53)%Z eqn:Ek; [|discriminate].
    apply fits_inv in E. destruct E as (-> & B1 & B2). cbn [fst snd]. rewrite cx_elw, (ev_scale h Hh) by assumption. rewrite plus_IZR, mult_IZR in *.
    apply (near_scale mc k (cx FA x c)); try assumption; [apply V; assumption|lia].
  - intros k [s e] [u g] b P T x y o E V W c Hc. cbn [c_scadd f64_costs] in E. destruct (Z.abs k <=? 2 ^ 53)%Z eqn:Ek; [|discriminate].
    apply fits_inv in E. destruct E as (-> & B1 & B2). cbn [fst snd]. rewrite cx_elw, (ev_add h Hh), (ev_scale h Hh) by assumption.
    destruct (max_le2 g (e + 2)). rewrite (plus_IZR (Z.max _ _)) in *. rewrite (plus_IZR u), mult_IZR in *. rewrite !plus_IZR in H0.
    specialize (V c Hc). specialize (W c Hc). cbn [fst snd] in V, W. destruct W as [? ? ? ? ?].
    apply (near_scadd mc k _ _ _ _ _ _ _ (IZR e) (IZR g)); try assumption; [split; assumption|lia].
  - exact F_read.
  - exact F_prod.
Qed.
End Buf.

(** ** programs *)
Lemma api_f64 mc k (m0 : mem (list f64)) : mc_ok mc -> (4 <= k <= 51)%Z -> exists tw twi e m,
  genTwiddleFactors (f64_arith mc) (2 ^ k / 2) = Ok (tw, twi) /\
  NewPolyEvaluator (fft_ops (f64_arith mc) tw twi) m0 (2 ^ k) = Ok (e, m) /\
  forall prog V, mean (2 ^ k) prog ([], []) = Ok V -> affordable k prog = true ->
    exists w, exec (f64_arith mc) tw twi e prog (m, [], []) = Ok w /\ agrees (2 ^ k) V w.
Proof.
  intros Hc Hk. destruct (pow_half k ltac:(lia)) as (P1 & P2 & P3). assert (P4: (k - 1 <= 50)%Z) by lia.
  destruct (real_tables (k - 1) P3) as (rw & rwi & _ & Ht & Hi).
  destruct (f64_tables mc Hc (k - 1) P3 P4) as (tw & twi & T & Nt & Ni). rewrite <- P2 in T.
  destruct (fresh_evaluator (f64_arith mc) k ltac:(lia) tw twi m0 T) as (e & m & E & Hd & Lt & Li & Ze & He).
  exists tw, twi, e, m. split; [exact T|]. split; [exact E|]. intros prog V Hm Ha. unfold affordable in Ha.
  destruct (budget (f64_costs (k - 1)) prog ([], [])) as [Bs'|] eqn:Hb; [|discriminate].
  destruct (steps (f64_arith mc) tw twi e (k - 1) P3 (H_pos _ P3) (H_4 _ P3) Lt Li Hd (f64_costs (k - 1)) (frel_F mc (k - 1)) True
    (fun _ => f64_sound mc (k - 1) P3 P4 tw twi Nt Ni rw rwi Ht Hi)
    (2 ^ k) prog P1 ([], []) ([], []) (m, [], []) V Bs' (rel0 (f64_arith mc) k _ _ _ e m Ze He) Hm Hb) as (w' & Ew & Rl).
  exists w'. split; [exact Ew|]. exact (rel_agrees (f64_arith mc) k ltac:(lia) _ _ _ e V Bs' w' I Rl).
Qed.

(** * The noise of the bootstrapping key and what its absence reveals *)
From Coq Require Import Lia ZifyBool List QArith Qreals Reals Lra.
From Flocq Require Import Core BinarySingleNaN.
From Verif Require Import GoBase GoFacts GoMem F64 F64Facts Utils UtilsFacts Spec Params Key Tlwe Poly Fft FftTabErr FftProps Trlwe Trgsw CloudKey RunSpec
  BasicFacts PolyFacts Laws TrlweFacts KeySwitchFacts TrgswFacts CloudKeyFacts NoiseFacts RunProps BootFacts GateFacts RlweProps Attack AttackFacts.
Import ListNotations.
Local Open Scope Z_scope.
Ltac Zify.zify_post_hook ::= idtac.

(** ** Rounding of a noise sample *)
Lemma Ztrunc_small x : (Rabs x < 1)%R -> Ztrunc x = 0.
Proof.
  intro H. apply Rabs_def2 in H. destruct (Rle_dec 0 x).
  - rewrite Ztrunc_floor by assumption. apply Zfloor_imp. simpl. lra.
  - rewrite Ztrunc_ceil by lra. apply Zceil_imp. simpl. lra.
Qed.

Lemma noise_zero x : is_finite x = true -> (Rabs (val x) < 1)%R -> (F64ToTorus x = 0 <-> (Rabs (val x) < / 4294967296)%R).
Proof.
  intros Hf H1. rewrite F64ToTorus_real by assumption. rewrite (Ztrunc_small (val x)) by exact H1. rewrite Rminus_0_r.
  assert (E: (Rabs (val x * 4294967296) = Rabs (val x) * 4294967296)%R) by (rewrite Rabs_mult, (Rabs_pos_eq 4294967296) by lra; reflexivity).
  split; intro H.
  - destruct (Rlt_dec (Rabs (val x)) (/ 4294967296)) as [|Hn]; [assumption|exfalso].
    assert (B: (1 <= Rabs (val x * 4294967296) < 4294967296)%R) by (rewrite E; lra).
    assert (T: 1 <= Z.abs (Ztrunc (val x * 4294967296)) <= 4294967295).
    { rewrite <- Ztrunc_abs. rewrite Ztrunc_floor by apply Rabs_pos. split; [apply Zfloor_lub; simpl; lra|].
      apply Zlt_succ_le. apply lt_IZR. apply Rle_lt_trans with (1 := Zfloor_lb _). simpl. lra. }
    apply Z.mod_divide in H; [|unfold two32; lia]. destruct H as [q Hq]. rewrite Hq in T. unfold two32 in T. nia.
  - rewrite Ztrunc_small; [reflexivity|]. rewrite E. lra.
Qed.

(** ** Standard deviations of the shipped sets *)
Lemma alpha_fine level : 2 <= level <= 8 -> (100 * Q2R (BSKAlpha level) < / 4294967296)%R.
Proof.
  intro H. assert (C: level = 2 \/ level = 3 \/ level = 4 \/ level = 5 \/ level = 6 \/ level = 7 \/ level = 8) by lia.
  repeat destruct C as [->|C]; [| | | | | |subst]; cbv [BSKAlpha get_params Z.eqb Pos.eqb Security80Bit Security110Bit SecurityUint1 SecurityUint2 SecurityUint3 SecurityUint4
    SecurityUint5 SecurityUint6 SecurityUint7 SecurityUint8 lv1_ALPHA paramsUint2 paramsUint3 paramsUint4 paramsUint5 paramsUint6 paramsUint7 paramsUint8];
    unfold Q2R; cbn [Qnum Qden]; lra.
Qed.

Lemma alpha_coarse level : ~ 2 <= level <= 8 -> (64 / 4294967296 <= Q2R (BSKAlpha level))%R.
Proof.
  intro H. unfold BSKAlpha, get_params.
  destruct (Z.eqb_spec level Security80Bit); [cbn [lv1_ALPHA params80Bit]; unfold Q2R; cbn [Qnum Qden]; lra|].
  destruct (Z.eqb_spec level Security110Bit); [cbn [lv1_ALPHA params110Bit]; unfold Q2R; cbn [Qnum Qden]; lra|].
  destruct (Z.eqb_spec level SecurityUint1); [cbn [lv1_ALPHA paramsUint1]; unfold Q2R; cbn [Qnum Qden]; lra|].
  unfold SecurityUint2, SecurityUint3, SecurityUint4, SecurityUint5, SecurityUint6, SecurityUint7, SecurityUint8.
  repeat match goal with |- context [level =? ?x] => destruct (Z.eqb_spec level x); [lia|] end.
  cbn [lv1_ALPHA params128Bit]. unfold Q2R; cbn [Qnum Qden]; lra.
Qed.

(** ** The attack on a key whose rows carry no noise *)
Lemma round_trip_law mc k O (L : flaws O (2 ^ k)) : mc_ok mc -> 4 <= k <= 21 -> fft_evaluator (f64_arith mc) (2 ^ k) = Ok O ->
  forall p, poly_ok (2 ^ k) p -> Fto L (Fof L p) = p.
Proof.
  intros Hc Hk EO p Hp. destruct (f64_round_trip mc k Hc Hk) as (tf & tfi & E & RT). rewrite EO in E. injection E as ->.
  pose proof (law_new L) as Hz. cbn [f_new fft_ops] in Hz.
  assert (Hl: zlen (Fzero L) = 2 ^ k).
  { unfold NewFourierPoly in Hz. rewrite (law_deg L) in Hz. cbn [bind] in Hz. rewrite make_ok in Hz by (apply Z.pow_nonneg; lia).
    injection Hz as <-. rewrite zlen_repeat. pose proof (Z.pow_nonneg 2 k). lia. }
  specialize (RT p (Fzero L) p Hp Hl (proj1 Hp)). unfold FourierRoundTrip in RT.
  rewrite (law_of L p (Fzero L) (proj1 Hp) (law_zero L)) in RT. cbn [bind] in RT.
  destruct (law_to L (Fof L p) p (law_of_ok L p (proj1 Hp)) (proj1 Hp)) as (x & E & _). rewrite E in RT. cbn [bind] in RT.
  injection RT as RT. exact RT.
Qed.

Lemma a_noiseless mc O pr sk rk rb ck : mc_ok mc -> setup (f64_arith mc) O pr sk rk rb ck ->
  g_NBIT pr <= 11 -> g_L pr * g_BGBIT pr <= 31 ->
  (forall i j k, 0 <= k < g_N pr -> F64ToTorus (tr_noise (rb i j) k) = 0) ->
  (exists i j, 0 <= i < lv0_N pr /\ 0 <= j < 2 * g_L pr /\ Z.odd (zsum (g_N pr) (fun k => tr_mask (rb i j) k)) = true) ->
  steal O (g_N pr) (g_L pr) (BootstrappingKey ck) = Ok sk.
Proof.
  intros Hc ([W HBG] & EO & Hk & Eck) H11 Hlow Hz Hodd. pose proof (pw_N _ _ W) as HN. pose proof (pw_nb _ _ W) as Hnb.
  assert (H4: 4 <= g_NBIT pr).
  { destruct (eval_pow2 _ _ _ EO) as (k & Hk4 & E). rewrite HN in E. apply Z.pow_inj_r in E; lia. }
  destruct (key_ok_N pr W sk Hk) as [H0 H1].
  assert (EO' := EO). rewrite HN in EO'. destruct (f64_laws mc (g_NBIT pr) O Hc ltac:(lia) EO') as (L & _ & HL2).
  pose proof (round_trip_law mc (g_NBIT pr) O L Hc ltac:(lia) EO') as Hrt.
  assert (Hmul: facc_mul L two31 1 0).
  { apply HL2; [unfold two31; lia|lia|].
    assert (P: 0 < 2 ^ g_NBIT pr <= 2 ^ 11) by (split; [apply Z.pow_pos_nonneg; lia|apply Z.pow_le_mono_r; lia]).
    unfold two31. change (2 ^ 52) with 4503599627370496. change (2 ^ 11) with 2048 in P. nia. }
  rewrite HN in W, Hz, Hodd, H1 |- *.
  rewrite (NewCloudKey_ok L pr W sk rb (proj1 H0) (proj1 H1) rk HBG) in Eck. injection Eck as <-. cbn [BootstrappingKey].
  apply (steal_ok L pr W Hlow Hrt Hmul sk rb H0 H1 Hz Hodd).
Qed.

Lemma a_levels level : 2 <= level <= 8 -> g_NBIT (get_params level) <= 11 /\ g_L (get_params level) * g_BGBIT (get_params level) <= 31.
Proof.
  intro H. assert (C: level = 2 \/ level = 3 \/ level = 4 \/ level = 5 \/ level = 6 \/ level = 7 \/ level = 8) by lia.
  repeat destruct C as [->|C]; [| | | | | |subst]; vm_compute; split; discriminate.
Qed.

Lemma a_small level x : 2 <= level <= 8 -> is_finite x = true -> (Rabs (val x) <= 100 * Q2R (BSKAlpha level))%R -> F64ToTorus x = 0.
Proof.
  intros Hl Hf Hx. pose proof (alpha_fine level Hl). apply noise_zero; [assumption| |]; lra.
Qed.

Lemma a_steal level mc O sk rk rb ck : 2 <= level <= 8 -> mc_ok mc ->
  setup (f64_arith mc) O (get_params level) sk rk rb ck ->
  (forall i j k, is_finite (tr_noise (rb i j) k) = true /\ (Rabs (val (tr_noise (rb i j) k)) <= 100 * Q2R (BSKAlpha level))%R) ->
  (exists i j, 0 <= i < lv0_N (get_params level) /\ 0 <= j < 2 * g_L (get_params level) /\
     Z.odd (zsum (g_N (get_params level)) (fun k => tr_mask (rb i j) k)) = true) ->
  steal O (g_N (get_params level)) (g_L (get_params level)) (BootstrappingKey ck) = Ok sk.
Proof.
  intros Hl Hc Hs Hn Ho. destruct (a_levels level Hl) as [H1 H2].
  apply (a_noiseless mc O (get_params level) sk rk rb ck Hc Hs H1 H2); [|exact Ho].
  intros i j k _. destruct (Hn i j k) as [A B]. apply (a_small level); assumption.
Qed.

(** * Properties C12 (agreement), C17, C20-C23, C25 (bootstrapping key), C46

    The vocabulary is in RunSpec.v: [reachable] states of an evaluator,
    [preachable] states of a polynomial evaluator, [table] (a TRLWE ciphertext
    in user buffers), [room] (where one may be written), [trgsw_of] (a TRGSW
    encryption as the code makes it), [product_of], [product_worst].
    [rlwe_phase N s a b] is b - a*s, coefficient by coefficient. *)
From Coq Require Import Lia List.
From Verif Require Import GoBase GoFacts GoMem F64 Utils Spec Params Key Tlwe Poly Fft FftTabErr Trlwe Trgsw Evaluator CloudKey Gates
  BasicFacts RunSpec Circuit RunProps RlweProps KeyProps RunWorst RunStart Tiny TinyRun.
Import ListNotations.
Local Open Scope Z_scope.

Notation phase N s c := (rlwe_phase N s (tA c) (tB c)).

(** ** C12: the two decompositions agree *)
Theorem C12_agree : forall R O pr p (m : mem (FP O)) r c off F (m2 : mem F) a b out,
  good_params pr -> fft_evaluator R (g_N pr) = Ok O -> preachable O pr p m -> ptable O pr m p r c ->
  tm m2 a = tA c -> tm m2 b = tB c -> ~ (out <= a < out + 2 * g_L pr) -> ~ (out <= b < out + 2 * g_L pr) ->
  (forall i, 0 <= i < 2 * g_L pr -> zlen (tm m2 (out + i)) = g_N pr) ->
  exists m1 m3 m4, decompositionInPlace O pr m r off p = Ok m1 /\
    DecomposePolyAssign m2 a (g_BGBIT pr) (g_L pr) off out = Ok m3 /\
    DecomposePolyAssign m3 b (g_BGBIT pr) (g_L pr) off (out + g_L pr) = Ok m4 /\
    forall i, 0 <= i < 2 * g_L pr -> exists x, GetDecompBuffer p i = Ok x /\ tm m1 x = tm m4 (out + i).
Proof. exact k_decompositions. Qed.
Print Assumptions C12_agree.

(** ** C17: encrypting and decrypting a polynomial of bits *)
Theorem C17_roundtrip : forall R O pr bits key r, good_params pr -> fft_evaluator R (g_N pr) = Ok O ->
  zlen bits = g_N pr -> zlen key = g_N pr ->
  exists ct out, (t <- NewTRLWELv1 pr ;; TrlweEncryptBool O (g_N pr) pr t bits key r) = Ok ct /\
    TrlweDecryptBool O (g_N pr) ct key = Ok out /\ zlen out = g_N pr /\
    forall i, 0 <= i < g_N pr ->
      (znd false out i = znd false bits i <-> bool_noise_ok (znd false bits i) (centered (F64ToTorus (tr_noise r i)))).
Proof. exact k_trlwe. Qed.
Print Assumptions C17_roundtrip.

(** what is encrypted, seen with exact arithmetic: the floating point product
    is off by at most [d'] *)
Theorem C17_phase : forall mc O pr d d' bits key r, mc_ok mc -> good_params pr -> fft_evaluator (f64_arith mc) (g_N pr) = Ok O ->
  fft_error_within pr d d' -> zlen bits = g_N pr -> bin_key (g_N pr) key ->
  exists ct, (t <- NewTRLWELv1 pr ;; TrlweEncryptBool O (g_N pr) pr t bits key r) = Ok ct /\
    zlen (tA ct) = g_N pr /\ zlen (tB ct) = g_N pr /\ tok_list (tA ct) /\ tok_list (tB ct) /\
    forall i, 0 <= i < g_N pr ->
      close d' (phase (g_N pr) key ct i) (mu_bit (znd false bits i) + centered (F64ToTorus (tr_noise r i))).
Proof. exact k_trlwe_phase. Qed.
Print Assumptions C17_phase.

(** ** C20: external product

    [product_of] (RunSpec.v): signed digits [dg] of the ciphertext and row
    noises [er], within [d'] of the samples drawn, such that the phase of the
    result is, up to the rounding of the transform,
    p*phase(c) + sum of digit*noise - p*(what the decomposition dropped). *)
Theorem C20_product : forall mc O pr d d', mc_ok mc -> good_params pr -> fft_evaluator (f64_arith mc) (g_N pr) = Ok O ->
  fft_error_within pr d d' ->
  forall s p rs g off e (m : mem (FP O)) r c out, bin_key (g_N pr) s -> trgsw_of O pr s p rs g -> genDecompositionOffset pr = Ok off ->
  reachable O pr e m -> table O pr m e r c -> room O pr m e out ->
  exists m', ExternalProductAssign O pr m e g r off out = Ok m' /\ product_of pr s p rs d d' c (ct_at m' out) /\
    reachable O pr e m' /\ user_kept_but e out m m'.
Proof. exact r_product. Qed.
Print Assumptions C20_product.

Theorem C20_product_trgsw : forall mc O pr d d', mc_ok mc -> good_params pr -> fft_evaluator (f64_arith mc) (g_N pr) = Ok O ->
  fft_error_within pr d d' ->
  forall s p rs g off q (m : mem (FP O)) r c, bin_key (g_N pr) s -> trgsw_of O pr s p rs g -> genDecompositionOffset pr = Ok off ->
  preachable O pr q m -> ptable O pr m q r c ->
  exists out m', ExternalProductWithFFT O pr m g r off q = Ok (out, m') /\ product_of pr s p rs d d' c (ct_at m' out) /\
    preachable O pr q m' /\ forall x, puser O m q x -> puser O m' q x /\ tm m' x = tm m x.
Proof. exact r_pproduct. Qed.
Print Assumptions C20_product_trgsw.

(** with samples of absolute value at most B, the error has a bound that does
    not depend on the ciphertext *)
Theorem C20_worst : forall mc O pr d d', mc_ok mc -> good_params pr -> fft_evaluator (f64_arith mc) (g_N pr) = Ok O ->
  fft_error_within pr d d' ->
  forall s p rs c c' B, bin_key (g_N pr) s -> product_of pr s p rs d d' c c' -> 0 <= B -> 0 <= d' ->
  (forall i k, 0 <= k < g_N pr -> Z.abs (samples rs i k) <= B) ->
  forall k, 0 <= k < g_N pr -> close (product_worst pr s p B d d') (phase (g_N pr) s c' k) (p * phase (g_N pr) s c k).
Proof. exact r_worst. Qed.
Print Assumptions C20_worst.

(** ** C21: CMUX.  For p = 0 the target is the phase of c0, for p = 1 that of c1. *)
Theorem C21_cmux : forall mc O pr d d', mc_ok mc -> good_params pr -> fft_evaluator (f64_arith mc) (g_N pr) = Ok O ->
  fft_error_within pr d d' ->
  forall s p rs g off e (m : mem (FP O)) r0 c0 r1 c1 out B, bin_key (g_N pr) s -> trgsw_of O pr s p rs g ->
  genDecompositionOffset pr = Ok off ->
  0 <= B -> 0 <= d' -> (forall i k, 0 <= k < g_N pr -> Z.abs (samples rs i k) <= B) ->
  reachable O pr e m -> table O pr m e r0 c0 -> table O pr m e r1 c1 -> room O pr m e out ->
  r0 = out \/ disjoint r0 out -> disjoint r1 out ->
  exists m', CMuxAssign O pr m e g r0 r1 off out = Ok m' /\
    (forall k, 0 <= k < g_N pr -> close (product_worst pr s p B d d') (phase (g_N pr) s (ct_at m' out) k)
       (phase (g_N pr) s c0 k + p * (phase (g_N pr) s c1 k - phase (g_N pr) s c0 k))) /\
    reachable O pr e m' /\ user_kept_but e out m m'.
Proof. exact r_cmux. Qed.
Print Assumptions C21_cmux.

Theorem C21_cmux_trgsw : forall mc O pr d d', mc_ok mc -> good_params pr -> fft_evaluator (f64_arith mc) (g_N pr) = Ok O ->
  fft_error_within pr d d' ->
  forall s p rs g off q (m : mem (FP O)) r0 c0 r1 c1 B, bin_key (g_N pr) s -> trgsw_of O pr s p rs g ->
  genDecompositionOffset pr = Ok off ->
  0 <= B -> 0 <= d' -> (forall i k, 0 <= k < g_N pr -> Z.abs (samples rs i k) <= B) ->
  preachable O pr q m -> ptable O pr m q r0 c0 -> ptable O pr m q r1 c1 ->
  exists out m', CMUX O pr m r0 r1 g off q = Ok (out, m') /\
    (forall k, 0 <= k < g_N pr -> close (product_worst pr s p B d d') (phase (g_N pr) s (ct_at m' out) k)
       (phase (g_N pr) s c0 k + p * (phase (g_N pr) s c1 k - phase (g_N pr) s c0 k))) /\
    preachable O pr q m' /\ forall x, puser O m q x -> puser O m' q x /\ tm m' x = tm m x.
Proof. exact r_pcmux. Qed.
Print Assumptions C21_cmux_trgsw.

(** When the output is the second operand, that operand is overwritten before
    it is read: the result is the first operand, whatever the condition [p]. *)
Theorem C21_second_operand_lost : forall mc O pr d d', mc_ok mc -> good_params pr -> fft_evaluator (f64_arith mc) (g_N pr) = Ok O ->
  fft_error_within pr d d' ->
  forall s p rs g off e (m : mem (FP O)) r0 c0 out B, bin_key (g_N pr) s -> trgsw_of O pr s p rs g ->
  genDecompositionOffset pr = Ok off ->
  0 <= B -> 0 <= d' -> (forall i k, 0 <= k < g_N pr -> Z.abs (samples rs i k) <= B) ->
  reachable O pr e m -> table O pr m e r0 c0 -> room O pr m e out -> disjoint r0 out ->
  exists m', CMuxAssign O pr m e g r0 out off out = Ok m' /\
    (forall k, 0 <= k < g_N pr -> close (product_worst pr s p B d d') (phase (g_N pr) s (ct_at m' out) k) (phase (g_N pr) s c0 k)) /\
    reachable O pr e m' /\ user_kept_but e out m m'.
Proof. exact r_cmux_alias. Qed.
Print Assumptions C21_second_operand_lost.

(** ** C22: blind rotation *)
Theorem C22_rotate : forall R O pr sk rk rb ck, setup R O pr sk rk rb ck ->
  forall e (m : mem (FP O)) ct tvr tv out eta,
  reachable O pr e m -> input O pr m e ct -> table O pr m e tvr tv -> room O pr m e out ->
  cmux_noise O pr sk (BootstrappingKey ck) (DecompositionOffset ck) (tm m ct) tv eta ->
  exists m', BlindRotateAssign O pr m e ct tvr (BootstrappingKey ck) (DecompositionOffset ck) out = Ok m' /\
    (forall k, 0 <= k < g_N pr ->
      close (zsum (lv0_N pr) eta + (1 + weight (lv0_N pr) (KeyLv0 sk)) * (1 + weight (g_N pr) (KeyLv1 sk)))
        (phase (g_N pr) (KeyLv1 sk) (ct_at m' out) k)
        (mono_mul (g_N pr) (- rotation_index pr (KeyLv0 sk) (tm m ct)) (phase (g_N pr) (KeyLv1 sk) tv) k)) /\
    reachable O pr e m' /\ user_kept_but e out m m'.
Proof. exact r_rotate. Qed.
Print Assumptions C22_rotate.

(** the exponent is the phase of the ciphertext, scaled to 2N steps, up to the
    rounding of its n + 1 coefficients *)
Theorem C22_exponent : forall R O pr sk rk rb ck, setup R O pr sk rk rb ck -> forall ct,
  close (round_err pr sk) (rotation_index pr (KeyLv0 sk) ct * 2 ^ (31 - g_NBIT pr)) (lwe_phase (lv0_N pr) (KeyLv0 sk) ct).
Proof. exact r_index. Qed.
Print Assumptions C22_exponent.

(** in binary64 every step adds at most [cmux_worst], whatever the input *)
Theorem C22_step_noise : forall mc O pr sk rk rb ck Bb Bk d d' ct tv, mc_ok mc -> setup (f64_arith mc) O pr sk rk rb ck ->
  fft_error_within pr d d' -> key_noise_within pr rk rb Bb Bk -> 0 <= Bb -> 0 <= d' ->
  zlen (tA tv) = g_N pr -> zlen (tB tv) = g_N pr -> tok_list (tA tv) -> tok_list (tB tv) -> zlen ct = lv0_N pr + 1 ->
  cmux_noise O pr sk (BootstrappingKey ck) (DecompositionOffset ck) ct tv (fun _ => cmux_worst pr sk Bb d d').
Proof. exact r_rotate_worst. Qed.
Print Assumptions C22_step_noise.

(** ** C23: the two blind rotations return the same ciphertext *)
Theorem C23_same : forall R O pr sk rk rb ck, setup R O pr sk rk rb ck ->
  forall e (m : mem (FP O)) p (m2 : mem (FP O)) ct ct2 tvr tvr2 tv out,
  reachable O pr e m -> input O pr m e ct -> table O pr m e tvr tv -> room O pr m e out ->
  preachable O pr p m2 -> puser O m2 p ct2 -> ptable O pr m2 p tvr2 tv -> tm m2 ct2 = tm m ct ->
  exists m' out2 m2',
    BlindRotateAssign O pr m e ct tvr (BootstrappingKey ck) (DecompositionOffset ck) out = Ok m' /\
    BlindRotate O pr m2 ct2 tvr2 (BootstrappingKey ck) (DecompositionOffset ck) p = Ok (out2, m2') /\
    ct_at m2' out2 = ct_at m' out /\ reachable O pr e m' /\ preachable O pr p m2'.
Proof. exact r_rotate_same. Qed.
Print Assumptions C23_same.

(** ** C25: the goroutines of the bootstrapping key, in any order *)
Theorem C25_bsk_schedules : forall R O pr sk rk rb ck, setup R O pr sk rk rb ck ->
  exists gs, bsk_goroutines O pr sk rb = Ok gs /\ zlen (BootstrappingKey ck) = lv0_N pr /\
  forall tr, interleaving gs tr ->
    apply_writes (repeat [] (Z.to_nat (lv0_N pr))) tr = Ok (BootstrappingKey ck) /\
    forall x, 0 <= x < lv0_N pr -> zlen (filter (fun w => fst w =? x) tr) = 1.
Proof. exact r_bsk_schedule. Qed.
Print Assumptions C25_bsk_schedules.

(** ** C46: contents of the cloud key *)
Theorem C46_contents : forall R O pr sk rk rb ck, setup R O pr sk rk rb ck ->
  DecompositionOffset ck = zsum (g_L pr) (fun i => g_BG pr / 2 * 2 ^ (32 - (i + 1) * g_BGBIT pr)) mod two32 /\
  tA (BlindRotateTestvec ck) = repeat 0 (Z.to_nat (g_N pr)) /\
  tB (BlindRotateTestvec ck) = repeat (2 ^ 29) (Z.to_nat (g_N pr)) /\
  zlen (BootstrappingKey ck) = lv0_N pr /\
  (forall i, 0 <= i < lv0_N pr -> trgsw_of O pr (KeyLv1 sk) (zn (KeyLv0 sk) i) (rb i) (znd [] (BootstrappingKey ck) i)) /\
  zlen (KeySwitchingKey ck) = 2 ^ g_BASEBIT pr * g_IKS_T pr * g_N pr /\
  (forall i j k, 0 <= i < g_N pr -> 0 <= j < g_IKS_T pr -> 0 <= k < 2 ^ g_BASEBIT pr ->
    let x := 2 ^ g_BASEBIT pr * g_IKS_T pr * i + 2 ^ g_BASEBIT pr * j + k in
    let c := znd [] (KeySwitchingKey ck) x in
    zlen c = lv0_N pr + 1 /\
    (k = 0 -> c = repeat 0 (Z.to_nat (lv0_N pr + 1))) /\
    (k <> 0 -> lwe_phase (lv0_N pr) (KeyLv0 sk) c ==
       k * zn (KeyLv1 sk) i * 2 ^ (32 - (j + 1) * g_BASEBIT pr) + F64ToTorus (er_noise (rk x)))).
Proof. exact k_contents. Qed.
Print Assumptions C46_contents.

(** what [trgsw_of] means: the rows before the transform *)
Theorem C46_trgsw_rows : forall mc O pr d d' p key rs z t, mc_ok mc -> good_params pr -> fft_evaluator (f64_arith mc) (g_N pr) = Ok O ->
  fft_error_within pr d d' -> bin_key (g_N pr) key ->
  NewTRGSWLv1 pr = Ok z -> TrgswEncryptTorus O (g_N pr) pr z p key rs = Ok t ->
  zlen t = 2 * g_L pr /\
  forall i k, 0 <= i < 2 * g_L pr -> 0 <= k < g_N pr ->
    close d' (phase (g_N pr) key (znd {| tA := []; tB := [] |} t i) k)
      (centered (F64ToTorus (tr_noise (rs i) k)) +
       (if i <? g_L pr then - (p * 2 ^ (32 - (i + 1) * g_BGBIT pr) * zn key k)
        else if k =? 0 then p * 2 ^ (32 - (i - g_L pr + 1) * g_BGBIT pr) else 0)).
Proof. exact k_rows. Qed.
Print Assumptions C46_trgsw_rows.

(** a cloud key made without a secret key holds zeros only *)
Theorem C46_no_ksk : forall R O pr, good_params pr -> fft_evaluator R (g_N pr) = Ok O ->
  exists ck z, NewCloudKeyNoKSK O pr = Ok ck /\ f_new O (g_N pr) = Ok z /\
    KeySwitchingKey ck = repeat (repeat 0 (Z.to_nat (lv0_N pr + 1))) (Z.to_nat (2 ^ g_BASEBIT pr * g_IKS_T pr * g_N pr)) /\
    BootstrappingKey ck = repeat (repeat (z, z) (Z.to_nat (2 * g_L pr))) (Z.to_nat (lv0_N pr)) /\
    tB (BlindRotateTestvec ck) = repeat (2 ^ 29) (Z.to_nat (g_N pr)).
Proof. exact k_noksk. Qed.
Print Assumptions C46_no_ksk.

(** ** States that meet the hypotheses *)

(** For every setup, any two TRLWE ciphertexts and LWE ciphertexts there is a
    reachable state that holds them, with room for a result. *)
Example C20_start : forall R O pr sk rk rb ck c0 c1 (cts : list (list Z)), setup R O pr sk rk rb ck ->
  is_ct (g_N pr) c0 -> is_ct (g_N pr) c1 ->
  exists e (m : mem (FP O)) k r0 r1 out w, reachable O pr e m /\ key_at O m e k ck /\ table O pr m e r0 c0 /\ table O pr m e r1 c1 /\
    room O pr m e out /\ disjoint r0 out /\ disjoint r1 out /\ Forall2 (fun x v => user m e x /\ tm m x = v) w cts.
Proof. exact s_start. Qed.
Example C20_pstart : forall R O pr (bufs : list (list Z)), good_params pr -> fft_evaluator R (g_N pr) = Ok O ->
  exists p (m : mem (FP O)) w, preachable O pr p m /\ Forall2 (fun x v => puser O m p x /\ tm m x = v) w bufs.
Proof. exact s_pstart. Qed.
Example C20_trgsw : forall R O pr key p rs, good_params pr -> fft_evaluator R (g_N pr) = Ok O -> zlen key = g_N pr ->
  exists g, trgsw_of O pr key p rs g.
Proof. exact s_trgsw. Qed.

(** The error of one external product at the default security level: with
    samples up to 2^10 it stays below 2^28, so a phase of 2^29 keeps its sign.
    [fft_error_within] holds with an error of 38 for the external product and
    of 0 for the product in an encryption. *)
Example C20_numbers : fft_error_within (get_params Security128Bit) 38 0 /\
  product_worst (get_params Security128Bit) (repeat 1 1024) 1 (2 ^ 10) 38 0 < 2 ^ 28.
Proof. vm_compute. repeat split; congruence. Qed.

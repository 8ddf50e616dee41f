(** * How often a bootstrap goes wrong

    C57: the noise a bootstrap takes from the cloud key is a sum of the key's
    noise samples with random signs, far below its worst case.  For all but the
    fraction 2 exp(-T^2/Q) of the sign tosses it stays below T, where Q is
    given by the sums of the squares of the key's noises.  The vocabulary is in
    BootCoinSpec.v and CoinSpec.v. *)
From Coq Require Import Lia ZArith List Reals.
From Verif Require Import GoBase GoFacts GoMem F64 Utils Spec Params Key Tlwe TlweMem Poly Fft FftTabErr Trlwe Trgsw Lut Evaluator CloudKey Gates
  RunSpec Circuit LutSpec NoiseCheck CoinSpec CoinProps BootCoinSpec BootCoinProps RunProps RunWorst Tiny TinyRun PropReenc.
Import ListNotations.
Local Open Scope Z_scope.

(** ** C57: one bootstrap

    The test vector and the ciphertext are fixed before the signs are tossed.
    Key generation succeeds for all tosses; for all but a fraction the noise is
    below T, plus what the decompositions cut off in this run, plus a constant. *)
Theorem C57_bootstrap : forall mc O pr sk rk rb, mc_ok mc -> good_params pr -> fft_evaluator (f64_arith mc) (g_N pr) = Ok O -> key_ok pr sk ->
  forall d d', fft_error_within pr d d' -> fine_noise rk rb ->
  forall T Q, 0 < T -> 0 < Q -> key_spread pr rk rb <= Q ->
  forall tv ct, job_ok pr (tv, ct) ->
  but_for (key_tosses pr) (2 * exp (- (IZR T * IZR T / IZR Q))) (fun ws =>
    exists ck, setup (f64_arith mc) O pr sk (drawn_rk pr rk ws) (drawn_rb pr rb ws) ck /\
    exists x, cut_off pr O sk (BootstrappingKey ck) (DecompositionOffset ck) ct tv x /\
      boot_noise O pr sk ck tv ct (T + Z.abs (zsum (lv0_N pr) x) + fixed_noise pr sk d d')).
Proof. exact p_boot_tail. Qed.
Print Assumptions C57_bootstrap.

(** any number of bootstraps of given ciphertexts with one key, all at once *)
Theorem C57_many : forall mc O pr sk rk rb, mc_ok mc -> good_params pr -> fft_evaluator (f64_arith mc) (g_N pr) = Ok O -> key_ok pr sk ->
  forall d d', fft_error_within pr d d' -> fine_noise rk rb ->
  forall T Q, 0 < T -> 0 < Q -> key_spread pr rk rb <= Q ->
  forall jobs, Forall (job_ok pr) jobs ->
  but_for (key_tosses pr) (IZR (zlen jobs) * (2 * exp (- (IZR T * IZR T / IZR Q)))) (fun ws =>
    exists ck, setup (f64_arith mc) O pr sk (drawn_rk pr rk ws) (drawn_rb pr rb ws) ck /\
    Forall (fun j => exists x, cut_off pr O sk (BootstrappingKey ck) (DecompositionOffset ck) (snd j) (fst j) x /\
      boot_noise O pr sk ck (fst j) (snd j) (T + Z.abs (zsum (lv0_N pr) x) + fixed_noise pr sk d d')) jobs).
Proof. exact p_jobs_tail. Qed.
Print Assumptions C57_many.

(** what the decompositions cut off, at worst *)
Theorem C57_cut_worst : forall O pr sk bsk offset ct tv x, good_params pr -> key_ok pr sk -> cut_off pr O sk bsk offset ct tv x ->
  Z.abs (zsum (lv0_N pr) x) <= weight (lv0_N pr) (KeyLv0 sk) * ((1 + weight (g_N pr) (KeyLv1 sk)) * (2 ^ (32 - g_L pr * g_BGBIT pr) - 1)).
Proof. exact p_cut_worst. Qed.
Print Assumptions C57_cut_worst.

(** ** C57: a gate on given ciphertexts decrypts to its truth table *)
Theorem C57_gate : forall mc O pr sk rk rb, mc_ok mc -> good_params pr -> fft_evaluator (f64_arith mc) (g_N pr) = Ok O -> key_ok pr sk ->
  forall d d', fft_error_within pr d d' -> fine_noise rk rb ->
  forall T Q, 0 < T -> 0 < Q -> key_spread pr rk rb <= Q ->
  forall g ca cb va vb Ea Eb, encrypts (lv0_N pr) (KeyLv0 sk) ca va Ea -> encrypts (lv0_N pr) (KeyLv0 sk) cb vb Eb ->
  Ea + mult g * Eb + round_err pr sk < 2 ^ 29 ->
  but_for (key_tosses pr) (2 * exp (- (IZR T * IZR T / IZR Q))) (fun ws =>
    exists ck p x, setup (f64_arith mc) O pr sk (drawn_rk pr rk ws) (drawn_rb pr rb ws) ck /\ gate_lin g (lv0_N pr) ca cb = Ok p /\
    cut_off pr O sk (BootstrappingKey ck) (DecompositionOffset ck) p (BlindRotateTestvec ck) x /\
    (T + Z.abs (zsum (lv0_N pr) x) + fixed_noise pr sk d d' < 2 ^ 29 ->
     forall e (m : mem (FP O)) k a b, reachable O pr e m -> key_at O m e k ck -> tm m a = ca -> tm m b = cb ->
     exists r m', gate_fun g O pr m e a b k = Ok (r, m') /\ DecryptBool (lv0_N pr) (tm m' r) (KeyLv0 sk) = Ok (truth g va vb))).
Proof. exact p_gate_tail. Qed.
Print Assumptions C57_gate.

(** ** C57: bootstrapping a given ciphertext with a lookup table *)
Theorem C57_lut : forall mc O pr sk rk rb, mc_ok mc -> good_params pr -> fft_evaluator (f64_arith mc) (g_N pr) = Ok O -> key_ok pr sk ->
  forall d d', fft_error_within pr d d' -> fine_noise rk rb ->
  forall T Q, 0 < T -> 0 < Q -> key_spread pr rk rb <= Q ->
  forall c tv M v y, lwe_ok (lv0_N pr) c -> plain_table (g_N pr) tv -> 0 < M -> 0 <= v < 2 * M -> entry (g_N pr) M tv (v mod M) y ->
  reads pr (KeyLv0 sk) c M v ->
  but_for (key_tosses pr) (2 * exp (- (IZR T * IZR T / IZR Q))) (fun ws =>
    exists ck x, setup (f64_arith mc) O pr sk (drawn_rk pr rk ws) (drawn_rb pr rb ws) ck /\
    cut_off pr O sk (BootstrappingKey ck) (DecompositionOffset ck) c tv x /\
    forall e (m : mem (FP O)) ct lut, reachable O pr e m -> input O pr m e ct -> table O pr m e lut tv -> tm m ct = c ->
    exists r m', BootstrapLUT O pr m e ct lut (BootstrappingKey ck) (KeySwitchingKey ck) (DecompositionOffset ck) = Ok (r, m') /\
      close (T + Z.abs (zsum (lv0_N pr) x) + fixed_noise pr sk d d') (lwe_phase (lv0_N pr) (KeyLv0 sk) (tm m' r)) (LutSpec.signed M v y)).
Proof. exact p_lut_tail. Qed.
Print Assumptions C57_lut.

(** ** C57: a gate at the 128-bit level

    The expected sums of squares are 3.2 * 10^10 (4300800 samples of standard
    deviation 2.0e-8, or 86 on the torus) and 2.8 * 10^14 (36864 samples of
    2.0e-5, or 85899); the inputs are fresh (2^20 is twelve standard
    deviations).  The worst the decompositions can cut off is ten times 2^28,
    so that the bound on it stays a condition on the run; random digits give
    some 2^25. *)
Theorem C57_gate_128 : forall mc O sk rk rb g ca cb va vb, mc_ok mc -> fft_evaluator (f64_arith mc) 1024 = Ok O -> key_ok params128Bit sk ->
  weight 700 (KeyLv0 sk) <= 500 -> fine_noise rk rb -> bsk_squares params128Bit rb <= 35 * 10 ^ 9 -> ksk_squares params128Bit rk <= 3 * 10 ^ 14 ->
  encrypts 700 (KeyLv0 sk) ca va (2 ^ 20) -> encrypts 700 (KeyLv0 sk) cb vb (2 ^ 20) ->
  but_for (key_tosses params128Bit) (/ IZR (10 ^ 14)) (fun ws => exists ck p x,
    setup (f64_arith mc) O params128Bit sk (drawn_rk params128Bit rk ws) (drawn_rb params128Bit rb ws) ck /\ gate_lin g 700 ca cb = Ok p /\
    cut_off params128Bit O sk (BootstrappingKey ck) (DecompositionOffset ck) p (BlindRotateTestvec ck) x /\
    (Z.abs (zsum 700 x) <= 2 ^ 28 ->
     forall e (m : mem (FP O)) k a b, reachable O params128Bit e m -> key_at O m e k ck -> tm m a = ca -> tm m b = cb ->
     exists r m', gate_fun g O params128Bit m e a b k = Ok (r, m') /\ DecryptBool 700 (tm m' r) (KeyLv0 sk) = Ok (truth g va vb))).
Proof. exact p_gate_128. Qed.
Print Assumptions C57_gate_128.

(** ** Cases *)

(** the noises of the small key *)
Lemma tiny_fine : fine_noise tiny_rk tiny_rb.
Proof.
  assert (F: forall x, fine (small_noise x)).
  { intro x. unfold small_noise. pose proof (Z.mod_pos_bound (mix x) 9 ltac:(lia)) as H. set (k := mix x mod 9) in *. clearbody k.
    assert (C: k = 0 \/ k = 1 \/ k = 2 \/ k = 3 \/ k = 4 \/ k = 5 \/ k = 6 \/ k = 7 \/ k = 8) by lia.
    repeat (destruct C as [->|C]; [vm_compute; auto|]). subst. vm_compute. auto. }
  split; intros; apply F.
Qed.
Example C57_spread : key_spread tiny tiny_rk tiny_rb <= 10 ^ 9 /\ fixed_noise tiny tiny_key 1 0 = 1086 /\ round_err tiny tiny_key < 2 ^ 28.
Proof. vm_compute. repeat split; congruence. Qed.

(** the signs matter: the measured noise of one XOR *)
Definition tossed_noise (ws : list (list Z)) : res Z :=
  ck <- NewCloudKey tinyO tiny tiny_key (drawn_rk tiny tiny_rk ws) (drawn_rb tiny tiny_rb ws) ;; gate_noise tinyO ck Gxor true false.
Definition some_tosses (c : Z) : list (list Z) := map (fun l => tab l (fun i => mix (i * c + l) / 16 mod 4)) (key_tosses tiny).
Example C57_tosses : (a <- tossed_noise (some_tosses 1) ;; b <- tossed_noise (some_tosses 5) ;; Ok ((a <=? 50000) && (b <=? 50000) && negb (a =? b))%bool) = Ok true.
Proof. vm_compute. reflexivity. Qed.

(** All hypotheses of C57_gate at once: on the small parameter set the worst that
    can be cut off leaves room, and XOR decrypts for all tosses but one in 10^9. *)
Example C57_full : exists mc O, mc_ok mc /\ fft_evaluator (f64_arith mc) 16 = Ok O /\
  but_for (key_tosses tiny) (/ 1000000000) (fun ws => exists ck, setup (f64_arith mc) O tiny tiny_key (drawn_rk tiny tiny_rk ws) (drawn_rb tiny tiny_rb ws) ck /\
    forall e (m : mem (FP O)) k a b, reachable O tiny e m -> key_at O m e k ck -> tm m a = tiny_enc true 0 -> tm m b = tiny_enc false 1 ->
    exists r m', XOR O tiny m e a b k = Ok (r, m') /\ DecryptBool 3 (tm m' r) (KeyLv0 tiny_key) = Ok true).
Proof.
  destruct (setup_exists (f64_arith mc0) tiny tiny_key tiny_rk tiny_rb tiny_params ltac:(cbn; lia) tiny_key_ok) as (O & ck0 & (_ & EO & _)).
  exists mc0, O. split; [exact mc0_ok|]. split; [exact EO|].
  destruct C57_spread as (S1 & S2 & S3).
  assert (W3: fft_error_within tiny 1 0) by (split; reflexivity).
  assert (A: encrypts 3 (KeyLv0 tiny_key) (tiny_enc true 0) true 100).
  { split; [split; [reflexivity|]|exists (centered (lwe_phase 3 (KeyLv0 tiny_key) (tiny_enc true 0) - mu_bit true))].
    - repeat (constructor; [vm_compute; split; congruence|]). constructor.
    - vm_compute. split; [congruence|reflexivity]. }
  assert (B: encrypts 3 (KeyLv0 tiny_key) (tiny_enc false 1) false 100).
  { split; [split; [reflexivity|]|exists (centered (lwe_phase 3 (KeyLv0 tiny_key) (tiny_enc false 1) - mu_bit false))].
    - repeat (constructor; [vm_compute; split; congruence|]). constructor.
    - vm_compute. split; [congruence|reflexivity]. }
  eapply but_for_weaken; [|eapply but_for_le; [|apply (C57_gate mc0 O tiny tiny_key tiny_rk tiny_rb mc0_ok tiny_params EO tiny_key_ok 1 0 W3 tiny_fine
    200000 (10 ^ 9) eq_refl eq_refl S1 Gxor _ _ true false 100 100 A B)]].
  - intros ws _ (ck & p & x & H1 & _ & H3 & H4). exists ck. split; [exact H1|]. intros e m k a b. apply H4.
    pose proof (C57_cut_worst _ _ _ _ _ _ _ _ tiny_params tiny_key_ok H3) as X. rewrite S2.
    assert (X2: Z.abs (zsum (lv0_N tiny) x) <= 10000) by (eapply Z.le_trans; [exact X|vm_compute; congruence]).
    change (2 ^ 29) with 536870912. lia.
  - replace (/ 1000000000)%R with (1 / 1000000000)%R by (unfold Rdiv; ring). apply (small_exp 1 40); [reflexivity|reflexivity|reflexivity|discriminate| |].
    + apply div_ge; [reflexivity|reflexivity|]. vm_compute. discriminate.
    + vm_compute. discriminate.
  - change (2 ^ 29) with (2 ^ 28 + 268435456). cbn [mult]. lia.
Qed.

(** * Property C55: the example programs print the right answers

    The programs of the examples directory (Examples.v) as a whole, from key
    generation and encryption to the decrypted values.  The vocabulary is in
    ExampleSpec.v: [new_bit], [new_message] (a new ciphertext), [small_enc]
    (the noise of the encryptions), [gates_noise], [demos_noise], [add_noise],
    [reenc_fits] (the noises of the run). *)
From Coq Require Import Lia ZifyBool List.
From Verif Require Import GoBase GoFacts GoMem F64 Utils Params Key Spec Tlwe Poly Fft FftTabErr Trlwe Trgsw Lut Evaluator CloudKey Gates ProxyReenc NibbleAdd
  RunSpec RunProps RunWorst BasicFacts FftProps LevelProps LutSpec ReencSpec ReencProps Tiny TinyRun Examples ExampleSpec ExampleProps PropReenc PropLut.
Import ListNotations.
Local Open Scope Z_scope.

(** ** Keys: for all draws, at all parameters, with any arithmetic *)
Theorem C55_keys : forall R O pr d, good_params pr -> fft_evaluator R (g_N pr) = Ok O -> exists sk ck, make_keys O pr d = Ok (sk, ck).
Proof. exact x_keys. Qed.
Print Assumptions C55_keys.

(** ** simple_gates: every line says the expected bit *)
Theorem C55_gates : forall R O pr d enc sk ck E T, good_params pr -> serves params128Bit pr -> fft_evaluator R (g_N pr) = Ok O ->
  make_keys O pr d = Ok (sk, ck) -> small_enc enc E -> 3 * E + round_err pr sk < 2 ^ 29 -> T < 2 ^ 29 -> gates_noise O pr sk ck enc T ->
  simple_gates O pr d enc = Ok (map (fun b => (b, b)) gates_expected).
Proof. exact x_gates. Qed.
Print Assumptions C55_gates.

Theorem C55_gates_float64 : forall mc O pr d enc sk ck E Bb Bk e e', mc_ok mc -> good_params pr -> serves params128Bit pr ->
  fft_evaluator (f64_arith mc) (g_N pr) = Ok O -> make_keys O pr d = Ok (sk, ck) -> fft_error_within pr e e' ->
  key_noise_within pr (kd_ks d) (kd_bs d) Bb Bk -> 0 <= Bb -> 0 <= Bk -> 0 <= e' ->
  small_enc enc E -> 3 * E + round_err pr sk < 2 ^ 29 -> worst_noise pr sk Bb Bk e e' < 2 ^ 29 ->
  simple_gates O pr d enc = Ok (map (fun b => (b, b)) gates_expected).
Proof. exact x_gates_worst. Qed.
Print Assumptions C55_gates_float64.

(** Nothing is assumed about the key or the noise here: a line compares the
    expected bit with what the gate's result really decrypts to. *)
Theorem C55_line : forall O pr sk ge ck ctA ctB (m : mem (FP O)) gate expected d x m',
  testGate O pr sk ge ck ctA ctB m gate expected = Ok (d, x, m') <->
  x = expected /\ exists r, gate m ge ctA ctB ck = Ok (r, m') /\ DecryptBool (lv0_N pr) (tm m' r) (KeyLv0 sk) = Ok d.
Proof. exact x_line. Qed.
Print Assumptions C55_line.

(** ** programmable_bootstrap: identity, NOT, the two constants, NOT with one
    lookup table for five inputs, and the increment modulo 4 *)
Theorem C55_pbs : forall R O pr d enc sk ck E Rd T, good_params pr -> 3 <= g_NBIT pr -> fft_evaluator R (g_N pr) = Ok O ->
  make_keys O pr d = Ok (sk, ck) -> small_enc enc E -> E + 1 + Rd < 2 ^ 28 -> T < 2 ^ 28 -> demos_noise O pr sk ck enc Rd T ->
  programmable_bootstrap O pr d enc = Ok [(0, 0); (1, 1); (0, 1); (1, 0); (0, 1); (1, 1); (0, 0); (1, 0);
    (0, 1); (1, 0); (0, 1); (1, 0); (0, 1); (0, 1); (1, 2); (2, 3); (3, 0)].
Proof. exact x_pbs. Qed.
Print Assumptions C55_pbs.

Theorem C55_pbs_float64 : forall mc O pr d enc sk ck E Bb Bk e e', mc_ok mc -> good_params pr -> 3 <= g_NBIT pr ->
  fft_evaluator (f64_arith mc) (g_N pr) = Ok O -> make_keys O pr d = Ok (sk, ck) -> fft_error_within pr e e' ->
  key_noise_within pr (kd_ks d) (kd_bs d) Bb Bk -> 0 <= Bb -> 0 <= Bk -> 0 <= e' ->
  small_enc enc E -> E + 1 + round_err pr sk < 2 ^ 28 -> worst_noise pr sk Bb Bk e e' < 2 ^ 28 ->
  programmable_bootstrap O pr d enc = Ok [(0, 0); (1, 1); (0, 1); (1, 0); (0, 1); (1, 1); (0, 0); (1, 0);
    (0, 1); (1, 0); (0, 1); (1, 0); (0, 1); (0, 1); (1, 2); (2, 3); (3, 0)].
Proof. exact x_pbs_worst. Qed.
Print Assumptions C55_pbs_float64.

(** ** add_two_numbers: for all pairs of bytes *)
Theorem C55_add : forall R O pr d enc sk ck E a b Rd T, good_params pr -> 6 <= g_NBIT pr -> fft_evaluator R (g_N pr) = Ok O ->
  make_keys O pr d = Ok (sk, ck) -> small_enc enc E -> 0 <= a < 256 -> 0 <= b < 256 -> 0 <= T -> 2 * (E + 1) + T + Rd < 2 ^ 25 -> T < 2 ^ 25 ->
  add_noise O pr d enc a b Rd T -> add_two_numbers O pr d enc a b = Ok ((a + b) mod 256).
Proof. exact x_sum. Qed.
Print Assumptions C55_add.

Theorem C55_add_float64 : forall mc O pr d enc sk ck E Bb Bk e e', mc_ok mc -> good_params pr -> 6 <= g_NBIT pr ->
  fft_evaluator (f64_arith mc) (g_N pr) = Ok O -> make_keys O pr d = Ok (sk, ck) -> fft_error_within pr e e' ->
  key_noise_within pr (kd_ks d) (kd_bs d) Bb Bk -> 0 <= Bb -> 0 <= Bk -> 0 <= e' ->
  small_enc enc E -> 0 <= worst_noise pr sk Bb Bk e e' -> 2 * (E + 1) + worst_noise pr sk Bb Bk e e' + round_err pr sk < 2 ^ 25 ->
  forall a b, 0 <= a < 256 -> 0 <= b < 256 -> add_two_numbers O pr d enc a b = Ok ((a + b) mod 256).
Proof. exact x_sum_worst. Qed.
Print Assumptions C55_add_float64.

(** ** proxy_reencryption: Bob reads the five messages, and both Bob and Carol
    read the last one *)
Theorem C55_reencryption : forall pr d, 0 <= lv0_N pr -> 0 <= lv1_N pr -> 1 <= g_BASEBIT pr -> 1 <= g_IKS_T pr -> g_BASEBIT pr * g_IKS_T pr <= 31 ->
  reenc_fits pr d -> proxy_reencryption pr d = Ok ([true; false; true; true; false], 5, true, true).
Proof. exact x_reenc. Qed.
Print Assumptions C55_reencryption.

(** when every noise is small *)
Theorem C55_reencryption_fits : forall pr d, 0 <= lv0_N pr -> 0 <= lv1_N pr -> 1 <= g_IKS_T pr ->
  forall Ef Eb Ec, (forall i, Z.abs (sample (er_noise (rd_enc d i))) <= Ef) ->
  (forall i, Z.abs (pk_noises pr (rd_zerosB d) (rd_ab d) i) <= Eb) -> (forall i, Z.abs (pk_noises pr (rd_zerosC d) (rd_bc d) i) <= Ec) ->
  (forall ak bk, NewSecretKey pr (rd_alice d) (rd_level1 d) = Ok ak -> NewSecretKey pr (rd_bob d) (rd_level1 d) = Ok bk ->
     Ef + reenc_error (lv0_N pr) (g_BASEBIT pr) (g_IKS_T pr) (KeyLv0 ak) Eb + reenc_error (lv0_N pr) (g_BASEBIT pr) (g_IKS_T pr) (KeyLv0 bk) Ec < 2 ^ 29) ->
  reenc_fits pr d.
Proof. exact x_reenc_small. Qed.
Print Assumptions C55_reencryption_fits.

(** ** The hypotheses are met *)

(** simple_gates at the 128-bit parameters, with float64 arithmetic, key
    switching noise up to 16 units and bootstrapping key noise of one unit *)
Definition unit_noise (x : Z) : f64 := flit (mix x mod 3 - 1) (-32).
Lemma unit_noise_le x : Z.abs (centered (F64ToTorus (unit_noise x))) <= 1.
Proof.
  unfold unit_noise. pose proof (Z.mod_pos_bound (mix x) 3 ltac:(lia)) as H. set (y := mix x mod 3) in *. clearbody y.
  assert (G: y = 0 \/ y = 1 \/ y = 2) by lia. destruct G as [->|[->| ->]]; vm_compute; discriminate.
Qed.
Definition d128 : key_draws := {| kd_bit0 := fun i => i mod 100 =? 7; kd_bit1 := fun i => i mod 128 =? 5; kd_ks := tiny_rk;
  kd_bs := fun i r => {| tr_mask := tr_mask (tiny_rb i r); tr_noise := fun j => unit_noise (i + 31 * r + 7 * j) |} |}.
Example C55_gates_128 : exists mc O, mc_ok mc /\ fft_evaluator (f64_arith mc) (g_N params128Bit) = Ok O /\
  simple_gates O params128Bit d128 tiny_rk = Ok (map (fun b => (b, b)) gates_expected).
Proof.
  destruct (evaluator_ok (f64_arith mc0) 10 ltac:(lia)) as (tw & twi & _ & EO).
  eexists mc0, _. split; [exact mc0_ok|]. split; [exact EO|].
  pose proof (shipped_params Security128Bit) as GP. change (get_params Security128Bit) with params128Bit in GP.
  destruct (C55_keys (f64_arith mc0) _ params128Bit d128 GP EO) as (sk & ck & MK).
  destruct (keys_weight _ params128Bit d128 sk ck ltac:(cbn; lia) ltac:(cbn; lia) MK) as [W0 W1].
  assert (X0: zsum (lv0_N params128Bit) (fun i => Z.b2z (kd_bit0 d128 i)) = 7) by (vm_compute; reflexivity).
  assert (X1: zsum (lv1_N params128Bit) (fun i => Z.b2z (kd_bit1 d128 i)) = 8) by (vm_compute; reflexivity).
  rewrite X0 in W0. rewrite X1 in W1. change (lv1_N params128Bit) with (g_N params128Bit) in W1.
  apply (C55_gates_float64 mc0 _ params128Bit d128 tiny_rk sk ck 16 1 16 38 0 mc0_ok GP (l_serves Security128Bit ltac:(cbn; tauto)) EO MK); try lia.
  - vm_compute. split; reflexivity.
  - split; intros; [apply unit_noise_le|apply small_noise_le].
  - intro i. apply small_noise_le.
  - unfold round_err. rewrite W0. vm_compute. reflexivity.
  - unfold worst_noise, cmux_worst. rewrite W0, W1. vm_compute. reflexivity.
Qed.

(** programmable_bootstrap and add_two_numbers at the parameters [mid] *)
Definition dmid : key_draws := {| kd_bit0 := fun i => negb (i =? 1); kd_bit1 := fun i => i mod 64 =? 3; kd_ks := tiny_rk; kd_bs := tiny_rb |}.
Example C55_mid : exists mc O, mc_ok mc /\ fft_evaluator (f64_arith mc) (g_N mid) = Ok O /\
  programmable_bootstrap O mid dmid tiny_rk = Ok [(0, 0); (1, 1); (0, 1); (1, 0); (0, 1); (1, 1); (0, 0); (1, 0);
    (0, 1); (1, 0); (0, 1); (1, 0); (0, 1); (0, 1); (1, 2); (2, 3); (3, 0)] /\
  add_two_numbers O mid dmid tiny_rk 42 137 = Ok 179 /\ add_two_numbers O mid dmid tiny_rk 200 100 = Ok 44.
Proof.
  destruct (evaluator_ok (f64_arith mc0) 8 ltac:(lia)) as (tw & twi & _ & EO).
  eexists mc0, _. split; [exact mc0_ok|]. split; [exact EO|].
  destruct (C55_keys (f64_arith mc0) _ mid dmid mid_params EO) as (sk & ck & MK).
  destruct (keys_weight _ mid dmid sk ck ltac:(cbn; lia) ltac:(cbn; lia) MK) as [W0 W1].
  assert (X0: zsum (lv0_N mid) (fun i => Z.b2z (kd_bit0 dmid i)) = 2) by (vm_compute; reflexivity).
  assert (X1: zsum (lv1_N mid) (fun i => Z.b2z (kd_bit1 dmid i)) = 4) by (vm_compute; reflexivity).
  rewrite X0 in W0. rewrite X1 in W1. change (lv1_N mid) with (g_N mid) in W1.
  assert (F: fft_error_within mid 29 0) by (vm_compute; split; reflexivity).
  assert (KN: key_noise_within mid (kd_ks dmid) (kd_bs dmid) 16 16) by (split; intros; apply small_noise_le).
  assert (RE: round_err mid sk = 12582912) by (unfold round_err; rewrite W0; reflexivity).
  assert (WN: worst_noise mid sk 16 16 29 0 < 2 ^ 24 /\ 0 <= worst_noise mid sk 16 16 29 0).
  { unfold worst_noise, cmux_worst. rewrite W0, W1. vm_compute. split; congruence. }
  change (2 ^ 24) with 16777216 in WN.
  assert (SE: small_enc tiny_rk 16) by (intro i; apply small_noise_le).
  split.
  - apply (C55_pbs_float64 mc0 _ mid dmid tiny_rk sk ck 16 16 16 29 0 mc0_ok mid_params ltac:(cbn; lia) EO MK F KN); assumption || (try rewrite RE; change (2 ^ 28) with 268435456; lia).
  - pose proof (C55_add_float64 mc0 _ mid dmid tiny_rk sk ck 16 16 16 29 0 mc0_ok mid_params ltac:(cbn; lia) EO MK F KN ltac:(lia) ltac:(lia) ltac:(lia) SE ltac:(lia)
      ltac:(rewrite RE; change (2 ^ 25) with 33554432; lia)) as H.
    split; [exact (H 42 137 ltac:(lia) ltac:(lia))|exact (H 200 100 ltac:(lia) ltac:(lia))].
Qed.

(** proxy_reencryption at the 128-bit parameters, with noise up to 8 units *)
Definition dre : reenc_draws := {| rd_alice := fun i => Z.odd (mix i); rd_bob := fun i => Z.even i; rd_carol := fun i => i mod 3 =? 0; rd_level1 := fun _ => false;
  rd_zerosB := ex_zeros; rd_zerosC := fun i => ex_zeros (i + 7); rd_ab := ex_pick; rd_bc := fun i => ex_pick (i + 5); rd_enc := ex_rnd |}.
Example C55_reencryption_128 : proxy_reencryption params128Bit dre = Ok ([true; false; true; true; false], 5, true, true).
Proof.
  assert (S: forall x, Z.abs (sample (flit (mix x mod 16 - 8) (-32))) <= 8).
  { intro x. apply small_sample. pose proof (Z.mod_pos_bound (mix x) 16 ltac:(lia)). lia. }
  apply C55_reencryption; try (cbn; lia).
  apply (C55_reencryption_fits params128Bit dre ltac:(cbn; lia) ltac:(cbn; lia) ltac:(cbn; lia) 8 (1400 * 8 + 8) (1400 * 8 + 8)).
  - intro i. apply S.
  - intro i. apply (pk_total_le 1400); [lia|intros; apply S|apply S].
  - intro i. apply (pk_total_le 1400); [lia|intros; apply S|apply S].
  - intros ak bk EA EB.
    destruct (NewSecretKey_bin params128Bit (rd_alice dre) (rd_level1 dre) ltac:(cbn; lia) ltac:(cbn; lia)) as (a & EA' & KA & _). rewrite EA in EA'. injection EA' as <-.
    destruct (NewSecretKey_bin params128Bit (rd_bob dre) (rd_level1 dre) ltac:(cbn; lia) ltac:(cbn; lia)) as (b & EB' & KB & _). rewrite EB in EB'. injection EB' as <-.
    pose proof (bin_weight_le 700 _ ltac:(lia) KA) as WA. pose proof (bin_weight_le 700 _ ltac:(lia) KB) as WB.
    unfold reenc_error. cbn [lv0_N params128Bit g_BASEBIT g_IKS_T] in *. change (2 ^ (31 - 2 * 9)) with 8192. change (2 ^ 29) with 536870912. lia.
Qed.

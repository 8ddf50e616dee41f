(** * Properties C37-C40: lookup tables and programmable bootstrapping

    The vocabulary is in LutSpec.v (windows, entries, encodings) and RunSpec.v
    (setups, reachable states). *)
From Coq Require Import Lia List QArith.
From Verif Require Import GoBase GoFacts GoMem F64 Utils Spec Params Key Tlwe TlweMem Poly Fft FftTabErr Trlwe Trgsw Lut Evaluator CloudKey
  RunSpec LutSpec NibbleAdd LutProps NibbleProps RunWorst Tiny TinyRun.
Import ListNotations.
Local Open Scope Z_scope.

(** ** C37: what the generators put in a table *)
Theorem C37_layout : forall pr g f, good_params pr -> LookUpTableSize g = g_N pr -> 0 < MessageModulus (gEncoder g) ->
  exists tv, GenLookUpTable pr g f = Ok tv /\ plain_table (g_N pr) tv /\
    forall x, 0 <= x < MessageModulus (gEncoder g) -> exists y, Encode (gEncoder g) (f x) = Ok y /\
      entry (g_N pr) (MessageModulus (gEncoder g)) tv x y.
Proof. exact t_layout. Qed.
Print Assumptions C37_layout.

(** The window of a message, for a modulus that divides N/2. *)
Theorem C37_window : forall N M x i, 0 < M -> (2 * M | N) ->
  in_window N M x i <-> - (N / (2 * M)) <= i - x * (N / M) < N / (2 * M).
Proof. exact t_window. Qed.
Print Assumptions C37_window.

Theorem C37_full : forall pr g f, good_params pr -> LookUpTableSize g = g_N pr -> 0 < MessageModulus (gEncoder g) ->
  (forall x, 0 <= x < MessageModulus (gEncoder g) -> tok (f x)) ->
  exists tv, GenLookUpTableFull pr g f = Ok tv /\ plain_table (g_N pr) tv /\
    forall x, 0 <= x < MessageModulus (gEncoder g) -> entry (g_N pr) (MessageModulus (gEncoder g)) tv x (f x).
Proof. exact t_full. Qed.
Print Assumptions C37_full.

(** The custom generator gives the table of a generator made for its modulus and
    scale, and leaves the generator as it was. *)
Theorem C37_custom : forall pr g f M scale, good_params pr -> LookUpTableSize g = g_N pr -> 0 < M ->
  exists tv, GenLookUpTableCustom pr g f M scale = Ok (tv, g) /\ GenLookUpTable pr (NewGeneratorWithScale pr M scale) f = Ok tv.
Proof. exact t_custom. Qed.
Print Assumptions C37_custom.

(** With M = N, which the code accepts, the value of message 1 is not at index 1
    but at index 0: every message reads its neighbour's value. *)
Theorem C37_modulus_N_refuted : exists tv y, GenLookUpTable tiny (NewGenerator tiny 16) (fun x => x) = Ok tv /\
  Encode (NewEncoder 16) 1 = Ok y /\ zn (tB tv) 1 <> y /\ zn (tB tv) 0 = y.
Proof. eexists _, _. split; [vm_compute; reflexivity|]. split; [vm_compute; reflexivity|]. split; [vm_compute; congruence|vm_compute; reflexivity]. Qed.
Print Assumptions C37_modulus_N_refuted.

(** ** C38: bootstrapping with a table *)

(** Any table, any input whose rounded phase is in the window of position x: the
    result encrypts the table's value for x (minus it in the upper half). *)
Theorem C38_lut : forall (R : arith) O pr sk rk rb ck, setup R O pr sk rk rb ck ->
  forall e (m : mem (FP O)) ct lut tv M x y T, reachable O pr e m -> input O pr m e ct -> table O pr m e lut tv -> plain_table (g_N pr) tv ->
  0 < M -> 0 <= x < 2 * M -> entry (g_N pr) M tv (x mod M) y -> reads pr (KeyLv0 sk) (tm m ct) M x -> boot_noise O pr sk ck tv (tm m ct) T ->
  exists r m', BootstrapLUT O pr m e ct lut (BootstrappingKey ck) (KeySwitchingKey ck) (DecompositionOffset ck) = Ok (r, m') /\
    lwe_ok (lv0_N pr) (tm m' r) /\ close T (lwe_phase (lv0_N pr) (KeyLv0 sk) (tm m' r)) (signed M x y) /\
    user m' e r /\ ~ user m e r /\ user_kept e m m' /\ reachable O pr e m'.
Proof. exact t_lut. Qed.
Print Assumptions C38_lut.

Theorem C38_lut_temp : forall (R : arith) O pr sk rk rb ck, setup R O pr sk rk rb ck ->
  forall e (m : mem (FP O)) ct lut tv M x y T, reachable O pr e m -> input O pr m e ct -> table O pr m e lut tv -> plain_table (g_N pr) tv ->
  0 < M -> 0 <= x < 2 * M -> entry (g_N pr) M tv (x mod M) y -> reads pr (KeyLv0 sk) (tm m ct) M x -> boot_noise O pr sk ck tv (tm m ct) T ->
  exists r m', BootstrapLUTTemp O pr m e ct lut (BootstrappingKey ck) (KeySwitchingKey ck) (DecompositionOffset ck) = Ok (r, m') /\
    lwe_ok (lv0_N pr) (tm m' r) /\ close T (lwe_phase (lv0_N pr) (KeyLv0 sk) (tm m' r)) (signed M x y) /\
    ring e r /\ user_kept e m m' /\ reachable O pr e m'.
Proof. exact t_lut_temp. Qed.
Print Assumptions C38_lut_temp.

(** the output may be any buffer, the input's included *)
Theorem C38_lut_assign : forall (R : arith) O pr sk rk rb ck, setup R O pr sk rk rb ck ->
  forall e (m : mem (FP O)) ct lut tv M x y T out, reachable O pr e m -> input O pr m e ct -> table O pr m e lut tv -> plain_table (g_N pr) tv ->
  input O pr m e out ->
  0 < M -> 0 <= x < 2 * M -> entry (g_N pr) M tv (x mod M) y -> reads pr (KeyLv0 sk) (tm m ct) M x -> boot_noise O pr sk ck tv (tm m ct) T ->
  exists m', BootstrapLUTAssign O pr m e ct lut (BootstrappingKey ck) (KeySwitchingKey ck) (DecompositionOffset ck) out = Ok m' /\
    lwe_ok (lv0_N pr) (tm m' out) /\ close T (lwe_phase (lv0_N pr) (KeyLv0 sk) (tm m' out)) (signed M x y) /\
    (forall z, user m e z -> z <> out -> user m' e z /\ tm m' z = tm m z) /\ reachable O pr e m'.
Proof. exact t_lut_assign. Qed.
Print Assumptions C38_lut_assign.

(** BootstrapFunc makes the table itself. *)
Theorem C38_func : forall (R : arith) O pr sk rk rb ck, setup R O pr sk rk rb ck ->
  forall e (m : mem (FP O)) ct f M x T, reachable O pr e m -> input O pr m e ct ->
  0 < M -> 0 <= x < 2 * M -> reads pr (KeyLv0 sk) (tm m ct) M x -> gen_noise O pr sk ck f M (tm m ct) T ->
  exists r m' y, BootstrapFunc O pr m e ct f M (BootstrappingKey ck) (KeySwitchingKey ck) (DecompositionOffset ck) = Ok (r, m') /\
    Encode (NewEncoder M) (f (x mod M)) = Ok y /\
    lwe_ok (lv0_N pr) (tm m' r) /\ close T (lwe_phase (lv0_N pr) (KeyLv0 sk) (tm m' r)) (signed M x y) /\
    user m' e r /\ ~ user m e r /\ user_kept e m m' /\ reachable O pr e m'.
Proof. exact t_func. Qed.
Print Assumptions C38_func.

Theorem C38_func_assign : forall (R : arith) O pr sk rk rb ck, setup R O pr sk rk rb ck ->
  forall e (m : mem (FP O)) ct f M x T out, reachable O pr e m -> input O pr m e ct -> input O pr m e out ->
  0 < M -> 0 <= x < 2 * M -> reads pr (KeyLv0 sk) (tm m ct) M x -> gen_noise O pr sk ck f M (tm m ct) T ->
  exists m' y, BootstrapFuncAssign O pr m e ct f M (BootstrappingKey ck) (KeySwitchingKey ck) (DecompositionOffset ck) out = Ok m' /\
    Encode (NewEncoder M) (f (x mod M)) = Ok y /\
    lwe_ok (lv0_N pr) (tm m' out) /\ close T (lwe_phase (lv0_N pr) (KeyLv0 sk) (tm m' out)) (signed M x y) /\
    (forall z, user m e z -> z <> out -> user m' e z /\ tm m' z = tm m z) /\ reachable O pr e m'.
Proof. exact t_func_assign. Qed.
Print Assumptions C38_func_assign.

(** In terms of messages: an encryption of x with noise E whose coefficients'
    rounding moves the phase by at most Rd.  Any modulus below 2^20 ... *)
Theorem C38_message : forall (R : arith) O pr sk rk rb ck, setup R O pr sk rk rb ck ->
  forall e (m : mem (FP O)) ct f M x E Rd T, reachable O pr e m -> input O pr m e ct -> 1 <= M < 2 ^ 20 -> 0 <= x < M ->
  encodes (lv0_N pr) (KeyLv0 sk) (tm m ct) M x E -> rounding pr (KeyLv0 sk) (tm m ct) Rd ->
  M * (E + Rd + 1) <= 2 ^ 30 -> (2 * M | g_N pr) \/ M * (E + Rd + 2 ^ (31 - g_NBIT pr)) <= 2 ^ 30 ->
  gen_noise O pr sk ck f M (tm m ct) T ->
  exists r m', BootstrapFunc O pr m e ct f M (BootstrappingKey ck) (KeySwitchingKey ck) (DecompositionOffset ck) = Ok (r, m') /\
    encodes (lv0_N pr) (KeyLv0 sk) (tm m' r) M (f x mod M) (T + 1) /\
    (T + 1 <= 2 ^ 31 / M / 2 - M -> DecryptLWEMessage (lv0_N pr) (tm m' r) M (KeyLv0 sk) = Ok (f x mod M)) /\
    user m' e r /\ ~ user m e r /\ user_kept e m m' /\ reachable O pr e m'.
Proof. exact t_message. Qed.
Print Assumptions C38_message.

(** ... and powers of two below N, with no slack. *)
Theorem C38_message_pow2 : forall (R : arith) O pr sk rk rb ck, setup R O pr sk rk rb ck ->
  forall e (m : mem (FP O)) ct f k x E Rd T, reachable O pr e m -> input O pr m e ct -> 0 <= k < g_NBIT pr -> 0 <= x < 2 ^ k ->
  encodes (lv0_N pr) (KeyLv0 sk) (tm m ct) (2 ^ k) x E -> rounding pr (KeyLv0 sk) (tm m ct) Rd -> E + Rd < 2 ^ (30 - k) ->
  gen_noise O pr sk ck f (2 ^ k) (tm m ct) T ->
  exists r m', BootstrapFunc O pr m e ct f (2 ^ k) (BootstrappingKey ck) (KeySwitchingKey ck) (DecompositionOffset ck) = Ok (r, m') /\
    encodes (lv0_N pr) (KeyLv0 sk) (tm m' r) (2 ^ k) (f x mod 2 ^ k) T /\
    (T < 2 ^ (30 - k) -> DecryptLWEMessage (lv0_N pr) (tm m' r) (2 ^ k) (KeyLv0 sk) = Ok (f x mod 2 ^ k)) /\
    user m' e r /\ ~ user m e r /\ user_kept e m m' /\ reachable O pr e m'.
Proof. exact t_message_pow2. Qed.
Print Assumptions C38_message_pow2.

(** Every ciphertext's rounding is within [round_err], and in binary64 the noise
    is within [worst_noise]; so nothing need be assumed about the run. *)
Theorem C38_rounding : forall (R : arith) O pr sk rk rb ck ct, setup R O pr sk rk rb ck -> rounding pr (KeyLv0 sk) ct (round_err pr sk).
Proof. exact t_rounding. Qed.
Print Assumptions C38_rounding.
Theorem C38_noise_bound : forall mc O pr sk rk rb ck Bb Bk d d' f M ct, mc_ok mc -> setup (f64_arith mc) O pr sk rk rb ck ->
  fft_error_within pr d d' -> key_noise_within pr rk rb Bb Bk -> 0 <= Bb -> 0 <= Bk -> 0 <= d' -> 0 < M -> zlen ct = lv0_N pr + 1 ->
  gen_noise O pr sk ck f M ct (worst_noise pr sk Bb Bk d d').
Proof. exact t_worst. Qed.
Print Assumptions C38_noise_bound.
Theorem C38_message_float64 : forall mc O pr sk rk rb ck Bb Bk d d', mc_ok mc -> setup (f64_arith mc) O pr sk rk rb ck ->
  fft_error_within pr d d' -> key_noise_within pr rk rb Bb Bk -> 0 <= Bb -> 0 <= Bk -> 0 <= d' ->
  forall e (m : mem (FP O)) ct f k x E, reachable O pr e m -> input O pr m e ct -> 0 <= k < g_NBIT pr -> 0 <= x < 2 ^ k ->
  encodes (lv0_N pr) (KeyLv0 sk) (tm m ct) (2 ^ k) x E -> E + round_err pr sk < 2 ^ (30 - k) ->
  worst_noise pr sk Bb Bk d d' < 2 ^ (30 - k) ->
  exists r m', BootstrapFunc O pr m e ct f (2 ^ k) (BootstrappingKey ck) (KeySwitchingKey ck) (DecompositionOffset ck) = Ok (r, m') /\
    encodes (lv0_N pr) (KeyLv0 sk) (tm m' r) (2 ^ k) (f x mod 2 ^ k) (worst_noise pr sk Bb Bk d d') /\
    DecryptLWEMessage (lv0_N pr) (tm m' r) (2 ^ k) (KeyLv0 sk) = Ok (f x mod 2 ^ k) /\
    user m' e r /\ ~ user m e r /\ user_kept e m m' /\ reachable O pr e m'.
Proof. exact t_message_worst. Qed.
Print Assumptions C38_message_float64.

(** ** C39: the example adds any two bytes

    The noise and rounding hypotheses are about the two sums the example
    bootstraps; [nib_low] and [nib_high] are the example run up to each. *)
Theorem C39_nibble_adder : forall (R : arith) O pr sk rk rb ck, setup R O pr sk rk rb ck -> 6 <= g_NBIT pr ->
  forall e (m : mem (FP O)) aL aH bL bH a b E Rd T, reachable O pr e m -> 0 <= a < 256 -> 0 <= b < 256 ->
  user m e aL -> user m e aH -> user m e bL -> user m e bH ->
  encodes (lv0_N pr) (KeyLv0 sk) (tm m aL) 32 (low_nibble a) E -> encodes (lv0_N pr) (KeyLv0 sk) (tm m aH) 32 (high_nibble a) E ->
  encodes (lv0_N pr) (KeyLv0 sk) (tm m bL) 32 (low_nibble b) E -> encodes (lv0_N pr) (KeyLv0 sk) (tm m bH) 32 (high_nibble b) E ->
  0 <= T -> 2 * E + T + Rd < 2 ^ 25 -> T < 2 ^ 25 ->
  (forall l c m1, nib_low O pr m aL bL = Ok (l, c, m1) ->
     rounding pr (KeyLv0 sk) (tm m1 c) Rd /\ gen_noise O pr sk ck low4 32 (tm m1 c) T /\ gen_noise O pr sk ck carry4 32 (tm m1 c) T) ->
  (forall l s c m1, nib_high O pr ck e m aL aH bL bH = Ok (l, s, c, m1) ->
     rounding pr (KeyLv0 sk) (tm m1 c) Rd /\ gen_noise O pr sk ck low4 32 (tm m1 c) T) ->
  exists lo hi m' x y, nib_add O pr ck e m aL aH bL bH = Ok (lo, hi, m') /\
    DecryptLWEMessage (lv0_N pr) (tm m' lo) 32 (KeyLv0 sk) = Ok x /\ DecryptLWEMessage (lv0_N pr) (tm m' hi) 32 (KeyLv0 sk) = Ok y /\
    combine x y = (a + b) mod 256 /\ user_kept e m m' /\ reachable O pr e m'.
Proof. exact nib_ok. Qed.
Print Assumptions C39_nibble_adder.

Theorem C39_nibble_adder_float64 : forall mc O pr sk rk rb ck Bb Bk d d', mc_ok mc -> setup (f64_arith mc) O pr sk rk rb ck ->
  fft_error_within pr d d' -> key_noise_within pr rk rb Bb Bk -> 0 <= Bb -> 0 <= Bk -> 0 <= d' -> 6 <= g_NBIT pr ->
  forall e (m : mem (FP O)) aL aH bL bH a b E, reachable O pr e m -> 0 <= a < 256 -> 0 <= b < 256 ->
  user m e aL -> user m e aH -> user m e bL -> user m e bH ->
  encodes (lv0_N pr) (KeyLv0 sk) (tm m aL) 32 (low_nibble a) E -> encodes (lv0_N pr) (KeyLv0 sk) (tm m aH) 32 (high_nibble a) E ->
  encodes (lv0_N pr) (KeyLv0 sk) (tm m bL) 32 (low_nibble b) E -> encodes (lv0_N pr) (KeyLv0 sk) (tm m bH) 32 (high_nibble b) E ->
  0 <= worst_noise pr sk Bb Bk d d' -> 2 * E + worst_noise pr sk Bb Bk d d' + round_err pr sk < 2 ^ 25 ->
  exists lo hi m' x y, nib_add O pr ck e m aL aH bL bH = Ok (lo, hi, m') /\
    DecryptLWEMessage (lv0_N pr) (tm m' lo) 32 (KeyLv0 sk) = Ok x /\ DecryptLWEMessage (lv0_N pr) (tm m' hi) 32 (KeyLv0 sk) = Ok y /\
    combine x y = (a + b) mod 256 /\ user_kept e m m' /\ reachable O pr e m'.
Proof. exact nib_worst. Qed.
Print Assumptions C39_nibble_adder_float64.

(** ** C40 *)
Theorem C40_modswitch : forall g x k, 0 <= k <= 31 -> LookUpTableSize g = 2 ^ k -> tok x ->
  ModSwitch g x = Ok ((x * 2 ^ k + 2 ^ 31) / 2 ^ 32 mod 2 ^ k).
Proof. exact (t_modswitch amd64_int64). Qed.
(** on any machine, whatever it makes of int64(x) out of range *)
Theorem C40_portable : forall other g x k, 0 <= k <= 31 -> LookUpTableSize g = 2 ^ k -> tok x ->
  ModSwitch_on other g x = Ok ((x * 2 ^ k + 2 ^ 31) / 2 ^ 32 mod 2 ^ k).
Proof. exact t_modswitch. Qed.
Print Assumptions C40_modswitch.

(** ** The hypotheses are met *)
Example C37_table : exists tv, GenLookUpTable tiny (NewGenerator tiny 4) (fun x => (x + 1) mod 4) = Ok tv /\
  map (fun i => zn (tB tv) i / 2 ^ 29) [0; 1; 2; 5; 6; 9; 10; 13] = [1; 1; 2; 2; 3; 3; 0; 0] /\ zn (tB tv) 14 = tneg (2 ^ 29).
Proof. eexists. split; [vm_compute; reflexivity|]. split; vm_compute; reflexivity. Qed.
Example C40_example : map (ModSwitch (NewGenerator params128Bit 2)) [0; 2 ^ 21; 2 ^ 21 - 1; 2 ^ 32 - 1; 2 ^ 31] = [Ok 0; Ok 1; Ok 0; Ok 0; Ok 512].
Proof. vm_compute. reflexivity. Qed.

(** a parameter set with N = 256, for modulus 32 *)
Definition mid : pset := {|
  lv0_N := 3; lv0_ALPHA := (1 # 50000);
  lv1_N := 256; lv1_ALPHA := (1 # 50000000);
  trlwe_N := 256; trlwe_ALPHA := (1 # 50000000);
  g_N := 256; g_NBIT := 8; g_BGBIT := 8; g_BG := 256; g_L := 3;
  g_BASEBIT := 4; g_IKS_T := 6; g_ALPHA := (1 # 50000000); g_BlockSize := 3
|}.
Definition mid_key : SecretKey := {| KeyLv0 := [1; 0; 1]; KeyLv1 := [1; 0; 1; 1] ++ repeat 0 251 ++ [1] |}.
Example mid_params : good_params mid.
Proof. split; [constructor; cbn; lia|reflexivity]. Qed.
Example mid_key_ok : key_ok mid mid_key.
Proof.
  split; (split; [vm_compute; reflexivity|]).
  - repeat (constructor; [lia|]). constructor.
  - apply Forall_forall. intros x Hx. apply in_app_or in Hx. destruct Hx as [Hx|Hx]; [cbn in Hx; intuition lia|].
    apply in_app_or in Hx. destruct Hx as [Hx|Hx]; [apply repeat_spec in Hx; lia|cbn in Hx; intuition lia].
Qed.
Example mid_key_noise : key_noise_within mid tiny_rk tiny_rb 16 16.
Proof. split; intros; apply small_noise_le. Qed.
Example mid_worst : fft_error_within mid 29 0 /\ 0 <= worst_noise mid mid_key 16 16 29 0 /\
  2 * 17 + worst_noise mid mid_key 16 16 29 0 + round_err mid mid_key < 2 ^ 25.
Proof. vm_compute. repeat split; congruence. Qed.

(** every setup has reachable states holding encryptions of any messages *)
Example C38_start : forall (R : arith) O pr sk rk rb ck, setup R O pr sk rk rb ck ->
  forall M (xs : list Z) (r : Z -> enc_rand) E, 1 <= M < 2 ^ 20 ->
  Forall (fun x => 0 <= x < M) xs -> (forall i, Z.abs (centered (F64ToTorus (er_noise (r i)))) <= E) ->
  exists e (m : mem (FP O)) w, reachable O pr e m /\
    Forall2 (fun a x => user m e a /\ encodes (lv0_N pr) (KeyLv0 sk) (tm m a) M x (E + 1)) w xs /\ NoDup w.
Proof. exact t_start. Qed.

(** All hypotheses of the two float64 theorems at once: 0xb7 + 0x5e, and the
    square of 5 modulo 32. *)
Example C39_full : exists mc O ck, mc_ok mc /\ setup (f64_arith mc) O mid mid_key tiny_rk tiny_rb ck /\
  exists e (m : mem (FP O)) aL aH bL bH, reachable O mid e m /\
    encodes 3 [1; 0; 1] (tm m aL) 32 7 17 /\ encodes 3 [1; 0; 1] (tm m aH) 32 11 17 /\
    encodes 3 [1; 0; 1] (tm m bL) 32 14 17 /\ encodes 3 [1; 0; 1] (tm m bH) 32 5 17 /\
  exists lo hi m' x y, nib_add O mid ck e m aL aH bL bH = Ok (lo, hi, m') /\
    DecryptLWEMessage 3 (tm m' lo) 32 [1; 0; 1] = Ok x /\ DecryptLWEMessage 3 (tm m' hi) 32 [1; 0; 1] = Ok y /\ combine x y = 21.
Proof.
  destruct (setup_exists (f64_arith mc0) mid mid_key tiny_rk tiny_rb mid_params ltac:(cbn; lia) mid_key_ok) as (O & ck & S).
  exists mc0, O, ck. split; [exact mc0_ok|]. split; [exact S|]. destruct mid_worst as (W1 & W2 & W3).
  destruct (C38_start _ O mid mid_key tiny_rk tiny_rb ck S 32 [7; 11; 14; 5] tiny_rk 16 ltac:(lia)) as (e & m & w & Hr & F & _).
  { repeat (constructor; [lia|]). constructor. }
  { intro i. apply small_noise_le. }
  inversion F as [|aL ? ? ? [UaL EaL] F1]; subst. inversion F1 as [|aH ? ? ? [UaH EaH] F2]; subst.
  inversion F2 as [|bL ? ? ? [UbL EbL] F3]; subst. inversion F3 as [|bH ? ? ? [UbH EbH] F4]; subst.
  exists e, m, aL, aH, bL, bH. split; [exact Hr|]. split; [exact EaL|]. split; [exact EaH|]. split; [exact EbL|]. split; [exact EbH|].
  destruct (C39_nibble_adder_float64 mc0 O mid mid_key tiny_rk tiny_rb ck 16 16 29 0 mc0_ok S W1 mid_key_noise ltac:(lia) ltac:(lia) ltac:(lia)
    ltac:(cbn; lia) e m aL aH bL bH 183 94 17 Hr ltac:(lia) ltac:(lia) UaL UaH UbL UbH EaL EaH EbL EbH W2 W3)
    as (lo & hi & m' & x & y & H1 & H2 & H3 & H4 & _).
  exists lo, hi, m', x, y. split; [exact H1|]. split; [exact H2|]. split; [exact H3|exact H4].
Qed.

Example C38_full : exists mc O ck, mc_ok mc /\ setup (f64_arith mc) O mid mid_key tiny_rk tiny_rb ck /\
  exists e (m : mem (FP O)) c, reachable O mid e m /\ encodes 3 [1; 0; 1] (tm m c) 32 5 17 /\
  exists r m', BootstrapFunc O mid m e c (fun x => x * x) 32 (BootstrappingKey ck) (KeySwitchingKey ck) (DecompositionOffset ck) = Ok (r, m') /\
    DecryptLWEMessage 3 (tm m' r) 32 [1; 0; 1] = Ok 25.
Proof.
  destruct (setup_exists (f64_arith mc0) mid mid_key tiny_rk tiny_rb mid_params ltac:(cbn; lia) mid_key_ok) as (O & ck & S).
  exists mc0, O, ck. split; [exact mc0_ok|]. split; [exact S|]. destruct mid_worst as (W1 & W2 & W3).
  destruct (C38_start _ O mid mid_key tiny_rk tiny_rb ck S 32 [5] tiny_rk 16 ltac:(lia)) as (e & m & w & Hr & F & _).
  { repeat (constructor; [lia|]). constructor. }
  { intro i. apply small_noise_le. }
  inversion F as [|c ? ? ? [Uc Ec] F1]; subst.
  exists e, m, c. split; [exact Hr|]. split; [exact Ec|].
  destruct (C38_message_float64 mc0 O mid mid_key tiny_rk tiny_rb ck 16 16 29 0 mc0_ok S W1 mid_key_noise ltac:(lia) ltac:(lia) ltac:(lia)
    e m c (fun x => x * x) 5 5 17 Hr) as (r & m' & H1 & _ & H3 & _).
  - split; [apply Ec|left; exact Uc].
  - cbn; lia.
  - lia.
  - exact Ec.
  - vm_compute; reflexivity.
  - vm_compute; reflexivity.
  - exists r, m'. split; [exact H1|exact H3].
Qed.

(** * Properties C26-C29: bootstrapping, gates and circuits

    The vocabulary is in RunSpec.v and Circuit.v.  [setup] gathers: a valid
    parameter set, the evaluator NewEvaluator builds over some arithmetic [R]
    (reals or floats), a binary secret key, and the cloud key NewCloudKey makes
    from it with any randomness.  [reachable] is every state the evaluator can
    be in after any sequence of its operations, whatever the rest of the program
    does to its own memory. *)
From Coq Require Import Lia List.
From Verif Require Import GoBase GoFacts GoMem F64 Utils Spec Params Key Tlwe Poly Fft FftTabErr Trlwe Trgsw Evaluator CloudKey Gates
  RunSpec Circuit RunProps RunWorst NoiseCheck Tiny TinyRun.
Local Open Scope Z_scope.

(** ** C02: every security level has the parameters the theorems below ask for *)
Theorem C02_shipped : forall level, good_params (get_params level).
Proof. exact shipped_params. Qed.
Print Assumptions C02_shipped.

(** ** C26 *)

(** A bootstrap turns any ciphertext whose phase is on one side of the circle,
    with room for the rounding, into an encryption of that side's bit whose
    noise does not depend on the noise of the input. *)
Theorem C26_bootstrap : forall (R : arith) O pr sk rk rb ck, setup R O pr sk rk rb ck ->
  forall e (m : mem (FP O)) k c b T, reachable O pr e m -> key_at O m e k ck -> user m e c -> zlen (tm m c) = lv0_N pr + 1 ->
  boot_noise O pr sk ck (BlindRotateTestvec ck) (tm m c) T ->
  side b (round_err pr sk) (lwe_phase (lv0_N pr) (KeyLv0 sk) (tm m c)) ->
  exists r m', bootstrap O pr m e c k = Ok (r, m') /\ encrypts (lv0_N pr) (KeyLv0 sk) (tm m' r) b T /\
    user m' e r /\ ~ user m e r /\ user_kept e m m' /\ reachable O pr e m'.
Proof. exact p_bootstrap. Qed.
Print Assumptions C26_bootstrap.

(** In binary64 that noise has an explicit bound, the same for every input. *)
Theorem C26_noise_bound : forall mc O pr sk rk rb ck Bb Bk d d' tv ct, mc_ok mc -> setup (f64_arith mc) O pr sk rk rb ck ->
  fft_error_within pr d d' -> key_noise_within pr rk rb Bb Bk -> 0 <= Bb -> 0 <= Bk -> 0 <= d' ->
  zlen (tA tv) = g_N pr -> zlen (tB tv) = g_N pr -> tok_list (tA tv) -> tok_list (tB tv) -> zlen ct = lv0_N pr + 1 ->
  boot_noise O pr sk ck tv ct (worst_noise pr sk Bb Bk d d').
Proof. exact p_worst. Qed.
Print Assumptions C26_noise_bound.

(** ** C27 *)
Theorem C27_gates : forall (R : arith) O pr sk rk rb ck, setup R O pr sk rk rb ck ->
  forall g e (m : mem (FP O)) k a b va vb Ea Eb T, reachable O pr e m -> key_at O m e k ck ->
  encrypts (lv0_N pr) (KeyLv0 sk) (tm m a) va Ea -> encrypts (lv0_N pr) (KeyLv0 sk) (tm m b) vb Eb ->
  Ea + mult g * Eb + round_err pr sk < 2 ^ 29 ->
  (forall p, gate_lin g (lv0_N pr) (tm m a) (tm m b) = Ok p -> boot_noise O pr sk ck (BlindRotateTestvec ck) p T) ->
  exists r m', gate_fun g O pr m e a b k = Ok (r, m') /\
    encrypts (lv0_N pr) (KeyLv0 sk) (tm m' r) (truth g va vb) T /\
    (T < 2 ^ 29 -> DecryptBool (lv0_N pr) (tm m' r) (KeyLv0 sk) = Ok (truth g va vb)) /\
    user m' e r /\ ~ user m e r /\ user_kept e m m' /\ reachable O pr e m' /\ key_at O m' e k ck.
Proof. exact p_gate. Qed.
Print Assumptions C27_gates.

Theorem C27_mux : forall (R : arith) O pr sk rk rb ck, setup R O pr sk rk rb ck ->
  forall e (m : mem (FP O)) k a b c va vb vc Ea Eb Ec T, reachable O pr e m -> key_at O m e k ck -> user m e a -> user m e c ->
  encrypts (lv0_N pr) (KeyLv0 sk) (tm m a) va Ea -> encrypts (lv0_N pr) (KeyLv0 sk) (tm m b) vb Eb ->
  encrypts (lv0_N pr) (KeyLv0 sk) (tm m c) vc Ec ->
  Ea + Eb + round_err pr sk < 2 ^ 29 -> Ea + Ec + round_err pr sk < 2 ^ 29 -> T + T + round_err pr sk < 2 ^ 29 ->
  (forall p, mux_boots O pr e k m a b c p -> boot_noise O pr sk ck (BlindRotateTestvec ck) p T) ->
  exists r m', MUX O pr m e a b c k = Ok (r, m') /\
    encrypts (lv0_N pr) (KeyLv0 sk) (tm m' r) (if va then vb else vc) T /\
    (T < 2 ^ 29 -> DecryptBool (lv0_N pr) (tm m' r) (KeyLv0 sk) = Ok (if va then vb else vc)) /\
    user m' e r /\ ~ user m e r /\ user_kept e m m' /\ reachable O pr e m' /\ key_at O m' e k ck.
Proof. exact p_mux. Qed.
Print Assumptions C27_mux.

(** ** C28: any program of gate calls, of any length, sharing wires at will *)
Theorem C28_circuits : forall (R : arith) O pr sk rk rb ck, setup R O pr sk rk rb ck ->
  forall p e (m : mem (FP O)) k w v v' E, reachable O pr e m -> key_at O m e k ck -> wires O pr e sk m w v E ->
  1 <= E -> 3 * E + round_err pr sk < 2 ^ 29 ->
  (forall c, boots O pr e k p w m c -> boot_noise O pr sk ck (BlindRotateTestvec ck) c E) ->
  plain p v = Ok v' ->
  exists w' m', exec O pr e k p w m = Ok (w ++ w', m') /\ wires O pr e sk m' (w ++ w') v' E /\
    Forall2 (fun x b => DecryptBool (lv0_N pr) (tm m' x) (KeyLv0 sk) = Ok b) (w ++ w') v' /\
    user_kept e m m' /\ reachable O pr e m' /\ key_at O m' e k ck.
Proof. exact p_circuit. Qed.
Print Assumptions C28_circuits.

(** With the noise of the keys bounded beforehand nothing is left to assume
    about the run. *)
Theorem C28_circuits_float64 : forall mc O pr sk rk rb ck, mc_ok mc -> setup (f64_arith mc) O pr sk rk rb ck ->
  forall Bb Bk d d', fft_error_within pr d d' -> key_noise_within pr rk rb Bb Bk -> 0 <= Bb -> 0 <= Bk -> 0 <= d' ->
  forall p e (m : mem (FP O)) k w v v' E, reachable O pr e m -> key_at O m e k ck -> wires O pr e sk m w v E ->
  1 <= E -> worst_noise pr sk Bb Bk d d' <= E -> 3 * E + round_err pr sk < 2 ^ 29 -> plain p v = Ok v' ->
  exists w' m', exec O pr e k p w m = Ok (w ++ w', m') /\
    Forall2 (fun x b => DecryptBool (lv0_N pr) (tm m' x) (KeyLv0 sk) = Ok b) (w ++ w') v' /\
    user_kept e m m' /\ reachable O pr e m' /\ key_at O m' e k ck /\ wires O pr e sk m' (w ++ w') v' E.
Proof. exact p_circuit_worst. Qed.
Print Assumptions C28_circuits_float64.

(** ** C29: the README's ripple-carry adder, any width *)
Theorem C29_adder : forall (R : arith) O pr sk rk rb ck, setup R O pr sk rk rb ck ->
  forall e k (m : mem (FP O)) A B va vb E, reachable O pr e m -> key_at O m e k ck ->
  zlen A = zlen B -> wires O pr e sk m A va E -> wires O pr e sk m B vb E -> 1 <= E -> 3 * E + round_err pr sk < 2 ^ 29 ->
  (forall c, adder_boots O pr e k m A B c -> boot_noise O pr sk ck (BlindRotateTestvec ck) c E) ->
  exists sum carry m' vs vc, Adder O pr e k m A B = Ok (sum, carry, m') /\
    Forall2 (fun x b => DecryptBool (lv0_N pr) (tm m' x) (KeyLv0 sk) = Ok b) (sum ++ [carry]) (vs ++ [vc]) /\
    wires O pr e sk m' (sum ++ [carry]) (vs ++ [vc]) E /\
    zlen vs = zlen va /\ le_value (vs ++ [vc]) = le_value va + le_value vb /\ user_kept e m m' /\ reachable O pr e m'.
Proof. exact p_adder. Qed.
Print Assumptions C29_adder.

Theorem C29_adder_float64 : forall mc O pr sk rk rb ck, mc_ok mc -> setup (f64_arith mc) O pr sk rk rb ck ->
  forall Bb Bk d d', fft_error_within pr d d' -> key_noise_within pr rk rb Bb Bk -> 0 <= Bb -> 0 <= Bk -> 0 <= d' ->
  forall e k (m : mem (FP O)) A B va vb E, reachable O pr e m -> key_at O m e k ck ->
  zlen A = zlen B -> wires O pr e sk m A va E -> wires O pr e sk m B vb E ->
  1 <= E -> worst_noise pr sk Bb Bk d d' <= E -> 3 * E + round_err pr sk < 2 ^ 29 ->
  exists sum carry m' vs vc, Adder O pr e k m A B = Ok (sum, carry, m') /\
    Forall2 (fun x b => DecryptBool (lv0_N pr) (tm m' x) (KeyLv0 sk) = Ok b) (sum ++ [carry]) (vs ++ [vc]) /\
    zlen vs = zlen va /\ le_value (vs ++ [vc]) = le_value va + le_value vb /\ user_kept e m m' /\ reachable O pr e m' /\
    wires O pr e sk m' (sum ++ [carry]) (vs ++ [vc]) E.
Proof. exact p_adder_worst. Qed.
Print Assumptions C29_adder_float64.

(** ** The hypotheses are met *)

(** every [setup] has reachable states, with encryptions of any bits *)
Example C28_start : forall (R : arith) O pr sk rk rb ck, setup R O pr sk rk rb ck ->
  forall (bits : list bool) (r : Z -> enc_rand) E, (forall i, Z.abs (centered (F64ToTorus (er_noise (r i)))) <= E) ->
  exists e (m : mem (FP O)) k w, reachable O pr e m /\ key_at O m e k ck /\ wires O pr e sk m w bits E.
Proof. exact p_start_bits. Qed.

(** a binary64 run on the small parameter set: keys, and the measured noise of
    one XOR (below 50000, far from 2^29) *)
Example C26_setup : setup tinyR tinyO tiny tiny_key tiny_rk tiny_rb tiny_ck.
Proof. exact tiny_setup. Qed.
Example C27_noise : (T <- gate_noise tinyO tiny_ck Gxor true false ;; Ok (T <=? 50000)) = Ok true.
Proof. exact tiny_gate_noise. Qed.

(** The worst case leaves room on the small parameter set. *)
Example C28_worst : 1 <= worst_noise tiny tiny_key 16 16 1 0 /\
  3 * worst_noise tiny tiny_key 16 16 1 0 + round_err tiny tiny_key < 2 ^ 29 /\ fft_error_within tiny 1 0.
Proof. vm_compute. repeat split; congruence. Qed.

(** All hypotheses of C28_circuits_float64 at once, with no noise measured: a
    half adder followed by a multiplexer on three encrypted bits. *)
Example C28_full : exists mc O ck, mc_ok mc /\ setup (f64_arith mc) O tiny tiny_key tiny_rk tiny_rb ck /\
  let E := worst_noise tiny tiny_key 16 16 1 0 in
  exists e (m : mem (FP O)) k w, reachable O tiny e m /\ key_at O m e k ck /\ wires O tiny e tiny_key m w [true; false; true] E /\
  exists w' m', exec O tiny e k [IGate Gxor 0 1; IGate Gand 0 1; IMux 3 4 2; INot 5] w m = Ok (w ++ w', m') /\
    Forall2 (fun x b => DecryptBool 3 (tm m' x) (KeyLv0 tiny_key) = Ok b) (w ++ w') [true; false; true; true; false; false; true].
Proof.
  destruct (setup_exists (f64_arith mc0) tiny tiny_key tiny_rk tiny_rb tiny_params ltac:(cbn; lia) tiny_key_ok) as (O & ck & S).
  exists mc0, O, ck. split; [exact mc0_ok|]. split; [exact S|]. intro E.
  destruct C28_worst as (W1 & W2 & W3).
  destruct (C28_start _ O tiny tiny_key tiny_rk tiny_rb ck S [true; false; true] tiny_rk E) as (e & m & k & w & Hr & Hk & Hw).
  { intro i. pose proof (small_noise_le i). assert (16 <= E) by (vm_compute; congruence). cbn [er_noise tiny_rk]. lia. }
  exists e, m, k, w. split; [exact Hr|]. split; [exact Hk|]. split; [exact Hw|].
  destruct (C28_circuits_float64 mc0 O tiny tiny_key tiny_rk tiny_rb ck mc0_ok S 16 16 1 0 W3 tiny_key_noise ltac:(lia) ltac:(lia) ltac:(lia)
    [IGate Gxor 0 1; IGate Gand 0 1; IMux 3 4 2; INot 5] e m k w [true; false; true] [true; false; true; true; false; false; true] E
    Hr Hk Hw W1 (Z.le_refl _) W2 eq_refl) as (w' & m' & H1 & H2 & _).
  exists w', m'. split; [exact H1|exact H2].
Qed.

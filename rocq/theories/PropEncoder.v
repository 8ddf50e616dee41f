(** * Encoders with a custom scale (C60) *)
From Coq Require Import Lia Reals Lra.
From Flocq Require Import Core BinarySingleNaN.
From Verif Require Import GoBase GoFacts GoMem F64 F64Facts F64Err Utils Spec Params Key Tlwe TlweMem Poly Fft Trlwe Trgsw Lut Evaluator
  CloudKey RunSpec LutSpec EncoderProps EncoderBoot.
Local Open Scope R_scope.

(** The scale is a finite number, at least 2^-29, and the largest message is
    encoded below 1: (M - 1) * scale <= 1 - 2^-53.  Then decoding undoes
    encoding, for every message. *)
Theorem C60_roundtrip : forall M (s : f64) message, (1 <= M)%Z -> is_finite s = true -> / 536870912 <= B2R s ->
  (IZR M - 1) * B2R s <= 1 - / 9007199254740992 ->
  (v <- Encode (NewEncoderWithScale M s) message ;; Decode (NewEncoderWithScale M s) v) = Ok (message mod M)%Z.
Proof. intros M s message H1 H2 H3 H4. exact (custom_roundtrip M s message (conj H1 (conj H2 (conj H3 H4)))). Qed.

Theorem C60_bool : forall M (s : f64) message, (1 <= M)%Z -> is_finite s = true -> / 536870912 <= B2R s ->
  (IZR M - 1) * B2R s <= 1 - / 9007199254740992 ->
  (v <- Encode (NewEncoderWithScale M s) message ;; DecodeBool (NewEncoderWithScale M s) v)
    = Ok (negb (message mod M =? 0))%Z.
Proof. intros M s message H1 H2 H3 H4. exact (custom_bool M s message (conj H1 (conj H2 (conj H3 H4)))). Qed.

(** Noise below half the scale (less 2 units and a relative 2^-20) does no harm
    as long as it does not carry the value over the end of the torus. *)
Theorem C60_noisy : forall M (s : f64) message, (1 <= M)%Z -> is_finite s = true -> / 536870912 <= B2R s ->
  (IZR M - 1) * B2R s <= 1 - / 9007199254740992 ->
  exists z, Encode (NewEncoderWithScale M s) message = Ok z /\ tok z /\
  forall e, (0 <= z + e < 2 ^ 32)%Z -> IZR (Z.abs e) + 2 <= B2R s * 2147481600 ->
    Decode (NewEncoderWithScale M s) (z + e) = Ok (message mod M)%Z.
Proof. intros M s message H1 H2 H3 H4. exact (custom_noisy M s message (conj H1 (conj H2 (conj H3 H4)))). Qed.

(** It may do so if the scale cuts the torus in a multiple of M parts. *)
Theorem C60_wrapping : forall M (s : f64) q message, (1 <= M)%Z -> is_finite s = true -> / 536870912 <= B2R s ->
  (IZR M - 1) * B2R s <= 1 - / 9007199254740992 ->
  (0 < q)%Z -> (M | q)%Z -> Rabs (IZR q * B2R s - 1) <= / 8589934592 ->
  exists z, Encode (NewEncoderWithScale M s) message = Ok z /\ tok z /\
  forall e, IZR (Z.abs e) + 2 <= B2R s * 2147481600 ->
    Decode (NewEncoderWithScale M s) (w32 (z + e)) = Ok (message mod M)%Z.
Proof. intros M s q message H1 H2 H3 H4. exact (custom_wrap M s q message (conj H1 (conj H2 (conj H3 H4)))). Qed.

(** Otherwise the smallest negative noise turns message 0 into another one. *)
Theorem C60_refuted : exists M (s : f64) z, (1 <= M)%Z /\ is_finite s = true /\ / 536870912 <= B2R s /\
  (IZR M - 1) * B2R s <= 1 - / 9007199254740992 /\ Encode (NewEncoderWithScale M s) 0 = Ok z /\
  Decode (NewEncoderWithScale M s) (w32 (z - 1)) = Ok 1%Z /\ (0 mod M <> 1)%Z.
Proof.
  exists 2%Z, (fdiv (f_of_Z 1) (f_of_Z 3)), 0%Z. split; [lia|]. split; [reflexivity|].
  assert (V: val (fdiv (f_of_Z 1) (f_of_Z 3)) = 6004799503160661 * / 18014398509481984).
  { rewrite <- SF2R_B2SF. replace (B2SF (fdiv (f_of_Z 1) (f_of_Z 3))) with (SpecFloat.S754_finite false 6004799503160661 (-54))
      by (vm_compute; reflexivity). unfold SF2R, F2R. simpl. lra. }
  rewrite V. split; [lra|]. split; [lra|]. split; [vm_compute; reflexivity|]. split; [vm_compute; reflexivity|discriminate].
Qed.

(** Bootstrapping with a table of custom scale: the phase of the result decodes
    to the function's value. *)
Theorem C60_bootstrap : forall (R : arith) O pr sk rk rb ck, setup R O pr sk rk rb ck ->
  forall e (m : mem (FP O)) ct lut tv g f M (s : f64) q x T, reachable O pr e m -> input O pr m e ct -> table O pr m e lut tv ->
  LookUpTableSize g = g_N pr -> GenLookUpTableCustom pr g f M s = Ok (tv, g) ->
  (1 <= M)%Z -> is_finite s = true -> / 536870912 <= B2R s -> (IZR M - 1) * B2R s <= 1 - / 9007199254740992 ->
  (0 < q)%Z -> (M | q)%Z -> Rabs (IZR q * B2R s - 1) <= / 8589934592 ->
  (0 <= x < M)%Z -> reads pr (KeyLv0 sk) (tm m ct) M x -> boot_noise O pr sk ck tv (tm m ct) T ->
  IZR T + 2 <= B2R s * 2147481600 ->
  exists r m', BootstrapLUT O pr m e ct lut (BootstrappingKey ck) (KeySwitchingKey ck) (DecompositionOffset ck) = Ok (r, m') /\
    Decode (NewEncoderWithScale M s) (lwe_phase (lv0_N pr) (KeyLv0 sk) (tm m' r)) = Ok (f x mod M)%Z /\
    user m' e r /\ ~ user m e r /\ user_kept e m m' /\ reachable O pr e m'.
Proof.
  intros R O pr sk rk rb ck HS e m ct lut tv g f M s q x T H1 H2 H3 H4 H5 H6 H7 H8 H9.
  exact (custom_boot R O pr sk rk rb ck HS e m ct lut tv g f M s q x T H1 H2 H3 H4 H5 (conj H6 (conj H7 (conj H8 H9)))).
Qed.

(** EncodeWithCustomScale is Encode of an encoder with that scale *)
Theorem C60_custom : forall M (s s' : f64) message,
  EncodeWithCustomScale (NewEncoderWithScale M s) message s' = Encode (NewEncoderWithScale M s') message.
Proof. reflexivity. Qed.

(** Scales out of range: too fine, every message becomes 0; a power of two too
    coarse, two messages get the same code. *)
Theorem C60_too_fine : forall M (s : f64) message, (1 <= M <= 2 ^ 53)%Z -> is_finite s = true -> 0 <= B2R s ->
  (IZR M - 1) * B2R s <= / 8589934592 -> Encode (NewEncoderWithScale M s) message = Ok 0%Z.
Proof. exact custom_fine. Qed.
Theorem C60_too_coarse : forall M k, (0 <= k <= 52)%Z -> (2 ^ k < M)%Z ->
  Encode (NewEncoderWithScale M (f_pow2 (- k))) (2 ^ k) = Encode (NewEncoderWithScale M (f_pow2 (- k))) 0.
Proof. exact custom_coarse. Qed.

Print Assumptions C60_roundtrip.
Print Assumptions C60_bool.
Print Assumptions C60_noisy.
Print Assumptions C60_wrapping.
Print Assumptions C60_refuted.
Print Assumptions C60_bootstrap.
Print Assumptions C60_custom.
Print Assumptions C60_too_fine.
Print Assumptions C60_too_coarse.

(** ** The hypotheses are met *)

(** the bootstrapping code's own scale for bits, 1/8 *)
Example C60_eighth : is_finite (flit 1 (-3)) = true /\ / 536870912 <= B2R (flit 1 (-3)) /\
  (IZR 2 - 1) * B2R (flit 1 (-3)) <= 1 - / 9007199254740992 /\ (2 | 8)%Z /\
  Rabs (IZR 8 * B2R (flit 1 (-3)) - 1) <= / 8589934592.
Proof.
  destruct (flit_exact 1 (-3)) as [V F]; [discriminate|discriminate|discriminate|]. split; [exact F|]. rewrite V.
  unfold F2R; simpl. repeat split; try lra; [exists 4%Z; reflexivity|]. apply Rabs_le; lra.
Qed.
Example C60_run : (v <- Encode (NewEncoderWithScale 7 (flit 1 (-3))) 13 ;;
    Decode (NewEncoderWithScale 7 (flit 1 (-3))) (v - 2 ^ 28 + 2)) = Ok 6%Z.
Proof. vm_compute. reflexivity. Qed.

(** * Properties C01-C07, C45: bits, parameters, torus conversion, LWE encryption *)
From Coq Require Import Lia Reals QArith.
From Flocq Require Import Core BinarySingleNaN.
From Verif Require Import GoBase GoFacts Params F64 F64Facts Utils UtilsFacts Key Tlwe TlweFacts
  BitUtils BitUtilsFacts Lut MsgFacts BasicFacts MsgMargin.
Local Open Scope Z_scope.

(** ** C01 *)

(** number -> bits -> number, at every width *)
Theorem C01_number_roundtrip : forall w v, 1 <= w -> 0 <= v < 2 ^ w ->
  (bits <- ToBits v w ;; ConvertU w bits) = Ok v.
Proof. exact bits_value_roundtrip. Qed.

(** bits -> number -> bits *)
Theorem C01_bits_roundtrip : forall w bits, 1 <= w -> zlen bits = w ->
  (v <- ConvertU w bits ;; ToBits v w) = Ok bits.
Proof. exact value_bits_roundtrip. Qed.

(** the same for the four pairs of functions of the API *)
Theorem C01_api :
  (forall v, 0 <= v < 2 ^ 8 -> (bits <- U8ToBits v ;; ConvertU8 bits) = Ok v) /\
  (forall v, 0 <= v < 2 ^ 16 -> (bits <- U16ToBits v ;; ConvertU16 bits) = Ok v) /\
  (forall v, 0 <= v < 2 ^ 32 -> (bits <- U32ToBits v ;; ConvertU32 bits) = Ok v) /\
  (forall v, 0 <= v < 2 ^ 64 -> (bits <- U64ToBits v ;; ConvertU64 bits) = Ok v) /\
  (forall bits, zlen bits = 8 -> (v <- ConvertU8 bits ;; U8ToBits v) = Ok bits) /\
  (forall bits, zlen bits = 16 -> (v <- ConvertU16 bits ;; U16ToBits v) = Ok bits) /\
  (forall bits, zlen bits = 32 -> (v <- ConvertU32 bits ;; U32ToBits v) = Ok bits) /\
  (forall bits, zlen bits = 64 -> (v <- ConvertU64 bits ;; U64ToBits v) = Ok bits).
Proof. exact api_roundtrip. Qed.

(** a slice of any length is read as its little-endian value, truncated *)
Theorem C01_convert : forall w bits, 1 <= w -> ConvertU w bits = Ok (le_value bits mod 2 ^ w).
Proof. exact ConvertU_ok. Qed.

(** any size, longer or shorter than the number *)
Theorem C01_tobits : forall v size, 0 <= size ->
  ToBits v size = Ok (tab size (fun i => Z.testbit v i)).
Proof. exact ToBits_ok. Qed.

Theorem C01_tobits_negative_size : forall v size, size < 0 -> ToBits v size = Panic PMake.
Proof. exact ToBits_negative. Qed.

Example C01_ex1 : (bits <- U16ToBits 51966 ;; ConvertU16 bits) = Ok 51966.
Proof. vm_compute. reflexivity. Qed.
Example C01_ex2 : ConvertU8 [true; false; true; true; false; false; false; false; true; true] = Ok 13.
Proof. vm_compute. reflexivity. Qed.

(** ** C02 *)

Theorem C02_parameters : forall level, let p := get_params level in
  1 <= lv0_N p /\ trlwe_N p = lv1_N p /\ g_N p = lv1_N p /\
  g_N p = 2 ^ g_NBIT p /\ 4 <= g_NBIT p <= 11 /\
  g_BG p = 2 ^ g_BGBIT p /\ 1 <= g_BGBIT p /\ 1 <= g_L p /\ g_L p * g_BGBIT p <= 32 /\ 2 * g_L p <= 8 /\
  1 <= g_BASEBIT p /\ 1 <= g_IKS_T p /\ g_BASEBIT p * g_IKS_T p <= 31 /\ 2 <= g_BlockSize p.
Proof. exact get_params_wf. Qed.

Theorem C02_block_count : forall level, exists c, GetBlockCount level = Ok c /\
  lv0_N (get_params level) <= c * g_BlockSize (get_params level)
    < lv0_N (get_params level) + g_BlockSize (get_params level).
Proof. exact GetBlockCount_ok. Qed.

(** the three level 1 deviations agree, and key switching keys are never less
    noisy than bootstrapping keys, with a deviation of at most 1/20000 of the
    torus *)
Theorem C02_noise : forall level, let p := get_params level in
  trlwe_ALPHA p = lv1_ALPHA p /\ g_ALPHA p = lv1_ALPHA p /\ lv1_ALPHA p = BSKAlpha level /\ lv0_ALPHA p = KSKAlpha level /\
  (0 < BSKAlpha level /\ BSKAlpha level < KSKAlpha level /\ KSKAlpha level <= 1 # 20000)%Q.
Proof.
  intro level. unfold BSKAlpha, KSKAlpha, get_params.
  repeat match goal with |- context [if ?b then _ else _] => destruct b; [repeat split; vm_compute; congruence|] end.
  repeat split; vm_compute; congruence.
Qed.
Print Assumptions C02_noise.

Theorem C02_unknown_level : forall level,
  ~ In level [80; 110; 1; 2; 3; 4; 5; 6; 7; 8] -> get_params level = params128Bit.
Proof. exact get_params_default. Qed.

(** keys generated at any level have the right lengths and are binary *)
Theorem C02_keys : forall level b0 b1, let p := get_params level in
  exists sk, NewSecretKey p b0 b1 = Ok sk /\ bin_key (lv0_N p) (KeyLv0 sk) /\ bin_key (lv1_N p) (KeyLv1 sk) /\
    (forall i, 0 <= i < lv0_N p -> zn (KeyLv0 sk) i = Z.b2z (b0 i)) /\
    (forall i, 0 <= i < lv1_N p -> zn (KeyLv1 sk) i = Z.b2z (b1 i)).
Proof. exact get_params_keys. Qed.

Example C02_ex : get_params 4711 = params128Bit /\ lv0_N (get_params 5) = 1071 /\ GetBlockCount 128 = Ok 234.
Proof. vm_compute. repeat split; reflexivity. Qed.

(** ** C03 *)

Theorem C03_f64_to_torus : forall d : f64, is_finite d = true ->
  F64ToTorus d = Ztrunc ((B2R d - IZR (Ztrunc (B2R d))) * 4294967296) mod two32.
Proof. exact F64ToTorus_real. Qed.

Theorem C03_torus_roundtrip : forall t, tok t -> F64ToTorus (TorusToF64 t) = t.
Proof. exact F64ToTorus_TorusToF64. Qed.

Theorem C03_negation : forall d : f64, is_finite d = true -> F64ToTorus (fopp d) = tneg (F64ToTorus d).
Proof. exact F64ToTorus_opp. Qed.

(** on any machine, whatever it makes of int64(x) out of range *)
Theorem C03_portable : forall other (d : f64), is_finite d = true ->
  F64ToTorus_on other d = Ztrunc ((B2R d - IZR (Ztrunc (B2R d))) * 4294967296) mod two32.
Proof. exact F64ToTorus_real_on. Qed.

Example C03_ex : F64ToTorus (flit 11 (-2)) = 3 * 2 ^ 30 /\ F64ToTorus (flit (-11) (-2)) = 2 ^ 30
  /\ F64ToTorus (TorusToF64 4294967295) = 4294967295.
Proof. vm_compute. repeat split; reflexivity. Qed.

(** ** C04 *)

(** [DecryptBool] is the level 0 method, [DecryptBoolLv1] the level 1 method.
    The decrypted bit is right exactly for the noises (reduced to
    [-2^31, 2^31)) of the stated half-open interval. *)
Theorem C04_bool_roundtrip : forall n b key r, 0 <= n -> zlen key = n ->
  let e := centered (F64ToTorus (er_noise r)) in
  exists ct, (t <- NewTLWE n ;; EncryptBool n t b key r) = Ok ct /\ lwe_ok n ct /\
    exists b', DecryptBool n ct key = Ok b' /\ DecryptBoolLv1 n ct key = Ok b' /\
      (b' = b <-> if b then - 2 ^ 29 <= e < 3 * 2 ^ 29 else - (3 * 2 ^ 29) <= e < 2 ^ 29).
Proof. exact bool_roundtrip. Qed.

Definition ex_rand : enc_rand := {| er_mask := fun i => i * 2654435761 + 12345; er_noise := flit 3 (-20) |}.
Definition ex_rand_bad : enc_rand := {| er_mask := fun i => i * 2654435761; er_noise := flit 1 (-3) |}.
Example C04_ex : (t <- NewTLWE 3 ;; ct <- EncryptBool 3 t false [1; 0; 1] ex_rand ;; DecryptBool 3 ct [1; 0; 1]) = Ok false
  /\ (t <- NewTLWE 3 ;; ct <- EncryptBool 3 t false [1; 0; 1] ex_rand_bad ;; DecryptBool 3 ct [1; 0; 1]) = Ok true.
Proof. vm_compute. split; reflexivity. Qed.

(** ** C05 *)

Theorem C05_add : forall n s t u, 0 <= n -> zlen t = n + 1 -> zlen u = n + 1 ->
  exists r, Add n t u = Ok r /\ lwe_ok n r /\ lwe_phase n s r == lwe_phase n s t + lwe_phase n s u.
Proof. exact Add_ok. Qed.
Theorem C05_sub : forall n s t u, 0 <= n -> zlen t = n + 1 -> zlen u = n + 1 ->
  exists r, Sub n t u = Ok r /\ lwe_ok n r /\ lwe_phase n s r == lwe_phase n s t - lwe_phase n s u.
Proof. exact Sub_ok. Qed.
Theorem C05_neg : forall n s t, 0 <= n -> zlen t = n + 1 ->
  exists r, Neg n t = Ok r /\ lwe_ok n r /\ lwe_phase n s r == - lwe_phase n s t.
Proof. exact Neg_phase. Qed.
Theorem C05_addmul : forall n s t u m, 0 <= n -> zlen t = n + 1 -> zlen u = n + 1 ->
  exists r, AddMul n t u m = Ok r /\ lwe_ok n r /\ lwe_phase n s r == lwe_phase n s t + m * lwe_phase n s u.
Proof. exact AddMul_ok. Qed.
Theorem C05_submul : forall n s t u m, 0 <= n -> zlen t = n + 1 -> zlen u = n + 1 ->
  exists r, SubMul n t u m = Ok r /\ lwe_ok n r /\ lwe_phase n s r == lwe_phase n s t - m * lwe_phase n s u.
Proof. exact SubMul_ok. Qed.

Example C05_ex : SubMul 2 [1; 2; 3] [5; 6; 4294967295] 3 = Ok [4294967282; 4294967280; 6].
Proof. vm_compute. reflexivity. Qed.

(** ** C06 *)

(** every modulus below 2^20: right for every noise below the margin *)
Theorem C06_message_roundtrip : forall n message M key r, 0 <= n -> zlen key = n -> 1 <= M < 2 ^ 20 ->
  Z.abs (centered (F64ToTorus (er_noise r))) <= 2 ^ 31 / M / 2 - M ->
  exists ct, (t <- NewTLWE n ;; EncryptLWEMessage n t message M key r) = Ok ct /\ lwe_ok n ct /\
    DecryptLWEMessage n ct M key = Ok (message mod M).
Proof. exact msg_roundtrip. Qed.

(** with the drift of the message spelt out, up to one unit *)
Theorem C06_margin : forall n message M key r, 0 <= n -> zlen key = n -> 1 <= M < 2 ^ 20 ->
  let D := 2 ^ 31 / M in
  1 - D / 2 <= (message mod M) * (2 ^ 31 mod M) / M + centered (F64ToTorus (er_noise r)) < D - D / 2 ->
  exists ct, (t <- NewTLWE n ;; EncryptLWEMessage n t message M key r) = Ok ct /\ lwe_ok n ct /\
    DecryptLWEMessage n ct M key = Ok (message mod M).
Proof. exact msg_margin. Qed.

(** without noise, exactly these moduli let every message through: all up to
    2^15, but not all above *)
Theorem C06_noiseless : forall n M key, 0 <= n -> zlen key = n -> 1 <= M < 2 ^ 20 ->
  ((forall message r, F64ToTorus (er_noise r) = 0 ->
      exists ct, (t <- NewTLWE n ;; EncryptLWEMessage n t message M key r) = Ok ct /\
        DecryptLWEMessage n ct M key = Ok (message mod M))
   <-> 2 ^ 31 mod M <= 2 ^ 31 / M - 2 ^ 31 / M / 2).
Proof. exact msg_noiseless. Qed.
Theorem C06_moduli : forall M, 1 <= M <= 2 ^ 15 -> 2 ^ 31 mod M <= 2 ^ 31 / M - 2 ^ 31 / M / 2.
Proof. exact small_moduli. Qed.
Theorem C06_modulus_refuted : exists M r, 1 <= M < 2 ^ 16 /\ er_noise r = f_of_Z 0 /\ exists ct x,
  (t <- NewTLWE 3 ;; EncryptLWEMessage 3 t (M - 1) M [1; 0; 1] r) = Ok ct /\
  DecryptLWEMessage 3 ct M [1; 0; 1] = Ok x /\ x <> (M - 1) mod M.
Proof.
  exists 32896, {| er_mask := er_mask ex_rand; er_noise := f_of_Z 0 |}. split; [lia|]. split; [reflexivity|].
  eexists _, _. split; [vm_compute; reflexivity|]. split; [vm_compute; reflexivity|]. vm_compute. discriminate.
Qed.

(** moduli 2^k up to 2^31: the exact decrypted value for every noise; it is
    [message mod 2^k] when the noise is in [-scale/2, scale/2) *)
Theorem C06_message_roundtrip_pow2 : forall n message k key r, 0 <= n -> zlen key = n -> 0 <= k <= 31 ->
  exists ct, (t <- NewTLWE n ;; EncryptLWEMessage n t message (2 ^ k) key r) = Ok ct /\ lwe_ok n ct /\
    DecryptLWEMessage n ct (2 ^ k) key =
      Ok ((message + (F64ToTorus (er_noise r) + 2 ^ (31 - k) / 2) / 2 ^ (31 - k)) mod 2 ^ k).
Proof. exact msg_roundtrip_pow2. Qed.

Theorem C06_modulus_zero_panics : forall n t m key r ct,
  EncryptLWEMessage n t m 0 key r = Panic PDiv0 /\ DecryptLWEMessage n ct 0 key = Panic PDiv0.
Proof. split; [exact (EncryptLWEMessage_mod0 n t m key r)|exact (DecryptLWEMessage_mod0 n ct key)]. Qed.

Theorem C06_modulus_too_big_panics : forall n ct M key, 0 <= n -> n < zlen ct -> n <= zlen key ->
  2 ^ 31 < M < 2 ^ 32 -> DecryptLWEMessage n ct M key = Panic PDiv0.
Proof. exact DecryptLWEMessage_big. Qed.

Example C06_ex : (t <- NewTLWE 3 ;; ct <- EncryptLWEMessage 3 t (-5) 17 [1; 0; 1] ex_rand ;;
                  DecryptLWEMessage 3 ct 17 [1; 0; 1]) = Ok 12.
Proof. vm_compute. reflexivity. Qed.
Example C06_margin_ex : Z.abs (centered (F64ToTorus (er_noise ex_rand))) <= 2 ^ 31 / 17 / 2 - 17.
Proof. vm_compute. discriminate. Qed.

(** ** C07 *)

Theorem C07_encoder_roundtrip : forall message M, 1 <= M < 2 ^ 20 ->
  (v <- Encode (NewEncoder M) message ;; Decode (NewEncoder M) v) = Ok (message mod M).
Proof. exact encoder_roundtrip. Qed.

(** also with noise added to the encoded value *)
Theorem C07_encoder_noisy : forall message M e, 1 <= M < 2 ^ 20 -> Z.abs e * M <= 2 ^ 30 - M - 4 ->
  exists z, Encode (NewEncoder M) message = Ok z /\ tok z /\
    Decode (NewEncoder M) (w32 (z + e)) = Ok (message mod M).
Proof. exact encoder_noisy. Qed.

(** Decode rounds every torus value to the nearest multiple of 2^31/M *)
Theorem C07_decode_nearest : forall M t j, 1 <= M < 2 ^ 20 -> tok t -> 0 <= j ->
  Z.abs (t * M - j * 2 ^ 31) <= 2 ^ 30 - 4 -> Decode (NewEncoder M) t = Ok (j mod M).
Proof. exact Decode_nearest. Qed.

(** on any machine, whatever it makes of int64(x) out of range *)
Theorem C07_portable : forall other M t j, 1 <= M < 2 ^ 20 -> tok t -> 0 <= j ->
  Z.abs (t * M - j * 2 ^ 31) <= 2 ^ 30 - 4 -> Decode_on other (NewEncoder M) t = Ok (j mod M).
Proof. exact Decode_nearest_on. Qed.

(** powers of two: the exact encoding, which is the one EncryptLWEMessage uses *)
Theorem C07_encode_pow2 : forall message k, 0 <= k <= 31 ->
  Encode (NewEncoder (2 ^ k)) message = Ok ((message mod 2 ^ k) * 2 ^ (31 - k)).
Proof. exact Encode_pow2. Qed.

Theorem C07_agrees_with_encryption : forall n message k key r, 0 <= n -> zlen key = n -> 0 <= k <= 31 ->
  F64ToTorus (er_noise r) = 0 ->
  exists ct z, (t <- NewTLWE n ;; EncryptLWEMessage n t message (2 ^ k) key r) = Ok ct /\
    Encode (NewEncoder (2 ^ k)) message = Ok z /\ lwe_phase n key ct = z.
Proof. exact encode_agrees. Qed.

Theorem C07_modulus_zero_panics : forall s m, Encode (NewEncoderWithScale 0 s) m = Panic PDiv0.
Proof. exact Encode_mod0. Qed.

Example C07_ex : Encode (NewEncoder 10) (-3) = Ok 1503238553 /\ Decode (NewEncoder 10) 1503238553 = Ok 7
  /\ Decode (NewEncoder 10) 4294967290 = Ok 0.
Proof. vm_compute. repeat split; reflexivity. Qed.

(** ** C45 *)

Theorem C45_bit_vectors : forall n bits key r, 0 <= n -> zlen key = n ->
  exists out, (cts <- EncryptBits n bits key r ;; DecryptBits n cts key) = Ok out /\ zlen out = zlen bits /\
    forall i, 0 <= i < zlen bits ->
      let b := znd false bits i in
      let e := centered (F64ToTorus (er_noise (r i))) in
      (znd false out i = b <-> if b then - 2 ^ 29 <= e < 3 * 2 ^ 29 else - (3 * 2 ^ 29) <= e < 2 ^ 29).
Proof. exact bits_encryption_exact. Qed.

Theorem C45_bit_vectors_roundtrip : forall n bits key r, 0 <= n -> zlen key = n ->
  (forall i, 0 <= i < zlen bits -> - 2 ^ 29 <= centered (F64ToTorus (er_noise (r i))) < 2 ^ 29) ->
  (cts <- EncryptBits n bits key r ;; DecryptBits n cts key) = Ok bits.
Proof. exact bits_roundtrip_small. Qed.

Example C45_ex : (cts <- EncryptBits 3 [true; false; true; true] [1; 0; 1] (fun _ => ex_rand) ;;
                  DecryptBits 3 cts [1; 0; 1]) = Ok [true; false; true; true].
Proof. vm_compute. reflexivity. Qed.

Print Assumptions C01_number_roundtrip.
Print Assumptions C01_bits_roundtrip.
Print Assumptions C01_api.
Print Assumptions C02_parameters.
Print Assumptions C02_keys.
Print Assumptions C03_f64_to_torus.
Print Assumptions C03_torus_roundtrip.
Print Assumptions C04_bool_roundtrip.
Print Assumptions C05_submul.
Print Assumptions C06_message_roundtrip.
Print Assumptions C06_message_roundtrip_pow2.
Print Assumptions C06_margin.
Print Assumptions C06_noiseless.
Print Assumptions C06_modulus_refuted.
Print Assumptions C07_encoder_roundtrip.
Print Assumptions C07_encoder_noisy.
Print Assumptions C07_agrees_with_encryption.
Print Assumptions C45_bit_vectors.

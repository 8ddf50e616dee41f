(** * Properties C47, C48, C53: what the published data says about the secret key

    [steal] and [guess_bit] (Attack.v) are computations of somebody who has the
    cloud key, or the public key, and nothing else. *)
From Coq Require Import Lia List QArith Qreals Reals.
From Flocq Require Import Core BinarySingleNaN.
From Verif Require Import GoBase GoFacts F64 F64Facts Utils Spec Params Key Tlwe Poly Fft FftTabErr Trlwe CloudKey RunSpec BasicFacts ProxyReenc ReencSpec
  RunProps RunWorst Attack AttackFacts SecretProps Seed SeedFacts Spy SpyProps ReencProps Tiny TinyRun.
Import ListNotations.
Local Open Scope Z_scope.

(** ** C47: the cloud key does not determine the secret key *)

(** False at the levels Uint2 to Uint8.  There the noise samples, however they
    turn out within 100 standard deviations, are all rounded to 0; from the
    cloud key alone the attacker computes the complete secret key as soon as
    one of the random masks has an odd sum. *)
Theorem C47_refuted : forall level mc O sk rk rb ck, 2 <= level <= 8 -> mc_ok mc ->
  setup (f64_arith mc) O (get_params level) sk rk rb ck ->
  (forall i j k, is_finite (tr_noise (rb i j) k) = true /\ (Rabs (B2R (tr_noise (rb i j) k)) <= 100 * Q2R (BSKAlpha level))%R) ->
  (exists i j, 0 <= i < lv0_N (get_params level) /\ 0 <= j < 2 * g_L (get_params level) /\
     Z.odd (zsum (g_N (get_params level)) (fun k => tr_mask (rb i j) k)) = true) ->
  steal O (g_N (get_params level)) (g_L (get_params level)) (BootstrappingKey ck) = Ok sk.
Proof. exact a_steal. Qed.
Print Assumptions C47_refuted.

(** for any parameter set, if the rounded samples are 0 *)
Theorem C47_noiseless : forall mc O pr sk rk rb ck, mc_ok mc -> setup (f64_arith mc) O pr sk rk rb ck ->
  g_NBIT pr <= 11 -> g_L pr * g_BGBIT pr <= 31 ->
  (forall i j k, 0 <= k < g_N pr -> F64ToTorus (tr_noise (rb i j) k) = 0) ->
  (exists i j, 0 <= i < lv0_N pr /\ 0 <= j < 2 * g_L pr /\ Z.odd (zsum (g_N pr) (fun k => tr_mask (rb i j) k)) = true) ->
  steal O (g_N pr) (g_L pr) (BootstrappingKey ck) = Ok sk.
Proof. exact a_noiseless. Qed.
Print Assumptions C47_noiseless.

(** which samples are lost *)
Theorem C47_rounding : forall x, is_finite x = true -> (Rabs (B2R x) < 1)%R ->
  (F64ToTorus x = 0 <-> (Rabs (B2R x) < / 4294967296)%R).
Proof. exact noise_zero. Qed.
Print Assumptions C47_rounding.

(** at the other levels one standard deviation is at least 64 units of the
    torus, so only samples below 1/64 of it are lost *)
Theorem C47_kept : forall level, ~ 2 <= level <= 8 -> (64 / 4294967296 <= Q2R (BSKAlpha level))%R.
Proof. exact alpha_coarse. Qed.
Print Assumptions C47_kept.

(** a run of the attack on a small cloud key made with noise 0 *)
Definition zero_rb (i r : Z) : trlwe_rand := {| tr_mask := fun j => mix (100 * i + 20 * r + j) / 16; tr_noise := fun _ => f_of_Z 0 |}.
Example C47_run : (ck <- NewCloudKey tinyO tiny tiny_key tiny_rk zero_rb ;; steal tinyO 16 3 (BootstrappingKey ck)) = Ok tiny_key.
Proof. vm_compute. reflexivity. Qed.

(** with noise it finds something else *)
Definition noisy_rb (i r : Z) : trlwe_rand := {| tr_mask := tr_mask (zero_rb i r); tr_noise := fun j => flit (mix (i + 31 * r + 7 * j) mod 9 - 4) (-32) |}.
Example C47_run_noise : (ck <- NewCloudKey tinyO tiny tiny_key tiny_rk noisy_rb ;; sk <- steal tinyO 16 3 (BootstrappingKey ck) ;;
  Ok (same_vec (KeyLv1 sk) (KeyLv1 tiny_key))) = Ok false.
Proof. vm_compute. reflexivity. Qed.

(** the hypotheses at Uint4, for any secret key *)
Example C47_full : forall sk, key_ok (get_params 4) sk -> exists mc O rk rb ck, mc_ok mc /\
  setup (f64_arith mc) O (get_params 4) sk rk rb ck /\
  (forall i j k, is_finite (tr_noise (rb i j) k) = true /\ (Rabs (B2R (tr_noise (rb i j) k)) <= 100 * Q2R (BSKAlpha 4))%R) /\
  (exists i j, 0 <= i < lv0_N (get_params 4) /\ 0 <= j < 2 * g_L (get_params 4) /\
     Z.odd (zsum (g_N (get_params 4)) (fun k => tr_mask (rb i j) k)) = true).
Proof.
  intros sk Hk. set (rb := fun i j : Z => {| tr_mask := fun k => if k =? 5 then 77 else 2 * k; tr_noise := fun _ => f_of_Z 0 |}).
  destruct (setup_exists (f64_arith mc0) (get_params 4) sk tiny_rk rb (shipped_params 4) ltac:(vm_compute; discriminate) Hk) as (O & ck & S).
  exists mc0, O, tiny_rk, rb, ck. split; [exact mc0_ok|]. split; [exact S|]. split.
  - intros i j k. cbn [tr_noise rb]. split; [reflexivity|]. replace (B2R (f_of_Z 0)) with 0%R by reflexivity. rewrite Rabs_R0.
    apply Rmult_le_pos; [apply IZR_le; lia|]. unfold Q2R. apply Rmult_le_pos; [apply IZR_le; vm_compute; discriminate|].
    apply Rlt_le, Rinv_0_lt_compat. apply IZR_lt. reflexivity.
  - exists 0, 0. split; [vm_compute; split; congruence|]. split; [vm_compute; split; congruence|]. vm_compute. reflexivity.
Qed.

(** ** C48: keys and ciphertexts are as random as they look *)

(** False: math/rand keeps 31 bits of the seed.  NewSecretKey can only return
    one of 2^31-1 keys, whatever the generator computes from its seed; *)
Theorem C48_keys_refuted : forall pr gen, 0 <= lv0_N pr -> 0 <= lv1_N pr ->
  exists l, zlen l <= 2 ^ 31 - 1 /\ forall seed, exists sk, NewSecretKeySeed pr gen seed = Ok sk /\ In sk l.
Proof. exact s_keys. Qed.
Print Assumptions C48_keys_refuted.

(** so there are keys it never returns. *)
Theorem C48_missing_keys : forall pr gen, 31 <= lv0_N pr -> 0 <= lv1_N pr ->
  exists k0, bin_key (lv0_N pr) k0 /\ forall seed sk, NewSecretKeySeed pr gen seed = Ok sk -> KeyLv0 sk <> k0.
Proof. exact s_missing. Qed.
Print Assumptions C48_missing_keys.

(** Among 2^31 encryptions of a bit, two are the same ciphertext; *)
Theorem C48_repeats : forall n gen key b seeds, 2 ^ 31 - 1 < zlen seeds ->
  exists i j, 0 <= i < j /\ j < zlen seeds /\ EncryptBoolSeed n b key gen (zn seeds i) = EncryptBoolSeed n b key gen (zn seeds j).
Proof. exact s_repeat. Qed.
Print Assumptions C48_repeats.

(** and two encryptions with the same reduced seed show whether their bits are equal. *)
Theorem C48_same_seed : forall n gen key b1 b2 s1 s2, 0 <= n -> zlen key = n -> s1 mod (2 ^ 31 - 1) = s2 mod (2 ^ 31 - 1) ->
  exists c1 c2, EncryptBoolSeed n b1 key gen s1 = Ok c1 /\ EncryptBoolSeed n b2 key gen s2 = Ok c2 /\
    (forall i, 0 <= i < n -> zn c1 i = zn c2 i) /\ (c1 = c2 <-> b1 = b2).
Proof. exact s_same. Qed.
Print Assumptions C48_same_seed.

(** A public key encryption can be opened by its 2^31-1 possible seeds, given
    the public key alone, whenever it can be decrypted at all. *)
Theorem C48_public_key_refuted : forall n sk size zeros pk gen b seed ct, 0 <= n -> zlen sk = n -> 0 <= size ->
  NewPublicKeyLv0WithParams n sk size zeros = Ok pk ->
  (forall r, Z.abs (pk_total size zeros (gen r)) < 2 ^ 29) ->
  PkEncryptBoolSeed n pk b gen seed = Ok ct ->
  guess_bit (PkEncryptBoolSeed n pk true gen) (2 ^ 31 - 1) ct = b.
Proof. exact s_guess. Qed.
Print Assumptions C48_public_key_refuted.

(** a generator for the examples *)
Definition ex_gen (r : Z) : (Z -> bool) * (Z -> bool) := (fun i => Z.odd (mix (r + i)), fun i => Z.odd (mix (3 * r + i) / 2)).
Example C48_ex_keys : NewSecretKeySeed tiny ex_gen 5 = NewSecretKeySeed tiny ex_gen (5 + 7 * (2 ^ 31 - 1)) /\
  NewSecretKeySeed tiny ex_gen 5 <> NewSecretKeySeed tiny ex_gen 6.
Proof. split; [vm_compute; reflexivity|vm_compute; discriminate]. Qed.

Definition ex_zero (i : Z) : enc_rand := {| er_mask := fun j => mix (17 * i + j); er_noise := flit (mix i mod 16 - 8) (-32) |}.
Definition ex_pkgen (i : Z) : pk_rand :=
  {| pk_use := fun e => Z.odd (mix (i + 5 * e) / 4); pk_add := fun e => Z.odd (mix (i + 7 * e + 1) / 8); pk_noise := flit (mix (i + 3) mod 16 - 8) (-32) |}.
(** the bound of C48_public_key_refuted holds for this generator, for every seed *)
Example C48_ex_noise : forall r, Z.abs (pk_total 6 ex_zero (ex_pkgen r)) < 2 ^ 29.
Proof.
  intro r. apply Z.le_lt_trans with (6 * 8 + 8); [|lia].
  assert (B: forall x, Z.abs (sample (flit (mix x mod 16 - 8) (-32))) <= 8).
  { intro x. pose proof (Z.mod_pos_bound (mix x) 16 ltac:(lia)) as H. set (k := mix x mod 16) in *. clearbody k.
    assert (C: k = 0 \/ k = 1 \/ k = 2 \/ k = 3 \/ k = 4 \/ k = 5 \/ k = 6 \/ k = 7 \/ k = 8 \/ k = 9 \/ k = 10 \/ k = 11 \/ k = 12 \/ k = 13 \/ k = 14 \/ k = 15) by lia.
    repeat (destruct C as [->|C]; [vm_compute; congruence|]). subst. vm_compute. congruence. }
  apply ReencProps.pk_total_le; [lia|intros; apply B|apply B].
Qed.
(** opening an encryption with the first 50 seeds *)
Example C48_ex_guess : (pk <- NewPublicKeyLv0WithParams 3 [1; 0; 1] 6 ex_zero ;;
  c <- PkEncryptBoolSeed 3 pk true ex_pkgen 37 ;; d <- PkEncryptBoolSeed 3 pk false ex_pkgen 21 ;;
  Ok (guess_bit (PkEncryptBoolSeed 3 pk true ex_pkgen) 50 c, guess_bit (PkEncryptBoolSeed 3 pk true ex_pkgen) 50 d)) = Ok (true, false).
Proof. vm_compute. reflexivity. Qed.

(** ** C53: a proxy's service gives the delegatee the converted messages only *)

(** False: with n well chosen ciphertexts whoever decrypts the converted ones
    (the delegatee, or with the key itself the delegatee and the proxy) learns
    the delegator's complete secret key.  At every level, in both modes: each
    question uses one entry of the re-encryption key, so that any noise up to
    1/64 of the torus is bearable. *)
Theorem C53_refuted : forall level a b zeros rnd srnd E, let pr := get_params level in let n := lv0_N pr in
  bin_key n a -> zlen b = n ->
  (forall i, Z.abs (pk_total (2 * n) zeros (rnd i)) <= E) -> (forall i, Z.abs (sample (er_noise (srnd i))) <= E) -> E < 2 ^ 26 ->
  exists pk rk rk', NewPublicKeyLv0 pr b zeros = Ok pk /\ NewProxyReencryptionKeyAsymmetric pr a pk rnd = Ok rk /\
    NewProxyReencryptionKeySymmetric pr a b srnd = Ok rk' /\
    spy n (fun ct => ct' <- ReencryptTLWELv0 n ct rk ;; DecryptBool n ct' b) = Ok a /\
    spy n (fun ct => ct' <- ReencryptTLWELv0 n ct rk' ;; DecryptBool n ct' b) = Ok a.
Proof. exact spy_shipped. Qed.
Print Assumptions C53_refuted.

(** for any digits *)
Theorem C53_key : forall n a b rk basebit t noise E, 0 <= n -> rkey n a b rk basebit t noise -> 2 <= basebit * t ->
  (forall x, Z.abs (noise x) <= E) -> E + weight n a * 2 ^ (31 - basebit * t) < 2 ^ 29 ->
  spy n (fun ct => ct' <- ReencryptTLWELv0 n ct rk ;; DecryptBool n ct' b) = Ok a.
Proof. exact spy_run. Qed.
Print Assumptions C53_key.

(** through any number of proxies *)
Theorem C53_chain : forall n D a rks c, 0 <= n -> bin_key n a -> chain n D a rks c -> zlen rks * D < 2 ^ 29 ->
  spy n (fun ct => ct' <- reencrypt_all n ct rks ;; DecryptBool n ct' c) = Ok a.
Proof. exact spy_chain. Qed.
Print Assumptions C53_chain.

(** so does anybody who is told the bits chosen ciphertexts decrypt to *)
Theorem C53_decryption : forall n a, 0 <= n -> bin_key n a -> spy n (fun ct => DecryptBool n ct a) = Ok a.
Proof. exact spy_decrypt. Qed.
Print Assumptions C53_decryption.

Definition spy_rnd (i : Z) : enc_rand := {| er_mask := fun j => mix (3 * i + j); er_noise := flit (mix (i + 9) mod 16 - 8) (-32) |}.
Example C53_run : (rk <- NewProxyReencryptionKeySymmetricWithParams 5 [1; 0; 1; 1; 0] [0; 1; 1; 0; 1] 2 6 spy_rnd ;;
  spy 5 (fun ct => ct' <- ReencryptTLWELv0 5 ct rk ;; DecryptBool 5 ct' [0; 1; 1; 0; 1])) = Ok [1; 0; 1; 1; 0].
Proof. vm_compute. reflexivity. Qed.

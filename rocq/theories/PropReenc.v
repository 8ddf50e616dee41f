(** * Properties C41-C44: public key encryption and proxy re-encryption

    The vocabulary is in ReencSpec.v: [sample] (a noise sample as a signed
    torus number), [pk_total] (the noise of one public key encryption),
    [reenc_error] (the per-hop bound), [hop], [chain], [reencrypt_all]. *)
From Coq Require Import Lia List.
From Verif Require Import GoBase GoFacts F64 Utils Spec Params Tlwe BasicFacts ProxyReenc ReencSpec ReencProps Tiny.
Import ListNotations.
Local Open Scope Z_scope.

(** ** C41 *)

(** for every choice of entries, signs and noises, the encryption succeeds, and
    it decrypts to the bit exactly when the total noise is within the margin *)
Theorem C41_public_key : forall n sk size zeros b r, 0 <= n -> zlen sk = n -> 0 <= size ->
  exists pk ct b', NewPublicKeyLv0WithParams n sk size zeros = Ok pk /\ PkEncryptBool n pk b r = Ok ct /\ lwe_ok n ct /\
    DecryptBool n ct sk = Ok b' /\ (b' = b <-> bool_noise_ok b (centered (pk_total size zeros r))).
Proof. exact q_public. Qed.
Print Assumptions C41_public_key.

(** in particular when it is below 1/8 *)
Theorem C41_below_eighth : forall n sk size zeros b r, 0 <= n -> zlen sk = n -> 0 <= size ->
  Z.abs (pk_total size zeros r) < 2 ^ 29 ->
  exists pk ct, NewPublicKeyLv0WithParams n sk size zeros = Ok pk /\ PkEncryptBool n pk b r = Ok ct /\ DecryptBool n ct sk = Ok b.
Proof. exact q_public_small. Qed.
Print Assumptions C41_below_eighth.

(** the total is at most [size] times the largest noise of a zero encryption plus the fresh noise *)
Theorem C41_total : forall size zeros r Ez Ef, 0 <= size ->
  (forall i, 0 <= i < size -> Z.abs (sample (er_noise (zeros i))) <= Ez) -> Z.abs (sample (pk_noise r)) <= Ef ->
  Z.abs (pk_total size zeros r) <= size * Ez + Ef.
Proof. exact pk_total_le. Qed.
Print Assumptions C41_total.

(** the noises of a run on three-bit keys *)
Definition ex_zeros (i : Z) : enc_rand := {| er_mask := fun j => mix (17 * i + j); er_noise := flit (mix i mod 16 - 8) (-32) |}.
Definition ex_pick (i : Z) : pk_rand :=
  {| pk_use := fun e => Z.odd (mix (i + 5 * e)); pk_add := fun e => Z.odd (mix (i + 7 * e + 1)); pk_noise := flit (mix (i + 3) mod 16 - 8) (-32) |}.

Example C41_ex : (pk <- NewPublicKeyLv0WithParams 3 [1; 0; 1] 6 ex_zeros ;;
  c <- PkEncryptBool 3 pk true (ex_pick 1) ;; d <- PkEncryptBool 3 pk false (ex_pick 2) ;;
  x <- DecryptBool 3 c [1; 0; 1] ;; y <- DecryptBool 3 d [1; 0; 1] ;;
  Ok (x, y, negb (pk_total 6 ex_zeros (ex_pick 1) =? 0), Z.abs (pk_total 6 ex_zeros (ex_pick 1)) <? 60)) = Ok (true, false, true, true).
Proof. vm_compute. reflexivity. Qed.

(** ** C42 *)

Theorem C42_symmetric : forall n basebit t a b rnd E, 0 <= n -> bin_key n a -> zlen b = n ->
  1 <= basebit -> 1 <= t -> basebit * t <= 31 -> (forall i, Z.abs (sample (er_noise (rnd i))) <= E) ->
  exists rk, NewProxyReencryptionKeySymmetricWithParams n a b basebit t rnd = Ok rk /\
    forall ct, lwe_ok n ct -> exists ct', ReencryptTLWELv0 n ct rk = Ok ct' /\ lwe_ok n ct' /\
      close (reenc_error n basebit t a E) (lwe_phase n b ct') (lwe_phase n a ct).
Proof. exact q_symmetric. Qed.
Print Assumptions C42_symmetric.

Theorem C42_asymmetric : forall n basebit t size a b zeros rnd pk E, 0 <= n -> bin_key n a -> zlen b = n ->
  1 <= basebit -> 1 <= t -> basebit * t <= 31 -> 0 <= size ->
  NewPublicKeyLv0WithParams n b size zeros = Ok pk -> (forall i, Z.abs (pk_total size zeros (rnd i)) <= E) ->
  exists rk, NewProxyReencryptionKeyAsymmetricWithParams n a pk basebit t rnd = Ok rk /\
    forall ct, lwe_ok n ct -> exists ct', ReencryptTLWELv0 n ct rk = Ok ct' /\ lwe_ok n ct' /\
      close (reenc_error n basebit t a E) (lwe_phase n b ct') (lwe_phase n a ct).
Proof. exact q_asymmetric. Qed.
Print Assumptions C42_asymmetric.

(** the default key generators, at every security level *)
Theorem C42_shipped : forall level a b zeros rnd srnd E Es, let pr := get_params level in let n := lv0_N pr in
  bin_key n a -> zlen b = n ->
  (forall i, Z.abs (pk_total (2 * n) zeros (rnd i)) <= E) -> (forall i, Z.abs (sample (er_noise (srnd i))) <= Es) ->
  exists pk rk rk', NewPublicKeyLv0 pr b zeros = Ok pk /\ NewProxyReencryptionKeyAsymmetric pr a pk rnd = Ok rk /\
    NewProxyReencryptionKeySymmetric pr a b srnd = Ok rk' /\
    forall ct, lwe_ok n ct ->
      (exists ct', ReencryptTLWELv0 n ct rk = Ok ct' /\ lwe_ok n ct' /\
        close (reenc_error n (g_BASEBIT pr) (g_IKS_T pr) a E) (lwe_phase n b ct') (lwe_phase n a ct)) /\
      (exists ct', ReencryptTLWELv0 n ct rk' = Ok ct' /\ lwe_ok n ct' /\
        close (reenc_error n (g_BASEBIT pr) (g_IKS_T pr) a Es) (lwe_phase n b ct') (lwe_phase n a ct)).
Proof. exact q_shipped. Qed.
Print Assumptions C42_shipped.

(** With the noise of the key entries that were really used.  A key holds as
    many entries as digit values; only those that the digits of the ciphertext's
    mask select are subtracted, so signs may cancel. *)
Theorem C42_run : forall n a b rk basebit t noise, 0 <= n -> rkey n a b rk basebit t noise -> forall ct, lwe_ok n ct ->
  exists ct', ReencryptTLWELv0 n ct rk = Ok ct' /\ lwe_ok n ct' /\
    exists d, Z.abs d <= weight n a * 2 ^ (31 - basebit * t) /\
      lwe_phase n b ct' == lwe_phase n a ct + d - used_noise n basebit t ct noise.
Proof. exact q_run. Qed.
Print Assumptions C42_run.

Theorem C42_run_bit : forall n a b rk basebit t noise ct v e, 0 <= n -> rkey n a b rk basebit t noise -> lwe_ok n ct ->
  lwe_phase n a ct == mu_bit v + e -> Z.abs (e - used_noise n basebit t ct noise) + weight n a * 2 ^ (31 - basebit * t) < 2 ^ 29 ->
  exists ct', ReencryptTLWELv0 n ct rk = Ok ct' /\ DecryptBool n ct' b = Ok v.
Proof. exact q_run_bit. Qed.
Print Assumptions C42_run_bit.

(** the bound at the 128-bit level, for key noise up to 2^14 (2^-18 of the torus) *)
Example C42_numbers : reenc_error 700 2 9 (repeat 1 700) (2 ^ 14) = 108953600 /\ 4 * 108953600 < 2 ^ 29.
Proof. split; [vm_compute; reflexivity|reflexivity]. Qed.

Definition ex_rnd (i : Z) : enc_rand := {| er_mask := fun j => mix (3 * i + j); er_noise := flit (mix (i + 9) mod 16 - 8) (-32) |}.

Example C42_ex : (ct <- (z <- NewTLWE 3 ;; EncryptBool 3 z true [1; 0; 1] (ex_rnd 99)) ;;
  rk <- NewProxyReencryptionKeySymmetricWithParams 3 [1; 0; 1] [0; 1; 1] 2 5 ex_rnd ;;
  ct' <- ReencryptTLWELv0 3 ct rk ;;
  Ok (Z.abs (centered (lwe_phase 3 [0; 1; 1] ct' - lwe_phase 3 [1; 0; 1] ct)) <=? reenc_error 3 2 5 [1; 0; 1] 8,
      lwe_phase 3 [0; 1; 1] ct' =? lwe_phase 3 [1; 0; 1] ct)) = Ok (true, false).
Proof. vm_compute. reflexivity. Qed.

Example C42_run_ex : (rk <- NewProxyReencryptionKeySymmetricWithParams 3 [1; 0; 1] [0; 1; 1] 2 5 ex_rnd ;;
  let ct := [2 ^ 31 + 12345; 77; 2 ^ 30; 2 ^ 29] in
  ct' <- ReencryptTLWELv0 3 ct rk ;;
  let u := used_noise 3 2 5 ct (fun i => sample (er_noise (ex_rnd i))) in
  Ok (negb (u =? 0), Z.abs (centered (lwe_phase 3 [0; 1; 1] ct' - lwe_phase 3 [1; 0; 1] ct + u)) <=? 2 * 2 ^ 21)) = Ok (true, true).
Proof. vm_compute. reflexivity. Qed.

(** ** C43 *)

(** the phase after any number of hops *)
Theorem C43_phase : forall n D a rks c, 0 <= n -> chain n D a rks c -> forall ct, lwe_ok n ct ->
  exists ct', reencrypt_all n ct rks = Ok ct' /\ lwe_ok n ct' /\ close (zlen rks * D) (lwe_phase n c ct') (lwe_phase n a ct).
Proof. exact q_chain. Qed.
Print Assumptions C43_phase.

Theorem C43_message : forall n D a rks c ct b e, 0 <= n -> chain n D a rks c -> zlen a = n -> lwe_ok n ct ->
  lwe_phase n a ct == mu_bit b + e -> Z.abs e + zlen rks * D < 2 ^ 29 ->
  exists ct', reencrypt_all n ct rks = Ok ct' /\ DecryptBool n ct' c = Ok b.
Proof. exact q_chain_bit. Qed.
Print Assumptions C43_message.

(** a symmetric hop followed by an asymmetric one *)
Example C43_chain : exists rk1 rk2, chain 3 5000000 [1; 0; 1] [rk1; rk2] [1; 1; 0].
Proof.
  assert (B1: bin_key 3 [1; 0; 1]) by (split; [reflexivity|repeat constructor; lia]).
  assert (B2: bin_key 3 [0; 1; 1]) by (split; [reflexivity|repeat constructor; lia]).
  destruct (q_symmetric 3 2 5 [1; 0; 1] [0; 1; 1] ex_rnd 8) as (rk1 & E1 & _); try assumption; try reflexivity; try lia.
  { intro i. apply (small_sample (mix (i + 9) mod 16 - 8)). pose proof (Z.mod_pos_bound (mix (i + 9)) 16 ltac:(lia)). lia. }
  destruct (q_limits_asym 3 3 4 6 [0; 1; 1] [1; 1; 0] ex_zeros ex_pick) as (pk & rk2 & Ep & E2 & _); try assumption; try reflexivity; try lia.
  exists rk1, rk2. eapply chain_hop; [|eapply chain_hop; [|apply chain_here]].
  - apply (hop_symmetric 3 _ [1; 0; 1] [0; 1; 1] 2 5 8 ex_rnd); [exact B1|reflexivity|lia|lia|lia| |vm_compute; discriminate|exact E1].
    intro i. apply (small_sample (mix (i + 9) mod 16 - 8)). pose proof (Z.mod_pos_bound (mix (i + 9)) 16 ltac:(lia)). lia.
  - apply (hop_asymmetric 3 _ [0; 1; 1] [1; 1; 0] 3 4 6 (6 * 8 + 8) ex_zeros ex_pick pk);
      [exact B2|reflexivity|lia|lia|lia|lia|exact Ep| |vm_compute; discriminate|exact E2].
    intro i. apply pk_total_le; [lia| |].
    + intros j _. apply (small_sample (mix j mod 16 - 8)). pose proof (Z.mod_pos_bound (mix j) 16 ltac:(lia)). lia.
    + apply (small_sample (mix (i + 3) mod 16 - 8)). pose proof (Z.mod_pos_bound (mix (i + 3)) 16 ltac:(lia)). lia.
Qed.

(** ** C44 *)

Theorem C44_symmetric : forall n basebit t a b rnd, 0 <= n -> bin_key n a -> zlen b = n -> 1 <= basebit <= 62 -> 1 <= t ->
  exists rk, NewProxyReencryptionKeySymmetricWithParams n a b basebit t rnd = Ok rk /\
    forall ct, lwe_ok n ct ->
      (basebit * t <= 31 -> exists ct', ReencryptTLWELv0 n ct rk = Ok ct' /\ lwe_ok n ct') /\
      (32 <= basebit * t -> ReencryptTLWELv0 n ct rk = Panic PShift).
Proof. exact q_limits_sym. Qed.
Print Assumptions C44_symmetric.

Theorem C44_asymmetric : forall n basebit t size a b zeros rnd, 0 <= n -> bin_key n a -> zlen b = n -> 0 <= size ->
  1 <= basebit <= 62 -> 1 <= t ->
  exists pk rk, NewPublicKeyLv0WithParams n b size zeros = Ok pk /\
    NewProxyReencryptionKeyAsymmetricWithParams n a pk basebit t rnd = Ok rk /\
    forall ct, lwe_ok n ct ->
      (basebit * t <= 31 -> exists ct', ReencryptTLWELv0 n ct rk = Ok ct' /\ lwe_ok n ct') /\
      (32 <= basebit * t -> ReencryptTLWELv0 n ct rk = Panic PShift).
Proof. exact q_limits_asym. Qed.
Print Assumptions C44_asymmetric.

Example C44_ex : (rk <- NewProxyReencryptionKeySymmetricWithParams 1 [1] [1] 4 8 ex_rnd ;; ReencryptTLWELv0 1 [5; 7] rk) = Panic PShift /\
  exists ct, (rk <- NewProxyReencryptionKeySymmetricWithParams 1 [1] [1] 4 7 ex_rnd ;; ReencryptTLWELv0 1 [5; 7] rk) = Ok ct.
Proof. split; [vm_compute; reflexivity|eexists; vm_compute; reflexivity]. Qed.

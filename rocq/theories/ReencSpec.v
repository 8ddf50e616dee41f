(** * What the public key and re-encryption theorems talk about *)
From Verif Require Import GoBase Spec F64 Utils Tlwe ProxyReenc.
Local Open Scope Z_scope.

(** the torus value of a noise sample, as a signed number *)
Definition sample (d : f64) : Z := centered (F64ToTorus d).

(** the total noise of a public key encryption: the noises of the zero
    encryptions that were picked, with the signs that were drawn, and the fresh noise *)
Definition pk_total (size : Z) (zeros : Z -> enc_rand) (r : pk_rand) : Z :=
  zsum size (fun e => if pk_use r e then (if pk_add r e then sample (er_noise (zeros e)) else - sample (er_noise (zeros e))) else 0)
  + sample (pk_noise r).

(** how far one re-encryption can move the phase: half a digit step for each
    bit of the old key, and one key entry for each digit *)
Definition reenc_error (n basebit t : Z) (keyFrom : list Z) (E : Z) : Z :=
  weight n keyFrom * 2 ^ (31 - basebit * t) + n * t * E.

(** [rkey n a b rk basebit t noise]: rk was generated, in one of the two ways,
    from the key a to the key b with digits of [basebit] bits; [noise] is the
    noise of its entries *)
Inductive rkey (n : Z) : list Z -> list Z -> ProxyReencryptionKey -> Z -> Z -> (Z -> Z) -> Prop :=
| rkey_symmetric a b basebit t rnd rk :
    bin_key n a -> zlen b = n -> 1 <= basebit -> 1 <= t -> basebit * t <= 31 ->
    NewProxyReencryptionKeySymmetricWithParams n a b basebit t rnd = Ok rk ->
    rkey n a b rk basebit t (fun i => sample (er_noise (rnd i)))
| rkey_asymmetric a b basebit t size zeros rnd pk rk :
    bin_key n a -> zlen b = n -> 1 <= basebit -> 1 <= t -> basebit * t <= 31 -> 0 <= size ->
    NewPublicKeyLv0WithParams n b size zeros = Ok pk ->
    NewProxyReencryptionKeyAsymmetricWithParams n a pk basebit t rnd = Ok rk ->
    rkey n a b rk basebit t (fun i => pk_total size zeros (rnd i)).

(** digit [j] of a mask coefficient rounded to [t] digits of [basebit] bits *)
Definition digit (basebit t a j : Z) : Z := (a + 2 ^ (31 - basebit * t)) mod 2 ^ 32 / 2 ^ (32 - (j + 1) * basebit) mod 2 ^ basebit.
(** the noises of the key entries that the re-encryption of [ct] subtracts: one
    for each digit that is not 0 *)
Definition used_noise (n basebit t : Z) (ct : list Z) (noise : Z -> Z) : Z :=
  zsum n (fun i => zsum t (fun j => let k := digit basebit t (zn ct i) j in
    if k =? 0 then 0 else noise (2 ^ basebit * t * i + 2 ^ basebit * j + k))).

(** [hop n D a b rk]: rk was generated, in one of the two ways, from the key a
    to the key b, and its error is at most D *)
Inductive hop (n D : Z) : list Z -> list Z -> ProxyReencryptionKey -> Prop :=
| hop_symmetric a b basebit t E rnd rk :
    bin_key n a -> zlen b = n -> 1 <= basebit -> 1 <= t -> basebit * t <= 31 ->
    (forall i, Z.abs (sample (er_noise (rnd i))) <= E) ->
    reenc_error n basebit t a E <= D ->
    NewProxyReencryptionKeySymmetricWithParams n a b basebit t rnd = Ok rk ->
    hop n D a b rk
| hop_asymmetric a b basebit t size E zeros rnd pk rk :
    bin_key n a -> zlen b = n -> 1 <= basebit -> 1 <= t -> basebit * t <= 31 -> 0 <= size ->
    NewPublicKeyLv0WithParams n b size zeros = Ok pk ->
    (forall i, Z.abs (pk_total size zeros (rnd i)) <= E) ->
    reenc_error n basebit t a E <= D ->
    NewProxyReencryptionKeyAsymmetricWithParams n a pk basebit t rnd = Ok rk ->
    hop n D a b rk.

(** a chain of re-encryption keys from one key to another *)
Inductive chain (n D : Z) : list Z -> list ProxyReencryptionKey -> list Z -> Prop :=
| chain_here a : chain n D a [] a
| chain_hop a b c rk rks : hop n D a b rk -> chain n D b rks c -> chain n D a (rk :: rks) c.

(** re-encrypting along a chain *)
Fixpoint reencrypt_all (n : Z) (ct : list Z) (rks : list ProxyReencryptionKey) : res (list Z) :=
  match rks with
  | [] => Ok ct
  | rk :: rks => ct' <- ReencryptTLWELv0 n ct rk ;; reencrypt_all n ct' rks
  end.

(** * Where the randomness comes from

    key/key.go:17, tlwe/tlwe.go:37 and 157, trlwe/trlwe.go:29 and
    proxyreenc/proxyreenc.go:105 all start with
    [rng := rand.New(rand.NewSource(rand.Int63()))]: a generator of package
    math/rand, seeded with a number drawn from the global generator.  The
    documentation of math/rand says that seeds with the same remainder when
    divided by 2^31-1 generate the same sequence (rngSource.Seed starts with
    [seed = seed % int32max]).

    The sequence itself is not modelled: [gen] is an arbitrary function from
    the reduced seed to the values that the call draws. *)
From Verif Require Import GoBase F64 Params Key Tlwe ProxyReenc.
Local Open Scope Z_scope.

Definition int32max : Z := 2 ^ 31 - 1.

(** [rand.New(rand.NewSource(seed))], seed = rand.Int63() >= 0 *)
Definition seeded {A} (gen : Z -> A) (seed : Z) : A := gen (seed mod int32max).

(** key/key.go:16-45 NewSecretKey, drawing its seed *)
Definition NewSecretKeySeed (pr : pset) (gen : Z -> (Z -> bool) * (Z -> bool)) (seed : Z) : res SecretKey :=
  let '(bit0, bit1) := seeded gen seed in NewSecretKey pr bit0 bit1.

(** tlwe/tlwe.go:53-61 EncryptBool on a new ciphertext, drawing its seed *)
Definition EncryptBoolSeed (n : Z) (b : bool) (key : list Z) (gen : Z -> enc_rand) (seed : Z) : res (list Z) :=
  P <- NewTLWE n ;; EncryptBool n P b key (seeded gen seed).

(** proxyreenc/proxyreenc.go:144-152 EncryptBool of a public key, drawing its seed *)
Definition PkEncryptBoolSeed (n : Z) (pk : PublicKeyLv0) (b : bool) (gen : Z -> pk_rand) (seed : Z) : res (list Z) :=
  PkEncryptBool n pk b (seeded gen seed).

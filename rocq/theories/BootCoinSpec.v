(** * Coin tosses of cloud keys

    Vocabulary for statements about how often a bootstrap goes wrong.  The sign
    of every noise sample of a cloud key is a coin toss, because the normal
    distribution is symmetric; everything else that is drawn is fixed, and the
    tosses are counted as in CoinSpec.v.  No proofs. *)
From Coq Require Import Reals.
From Verif Require Import GoBase GoMem F64 Utils Params Key Spec Tlwe Poly Fft Trlwe Trgsw CloudKey RunSpec ReencSpec CoinSpec.
Local Open Scope Z_scope.

Section Draw.
Context (pr : pset).
Notation n := (lv0_N pr).
Notation N := (g_N pr).

(** one toss for each noise sample: a toss list for each of the n parts of the
    bootstrapping key (2L rows of N samples), and one for the key switching key *)
Definition part_tosses : Z := 2 * g_L pr * N.
Definition ksk_tosses : Z := 2 ^ g_BASEBIT pr * g_IKS_T pr * N.
Definition key_tosses : list Z := repeat part_tosses (Z.to_nat n) ++ [ksk_tosses].

(** the randomness of key generation, the signs of the noises changed as tossed *)
Definition drawn_rb (rb : Z -> Z -> trlwe_rand) (ws : list (list Z)) (i : Z) : Z -> trlwe_rand := fun j =>
  {| tr_mask := tr_mask (rb i j); tr_noise := fun k => signed (zn (znd [] ws i) (j * N + k)) (tr_noise (rb i j) k) |}.
Definition drawn_rk (rk : Z -> enc_rand) (ws : list (list Z)) (x : Z) : enc_rand :=
  {| er_mask := er_mask (rk x); er_noise := signed (zn (znd [] ws n) x) (er_noise (rk x)) |}.

(** finite, and not as much as half the torus *)
Definition fine (d : f64) : Prop := is_fin d = true /\ Z.abs (sample d) < 2 ^ 31.
Definition fine_noise (rk : Z -> enc_rand) (rb : Z -> Z -> trlwe_rand) : Prop :=
  (forall i j k, fine (tr_noise (rb i j) k)) /\ (forall x, fine (er_noise (rk x))).

(** the sums of the squares of the noises of the two keys *)
Definition bsk_squares (rb : Z -> Z -> trlwe_rand) : Z :=
  zsum n (fun i => zsum (2 * g_L pr) (fun j => zsum N (fun k => samples (rb i) j k ^ 2))).
Definition ksk_squares (rk : Z -> enc_rand) : Z := zsum ksk_tosses (fun x => sample (er_noise (rk x)) ^ 2).

(** a digit is at most 2^(bg-1), and multiplies a noise of the bootstrapping key *)
Definition key_spread (rk : Z -> enc_rand) (rb : Z -> Z -> trlwe_rand) : Z :=
  2 * (2 ^ (2 * (g_BGBIT pr - 1)) * bsk_squares rb + ksk_squares rk).

(** What the steps of this rotation cut off: the decompositions drop the low
    bits of the difference of the two operands; for a key bit 1 their phase is
    missing, rotated by the steps that follow, at the constant coefficient. *)
Definition cut_off (O : fops) (sk : SecretKey) bsk offset (ct : list Z) (tv : trlwe) (x : Z -> Z) : Prop :=
  forall i, 0 <= i < n -> exists acc rot,
    rotation O pr bsk offset ct tv i = Ok acc /\ rotated O pr ct i acc = Ok rot /\
    (let low (p : trlwe -> list Z) (k : Z) := (zn (p rot) k - zn (p acc) k) mod 2 ^ (32 - g_L pr * g_BGBIT pr) in
     x i = zn (KeyLv0 sk) i * mono_mul N (still_to_rotate pr sk ct i) (fun k => low tB k - negacyclic N (low tA) (zn (KeyLv1 sk)) k) 0).

(** What does not depend on the tosses: the errors of the Fourier transform (by
    [d] and [d']), the complements, and rounding to the digits of the key
    switching. *)
Definition fixed_noise (sk : SecretKey) (d d' : Z) : Z :=
  let w0 := weight n (KeyLv0 sk) in
  let w1 := weight N (KeyLv1 sk) in
  n * (d * (1 + w1) + 2 * g_L pr * (N * (2 ^ (g_BGBIT pr - 1) * d')))
  + (1 + w0) * (1 + w1) + w1 + w1 * 2 ^ (31 - g_BASEBIT pr * g_IKS_T pr).

(** a test vector and a ciphertext to bootstrap *)
Definition job_ok (j : trlwe * list Z) : Prop :=
  zlen (tA (fst j)) = N /\ zlen (tB (fst j)) = N /\ tok_list (tA (fst j)) /\ tok_list (tB (fst j)) /\ zlen (snd j) = n + 1.
End Draw.

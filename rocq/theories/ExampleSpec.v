(** * What the theorems about the example programs talk about.  No proofs. *)
From Verif Require Import GoBase GoMem F64 Utils Params Key Tlwe TlweMem Poly Fft Trlwe Trgsw Lut Evaluator CloudKey Gates ProxyReenc Spec RunSpec LutSpec ReencSpec NibbleAdd Examples.
Local Open Scope Z_scope.

(** [ct] is a new ciphertext of the bit [b], or of the message [x] *)
Definition new_bit (n : Z) (s : list Z) (r : enc_rand) (b : bool) (ct : list Z) : Prop :=
  (t <- NewTLWE n ;; EncryptBool n t b s r) = Ok ct.
Definition new_message (n : Z) (s : list Z) (r : enc_rand) (modulus x : Z) (ct : list Z) : Prop :=
  (t <- NewTLWE n ;; EncryptLWEMessage n t x modulus s r) = Ok ct.

(** the noise of every encryption is at most [E] *)
Definition small_enc (enc : Z -> enc_rand) (E : Z) : Prop := forall i, Z.abs (sample (er_noise (enc i))) <= E.

(** every gate of simple_gates adds noise at most [T] *)
Definition gates_noise (O : fops) (pr : pset) (sk : SecretKey) (ck : CloudKey O) (enc : Z -> enc_rand) (T : Z) : Prop :=
  forall i g va vb a b c, 0 <= i < 4 -> new_bit (lv0_N pr) (KeyLv0 sk) (enc (2 * i)) va a -> new_bit (lv0_N pr) (KeyLv0 sk) (enc (2 * i + 1)) vb b ->
    gate_lin g (lv0_N pr) a b = Ok c -> boot_noise O pr sk ck (BlindRotateTestvec ck) c T.

(** what simple_gates should print *)
Definition gates_expected : list bool :=
  flat_map (fun '(a, b) => map (fun g => truth g a b) [Gand; Gor; Gnand; Gnor; Gxor; Gxnor])
    [(false, false); (false, true); (true, false); (true, true)] ++ [true; false].

(** the functions of programmable_bootstrap and the bits of their messages *)
Definition demos : list ((Z -> Z) * Z) :=
  [(fun x => x, 1); (fun x => 1 - x, 1); (fun x => 1, 1); (fun x => 0, 1); (fun x => Z.rem (x + 1) 4, 2)].

(** every bootstrap of programmable_bootstrap adds noise at most [T], and the
    rounding of its input is at most [Rd] *)
Definition demos_noise (O : fops) (pr : pset) (sk : SecretKey) (ck : CloudKey O) (enc : Z -> enc_rand) (Rd T : Z) : Prop :=
  forall i f k x c, In (f, k) demos -> new_message (lv0_N pr) (KeyLv0 sk) (enc i) (2 ^ k) x c ->
    rounding pr (KeyLv0 sk) c Rd /\ gen_noise O pr sk ck f (2 ^ k) c T.

(** the noise of the entries of a re-encryption key made for a public key of
    2n zero encryptions *)
Definition pk_noises (pr : pset) (zeros : Z -> enc_rand) (rnd : Z -> pk_rand) (i : Z) : Z := pk_total (lv0_N pr * 2) zeros (rnd i).

(** one hop from the key [a]: the most that rounding can add, and what the used
    entries add *)
Definition hop_round (pr : pset) (a : list Z) : Z := weight (lv0_N pr) a * 2 ^ (31 - g_BASEBIT pr * g_IKS_T pr).
Definition hop_used (pr : pset) (ct : list Z) (noise : Z -> Z) : Z := used_noise (lv0_N pr) (g_BASEBIT pr) (g_IKS_T pr) ct noise.

(** every bootstrap of add_two_numbers adds noise at most [T], and the rounding
    of its input is at most [Rd]: this is about the sums that the program
    computes from its own encryptions *)
Definition add_noise (O : fops) (pr : pset) (d : key_draws) (enc : Z -> enc_rand) (a b Rd T : Z) : Prop :=
  forall sk ck e aL aH bL bH m, add_start O pr d enc a b = Ok (sk, ck, e, (aL, aH, bL, bH), m) ->
    (forall l c m1, nib_low O pr m aL bL = Ok (l, c, m1) -> rounding pr (KeyLv0 sk) (tm m1 c) Rd /\
       gen_noise O pr sk ck low4 32 (tm m1 c) T /\ gen_noise O pr sk ck carry4 32 (tm m1 c) T) /\
    (forall l s c m1, nib_high O pr ck e m aL aH bL bH = Ok (l, s, c, m1) -> rounding pr (KeyLv0 sk) (tm m1 c) Rd /\
       gen_noise O pr sk ck low4 32 (tm m1 c) T).

(** the noises of proxy_reencryption stay within the margin: for each of the six
    encryptions after the hop to Bob, and for the last one after the hop to Carol *)
Definition reenc_fits (pr : pset) (d : reenc_draws) : Prop :=
  forall ak bk pkB rkAB, NewSecretKey pr (rd_alice d) (rd_level1 d) = Ok ak -> NewSecretKey pr (rd_bob d) (rd_level1 d) = Ok bk ->
    NewPublicKeyLv0 pr (KeyLv0 bk) (rd_zerosB d) = Ok pkB -> NewProxyReencryptionKeyAsymmetric pr (KeyLv0 ak) pkB (rd_ab d) = Ok rkAB ->
    (forall i v c, 0 <= i < 6 -> new_bit (lv0_N pr) (KeyLv0 ak) (rd_enc d i) v c ->
       Z.abs (sample (er_noise (rd_enc d i)) - hop_used pr c (pk_noises pr (rd_zerosB d) (rd_ab d))) + hop_round pr (KeyLv0 ak) < 2 ^ 29) /\
    (forall c c', new_bit (lv0_N pr) (KeyLv0 ak) (rd_enc d 5) true c -> ReencryptTLWELv0 (lv0_N pr) c rkAB = Ok c' ->
       Z.abs (sample (er_noise (rd_enc d 5)) - hop_used pr c (pk_noises pr (rd_zerosB d) (rd_ab d)) - hop_used pr c' (pk_noises pr (rd_zerosC d) (rd_bc d)))
         + hop_round pr (KeyLv0 ak) + hop_round pr (KeyLv0 bk) < 2 ^ 29).

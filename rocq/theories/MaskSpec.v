(** * Rounding of the mask, and counting masks

    Vocabulary for statements about how the mask of a ciphertext decides what
    a bootstrap reads.  No proofs. *)
From Verif Require Import GoBase GoMem F64 Utils Spec Params Key Tlwe TlweMem Poly Fft Trlwe Trgsw Lut Evaluator CloudKey RunSpec LutSpec LutProg.
Local Open Scope Z_scope.

(** ** Rounding *)
Section Rounding.
Context (pr : pset).

(** what rounding a torus element to a multiple of 1/(2N) adds to it *)
Definition resid (x : Z) : Z := rounded pr x * 2 ^ (31 - g_NBIT pr) - x.

(** what rounding the mask [a] adds to the sum of its coefficients selected by
    the key [s] *)
Definition drift (s a : list Z) : Z := zsum (lv0_N pr) (fun i => zn s i * resid (zn a i)).

(** The position of modulus 2^k that a bootstrap reads when the ciphertext [ct]
    encrypts position [x] with noise [e]: the noise, the rounding of the last
    coefficient and that of the mask move the phase. *)
Definition read_position (k : Z) (s ct : list Z) (x e : Z) : Z :=
  let d := e + resid (zn ct (lv0_N pr)) - drift s ct in
  x + (d + 2 ^ (30 - k)) / 2 ^ (31 - k).
End Rounding.

(** ** Counting *)

(** a mask: n torus elements *)
Definition mask (n : Z) (a : list Z) : Prop := zlen a = n /\ tok_list a.

(** ciphertext [ct] has mask [a] *)
Definition has_mask (n : Z) (ct a : list Z) : Prop := forall i, 0 <= i < n -> zn ct i = zn a i.

(** at least the fraction num/den of the (2^32)^n masks have property P *)
Definition many_masks (n num den : Z) (P : list Z -> Prop) : Prop :=
  exists l, NoDup l /\ (forall a, In a l -> mask n a /\ P a) /\ num * (2 ^ 32) ^ n <= den * zlen l.

(** all masks have property P, but for at most the fraction num/den of them *)
Definition most_masks (n num den : Z) (P : list Z -> Prop) : Prop :=
  exists l, (forall a, mask n a -> ~ In a l -> P a) /\ den * zlen l <= num * (2 ^ 32) ^ n.

(** ** What bootstrapping does for a mask *)
Section Boot.
Context (pr : pset) (k : Z) (s a : list Z) (E : Z).

(** Bootstrapping with any function f, in any setup and state, a ciphertext
    with mask [a] that encrypts message x of modulus 2^k under [s] with noise at
    most [E] gives a ciphertext, and decrypting it gives a message v with
    Q f x v, provided the noise that bootstrapping adds is less than half the
    distance of two messages. *)
Definition bootstraps_to (Q : (Z -> Z) -> Z -> Z -> Prop) : Prop :=
  forall (R : arith) O sk rk rb ck, setup R O pr sk rk rb ck -> KeyLv0 sk = s ->
  forall e (m : mem (FP O)) ct f x T, reachable O pr e m -> input O pr m e ct -> has_mask (lv0_N pr) (tm m ct) a ->
  0 <= x < 2 ^ k -> encodes (lv0_N pr) s (tm m ct) (2 ^ k) x E ->
  gen_noise O pr sk ck f (2 ^ k) (tm m ct) T -> T < 2 ^ (30 - k) ->
  exists r m' v, BootstrapFunc O pr m e ct f (2 ^ k) (BootstrappingKey ck) (KeySwitchingKey ck) (DecompositionOffset ck) = Ok (r, m') /\
    DecryptLWEMessage (lv0_N pr) (tm m' r) (2 ^ k) s = Ok v /\ Q f x v /\
    user m' e r /\ ~ user m e r /\ user_kept e m m' /\ reachable O pr e m'.

(** the result is the function of the message *)
Definition bootstraps_right : Prop := bootstraps_to (fun f x v => v = f x mod 2 ^ k).

(** the result is the table's value at another position, within [far] of x *)
Definition bootstraps_wrong (far : Z) : Prop :=
  bootstraps_to (fun f x v => exists y, y <> x /\ Z.abs (y - x) <= far /\ v = lut_at k f (y mod (2 * 2 ^ k)) mod 2 ^ k).
End Boot.

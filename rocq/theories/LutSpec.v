(** * Vocabulary for lookup tables and programmable bootstrapping

    Messages are numbers below a modulus M; message x sits at x/(2M) on the
    torus, so that messages 0..M-1 fill the lower half and x in M..2M-1 stands
    for the point opposite to x-M.  No proofs. *)
From Verif Require Import GoBase GoMem F64 Utils Spec Params Key Tlwe TlweMem Poly Fft Trlwe Trgsw Lut Evaluator CloudKey RunSpec.
Local Open Scope Z_scope.

(** index [i] of a table of size N is in the window of message x:
    x*N/M - N/(2M) <= i <= x*N/M + N/(2M) - 1 *)
Definition in_window (N M x i : Z) : Prop := - N <= 2 * (i * M - x * N) <= N - 2 * M.

(** table [tv] has value [y] in the window of message x; indices below 0 wrap
    around to the end of the table with the sign changed *)
Definition entry (N M : Z) (tv : trlwe) (x y : Z) : Prop :=
  forall i, in_window N M x i ->
    (0 <= i -> i < N /\ zn (tB tv) i = y) /\ (i < 0 -> 0 <= i + N /\ zn (tB tv) (i + N) = tneg y).

(** a table of N torus elements whose mask is zero *)
Definition plain_table (N : Z) (tv : trlwe) : Prop :=
  zlen (tA tv) = N /\ zlen (tB tv) = N /\ tok_list (tB tv) /\ forall i, 0 <= i < N -> zn (tA tv) i = 0.

(** [ct] encrypts message [x] of modulus [M] with noise at most [E] *)
Definition encodes (n : Z) (s ct : list Z) (M x E : Z) : Prop :=
  lwe_ok n ct /\ close E (lwe_phase n s ct) (x * 2 ^ 31 / M).

(** rounding the coefficients of [ct] to multiples of 1/(2N) moves its phase by
    at most [R] *)
Definition rounding (pr : pset) (s ct : list Z) (R : Z) : Prop :=
  close R (rotation_index pr s ct * 2 ^ (31 - g_NBIT pr)) (lwe_phase (lv0_N pr) s ct).

(** the rounded phase of [ct] is in the window of message [x] *)
Definition reads (pr : pset) (s ct : list Z) (M x : Z) : Prop :=
  exists i q, rotation_index pr s ct = i + q * (2 * g_N pr) /\ in_window (g_N pr) M x i.

(** what bootstrapping gives for a position x in 0..2M-1, when [y] is the table's
    value for message x mod M *)
Definition signed (M x y : Z) : Z := if x <? M then y else - y.

(** bootstrapping [ct] with the table for [f] adds noise at most [T] *)
Definition gen_noise (O : fops) (pr : pset) (sk : SecretKey) (ck : CloudKey O) (f : Z -> Z) (M : Z) (ct : list Z) (T : Z) : Prop :=
  forall tv, GenLookUpTable pr (NewGenerator pr M) f = Ok tv -> boot_noise O pr sk ck tv ct T.

(** * Specification vocabulary

    Everything the property theorems mention that is not a function of the
    model.  Written from the mathematics of TFHE, without looking at the code. *)
From Verif Require Import GoBase.
Local Open Scope Z_scope.

(** ** Vectors and sums *)

(** [zn l i]: entry i of the vector l (0 outside) *)
Definition zn (l : list Z) (i : Z) : Z := nth (Z.to_nat i) l 0.
Definition znd {A} (d : A) (l : list A) (i : Z) : A := nth (Z.to_nat i) l d.

(** [zsum n f] = f 0 + f 1 + ... + f (n-1) *)
Fixpoint sumf (n : nat) (f : Z -> Z) : Z :=
  match n with O => 0 | S k => sumf k f + f (Z.of_nat k) end.
Definition zsum (n : Z) (f : Z -> Z) : Z := sumf (Z.to_nat n) f.

(** ** The torus: integers modulo 2^32, representing multiples of 2^-32 *)

Definition tok (x : Z) : Prop := 0 <= x < two32.
Definition tok_list (l : list Z) : Prop := Forall tok l.

(** equality modulo 2^32 *)
Definition eqm (a b : Z) : Prop := a mod two32 = b mod two32.
Infix "==" := eqm (at level 70) : go_scope.

(** equality modulo 2^32 up to an error of absolute value at most B *)
Definition close (B a b : Z) : Prop := exists e, Z.abs e <= B /\ a == b + e.

(** the representative of a torus element in [-2^31, 2^31) *)
Definition centered (a : Z) : Z := (a + two31) mod two32 - two31.

(** torus encodings of a bit: +1/8 and -1/8 *)
Definition mu_bit (b : bool) : Z := if b then 2 ^ 29 else - 2 ^ 29.

(** ** LWE *)

(** Phase of an LWE ciphertext (a_0 .. a_{n-1}, b) under the key s:
    b - <a, s>.  Taken modulo 2^32. *)
Definition lwe_phase (n : Z) (s ct : list Z) : Z :=
  (zn ct n - zsum n (fun i => zn ct i * zn s i)) mod two32.

(** a well formed ciphertext of dimension n *)
Definition lwe_ok (n : Z) (ct : list Z) : Prop := zlen ct = n + 1 /\ tok_list ct.

(** a binary key of dimension n *)
Definition bin_key (n : Z) (s : list Z) : Prop :=
  zlen s = n /\ Forall (fun x => x = 0 \/ x = 1) s.

(** number of ones of a binary key *)
Definition weight (n : Z) (s : list Z) : Z := zsum n (fun i => zn s i).

(** ** Little-endian bit vectors *)
Fixpoint le_value (bits : list bool) : Z :=
  match bits with [] => 0 | b :: t => Z.b2z b + 2 * le_value t end.

(** ** Polynomials modulo X^N + 1 *)

(** coefficient k of the product of a and b modulo X^N + 1 *)
Definition negacyclic (N : Z) (a b : Z -> Z) (k : Z) : Z :=
  zsum N (fun i => if i <=? k then a i * b (k - i) else - (a i * b (N + k - i))).

(** coefficient j of X^k * a modulo X^N + 1, for every integer k:
    moving a coefficient by N places changes its sign *)
Definition mono_mul (N : Z) (k : Z) (a : Z -> Z) (j : Z) : Z :=
  if Z.even ((j - k) / N) then a ((j - k) mod N) else - a ((j - k) mod N).

(** phase of an RLWE ciphertext (A, B) under the key polynomial s:
    coefficient k of B - A*s *)
Definition rlwe_phase (N : Z) (s : list Z) (A B : list Z) (k : Z) : Z :=
  (zn B k - negacyclic N (zn A) (zn s) k) mod two32.

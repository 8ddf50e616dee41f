(** * What somebody who holds a cloud key can compute

    Specification file for property C47: an attacker, not part of the code in
    /repo.  The attacker reads the published bootstrapping key, transforms its
    rows back to polynomials with the package's own inverse transform and
    solves one linear equation modulo 2. *)
From Coq Require Import String List.
From Verif Require Import GoBase Spec Key Poly.
Import ListNotations.
Local Open Scope Z_scope.

(** the polynomials (a, b) of one published row *)
Definition read_row (O : fops) (N : Z) (r : FP O * FP O) : res (list Z * list Z) :=
  z <- make 0 N ;;
  '(_, a) <- f_to_poly O (fst r) z ;;
  '(_, b) <- f_to_poly O (snd r) z ;;
  Ok (a, b).

Fixpoint mapr {A B} (f : A -> res B) (l : list A) : res (list B) :=
  match l with [] => Ok [] | x :: t => y <- f x ;; ys <- mapr f t ;; Ok (y :: ys) end.

(** product modulo X^N + 1 and modulo 2 *)
Definition times2 (N : Z) (a b : list Z) : list Z :=
  map (fun k => negacyclic N (zn a) (zn b) (Z.of_nat k) mod 2) (seq 0 (Z.to_nat N)).

(** From a and b = a*s, for N = 2^nb: multiply both by a, nb times squaring a.
    The first becomes a^N, which is the constant "sum of the coefficients". *)
Fixpoint solve2 (nb : nat) (N : Z) (a b : list Z) : list Z :=
  match nb with O => b | S k => solve2 k N (times2 N a a) (times2 N a b) end.

Definition total (a : list Z) : Z := fold_right Z.add 0 a.

(** [levels] is the number of digits of the gadget decomposition *)
Definition steal (O : fops) (N levels : Z) (bsk : list (list (FP O * FP O))) : res SecretKey :=
  rows <- mapr (read_row O N) (List.concat bsk) ;;
  match find (fun ab => Z.odd (total (fst ab))) rows with
  | None => Panic (PMsg "every mask has an even sum"%string)
  | Some (a, b) =>
      let s1 := solve2 (Z.to_nat (Z.log2 N)) N a b in
      s0 <- mapr (fun g => r <- get g levels ;; '(a, b) <- read_row O N r ;;
                           Ok (if rlwe_phase N s1 a b 0 =? 0 then 0 else 1)) bsk ;;
      Ok {| KeyLv0 := s0; KeyLv1 := s1 |}
  end.

(** For property C48.  Somebody who holds a public key and a ciphertext made
    with it encrypts "true" with the first [tries] seeds and compares. *)
Fixpoint any_seed (tries : nat) (f : Z -> bool) : bool :=
  match tries with O => false | S k => f (Z.of_nat k) || any_seed k f end.
Fixpoint same_vec (a b : list Z) : bool :=
  match a, b with [], [] => true | x :: a, y :: b => (x =? y) && same_vec a b | _, _ => false end.
Definition guess_bit (encrypt_true : Z -> res (list Z)) (tries : Z) (ct : list Z) : bool :=
  any_seed (Z.to_nat tries) (fun seed => match encrypt_true seed with Ok c => same_vec c ct | Panic _ => false end).

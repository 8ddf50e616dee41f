(** * The nibble adder of examples/add_two_numbers/main.go

    8-bit addition with message modulus 32 and three programmable bootstraps.
    Printing and timing are left out. *)
From Verif Require Import GoBase GoMem F64 Utils Params Tlwe TlweMem Poly Fft Trlwe Trgsw Lut Evaluator CloudKey.
Local Open Scope Z_scope.

Section Nib.
Context (O : fops) (pr : pset).
Notation M := (mem (FP O)).
Notation n := (lv0_N pr).

(** examples/add_two_numbers/main.go:45-48: the nibbles of a byte *)
Definition low_nibble (a : Z) : Z := Z.land a 15.
Definition high_nibble (a : Z) : Z := Z.land (Z.shiftr a 4) 15.

(** main.go:59-61 and 70-72, and 63-68: the functions of the tables *)
Definition low4 (x : Z) : Z := Z.rem x 16.
Definition carry4 (x : Z) : Z := if 16 <=? x then 1 else 0.

Record nib_luts : Type := { lutSumLow : tref; lutCarryLow : tref; lutSumHigh : tref }.

(** main.go:103-106: ctTempLow = ctALow + ctBLow *)
Definition add2 (m : M) (a b : Z) : res (Z * M) :=
  '(c, m) <- new_ct m n ;;
  m <- for_range 0 (n + 1) (fun j m =>
    v <- (x <- load m a j ;; y <- load m b j ;; Ok (tadd x y)) ;; store m c j v) m ;;
  Ok (c, m).

(** main.go:124-127: ctTempHigh = ctAHigh + ctBHigh + ctCarry *)
Definition add3 (m : M) (a b d : Z) : res (Z * M) :=
  '(c, m) <- new_ct m n ;;
  m <- for_range 0 (n + 1) (fun j m =>
    v <- (x <- load m a j ;; y <- load m b j ;; z <- load m d j ;; Ok (tadd (tadd x y) z)) ;; store m c j v) m ;;
  Ok (c, m).

(** main.go:57-72 (the tables; gen is NewGenerator(32)) and 103-106 *)
Definition nib_low (m : M) (aLow bLow : Z) : res (nib_luts * Z * M) :=
  '(l1, m) <- new_lut O pr m low4 32 ;;
  '(l2, m) <- new_lut O pr m carry4 32 ;;
  '(l3, m) <- new_lut O pr m low4 32 ;;
  '(t, m) <- add2 m aLow bLow ;;
  Ok ({| lutSumLow := l1; lutCarryLow := l2; lutSumHigh := l3 |}, t, m).

(** ... and main.go:111-127: two bootstraps and the high sum *)
Definition nib_high (ck : CloudKey O) (e : evaluator) (m : M) (aLow aHigh bLow bHigh : Z) : res (nib_luts * Z * Z * M) :=
  '(l, t, m) <- nib_low m aLow bLow ;;
  '(sumLow, m) <- BootstrapLUT O pr m e t (lutSumLow l) (BootstrappingKey ck) (KeySwitchingKey ck) (DecompositionOffset ck) ;;
  '(carry, m) <- BootstrapLUT O pr m e t (lutCarryLow l) (BootstrappingKey ck) (KeySwitchingKey ck) (DecompositionOffset ck) ;;
  '(t, m) <- add3 m aHigh bHigh carry ;;
  Ok (l, sumLow, t, m).

(** ... and main.go:132-133: the last bootstrap *)
Definition nib_add (ck : CloudKey O) (e : evaluator) (m : M) (aLow aHigh bLow bHigh : Z) : res (Z * Z * M) :=
  '(l, sumLow, t, m) <- nib_high ck e m aLow aHigh bLow bHigh ;;
  '(sumHigh, m) <- BootstrapLUT O pr m e t (lutSumHigh l) (BootstrappingKey ck) (KeySwitchingKey ck) (DecompositionOffset ck) ;;
  Ok (sumLow, sumHigh, m).

(** main.go:152: uint8(sumLow | (sumHigh << 4)) *)
Definition combine (sumLow sumHigh : Z) : Z := Z.lor sumLow (Z.shiftl sumHigh 4) mod 256.
End Nib.

(** * Programs over encrypted messages of several moduli

    As LutProg, but the modulus of a message need not be a power of two, and
    every table and every function is made for a modulus of its own: a
    ciphertext may be read with one modulus and, after a linear operation, with
    another.  No proofs.

    [Q] is a common multiple of all moduli.  The torus is divided into 2Q
    positions; message y of modulus M is at position y * (Q / M), and the point
    opposite to it Q further.  Noise is measured in units of 1/Q of the torus'
    unit 2^-32, so that linear operations are exact although Q need not divide
    2^31. *)
From Verif Require Import GoBase GoMem F64 Utils Params Key Tlwe TlweMem Poly Fft Trlwe Trgsw Lut Evaluator CloudKey Spec RunSpec LutSpec LutProg.
Local Open Scope Z_scope.

(** [ct] encrypts position [x] of 2Q with noise at most F/Q *)
Definition stands (n : Z) (s ct : list Z) (Q x F : Z) : Prop :=
  lwe_ok n ct /\ exists j, Z.abs (Q * lwe_phase n s ct - x * 2 ^ 31 - j * (Q * 2 ^ 32)) <= F.

(** One call.  Arguments are positions in the list of ciphertexts and, for
    [t], in the list of lookup tables.  The calls ending in Into write to the
    ciphertext [o] of the list (which may be an argument too); the others append
    their result. *)
Inductive qcall : Type :=
| QAdd (a b : Z)                              (* tlwe Add *)
| QSub (a b : Z)                              (* tlwe Sub *)
| QNeg (a : Z)                                (* tlwe Neg *)
| QAddMul (a b c : Z)                         (* tlwe AddMul, multiplier Torus(c) *)
| QSubMul (a b c : Z)                         (* tlwe SubMul, multiplier Torus(c) *)
| QAddInto (a b o : Z)                        (* tlwe AddAssign *)
| QTable (M : Z) (f : Z -> Z)                 (* lut NewGenerator(M), GenLookUpTable *)
| QLut (t a : Z)                              (* BootstrapLUT *)
| QLutInto (t a o : Z)                        (* BootstrapLUTAssign *)
| QFunc (M : Z) (f : Z -> Z) (a : Z)          (* BootstrapFunc, modulus M *)
| QFuncInto (M : Z) (f : Z -> Z) (a o : Z).   (* BootstrapFuncAssign, modulus M *)

(** ** An adder

    Two numbers of [w] digits in base B, least significant digit first: digits
    of the first at 0..w-1, of the second at w..2w-1.  Then comes an encryption of
    zero, the first carry, and for every digit the sum of the digits, the sum with
    the carry, the digit of the result and the carry.  All messages have modulus
    Q, at least 2B. *)
Definition qdigit_calls (w i : Z) : list qcall :=
  let p := 2 * w + 1 + 4 * i in [QAdd i (w + i); QAdd p (p - 1); QLut 0 (p + 1); QLut 1 (p + 1)].
Fixpoint qradix_digits (w : Z) (j : nat) : list qcall :=
  match j with
  | O => []
  | S j => qradix_digits w j ++ qdigit_calls w (Z.of_nat j)
  end.
Definition qradix_adder (Q B w : Z) : list qcall :=
  [QTable Q (fun x => x mod B); QTable Q (fun x => x / B); QSub 0 0] ++ qradix_digits w (Z.to_nat w).

(** ** The meaning on positions *)
Section Plain.
Context (Q : Z).

(** a table for f of modulus M on position x: f of the message there, or the
    opposite point.  The position has to be one of modulus M. *)
Definition qlut_at (M : Z) (f : Z -> Z) (x : Z) : res Z :=
  if (1 <=? M) && (M <? 2 ^ 20) && (Q mod M =? 0) && (x mod (Q / M) =? 0) then
    let y := x / (Q / M) in
    Ok ((if y <? M then f y mod M else - (f (y - M) mod M)) * (Q / M))
  else Panic PIndex.

Definition qplain1 (i : qcall) (xs : list Z) (fs : list (Z * (Z -> Z))) : res (list Z * list (Z * (Z -> Z))) :=
  let new v := Ok (xs ++ [v mod (2 * Q)], fs) in
  let into o v := xs <- set xs o (v mod (2 * Q)) ;; Ok (xs, fs) in
  match i with
  | QAdd a b => x <- get xs a ;; y <- get xs b ;; new (x + y)
  | QSub a b => x <- get xs a ;; y <- get xs b ;; new (x - y)
  | QNeg a => x <- get xs a ;; new (- x)
  | QAddMul a b c => x <- get xs a ;; y <- get xs b ;; new (x + c * y)
  | QSubMul a b c => x <- get xs a ;; y <- get xs b ;; new (x - c * y)
  | QAddInto a b o => x <- get xs a ;; y <- get xs b ;; into o (x + y)
  | QTable M f => if (1 <=? M) && (M <? 2 ^ 20) && (Q mod M =? 0) then Ok (xs, fs ++ [(M, f)]) else Panic PIndex
  | QLut t a => f <- get fs t ;; x <- get xs a ;; v <- qlut_at (fst f) (snd f) x ;; new v
  | QLutInto t a o => f <- get fs t ;; x <- get xs a ;; v <- qlut_at (fst f) (snd f) x ;; into o v
  | QFunc M f a => x <- get xs a ;; v <- qlut_at M f x ;; new v
  | QFuncInto M f a o => x <- get xs a ;; v <- qlut_at M f x ;; into o v
  end.
Fixpoint qplain (p : list qcall) (xs : list Z) (fs : list (Z * (Z -> Z))) : res (list Z * list (Z * (Z -> Z))) :=
  match p with
  | [] => Ok (xs, fs)
  | i :: p => '(xs, fs) <- qplain1 i xs fs ;; qplain p xs fs
  end.

(** ** Noise bounds

    A bootstrap leaves noise [T], and one unit for the encoder; it is allowed if
    the noise of its argument and the rounding [Rd] stay below half the distance
    between two positions of modulus M.  Unless 2M divides the ring size 2^nb,
    the borders of the table's windows are rounded, too. *)
Context (nb T Rd : Z).

Definition qroom (M F : Z) : bool :=
  (F + Q * Rd <? Q / M * 2 ^ 30) && ((2 ^ nb mod (2 * M) =? 0) || (F + Q * Rd + Q * 2 ^ (31 - nb) <=? Q / M * 2 ^ 30)).

Definition qnoise1 (i : qcall) (fs : list (Z * (Z -> Z))) (es : list Z) : res (list Z) :=
  let boot M a := F <- get es a ;; if qroom M F then Ok (Q * (T + 1)) else Panic PIndex in
  match i with
  | QAdd a b | QSub a b => E <- get es a ;; F <- get es b ;; Ok (es ++ [E + F])
  | QNeg a => E <- get es a ;; Ok (es ++ [E])
  | QAddMul a b c | QSubMul a b c => E <- get es a ;; F <- get es b ;; Ok (es ++ [E + Z.abs c * F])
  | QAddInto a b o => E <- get es a ;; F <- get es b ;; set es o (E + F)
  | QTable _ _ => Ok es
  | QLut t a => f <- get fs t ;; E <- boot (fst f) a ;; Ok (es ++ [E])
  | QLutInto t a o => f <- get fs t ;; E <- boot (fst f) a ;; set es o E
  | QFunc M _ a => E <- boot M a ;; Ok (es ++ [E])
  | QFuncInto M _ a o => E <- boot M a ;; set es o E
  end.
(** the tables a call adds *)
Definition qadded (i : qcall) (fs : list (Z * (Z -> Z))) : list (Z * (Z -> Z)) :=
  match i with QTable M f => fs ++ [(M, f)] | _ => fs end.
Fixpoint qnoise (p : list qcall) (fs : list (Z * (Z -> Z))) (es : list Z) : res (list Z) :=
  match p with
  | [] => Ok es
  | i :: p => es <- qnoise1 i fs es ;; qnoise p (qadded i fs) es
  end.
End Plain.

(** ** Running it *)
Section Run.
Context (O : fops) (pr : pset) (ck : CloudKey O) (e : evaluator).
Notation M := (mem (FP O)).
Notation n := (lv0_N pr).
Notation BK := (BootstrappingKey ck).
Notation KK := (KeySwitchingKey ck).
Notation OFF := (DecompositionOffset ck).

(** the call on ciphertexts [ws] and tables [ts], both lists of locations *)
Definition qexec1 (i : qcall) (ws : list Z) (ts : list tref) (m : M) : res (list Z * list tref * M) :=
  let new v := v <- v ;; let '(r, m) := alloc m v in Ok (ws ++ [r], ts, m) in
  match i with
  | QAdd a b => x <- get ws a ;; y <- get ws b ;; new (Add n (tm m x) (tm m y))
  | QSub a b => x <- get ws a ;; y <- get ws b ;; new (Sub n (tm m x) (tm m y))
  | QNeg a => x <- get ws a ;; new (Neg n (tm m x))
  | QAddMul a b c => x <- get ws a ;; y <- get ws b ;; new (AddMul n (tm m x) (tm m y) (w32 c))
  | QSubMul a b c => x <- get ws a ;; y <- get ws b ;; new (SubMul n (tm m x) (tm m y) (w32 c))
  | QAddInto a b o => x <- get ws a ;; y <- get ws b ;; r <- get ws o ;; m <- AddAssign m x y r ;; Ok (ws, ts, m)
  | QTable mm f => '(t, m) <- new_lut O pr m f mm ;; Ok (ws, ts ++ [t], m)
  | QLut t a => l <- get ts t ;; x <- get ws a ;; '(r, m) <- BootstrapLUT O pr m e x l BK KK OFF ;; Ok (ws ++ [r], ts, m)
  | QLutInto t a o => l <- get ts t ;; x <- get ws a ;; r <- get ws o ;;
      m <- BootstrapLUTAssign O pr m e x l BK KK OFF r ;; Ok (ws, ts, m)
  | QFunc mm f a => x <- get ws a ;; '(r, m) <- BootstrapFunc O pr m e x f mm BK KK OFF ;; Ok (ws ++ [r], ts, m)
  | QFuncInto mm f a o => x <- get ws a ;; r <- get ws o ;;
      m <- BootstrapFuncAssign O pr m e x f mm BK KK OFF r ;; Ok (ws, ts, m)
  end.
Fixpoint qexec (p : list qcall) (ws : list Z) (ts : list tref) (m : M) : res (list Z * list tref * M) :=
  match p with
  | [] => Ok (ws, ts, m)
  | i :: p => '(ws, ts, m) <- qexec1 i ws ts m ;; qexec p ws ts m
  end.

(** the call bootstraps [c] with a table for [f] and modulus [mm]; [fs] are the
    functions of the tables, with their moduli *)
Definition qboots1 (i : qcall) (ws : list Z) (fs : list (Z * (Z -> Z))) (m : M) (mm : Z) (f : Z -> Z) (c : list Z) : Prop :=
  match i with
  | QLut t a | QLutInto t a _ => get fs t = Ok (mm, f) /\ exists x, get ws a = Ok x /\ tm m x = c
  | QFunc m1 g a | QFuncInto m1 g a _ => (m1 = mm /\ g = f) /\ exists x, get ws a = Ok x /\ tm m x = c
  | _ => False
  end.
(** so does the program, at some point *)
Fixpoint qboots (p : list qcall) (ws : list Z) (ts : list tref) (fs : list (Z * (Z -> Z))) (m : M) (mm : Z) (f : Z -> Z) (c : list Z) : Prop :=
  match p with
  | [] => False
  | i :: p => qboots1 i ws fs m mm f c \/
      exists ws' ts' m', qexec1 i ws ts m = Ok (ws', ts', m') /\ qboots p ws' ts' (qadded i fs) m' mm f c
  end.

(** the ciphertexts are different user buffers, encrypting positions [xs] of 2Q
    with noise at most [es] (in units of 1/Q) *)
Definition qwires (Q : Z) (sk : SecretKey) (m : M) (ws xs es : list Z) : Prop :=
  zlen xs = zlen ws /\ zlen es = zlen ws /\ NoDup ws /\
  forall i, 0 <= i < zlen ws -> user m e (zn ws i) /\ 0 <= zn xs i < 2 * Q /\
    stands n (KeyLv0 sk) (tm m (zn ws i)) Q (zn xs i) (zn es i).

(** the tables are those of the functions [fs], in other user buffers *)
Definition qtables (m : M) (ws : list Z) (ts : list tref) (fs : list (Z * (Z -> Z))) : Prop :=
  Forall2 (fun t f => (exists tv, GenLookUpTable pr (NewGenerator pr (fst f)) (snd f) = Ok tv /\ table O pr m e t tv) /\
    ~ In (rA t) ws /\ ~ In (rB t) ws /\ 1 <= fst f) ts fs.
End Run.

(** the ciphertexts that are outputs of Into calls *)
Definition qoutputs1 (i : qcall) : list Z :=
  match i with QAddInto _ _ o | QLutInto _ _ o | QFuncInto _ _ _ o => [o] | _ => [] end.
Definition qoutputs (p : list qcall) : list Z := flat_map qoutputs1 p.

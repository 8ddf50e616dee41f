(** * Programs over encrypted messages

    Vocabulary for statements about programs that mix the linear operations of
    package tlwe with programmable bootstraps.  No proofs.

    Messages have modulus 2^k.  The torus has room for 2^(k+1) positions: the
    lower half are the messages, position x + 2^k is the point opposite to x. *)
From Verif Require Import GoBase GoMem F64 Utils Params Key Tlwe TlweMem Poly Fft Trlwe Trgsw Lut Evaluator CloudKey Spec RunSpec LutSpec.
Local Open Scope Z_scope.

(** One call.  Arguments are positions in the list of ciphertexts and, for
    [t], in the list of lookup tables.  The calls ending in Into write to the
    ciphertext [o] of the list (which may be an argument too); the others append
    their result. *)
Inductive lcall : Type :=
| LAdd (a b : Z)                              (* tlwe Add *)
| LSub (a b : Z)                              (* tlwe Sub *)
| LNeg (a : Z)                                (* tlwe Neg *)
| LAddMul (a b c : Z)                         (* tlwe AddMul, multiplier Torus(c) *)
| LSubMul (a b c : Z)                         (* tlwe SubMul, multiplier Torus(c) *)
| LAddInto (a b o : Z)                        (* tlwe AddAssign *)
| LTable (f : Z -> Z)                         (* lut NewGenerator, GenLookUpTable *)
| LLut (t a : Z)                              (* BootstrapLUT *)
| LLutInto (t a o : Z)                        (* BootstrapLUTAssign *)
| LFunc (f : Z -> Z) (a : Z)                  (* BootstrapFunc *)
| LFuncInto (f : Z -> Z) (a o : Z).           (* BootstrapFuncAssign *)

(** one function after the other, in ciphertext 0 *)
Definition in_place (fs : list (Z -> Z)) : list lcall := map (fun f => LFuncInto f 0 0) fs.

(** Addition of two numbers of [w] digits in base [B], least significant digit
    first, as in examples/add_two_numbers (which has w = 2, B = 16, k = 5).
    Ciphertexts 0..w-1 are the digits of the first number, w..2w-1 those of the
    second; 2w is a carry of zero.  Digit i appends a_i + b_i, that plus the
    carry, the digit of the sum and the next carry. *)
Definition digit_calls (w i : Z) : list lcall :=
  let p := 2 * w + 1 + 4 * i in [LAdd i (w + i); LAdd p (p - 1); LLut 0 (p + 1); LLut 1 (p + 1)].
Fixpoint radix_digits (w : Z) (j : nat) : list lcall :=
  match j with
  | 0%nat => []
  | S j => radix_digits w j ++ digit_calls w (Z.of_nat j)
  end.
Definition radix_adder (B w : Z) : list lcall :=
  [LTable (fun x => x mod B); LTable (fun x => x / B); LSub 0 0] ++ radix_digits w (Z.to_nat w).

(** where the digits of the sum and the last carry are *)
Definition sum_digit (w i : Z) : Z := 2 * w + 3 + 4 * i.
Definition sum_carry (w : Z) : Z := 6 * w.

(** ** The meaning on positions *)
Section Plain.
Context (k : Z).

(** a table for f at position x: f of the message, or the opposite point *)
Definition lut_at (f : Z -> Z) (x : Z) : Z :=
  if x <? 2 ^ k then f x mod 2 ^ k else (- (f (x - 2 ^ k) mod 2 ^ k)) mod (2 * 2 ^ k).

Definition lplain1 (i : lcall) (xs : list Z) (fs : list (Z -> Z)) : res (list Z * list (Z -> Z)) :=
  let new v := Ok (xs ++ [v mod (2 * 2 ^ k)], fs) in
  let into o v := xs <- set xs o (v mod (2 * 2 ^ k)) ;; Ok (xs, fs) in
  match i with
  | LAdd a b => x <- get xs a ;; y <- get xs b ;; new (x + y)
  | LSub a b => x <- get xs a ;; y <- get xs b ;; new (x - y)
  | LNeg a => x <- get xs a ;; new (- x)
  | LAddMul a b c => x <- get xs a ;; y <- get xs b ;; new (x + c * y)
  | LSubMul a b c => x <- get xs a ;; y <- get xs b ;; new (x - c * y)
  | LAddInto a b o => x <- get xs a ;; y <- get xs b ;; into o (x + y)
  | LTable f => Ok (xs, fs ++ [f])
  | LLut t a => f <- get fs t ;; x <- get xs a ;; new (lut_at f x)
  | LLutInto t a o => f <- get fs t ;; x <- get xs a ;; into o (lut_at f x)
  | LFunc f a => x <- get xs a ;; new (lut_at f x)
  | LFuncInto f a o => x <- get xs a ;; into o (lut_at f x)
  end.
Fixpoint lplain (p : list lcall) (xs : list Z) (fs : list (Z -> Z)) : res (list Z * list (Z -> Z)) :=
  match p with
  | [] => Ok (xs, fs)
  | i :: p => '(xs, fs) <- lplain1 i xs fs ;; lplain p xs fs
  end.

(** ** Noise bounds

    A bootstrap leaves noise [T]; it is allowed if the noise of its argument
    and the rounding [Rd] stay below half the distance between two positions,
    which is 2^(30-k). *)
Context (T Rd : Z).

Definition lnoise1 (i : lcall) (es : list Z) : res (list Z) :=
  let boot a := E <- get es a ;; if E + Rd <? 2 ^ (30 - k) then Ok T else Panic PIndex in
  match i with
  | LAdd a b | LSub a b => E <- get es a ;; F <- get es b ;; Ok (es ++ [E + F])
  | LNeg a => E <- get es a ;; Ok (es ++ [E])
  | LAddMul a b c | LSubMul a b c => E <- get es a ;; F <- get es b ;; Ok (es ++ [E + Z.abs c * F])
  | LAddInto a b o => E <- get es a ;; F <- get es b ;; set es o (E + F)
  | LTable f => Ok es
  | LLut _ a | LFunc _ a => E <- boot a ;; Ok (es ++ [E])
  | LLutInto _ a o | LFuncInto _ a o => E <- boot a ;; set es o E
  end.
Fixpoint lnoise (p : list lcall) (es : list Z) : res (list Z) :=
  match p with
  | [] => Ok es
  | i :: p => es <- lnoise1 i es ;; lnoise p es
  end.
End Plain.

(** ** Running it *)
Section Run.
Context (O : fops) (pr : pset) (ck : CloudKey O) (e : evaluator) (k : Z).
Notation M := (mem (FP O)).
Notation n := (lv0_N pr).
Notation BK := (BootstrappingKey ck).
Notation KK := (KeySwitchingKey ck).
Notation OFF := (DecompositionOffset ck).

(** the call on ciphertexts [ws] and tables [ts], both lists of locations *)
Definition lexec1 (i : lcall) (ws : list Z) (ts : list tref) (m : M) : res (list Z * list tref * M) :=
  let new v := v <- v ;; let '(r, m) := alloc m v in Ok (ws ++ [r], ts, m) in
  match i with
  | LAdd a b => x <- get ws a ;; y <- get ws b ;; new (Add n (tm m x) (tm m y))
  | LSub a b => x <- get ws a ;; y <- get ws b ;; new (Sub n (tm m x) (tm m y))
  | LNeg a => x <- get ws a ;; new (Neg n (tm m x))
  | LAddMul a b c => x <- get ws a ;; y <- get ws b ;; new (AddMul n (tm m x) (tm m y) (w32 c))
  | LSubMul a b c => x <- get ws a ;; y <- get ws b ;; new (SubMul n (tm m x) (tm m y) (w32 c))
  | LAddInto a b o => x <- get ws a ;; y <- get ws b ;; r <- get ws o ;; m <- AddAssign m x y r ;; Ok (ws, ts, m)
  | LTable f => '(t, m) <- new_lut O pr m f (2 ^ k) ;; Ok (ws, ts ++ [t], m)
  | LLut t a => l <- get ts t ;; x <- get ws a ;; '(r, m) <- BootstrapLUT O pr m e x l BK KK OFF ;; Ok (ws ++ [r], ts, m)
  | LLutInto t a o => l <- get ts t ;; x <- get ws a ;; r <- get ws o ;;
      m <- BootstrapLUTAssign O pr m e x l BK KK OFF r ;; Ok (ws, ts, m)
  | LFunc f a => x <- get ws a ;; '(r, m) <- BootstrapFunc O pr m e x f (2 ^ k) BK KK OFF ;; Ok (ws ++ [r], ts, m)
  | LFuncInto f a o => x <- get ws a ;; r <- get ws o ;;
      m <- BootstrapFuncAssign O pr m e x f (2 ^ k) BK KK OFF r ;; Ok (ws, ts, m)
  end.
Fixpoint lexec (p : list lcall) (ws : list Z) (ts : list tref) (m : M) : res (list Z * list tref * M) :=
  match p with
  | [] => Ok (ws, ts, m)
  | i :: p => '(ws, ts, m) <- lexec1 i ws ts m ;; lexec p ws ts m
  end.

(** the call bootstraps [c] with a table for [f]; [fs] are the functions of the
    tables *)
Definition lboots1 (i : lcall) (ws : list Z) (fs : list (Z -> Z)) (m : M) (f : Z -> Z) (c : list Z) : Prop :=
  match i with
  | LLut t a | LLutInto t a _ => get fs t = Ok f /\ exists x, get ws a = Ok x /\ tm m x = c
  | LFunc g a | LFuncInto g a _ => g = f /\ exists x, get ws a = Ok x /\ tm m x = c
  | _ => False
  end.
(** so does the program, at some point *)
Fixpoint lboots (p : list lcall) (ws : list Z) (ts : list tref) (fs : list (Z -> Z)) (m : M) (f : Z -> Z) (c : list Z) : Prop :=
  match p with
  | [] => False
  | i :: p => lboots1 i ws fs m f c \/
      exists ws' ts' m', lexec1 i ws ts m = Ok (ws', ts', m') /\
        lboots p ws' ts' (match i with LTable g => fs ++ [g] | _ => fs end) m' f c
  end.

(** the ciphertexts are different user buffers, encrypting positions [xs] with
    noise at most [es] *)
Definition lwires (sk : SecretKey) (m : M) (ws xs es : list Z) : Prop :=
  zlen xs = zlen ws /\ zlen es = zlen ws /\ NoDup ws /\
  forall i, 0 <= i < zlen ws -> user m e (zn ws i) /\ 0 <= zn xs i < 2 * 2 ^ k /\
    encodes n (KeyLv0 sk) (tm m (zn ws i)) (2 ^ k) (zn xs i) (zn es i).

(** the tables are those of the functions [fs], in other user buffers *)
Definition ltables (m : M) (ws : list Z) (ts : list tref) (fs : list (Z -> Z)) : Prop :=
  Forall2 (fun t f => (exists tv, GenLookUpTable pr (NewGenerator pr (2 ^ k)) f = Ok tv /\ table O pr m e t tv) /\
    ~ In (rA t) ws /\ ~ In (rB t) ws) ts fs.

(** user buffers other than [ws] keep their contents *)
Definition others_kept (ws : list Z) (m m' : M) : Prop :=
  forall x, user m e x -> ~ In x ws -> user m' e x /\ tm m' x = tm m x.

(** ... and so do those of the ciphertexts [ws] that are not the output of an
    Into call of [p] *)
Definition outputs1 (i : lcall) : list Z :=
  match i with LAddInto _ _ o | LLutInto _ _ o | LFuncInto _ _ o => [o] | _ => [] end.
Definition outputs (p : list lcall) : list Z := flat_map outputs1 p.
Definition kept_but (os ws : list Z) (m m' : M) : Prop :=
  forall x, user m e x -> (forall o, In o os -> get ws o <> Ok x) -> user m' e x /\ tm m' x = tm m x.
End Run.

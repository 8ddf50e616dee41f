(** * Programs that mix gates and programmable bootstraps

    Vocabulary for statements.  No proofs.

    A bit is encrypted as +-1/8, so with messages of modulus 2^k (k >= 2) the
    bit true is the position 2^(k-2) of LutProg.v and false the position
    opposite to three times that, 7 * 2^(k-2): the ciphertexts of package gates
    and those of package evaluator can be used together. *)
From Verif Require Import GoBase GoMem F64 Utils Params Key Tlwe TlweMem Poly Fft Trlwe Trgsw Lut Evaluator CloudKey Gates Spec RunSpec LutSpec Circuit LutProg.
Local Open Scope Z_scope.

(** one call, of package gates or as in LutProg.v *)
Inductive mcall : Type :=
| MGate (i : instr)
| MMsg (i : lcall).

Section Plain.
Context (k : Z).

Definition bit_pos (b : bool) : Z := if b then 2 ^ (k - 2) else 7 * 2 ^ (k - 2).
Definition pos_bit (x : Z) : res bool :=
  if x =? bit_pos true then Ok true else if x =? bit_pos false then Ok false else Panic PIndex.

(** the meaning on positions: a gate needs positions that are bits *)
Definition mplain1 (i : mcall) (xs : list Z) (fs : list (Z -> Z)) : res (list Z * list (Z -> Z)) :=
  let bit a := x <- get xs a ;; pos_bit x in
  let new b := Ok (xs ++ [bit_pos b], fs) in
  match i with
  | MGate (IGate g a b) => x <- bit a ;; y <- bit b ;; new (truth g x y)
  | MGate (INot a) => x <- bit a ;; new (negb x)
  | MGate (IConst b) => new b
  | MGate (ICopy a) => x <- get xs a ;; Ok (xs ++ [x], fs)
  | MGate (IMux a b c) => x <- bit a ;; y <- bit b ;; z <- bit c ;; new (if x then y else z)
  | MMsg i => lplain1 k i xs fs
  end.
Fixpoint mplain (p : list mcall) (xs : list Z) (fs : list (Z -> Z)) : res (list Z * list (Z -> Z)) :=
  match p with
  | [] => Ok (xs, fs)
  | i :: p => '(xs, fs) <- mplain1 i xs fs ;; mplain p xs fs
  end.

(** noise bounds, [T] of a bootstrap and [Rd] of its rounding: a gate of bits
    tells 1/8 apart *)
Context (T Rd : Z).
Definition mnoise1 (i : mcall) (es : list Z) : res (list Z) :=
  let room E := if E + Rd <? 2 ^ 29 then Ok tt else Panic PIndex in
  match i with
  | MGate (IGate g a b) => E <- get es a ;; F <- get es b ;; _ <- room (E + mult g * F) ;; Ok (es ++ [T])
  | MGate (INot a) => E <- get es a ;; Ok (es ++ [E])
  | MGate (IConst b) => Ok (es ++ [1])
  | MGate (ICopy a) => E <- get es a ;; Ok (es ++ [E])
  | MGate (IMux a b c) => E <- get es a ;; F <- get es b ;; G <- get es c ;;
      _ <- room (E + F) ;; _ <- room (E + G) ;; _ <- room (T + T) ;; Ok (es ++ [T])
  | MMsg i => lnoise1 k T Rd i es
  end.
Fixpoint mnoise (p : list mcall) (es : list Z) : res (list Z) :=
  match p with
  | [] => Ok es
  | i :: p => es <- mnoise1 i es ;; mnoise p es
  end.

(** ** Between bits and messages *)

(** the message 1 or 0 for the bit [a]: the result is appended *)
Definition bit_to_message (a : Z) : list mcall :=
  [MMsg (LFunc (fun x => if x =? 2 ^ (k - 2) then 1 else 0) a)].

(** the bit "P holds of the message [a]", when there are [w] ciphertexts: the
    result is the last of four new ones *)
Definition message_to_bit (P : Z -> bool) (a w : Z) : list mcall :=
  [MMsg (LFunc (fun x => if P x then 2 ^ (k - 2) else 0) a); MGate (IConst true); MMsg (LAdd w w); MMsg (LSub (w + 2) (w + 1))].
End Plain.

(** ** Running it *)
Section Run.
Context (O : fops) (pr : pset) (ck : CloudKey O) (e : evaluator) (gk : gkey O) (k : Z).
Notation M := (mem (FP O)).

Definition mexec1 (i : mcall) (ws : list Z) (ts : list tref) (m : M) : res (list Z * list tref * M) :=
  match i with
  | MGate i => '(r, m) <- exec_instr O pr e gk i ws m ;; Ok (ws ++ [r], ts, m)
  | MMsg i => lexec1 O pr ck e k i ws ts m
  end.
Fixpoint mexec (p : list mcall) (ws : list Z) (ts : list tref) (m : M) : res (list Z * list tref * M) :=
  match p with
  | [] => Ok (ws, ts, m)
  | i :: p => '(ws, ts, m) <- mexec1 i ws ts m ;; mexec p ws ts m
  end.

(** the call bootstraps [c], with the gates' test vector or a table for [f] *)
Definition mboots1 (i : mcall) (ws : list Z) (fs : list (Z -> Z)) (m : M) (f : option (Z -> Z)) (c : list Z) : Prop :=
  match i, f with
  | MGate i, None => boots_instr O pr e gk i ws m c
  | MMsg i, Some f => lboots1 O i ws fs m f c
  | _, _ => False
  end.
Definition mtables1 (i : mcall) (fs : list (Z -> Z)) : list (Z -> Z) := match i with MMsg (LTable g) => fs ++ [g] | _ => fs end.
Fixpoint mboots (p : list mcall) (ws : list Z) (ts : list tref) (fs : list (Z -> Z)) (m : M) (f : option (Z -> Z)) (c : list Z) : Prop :=
  match p with
  | [] => False
  | i :: p => mboots1 i ws fs m f c \/
      exists ws' ts' m', mexec1 i ws ts m = Ok (ws', ts', m') /\ mboots p ws' ts' (mtables1 i fs) m' f c
  end.

(** the noise of a bootstrap of [c] *)
Definition mix_noise (sk : SecretKey) (f : option (Z -> Z)) (c : list Z) (T : Z) : Prop :=
  match f with
  | None => boot_noise O pr sk ck (BlindRotateTestvec ck) c T
  | Some f => gen_noise O pr sk ck f (2 ^ k) c T
  end.

(** the ciphertexts the program is asked to write to *)
Definition moutputs (p : list mcall) : list Z := flat_map (fun i => match i with MMsg i => outputs1 i | _ => [] end) p.
End Run.

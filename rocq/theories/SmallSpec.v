(** * Specification of the smaller operations of C02 and C54 *)
From Coq Require Import String DecimalString.
From Verif Require Import GoBase GoMem Poly.
Local Open Scope Z_scope.

(** ** C02: the description of a message level *)

(** the decimal notation of a number *)
Definition decimal (n : Z) : string := NilZero.string_of_int (Z.to_int n).

(** what the description of the level for [k]-bit messages over a ring of
    degree [N] says *)
Definition describes (k N : Z) (kind : string) : string :=
  ("Uint" ++ decimal k ++ " parameters (" ++ decimal k ++ "-bit " ++ kind ++
   ", messageModulus=" ++ decimal (2 ^ k) ++ ", N=" ++ decimal N ++ ")")%string.

(** ** C54: sequences of calls of the ring ciphertext pool of an evaluator *)
Inductive ring_call := RGet | RReset.

Fixpoint ring_calls {F} (e : peval) (cs : list ring_call) (m : mem F) : res (list (Z * Z) * mem F) :=
  match cs with
  | [] => Ok ([], m)
  | RGet :: cs => '(a, b, m) <- GetTRLWEBuffer m e ;; '(hs, m) <- ring_calls e cs m ;; Ok ((a, b) :: hs, m)
  | RReset :: cs => ring_calls e cs (ResetTRLWEPool m e)
  end.

(** the four pairs in turn, [t] calls since the last reset *)
Fixpoint ring_robin (e : peval) (cs : list ring_call) (t : Z) : list (Z * Z) :=
  match cs with
  | [] => []
  | RGet :: cs => (pe_trlweA e (t mod 4), pe_trlweB e (t mod 4)) :: ring_robin e cs (t + 1)
  | RReset :: cs => ring_robin e cs 0
  end.

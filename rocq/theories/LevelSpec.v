(** * Specification vocabulary for C34, C35 and C58 *)
From Verif Require Import GoBase GoMem F64 Params Poly Fft Evaluator Gates RunSpec.
Local Open Scope Z_scope.

(** the call does not return *)
Definition panics {A} (r : res A) : Prop := exists e, r = Panic e.

(** From [m] to [m'] every buffer has kept its length, as every Go slice does;
    new ones may have been allocated.  The contents are arbitrary. *)
Definition sizes_kept {T} (m m' : mem (list T)) : Prop :=
  tnext m <= tnext m' /\ fnext m <= fnext m' /\
  (forall x, x < tnext m -> zlen (tm m' x) = zlen (tm m x)) /\
  (forall x, x < fnext m -> zlen (fm m' x) = zlen (fm m x)).

(** the levels for booleans whose dimension is not the one at start, and the
    levels for messages *)
Definition smaller_levels : list Z := [Security80Bit; Security110Bit].
Definition message_levels : list Z := [SecurityUint2; SecurityUint3; SecurityUint4; SecurityUint5; SecurityUint6; SecurityUint7; SecurityUint8].

(** the buffers of [c] lie where nothing was allocated in [m], are allocated in
    [m'], and no two of its components share any: the polynomial evaluator's 24
    polynomials, 15 Fourier polynomials and 2 ints, the decomposer's, and the
    buffer pool's 17, 2 and 1 *)
Definition new_buffers {F} (m m' : mem F) (c : evaluator) : Prop :=
  let p := ev_pe c in let d := ev_dec c in let b := ev_bp c in
  tnext m <= pe_t p /\ pe_t p + 24 <= dc_t d /\ dc_t d + dc_levels d <= bp_t b /\ bp_t b + 17 <= tnext m' /\
  fnext m <= pe_f p /\ pe_f p + 15 <= dc_f d /\ dc_f d + dc_levels d <= bp_f b /\ bp_f b + 2 <= fnext m' /\
  inext m <= pe_i p /\ pe_i p + 2 <= bp_i b /\ bp_i b + 1 <= inext m'.

(** [p] is a polynomial evaluator made at some time for degree [N'], with the
    tables [tw], [twi]; since then all buffers have kept their lengths *)
Definition made_for (R : arith) tw twi (N' : Z) (m : mem (list (AN R))) (p : peval) : Prop :=
  exists m0 m1 : mem (list (AN R)), mem_ok m0 /\ NewPolyEvaluator (fft_ops R tw twi) m0 N' = Ok (p, m1) /\ sizes_kept m1 m.

(** every goroutine of the schedule gets its evaluator from the pool *)
Definition from_pool (evs : list bevent) : Prop := forall i, ~ In (BGet i None) evs.

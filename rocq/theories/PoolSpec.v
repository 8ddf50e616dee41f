(** * Programs over the buffer pools (specification of C54) *)
From Verif Require Import GoBase GoMem Spec Poly Fft Buffers.
Local Open Scope Z_scope.

(** ** Sequences of PolyMulWithXK *)

(** the operand of a call: one of the caller's polynomials, or the [d]-th last
    result (1 is the latest) *)
Inductive operand := Given (i : Z) | Back (d : Z).

Definition nth_z {X} (d : X) (l : list X) (i : Z) : X := nth (Z.to_nat i) l d.

(** the calls, in memory; [ins] are the locations of the caller's polynomials,
    [outs] the results so far, the latest first *)
Fixpoint shifts {F} (e : peval) (ins : list Z) (prog : list (operand * Z)) (m : mem F) (outs : list Z) : res (list Z * mem F) :=
  match prog with
  | [] => Ok (outs, m)
  | (o, k) :: prog =>
    let a := match o with Given i => nth_z 0 ins i | Back d => nth_z 0 outs (d - 1) end in
    '(r, m) <- PolyMulWithXK m e a k ;; shifts e ins prog m (r :: outs)
  end.

(** what the results mean: the caller's polynomial [i] times X^k *)
Fixpoint shifts_mean (prog : list (operand * Z)) (outs : list (Z * Z)) : list (Z * Z) :=
  match prog with
  | [] => outs
  | (o, k) :: prog =>
    let '(i, j) := match o with Given i => (i, 0) | Back d => nth_z (0, 0) outs (d - 1) end in
    shifts_mean prog ((i, j + k) :: outs)
  end.

(** every operand is one of the caller's [n] polynomials or one of the last
    [reach] results *)
Fixpoint within (n reach : Z) (prog : list (operand * Z)) (done : Z) : Prop :=
  match prog with
  | [] => True
  | (o, _) :: prog =>
    match o with Given i => 0 <= i < n | Back d => 1 <= d <= reach /\ d <= done end /\ within n reach prog (done + 1)
  end.

(** the buffers of the evaluator *)
Definition eval_buffer (e : peval) (l : Z) : Prop := pe_t e <= l < pe_t e + 24.

(** ** Sequences of calls of a buffer manager *)
Inductive pool_call := CRotation | CTRLWE | CReset.
Inductive handle := HRotation (l : Z) | HTRLWE (a b : Z) | HNone.

Fixpoint calls {R} (b : bmgr) (cs : list pool_call) (m : mem (list (AN R))) : res (list handle * mem (list (AN R))) :=
  match cs with
  | [] => Ok ([], m)
  | CRotation :: cs => '(l, m) <- BM_GetRotationBuffer R m b ;; '(hs, m) <- calls b cs m ;; Ok (HRotation l :: hs, m)
  | CTRLWE :: cs => '(x, y, m) <- BM_GetTRLWEBuffer R m b ;; '(hs, m) <- calls b cs m ;; Ok (HTRLWE x y :: hs, m)
  | CReset :: cs => '(hs, m) <- calls b cs (BM_Reset R m b) ;; Ok (HNone :: hs, m)
  end.

(** round robin over four, counted from the last reset: [r], [t] calls so far *)
Fixpoint robin (b : bmgr) (cs : list pool_call) (r t : Z) : list handle :=
  match cs with
  | [] => []
  | CRotation :: cs => HRotation (bm_Pool b (r mod 4)) :: robin b cs (r + 1) t
  | CTRLWE :: cs => HTRLWE (bm_TRLWEA b (t mod 4)) (bm_TRLWEB b (t mod 4)) :: robin b cs r (t + 1)
  | CReset :: cs => HNone :: robin b cs 0 0
  end.

(** the bytes of the buffers allocated between two states: 4 per torus
    element, 8 per float *)
Definition torus_bytes {F} (m m' : mem F) : Z := zsum (tnext m' - tnext m) (fun i => 4 * zlen (tm m' (tnext m + i))).
Definition float_bytes {A} (m m' : mem (list A)) : Z := zsum (fnext m' - fnext m) (fun i => 8 * zlen (fm m' (fnext m + i))).

(** * The Fourier transform of package poly

    poly/fourier_transform.go, poly/fourier_ops.go, the twiddle tables of
    poly/poly_evaluator.go and the FourierPoly part of poly/poly.go.

    The code is written once, over a record [arith] of the number operations
    it uses.  [f64_arith] is what the program computes with; FftReal.v
    instantiates it with real numbers to say what the algorithm means.

    Accesses through [unsafe.Pointer] are checked: [ptr l j w] is the Go
    expression that takes the address of element j (which panics if j is out
    of range) and views it as an array of w elements; it gives [PUnsafe] if
    that array leaves the slice. *)
From Coq Require Import String.
From Verif Require Import GoBase GoMem F64 Poly.
Local Open Scope Z_scope.

(** the functions that multiply complex numbers *)
Inductive site : Type := STables | SButterfly | SInvButterfly | SMul | SMulAdd | SMulSub.

Record arith : Type := {
  AN : Type;
  a_zero : AN;
  a_add : AN -> AN -> AN;
  a_sub : AN -> AN -> AN;
  a_mul : AN -> AN -> AN;
  a_mms : site -> AN -> AN -> AN -> AN -> AN;   (* x*y - z*w, in the given function *)
  a_mma : site -> AN -> AN -> AN -> AN -> AN;   (* x*y + z*w, in the given function *)
  a_acc : AN -> AN -> AN -> AN;                 (* o + x*y, in floatMulAddCmplxAssign *)
  a_nac : AN -> AN -> AN -> AN;                 (* o - x*y, in the reduction modulo Q *)
  a_div : AN -> AN -> AN;
  a_neg : AN -> AN;
  a_of : Z -> AN;               (* float64(integer) *)
  a_round : AN -> AN;           (* math.Round *)
  a_int64 : AN -> Z;            (* int64(x) *)
  a_twopi : AN;                 (* the constant 2*math.Pi *)
  a_cis : AN -> AN * AN         (* cmplx.Exp(complex(0, x)) *)
}.

(** 2*math.Pi as a float64 *)
Definition f_twopi : f64 := flit 7074237752028440 (-50).

(** What the Go language leaves open: the last bits of the library function
    cmplx.Exp, and for each expression with a product next to a sum or a
    difference, whether the compiler fuses them, and int64(x) of a float out of
    range.  (The unrolled copies of one loop body are taken to be compiled
    alike.) *)
Record machine : Type := {
  m_cis : f64 -> f64 * f64;     (* cmplx.Exp(complex(0, x)) *)
  m_mms : site -> fuse;
  m_mma : site -> fuse;
  m_acc : bool;
  m_nac : bool;
  m_int64 : f64 -> Z            (* int64(x) for x out of range *)
}.

(** a machine that fuses nothing, such as amd64 *)
Definition unfused (cis : f64 -> f64 * f64) : machine :=
  {| m_cis := cis; m_mms := fun _ => FuseNone; m_mma := fun _ => FuseNone; m_acc := false; m_nac := false; m_int64 := amd64_int64 |}.

(** binary64 on a given machine *)
Definition f64_arith (mc : machine) : arith := {|
  AN := f64; a_zero := f_of_Z 0; a_add := fadd; a_sub := fsub; a_mul := fmul; a_div := fdiv; a_neg := fopp;
  a_mms := fun s => f_mms (m_mms mc s); a_mma := fun s => f_mma (m_mma mc s);
  a_acc := f_acc (m_acc mc); a_nac := f_nac (m_nac mc);
  a_of := f_of_Z; a_round := fround; a_int64 := f_int64 (m_int64 mc); a_twopi := f_twopi; a_cis := m_cis mc
|}.

Definition ptr {A} (l : list A) (j w : Z) : res unit :=
  if (j <? 0) || (zlen l <=? j) then Panic PIndex
  else if zlen l <? j + w then Panic PUnsafe else Ok tt.

Section Code.
Context (R : arith).
Notation A := (AN R).
Notation cplx := (A * A)%type.

(** Go's complex128 product, in the given function *)
Definition cxmul (s : site) (x y : cplx) : cplx :=
  (a_mms R s (fst x) (fst y) (snd x) (snd y),
   a_mma R s (fst x) (snd y) (snd x) (fst y)).
Definition cxadd (x y : cplx) : cplx := (a_add R (fst x) (fst y), a_add R (snd x) (snd y)).
Definition cxsub (x y : cplx) : cplx := (a_sub R (fst x) (fst y), a_sub R (snd x) (snd y)).

(** fourier_transform.go:170-175 butterfly *)
Definition butterfly (u v w : cplx) : cplx * cplx :=
  let vw := cxmul SButterfly v w in (cxadd u vw, cxsub u vw).

(** fourier_transform.go:250-255 invButterfly *)
Definition invButterfly (u v w : cplx) : cplx * cplx :=
  (cxadd u v, cxmul SInvButterfly (cxsub u v) w).

(** one assignment [c[a], c[b], c[c'], c[d] = bf(c[a], c[b], c[c'], c[d], w)] *)
Definition apply_bf (bf : cplx -> cplx -> cplx -> cplx * cplx) (w : cplx) (c : list A) (uR uI vR vI : Z) : res (list A) :=
  xuR <- get c uR ;; xuI <- get c uI ;; xvR <- get c vR ;; xvI <- get c vI ;;
  let '(u, v) := bf (xuR, xuI) (xvR, xvI) w in
  c <- set c uR (fst u) ;; c <- set c uI (snd u) ;; c <- set c vR (fst v) ;; set c vI (snd v).

(** the body shared by the first and middle stages, e.g. fourier_transform.go:188-194
    and 211-217 (187-194 unrolled four times in Go): two 8-element views at
    j and j+t *)
Definition bf_block (bf : cplx -> cplx -> cplx -> cplx * cplx) (w : cplx) (t j : Z) (c : list A) : res (list A) :=
  ptr c j 8 ;;; ptr c (j + t) 8 ;;;
  for_range 0 4 (fun k c => apply_bf bf w c (j + k) (j + 4 + k) (j + t + k) (j + t + 4 + k)) c.

(** the body of the second-to-last stage, fourier_transform.go:222-231 and of
    its inverse 277-287: pairs (0,2) and (1,3) of one block *)
Definition bf_pair2 (bf : cplx -> cplx -> cplx -> cplx * cplx) (w : cplx) (j : Z) (c : list A) : res (list A) :=
  ptr c j 4 ;;; ptr c (j + 4) 4 ;;;
  c <- apply_bf bf w c (j + 0) (j + 4 + 0) (j + 2) (j + 4 + 2) ;;
  apply_bf bf w c (j + 1) (j + 4 + 1) (j + 3) (j + 4 + 3).

(** the body of the last stage, fourier_transform.go:235-246, and of its
    inverse 262-274: pairs (0,1) and (2,3) of one block *)
Definition bf_pair1 (bf : cplx -> cplx -> cplx -> cplx * cplx) (w0 w1 : cplx) (j : Z) (c : list A) : res (list A) :=
  ptr c j 4 ;;; ptr c (j + 4) 4 ;;;
  c <- apply_bf bf w0 c (j + 0) (j + 4 + 0) (j + 1) (j + 4 + 1) ;;
  apply_bf bf w1 c (j + 2) (j + 4 + 2) (j + 3) (j + 4 + 3).

(** one middle stage, fourier_transform.go:201-219 and 292-309: m groups at
    distance t, twiddles from position wIdx on *)
Definition mid_stage (bf : cplx -> cplx -> cplx -> cplx * cplx) (tw : list cplx) (m t : Z) (s : list A * Z) : res (list A * Z) :=
  for_range 0 m (fun i '(c, wIdx) =>
    let j1 := 2 * i * t in
    let j2 := j1 + t in
    w <- get tw wIdx ;;
    c <- for_step j1 j2 8 (bf_block bf w t) c ;;
    Ok (c, wIdx + 1)) s.

(** [for m := 2; m <= N/16; m <<= 1] with t halved at the start of each
    iteration (fourier_transform.go:198-219).  The loop runs at most log2 N
    times; [fuel] bounds it. *)
Fixpoint fft_mid (fuel : nat) (tw : list cplx) (N m t : Z) (s : list A * Z) : res (list A * Z) :=
  match fuel with
  | O => Panic (PMsg "fuel")
  | S f => if m <=? N / 16 then
             let t := Z.shiftr t 1 in
             s <- mid_stage butterfly tw m t s ;; fft_mid f tw N (Z.shiftl m 1) t s
           else Ok s
  end.

(** fourier_transform.go:178-247 fftInPlace *)
Definition fftInPlace (coeffs : list A) (tw : list cplx) : res (list A) :=
  let N := zlen coeffs in
  w <- get tw 0 ;;
  c <- for_step 0 (N / 2) 8 (bf_block butterfly w (N / 2)) coeffs ;;
  '(c, wIdx) <- fft_mid (Z.to_nat (Z.log2 N) + 1) tw N 2 (N / 2) (c, 1) ;;
  '(c, wIdx) <- for_step 0 N 8 (fun j '(c, wIdx) =>
                  w <- get tw wIdx ;; c <- bf_pair2 butterfly w j c ;; Ok (c, wIdx + 1)) (c, wIdx) ;;
  '(c, wIdx) <- for_step 0 N 8 (fun j '(c, wIdx) =>
                  w0 <- get tw wIdx ;; w1 <- get tw (wIdx + 1) ;;
                  c <- bf_pair1 butterfly w0 w1 j c ;; Ok (c, wIdx + 2)) (c, wIdx) ;;
  Ok c.

(** [for m := N/16; m >= 2; m >>= 1] with t doubled at the end
    (fourier_transform.go:290-310) *)
Fixpoint ifft_mid (fuel : nat) (tw : list cplx) (m t : Z) (s : list A * Z) : res (list A * Z) :=
  match fuel with
  | O => Panic (PMsg "fuel")
  | S f => if 2 <=? m then
             s <- mid_stage invButterfly tw m t s ;; ifft_mid f tw (Z.shiftr m 1) (Z.shiftl t 1) s
           else Ok s
  end.

(** [c[j..j+8) /= scale] (fourier_transform.go:325-345) *)
Definition scale8 (scale : A) (j : Z) (c : list A) : res (list A) :=
  for_range 0 8 (fun k c => x <- get c (j + k) ;; set c (j + k) (a_div R x scale)) c.

(** fourier_transform.go:258-347 ifftInPlace *)
Definition ifftInPlace (coeffs : list A) (twInv : list cplx) : res (list A) :=
  let N := zlen coeffs in
  '(c, wIdx) <- for_step 0 N 8 (fun j '(c, wIdx) =>
                  w0 <- get twInv wIdx ;; w1 <- get twInv (wIdx + 1) ;;
                  c <- bf_pair1 invButterfly w0 w1 j c ;; Ok (c, wIdx + 2)) (coeffs, 0) ;;
  '(c, wIdx) <- for_step 0 N 8 (fun j '(c, wIdx) =>
                  w <- get twInv wIdx ;; c <- bf_pair2 invButterfly w j c ;; Ok (c, wIdx + 1)) (c, wIdx) ;;
  '(c, wIdx) <- ifft_mid (Z.to_nat (Z.log2 N) + 1) twInv (N / 16) 8 (c, wIdx) ;;
  let scale := a_of R (N / 2) in
  w <- get twInv wIdx ;;
  for_step 0 (N / 2) 8 (fun j c =>
    c <- bf_block invButterfly w (N / 2) j c ;;
    c <- scale8 scale j c ;; scale8 scale (j + N / 2) c) c.

(** fourier_transform.go:64-85 convertPolyToFourierPolyAssign; the second loop
    variable ii is i/2 *)
Definition convertPolyToFourierPolyAssign (p : list Z) (fpOut : list A) : res (list A) :=
  let N := zlen p in
  for_step 0 N 8 (fun i fpOut =>
    let ii := i / 2 in
    ptr p ii 4 ;;; ptr p (ii + N / 2) 4 ;;; ptr fpOut i 8 ;;;
    fpOut <- for_range 0 4 (fun k fpOut => x <- get p (ii + k) ;; set fpOut (i + k) (a_of R (int32 x))) fpOut ;;
    for_range 0 4 (fun k fpOut => x <- get p (ii + N / 2 + k) ;; set fpOut (i + 4 + k) (a_of R (int32 x))) fpOut) fpOut.

(** one line of fourier_transform.go:94-103 *)
Definition modQ (q c : A) : A := a_round R (a_nac R c q (a_round R (a_div R c q))).

(** fourier_transform.go:88-104 floatModQInPlace *)
Definition floatModQInPlace (coeffs : list A) (q : A) : res (list A) :=
  for_step 0 (zlen coeffs) 8 (fun i c =>
    ptr c i 8 ;;;
    for_range 0 8 (fun k c => x <- get c (i + k) ;; set c (i + k) (modQ q x)) c) coeffs.

(** the three variants of fourier_transform.go:107-126, 128-147 and 149-167:
    [op old new] is what is stored *)
Definition convertFourierPolyToPoly (op : Z -> Z -> Z) (fp : list A) (pOut : list Z) : res (list Z) :=
  let N := zlen fp in
  for_step 0 N 8 (fun i pOut =>
    let ii := i / 2 in
    ptr fp i 8 ;;; ptr pOut ii 4 ;;; ptr pOut (ii + N / 2) 4 ;;;
    pOut <- for_range 0 4 (fun k pOut =>
              x <- get fp (i + k) ;; old <- get pOut (ii + k) ;;
              set pOut (ii + k) (op old (w32 (a_int64 R x)))) pOut ;;
    for_range 0 4 (fun k pOut =>
              x <- get fp (i + 4 + k) ;; old <- get pOut (ii + N / 2 + k) ;;
              set pOut (ii + N / 2 + k) (op old (w32 (a_int64 R x)))) pOut) pOut.
Definition convertFourierPolyToPolyAssign := convertFourierPolyToPoly (fun _ x => x).
Definition convertFourierPolyToPolyAddAssign := convertFourierPolyToPoly tadd.
Definition convertFourierPolyToPolySubAssign := convertFourierPolyToPoly tsub.

(** Elementwise loops over 8-element blocks.  [f] computes the new pair
    (real, imaginary) from the pairs of v0, v1 and vOut at the same place.
    The code reads a pair completely before writing it and never reads it
    again, so vOut may be v0 or v1. *)
Definition elementwise (f : cplx -> cplx -> cplx -> cplx) (v0 v1 vOut : list A) : res (list A) :=
  for_step 0 (zlen vOut) 8 (fun i vOut =>
    ptr v0 i 8 ;;; ptr v1 i 8 ;;; ptr vOut i 8 ;;;
    for_range 0 4 (fun k vOut =>
      x0 <- get v0 (i + k) ;; y0 <- get v0 (i + 4 + k) ;;
      x1 <- get v1 (i + k) ;; y1 <- get v1 (i + 4 + k) ;;
      x2 <- get vOut (i + k) ;; y2 <- get vOut (i + 4 + k) ;;
      let '(r, im) := f (x0, y0) (x1, y1) (x2, y2) in
      vOut <- set vOut (i + k) r ;; set vOut (i + 4 + k) im) vOut) vOut.

(** fourier_ops.go:138-164 elementWiseMulCmplxAssign *)
Definition elementWiseMulCmplxAssign := elementwise (fun x y _ => cxmul SMul x y).
(** fourier_ops.go:167-191 elementWiseMulAddCmplxAssign: [wOut + (a*b - c*d)] *)
Definition elementWiseMulAddCmplxAssign := elementwise (fun x y o => cxadd o (cxmul SMulAdd x y)).
(** fourier_ops.go:194-218 elementWiseMulSubCmplxAssign *)
Definition elementWiseMulSubCmplxAssign := elementwise (fun x y o => cxsub o (cxmul SMulSub x y)).
(** fourier_ops.go:63-79 addCmplxAssign, 82-98 subCmplxAssign (the eight
    additions are independent, so pairing them changes nothing) *)
Definition addCmplxAssign := elementwise (fun x y _ => cxadd x y).
Definition subCmplxAssign := elementwise (fun x y _ => cxsub x y).
(** fourier_ops.go:101-116 floatMulCmplxAssign, 119-134 floatMulAddCmplxAssign;
    v0 stands in for the absent second vector *)
Definition floatMulCmplxAssign (v0 : list A) (c : A) (vOut : list A) :=
  elementwise (fun x _ _ => (a_mul R c (fst x), a_mul R c (snd x))) v0 v0 vOut.
Definition floatMulAddCmplxAssign (v0 : list A) (c : A) (vOut : list A) :=
  elementwise (fun x _ o => (a_acc R (fst o) c (fst x), a_acc R (snd o) c (snd x))) v0 v0 vOut.

(** poly/poly.go:65-73 NewFourierPoly *)
Definition NewFourierPoly (N : Z) : res (list A) := check_degree N ;;; make (a_zero R) N.
(** poly/poly.go:93-97 Clear *)
Definition FourierPoly_Clear (fp : list A) : res (list A) :=
  for_range 0 (zlen fp) (fun i fp => set fp i (a_zero R)) fp.

(** ** Twiddle tables *)

(** poly_evaluator.go:146-165 bitReverseInPlace: the inner loop
    [for m > 0 && j >= m { j -= m; m >>= 1 }] then [j += m] *)
Fixpoint rev_inc (fuel : nat) (m j : Z) : Z :=
  match fuel with
  | O => j + m
  | S f => if (0 <? m) && (m <=? j) then rev_inc f (Z.shiftr m 1) (j - m) else j + m
  end.
Definition bitReverseInPlace {T} (data : list T) : res (list T) :=
  let n := zlen data in
  if n <=? 1 then Ok data else
  '(data, _) <- for_range 0 n (fun i '(data, j) =>
     data <- (if i <? j then
                x <- get data i ;; y <- get data j ;; d <- set data i y ;; set d j x
              else Ok data) ;;
     Ok (data, rev_inc (Z.to_nat n) (Z.shiftr n 1) j)) (data, 0) ;;
  Ok data.

(** e := -2 * math.Pi * float64(i) / float64(N), poly_evaluator.go:118 *)
Definition tw_angle (N i : Z) : A := a_div R (a_mul R (a_neg R (a_twopi R)) (a_of R i)) (a_of R N).
(** 2*math.Pi*float64(t)/float64(4*N), poly_evaluator.go:129; with the
    negated constant, poly_evaluator.go:136 *)
Definition fold_angle (N t : Z) : A := a_div R (a_mul R (a_twopi R) (a_of R t)) (a_of R (4 * N)).
Definition fold_angle_inv (N t : Z) : A := a_div R (a_mul R (a_neg R (a_twopi R)) (a_of R t)) (a_of R (4 * N)).

(** [for m, t := 1, N/2; m <= N/2; m, t = m<<1, t>>1] *)
Fixpoint tw_up (fuel : nat) (twFFT : list cplx) (N m t : Z) (tw : list cplx) : res (list cplx) :=
  match fuel with
  | O => Panic (PMsg "fuel")
  | S f => if m <=? N / 2 then
             let twFold := a_cis R (fold_angle N t) in
             tw <- for_range 0 m (fun i tw => x <- get twFFT i ;; Ok (tw ++ [cxmul STables x twFold])) tw ;;
             tw_up f twFFT N (Z.shiftl m 1) (Z.shiftr t 1) tw
           else Ok tw
  end.
(** [for m, t := N/2, 1; m >= 1; m, t = m>>1, t<<1] *)
Fixpoint tw_down (fuel : nat) (twFFT : list cplx) (N m t : Z) (tw : list cplx) : res (list cplx) :=
  match fuel with
  | O => Panic (PMsg "fuel")
  | S f => if 1 <=? m then
             let twFold := a_cis R (fold_angle_inv N t) in
             tw <- for_range 0 m (fun i tw => x <- get twFFT i ;; Ok (tw ++ [cxmul STables x twFold])) tw ;;
             tw_down f twFFT N (Z.shiftr m 1) (Z.shiftl t 1) tw
           else Ok tw
  end.

(** poly_evaluator.go:114-143 genTwiddleFactors; [-complex(0, e)] has
    imaginary part -e *)
Definition genTwiddleFactors (N : Z) : res (list cplx * list cplx) :=
  let z := (a_zero R, a_zero R) in
  twFFT <- make z (N / 2) ;;
  twInvFFT <- make z (N / 2) ;;
  twFFT <- for_range 0 (N / 2) (fun i l => set l i (a_cis R (tw_angle N i))) twFFT ;;
  twInvFFT <- for_range 0 (N / 2) (fun i l => set l i (a_cis R (a_neg R (tw_angle N i)))) twInvFFT ;;
  twFFT <- bitReverseInPlace twFFT ;;
  twInvFFT <- bitReverseInPlace twInvFFT ;;
  tw <- tw_up (Z.to_nat (Z.log2 N) + 1) twFFT N 1 (N / 2) [] ;;
  twInv <- tw_down (Z.to_nat (Z.log2 N) + 1) twInvFFT N (N / 2) 1 [] ;;
  Ok (tw, twInv).

(** ** The operations of an evaluator with tables [tw] and [twInv] *)

(** Q = math.Exp2(32), poly_evaluator.go:85 *)
Definition Q32 : A := a_of R two32.

(** fourier_transform.go:18-21 ToFourierPolyAssign *)
Definition toFourier (tw : list cplx) (p : list Z) (fpOut : list A) : res (list A) :=
  fp <- convertPolyToFourierPolyAssign p fpOut ;; fftInPlace fp tw.
(** fourier_transform.go:40-44 ToPolyAssignUnsafe; the new contents of fp and pOut *)
Definition toPoly (twInv : list cplx) (fp : list A) (pOut : list Z) : res (list A * list Z) :=
  fp <- ifftInPlace fp twInv ;;
  fp <- floatModQInPlace fp Q32 ;;
  pOut <- convertFourierPolyToPolyAssign fp pOut ;;
  Ok (fp, pOut).
(** fourier_transform.go:31-36 ToPolyAssign: works on a copy; [fpInv] is the
    evaluator's buffer *)
Definition toPolyCopy (twInv : list cplx) (fpInv fp : list A) (pOut : list Z) : res (list A * list Z) :=
  toPoly twInv (copy_slice fpInv fp) pOut.
(** fourier_transform.go:48-52 ToPolyAddAssignUnsafe and 56-60
    ToPolySubAssignUnsafe *)
Definition toPolyAdd (twInv : list cplx) (fp : list A) (pOut : list Z) : res (list A * list Z) :=
  fp <- ifftInPlace fp twInv ;; fp <- floatModQInPlace fp Q32 ;;
  pOut <- convertFourierPolyToPolyAddAssign fp pOut ;; Ok (fp, pOut).
Definition toPolySub (twInv : list cplx) (fp : list A) (pOut : list Z) : res (list A * list Z) :=
  fp <- ifftInPlace fp twInv ;; fp <- floatModQInPlace fp Q32 ;;
  pOut <- convertFourierPolyToPolySubAssign fp pOut ;; Ok (fp, pOut).

Definition fft_ops (tw twInv : list cplx) : fops := {|
  FP := list A;
  f_nil := [];
  f_new := NewFourierPoly;
  f_clear := FourierPoly_Clear;
  f_of_poly := toFourier tw;
  f_to_poly := toPoly twInv;
  f_mul := elementWiseMulCmplxAssign;
  f_muladd := elementWiseMulAddCmplxAssign
|}.

(** poly/poly_evaluator.go:76-111 NewEvaluator: the check and the tables, with
    the operations they give.  The tables twMono and twMonoIdx, which nothing
    reads, are left out. *)
Definition fft_evaluator (N : Z) : res fops :=
  check_degree N ;;;
  '(tw, twInv) <- genTwiddleFactors (N / 2) ;;
  Ok (fft_ops tw twInv).
End Code.

(** * Package poly without the Fourier transform itself

    poly/poly.go, poly/decomposer.go, poly/buffer_methods.go and the buffer
    part of poly/poly_evaluator.go.  The transform is a parameter: a record
    [fops] of the operations the rest of the code uses, instantiated in
    Fft.v with the code of poly/fourier_transform.go and poly/fourier_ops.go. *)
From Coq Require Import String.
From Verif Require Import GoBase GoMem.
Local Open Scope Z_scope.

(** poly/poly.go:12 *)
Definition MinDegree : Z := 16.

(** poly/poly.go:100-102 isPowerOfTwo *)
Definition isPowerOfTwo (n : Z) : bool := (0 <? n) && (Z.land n (n - 1) =? 0).

(** poly/poly.go:105-115 log2.  The loop [for n > 1] runs at most 63 times on
    an int; [fuel] is that bound. *)
Fixpoint log2_loop (fuel : nat) (n log : Z) : Z :=
  match fuel with
  | O => log
  | S k => if 1 <? n then log2_loop k (Z.shiftr n 1) (log + 1) else log
  end.
Definition log2 (n : Z) : res Z :=
  if n <=? 0 then Panic (PMsg "log2 of non-positive number") else Ok (log2_loop 64 n 0).

(** the check shared by NewPoly (poly/poly.go:25-33), NewFourierPoly (65-73)
    and NewEvaluator (poly/poly_evaluator.go:76-82) *)
Definition check_degree (N : Z) : res unit :=
  if negb (isPowerOfTwo N) then Panic (PMsg "degree not power of two")
  else if N <? MinDegree then Panic (PMsg "degree smaller than MinDegree")
  else Ok tt.

(** poly/poly.go:25-33 NewPoly *)
Definition NewPoly (N : Z) : res (list Z) :=
  check_degree N ;;; make 0 N.

(** poly/poly.go:41-45 Copy *)
Definition Poly_Copy (p : list Z) : res (list Z) :=
  c <- make 0 (zlen p) ;; Ok (copy_slice c p).

(** poly/poly.go:48-52 Clear *)
Definition Poly_Clear (p : list Z) : res (list Z) :=
  for_range 0 (zlen p) (fun i p => set p i 0) p.

(** The operations of [poly.Evaluator] on Fourier polynomials.  [FP] is the
    type of a FourierPoly's coefficient slice. *)
Record fops : Type := {
  FP : Type;
  f_nil : FP;                                      (* the nil slice *)
  f_new : Z -> res FP;                             (* poly/poly.go:65 NewFourierPoly *)
  f_clear : FP -> res FP;                          (* poly/poly.go:93 Clear *)
  f_of_poly : list Z -> FP -> res FP;              (* fourier_transform.go:18 ToFourierPolyAssign p fpOut *)
  f_to_poly : FP -> list Z -> res (FP * list Z);   (* fourier_transform.go:40 ToPolyAssignUnsafe fp pOut:
                                                      new contents of fp and of pOut *)
  f_mul : FP -> FP -> FP -> res FP;                (* fourier_ops.go:38 MulFourierPolyAssign fp0 fp1 fpOut *)
  f_muladd : FP -> FP -> FP -> res FP              (* fourier_ops.go:43 MulAddFourierPolyAssign fp0 fp1 fpOut *)
}.

(** poly/poly_mul.go:4-22 MulPoly, MulPolyAssign; [degree] is the degree of
    the evaluator.  The third operand of MulFourierPolyAssign is fp0 itself. *)
Definition MulPoly (O : fops) (degree : Z) (p0 p1 : list Z) : res (list Z) :=
  pOut <- NewPoly degree ;;
  fp0 <- (o <- f_new O degree ;; f_of_poly O p0 o) ;;
  fp1 <- (o <- f_new O degree ;; f_of_poly O p1 o) ;;
  fp0 <- f_mul O fp0 fp1 fp0 ;;
  '(_, pOut) <- f_to_poly O fp0 pOut ;;
  Ok pOut.

(** poly/buffer_methods.go:133-164 PolyMulWithXKInPlace, on locations: [a]
    and [result] may be the same buffer.  Go's [k % (2*n)] panics for n = 0. *)
Definition PolyMulWithXKInPlace {F} (m : mem F) (a k result : Z) : res (mem F) :=
  let n := zlen (tm m a) in
  k <- go_rem k (2 * n) ;;
  if k =? 0 then Ok (mcopy m result a)
  else
    let k := if k <? 0 then k + 2 * n else k in
    if k <? n then
      m <- for_range 0 (n - k) (fun i m =>
             x <- load m a i ;; store m result (i + k) x) m ;;
      for_range (n - k) n (fun i m =>
             x <- load m a i ;; store m result (i + k - n) (tnot x)) m
    else
      let k := k - n in
      m <- for_range 0 (n - k) (fun i m =>
             x <- load m a i ;; store m result (i + k) (tnot x)) m ;;
      for_range (n - k) n (fun i m =>
             x <- load m a i ;; store m result (i + k - n) x) m.

(** trgsw/trgsw.go:255-282 polyMulWithXKInPlace: the unused older copy,
    without the correction of a negative remainder *)
Definition polyMulWithXKInPlace_trgsw {F} (m : mem F) (a k result : Z) : res (mem F) :=
  let n := zlen (tm m a) in
  k <- go_rem k (2 * n) ;;
  if k =? 0 then Ok (mcopy m result a)
  else
    if k <? n then
      m <- for_range 0 (n - k) (fun i m =>
             x <- load m a i ;; store m result (i + k) x) m ;;
      for_range (n - k) n (fun i m =>
             x <- load m a i ;; store m result (i + k - n) (tnot x)) m
    else
      let k := k - n in
      m <- for_range 0 (n - k) (fun i m =>
             x <- load m a i ;; store m result (i + k) (tnot x)) m ;;
      for_range (n - k) n (fun i m =>
             x <- load m a i ;; store m result (i + k - n) x) m.

(** [1 << s] on an int, [s] an int: panics for a negative count.  Counts are
    small in the code; the wrap at 64 bits is left out. *)
Definition shl_int (s : Z) : res Z :=
  if s <? 0 then Panic PShift else Ok (Z.shiftl 1 s).

(** one digit of the gadget decomposition, as written both in
    poly/decomposer.go:63 and trgsw/trgsw.go:158,161:
    [((tmp >> (32 - (uint32(i)+1)*bgbit)) & mask) - halfBG].
    The shift count is a uint32, so it can wrap to a huge value, for which a
    Go shift gives 0. *)
Definition dec_digit (tmp i bgbit mask halfBG : Z) : Z :=
  let cnt := w32 (32 - w32 ((i + 1) * bgbit)) in
  let sh := if 32 <=? cnt then 0 else Z.shiftr tmp cnt in
  tsub (Z.land sh mask) halfBG.

(** poly/decomposer.go:55-66 DecomposePolyAssign; [decomposedOut] is the
    location of the first of [level] consecutive buffers. *)
Definition DecomposePolyAssign {F} (m : mem F) (p bgbit level offset decomposedOut : Z) : res (mem F) :=
  let n := zlen (tm m p) in
  mask <- (s <- shl_int bgbit ;; Ok (w32 (s - 1))) ;;
  halfBG <- (s <- shl_int (bgbit - 1) ;; Ok (w32 s)) ;;
  for_range 0 n (fun j m =>
    tmp <- (x <- load m p j ;; Ok (tadd x offset)) ;;
    for_range 0 level (fun i m =>
      store m (decomposedOut + i) j (dec_digit tmp i bgbit mask halfBG)) m) m.

(** ** poly.Decomposer *)

(** poly/decomposer.go:7-17.  Torus buffers [dc_t .. dc_t + dc_levels), same
    for the Fourier buffers. *)
Record decomposer : Type := { dc_t : Z; dc_f : Z; dc_levels : Z }.

(** poly/decomposer.go:20-35 NewDecomposer *)
Definition NewDecomposer (O : fops) (m : mem (FP O)) (N maxLevel : Z) : res (decomposer * mem (FP O)) :=
  (if maxLevel <? 0 then Panic PMake else Ok tt) ;;;
  (if maxLevel =? 0 then Ok ({| dc_t := tnext m; dc_f := fnext m; dc_levels := 0 |}, m) else
  p <- NewPoly N ;;
  f <- f_new O N ;;
  let '(t, m) := alloc_ts m maxLevel p in
  let '(fl, m) := alloc_fs m maxLevel f in
  Ok ({| dc_t := t; dc_f := fl; dc_levels := maxLevel |}, m)).

(** poly/decomposer.go:38-43 GetPolyDecomposedBuffer, 46-51
    GetPolyFourierDecomposedBuffer: the location of the first buffer.  A
    negative level panics when slicing. *)
Definition GetPolyDecomposedBuffer (d : decomposer) (level : Z) : res Z :=
  if dc_levels d <? level then Panic (PMsg "decomposition level exceeds buffer size")
  else if level <? 0 then Panic PIndex else Ok (dc_t d).
Definition GetPolyFourierDecomposedBuffer (d : decomposer) (level : Z) : res Z :=
  if dc_levels d <? level then Panic (PMsg "decomposition level exceeds buffer size")
  else if level <? 0 then Panic PIndex else Ok (dc_f d).

(** ** poly.Evaluator and its buffers *)

(** poly/poly_evaluator.go:12-73: the degree and the addresses of the
    buffers.  Torus buffers, from [pe_t]: decompBuffer[0..7], rotationPool[0..3],
    trlwePool[0..3] (A, B), pSplit, pTemp, pRotA, pRotB.  Fourier buffers, from
    [pe_f]: fp, fpInv, fpMul1, fpMul2, fpAcc, fpBcc, fpDiff, decompFFT[0..7].
    Ints, from [pe_i]: rotationIdx, trlweIdx.  The twiddle tables are part of
    [fops]. *)
Record peval : Type := { pe_deg : Z; pe_t : Z; pe_f : Z; pe_i : Z }.

Definition pe_decomp (e : peval) (i : Z) : Z := pe_t e + i.
Definition pe_rot (e : peval) (i : Z) : Z := pe_t e + 8 + i.
Definition pe_trlweA (e : peval) (i : Z) : Z := pe_t e + 12 + 2 * i.
Definition pe_trlweB (e : peval) (i : Z) : Z := pe_t e + 13 + 2 * i.
Definition pe_tsize : Z := 24.
Definition pe_fpAcc (e : peval) : Z := pe_f e + 4.
Definition pe_fpBcc (e : peval) : Z := pe_f e + 5.
Definition pe_decompFFT (e : peval) (i : Z) : Z := pe_f e + 7 + i.
Definition pe_fsize : Z := 15.
Definition pe_rotIdx (e : peval) : Z := pe_i e.
Definition pe_trlweIdx (e : peval) : Z := pe_i e + 1.

(** poly/poly_evaluator.go:171 *)
Definition maxDecompLevels : Z := 8.

(** poly/poly_evaluator.go:168-223 newEvaluationBuffer *)
Definition newEvaluationBuffer (O : fops) (m : mem (FP O)) (N : Z) : res (peval * mem (FP O)) :=
  p <- NewPoly N ;;
  f <- f_new O N ;;
  let '(t, m) := alloc_ts m pe_tsize p in
  let '(fl, m) := alloc_fs m pe_fsize f in
  let '(il, m) := alloc_is m 2 0 in
  Ok ({| pe_deg := N; pe_t := t; pe_f := fl; pe_i := il |}, m).

(** poly/poly_evaluator.go:76-111 NewEvaluator, without the tables *)
Definition NewPolyEvaluator (O : fops) (m : mem (FP O)) (N : Z) : res (peval * mem (FP O)) :=
  check_degree N ;;; newEvaluationBuffer O m N.

(** poly/poly_evaluator.go:242-252 ShallowCopy *)
Definition PolyEvaluator_ShallowCopy (O : fops) (m : mem (FP O)) (e : peval) : res (peval * mem (FP O)) :=
  newEvaluationBuffer O m (pe_deg e).

(** poly/buffer_methods.go:75-80 GetDecompBuffer.  A negative index panics. *)
Definition GetDecompBuffer (e : peval) (i : Z) : res Z :=
  if maxDecompLevels <=? i then Panic (PMsg "decomposition buffer index out of range")
  else if i <? 0 then Panic PIndex else Ok (pe_decomp e i).

(** poly/buffer_methods.go:112-116 GetRotationBuffer *)
Definition GetRotationBuffer {F} (m : mem F) (e : peval) : res (Z * mem F) :=
  let i := im m (pe_rotIdx e) in
  if (i <? 0) || (4 <=? i) then Panic PIndex
  else Ok (pe_rot e i, iset m (pe_rotIdx e) (Z.rem (i + 1) 4)).

(** poly/buffer_methods.go:120-122 ResetRotationPool *)
Definition ResetRotationPool {F} (m : mem F) (e : peval) : mem F := iset m (pe_rotIdx e) 0.

(** poly/buffer_methods.go:125-129 PolyMulWithXK *)
Definition PolyMulWithXK {F} (m : mem F) (e : peval) (a k : Z) : res (Z * mem F) :=
  '(result, m) <- GetRotationBuffer m e ;;
  m <- PolyMulWithXKInPlace m a k result ;;
  Ok (result, m).

(** poly/buffer_methods.go:177-181 GetTRLWEBuffer *)
Definition GetTRLWEBuffer {F} (m : mem F) (e : peval) : res (Z * Z * mem F) :=
  let i := im m (pe_trlweIdx e) in
  if (i <? 0) || (4 <=? i) then Panic PIndex
  else Ok (pe_trlweA e i, pe_trlweB e i, iset m (pe_trlweIdx e) (Z.rem (i + 1) 4)).

(** poly/buffer_methods.go:184-186 ResetTRLWEPool *)
Definition ResetTRLWEPool {F} (m : mem F) (e : peval) : mem F := iset m (pe_trlweIdx e) 0.

(** poly/buffer_methods.go:189-194 ClearTRLWEBuffer *)
Definition ClearTRLWEBuffer {F} (m : mem F) (a b : Z) : res (mem F) :=
  for_range 0 (zlen (tm m a)) (fun i m => m <- store m a i 0 ;; store m b i 0) m.

(** poly/buffer_methods.go:16-31 ClearBuffer on one Fourier buffer *)
Definition ClearBuffer (O : fops) (m : mem (FP O)) (fp : Z) : res (mem (FP O)) :=
  v <- f_clear O (fm m fp) ;; Ok (fset m fp v).

(** fourier_transform.go:18-21 ToFourierPolyAssign on locations *)
Definition ToFourierPolyAssign (O : fops) (m : mem (FP O)) (p fpOut : Z) : res (mem (FP O)) :=
  v <- f_of_poly O (tm m p) (fm m fpOut) ;; Ok (fset m fpOut v).

(** fourier_transform.go:40-44 ToPolyAssignUnsafe on locations *)
Definition ToPolyAssignUnsafe (O : fops) (m : mem (FP O)) (fp pOut : Z) : res (mem (FP O)) :=
  '(f, p) <- f_to_poly O (fm m fp) (tm m pOut) ;;
  Ok (tset (fset m fp f) pOut p).

(** fourier_ops.go:43-45 MulAddFourierPolyAssign; the second operand is an
    immutable key component, passed by value *)
Definition MulAddFourierPolyAssign (O : fops) (m : mem (FP O)) (fp0 : Z) (fp1 : FP O) (fpOut : Z) : res (mem (FP O)) :=
  v <- f_muladd O (fm m fp0) fp1 (fm m fpOut) ;; Ok (fset m fpOut v).

(** poly/buffer_methods.go:91-96 ToFourierPolyInBuffer *)
Definition ToFourierPolyInBuffer (O : fops) (m : mem (FP O)) (e : peval) (p bufferIdx : Z) : res (mem (FP O)) :=
  if maxDecompLevels <=? bufferIdx then Panic (PMsg "buffer index out of range")
  else if bufferIdx <? 0 then Panic PIndex
  else ToFourierPolyAssign O m p (pe_decompFFT e bufferIdx).

(** poly/buffer_methods.go:35-48 MulAddFourierPolyAssignBuffered *)
Definition MulAddFourierPolyAssignBuffered (O : fops) (m : mem (FP O)) (e : peval) (idx : Z) (fp : FP O) (fpOut : Z)
    : res (mem (FP O)) :=
  if (idx <? 0) || (maxDecompLevels <=? idx) then Panic PIndex
  else MulAddFourierPolyAssign O m (pe_decompFFT e idx) fp fpOut.

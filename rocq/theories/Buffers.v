(** * Buffer pools: poly/buffer_manager.go, poly/aligned.go, the accessors of
    poly/buffer_methods.go and the whole of evaluator/buffers.go

    Evaluator.v models the part of the evaluator's pool that computations use;
    here is everything that is allocated.  No proofs here. *)
From Coq Require Import String.
From Verif Require Import GoBase GoMem Params Tlwe Poly Fft Trlwe.
Local Open Scope Z_scope.

Section Buffers.
Context (R : arith) (pr : pset).
Notation A := (AN R).
Notation M := (mem (list A)).

(** [s[a : a+n]] for 0 <= a: panics past the capacity, which is the length here *)
Definition slice_at {X} (s : list X) (a n : Z) : res (list X) :=
  if (n <? 0) || (zlen s <? a + n) then Panic PIndex else Ok (firstn (Z.to_nat n) (skipn (Z.to_nat a) s)).

(** poly/aligned.go:9-35 NewPolyAligned and 38-64 NewFourierPolyAligned: the
    same text with [line] = 16 and 8.  [addr] is computed from the length of
    the slice, not from an address. *)
Definition aligned {X} (zero : X) (line N : Z) : res (list X) :=
  check_degree N ;;;
  coeffs <- make zero (N + line) ;;
  let addr := if 0 <? zlen coeffs then zlen coeffs mod line else 0 in
  let offset := if addr =? 0 then 0 else line - addr in
  slice_at coeffs offset N.
Definition NewPolyAligned (N : Z) : res (list Z) := aligned 0 16 N.
Definition NewFourierPolyAligned (N : Z) : res (list A) := aligned (a_zero R) 8 N.

(** ** poly.BufferManager *)

(** poly/buffer_manager.go:7-60.  Torus buffers from [bm_t]: FFT.Poly,
    Decomposition.Poly[0..2l), Rotation.Pool[0..3], TRLWEPool[0..3] (A, B),
    Temp.Poly1..3.  Fourier buffers from [bm_f]: FFT.Fourier,
    Decomposition.Fourier[0..2l), AccA, AccB, Temp.  Ints from [bm_i]: InUse,
    TRLWEInUse. *)
Record bmgr : Type := { bm_n : Z; bm_l : Z; bm_t : Z; bm_f : Z; bm_i : Z }.
Definition bm_Pool (b : bmgr) (i : Z) : Z := bm_t b + 1 + 2 * bm_l b + i.
Definition bm_TRLWEA (b : bmgr) (i : Z) : Z := bm_t b + 5 + 2 * bm_l b + 2 * i.
Definition bm_TRLWEB (b : bmgr) (i : Z) : Z := bm_t b + 6 + 2 * bm_l b + 2 * i.
Definition bm_tsize (l : Z) : Z := 16 + 2 * l.
Definition bm_fsize (l : Z) : Z := 4 + 2 * l.
Definition bm_InUse (b : bmgr) : Z := bm_i b.
Definition bm_TRLWEInUse (b : bmgr) : Z := bm_i b + 1.

(** poly/buffer_manager.go:63-114 NewBufferManager *)
Definition NewBufferManager (m : M) (n : Z) : res (bmgr * M) :=
  let l := g_L pr in
  p <- NewPoly n ;;
  f <- NewFourierPoly R n ;;
  (if l <? 0 then Panic PMake else Ok tt) ;;;
  let '(t, m) := alloc_ts m (bm_tsize l) p in
  let '(fl, m) := alloc_fs m (bm_fsize l) f in
  let '(il, m) := alloc_is m 2 0 in
  Ok ({| bm_n := n; bm_l := l; bm_t := t; bm_f := fl; bm_i := il |}, m).

(** poly/buffer_manager.go:117-125 GetRotationBuffer *)
Definition BM_GetRotationBuffer (m : M) (b : bmgr) : res (Z * M) :=
  let m := if 4 <=? im m (bm_InUse b) then iset m (bm_InUse b) 0 else m in
  let i := im m (bm_InUse b) in
  if i <? 0 then Panic PIndex
  else Ok (bm_Pool b i, iset m (bm_InUse b) (i + 1)).

(** poly/buffer_manager.go:128-135 GetTRLWEBuffer *)
Definition BM_GetTRLWEBuffer (m : M) (b : bmgr) : res (Z * Z * M) :=
  let m := if 4 <=? im m (bm_TRLWEInUse b) then iset m (bm_TRLWEInUse b) 0 else m in
  let i := im m (bm_TRLWEInUse b) in
  if i <? 0 then Panic PIndex
  else Ok (bm_TRLWEA b i, bm_TRLWEB b i, iset m (bm_TRLWEInUse b) (i + 1)).

(** poly/buffer_manager.go:138-141 Reset *)
Definition BM_Reset (m : M) (b : bmgr) : M := iset (iset m (bm_InUse b) 0) (bm_TRLWEInUse b) 0.

(** poly/buffer_manager.go:144-173 MemoryUsage; the wrap of int is left out *)
Definition BM_MemoryUsage (b : bmgr) : Z :=
  let n := bm_n b in let l := g_L pr in
  let polySize := n * 4 in let fourierSize := n * 8 * 2 in
  polySize + fourierSize + (polySize + fourierSize) * l * 2 + fourierSize * 3 +
  polySize * 4 + polySize * 2 * 4 + polySize * 3.

(** ** evaluator.BufferPool with all its buffers *)

(** evaluator/buffers.go:22-73: the polynomial buffers, then from [fp_t] five
    TRLWE buffers (A, B), ExtractedLWE, KeySwitched, GatePrep, the four
    results; from [fp_f] FourierA, FourierB; [fp_i] is the index.  [fp_block]
    is the location of the first of the block rotation buffers, if any: in
    order AccFourierDecomposed, BlockFourierAcc, FourierAcc, FourierMono. *)
Record fpool : Type := { fp_poly : bmgr; fp_t : Z; fp_f : Z; fp_i : Z; fp_block : option Z }.

(** params/params.go:679-681 UseBlockBlindRotation *)
Definition UseBlockBlindRotation : bool := 1 <? g_BlockSize pr.

(** evaluator/buffers.go:149-195 newBlockRotationBuffers: every buffer is a
    Fourier polynomial of degree n *)
Definition block_count : Z :=
  let blockSize := if g_BlockSize pr <? 1 then 1 else g_BlockSize pr in
  let glweRank := 1 in
  blockSize * (glweRank + 1) * g_L pr + blockSize * 2 + blockSize * 2 + 1.
Definition newBlockRotationBuffers (m : M) (n : Z) : res (Z * M) :=
  (if g_L pr <? 0 then Panic PMake else Ok tt) ;;;
  f <- NewFourierPoly R n ;;
  Ok (alloc_fs m block_count f).

(** evaluator/buffers.go:109-146 NewBufferPool *)
Definition NewBufferPool_all (m : M) (n : Z) : res (fpool * M) :=
  '(b, m) <- NewBufferManager m n ;;
  f <- NewFourierPoly R n ;;
  t <- NewTRLWELv1 pr ;;
  c1 <- NewTLWE (lv1_N pr) ;;
  c0 <- NewTLWE (lv0_N pr) ;;
  let '(fl, m) := alloc_fs m 2 f in
  let '(tl, m) := alloc_ts m 10 (tA t) in
  let '(_, m) := alloc_ts m 1 c1 in
  let '(_, m) := alloc_ts m 6 c0 in
  let '(il, m) := alloc_is m 1 0 in
  if UseBlockBlindRotation then
    '(k, m) <- newBlockRotationBuffers m n ;;
    Ok ({| fp_poly := b; fp_t := tl; fp_f := fl; fp_i := il; fp_block := Some k |}, m)
  else Ok ({| fp_poly := b; fp_t := tl; fp_f := fl; fp_i := il; fp_block := None |}, m).

(** evaluator/buffers.go:208-211 Reset *)
Definition FP_Reset (m : M) (b : fpool) : M := BM_Reset (iset m (fp_i b) 0) (fp_poly b).

(** evaluator/buffers.go:214-241 MemoryUsage *)
Definition FP_MemoryUsage (b : fpool) : Z :=
  let n := g_N pr in
  let polyMem := BM_MemoryUsage (fp_poly b) in
  let trlweSize := 2 * n * 4 in
  let tlweSize := (n + 1) * 4 in
  let ciphertextMem := trlweSize * 5 + tlweSize * 5 + 2 * n * 8 in
  let blockMem :=
    match fp_block b with
    | None => 0
    | Some _ =>
      let blockSize := g_BlockSize pr in let level := g_L pr in let glweRank := 1 in
      blockSize * (glweRank + 1) * level * n * 8 * 2 + blockSize * 2 * n * 8 * 2 + n * 8 * 2
    end in
  polyMem + ciphertextMem + blockMem.

(** ** the decomposition buffers of poly.Evaluator by index *)

(** poly/buffer_methods.go:83-88 GetDecompFFTBuffer *)
Definition GetDecompFFTBuffer (e : peval) (i : Z) : res Z :=
  if maxDecompLevels <=? i then Panic (PMsg "decomposition FFT buffer index out of range")
  else if i <? 0 then Panic PIndex else Ok (pe_decompFFT e i).

(** poly/buffer_methods.go:99-104 CopyToDecompBuffer *)
Definition CopyToDecompBuffer (m : M) (e : peval) (src bufferIdx : Z) : res M :=
  if maxDecompLevels <=? bufferIdx then Panic (PMsg "buffer index out of range")
  else if bufferIdx <? 0 then Panic PIndex else Ok (mcopy m (pe_decomp e bufferIdx) src).

(** poly/buffer_methods.go:16-31 ClearBuffer and 52-67 BufferToPolyAssign: the
    buffer a name stands for *)
Definition clear_name (e : peval) (name : string) : res Z :=
  if (name =? "fpAcc")%string then Ok (pe_fpAcc e)
  else if (name =? "fpBcc")%string then Ok (pe_fpBcc e)
  else if (name =? "fpDiff")%string then Ok (pe_f e + 6)
  else if (name =? "fpMul1")%string then Ok (pe_f e + 2)
  else if (name =? "fpMul2")%string then Ok (pe_f e + 3)
  else Panic (PMsg ("unknown buffer name: " ++ name)).
Definition to_poly_name (e : peval) (name : string) : res Z :=
  if (name =? "fpAcc")%string then Ok (pe_fpAcc e)
  else if (name =? "fpBcc")%string then Ok (pe_fpBcc e)
  else if (name =? "fpDiff")%string then Ok (pe_f e + 6)
  else Panic (PMsg ("unknown buffer name: " ++ name)).
End Buffers.

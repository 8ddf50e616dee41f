(** * Package evaluator (evaluator/*.go) *)
From Coq Require Import String.
From Verif Require Import GoBase GoMem F64 Utils Params Tlwe TlweMem Poly Trlwe Trgsw Lut.
Local Open Scope Z_scope.

(** evaluator/buffers.go:19-73 BufferPool, by addresses.  Torus buffers from
    [bp_t]: ExternalProduct.Result (A,B), CMUX.Temp (A,B), Accumulator1 (A,B),
    Accumulator2 (A,B), Rotated (A,B), ExtractedLWE, KeySwitched, GatePrep,
    ResultPool.Buffers[0..3].  Fourier buffers from [bp_f]:
    ExternalProduct.FourierA, FourierB.  Int at [bp_i]: ResultPool.Index.
    Left out: PolyBuffers (poly.BufferManager, only its indices are reset) and
    BlockRotation (allocated, never used by the code). *)
Record bpool : Type := { bp_t : Z; bp_f : Z; bp_i : Z }.

Definition bp_Result (b : bpool) : tref := {| rA := bp_t b; rB := bp_t b + 1 |}.
Definition bp_Temp (b : bpool) : tref := {| rA := bp_t b + 2; rB := bp_t b + 3 |}.
Definition bp_Acc1 (b : bpool) : tref := {| rA := bp_t b + 4; rB := bp_t b + 5 |}.
Definition bp_Acc2 (b : bpool) : tref := {| rA := bp_t b + 6; rB := bp_t b + 7 |}.
Definition bp_Rotated (b : bpool) : tref := {| rA := bp_t b + 8; rB := bp_t b + 9 |}.
Definition bp_ExtractedLWE (b : bpool) : Z := bp_t b + 10.
Definition bp_KeySwitched (b : bpool) : Z := bp_t b + 11.
Definition bp_GatePrep (b : bpool) : Z := bp_t b + 12.
Definition bp_Buffers (b : bpool) (i : Z) : Z := bp_t b + 13 + i.
Definition bp_FourierA (b : bpool) : Z := bp_f b.
Definition bp_FourierB (b : bpool) : Z := bp_f b + 1.
Definition bp_Index (b : bpool) : Z := bp_i b.

(** evaluator/evaluator.go:15-24 *)
Record evaluator : Type := { ev_pe : peval; ev_dec : decomposer; ev_bp : bpool }.

Section Ops.
Context (O : fops) (pr : pset).
Notation M := (mem (FP O)).

(** evaluator/buffers.go:109-146 NewBufferPool (the parts of [bpool]).
    poly.NewBufferManager(n) panics for a bad degree like NewFourierPoly. *)
Definition NewBufferPool (m : M) (n : Z) : res (bpool * M) :=
  f <- f_new O n ;;
  t <- NewTRLWELv1 pr ;;
  c1 <- NewTLWE (lv1_N pr) ;;
  c0 <- NewTLWE (lv0_N pr) ;;
  let '(fl, m) := alloc_fs m 2 f in
  let '(tl, m) := alloc_ts m 10 (tA t) in
  let '(_, m) := alloc_ts m 1 c1 in
  let '(_, m) := alloc_ts m 6 c0 in
  let '(il, m) := alloc_is m 1 0 in
  Ok ({| bp_t := tl; bp_f := fl; bp_i := il |}, m).

(** evaluator/evaluator.go:27-35 NewEvaluator *)
Definition NewEvaluator (m : M) (n : Z) : res (evaluator * M) :=
  let l := g_L pr in
  '(pe, m) <- NewPolyEvaluator O m n ;;
  '(d, m) <- NewDecomposer O m n (l * 2) ;;
  '(bp, m) <- NewBufferPool m n ;;
  Ok ({| ev_pe := pe; ev_dec := d; ev_bp := bp |}, m).

(** evaluator/evaluator.go:40-46 ShallowCopy:
    [len(e.Decomposer.GetPolyDecomposedBuffer(1))] is the length of a slice
    [:1], which is 1 *)
Definition ShallowCopy (m : M) (e : evaluator) : res (evaluator * M) :=
  '(pe, m) <- PolyEvaluator_ShallowCopy O m (ev_pe e) ;;
  GetPolyDecomposedBuffer (ev_dec e) 1 ;;;
  '(d, m) <- NewDecomposer O m (pe_deg (ev_pe e)) 1 ;;
  '(bp, m) <- NewBufferPool m (pe_deg (ev_pe e)) ;;
  Ok ({| ev_pe := pe; ev_dec := d; ev_bp := bp |}, m).

(** evaluator/evaluator.go:50-81 ExternalProductAssign *)
Definition ExternalProductAssign (m : M) (e : evaluator) (g : trgsw_fft O) (ctIn : tref) (offset : Z) (ctOut : tref)
    : res M :=
  let l := g_L pr in
  let bgbit := g_BGBIT pr in
  polyDecomposed <- GetPolyDecomposedBuffer (ev_dec e) (l * 2) ;;
  polyFourierDecomposed <- GetPolyFourierDecomposedBuffer (ev_dec e) (l * 2) ;;
  m <- DecomposePolyAssign m (rA ctIn) bgbit l offset polyDecomposed ;;
  m <- DecomposePolyAssign m (rB ctIn) bgbit l offset (polyDecomposed + l) ;;
  m <- for_range 0 (l * 2) (fun i m =>
         ToFourierPolyAssign O m (polyDecomposed + i) (polyFourierDecomposed + i)) m ;;
  m <- ClearBuffer O m (bp_FourierA (ev_bp e)) ;;
  m <- ClearBuffer O m (bp_FourierB (ev_bp e)) ;;
  m <- for_range 0 (l * 2) (fun i m =>
         row <- get g i ;;
         m <- MulAddFourierPolyAssign O m (polyFourierDecomposed + i) (fst row) (bp_FourierA (ev_bp e)) ;;
         MulAddFourierPolyAssign O m (polyFourierDecomposed + i) (snd row) (bp_FourierB (ev_bp e))) m ;;
  m <- ToPolyAssignUnsafe O m (bp_FourierA (ev_bp e)) (rA ctOut) ;;
  ToPolyAssignUnsafe O m (bp_FourierB (ev_bp e)) (rB ctOut).

(** evaluator/evaluator.go:85-106 CMuxAssign *)
Definition CMuxAssign (m : M) (e : evaluator) (cond : trgsw_fft O) (ct0 ct1 : tref) (offset : Z) (ctOut : tref)
    : res M :=
  let n := g_N pr in
  let Temp := bp_Temp (ev_bp e) in
  let Result := bp_Result (ev_bp e) in
  let m := mcopy m (rA ctOut) (rA ct0) in
  let m := mcopy m (rB ctOut) (rB ct0) in
  m <- for_range 0 n (fun i m =>
         m <- (x <- load m (rA ct1) i ;; y <- load m (rA ct0) i ;; store m (rA Temp) i (tsub x y)) ;;
         x <- load m (rB ct1) i ;; y <- load m (rB ct0) i ;; store m (rB Temp) i (tsub x y)) m ;;
  m <- ExternalProductAssign m e cond Temp offset Result ;;
  for_range 0 n (fun i m =>
    m <- (x <- load m (rA ctOut) i ;; y <- load m (rA Result) i ;; store m (rA ctOut) i (tadd x y)) ;;
    x <- load m (rB ctOut) i ;; y <- load m (rB Result) i ;; store m (rB ctOut) i (tadd x y)) m.

(** evaluator/evaluator.go:110-135 BlindRotateAssign *)
Definition BlindRotateAssign (m : M) (e : evaluator) (ctIn : Z) (testvec : tref) (bsk : list (trgsw_fft O))
    (offset : Z) (ctOut : tref) : res M :=
  let n := g_N pr in
  let nBit := g_NBIT pr in
  let Acc1 := bp_Acc1 (ev_bp e) in
  let Acc2 := bp_Acc2 (ev_bp e) in
  bT <- (b <- load m ctIn (lv0_N pr) ;; bTilda n nBit b) ;;
  m <- PolyMulWithXKInPlace m (rA testvec) bT (rA Acc1) ;;
  m <- PolyMulWithXKInPlace m (rB testvec) bT (rB Acc1) ;;
  m <- for_range 0 (lv0_N pr) (fun i m =>
         aT <- (a <- load m ctIn i ;; aTilda nBit a) ;;
         m <- PolyMulWithXKInPlace m (rA Acc1) aT (rA Acc2) ;;
         m <- PolyMulWithXKInPlace m (rB Acc1) aT (rB Acc2) ;;
         key <- get bsk i ;;
         CMuxAssign m e key Acc1 Acc2 offset Acc1) m ;;
  let m := mcopy m (rA ctOut) (rA Acc1) in
  Ok (mcopy m (rB ctOut) (rB Acc1)).

(** evaluator/evaluator.go:139-148 BootstrapAssign *)
Definition BootstrapAssign (m : M) (e : evaluator) (ctIn : Z) (testvec : tref) (bsk : list (trgsw_fft O))
    (ksk : list (list Z)) (offset : Z) (ctOut : Z) : res M :=
  m <- BlindRotateAssign m e ctIn testvec bsk offset (bp_Rotated (ev_bp e)) ;;
  m <- SampleExtractIndexAssign pr m (bp_Rotated (ev_bp e)) 0 (bp_ExtractedLWE (ev_bp e)) ;;
  IdentityKeySwitchingAssign pr m (bp_ExtractedLWE (ev_bp e)) ksk ctOut.

(** evaluator/buffers.go:200-204 GetNextResult *)
Definition GetNextResult (m : M) (b : bpool) : res (Z * M) :=
  let i := im m (bp_Index b) in
  if (i <? 0) || (4 <=? i) then Panic PIndex
  else Ok (bp_Buffers b i, iset m (bp_Index b) (Z.rem (i + 1) 4)).

(** evaluator/evaluator.go:152-157 Bootstrap *)
Definition Bootstrap (m : M) (e : evaluator) (ctIn : Z) (testvec : tref) (bsk : list (trgsw_fft O))
    (ksk : list (list Z)) (offset : Z) : res (Z * M) :=
  '(result, m) <- GetNextResult m (ev_bp e) ;;
  m <- BootstrapAssign m e ctIn testvec bsk ksk offset result ;;
  Ok (result, m).

(** evaluator/evaluator.go:160-162 ResetBuffers, evaluator/buffers.go:208-211
    Reset (the result index; the BufferManager is left out) *)
Definition ResetBuffers (m : M) (e : evaluator) : M := iset m (bp_Index (ev_bp e)) 0.

(** evaluator/programmable_bootstrap.go:93-115 BootstrapLUTAssign; [lut] is
    the location of the table's polynomials *)
Definition BootstrapLUTAssign (m : M) (e : evaluator) (ctIn : Z) (lut : tref) (bsk : list (trgsw_fft O))
    (ksk : list (list Z)) (offset : Z) (ctOut : Z) : res M :=
  m <- BlindRotateAssign m e ctIn lut bsk offset (bp_Rotated (ev_bp e)) ;;
  m <- SampleExtractIndexAssign pr m (bp_Rotated (ev_bp e)) 0 (bp_ExtractedLWE (ev_bp e)) ;;
  IdentityKeySwitchingAssign pr m (bp_ExtractedLWE (ev_bp e)) ksk ctOut.

(** evaluator/programmable_bootstrap.go:54-69 BootstrapLUT *)
Definition BootstrapLUT (m : M) (e : evaluator) (ctIn : Z) (lut : tref) (bsk : list (trgsw_fft O))
    (ksk : list (list Z)) (offset : Z) : res (Z * M) :=
  '(result, m) <- GetNextResult m (ev_bp e) ;;
  m <- BootstrapLUTAssign m e ctIn lut bsk ksk offset result ;;
  '(copiedResult, m) <- new_ct m (lv0_N pr) ;;
  let m := mcopy m copiedResult result in
  b <- load m result (lv0_N pr) ;;
  m <- store m copiedResult (lv0_N pr) b ;;
  Ok (copiedResult, m).

(** evaluator/programmable_bootstrap.go:71-81 BootstrapLUTTemp *)
Definition BootstrapLUTTemp (m : M) (e : evaluator) (ctIn : Z) (lut : tref) (bsk : list (trgsw_fft O))
    (ksk : list (list Z)) (offset : Z) : res (Z * M) :=
  '(result, m) <- GetNextResult m (ev_bp e) ;;
  m <- BootstrapLUTAssign m e ctIn lut bsk ksk offset result ;;
  Ok (result, m).

(** a lookup table generated by [NewGenerator(mm).GenLookUpTable(f)], placed
    in fresh buffers *)
Definition new_lut (m : M) (f : Z -> Z) (messageModulus : Z) : res (tref * M) :=
  t <- GenLookUpTable pr (NewGenerator pr messageModulus) f ;;
  let '(a, m) := alloc m (tA t) in
  let '(b, m) := alloc m (tB t) in
  Ok ({| rA := a; rB := b |}, m).

(** evaluator/programmable_bootstrap.go:16-30 BootstrapFunc *)
Definition BootstrapFunc (m : M) (e : evaluator) (ctIn : Z) (f : Z -> Z) (messageModulus : Z)
    (bsk : list (trgsw_fft O)) (ksk : list (list Z)) (offset : Z) : res (Z * M) :=
  '(lut, m) <- new_lut m f messageModulus ;;
  BootstrapLUT m e ctIn lut bsk ksk offset.

(** evaluator/programmable_bootstrap.go:33-48 BootstrapFuncAssign *)
Definition BootstrapFuncAssign (m : M) (e : evaluator) (ctIn : Z) (f : Z -> Z) (messageModulus : Z)
    (bsk : list (trgsw_fft O)) (ksk : list (list Z)) (offset : Z) (ctOut : Z) : res M :=
  '(lut, m) <- new_lut m f messageModulus ;;
  BootstrapLUTAssign m e ctIn lut bsk ksk offset ctOut.

End Ops.

(** ** evaluator/gates_helper.go *)

(** the shape of the four Prepare functions: [f] on the masks, [f] plus a
    constant on the last entry *)
Definition prepare (n : Z) (f : Z -> Z -> Z) (c : Z) (a b : list Z) : res (list Z) :=
  result <- NewTLWE n ;;
  result <- for_range 0 n (fun i result =>
    v <- (x <- get a i ;; y <- get b i ;; Ok (f x y)) ;; set result i v) result ;;
  v <- (x <- get a n ;; y <- get b n ;; Ok (tadd (f x y) c)) ;;
  set result n v.

(** the constants 0.25 and -0.25 *)
Definition f_quarter : f64 := flit 1 (-2).
Definition f_mquarter : f64 := flit (-1) (-2).

(** evaluator/gates_helper.go:10-21 PrepareNAND: [-(a+b)], + 1/8 *)
Definition PrepareNAND (n : Z) := prepare n (fun x y => tneg (tadd x y)) (F64ToTorus f_eighth).
(** evaluator/gates_helper.go:24-35 PrepareAND: [a+b], - 1/8 *)
Definition PrepareAND (n : Z) := prepare n tadd (F64ToTorus f_meighth).
(** evaluator/gates_helper.go:38-49 PrepareOR: [a+b], + 1/8 *)
Definition PrepareOR (n : Z) := prepare n tadd (F64ToTorus f_eighth).
(** evaluator/gates_helper.go:52-63 PrepareXOR: [a+2b], + 1/4 *)
Definition PrepareXOR (n : Z) := prepare n (fun x y => tadd x (tmul 2 y)) (F64ToTorus f_quarter).

(** * Package trgsw (trgsw/trgsw.go, trgsw/keyswitch.go) *)
From Coq Require Import String.
From Verif Require Import GoBase GoMem F64 Utils Params Tlwe Poly Trlwe.
Local Open Scope Z_scope.

(** trgsw/trgsw.go:15-17, 60-68: TRGSWLv1 is its rows, TRGSWLv1FFT the
    transforms of its rows *)
Definition trgsw_fft (O : fops) : Type := list (FP O * FP O).

(** trgsw/trgsw.go:20-29 NewTRGSWLv1 *)
Definition NewTRGSWLv1 (pr : pset) : res (list trlwe) :=
  t <- NewTRLWELv1 pr ;; make t (g_L pr * 2).

(** [1.0 / math.Pow(bg, float64(i+1))] (trgsw/trgsw.go:39-41) where
    [bg = 2^BGBIT]: powers of two are exact in binary64, so math.Pow is
    modelled as the exact power. *)
Definition gadget_f64 (bgbit i : Z) : f64 := fdiv (f_of_Z 1) (f_pow2 (bgbit * (i + 1))).

(** trgsw/trgsw.go:32-57 EncryptTorus; [rs i] is the randomness of row i.
    [bg := float64(BG)] is 2^BGBIT for every parameter set (theorem C02). *)
Definition TrgswEncryptTorus (O : fops) (degree : Z) (pr : pset) (t : list trlwe) (p : Z)
    (key : list Z) (rs : Z -> trlwe_rand) : res (list trlwe) :=
  let l := g_L pr in
  let n := g_N pr in
  pF64 <- make (f_of_Z 0) l ;;
  pF64 <- for_range 0 l (fun i pF64 => set pF64 i (gadget_f64 (g_BGBIT pr) i)) pF64 ;;
  pTorus <- F64ToTorusVec pF64 ;;
  plainZero <- make (f_of_Z 0) n ;;
  t <- for_range 0 (zlen t) (fun i t =>
         v <- (z <- NewTRLWELv1 pr ;; TrlweEncryptF64 O degree pr z plainZero key (rs i)) ;;
         set t i v) t ;;
  for_range 0 l (fun i t =>
    g <- get pTorus i ;;
    row <- get t i ;;
    a0 <- get (tA row) 0 ;;
    a <- set (tA row) 0 (tadd a0 (tmul p g)) ;;
    t <- set t i {| tA := a; tB := tB row |} ;;
    row <- get t (i + l) ;;
    b0 <- get (tB row) 0 ;;
    b <- set (tB row) 0 (tadd b0 (tmul p g)) ;;
    set t (i + l) {| tA := tA row; tB := b |}) t.

(** trgsw/trgsw.go:71-82 NewTRGSWLv1FFT; ToFourierPoly is
    poly/fourier_transform.go:11-15 *)
Definition ToFourierPoly (O : fops) (degree : Z) (p : list Z) : res (FP O) :=
  o <- f_new O degree ;; f_of_poly O p o.
Definition NewTRGSWLv1FFT (O : fops) (degree : Z) (g : list trlwe) : res (trgsw_fft O) :=
  arr <- make (f_nil O, f_nil O) (zlen g) ;;
  for_each g (fun i t arr =>
    v <- (a <- ToFourierPoly O degree (tA t) ;; b <- ToFourierPoly O degree (tB t) ;; Ok (a, b)) ;;
    set arr i v) arr.

(** trgsw/trgsw.go:85-97 NewTRGSWLv1FFTDummy *)
Definition NewTRGSWLv1FFTDummy (O : fops) (degree : Z) (pr : pset) : res (trgsw_fft O) :=
  arr <- make (f_nil O, f_nil O) (g_L pr * 2) ;;
  for_range 0 (zlen arr) (fun i arr =>
    v <- (a <- f_new O degree ;; b <- f_new O degree ;; Ok (a, b)) ;;
    set arr i v) arr.

Section Ops.
Context (O : fops) (pr : pset).
Notation M := (mem (FP O)).

(** trgsw/trgsw.go:137-169 decompositionInPlace *)
Definition decompositionInPlace (m : M) (trlweIn : tref) (offset : Z) (e : peval) : res M :=
  let l := g_L pr in
  let n := g_N pr in
  let bgbit := g_BGBIT pr in
  mask <- (s <- shl_int bgbit ;; Ok (w32 (s - 1))) ;;
  halfBG <- (s <- shl_int (bgbit - 1) ;; Ok (w32 s)) ;;
  m <- for_range 0 (l * 2) (fun i m =>
         buf <- GetDecompBuffer e i ;;
         for_range 0 n (fun j m => store m buf j 0) m) m ;;
  m <- for_range 0 n (fun j m =>
         tmp0 <- (x <- load m (rA trlweIn) j ;; Ok (tadd x offset)) ;;
         tmp1 <- (x <- load m (rB trlweIn) j ;; Ok (tadd x offset)) ;;
         m <- for_range 0 l (fun i m =>
                buf <- GetDecompBuffer e i ;;
                store m buf j (dec_digit tmp0 i bgbit mask halfBG)) m ;;
         for_range 0 l (fun i m =>
                buf <- GetDecompBuffer e (i + l) ;;
                store m buf j (dec_digit tmp1 i bgbit mask halfBG)) m) m ;;
  for_range 0 (l * 2) (fun i m =>
    buf <- GetDecompBuffer e i ;;
    ToFourierPolyInBuffer O m e buf i) m.

(** trgsw/trgsw.go:108-134 ExternalProductWithFFT *)
Definition ExternalProductWithFFT (m : M) (g : trgsw_fft O) (trlweIn : tref) (offset : Z) (e : peval)
    : res (tref * M) :=
  let l := g_L pr in
  m <- decompositionInPlace m trlweIn offset e ;;
  m <- ClearBuffer O m (pe_fpAcc e) ;;
  m <- ClearBuffer O m (pe_fpBcc e) ;;
  m <- for_range 0 (l * 2) (fun i m =>
         row <- get g i ;;
         m <- MulAddFourierPolyAssignBuffered O m e i (fst row) (pe_fpAcc e) ;;
         MulAddFourierPolyAssignBuffered O m e i (snd row) (pe_fpBcc e)) m ;;
  '(resultA, resultB, m) <- GetTRLWEBuffer m e ;;
  m <- ToPolyAssignUnsafe O m (pe_fpAcc e) resultA ;;
  m <- ToPolyAssignUnsafe O m (pe_fpBcc e) resultB ;;
  Ok ({| rA := resultA; rB := resultB |}, m).

(** trgsw/trgsw.go:173-194 CMUX *)
Definition CMUX (m : M) (in1 in2 : tref) (cond : trgsw_fft O) (offset : Z) (e : peval) : res (tref * M) :=
  let n := g_N pr in
  '(tmpA, tmpB, m) <- GetTRLWEBuffer m e ;;
  m <- for_range 0 n (fun i m =>
         m <- (x <- load m (rA in2) i ;; y <- load m (rA in1) i ;; store m tmpA i (tsub x y)) ;;
         x <- load m (rB in2) i ;; y <- load m (rB in1) i ;; store m tmpB i (tsub x y)) m ;;
  '(tmp2, m) <- ExternalProductWithFFT m cond {| rA := tmpA; rB := tmpB |} offset e ;;
  m <- for_range 0 n (fun i m =>
         m <- (x <- load m (rA tmp2) i ;; y <- load m (rA in1) i ;; store m (rA tmp2) i (tadd x y)) ;;
         x <- load m (rB tmp2) i ;; y <- load m (rB in1) i ;; store m (rB tmp2) i (tadd x y)) m ;;
  Ok (tmp2, m).

(** The rounded rotation amounts, trgsw/trgsw.go:204 and 213 and
    evaluator/evaluator.go:116 and 122:
    [2*n - ((int(b) + (1 << (31-nBit-1))) >> (32-nBit-1))] in int, and
    [int((a + (1 << (31-nBit-1))) >> (32-nBit-1))] in uint32. *)
Definition bTilda (n nBit b : Z) : res Z :=
  s <- shl_int (31 - nBit - 1) ;;
  if 32 - nBit - 1 <? 0 then Panic PShift
  else Ok (2 * n - Z.shiftr (b + s) (32 - nBit - 1)).
Definition aTilda (nBit a : Z) : res Z :=
  s <- shl32 1 (31 - nBit - 1) ;;
  shr32 (tadd a s) (32 - nBit - 1).

(** trgsw/trgsw.go:197-224 BlindRotate; [src] is the location of the LWE
    ciphertext.  Lines 198-207: the first rotation *)
Definition br_first (m : M) (src : Z) (testvec : tref) (e : peval) : res (tref * M) :=
  let n := g_N pr in
  let nBit := g_NBIT pr in
  let m := ResetRotationPool m e in
  bT <- (b <- load m src (lv0_N pr) ;; bTilda n nBit b) ;;
  '(resultA, m) <- PolyMulWithXK m e (rA testvec) bT ;;
  '(resultB, m) <- PolyMulWithXK m e (rB testvec) bT ;;
  Ok ({| rA := resultA; rB := resultB |}, m).

(** lines 209-221: iteration [i] of the loop *)
Definition br_next (src : Z) (bsk : list (trgsw_fft O)) (offset : Z) (e : peval) (i : Z) (s : tref * M) : res (tref * M) :=
  let '(result, m) := s in
  let nBit := g_NBIT pr in
  aT <- (a <- load m src i ;; aTilda nBit a) ;;
  '(res2A, m) <- PolyMulWithXK m e (rA result) aT ;;
  '(res2B, m) <- PolyMulWithXK m e (rB result) aT ;;
  key <- get bsk i ;;
  CMUX m result {| rA := res2A; rB := res2B |} key offset e.

Definition BlindRotate (m : M) (src : Z) (testvec : tref) (bsk : list (trgsw_fft O)) (offset : Z) (e : peval)
    : res (tref * M) :=
  s <- br_first m src testvec e ;;
  for_range 0 (lv0_N pr) (br_next src bsk offset e) s.

End Ops.

(** ** Key switching *)

(** trgsw/trgsw.go:285-311 IdentityKeySwitching *)
Definition ks_digit (aBar j basebit : Z) : res Z :=
  s <- shr32 aBar (32 - (j + 1) * basebit) ;;
  mk <- shl_int basebit ;;
  Ok (Z.land s (w32 (mk - 1))).

Definition IdentityKeySwitching (pr : pset) (src : list Z) (ksk : list (list Z)) : res (list Z) :=
  let n := g_N pr in
  let basebit := g_BASEBIT pr in
  base <- shl_int basebit ;;
  let iksT := g_IKS_T pr in
  result <- NewTLWE (lv0_N pr) ;;
  b <- get src (zlen src - 1) ;;
  result <- set result (lv0_N pr) b ;;
  precOffset <- (s <- shl_int (32 - (1 + basebit * iksT)) ;; Ok (w32 s)) ;;
  for_range 0 n (fun i result =>
    aBar <- (x <- get src i ;; Ok (tadd x precOffset)) ;;
    for_range 0 iksT (fun j result =>
      k <- ks_digit aBar j basebit ;;
      if k =? 0 then Ok result
      else
        let idx := base * iksT * i + base * j + k in
        for_range 0 (zlen result) (fun x result =>
          v <- (r <- get result x ;; row <- get ksk idx ;; q <- get row x ;; Ok (tsub r q)) ;;
          set result x v) result) result) result.

(** trgsw/keyswitch.go:10-37 IdentityKeySwitchingAssign on locations *)
Definition IdentityKeySwitchingAssign {F} (pr : pset) (m : mem F) (src : Z) (ksk : list (list Z)) (output : Z)
    : res (mem F) :=
  let n := g_N pr in
  let basebit := g_BASEBIT pr in
  base <- shl_int basebit ;;
  let iksT := g_IKS_T pr in
  m <- for_range 0 (zlen (tm m output)) (fun i m => store m output i 0) m ;;
  b <- load m src (zlen (tm m src) - 1) ;;
  m <- store m output (lv0_N pr) b ;;
  precOffset <- (s <- shl_int (32 - (1 + basebit * iksT)) ;; Ok (w32 s)) ;;
  for_range 0 n (fun i m =>
    aBar <- (x <- load m src i ;; Ok (tadd x precOffset)) ;;
    for_range 0 iksT (fun j m =>
      k <- ks_digit aBar j basebit ;;
      if k =? 0 then Ok m
      else
        let idx := base * iksT * i + base * j + k in
        for_range 0 (zlen (tm m output)) (fun x m =>
          v <- (r <- load m output x ;; row <- get ksk idx ;; q <- get row x ;; Ok (tsub r q)) ;;
          store m output x v) m) m) m.

(** * Package trlwe (trlwe/trlwe.go, trlwe/trlwe_ops.go)

    A TRLWELv1 is the pair of its slices A and B. *)
From Coq Require Import String.
From Verif Require Import GoBase GoMem F64 Utils Params Tlwe Poly.
Local Open Scope Z_scope.

Record trlwe : Type := { tA : list Z; tB : list Z }.
(** a TRLWELv1 held by pointer: the locations of A and B *)
Record tref : Type := { rA : Z; rB : Z }.

(** Randomness of one TRLWE encryption: masks and Gaussian samples *)
Record trlwe_rand : Type := { tr_mask : Z -> Z; tr_noise : Z -> f64 }.

(** trlwe/trlwe.go:19-25 NewTRLWELv1 *)
Definition NewTRLWELv1 (pr : pset) : res trlwe :=
  a <- make 0 (trlwe_N pr) ;; b <- make 0 (trlwe_N pr) ;; Ok {| tA := a; tB := b |}.

(** trlwe/trlwe.go:28-50 EncryptF64; [degree] is the evaluator's degree *)
Definition TrlweEncryptF64 (O : fops) (degree : Z) (pr : pset) (t : trlwe) (p : list f64)
    (key : list Z) (r : trlwe_rand) : res trlwe :=
  let n := trlwe_N pr in
  a <- for_range 0 n (fun i a => set a i (w32 (tr_mask r i))) (tA t) ;;
  b <- GaussianF64Vec p (tr_noise r) ;;
  polyRes <- MulPoly O degree a key ;;
  b <- for_range 0 n (fun i b =>
         v <- (x <- get b i ;; y <- get polyRes i ;; Ok (tadd x y)) ;; set b i v) b ;;
  Ok {| tA := a; tB := b |}.

(** trlwe/trlwe.go:53-63 EncryptBool *)
Definition TrlweEncryptBool (O : fops) (degree : Z) (pr : pset) (t : trlwe) (pBool : list bool)
    (key : list Z) (r : trlwe_rand) : res trlwe :=
  pF64 <- make (f_of_Z 0) (zlen pBool) ;;
  pF64 <- for_each pBool (fun i b pF64 => set pF64 i (if b then f_eighth else f_meighth)) pF64 ;;
  TrlweEncryptF64 O degree pr t pF64 key r.

(** trlwe/trlwe.go:66-81 DecryptBool *)
Definition TrlweDecryptBool (O : fops) (degree : Z) (t : trlwe) (key : list Z) : res (list bool) :=
  let n := zlen (tA t) in
  result <- make false n ;;
  polyRes <- MulPoly O degree (tA t) key ;;
  for_range 0 n (fun i result =>
    v <- (x <- get (tB t) i ;; y <- get polyRes i ;; Ok (0 <=? int32 (tsub x y))) ;;
    set result i v) result.

(** the body of the loop [for i := 0; i < n; i++] of the three extractions *)
Definition extract_coeff (A : list Z) (n k i : Z) : res Z :=
  if i <=? k then get A (k - i) else (x <- get A (n + k - i) ;; Ok (tnot x)).

(** trlwe/trlwe.go:114-128 SampleExtractIndex *)
Definition SampleExtractIndex (pr : pset) (t : trlwe) (k : Z) : res (list Z) :=
  let n := trlwe_N pr in
  result <- NewTLWE (lv1_N pr) ;;
  result <- for_range 0 n (fun i result => v <- extract_coeff (tA t) n k i ;; set result i v) result ;;
  b <- get (tB t) k ;;
  SetB (lv1_N pr) result b.

(** trlwe/trlwe.go:133-154 SampleExtractIndex2 *)
Definition SampleExtractIndex2 (pr : pset) (t : trlwe) (k : Z) : res (list Z) :=
  let n := lv0_N pr in
  let trlweN := zlen (tA t) in
  result <- NewTLWE n ;;
  if negb (trlweN =? n) then
    Panic (PMsg "SampleExtractIndex2: TRLWE dimension mismatch - use proper key switching")
  else
    result <- for_range 0 n (fun i result => v <- extract_coeff (tA t) n k i ;; set result i v) result ;;
    b <- get (tB t) k ;;
    SetB n result b.

(** trlwe/trlwe_ops.go:10-21 SampleExtractIndexAssign on locations *)
Definition SampleExtractIndexAssign {F} (pr : pset) (m : mem F) (t : tref) (k output : Z) : res (mem F) :=
  let n := trlwe_N pr in
  m <- for_range 0 n (fun i m =>
         v <- extract_coeff (tm m (rA t)) n k i ;; store m output i v) m ;;
  b <- load m (rB t) k ;;
  store m output (lv1_N pr) b.

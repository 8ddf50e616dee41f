(** * Programmable bootstraps as programs of memory accesses

    Continues Conc.v with the operations of
    evaluator/programmable_bootstrap.go and the linear operations of package
    tlwe.  ConcLutFacts.v proves that a program run alone is the function of
    Evaluator.v or TlweMem.v of the same name.  No proofs here. *)
From Verif Require Import GoBase GoMem F64 Utils Params Tlwe TlweMem Poly Trlwe Trgsw Lut Evaluator Gates Conc.
Import ListNotations.
Local Open Scope Z_scope.
Local Open Scope prog_scope.

Section Ops.
Context (O : fops) (pr : pset).

(** evaluator/buffers.go:200-204 GetNextResult *)
Definition p_GetNextResult (e : evaluator) : prog O Z :=
  ReadInt (bp_Index (ev_bp e)) (fun i =>
  if (i <? 0) || (4 <=? i) then Fail PIndex
  else SetInt (bp_Index (ev_bp e)) (Z.rem (i + 1) 4) (Ret (bp_Buffers (ev_bp e) i))).

(** evaluator/programmable_bootstrap.go:93-115 BootstrapLUTAssign *)
Definition p_BootstrapLUTAssign (e : evaluator) (ctIn : Z) (lut : tref) (bsk : list (trgsw_fft O))
    (ksk : list (list Z)) (offset : Z) (ctOut : Z) : prog O unit :=
  p_BlindRotateAssign O pr e ctIn lut bsk offset (bp_Rotated (ev_bp e)) ;;;
  p_SampleExtractIndexAssign O pr (bp_Rotated (ev_bp e)) 0 (bp_ExtractedLWE (ev_bp e)) ;;;
  p_IdentityKeySwitchingAssign O pr (bp_ExtractedLWE (ev_bp e)) ksk ctOut.

(** evaluator/programmable_bootstrap.go:54-69 BootstrapLUT *)
Definition p_BootstrapLUT (e : evaluator) (ctIn : Z) (lut : tref) (bsk : list (trgsw_fft O))
    (ksk : list (list Z)) (offset : Z) : prog O Z :=
  result <- p_GetNextResult e ;;
  p_BootstrapLUTAssign e ctIn lut bsk ksk offset result ;;;
  copiedResult <- p_new_ct O pr ;;
  CopyTo copiedResult result (
  b <- elem result (lv0_N pr) ;;
  Store copiedResult (lv0_N pr) b (Ret copiedResult)).

(** [NewGenerator(mm).GenLookUpTable(f)]: the table is filled before any other
    goroutine can have a reference to it *)
Definition p_new_lut (f : Z -> Z) (messageModulus : Z) : prog O tref :=
  t <- lift (GenLookUpTable pr (NewGenerator pr messageModulus) f) ;;
  New (tA t) (fun a => New (tB t) (fun b => Ret {| rA := a; rB := b |})).

(** evaluator/programmable_bootstrap.go:16-30 BootstrapFunc *)
Definition p_BootstrapFunc (e : evaluator) (ctIn : Z) (f : Z -> Z) (messageModulus : Z)
    (bsk : list (trgsw_fft O)) (ksk : list (list Z)) (offset : Z) : prog O Z :=
  lut <- p_new_lut f messageModulus ;; p_BootstrapLUT e ctIn lut bsk ksk offset.

(** evaluator/programmable_bootstrap.go:33-48 BootstrapFuncAssign *)
Definition p_BootstrapFuncAssign (e : evaluator) (ctIn : Z) (f : Z -> Z) (messageModulus : Z)
    (bsk : list (trgsw_fft O)) (ksk : list (list Z)) (offset : Z) (ctOut : Z) : prog O unit :=
  lut <- p_new_lut f messageModulus ;; p_BootstrapLUTAssign e ctIn lut bsk ksk offset ctOut.

(** tlwe/tlwe.go:85-89 AddAssign *)
Definition p_AddAssign (t other output : Z) : prog O unit :=
  Read output (fun o =>
  pfor 0 (zlen o) (fun i => x <- elem t i ;; y <- elem other i ;; Store output i (tadd x y) (Ret tt))).

(** tlwe/tlwe.go:48-82, 91-116: Add, Sub, Neg, AddMul and SubMul make a new
    ciphertext.  The arguments are read whole: this is coarser than the code,
    which reads them entry by entry *)
Definition p_new (v : res (list Z)) : prog O Z := v <- lift v ;; New v (fun x => Ret x).
Definition p_op1 (f : list Z -> res (list Z)) (a : Z) : prog O Z := Read a (fun x => p_new (f x)).
Definition p_op2 (f : list Z -> list Z -> res (list Z)) (a b : Z) : prog O Z := Read a (fun x => Read b (fun y => p_new (f x y))).
End Ops.

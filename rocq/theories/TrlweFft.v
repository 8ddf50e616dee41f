(** * The Fourier form of a TRLWE ciphertext (trlwe/trlwe.go:83-111)

    Nothing else in the repository uses it, so this file stands apart from
    Trlwe.v. *)
From Verif Require Import GoBase Params Poly Fft Trlwe Trgsw.
Local Open Scope Z_scope.

(** trlwe/trlwe.go:84-87 TRLWELv1FFT *)
Record trlwe_fft (F : Type) : Type := { fA : F; fB : F }.
Arguments fA {F} _.
Arguments fB {F} _.

(** trlwe/trlwe.go:90-102 NewTRLWELv1FFT; [degree] is the evaluator's degree *)
Definition NewTRLWELv1FFT (O : fops) (degree : Z) (t : trlwe) : res (trlwe_fft (FP O)) :=
  a <- ToFourierPoly O degree (tA t) ;; b <- ToFourierPoly O degree (tB t) ;; Ok {| fA := a; fB := b |}.

(** trlwe/trlwe.go:105-111 NewTRLWELv1FFTDummy *)
Definition NewTRLWELv1FFTDummy (R : arith) (pr : pset) : res (trlwe_fft (list (AN R))) :=
  a <- make (a_zero R) (2 * trlwe_N pr) ;; b <- make (a_zero R) (2 * trlwe_N pr) ;; Ok {| fA := a; fB := b |}.

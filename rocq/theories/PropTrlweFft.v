(** * Property C64: the Fourier form of a TRLWE ciphertext *)
From Coq Require Import Lia List.
From Verif Require Import GoBase GoFacts F64 Params Poly Fft Laws FftTabErr FftProps LevelSpec Trlwe TrlweFft TrlweFftProps TinyRun.
Import ListNotations.
Local Open Scope Z_scope.

(** NewTRLWELv1FFT returns slices of the evaluator's length without infinities
    or NaNs, from which ToPoly (through a buffer and an output of any contents)
    gives back the ciphertext, bit for bit. *)
Theorem C64_form : forall mc k, mc_ok mc -> 4 <= k <= 21 -> exists tw twi,
  fft_evaluator (f64_arith mc) (2 ^ k) = Ok (fft_ops (f64_arith mc) tw twi) /\
  forall t, poly_ok (2 ^ k) (tA t) -> poly_ok (2 ^ k) (tB t) -> exists u,
    NewTRLWELv1FFT (fft_ops (f64_arith mc) tw twi) (2 ^ k) t = Ok u /\
    zlen (fA u) = 2 ^ k /\ zlen (fB u) = 2 ^ k /\ all_finite (fA u) /\ all_finite (fB u) /\
    forall buf q, zlen buf = 2 ^ k -> zlen q = 2 ^ k -> exists b1 b2,
      toPolyCopy (f64_arith mc) twi buf (fA u) q = Ok (b1, tA t) /\ toPolyCopy (f64_arith mc) twi buf (fB u) q = Ok (b2, tB t).
Proof. exact trlwe_form. Qed.
Print Assumptions C64_form.

(** NewTRLWELv1FFTDummy returns slices twice as long as the evaluator's Fourier
    polynomials.  Every operation that writes to one or transforms it in place
    panics.  As an operand it behaves like NewFourierPoly's zero polynomial. *)
Theorem C64_dummy_refuted : forall (R : arith) k pr, 4 <= k -> trlwe_N pr = 2 ^ k -> exists tw twi D zero,
  fft_evaluator R (2 ^ k) = Ok (fft_ops R tw twi) /\
  NewTRLWELv1FFTDummy R pr = Ok {| fA := D; fB := D |} /\ zlen D = 2 * 2 ^ k /\
  NewFourierPoly R (2 ^ k) = Ok zero /\ zlen zero = 2 ^ k /\
  (forall p q x y c, zlen x = 2 ^ k -> zlen y = 2 ^ k ->
     panics (toFourier R tw p D) /\ panics (toPoly R twi D q) /\ panics (toPolyAdd R twi D q) /\ panics (toPolySub R twi D q) /\
     panics (addCmplxAssign R x y D) /\ panics (subCmplxAssign R x y D) /\
     panics (floatMulCmplxAssign R x c D) /\ panics (floatMulAddCmplxAssign R x c D) /\
     panics (elementWiseMulCmplxAssign R x y D) /\ panics (elementWiseMulAddCmplxAssign R x y D) /\ panics (elementWiseMulSubCmplxAssign R x y D)) /\
  (forall q x z c, zlen x = 2 ^ k -> zlen z = 2 ^ k ->
     toPolyCopy R twi x D q = toPolyCopy R twi x zero q /\
     addCmplxAssign R x D z = addCmplxAssign R x zero z /\ subCmplxAssign R x D z = subCmplxAssign R x zero z /\
     floatMulCmplxAssign R D c z = floatMulCmplxAssign R zero c z /\ floatMulAddCmplxAssign R D c z = floatMulAddCmplxAssign R zero c z /\
     elementWiseMulCmplxAssign R x D z = elementWiseMulCmplxAssign R x zero z /\
     elementWiseMulAddCmplxAssign R x D z = elementWiseMulAddCmplxAssign R x zero z /\
     elementWiseMulSubCmplxAssign R x D z = elementWiseMulSubCmplxAssign R x zero z).
Proof. exact trlwe_dummy. Qed.
Print Assumptions C64_dummy_refuted.

(** Every level has such a ring size *)
Example C64_levels : forall level, In level [Security80Bit; Security110Bit; Security128Bit; SecurityUint1; SecurityUint2; SecurityUint3;
    SecurityUint4; SecurityUint5; SecurityUint6; SecurityUint7; SecurityUint8] ->
  exists k, In k [9; 10; 11] /\ trlwe_N (get_params level) = 2 ^ k.
Proof.
  intros level H. repeat (destruct H as [<-|H]; [first [exists 9; split; [cbn; tauto|vm_compute; reflexivity]
    |exists 10; split; [cbn; tauto|vm_compute; reflexivity]|exists 11; split; [cbn; tauto|vm_compute; reflexivity]]|]). destruct H.
Qed.

(** A run in binary64: a ciphertext goes to the Fourier domain and back *)
Definition ex_t : trlwe := {| tA := map (fun i => (Z.of_nat i * 2654435761 + 12345) mod two32) (seq 0 16);
  tB := map (fun i => (Z.of_nat i * 40503 + 4294967290) mod two32) (seq 0 16) |}.
Example C64_run : ('(tw, twi) <- genTwiddleFactors (f64_arith (unfused taylor_cis)) 8 ;;
  u <- NewTRLWELv1FFT (fft_ops (f64_arith (unfused taylor_cis)) tw twi) 16 ex_t ;;
  '(buf, a) <- toPolyCopy (f64_arith (unfused taylor_cis)) twi (repeat (f_of_Z 7) 16) (fA u) (repeat 9 16) ;;
  '(_, b) <- toPolyCopy (f64_arith (unfused taylor_cis)) twi buf (fB u) a ;;
  Ok (a, b)) = Ok (tA ex_t, tB ex_t).
Proof. vm_compute. reflexivity. Qed.

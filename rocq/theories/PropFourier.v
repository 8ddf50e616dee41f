(** * Property C49: programs over the polynomial API

    A program is any list of calls ([call], FourierApi.v) on variables it
    creates itself, with any aliasing of arguments and results.  [mean] and
    [agrees] (FourierSpec.v) say what it stands for, without a Fourier
    transform. *)
From Coq Require Import Lia ZArith Reals.
From Flocq Require Import Core BinarySingleNaN.
From Verif Require Import GoBase GoFacts GoMem F64 Spec Poly Fft FftReal FftTabErr FftProps FourierApi FourierSpec FourierReal FourierF64 FourierSlices TinyRun.
Import ListNotations.
Local Open Scope Z_scope.

(** with exact complex arithmetic, every program *)
Theorem C49_exact : forall k (m0 : mem (list R)), 4 <= k -> exists tw twi e m,
  genTwiddleFactors real_arith (2 ^ k / 2) = Ok (tw, twi) /\
  NewPolyEvaluator (fft_ops real_arith tw twi) m0 (2 ^ k) = Ok (e, m) /\
  forall prog V, mean (2 ^ k) prog ([], []) = Ok V ->
    exists w, exec real_arith tw twi e prog (m, [], []) = Ok w /\ agrees (2 ^ k) V w.
Proof. exact api_exact. Qed.
Print Assumptions C49_exact.

(** in float64, every program within the error budget *)
Theorem C49_float64 : forall mc k (m0 : mem (list f64)), mc_ok mc -> 4 <= k <= 51 -> exists tw twi e m,
  genTwiddleFactors (f64_arith mc) (2 ^ k / 2) = Ok (tw, twi) /\
  NewPolyEvaluator (fft_ops (f64_arith mc) tw twi) m0 (2 ^ k) = Ok (e, m) /\
  forall prog V, mean (2 ^ k) prog ([], []) = Ok V -> affordable k prog = true ->
    exists w, exec (f64_arith mc) tw twi e prog (m, [], []) = Ok w /\ agrees (2 ^ k) V w.
Proof. exact api_f64. Qed.
Print Assumptions C49_float64.

(** whatever the arithmetic does (infinities and NaN included), no call panics *)
Theorem C49_returns : forall (R : arith) k (m0 : mem (list (AN R))), 4 <= k -> exists tw twi e m,
  genTwiddleFactors R (2 ^ k / 2) = Ok (tw, twi) /\
  NewPolyEvaluator (fft_ops R tw twi) m0 (2 ^ k) = Ok (e, m) /\
  forall prog V, mean (2 ^ k) prog ([], []) = Ok V -> exists w, exec R tw twi e prog (m, [], []) = Ok w.
Proof. exact api_returns_all. Qed.
Print Assumptions C49_returns.

(** the buffer forms, whichever of the buffers are the same, compute exactly
    what the slice forms do (those that the ciphertext operations use) *)
Theorem C49_slices : forall (R : arith) k, 4 <= k -> forall (m : mem (list (AN R))) x y o c,
  zlen (fm m x) = 2 ^ k -> zlen (fm m y) = 2 ^ k -> zlen (fm m o) = 2 ^ k ->
  computes (AddFourierPolyAssign R x y o) o m (addCmplxAssign R (fm m x) (fm m y) (fm m o)) /\
  computes (SubFourierPolyAssign R x y o) o m (subCmplxAssign R (fm m x) (fm m y) (fm m o)) /\
  computes (MulFourierPolyAssign R x y o) o m (elementWiseMulCmplxAssign R (fm m x) (fm m y) (fm m o)) /\
  computes (MulAddFourierPolyAssign R x y o) o m (elementWiseMulAddCmplxAssign R (fm m x) (fm m y) (fm m o)) /\
  computes (MulSubFourierPolyAssign R x y o) o m (elementWiseMulSubCmplxAssign R (fm m x) (fm m y) (fm m o)) /\
  computes (FloatMulFourierPolyAssign R x c o) o m (floatMulCmplxAssign R (fm m x) c (fm m o)) /\
  computes (FloatMulAddFourierPolyAssign R x c o) o m (floatMulAddCmplxAssign R (fm m x) c (fm m o)).
Proof. exact slices. Qed.
Print Assumptions C49_slices.

(** ** Examples *)

(** (7 X^1023 - 5) and (X^2 + 3): their product computed in Fourier form, in
    place, tripled, added to itself, read back, accumulated, and multiplied
    directly *)
Definition demo : list call :=
  [NewP; Write 0 1023 7; Write 0 0 (two32 - 5); NewP; Write 1 2 1; Write 1 0 3;
   ToF 0; ToF 1; MulAssign 0 1 0; FloatMul 0 3 1; AddAssign 0 1 0; ToP 0;
   ToFAssign 1 1; MulAddAssign 1 1 0; ClearF 1; SubAssign 1 0 1; MulPAdd 0 1 2; ToPSub 1 2].
Definition coeff (v : res values) (j i : Z) : option Z :=
  match v with Ok (_, P) => match get P j with Ok (Some p) => Some (p i) | _ => None end | Panic _ => None end.
(** C49_float64 applies to it at degree 1024 *)
Example demo_affordable : affordable 10 demo = true.
Proof. vm_compute. reflexivity. Qed.
Example demo_means : let v := mean 1024 (firstn 12 demo) ([], []) in
  map (coeff v 2) [0; 1; 2; 1022; 1023] = [Some (two32 - 60); Some (two32 - 28); Some (two32 - 20); Some 0; Some 84].
Proof. vm_compute. reflexivity. Qed.
Example demo_ends : let v := mean 1024 demo ([], []) in
  exists V, v = Ok V /\ zlen (fst V) = 2 /\ coeff v 2 0 <> None.
Proof. eexists. split; [reflexivity|]. split; [reflexivity|]. vm_compute. discriminate. Qed.
(** the product of any polynomial with a binary one is within the budget up to degree 2048 *)
Example key_product_affordable : affordable 11 [NewP; Write 0 5 two31; NewP; Write 1 7 1; MulP 0 1; MulPSub 2 1 0] = true.
Proof. vm_compute. reflexivity. Qed.
(** two full-size torus polynomials are not *)
Example large_product_not_affordable : affordable 10 [NewP; Write 0 5 two31; MulP 0 0] = false.
Proof. vm_compute. reflexivity. Qed.
(** a concrete machine meets [mc_ok] *)
Example cis_meets : mc_ok mc0.
Proof. exact mc0_ok. Qed.
(** C49_slices with the output also an input: 16 numbers from each other's squares *)
Example slices_case : let R := f64_arith (unfused taylor_cis) in let v := map (fun i => f_of_Z (Z.of_nat i - 5)) (seq 0 16) in
  let m := fset (empty_mem ([] : list (AN R))) 0 v in
  computes (MulSubFourierPolyAssign R 0 0 0) 0 m (elementWiseMulSubCmplxAssign R v v v) /\
  bind (elementWiseMulSubCmplxAssign R v v v) (fun w => Ok (map (a_int64 R) w)) = Ok [-29; -20; -11; -2; -11; 0; 7; 10; 43; 52; 61; 70; -35; -56; -81; -110].
Proof.
  intros R v m. assert (E: zlen (fm m 0) = 2 ^ 4) by reflexivity.
  destruct (C49_slices R 4 ltac:(lia) m 0 0 0 (a_zero R) E E E) as (_ & _ & _ & _ & H & _). split; [exact H|].
  vm_compute. reflexivity.
Qed.

(** * Properties C13-C16: the Fourier transform of package poly *)
From Coq Require Import Lia Reals List String.
From Coquelicot Require Import Coquelicot.
From Verif Require Import GoBase GoFacts GoMem F64 Spec Poly Fft Laws FftReal FftTabErr FftProps TinyRun.
Import ListNotations.
Local Open Scope Z_scope.

(** ** C13 *)

(** Over the real numbers, with the evaluator NewEvaluator builds, MulPoly is
    the product modulo X^N + 1 and 2^32, and so is every sum of products
    accumulated in the Fourier domain. *)
Theorem C13_product_exact : forall k, 4 <= k -> exists O, fft_evaluator real_arith (2 ^ k) = Ok O /\
  (forall a b, zlen a = 2 ^ k -> zlen b = 2 ^ k ->
     MulPoly O (2 ^ k) a b = Ok (tab (2 ^ k) (fun i => negacyclic (2 ^ k) (zn a) (zn b) i mod two32))) /\
  (forall K d r, 0 <= K -> (forall i, 0 <= i < K -> zlen (d i) = 2 ^ k /\ zlen (r i) = 2 ^ k) ->
     SumOfProducts O (2 ^ k) K d r =
       Ok (tab (2 ^ k) (fun i => zsum K (fun j => negacyclic (2 ^ k) (zn (d j)) (zn (r j)) i) mod two32))).
Proof. exact real_evaluator. Qed.
Print Assumptions C13_product_exact.

(** X^15 * (1 + X) = X^15 - 1 modulo X^16 + 1 *)
Example C13_ex : tab 16 (fun i => negacyclic 16 (zn (repeat 0 15 ++ [1])) (zn ([1; 1] ++ repeat 0 14)) i mod two32)
  = [4294967295] ++ repeat 0 14 ++ [1].
Proof. vm_compute. reflexivity. Qed.

(** ** C14 *)

(** [mc]: what the Go language leaves to the platform, that is the last bits
    of the library's exp(i x) and which multiplications the compiler fuses
    with the addition after them.  [mc_ok mc]: for |x| <= 4 the library's
    exp(i x) is within 3 * 2^-53 of the true value; any choice of fused
    operations.  Then in binary64 arithmetic nothing overflows, and the
    product and sums of products are within [delta] of the exact ones for
    every [delta] with N*D*E*(87*(k-1)+7) < (2*delta+1)*2^52
    (K*N*D*E*(87*(k-1)+5+2*K) for K products), D and E being bounds on the
    signed coefficients of the factors. *)
Theorem C14_product_error : forall mc k, mc_ok mc -> 4 <= k <= 51 -> exists O,
  fft_evaluator (f64_arith mc) (2 ^ k) = Ok O /\
  (forall a b D E delta, poly_ok (2 ^ k) a -> poly_ok (2 ^ k) b -> 1 <= D <= 2 ^ 31 -> 1 <= E <= 2 ^ 31 ->
     sbound (2 ^ k) D a -> sbound (2 ^ k) E b ->
     2 ^ k * (D * E) * (87 * (k - 1) + 7) < (2 * delta + 1) * 2 ^ 52 ->
     exists c, MulPoly O (2 ^ k) a b = Ok c /\ poly_ok (2 ^ k) c /\
       forall i, 0 <= i < 2 ^ k -> close delta (zn c i) (negacyclic (2 ^ k) (zn a) (zn b) i)) /\
  (forall K d r D E delta, 1 <= K <= 2 ^ 30 -> 1 <= D <= 2 ^ 31 -> 1 <= E <= 2 ^ 31 ->
     (forall j, 0 <= j < K -> poly_ok (2 ^ k) (d j) /\ poly_ok (2 ^ k) (r j) /\ sbound (2 ^ k) D (d j) /\ sbound (2 ^ k) E (r j)) ->
     K * (2 ^ k * (D * E)) * (87 * (k - 1) + 5 + 2 * K) < (2 * delta + 1) * 2 ^ 52 ->
     exists c, SumOfProducts O (2 ^ k) K d r = Ok c /\ poly_ok (2 ^ k) c /\
       forall i, 0 <= i < 2 ^ k -> close delta (zn c i) (zsum K (fun j => negacyclic (2 ^ k) (zn (d j)) (zn (r j)) i))).
Proof. exact f64_product_error. Qed.
Print Assumptions C14_product_error.

(** Any torus polynomial times a binary key: exact for every degree up to 2048. *)
Theorem C14_key_product_exact : forall mc k, mc_ok mc -> 4 <= k <= 11 -> exists O,
  fft_evaluator (f64_arith mc) (2 ^ k) = Ok O /\
  forall a s, poly_ok (2 ^ k) a -> bin_key (2 ^ k) s ->
    MulPoly O (2 ^ k) a s = Ok (tab (2 ^ k) (fun i => negacyclic (2 ^ k) (zn a) (zn s) i mod two32)).
Proof. exact f64_key_product. Qed.

(** no Fourier coefficient is infinite or NaN *)
Theorem C14_finite : forall mc k, mc_ok mc -> 4 <= k <= 51 -> exists tf tfi,
  genTwiddleFactors (f64_arith mc) (2 ^ k / 2) = Ok (tf, tfi) /\
  (forall p o, zlen p = 2 ^ k -> zlen o = 2 ^ k -> exists fp, toFourier (f64_arith mc) tf p o = Ok fp /\ all_finite fp) /\
  (forall K d r, 1 <= K <= 2 ^ 30 -> (forall j, 0 <= j < K -> zlen (d j) = 2 ^ k /\ zlen (r j) = 2 ^ k) ->
     exists acc, AccumulateProducts (fft_ops (f64_arith mc) tf tfi) (2 ^ k) K d r = Ok acc /\ all_finite acc).
Proof. exact f64_finite. Qed.

(** the hypothesis on exp can be met, by sine and cosine rounded to 53 places,
    whatever the compiler fuses and the machine makes of int64(x) out of range *)
Theorem C14_cis_exists : forall mms mma acc nac i64,
  mc_ok {| m_cis := cis0; m_mms := mms; m_mma := mma; m_acc := acc; m_nac := nac; m_int64 := i64 |}.
Proof. intros. exact cis0_ok. Qed.

(** the 128-bit external product: 6 products, N = 1024, digits of 6 bits *)
Example C14_ex : 6 * (2 ^ 10 * (2 ^ 5 * 2 ^ 31)) * (87 * (10 - 1) + 5 + 2 * 6) < (2 * 38 + 1) * 2 ^ 52.
Proof. vm_compute. reflexivity. Qed.

(** ** C15 *)

(** whatever the output buffers hold *)
Theorem C15_roundtrip : forall mc k, mc_ok mc -> 4 <= k <= 21 -> exists tf tfi,
  fft_evaluator (f64_arith mc) (2 ^ k) = Ok (fft_ops (f64_arith mc) tf tfi) /\
  forall p o q, poly_ok (2 ^ k) p -> zlen o = 2 ^ k -> zlen q = 2 ^ k ->
    FourierRoundTrip (fft_ops (f64_arith mc) tf tfi) p o q = Ok p.
Proof. exact f64_round_trip. Qed.
Print Assumptions C15_roundtrip.

(** ** C16 *)

(** [returns N call]: the call does not panic and gives a slice of length N *)
Theorem C16_in_bounds : forall (R : arith) k, 4 <= k -> exists tw twi,
  fft_evaluator R (2 ^ k) = Ok (fft_ops R tw twi) /\
  forall (p q : list Z) (x y z : list (AN R)) (c : AN R),
  let N := 2 ^ k in
  zlen p = N -> zlen q = N -> zlen x = N -> zlen y = N -> zlen z = N ->
  returns N (NewFourierPoly R N) /\ returns N (FourierPoly_Clear R x) /\
  returns N (toFourier R tw p x) /\
  returns2 N (toPoly R twi x q) /\ returns2 N (toPolyCopy R twi y x q) /\
  returns2 N (toPolyAdd R twi x q) /\ returns2 N (toPolySub R twi x q) /\
  returns N (addCmplxAssign R x y z) /\ returns N (subCmplxAssign R x y z) /\
  returns N (floatMulCmplxAssign R x c z) /\ returns N (floatMulAddCmplxAssign R x c z) /\
  returns N (elementWiseMulCmplxAssign R x y z) /\ returns N (elementWiseMulAddCmplxAssign R x y z) /\
  returns N (elementWiseMulSubCmplxAssign R x y z).
Proof. exact fft_in_bounds. Qed.
Print Assumptions C16_in_bounds.

(** NewEvaluator rejects every other degree *)
Theorem C16_other_degrees : forall (R : arith) N, (forall k, 4 <= k -> N <> 2 ^ k) -> exists m, fft_evaluator R N = Panic (PMsg m).
Proof. exact fft_bad_degree. Qed.

(** ** A run in binary64 *)
Definition ex_p : list Z := map (fun i => (Z.of_nat i * 2654435761 + 12345) mod two32) (seq 0 16).
Definition ex_q : list Z := map (fun i => (Z.of_nat i * 5 + 3) mod 7) (seq 0 16).

Example C14_run : (O <- fft_evaluator (f64_arith (unfused taylor_cis)) 16 ;; MulPoly O 16 ex_p ex_q)
  = Ok (tab 16 (fun i => negacyclic 16 (zn ex_p) (zn ex_q) i mod two32)).
Proof. vm_compute. reflexivity. Qed.

Example C15_run : ('(tw, twi) <- genTwiddleFactors (f64_arith (unfused taylor_cis)) 8 ;;
  FourierRoundTrip (fft_ops (f64_arith (unfused taylor_cis)) tw twi) ex_p (repeat (f_of_Z 7) 16) (repeat 9 16)) = Ok ex_p.
Proof. vm_compute. reflexivity. Qed.

Example C16_run : fft_evaluator (f64_arith (unfused taylor_cis)) 24 = Panic (PMsg "degree not power of two"%string)
  /\ fft_evaluator (f64_arith (unfused taylor_cis)) 8 = Panic (PMsg "degree smaller than MinDegree"%string).
Proof. vm_compute. split; reflexivity. Qed.

(** A machine that fuses wherever it can computes other transforms, and the
    same product. *)
Definition fusing : machine :=
  {| m_cis := taylor_cis; m_mms := fun s => match s with SButterfly => FuseSecond | _ => FuseFirst end;
     m_mma := fun s => match s with SMul => FuseSecond | _ => FuseFirst end; m_acc := true; m_nac := true;
     m_int64 := fun x => if BinarySingleNaN.Bsign x then - two63 else two63 - 1 |}.
Definition transform (mc : machine) (p : list Z) : res (list f64) :=
  '(tw, twi) <- genTwiddleFactors (f64_arith mc) 8 ;; toFourier (f64_arith mc) tw p (repeat (f_of_Z 0) 16).
Definition bits (l : res (list f64)) : res (list SpecFloat.spec_float) := l <- l ;; Ok (map (@BinarySingleNaN.B2SF 53 1024) l).
Example C14_fused_differs : bits (transform fusing ex_p) <> bits (transform (unfused taylor_cis) ex_p).
Proof. vm_compute. discriminate. Qed.
Example C14_fused_run : (O <- fft_evaluator (f64_arith fusing) 16 ;; MulPoly O 16 ex_p ex_q)
  = Ok (tab 16 (fun i => negacyclic 16 (zn ex_p) (zn ex_q) i mod two32)).
Proof. vm_compute. reflexivity. Qed.

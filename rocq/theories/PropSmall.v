(** * Smaller operations: additions to C02, C05, C10, C37 and C54

    The vocabulary is in Spec.v, PoolSpec.v and SmallSpec.v. *)
From Coq Require Import Lia String.
From Verif Require Import GoBase GoFacts GoMem Spec Params Info Poly Fft Tlwe Trlwe Lut Buffers PoolSpec SmallSpec ExactPoly SmallProps PropLwe.
Local Open Scope Z_scope.

(** ** C02: the description and the block flag of a level *)

(** The description of the level for k-bit messages states the message modulus
    2^k and the degree of the ring that the getters return. *)
Theorem C02_info : forall k, 1 <= k <= 8 -> SecurityInfo k = describes k (g_N (get_params k)) (if k =? 1 then "binary/boolean" else "messages").
Proof. exact info_uint. Qed.
Print Assumptions C02_info.
(** levels with the same description have the same parameters *)
Theorem C02_info_same : forall l1 l2, SecurityInfo l1 = SecurityInfo l2 -> get_params l1 = get_params l2.
Proof. exact info_same. Qed.
Print Assumptions C02_info_same.
(** Two named levels share their parameters exactly when they are Uint5 and
    Uint6, or Uint7 and Uint8. *)
Theorem C02_same : forall l1 l2, In l1 [80; 110; 128; 1; 2; 3; 4; 5; 6; 7; 8] -> In l2 [80; 110; 128; 1; 2; 3; 4; 5; 6; 7; 8] ->
  (get_params l1 = get_params l2 <-> l1 = l2 \/ In (l1, l2) [(5, 6); (6, 5); (7, 8); (8, 7)]).
Proof. exact same_params. Qed.
Print Assumptions C02_same.
(** block rotation is switched on at every level; the program starts at the
    128-bit level *)
Theorem C02_blocks : forall level, Params.UseBlockBlindRotation level = true /\ Buffers.UseBlockBlindRotation (get_params level) = true.
Proof. exact block_rotation. Qed.
Theorem C02_start : initial_level = 128 /\ get_params initial_level = params128Bit.
Proof. split; reflexivity. Qed.

Example C02_ex_info : SecurityInfo 7 = "Uint7 parameters (7-bit messages, messageModulus=128, N=2048)"%string /\ describes 3 1024 "messages" = SecurityInfo 3.
Proof. split; reflexivity. Qed.

(** ** C05: the product of two ciphertexts *)

(** Mul multiplies the coordinates.  Where one of the two masks is zero in
    each coordinate the result is an encryption without mask of the product
    of the bodies. *)
Theorem C05_mul : forall n s t u, 0 <= n -> zlen t = n + 1 -> zlen u = n + 1 ->
  exists r, Mul n t u = Ok r /\ lwe_ok n r /\ (forall i, 0 <= i <= n -> zn r i == zn t i * zn u i) /\
    ((forall i, 0 <= i < n -> zn t i * zn u i == 0) -> lwe_phase n s r == zn t n * zn u n).
Proof. exact Mul_ok. Qed.
Print Assumptions C05_mul.
(** It is no homomorphic operation: the phase of the result is no function of
    the phases of the operands. *)
Theorem C05_mul_refuted : ~ exists f : Z -> Z -> Z, forall n s t u r, 0 <= n -> zlen s = n -> zlen t = n + 1 -> zlen u = n + 1 ->
  Mul n t u = Ok r -> lwe_phase n s r = f (lwe_phase n s t) (lwe_phase n s u).
Proof. exact Mul_not. Qed.
Print Assumptions C05_mul_refuted.

Example C05_ex_mul : Mul 2 [1; 2; 3] [5; 6; 4294967295] = Ok [5; 12; 4294967293].
Proof. reflexivity. Qed.

(** ** C10: the older rotation in trgsw *)

(** It agrees with PolyMulWithXKInPlace for exponents that are not negative,
    whatever the buffers, and panics for the others unless 2N divides them. *)
Theorem C10_older : forall F (m : mem F) a k out,
  (0 <= k -> polyMulWithXKInPlace_trgsw m a k out = PolyMulWithXKInPlace m a k out) /\
  (k < 0 -> 0 < zlen (tm m a) -> ~ (2 * zlen (tm m a) | k) -> polyMulWithXKInPlace_trgsw m a k out = Panic PIndex).
Proof. exact @old_rotation. Qed.
Print Assumptions C10_older.

Example C10_ex_older : exists m', polyMulWithXKInPlace_trgsw (mem_of [[1; 2; 3; 4]; [0; 0; 0; 0]]) 0 5 1 = Ok m' /\
  tm m' 1 = [4; 4294967294; 4294967293; 4294967292] /\ polyMulWithXKInPlace_trgsw (mem_of [[1; 2; 3; 4]; [0; 0; 0; 0]]) 0 (-3) 1 = Panic PIndex.
Proof. eexists. repeat split; vm_compute; reflexivity. Qed.

(** ** C37: copying and clearing a table *)
Theorem C37_copy : forall pr lut, 0 <= trlwe_N pr -> zlen (tA lut) = trlwe_N pr -> zlen (tB lut) = trlwe_N pr -> Lut_Copy pr lut = Ok lut.
Proof. exact lut_copy. Qed.
Theorem C37_copy_from : forall lut other, zlen (tA lut) = zlen (tA other) -> zlen (tB lut) = zlen (tB other) -> Lut_CopyFrom lut other = other.
Proof. exact lut_copy_from. Qed.
Theorem C37_clear : forall pr lut, 0 <= g_N pr -> zlen (tA lut) = g_N pr -> zlen (tB lut) = g_N pr ->
  Lut_Clear pr lut = Ok {| tA := repeat 0 (Z.to_nat (g_N pr)); tB := repeat 0 (Z.to_nat (g_N pr)) |}.
Proof. exact lut_clear. Qed.
Print Assumptions C37_clear.

(** ** C54: the remaining buffers of a polynomial evaluator *)

(** ClearTRLWEBuffer zeroes the first slice and as many entries of the second,
    and nothing else; it panics if the second is shorter. *)
Theorem C54_clear : forall F (m : mem F) a b, zlen (tm m a) <= zlen (tm m b) ->
  exists m', ClearTRLWEBuffer m a b = Ok m' /\
    tm m' a = repeat 0 (Z.to_nat (zlen (tm m a))) /\
    (forall i, 0 <= i < zlen (tm m a) -> zn (tm m' b) i = 0) /\ (forall i, zlen (tm m a) <= i < zlen (tm m b) -> zn (tm m' b) i = zn (tm m b) i) /\
    zlen (tm m' b) = zlen (tm m b) /\
    (forall l, l <> a -> l <> b -> tm m' l = tm m l) /\ (forall l, fm m' l = fm m l) /\ (forall l, im m' l = im m l).
Proof. exact @clear_ring_all. Qed.
Print Assumptions C54_clear.
Theorem C54_clear_short : forall F (m : mem F) a b, zlen (tm m b) < zlen (tm m a) -> ClearTRLWEBuffer m a b = Panic PIndex.
Proof. exact @clear_ring_short. Qed.

(** A new evaluator hands out its four ring ciphertext buffers in turn, in any
    sequence of calls and resets: new buffers of the right size, different from
    each other and from the rotation buffers; the calls change no buffer. *)
Theorem C54_ring : forall O (m : mem (FP O)) N e m1 cs, NewPolyEvaluator O m N = Ok (e, m1) ->
  exists m2, ring_calls e cs m1 = Ok (ring_robin e cs 0, m2) /\
    (forall l, tm m2 l = tm m1 l) /\ (forall l, fm m2 l = fm m1 l) /\ im m2 (pe_rotIdx e) = im m1 (pe_rotIdx e) /\
    (forall i, 0 <= i < 4 -> tnext m <= pe_trlweA e i < tnext m1 /\ tnext m <= pe_trlweB e i < tnext m1 /\
       zlen (tm m1 (pe_trlweA e i)) = N /\ zlen (tm m1 (pe_trlweB e i)) = N) /\
    (forall i j, 0 <= i < 4 -> 0 <= j < 4 -> pe_trlweA e i <> pe_trlweB e j /\ pe_rot e i <> pe_trlweA e j /\ pe_rot e i <> pe_trlweB e j /\
       (i <> j -> pe_trlweA e i <> pe_trlweA e j /\ pe_trlweB e i <> pe_trlweB e j)).
Proof. exact ring_pool. Qed.
Print Assumptions C54_ring.

(** Reset of the evaluator's pool starts all three pools again: every sequence
    of calls then hands out the polynomial buffers from the first. *)
Theorem C54_reset : forall R (b : fpool) cs (m : mem (list (AN R))),
  exists m', calls (fp_poly b) cs (FP_Reset R m b) = Ok (robin (fp_poly b) cs 0 0, m') /\ im (FP_Reset R m b) (fp_i b) = 0 /\
    (forall l, tm m' l = tm m l) /\ (forall l, fm m' l = fm m l).
Proof. exact pool_reset. Qed.
Print Assumptions C54_reset.

(** the numbered buffers: exactly the indices 0 to 7 exist *)
Theorem C54_numbered : forall (e : peval) i,
  (0 <= i < 8 -> GetDecompBuffer e i = Ok (pe_decomp e i) /\ GetDecompFFTBuffer e i = Ok (pe_decompFFT e i)) /\
  (~ 0 <= i < 8 -> (exists p, GetDecompBuffer e i = Panic p) /\ exists p, GetDecompFFTBuffer e i = Panic p).
Proof. exact numbered. Qed.
Theorem C54_copy_in : forall R (m : mem (list (AN R))) (e : peval) src i, 0 <= i < 8 -> zlen (tm m src) = zlen (tm m (pe_decomp e i)) ->
  exists m' l, GetDecompBuffer e i = Ok l /\ CopyToDecompBuffer R m e src i = Ok m' /\ tm m' l = tm m src /\ (forall x, x <> l -> tm m' x = tm m x) /\ (forall x, fm m' x = fm m x).
Proof. exact copy_in_all. Qed.
Print Assumptions C54_copy_in.

(** the named buffers: five names can be cleared and three converted, other
    names panic; a name means the same buffer in both, different names mean
    different buffers, and no name means a numbered one *)
Theorem C54_names : forall (e : peval) a,
  ((exists l, clear_name e a = Ok l) <-> In a ["fpAcc"; "fpBcc"; "fpDiff"; "fpMul1"; "fpMul2"]%string) /\
  ((exists l, to_poly_name e a = Ok l) <-> In a ["fpAcc"; "fpBcc"; "fpDiff"]%string) /\
  (forall l, to_poly_name e a = Ok l -> clear_name e a = Ok l) /\
  (forall l, clear_name e a = Ok l -> pe_f e <= l < pe_f e + 15 /\ forall i, 0 <= i < 8 -> l <> pe_decompFFT e i).
Proof. exact name_iff. Qed.
Theorem C54_names_differ : forall (e : peval) a b la lb, clear_name e a = Ok la -> clear_name e b = Ok lb -> la = lb -> a = b.
Proof. exact names. Qed.
Print Assumptions C54_names.

(** the helper log2, which nothing calls: the binary logarithm, rounded down *)
Theorem C54_log2 : forall n, 1 <= n < 2 ^ 63 -> log2 n = Ok (Z.log2 n).
Proof. exact log2_ok. Qed.

Example C54_ex_ring : (p <- NewPolyEvaluator exact (empty_mem []) 16 ;;
    let '(e, m) := p in '(hs, _) <- ring_calls e [RGet; RGet; RReset; RGet; RGet; RGet; RGet; RGet] m ;; Ok hs) =
  Ok [(12, 13); (14, 15); (12, 13); (14, 15); (16, 17); (18, 19); (12, 13)].
Proof. vm_compute. reflexivity. Qed.
Example C54_ex_clear : exists m', ClearTRLWEBuffer (mem_of [[1; 2]; [3; 4; 5]]) 0 1 = Ok m' /\ tm m' 0 = [0; 0] /\ tm m' 1 = [0; 0; 5].
Proof. eexists. repeat split. Qed.

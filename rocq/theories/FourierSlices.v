(** * The memory form of the Fourier operations computes the slice form (C49) *)
From Coq Require Import Lia ZArith.
From Verif Require Import GoBase GoFacts GoMem MemFacts F64 Poly PolyFacts Fft FftFacts FftOps FourierApi FourierSpec FourierFacts.
Import ListNotations.
Local Open Scope Z_scope.
Ltac Zify.zify_post_hook ::= idtac.

Section Slices.
Context (R : arith) (k : Z) (Hk : 4 <= k).
Notation M := (mem (list (AN R))).

Lemma half : exists H, 2 ^ k = 2 * H /\ 0 < H /\ H mod 4 = 0.
Proof.
  exists (2 ^ (k - 1)). assert (E: 2 ^ k = 2 * 2 ^ (k - 1)) by (rewrite <- Z.pow_succ_r by lia; f_equal; lia).
  assert (E2: 2 ^ (k - 1) = 2 ^ (k - 3) * 4) by (change 4 with (2 ^ 2); rewrite <- Z.pow_add_r by lia; f_equal; lia).
  assert (0 < 2 ^ (k - 3)) by (apply Z.pow_pos_nonneg; lia). split; [exact E|]. split; [lia|]. rewrite E2. apply Z.mod_mul. lia.
Qed.

Lemma slices (m : M) x y o c : zlen (fm m x) = 2 ^ k -> zlen (fm m y) = 2 ^ k -> zlen (fm m o) = 2 ^ k ->
  computes (AddFourierPolyAssign R x y o) o m (addCmplxAssign R (fm m x) (fm m y) (fm m o)) /\
  computes (SubFourierPolyAssign R x y o) o m (subCmplxAssign R (fm m x) (fm m y) (fm m o)) /\
  computes (MulFourierPolyAssign R x y o) o m (elementWiseMulCmplxAssign R (fm m x) (fm m y) (fm m o)) /\
  computes (MulAddFourierPolyAssign R x y o) o m (elementWiseMulAddCmplxAssign R (fm m x) (fm m y) (fm m o)) /\
  computes (MulSubFourierPolyAssign R x y o) o m (elementWiseMulSubCmplxAssign R (fm m x) (fm m y) (fm m o)) /\
  computes (FloatMulFourierPolyAssign R x c o) o m (floatMulCmplxAssign R (fm m x) c (fm m o)) /\
  computes (FloatMulAddFourierPolyAssign R x c o) o m (floatMulAddCmplxAssign R (fm m x) c (fm m o)).
Proof.
  intros Lx Ly Lo. destruct half as (H & E & HP & H4). rewrite E in *.
  assert (Z: forall a b act f g, zlen (fm m a) = 2 * H -> zlen (fm m b) = 2 * H ->
    (exists m', act m = Ok m' /\ framed none (eq o) none m m' /\ fm m' o = FftOps.elw R H f (fm m a) (fm m b) (fm m o)) ->
    (forall u v w, f u v w = g u v w) -> computes act o m (elementwise R g (fm m a) (fm m b) (fm m o))).
  { intros a b act f g La Lb (m' & A & F & V) X. exists (FftOps.elw R H f (fm m a) (fm m b) (fm m o)), m'. split; [|split; [exact A|split; [exact V|]]].
    - rewrite (elementwise_ok R H HP H4) by assumption. f_equal. unfold FftOps.elw. apply (lay_ext R H); try assumption. intros c' _. symmetry. apply X.
    - split; [intro z; apply (fr_t _ _ _ _ _ F); intros []|]. split; [intros z Hz; apply (fr_f _ _ _ _ _ F); intros <-; apply Hz; reflexivity|].
      split; [intro z; apply (fr_i _ _ _ _ _ F); intros []|]. apply F. }
  repeat split; (eapply Z; [eassumption|eassumption|first [apply lanes_ok|apply pairs_ok]; eassumption|]); intros [? ?] [? ?] [? ?]; reflexivity.
Qed.
End Slices.

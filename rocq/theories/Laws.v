(** * What the upper layers need from the Fourier operations

    [flaws O N]: at degree N the operations of [O] never panic on buffers of
    the right size and their results do not depend on the previous contents of
    the output buffer.  [facc]: accuracy of a sum of products.  Both are
    proved for exact polynomial arithmetic in ExactPoly.v and for the float64
    transform in later files; no theorem rests on them as an assumption about
    the code. *)
From Verif Require Import GoBase GoMem Poly Spec.
Local Open Scope Z_scope.

Record flaws (O : fops) (N : Z) : Type := {
  fok : FP O -> Prop;
  Fzero : FP O;
  Fof : list Z -> FP O;
  Fmul : FP O -> FP O -> FP O;
  Fma : FP O -> FP O -> FP O -> FP O;
  Fto : FP O -> list Z;
  law_deg : check_degree N = Ok tt;
  law_new : f_new O N = Ok Fzero;
  law_zero : fok Fzero;
  law_clear : forall x, fok x -> f_clear O x = Ok Fzero;
  law_of : forall p o, zlen p = N -> fok o -> f_of_poly O p o = Ok (Fof p);
  law_of_ok : forall p, zlen p = N -> fok (Fof p);
  law_mul : forall a b o, fok a -> fok b -> fok o -> f_mul O a b o = Ok (Fmul a b);
  law_mul_ok : forall a b, fok a -> fok b -> fok (Fmul a b);
  law_ma : forall a b o, fok a -> fok b -> fok o -> f_muladd O a b o = Ok (Fma a b o);
  law_ma_ok : forall a b o, fok a -> fok b -> fok o -> fok (Fma a b o);
  law_to : forall x p, fok x -> zlen p = N -> exists x', f_to_poly O x p = Ok (x', Fto x) /\ fok x';
  law_to_len : forall x, fok x -> zlen (Fto x) = N;
  law_to_tok : forall x, fok x -> tok_list (Fto x)
}.
Arguments fok {O N}. Arguments Fzero {O N}. Arguments Fof {O N}. Arguments Fmul {O N}.
Arguments Fma {O N}. Arguments Fto {O N}.
Arguments law_deg {O N}. Arguments law_new {O N}. Arguments law_zero {O N}. Arguments law_clear {O N}.
Arguments law_of {O N}. Arguments law_of_ok {O N}. Arguments law_mul {O N}. Arguments law_mul_ok {O N}.
Arguments law_ma {O N}. Arguments law_ma_ok {O N}. Arguments law_to {O N}. Arguments law_to_len {O N}.
Arguments law_to_tok {O N}.

(** the accumulator after K multiply-adds *)
Fixpoint Fsum_nat {O N} (L : flaws O N) (K : nat) (d r : Z -> FP O) : FP O :=
  match K with
  | O => Fzero L
  | S k => Fma L (d (Z.of_nat k)) (r (Z.of_nat k)) (Fsum_nat L k d r)
  end.
Definition Fsum {O N} (L : flaws O N) (K : Z) (d r : Z -> FP O) : FP O := Fsum_nat L (Z.to_nat K) d r.

(** a polynomial of degree N with 32-bit coefficients *)
Definition poly_ok (N : Z) (a : list Z) : Prop := zlen a = N /\ tok_list a.

(** signed coefficients bounded by D *)
Definition sbound (N D : Z) (a : list Z) : Prop := forall i, 0 <= i < N -> Z.abs (centered (zn a i)) <= D.

(** the transform of K products of a D-bounded polynomial with any polynomial,
    summed, is within [delta] of the exact sum, modulo 2^32 *)
Definition facc {O N} (L : flaws O N) (K D delta : Z) : Prop :=
  forall d r : Z -> list Z,
  (forall i, 0 <= i < K -> poly_ok N (d i) /\ sbound N D (d i) /\ poly_ok N (r i)) ->
  forall k, 0 <= k < N ->
  close delta (zn (Fto L (Fsum L K (fun i => Fof L (d i)) (fun i => Fof L (r i)))) k)
              (zsum K (fun i => negacyclic N (zn (d i)) (zn (r i)) k)).

(** the same for the single product of MulPoly, with bounds on both factors *)
Definition facc_mul {O N} (L : flaws O N) (D E delta : Z) : Prop :=
  forall a b, poly_ok N a -> poly_ok N b -> sbound N D a -> sbound N E b ->
  forall k, 0 <= k < N ->
  close delta (zn (Fto L (Fmul L (Fof L a) (Fof L b))) k) (negacyclic N (zn a) (zn b) k).

(** * float64

    IEEE-754 binary64 numbers (Flocq) with round to nearest even, the Go
    conversions and the functions of package math that the code uses.
    The Go compiler may round x*y + z once instead of twice, and does so on
    some platforms (arm64, not amd64): [ffma] and the four operations after
    it are the expressions of the code for which it has that choice. *)
From Flocq Require Import Core BinarySingleNaN.
From Verif Require Import GoBase.
Local Open Scope Z_scope.

Definition f64 : Type := binary_float 53 1024.

#[global] Instance prec_gt_0_53 : Prec_gt_0 53 := eq_refl.
#[global] Instance prec_lt_emax_1024 : Prec_lt_emax 53 1024 := eq_refl.

Definition fadd (x y : f64) : f64 := Bplus mode_NE x y.
Definition fsub (x y : f64) : f64 := Bminus mode_NE x y.
Definition fmul (x y : f64) : f64 := Bmult mode_NE x y.
Definition fdiv (x y : f64) : f64 := Bdiv mode_NE x y.
Definition fopp (x : f64) : f64 := Bopp x.

(** x*y + z rounded once *)
Definition ffma (x y z : f64) : f64 := Bfma mode_NE x y z.

(** which of the two products of x*y + z*w is fused with the addition *)
Inductive fuse : Type := FuseNone | FuseFirst | FuseSecond.

(** x*y - z*w *)
Definition f_mms (f : fuse) (x y z w : f64) : f64 :=
  match f with
  | FuseNone => fsub (fmul x y) (fmul z w)
  | FuseFirst => ffma x y (fopp (fmul z w))
  | FuseSecond => ffma (fopp z) w (fmul x y)
  end.
(** x*y + z*w *)
Definition f_mma (f : fuse) (x y z w : f64) : f64 :=
  match f with
  | FuseNone => fadd (fmul x y) (fmul z w)
  | FuseFirst => ffma x y (fmul z w)
  | FuseSecond => ffma z w (fmul x y)
  end.
(** o + x*y and o - x*y *)
Definition f_acc (f : bool) (o x y : f64) : f64 := if f then ffma x y o else fadd o (fmul x y).
Definition f_nac (f : bool) (o x y : f64) : f64 := if f then ffma (fopp x) y o else fsub o (fmul x y).

(** the double nearest to m * 2^e *)
Definition flit (m e : Z) : f64 := binary_normalize 53 1024 _ _ mode_NE m e false.
(** float64(z) for an integer z *)
Definition f_of_Z (z : Z) : f64 := flit z 0.
(** float64(1 << s) *)
Definition f_pow2 (s : Z) : f64 := flit 1 s.

(** integer part (toward zero) of a finite double; 0 for infinities and NaN *)
Definition ftrunc (x : f64) : Z :=
  match x with
  | B754_finite s m e _ =>
      cond_Zopp s (if 0 <=? e then Z.pos m * 2 ^ e else Z.pos m / 2 ^ (- e))
  | _ => 0
  end.

(** int64(x).  Out of range or NaN is implementation defined in Go: [other x] *)
Definition f_int64 (other : f64 -> Z) (x : f64) : Z :=
  match x with
  | B754_zero _ => 0
  | B754_finite _ _ _ _ =>
      let t := ftrunc x in if (- two63 <=? t) && (t <? two63) then t else other x
  | _ => other x
  end.
(** ... on amd64 *)
Definition amd64_int64 (x : f64) : Z := - two63.

(** math.Mod(x, 1.0): exact, sign of x; NaN for infinities and NaN *)
Definition fmod1 (x : f64) : f64 :=
  match x with
  | B754_zero s => B754_zero s
  | B754_finite s m e _ =>
      if 0 <=? e then B754_zero s
      else binary_normalize 53 1024 _ _ mode_NE (cond_Zopp s (Z.pos m mod 2 ^ (- e))) e s
  | _ => B754_nan
  end.

(** math.Round(x): nearest integer, halves away from zero *)
Definition fround (x : f64) : f64 :=
  match x with
  | B754_finite s m e _ =>
      if 0 <=? e then x
      else binary_normalize 53 1024 _ _ mode_NE
             (cond_Zopp s ((2 * Z.pos m + 2 ^ (- e)) / (2 * 2 ^ (- e)))) 0 s
  | _ => x
  end.

Definition is_fin (x : f64) : bool := is_finite x.

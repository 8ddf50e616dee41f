(** * Package utils (utils/utils.go) *)
From Verif Require Import GoBase F64.
Local Open Scope Z_scope.

(** utils/utils.go:11-14 F64ToTorus, where int64(x) of a float out of range is
    [other x]; C03 shows that this matters for infinities and NaN only *)
Definition F64ToTorus_on (other : f64 -> Z) (d : f64) : Z :=
  let torus := fmul (fmod1 d) (f_pow2 32) in
  w32 (f_int64 other torus).
(** ... on amd64 *)
Definition F64ToTorus : f64 -> Z := F64ToTorus_on amd64_int64.

(** utils/utils.go:17-19 TorusToF64 *)
Definition TorusToF64 (t : Z) : f64 := fdiv (f_of_Z t) (f_pow2 32).

(** utils/utils.go:22-28 F64ToTorusVec *)
Definition F64ToTorusVec (d : list f64) : res (list Z) :=
  result <- make 0 (zlen d) ;;
  for_each d (fun i val result => set result i (F64ToTorus val)) result.

(** utils/utils.go:31-34 GaussianTorus.  [sample] is the value of
    [rng.NormFloat64() * stddev], an arbitrary double. *)
Definition GaussianTorus (mu : Z) (sample : f64) : Z := tadd mu (F64ToTorus sample).

(** utils/utils.go:37-40 GaussianF64 *)
Definition GaussianF64 (mu : f64) (sample : f64) : Z := GaussianTorus (F64ToTorus mu) sample.

(** utils/utils.go:43-49 GaussianF64Vec; [samples i] is the i-th draw *)
Definition GaussianF64Vec (mu : list f64) (samples : Z -> f64) : res (list Z) :=
  result <- make 0 (zlen mu) ;;
  for_each mu (fun i m result => set result i (GaussianTorus (F64ToTorus m) (samples i))) result.

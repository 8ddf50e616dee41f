(** * Package tlwe, assigning operation on locations *)
From Verif Require Import GoBase GoMem Tlwe.
Local Open Scope Z_scope.

(** tlwe/tlwe.go:85-89 AddAssign; [t], [other] and [output] are locations,
    possibly equal *)
Definition AddAssign {F} (m : mem F) (t other output : Z) : res (mem F) :=
  for_range 0 (zlen (tm m output)) (fun i m =>
    v <- (x <- load m t i ;; y <- load m other i ;; Ok (tadd x y)) ;;
    store m output i v) m.

(** [NewTLWELv0()] as a fresh location *)
Definition new_ct {F} (m : mem F) (n : Z) : res (Z * mem F) :=
  v <- NewTLWE n ;; Ok (alloc m v).

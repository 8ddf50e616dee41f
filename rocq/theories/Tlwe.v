(** * Package tlwe (tlwe/tlwe.go, tlwe/programmable_encrypt.go)

    A [TLWELv0] or [TLWELv1] is its slice [P].  Every function takes as first
    argument the dimension the Go code reads at that point from
    [params.GetTLWELv0().N] or [params.GetTLWELv1().N].  Functions returning a
    new ciphertext are functions on values; the assigning ones are in
    TlweMem.v. *)
From Verif Require Import GoBase F64 Utils.
Local Open Scope Z_scope.

(** Randomness of one encryption: the masks [rng.Uint32()] (any integers,
    reduced to 32 bits) and the Gaussian sample, an arbitrary double. *)
Record enc_rand : Type := { er_mask : Z -> Z; er_noise : f64 }.

(** tlwe/tlwe.go:16-21 NewTLWELv0, 143-148 NewTLWELv1 *)
Definition NewTLWE (n : Z) : res (list Z) := make 0 (n + 1).

(** tlwe/tlwe.go:24-27 B *)
Definition tlwe_B (n : Z) (P : list Z) : res Z := get P n.

(** tlwe/tlwe.go:30-33 SetB, 151-154 SetB *)
Definition SetB (n : Z) (P : list Z) (v : Z) : res (list Z) := set P n v.

(** tlwe/tlwe.go:36-50 EncryptF64 (Lv0), 157-171 EncryptF64 (Lv1) *)
Definition EncryptF64 (n : Z) (P : list Z) (p : f64) (key : list Z) (r : enc_rand) : res (list Z) :=
  '(innerProduct, P) <- for_range 0 n (fun i '(ip, P) =>
      let randU32 := w32 (er_mask r i) in
      ki <- get key i ;;
      let ip := tadd ip (tmul ki randU32) in
      P <- set P i randU32 ;;
      Ok (ip, P)) (0, P) ;;
  let b := GaussianF64 p (er_noise r) in
  SetB n P (tadd innerProduct b).

(** the constants 0.125 and -0.125 *)
Definition f_eighth : f64 := flit 1 (-3).
Definition f_meighth : f64 := flit (-1) (-3).

(** tlwe/tlwe.go:53-61 EncryptBool (Lv0), 174-182 EncryptBool (Lv1) *)
Definition EncryptBool (n : Z) (P : list Z) (pBool : bool) (key : list Z) (r : enc_rand) : res (list Z) :=
  let p := if pBool then f_eighth else f_meighth in
  EncryptF64 n P p key r.

(** the loop [innerProduct += t.P[i] * key[i]] shared by the decryptions *)
Definition inner_product (n : Z) (P key : list Z) : res Z :=
  for_range 0 n (fun i ip =>
    pi <- get P i ;;
    ki <- get key i ;;
    Ok (tadd ip (tmul pi ki))) 0.

(** tlwe/tlwe.go:64-73 DecryptBool (Lv0) *)
Definition DecryptBool (n : Z) (P key : list Z) : res bool :=
  innerProduct <- inner_product n P key ;;
  b <- get P n ;;
  let resTorus := int32 (tsub b innerProduct) in
  Ok (0 <=? resTorus).

(** tlwe/tlwe.go:185-193 DecryptBool (Lv1): reads b at index len(key) *)
Definition DecryptBoolLv1 (n : Z) (P key : list Z) : res bool :=
  innerProduct <- inner_product n P key ;;
  b <- get P (zlen key) ;;
  let resTorus := int32 (tsub b innerProduct) in
  Ok (0 <=? resTorus).

(** The shape [result := NewTLWELv0(); for i := range result.P { result.P[i] = f(t.P[i], other.P[i]) }] *)
Definition tlwe_map2 (n : Z) (f : Z -> Z -> Z) (t other : list Z) : res (list Z) :=
  result <- NewTLWE n ;;
  for_range 0 (zlen result) (fun i result =>
    v <- (x <- get t i ;; y <- get other i ;; Ok (f x y)) ;;
    set result i v) result.

(** tlwe/tlwe.go:76-82 Add *)
Definition Add (n : Z) (t other : list Z) : res (list Z) := tlwe_map2 n tadd t other.
(** tlwe/tlwe.go:92-98 Sub *)
Definition Sub (n : Z) (t other : list Z) : res (list Z) := tlwe_map2 n tsub t other.
(** tlwe/tlwe.go:101-107 Neg *)
Definition Neg (n : Z) (t : list Z) : res (list Z) :=
  result <- NewTLWE n ;;
  for_range 0 (zlen result) (fun i result =>
    v <- (x <- get t i ;; Ok (tsub 0 x)) ;;
    set result i v) result.
(** tlwe/tlwe.go:110-116 Mul (element-wise) *)
Definition Mul (n : Z) (t other : list Z) : res (list Z) := tlwe_map2 n tmul t other.
(** tlwe/tlwe.go:119-125 AddMul *)
Definition AddMul (n : Z) (t other : list Z) (multiplier : Z) : res (list Z) :=
  tlwe_map2 n (fun x y => tadd x (tmul y multiplier)) t other.
(** tlwe/tlwe.go:128-134 SubMul *)
Definition SubMul (n : Z) (t other : list Z) (multiplier : Z) : res (list Z) :=
  tlwe_map2 n (fun x y => tsub x (tmul y multiplier)) t other.

(** tlwe/programmable_encrypt.go:12-26 EncryptLWEMessage.  Order as in the
    source: the scale (float division, no panic), then the integer remainder
    (panics for modulus 0). *)
Definition EncryptLWEMessage (n : Z) (P : list Z) (message messageModulus : Z)
    (key : list Z) (r : enc_rand) : res (list Z) :=
  let scale := fdiv (f_pow2 31) (f_of_Z messageModulus) in
  message <- go_rem message messageModulus ;;
  let message := if message <? 0 then message + messageModulus else message in
  let encodedMessage := fdiv (fmul (f_of_Z message) scale) (f_pow2 32) in
  EncryptF64 n P encodedMessage key r.

(** tlwe/programmable_encrypt.go:32-54 DecryptLWEMessage *)
Definition DecryptLWEMessage (n : Z) (P : list Z) (messageModulus : Z) (key : list Z) : res Z :=
  scale <- go_div two31 (w32 messageModulus) ;;
  innerProduct <- inner_product n P key ;;
  b <- get P n ;;
  let phase := tsub b innerProduct in
  half <- go_div scale 2 ;;
  decoded <- go_div (tadd phase half) scale ;;
  message <- go_rem decoded messageModulus ;;
  Ok (if message <? 0 then message + messageModulus else message).

(** * Package proxyreenc (proxyreenc/proxyreenc.go) *)
From Verif Require Import GoBase F64 Utils Params Tlwe Poly Trgsw.
Local Open Scope Z_scope.

(** proxyreenc/proxyreenc.go:56-58: a public key is its encryptions of zero *)
Definition PublicKeyLv0 : Type := list (list Z).

(** proxyreenc/proxyreenc.go:79-92 NewPublicKeyLv0WithParams; [n] is
    params.GetTLWELv0().N, [rnd i] the randomness of entry i *)
Definition NewPublicKeyLv0WithParams (n : Z) (secretKey : list Z) (size : Z) (rnd : Z -> enc_rand) : res PublicKeyLv0 :=
  encryptions <- make [] size ;;
  for_range 0 size (fun i encryptions =>
    ct <- (ct <- NewTLWE n ;; EncryptF64 n ct (f_of_Z 0) secretKey (rnd i)) ;;
    set encryptions i ct) encryptions.

(** proxyreenc/proxyreenc.go:69-71 NewPublicKeyLv0 *)
Definition NewPublicKeyLv0 (pr : pset) (secretKey : list Z) (rnd : Z -> enc_rand) : res PublicKeyLv0 :=
  NewPublicKeyLv0WithParams (lv0_N pr) secretKey (lv0_N pr * 2) rnd.

(** randomness of one public-key encryption: for entry i, whether it is used,
    whether it is added (or subtracted), and the fresh noise *)
Record pk_rand : Type := { pk_use : Z -> bool; pk_add : Z -> bool; pk_noise : f64 }.

(** proxyreenc/proxyreenc.go:104-135 EncryptF64 *)
Definition PkEncryptF64 (n : Z) (pk : PublicKeyLv0) (plaintext : f64) (r : pk_rand) : res (list Z) :=
  result <- NewTLWE n ;;
  let plaintextTorus := F64ToTorus plaintext in
  result <- SetB n result plaintextTorus ;;
  result <- for_each pk (fun e enc result =>
    if pk_use r e then
      if pk_add r e then
        for_range 0 (n + 1) (fun i result =>
          v <- (x <- get result i ;; y <- get enc i ;; Ok (tadd x y)) ;; set result i v) result
      else
        for_range 0 (n + 1) (fun i result =>
          v <- (x <- get result i ;; y <- get enc i ;; Ok (tsub x y)) ;; set result i v) result
    else Ok result) result ;;
  let noise := GaussianF64 (f_of_Z 0) (pk_noise r) in
  b <- tlwe_B n result ;;
  SetB n result (tadd b noise).

(** proxyreenc/proxyreenc.go:144-152 EncryptBool *)
Definition PkEncryptBool (n : Z) (pk : PublicKeyLv0) (plaintext : bool) (r : pk_rand) : res (list Z) :=
  PkEncryptF64 n pk (if plaintext then f_eighth else f_meighth) r.

(** proxyreenc/proxyreenc.go:159-163 *)
Record ProxyReencryptionKey : Type := { KeyEncryptions : list (list Z); Base : Z; T : Z }.

(** [float64(uint32(1)<<shiftAmount)]: a shift of 32 or more gives 0 *)
Definition reenc_plain (k s shiftAmount : Z) : res f64 :=
  d <- shl32 1 shiftAmount ;;
  Ok (fdiv (fmul (f_of_Z k) (f_of_Z s)) (f_of_Z d)).

(** the loops shared by the two generators (201-225 and 270-293); [enc idx p]
    is the encryption stored at idx *)
Definition reenc_keygen (n : Z) (keyFrom : list Z) (basebit t : Z) (enc : Z -> f64 -> res (list Z))
    : res ProxyReencryptionKey :=
  base <- shl_int basebit ;;
  z <- NewTLWE n ;;
  keyEncryptions <- make z (base * t * n) ;;
  keyEncryptions <- for_range 0 n (fun i ke =>
    for_range 0 t (fun j ke =>
      for_range 0 base (fun k ke =>
        if k =? 0 then Ok ke
        else
          let shiftAmount := (j + 1) * basebit in
          s <- get keyFrom i ;;
          p <- reenc_plain k s shiftAmount ;;
          let idx := base * t * i + base * j + k in
          ct <- enc idx p ;;
          set ke idx ct) ke) ke) keyEncryptions ;;
  Ok {| KeyEncryptions := keyEncryptions; Base := base; T := t |}.

(** proxyreenc/proxyreenc.go:191-232 NewProxyReencryptionKeyAsymmetricWithParams *)
Definition NewProxyReencryptionKeyAsymmetricWithParams (n : Z) (keyFrom : list Z) (publicKeyTo : PublicKeyLv0)
    (basebit t : Z) (rnd : Z -> pk_rand) : res ProxyReencryptionKey :=
  reenc_keygen n keyFrom basebit t (fun idx p => PkEncryptF64 n publicKeyTo p (rnd idx)).

(** proxyreenc/proxyreenc.go:180-188 NewProxyReencryptionKeyAsymmetric *)
Definition NewProxyReencryptionKeyAsymmetric (pr : pset) (keyFrom : list Z) (publicKeyTo : PublicKeyLv0)
    (rnd : Z -> pk_rand) : res ProxyReencryptionKey :=
  NewProxyReencryptionKeyAsymmetricWithParams (lv0_N pr) keyFrom publicKeyTo (g_BASEBIT pr) (g_IKS_T pr) rnd.

(** proxyreenc/proxyreenc.go:260-300 NewProxyReencryptionKeySymmetricWithParams;
    the entry encrypted in place is the zero ciphertext put there before *)
Definition NewProxyReencryptionKeySymmetricWithParams (n : Z) (keyFrom keyTo : list Z)
    (basebit t : Z) (rnd : Z -> enc_rand) : res ProxyReencryptionKey :=
  reenc_keygen n keyFrom basebit t (fun idx p => z <- NewTLWE n ;; EncryptF64 n z p keyTo (rnd idx)).

(** proxyreenc/proxyreenc.go:249-257 NewProxyReencryptionKeySymmetric *)
Definition NewProxyReencryptionKeySymmetric (pr : pset) (keyFrom keyTo : list Z) (rnd : Z -> enc_rand)
    : res ProxyReencryptionKey :=
  NewProxyReencryptionKeySymmetricWithParams (lv0_N pr) keyFrom keyTo (g_BASEBIT pr) (g_IKS_T pr) rnd.

(** proxyreenc/proxyreenc.go:325-328: [for (1 << basebit) < Base { basebit++ }].
    On an int the loop stops within 63 steps; [fuel] is that bound. *)
Fixpoint basebit_loop (fuel : nat) (basebit base : Z) : Z :=
  match fuel with
  | O => basebit
  | S k => if Z.shiftl 1 basebit <? base then basebit_loop k (basebit + 1) base else basebit
  end.

(** proxyreenc/proxyreenc.go:321-366 ReencryptTLWELv0 *)
Definition ReencryptTLWELv0 (n : Z) (ctFrom : list Z) (rk : ProxyReencryptionKey) : res (list Z) :=
  let basebit := basebit_loop 63 0 (Base rk) in
  let base := Base rk in
  let t := T rk in
  result <- NewTLWE n ;;
  b <- tlwe_B n ctFrom ;;
  result <- SetB n result b ;;
  precOffset <- shl32 1 (32 - (1 + basebit * t)) ;;
  for_range 0 n (fun i result =>
    aBar <- (x <- get ctFrom i ;; Ok (tadd x precOffset)) ;;
    for_range 0 t (fun j result =>
      let shift := 32 - (j + 1) * basebit in
      mask <- (s <- shl32 1 basebit ;; Ok (tsub s 1)) ;;
      k <- (s <- shr32 aBar shift ;; Ok (Z.land s mask)) ;;
      if k =? 0 then Ok result
      else
        let idx := base * t * i + base * j + k in
        for_range 0 (n + 1) (fun x result =>
          v <- (r <- get result x ;; row <- get (KeyEncryptions rk) idx ;; q <- get row x ;; Ok (tsub r q)) ;;
          set result x v) result) result) result.

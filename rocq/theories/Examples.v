(** * The example programs (examples/<name>/main.go), from their start to what
    they print

    A program is a function of what it draws at random; its result is the list
    of the values it prints.  Headings, timings and formatting are left out.
    The cloud key's test vector is put in memory when the gates are to read it;
    the keys themselves are passed by value, as elsewhere. *)
From Verif Require Import GoBase GoMem F64 Utils Params Key Tlwe TlweMem Poly Fft Trlwe Trgsw Lut Evaluator CloudKey Gates ProxyReenc NibbleAdd.
Local Open Scope Z_scope.

(** what key generation draws: the bits of the secret key, and the randomness
    of the key switching key and of the bootstrapping key *)
Record key_draws : Type := { kd_bit0 : Z -> bool; kd_bit1 : Z -> bool; kd_ks : Z -> enc_rand; kd_bs : Z -> Z -> trlwe_rand }.

Section Ex.
Context (O : fops) (pr : pset).
Notation M := (mem (FP O)).
Notation n := (lv0_N pr).

(** [key.NewSecretKey()], [cloudkey.NewCloudKey(secretKey)] *)
Definition make_keys (d : key_draws) : res (SecretKey * CloudKey O) :=
  secretKey <- NewSecretKey pr (kd_bit0 d) (kd_bit1 d) ;;
  ck <- NewCloudKey O pr secretKey (kd_ks d) (kd_bs d) ;;
  Ok (secretKey, ck).

(** the cloud key as the gates receive it *)
Definition place_key (m : M) (ck : CloudKey O) : gkey O * M :=
  let '(a, m) := alloc m (tA (BlindRotateTestvec ck)) in
  let '(b, m) := alloc m (tB (BlindRotateTestvec ck)) in
  ({| gk_offset := DecompositionOffset ck; gk_testvec := {| rA := a; rB := b |};
      gk_ksk := KeySwitchingKey ck; gk_bsk := BootstrappingKey ck |}, m).

(** ** examples/simple_gates *)

(** simple_gates/main.go:14-16 encrypt, 18-20 decrypt *)
Definition encrypt (m : M) (x : bool) (secretKey : SecretKey) (r : enc_rand) : res (Z * M) :=
  fresh O m (t <- NewTLWE n ;; EncryptBool n t x (KeyLv0 secretKey) r).
Definition decrypt (m : M) (x : Z) (secretKey : SecretKey) : res bool := DecryptBool n (tm m x) (KeyLv0 secretKey).

(** simple_gates/main.go:50-58 testGate: the values printed, decrypted and
    expected; the printed status says whether they are equal *)
Definition testGate (secretKey : SecretKey) (ge : evaluator) (ck : gkey O) (ctA ctB : Z) (m : M)
    (gateFunc : M -> evaluator -> Z -> Z -> gkey O -> res (Z * M)) (expected : bool) : res (bool * bool * M) :=
  '(result, m) <- gateFunc m ge ctA ctB ck ;;
  decrypted <- decrypt m result secretKey ;;
  Ok (decrypted, expected, m).

(** simple_gates/main.go:40-67: one of the test cases, with encryptions i and
    i+1 of the program *)
Definition testCase (secretKey : SecretKey) (ge : evaluator) (ck : gkey O) (enc : Z -> enc_rand) (i : Z) (a b : bool) (m : M)
    : res (list (bool * bool) * M) :=
  '(ctA, m) <- encrypt m a secretKey (enc (2 * i)) ;;
  '(ctB, m) <- encrypt m b secretKey (enc (2 * i + 1)) ;;
  '(r1, m) <- testGate secretKey ge ck ctA ctB m (AND O pr) (a && b) ;;
  '(r2, m) <- testGate secretKey ge ck ctA ctB m (OR O pr) (a || b) ;;
  '(r3, m) <- testGate secretKey ge ck ctA ctB m (NAND O pr) (negb (a && b)) ;;
  '(r4, m) <- testGate secretKey ge ck ctA ctB m (NOR O pr) (negb (a || b)) ;;
  '(r5, m) <- testGate secretKey ge ck ctA ctB m (XOR O pr) (negb (Bool.eqb a b)) ;;
  '(r6, m) <- testGate secretKey ge ck ctA ctB m (XNOR O pr) (Bool.eqb a b) ;;
  Ok ([r1; r2; r3; r4; r5; r6], m).

(** simple_gates/main.go:72-82: the NOT gate on one value *)
Definition testNot (secretKey : SecretKey) (val : bool) (r : enc_rand) (m : M) : res (bool * bool * M) :=
  '(ct, m) <- encrypt m val secretKey r ;;
  '(notCt, m) <- NOT O pr m ct ;;
  decrypted <- decrypt m notCt secretKey ;;
  Ok (decrypted, negb val, m).

(** simple_gates/main.go:22-86 main, after the initialisation of package gates *)
Definition simple_gates (d : key_draws) (enc : Z -> enc_rand) : res (list (bool * bool)) :=
  '(ge, m) <- init O (empty_mem (f_nil O)) ;;
  '(secretKey, ck) <- make_keys d ;;
  let '(ck, m) := place_key m ck in
  '(out, m) <- for_each [(false, false); (false, true); (true, false); (true, true)] (fun i '(a, b) '(out, m) =>
    '(rs, m) <- testCase secretKey ge ck enc i a b m ;; Ok (out ++ rs, m)) ([], m) ;;
  '(out, m) <- for_each [false; true] (fun i val '(out, m) =>
    '(r, m) <- testNot secretKey val (enc (8 + i)) m ;; Ok (out ++ [r], m)) (out, m) ;;
  Ok out.

(** ** examples/programmable_bootstrap *)

(** programmable_bootstrap/main.go:76-105 demoFunction, with message modulus
    [modulus] (2 there); the values printed, input and output.  The same loop is
    in 153-184 demoMultiBit, with modulus 4.  The encryptions are number [i0],
    i0+1, ... of the program. *)
Definition demoFunction (eval : evaluator) (secretKey : SecretKey) (cloudKey : CloudKey O) (enc : Z -> enc_rand) (i0 : Z)
    (f : Z -> Z) (modulus : Z) (inputs : list Z) (m : M) : res (list (Z * Z) * M) :=
  for_each inputs (fun i input '(out, m) =>
    '(ct, m) <- fresh O m (t <- NewTLWE n ;; EncryptLWEMessage n t input modulus (KeyLv0 secretKey) (enc (i0 + i))) ;;
    '(result, m) <- BootstrapFunc O pr m eval ct f modulus (BootstrappingKey cloudKey) (KeySwitchingKey cloudKey) (DecompositionOffset cloudKey) ;;
    output <- DecryptLWEMessage n (tm m result) modulus (KeyLv0 secretKey) ;;
    Ok (out ++ [(input, output)], m)) ([], m).

(** programmable_bootstrap/main.go:107-146 demoLUTReuse *)
Definition demoLUTReuse (eval : evaluator) (secretKey : SecretKey) (cloudKey : CloudKey O) (enc : Z -> enc_rand) (i0 : Z)
    (f : Z -> Z) (inputs : list Z) (m : M) : res (list (Z * Z) * M) :=
  '(lookupTable, m) <- new_lut O pr m f 2 ;;
  for_each inputs (fun i input '(out, m) =>
    '(ct, m) <- fresh O m (t <- NewTLWE n ;; EncryptLWEMessage n t input 2 (KeyLv0 secretKey) (enc (i0 + i))) ;;
    '(result, m) <- BootstrapLUT O pr m eval ct lookupTable (BootstrappingKey cloudKey) (KeySwitchingKey cloudKey) (DecompositionOffset cloudKey) ;;
    output <- DecryptLWEMessage n (tm m result) 2 (KeyLv0 secretKey) ;;
    Ok (out ++ [(input, output)], m)) ([], m).

(** programmable_bootstrap/main.go:15-74 main; [pr] is the 80-bit level.  The
    outputs of the six demonstrations in a row. *)
Definition programmable_bootstrap (d : key_draws) (enc : Z -> enc_rand) : res (list (Z * Z)) :=
  '(secretKey, cloudKey) <- make_keys d ;;
  '(eval, m) <- NewEvaluator O pr (empty_mem (f_nil O)) (g_N pr) ;;
  '(o1, m) <- demoFunction eval secretKey cloudKey enc 0 (fun x => x) 2 [0; 1] m ;;
  '(o2, m) <- demoFunction eval secretKey cloudKey enc 2 (fun x => 1 - x) 2 [0; 1] m ;;
  '(o3, m) <- demoFunction eval secretKey cloudKey enc 4 (fun x => 1) 2 [0; 1] m ;;
  '(o4, m) <- demoFunction eval secretKey cloudKey enc 6 (fun x => 0) 2 [0; 1] m ;;
  '(o5, m) <- demoLUTReuse eval secretKey cloudKey enc 8 (fun x => 1 - x) [0; 1; 0; 1; 0] m ;;
  '(o6, m) <- demoFunction eval secretKey cloudKey enc 13 (fun x => Z.rem (x + 1) 4) 4 [0; 1; 2; 3] m ;;
  Ok (o1 ++ o2 ++ o3 ++ o4 ++ o5 ++ o6).

(** ** examples/add_two_numbers *)

(** add_two_numbers/main.go:21-101: keys, evaluator and encrypted nibbles; [pr]
    is the Uint5 level, a = 42 and b = 137 there.  The tables are made after the
    encryptions here, before them there. *)
Definition add_start (d : key_draws) (enc : Z -> enc_rand) (a b : Z) : res (SecretKey * CloudKey O * evaluator * (Z * Z * Z * Z) * M) :=
  '(secretKey, cloudKey) <- make_keys d ;;
  '(eval, m) <- NewEvaluator O pr (empty_mem (f_nil O)) (g_N pr) ;;
  let encr m x i := fresh O m (t <- NewTLWE n ;; EncryptLWEMessage n t x 32 (KeyLv0 secretKey) (enc i)) in
  '(ctALow, m) <- encr m (low_nibble a) 0 ;;
  '(ctAHigh, m) <- encr m (high_nibble a) 1 ;;
  '(ctBLow, m) <- encr m (low_nibble b) 2 ;;
  '(ctBHigh, m) <- encr m (high_nibble b) 3 ;;
  Ok (secretKey, cloudKey, eval, (ctALow, ctAHigh, ctBLow, ctBHigh), m).

(** ... and to the result it prints (152) *)
Definition add_two_numbers (d : key_draws) (enc : Z -> enc_rand) (a b : Z) : res Z :=
  '(secretKey, cloudKey, eval, (ctALow, ctAHigh, ctBLow, ctBHigh), m) <- add_start d enc a b ;;
  '(ctSumLow, ctSumHigh, m) <- nib_add O pr cloudKey eval m ctALow ctAHigh ctBLow ctBHigh ;;
  sumLow <- DecryptLWEMessage n (tm m ctSumLow) 32 (KeyLv0 secretKey) ;;
  sumHigh <- DecryptLWEMessage n (tm m ctSumHigh) 32 (KeyLv0 secretKey) ;;
  Ok (combine sumLow sumHigh).
End Ex.

(** ** examples/proxy_reencryption *)

(** what the program draws: the bits of the three secret keys, the zero
    encryptions of the two public keys, the entries of the two re-encryption
    keys, and the six encryptions *)
Record reenc_draws : Type := {
  rd_alice : Z -> bool; rd_bob : Z -> bool; rd_carol : Z -> bool; rd_level1 : Z -> bool;
  rd_zerosB : Z -> enc_rand; rd_zerosC : Z -> enc_rand; rd_ab : Z -> pk_rand; rd_bc : Z -> pk_rand; rd_enc : Z -> enc_rand
}.

(** proxy_reencryption/main.go:22-171 main: what Bob decrypts (93-95), the
    number of correct messages (98-106), what Bob and Carol decrypt in the
    second part (144, 153).  The level-1 halves of the secret keys are not used. *)
Definition proxy_reencryption (pr : pset) (d : reenc_draws) : res (list bool * Z * bool * bool) :=
  let n := lv0_N pr in
  aliceKey <- NewSecretKey pr (rd_alice d) (rd_level1 d) ;;
  bobKey <- NewSecretKey pr (rd_bob d) (rd_level1 d) ;;
  bobPublicKey <- NewPublicKeyLv0 pr (KeyLv0 bobKey) (rd_zerosB d) ;;
  let messages := [true; false; true; true; false] in
  aliceCiphertexts <- for_each messages (fun i msg cts =>
    ct <- (t <- NewTLWE n ;; EncryptBool n t msg (KeyLv0 aliceKey) (rd_enc d i)) ;; Ok (cts ++ [ct])) [] ;;
  reencKey <- NewProxyReencryptionKeyAsymmetric pr (KeyLv0 aliceKey) bobPublicKey (rd_ab d) ;;
  bobCiphertexts <- for_each aliceCiphertexts (fun i ct cts =>
    ct' <- ReencryptTLWELv0 n ct reencKey ;; Ok (cts ++ [ct'])) [] ;;
  decryptedMessages <- for_each bobCiphertexts (fun i ct bs =>
    b <- DecryptBool n ct (KeyLv0 bobKey) ;; Ok (bs ++ [b])) [] ;;
  correct <- for_each messages (fun i original correct =>
    decrypted <- get decryptedMessages i ;; Ok (if Bool.eqb original decrypted then correct + 1 else correct)) 0 ;;
  carolKey <- NewSecretKey pr (rd_carol d) (rd_level1 d) ;;
  carolPublicKey <- NewPublicKeyLv0 pr (KeyLv0 carolKey) (rd_zerosC d) ;;
  reencKeyBC <- NewProxyReencryptionKeyAsymmetric pr (KeyLv0 bobKey) carolPublicKey (rd_bc d) ;;
  aliceCt <- (t <- NewTLWE n ;; EncryptBool n t true (KeyLv0 aliceKey) (rd_enc d 5)) ;;
  bobCt <- ReencryptTLWELv0 n aliceCt reencKey ;;
  bobDecrypted <- DecryptBool n bobCt (KeyLv0 bobKey) ;;
  carolCt <- ReencryptTLWELv0 n bobCt reencKeyBC ;;
  carolDecrypted <- DecryptBool n carolCt (KeyLv0 carolKey) ;;
  Ok (decryptedMessages, correct, bobDecrypted, carolDecrypted).

(** * Ciphertexts of another dimension

    C68: the security level is a global setting, and a ciphertext carries
    nothing but its numbers.  A ciphertext that is shorter than the current
    dimension makes every operation panic except Copy, which completes it with
    zeros; one that is longer is read as if it ended early, and the message is
    lost without an error.  The vocabulary is in WrongLenSpec.v; [panics] is in
    LevelSpec.v. *)
From Coq Require Import Lia List.
From Verif Require Import GoBase GoMem F64 Utils Spec Params Key Tlwe TlweMem Poly Fft Trlwe Trgsw Lut Evaluator CloudKey Gates ProxyReenc RunSpec LevelSpec WrongLenSpec
  Tiny TinyRun RlweProps WrongLen WrongKey.
Import ListNotations.
Local Open Scope Z_scope.

(** ** C68 *)

(** Linear operations, decryption and re-encryption reject a short ciphertext,
    whichever operand it is and whatever the rest. *)
Theorem C68_short_values : forall n, 0 <= n -> forall a b M k key rk, too_short n a ->
  panics (Add n a b) /\ panics (Add n b a) /\ panics (Sub n a b) /\ panics (Sub n b a) /\ panics (Mul n a b) /\ panics (Mul n b a) /\
  panics (AddMul n a b k) /\ panics (AddMul n b a k) /\ panics (SubMul n a b k) /\ panics (SubMul n b a k) /\ panics (Neg n a) /\
  panics (DecryptBool n a key) /\ panics (DecryptLWEMessage n a M key) /\ panics (ReencryptTLWELv0 n a rk).
Proof. exact wl_values. Qed.
Print Assumptions C68_short_values.

(** So do the gates, whatever the state of the evaluator and the key. *)
Theorem C68_short_gates : forall R tw twi pr, 0 <= lv0_N pr -> forall k (m : mem (FP (fft_ops R tw twi))) e a b c g,
  a < tnext m -> b < tnext m -> c < tnext m ->
  (too_short (lv0_N pr) (tm m a) \/ too_short (lv0_N pr) (tm m b) -> panics (gate_fun g _ pr m e a b k)) /\
  (too_short (lv0_N pr) (tm m a) -> panics (NOT _ pr m a)) /\
  (too_short (lv0_N pr) (tm m a) \/ too_short (lv0_N pr) (tm m b) \/ too_short (lv0_N pr) (tm m c) -> panics (MUX _ pr m e a b c k)).
Proof. exact wl_gates. Qed.
Print Assumptions C68_short_gates.

(** And every form of bootstrapping, with or without a table. *)
Theorem C68_short_bootstraps : forall R tw twi pr (m : mem (FP (fft_ops R tw twi))) e ct t f mm bsk ksk off out outr, ct < tnext m -> too_short (lv0_N pr) (tm m ct) ->
  panics (BlindRotateAssign _ pr m e ct t bsk off outr) /\ panics (BootstrapAssign _ pr m e ct t bsk ksk off out) /\ panics (Bootstrap _ pr m e ct t bsk ksk off) /\
  panics (BootstrapLUTAssign _ pr m e ct t bsk ksk off out) /\ panics (BootstrapLUT _ pr m e ct t bsk ksk off) /\ panics (BootstrapLUTTemp _ pr m e ct t bsk ksk off) /\
  panics (BootstrapFunc _ pr m e ct f mm bsk ksk off) /\ panics (BootstrapFuncAssign _ pr m e ct f mm bsk ksk off out).
Proof. exact wl_bootstraps. Qed.
Print Assumptions C68_short_bootstraps.

(** Copy does not: it returns a ciphertext of the current dimension whose
    missing entries, the body among them, are zero. *)
Theorem C68_copy_refuted : forall R tw twi pr, 0 <= lv0_N pr -> forall (m : mem (FP (fft_ops R tw twi))) a,
  0 <= a < tnext m -> too_short (lv0_N pr) (tm m a) ->
  exists r m', Copy _ pr m a = Ok (r, m') /\ tm m' r = tm m a ++ repeat 0 (Z.to_nat (lv0_N pr + 1 - zlen (tm m a))) /\
    zlen (tm m' r) = lv0_N pr + 1 /\ get (tm m' r) (lv0_N pr) = Ok 0.
Proof. exact wl_copy. Qed.
Print Assumptions C68_copy_refuted.

(** Of a long ciphertext only the first n+1 entries matter. *)
Theorem C68_long_values : forall n, 0 <= n -> forall a a' b b' k M key rk, same_start n a a' -> same_start n b b' ->
  Add n a b = Add n a' b' /\ Sub n a b = Sub n a' b' /\ Mul n a b = Mul n a' b' /\ AddMul n a b k = AddMul n a' b' k /\ SubMul n a b k = SubMul n a' b' k /\ Neg n a = Neg n a' /\
  DecryptBool n a key = DecryptBool n a' key /\ DecryptLWEMessage n a M key = DecryptLWEMessage n a' M key /\ ReencryptTLWELv0 n a rk = ReencryptTLWELv0 n a' rk /\
  forall g, gate_lin g n a b = gate_lin g n a' b'.
Proof. exact wl_long. Qed.
Print Assumptions C68_long_values.

Theorem C68_long_gates : forall O pr (m : mem (FP O)) e k g a a' b b', 0 <= lv0_N pr ->
  same_start (lv0_N pr) (tm m a) (tm m a') -> same_start (lv0_N pr) (tm m b) (tm m b') ->
  gate_fun g O pr m e a b k = gate_fun g O pr m e a' b' k /\ NOT O pr m a = NOT O pr m a'.
Proof. exact wl_long_gates. Qed.
Print Assumptions C68_long_gates.

(** Hence a ciphertext of a larger dimension n' is accepted and its message is
    not looked at: encryptions of true and of false with the same randomness
    decrypt to the same bit, and give the same result in every gate. *)
Theorem C68_larger_refuted : forall O pr n' P r key (m : mem (FP O)) e k g a a' b, 0 <= lv0_N pr < n' ->
  EncryptBool n' P true key r = Ok (tm m a) -> EncryptBool n' P false key r = Ok (tm m a') ->
  (forall key', DecryptBool (lv0_N pr) (tm m a) key' = DecryptBool (lv0_N pr) (tm m a') key') /\
  gate_fun g O pr m e a b k = gate_fun g O pr m e a' b k /\ gate_fun g O pr m e b a k = gate_fun g O pr m e b a' k /\ NOT O pr m a = NOT O pr m a'.
Proof. exact wl_larger_gates. Qed.
Print Assumptions C68_larger_refuted.

(** The same for keys.  A secret key with too few entries cannot be used, and
    of one with too many only the first n are. *)
Theorem C68_short_key : forall n key M ct P x b msg r, key_short n key ->
  panics (DecryptBool n ct key) /\ panics (DecryptLWEMessage n ct M key) /\
  panics (EncryptF64 n P x key r) /\ panics (EncryptBool n P b key r) /\ panics (EncryptLWEMessage n P msg M key r).
Proof. exact wk_values. Qed.
Print Assumptions C68_short_key.

Theorem C68_long_key : forall n key key' M ct P x b msg r, key_start n key key' ->
  DecryptBool n ct key = DecryptBool n ct key' /\ DecryptLWEMessage n ct M key = DecryptLWEMessage n ct M key' /\
  EncryptF64 n P x key r = EncryptF64 n P x key' r /\ EncryptBool n P b key r = EncryptBool n P b key' r /\ EncryptLWEMessage n P msg M key r = EncryptLWEMessage n P msg M key' r.
Proof. exact wk_values_long. Qed.
Print Assumptions C68_long_key.

(** No bootstrap and no gate works with a cloud key made for a smaller
    dimension; they all panic. *)
Theorem C68_short_cloud_key : forall O pr (m : mem (FP O)) e ct t f mm bsk ksk off out outr, key_short (lv0_N pr) bsk ->
  panics (BlindRotateAssign O pr m e ct t bsk off outr) /\ panics (BootstrapAssign O pr m e ct t bsk ksk off out) /\ panics (Bootstrap O pr m e ct t bsk ksk off) /\
  panics (BootstrapLUTAssign O pr m e ct t bsk ksk off out) /\ panics (BootstrapLUT O pr m e ct t bsk ksk off) /\ panics (BootstrapLUTTemp O pr m e ct t bsk ksk off) /\
  panics (BootstrapFunc O pr m e ct f mm bsk ksk off) /\ panics (BootstrapFuncAssign O pr m e ct f mm bsk ksk off out).
Proof. exact wk_bootstraps. Qed.
Print Assumptions C68_short_cloud_key.

Theorem C68_short_cloud_key_gates : forall O pr g (m : mem (FP O)) e a b c k, key_short (lv0_N pr) (gk_bsk k) ->
  panics (gate_fun g O pr m e a b k) /\ panics (MUX O pr m e a b c k).
Proof. exact wk_gates. Qed.
Print Assumptions C68_short_cloud_key_gates.

(** A cloud key made at a level of smaller dimension is such a key. *)
Theorem C68_smaller_level : forall R O pr sk rk rb ck pr', setup R O pr sk rk rb ck -> lv0_N pr < lv0_N pr' -> key_short (lv0_N pr') (BootstrappingKey ck).
Proof. intros R O pr sk rk rb ck pr' S L. destruct (r_bsk_schedule _ _ _ _ _ _ _ S) as (gs & _ & E & _). unfold key_short. rewrite E. exact L. Qed.
Print Assumptions C68_smaller_level.

(** Of a longer bootstrapping key only the first n parts are read. *)
Theorem C68_long_cloud_key : forall O pr (m : mem (FP O)) e ct t f mm bsk bsk' ksk off out outr, key_start (lv0_N pr) bsk bsk' ->
  BlindRotateAssign O pr m e ct t bsk off outr = BlindRotateAssign O pr m e ct t bsk' off outr /\
  BootstrapAssign O pr m e ct t bsk ksk off out = BootstrapAssign O pr m e ct t bsk' ksk off out /\ Bootstrap O pr m e ct t bsk ksk off = Bootstrap O pr m e ct t bsk' ksk off /\
  BootstrapLUTAssign O pr m e ct t bsk ksk off out = BootstrapLUTAssign O pr m e ct t bsk' ksk off out /\ BootstrapLUT O pr m e ct t bsk ksk off = BootstrapLUT O pr m e ct t bsk' ksk off /\
  BootstrapLUTTemp O pr m e ct t bsk ksk off = BootstrapLUTTemp O pr m e ct t bsk' ksk off /\
  BootstrapFunc O pr m e ct f mm bsk ksk off = BootstrapFunc O pr m e ct f mm bsk' ksk off /\
  BootstrapFuncAssign O pr m e ct f mm bsk ksk off out = BootstrapFuncAssign O pr m e ct f mm bsk' ksk off out.
Proof. exact wk_bootstraps_long. Qed.
Print Assumptions C68_long_cloud_key.

Theorem C68_long_cloud_key_gates : forall O pr g (m : mem (FP O)) e a b k k',
  gk_offset k = gk_offset k' -> gk_testvec k = gk_testvec k' -> gk_ksk k = gk_ksk k' -> key_start (lv0_N pr) (gk_bsk k) (gk_bsk k') ->
  gate_fun g O pr m e a b k = gate_fun g O pr m e a b k'.
Proof. exact wk_gates_long. Qed.
Print Assumptions C68_long_cloud_key_gates.

(** *** Cases: an encryption of dimension 3 used at dimension 5, and at dimension 2 *)
Definition wl_ct (b : bool) : list Z := tiny_enc b 0.
Example C68_short_case : too_short 5 (wl_ct true) /\ DecryptBool 5 (wl_ct true) [1; 0; 1; 1; 0] = Panic PIndex.
Proof. split; vm_compute; congruence. Qed.

(** [tiny] with another dimension *)
Definition wl_at (n : Z) : pset := {| lv0_N := n; lv0_ALPHA := lv0_ALPHA tiny; lv1_N := 16; lv1_ALPHA := lv1_ALPHA tiny; trlwe_N := 16; trlwe_ALPHA := trlwe_ALPHA tiny;
  g_N := 16; g_NBIT := 4; g_BGBIT := 8; g_BG := 256; g_L := 3; g_BASEBIT := 4; g_IKS_T := 6; g_ALPHA := g_ALPHA tiny; g_BlockSize := 3 |}.
Definition wl_mem : mem (FP tinyO) := let m0 := Mem (F := FP tinyO) (fun _ => []) (fun _ => []) (fun _ => 0) 0 0 0 in snd (alloc (snd (alloc m0 (wl_ct true))) (wl_ct false)).
(** at dimension 3 the two decrypt to true and false; at dimension 2 to one bit *)
Example C68_larger_case :
  (exists t r, NewTLWE 3 = Ok t /\ EncryptBool 3 t true (KeyLv0 tiny_key) r = Ok (tm wl_mem 0) /\ EncryptBool 3 t false (KeyLv0 tiny_key) r = Ok (tm wl_mem 1)) /\ 0 <= lv0_N (wl_at 2) < 3 /\
  DecryptBool 3 (tm wl_mem 0) (KeyLv0 tiny_key) = Ok true /\ DecryptBool 3 (tm wl_mem 1) (KeyLv0 tiny_key) = Ok false /\
  is_ok (DecryptBool 2 (tm wl_mem 0) [1; 0]) = true /\ DecryptBool 2 (tm wl_mem 0) [1; 0] = DecryptBool 2 (tm wl_mem 1) [1; 0].
Proof.
  split; [exists [0; 0; 0; 0], (tiny_rk 500000); split; [reflexivity|split; vm_compute; reflexivity]|]. split; [cbn; lia|]. repeat split; vm_compute; reflexivity.
Qed.
Example C68_copy_case : exists r m', Copy tinyO (wl_at 5) wl_mem 0 = Ok (r, m') /\ tm m' r = wl_ct true ++ [0; 0].
Proof. eexists _, _. split; [reflexivity|vm_compute; reflexivity]. Qed.
(** the key of dimension 3 at dimension 5, and at dimension 2 *)
Example C68_key_case : key_short 5 (KeyLv0 tiny_key) /\ key_start 2 (KeyLv0 tiny_key) [1; 0] /\ key_short 5 (BootstrappingKey tiny_ck) /\
  DecryptBool 2 (wl_ct true) (KeyLv0 tiny_key) = DecryptBool 2 (wl_ct true) [1; 0].
Proof.
  split; [reflexivity|]. split; [|split; [exact (C68_smaller_level _ _ _ _ _ _ _ (wl_at 5) tiny_setup eq_refl)|vm_compute; reflexivity]].
  intros i Hi. assert (C: i = 0 \/ i = 1) by lia. destruct C as [->| ->]; reflexivity.
Qed.

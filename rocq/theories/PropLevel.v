(** * Properties C34 and C35: shallow copies; gates at every security level

    The vocabulary is in LevelSpec.v and RunSpec.v.  [init] is the gates
    package's initialiser, which makes the one evaluator all gates use, for the
    128-bit level; [get_params level] are the parameters of a level. *)
From Coq Require Import Lia List String.
From Verif Require Import GoBase GoFacts GoMem F64 Utils Spec Params Key Tlwe Poly Fft FftTabErr Trlwe Trgsw Evaluator CloudKey Gates
  RunSpec RunProps RunWorst LevelSpec LevelProps Tiny TinyRun.
Import ListNotations.
Local Open Scope Z_scope.

(** ** C34 *)

(** ShallowCopy of an evaluator in any reachable state returns.  The copy has
    buffers of its own, all new and all different; nothing that existed is changed, the original
    stays usable, and so is the copy's polynomial evaluator. *)
Theorem C34_copy : forall (R : arith) O pr sk rk rb ck, setup R O pr sk rk rb ck ->
  forall e (m : mem (FP O)), reachable O pr e m ->
  exists c m', ShallowCopy O pr m e = Ok (c, m') /\
    (forall x, x < tnext m -> tm m' x = tm m x) /\ (forall x, x < fnext m -> fm m' x = fm m x) /\ (forall x, x < inext m -> im m' x = im m x) /\
    reachable O pr e m' /\ preachable O pr (ev_pe c) m' /\ new_buffers m m' c.
Proof. exact l_copy_made. Qed.
Print Assumptions C34_copy.

(** But no copy can multiply, rotate or bootstrap anything, whatever the
    arguments and whatever has happened since: each call panics. *)
Theorem C34_refuted : forall O pr, 1 <= g_L pr -> 0 < lv0_N pr ->
  forall (m0 : mem (FP O)) e c m1, ShallowCopy O pr m0 e = Ok (c, m1) ->
  forall m : mem (FP O),
  (forall g r off out, ExternalProductAssign O pr m c g r off out = Panic (PMsg "decomposition level exceeds buffer size")) /\
  (forall g r0 r1 off out, panics (CMuxAssign O pr m c g r0 r1 off out)) /\
  (forall ct tv bsk off out, panics (BlindRotateAssign O pr m c ct tv bsk off out)) /\
  (forall ct tv bsk ksk off out, panics (BootstrapAssign O pr m c ct tv bsk ksk off out)) /\
  (forall ct tv bsk ksk off, panics (Bootstrap O pr m c ct tv bsk ksk off)) /\
  (forall ct lut bsk ksk off, panics (BootstrapLUT O pr m c ct lut bsk ksk off)) /\
  (forall ct f mm bsk ksk off, panics (BootstrapFunc O pr m c ct f mm bsk ksk off)).
Proof. exact l_copy_panics. Qed.
Print Assumptions C34_refuted.

(** ** C35 *)

(** At the 128-bit level and at Uint1 the package's evaluator is in a state
    from which C27 to C29 apply to all gates and circuits. *)
Theorem C35_works : forall O level (m0 m1 : mem (FP O)) e, In level [Security128Bit; SecurityUint1] ->
  mem_ok m0 -> init O m0 = Ok (e, m1) -> reachable O (get_params level) e m1.
Proof. exact l_works. Qed.
Print Assumptions C35_works.

(** Gates keep the lengths of all buffers, so that the two theorems below hold
    after any history. *)
Theorem C35_sizes : forall (R : arith) tw twi pr g k (m : mem (list (AN R))) e a b r m',
  gate_fun g (fft_ops R tw twi) pr m e a b k = Ok (r, m') -> sizes_kept m m'.
Proof. exact sk_gate. Qed.
Print Assumptions C35_sizes.

(** At the levels Uint2 to Uint8 every gate panics, for all keys made at that
    level, all inputs and all histories after [init].  [tw2] and [twi2] are the
    tables of the evaluator with which the key was made. *)
Theorem C35_message_refuted : forall (R : arith) tw twi (m0 m1 m : mem (list (AN R))) e, mem_ok m0 ->
  init (fft_ops R tw twi) m0 = Ok (e, m1) -> sizes_kept m1 m ->
  forall level tw2 twi2 sk rk rb (ck : CloudKey (fft_ops R tw2 twi2)) (k : gkey (fft_ops R tw twi)), In level message_levels ->
  genTwiddleFactors R (g_N (get_params level) / 2) = Ok (tw2, twi2) ->
  setup R (fft_ops R tw2 twi2) (get_params level) sk rk rb ck -> gk_bsk k = BootstrappingKey ck ->
  (forall g a b, panics (gate_fun g (fft_ops R tw twi) (get_params level) m e a b k)) /\
  (forall a b c, panics (MUX (fft_ops R tw twi) (get_params level) m e a b c k)).
Proof. exact l_message. Qed.
Print Assumptions C35_message_refuted.

(** At the 80-bit and 110-bit levels a gate either panics or returns a
    ciphertext whose mask is zero: it decrypts to the same bit under every
    secret key, so that anyone can read it. *)
Theorem C35_smaller_refuted : forall (R : arith) tw twi (m0 m1 m : mem (list (AN R))) e, mem_ok m0 ->
  init (fft_ops R tw twi) m0 = Ok (e, m1) -> sizes_kept m1 m ->
  forall level tw2 twi2 sk rk rb (ck : CloudKey (fft_ops R tw2 twi2)) (k : gkey (fft_ops R tw twi)), In level smaller_levels ->
  setup R (fft_ops R tw2 twi2) (get_params level) sk rk rb ck -> gk_ksk k = KeySwitchingKey ck ->
  forall g a b r m', gate_fun g (fft_ops R tw twi) (get_params level) m e a b k = Ok (r, m') ->
  forall i, 0 <= i < lv0_N (get_params level) -> zn (tm m' r) i = 0.
Proof. exact l_smaller. Qed.
Print Assumptions C35_smaller_refuted.

(** ** The hypotheses are met *)

(** [init] returns, and at every level there are keys for any secret key. *)
Example C35_init : forall R : arith, exists tw twi e m1, fft_evaluator R 1024 = Ok (fft_ops R tw twi) /\
  init (fft_ops R tw twi) (empty_mem (f_nil (fft_ops R tw twi))) = Ok (e, m1).
Proof. exact l_init. Qed.
Example C35_keys : forall (R : arith) level sk rk rb, key_ok (get_params level) sk ->
  exists tw2 twi2 ck, genTwiddleFactors R (g_N (get_params level) / 2) = Ok (tw2, twi2) /\
    setup R (fft_ops R tw2 twi2) (get_params level) sk rk rb ck.
Proof. exact l_keys. Qed.
(** in particular for the secret key with all bits one *)
Example C35_secret : forall level, key_ok (get_params level) (ones_key (get_params level)).
Proof. exact l_secret. Qed.

(** Computed instances, small sizes, binary64.  An evaluator for dimension
    [n0], a key for dimension 3, and the OR of two encryptions. *)
Definition sized_for (n0 : Z) : pset := {|
  lv0_N := n0; lv0_ALPHA := lv0_ALPHA tiny; lv1_N := 16; lv1_ALPHA := lv1_ALPHA tiny; trlwe_N := 16; trlwe_ALPHA := trlwe_ALPHA tiny;
  g_N := 16; g_NBIT := 4; g_BGBIT := g_BGBIT tiny; g_BG := g_BG tiny; g_L := g_L tiny; g_BASEBIT := g_BASEBIT tiny; g_IKS_T := g_IKS_T tiny;
  g_ALPHA := g_ALPHA tiny; g_BlockSize := g_BlockSize tiny |}.
Definition tiny_or (O : fops) (ck : CloudKey O) (n0 : Z) (copied : bool) (a b : bool) : res bool :=
  '(e, m) <- NewEvaluator O (sized_for n0) (empty_mem (f_nil O)) 16 ;;
  '(e, m) <- (if copied then ShallowCopy O tiny m e else Ok (e, m)) ;;
  let '(ta, m) := alloc m (tA (BlindRotateTestvec ck)) in
  let '(tb, m) := alloc m (tB (BlindRotateTestvec ck)) in
  let '(x, m) := alloc m (tiny_enc a 0) in let '(y, m) := alloc m (tiny_enc b 1) in
  let k := {| gk_testvec := {| rA := ta; rB := tb |}; gk_bsk := BootstrappingKey ck; gk_ksk := KeySwitchingKey ck; gk_offset := DecompositionOffset ck |} in
  '(r, m) <- OR O tiny m e x y k ;; DecryptBool 3 (tm m r) (KeyLv0 tiny_key).
Example C35_computed : (let ck := tiny_ck in (is_ok (tiny_or tinyO ck 3 false true false), is_ok (tiny_or tinyO ck 5 false true false))) = (true, false).
Proof. vm_cast_no_check (eq_refl (true, false)). Qed.
Example C34_computed : tiny_or tinyO tiny_ck 3 true true false = Panic (PMsg "decomposition level exceeds buffer size").
Proof. vm_cast_no_check (@eq_refl (res bool) (Panic (PMsg "decomposition level exceeds buffer size"))). Qed.

(** * Properties C30 and C31: batches

    The vocabulary is in BatchSpec.v.  A schedule is a list of events: goroutine
    i gets an evaluator (a new one, or the one at some position of the pool),
    makes one more step of its blind rotation (there are lv0_N + 2), or puts its
    evaluator back.  [BatchBlindRotate ... evs = None] means [evs] is not a
    complete schedule of the program.  [pool_reachable] is every state of memory
    and pool after any batches under any schedules. *)
From Coq Require Import Lia List.
From Verif Require Import GoBase GoFacts GoMem F64 Utils Spec Params Key Tlwe Poly Fft FftTabErr Trlwe Trgsw Evaluator CloudKey Gates
  RunSpec BatchSpec RunProps RunWorst BatchProps Tiny TinyRun.
Import ListNotations.
Local Open Scope Z_scope.

(** ** C31 *)

(** Under every schedule and every behaviour of the pool BatchBlindRotate
    returns, without a panic, one result per input, and changes nothing outside
    the pool's evaluators.  If the pool hands out no evaluator twice during the
    batch, every result is the blind rotation of its input. *)
Theorem C31_schedules : forall (R : arith) O pr sk rk rb ck, setup R O pr sk rk rb ck ->
  forall (m : mem (FP O)) pool srcs tvr tv evs r, pool_reachable O pr m pool -> batch_args O pr m pool srcs tvr tv ->
  BatchBlindRotate O pr m pool srcs tvr (BootstrappingKey ck) (DecompositionOffset ck) evs = Some r ->
  exists rs m', r = Ok (rs, m') /\ zlen rs = zlen srcs /\ (forall x, outside_pool O m pool x -> tm m' x = tm m x) /\
    forall i, 0 <= i < zlen srcs -> exists t, znd None rs i = Some t /\
      (no_reuse O pr m pool srcs tvr (BootstrappingKey ck) (DecompositionOffset ck) evs ->
       rotation O pr (BootstrappingKey ck) (DecompositionOffset ck) (tm m (zn srcs i)) tv (lv0_N pr) = Ok (ct_at m' t)).
Proof. exact b_rotate. Qed.
Print Assumptions C31_schedules.

(** There is such a schedule for every batch. *)
Theorem C31_no_reuse_possible : forall (R : arith) O pr sk rk rb ck, setup R O pr sk rk rb ck ->
  forall (m : mem (FP O)) pool srcs tvr tv, pool_reachable O pr m pool -> batch_args O pr m pool srcs tvr tv ->
  exists evs rs m', no_reuse O pr m pool srcs tvr (BootstrappingKey ck) (DecompositionOffset ck) evs /\
    BatchBlindRotate O pr m pool srcs tvr (BootstrappingKey ck) (DecompositionOffset ck) evs = Some (Ok (rs, m')).
Proof. exact b_own. Qed.
Print Assumptions C31_no_reuse_possible.

(** With reuse the property is false: when the second goroutine gets the
    evaluator the first has put back, both results are the same object, which
    holds the blind rotation of the second input.  This is so for every key,
    every pair of inputs and every history, if the dimension is even... *)
Theorem C31_reuse_refuted : forall (R : arith) O pr sk rk rb ck, setup R O pr sk rk rb ck ->
  forall (m : mem (FP O)) pool x y tvr tv, pool_reachable O pr m pool -> batch_args O pr m pool [x; y] tvr tv ->
  Z.even (lv0_N pr) = true -> 0 < lv0_N pr ->
  exists t m', BatchBlindRotate O pr m pool [x; y] tvr (BootstrappingKey ck) (DecompositionOffset ck) (serial pr) = Some (Ok ([Some t; Some t], m')) /\
    rotation O pr (BootstrappingKey ck) (DecompositionOffset ck) (tm m y) tv (lv0_N pr) = Ok (ct_at m' t).
Proof. exact b_serial. Qed.
Print Assumptions C31_reuse_refuted.

(** ... which it is at the levels for booleans (80, 110 and 128 bits, and Uint1,
    the two last being those at which gates run at all, see C35). *)
Theorem C31_reuse_levels : forall level, In level [Security80Bit; Security110Bit; Security128Bit; SecurityUint1] ->
  Z.even (lv0_N (get_params level)) = true /\ 0 < lv0_N (get_params level).
Proof. intros level [<-|[<-|[<-|[<-|[]]]]]; split; reflexivity. Qed.
Print Assumptions C31_reuse_levels.

(** ** C30 *)

(** A batch gate other than BatchXNOR returns, position by position, exactly
    what the single gate returns for the same inputs, under every schedule in
    which the pool hands out no evaluator twice.  Under the other schedules it
    still returns, without a panic, one ciphertext per position. *)
Theorem C30_batch : forall (R : arith) O pr sk rk rb ck, setup R O pr sk rk rb ck ->
  forall g (m : mem (FP O)) pool inputs k evs r, pool_reachable O pr m pool -> batch_inputs O pr m pool inputs -> batch_key O m pool k ck ->
  batch_fun O pr g m pool inputs k evs = Some r ->
  exists outs, r = Ok outs /\ zlen outs = zlen inputs /\ forall i, 0 <= i < zlen inputs -> zlen (znd [] outs i) = lv0_N pr + 1 /\
    (gate_no_reuse O pr (batch_lin pr g) m pool inputs k evs -> forall e, reachable O pr e m -> key_at O m e k ck ->
      exists c m', gate_fun (single g) O pr m e (fst (znd (0, 0) inputs i)) (snd (znd (0, 0) inputs i)) k = Ok (c, m') /\ znd [] outs i = tm m' c).
Proof. exact b_gate. Qed.
Print Assumptions C30_batch.

(** The truth tables, from the noise of the bootstraps of the run... *)
Theorem C30_truth : forall (R : arith) O pr sk rk rb ck, setup R O pr sk rk rb ck ->
  forall g (m : mem (FP O)) pool inputs k evs outs va vb Ea Eb T,
  pool_reachable O pr m pool -> batch_inputs O pr m pool inputs -> batch_key O m pool k ck ->
  gate_no_reuse O pr (batch_lin pr g) m pool inputs k evs ->
  (forall i, 0 <= i < zlen inputs -> encrypts (lv0_N pr) (KeyLv0 sk) (tm m (fst (znd (0, 0) inputs i))) (va i) Ea /\
     encrypts (lv0_N pr) (KeyLv0 sk) (tm m (snd (znd (0, 0) inputs i))) (vb i) Eb) ->
  Ea + mult (single g) * Eb + round_err pr sk < 2 ^ 29 -> T < 2 ^ 29 ->
  (forall i p, 0 <= i < zlen inputs ->
    gate_lin (single g) (lv0_N pr) (tm m (fst (znd (0, 0) inputs i))) (tm m (snd (znd (0, 0) inputs i))) = Ok p ->
    boot_noise O pr sk ck (BlindRotateTestvec ck) p T) ->
  batch_fun O pr g m pool inputs k evs = Some (Ok outs) ->
  zlen outs = zlen inputs /\
  forall i, 0 <= i < zlen inputs -> DecryptBool (lv0_N pr) (znd [] outs i) (KeyLv0 sk) = Ok (truth (single g) (va i) (vb i)).
Proof. exact b_gate_truth. Qed.
Print Assumptions C30_truth.

(** ... and in binary64 from bounds on the noise of the keys alone. *)
Theorem C30_truth_float64 : forall mc O pr sk rk rb ck, mc_ok mc -> setup (f64_arith mc) O pr sk rk rb ck ->
  forall Bb Bk d d', fft_error_within pr d d' -> key_noise_within pr rk rb Bb Bk -> 0 <= Bb -> 0 <= Bk -> 0 <= d' ->
  forall g (m : mem (FP O)) pool inputs k evs outs va vb Ea Eb,
  pool_reachable O pr m pool -> batch_inputs O pr m pool inputs -> batch_key O m pool k ck ->
  gate_no_reuse O pr (batch_lin pr g) m pool inputs k evs ->
  (forall i, 0 <= i < zlen inputs -> encrypts (lv0_N pr) (KeyLv0 sk) (tm m (fst (znd (0, 0) inputs i))) (va i) Ea /\
     encrypts (lv0_N pr) (KeyLv0 sk) (tm m (snd (znd (0, 0) inputs i))) (vb i) Eb) ->
  Ea + mult (single g) * Eb + round_err pr sk < 2 ^ 29 -> worst_noise pr sk Bb Bk d d' < 2 ^ 29 ->
  batch_fun O pr g m pool inputs k evs = Some (Ok outs) ->
  zlen outs = zlen inputs /\
  forall i, 0 <= i < zlen inputs -> DecryptBool (lv0_N pr) (znd [] outs i) (KeyLv0 sk) = Ok (truth (single g) (va i) (vb i)).
Proof. exact b_gate_worst. Qed.
Print Assumptions C30_truth_float64.

(** BatchXNOR returns encryptions of the exclusive or, so the wrong bit for
    every input. *)
Theorem C30_xnor_refuted : forall (R : arith) O pr sk rk rb ck, setup R O pr sk rk rb ck ->
  forall (m : mem (FP O)) pool inputs k evs outs va vb Ea Eb T,
  pool_reachable O pr m pool -> batch_inputs O pr m pool inputs -> batch_key O m pool k ck ->
  gate_no_reuse O pr (batch_xnor_lin (lv0_N pr)) m pool inputs k evs ->
  (forall i, 0 <= i < zlen inputs -> encrypts (lv0_N pr) (KeyLv0 sk) (tm m (fst (znd (0, 0) inputs i))) (va i) Ea /\
     encrypts (lv0_N pr) (KeyLv0 sk) (tm m (snd (znd (0, 0) inputs i))) (vb i) Eb) ->
  Ea + 2 * Eb + round_err pr sk < 2 ^ 29 -> T < 2 ^ 29 ->
  (forall i p, 0 <= i < zlen inputs ->
    batch_xnor_lin (lv0_N pr) (tm m (fst (znd (0, 0) inputs i))) (tm m (snd (znd (0, 0) inputs i))) = Ok p ->
    boot_noise O pr sk ck (BlindRotateTestvec ck) p T) ->
  BatchXNOR O pr m pool inputs k evs = Some (Ok outs) ->
  zlen outs = zlen inputs /\
  forall i, 0 <= i < zlen inputs -> DecryptBool (lv0_N pr) (znd [] outs i) (KeyLv0 sk) = Ok (xorb (va i) (vb i)).
Proof. exact b_xnor. Qed.
Print Assumptions C30_xnor_refuted.

(** With reuse the first position of a batch of two gets the result of the
    second, at the levels of C31_reuse_levels. *)
Theorem C30_reuse_refuted : forall (R : arith) O pr sk rk rb ck, setup R O pr sk rk rb ck ->
  forall g (m : mem (FP O)) pool ab cd k e, pool_reachable O pr m pool -> batch_inputs O pr m pool [ab; cd] -> batch_key O m pool k ck ->
  Z.even (lv0_N pr) = true -> 0 < lv0_N pr -> reachable O pr e m -> key_at O m e k ck ->
  exists c m', gate_fun (single g) O pr m e (fst cd) (snd cd) k = Ok (c, m') /\
    batch_fun O pr g m pool [ab; cd] k (serial pr) = Some (Ok [tm m' c; tm m' c]).
Proof. exact b_gate_serial. Qed.
Print Assumptions C30_reuse_refuted.

(** ** The hypotheses are met *)

(** every [setup] has starting states, with encryptions of any bits *)
Example C30_start : forall (R : arith) O pr sk rk rb ck, setup R O pr sk rk rb ck ->
  forall (bits : list bool) (r : Z -> enc_rand) E, (forall i, Z.abs (centered (F64ToTorus (er_noise (r i)))) <= E) ->
  exists e (m : mem (FP O)) k w, reachable O pr e m /\ key_at O m e k ck /\ pool_reachable O pr m [] /\ batch_key O m [] k ck /\
    Forall2 (fun x b => outside_pool O m [] x /\ encrypts (lv0_N pr) (KeyLv0 sk) (tm m x) b E) w bits.
Proof. exact b_start. Qed.
(** and every batch has schedules without reuse *)
Example C30_schedule : forall (R : arith) O pr sk rk rb ck, setup R O pr sk rk rb ck ->
  forall g (m : mem (FP O)) pool inputs k, pool_reachable O pr m pool -> batch_inputs O pr m pool inputs -> batch_key O m pool k ck ->
  exists evs outs, gate_no_reuse O pr (batch_lin pr g) m pool inputs k evs /\ batch_fun O pr g m pool inputs k evs = Some (Ok outs).
Proof. exact b_gate_own. Qed.

(** All hypotheses of C30_truth_float64 at once: a batch of two ANDs. *)
Example C30_full : exists mc O ck, mc_ok mc /\ setup (f64_arith mc) O tiny tiny_key tiny_rk tiny_rb ck /\
  exists (m : mem (FP O)) k a b c evs outs, pool_reachable O tiny m [] /\ batch_key O m [] k ck /\
    batch_fun O tiny Band m [] [(a, b); (b, c)] k evs = Some (Ok outs) /\
    map (fun o => DecryptBool 3 o (KeyLv0 tiny_key)) outs = [Ok true; Ok false].
Proof.
  destruct (setup_exists (f64_arith mc0) tiny tiny_key tiny_rk tiny_rb tiny_params ltac:(cbn; lia) tiny_key_ok) as (O & ck & S).
  exists mc0, O, ck. split; [exact mc0_ok|]. split; [exact S|].
  destruct (C30_start _ O tiny tiny_key tiny_rk tiny_rb ck S [true; true; false] tiny_rk 16) as (e & m & k & w & Hr & Hk & Hp & Hb & Hw).
  { intro i. apply small_noise_le. }
  inversion Hw as [|a x1 w1 x2 [Oa Ea] H1]; subst. inversion H1 as [|b y1 w2 y2 [Ob Eb] H2]; subst. inversion H2 as [|c z1 w3 z2 [Oc Ec] H3]; subst.
  inversion H3; subst. exists m, k, a, b, c.
  assert (La: zlen (tm m a) = 3 + 1) by apply Ea. assert (Lb: zlen (tm m b) = 3 + 1) by apply Eb. assert (Lc: zlen (tm m c) = 3 + 1) by apply Ec.
  assert (Hi: batch_inputs O tiny m [] [(a, b); (b, c)]) by (repeat constructor; cbn [fst snd]; assumption || apply Oa || apply Ob || apply Oc).
  destruct (C30_schedule _ O tiny tiny_key tiny_rk tiny_rb ck S Band m [] _ k Hp Hi Hb) as (evs & outs & NR & E).
  exists evs, outs. split; [exact Hp|]. split; [exact Hb|]. split; [exact E|].
  assert (W: fft_error_within tiny 1 0) by (vm_compute; repeat split; congruence).
  destruct (C30_truth_float64 mc0 O tiny tiny_key tiny_rk tiny_rb ck mc0_ok S 16 16 1 0 W tiny_key_noise ltac:(lia) ltac:(lia) ltac:(lia)
    Band m [] [(a, b); (b, c)] k evs outs (fun i => true) (fun i => i =? 0) 16 16 Hp Hi Hb NR) as [Lo Ho].
  { intros i Hii. change (zlen [(a, b); (b, c)]) with 2 in Hii. assert (X: i = 0 \/ i = 1) by lia. destruct X as [-> | ->]; split; assumption. }
  { vm_compute. reflexivity. } { vm_compute. reflexivity. } { exact E. }
  change (zlen [(a, b); (b, c)]) with 2 in *. pose proof (Ho 0 ltac:(lia)) as A. pose proof (Ho 1 ltac:(lia)) as B.
  destruct outs as [|o0 [|o1 [|o2 outs]]]; try (unfold zlen in Lo; cbn [length] in Lo; lia). cbn [map]. f_equal; [exact A|f_equal; exact B].
Qed.

(** A computed instance of the reuse, in binary64 with an even dimension: AND of
    (true, true) and (true, false).  Under [serial] both positions decrypt to
    false; with an evaluator each, the first decrypts to true. *)
Definition tiny4 : pset := {|
  lv0_N := 4; lv0_ALPHA := lv0_ALPHA tiny; lv1_N := 16; lv1_ALPHA := lv1_ALPHA tiny; trlwe_N := 16; trlwe_ALPHA := trlwe_ALPHA tiny;
  g_N := 16; g_NBIT := 4; g_BGBIT := 8; g_BG := 256; g_L := 3; g_BASEBIT := 4; g_IKS_T := 6; g_ALPHA := g_ALPHA tiny; g_BlockSize := 2 |}.
Definition tiny4_key : SecretKey := {| KeyLv0 := [1; 0; 1; 1]; KeyLv1 := KeyLv1 tiny_key |}.
Definition tiny4_and (O : fops) (evs : list bevent) : res (list bool) :=
  ck <- NewCloudKey O tiny4 tiny4_key tiny_rk tiny_rb ;;
  let enc b i := t <- NewTLWE 4 ;; EncryptBool 4 t b (KeyLv0 tiny4_key) (tiny_rk (500000 + i)) in
  x <- enc true 0 ;; y <- enc true 1 ;; z <- enc false 2 ;;
  let m := empty_mem (f_nil O) in
  let '(ta, m) := alloc m (tA (BlindRotateTestvec ck)) in
  let '(tb, m) := alloc m (tB (BlindRotateTestvec ck)) in
  let '(a, m) := alloc m x in let '(b, m) := alloc m y in let '(c, m) := alloc m z in
  let k := {| gk_testvec := {| rA := ta; rB := tb |}; gk_bsk := BootstrappingKey ck; gk_ksk := KeySwitchingKey ck; gk_offset := DecompositionOffset ck |} in
  match BatchAND O tiny4 m [] [(a, b); (b, c)] k evs with
  | Some (Ok outs) => for_each outs (fun _ o l => v <- DecryptBool 4 o (KeyLv0 tiny4_key) ;; Ok (l ++ [v])) []
  | _ => Panic PNil
  end.
Example C31_reuse_computed : tiny4_and tinyO (serial tiny4) = Ok [false; false] /\ tiny4_and tinyO (own_blocks tiny4 2 0) = Ok [true; false].
Proof. split; vm_compute; reflexivity. Qed.

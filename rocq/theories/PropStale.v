(** * Property C58: batches across changes of the security level

    The evaluators of the batch operations come from one pool for the whole
    program, which outlives changes of the level.  The vocabulary is in
    LevelSpec.v and BatchSpec.v. *)
From Coq Require Import Lia List.
From Verif Require Import GoBase GoFacts GoMem F64 Utils Spec Params Key Tlwe Poly Fft Trlwe Trgsw Evaluator CloudKey Gates
  RunSpec BatchSpec LevelSpec LevelProps StaleProps Tiny TinyRun.
Import ListNotations.
Local Open Scope Z_scope.

(** A pool filled at one level serves every other level of the same ring size:
    C30 and C31 apply there, whatever the other parameters. *)
Theorem C58_same_ring : forall O pr pr' (m : mem (FP O)) pool, g_N pr = g_N pr' ->
  pool_reachable O pr m pool -> pool_reachable O pr' m pool.
Proof. exact s_same_ring. Qed.
Print Assumptions C58_same_ring.

(** The ring sizes of the levels. *)
Theorem C58_ring_sizes : forall level,
  g_N (get_params level) = if level =? 2 then 512 else if (4 <=? level) && (level <=? 8) then 2048 else 1024.
Proof. exact s_ring_sizes. Qed.
Print Assumptions C58_ring_sizes.

(** With an evaluator of another ring size no blind rotation returns, whatever
    the key, the input, the test vector and the history: the goroutine panics,
    and with it the program. *)
Theorem C58_rotation_refuted : forall (R : arith) tw twi N' pr tw2 twi2 sk rk rb (ck : CloudKey (fft_ops R tw2 twi2)), 0 < lv0_N pr ->
  genTwiddleFactors R (g_N pr / 2) = Ok (tw2, twi2) -> setup R (fft_ops R tw2 twi2) pr sk rk rb ck -> g_N pr <> N' ->
  forall (m : mem (list (AN R))) p src tv, made_for R tw twi N' m p ->
  panics (BlindRotate (fft_ops R tw twi) pr m src tv (BootstrappingKey ck) (DecompositionOffset ck) p).
Proof. exact s_rotation. Qed.
Print Assumptions C58_rotation_refuted.

(** So no batch returns whose goroutines get evaluators that the pool has from a
    level of another ring size, under any schedule ... *)
Theorem C58_batch_refuted : forall (R : arith) tw twi N' pr tw2 twi2 sk rk rb (ck : CloudKey (fft_ops R tw2 twi2)), 0 < lv0_N pr ->
  genTwiddleFactors R (g_N pr / 2) = Ok (tw2, twi2) -> setup R (fft_ops R tw2 twi2) pr sk rk rb ck -> g_N pr <> N' ->
  forall (m : mem (list (AN R))) pool srcs tv evs r, Forall (made_for R tw twi N' m) pool -> srcs <> [] -> from_pool evs ->
  BatchBlindRotate (fft_ops R tw twi) pr m pool srcs tv (BootstrappingKey ck) (DecompositionOffset ck) evs = Some r -> panics r.
Proof. exact s_batch. Qed.
Print Assumptions C58_batch_refuted.

(** ... nor does any batch gate. *)
Theorem C58_gates_refuted : forall (R : arith) tw twi N' pr tw2 twi2 sk rk rb (ck : CloudKey (fft_ops R tw2 twi2)), 0 < lv0_N pr ->
  genTwiddleFactors R (g_N pr / 2) = Ok (tw2, twi2) -> setup R (fft_ops R tw2 twi2) pr sk rk rb ck -> g_N pr <> N' ->
  forall (k : gkey (fft_ops R tw twi)) (m : mem (list (AN R))) pool inputs evs r, gk_bsk k = BootstrappingKey ck ->
  Forall (made_for R tw twi N' m) pool -> inputs <> [] -> from_pool evs ->
  (forall g, batch_fun (fft_ops R tw twi) pr g m pool inputs k evs = Some r -> panics r) /\
  (BatchXNOR (fft_ops R tw twi) pr m pool inputs k evs = Some r -> panics r).
Proof. exact s_gate. Qed.
Print Assumptions C58_gates_refuted.

(** ** The hypotheses are met *)

(** Keys exist at every level (C35_keys), and for instance a pool with one
    evaluator from a level of ring size 2048. *)
Example C58_pool : forall (R : arith) tw twi, exists (m : mem (list (AN R))) p, made_for R tw twi 2048 m p.
Proof.
  intros R tw twi. destruct (NewPolyEvaluator (fft_ops R tw twi) (empty_mem []) 2048) as [[p m]|e] eqn:E.
  - exists m, p, (empty_mem []), m. split; [repeat split; discriminate|]. split; [exact E|]. repeat split; lia.
  - exfalso. revert E. unfold NewPolyEvaluator, newEvaluationBuffer, NewPoly. change (f_new (fft_ops R tw twi)) with (NewFourierPoly R). unfold NewFourierPoly.
    change (check_degree 2048) with (Ok tt). rewrite !make_ok by lia. cbn [bind alloc_ts alloc_fs alloc_is]. discriminate.
Qed.

(** Computed instances, small sizes, binary64: the AND of (true, true) in a batch
    of one at ring size 16, with an evaluator of degree [N'] from the pool. *)
Definition tiny_batch (N' : Z) : res bool :=
  '(tw', twi') <- genTwiddleFactors tinyR (N' / 2) ;; '(tw, twi) <- genTwiddleFactors tinyR 8 ;;
  ck <- NewCloudKey (fft_ops tinyR tw twi) tiny tiny_key tiny_rk tiny_rb ;;
  '(p, m) <- NewPolyEvaluator (fft_ops tinyR tw' twi') (empty_mem []) N' ;;
  let '(ta, m) := alloc m (tA (BlindRotateTestvec ck)) in
  let '(tb, m) := alloc m (tB (BlindRotateTestvec ck)) in
  let '(x, m) := alloc m (tiny_enc true 0) in let '(y, m) := alloc m (tiny_enc true 1) in
  let k := Build_gkey (fft_ops tinyR tw' twi') (DecompositionOffset ck) {| rA := ta; rB := tb |} (KeySwitchingKey ck) (BootstrappingKey ck) in
  match BatchAND (fft_ops tinyR tw' twi') tiny m [p] [(x, y)] k (BGet 0 (Some 0) :: repeat (BStep 0) 5 ++ [BPut 0]) with
  | Some (Ok [o]) => DecryptBool 3 o (KeyLv0 tiny_key)
  | Some (Panic e) => Panic e
  | _ => Panic PNil
  end.
Example C58_computed : tiny_batch 16 = Ok true /\ tiny_batch 32 = Panic PIndex.
Proof. split; vm_compute; reflexivity. Qed.

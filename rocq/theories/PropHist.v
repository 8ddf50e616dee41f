(** * Properties C32 (lifetime of results) and C33 (independence of history)

    [after e keep j m m'] (RunSpec.v): m' follows m by any operations on the
    evaluator, user writes included, that draw [j] result buffers and are not
    asked to write to a buffer in [keep]; [runs] is the same with resets
    allowed and no counting. *)
From Coq Require Import Lia List.
From Verif Require Import GoBase GoFacts GoMem F64 Utils Spec Params Key Tlwe Poly Fft FftTabErr Trlwe Trgsw Evaluator CloudKey Gates
  BasicFacts RunSpec Circuit RunProps RlweProps HistProps RunWorst RunStart Tiny TinyRun.
Import ListNotations.
Local Open Scope Z_scope.

(** ** C32: a result lives until the fourth bootstrap after it *)
Theorem C32_lifetime : forall R O pr sk rk rb ck, setup R O pr sk rk rb ck ->
  forall e (m : mem (FP O)) ct tvr tv, reachable O pr e m -> input O pr m e ct -> table O pr m e tvr tv ->
  exists r m1, Bootstrap O pr m e ct tvr (BootstrappingKey ck) (KeySwitchingKey ck) (DecompositionOffset ck) = Ok (r, m1) /\
    ring e r /\ reachable O pr e m1 /\
    (forall j m2, after O pr e (eq r) j m1 m2 -> j <= 3 -> tm m2 r = tm m1 r) /\
    (forall keep j m2 ct2 tvr2 tv2, after O pr e keep j m1 m2 -> reachable O pr e m2 -> input O pr m2 e ct2 -> table O pr m2 e tvr2 tv2 ->
      exists r' m3, Bootstrap O pr m2 e ct2 tvr2 (BootstrappingKey ck) (KeySwitchingKey ck) (DecompositionOffset ck) = Ok (r', m3) /\
        ring e r' /\ (j < 3 -> r' <> r) /\ (j = 3 -> r' = r)).
Proof. exact h_result. Qed.
Print Assumptions C32_lifetime.

(** after a reset the next result reuses a buffer handed out before it *)
Theorem C32_reset : forall R O pr sk rk rb ck, setup R O pr sk rk rb ck ->
  forall e (m : mem (FP O)) ct tvr tv ct2 tvr2 tv2, reachable O pr e m -> input O pr m e ct -> table O pr m e tvr tv ->
  exists r m1,
    Bootstrap O pr (ResetBuffers O m e) e ct tvr (BootstrappingKey ck) (KeySwitchingKey ck) (DecompositionOffset ck) = Ok (r, m1) /\
    (input O pr m1 e ct2 -> table O pr m1 e tvr2 tv2 -> exists m2,
      Bootstrap O pr (ResetBuffers O m1 e) e ct2 tvr2 (BootstrappingKey ck) (KeySwitchingKey ck) (DecompositionOffset ck) = Ok (r, m2)).
Proof. exact h_reset. Qed.
Print Assumptions C32_reset.

(** a buffer of the user's own keeps its contents as long as nobody is asked
    to write to it *)
Theorem C32_user_buffers : forall R O pr sk rk rb ck, setup R O pr sk rk rb ck ->
  forall e (m m' : mem (FP O)) x, reachable O pr e m -> user m e x -> runs O pr e (eq x) m m' -> user m' e x /\ tm m' x = tm m x.
Proof. exact h_user. Qed.
Print Assumptions C32_user_buffers.

(** ** C33: equal inputs give equal outputs in any two states *)
Theorem C33_bootstrap : forall R O pr sk rk rb ck, setup R O pr sk rk rb ck ->
  forall e1 (m1 : mem (FP O)) c1 t1 e2 (m2 : mem (FP O)) c2 t2 tv, reachable O pr e1 m1 -> reachable O pr e2 m2 ->
  input O pr m1 e1 c1 -> input O pr m2 e2 c2 -> tm m2 c2 = tm m1 c1 -> table O pr m1 e1 t1 tv -> table O pr m2 e2 t2 tv ->
  exists r1 m1' r2 m2',
    Bootstrap O pr m1 e1 c1 t1 (BootstrappingKey ck) (KeySwitchingKey ck) (DecompositionOffset ck) = Ok (r1, m1') /\
    Bootstrap O pr m2 e2 c2 t2 (BootstrappingKey ck) (KeySwitchingKey ck) (DecompositionOffset ck) = Ok (r2, m2') /\
    tm m2' r2 = tm m1' r1.
Proof. exact h_bootstrap. Qed.
Print Assumptions C33_bootstrap.

Theorem C33_bootstrap_assign : forall R O pr sk rk rb ck, setup R O pr sk rk rb ck ->
  forall e1 (m1 : mem (FP O)) c1 t1 o1 e2 (m2 : mem (FP O)) c2 t2 o2 tv, reachable O pr e1 m1 -> reachable O pr e2 m2 ->
  input O pr m1 e1 c1 -> input O pr m2 e2 c2 -> tm m2 c2 = tm m1 c1 -> table O pr m1 e1 t1 tv -> table O pr m2 e2 t2 tv ->
  input O pr m1 e1 o1 -> input O pr m2 e2 o2 ->
  exists m1' m2',
    BootstrapAssign O pr m1 e1 c1 t1 (BootstrappingKey ck) (KeySwitchingKey ck) (DecompositionOffset ck) o1 = Ok m1' /\
    BootstrapAssign O pr m2 e2 c2 t2 (BootstrappingKey ck) (KeySwitchingKey ck) (DecompositionOffset ck) o2 = Ok m2' /\
    tm m2' o2 = tm m1' o1.
Proof. exact h_assign. Qed.
Print Assumptions C33_bootstrap_assign.

Theorem C33_rotate : forall R O pr sk rk rb ck, setup R O pr sk rk rb ck ->
  forall e1 (m1 : mem (FP O)) c1 t1 o1 e2 (m2 : mem (FP O)) c2 t2 o2 tv, reachable O pr e1 m1 -> reachable O pr e2 m2 ->
  input O pr m1 e1 c1 -> input O pr m2 e2 c2 -> tm m2 c2 = tm m1 c1 -> table O pr m1 e1 t1 tv -> table O pr m2 e2 t2 tv ->
  room O pr m1 e1 o1 -> room O pr m2 e2 o2 ->
  exists m1' m2',
    BlindRotateAssign O pr m1 e1 c1 t1 (BootstrappingKey ck) (DecompositionOffset ck) o1 = Ok m1' /\
    BlindRotateAssign O pr m2 e2 c2 t2 (BootstrappingKey ck) (DecompositionOffset ck) o2 = Ok m2' /\
    ct_at m2' o2 = ct_at m1' o1.
Proof. exact h_rotate. Qed.
Print Assumptions C33_rotate.

(** any program of gate calls: the same outputs, or the same panic *)
Theorem C33_programs : forall R O pr sk rk rb ck, setup R O pr sk rk rb ck ->
  forall p e1 (m1 : mem (FP O)) k1 w1 e2 (m2 : mem (FP O)) k2 w2, reachable O pr e1 m1 -> reachable O pr e2 m2 ->
  key_at O m1 e1 k1 ck -> key_at O m2 e2 k2 ck ->
  Forall2 (fun x y => user m1 e1 x /\ user m2 e2 y /\ tm m2 y = tm m1 x /\ zlen (tm m1 x) = lv0_N pr + 1) w1 w2 ->
  match exec O pr e1 k1 p w1 m1, exec O pr e2 k2 p w2 m2 with
  | Ok (w1', m1'), Ok (w2', m2') => Forall2 (fun x y => tm m2' y = tm m1' x) w1' w2'
  | Panic x, Panic y => y = x
  | _, _ => False
  end.
Proof. exact h_programs. Qed.
Print Assumptions C33_programs.

Theorem C33_product : forall R O pr, good_params pr -> fft_evaluator R (g_N pr) = Ok O ->
  forall s p rs g off e1 (m1 : mem (FP O)) r1 o1 e2 (m2 : mem (FP O)) r2 o2 c, zlen s = g_N pr -> trgsw_of O pr s p rs g ->
  reachable O pr e1 m1 -> reachable O pr e2 m2 -> table O pr m1 e1 r1 c -> table O pr m2 e2 r2 c -> room O pr m1 e1 o1 -> room O pr m2 e2 o2 ->
  exists m1' m2', ExternalProductAssign O pr m1 e1 g r1 off o1 = Ok m1' /\ ExternalProductAssign O pr m2 e2 g r2 off o2 = Ok m2' /\
    ct_at m2' o2 = ct_at m1' o1.
Proof. exact h_product. Qed.
Print Assumptions C33_product.

Theorem C33_cmux : forall R O pr, good_params pr -> fft_evaluator R (g_N pr) = Ok O ->
  forall s p rs g off e1 (m1 : mem (FP O)) a1 b1 o1 e2 (m2 : mem (FP O)) a2 b2 o2 c0 c1, zlen s = g_N pr -> trgsw_of O pr s p rs g ->
  reachable O pr e1 m1 -> reachable O pr e2 m2 -> table O pr m1 e1 a1 c0 -> table O pr m2 e2 a2 c0 ->
  table O pr m1 e1 b1 c1 -> table O pr m2 e2 b2 c1 -> room O pr m1 e1 o1 -> room O pr m2 e2 o2 ->
  a1 = o1 \/ disjoint a1 o1 -> disjoint b1 o1 -> a2 = o2 \/ disjoint a2 o2 -> disjoint b2 o2 ->
  exists m1' m2', CMuxAssign O pr m1 e1 g a1 b1 off o1 = Ok m1' /\ CMuxAssign O pr m2 e2 g a2 b2 off o2 = Ok m2' /\
    ct_at m2' o2 = ct_at m1' o1.
Proof. exact h_cmux. Qed.
Print Assumptions C33_cmux.

(** ** States that meet the hypotheses *)

(** a reachable state with inputs and a table in it exists for every setup
    (PropRlwe.C20_start), and any number of bootstraps can follow *)
Example C32_after : forall R O pr sk rk rb ck, setup R O pr sk rk rb ck -> forall keep e (m : mem (FP O)) ct tvr tv,
  reachable O pr e m -> user m e ct -> zlen (tm m ct) = lv0_N pr + 1 -> table O pr m e tvr tv ->
  forall j, 0 <= j -> exists m2, after O pr e keep j m m2 /\ reachable O pr e m2 /\ user m2 e ct /\ tm m2 ct = tm m ct /\ table O pr m2 e tvr tv.
Proof. exact s_after. Qed.

(** one bootstrap of [ct0], then four of [ct1]: where the first result is, its
    contents at the start, after three and after four further bootstraps, and
    where the last result is *)
Definition five (O : fops) (ck : CloudKey O) (ct0 ct1 : list Z) : res (Z * list Z * list Z * list Z * Z) :=
  '(e, m) <- NewEvaluator O tiny (empty_mem (f_nil O)) (g_N tiny) ;;
  let '(a, m) := alloc m (tA (BlindRotateTestvec ck)) in
  let '(b, m) := alloc m (tB (BlindRotateTestvec ck)) in
  let '(x, m) := alloc m ct0 in
  let '(y, m) := alloc m ct1 in
  let boot m z := Bootstrap O tiny m e z {| rA := a; rB := b |} (BootstrappingKey ck) (KeySwitchingKey ck) (DecompositionOffset ck) in
  '(r, m1) <- boot m x ;; '(_, m2) <- boot m1 y ;; '(_, m3) <- boot m2 y ;; '(_, m4) <- boot m3 y ;; '(r', m5) <- boot m4 y ;;
  Ok (r, tm m1 r, tm m4 r, tm m5 r, r').

(** a binary64 run: three bootstraps of an encryption of false leave the
    result for true alone, the fourth overwrites it and now it decrypts to
    false *)
Example C32_run :
  ('(r, v1, v4, v5, r') <- five tinyO tiny_ck (tiny_enc true 0) (tiny_enc false 1) ;;
   b1 <- DecryptBool 3 v1 (KeyLv0 tiny_key) ;; b4 <- DecryptBool 3 v4 (KeyLv0 tiny_key) ;; b5 <- DecryptBool 3 v5 (KeyLv0 tiny_key) ;;
   Ok ((r =? r') && b1 && b4 && negb b5)%bool) = Ok true.
Proof. vm_compute. reflexivity. Qed.

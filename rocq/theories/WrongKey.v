(** * Keys of a wrong length (C68) *)
From Coq Require Import Lia ZifyBool List.
From Verif Require Import GoBase GoFacts GoMem F64 Utils Params Tlwe TlweMem Poly Fft Trlwe Trgsw Lut Evaluator Gates RunSpec LevelSpec LenFacts WrongLenSpec WrongLen.
Import ListNotations.
Local Open Scope Z_scope.
Ltac Zify.zify_post_hook ::= idtac.

Lemma bind_same {A B} (r : res A) (f g : A -> res B) : (forall a, f a = g a) -> bind r f = bind r g.
Proof. intro H. destruct r as [a|]; [apply H|reflexivity]. Qed.
Lemma loop_key {S A} n (k : list A) (body : Z -> S -> res S) s : key_short n k ->
  (forall i s, panics (get k i) -> panics (body i s)) -> panics (for_range 0 n body s).
Proof.
  unfold key_short. intros H B. pose proof (zlen_nonneg k). apply (range_panics (fun _ => True) body 0 n (zlen k)); auto.
  intros s0 _. apply B, get_panics. lia.
Qed.

Lemma wk_values n key M ct P x b msg r : key_short n key ->
  panics (DecryptBool n ct key) /\ panics (DecryptLWEMessage n ct M key) /\
  panics (EncryptF64 n P x key r) /\ panics (EncryptBool n P b key r) /\ panics (EncryptLWEMessage n P msg M key r).
Proof.
  intro H.
  assert (I: panics (inner_product n ct key)) by (eapply loop_key; [exact H|]; intros i s G; apply bind_panics2; intros y _; apply bind_panics1, G).
  assert (E: forall x, panics (EncryptF64 n P x key r)) by (intro y; apply bind_panics1; eapply loop_key; [exact H|]; intros i [ip Q] G; apply bind_panics1, G).
  split; [apply bind_panics1, I|]. split; [apply bind_panics2; intros s _; apply bind_panics1, I|]. split; [apply E|]. split; [apply E|].
  unfold EncryptLWEMessage. cbv zeta. apply bind_panics2. intros y _. apply E.
Qed.

Lemma wk_values_long n key key' M ct P x b msg r : key_start n key key' ->
  DecryptBool n ct key = DecryptBool n ct key' /\ DecryptLWEMessage n ct M key = DecryptLWEMessage n ct M key' /\
  EncryptF64 n P x key r = EncryptF64 n P x key' r /\ EncryptBool n P b key r = EncryptBool n P b key' r /\ EncryptLWEMessage n P msg M key r = EncryptLWEMessage n P msg M key' r.
Proof.
  intro H.
  assert (I: inner_product n ct key = inner_product n ct key') by (apply for_range_ext; intros i s Hi; rewrite H by lia; reflexivity).
  assert (E: forall x, EncryptF64 n P x key r = EncryptF64 n P x key' r).
  { intro y. unfold EncryptF64. match goal with |- bind ?a _ = bind ?b _ => assert (X: a = b) end.
    { apply for_range_ext. intros i [ip Q] Hi. rewrite H by lia. reflexivity. }
    rewrite X. reflexivity. }
  unfold DecryptBool, DecryptLWEMessage, EncryptBool, EncryptLWEMessage. rewrite I. split; [reflexivity|]. split; [reflexivity|]. split; [apply E|]. split; [apply E|].
  cbv zeta. destruct (go_rem msg M); [|reflexivity]. cbn [bind]. apply E.
Qed.

Section Calls.
Context (O : fops) (pr : pset).
Notation M := (mem (FP O)).
Notation n := (lv0_N pr).

Lemma rotate_key (m : M) e ct tv bsk off out : key_short n bsk -> panics (BlindRotateAssign O pr m e ct tv bsk off out).
Proof.
  intro H. unfold BlindRotateAssign. apply bind_panics2. intros bT _. apply bind_panics2. intros m1 _. apply bind_panics2. intros m2 _. apply bind_panics1.
  eapply loop_key; [exact H|]. intros i s G. apply bind_panics2. intros aT _. apply bind_panics2. intros m3 _. apply bind_panics2. intros m4 _. apply bind_panics1, G.
Qed.
Lemma wk_bootstraps (m : M) e ct t f mm bsk ksk off out outr : key_short n bsk ->
  panics (BlindRotateAssign O pr m e ct t bsk off outr) /\ panics (BootstrapAssign O pr m e ct t bsk ksk off out) /\ panics (Bootstrap O pr m e ct t bsk ksk off) /\
  panics (BootstrapLUTAssign O pr m e ct t bsk ksk off out) /\ panics (BootstrapLUT O pr m e ct t bsk ksk off) /\ panics (BootstrapLUTTemp O pr m e ct t bsk ksk off) /\
  panics (BootstrapFunc O pr m e ct f mm bsk ksk off) /\ panics (BootstrapFuncAssign O pr m e ct f mm bsk ksk off out).
Proof.
  intros H.
  assert (RS: forall (m : M) t outr, panics (BlindRotateAssign O pr m e ct t bsk off outr)) by (intros; apply rotate_key, H).
  assert (LA: forall (m : M) t out, panics (BootstrapLUTAssign O pr m e ct t bsk ksk off out)) by (intros; apply bind_panics1, RS).
  assert (LU: forall (m : M) t, panics (BootstrapLUT O pr m e ct t bsk ksk off)).
  { intros m1 t1. apply bind_panics2. intros [r m2] E. apply bind_panics1, LA. }
  split; [apply RS|]. split; [apply bind_panics1, RS|]. split; [|split; [apply LA|split; [apply LU|]]].
  - apply bind_panics2. intros [r m2] E. apply bind_panics1, bind_panics1, RS.
  - split; [|split]; apply bind_panics2; intros [r m2] E; [apply bind_panics1, LA|apply LU|apply LA].
Qed.
Lemma gate_key g (m : M) e a b (k : gkey O) : key_short n (gk_bsk k) -> panics (gate_fun g O pr m e a b k).
Proof.
  intro H. rewrite GateFacts.gate_fun_eq. apply bind_panics2. intros [p m1] _. unfold bootstrap. apply bind_panics2. intros [r m2] _. apply bind_panics1.
  exact (proj1 (proj2 (proj2 (wk_bootstraps m2 e p (gk_testvec k) (fun x => x) 0 (gk_bsk k) (gk_ksk k) (gk_offset k) 0 {| rA := 0; rB := 0 |} H)))).
Qed.
Lemma wk_gates g (m : M) e a b c (k : gkey O) : key_short n (gk_bsk k) -> panics (gate_fun g O pr m e a b k) /\ panics (MUX O pr m e a b c k).
Proof. intro H. split; [apply gate_key, H|]. apply bind_panics1. exact (gate_key Gand m e a b k H). Qed.

Lemma rotate_same (m : M) e ct tv bsk bsk' off out : key_start n bsk bsk' -> BlindRotateAssign O pr m e ct tv bsk off out = BlindRotateAssign O pr m e ct tv bsk' off out.
Proof.
  intro H. unfold BlindRotateAssign. destruct (bind (load m ct n) _) as [bT|]; [|reflexivity]. cbn [bind].
  destruct (PolyMulWithXKInPlace m _ _ _) as [m1|]; [|reflexivity]. cbn [bind]. destruct (PolyMulWithXKInPlace m1 _ _ _) as [m2|]; [|reflexivity]. cbn [bind].
  match goal with |- bind ?a _ = bind ?b _ => assert (X: a = b) end.
  { apply for_range_ext. intros i s Hi. rewrite H by lia. reflexivity. }
  rewrite X. reflexivity.
Qed.
Lemma wk_bootstraps_long (m : M) e ct t f mm bsk bsk' ksk off out outr : key_start n bsk bsk' ->
  BlindRotateAssign O pr m e ct t bsk off outr = BlindRotateAssign O pr m e ct t bsk' off outr /\
  BootstrapAssign O pr m e ct t bsk ksk off out = BootstrapAssign O pr m e ct t bsk' ksk off out /\ Bootstrap O pr m e ct t bsk ksk off = Bootstrap O pr m e ct t bsk' ksk off /\
  BootstrapLUTAssign O pr m e ct t bsk ksk off out = BootstrapLUTAssign O pr m e ct t bsk' ksk off out /\ BootstrapLUT O pr m e ct t bsk ksk off = BootstrapLUT O pr m e ct t bsk' ksk off /\
  BootstrapLUTTemp O pr m e ct t bsk ksk off = BootstrapLUTTemp O pr m e ct t bsk' ksk off /\
  BootstrapFunc O pr m e ct f mm bsk ksk off = BootstrapFunc O pr m e ct f mm bsk' ksk off /\
  BootstrapFuncAssign O pr m e ct f mm bsk ksk off out = BootstrapFuncAssign O pr m e ct f mm bsk' ksk off out.
Proof.
  intros H.
  assert (RS: forall (m : M) t outr, BlindRotateAssign O pr m e ct t bsk off outr = BlindRotateAssign O pr m e ct t bsk' off outr) by (intros; apply rotate_same, H).
  assert (BA: forall (m : M) t out, BootstrapAssign O pr m e ct t bsk ksk off out = BootstrapAssign O pr m e ct t bsk' ksk off out) by (intros; unfold BootstrapAssign; rewrite RS; reflexivity).
  assert (LA: forall (m : M) t out, BootstrapLUTAssign O pr m e ct t bsk ksk off out = BootstrapLUTAssign O pr m e ct t bsk' ksk off out) by (intros; unfold BootstrapLUTAssign; rewrite RS; reflexivity).
  assert (LU: forall (m : M) t, BootstrapLUT O pr m e ct t bsk ksk off = BootstrapLUT O pr m e ct t bsk' ksk off).
  { intros m1 t1. unfold BootstrapLUT. destruct (GetNextResult O m1 (ev_bp e)) as [[r m2]|]; [|reflexivity]. cbn [bind]. rewrite LA. reflexivity. }
  split; [apply RS|]. split; [apply BA|]. split; [|split; [apply LA|split; [apply LU|]]].
  - unfold Bootstrap. destruct (GetNextResult O m (ev_bp e)) as [[r m2]|]; [|reflexivity]. cbn [bind]. rewrite BA. reflexivity.
  - split; [|split].
    + unfold BootstrapLUTTemp. destruct (GetNextResult O m (ev_bp e)) as [[r m2]|]; [|reflexivity]. cbn [bind]. rewrite LA. reflexivity.
    + unfold BootstrapFunc. destruct (new_lut O pr m f mm) as [[r m2]|]; [|reflexivity]. cbn [bind]. apply LU.
    + unfold BootstrapFuncAssign. destruct (new_lut O pr m f mm) as [[r m2]|]; [|reflexivity]. cbn [bind]. apply LA.
Qed.
Lemma bootstrap_same (m : M) e p (k k' : gkey O) : gk_offset k = gk_offset k' -> gk_testvec k = gk_testvec k' -> gk_ksk k = gk_ksk k' -> key_start n (gk_bsk k) (gk_bsk k') ->
  bootstrap O pr m e p k = bootstrap O pr m e p k'.
Proof.
  intros E1 E2 E3 H. unfold bootstrap. rewrite E1, E2, E3. destruct (new_ct m n) as [[r m2]|]; [|reflexivity]. cbn [bind].
  rewrite (proj1 (proj2 (proj2 (wk_bootstraps_long m2 e p (gk_testvec k') (fun x => x) 0 _ _ (gk_ksk k') (gk_offset k') 0 {| rA := 0; rB := 0 |} H)))). reflexivity.
Qed.
Lemma gate2_same lin (m : M) e a b (k k' : gkey O) : (forall m p, bootstrap O pr m e p k = bootstrap O pr m e p k') -> gate2 O pr lin m e a b k = gate2 O pr lin m e a b k'.
Proof. intro H. unfold gate2. apply bind_same. intros [p m1]. apply H. Qed.
Lemma wk_gates_long g (m : M) e a b (k k' : gkey O) : gk_offset k = gk_offset k' -> gk_testvec k = gk_testvec k' -> gk_ksk k = gk_ksk k' -> key_start n (gk_bsk k) (gk_bsk k') ->
  gate_fun g O pr m e a b k = gate_fun g O pr m e a b k'.
Proof. intros E1 E2 E3 H. rewrite GateFacts.gate_fun_eq. apply gate2_same. intros m1 p. apply bootstrap_same; assumption. Qed.
End Calls.

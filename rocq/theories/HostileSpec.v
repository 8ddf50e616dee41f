(** * One server, many clients, some of them hostile

    Vocabulary for statements.  No proofs.

    A client sends a cloud key and ciphertexts.  The server can check how long
    their slices are; it cannot check what is in them.  [key_shape] is what it
    can check of a cloud key; the numbers in it are arbitrary (in binary64:
    infinities and NaN too), and so are those of the ciphertexts. *)
From Verif Require Import GoBase GoMem F64 Utils Params Key Tlwe TlweMem Poly Fft Trlwe Trgsw Lut Evaluator CloudKey Gates Spec RunSpec LutSpec Circuit LutProg MixProg.
Local Open Scope Z_scope.

Section Shape.
Context (R : arith) (tw twi : list (AN R * AN R)) (pr : pset).
Notation O := (fft_ops R tw twi).
Notation M := (mem (FP O)).
Notation n := (lv0_N pr).
Notation N := (g_N pr).

(** the tables NewEvaluator makes for polynomials of degree [N] *)
Definition transform : Prop := check_degree N = Ok tt /\ genTwiddleFactors R (N / 2) = Ok (tw, twi).

(** 2l rows of two Fourier polynomials *)
Definition row_shape (c : list (AN R) * list (AN R)) : Prop := zlen (fst c) = N /\ zlen (snd c) = N.
Definition trgsw_shape (g : trgsw_fft O) : Prop := zlen g = 2 * g_L pr /\ Forall row_shape g.
(** at least one TRGSW for each coefficient of a key *)
Definition boot_shape (bsk : list (trgsw_fft O)) : Prop :=
  n <= zlen bsk /\ forall i g, i < n -> get bsk i = Ok g -> trgsw_shape g.
Definition switch_rows : Z := 2 ^ g_BASEBIT pr * g_IKS_T pr * N.
Definition switch_shape (ksk : list (list Z)) : Prop :=
  switch_rows <= zlen ksk /\ forall i row, i < switch_rows -> get ksk i = Ok row -> zlen row = n + 1.
Definition vector_shape (tv : trlwe) : Prop := zlen (tA tv) = N /\ zlen (tB tv) = N /\ tok_list (tA tv) /\ tok_list (tB tv).
Definition key_shape (ck : CloudKey O) : Prop :=
  boot_shape (BootstrappingKey ck) /\ switch_shape (KeySwitchingKey ck) /\ vector_shape (BlindRotateTestvec ck).

(** a key with [x] in every Fourier coefficient and [y] in every torus element *)
Definition constant_key (x : AN R) (y : Z) : CloudKey O := {|
  DecompositionOffset := y;
  BlindRotateTestvec := {| tA := repeat (w32 y) (Z.to_nat N); tB := repeat (w32 y) (Z.to_nat N) |};
  KeySwitchingKey := repeat (repeat (w32 y) (Z.to_nat (n + 1))) (Z.to_nat switch_rows);
  BootstrappingKey := repeat (repeat (repeat x (Z.to_nat N), repeat x (Z.to_nat N)) (Z.to_nat (2 * g_L pr))) (Z.to_nat n) : list (trgsw_fft O)
|}.

(** ciphertexts of the right length and tables, in user buffers of their own *)
Definition received (e : evaluator) (m : M) (gk : gkey O) (ws : list Z) (ts : list tref) : Prop :=
  NoDup ws /\ (forall x, In x ws -> user m e x /\ zlen (tm m x) = n + 1) /\
  Forall (fun t => (exists tv, table O pr m e t tv) /\ ~ In (rA t) ws /\ ~ In (rB t) ws) ts /\
  ~ In (rA (gk_testvec gk)) ws /\ ~ In (rB (gk_testvec gk)) ws.

(** two memories with the same numbers in them *)
Definition same_contents (m : M) (ws : list Z) (ts : list tref) (m' : M) (ws' : list Z) (ts' : list tref) : Prop :=
  Forall2 (fun x y => tm m x = tm m' y) ws ws' /\
  Forall2 (fun t u => tm m (rA t) = tm m' (rA u) /\ tm m (rB t) = tm m' (rB u)) ts ts'.

(** The memories reachable while the evaluator is in use: as [reachable]
    (RunSpec.v), but the keys of the bootstraps, rotations, products and
    programs may be anything of the right shape. *)
Inductive any_history (e : evaluator) : M -> Prop :=
| ah_reach m : reachable O pr e m -> any_history e m
| ah_uses m m' j : any_history e m -> uses O pr e no_buffer j m m' -> any_history e m'
| ah_reset m : any_history e m -> any_history e (ResetBuffers O m e)
| ah_boot m m' bsk ksk off ct tvr tv r : any_history e m -> boot_shape bsk -> switch_shape ksk ->
    input O pr m e ct -> table O pr m e tvr tv ->
    Bootstrap O pr m e ct tvr bsk ksk off = Ok (r, m') -> any_history e m'
| ah_assign m m' bsk ksk off ct tvr tv out : any_history e m -> boot_shape bsk -> switch_shape ksk ->
    input O pr m e ct -> table O pr m e tvr tv -> input O pr m e out ->
    BootstrapAssign O pr m e ct tvr bsk ksk off out = Ok m' -> any_history e m'
| ah_rotate m m' bsk off ct tvr tv out : any_history e m -> boot_shape bsk ->
    input O pr m e ct -> table O pr m e tvr tv -> room O pr m e out ->
    BlindRotateAssign O pr m e ct tvr bsk off out = Ok m' -> any_history e m'
| ah_product m m' g off r c out : any_history e m -> trgsw_shape g -> table O pr m e r c -> room O pr m e out ->
    ExternalProductAssign O pr m e g r off out = Ok m' -> any_history e m'
| ah_cmux m m' g off r0 c0 r1 c1 out : any_history e m -> trgsw_shape g -> table O pr m e r0 c0 -> table O pr m e r1 c1 ->
    room O pr m e out -> r0 = out \/ disjoint r0 out -> disjoint r1 out ->
    CMuxAssign O pr m e g r0 r1 off out = Ok m' -> any_history e m'
| ah_program m m' ck ck' gk k p ws ts ws' ts' : any_history e m -> key_shape ck -> key_shape ck' -> key_at O m e gk ck' ->
    0 <= k -> received e m gk ws ts -> mexec O pr ck e gk k p ws ts m = Ok (ws', ts', m') -> any_history e m'.
End Shape.

(** the positions a call refers to exist, of [w] ciphertexts and [t] tables *)
Definition at_hand (w x : Z) : Prop := 0 <= x < w.
Definition asks (i : mcall) (w t : Z) : Prop :=
  match i with
  | MGate (IGate _ x y) => at_hand w x /\ at_hand w y
  | MGate (INot x) | MGate (ICopy x) => at_hand w x
  | MGate (IConst _) => True
  | MGate (IMux x y z) => at_hand w x /\ at_hand w y /\ at_hand w z
  | MMsg (LAdd a b) | MMsg (LSub a b) | MMsg (LAddMul a b _) | MMsg (LSubMul a b _) => at_hand w a /\ at_hand w b
  | MMsg (LNeg a) | MMsg (LFunc _ a) => at_hand w a
  | MMsg (LAddInto a b o) => at_hand w a /\ at_hand w b /\ at_hand w o
  | MMsg (LTable _) => True
  | MMsg (LLut t' a) => at_hand t t' /\ at_hand w a
  | MMsg (LLutInto t' a o) => at_hand t t' /\ at_hand w a /\ at_hand w o
  | MMsg (LFuncInto _ a o) => at_hand w a /\ at_hand w o
  end.
(** every call but the Into calls and the making of tables appends a ciphertext *)
Definition new_cts (i : mcall) : Z :=
  match i with MMsg (LAddInto _ _ _) | MMsg (LTable _) | MMsg (LLutInto _ _ _) | MMsg (LFuncInto _ _ _) => 0 | _ => 1 end.
Definition new_tables (i : mcall) : Z := match i with MMsg (LTable _) => 1 | _ => 0 end.
Fixpoint asks_all (p : list mcall) (w t : Z) : Prop :=
  match p with
  | [] => True
  | i :: p => asks i w t /\ asks_all p (w + new_cts i) (t + new_tables i)
  end.

(** * A small parameter set, keys and randomness for the examples

    Not part of the modelled code: instances on which the theorems' hypotheses
    are checked by computation. *)
From Coq Require Import QArith.
From Verif Require Import GoBase GoMem F64 Utils Params Key Tlwe Trlwe.
Local Open Scope Z_scope.

Definition tiny : pset := {|
  lv0_N := 3; lv0_ALPHA := (1 # 50000);
  lv1_N := 16; lv1_ALPHA := (1 # 50000000);
  trlwe_N := 16; trlwe_ALPHA := (1 # 50000000);
  g_N := 16; g_NBIT := 4; g_BGBIT := 8; g_BG := 256; g_L := 3;
  g_BASEBIT := 4; g_IKS_T := 6; g_ALPHA := (1 # 50000000); g_BlockSize := 3
|}.

Definition tiny_key : SecretKey := {|
  KeyLv0 := [1; 0; 1];
  KeyLv1 := [1; 0; 0; 1; 1; 0; 1; 0; 0; 0; 1; 1; 0; 1; 0; 1]
|}.

(** a deterministic stand-in for the random generator *)
Definition mix (x : Z) : Z := (x * 2654435761 + 40503 * (x * x + 12345)) mod two32.
Definition small_noise (x : Z) : f64 := flit (mix x mod 9 - 4) (-30).

Definition tiny_rk (x : Z) : enc_rand := {| er_mask := fun i => mix (1000 * x + i); er_noise := small_noise x |}.
Definition tiny_rb (i r : Z) : trlwe_rand :=
  {| tr_mask := fun j => mix (7000000 + 10000 * i + 100 * r + j); tr_noise := fun j => small_noise (i + 31 * r + 7 * j) |}.

(** * Runs on the small parameter set, in binary64 *)
From Coq Require Import Lia ZifyBool.
From Verif Require Import GoBase GoFacts GoMem F64 F64Facts Utils Spec Params Key Tlwe Poly Fft FftTabErr Trlwe Trgsw Evaluator CloudKey Gates
  RunSpec Circuit NoiseCheck Tiny.
Local Open Scope Z_scope.

(** exp(i x) by its Taylor series, in binary64: enough to compute with *)
Definition taylor_cis (x : f64) : f64 * f64 :=
  let fix go (n : nat) (k : Z) (t c s : f64) : f64 * f64 :=
    match n with
    | 0%nat => (c, s)
    | S n' =>
        let t1 := fdiv (fmul t x) (f_of_Z k) in
        let t2 := fopp (fdiv (fmul t1 x) (f_of_Z (k + 1))) in
        go n' (k + 2) t2 (fadd c t2) (fadd s t1)
    end in go 14%nat 1 (f_of_Z 1) (f_of_Z 1) (f_of_Z 0).

Definition tinyR : arith := f64_arith (unfused taylor_cis).
Definition tinyO : fops := match fft_evaluator tinyR 16 with Ok o => o | Panic _ => fft_ops tinyR [] [] end.
Lemma tinyO_ok : fft_evaluator tinyR 16 = Ok tinyO.
Proof.
  unfold tinyO. assert (H: match fft_evaluator tinyR 16 with Ok _ => true | _ => false end = true) by (vm_compute; reflexivity).
  destruct (fft_evaluator tinyR 16); [reflexivity|discriminate].
Qed.
(** the cloud key, or an empty one should its generation panic *)
Definition ck_of (O : fops) pr sk rk rb : CloudKey O :=
  match NewCloudKey O pr sk rk rb with
  | Ok k => k
  | Panic _ => {| DecompositionOffset := 0; BlindRotateTestvec := {| tA := []; tB := [] |}; KeySwitchingKey := []; BootstrappingKey := [] |}
  end.
Definition is_ok {A} (r : res A) : bool := match r with Ok _ => true | Panic _ => false end.
Lemma ck_of_ok O pr sk rk rb : is_ok (NewCloudKey O pr sk rk rb) = true -> NewCloudKey O pr sk rk rb = Ok (ck_of O pr sk rk rb).
Proof. unfold ck_of. destruct (NewCloudKey O pr sk rk rb); [reflexivity|discriminate]. Qed.
Definition tiny_ck : CloudKey tinyO := ck_of tinyO tiny tiny_key tiny_rk tiny_rb.

Lemma tiny_params : good_params tiny.
Proof. split; [constructor; cbn; lia|reflexivity]. Qed.
Lemma tiny_key_ok : key_ok tiny tiny_key.
Proof. split; (split; [reflexivity|repeat (constructor; [lia|]); constructor]). Qed.
Lemma tiny_ck_ok : is_ok (NewCloudKey tinyO tiny tiny_key tiny_rk tiny_rb) = true.
Proof. vm_compute. reflexivity. Qed.
Lemma tiny_setup : setup tinyR tinyO tiny tiny_key tiny_rk tiny_rb tiny_ck.
Proof. exact (conj tiny_params (conj tinyO_ok (conj tiny_key_ok (ck_of_ok _ _ _ _ _ tiny_ck_ok)))). Qed.

Definition tiny_enc (b : bool) (i : Z) : list Z :=
  match (t <- NewTLWE 3 ;; EncryptBool 3 t b (KeyLv0 tiny_key) (tiny_rk (500000 + i))) with Ok c => c | _ => [] end.

(** the noise of a gate's bootstrap on given encryptions *)
Definition gate_noise (O : fops) (ck : CloudKey O) (g : bgate) (a b : bool) : res Z :=
  p <- gate_lin g 3 (tiny_enc a 0) (tiny_enc b 1) ;; noise_of O tiny tiny_key ck (BlindRotateTestvec ck) p.
Lemma tiny_gate_noise : (T <- gate_noise tinyO tiny_ck Gxor true false ;; Ok (T <=? 50000)) = Ok true.
Proof. vm_compute. reflexivity. Qed.

(** the small noise is small *)
Lemma small_noise_le x : Z.abs (centered (F64ToTorus (small_noise x))) <= 16.
Proof.
  unfold small_noise. pose proof (Z.mod_pos_bound (mix x) 9 ltac:(lia)) as H. set (k := mix x mod 9) in *. clearbody k.
  assert (C: k = 0 \/ k = 1 \/ k = 2 \/ k = 3 \/ k = 4 \/ k = 5 \/ k = 6 \/ k = 7 \/ k = 8) by lia.
  repeat (destruct C as [->|C]; [vm_compute; congruence|]). subst. vm_compute. congruence.
Qed.
Lemma tiny_key_noise : key_noise_within tiny tiny_rk tiny_rb 16 16.
Proof. split; intros; apply small_noise_le. Qed.

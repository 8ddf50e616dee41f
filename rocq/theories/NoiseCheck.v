(** * Measuring the noise of a concrete bootstrap (for the examples) *)
From Coq Require Import Lia ZifyBool.
From Verif Require Import GoBase GoFacts GoMem MemFacts F64 Utils UtilsFacts Params Key Tlwe TlweMem TlweFacts
  Poly PolyFacts Fft Trlwe Trgsw Lut Evaluator CloudKey Gates RunSpec Spec.
Local Open Scope Z_scope.

Definition dist (x y : Z) : Z := Z.abs (centered (x - y)).
Lemma dist_close x y T : dist x y <= T -> close T x y.
Proof.
  intro H. exists (centered (x - y)). split; [exact H|]. rewrite centered_eq. apply eqm_refl'. ring.
Qed.

Section Check.
Context (O : fops) (pr : pset) (sk : SecretKey) (ck : CloudKey O) (tv : trlwe) (ct : list Z).
Notation N := (g_N pr).
Notation n := (lv0_N pr).
Notation s1 := (KeyLv1 sk).
Notation bsk := (BootstrappingKey ck).
Notation off := (DecompositionOffset ck).

Definition eta_of (i : Z) : res Z :=
  acc <- rotation O pr bsk off ct tv i ;; rt <- rotated O pr ct i acc ;; acc' <- rotation O pr bsk off ct tv (i + 1) ;;
  let sel := if zn (KeyLv0 sk) i =? 1 then rt else acc in
  Ok (centered (mono_mul N (still_to_rotate pr sk ct i)
    (fun k => rlwe_phase N s1 (tA acc') (tB acc') k - rlwe_phase N s1 (tA sel) (tB sel) k) 0)).
Definition ek_of : res Z :=
  acc <- rotation O pr bsk off ct tv n ;; lv1 <- SampleExtractIndex pr acc 0 ;;
  out <- IdentityKeySwitching pr lv1 (KeySwitchingKey ck) ;;
  Ok (centered (lwe_phase n (KeyLv0 sk) out - lwe_phase N s1 lv1)).

Definition eta_val (i : Z) : Z := match eta_of i with Ok x => x | _ => 0 end.
Definition noise_of : res Z :=
  for_range 0 n (fun i _ => _ <- eta_of i ;; Ok tt) tt ;;;
  ek <- ek_of ;;
  Ok (Z.abs (zsum n eta_val + ek) + (1 + weight n (KeyLv0 sk)) * (1 + weight N s1) + weight N s1).

Lemma loop_all (f : Z -> res Z) hi : for_range 0 hi (fun i _ => _ <- f i ;; Ok tt) tt = Ok tt ->
  forall i, 0 <= i < hi -> exists x, f i = Ok x.
Proof.
  intros H i Hi. destruct (f i) as [x|e] eqn:E; [exists x; reflexivity|exfalso].
  rewrite (for_range_split 0 i hi) in H by lia.
  destruct (for_range 0 i _ tt) as [u|]; [|discriminate]. cbn [bind] in H. rewrite for_range_S in H by lia. rewrite E in H. discriminate.
Qed.

Lemma noise_of_sound T T' : noise_of = Ok T -> T <= T' -> boot_noise O pr sk ck tv ct T'.
Proof.
  unfold noise_of. intros H HT. destruct (for_range 0 n _ tt) as [[]|] eqn:E1; [|discriminate]. cbn [bind] in H.
  destruct ek_of as [ek|] eqn:E2; [|discriminate]. cbn [bind] in H.
  assert (Inj: forall a b : Z, Ok a = Ok b -> a = b) by (intros a b X; congruence). apply Inj in H.
  exists eta_val, ek. split; [|split; [|rewrite <- H in HT; exact HT]].
  - intros i Hi. destruct (loop_all _ _ E1 i Hi) as (x & Ex). unfold eta_val. rewrite Ex.
    unfold eta_of in Ex. destruct (rotation O pr bsk off ct tv i) as [acc|]; [|discriminate]. cbn [bind] in Ex.
    destruct (rotated O pr ct i acc) as [rt|] eqn:Er; [|discriminate]. cbn [bind] in Ex.
    destruct (rotation O pr bsk off ct tv (i + 1)) as [acc'|]; [|discriminate]. cbn [bind] in Ex. injection Ex as <-.
    exists acc, rt, acc'. split; [reflexivity|]. split; [exact Er|]. split; [reflexivity|]. cbv zeta. apply centered_eq.
  - unfold ek_of in E2. destruct (rotation O pr bsk off ct tv n) as [acc|] eqn:Ea; [|discriminate]. cbn [bind] in E2.
    destruct (SampleExtractIndex pr acc 0) as [lv1|] eqn:Es; [|discriminate]. cbn [bind] in E2.
    destruct (IdentityKeySwitching pr lv1 (KeySwitchingKey ck)) as [out|] eqn:Ek; [|discriminate]. cbn [bind] in E2. injection E2 as <-.
    exists acc, lv1, out. split; [exact Ea|]. split; [exact Es|]. split; [exact Ek|]. rewrite centered_eq. apply eqm_refl'. ring.
Qed.
End Check.

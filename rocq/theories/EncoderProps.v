(** * Encoders with a custom scale *)
From Coq Require Import Lia ZifyBool Reals Lra.
From Flocq Require Import Core BinarySingleNaN.
From Verif Require Import GoBase GoFacts F64 F64Facts F64Err Utils UtilsFacts Tlwe TlweFacts Lut MsgFacts.
Local Open Scope R_scope.
Ltac Zify.zify_post_hook ::= idtac.

(** Decode rounds to the nearest multiple of the scale *)
Lemma decode_scale other M s t j : (1 <= M)%Z -> is_finite s = true -> / 1073741824 <= val s -> tok t -> (0 <= j)%Z ->
  Rabs (IZR t / 4294967296 - IZR j * val s) <= (/ 2 - / 2097152) * val s ->
  Decode_on other (NewEncoderWithScale M s) t = Ok (j mod M)%Z.
Proof.
  intros HM Fs Hs Ht Hj Hd. unfold Decode_on, NewEncoderWithScale. cbn [MessageModulus Scale].
  destruct (TorusToF64_val t Ht) as [Tv Tf]. set (f := TorusToF64 t) in *.
  assert (Hu: u53 = / 9007199254740992) by reflexivity.
  assert (Heta: eta <= / 1152921504606846976).
  { change (/ 1152921504606846976) with (bp (-60)). apply eta_small; lia. }
  pose proof eta_pos as Heta0.
  assert (Hs0: val s <> 0) by lra.
  assert (Hx: 0 <= val f < 1).
  { rewrite Tv. unfold tok, two32 in Ht. destruct Ht as [H1 H2]. apply IZR_le in H1. apply IZR_lt in H2.
    simpl in H1, H2. lra. }
  set (q := val f / val s) in *.
  assert (Hqs: q * val s = val f) by (unfold q; field; exact Hs0).
  assert (Hq: 0 <= q < 1073741824) by (split; nra).
  assert (Hqj: Rabs (q - IZR j) <= / 2 - / 2097152).
  { rewrite <- Tv, <- Hqs in Hd. replace (q * val s - IZR j * val s) with ((q - IZR j) * val s) in Hd by ring.
    rewrite Rabs_mult, (Rabs_pos_eq (val s)) in Hd by lra. apply Rmult_le_reg_r with (val s); lra. }
  apply Rabs_le_inv in Hqj.
  destruct (fdiv_err f s) as [F1 E1]; [exact Tf|exact Hs0|..].
  { fold q. rewrite Rabs_pos_eq by lra. apply Rle_trans with 1073741824; [lra|].
    change 1073741824 with (bp 30). apply bpow_le; lia. }
  fold q in E1. rewrite (Rabs_pos_eq q), Hu in E1 by lra. apply Rabs_le_inv in E1.
  destruct (flit_exact 1 (-1)) as [Hhv Hhf]; [lia|lia|lia|].
  assert (Hh: val f_half = / 2). { unfold f_half. rewrite Hhv. unfold F2R; simpl. lra. }
  destruct (fadd_err (fdiv f s) f_half) as [F2 E2]; [exact F1|exact Hhf|..].
  { rewrite Hh. apply Rle_trans with 2147483648; [apply Rabs_le; lra|].
    change 2147483648 with (bp 31). apply bpow_le; lia. }
  rewrite Hh, Hu in E2. rewrite (Rabs_pos_eq (val (fdiv f s) + / 2)) in E2 by lra. apply Rabs_le_inv in E2.
  set (y := fadd (fdiv f s) f_half) in *.
  assert (Hj0: 0 <= IZR j) by (apply IZR_le; assumption).
  assert (Hy: IZR j <= val y < IZR j + 1) by lra.
  assert (Htr: Ztrunc (val y) = j).
  { rewrite Ztrunc_floor by lra. apply Zfloor_imp. rewrite plus_IZR. exact Hy. }
  assert (Hjb: (j <= 1073741825)%Z) by (apply le_IZR; lra).
  rewrite f_int64_correct.
  - rewrite Htr. apply normalize_ok. lia.
  - exact F2.
  - rewrite Htr. unfold two63. lia.
Qed.

(** what Encode computes: the multiple of the scale, cut to 32 bits *)
Lemma encode_scale M s message : (1 <= M)%Z -> is_finite s = true -> 0 <= val s -> (M <= 2 ^ 53)%Z ->
  (IZR M - 1) * val s <= 1 - / 9007199254740992 ->
  exists z, Encode (NewEncoderWithScale M s) message = Ok z /\ tok z /\
    IZR (message mod M) * val s * 4294967296 - 1 - / 1048576 <= IZR z <= IZR (message mod M) * val s * 4294967296 + / 1048576.
Proof.
  intros HM Fs Hs HM2 Hr. unfold Encode, NewEncoderWithScale. cbn [MessageModulus Scale].
  rewrite normalize_ok by lia. cbn [bind]. pose proof (Z.mod_pos_bound message M ltac:(lia)) as Hm.
  set (r := (message mod M)%Z) in *.
  eexists; split; [reflexivity|]. split; [apply F64ToTorus_tok|].
  destruct (f_of_Z_exact r) as [Rv Rf]; [change (2 ^ 53)%Z with 9007199254740992%Z in *; lia|].
  assert (R0: 0 <= IZR r) by (apply IZR_le; lia).
  assert (R1: IZR r <= IZR M - 1) by (rewrite <- minus_IZR; apply IZR_le; lia).
  assert (P: 0 <= IZR r * val s <= 1 - / 9007199254740992) by (split; nra).
  assert (Hu: u53 = / 9007199254740992) by reflexivity.
  assert (Heta: eta <= / 1152921504606846976).
  { change (/ 1152921504606846976) with (bp (-60)). apply eta_small; lia. }
  pose proof eta_pos as Heta0.
  destruct (fmul_err (f_of_Z r) s) as [F1 E1]; [exact Rf|exact Fs|..].
  { rewrite Rv, Rabs_pos_eq by lra. apply Rle_trans with 1; [lra|]. change 1 with (bp 0). apply bpow_le; lia. }
  rewrite Rv, (Rabs_pos_eq (IZR r * val s)), Hu in E1 by lra. apply Rabs_le_inv in E1.
  assert (B: 0 <= val (fmul (f_of_Z r) s) <= 1 - / 9007199254740992).
  { generalize (Bmult_correct 53 1024 (eq_refl _) (eq_refl _) mode_NE (f_of_Z r) s).
    simpl round_mode. rewrite Rlt_bool_true.
    - intros (V & _ & _). assert (Q: val (fmul (f_of_Z r) s) = rnd (val (f_of_Z r) * val s)) by exact V. rewrite Q.
      rewrite Rv. split.
      + rewrite <- (rnd_fmt 0) by (apply generic_format_0). apply round_le; [apply FLT_exp_valid; reflexivity|apply valid_rnd_N|lra].
      + rewrite <- (rnd_fmt (1 - / 9007199254740992)).
        * apply round_le; [apply FLT_exp_valid; reflexivity|apply valid_rnd_N|lra].
        * replace (1 - / 9007199254740992) with (F2R (Float radix2 9007199254740991 (-53))).
          -- apply fmt_mk; [vm_compute; discriminate|lia].
          -- rewrite F2R_neg_div by reflexivity. change (2 ^ (- -53))%Z with 9007199254740992%Z. lra.
    - apply rnd_no_overflow. rewrite Rv, Rabs_pos_eq by lra. apply Rle_trans with 1; [lra|]. change 1 with (bp 0). apply bpow_le; lia. }
  set (v := val (fmul (f_of_Z r) s)) in *.
  rewrite (F64ToTorus_of_real _ (v * 4294967296)).
  - pose proof (Zfloor_lb (v * 4294967296)) as L. pose proof (Zfloor_ub (v * 4294967296)) as U. lra.
  - exact F1.
  - fold v. field.
  - lra.
Qed.

(** the scales of the next lemmas: fine enough for the modulus, not finer than
    the torus can tell apart *)
Definition fits (M : Z) (s : f64) : Prop := (1 <= M)%Z /\ is_finite s = true /\ / 536870912 <= val s /\
  (IZR M - 1) * val s <= 1 - / 9007199254740992.

Lemma fits_encode M s message : fits M s -> exists z, Encode (NewEncoderWithScale M s) message = Ok z /\ tok z /\
    IZR (message mod M) * val s * 4294967296 - 1 - / 1048576 <= IZR z <= IZR (message mod M) * val s * 4294967296 + / 1048576.
Proof.
  intros (HM & Fs & Hs & Hr). apply encode_scale; try assumption; try lra.
  apply le_IZR. change (2 ^ 53)%Z with 9007199254740992%Z. nra.
Qed.

Lemma custom_noisy M s message : fits M s -> exists z, Encode (NewEncoderWithScale M s) message = Ok z /\ tok z /\
  forall e, (0 <= z + e < 2 ^ 32)%Z -> IZR (Z.abs e) + 2 <= val s * 2147481600 ->
    Decode (NewEncoderWithScale M s) (z + e) = Ok (message mod M)%Z.
Proof.
  intros H. destruct (fits_encode M s message H) as (z & E & Tz & B). destruct H as (HM & Fs & Hs & Hr).
  exists z. split; [exact E|]. split; [exact Tz|]. intros e He Hn.
  pose proof (Z.mod_pos_bound message M ltac:(lia)) as Hm.
  unfold Decode. rewrite (decode_scale _ M s (z + e) (message mod M)); try assumption.
  - rewrite Z.mod_mod by lia. reflexivity.
  - lra.
  - lia.
  - rewrite plus_IZR. rewrite abs_IZR in Hn. pose proof (Rle_abs (IZR e)). pose proof (Rle_abs (- IZR e)) as Q.
    rewrite Rabs_Ropp in Q. apply Rabs_le. lra.
Qed.

Lemma custom_roundtrip M s message : fits M s ->
  (v <- Encode (NewEncoderWithScale M s) message ;; Decode (NewEncoderWithScale M s) v) = Ok (message mod M)%Z.
Proof.
  intros H. destruct (custom_noisy M s message H) as (z & E & Tz & N). rewrite E. cbn [bind].
  replace z with (z + 0)%Z by lia. apply N.
  - rewrite Z.add_0_r. exact Tz.
  - destruct H as (_ & _ & Hs & _). simpl Z.abs. lra.
Qed.

Lemma custom_bool M s message : fits M s ->
  (v <- Encode (NewEncoderWithScale M s) message ;; DecodeBool (NewEncoderWithScale M s) v)
    = Ok (negb (message mod M =? 0))%Z.
Proof.
  intros H. pose proof (custom_roundtrip M s message H) as R. destruct (Encode _ message) as [v|]; [|discriminate R].
  cbn [bind] in *. unfold DecodeBool. rewrite R. reflexivity.
Qed.

(** with a scale that divides the torus in a multiple of M parts, noise may
    also carry message 0 below 0 *)
Lemma custom_wrap M s q message : fits M s -> (0 < q)%Z -> (M | q)%Z -> Rabs (IZR q * val s - 1) <= / 8589934592 ->
  exists z, Encode (NewEncoderWithScale M s) message = Ok z /\ tok z /\
  forall e, IZR (Z.abs e) + 2 <= val s * 2147481600 ->
    Decode (NewEncoderWithScale M s) (w32 (z + e)) = Ok (message mod M)%Z.
Proof.
  intros H Hq Hd Hqs. destruct (custom_noisy M s message H) as (z & E & Tz & N).
  destruct (fits_encode M s message H) as (z' & E' & _ & B). rewrite E in E'. injection E' as <-.
  destruct H as (HM & Fs & Hs & Hr).
  exists z. split; [exact E|]. split; [exact Tz|]. intros e Hn.
  pose proof (Z.mod_pos_bound message M ltac:(lia)) as Hm. set (r := (message mod M)%Z) in *.
  assert (Hqm: IZR M <= IZR q) by (apply IZR_le, Z.divide_pos_le; assumption).
  apply Rabs_le_inv in Hqs.
  assert (R1: IZR r <= IZR M - 1) by (rewrite <- minus_IZR; apply IZR_le; lia).
  assert (R0: 0 <= IZR r) by (apply IZR_le; lia).
  assert (Ms: IZR M * val s <= 1 + / 8589934592) by nra.
  assert (Rs: IZR r * val s <= (IZR M - 1) * val s) by nra.
  assert (An: IZR e <= IZR (Z.abs e) /\ - IZR e <= IZR (Z.abs e)).
  { rewrite <- opp_IZR. split; apply IZR_le; lia. }
  destruct (Z_lt_dec (z + e) 0) as [Hneg|Hpos].
  - assert (Hr0: r = 0%Z).
    { destruct (Z.eq_dec r 0) as [|Hr0]; [assumption|exfalso]. assert (1 <= IZR r) by (apply IZR_le; lia).
      apply IZR_lt in Hneg. rewrite plus_IZR in Hneg. nra. }
    rewrite Hr0 in B. simpl IZR in B.
    assert (Z0: z = 0%Z). { destruct Tz as [Z1 _]. assert ((z < 1)%Z) by (apply lt_IZR; lra). lia. }
    assert (Eb: (- 2147483648 < e)%Z).
    { apply lt_IZR. change (IZR (- 2147483648)) with (- 2147483648). 
      assert (val s <= 1 + / 8589934592) by (assert (1 <= IZR M) by (apply IZR_le; lia); nra). lra. }
    rewrite Z0 in *. replace (w32 (0 + e)) with (e + 4294967296)%Z.
    2:{ unfold w32, two32. apply (Z.mod_unique_pos _ _ (-1)); lia. }
    unfold Decode. rewrite (decode_scale _ M s (e + 4294967296) q); try assumption.
    + rewrite Hr0. f_equal. apply Z.mod_divide; [lia|exact Hd].
    + lra.
    + unfold tok, two32. lia.
    + lia.
    + rewrite plus_IZR. apply Rabs_le. lra.
  - rewrite w32_small.
    + apply N; [|exact Hn]. split; [lia|]. change (2 ^ 32)%Z with 4294967296%Z.
      apply lt_IZR. rewrite plus_IZR. lra.
    + split; [lia|]. unfold two32. apply lt_IZR. rewrite plus_IZR. lra.
Qed.

(** a scale too fine for the torus *)
Lemma custom_fine M s message : (1 <= M <= 2 ^ 53)%Z -> is_finite s = true -> 0 <= val s ->
  (IZR M - 1) * val s <= / 8589934592 -> Encode (NewEncoderWithScale M s) message = Ok 0%Z.
Proof.
  intros HM Fs Hs Hr. destruct (encode_scale M s message) as (z & E & Tz & B); try assumption; try lra; try lia.
  pose proof (Z.mod_pos_bound message M ltac:(lia)) as Hm.
  assert (R1: IZR (message mod M) <= IZR M - 1) by (rewrite <- minus_IZR; apply IZR_le; lia).
  assert (R0: 0 <= IZR (message mod M)) by (apply IZR_le; lia).
  rewrite E. f_equal. destruct Tz as [Z1 _]. assert ((z < 1)%Z) by (apply lt_IZR; nra). lia.
Qed.

(** a scale too coarse for the modulus *)
Lemma custom_coarse M k : (0 <= k <= 52)%Z -> (2 ^ k < M)%Z ->
  Encode (NewEncoderWithScale M (f_pow2 (- k))) (2 ^ k) = Encode (NewEncoderWithScale M (f_pow2 (- k))) 0.
Proof.
  intros Hk HM. assert (P: (0 < 2 ^ k)%Z) by (apply Z.pow_pos_nonneg; lia).
  assert (P2: (2 ^ k <= 2 ^ 52)%Z) by (apply Z.pow_le_mono_r; lia).
  unfold Encode, NewEncoderWithScale. cbn [MessageModulus Scale].
  rewrite !normalize_ok by lia. cbn [bind]. rewrite (Z.mod_small (2 ^ k)), (Z.mod_0_l M) by lia.
  destruct (f_of_Z_exact (2 ^ k)) as [Kv Kf].
  { change (2 ^ 53)%Z with (2 * 2 ^ 52)%Z. lia. }
  destruct (f_of_Z_exact 0) as [Ov Of]; [vm_compute; discriminate|].
  destruct (f_pow2_exact (- k)) as [Sv Sf]; [lia|].
  destruct (fmul_exact (f_of_Z (2 ^ k)) (f_pow2 (- k)) 1) as [V1 F1]; try assumption.
  { rewrite Kv, Sv. change 2%Z with (radix_val radix2). rewrite IZR_Zpower by lia. rewrite <- bpow_plus. 
    replace (k + - k)%Z with 0%Z by lia. reflexivity. }
  { replace 1 with (F2R (Float radix2 1 0)) by (unfold F2R; simpl; lra). apply fmt_mk; [vm_compute; discriminate|lia]. }
  { rewrite Rabs_pos_eq by lra. change 1 with (bp 0). apply bpow_lt. reflexivity. }
  destruct (fmul_exact (f_of_Z 0) (f_pow2 (- k)) 0) as [V0 F0]; try assumption.
  { rewrite Ov. ring. } { apply generic_format_0. } { rewrite Rabs_R0. apply bpow_gt_0. }
  rewrite !F64ToTorus_real by assumption. rewrite V1, V0.
  change 1 with (IZR 1). change 0 with (IZR 0). rewrite !Ztrunc_IZR. rewrite !Rminus_eq_0. reflexivity.
Qed.

(** * Integer message encodings: EncryptLWEMessage, Encoder *)
From Coq Require Import Lia ZifyBool Reals Lra.
From Flocq Require Import Core BinarySingleNaN.
From Verif Require Import GoBase GoFacts F64 F64Facts F64Err Utils UtilsFacts Tlwe TlweFacts Lut.
Local Open Scope Z_scope.
Ltac Zify.zify_post_hook ::= Z.div_mod_to_equations.

Lemma normalize_ok message m : 0 < m -> normalize message m = Ok (message mod m).
Proof.
  intro Hm. unfold normalize, go_rem. destruct (Z.eqb_spec m 0); [lia|]. cbn [bind]. f_equal.
  destruct (Z.ltb_spec (Z.rem message m) 0) as [H|H].
  - pose proof (Z.rem_bound_abs message m ltac:(lia)).
    pose proof (Z.quot_rem' message m).
    apply (Z.mod_unique_pos _ _ (Z.quot message m - 1)); lia.
  - pose proof (Z.rem_bound_abs message m ltac:(lia)).
    pose proof (Z.quot_rem' message m).
    apply (Z.mod_unique_pos _ _ (Z.quot message m)); lia.
Qed.

(** the double EncryptLWEMessage hands to EncryptF64 *)
Definition lwe_enc (message M : Z) : f64 :=
  fdiv (fmul (f_of_Z message) (fdiv (f_pow2 31) (f_of_Z M))) (f_pow2 32).

Lemma EncryptLWEMessage_eq n P message M key r : 0 < M ->
  EncryptLWEMessage n P message M key r = EncryptF64 n P (lwe_enc (message mod M) M) key r.
Proof.
  intro HM. unfold EncryptLWEMessage. pose proof (normalize_ok message M HM) as H.
  unfold normalize in H. destruct (go_rem message M) as [x|e] eqn:E; [|discriminate]. cbn [bind] in *.
  injection H as H. rewrite H. reflexivity.
Qed.

(** a real of the form z/2^32 in [0,1) *)
Lemma F64ToTorus_of_real x y : is_finite x = true -> (val x = y / 4294967296)%R -> (0 <= y < 4294967296)%R ->
  F64ToTorus x = Zfloor y.
Proof.
  intros Hf Hv Hy. rewrite F64ToTorus_real by assumption.
  assert (Ht: Ztrunc (val x) = 0).
  { rewrite Ztrunc_floor by (rewrite Hv; lra). apply Zfloor_imp. rewrite Hv. simpl. lra. }
  rewrite Ht, Hv. replace ((y / 4294967296 - 0) * 4294967296)%R with y by field.
  rewrite Ztrunc_floor by lra. apply Z.mod_small. split.
  - apply Zfloor_lub. simpl. lra.
  - apply lt_IZR. apply Rle_lt_trans with (1 := Zfloor_lb y). exact (proj2 Hy).
Qed.

(** one rounded division followed by one rounded product stays within 2^-20 *)
Section Approx.
Variables (message M : Z).
Hypothesis HM : 1 <= M < 2 ^ 20.
Hypothesis Hmsg : 0 <= message < M.

Local Open Scope R_scope.

Lemma HM_R : 1 <= IZR M < 1048576.
Proof. destruct HM as [H1 H2]. apply IZR_le in H1. apply IZR_lt in H2. simpl in H1, H2. lra. Qed.
Lemma Hmsg_R : 0 <= IZR message <= IZR M - 1.
Proof.
  destruct Hmsg as [H1 H2]. apply IZR_le in H1. assert (H3: (message <= M - 1)%Z) by lia.
  apply IZR_le in H3. rewrite minus_IZR in H3. lra.
Qed.

Lemma inv_M : 0 < / IZR M <= 1.
Proof.
  pose proof HM_R. split; [apply Rinv_0_lt_compat; lra|]. rewrite <- Rinv_1. apply Rinv_le; lra.
Qed.

(** value of the product of the message by a scale that is c/M rounded *)
Lemma scaled_message sc c : fin sc -> / 2 <= c <= 2147483648 ->
  Rabs (val sc - c / IZR M) <= u53 * (c / IZR M) + eta ->
  fin (fmul (f_of_Z message) sc) /\
  Rabs (val (fmul (f_of_Z message) sc) - IZR message * c / IZR M) <= c * bp (-51).
Proof.
  intros Fs Hc Hs. pose proof HM_R as HR. pose proof Hmsg_R as Hm. pose proof inv_M as Hi.
  destruct (f_of_Z_exact message) as [Hv Hf]; [lia|].
  assert (Hu: u53 = / 9007199254740992) by reflexivity.
  assert (Heta: eta <= bp (-1000)) by (apply eta_small; lia).
  assert (Hbp: bp (-1000) * 1048576 <= bp (-100)).
  { change 1048576 with (bp 20). rewrite <- bpow_plus. apply bpow_le. lia. }
  assert (H51: bp (-51) = 4 * u53). { unfold u53. change 4 with (bp 2). rewrite <- bpow_plus. reflexivity. }
  (* message / M < 1 *)
  assert (Hq: 0 <= IZR message * / IZR M <= 1).
  { split; [apply Rmult_le_pos; lra|]. apply Rmult_le_reg_r with (IZR M); [lra|].
    rewrite Rmult_assoc, Rinv_l by lra. lra. }
  set (q := IZR message * / IZR M) in *.
  assert (Hprod: Rabs (IZR message * val sc - q * c) <= u53 * c + bp (-100)).
  { replace (IZR message * val sc - q * c) with (IZR message * (val sc - c / IZR M)) by (unfold q, Rdiv; ring).
    rewrite Rabs_mult, (Rabs_pos_eq (IZR message)) by lra.
    apply Rle_trans with (IZR message * (u53 * (c / IZR M) + eta)).
    - apply Rmult_le_compat_l; lra.
    - replace (IZR message * (u53 * (c / IZR M) + eta)) with (u53 * (c * q) + IZR message * eta)
        by (unfold q, Rdiv; ring).
      apply Rplus_le_compat.
      + apply Rmult_le_compat_l; [apply Rlt_le, u53_pos|]. nra.
      + apply Rle_trans with (1048576 * bp (-1000)); [|lra].
        apply Rmult_le_compat; try lra. apply Rlt_le, eta_pos. }
  assert (Hqc: 0 <= q * c <= c) by nra.
  assert (Hb100: bp (-100) <= / 1048576).
  { change (/ 1048576) with (bp (-20)). apply bpow_le; lia. }
  assert (Hu1: u53 * c <= 1). { rewrite Hu. lra. }
  assert (Hmagn: Rabs (IZR message * val sc) <= c + 2).
  { replace (IZR message * val sc) with (q * c + (IZR message * val sc - q * c)) by ring.
    apply Rle_trans with (1 := Rabs_triang _ _). rewrite (Rabs_pos_eq (q * c)) by lra. lra. }
  destruct (fmul_err (f_of_Z message) sc) as [F E].
  - exact Hf.
  - exact Fs.
  - rewrite Hv. apply Rle_trans with (1 := Hmagn). apply Rle_trans with (bp 40).
    + change (bp 40) with 1099511627776. lra.
    + apply bpow_le; lia.
  - split; [exact F|]. rewrite Hv in E.
    replace (val (fmul (f_of_Z message) sc) - IZR message * c / IZR M)
      with ((val (fmul (f_of_Z message) sc) - IZR message * val sc) + (IZR message * val sc - q * c))
      by (unfold q, Rdiv; ring).
    apply Rle_trans with (1 := Rabs_triang _ _).
    assert (u53 * Rabs (IZR message * val sc) <= u53 * Rabs (q * c) + u53 * (u53 * c + bp (-100))).
    { rewrite <- Rmult_plus_distr_l. apply Rmult_le_compat_l; [apply Rlt_le, u53_pos|].
      replace (IZR message * val sc) with (q * c + (IZR message * val sc - q * c)) at 1 by ring.
      apply Rle_trans with (1 := Rabs_triang _ _). lra. }
    rewrite (Rabs_pos_eq (q * c)) in H by lra.
    assert (u53 * (q * c) <= u53 * c) by (apply Rmult_le_compat_l; [apply Rlt_le, u53_pos|lra]).
    rewrite H51.
    assert (bp (-60) <= u53 * c).
    { apply Rle_trans with (u53 * / 2).
      - rewrite Hu. change (bp (-60)) with (/ 1152921504606846976). lra.
      - apply Rmult_le_compat_l; [apply Rlt_le, u53_pos|lra]. }
    assert (bp (-100) * 1099511627776 = bp (-60)).
    { change 1099511627776 with (bp 40). rewrite <- bpow_plus. reflexivity. }
    assert (eta <= bp (-100)) by (apply eta_small; lia).
    pose proof (bpow_gt_0 radix2 (-100)).
    assert (u53 * (u53 * c + bp (-100)) <= / 1000 * (u53 * c + bp (-100))).
    { apply Rmult_le_compat_r; [lra|]. rewrite Hu. lra. }
    lra.
Qed.

Lemma scaled_zero sc : fin sc -> message = 0%Z -> val (fmul (f_of_Z message) sc) = 0 /\ fin (fmul (f_of_Z message) sc).
Proof.
  intros Fs H0. destruct (f_of_Z_exact message) as [Hv Hf]; [lia|].
  destruct (fmul_exact (f_of_Z message) sc 0) as [E F].
  - exact Hf.
  - exact Fs.
  - rewrite Hv, H0. ring.
  - apply generic_format_0.
  - rewrite Rabs_R0. apply bpow_gt_0.
  - split; [exact E|exact F].
Qed.

(** floor of a real within 2^-20 below/above m 2^31 / M *)
Lemma floor_encoding v : Rabs (v - IZR message * 2147483648 / IZR M) <= / 1048576 ->
  (message * 2147483648 - M <= Zfloor v * M <= message * 2147483648)%Z.
Proof.
  intro H. pose proof HM_R as HR. apply Rabs_le_inv in H.
  pose proof (Zfloor_lb v) as Hl. pose proof (Zfloor_ub v) as Hu.
  set (z := Zfloor v) in *.
  assert (E: IZR message * 2147483648 / IZR M * IZR M = IZR message * 2147483648) by (field; lra).
  split.
  - assert (IZR message * 2147483648 - IZR M - 1 < IZR z * IZR M) as H1.
    { assert ((IZR message * 2147483648 / IZR M - / 1048576 - 1) * IZR M < IZR z * IZR M)
        by (apply Rmult_lt_compat_r; lra). nra. }
    cut (message * 2147483648 - M - 1 < z * M)%Z; [lia|]. apply lt_IZR.
    rewrite !minus_IZR, !mult_IZR. exact H1.
  - cut (z * M < message * 2147483648 + 1)%Z; [lia|]. apply lt_IZR.
    rewrite plus_IZR, !mult_IZR.
    assert (IZR z * IZR M <= (IZR message * 2147483648 / IZR M + / 1048576) * IZR M)
      by (apply Rmult_le_compat_r; lra). nra.
Qed.

Lemma fdiv_const k (z : Z) : (0 <= k <= 31)%Z -> (1 <= z <= 2097152)%Z ->
  fin (fdiv (f_pow2 k) (f_of_Z z)) /\
  Rabs (val (fdiv (f_pow2 k) (f_of_Z z)) - bp k / IZR z) <= u53 * (bp k / IZR z) + eta.
Proof.
  intros Hk Hz. destruct (f_of_Z_exact z) as [Hv Hf]; [lia|].
  destruct (f_pow2_exact k) as [Pv Pf]; [lia|].
  assert (Hz': 1 <= IZR z) by (apply IZR_le; lia).
  assert (Hp: 0 <= bp k / IZR z <= bp k).
  { pose proof (bpow_gt_0 radix2 k). split.
    - apply Rmult_le_pos; [lra|]. apply Rlt_le, Rinv_0_lt_compat; lra.
    - apply Rmult_le_reg_r with (IZR z); [lra|]. unfold Rdiv. rewrite Rmult_assoc, Rinv_l by lra. nra. }
  destruct (fdiv_err (f_pow2 k) (f_of_Z z)) as [F E].
  - exact Pf.
  - rewrite Hv. lra.
  - rewrite Pv, Hv, Rabs_pos_eq by lra. apply Rle_trans with (1 := proj2 Hp). apply bpow_le; lia.
  - split; [exact F|]. rewrite Pv, Hv in E. rewrite (Rabs_pos_eq (bp k / IZR z)) in E by lra. exact E.
Qed.

Lemma lwe_enc_torus :
  (message * 2 ^ 31 - M <= F64ToTorus (lwe_enc message M) * M <= message * 2 ^ 31)%Z.
Proof.
  change (2 ^ 31)%Z with 2147483648%Z.
  pose proof HM_R as HR. pose proof Hmsg_R as Hm. pose proof inv_M as Hi.
  destruct (fdiv_const 31 M) as [Fs Es]; [lia..|].
  change (bp 31) with 2147483648 in Es.
  unfold lwe_enc. set (sc := fdiv (f_pow2 31) (f_of_Z M)) in *.
  destruct (scaled_message sc 2147483648) as [Fv Ev]; [assumption|lra|assumption|].
  set (p := fmul (f_of_Z message) sc) in *.
  assert (Hc: 2147483648 * bp (-51) = / 1048576).
  { change 2147483648 with (bp 31). rewrite <- bpow_plus. reflexivity. }
  rewrite Hc in Ev.
  assert (Hp: val p = 0 \/ 1 <= val p < 4294967296).
  { destruct (Z.eq_dec message 0) as [H0|H0].
    - left. apply scaled_zero; assumption.
    - right. apply Rabs_le_inv in Ev.
      assert (1 <= IZR message) by (apply IZR_le; lia).
      assert (H1: 2048 <= IZR message * 2147483648 / IZR M <= 2147483648).
      { unfold Rdiv. split.
        - apply Rmult_le_reg_r with (IZR M); [lra|]. rewrite Rmult_assoc, Rinv_l by lra. nra.
        - apply Rmult_le_reg_r with (IZR M); [lra|]. rewrite Rmult_assoc, Rinv_l by lra. nra. }
      lra. }
  destruct (f_pow2_exact 32) as [Pv Pf]; [lia|].
  assert (Hinv: val p / val (f_pow2 32) = val p * bp (-32)).
  { rewrite Pv. unfold Rdiv. rewrite <- bpow_opp. reflexivity. }
  destruct (fdiv_exact p (f_pow2 32) (val p * bp (-32))) as [E F].
  - exact Fv.
  - rewrite Pv. apply Rgt_not_eq, bpow_gt_0.
  - exact Hinv.
  - apply (fmt_unscale (val p) 32); [lia|apply val_fmt|].
    destruct Hp as [Hp|Hp]; [left; exact Hp|right]. rewrite Rabs_pos_eq; lra.
  - rewrite Rabs_mult, (Rabs_pos_eq (bp (-32))) by apply bpow_ge_0.
    apply Rle_lt_trans with (4294967296 * bp (-32)).
    + apply Rmult_le_compat_r; [apply bpow_ge_0|]. apply Rabs_le. lra.
    + change 4294967296 with (bp 32). rewrite <- bpow_plus. apply bpow_lt; lia.
  - rewrite (F64ToTorus_of_real _ (val p)).
    + apply floor_encoding. exact Ev.
    + exact F.
    + rewrite E. reflexivity.
    + lra.
Qed.

Lemma Encode_torus : exists z, Encode (NewEncoder M) message = Ok z /\ tok z /\
  (message * 2 ^ 31 - M <= z * M <= message * 2 ^ 31)%Z.
Proof.
  change (2 ^ 31)%Z with 2147483648%Z.
  pose proof HM_R as HR. pose proof Hmsg_R as Hm. pose proof inv_M as Hi.
  unfold Encode, NewEncoder. cbn [MessageModulus Scale].
  rewrite normalize_ok by lia. cbn [bind]. rewrite (Z.mod_small message M) by lia.
  eexists; split; [reflexivity|]. split; [apply F64ToTorus_tok|].
  change (f_of_Z 1) with (f_pow2 0).
  destruct (fdiv_const 0 (2 * M)) as [Fs Es]; [lia..|].
  set (sc := fdiv (f_pow2 0) (f_of_Z (2 * M))) in *.
  assert (Hc0: bp 0 / IZR (2 * M) = / 2 / IZR M).
  { rewrite mult_IZR. change (bp 0) with 1. field. lra. }
  rewrite Hc0 in Es.
  destruct (scaled_message sc (/ 2)) as [Fv Ev]; [assumption|lra|assumption|].
  set (p := fmul (f_of_Z message) sc) in *.
  change (bp (-51)) with (/ 2251799813685248) in Ev.
  assert (Hp: 0 <= val p < 1).
  { destruct (Z.eq_dec message 0) as [H0|H0].
    - destruct (scaled_zero sc Fs H0) as [H1 _]. fold p in H1. lra.
    - apply Rabs_le_inv in Ev.
      assert (1 <= IZR message) by (apply IZR_le; lia).
      assert (H1: / 2097152 <= IZR message * / 2 / IZR M <= / 2).
      { unfold Rdiv. split.
        - apply Rmult_le_reg_r with (IZR M); [lra|]. rewrite Rmult_assoc, Rinv_l by lra. nra.
        - apply Rmult_le_reg_r with (IZR M); [lra|]. rewrite Rmult_assoc, Rinv_l by lra. nra. }
      lra. }
  rewrite (F64ToTorus_of_real _ (val p * 4294967296)).
  - apply floor_encoding.
    replace (val p * 4294967296 - IZR message * 2147483648 / IZR M)
      with ((val p - IZR message * / 2 / IZR M) * 4294967296) by (field; lra).
    rewrite Rabs_mult, (Rabs_pos_eq 4294967296) by lra. lra.
  - exact Fv.
  - field.
  - lra.
Qed.
End Approx.

Local Open Scope R_scope.
(** Decode rounds to the nearest multiple of 2^31/M *)
Lemma Decode_nearest_on other M t j : (1 <= M < 2 ^ 20)%Z -> tok t -> (0 <= j)%Z ->
  (Z.abs (t * M - j * 2 ^ 31) <= 2 ^ 30 - 4)%Z ->
  Decode_on other (NewEncoder M) t = Ok (j mod M)%Z.
Proof.
  intros HM Ht Hj Hd. change (2 ^ 31)%Z with 2147483648%Z in Hd. change (2 ^ 30)%Z with 1073741824%Z in Hd.
  pose proof (HM_R M HM) as HR.
  unfold Decode_on, NewEncoder. cbn [MessageModulus Scale].
  change (f_of_Z 1) with (f_pow2 0).
  destruct (fdiv_const 0 (2 * M)) as [Fs Es]; [lia..|].
  set (sc := fdiv (f_pow2 0) (f_of_Z (2 * M))) in *.
  change (bp 0) with 1 in Es.
  destruct (TorusToF64_val t Ht) as [Tv Tf].
  set (f := TorusToF64 t) in *.
  assert (Hu: u53 = / 9007199254740992) by reflexivity.
  assert (Heta: eta <= / 1152921504606846976).
  { change (/ 1152921504606846976) with (bp (-60)). apply eta_small; lia. }
  pose proof eta_pos as Heta0.
  rewrite mult_IZR in Es.
  set (w := 1 / (2 * IZR M)) in *.
  assert (Hw: w * (2 * IZR M) = 1) by (unfold w; field; lra).
  assert (Hw0: / 2097152 <= w <= / 2).
  { split; apply Rmult_le_reg_r with (2 * IZR M); lra || nra. }
  apply Rabs_le_inv in Es.
  assert (Hs0: 0 < val sc) by (rewrite Hu in Es; lra).
  assert (Hs: val sc <> 0) by (apply Rgt_not_eq; exact Hs0).
  (* x = t/2^32 ; x / sc vs x / w *)
  assert (Hx: 0 <= val f < 1).
  { rewrite Tv. unfold tok, two32 in Ht. destruct Ht as [H1 H2]. apply IZR_le in H1. apply IZR_lt in H2.
    simpl in H1, H2. lra. }
  assert (Hd0: Rabs (val f / val sc - val f / w) <= 3 * u53 * 2097152).
  { replace (val f / val sc - val f / w) with (val f * ((w - val sc) / (w * val sc))) by (field; split; lra).
    rewrite Rabs_mult, (Rabs_pos_eq (val f)) by lra.
    assert (Hws: 0 < w * val sc) by nra.
    assert (Rabs ((w - val sc) / (w * val sc)) <= 3 * u53 * 2097152).
    { unfold Rdiv. rewrite Rabs_mult, (Rabs_pos_eq (/ (w * val sc))) by (apply Rlt_le, Rinv_0_lt_compat; lra).
      apply Rmult_le_reg_r with (w * val sc); [lra|].
      rewrite Rmult_assoc, Rinv_l by lra. rewrite Rmult_1_r.
      apply Rle_trans with (u53 * w + eta); [apply Rabs_le; lra|].
      assert (eta <= u53 * w).
      { apply Rle_trans with (bp (-80)); [apply eta_small; lia|].
        rewrite Hu. change (bp (-80)) with (/ 1208925819614629174706176). lra. }
      assert (Hsc: 2/3 <= 2097152 * val sc) by (rewrite Hu in Es; lra).
      assert (H23: w * (2/3) <= w * (2097152 * val sc)) by (apply Rmult_le_compat_l; lra).
      replace (3 * u53 * 2097152 * (w * val sc)) with (3 * u53 * (w * (2097152 * val sc))) by ring.
      apply Rle_trans with (3 * u53 * (w * (2/3))); [|apply Rmult_le_compat_l; [rewrite Hu|]; lra].
      lra. }
    apply Rle_trans with (1 * (3 * u53 * 2097152)); [|lra].
    apply Rmult_le_compat; try lra. apply Rabs_pos. }
  assert (Hxw: val f / w = IZR t * IZR M / 2147483648).
  { rewrite Tv. unfold w. field. lra. }
  rewrite Hxw in Hd0.
  assert (Hq: 0 <= IZR t * IZR M / 2147483648 < 2097152).
  { unfold tok, two32 in Ht. destruct Ht as [H1 H2]. apply IZR_le in H1. apply IZR_lt in H2.
    simpl in H1, H2. split; [unfold Rdiv; apply Rmult_le_pos; [nra|lra]|]. nra. }
  set (q := IZR t * IZR M / 2147483648) in *.
  rewrite Hu in Hd0.
  apply Rabs_le_inv in Hd0.
  destruct (fdiv_err f sc) as [F1 E1].
  { exact Tf. } { exact Hs. }
  { apply Rle_trans with 4194304; [apply Rabs_le; lra|].
    change 4194304 with (bp 22). apply bpow_le; lia. }
  rewrite Hu in E1.
  assert (A1: Rabs (val f / val sc) <= 2097153) by (apply Rabs_le; lra).
  assert (E1': Rabs (val (fdiv f sc) - val f / val sc) <= / 2147483648) by lra.
  apply Rabs_le_inv in E1'.
  destruct (flit_exact 1 (-1)) as [Hhv Hhf]; [lia|lia|lia|].
  assert (Hh: val f_half = / 2). { unfold f_half. rewrite Hhv. unfold F2R; simpl. lra. }
  destruct (fadd_err (fdiv f sc) f_half) as [F2 E2].
  { exact F1. } { exact Hhf. }
  { rewrite Hh. apply Rle_trans with 4194304; [apply Rabs_le; lra|].
    change 4194304 with (bp 22). apply bpow_le; lia. }
  rewrite Hh, Hu in E2.
  assert (A2: Rabs (val (fdiv f sc) + / 2) <= 2097155) by (apply Rabs_le; lra).
  assert (E2': Rabs (val (fadd (fdiv f sc) f_half) - (val (fdiv f sc) + / 2)) <= / 2147483648) by lra.
  apply Rabs_le_inv in E2'.
  assert (Hqj: Rabs (q - IZR j) <= / 2 - 4 / 2147483648).
  { replace (q - IZR j) with ((IZR t * IZR M - IZR j * 2147483648) / 2147483648) by (unfold q; field).
    unfold Rdiv at 1. rewrite Rabs_mult, (Rabs_pos_eq (/ 2147483648)) by lra.
    apply IZR_le in Hd. rewrite abs_IZR, minus_IZR, !mult_IZR in Hd. simpl in Hd. lra. }
  apply Rabs_le_inv in Hqj.
  set (y := fadd (fdiv f sc) f_half) in *.
  assert (Hj0: 0 <= IZR j) by (apply IZR_le; assumption).
  assert (Hy: IZR j <= val y < IZR j + 1) by lra.
  assert (Htr: Ztrunc (val y) = j).
  { rewrite Ztrunc_floor by lra. apply Zfloor_imp. rewrite plus_IZR. exact Hy. }
  assert (Hjb: (j <= 2097155)%Z) by (apply le_IZR; lra).
  rewrite f_int64_correct.
  - rewrite Htr. apply normalize_ok. lia.
  - exact F2.
  - rewrite Htr. unfold two63. lia.
Qed.
Lemma Decode_nearest M t j : (1 <= M < 2 ^ 20)%Z -> tok t -> (0 <= j)%Z ->
  (Z.abs (t * M - j * 2 ^ 31) <= 2 ^ 30 - 4)%Z ->
  Decode (NewEncoder M) t = Ok (j mod M)%Z.
Proof. apply Decode_nearest_on. Qed.

Local Open Scope Z_scope.
Lemma DecryptLWEMessage_ok n P M key : 0 <= n -> n < zlen P -> n <= zlen key -> 1 <= M <= 2 ^ 31 ->
  DecryptLWEMessage n P M key =
    Ok (w32 (lwe_phase n key P + 2 ^ 31 / M / 2) / (2 ^ 31 / M) mod M).
Proof.
  intros Hn HP Hk HM. change (2 ^ 31) with two31 in *.
  unfold DecryptLWEMessage. rewrite (w32_small M) by (unfold two31, two32 in *; lia).
  assert (Hs: 1 <= two31 / M) by (apply Z.div_le_lower_bound; lia).
  unfold go_div. destruct (Z.eqb_spec M 0); [lia|]. cbn [bind].
  rewrite (Z.quot_div_nonneg two31 M) by (unfold two31; lia).
  rewrite inner_product_ok by lia. cbn [bind]. rewrite get_zn by lia. cbn [bind].
  rewrite phase_sub. destruct (Z.eqb_spec 2 0); [lia|]. cbn [bind].
  rewrite (Z.quot_div_nonneg (two31 / M) 2) by lia.
  destruct (Z.eqb_spec (two31 / M) 0); [lia|]. cbn [bind].
  unfold tadd. pose proof (w32_range (lwe_phase n key P + two31 / M / 2)).
  rewrite Z.quot_div_nonneg by lia.
  pose proof (normalize_ok (w32 (lwe_phase n key P + two31 / M / 2) / (two31 / M)) M ltac:(lia)) as Hn'.
  unfold normalize in Hn'. exact Hn'.
Qed.

(** the value encrypted by EncryptLWEMessage, for any modulus below 2^20 *)
Lemma EncryptLWEMessage_phase n P message M key r ct : 0 <= n -> n < zlen P -> n <= zlen key ->
  1 <= M < 2 ^ 20 ->
  EncryptLWEMessage n P message M key r = Ok ct ->
  zlen ct = zlen P /\
  exists z, (message mod M) * 2 ^ 31 - M <= z * M <= (message mod M) * 2 ^ 31 /\
    lwe_phase n key ct == z + F64ToTorus (er_noise r).
Proof.
  intros Hn HP Hk HM H. rewrite EncryptLWEMessage_eq in H by lia.
  apply EncryptF64_phase in H; try assumption. destruct H as [Hl H]. split; [exact Hl|].
  exists (F64ToTorus (lwe_enc (message mod M) M)). split.
  - apply lwe_enc_torus; [assumption|]. apply Z.mod_pos_bound; lia.
  - rewrite H. apply eqm_w32.
Qed.

(** decoding an approximately encoded message *)
Lemma decode_msg M m z e ph : 1 <= M < 2 ^ 20 -> 0 <= m < M ->
  m * 2 ^ 31 - M <= z * M <= m * 2 ^ 31 ->
  ph == z + e -> Z.abs e <= 2 ^ 31 / M / 2 - M ->
  w32 (ph + 2 ^ 31 / M / 2) / (2 ^ 31 / M) mod M = m.
Proof.
  intros HM Hm Hz Hp He. set (sc := 2 ^ 31 / M) in *.
  assert (Hsc: sc * M <= 2 ^ 31 < (sc + 1) * M) by (unfold sc; lia).
  assert (Hlo: m * sc - 1 <= z) by nia.
  assert (Hhi: z <= m * sc + m) by nia.
  set (h := sc / 2) in *.
  assert (Hh: 2 * h <= sc <= 2 * h + 1) by (unfold h; lia).
  assert (Hx: w32 (ph + h) = z + e + h).
  { apply eqm_eq; [rewrite eqm_w32, Hp; apply eqm_refl'; lia|apply tok_w32|].
    unfold tok, two32. split; [nia|]. assert (m * sc <= 2 ^ 31) by nia. assert (sc <= 2 ^ 31) by nia. lia. }
  rewrite Hx. replace ((z + e + h) / sc) with m.
  - apply Z.mod_small; assumption.
  - apply (Z.div_unique_pos _ _ _ (z + e + h - m * sc)); nia.
Qed.

(** powers of two: everything is exact *)
Lemma lwe_enc_pow2 m k : 0 <= k <= 31 -> 0 <= m < 2 ^ k ->
  F64ToTorus (lwe_enc m (2 ^ k)) = m * 2 ^ (31 - k).
Proof.
  intros Hk Hm. unfold lwe_enc.
  assert (Hkb: 2 ^ k <= 2 ^ 31) by (apply Z.pow_le_mono_r; lia).
  assert (Hpk: 2 ^ k * 2 ^ (31 - k) = 2 ^ 31) by (rewrite <- Z.pow_add_r by lia; f_equal; lia).
  destruct (f_of_Z_exact m) as [Mv Mf]; [lia|].
  destruct (f_of_Z_exact (2 ^ k)) as [Kv Kf]; [lia|].
  destruct (f_pow2_exact 31) as [Av Af]; [lia|].
  destruct (f_pow2_exact 32) as [Bv Bf]; [lia|].
  assert (Kv': val (f_of_Z (2 ^ k)) = bp k) by (rewrite Kv; apply (IZR_Zpower radix2); lia).
  assert (HM31: (0 <= IZR m <= bp 31)%R).
  { split; [apply IZR_le; lia|]. change (bp 31) with (IZR (2 ^ 31)). apply IZR_le. lia. }
  assert (Hfm: fmt (IZR m)) by (rewrite <- Mv; apply val_fmt).
  destruct (fdiv_exact (f_pow2 31) (f_of_Z (2 ^ k)) (bp (31 - k))) as [Sv Sf].
  { exact Af. }
  { rewrite Kv'. apply Rgt_not_eq, bpow_gt_0. }
  { rewrite Av, Kv'. unfold Rdiv. rewrite <- bpow_opp, <- bpow_plus. f_equal; lia. }
  { rewrite <- (proj1 (f_pow2_exact (31 - k) ltac:(lia))). apply val_fmt. }
  { rewrite Rabs_pos_eq by apply bpow_ge_0. apply bpow_lt. lia. }
  set (sc := fdiv (f_pow2 31) (f_of_Z (2 ^ k))) in *.
  assert (Hbk: (bp (31 - k) <= bp 31)%R) by (apply bpow_le; lia).
  assert (Hbk0: (0 <= bp (31 - k))%R) by apply bpow_ge_0.
  assert (E2: (IZR m * bp (31 - k))%R = IZR (m * 2 ^ (31 - k))).
  { rewrite mult_IZR. f_equal. symmetry. apply (IZR_Zpower radix2). lia. }
  assert (Hmk: m * 2 ^ (31 - k) < 2 ^ 31) by nia.
  assert (Hmk0: 0 <= m * 2 ^ (31 - k)) by nia.
  assert (Hfmk: fmt (IZR (m * 2 ^ (31 - k)))).
  { rewrite <- (proj1 (f_of_Z_exact (m * 2 ^ (31 - k)) ltac:(lia))). apply val_fmt. }
  assert (Hbd: (0 <= IZR (m * 2 ^ (31 - k)) < 4294967296)%R).
  { split; [apply IZR_le; lia|]. apply IZR_lt. lia. }
  destruct (fmul_exact (f_of_Z m) sc (IZR (m * 2 ^ (31 - k)))) as [Pv Pf].
  { exact Mf. } { exact Sf. }
  { rewrite Mv, Sv. exact E2. }
  { exact Hfmk. }
  { rewrite Rabs_pos_eq by lra. apply Rlt_le_trans with (1 := proj2 Hbd).
    change 4294967296%R with (bp 32). apply bpow_le; lia. }
  set (p := fmul (f_of_Z m) sc) in *.
  destruct (fdiv_exact p (f_pow2 32) (IZR (m * 2 ^ (31 - k)) * bp (- 32))) as [Qv Qf].
  { exact Pf. }
  { rewrite Bv. apply Rgt_not_eq, bpow_gt_0. }
  { rewrite Pv, Bv. unfold Rdiv. rewrite <- bpow_opp. reflexivity. }
  { apply (fmt_unscale _ 32); [lia|exact Hfmk|].
    destruct (Z.eq_dec (m * 2 ^ (31 - k)) 0) as [H0|H0].
    - left. rewrite H0. reflexivity.
    - right. rewrite Rabs_pos_eq by lra. apply IZR_le. lia. }
  { rewrite Rabs_mult, (Rabs_pos_eq (bp (-32))) by apply bpow_ge_0. rewrite Rabs_pos_eq by lra.
    change (bp (-32)) with (/ 4294967296)%R.
    apply Rle_lt_trans with 1%R; [lra|]. change 1%R with (bp 0). apply bpow_lt; lia. }
  rewrite (F64ToTorus_of_real _ (IZR (m * 2 ^ (31 - k)))).
  - apply Zfloor_IZR.
  - exact Qf.
  - rewrite Qv. change (bp (-32)) with (/ 4294967296)%R. reflexivity.
  - exact Hbd.
Qed.

Lemma Encode_pow2 message k : 0 <= k <= 31 ->
  Encode (NewEncoder (2 ^ k)) message = Ok ((message mod 2 ^ k) * 2 ^ (31 - k)).
Proof.
  intros Hk. unfold Encode, NewEncoder. cbn [MessageModulus Scale].
  rewrite normalize_ok by lia. cbn [bind].
  set (m := message mod 2 ^ k). assert (Hm: 0 <= m < 2 ^ k) by (apply Z.mod_pos_bound; lia).
  assert (Hkb: 2 ^ k <= 2 ^ 31) by (apply Z.pow_le_mono_r; lia).
  assert (Hpk: 2 ^ k * 2 ^ (31 - k) = 2 ^ 31) by (rewrite <- Z.pow_add_r by lia; f_equal; lia).
  destruct (f_of_Z_exact m) as [Mv Mf]; [lia|].
  destruct (f_of_Z_exact (2 * 2 ^ k)) as [Kv Kf]; [lia|].
  assert (Kv': val (f_of_Z (2 * 2 ^ k)) = bp (k + 1)).
  { rewrite Kv. replace (2 * 2 ^ k) with (2 ^ (k + 1)) by (rewrite Z.pow_add_r by lia; lia).
    apply (IZR_Zpower radix2); lia. }
  change (f_of_Z 1) with (f_pow2 0). destruct (f_pow2_exact 0) as [Av Af]; [lia|].
  destruct (fdiv_exact (f_pow2 0) (f_of_Z (2 * 2 ^ k)) (bp (- (k + 1)))) as [Sv Sf].
  { exact Af. }
  { rewrite Kv'. apply Rgt_not_eq, bpow_gt_0. }
  { rewrite Av, Kv'. unfold Rdiv. rewrite <- bpow_opp, <- bpow_plus. f_equal. }
  { rewrite <- (proj1 (f_pow2_exact (- (k + 1)) ltac:(lia))). apply val_fmt. }
  { rewrite Rabs_pos_eq by apply bpow_ge_0. apply bpow_lt. lia. }
  set (sc := fdiv (f_pow2 0) (f_of_Z (2 * 2 ^ k))) in *.
  assert (Hmk: m * 2 ^ (31 - k) < 2 ^ 31) by nia.
  assert (Hmk0: 0 <= m * 2 ^ (31 - k)) by nia.
  assert (E2: (IZR m * bp (- (k + 1)) = IZR (m * 2 ^ (31 - k)) / 4294967296)%R).
  { rewrite mult_IZR. change (2 ^ (31 - k)) with (Z.pow (radix_val radix2) (31 - k)).
    rewrite (IZR_Zpower radix2) by lia. change 4294967296%R with (bp 32). unfold Rdiv.
    rewrite <- bpow_opp, Rmult_assoc, <- bpow_plus. do 2 f_equal. lia. }
  assert (Hbd: (0 <= IZR (m * 2 ^ (31 - k)) < 4294967296)%R).
  { split; [apply IZR_le; lia|]. apply IZR_lt. lia. }
  destruct (fmul_exact (f_of_Z m) sc (IZR m * bp (- (k + 1)))) as [Pv Pf].
  { exact Mf. } { exact Sf. }
  { rewrite Mv, Sv. reflexivity. }
  { apply (fmt_unscale _ (k + 1)); [lia|rewrite <- Mv; apply val_fmt|].
    destruct (Z.eq_dec m 0) as [H0|H0].
    - left. rewrite H0. reflexivity.
    - right. rewrite Rabs_pos_eq by (apply IZR_le; lia). apply IZR_le. lia. }
  { rewrite E2. rewrite Rabs_pos_eq by lra.
    apply Rle_lt_trans with 1%R; [lra|]. change 1%R with (bp 0). apply bpow_lt; lia. }
  f_equal. rewrite (F64ToTorus_of_real _ (IZR (m * 2 ^ (31 - k)))).
  - apply Zfloor_IZR.
  - exact Pf.
  - rewrite Pv. exact E2.
  - exact Hbd.
Qed.

Lemma decode_pow2 k m e ph : 0 <= k <= 31 ->
  ph == m * 2 ^ (31 - k) + e ->
  w32 (ph + 2 ^ 31 / 2 ^ k / 2) / (2 ^ 31 / 2 ^ k) mod 2 ^ k
  = (m + (e + 2 ^ (31 - k) / 2) / 2 ^ (31 - k)) mod 2 ^ k.
Proof.
  intros Hk Hp.
  assert (Hpk: 2 ^ 31 / 2 ^ k = 2 ^ (31 - k)) by (symmetry; apply Z.pow_sub_r; lia).
  rewrite Hpk. set (sc := 2 ^ (31 - k)) in *. set (M := 2 ^ k) in *.
  assert (HsM: M * sc = 2 ^ 31) by (unfold M, sc; rewrite <- Z.pow_add_r by lia; f_equal; lia).
  assert (Hsc: 0 < sc) by (unfold sc; lia). assert (HM: 0 < M) by (unfold M; lia).
  apply eqm_iff in Hp. destruct Hp as [t ->].
  unfold w32. set (x := m * sc + e + t * two32 + sc / 2).
  assert (Ex: x mod two32 = (m * sc + e + sc / 2) mod (2 * (M * sc))).
  { change two32 with (2 * 2 ^ 31) in *. rewrite HsM. unfold x.
    replace (m * sc + e + t * (2 * 2 ^ 31) + sc / 2) with (m * sc + e + sc / 2 + t * (2 * 2 ^ 31)) by lia.
    apply Z.mod_add. lia. }
  rewrite Ex. set (y := m * sc + e + sc / 2).
  assert (Ey: y / sc = m + (e + sc / 2) / sc).
  { unfold y. replace (m * sc + e + sc / 2) with (e + sc / 2 + m * sc) by lia.
    rewrite Z.div_add by lia. lia. }
  rewrite <- Ey.
  replace (2 * (M * sc)) with (sc * (2 * M)) by lia.
  rewrite Z.rem_mul_r by lia. rewrite Z.add_comm, Z.mul_comm, Z.div_add_l by lia.
  rewrite (Z.div_small (y mod sc)) by (apply Z.mod_pos_bound; lia). rewrite Z.add_0_r.
  rewrite <- Znumtheory.Zmod_div_mod; [reflexivity|lia|lia|]. exists 2. lia.
Qed.

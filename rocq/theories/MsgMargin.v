(** * The exact margins of integer messages *)
From Coq Require Import Lia ZifyBool.
From Verif Require Import GoBase GoFacts F64 Utils UtilsFacts Spec Tlwe TlweFacts MsgFacts BasicFacts.
Local Open Scope Z_scope.
Ltac Zify.zify_post_hook ::= idtac.

Lemma floor_bounds M m z : 1 <= M -> 0 <= m < M -> m * 2 ^ 31 - M <= z * M <= m * 2 ^ 31 ->
  m * (2 ^ 31 / M) + m * (2 ^ 31 mod M) / M - 1 <= z <= m * (2 ^ 31 / M) + m * (2 ^ 31 mod M) / M.
Proof.
  intros HM Hm Hz. pose proof (Z.div_mod (2 ^ 31) M ltac:(lia)) as E. pose proof (Z.mod_pos_bound (2 ^ 31) M ltac:(lia)) as B.
  set (D := 2 ^ 31 / M) in *. set (rem := 2 ^ 31 mod M) in *.
  pose proof (Z.div_mod (m * rem) M ltac:(lia)) as E2. pose proof (Z.mod_pos_bound (m * rem) M ltac:(lia)) as B2.
  set (q := m * rem / M) in *. set (r := (m * rem) mod M) in *.
  rewrite E in Hz. assert (m * (M * D + rem) = M * (m * D + q) + r) by nia. split; nia.
Qed.

Lemma decode_margin M m z e ph : 1 <= M < 2 ^ 20 -> 0 <= m < M ->
  m * 2 ^ 31 - M <= z * M <= m * 2 ^ 31 -> ph == z + e ->
  let D := 2 ^ 31 / M in
  1 - D / 2 <= m * (2 ^ 31 mod M) / M + e < D - D / 2 ->
  w32 (ph + D / 2) / D mod M = m.
Proof.
  intros HM Hm Hz Hp D He. pose proof (floor_bounds M m z ltac:(lia) Hm Hz) as B. fold D in B.
  assert (HD: 2048 <= D). { unfold D. apply Z.div_le_lower_bound; [lia|]. change (2 ^ 31) with (2 ^ 20 * 2048). nia. }
  assert (HD2: D * M <= 2 ^ 31). { unfold D. pose proof (Z.mul_div_le (2 ^ 31) M ltac:(lia)). lia. }
  pose proof (Z.div_mod D 2 ltac:(lia)) as Eh. pose proof (Z.mod_pos_bound D 2 ltac:(lia)) as Bh.
  set (h := D / 2) in *. set (q := m * (2 ^ 31 mod M) / M) in *.
  assert (X: m * D <= z + e + h < (m + 1) * D) by nia.
  assert (Hx: w32 (ph + h) = z + e + h).
  { apply eqm_eq; [rewrite eqm_w32, Hp; apply eqm_refl'; lia|apply tok_w32|].
    assert (U: (m + 1) * D <= 2 ^ 31).
    { apply Z.le_trans with (M * D); [apply Z.mul_le_mono_nonneg_r; lia|lia]. }
    assert (0 <= m * D) by (apply Z.mul_nonneg_nonneg; lia).
    unfold tok, two32. change (2 ^ 31) with 2147483648 in *. lia. }
  rewrite Hx. replace ((z + e + h) / D) with m.
  - apply Z.mod_small; assumption.
  - apply (Z.div_unique_pos _ _ _ (z + e + h - m * D)); nia.
Qed.

Lemma msg_margin n message M key r : 0 <= n -> zlen key = n -> 1 <= M < 2 ^ 20 ->
  let D := 2 ^ 31 / M in
  1 - D / 2 <= (message mod M) * (2 ^ 31 mod M) / M + centered (F64ToTorus (er_noise r)) < D - D / 2 ->
  exists ct, (t <- NewTLWE n ;; EncryptLWEMessage n t message M key r) = Ok ct /\ lwe_ok n ct /\
    DecryptLWEMessage n ct M key = Ok (message mod M).
Proof.
  intros Hn Hk HM D He. destruct (EncryptLWEMessage_total n message M key r) as (ct & E & [Hl Ht] & Hp); [lia|lia|lia|].
  exists ct. split; [exact E|]. split; [split; assumption|].
  rewrite DecryptLWEMessage_ok by lia. f_equal.
  assert (Hm: 0 <= message mod M < M) by (apply Z.mod_pos_bound; lia).
  apply (decode_margin M (message mod M) (F64ToTorus (lwe_enc (message mod M) M)) (centered (F64ToTorus (er_noise r)))); try assumption.
  - apply lwe_enc_torus; assumption.
  - rewrite Hp, centered_eq. reflexivity.
Qed.

(** without noise the largest message is the first to go *)
Lemma decode_last M z : 1 <= M < 2 ^ 20 -> 2 ^ 31 / M - 2 ^ 31 / M / 2 < 2 ^ 31 mod M ->
  (M - 1) * 2 ^ 31 - M <= z * M <= (M - 1) * 2 ^ 31 -> w32 (z + 2 ^ 31 / M / 2) / (2 ^ 31 / M) mod M <> M - 1.
Proof.
  intros HM Hr Hz.
  pose proof (Z.div_mod (2 ^ 31) M ltac:(lia)) as E. pose proof (Z.mod_pos_bound (2 ^ 31) M ltac:(lia)) as B.
  assert (HD: 2048 <= 2 ^ 31 / M). { apply Z.div_le_lower_bound; [lia|]. change (2 ^ 31) with (2 ^ 20 * 2048). nia. }
  set (D := 2 ^ 31 / M) in *. set (rem := 2 ^ 31 mod M) in *.
  pose proof (Z.div_mod D 2 ltac:(lia)) as Eh. pose proof (Z.mod_pos_bound D 2 ltac:(lia)) as Bh. set (h := D / 2) in *.
  rewrite E in Hz. set (K := (M - 1) * D + rem - 1).
  replace ((M - 1) * (M * D + rem)) with (K * M + (M - rem)) in Hz by (unfold K; ring).
  assert (Z1: z = K). { assert (z < K + 1) by (apply (Z.mul_lt_mono_pos_r M); lia). assert (K - 1 < z) by (apply (Z.mul_lt_mono_pos_r M); lia). lia. }
  assert (Z2: 0 <= (M - 1) * D) by (apply Z.mul_nonneg_nonneg; lia).
  assert (Z3: z = 2 ^ 31 - D - 1) by (rewrite Z1, E; unfold K; ring). unfold K in Z1. clear K Hz.
  rewrite w32_small.
  2:{ unfold two32. change (2 ^ 31) with 2147483648 in Z3. lia. }
  set (k := (rem - 1 + h) / D).
  assert (K1: 1 <= k) by (apply Z.div_le_lower_bound; lia).
  assert (K2: k < M). { apply Z.div_lt_upper_bound; [lia|]. assert (0 <= (D - 2) * (M - 2)) by (apply Z.mul_nonneg_nonneg; lia). lia. }
  replace ((z + h) / D) with (k - 1 + 1 * M).
  - rewrite Z.mod_add by lia. rewrite Z.mod_small by lia. lia.
  - rewrite Z1. replace ((M - 1) * D + rem - 1 + h) with (rem - 1 + h + (M - 1) * D) by ring.
    rewrite Z.div_add by lia. fold k. lia.
Qed.

Lemma msg_noiseless n M key : 0 <= n -> zlen key = n -> 1 <= M < 2 ^ 20 ->
  ((forall message r, F64ToTorus (er_noise r) = 0 ->
      exists ct, (t <- NewTLWE n ;; EncryptLWEMessage n t message M key r) = Ok ct /\
        DecryptLWEMessage n ct M key = Ok (message mod M))
   <-> 2 ^ 31 mod M <= 2 ^ 31 / M - 2 ^ 31 / M / 2).
Proof.
  intros Hn Hk HM. split.
  - intro H. destruct (Z_le_gt_dec (2 ^ 31 mod M) (2 ^ 31 / M - 2 ^ 31 / M / 2)) as [|G]; [assumption|exfalso].
    set (r := {| er_mask := fun _ => 0; er_noise := f_of_Z 0 |}).
    destruct (H (M - 1) r eq_refl) as (ct & E & Hd).
    destruct (EncryptLWEMessage_total n (M - 1) M key r) as (ct' & E' & [Hl Ht] & Hp); [lia|lia|lia|].
    rewrite E in E'. injection E' as <-. rewrite DecryptLWEMessage_ok in Hd by lia.
    change (F64ToTorus (er_noise r)) with 0 in Hp. rewrite Z.add_0_r in Hp. rewrite (Z.mod_small (M - 1)) in Hp, Hd by lia.
    pose proof (lwe_enc_torus (M - 1) M HM ltac:(lia)) as Hz.
    assert (Q: lwe_phase n key ct = F64ToTorus (lwe_enc (M - 1) M)).
    { apply eqm_eq; [exact Hp|unfold lwe_phase; apply tok_w32|apply F64ToTorus_tok]. }
    rewrite Q in Hd. injection Hd as Hd. revert Hd. apply decode_last; [exact HM|apply Z.gt_lt; exact G|exact Hz].
  - intros G message r Hr. destruct (msg_margin n message M key r Hn Hk HM) as (ct & E & _ & Hd).
    + cbv zeta. rewrite Hr. change (centered 0) with 0.
      pose proof (Z.mod_pos_bound message M ltac:(lia)) as Hm. pose proof (Z.mod_pos_bound (2 ^ 31) M ltac:(lia)) as B.
      assert (HD: 2048 <= 2 ^ 31 / M). { apply Z.div_le_lower_bound; [lia|]. change (2 ^ 31) with (2 ^ 20 * 2048). nia. }
      pose proof (Z.div_mod (2 ^ 31 / M) 2 ltac:(lia)) as Eh. pose proof (Z.mod_pos_bound (2 ^ 31 / M) 2 ltac:(lia)) as Bh.
      set (rem := 2 ^ 31 mod M) in *. set (D := 2 ^ 31 / M) in *. set (m := message mod M) in *.
      assert (0 <= m * rem / M) by (apply Z.div_pos; nia).
      assert (rem = 0 \/ m * rem / M < rem).
      { destruct (Z.eq_dec rem 0); [left; assumption|right]. apply Z.div_lt_upper_bound; [lia|]. apply Z.mul_lt_mono_pos_r; lia. }
      assert (rem = 0 -> m * rem / M = 0) by (intros ->; rewrite Z.mul_0_r; apply Z.div_0_l; lia).
      lia.
    + exists ct. split; assumption.
Qed.

Lemma small_moduli M : 1 <= M <= 2 ^ 15 -> 2 ^ 31 mod M <= 2 ^ 31 / M - 2 ^ 31 / M / 2.
Proof.
  intro HM. pose proof (Z.mod_pos_bound (2 ^ 31) M ltac:(lia)).
  assert (2 ^ 16 <= 2 ^ 31 / M). { apply Z.div_le_lower_bound; [lia|]. change (2 ^ 31) with (2 ^ 15 * 2 ^ 16). nia. }
  pose proof (Z.div_mod (2 ^ 31 / M) 2 ltac:(lia)). pose proof (Z.mod_pos_bound (2 ^ 31 / M) 2 ltac:(lia)). 
  change (2 ^ 16) with (2 * 2 ^ 15) in *. lia.
Qed.

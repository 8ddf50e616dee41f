(** * Facts about parameters, keys, boolean encryption and bit vectors *)
From Coq Require Import Lia ZifyBool.
From Verif Require Import GoBase GoFacts Params F64 Utils UtilsFacts Key Tlwe TlweFacts BitUtils BitUtilsFacts MsgFacts Lut.
Local Open Scope Z_scope.
Ltac Zify.zify_post_hook ::= Z.div_mod_to_equations.

(** every set that can be selected is one of the eleven *)
Lemma get_params_cases (P : pset -> Prop) :
  P params80Bit -> P params110Bit -> P params128Bit -> P paramsUint1 -> P paramsUint2 -> P paramsUint3 ->
  P paramsUint4 -> P paramsUint5 -> P paramsUint6 -> P paramsUint7 -> P paramsUint8 ->
  forall level, P (get_params level).
Proof.
  intros. unfold get_params.
  repeat match goal with |- context [if ?c then _ else _] => destruct c; [assumption|] end. assumption.
Qed.

Lemma get_params_wf level : let p := get_params level in
  1 <= lv0_N p /\ trlwe_N p = lv1_N p /\ g_N p = lv1_N p /\
  g_N p = 2 ^ g_NBIT p /\ 4 <= g_NBIT p <= 11 /\
  g_BG p = 2 ^ g_BGBIT p /\ 1 <= g_BGBIT p /\ 1 <= g_L p /\ g_L p * g_BGBIT p <= 32 /\ 2 * g_L p <= 8 /\
  1 <= g_BASEBIT p /\ 1 <= g_IKS_T p /\ g_BASEBIT p * g_IKS_T p <= 31 /\ 2 <= g_BlockSize p.
Proof.
  cbv zeta. revert level. apply (get_params_cases (fun p =>
    1 <= lv0_N p /\ trlwe_N p = lv1_N p /\ g_N p = lv1_N p /\
    g_N p = 2 ^ g_NBIT p /\ 4 <= g_NBIT p <= 11 /\
    g_BG p = 2 ^ g_BGBIT p /\ 1 <= g_BGBIT p /\ 1 <= g_L p /\ g_L p * g_BGBIT p <= 32 /\ 2 * g_L p <= 8 /\
    1 <= g_BASEBIT p /\ 1 <= g_IKS_T p /\ g_BASEBIT p * g_IKS_T p <= 31 /\ 2 <= g_BlockSize p));
  vm_compute; intuition congruence.
Qed.

Lemma GetBlockCount_ok level : exists c, GetBlockCount level = Ok c /\
  lv0_N (get_params level) <= c * g_BlockSize (get_params level) < lv0_N (get_params level) + g_BlockSize (get_params level).
Proof.
  pose proof (get_params_wf level) as H. cbv zeta in H. unfold GetBlockCount.
  set (p := get_params level) in *. clearbody p.
  destruct (Z.leb_spec (g_BlockSize p) 1); [lia|].
  unfold go_div. destruct (Z.eqb_spec (g_BlockSize p) 0) as [|_]; [lia|].
  eexists; split; [reflexivity|]. rewrite Z.quot_div_nonneg by lia.
  set (B := g_BlockSize p) in *. set (n := lv0_N p) in *.
  pose proof (Z.div_mod (n + B - 1) B ltac:(lia)). pose proof (Z.mod_pos_bound (n + B - 1) B ltac:(lia)). nia.
Qed.

Lemma get_params_default level :
  ~ In level [80; 110; 1; 2; 3; 4; 5; 6; 7; 8] -> get_params level = params128Bit.
Proof.
  intro H. unfold get_params.
  repeat match goal with |- context [if ?a =? ?b then _ else _] =>
    destruct (Z.eqb_spec a b) as [E|_]; [exfalso; apply H; rewrite E; vm_compute; tauto|] end. reflexivity.
Qed.

(** ** keys *)
Lemma NewSecretKey_ok pr b0 b1 : 0 <= lv0_N pr -> 0 <= lv1_N pr ->
  NewSecretKey pr b0 b1 = Ok {| KeyLv0 := tab (lv0_N pr) (fun i => Z.b2z (b0 i));
                                 KeyLv1 := tab (lv1_N pr) (fun i => Z.b2z (b1 i)) |}.
Proof.
  intros H0 H1. unfold NewSecretKey. rewrite !make_ok by assumption. cbn [bind].
  rewrite (for_range_ext _ _ _ (fun i k => v <- Ok (Z.b2z (b0 i)) ;; set k i v))
    by (intros; cbn [bind]; destruct (b0 i); reflexivity).
  rewrite (for_fill_all 0 _ (fun i => Z.b2z (b0 i))) by (rewrite ?zlen_repeat; lia || reflexivity). cbn [bind].
  rewrite (for_range_ext _ _ _ (fun i k => v <- Ok (Z.b2z (b1 i)) ;; set k i v))
    by (intros; cbn [bind]; destruct (b1 i); reflexivity).
  rewrite (for_fill_all 0 _ (fun i => Z.b2z (b1 i))) by (rewrite ?zlen_repeat; lia || reflexivity). reflexivity.
Qed.

Lemma NewSecretKey_bin pr b0 b1 : 0 <= lv0_N pr -> 0 <= lv1_N pr ->
  exists sk, NewSecretKey pr b0 b1 = Ok sk /\ bin_key (lv0_N pr) (KeyLv0 sk) /\ bin_key (lv1_N pr) (KeyLv1 sk) /\
    (forall i, 0 <= i < lv0_N pr -> zn (KeyLv0 sk) i = Z.b2z (b0 i)) /\
    (forall i, 0 <= i < lv1_N pr -> zn (KeyLv1 sk) i = Z.b2z (b1 i)).
Proof.
  intros H0 H1. rewrite NewSecretKey_ok by assumption. eexists; split; [reflexivity|]. cbn [KeyLv0 KeyLv1].
  split; [split; [apply zlen_tab; assumption|apply Forall_tab; intros; destruct (b0 i); cbn; tauto]|].
  split; [split; [apply zlen_tab; assumption|apply Forall_tab; intros; destruct (b1 i); cbn; tauto]|].
  split; intros; apply zn_tab; assumption.
Qed.

(** ** boolean encryption: the exact set of noises that decrypt correctly *)
Definition bool_noise_ok (b : bool) (e : Z) : Prop :=
  if b then - 2 ^ 29 <= e < 3 * 2 ^ 29 else - (3 * 2 ^ 29) <= e < 2 ^ 29.

Lemma sign_of_phase b e ph : ph == mu_bit b + e ->
  ((0 <=? centered ph) = b <-> bool_noise_ok b (centered e)).
Proof.
  intro H. assert (H': ph == mu_bit b + centered e) by (rewrite H, centered_eq; reflexivity).
  pose proof (centered_range e) as Hr. set (c := centered e) in *. clearbody c. clear H e.
  rewrite (centered_eqm _ _ H'). unfold centered, two31, two32 in *. unfold mu_bit, bool_noise_ok.
  change (2 ^ 29) with 536870912. destruct b; lia.
Qed.

Lemma EncryptBool_total n b key r : 0 <= n -> n <= zlen key ->
  exists ct, (t <- NewTLWE n ;; EncryptBool n t b key r) = Ok ct /\ lwe_ok n ct /\
    lwe_phase n key ct == mu_bit b + F64ToTorus (er_noise r).
Proof.
  intros Hn Hk. unfold NewTLWE. rewrite make_ok by lia. cbn [bind].
  assert (Hl: zlen (repeat 0 (Z.to_nat (n + 1))) = n + 1) by (rewrite zlen_repeat; lia).
  destruct (EncryptF64_ok n (repeat 0 (Z.to_nat (n + 1))) (if b then f_eighth else f_meighth) key r)
    as (ct & E & _); [lia|lia|lia|].
  exists ct. assert (E': EncryptBool n (repeat 0 (Z.to_nat (n + 1))) b key r = Ok ct) by exact E.
  split; [exact E'|]. split.
  - apply (EncryptF64_tok n _ _ key r ct) with (4 := E); lia.
  - apply (EncryptBool_phase n _ b key r ct) with (4 := E'); lia.
Qed.

Lemma bool_roundtrip n b key r : 0 <= n -> zlen key = n ->
  exists ct, (t <- NewTLWE n ;; EncryptBool n t b key r) = Ok ct /\ lwe_ok n ct /\
    (exists b', DecryptBool n ct key = Ok b' /\ DecryptBoolLv1 n ct key = Ok b' /\
      (b' = b <-> bool_noise_ok b (centered (F64ToTorus (er_noise r))))).
Proof.
  intros Hn Hk. destruct (EncryptBool_total n b key r) as (ct & E & [Hl Ht] & Hp); [lia|lia|].
  exists ct. split; [exact E|]. split; [split; assumption|].
  exists (0 <=? centered (lwe_phase n key ct)). split; [apply DecryptBool_ok; lia|].
  split; [apply DecryptBoolLv1_ok; lia|]. apply sign_of_phase. exact Hp.
Qed.

(** ** bit vectors *)
Lemma EncryptBits_ok n bits key r : 0 <= n -> zlen key = n ->
  exists cts, EncryptBits n bits key r = Ok cts /\ zlen cts = zlen bits /\
    (forall i, 0 <= i < zlen bits -> lwe_ok n (znd [] cts i) /\
       lwe_phase n key (znd [] cts i) == mu_bit (znd false bits i) + F64ToTorus (er_noise (r i))).
Proof.
  intros Hn Hk. unfold EncryptBits. rewrite make_ok by apply zlen_nonneg. cbn [bind].
  set (g := fun i => match (t <- NewTLWE n ;; EncryptBool n t (znd false bits i) key (r i)) with
                     | Ok c => c | Panic _ => [] end).
  rewrite (for_each_fill false [] bits (fun i bit => t <- NewTLWE n ;; EncryptBool n t bit key (r i)) g).
  - eexists; split; [reflexivity|]. rewrite zlen_tab by apply zlen_nonneg. split; [reflexivity|].
    intros i Hi. rewrite znd_tab by assumption. unfold g.
    destruct (EncryptBool_total n (znd false bits i) key (r i)) as (ct & E & Hok & Hp); [lia|lia|].
    rewrite E. split; assumption.
  - rewrite zlen_repeat. pose proof (zlen_nonneg bits). lia.
  - intros i Hi. unfold g.
    destruct (EncryptBool_total n (znd false bits i) key (r i)) as (ct & E & _); [lia|lia|].
    rewrite E. reflexivity.
Qed.

Lemma DecryptBits_ok n cts key : 0 <= n -> zlen key = n ->
  (forall i, 0 <= i < zlen cts -> zlen (znd [] cts i) = n + 1) ->
  DecryptBits n cts key = Ok (tab (zlen cts) (fun i => 0 <=? centered (lwe_phase n key (znd [] cts i)))).
Proof.
  intros Hn Hk Hl. unfold DecryptBits. rewrite make_ok by apply zlen_nonneg. cbn [bind].
  apply (for_each_fill [] false cts (fun i ct => DecryptBool n ct key)).
  - rewrite zlen_repeat. pose proof (zlen_nonneg cts). lia.
  - intros i Hi. apply DecryptBool_ok; rewrite ?Hl by assumption; lia.
Qed.

Lemma bits_encryption_roundtrip n bits key r : 0 <= n -> zlen key = n ->
  (forall i, 0 <= i < zlen bits -> bool_noise_ok (znd false bits i) (centered (F64ToTorus (er_noise (r i))))) ->
  (cts <- EncryptBits n bits key r ;; DecryptBits n cts key) = Ok bits.
Proof.
  intros Hn Hk He. destruct (EncryptBits_ok n bits key r Hn Hk) as (cts & -> & Hl & Hc). cbn [bind].
  rewrite DecryptBits_ok; [|assumption|assumption|intros i Hi; apply Hc; lia].
  f_equal. rewrite Hl. symmetry. apply (eq_tab false); [reflexivity|]. intros i Hi.
  destruct (Hc i Hi) as [_ Hp]. symmetry. apply (sign_of_phase _ _ _ Hp). apply He; assumption.
Qed.

(** the same noise condition is necessary: one bad noise and the vector differs *)
Lemma bits_encryption_exact n bits key r : 0 <= n -> zlen key = n ->
  exists out, (cts <- EncryptBits n bits key r ;; DecryptBits n cts key) = Ok out /\ zlen out = zlen bits /\
    forall i, 0 <= i < zlen bits ->
      (znd false out i = znd false bits i <->
       bool_noise_ok (znd false bits i) (centered (F64ToTorus (er_noise (r i))))).
Proof.
  intros Hn Hk. destruct (EncryptBits_ok n bits key r Hn Hk) as (cts & -> & Hl & Hc). cbn [bind].
  rewrite DecryptBits_ok; [|assumption|assumption|intros i Hi; apply Hc; lia].
  eexists; split; [reflexivity|]. split; [rewrite zlen_tab by apply zlen_nonneg; lia|].
  intros i Hi. rewrite znd_tab by lia. destruct (Hc i Hi) as [_ Hp]. apply sign_of_phase; assumption.
Qed.

(** ** messages *)
Lemma EncryptLWEMessage_total n message M key r : 0 <= n -> n <= zlen key -> 1 <= M ->
  exists ct, (t <- NewTLWE n ;; EncryptLWEMessage n t message M key r) = Ok ct /\ lwe_ok n ct /\
   lwe_phase n key ct == F64ToTorus (lwe_enc (message mod M) M) + F64ToTorus (er_noise r).
Proof.
  intros Hn Hk HM. unfold NewTLWE. rewrite make_ok by lia. cbn [bind].
  assert (Hl: zlen (repeat 0 (Z.to_nat (n + 1))) = n + 1) by (rewrite zlen_repeat; lia).
  rewrite EncryptLWEMessage_eq by lia.
  destruct (EncryptF64_ok n (repeat 0 (Z.to_nat (n + 1))) (lwe_enc (message mod M) M) key r)
    as (ct & E & _); [lia|lia|lia|].
  exists ct. split; [exact E|]. split.
  - apply (EncryptF64_tok n _ _ key r ct) with (4 := E); lia.
  - apply EncryptF64_phase in E; [|lia|lia|lia]. destruct E as [_ ->]. apply eqm_w32.
Qed.

Lemma msg_roundtrip n message M key r : 0 <= n -> zlen key = n -> 1 <= M < 2 ^ 20 ->
  Z.abs (centered (F64ToTorus (er_noise r))) <= 2 ^ 31 / M / 2 - M ->
  exists ct, (t <- NewTLWE n ;; EncryptLWEMessage n t message M key r) = Ok ct /\ lwe_ok n ct /\
    DecryptLWEMessage n ct M key = Ok (message mod M).
Proof.
  intros Hn Hk HM He. destruct (EncryptLWEMessage_total n message M key r) as (ct & E & [Hl Ht] & Hp); [lia|lia|lia|].
  exists ct. split; [exact E|]. split; [split; assumption|].
  rewrite DecryptLWEMessage_ok by lia. f_equal.
  assert (Hm: 0 <= message mod M < M) by (apply Z.mod_pos_bound; lia).
  apply (decode_msg M (message mod M) (F64ToTorus (lwe_enc (message mod M) M)) (centered (F64ToTorus (er_noise r)))); try assumption.
  - apply lwe_enc_torus; assumption.
  - rewrite Hp, centered_eq. reflexivity.
Qed.

Lemma msg_roundtrip_pow2 n message k key r : 0 <= n -> zlen key = n -> 0 <= k <= 31 ->
  exists ct, (t <- NewTLWE n ;; EncryptLWEMessage n t message (2 ^ k) key r) = Ok ct /\ lwe_ok n ct /\
    DecryptLWEMessage n ct (2 ^ k) key =
      Ok ((message + (F64ToTorus (er_noise r) + 2 ^ (31 - k) / 2) / 2 ^ (31 - k)) mod 2 ^ k).
Proof.
  intros Hn Hk HM. assert (Hpk: 1 <= 2 ^ k <= 2 ^ 31).
  { split; [|apply Z.pow_le_mono_r; lia]. change 1 with (2 ^ 0). apply Z.pow_le_mono_r; lia. }
  destruct (EncryptLWEMessage_total n message (2 ^ k) key r) as (ct & E & [Hl Ht] & Hp); [lia|lia|lia|].
  exists ct. split; [exact E|]. split; [split; assumption|].
  rewrite DecryptLWEMessage_ok by lia. f_equal.
  rewrite lwe_enc_pow2 in Hp; [|lia|apply Z.mod_pos_bound; lia].
  rewrite (decode_pow2 k (message mod 2 ^ k) (F64ToTorus (er_noise r))); [|lia|exact Hp].
  rewrite Z.add_mod_idemp_l by lia. reflexivity.
Qed.

Lemma DecryptLWEMessage_mod0 n ct key : DecryptLWEMessage n ct 0 key = Panic PDiv0.
Proof. reflexivity. Qed.
Lemma EncryptLWEMessage_mod0 n t m key r : EncryptLWEMessage n t m 0 key r = Panic PDiv0.
Proof. reflexivity. Qed.

Lemma DecryptLWEMessage_big n ct M key : 0 <= n -> n < zlen ct -> n <= zlen key -> 2 ^ 31 < M < 2 ^ 32 ->
  DecryptLWEMessage n ct M key = Panic PDiv0.
Proof.
  intros Hn Hc Hk HM. unfold DecryptLWEMessage. rewrite w32_small by (unfold two32; lia).
  unfold go_div. destruct (Z.eqb_spec M 0); [lia|]. cbn [bind].
  rewrite inner_product_ok by lia. cbn [bind]. rewrite get_zn by lia. cbn [bind].
  rewrite (Z.quot_small two31 M) by (unfold two31; lia). reflexivity.
Qed.

(** ** encoder *)
Lemma encoder_roundtrip message M : 1 <= M < 2 ^ 20 ->
  (v <- Encode (NewEncoder M) message ;; Decode (NewEncoder M) v) = Ok (message mod M).
Proof.
  intro HM. assert (Hm: 0 <= message mod M < M) by (apply Z.mod_pos_bound; lia).
  destruct (Encode_torus (message mod M) M HM Hm) as (z & E & Hz & Hb).
  assert (E': Encode (NewEncoder M) message = Ok z).
  { rewrite <- E. unfold Encode, NewEncoder. cbn [MessageModulus]. rewrite !normalize_ok by lia.
    cbn [bind]. rewrite Z.mod_mod by lia. reflexivity. }
  rewrite E'. cbn [bind]. rewrite (Decode_nearest M z (message mod M)).
  - rewrite Z.mod_mod by lia. reflexivity.
  - assumption.
  - assumption.
  - lia.
  - change (2 ^ 31) with 2147483648 in *. change (2 ^ 30) with 1073741824. change (2 ^ 20) with 1048576 in *. lia.
Qed.

Lemma encoder_noisy message M e : 1 <= M < 2 ^ 20 -> Z.abs e * M <= 2 ^ 30 - M - 4 ->
  exists z, Encode (NewEncoder M) message = Ok z /\ tok z /\
    Decode (NewEncoder M) (w32 (z + e)) = Ok (message mod M).
Proof.
  intros HM He. assert (Hm: 0 <= message mod M < M) by (apply Z.mod_pos_bound; lia).
  destruct (Encode_torus (message mod M) M HM Hm) as (z & E & Hz & Hb).
  assert (E': Encode (NewEncoder M) message = Ok z).
  { rewrite <- E. unfold Encode, NewEncoder. cbn [MessageModulus]. rewrite !normalize_ok by lia.
    cbn [bind]. rewrite Z.mod_mod by lia. reflexivity. }
  exists z. split; [exact E'|]. split; [exact Hz|].
  set (m := message mod M) in *. change (2 ^ 31) with 2147483648 in *. change (2 ^ 30) with 1073741824 in *.
  change (2 ^ 20) with 1048576 in *.
  assert (Ha: Z.abs ((z + e) * M - m * 2147483648) <= 1073741824 - 4).
  { replace ((z + e) * M - m * 2147483648) with ((z * M - m * 2147483648) + e * M) by ring.
    assert (Z.abs (e * M) <= 1073741824 - M - 4) by (rewrite Z.abs_mul, (Z.abs_eq M) by lia; lia). lia. }
  assert (Hzb: z <= 2147483648) by nia.
  destruct (Z_lt_dec (z + e) 0) as [Hneg|Hpos].
  - assert (Hm0: m = 0) by nia.
    assert (Ew: w32 (z + e) = z + e + 4294967296).
    { unfold w32, two32. symmetry. apply (Z.mod_unique_pos _ _ (-1)); nia. }
    rewrite Ew. rewrite (Decode_nearest M _ (2 * M)).
    + rewrite Z.mod_mul by lia. congruence.
    + assumption.
    + unfold tok, two32. nia.
    + lia.
    + change (2 ^ 31) with 2147483648. change (2 ^ 30) with 1073741824. nia.
  - assert (Hub: z + e < 4294967296) by nia.
    rewrite w32_small by (unfold two32; lia). rewrite (Decode_nearest M _ m).
    + unfold m. rewrite Z.mod_mod by lia. reflexivity.
    + assumption.
    + unfold tok, two32. lia.
    + lia.
    + exact Ha.
Qed.

Lemma Encode_mod0 s m : Encode (NewEncoderWithScale 0 s) m = Panic PDiv0.
Proof. reflexivity. Qed.

Lemma get_params_keys level b0 b1 : let p := get_params level in
  exists sk, NewSecretKey p b0 b1 = Ok sk /\ bin_key (lv0_N p) (KeyLv0 sk) /\ bin_key (lv1_N p) (KeyLv1 sk) /\
    (forall i, 0 <= i < lv0_N p -> zn (KeyLv0 sk) i = Z.b2z (b0 i)) /\
    (forall i, 0 <= i < lv1_N p -> zn (KeyLv1 sk) i = Z.b2z (b1 i)).
Proof.
  cbv zeta. pose proof (get_params_wf level) as H. cbv zeta in H.
  set (p := get_params level) in *. clearbody p. apply NewSecretKey_bin; [lia|].
  assert (0 < 2 ^ g_NBIT p) by (apply Z.pow_pos_nonneg; lia). lia.
Qed.

Lemma encode_agrees n message k key r : 0 <= n -> zlen key = n -> 0 <= k <= 31 ->
  F64ToTorus (er_noise r) = 0 ->
  exists ct z, (t <- NewTLWE n ;; EncryptLWEMessage n t message (2 ^ k) key r) = Ok ct /\
    Encode (NewEncoder (2 ^ k)) message = Ok z /\ lwe_phase n key ct = z.
Proof.
  intros Hn Hk HM H0. assert (Hpk: 0 < 2 ^ k) by (apply Z.pow_pos_nonneg; lia).
  destruct (EncryptLWEMessage_total n message (2 ^ k) key r) as (ct & E & _ & Hp); [lia|lia|lia|].
  exists ct, ((message mod 2 ^ k) * 2 ^ (31 - k)). split; [exact E|].
  split; [apply Encode_pow2; assumption|].
  rewrite lwe_enc_pow2, H0, Z.add_0_r in Hp; [|lia|apply Z.mod_pos_bound; lia].
  apply eqm_eq; [exact Hp|apply lwe_phase_tok|].
  assert (Hm: 0 <= message mod 2 ^ k < 2 ^ k) by (apply Z.mod_pos_bound; lia).
  assert (Hs: 2 ^ k * 2 ^ (31 - k) = 2 ^ 31) by (rewrite <- Z.pow_add_r by lia; f_equal; lia).
  assert (0 < 2 ^ (31 - k)) by (apply Z.pow_pos_nonneg; lia).
  unfold tok, two32. change (2 ^ 31) with 2147483648 in Hs. nia.
Qed.

Lemma bits_roundtrip_small n bits key r : 0 <= n -> zlen key = n ->
  (forall i, 0 <= i < zlen bits -> - 2 ^ 29 <= centered (F64ToTorus (er_noise (r i))) < 2 ^ 29) ->
  (cts <- EncryptBits n bits key r ;; DecryptBits n cts key) = Ok bits.
Proof.
  intros Hn Hk He. apply bits_encryption_roundtrip; try assumption.
  intros i Hi. specialize (He i Hi). unfold bool_noise_ok. destruct (znd false bits i); lia.
Qed.

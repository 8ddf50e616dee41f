(** * Statements about LWE operations, rotation, extraction, key switching,
    in the form of the property theorems *)
From Coq Require Import Lia ZifyBool Setoid Morphisms.
From Verif Require Import GoBase GoFacts GoMem Spec F64 Utils Params Key Tlwe TlweMem TlweFacts BasicFacts MemFacts
  Poly PolyFacts NegFacts Trlwe TrlweFacts Trgsw KeySwitchFacts SchedFacts CloudKey CloudKeyFacts LinFacts Gates.
Local Open Scope Z_scope.

(** ** rotation *)
Lemma rotate_ok {F} (m : mem F) N a k out : 0 < N -> zlen (tm m a) = N -> zlen (tm m out) = N -> a <> out ->
  exists m', PolyMulWithXKInPlace m a k out = Ok m' /\ zlen (tm m' out) = N /\
    (forall j, 0 <= j < N -> zn (tm m' out) j ==
       mono_mul N k (zn (tm m a)) j - (if Z.even ((j - k) / N) then 0 else 1)) /\
    (forall l, l <> out -> tm m' l = tm m l).
Proof.
  intros HN Ha Ho Hne. destruct (PolyMulWithXKInPlace_ok m N a k out HN Ha Ho Hne) as (m' & E & Et & Hf).
  exists m'. split; [exact E|]. split; [rewrite Et; apply zlen_rot; lia|]. split.
  - intros j Hj. rewrite Et. apply rot_mono; assumption.
  - intros l Hl. apply (fr_t _ _ _ _ _ Hf). congruence.
Qed.

Lemma rotate_compose {F} (m : mem F) N a b c d k1 k2 : 0 < N -> tok_list (tm m a) ->
  zlen (tm m a) = N -> zlen (tm m b) = N -> zlen (tm m c) = N -> zlen (tm m d) = N ->
  a <> b -> b <> c -> a <> d ->
  exists m1 m2 m3, PolyMulWithXKInPlace m a k1 b = Ok m1 /\ PolyMulWithXKInPlace m1 b k2 c = Ok m2 /\
    PolyMulWithXKInPlace m a (k1 + k2) d = Ok m3 /\ tm m2 c = tm m3 d.
Proof.
  intros HN Ht Ha Hb Hc Hd H1 H2 H3.
  destruct (PolyMulWithXKInPlace_ok m N a k1 b HN Ha Hb H1) as (m1 & E1 & T1 & F1).
  assert (Lb: zlen (tm m1 b) = N) by (rewrite T1; apply zlen_rot; lia).
  assert (Lc: zlen (tm m1 c) = N) by (rewrite (fr_t _ _ _ _ _ F1); assumption).
  destruct (PolyMulWithXKInPlace_ok m1 N b k2 c HN Lb Lc H2) as (m2 & E2 & T2 & F2).
  destruct (PolyMulWithXKInPlace_ok m N a (k1 + k2) d HN Ha Hd H3) as (m3 & E3 & T3 & F3).
  exists m1, m2, m3. repeat split; try assumption. rewrite T2, T3, T1.
  rewrite rot_rot by assumption. f_equal. lia.
Qed.

(** rotating by any multiple of 2N is the identity *)
Lemma rotate_period {F} (m : mem F) N a k out : 0 < N -> zlen (tm m a) = N -> zlen (tm m out) = N -> a <> out ->
  exists m', PolyMulWithXKInPlace m a (2 * N * k) out = Ok m' /\ tm m' out = tm m a.
Proof.
  intros HN Ha Ho Hne. destruct (PolyMulWithXKInPlace_ok m N a (2 * N * k) out HN Ha Ho Hne) as (m' & E & Et & Hf).
  exists m'. split; [exact E|]. rewrite Et, (rot_mod N _ 0).
  - apply rot_0; lia.
  - rewrite Z.mul_comm, Z.mod_mul by lia. reflexivity.
Qed.

(** ** decomposition *)
Lemma decompose_ok {F} (m : mem F) N p bg level out : 1 <= bg -> 0 <= level -> level * bg <= 32 ->
  zlen (tm m p) = N -> tok_list (tm m p) -> ~ (out <= p < out + level) ->
  (forall i, 0 <= i < level -> zlen (tm m (out + i)) = N) ->
  let off := zsum level (fun i => 2 ^ (bg - 1) * 2 ^ (32 - (i + 1) * bg)) mod two32 in
  exists m', DecomposePolyAssign m p bg level off out = Ok m' /\
    (forall i j, 0 <= i < level -> 0 <= j < N -> - 2 ^ (bg - 1) <= centered (zn (tm m' (out + i)) j) < 2 ^ (bg - 1)) /\
    (forall j, 0 <= j < N ->
       zsum level (fun i => centered (zn (tm m' (out + i)) j) * 2 ^ (32 - (i + 1) * bg)) ==
       zn (tm m p) j - zn (tm m p) j mod 2 ^ (32 - level * bg)) /\
    (forall l, ~ (out <= l < out + level) -> tm m' l = tm m l).
Proof.
  intros Hb Hl Hlb Hp Ht Hd Ho off.
  destruct (DecomposePolyAssign_ok m N p bg level off out Hb Hl Hp Hd Ho) as (m' & E & Ev & Hf).
  assert (HN: 0 <= N) by (rewrite <- Hp; apply zlen_nonneg).
  assert (Edig: forall i j, 0 <= i < level -> 0 <= j < N ->
     centered (zn (tm m' (out + i)) j) = sdig bg (tadd (zn (tm m p) j) off) i).
  { intros i j Hi Hj. rewrite Ev by assumption. unfold decp. rewrite zn_tab by assumption.
    assert (Hib: (i + 1) * bg <= 32) by nia.
    rewrite dec_digit_ok by (lia || apply tok_w32).
    apply centered_unique; [apply eqm_w32|]. pose proof (sdig_range bg (tadd (zn (tm m p) j) off) i Hb) as R.
    assert (2 ^ (bg - 1) <= 2 ^ 31) by (apply Z.pow_le_mono_r; nia). change two31 with (2 ^ 31). lia. }
  exists m'. split; [exact E|]. split; [|split].
  - intros i j Hi Hj. rewrite Edig by assumption. apply sdig_range. assumption.
  - intros j Hj. rewrite (zsum_ext level _ (fun i => sdig bg (tadd (zn (tm m p) j) off) i * 2 ^ (32 - (i + 1) * bg))).
    + apply recompose; try assumption. apply zn_tok. assumption.
    + intros i Hi. rewrite Edig by assumption. reflexivity.
  - intros l Hnl. apply (fr_t _ _ _ _ _ Hf). exact Hnl.
Qed.

(** ** sample extraction *)
Lemma extract_ok pr t k N s : trlwe_N pr = N -> lv1_N pr = N -> 0 <= k < N ->
  zlen (tA t) = N -> zlen (tB t) = N -> tok_list (tA t) -> tok_list (tB t) ->
  exists ct, SampleExtractIndex pr t k = Ok ct /\ lwe_ok N ct /\
    lwe_phase N s ct == rlwe_phase N s (tA t) (tB t) k + zsum (N - 1 - k) (fun i => zn s (k + 1 + i)).
Proof.
  intros H1 H2 Hk HA HB TA TB. exists (extp N k (tA t) (tB t)).
  split; [apply SampleExtractIndex_ok; assumption|]. split; [apply extp_ok; assumption|].
  apply extp_phase. assumption.
Qed.

Lemma extract_assign_same {F} pr (m : mem F) t k out N : trlwe_N pr = N -> lv1_N pr = N -> 0 <= k < N ->
  zlen (tm m (rA t)) = N -> zlen (tm m (rB t)) = N -> zlen (tm m out) = N + 1 -> out <> rA t -> out <> rB t ->
  exists m' ct, SampleExtractIndexAssign pr m t k out = Ok m' /\
    SampleExtractIndex pr {| tA := tm m (rA t); tB := tm m (rB t) |} k = Ok ct /\ tm m' out = ct /\
    (forall l, l <> out -> tm m' l = tm m l).
Proof.
  intros H1 H2 Hk HA HB Ho NA NB.
  destruct (SampleExtractIndexAssign_ok pr m t k out N H1 H2 Hk HA HB Ho NA NB) as (m' & E & Et & Hf).
  exists m', (tm m' out). split; [exact E|]. split; [rewrite Et; apply SampleExtractIndex_ok; assumption|].
  split; [reflexivity|]. intros l Hl. apply (fr_t _ _ _ _ _ Hf). congruence.
Qed.

Lemma extract2_works_iff pr t k N : 0 <= k < N -> zlen (tA t) = N -> zlen (tB t) = N ->
  (exists ct, SampleExtractIndex2 pr t k = Ok ct) <-> lv0_N pr = N.
Proof.
  intros Hk HA HB. split.
  - intros [ct E]. destruct (Z.eq_dec (lv0_N pr) N) as [|H]; [assumption|].
    pose proof (SampleExtractIndex2_panics pr t k) as P. rewrite E in P. discriminate P. congruence.
  - intro H. eexists. apply (SampleExtractIndex2_ok pr t k N); assumption.
Qed.

(** ** key switching *)
Lemma keyswitch_ok pr src ksk s0 s1 n N bb t E :
  lv0_N pr = n -> g_N pr = N -> g_BASEBIT pr = bb -> g_IKS_T pr = t ->
  0 <= n -> 0 <= N -> 1 <= bb -> 0 <= t -> bb * t <= 31 -> 0 <= E ->
  lwe_ok N src -> bin_key N s1 ->
  zlen ksk = 2 ^ bb * t * N -> (forall x, 0 <= x < 2 ^ bb * t * N -> zlen (znd [] ksk x) = n + 1) ->
  (forall i j k, 0 <= i < N -> 0 <= j < t -> 1 <= k < 2 ^ bb ->
     close E (lwe_phase n s0 (znd [] ksk (2 ^ bb * t * i + 2 ^ bb * j + k))) (k * zn s1 i * 2 ^ (32 - (j + 1) * bb))) ->
  exists ct, IdentityKeySwitching pr src ksk = Ok ct /\ lwe_ok n ct /\
    close (weight N s1 * 2 ^ (31 - bb * t) + N * t * E) (lwe_phase n s0 ct) (lwe_phase N s1 src).
Proof.
  intros P1 P2 P3 P4 Hn HN Hb Ht Hbt HE [Hl Htk] [Hk1 Hk2] K1 K2 K3.
  exists (ksw n N bb t (zn src N) src ksk).
  split; [apply IdentityKeySwitching_ok; try assumption; split; [lia|assumption]|].
  split; [apply ksw_lwe_ok; assumption|].
  eapply close_weaken; [apply (ksw_phase n N bb t E src ksk s0 s1); try assumption|].
  - intros i Hi. pose proof (proj1 (Forall_znd _ 0 s1) Hk2 i ltac:(lia)) as H. cbv beta in H. change (znd 0 s1 i) with (zn s1 i) in H. lia.
  - pose proof (kcount_le N bb t src HN Ht). unfold kprec.
    assert (kcount N bb t src * E <= N * t * E) by (apply Z.mul_le_mono_nonneg_r; lia). lia.
Qed.

Lemma keyswitch_assign_same {F} pr (m : mem F) src ksk out n N bb t :
  lv0_N pr = n -> g_N pr = N -> g_BASEBIT pr = bb -> g_IKS_T pr = t ->
  0 <= n -> 0 <= N -> 1 <= bb -> 0 <= t -> bb * t <= 31 ->
  lwe_ok N (tm m src) -> zlen (tm m out) = n + 1 -> src <> out ->
  zlen ksk = 2 ^ bb * t * N -> (forall x, 0 <= x < 2 ^ bb * t * N -> zlen (znd [] ksk x) = n + 1) ->
  exists m' ct, IdentityKeySwitchingAssign pr m src ksk out = Ok m' /\
    IdentityKeySwitching pr (tm m src) ksk = Ok ct /\ tm m' out = ct /\
    (forall l, l <> out -> tm m' l = tm m l).
Proof.
  intros P1 P2 P3 P4 Hn HN Hb Ht Hbt [Hl Htk] Ho Hne K1 K2.
  assert (Sh: ksk_shape n N bb t ksk) by (split; [lia|assumption]).
  destruct (IdentityKeySwitchingAssign_ok pr m src ksk out n N bb t) as (m' & E & Et & Hf); try assumption.
  exists m', (tm m' out). split; [exact E|].
  split; [rewrite Et; apply IdentityKeySwitching_ok; assumption|].
  split; [reflexivity|]. intros l Hl'. apply (fr_t _ _ _ _ _ Hf). congruence.
Qed.

(** ** key generation schedules *)
Lemma ksk_schedule pr sk rnd : 0 <= lv0_N pr -> 0 <= g_N pr -> 1 <= g_BASEBIT pr -> 0 <= g_IKS_T pr ->
  zlen (KeyLv0 sk) = lv0_N pr -> zlen (KeyLv1 sk) = g_N pr ->
  exists gs arr ksk, ksk_goroutines pr sk rnd = Ok gs /\ ksk_init pr = Ok arr /\
    zlen ksk = 2 ^ g_BASEBIT pr * g_IKS_T pr * g_N pr /\
    genKeySwitchingKey pr sk rnd = Ok ksk /\
    (forall tr, interleaving gs tr -> apply_writes arr tr = Ok ksk /\
       forall x, 0 <= x < zlen ksk ->
         zlen (filter (fun w => fst w =? x) tr) = if x mod 2 ^ g_BASEBIT pr =? 0 then 0 else 1).
Proof.
  intros Hn HN Hb Ht H0 H1. exists (tab (g_N pr) (kws pr sk rnd)), (repeat (kzero pr) (Z.to_nat (2 ^ g_BASEBIT pr * g_IKS_T pr * g_N pr))), (kskp pr sk rnd).
  pose proof (size_nonneg pr HN Ht) as Hs.
  assert (Hlen: zlen (kskp pr sk rnd) = 2 ^ g_BASEBIT pr * g_IKS_T pr * g_N pr) by (unfold kskp; apply zlen_tab; assumption).
  split; [apply ksk_goroutines_ok; assumption|]. split; [apply ksk_init_ok; assumption|]. split; [exact Hlen|].
  split; [apply genKeySwitchingKey_ok; assumption|].
  intros tr Htr. split; [apply ksk_any_schedule; assumption|]. intros x Hx. rewrite Hlen in Hx.
  change (times tr x = if x mod 2 ^ g_BASEBIT pr =? 0 then 0 else 1).
  rewrite (times_perm tr (concat (tab (g_N pr) (kws pr sk rnd)))) by (apply interleaving_perm; assumption).
  apply kws_times; assumption.
Qed.

Lemma ksk_generated pr sk rnd E : 0 <= lv0_N pr -> 0 <= g_N pr -> 1 <= g_BASEBIT pr -> 0 <= g_IKS_T pr ->
  g_BASEBIT pr * g_IKS_T pr <= 31 -> zlen (KeyLv0 sk) = lv0_N pr -> bin_key (g_N pr) (KeyLv1 sk) ->
  (forall x, Z.abs (centered (F64ToTorus (er_noise (rnd x)))) <= E) ->
  let bb := g_BASEBIT pr in let t := g_IKS_T pr in
  exists ksk, genKeySwitchingKey pr sk rnd = Ok ksk /\ zlen ksk = 2 ^ bb * t * g_N pr /\
    (forall x, 0 <= x < 2 ^ bb * t * g_N pr -> zlen (znd [] ksk x) = lv0_N pr + 1) /\
    (forall i j k, 0 <= i < g_N pr -> 0 <= j < t -> 1 <= k < 2 ^ bb ->
       close E (lwe_phase (lv0_N pr) (KeyLv0 sk) (znd [] ksk (2 ^ bb * t * i + 2 ^ bb * j + k)))
         (k * zn (KeyLv1 sk) i * 2 ^ (32 - (j + 1) * bb))).
Proof.
  intros Hn HN Hb Ht Hbt H0 H1 HE bb t. destruct H1 as [H1 H1'].
  exists (kskp pr sk rnd). pose proof (size_nonneg pr HN Ht) as Hs.
  split; [apply genKeySwitchingKey_ok; assumption|]. split; [unfold kskp; apply zlen_tab; assumption|].
  assert (Sh: ksk_shape (lv0_N pr) (g_N pr) bb t (kskp pr sk rnd)) by (apply kskp_shape; assumption). destruct Sh as [_ Sh]. split; [exact Sh|].
  apply (kskp_enc pr sk rnd Hn Hb Ht H0 H1 E Hbt (conj H1 H1') HE).
Qed.

(** ** NOT as a gate *)
Lemma not_gate_ok O pr (m : mem (FP O)) a s : 0 <= lv0_N pr -> zlen (tm m a) = lv0_N pr + 1 ->
  zlen s = lv0_N pr -> a < tnext m ->
  exists r m' b b', NOT O pr m a = Ok (r, m') /\ tnext m <= r < tnext m' /\
    (forall l, l < tnext m -> tm m' l = tm m l) /\
    DecryptBool (lv0_N pr) (tm m a) s = Ok b /\ DecryptBool (lv0_N pr) (tm m' r) s = Ok b' /\
    (b' = negb b <-> lwe_phase (lv0_N pr) s (tm m a) <> 0 /\ lwe_phase (lv0_N pr) s (tm m a) <> two31).
Proof.
  intros Hn Ha Hs Hlt. destruct (not_ok (lv0_N pr) Hn s (tm m a) Ha Hs) as (v & b & b' & E & _ & D1 & D2 & Hiff).
  unfold NOT, fresh. rewrite E. cbn [bind alloc]. eexists _, _, b, b'. split; [reflexivity|]. cbn [tm tnext].
  split; [lia|]. split; [intros l Hl; destruct (Z.eqb_spec l (tnext m)); [lia|reflexivity]|].
  split; [exact D1|]. rewrite Z.eqb_refl. split; [exact D2|exact Hiff].
Qed.

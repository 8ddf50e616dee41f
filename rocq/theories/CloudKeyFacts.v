(** * Contents of the cloud key *)
From Coq Require Import Lia ZifyBool Setoid Morphisms Reals Lra.
From Flocq Require Import Core BinarySingleNaN.
From Verif Require Import GoBase GoFacts BitUtilsFacts GoMem F64 F64Facts Utils UtilsFacts Params Key Tlwe TlweFacts BasicFacts
  Poly PolyFacts NegFacts Laws Trlwe TrlweFacts Trgsw KeySwitchFacts TrgswFacts RunSpec EvalFacts SchedFacts CloudKey.
Local Open Scope Z_scope.

(** ** decomposition offset and test vector *)
Lemma genDecompositionOffset_ok pr : g_BG pr = 2 ^ g_BGBIT pr -> 1 <= g_BGBIT pr -> 0 <= g_L pr ->
  g_L pr * g_BGBIT pr <= 32 -> genDecompositionOffset pr = Ok (w32 (doff (g_BGBIT pr) (g_L pr))).
Proof.
  intros HB Hb Hl Hlb. unfold genDecompositionOffset. rewrite HB. set (bg := g_BGBIT pr) in *. set (l := g_L pr) in *.
  assert (Hh: go_div (2 ^ bg) 2 = Ok (2 ^ (bg - 1))).
  { unfold go_div. cbn [Z.eqb]. replace bg with (Z.succ (bg - 1)) at 1 by lia. rewrite Z.pow_succ_r by lia.
    rewrite Z.mul_comm, Z.quot_mul by lia. reflexivity. }
  for_inv (fun i off => off = w32 (doff bg i)) E HI.
  - assumption.
  - reflexivity.
  - intros i off Hi ->. rewrite Hh. cbn [bind]. unfold shl32.
    assert ((i + 1) * bg <= 32) by nia.
    destruct (Z.ltb_spec (32 - (i + 1) * bg) 0); [lia|]. cbn [bind]. eexists; split; [reflexivity|].
    unfold doff. rewrite zsum_S by lia. unfold tadd. apply w32_eqm. rewrite eqm_w32, tmul_eqm, !eqm_w32.
    rewrite Z.shiftl_mul_pow2, Z.mul_1_l by lia. reflexivity.
  - rewrite HI. reflexivity.
Qed.

Definition ctv (N : Z) : trlwe := {| tA := repeat 0 (Z.to_nat N); tB := repeat (2 ^ 29) (Z.to_nat N) |}.

Lemma genTestvec_ok pr N : g_N pr = N -> trlwe_N pr = N -> 0 <= N -> genTestvec pr = Ok (ctv N).
Proof.
  intros H1 H2 HN. unfold genTestvec, NewTRLWELv1. rewrite H1, H2, !make_ok by assumption. cbn [bind]. cbv zeta.
  rewrite F64ToTorus_eighth.
  for_inv (fun i tv => tA tv = repeat 0 (Z.to_nat N) /\ tB tv = tab N (fun j => if j <? i then 2 ^ 29 else 0)) E HI.
  - assumption.
  - split; [reflexivity|]. cbn [tB]. rewrite repeat_tab. apply tab_ext. intros j Hj. destruct (Z.ltb_spec j 0); [lia|reflexivity].
  - intros i tv Hi [HA HB]. rewrite HA, HB. rewrite set_ok by (rewrite zlen_repeat; lia). cbn [bind].
    rewrite set_ok by (rewrite zlen_tab; lia). cbn [bind]. eexists; split; [reflexivity|]. cbn [tA tB]. split.
    + apply (list_ext 0); [rewrite zlen_upd; reflexivity|]. intros j Hj. rewrite zlen_upd, zlen_repeat in Hj.
      rewrite znd_upd by (rewrite ?zlen_repeat; lia). rewrite znd_repeat by lia. destruct (j =? i); reflexivity.
    + apply (eq_tab 0); [rewrite zlen_upd, zlen_tab; lia|]. intros j Hj. rewrite znd_upd by (rewrite ?zlen_tab; lia).
      rewrite znd_tab by lia. destruct (Z.eqb_spec j i), (Z.ltb_spec j i), (Z.ltb_spec j (i + 1)); lia || reflexivity.
  - f_equal. destruct HI as [HA HB]. destruct st as [A B]. cbn [tA tB] in *. unfold ctv. rewrite HA, HB. f_equal.
    rewrite repeat_tab. apply tab_ext. intros j Hj. destruct (Z.ltb_spec j N); [reflexivity|lia].
Qed.

Lemma ctv_ok N : 0 <= N -> ct_ok N (ctv N).
Proof.
  intro HN. unfold ctv. split; cbn [tA tB]; rewrite repeat_tab; apply poly_ok_tab; try assumption;
    intros; unfold tok, two32; lia.
Qed.

(** ** key switching key *)
Lemma ksk_plain_torus k s sh : 0 <= k -> k < 2 ^ sh -> s = 0 \/ s = 1 -> 1 <= sh <= 31 ->
  F64ToTorus (ksk_plain k s sh) = k * s * 2 ^ (32 - sh).
Proof.
  intros Hk Hks Hs Hsh.
  assert (Hp: 2 ^ 1 <= 2 ^ sh <= 2 ^ 31) by (split; apply Z.pow_le_mono_r; lia).
  change (2 ^ 1) with 2 in Hp. change (2 ^ 31) with 2147483648 in Hp.
  assert (Hw: wN 64 (Z.shiftl 1 sh) = 2 ^ sh).
  { rewrite Z.shiftl_mul_pow2, Z.mul_1_l by lia. unfold wN. apply Z.mod_small. change (2 ^ 64) with 18446744073709551616. lia. }
  assert (Hpow: IZR (2 ^ sh) = bp sh) by (apply (IZR_Zpower radix2); lia).
  assert (Hprod: 2 ^ 32 = 2 ^ (32 - sh) * 2 ^ sh) by (rewrite <- Z.pow_add_r by lia; f_equal; lia).
  set (z := k * s * 2 ^ (32 - sh)).
  assert (Hz: 0 <= z < two32).
  { unfold z. assert (0 < 2 ^ (32 - sh)) by (apply Z.pow_pos_nonneg; lia). change two32 with (2 ^ 32).
    rewrite Hprod. assert (0 <= k * s <= k) by (destruct Hs as [-> | ->]; lia).
    split; [apply Z.mul_nonneg_nonneg; lia|]. rewrite Z.mul_comm. apply Z.mul_lt_mono_pos_l; lia. }
  assert (Hks': 0 <= k * s <= k) by (destruct Hs as [-> | ->]; lia). set (q := k * s) in *.
  assert (G: val (ksk_plain k s sh) = F2R (Float radix2 q (- sh)) /\ is_finite (ksk_plain k s sh) = true).
  { unfold ksk_plain. rewrite Hw.
    destruct (f_of_Z_exact k) as [Vk Fk]; [lia|]. destruct (f_of_Z_exact s) as [Vs Fs]; [lia|].
    destruct (f_of_Z_exact (2 ^ sh)) as [V2 F2]; [lia|].
    assert (Hq: F2R (Float radix2 q 0) = IZR q) by (unfold F2R; simpl; lra).
    destruct (fmul_exact (f_of_Z k) (f_of_Z s) (IZR q)) as [Vm Fm]; try assumption.
    { rewrite Vk, Vs. unfold q. rewrite mult_IZR. reflexivity. }
    { rewrite <- Hq. apply fmt_mk; lia. }
    { rewrite <- Hq. apply F2R_bound; lia. }
    apply fdiv_exact; [exact Fm| | |apply fmt_mk; lia|apply F2R_bound; lia].
    - rewrite V2, Hpow. apply Rgt_not_eq. apply bpow_gt_0.
    - rewrite Vm, V2, Hpow. unfold F2R; simpl Fnum; simpl Fexp. rewrite bpow_opp. reflexivity. }
  destruct G as [G1 G2].
  rewrite (F64ToTorus_dyadic _ z G2); [apply Z.mod_small; assumption|].
  rewrite G1. unfold F2R; simpl Fnum; simpl Fexp. rewrite bpow_opp, <- Hpow. unfold z. rewrite (mult_IZR q).
  change 4294967296%R with (IZR (2 ^ 32)). rewrite Hprod, (mult_IZR _ (2 ^ sh)).
  assert (IZR (2 ^ sh) <> 0%R) by (rewrite Hpow; apply Rgt_not_eq, bpow_gt_0).
  assert (IZR (2 ^ (32 - sh)) <> 0%R).
  { intro E0. apply (eq_IZR _ 0) in E0. assert (0 < 2 ^ (32 - sh)) by (apply Z.pow_pos_nonneg; lia). lia. }
  field. split; assumption.
Qed.

(** a fresh TLWE encryption of the real p *)
Definition lenc (n : Z) (p : f64) (key : list Z) (r : enc_rand) : list Z :=
  match (t <- NewTLWE n ;; EncryptF64 n t p key r) with Ok c => c | Panic _ => [] end.

Lemma lenc_ok n p key r : 0 <= n -> n <= zlen key ->
  (t <- NewTLWE n ;; EncryptF64 n t p key r) = Ok (lenc n p key r) /\ lwe_ok n (lenc n p key r) /\
  lwe_phase n key (lenc n p key r) == F64ToTorus p + F64ToTorus (er_noise r).
Proof.
  intros Hn Hk. unfold lenc, NewTLWE. rewrite make_ok by lia. cbn [bind].
  assert (Hl: zlen (repeat 0 (Z.to_nat (n + 1))) = n + 1) by (rewrite zlen_repeat; lia).
  destruct (EncryptF64_ok n (repeat 0 (Z.to_nat (n + 1))) p key r) as (ct & E & _); [lia|lia|lia|].
  rewrite E. split; [reflexivity|]. split.
  - apply (EncryptF64_tok n _ p key r ct) with (4 := E); lia.
  - destruct (EncryptF64_phase n (repeat 0 (Z.to_nat (n + 1))) p key r ct Hn ltac:(lia) Hk E) as [_ ->]. apply eqm_w32.
Qed.

Section Ksk.
Context (pr : pset) (sk : SecretKey) (rnd : Z -> enc_rand).
Notation n := (lv0_N pr). Notation N := (g_N pr). Notation bb := (g_BASEBIT pr). Notation t := (g_IKS_T pr).
Notation B := (2 ^ bb).
Context (Hn : 0 <= n) (HN : 0 <= N) (Hb : 1 <= bb) (Ht : 0 <= t)
  (H0 : zlen (KeyLv0 sk) = n) (H1 : zlen (KeyLv1 sk) = N).

(** what ends up at index x *)
Definition kval (x : Z) : list Z :=
  lenc n (ksk_plain (x mod B) (zn (KeyLv1 sk) (x / (B * t))) (((x / B) mod t + 1) * bb)) (KeyLv0 sk) (rnd x).

Lemma kidx_decode i j k : 0 <= j < t -> 0 <= k < B ->
  kidx bb t i j k mod B = k /\ kidx bb t i j k / (B * t) = i /\ (kidx bb t i j k / B) mod t = j.
Proof.
  intros Hj Hk. unfold kidx. set (b := B) in *. clearbody b.
  assert (E1: (b * t * i + b * j + k) / b = t * i + j).
  { symmetry. apply (Z.div_unique_pos _ _ _ k); [lia|ring]. }
  split; [|split].
  - symmetry. apply (Z.mod_unique_pos _ _ (t * i + j)); [lia|ring].
  - symmetry. apply (Z.div_unique_pos _ _ _ (b * j + k)); [|ring].
    split; [apply Z.add_nonneg_nonneg; [apply Z.mul_nonneg_nonneg|]; lia|].
    assert (b * j + b <= b * t) by (replace (b * j + b) with (b * (j + 1)) by ring; apply Z.mul_le_mono_nonneg_l; lia). lia.
  - rewrite E1. symmetry. apply (Z.mod_unique_pos _ _ i); [lia|ring].
Qed.

Lemma kidx_surj x : 0 <= x < B * t * N -> exists i j k, 0 <= i < N /\ 0 <= j < t /\ 0 <= k < B /\ x = kidx bb t i j k.
Proof.
  intro Hx. assert (HB: 0 < B) by (apply Z.pow_pos_nonneg; lia). set (b := B) in *.
  assert (Ht0: 0 < t) by (destruct (Z.eq_dec t 0) as [E|]; [rewrite E in Hx; lia|lia]).
  assert (Hbt: 0 < b * t) by (apply Z.mul_pos_pos; lia).
  exists (x / (b * t)), ((x / b) mod t), (x mod b).
  split; [split; [apply Z.div_pos; lia|apply Z.div_lt_upper_bound; lia]|].
  split; [apply Z.mod_pos_bound; lia|]. split; [apply Z.mod_pos_bound; lia|].
  unfold kidx. fold b. rewrite <- Z.div_div by lia.
  rewrite (Z.div_mod x b) at 1 by lia. rewrite (Z.div_mod (x / b) t) at 1 by lia. ring.
Qed.

Definition kws (i : Z) : list (Z * list Z) :=
  concat (tab t (fun j => concat (tab B (fun k => if k =? 0 then [] else [(kidx bb t i j k, kval (kidx bb t i j k))])))).

Lemma ksk_goroutine_ok i : 0 <= i < N -> ksk_goroutine pr sk rnd i = Ok (kws i).
Proof.
  intro Hi. unfold ksk_goroutine. rewrite shl_int_ok by lia. cbn [bind]. rewrite Z.shiftl_mul_pow2, Z.mul_1_l by lia.
  assert (HB: 0 < B) by (apply Z.pow_pos_nonneg; lia).
  rewrite (for_append 0 t _ (fun j => concat (tab B (fun k => if k =? 0 then [] else [(kidx bb t i j k, kval (kidx bb t i j k))])))).
  - cbn [app]. rewrite Z.sub_0_r. reflexivity.
  - assumption.
  - intros j ws Hj.
    rewrite (for_append 0 B _ (fun k => if k =? 0 then [] else [(kidx bb t i j k, kval (kidx bb t i j k))])).
    + rewrite Z.sub_0_r. reflexivity.
    + lia.
    + intros k ws' Hk. destruct (Z.eqb_spec k 0) as [|Hk0]; [rewrite app_nil_r; reflexivity|]. cbv zeta.
      rewrite get_zn by lia. cbn [bind]. fold (kidx bb t i j k).
      destruct (lenc_ok n (ksk_plain k (zn (KeyLv1 sk) i) ((j + 1) * bb)) (KeyLv0 sk) (rnd (kidx bb t i j k)) Hn ltac:(lia)) as [E _].
      rewrite E. cbn [bind]. destruct (kidx_decode i j k Hj Hk) as (D1 & D2 & D3). unfold kval. rewrite D1, D2, D3. reflexivity.
Qed.

Lemma ksk_goroutines_ok : ksk_goroutines pr sk rnd = Ok (tab N kws).
Proof.
  unfold ksk_goroutines. rewrite make_ok by assumption. cbn [bind].
  apply (for_fill_all []); [rewrite zlen_repeat; lia|]. intros i Hi. apply ksk_goroutine_ok. assumption.
Qed.

Definition kzero : list Z := repeat 0 (Z.to_nat (n + 1)).

Lemma ksk_init_ok : ksk_init pr = Ok (repeat kzero (Z.to_nat (B * t * N))).
Proof.
  unfold ksk_init. rewrite shl_int_ok by lia. cbn [bind]. rewrite Z.shiftl_mul_pow2, Z.mul_1_l by lia.
  unfold NewTLWE. rewrite make_ok by lia. cbn [bind]. apply make_ok.
  apply Z.mul_nonneg_nonneg; [apply Z.mul_nonneg_nonneg|]; [apply Z.pow_nonneg|..]; lia.
Qed.

Lemma size_nonneg : 0 <= B * t * N.
Proof. apply Z.mul_nonneg_nonneg; [apply Z.mul_nonneg_nonneg|]; [apply Z.pow_nonneg|..]; lia. Qed.

Lemma kws_in i v : In (i, v) (concat (tab N kws)) -> 0 <= i < B * t * N /\ v = kval i.
Proof.
  intro H. apply in_concat_tab in H. destruct H as (a & Ha & H). apply in_concat_tab in H.
  destruct H as (j & Hj & H). apply in_concat_tab in H. destruct H as (k & Hk & H).
  destruct (k =? 0); [destruct H|]. destruct H as [[= <- <-]|[]]. split; [|reflexivity]. apply kidx_range; lia.
Qed.

Lemma kws_times x : 0 <= x < B * t * N -> times (concat (tab N kws)) x = if x mod B =? 0 then 0 else 1.
Proof.
  intro Hx. assert (HB: 0 < B) by (apply Z.pow_pos_nonneg; lia).
  destruct (kidx_surj x Hx) as (i0 & j0 & k0 & Hi & Hj & Hk & ->).
  destruct (kidx_decode i0 j0 k0 Hj Hk) as (D1 & D2 & D3). rewrite D1.
  rewrite times_concat by assumption.
  assert (G: forall i j k, 0 <= j < t -> 0 <= k < B ->
     times (if k =? 0 then [] else [(kidx bb t i j k, kval (kidx bb t i j k))]) (kidx bb t i0 j0 k0) =
     if (i =? i0) && (j =? j0) && (k =? k0) && negb (k =? 0) then 1 else 0).
  { intros i j k Hj' Hk'. destruct (Z.eqb_spec k 0) as [->|Hk0]; [cbn [negb]; rewrite andb_false_r; reflexivity|].
    cbn [negb]. rewrite andb_true_r. unfold times. cbn [filter fst].
    destruct (Z.eqb_spec (kidx bb t i j k) (kidx bb t i0 j0 k0)) as [E|E].
    - destruct (kidx_decode i j k Hj' Hk') as (C1 & C2 & C3). rewrite E in C1, C2, C3.
      rewrite <- C1, <- C2, <- C3, D1, D2, D3, !Z.eqb_refl. reflexivity.
    - destruct (Z.eqb_spec i i0), (Z.eqb_spec j j0), (Z.eqb_spec k k0); subst; try reflexivity. contradiction. }
  rewrite (zsum_single N _ i0) by (assumption || (intros i Hi' Hne; unfold kws; rewrite times_concat by assumption;
    apply zsum_zero; intros j Hj'; rewrite times_concat by lia; apply zsum_zero; intros k Hk'; rewrite G by assumption;
    destruct (Z.eqb_spec i i0); [contradiction|reflexivity])).
  unfold kws. rewrite times_concat by assumption.
  rewrite (zsum_single t _ j0) by (assumption || (intros j Hj' Hne; rewrite times_concat by lia;
    apply zsum_zero; intros k Hk'; rewrite G by assumption;
    destruct (Z.eqb_spec j j0); [contradiction|rewrite andb_false_r; reflexivity])).
  rewrite times_concat by lia.
  rewrite (zsum_single B _ k0) by (assumption || (intros k Hk' Hne; rewrite G by assumption;
    destruct (Z.eqb_spec k k0); [contradiction|rewrite andb_false_r; reflexivity])).
  rewrite G by assumption. rewrite !Z.eqb_refl. cbn [andb]. destruct (k0 =? 0); reflexivity.
Qed.

Definition kskp : list (list Z) := tab (B * t * N) (fun x => if x mod B =? 0 then kzero else kval x).

Lemma ksk_any_schedule tr : interleaving (tab N kws) tr ->
  apply_writes (repeat kzero (Z.to_nat (B * t * N))) tr = Ok kskp.
Proof.
  intro Htr. pose proof size_nonneg as Hsz. set (arr := repeat kzero (Z.to_nat (B * t * N))).
  assert (Hl: zlen arr = B * t * N) by (unfold arr; rewrite zlen_repeat; lia).
  rewrite (interleaving_effect [] kval (tab N kws) tr arr) by (assumption || (intros; rewrite Hl; apply kws_in; assumption)).
  rewrite (apply_writes_ok [] kval) by (intros; rewrite Hl; apply kws_in; assumption). f_equal. rewrite Hl.
  apply tab_ext. intros x Hx. rewrite written_times, kws_times by assumption.
  destruct (x mod B =? 0); cbn [Z.ltb Z.compare]; [|reflexivity]. unfold arr. rewrite znd_repeat by lia. reflexivity.
Qed.

Lemma genKeySwitchingKey_ok : genKeySwitchingKey pr sk rnd = Ok kskp.
Proof.
  unfold genKeySwitchingKey. rewrite ksk_init_ok, ksk_goroutines_ok. cbn [bind].
  apply ksk_any_schedule. apply interleaving_seq.
Qed.

Lemma kskp_at i j k : 0 <= i < N -> 0 <= j < t -> 1 <= k < B ->
  znd [] kskp (kidx bb t i j k) =
  lenc n (ksk_plain k (zn (KeyLv1 sk) i) ((j + 1) * bb)) (KeyLv0 sk) (rnd (kidx bb t i j k)).
Proof.
  intros Hi Hj Hk. unfold kskp. rewrite znd_tab by (apply kidx_range; lia).
  destruct (kidx_decode i j k Hj ltac:(lia)) as (D1 & D2 & D3). rewrite D1. destruct (Z.eqb_spec k 0); [lia|].
  unfold kval. rewrite D1, D2, D3. reflexivity.
Qed.

Lemma kskp_shape : ksk_shape n N bb t kskp.
Proof.
  pose proof size_nonneg. unfold kskp. split; [rewrite zlen_tab; lia|]. intros x Hx. rewrite znd_tab by assumption.
  destruct (x mod B =? 0); [unfold kzero; rewrite zlen_repeat; lia|].
  unfold kval. destruct (lenc_ok n (ksk_plain (x mod B) (zn (KeyLv1 sk) (x / (B * t))) (((x / B) mod t + 1) * bb)) (KeyLv0 sk) (rnd x)) as (_ & [Hl _] & _); lia.
Qed.

(** the noise in entry (i, j, k) is exactly the sample drawn for it *)
Lemma kskp_phase i j k : bb * t <= 31 -> bin_key N (KeyLv1 sk) -> 0 <= i < N -> 0 <= j < t -> 1 <= k < B ->
  lwe_phase n (KeyLv0 sk) (znd [] kskp (kidx bb t i j k)) ==
  k * zn (KeyLv1 sk) i * 2 ^ (32 - (j + 1) * bb) + F64ToTorus (er_noise (rnd (kidx bb t i j k))).
Proof.
  intros Hbt [_ Hbin] Hi Hj Hk. rewrite kskp_at by assumption.
  destruct (lenc_ok n (ksk_plain k (zn (KeyLv1 sk) i) ((j + 1) * bb)) (KeyLv0 sk) (rnd (kidx bb t i j k)) Hn ltac:(lia)) as (_ & _ & ->).
  rewrite ksk_plain_torus; [reflexivity|lia| | |].
  - apply Z.lt_le_trans with B; [lia|]. apply Z.pow_le_mono_r; nia.
  - pose proof (proj1 (Forall_znd _ 0 (KeyLv1 sk)) Hbin i ltac:(lia)) as G. exact G.
  - nia.
Qed.

Lemma kskp_enc E : bb * t <= 31 -> bin_key N (KeyLv1 sk) ->
  (forall x, Z.abs (centered (F64ToTorus (er_noise (rnd x)))) <= E) ->
  ksk_enc n N bb t E (KeyLv0 sk) (KeyLv1 sk) kskp.
Proof.
  intros Hbt Hbin HE i j k Hi Hj Hk. exists (centered (F64ToTorus (er_noise (rnd (kidx bb t i j k))))).
  split; [apply HE|]. rewrite kskp_phase by assumption. rewrite centered_eq. reflexivity.
Qed.
End Ksk.

(** ** TRGSW encryption *)
Lemma gadget_torus bg i : 1 <= bg * (i + 1) <= 32 -> F64ToTorus (gadget_f64 bg i) = 2 ^ (32 - (i + 1) * bg).
Proof.
  intro H. set (e := bg * (i + 1)) in *. replace ((i + 1) * bg) with e by (unfold e; ring).
  assert (G: val (gadget_f64 bg i) = F2R (Float radix2 1 (- e)) /\ is_finite (gadget_f64 bg i) = true).
  { unfold gadget_f64. fold e. destruct (f_of_Z_exact 1) as [V1 F1]; [lia|].
    destruct (f_pow2_exact e) as [V2 F2]; [lia|].
    apply fdiv_exact; [exact F1| | |apply fmt_mk; lia|apply F2R_bound; lia].
    - rewrite V2. apply Rgt_not_eq. apply bpow_gt_0.
    - rewrite V1, V2. unfold F2R; simpl Fnum; simpl Fexp. rewrite bpow_opp. reflexivity. }
  destruct G as [G1 G2].
  assert (Hz: 0 <= 2 ^ (32 - e) < two32).
  { split; [apply Z.pow_nonneg; lia|]. change two32 with (2 ^ 32). apply Z.pow_lt_mono_r; lia. }
  rewrite (F64ToTorus_dyadic _ (2 ^ (32 - e)) G2); [apply Z.mod_small; assumption|].
  rewrite G1. unfold F2R; simpl Fnum; simpl Fexp. rewrite Rmult_1_l.
  rewrite (IZR_Zpower radix2) by lia. change 4294967296%R with (bp 32). unfold Rdiv. rewrite <- bpow_opp, <- bpow_plus.
  f_equal. lia.
Qed.

Section Bsk.
Context {O : fops} {N : Z} (L : flaws O N) (pr : pset) (W : pwf pr N).
Notation n := (lv0_N pr). Notation bg := (g_BGBIT pr). Notation l := (g_L pr).

Definition zeros : list f64 := repeat (f_of_Z 0) (Z.to_nat N).
Definition gad (i : Z) : Z := 2 ^ (32 - (i + 1) * bg).

(** row i of a TRGSW encryption of p *)
Definition rowp (p : Z) (key : list Z) (rs : Z -> trlwe_rand) (i : Z) : trlwe :=
  let c := tenc L zeros key (rs i) in
  if i <? l then {| tA := upd (tA c) 0 (tadd (zn (tA c) 0) (tmul p (gad i))); tB := tB c |}
  else {| tA := tA c; tB := upd (tB c) 0 (tadd (zn (tB c) 0) (tmul p (gad (i - l)))) |}.

Definition t0 : trlwe := {| tA := []; tB := [] |}.

Lemma TrgswEncryptTorus_ok t p key rs : zlen t = 2 * l -> zlen key = N ->
  TrgswEncryptTorus O N pr t p key rs = Ok (tab (2 * l) (rowp p key rs)).
Proof.
  intros Ht Hk. pose proof (law_N L) as H16. pose proof (pw_l _ _ W) as Hl. pose proof (pw_bg _ _ W) as Hb.
  pose proof (pw_lbg _ _ W) as Hlb.
  unfold TrgswEncryptTorus. rewrite (pw_gN _ _ W). rewrite make_ok by lia. cbn [bind].
  rewrite (for_range_ext _ _ _ (fun i v => w <- Ok (gadget_f64 bg i) ;; set v i w)) by reflexivity.
  rewrite (for_fill_all (f_of_Z 0) _ (fun i => gadget_f64 bg i)) by (rewrite ?zlen_repeat; lia || reflexivity). cbn [bind].
  unfold F64ToTorusVec. rewrite zlen_tab by lia. rewrite make_ok by lia. cbn [bind].
  assert (E1: for_each (tab l (fun i => gadget_f64 bg i)) (fun i val result => set result i (F64ToTorus val))
                (repeat 0 (Z.to_nat l)) = Ok (tab l gad)).
  { rewrite (for_each_fill (f_of_Z 0) 0 (tab l (fun i => gadget_f64 bg i)) (fun i v => Ok (F64ToTorus v)) gad).
    - rewrite zlen_tab by lia. reflexivity.
    - rewrite zlen_repeat, zlen_tab; lia.
    - intros i Hi. rewrite zlen_tab in Hi by lia. rewrite znd_tab by assumption. f_equal. apply gadget_torus. nia. }
  rewrite E1. cbn [bind]. rewrite make_ok by lia. cbn [bind]. fold zeros. rewrite Ht.
  rewrite (for_fill_all t0 _ (fun i => tenc L zeros key (rs i))).
  2:{ assumption. }
  2:{ intros i Hi. rewrite (NewTRLWELv1_ok L) by apply (pw_trN _ _ W). cbn [bind].
      apply TrlweEncryptF64_ok; [apply (pw_trN _ _ W)|cbn [tA]; rewrite zlen_repeat; lia|unfold zeros; rewrite zlen_repeat; lia|assumption]. }
  cbn [bind].
  for_inv (fun i t => t = tab (2 * l) (fun r => if (r <? i) || ((l <=? r) && (r <? l + i)) then rowp p key rs r
                                                else tenc L zeros key (rs r))) E HI.
  - lia.
  - apply tab_ext. intros r Hr. destruct (Z.ltb_spec r 0), (Z.leb_spec l r), (Z.ltb_spec r (l + 0)); cbn [orb andb]; lia || reflexivity.
  - intros i tt Hi ->. rewrite get_zn by (rewrite zlen_tab; lia). cbn [bind].
    destruct (tenc_shape L zeros key (rs i)) as (S1 & S2 & S3 & S4).
    destruct (tenc_shape L zeros key (rs (i + l))) as (R1 & R2 & R3 & R4).
    rewrite (get_ok t0) by (rewrite zlen_tab; lia). cbn [bind]. rewrite znd_tab by lia. rewrite zn_tab by lia.
    destruct (Z.ltb_spec i i) as [|_]; [lia|]. destruct (Z.leb_spec l i) as [|_]; [lia|]. cbn [orb andb].
    rewrite get_zn by lia. cbn [bind]. rewrite set_ok by lia. cbn [bind].
    rewrite set_ok by (rewrite zlen_tab; lia). cbn [bind].
    rewrite (get_ok t0) by (rewrite zlen_upd, zlen_tab; lia). cbn [bind].
    rewrite znd_upd by (rewrite ?zlen_tab; lia). destruct (Z.eqb_spec (i + l) i) as [|_]; [lia|].
    rewrite znd_tab by lia. destruct (Z.ltb_spec (i + l) i) as [|_]; [lia|].
    destruct (Z.ltb_spec (i + l) (l + i)) as [|_]; [lia|]. rewrite andb_false_r. cbn [orb].
    rewrite get_zn by lia. cbn [bind]. rewrite set_ok by lia. cbn [bind].
    rewrite set_ok by (rewrite zlen_upd, zlen_tab; lia). eexists; split; [reflexivity|].
    apply (eq_tab t0); [rewrite !zlen_upd, zlen_tab; lia|]. intros r Hr.
    rewrite znd_upd by (rewrite ?zlen_upd, ?zlen_tab; lia).
    destruct (Z.eqb_spec r (i + l)) as [->|Hne].
    + destruct (Z.leb_spec l (i + l)); [|lia]. destruct (Z.ltb_spec (i + l) (l + (i + 1))); [|lia].
      rewrite orb_true_r. unfold rowp. destruct (Z.ltb_spec (i + l) l); [lia|].
      replace (i + l - l) with i by lia. reflexivity.
    + rewrite znd_upd by (rewrite ?zlen_tab; lia). destruct (Z.eqb_spec r i) as [->|Hne2].
      * destruct (Z.ltb_spec i (i + 1)); [|lia]. cbn [orb]. unfold rowp. destruct (Z.ltb_spec i l); [reflexivity|lia].
      * rewrite znd_tab by lia.
        destruct (Z.ltb_spec r i), (Z.ltb_spec r (i + 1)), (Z.leb_spec l r), (Z.ltb_spec r (l + i)), (Z.ltb_spec r (l + (i + 1)));
          cbn [orb andb]; try lia; reflexivity.
  - f_equal. rewrite HI. apply tab_ext. intros r Hr.
    destruct (Z.ltb_spec r l), (Z.leb_spec l r), (Z.ltb_spec r (l + l)); cbn [orb andb]; lia || reflexivity.
Qed.

Lemma rowp_ok p key rs i : zlen key = N -> ct_ok N (rowp p key rs i).
Proof.
  intro Hk. destruct (tenc_shape L zeros key (rs i)) as (S1 & S2 & S3 & S4). pose proof (law_N L) as H16.
  assert (U: forall a v, poly_ok N a -> tok v -> poly_ok N (upd a 0 v)).
  { intros a v [Ha1 Ha2] Hv. split; [rewrite zlen_upd; assumption|]. unfold tok_list. rewrite (Forall_znd _ 0).
    intros j Hj. rewrite zlen_upd in Hj. rewrite znd_upd by lia. destruct (j =? 0); [assumption|].
    apply (proj1 (Forall_znd tok 0 a) Ha2). assumption. }
  unfold rowp. destruct (i <? l); split; cbn [tA tB]; try (split; assumption); apply U; try apply tok_w32; split; assumption.
Qed.

(** the noise of row i: the samples drawn, plus the rounding of one product *)
Lemma rowp_enc p key rs delta : poly_ok N key -> sbound N 1 key -> facc_mul L two31 1 delta ->
  exists er, @rows_enc N bg l p key (rowp p key rs) er /\
    forall i k, 0 <= k < N -> Z.abs (er i k - centered (F64ToTorus (tr_noise (rs i) k))) <= delta.
Proof.
  intros Hk Hs Hf. pose proof (law_N L) as H16. pose proof (pw_l _ _ W) as Hl. pose proof (pw_bg _ _ W) as Hb.
  pose proof (pw_lbg _ _ W) as Hlb.
  set (ph := fun i k => cphase N key (tenc L zeros key (rs i)) k).
  set (nz := fun i k => centered (F64ToTorus (tr_noise (rs i) k))).
  assert (T: forall i k, 0 <= k < N -> close delta (ph i k) (nz i k)).
  { intros i k Hkk. destruct (tenc_phase L zeros key (rs i) two31 1 delta k Hf ltac:(lia) Hk Hs Hkk) as (e & He & Heq).
    exists e. split; [exact He|]. unfold ph, cphase. rewrite Heq. unfold tr_mu, nz. rewrite tadd_eqm, centered_eq.
    assert (E0: F64ToTorus (znd d0 zeros k) = 0).
    { unfold zeros. rewrite znd_repeat by lia. vm_compute. reflexivity. }
    rewrite E0. reflexivity. }
  (* the error as a function: the centered difference *)
  exists (fun i k => nz i k + centered (ph i k - nz i k)). split.
  - intros i k Hi Hkk. rewrite centered_eq. unfold row_target.
    destruct (tenc_shape L zeros key (rs i)) as (S1 & S2 & S3 & S4).
    assert (P: ph i k == zn (tB (tenc L zeros key (rs i))) k - negacyclic N (zn (tA (tenc L zeros key (rs i)))) (zn key) k).
    { apply cphase_eqm. }
    rewrite cphase_eqm. unfold rowp. destruct (Z.ltb_spec i l); cbn [tA tB].
    + assert (G: negacyclic N (zn (upd (tA (tenc L zeros key (rs i))) 0 (tadd (zn (tA (tenc L zeros key (rs i))) 0) (tmul p (gad i))))) (zn key) k
        == negacyclic N (zn (tA (tenc L zeros key (rs i)))) (zn key) k + p * gad i * zn key k).
      { rewrite <- (neg_cst_l N (zn key)) by assumption. rewrite <- neg_add_l. apply neg_eqm_args; [assumption| |reflexivity].
        intros j Hj. rewrite zn_upd by lia. unfold cst. destruct (Z.eqb_spec j 0) as [->|].
        - rewrite tadd_eqm, tmul_eqm. reflexivity.
        - rewrite Z.add_0_r. reflexivity. }
      rewrite G, P. unfold gad. apply eqm_refl'. ring.
    + rewrite zn_upd by lia. destruct (Z.eqb_spec k 0) as [->|].
      * rewrite tadd_eqm, tmul_eqm, P. unfold gad. apply eqm_refl'. ring.
      * rewrite P. apply eqm_refl'. ring.
  - intros i k Hkk. change (Z.abs (nz i k + centered (ph i k - nz i k) - nz i k) <= delta).
    replace (nz i k + centered (ph i k - nz i k) - nz i k) with (centered (ph i k - nz i k)) by ring.
    destruct (T i k Hkk) as (e & He & Heq).
    assert (E: ph i k - nz i k == e) by (rewrite Heq; apply eqm_refl'; ring).
    destruct (Z_lt_dec (Z.abs e) two31) as [Hl2|Hl2].
    + rewrite (centered_unique _ e E) by lia. lia.
    + pose proof (centered_range (ph i k - nz i k)). unfold two31 in *; lia.
Qed.

Lemma NewTRGSWLv1FFT_ok g : (forall i, 0 <= i < zlen g -> zlen (tA (znd t0 g i)) = N /\ zlen (tB (znd t0 g i)) = N) ->
  NewTRGSWLv1FFT O N g = Ok (tab (zlen g) (fun i => (Fof L (tA (znd t0 g i)), Fof L (tB (znd t0 g i))))).
Proof.
  intro Hg. unfold NewTRGSWLv1FFT. rewrite make_ok by apply zlen_nonneg. cbn [bind].
  apply (for_each_fill t0 (f_nil O, f_nil O) g
    (fun i t => a <- ToFourierPoly O N (tA t) ;; b <- ToFourierPoly O N (tB t) ;; Ok (a, b))).
  - rewrite zlen_repeat. pose proof (zlen_nonneg g). lia.
  - intros i Hi. destruct (Hg i Hi) as [HA HB]. unfold ToFourierPoly. rewrite (law_new L). cbn [bind].
    rewrite (law_of L) by (assumption || apply (law_zero L)). cbn [bind].
    rewrite (law_of L) by (assumption || apply (law_zero L)). reflexivity.
Qed.

(** the transformed TRGSW encryption of p *)
Definition gfft (p : Z) (key : list Z) (rs : Z -> trlwe_rand) : trgsw_fft O :=
  tab (2 * l) (fun i => (Fof L (tA (rowp p key rs i)), Fof L (tB (rowp p key rs i)))).

Lemma gfft_of p key rs : zlen key = N -> gkey_of L l (gfft p key rs) (rowp p key rs).
Proof.
  intro Hk. pose proof (pw_l _ _ W). split; [unfold gfft; rewrite zlen_tab; lia|]. intros i Hi.
  split; [apply rowp_ok; assumption|]. unfold grow, gfft. apply (znd_tab (Fzero L, Fzero L)). assumption.
Qed.

Context (sk : SecretKey) (rnd : Z -> Z -> trlwe_rand).
Context (H0 : zlen (KeyLv0 sk) = n) (H1 : zlen (KeyLv1 sk) = N).

Definition bval (i : Z) : trgsw_fft O := gfft (zn (KeyLv0 sk) i) (KeyLv1 sk) (rnd i).

Lemma bsk_goroutine_ok i : 0 <= i < n -> bsk_goroutine O pr sk rnd i = Ok [(i, bval i)].
Proof.
  intro Hi. pose proof (law_N L) as H16. pose proof (pw_l _ _ W) as Hl.
  unfold bsk_goroutine. rewrite (pw_gN _ _ W), (law_deg L). cbn [bind].
  unfold NewTRGSWLv1. rewrite (NewTRLWELv1_ok L) by apply (pw_trN _ _ W). cbn [bind]. rewrite make_ok by lia. cbn [bind].
  rewrite get_zn by lia. cbn [bind].
  rewrite TrgswEncryptTorus_ok by (assumption || (rewrite zlen_repeat; lia)). cbn [bind].
  rewrite NewTRGSWLv1FFT_ok.
  - cbn [bind]. rewrite zlen_tab by lia. do 3 f_equal. unfold bval, gfft. apply tab_ext. intros j Hj.
    rewrite znd_tab by assumption. reflexivity.
  - intros j Hj. rewrite zlen_tab in Hj by lia. rewrite znd_tab by assumption.
    destruct (rowp_ok (zn (KeyLv0 sk) i) (KeyLv1 sk) (rnd i) j H1) as [[Ha _] [Hb' _]]. split; assumption.
Qed.

Definition bws (i : Z) : list (Z * trgsw_fft O) := [(i, bval i)].

Lemma bsk_goroutines_ok : bsk_goroutines O pr sk rnd = Ok (tab n bws).
Proof.
  pose proof (pw_n _ _ W). unfold bsk_goroutines. rewrite make_ok by assumption. cbn [bind].
  apply (for_fill_all []); [rewrite zlen_repeat; lia|]. intros i Hi. apply bsk_goroutine_ok. assumption.
Qed.

Lemma bws_in i v : In (i, v) (concat (tab n bws)) -> 0 <= i < n /\ v = bval i.
Proof.
  intro H. apply in_concat_tab in H. destruct H as (a & Ha & H). destruct H as [[= <- <-]|[]]. split; [assumption|reflexivity].
Qed.

Lemma bws_times x : 0 <= x < n -> times (concat (tab n bws)) x = 1.
Proof.
  intro Hx. rewrite times_concat by apply (pw_n _ _ W). rewrite (zsum_single n _ x) by
    (assumption || (intros i Hi Hne; unfold bws, times; cbn [filter fst]; destruct (Z.eqb_spec i x); [contradiction|reflexivity])).
  unfold bws, times. cbn [filter fst]. rewrite Z.eqb_refl. reflexivity.
Qed.

Definition bskp : list (trgsw_fft O) := tab n bval.

Lemma bsk_any_schedule tr : interleaving (tab n bws) tr ->
  apply_writes (repeat [] (Z.to_nat n)) tr = Ok bskp.
Proof.
  intro Htr. pose proof (pw_n _ _ W) as Hn. set (arr := repeat [] (Z.to_nat n)).
  assert (Hl: zlen arr = n) by (unfold arr; rewrite zlen_repeat; lia).
  rewrite (interleaving_effect [] bval (tab n bws) tr arr) by (assumption || (intros; rewrite Hl; apply bws_in; assumption)).
  rewrite (apply_writes_ok [] bval) by (intros; rewrite Hl; apply bws_in; assumption). f_equal. rewrite Hl.
  apply tab_ext. intros x Hx. rewrite written_times, bws_times by assumption. reflexivity.
Qed.

Lemma genBootstrappingKey_ok : genBootstrappingKey O pr sk rnd = Ok bskp.
Proof.
  unfold genBootstrappingKey. rewrite make_ok by apply (pw_n _ _ W). cbn [bind]. rewrite bsk_goroutines_ok. cbn [bind].
  apply bsk_any_schedule. apply interleaving_seq.
Qed.

Lemma bskp_at i : 0 <= i < n -> znd [] bskp i = bval i.
Proof. intro. unfold bskp. apply znd_tab. assumption. Qed.

Lemma bskp_ok : bsk_ok L pr bskp.
Proof.
  pose proof (pw_n _ _ W). unfold bsk_ok. split; [unfold bskp; rewrite zlen_tab; lia|]. intros i Hi. rewrite bskp_at by assumption.
  apply (gkey_of_ok L l _ (rowp (zn (KeyLv0 sk) i) (KeyLv1 sk) (rnd i))). apply gfft_of. assumption.
Qed.

Context (rk : Z -> enc_rand) (HBG : g_BG pr = 2 ^ bg).

Lemma NewCloudKey_ok : NewCloudKey O pr sk rk rnd = Ok {|
  DecompositionOffset := w32 (doff bg l); BlindRotateTestvec := ctv N;
  KeySwitchingKey := kskp pr sk rk; BootstrappingKey := bskp |}.
Proof.
  pose proof (law_N L) as H16. pose proof (pw_l _ _ W).
  unfold NewCloudKey. rewrite genDecompositionOffset_ok by (assumption || lia || apply W). cbn [bind].
  rewrite (genTestvec_ok pr N) by (lia || apply W). cbn [bind].
  rewrite genKeySwitchingKey_ok by (assumption || (rewrite (pw_gN _ _ W); lia || assumption) || apply W). cbn [bind].
  rewrite genBootstrappingKey_ok. reflexivity.
Qed.

(** the cloud key without a key switching key *)
Lemma NewTRGSWLv1FFTDummy_ok : NewTRGSWLv1FFTDummy O N pr = Ok (repeat (Fzero L, Fzero L) (Z.to_nat (2 * l))).
Proof.
  pose proof (pw_l _ _ W). unfold NewTRGSWLv1FFTDummy. rewrite make_ok by lia. cbn [bind]. rewrite zlen_repeat, Z2Nat.id by lia.
  rewrite (for_fill_all (f_nil O, f_nil O) _ (fun _ => (Fzero L, Fzero L))).
  - rewrite repeat_tab. f_equal. f_equal. lia.
  - rewrite zlen_repeat. lia.
  - intros i Hi. rewrite (law_new L). reflexivity.
Qed.

Lemma NewCloudKeyNoKSK_ok : NewCloudKeyNoKSK O pr = Ok {|
  DecompositionOffset := w32 (doff bg l); BlindRotateTestvec := ctv N;
  KeySwitchingKey := repeat (kzero pr) (Z.to_nat (2 ^ g_BASEBIT pr * g_IKS_T pr * N));
  BootstrappingKey := repeat (repeat (Fzero L, Fzero L) (Z.to_nat (2 * l))) (Z.to_nat n) |}.
Proof.
  pose proof (law_N L) as H16. pose proof (pw_l _ _ W). pose proof (pw_n _ _ W).
  unfold NewCloudKeyNoKSK. rewrite ksk_init_ok by (apply W || (rewrite (pw_gN _ _ W); lia)). cbn [bind].
  rewrite (pw_gN _ _ W), (law_deg L). cbn [bind]. rewrite make_ok by assumption. cbn [bind].
  rewrite (for_fill_all [] _ (fun _ => repeat (Fzero L, Fzero L) (Z.to_nat (2 * l)))).
  - cbn [bind]. rewrite genDecompositionOffset_ok by (assumption || lia || apply W). cbn [bind].
    rewrite (genTestvec_ok pr N) by (lia || apply W). cbn [bind]. rewrite <- (repeat_tab _ n). reflexivity.
  - rewrite zlen_repeat. lia.
  - intros i Hi. apply NewTRGSWLv1FFTDummy_ok.
Qed.
End Bsk.

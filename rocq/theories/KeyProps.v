(** * Key contents, TRLWE encryption and the two decompositions, without the transform's laws *)
From Coq Require Import Lia ZifyBool Setoid Morphisms List.
From Verif Require Import GoBase GoFacts GoMem F64 Utils UtilsFacts Spec Params Key Tlwe TlweMem Poly Fft FftTabErr Trlwe Trgsw Evaluator CloudKey Gates RunSpec
  BasicFacts MemFacts TlweFacts PolyFacts NegFacts Laws TrlweFacts KeySwitchFacts TrgswFacts EvalFacts OldRotFacts HeapFacts CloudKeyFacts CallFacts BootFacts GateFacts
  NoiseFacts RunProps RlweProps.
Import ListNotations.
Local Open Scope Z_scope.
Ltac Zify.zify_post_hook ::= idtac.

(** ** C17 *)
Lemma k_trlwe R O pr bits key r : good_params pr -> fft_evaluator R (g_N pr) = Ok O -> zlen bits = g_N pr -> zlen key = g_N pr ->
  exists ct out, (t <- NewTRLWELv1 pr ;; TrlweEncryptBool O (g_N pr) pr t bits key r) = Ok ct /\
    TrlweDecryptBool O (g_N pr) ct key = Ok out /\ zlen out = g_N pr /\
    forall i, 0 <= i < g_N pr ->
      (znd false out i = znd false bits i <->
       bool_noise_ok (znd false bits i) (centered (F64ToTorus (tr_noise r i)))).
Proof.
  intros [W HBG] EO Hb Hk. destruct (laws_of _ _ _ EO) as [L _]. apply (trlwe_roundtrip L); try assumption. apply (pw_trN _ _ W).
Qed.

Lemma k_trlwe_phase mc O pr d d' bits key r : mc_ok mc -> good_params pr -> fft_evaluator (f64_arith mc) (g_N pr) = Ok O ->
  fft_error_within pr d d' -> zlen bits = g_N pr -> bin_key (g_N pr) key ->
  exists ct, (t <- NewTRLWELv1 pr ;; TrlweEncryptBool O (g_N pr) pr t bits key r) = Ok ct /\
    zlen (tA ct) = g_N pr /\ zlen (tB ct) = g_N pr /\ tok_list (tA ct) /\ tok_list (tB ct) /\
    forall i, 0 <= i < g_N pr ->
      close d' (rlwe_phase (g_N pr) key (tA ct) (tB ct) i) (mu_bit (znd false bits i) + centered (F64ToTorus (tr_noise r i))).
Proof.
  intros Hc Hpr EO Hfft Hb Hk. destruct (f64_good mc O pr d d' Hc Hpr EO Hfft) as (L & _ & F2). destruct Hpr as [W HBG].
  destruct (trlwe_bool_phase L pr bits key r two31 1 d') as (ct & E & [A1 A2] & [B1 B2] & P); try assumption; try lia.
  - apply (pw_trN _ _ W).
  - apply bin_poly; exact Hk.
  - apply bin_sbound; exact Hk.
  - exists ct. repeat (split; [assumption|]). intros i Hi. destruct (P i Hi) as (x & Hx & E1). exists x. split; [exact Hx|].
    rewrite E1, centered_eq. reflexivity.
Qed.

(** ** C12 *)
Lemma k_decompositions R O pr p (m : mem (FP O)) r c off F (m2 : mem F) a b out :
  good_params pr -> fft_evaluator R (g_N pr) = Ok O -> preachable O pr p m -> ptable O pr m p r c ->
  tm m2 a = tA c -> tm m2 b = tB c -> ~ (out <= a < out + 2 * g_L pr) -> ~ (out <= b < out + 2 * g_L pr) ->
  (forall i, 0 <= i < 2 * g_L pr -> zlen (tm m2 (out + i)) = g_N pr) ->
  exists m1 m3 m4, decompositionInPlace O pr m r off p = Ok m1 /\
    DecomposePolyAssign m2 a (g_BGBIT pr) (g_L pr) off out = Ok m3 /\
    DecomposePolyAssign m3 b (g_BGBIT pr) (g_L pr) off (out + g_L pr) = Ok m4 /\
    forall i, 0 <= i < 2 * g_L pr -> exists x, GetDecompBuffer p i = Ok x /\ tm m1 x = tm m4 (out + i).
Proof.
  intros [W HBG] EO Hp Ht Ea Eb Na Nb Hlen. destruct (laws_of _ _ _ EO) as [L _]. set (N := g_N pr) in *. set (l := g_L pr) in *.
  pose proof (pw_l _ _ W) as Hl. pose proof (pw_bg _ _ W) as Hbg. pose proof (pw_2l _ _ W) as H2l. fold l in Hl, H2l.
  destruct (preach_ok L pr W HBG p m Hp) as [Hpe _]. destruct (ptable_at pr W m p r c Ht) as (At & [[A1 A2] [B1 B2]] & NA & NB).
  destruct (dip_ok L pr W m p r c off Hpe At A1 B1 (pscr_8 pr _ _ NA) (pscr_8 pr _ _ NB)) as (m1 & E1 & V1 & _ & _).
  destruct (DecomposePolyAssign_ok m2 N a (g_BGBIT pr) l off out) as (m3 & E3 & V3 & F3);
    [lia|lia|rewrite Ea; exact A1|unfold blk; lia|intros; apply Hlen; lia|].
  assert (K3: forall x, ~ blk out l x -> tm m3 x = tm m2 x) by (intros x Hx; apply (fr_t _ _ _ _ _ F3); exact Hx).
  destruct (DecomposePolyAssign_ok m3 N b (g_BGBIT pr) l off (out + l)) as (m4 & E4 & V4 & F4);
    [lia|lia|rewrite K3 by (unfold blk; lia); rewrite Eb; exact B1|unfold blk; lia| |].
  { intros i Hi. rewrite K3 by (unfold blk; lia). replace (out + l + i) with (out + (l + i)) by lia. apply Hlen. lia. }
  exists m1, m3, m4. split; [exact E1|]. split; [exact E3|]. split; [exact E4|]. intros i Hi. exists (pe_t p + i).
  split; [unfold GetDecompBuffer, maxDecompLevels; destruct (Z.ltb_spec i 0), (Z.leb_spec 8 i); try lia; reflexivity|].
  rewrite V1 by exact Hi. unfold dvec. fold l. destruct (Z.ltb_spec i l).
  - rewrite (fr_t _ _ _ _ _ F4) by (unfold blk; lia). rewrite V3 by lia. rewrite Ea. reflexivity.
  - replace (out + i) with (out + l + (i - l)) by lia. rewrite V4 by lia. rewrite K3 by (unfold blk; lia). rewrite Eb. reflexivity.
Qed.

(** ** C46 *)
Lemma k_rows mc O pr d d' p key rs z t : mc_ok mc -> good_params pr -> fft_evaluator (f64_arith mc) (g_N pr) = Ok O ->
  fft_error_within pr d d' -> bin_key (g_N pr) key ->
  NewTRGSWLv1 pr = Ok z -> TrgswEncryptTorus O (g_N pr) pr z p key rs = Ok t ->
  zlen t = 2 * g_L pr /\
  forall i k, 0 <= i < 2 * g_L pr -> 0 <= k < g_N pr ->
    close d' (rlwe_phase (g_N pr) key (tA (znd {| tA := []; tB := [] |} t i)) (tB (znd {| tA := []; tB := [] |} t i)) k)
      (centered (F64ToTorus (tr_noise (rs i) k)) +
       (if i <? g_L pr then - (p * 2 ^ (32 - (i + 1) * g_BGBIT pr) * zn key k)
        else if k =? 0 then p * 2 ^ (32 - (i - g_L pr + 1) * g_BGBIT pr) else 0)).
Proof.
  intros Hc Hpr EO Hfft Hk Hz Ht. destruct (f64_good mc O pr d d' Hc Hpr EO Hfft) as (L & _ & F2). destruct Hpr as [W HBG].
  pose proof (pw_l _ _ W) as Hl.
  unfold NewTRGSWLv1 in Hz. rewrite (NewTRLWELv1_ok L) in Hz by apply (pw_trN _ _ W). cbn [bind] in Hz.
  rewrite make_ok in Hz by lia. injection Hz as <-.
  rewrite (TrgswEncryptTorus_ok L pr W) in Ht by (rewrite ?zlen_repeat; lia || apply Hk). injection Ht as <-.
  assert (Hn: 0 <= 2 * g_L pr) by lia. split; [apply (zlen_tab _ _ Hn)|]. intros i k Hi Hkk. rewrite znd_tab by exact Hi.
  destruct (rowp_enc L pr W p key rs d' (bin_poly _ _ Hk) (bin_sbound _ _ Hk) F2) as (er & Her & Hb).
  exists (er i k - centered (F64ToTorus (tr_noise (rs i) k))). split; [apply Hb; exact Hkk|].
  specialize (Her i k Hi Hkk). unfold cphase in Her. rewrite Her. unfold row_target. apply eqm_refl'. ring.
Qed.

Section Contents.
Context (R : arith) (O : fops) (pr : pset) (sk : SecretKey) (rk : Z -> enc_rand) (rb : Z -> Z -> trlwe_rand) (ck : CloudKey O)
  (S : setup R O pr sk rk rb ck).
Notation n := (lv0_N pr).
Notation N := (g_N pr).
Notation bb := (g_BASEBIT pr).
Notation t := (g_IKS_T pr).

Lemma k_contents :
  DecompositionOffset ck = zsum (g_L pr) (fun i => g_BG pr / 2 * 2 ^ (32 - (i + 1) * g_BGBIT pr)) mod two32 /\
  tA (BlindRotateTestvec ck) = repeat 0 (Z.to_nat N) /\ tB (BlindRotateTestvec ck) = repeat (2 ^ 29) (Z.to_nat N) /\
  zlen (BootstrappingKey ck) = n /\
  (forall i, 0 <= i < n -> trgsw_of O pr (KeyLv1 sk) (zn (KeyLv0 sk) i) (rb i) (znd [] (BootstrappingKey ck) i)) /\
  zlen (KeySwitchingKey ck) = 2 ^ bb * t * N /\
  (forall i j k, 0 <= i < N -> 0 <= j < t -> 0 <= k < 2 ^ bb ->
    let x := 2 ^ bb * t * i + 2 ^ bb * j + k in let c := znd [] (KeySwitchingKey ck) x in
    zlen c = n + 1 /\
    (k = 0 -> c = repeat 0 (Z.to_nat (n + 1))) /\
    (k <> 0 -> lwe_phase n (KeyLv0 sk) c ==
       k * zn (KeyLv1 sk) i * 2 ^ (32 - (j + 1) * bb) + F64ToTorus (er_noise (rk x)))).
Proof.
  open_setup S. destruct (key_ok_N pr W sk Hsk) as [K0 K1]. pose proof K0 as [H0 _]. pose proof K1 as [H1 _].
  rewrite (NewCloudKey_ok L pr W sk rb H0 H1 rk HBG) in Hck. injection Hck as <-.
  cbn [BootstrappingKey KeySwitchingKey DecompositionOffset BlindRotateTestvec ctv tA tB].
  pose proof (pw_bg _ _ W) as Hbg. pose proof (pw_bb _ _ W) as Hbb. pose proof (pw_t _ _ W) as Htt. pose proof (pw_n _ _ W) as Hn.
  pose proof (pw_N _ _ W) as HN.
  split.
  { assert (E2: g_BG pr / 2 = 2 ^ (g_BGBIT pr - 1)).
    { rewrite HBG. replace (g_BGBIT pr) with (1 + (g_BGBIT pr - 1)) at 1 by lia.
      rewrite Z.pow_add_r by lia. change (2 ^ 1) with 2. rewrite Z.mul_comm, Z.div_mul by lia. reflexivity. }
    rewrite E2. reflexivity. }
  split; [reflexivity|]. split; [reflexivity|]. split; [apply zlen_tab; exact Hn|]. split.
  { intros i Hi. rewrite bskp_at by assumption. unfold bval. destruct (trgsw_exists L pr W (KeyLv1 sk) (zn (KeyLv0 sk) i) (rb i) H1) as (g & Hg).
    rewrite <- (trgsw_gfft L pr W _ _ _ g H1 Hg). exact Hg. }
  assert (HB: 0 < 2 ^ bb) by (apply Z.pow_pos_nonneg; lia).
  destruct (kskp_shape pr sk rk) as [Ls Sh]; try assumption; try lia.
  assert (HNn: 0 <= N) by (rewrite <- H1; apply zlen_nonneg).
  split; [apply zlen_tab; apply Z.mul_nonneg_nonneg; [apply Z.mul_nonneg_nonneg; lia|exact HNn]|]. intros i j k Hi Hj Hk.
  set (x := 2 ^ bb * t * i + 2 ^ bb * j + k). set (c := znd [] (kskp pr sk rk) x).
  assert (Hx: 0 <= x < 2 ^ bb * t * N).
  { assert (A1: 0 <= t * i + j < t * N) by nia. unfold x. replace (2 ^ bb * t * i + 2 ^ bb * j + k) with (2 ^ bb * (t * i + j) + k) by ring.
    replace (2 ^ bb * t * N) with (2 ^ bb * (t * N)) by ring. clear - A1 HB Hk. nia. }
  split; [apply Sh; exact Hx|]. split.
  - intros ->. unfold c, kskp. rewrite znd_tab by exact Hx. replace (x mod 2 ^ bb) with 0; [reflexivity|].
    unfold x. symmetry. replace (2 ^ bb * t * i + 2 ^ bb * j + 0) with ((t * i + j) * 2 ^ bb) by ring. apply Z.mod_mul. lia.
  - intros Hk0. unfold c, x. apply (kskp_phase pr sk rk); try assumption; try lia. apply (pw_bbt _ _ W).
Qed.
End Contents.

Lemma k_noksk R O pr : good_params pr -> fft_evaluator R (g_N pr) = Ok O ->
  exists ck z, NewCloudKeyNoKSK O pr = Ok ck /\ f_new O (g_N pr) = Ok z /\
    KeySwitchingKey ck = repeat (repeat 0 (Z.to_nat (lv0_N pr + 1))) (Z.to_nat (2 ^ g_BASEBIT pr * g_IKS_T pr * g_N pr)) /\
    BootstrappingKey ck = repeat (repeat (z, z) (Z.to_nat (2 * g_L pr))) (Z.to_nat (lv0_N pr)) /\
    tB (BlindRotateTestvec ck) = repeat (2 ^ 29) (Z.to_nat (g_N pr)).
Proof.
  intros [W HBG] EO. destruct (laws_of _ _ _ EO) as [L _].
  eexists; exists (Fzero L). split; [apply (NewCloudKeyNoKSK_ok L pr W (fun _ _ => {| tr_mask := fun _ => 0; tr_noise := fun _ => f_of_Z 0 |})
    (fun _ => {| er_mask := fun _ => 0; er_noise := f_of_Z 0 |}) HBG)|]. split; [apply (law_new L)|]. auto.
Qed.

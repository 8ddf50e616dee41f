(** * Worst-case noise of a bootstrap; laws of the evaluator's transform *)
From Coq Require Import Lia ZifyBool Setoid Morphisms.
From Verif Require Import GoBase GoFacts GoMem MemFacts F64 Utils UtilsFacts Params Key Tlwe TlweMem TlweFacts
  Poly PolyFacts NegFacts Laws Fft FftReal FftTabErr FftOps FftF64 FftProps
  Trlwe TrlweFacts Trgsw TrgswFacts RotFacts KeySwitchFacts Lut Evaluator EvalFacts
  CloudKey CloudKeyFacts Gates LinFacts RunSpec HeapFacts BootFacts Circuit GateFacts.
Local Open Scope Z_scope.
Ltac Zify.zify_post_hook ::= idtac.

(** ** from the evaluator to its laws *)
Lemma eval_pow2 R N O : fft_evaluator R N = Ok O -> exists k, 4 <= k /\ N = 2 ^ k.
Proof.
  intro E. destruct (Z_lt_dec N 16) as [Hs|Hl].
  - destruct (fft_bad_degree R N) as (s & X).
    { intros k Hk ->. assert (2 ^ 4 <= 2 ^ k) by (apply Z.pow_le_mono_r; lia). change (2 ^ 4) with 16 in *. lia. }
    rewrite X in E. discriminate.
  - exists (Z.log2 N). assert (HL: 4 <= Z.log2 N) by (change 4 with (Z.log2 16); apply Z.log2_le_mono; lia).
    split; [exact HL|]. destruct (Z.eq_dec N (2 ^ Z.log2 N)) as [X|X]; [exact X|exfalso].
    destruct (fft_bad_degree R N) as (s & Y); [|rewrite Y in E; discriminate].
    intros k Hk ->. apply X. rewrite Z.log2_pow2 by lia. reflexivity.
Qed.

Lemma laws_of R N O : fft_evaluator R N = Ok O -> exists L : flaws O N, True.
Proof.
  intro E. destruct (eval_pow2 R N O E) as (k & Hk & ->).
  destruct (tables_len R k Hk) as (tw & twi & T & Lt & Li).
  unfold fft_evaluator in E. rewrite degree_ok in E by exact Hk. cbn [bind] in E. rewrite T in E. cbn [bind] in E. injection E as <-.
  pose proof (pow_laws R k Hk tw twi Lt Li) as L. rewrite (proj1 (pow_half k Hk)). exists L. exact I.
Qed.

Lemma f64_laws mc k O : mc_ok mc -> 4 <= k <= 51 -> fft_evaluator (f64_arith mc) (2 ^ k) = Ok O ->
  exists L : flaws O (2 ^ k),
    (forall K D delta, 1 <= K <= 2 ^ 30 -> 1 <= D <= 2 ^ 31 ->
       K * (2 ^ k * (D * 2 ^ 31)) * (87 * (k - 1) + 5 + 2 * K) < (2 * delta + 1) * 2 ^ 52 -> facc L K D delta) /\
    (forall D E delta, 1 <= D <= 2 ^ 31 -> 1 <= E <= 2 ^ 31 ->
       2 ^ k * (D * E) * (87 * (k - 1) + 7) < (2 * delta + 1) * 2 ^ 52 -> facc_mul L D E delta).
Proof.
  intros Hcis Hk EO. assert (Hk4: 4 <= k) by lia. destruct (pow_half k Hk4) as (EN & E2 & Hh). assert (Hh2: k - 1 <= 50) by lia.
  destruct (f64_tables mc Hcis (k - 1) Hh Hh2) as (tf & tfi & Et & Htf & Htfi).
  destruct (real_tables (k - 1) Hh) as (tw & twi & _ & Htw & Htwi).
  unfold fft_evaluator in EO. rewrite degree_ok in EO by assumption. cbn [bind] in EO. rewrite E2, Et in EO. cbn [bind] in EO. injection EO as <-.
  pose proof (H_pos (k - 1) Hh) as HP. set (Lt := proj1 Htf). set (Li := proj1 Htfi).
  set (L := fft_laws (f64_arith mc) (2 ^ (k - 1)) (H_pos (k - 1) Hh) (H_4 (k - 1) Hh) (k - 1) Hh eq_refl tf tfi Lt Li).
  rewrite EN. exists L. split.
  - intros K D delta HK HD Hd. exact (f64_facc mc (k - 1) Hh Hh2 tf tfi Htf Htfi tw twi Htw Htwi Lt Li K D delta HK HD Hd).
  - intros D E delta HD HE Hd. exact (f64_facc_mul mc (k - 1) Hh Hh2 tf tfi Htf Htfi tw twi Htw Htwi Lt Li D E delta HD HE Hd).
Qed.

(** ** worst case *)
Section Worst.
Context {O : fops} {N : Z} (L : flaws O N) (pr : pset) (W : pwf pr N) (HBG : g_BG pr = 2 ^ g_BGBIT pr).
Notation l := (g_L pr).
Notation bg := (g_BGBIT pr).
Notation n := (lv0_N pr).
Notation nb := (g_NBIT pr).
Context (sk : SecretKey) (rk : Z -> enc_rand) (rb : Z -> Z -> trlwe_rand) (ck : CloudKey O)
  (Hsk : key_ok pr sk) (Hck : NewCloudKey O pr sk rk rb = Ok ck).
Notation s0 := (KeyLv0 sk). Notation s1 := (KeyLv1 sk).
Context (Bb Bk d d' : Z) (HBb : 0 <= Bb) (HBk : 0 <= Bk) (Hd' : 0 <= d')
  (Hfa : facc L (2 * l) (2 ^ (bg - 1)) d) (Hfm : facc_mul L two31 1 d')
  (Hrb : forall i j k, 0 <= k < N -> Z.abs (centered (F64ToTorus (tr_noise (rb i j) k))) <= Bb)
  (Hrk : forall x, Z.abs (centered (F64ToTorus (er_noise (rk x)))) <= Bk).

Lemma sbound_bin s : bin_key N s -> sbound N 1 s.
Proof. intros H i Hi. destruct (bin_zn N s i H Hi) as [-> | ->]; cbn; lia. Qed.

Lemma cmux_worst_ok tv ct : ct_ok N tv -> zlen ct = n + 1 ->
  cmux_noise O pr sk (BootstrappingKey ck) (DecompositionOffset ck) ct tv (fun _ => cmux_worst pr sk Bb d d').
Proof.
  intros Htv Hc. pose proof (law_N L) as H16. destruct (key_ok_N pr W sk Hsk) as [K0 K1].
  destruct (cloud_facts L pr W HBG _ _ _ _ Hsk Hck) as (Hb & Hks & _ & Hoff).
  assert (Eck := Hck). rewrite (NewCloudKey_ok L pr W sk rb (proj1 K0) (proj1 K1) rk HBG) in Eck. injection Eck as <-.
  cbn [BootstrappingKey KeySwitchingKey DecompositionOffset] in *.
  pose proof (pw_n _ _ W) as Hn. pose proof (pw_l _ _ W) as Hl. pose proof (pw_bg _ _ W) as Hbg. pose proof (pw_lbg _ _ W) as Hlb.
  apply (cmux_noise_iff L pr W sk K0); try assumption. intros i Hi k Hk. cbv beta.
    destruct (rowp_enc L pr W (zn s0 i) s1 (rb i) d' (bin_poly N s1 K1) (sbound_bin s1 K1) Hfm) as (er & Her & Bnd).
    set (df := br_diff L bg l (w32 (doff bg l)) nb n (bskp L pr sk rb) ct tv i).
    assert (Hdf: ct_ok N df).
    { unfold df, br_diff. apply csub_ok; lia. }
    assert (Hs: forall j, 0 <= j < N -> 0 <= zn s1 j) by (intros; eapply bin_nonneg; eassumption).
    pose proof (epp_phase L bg l (w32 (doff bg l))) as P.
    fold df. match goal with |- context [epp _ _ _ _ ?t df] => assert (EB : t = bval L pr sk rb i) by exact (bskp_at L pr sk rb i Hi); rewrite EB end.
    assert (HP: close (d * (1 + weight N s1)) (cphase N s1 (epp L bg l (w32 (doff bg l)) (bval L pr sk rb i) df) k)
      (zn s0 i * cphase N s1 df k + @ep_noise N bg l (w32 (doff bg l)) (zn s0 i) s1 er df k)).
    { eapply P; try eassumption; try reflexivity; try lia. apply gfft_of; [exact W|]. apply K1. }
    assert (HB: Z.abs (@ep_noise N bg l (w32 (doff bg l)) (zn s0 i) s1 er df k) <=
      2 * l * (N * (2 ^ (bg - 1) * (Bb + d'))) + Z.abs (zn s0 i) * ((1 + weight N s1) * (2 ^ (32 - l * bg) - 1))).
    { apply ep_noise_bound; try assumption; try lia. intros a j Ha Hj. specialize (Bnd a j Hj). specialize (Hrb i a j Hj). lia. }
    eapply close_trans'; [exact HP| |].
    + exists (@ep_noise N bg l (w32 (doff bg l)) (zn s0 i) s1 er df k). split; [exact HB|reflexivity].
    + unfold cmux_worst. rewrite (pw_gN _ _ W).
      assert (0 <= (1 + weight N s1) * (2 ^ (32 - l * bg) - 1)).
      { apply Z.mul_nonneg_nonneg; [|assert (0 < 2 ^ (32 - l * bg)) by (apply Z.pow_pos_nonneg; lia); lia].
        assert (0 <= weight N s1); [|lia]. apply zsum_nonneg. intros; apply Hs; assumption. }
      destruct (bin_zn _ _ _ K0 Hi) as [-> | ->]; change (Z.abs 0) with 0; change (Z.abs 1) with 1; lia.
Qed.

Lemma worst_noise_ok tv ct : ct_ok N tv -> zlen ct = n + 1 ->
  boot_noise O pr sk ck tv ct (worst_noise pr sk Bb Bk d d').
Proof.
  intros Htv Hc. pose proof (law_N L) as H16. destruct (key_ok_N pr W sk Hsk) as [K0 K1].
  destruct (cloud_facts L pr W HBG _ _ _ _ Hsk Hck) as (Hb & Hks & _ & Hoff).
  pose proof (cmux_worst_ok tv ct Htv Hc) as HCW.
  assert (Eck := Hck). rewrite (NewCloudKey_ok L pr W sk rb (proj1 K0) (proj1 K1) rk HBG) in Eck. injection Eck as <-.
  cbn [BootstrappingKey KeySwitchingKey DecompositionOffset] in *.
  pose proof (pw_n _ _ W) as Hn. pose proof (pw_l _ _ W) as Hl. pose proof (pw_bg _ _ W) as Hbg. pose proof (pw_lbg _ _ W) as Hlb.
  destruct (left_of_cmux L pr W sk K0 _ _ ct tv _ Hb Hc Htv HCW) as (eta & HE & HS).
  assert (HK: close (weight N s1 * 2 ^ (31 - g_BASEBIT pr * g_IKS_T pr) + N * g_IKS_T pr * Bk)
    (lwe_phase n s0 (bootp L pr (w32 (doff bg l)) (bskp L pr sk rb) (kskp pr sk rk) tv ct))
    (lwe_phase N s1 (extp N 0 (tA (br_acc L bg l (w32 (doff bg l)) nb n (bskp L pr sk rb) ct tv n)) (tB (br_acc L bg l (w32 (doff bg l)) nb n (bskp L pr sk rb) ct tv n))))).
  { unfold bootp. set (acc := br_acc L bg l (w32 (doff bg l)) nb n (bskp L pr sk rb) ct tv n).
    assert (Hacc: ct_ok N acc) by (apply br_acc_ok; assumption). destruct Hacc as [[A1 A2] [B1 B2]].
    set (x := extp N 0 (tA acc) (tB acc)).
    pose proof (pw_bb _ _ W). pose proof (pw_t _ _ W). pose proof (pw_bbt _ _ W).
    eapply close_weaken.
    + apply ksw_phase with (E := Bk); try assumption; try lia.
      * intros; eapply bin_nonneg; eassumption.
      * rewrite <- (pw_gN _ _ W). apply kskp_enc; try assumption; try (rewrite (pw_gN _ _ W)); try assumption; try lia; try apply K0; try apply K1.
    + unfold kprec. pose proof (kcount_le N (g_BASEBIT pr) (g_IKS_T pr) x ltac:(lia) ltac:(lia)) as C.
      assert (kcount N (g_BASEBIT pr) (g_IKS_T pr) x * Bk <= N * g_IKS_T pr * Bk) by (apply Z.mul_le_mono_nonneg_r; lia). lia. }
  destruct HK as (ek & Hek & HK). exists eta, ek.
  split; [|split]; cbn [BootstrappingKey KeySwitchingKey DecompositionOffset].
  - exact HE.
  - apply (ks_noise_iff L pr W sk); assumption.
  - unfold worst_noise. rewrite (pw_gN _ _ W). rewrite zsum_const in HS by assumption. lia.
Qed.
End Worst.

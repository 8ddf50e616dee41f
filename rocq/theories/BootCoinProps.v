(** * Counting the tosses of cloud keys: the statements of PropBootCoin.v *)
From Coq Require Import Lia ZifyBool Setoid Morphisms List Reals Lra.
From Verif Require Import GoBase GoFacts GoMem MemFacts F64 Utils UtilsFacts Params Key Tlwe TlweMem TlweFacts
  Poly PolyFacts NegFacts Laws Fft FftReal FftTabErr FftOps FftF64 FftProps Trlwe TrlweFacts Trgsw TrgswFacts RotFacts KeySwitchFacts Lut Evaluator EvalFacts
  CloudKey CloudKeyFacts Gates LinFacts RunSpec HeapFacts BootFacts Circuit GateFacts NoiseFacts RunProps RunWorst LutSpec LutProps
  ProxyReenc ReencSpec ReencProps MaskCount MaskTail CoinSpec CoinProps BootCoinSpec BootCoinFacts.
Import ListNotations.
Local Open Scope Z_scope.
Ltac Zify.zify_post_hook ::= idtac.

Lemma but_for_and lens e1 e2 (P Q : list (list Z) -> Prop) : but_for lens e1 P -> but_for lens e2 Q -> but_for lens (e1 + e2) (fun ws => P ws /\ Q ws).
Proof.
  intros (l1 & A1 & B1) (l2 & A2 & B2). exists (l1 ++ l2). split.
  - intros ws Hw Hi. split; [apply A1|apply A2]; try exact Hw; intro X; apply Hi; apply in_or_app; auto.
  - rewrite zlen_app, plus_IZR, Rmult_plus_distr_r. apply Rplus_le_compat; assumption.
Qed.
Lemma but_for_weaken lens e (P Q : list (list Z) -> Prop) : (forall ws, Forall2 tosses lens ws -> P ws -> Q ws) -> but_for lens e P -> but_for lens e Q.
Proof. intros H (l & A & B). exists l. split; [|exact B]. intros ws Hw Hi. apply H; [exact Hw|]. apply A; assumption. Qed.
Lemma but_for_all {A} lens e (P : A -> list (list Z) -> Prop) l : (forall x, In x l -> but_for lens e (P x)) ->
  but_for lens (IZR (zlen l) * e) (fun ws => Forall (fun x => P x ws) l).
Proof.
  induction l as [|x l IH]; intro H.
  - exists []. split; [constructor|]. change (zlen (@nil (list (list Z)))) with 0. change (zlen (@nil A)) with 0. lra.
  - assert (Hx := H x (or_introl eq_refl)). assert (Hl := IH (fun y Hy => H y (or_intror Hy))).
    assert (X := but_for_and _ _ _ _ _ Hx Hl). replace (IZR (zlen (x :: l))) with (1 + IZR (zlen l))%R.
    2: { change (zlen (x :: l)) with (Z.of_nat (S (length l))). rewrite Nat2Z.inj_succ, <- Z.add_1_r, plus_IZR. unfold zlen. lra. }
    replace ((1 + IZR (zlen l)) * e)%R with (e + IZR (zlen l) * e)%R by ring.
    eapply but_for_weaken; [|exact X]. intros ws _ [H1 H2]. constructor; assumption.
Qed.

Section Count.
Context (mc : machine) (O : fops) (pr : pset) (sk : SecretKey) (rk : Z -> enc_rand) (rb : Z -> Z -> trlwe_rand)
  (Hcis : mc_ok mc) (GP : good_params pr) (EO : fft_evaluator (f64_arith mc) (g_N pr) = Ok O) (Hsk : key_ok pr sk)
  (d d' : Z) (Hfft : fft_error_within pr d d') (HF : fine_noise rk rb)
  (T Q : Z) (HT : 0 < T) (HQ : 0 < Q) (HS : key_spread pr rk rb <= Q).
Notation eps := (2 * exp (- (IZR T * IZR T / IZR Q)))%R.
Notation drawn ws ck := (setup (f64_arith mc) O pr sk (drawn_rk pr rk ws) (drawn_rb pr rb ws) ck).

Lemma p_key_made ws : exists ck, drawn ws ck.
Proof.
  destruct GP as [W HBG]. destruct (laws_of _ _ _ EO) as [L _]. destruct (key_ok_N pr W sk Hsk) as [K0 K1].
  eexists. split; [exact GP|]. split; [exact EO|]. split; [exact Hsk|].
  apply (NewCloudKey_ok L pr W sk (drawn_rb pr rb ws) (proj1 K0) (proj1 K1) (drawn_rk pr rk ws) HBG).
Qed.

Lemma p_boot_tail tv ct : job_ok pr (tv, ct) ->
  but_for (key_tosses pr) eps (fun ws => exists ck, drawn ws ck /\
    exists x, cut_off pr O sk (BootstrappingKey ck) (DecompositionOffset ck) ct tv x /\
      boot_noise O pr sk ck tv ct (T + Z.abs (zsum (lv0_N pr) x) + fixed_noise pr sk d d')).
Proof.
  intros (LA & LB & KA & KB & Hl). cbn [fst snd] in *. destruct GP as [W HBG]. destruct Hfft as [Hd Hdd].
  pose proof (pw_nb _ _ W) as Hnb. pose proof (pw_N _ _ W) as HN. pose proof (pw_l _ _ W). pose proof (pw_2l _ _ W).
  pose proof (pw_bg _ _ W). pose proof (pw_lbg _ _ W).
  assert (H4: 4 <= g_NBIT pr).
  { destruct (eval_pow2 _ _ _ EO) as (k & Hk & E). rewrite HN in E. apply Z.pow_inj_r in E; lia. }
  assert (EO' := EO). rewrite HN in EO'.
  pose proof (f64_laws mc (g_NBIT pr) O Hcis ltac:(lia) EO') as X. rewrite <- HN in X. destruct X as (L & HL1 & HL2).
  assert (Hb31: g_BGBIT pr <= 32).
  { assert (1 * g_BGBIT pr <= g_L pr * g_BGBIT pr) by (apply Z.mul_le_mono_nonneg_r; lia). lia. }
  assert (P31: 1 <= 2 ^ (g_BGBIT pr - 1) <= 2 ^ 31).
  { split; [apply (Z.pow_le_mono_r 2 0); lia|apply Z.pow_le_mono_r; lia]. }
  assert (Hfa: facc L (2 * g_L pr) (2 ^ (g_BGBIT pr - 1)) d) by (apply HL1; [lia|exact P31|exact Hd]).
  assert (Hfm: facc_mul L two31 1 d') by (apply HL2; [unfold two31; lia|lia|]; rewrite Z.mul_1_r; unfold two31; exact Hdd).
  destruct (key_ok_N pr W sk Hsk) as [K0 K1]. assert (Htv: ct_ok (g_N pr) tv) by (split; split; assumption).
  eapply but_for_weaken; [|apply (small_total L pr W sk ct tv rk rb T Q HT HQ HS)].
  intros ws _ [Hw Ht]. destruct (p_key_made ws) as [ck Hck]. exists ck. split; [exact Hck|].
  destruct (boot_drawn L pr W sk K0 K1 d d' Hfa Hfm ct tv Hl Htv rk rb HF ws ck Hsk HBG Hw ltac:(apply Hck)) as (x & X1 & eta & ek & X2 & X3 & X4).
  exists x. split; [exact X1|]. exists eta, ek. split; [exact X2|]. split; [exact X3|]. lia.
Qed.

Lemma p_jobs_tail jobs : Forall (job_ok pr) jobs ->
  but_for (key_tosses pr) (IZR (zlen jobs) * eps) (fun ws => exists ck, drawn ws ck /\ Forall (fun j =>
    exists x, cut_off pr O sk (BootstrappingKey ck) (DecompositionOffset ck) (snd j) (fst j) x /\
      boot_noise O pr sk ck (fst j) (snd j) (T + Z.abs (zsum (lv0_N pr) x) + fixed_noise pr sk d d')) jobs).
Proof.
  intro HJ. rewrite Forall_forall in HJ.
  eapply but_for_weaken; [|apply (but_for_all _ _ (fun j ws => exists ck, drawn ws ck /\
    exists x, cut_off pr O sk (BootstrappingKey ck) (DecompositionOffset ck) (snd j) (fst j) x /\
      boot_noise O pr sk ck (fst j) (snd j) (T + Z.abs (zsum (lv0_N pr) x) + fixed_noise pr sk d d')))].
  - intros ws _ H. cbv beta in H. destruct (p_key_made ws) as [ck Hck]. exists ck. split; [exact Hck|].
    eapply Forall_impl; [|exact H]. cbv beta. intros j (ck' & Hck' & X).
    destruct Hck as (_ & _ & _ & E1). destruct Hck' as (_ & _ & _ & E2). rewrite E1 in E2. injection E2 as <-. exact X.
  - intros [tv ct] Hin. apply p_boot_tail. apply HJ. exact Hin.
Qed.

Lemma drawn_tv ws ck : drawn ws ck -> BlindRotateTestvec ck = ctv (g_N pr).
Proof.
  intros ([W HBG] & E & _ & Hck). destruct (laws_of _ _ _ E) as [L _]. apply (cloud_facts L pr W HBG _ _ _ _ Hsk Hck).
Qed.

Lemma p_gate_tail g ca cb va vb Ea Eb : encrypts (lv0_N pr) (KeyLv0 sk) ca va Ea -> encrypts (lv0_N pr) (KeyLv0 sk) cb vb Eb ->
  Ea + mult g * Eb + round_err pr sk < 2 ^ 29 ->
  but_for (key_tosses pr) eps (fun ws => exists ck p x, drawn ws ck /\ gate_lin g (lv0_N pr) ca cb = Ok p /\
    cut_off pr O sk (BootstrappingKey ck) (DecompositionOffset ck) p (BlindRotateTestvec ck) x /\
    (T + Z.abs (zsum (lv0_N pr) x) + fixed_noise pr sk d d' < 2 ^ 29 ->
     forall e (m : mem (FP O)) k a b, reachable O pr e m -> key_at O m e k ck -> tm m a = ca -> tm m b = cb ->
     exists r m', gate_fun g O pr m e a b k = Ok (r, m') /\ DecryptBool (lv0_N pr) (tm m' r) (KeyLv0 sk) = Ok (truth g va vb))).
Proof.
  intros Ha Hb Hm. assert (GP' := GP). destruct GP' as [W HBG]. destruct (laws_of _ _ _ EO) as [L _].
  destruct (gate_lin_side pr W sk Hsk g ca cb va vb Ea Eb Ha Hb Hm) as (p & Ep & [Lp Kp] & _).
  destruct (ctv_ok (g_N pr) ltac:(pose proof (law_N L); lia)) as [[LA KA] [LB KB]].
  eapply but_for_weaken; [|apply (p_boot_tail (ctv (g_N pr)) p)].
  2: { repeat split; assumption. }
  intros ws _ (ck & Hck & x & Hx & Hn). exists ck, p, x. rewrite (drawn_tv ws ck Hck). split; [exact Hck|]. split; [exact Ep|]. split; [exact Hx|].
  intros HT' e m k a b Hr Hk Ea' Eb'.
  destruct (p_gate _ _ _ _ _ _ _ Hck g e m k a b va vb Ea Eb (T + Z.abs (zsum (lv0_N pr) x) + fixed_noise pr sk d d') Hr Hk) as (r & m' & H1 & _ & H2 & _).
  - rewrite Ea'. exact Ha.
  - rewrite Eb'. exact Hb.
  - exact Hm.
  - intros q Eq. rewrite Ea', Eb', Ep in Eq. injection Eq as <-. rewrite (drawn_tv ws ck Hck). exact Hn.
  - exists r, m'. split; [exact H1|]. apply H2. exact HT'.
Qed.

Lemma p_lut_tail c tv M v y : lwe_ok (lv0_N pr) c -> plain_table (g_N pr) tv -> 0 < M -> 0 <= v < 2 * M -> entry (g_N pr) M tv (v mod M) y ->
  reads pr (KeyLv0 sk) c M v ->
  but_for (key_tosses pr) eps (fun ws => exists ck x, drawn ws ck /\
    cut_off pr O sk (BootstrappingKey ck) (DecompositionOffset ck) c tv x /\
    forall e (m : mem (FP O)) ct lut, reachable O pr e m -> input O pr m e ct -> table O pr m e lut tv -> tm m ct = c ->
    exists r m', BootstrapLUT O pr m e ct lut (BootstrappingKey ck) (KeySwitchingKey ck) (DecompositionOffset ck) = Ok (r, m') /\
      close (T + Z.abs (zsum (lv0_N pr) x) + fixed_noise pr sk d d') (lwe_phase (lv0_N pr) (KeyLv0 sk) (tm m' r)) (LutSpec.signed M v y)).
Proof.
  intros [Lc Kc] HP HM Hv He Hrd.
  eapply but_for_weaken; [|apply (p_boot_tail tv c)].
  - intros ws _ (ck & Hck & x & Hx & Hn). exists ck, x. split; [exact Hck|]. split; [exact Hx|]. intros e m ct lut Hr Hi Ht Ec.
    destruct (t_lut _ _ _ _ _ _ _ Hck e m ct lut tv M v y (T + Z.abs (zsum (lv0_N pr) x) + fixed_noise pr sk d d') Hr Hi Ht HP HM Hv He) as (r & m' & H1 & _ & H2 & _).
    + rewrite Ec. exact Hrd.
    + rewrite Ec. exact Hn.
    + exists r, m'. split; assumption.
  - destruct HP as (A & B & C & D). repeat split; cbn [fst snd]; try assumption.
    unfold tok_list. apply Forall_forall. intros z Hz. apply (In_nth _ _ 0) in Hz. destruct Hz as (i & Hi & <-).
    specialize (D (Z.of_nat i)). unfold zn, znd in D. rewrite Nat2Z.id in D. rewrite D by (unfold zlen in A; lia). unfold tok, two32. lia.
Qed.
End Count.

(** ** what the decompositions cut off, at worst *)
Lemma p_cut_worst O pr sk bsk offset ct tv x : good_params pr -> key_ok pr sk -> cut_off pr O sk bsk offset ct tv x ->
  Z.abs (zsum (lv0_N pr) x) <= weight (lv0_N pr) (KeyLv0 sk) * ((1 + weight (g_N pr) (KeyLv1 sk)) * (2 ^ (32 - g_L pr * g_BGBIT pr) - 1)).
Proof.
  intros [W HBG] Hsk H. destruct (key_ok_N pr W sk Hsk) as [K0 K1]. pose proof (pw_lbg _ _ W) as Hlb. pose proof (pw_nb _ _ W) as Hnb.
  assert (HN: 0 < g_N pr) by (rewrite (pw_N _ _ W); apply Z.pow_pos_nonneg; lia).
  assert (PE: 0 < 2 ^ (32 - g_L pr * g_BGBIT pr)) by (apply Z.pow_pos_nonneg; lia).
  set (E := 2 ^ (32 - g_L pr * g_BGBIT pr)) in *. set (B := (1 + weight (g_N pr) (KeyLv1 sk)) * (E - 1)).
  eapply Z.le_trans; [apply zsum_abs|]. fold B. rewrite Z.mul_comm. unfold weight at 1. rewrite <- zsum_mul_l. apply zsum_le. intros i Hi.
  destruct (H i Hi) as (acc & rot & _ & _ & Hx). cbv zeta in Hx. rewrite Hx. fold E.
  assert (M: forall f k, 0 <= (zn (f rot) k - zn (f acc) k) mod E <= E - 1) by (intros; pose proof (Z.mod_pos_bound (zn (f rot) k - zn (f acc) k) E PE); lia).
  rewrite Z.abs_mul.
  destruct (bin_cases _ _ i K0 Hi) as [-> | ->]; [rewrite Z.mul_0_l; lia|]. rewrite Z.mul_1_r, Z.mul_1_l.
  apply mono_abs; [exact HN|]. intros k Hk.
  assert (Hneg: Z.abs (negacyclic (g_N pr) (fun k0 => (zn (tA rot) k0 - zn (tA acc) k0) mod E) (zn (KeyLv1 sk)) k) <= (E - 1) * zsum (g_N pr) (zn (KeyLv1 sk))).
  { apply neg_abs_weight; [exact Hk| |intros j Hj; destruct (bin_cases _ _ j K1 Hj); lia]. intros j Hj. pose proof (M (fun c => tA c) j). cbv beta in *. lia. }
  pose proof (M tB k) as MB. unfold B, weight. rewrite Z.mul_add_distr_r, Z.mul_1_l, (Z.mul_comm (zsum _ _)). cbv beta. set (b0 := (zn (tB rot) k - zn (tB acc) k) mod E) in *. set (n0 := negacyclic _ _ _ _) in *. set (w := (E - 1) * _) in *. lia.
Qed.

(** ** numbers for the 128-bit level *)
Lemma p_gate_128 mc O sk rk rb g ca cb va vb : mc_ok mc -> fft_evaluator (f64_arith mc) 1024 = Ok O -> key_ok params128Bit sk ->
  weight 700 (KeyLv0 sk) <= 500 -> fine_noise rk rb -> bsk_squares params128Bit rb <= 35 * 10 ^ 9 -> ksk_squares params128Bit rk <= 3 * 10 ^ 14 ->
  encrypts 700 (KeyLv0 sk) ca va (2 ^ 20) -> encrypts 700 (KeyLv0 sk) cb vb (2 ^ 20) ->
  but_for (key_tosses params128Bit) (/ IZR (10 ^ 14)) (fun ws => exists ck p x,
    setup (f64_arith mc) O params128Bit sk (drawn_rk params128Bit rk ws) (drawn_rb params128Bit rb ws) ck /\ gate_lin g 700 ca cb = Ok p /\
    cut_off params128Bit O sk (BootstrappingKey ck) (DecompositionOffset ck) p (BlindRotateTestvec ck) x /\
    (Z.abs (zsum 700 x) <= 2 ^ 28 ->
     forall e (m : mem (FP O)) k a b, reachable O params128Bit e m -> key_at O m e k ck -> tm m a = ca -> tm m b = cb ->
     exists r m', gate_fun g O params128Bit m e a b k = Ok (r, m') /\ DecryptBool 700 (tm m' r) (KeyLv0 sk) = Ok (truth g va vb))).
Proof.
  intros Hc EO Hsk Hw HF HB HK Ha Hb.
  assert (GP: good_params params128Bit) by exact (shipped_params 128).
  assert (K0: bin_key 700 (KeyLv0 sk)) by apply Hsk. assert (K1: bin_key 1024 (KeyLv1 sk)) by apply Hsk.
  pose proof (weight_max 700 _ K0 ltac:(lia)) as W0. pose proof (weight_max 1024 _ K1 ltac:(lia)) as W1.
  assert (Hfft: fft_error_within params128Bit 38 0) by (split; reflexivity).
  assert (HS: key_spread params128Bit rk rb <= 2 * (2 ^ 10 * (35 * 10 ^ 9) + 3 * 10 ^ 14)).
  { unfold key_spread. change (2 * (g_BGBIT params128Bit - 1)) with 10. change (2 ^ 10) with 1024. lia. }
  assert (HX: fixed_noise params128Bit sk 38 0 <= 4 * 10 ^ 7).
  { unfold fixed_noise. cbv zeta. change (lv0_N params128Bit) with 700. change (g_N params128Bit) with 1024. change (g_L params128Bit) with 3.
    change (2 ^ (31 - g_BASEBIT params128Bit * g_IKS_T params128Bit)) with 8192. rewrite !Z.mul_0_r, Z.add_0_r. change (10 ^ 7) with 10000000.
    set (w0 := weight 700 _) in *. set (w1 := weight 1024 _) in *. clearbody w0 w1. clear - Hw W0 W1. nia. }
  eapply but_for_weaken; [|eapply but_for_le; [|apply (p_gate_tail mc O params128Bit sk rk rb Hc GP EO Hsk 38 0 Hfft HF
    (15 * 10 ^ 7) (2 * (2 ^ 10 * (35 * 10 ^ 9) + 3 * 10 ^ 14)) eq_refl eq_refl HS g ca cb va vb (2 ^ 20) (2 ^ 20) Ha Hb)]].
  - intros ws _ (ck & p & x & H1 & H2 & H3 & H4). exists ck, p, x. split; [exact H1|]. split; [exact H2|]. split; [exact H3|]. intro HR. apply H4.
    change (lv0_N params128Bit) with 700. change (2 ^ 28) with 268435456 in HR. change (2 ^ 29) with 536870912. change (10 ^ 7) with 10000000 in *. lia.
  - replace (/ IZR (10 ^ 14))%R with (1 / IZR (10 ^ 14))%R by (unfold Rdiv; ring). apply (small_exp 64 2143); [reflexivity|reflexivity|reflexivity|discriminate| |].
    + apply div_ge; [reflexivity|reflexivity|]. vm_compute. discriminate.
    + vm_compute. discriminate.
  - unfold round_err. change (2 ^ (30 - g_NBIT params128Bit)) with 1048576. change (2 ^ 20) with 1048576. change (2 ^ 29) with 536870912. change (lv0_N params128Bit) with 700.
    destruct g; cbn [mult]; lia.
Qed.

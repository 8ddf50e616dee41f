(** * Gates, circuits and bootstraps, stated without the transform's laws *)
From Coq Require Import Lia ZifyBool Setoid Morphisms.
From Verif Require Import GoBase GoFacts GoMem MemFacts F64 Utils UtilsFacts Params Key Tlwe TlweMem TlweFacts BasicFacts
  Poly PolyFacts NegFacts Laws Fft FftTabErr Trlwe TrlweFacts Trgsw TrgswFacts RotFacts KeySwitchFacts Lut Evaluator EvalFacts
  CloudKey CloudKeyFacts Gates LinFacts RunSpec HeapFacts BootFacts Circuit GateFacts NoiseFacts.
Local Open Scope Z_scope.
Ltac Zify.zify_post_hook ::= idtac.

Ltac open_setup H :=
  let L := fresh "L" in let W := fresh "W" in let B := fresh "HBG" in let E := fresh "EO" in
  let K := fresh "Hsk" in let C := fresh "Hck" in
  destruct H as ([W B] & E & K & C); destruct (laws_of _ _ _ E) as [L _].

Lemma shipped_params level : good_params (get_params level).
Proof.
  pose proof (get_params_wf level) as H. cbv zeta in H. destruct H as (H1 & H2 & H3 & H4 & H5 & H6 & H7 & H8 & H9 & H10 & H11 & H12 & H13 & _).
  split; [|exact H6]. constructor; lia.
Qed.

Lemma decrypt_enc n s ct b E : 0 <= n -> n <= zlen s -> encrypts n s ct b E -> E < 2 ^ 29 -> DecryptBool n ct s = Ok b.
Proof.
  intros Hn Hs [[Hl _] (e & He & P)] HE. rewrite DecryptBool_ok by lia. f_equal.
  rewrite (centered_eqm _ _ P). change (2 ^ 29) with 536870912 in HE. unfold mu_bit, centered, two31, two32. change (2 ^ 29) with 536870912.
  destruct b.
  - rewrite Z.mod_small by lia. lia.
  - replace (- (536870912) + e + 2147483648) with (1610612736 + e) by lia. rewrite Z.mod_small by lia.
    destruct (Z.leb_spec 0 (1610612736 + e - 2147483648)); [lia|reflexivity].
Qed.

Section Props.
Context (R : arith) (O : fops) (pr : pset) (sk : SecretKey) (rk : Z -> enc_rand) (rb : Z -> Z -> trlwe_rand) (ck : CloudKey O)
  (S : setup R O pr sk rk rb ck).
Notation n := (lv0_N pr).
Notation s0 := (KeyLv0 sk).
Notation tv := (BlindRotateTestvec ck).
Notation M := (mem (FP O)).

Lemma p_bootstrap e (m : M) k c b T : reachable O pr e m -> key_at O m e k ck -> user m e c -> zlen (tm m c) = n + 1 ->
  boot_noise O pr sk ck tv (tm m c) T -> side b (round_err pr sk) (lwe_phase n s0 (tm m c)) ->
  exists r m', bootstrap O pr m e c k = Ok (r, m') /\ encrypts n s0 (tm m' r) b T /\
    user m' e r /\ ~ user m e r /\ user_kept e m m' /\ reachable O pr e m'.
Proof.
  intros Hr Hk Hu Hc HT Hs. open_setup S.
  destruct (bootstrap_run L pr W HBG sk rk rb ck Hsk Hck e m k c Hr Hk Hu Hc) as (m' & E & V & R1 & U1 & K1 & N1).
  exists (tnext m), m'. split; [exact E|]. split; [|split; [exact U1|split; [|split; assumption]]].
  - rewrite V. eapply boot_phase; eassumption.
  - intros [[_ X] _]. lia.
Qed.

Lemma p_gate g e (m : M) k a b va vb Ea Eb T : reachable O pr e m -> key_at O m e k ck ->
  encrypts n s0 (tm m a) va Ea -> encrypts n s0 (tm m b) vb Eb ->
  Ea + mult g * Eb + round_err pr sk < 2 ^ 29 ->
  (forall p, gate_lin g n (tm m a) (tm m b) = Ok p -> boot_noise O pr sk ck tv p T) ->
  exists r m', gate_fun g O pr m e a b k = Ok (r, m') /\ encrypts n s0 (tm m' r) (truth g va vb) T /\
    (T < 2 ^ 29 -> DecryptBool n (tm m' r) s0 = Ok (truth g va vb)) /\
    user m' e r /\ ~ user m e r /\ user_kept e m m' /\ reachable O pr e m' /\ key_at O m' e k ck.
Proof.
  intros Hr Hk Ha Hb Hm HT. open_setup S.
  destruct (gate_run L pr W HBG sk rk rb ck Hsk Hck g e m k a b va vb Ea Eb T Hr Hk Ha Hb Hm HT) as (r & m' & E & V & U1 & U2 & K1 & R1 & Q1).
  exists r, m'. split; [exact E|]. split; [exact V|]. split; [|split; [exact U1|split; [exact U2|split; [exact K1|split; assumption]]]].
  intro X. eapply decrypt_enc; [apply (pw_n _ _ W)| |exact V|exact X]. destruct Hsk as [[Y _] _]. lia.
Qed.

Lemma p_mux e (m : M) k a b c va vb vc Ea Eb Ec T : reachable O pr e m -> key_at O m e k ck ->
  user m e a -> user m e c ->
  encrypts n s0 (tm m a) va Ea -> encrypts n s0 (tm m b) vb Eb -> encrypts n s0 (tm m c) vc Ec ->
  Ea + Eb + round_err pr sk < 2 ^ 29 -> Ea + Ec + round_err pr sk < 2 ^ 29 -> T + T + round_err pr sk < 2 ^ 29 ->
  (forall p, mux_boots O pr e k m a b c p -> boot_noise O pr sk ck tv p T) ->
  exists r m', MUX O pr m e a b c k = Ok (r, m') /\ encrypts n s0 (tm m' r) (if va then vb else vc) T /\
    (T < 2 ^ 29 -> DecryptBool n (tm m' r) s0 = Ok (if va then vb else vc)) /\
    user m' e r /\ ~ user m e r /\ user_kept e m m' /\ reachable O pr e m' /\ key_at O m' e k ck.
Proof.
  intros Hr Hk Ua Uc Ha Hb Hc M1 M2 M3 HT. open_setup S.
  destruct (mux_run L pr W HBG sk rk rb ck Hsk Hck e m k a b c va vb vc Ea Eb Ec T Hr Hk Ua Uc Ha Hb Hc M1 M2 M3 HT) as (r & m' & E & V & U1 & U2 & K1 & R1 & Q1).
  exists r, m'. split; [exact E|]. split; [exact V|]. split; [|split; [exact U1|split; [exact U2|split; [exact K1|split; assumption]]]].
  intro X. eapply decrypt_enc; [apply (pw_n _ _ W)| |exact V|exact X]. destruct Hsk as [[Y _] _]. lia.
Qed.

Lemma wires_decrypt e (m : M) w v E : 0 <= n -> n <= zlen s0 -> wires O pr e sk m w v E -> E < 2 ^ 29 ->
  Forall2 (fun x b => DecryptBool n (tm m x) s0 = Ok b) w v.
Proof.
  intros Hn Hs H HE. unfold wires in H. induction H as [|x b w v [_ He] _ IH]; constructor; [|exact IH].
  eapply decrypt_enc; eassumption.
Qed.

Lemma p_circuit p e (m : M) k w v v' E : reachable O pr e m -> key_at O m e k ck -> wires O pr e sk m w v E ->
  1 <= E -> 3 * E + round_err pr sk < 2 ^ 29 ->
  (forall c, boots O pr e k p w m c -> boot_noise O pr sk ck tv c E) ->
  plain p v = Ok v' ->
  exists w' m', exec O pr e k p w m = Ok (w ++ w', m') /\ wires O pr e sk m' (w ++ w') v' E /\
    Forall2 (fun x b => DecryptBool n (tm m' x) s0 = Ok b) (w ++ w') v' /\
    user_kept e m m' /\ reachable O pr e m' /\ key_at O m' e k ck.
Proof.
  intros Hr Hk Hw HE Hm HT Hp. open_setup S.
  destruct (exec_run L pr W HBG sk rk rb ck Hsk Hck p e m k w v v' E Hr Hk Hw HE Hm HT Hp) as (w' & m' & E1 & W1 & K1 & R1 & Q1).
  exists w', m'. split; [exact E1|]. split; [exact W1|]. split; [|split; [exact K1|split; assumption]].
  pose proof (round_err_nonneg pr W sk Hsk) as Hr0.
  eapply wires_decrypt; [apply (pw_n _ _ W)| |exact W1|lia]. destruct Hsk as [[Y _] _]. lia.
Qed.

Lemma p_adder e k (m : M) A B va vb E : reachable O pr e m -> key_at O m e k ck ->
  zlen A = zlen B -> wires O pr e sk m A va E -> wires O pr e sk m B vb E -> 1 <= E -> 3 * E + round_err pr sk < 2 ^ 29 ->
  (forall c, adder_boots O pr e k m A B c -> boot_noise O pr sk ck tv c E) ->
  exists sum carry m' vs vc, Adder O pr e k m A B = Ok (sum, carry, m') /\
    Forall2 (fun x b => DecryptBool n (tm m' x) s0 = Ok b) (sum ++ [carry]) (vs ++ [vc]) /\
    wires O pr e sk m' (sum ++ [carry]) (vs ++ [vc]) E /\
    zlen vs = zlen va /\ le_value (vs ++ [vc]) = le_value va + le_value vb /\ user_kept e m m' /\ reachable O pr e m'.
Proof.
  intros Hr Hk Hl WA WB HE Hm HT. open_setup S.
  destruct (adder_run L pr W HBG sk rk rb ck Hsk Hck e k m A B va vb E Hr Hk Hl WA WB HE Hm HT)
    as (res & carry & m' & vs & vc & E1 & W1 & Hz & HV & K1 & R1 & Q1).
  exists res, carry, m', vs, vc. split; [exact E1|]. split; [|repeat (split; [assumption|]); assumption].
  pose proof (round_err_nonneg pr W sk Hsk) as Hr0.
  eapply wires_decrypt; [apply (pw_n _ _ W)| |exact W1|lia]. destruct Hsk as [[Y _] _]. lia.
Qed.
End Props.

(** the worst case for the float64 transform *)
Lemma p_worst mc O pr sk rk rb ck Bb Bk d d' tv ct : mc_ok mc -> setup (f64_arith mc) O pr sk rk rb ck ->
  fft_error_within pr d d' -> key_noise_within pr rk rb Bb Bk -> 0 <= Bb -> 0 <= Bk -> 0 <= d' ->
  zlen (tA tv) = g_N pr -> zlen (tB tv) = g_N pr -> tok_list (tA tv) -> tok_list (tB tv) -> zlen ct = lv0_N pr + 1 ->
  boot_noise O pr sk ck tv ct (worst_noise pr sk Bb Bk d d').
Proof.
  intros Hc ([W HBG] & EO & Hsk & Hck) [Hd Hdd] [Hrb Hrk] HBb HBk Hd' LA LB KA KB Hl.
  pose proof (pw_nb _ _ W) as Hnb. pose proof (pw_N _ _ W) as HN. pose proof (pw_l _ _ W). pose proof (pw_2l _ _ W).
  pose proof (pw_bg _ _ W). pose proof (pw_lbg _ _ W).
  assert (H4: 4 <= g_NBIT pr).
  { destruct (eval_pow2 _ _ _ EO) as (k & Hk & E). rewrite HN in E. apply Z.pow_inj_r in E; lia. }
  assert (EO' := EO). rewrite HN in EO'.
  pose proof (f64_laws mc (g_NBIT pr) O Hc ltac:(lia) EO') as X. rewrite <- HN in X. destruct X as (L & HL1 & HL2).
  assert (Hb31: g_BGBIT pr <= 32).
  { assert (1 * g_BGBIT pr <= g_L pr * g_BGBIT pr) by (apply Z.mul_le_mono_nonneg_r; lia). lia. }
  assert (P31: 1 <= 2 ^ (g_BGBIT pr - 1) <= 2 ^ 31).
  { split; [apply (Z.pow_le_mono_r 2 0); lia|apply Z.pow_le_mono_r; lia]. }
  apply (worst_noise_ok L pr W HBG sk rk rb ck Hsk Hck Bb Bk d d' HBb HBk Hd'); try assumption.
  - apply HL1; [lia|exact P31|exact Hd].
  - apply HL2; [unfold two31; lia|lia|]. rewrite Z.mul_1_r. unfold two31. exact Hdd.
  - split; split; assumption.
Qed.

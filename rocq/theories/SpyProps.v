(** * Probing recovers the key *)
From Coq Require Import Lia ZifyBool List.
From Verif Require Import GoBase GoFacts F64 Utils Spec Params Key Tlwe Poly ProxyReenc ReencSpec Attack Spy TlweFacts BasicFacts AttackFacts ReencFacts ReencProps.
Import ListNotations.
Local Open Scope Z_scope.
Ltac Zify.zify_post_hook ::= idtac.

Lemma probe_tab n i : probe n i = tab (n + 1) (fun k => if k =? i then 2 ^ 30 else if k =? n then 2 ^ 29 else 0).
Proof. reflexivity. Qed.

Lemma probe_ok n i : 0 <= i < n -> lwe_ok n (probe n i).
Proof.
  intro H. rewrite probe_tab. split; [apply zlen_tab; lia|].
  apply Forall_znd with (d := 0). intros k Hk. rewrite zlen_tab in Hk by lia. rewrite znd_tab by lia.
  unfold tok, two32. destruct (k =? i); [|destruct (k =? n)]; lia.
Qed.

Lemma probe_phase n a i : bin_key n a -> 0 <= i < n -> lwe_phase n a (probe n i) == mu_bit (zn a i =? 0) + 0.
Proof.
  intros Ha Hi. unfold lwe_phase. rewrite probe_tab.
  rewrite zn_tab by lia. replace (n =? i) with false by lia. rewrite Z.eqb_refl.
  rewrite (zsum_single n _ i) by (try lia; intros k Hk Hne; rewrite zn_tab by lia; replace (k =? i) with false by lia; replace (k =? n) with false by lia; ring).
  rewrite zn_tab by lia. rewrite Z.eqb_refl. destruct (bin_cases n a i Ha Hi) as [E|E]; rewrite E; reflexivity.
Qed.

Lemma spy_ok n a ask : bin_key n a ->
  (forall ct b, lwe_ok n ct -> lwe_phase n a ct == mu_bit b + 0 -> ask ct = Ok b) -> spy n ask = Ok a.
Proof.
  intros Ha H. unfold spy. rewrite (mapr_ok _ (fun k => zn a (Z.of_nat k))).
  - f_equal. destruct Ha as [Hl _]. change (tab n (fun k => zn a k) = a). rewrite <- Hl. apply tab_zn.
  - intros k Hk. apply in_seq in Hk. assert (Hi: 0 <= Z.of_nat k < n) by lia.
    rewrite (H _ (zn a (Z.of_nat k) =? 0)) by (apply probe_ok || apply probe_phase; assumption). cbn [bind].
    destruct (bin_cases n a _ Ha Hi) as [E|E]; rewrite E; reflexivity.
Qed.

Lemma spy_chain n D a rks c : 0 <= n -> bin_key n a -> chain n D a rks c -> zlen rks * D < 2 ^ 29 ->
  spy n (fun ct => ct' <- reencrypt_all n ct rks ;; DecryptBool n ct' c) = Ok a.
Proof.
  intros Hn Ha Hc HD. apply spy_ok; [exact Ha|]. intros ct b Hok Hp.
  destruct (q_chain_bit n D a rks c ct b 0 Hn Hc (proj1 Ha) Hok Hp) as (ct' & E & Ed); [lia|]. rewrite E. exact Ed.
Qed.

Lemma spy_decrypt n a : 0 <= n -> bin_key n a -> spy n (fun ct => DecryptBool n ct a) = Ok a.
Proof. intros Hn Ha. exact (spy_chain n 0 a [] a Hn Ha (chain_here n 0 a) eq_refl). Qed.

(** a probe selects one entry of the key *)
Lemma digit_0 bb t j : 1 <= bb -> 0 <= j < t -> bb * t <= 31 -> digit bb t 0 j = 0.
Proof.
  intros Hb Hj Hbt. unfold digit. assert (L: (j + 1) * bb <= bb * t) by (clear - Hb Hj; nia).
  assert (P: 0 < 2 ^ (31 - bb * t) < 2 ^ (32 - (j + 1) * bb)) by (split; [apply Z.pow_pos_nonneg; lia|apply Z.pow_lt_mono_r; lia]).
  assert (Q: 2 ^ (31 - bb * t) < 2 ^ 32) by (apply Z.pow_lt_mono_r; lia).
  rewrite Z.add_0_l, (Z.mod_small (2 ^ (31 - bb * t))) by lia. rewrite Z.div_small by lia. apply Z.mod_0_l. apply Z.pow_nonzero; lia.
Qed.

Lemma digit_quarter bb t j : 1 <= bb -> 0 <= j < t -> 2 <= bb * t <= 31 -> j <> (if bb =? 1 then 1 else 0) -> digit bb t (2 ^ 30) j = 0.
Proof.
  intros Hb Hj Hbt Hne. unfold digit. assert (L: (j + 1) * bb <= bb * t) by (clear - Hb Hj; nia).
  set (p := 2 ^ (31 - bb * t)) in *. set (sh := 32 - (j + 1) * bb) in *.
  assert (P: 0 < p < 2 ^ sh) by (split; [apply Z.pow_pos_nonneg; lia|apply Z.pow_lt_mono_r; unfold sh; lia]).
  assert (Q: p <= 2 ^ 29) by (apply Z.pow_le_mono_r; lia). change (2 ^ 29) with 536870912 in Q.
  rewrite (Z.mod_small (2 ^ 30 + p)) by (change (2 ^ 30) with 1073741824; change (2 ^ 32) with 4294967296; lia).
  assert (C: (j = 0 /\ bb = 1) \/ 2 + bb <= (j + 1) * bb).
  { destruct (Z.eqb_spec bb 1); [subst; lia|]. right. assert (1 <= j) by lia. clear - Hb n H. nia. }
  destruct C as [[-> ->]|C].
  - unfold sh. cbn [Z.add Z.mul]. rewrite Z.div_small; [reflexivity|]. change (2 ^ (32 - (0 + 1) * 1)) with 2147483648. change (2 ^ 30) with 1073741824. lia.
  - assert (S1: 0 <= sh) by (unfold sh; lia). assert (S2: sh + bb <= 30) by (unfold sh; lia).
    replace (2 ^ 30) with (2 ^ (30 - sh - bb) * 2 ^ bb * 2 ^ sh) by (rewrite <- !Z.pow_add_r by lia; f_equal; lia).
    rewrite Z.add_comm, Z.div_add by (apply Z.pow_nonzero; lia). rewrite Z.div_small by lia. rewrite Z.add_0_l. apply Z.mod_mul. apply Z.pow_nonzero; lia.
Qed.

Lemma probe_noise n bb t i noise E : 0 <= i < n -> 1 <= bb -> 1 <= t -> 2 <= bb * t <= 31 -> (forall x, Z.abs (noise x) <= E) ->
  Z.abs (used_noise n bb t (probe n i) noise) <= E.
Proof.
  intros Hi Hb Ht Hbt HE. assert (E0: 0 <= E) by (pose proof (HE 0); lia). unfold used_noise. rewrite probe_tab.
  rewrite (zsum_single n _ i); [|exact Hi|].
  - rewrite zn_tab by lia. rewrite Z.eqb_refl. set (j0 := if bb =? 1 then 1 else 0).
    assert (J: 0 <= j0 < t) by (unfold j0; destruct (Z.eqb_spec bb 1); [subst|]; lia).
    rewrite (zsum_single t _ j0); [|exact J|].
    + cbv zeta. destruct (_ =? 0); [lia|apply HE].
    + intros j Hj Hne. cbv zeta. rewrite digit_quarter by assumption. reflexivity.
  - intros k Hk Hne. rewrite zn_tab by lia. replace (k =? i) with false by lia. replace (k =? n) with false by lia.
    apply zsum_zero. intros j Hj. cbv zeta. rewrite digit_0 by lia. reflexivity.
Qed.

Lemma spy_run n a b rk bb t noise E : 0 <= n -> rkey n a b rk bb t noise -> 2 <= bb * t -> (forall x, Z.abs (noise x) <= E) ->
  E + weight n a * 2 ^ (31 - bb * t) < 2 ^ 29 ->
  spy n (fun ct => ct' <- ReencryptTLWELv0 n ct rk ;; DecryptBool n ct' b) = Ok a.
Proof.
  intros Hn Hk H2 HE HB. destruct (rkey_len _ _ _ _ _ _ _ Hk) as (Ha & _ & B1 & B2 & B3).
  unfold spy. rewrite (mapr_ok _ (fun k => zn a (Z.of_nat k))).
  - f_equal. change (tab n (fun k => zn a k) = a). rewrite <- (proj1 Ha). apply tab_zn.
  - intros k Hkk. apply in_seq in Hkk. assert (Hi: 0 <= Z.of_nat k < n) by lia.
    destruct (q_run_bit n a b rk bb t noise (probe n (Z.of_nat k)) (zn a (Z.of_nat k) =? 0) 0 Hn Hk (probe_ok _ _ Hi) (probe_phase _ _ _ Ha Hi)) as (ct' & E1 & E2).
    { pose proof (probe_noise n bb t (Z.of_nat k) noise E Hi B1 B2 ltac:(lia) HE). lia. }
    rewrite E1. cbn [bind]. rewrite E2. cbn [bind]. destruct (bin_cases n a _ Ha Hi) as [X|X]; rewrite X; reflexivity.
Qed.

(** the default re-encryption keys, at every level *)
Lemma spy_shipped level a b zeros rnd srnd E : let pr := get_params level in let n := lv0_N pr in
  bin_key n a -> zlen b = n ->
  (forall i, Z.abs (pk_total (2 * n) zeros (rnd i)) <= E) -> (forall i, Z.abs (sample (er_noise (srnd i))) <= E) ->
  E < 2 ^ 26 ->
  exists pk rk rk', NewPublicKeyLv0 pr b zeros = Ok pk /\ NewProxyReencryptionKeyAsymmetric pr a pk rnd = Ok rk /\
    NewProxyReencryptionKeySymmetric pr a b srnd = Ok rk' /\
    spy n (fun ct => ct' <- ReencryptTLWELv0 n ct rk ;; DecryptBool n ct' b) = Ok a /\
    spy n (fun ct => ct' <- ReencryptTLWELv0 n ct rk' ;; DecryptBool n ct' b) = Ok a.
Proof.
  intros pr n Ha Hb HE HEs HB. destruct (q_shipped level a b zeros rnd srnd E E Ha Hb HE HEs) as (pk & rk & rk' & Ep & Ek & Ek' & _).
  pose proof (get_params_wf level) as W. cbv zeta in W. fold pr in W. fold n in W.
  destruct W as (W1 & _ & _ & _ & _ & _ & _ & _ & _ & _ & W2 & W3 & W4 & _).
  assert (K: weight n a * 2 ^ (31 - g_BASEBIT pr * g_IKS_T pr) <= 430000000 /\ 2 <= g_BASEBIT pr * g_IKS_T pr).
  { assert (Hw: weight n a <= n) by (unfold weight; rewrite <- (Z.mul_1_r n) at 2; rewrite <- (zsum_const n 1) by lia; apply zsum_le; intros i Hi; destruct (bin_cases n a i Ha Hi); lia).
    assert (Q: n * 2 ^ (31 - g_BASEBIT pr * g_IKS_T pr) <= 430000000 /\ 2 <= g_BASEBIT pr * g_IKS_T pr).
    { unfold n, pr. clear. revert level. apply (get_params_cases (fun p => lv0_N p * 2 ^ (31 - g_BASEBIT p * g_IKS_T p) <= 430000000 /\ 2 <= g_BASEBIT p * g_IKS_T p)); split; vm_compute; discriminate. }
    split; [|apply Q]. eapply Z.le_trans; [apply Z.mul_le_mono_nonneg_r; [apply Z.pow_nonneg; lia|exact Hw]|apply Q]. }
  change (2 ^ 26) with 67108864 in *.
  exists pk, rk, rk'. split; [exact Ep|]. split; [exact Ek|]. split; [exact Ek'|]. split.
  - apply (spy_run n a b rk (g_BASEBIT pr) (g_IKS_T pr) (fun i => pk_total (2 * n) zeros (rnd i)) E); try assumption; try lia.
    + apply (rkey_asymmetric n a b _ _ (2 * n) zeros rnd pk rk); try assumption; try lia.
      unfold NewPublicKeyLv0 in Ep. change (lv0_N pr) with n in Ep. replace (2 * n) with (n * 2) by ring. exact Ep.
  - apply (spy_run n a b rk' (g_BASEBIT pr) (g_IKS_T pr) (fun i => sample (er_noise (srnd i))) E); try assumption; try lia.
    + apply (rkey_symmetric n a b _ _ srnd rk'); try assumption; lia.
Qed.

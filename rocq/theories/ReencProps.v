(** * Public key encryption and proxy re-encryption: the statements of PropReenc.v *)
From Coq Require Import Lia ZifyBool Setoid Morphisms List.
From Verif Require Import GoBase GoFacts F64 Utils UtilsFacts Params Tlwe TlweFacts BasicFacts
  Poly PolyFacts Trgsw KeySwitchFacts CloudKey CloudKeyFacts ProxyReenc ReencSpec ReencFacts.
Import ListNotations.
Local Open Scope Z_scope.
Ltac Zify.zify_post_hook ::= idtac.

Lemma sample_eqm d : sample d == F64ToTorus d.
Proof. unfold sample. apply centered_eq. Qed.

Lemma pk_total_eqm size zeros r :
  zsum size (fun e => pk_sel r e * F64ToTorus (er_noise (zeros e))) + F64ToTorus (pk_noise r) == pk_total size zeros r.
Proof.
  unfold pk_total. rewrite sample_eqm.
  rewrite (zsum_eqm size (fun e => pk_sel r e * F64ToTorus (er_noise (zeros e)))
   (fun e => if pk_use r e then (if pk_add r e then sample (er_noise (zeros e)) else - sample (er_noise (zeros e))) else 0)); [reflexivity|].
  intros i Hi. unfold pk_sel. destruct (pk_use r i); [destruct (pk_add r i)|]; rewrite ?sample_eqm; apply eqm_refl'; ring.
Qed.

Lemma q_public n sk size zeros b r : 0 <= n -> zlen sk = n -> 0 <= size ->
  exists pk ct b', NewPublicKeyLv0WithParams n sk size zeros = Ok pk /\ PkEncryptBool n pk b r = Ok ct /\ lwe_ok n ct /\
    DecryptBool n ct sk = Ok b' /\ (b' = b <-> bool_noise_ok b (centered (pk_total size zeros r))).
Proof.
  intros Hn Hk Hs. destruct (pk_roundtrip n sk size zeros b r Hn Hk Hs) as (pk & ct & b' & E1 & E2 & Ho & E3 & Hi).
  exists pk, ct, b'. split; [exact E1|]. split; [exact E2|]. split; [exact Ho|]. split; [exact E3|].
  rewrite Hi. rewrite (centered_eqm _ _ (pk_total_eqm size zeros r)). reflexivity.
Qed.


Lemma q_public_small n sk size zeros b r : 0 <= n -> zlen sk = n -> 0 <= size -> Z.abs (pk_total size zeros r) < 2 ^ 29 ->
  exists pk ct, NewPublicKeyLv0WithParams n sk size zeros = Ok pk /\ PkEncryptBool n pk b r = Ok ct /\ DecryptBool n ct sk = Ok b.
Proof.
  intros Hn Hk Hs Hb. destruct (q_public n sk size zeros b r Hn Hk Hs) as (pk & ct & b' & E1 & E2 & _ & E3 & Hi).
  exists pk, ct. split; [exact E1|]. split; [exact E2|]. rewrite E3. f_equal. apply Hi.
  change (2 ^ 29) with 536870912 in Hb. rewrite (centered_unique _ (pk_total size zeros r)) by (reflexivity || (unfold two31; lia)).
  unfold bool_noise_ok. change (2 ^ 29) with 536870912. destruct b; lia.
Qed.

(** every selection of entries, when each zero encryption has noise at most Ez *)
Lemma pk_total_le size zeros r Ez Ef : 0 <= size -> (forall i, 0 <= i < size -> Z.abs (sample (er_noise (zeros i))) <= Ez) ->
  Z.abs (sample (pk_noise r)) <= Ef -> Z.abs (pk_total size zeros r) <= size * Ez + Ef.
Proof.
  intros Hs Hz Hf. unfold pk_total.
  set (f := fun e => if pk_use r e then (if pk_add r e then sample (er_noise (zeros e)) else - sample (er_noise (zeros e))) else 0).
  assert (G: forall m, 0 <= m -> m <= size -> Z.abs (zsum m f) <= m * Ez).
  { refine (natlike_ind (fun m => m <= size -> Z.abs (zsum m f) <= m * Ez) _ _).
    - intros _. rewrite zsum_0 by lia. lia.
    - intros m Hm IH Hms. rewrite <- Z.add_1_r in *. rewrite zsum_S by lia. specialize (IH ltac:(lia)).
      specialize (Hz m ltac:(lia)). set (q := zsum m f) in *. unfold f. set (w := sample (er_noise (zeros m))) in *.
      destruct (pk_use r m); [destruct (pk_add r m)|]; nia. }
  specialize (G size ltac:(lia) ltac:(lia)). lia.
Qed.

(** ** re-encryption *)
Lemma bin_cases n s i : bin_key n s -> 0 <= i < n -> zn s i = 0 \/ zn s i = 1.
Proof. intros [Hl Hf] Hi. apply (proj1 (Forall_znd (fun x => x = 0 \/ x = 1) 0 s) Hf). lia. Qed.

Lemma bbt_le bb t : 1 <= bb -> 1 <= t -> bb * t <= 31 -> bb <= 31.
Proof. nia. Qed.

(** from the entries to the bound *)
Lemma reenc_core n bb t a b E ke ct : 0 <= n -> 1 <= bb -> 1 <= t -> bb * t <= 31 -> 0 <= E -> bin_key n a ->
  ksk_shape n n bb t ke -> ksk_enc n n bb t E b a ke -> lwe_ok n ct ->
  exists ct', ReencryptTLWELv0 n ct {| KeyEncryptions := ke; Base := 2 ^ bb; T := t |} = Ok ct' /\ lwe_ok n ct' /\
    close (reenc_error n bb t a E) (lwe_phase n b ct') (lwe_phase n a ct).
Proof.
  intros Hn Hb Ht Hbt HE Ha Hsh Hen [Hl Htk]. pose proof (bbt_le bb t Hb Ht Hbt) as Hb31.
  eexists. split; [apply (Reencrypt_ok n bb t); try assumption; try reflexivity; lia|]. cbn [KeyEncryptions].
  split; [apply ksw_lwe_ok; assumption|].
  eapply close_weaken; [apply (ksw_phase n n bb t E ct ke b a); try assumption; [lia|]|].
  - intros i Hi. destruct (bin_cases n a i Ha Hi); lia.
  - unfold reenc_error, kprec. pose proof (kcount_le n bb t ct Hn ltac:(lia)) as [K0 K1].
    assert (kcount n bb t ct * E <= n * t * E) by (apply Z.mul_le_mono_nonneg_r; assumption). lia.
Qed.

(** the value of the plaintext at (i, j, k) *)
Lemma rplain_at bb t i j k a n : 1 <= bb -> 0 <= j < t -> bb * t <= 31 -> 1 <= k < 2 ^ bb -> bin_key n a -> 0 <= i < n ->
  F64ToTorus (rplain k (zn a i) ((j + 1) * bb)) = k * zn a i * 2 ^ (32 - (j + 1) * bb).
Proof.
  intros Hb Hj Hbt Hk Ha Hi.
  assert (L1: bb <= (j + 1) * bb) by (clear - Hb Hj; nia). assert (L2: (j + 1) * bb <= bb * t) by (clear - Hb Hj; nia).
  apply rplain_torus; [lia| |exact (bin_cases n a i Ha Hi)|lia].
  apply Z.lt_le_trans with (2 ^ bb); [lia|]. apply Z.pow_le_mono_r; lia.
Qed.

Section Sym.
Context (n bb t : Z) (a b : list Z) (rnd : Z -> enc_rand).
Context (Hn : 0 <= n) (Hb : 0 <= bb <= 62) (Ht : 0 <= t) (Ha : n <= zlen a) (Hbl : n <= zlen b).

Lemma sym_keygen : exists ke, NewProxyReencryptionKeySymmetricWithParams n a b bb t rnd = Ok {| KeyEncryptions := ke; Base := 2 ^ bb; T := t |} /\
  rfill n bb t a (fun idx p => lenc n p b (rnd idx)) (2 ^ bb * t * n) ke.
Proof.
  unfold NewProxyReencryptionKeySymmetricWithParams. apply rkeygen_ok; try assumption.
  intros idx p. apply lenc_ok; assumption.
Qed.

Lemma sym_enc ke E : 1 <= bb -> bb * t <= 31 -> bin_key n a -> (forall i, Z.abs (sample (er_noise (rnd i))) <= E) ->
  rfill n bb t a (fun idx p => lenc n p b (rnd idx)) (2 ^ bb * t * n) ke -> ksk_shape n n bb t ke /\ ksk_enc n n bb t E b a ke.
Proof.
  intros H1 Hbt Hbin HE Hf. split.
  - eapply rfill_shape; [exact Hn|exact Hf|]. intros idx p. apply lenc_ok; assumption.
  - intros i j k Hi Hj Hk. rewrite (rfill_at n bb t a _ Hb ke i j k Hf Hi Hj Hk).
    destruct (lenc_ok n (rplain k (zn a i) ((j + 1) * bb)) b (rnd (kidx bb t i j k)) Hn Hbl) as (_ & _ & Hp).
    exists (sample (er_noise (rnd (kidx bb t i j k)))). split; [apply HE|]. rewrite Hp, sample_eqm.
    rewrite (rplain_at bb t i j k a n) by assumption. reflexivity.
Qed.
End Sym.

Section Asym.
Context (n bb t size : Z) (a b : list Z) (zeros : Z -> enc_rand) (rnd : Z -> pk_rand) (pk : PublicKeyLv0).
Context (Hn : 0 <= n) (Hb : 0 <= bb <= 62) (Ht : 0 <= t) (Ha : n <= zlen a) (Hbl : n <= zlen b) (Hs : 0 <= size)
  (Hpk : NewPublicKeyLv0WithParams n b size zeros = Ok pk).

Definition penc (p : f64) (r : pk_rand) : list Z := match PkEncryptF64 n pk p r with Ok c => c | Panic _ => [] end.

Lemma penc_ok p r : PkEncryptF64 n pk p r = Ok (penc p r) /\ lwe_ok n (penc p r) /\
  lwe_phase n b (penc p r) == F64ToTorus p + pk_total size zeros r.
Proof.
  destruct (pk_new n b size zeros Hn Hbl Hs) as (pk' & E & Hz & Hp). rewrite Hpk in E. injection E as <-.
  destruct (pk_enc n pk p r Hn) as (ct & E & Hok & Hph). { intros i Hi. apply Hp. lia. }
  unfold penc. rewrite E. split; [reflexivity|]. split; [exact Hok|]. rewrite Hph, Hz.
  rewrite (lwe_sum_eqm size (fun e => lwe_phase n b (znd [] pk e)) (fun e => F64ToTorus (er_noise (zeros e))) (pk_sel r)) by (intros; apply Hp; assumption).
  rewrite <- pk_total_eqm. apply eqm_refl'. ring.
Qed.

Lemma asym_keygen : exists ke, NewProxyReencryptionKeyAsymmetricWithParams n a pk bb t rnd = Ok {| KeyEncryptions := ke; Base := 2 ^ bb; T := t |} /\
  rfill n bb t a (fun idx p => penc p (rnd idx)) (2 ^ bb * t * n) ke.
Proof.
  unfold NewProxyReencryptionKeyAsymmetricWithParams. apply rkeygen_ok; try assumption.
  intros idx p. apply penc_ok.
Qed.

Lemma asym_enc ke E : 1 <= bb -> bb * t <= 31 -> bin_key n a -> (forall i, Z.abs (pk_total size zeros (rnd i)) <= E) ->
  rfill n bb t a (fun idx p => penc p (rnd idx)) (2 ^ bb * t * n) ke -> ksk_shape n n bb t ke /\ ksk_enc n n bb t E b a ke.
Proof.
  intros H1 Hbt Hbin HE Hf. split.
  - eapply rfill_shape; [exact Hn|exact Hf|]. intros idx p. apply penc_ok.
  - intros i j k Hi Hj Hk. rewrite (rfill_at n bb t a _ Hb ke i j k Hf Hi Hj Hk).
    destruct (penc_ok (rplain k (zn a i) ((j + 1) * bb)) (rnd (kidx bb t i j k))) as (_ & _ & Hp).
    exists (pk_total size zeros (rnd (kidx bb t i j k))). split; [apply HE|]. rewrite Hp.
    rewrite (rplain_at bb t i j k a n) by assumption. reflexivity.
Qed.
End Asym.

Lemma abs_bound_nonneg x E : Z.abs x <= E -> 0 <= E.
Proof. lia. Qed.

Lemma q_symmetric n bb t a b rnd E : 0 <= n -> bin_key n a -> zlen b = n -> 1 <= bb -> 1 <= t -> bb * t <= 31 ->
  (forall i, Z.abs (sample (er_noise (rnd i))) <= E) ->
  exists rk, NewProxyReencryptionKeySymmetricWithParams n a b bb t rnd = Ok rk /\
    forall ct, lwe_ok n ct -> exists ct', ReencryptTLWELv0 n ct rk = Ok ct' /\ lwe_ok n ct' /\
      close (reenc_error n bb t a E) (lwe_phase n b ct') (lwe_phase n a ct).
Proof.
  intros Hn Ha Hbl Hb Ht Hbt HE. pose proof (bbt_le bb t Hb Ht Hbt) as Hb31.
  destruct (sym_keygen n bb t a b rnd Hn ltac:(lia) ltac:(lia) ltac:(destruct Ha; lia) ltac:(lia)) as (ke & Ek & Hf).
  exists {| KeyEncryptions := ke; Base := 2 ^ bb; T := t |}. split; [exact Ek|]. intros ct Hct.
  destruct (sym_enc n bb t a b rnd Hn ltac:(lia) ltac:(lia) ke E Hb Hbt Ha HE Hf) as [Hsh Hen].
  apply reenc_core; try assumption. exact (abs_bound_nonneg _ _ (HE 0)).
Qed.

Lemma q_asymmetric n bb t size a b zeros rnd pk E : 0 <= n -> bin_key n a -> zlen b = n -> 1 <= bb -> 1 <= t -> bb * t <= 31 -> 0 <= size ->
  NewPublicKeyLv0WithParams n b size zeros = Ok pk ->
  (forall i, Z.abs (pk_total size zeros (rnd i)) <= E) ->
  exists rk, NewProxyReencryptionKeyAsymmetricWithParams n a pk bb t rnd = Ok rk /\
    forall ct, lwe_ok n ct -> exists ct', ReencryptTLWELv0 n ct rk = Ok ct' /\ lwe_ok n ct' /\
      close (reenc_error n bb t a E) (lwe_phase n b ct') (lwe_phase n a ct).
Proof.
  intros Hn Ha Hbl Hb Ht Hbt Hs Hpk HE. pose proof (bbt_le bb t Hb Ht Hbt) as Hb31.
  destruct (asym_keygen n bb t size a b zeros rnd pk Hn ltac:(lia) ltac:(lia) ltac:(destruct Ha; lia) ltac:(lia) Hs Hpk) as (ke & Ek & Hf).
  exists {| KeyEncryptions := ke; Base := 2 ^ bb; T := t |}. split; [exact Ek|]. intros ct Hct.
  destruct (asym_enc n bb t size a b zeros rnd pk Hn ltac:(lia) ltac:(lia) Hs Hpk ke E Hb Hbt Ha HE Hf) as [Hsh Hen].
  apply reenc_core; try assumption. exact (abs_bound_nonneg _ _ (HE 0)).
Qed.

(** ** chains *)
Lemma hop_ok n D a b rk : 0 <= n -> hop n D a b rk -> zlen b = n /\
  forall ct, lwe_ok n ct -> exists ct', ReencryptTLWELv0 n ct rk = Ok ct' /\ lwe_ok n ct' /\
      close D (lwe_phase n b ct') (lwe_phase n a ct).
Proof.
  intros Hn H. destruct H as [a b bb t E rnd rk Ha Hb H1 H2 H3 HE HD Hk|a b bb t size E zeros rnd pk rk Ha Hb H1 H2 H3 Hs Hpk HE HD Hk].
  - split; [assumption|]. destruct (q_symmetric n bb t a b rnd E Hn Ha Hb H1 H2 H3 HE) as (rk' & Ek & H). rewrite Hk in Ek. injection Ek as <-.
    intros ct Hct. destruct (H ct Hct) as (ct' & E1 & E2 & E3). exists ct'. split; [exact E1|]. split; [exact E2|]. eapply close_weaken; eassumption.
  - split; [assumption|]. destruct (q_asymmetric n bb t size a b zeros rnd pk E Hn Ha Hb H1 H2 H3 Hs Hpk HE) as (rk' & Ek & H). rewrite Hk in Ek. injection Ek as <-.
    intros ct Hct. destruct (H ct Hct) as (ct' & E1 & E2 & E3). exists ct'. split; [exact E1|]. split; [exact E2|]. eapply close_weaken; eassumption.
Qed.

Lemma q_chain n D a rks c : 0 <= n -> chain n D a rks c -> forall ct, lwe_ok n ct ->
  exists ct', reencrypt_all n ct rks = Ok ct' /\ lwe_ok n ct' /\ close (zlen rks * D) (lwe_phase n c ct') (lwe_phase n a ct).
Proof.
  intros Hn H. induction H as [a|a b c rk rks Hh Hc IH]; intros ct Hct.
  - exists ct. split; [reflexivity|]. split; [exact Hct|]. apply close_refl. change (zlen (@nil ProxyReencryptionKey)) with 0. lia.
  - destruct (hop_ok n D a b rk Hn Hh) as [_ Hr]. destruct (Hr ct Hct) as (c1 & E1 & Ho & Hc1).
    destruct (IH c1 Ho) as (c2 & E2 & Ho2 & Hc2). exists c2. split; [cbn [reencrypt_all]; rewrite E1; exact E2|]. split; [exact Ho2|].
    rewrite zlen_cons. replace ((zlen rks + 1) * D) with (zlen rks * D + D) by ring. eapply close_trans; eassumption.
Qed.

Lemma chain_last n D a rks c : 0 <= n -> chain n D a rks c -> zlen a = n -> zlen c = n.
Proof.
  intros Hn H. induction H as [a|a b c rk rks Hh Hc IH]; intro Ha; [assumption|]. apply IH. apply (hop_ok n D a b rk Hn Hh).
Qed.

Lemma q_chain_bit n D a rks c ct b e : 0 <= n -> chain n D a rks c -> zlen a = n -> lwe_ok n ct ->
  lwe_phase n a ct == mu_bit b + e -> Z.abs e + zlen rks * D < 2 ^ 29 ->
  exists ct', reencrypt_all n ct rks = Ok ct' /\ DecryptBool n ct' c = Ok b.
Proof.
  intros Hn Hc Ha Hct Hph Hb. destruct (q_chain n D a rks c Hn Hc ct Hct) as (ct' & E & [Hl Hk] & (d & Hd & Hp)).
  exists ct'. split; [exact E|]. pose proof (chain_last n D a rks c Hn Hc Ha) as Hcl.
  rewrite DecryptBool_ok by lia. f_equal. apply (sign_of_phase b (e + d)).
  - rewrite Hp, Hph. apply eqm_refl'. ring.
  - change (2 ^ 29) with 536870912 in *. rewrite (centered_unique _ (e + d)) by (reflexivity || (unfold two31; lia)).
    unfold bool_noise_ok. change (2 ^ 29) with 536870912. destruct b; lia.
Qed.

(** ** exact noise *)
Lemma digit_kdig bb t a j : digit bb t a j = kdig bb t a j.
Proof. unfold digit, kdig, tadd, w32, kprec. reflexivity. Qed.

Lemma ksw_phase_noise n bb t ct ke a b noise : 0 <= n -> 1 <= bb -> 1 <= t -> bb * t <= 31 -> bin_key n a ->
  (forall i j k, 0 <= i < n -> 0 <= j < t -> 1 <= k < 2 ^ bb ->
     lwe_phase n b (znd [] ke (kidx bb t i j k)) == k * zn a i * 2 ^ (32 - (j + 1) * bb) + noise (kidx bb t i j k)) ->
  exists d, Z.abs d <= weight n a * 2 ^ (31 - bb * t) /\
    lwe_phase n b (ksw n n bb t (zn ct n) ct ke) == lwe_phase n a ct + d - used_noise n bb t ct noise.
Proof.
  intros Hn Hb Ht Hbt Ha Hk.
  assert (H2: close (weight n a * kprec bb t)
    (zsum n (fun i => zsum t (fun j => kdig bb t (zn ct i) j * zn a i * 2 ^ (32 - (j + 1) * bb))))
    (zsum n (fun i => zn ct i * zn a i))).
  { unfold weight. rewrite <- zsum_mul_r. apply zsum_close. intros i Hi.
    rewrite (zsum_ext t _ (fun j => zn a i * (kdig bb t (zn ct i) j * 2 ^ (32 - (j + 1) * bb)))) by (intros; ring).
    rewrite zsum_mul_l. replace (zn ct i * zn a i) with (zn a i * zn ct i) by ring.
    rewrite <- (Z.abs_eq (zn a i)) at 1 by (destruct (bin_cases n a i Ha Hi); lia).
    apply close_mul. apply kdig_recompose; lia. }
  destruct H2 as (d & Hd & H2). exists (- d). split; [unfold kprec in Hd; lia|].
  rewrite ksw_phase_exact by assumption. rewrite (lwe_phase_eqm n a ct).
  assert (E: zsum n (fun i => zsum t (fun j => let k := kdig bb t (zn ct i) j in if k =? 0 then 0 else lwe_phase n b (znd [] ke (kidx bb t i j k)))) ==
    zsum n (fun i => zsum t (fun j => kdig bb t (zn ct i) j * zn a i * 2 ^ (32 - (j + 1) * bb))) + used_noise n bb t ct noise).
  { unfold used_noise. rewrite <- zsum_add. apply zsum_eqm. intros i Hi. rewrite <- zsum_add. apply zsum_eqm. intros j Hj. cbv zeta.
    change (digit bb t (zn ct i) j) with (kdig bb t (zn ct i) j). destruct (Z.eqb_spec (kdig bb t (zn ct i) j) 0) as [E0|Hne].
    - rewrite E0. apply eqm_refl'. ring.
    - pose proof (kdig_range bb t (zn ct i) j ltac:(lia)) as Hr. rewrite Hk by lia. reflexivity. }
  rewrite E, H2. apply eqm_refl'. ring.
Qed.

Lemma q_run n a b rk bb t noise : 0 <= n -> rkey n a b rk bb t noise -> forall ct, lwe_ok n ct ->
  exists ct', ReencryptTLWELv0 n ct rk = Ok ct' /\ lwe_ok n ct' /\
    exists d, Z.abs d <= weight n a * 2 ^ (31 - bb * t) /\
      lwe_phase n b ct' == lwe_phase n a ct + d - used_noise n bb t ct noise.
Proof.
  intros Hn H. destruct H as [a b bb t rnd rk Ha Hb H1 H2 H3 Hk|a b bb t size zeros rnd pk rk Ha Hb H1 H2 H3 Hs Hpk Hk];
    pose proof (bbt_le bb t H1 H2 H3) as Hb31; intros ct [Hl Htk].
  - destruct (sym_keygen n bb t a b rnd Hn ltac:(lia) ltac:(lia) ltac:(destruct Ha; lia) ltac:(lia)) as (ke & Ek & Hf).
    rewrite Hk in Ek. injection Ek as ->.
    assert (Hsh: ksk_shape n n bb t ke) by (eapply rfill_shape; [exact Hn|exact Hf|]; intros idx p; apply lenc_ok; lia).
    eexists. split; [apply (Reencrypt_ok n bb t); try assumption; try reflexivity; lia|]. cbn [KeyEncryptions].
    split; [apply ksw_lwe_ok; assumption|].
    apply (ksw_phase_noise n bb t ct ke a b (fun i => sample (er_noise (rnd i)))); try assumption.
    intros i j k Hi Hj Hkk. rewrite (rfill_at n bb t a _ ltac:(lia) ke i j k Hf Hi Hj Hkk).
    destruct (lenc_ok n (rplain k (zn a i) ((j + 1) * bb)) b (rnd (kidx bb t i j k)) Hn ltac:(lia)) as (_ & _ & Hp).
    rewrite Hp, sample_eqm. rewrite (rplain_at bb t i j k a n) by assumption. reflexivity.
  - destruct (asym_keygen n bb t size a b zeros rnd pk Hn ltac:(lia) ltac:(lia) ltac:(destruct Ha; lia) ltac:(lia) Hs Hpk) as (ke & Ek & Hf).
    rewrite Hk in Ek. injection Ek as ->.
    assert (Hp: forall p r, PkEncryptF64 n pk p r = Ok (penc n pk p r) /\ lwe_ok n (penc n pk p r) /\ lwe_phase n b (penc n pk p r) == F64ToTorus p + pk_total size zeros r).
    { intros p r. apply (penc_ok n size b zeros rnd pk Hn ltac:(lia) Hs Hpk). }
    assert (Hsh: ksk_shape n n bb t ke) by (eapply rfill_shape; [exact Hn|exact Hf|]; intros idx p; apply Hp).
    eexists. split; [apply (Reencrypt_ok n bb t); try assumption; try reflexivity; lia|]. cbn [KeyEncryptions].
    split; [apply ksw_lwe_ok; assumption|].
    apply (ksw_phase_noise n bb t ct ke a b (fun i => pk_total size zeros (rnd i))); try assumption.
    intros i j k Hi Hj Hkk. rewrite (rfill_at n bb t a _ ltac:(lia) ke i j k Hf Hi Hj Hkk).
    destruct (Hp (rplain k (zn a i) ((j + 1) * bb)) (rnd (kidx bb t i j k))) as (_ & _ & Hq).
    rewrite Hq. rewrite (rplain_at bb t i j k a n) by assumption. reflexivity.
Qed.

Lemma rkey_len n a b rk bb t noise : rkey n a b rk bb t noise -> bin_key n a /\ zlen b = n /\ 1 <= bb /\ 1 <= t /\ bb * t <= 31.
Proof. intros []; auto. Qed.

Lemma q_run_bit n a b rk bb t noise ct v e : 0 <= n -> rkey n a b rk bb t noise -> lwe_ok n ct -> lwe_phase n a ct == mu_bit v + e ->
  Z.abs (e - used_noise n bb t ct noise) + weight n a * 2 ^ (31 - bb * t) < 2 ^ 29 ->
  exists ct', ReencryptTLWELv0 n ct rk = Ok ct' /\ DecryptBool n ct' b = Ok v.
Proof.
  intros Hn Hk Hct Hph HB. destruct (q_run n a b rk bb t noise Hn Hk ct Hct) as (ct' & E & [Hl Ht] & (d & Hd & Hp)).
  exists ct'. split; [exact E|]. destruct (rkey_len _ _ _ _ _ _ _ Hk) as (_ & Hb & _).
  rewrite DecryptBool_ok by lia. f_equal. set (u := used_noise n bb t ct noise) in *. apply (sign_of_phase v (e + d - u)).
  - rewrite Hp, Hph. apply eqm_refl'. ring.
  - change (2 ^ 29) with 536870912 in *. rewrite (centered_unique _ (e + d - u)) by (reflexivity || (unfold two31; lia)).
    unfold bool_noise_ok. change (2 ^ 29) with 536870912. destruct v; lia.
Qed.

(** a hop is such a key, with small entries *)
Lemma hop_rkey n D a b rk : hop n D a b rk -> exists bb t noise E, rkey n a b rk bb t noise /\ (forall i, Z.abs (noise i) <= E) /\ reenc_error n bb t a E <= D.
Proof.
  intros [a' b' bb t E rnd rk' Ha Hb H1 H2 H3 HE HD Hk|a' b' bb t size E zeros rnd pk rk' Ha Hb H1 H2 H3 Hs Hpk HE HD Hk].
  - exists bb, t, (fun i => sample (er_noise (rnd i))), E. split; [apply rkey_symmetric; assumption|]. auto.
  - exists bb, t, (fun i => pk_total size zeros (rnd i)), E. split; [eapply rkey_asymmetric; eassumption|]. auto.
Qed.

Lemma used_noise_le n bb t ct noise E : 0 <= n -> 0 <= t -> (forall i, Z.abs (noise i) <= E) -> Z.abs (used_noise n bb t ct noise) <= n * t * E.
Proof.
  intros Hn Ht HE. assert (E0: 0 <= E) by (pose proof (HE 0); lia). unfold used_noise.
  assert (G: forall m c (f : Z -> Z), 0 <= m -> (forall i, 0 <= i < m -> Z.abs (f i) <= c) -> Z.abs (zsum m f) <= m * c).
  { intros m c f Hm. revert m Hm. refine (natlike_ind _ _ _).
    - intros _. rewrite zsum_0 by lia. lia.
    - intros m Hm IH Hf. rewrite <- Z.add_1_r in *. rewrite zsum_S by lia. specialize (IH ltac:(intros; apply Hf; lia)). specialize (Hf m ltac:(lia)). lia. }
  replace (n * t * E) with (n * (t * E)) by ring. apply G; [exact Hn|]. intros i _. apply G; [exact Ht|]. intros j _. cbv zeta.
  destruct (_ =? 0); [lia|apply HE].
Qed.

(** ** limits *)
Lemma q_limits_sym n bb t a b rnd : 0 <= n -> bin_key n a -> zlen b = n -> 1 <= bb <= 62 -> 1 <= t ->
  exists rk, NewProxyReencryptionKeySymmetricWithParams n a b bb t rnd = Ok rk /\
    forall ct, lwe_ok n ct ->
      (bb * t <= 31 -> exists ct', ReencryptTLWELv0 n ct rk = Ok ct' /\ lwe_ok n ct') /\
      (32 <= bb * t -> ReencryptTLWELv0 n ct rk = Panic PShift).
Proof.
  intros Hn Ha Hbl Hb Ht.
  destruct (sym_keygen n bb t a b rnd Hn ltac:(lia) ltac:(lia) ltac:(destruct Ha; lia) ltac:(lia)) as (ke & Ek & Hf).
  eexists. split; [exact Ek|]. intros ct [Hl Hk]. split; intro Hbt.
  - pose proof (bbt_le bb t ltac:(lia) Ht Hbt). eexists. split; [apply (Reencrypt_ok n bb t); try assumption; try reflexivity; try lia|apply ksw_lwe_ok; assumption].
    cbn [KeyEncryptions]. eapply rfill_shape; [exact Hn|exact Hf|]. intros idx p. apply lenc_ok; lia.
  - apply (Reencrypt_panics n bb t); try assumption; reflexivity || lia.
Qed.

Lemma q_limits_asym n bb t size a b zeros rnd : 0 <= n -> bin_key n a -> zlen b = n -> 0 <= size -> 1 <= bb <= 62 -> 1 <= t ->
  exists pk rk, NewPublicKeyLv0WithParams n b size zeros = Ok pk /\ NewProxyReencryptionKeyAsymmetricWithParams n a pk bb t rnd = Ok rk /\
    forall ct, lwe_ok n ct ->
      (bb * t <= 31 -> exists ct', ReencryptTLWELv0 n ct rk = Ok ct' /\ lwe_ok n ct') /\
      (32 <= bb * t -> ReencryptTLWELv0 n ct rk = Panic PShift).
Proof.
  intros Hn Ha Hbl Hs Hb Ht. destruct (pk_new n b size zeros Hn ltac:(lia) Hs) as (pk & Epk & _ & _). exists pk.
  destruct (asym_keygen n bb t size a b zeros rnd pk Hn ltac:(lia) ltac:(lia) ltac:(destruct Ha; lia) ltac:(lia) Hs Epk) as (ke & Ek & Hf).
  eexists. split; [exact Epk|]. split; [exact Ek|]. intros ct [Hl Hk]. split; intro Hbt.
  - pose proof (bbt_le bb t ltac:(lia) Ht Hbt). eexists. split; [apply (Reencrypt_ok n bb t); try assumption; try reflexivity; try lia|apply ksw_lwe_ok; assumption].
    cbn [KeyEncryptions]. eapply rfill_shape; [exact Hn|exact Hf|]. intros idx p. apply (penc_ok n size b zeros rnd pk Hn ltac:(lia) Hs Epk).
  - apply (Reencrypt_panics n bb t); try assumption; reflexivity || lia.
Qed.

(** ** the default generators *)
Lemma q_shipped level a b zeros rnd srnd E Es : let pr := get_params level in let n := lv0_N pr in
  bin_key n a -> zlen b = n ->
  (forall i, Z.abs (pk_total (2 * n) zeros (rnd i)) <= E) -> (forall i, Z.abs (sample (er_noise (srnd i))) <= Es) ->
  exists pk rk rk', NewPublicKeyLv0 pr b zeros = Ok pk /\ NewProxyReencryptionKeyAsymmetric pr a pk rnd = Ok rk /\
    NewProxyReencryptionKeySymmetric pr a b srnd = Ok rk' /\
    forall ct, lwe_ok n ct ->
      (exists ct', ReencryptTLWELv0 n ct rk = Ok ct' /\ lwe_ok n ct' /\
        close (reenc_error n (g_BASEBIT pr) (g_IKS_T pr) a E) (lwe_phase n b ct') (lwe_phase n a ct)) /\
      (exists ct', ReencryptTLWELv0 n ct rk' = Ok ct' /\ lwe_ok n ct' /\
        close (reenc_error n (g_BASEBIT pr) (g_IKS_T pr) a Es) (lwe_phase n b ct') (lwe_phase n a ct)).
Proof.
  intros pr n Ha Hb HE HEs. pose proof (get_params_wf level) as W. cbv zeta in W. fold pr in W. fold n in W.
  destruct W as (W1 & _ & _ & _ & _ & _ & _ & _ & _ & _ & W2 & W3 & W4 & _).
  destruct (pk_new n b (2 * n) zeros ltac:(lia) ltac:(lia) ltac:(lia)) as (pk & Ep & _).
  destruct (q_asymmetric n (g_BASEBIT pr) (g_IKS_T pr) (2 * n) a b zeros rnd pk E) as (rk & Ek & Hr); try assumption; try lia.
  destruct (q_symmetric n (g_BASEBIT pr) (g_IKS_T pr) a b srnd Es) as (rk' & Ek' & Hr'); try assumption; try lia.
  exists pk, rk, rk'. split; [unfold NewPublicKeyLv0; fold n; rewrite (Z.mul_comm n 2); exact Ep|].
  split; [exact Ek|]. split; [exact Ek'|]. intros ct Hct. split; [apply Hr|apply Hr']; exact Hct.
Qed.

(** a sample that is a small multiple of 2^-32 *)
Lemma small_sample m : Z.abs m <= 8 -> Z.abs (sample (flit m (-32))) <= 8.
Proof.
  intro H. assert (G: In m [-8; -7; -6; -5; -4; -3; -2; -1; 0; 1; 2; 3; 4; 5; 6; 7; 8]) by (cbn [In]; lia).
  cbn [In] in G. repeat (destruct G as [<-|G]; [vm_compute; discriminate|]). destruct G.
Qed.

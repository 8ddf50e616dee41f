(** * Counting the tosses of re-encryption keys for several ciphertexts *)
From Coq Require Import Lia ZifyBool List Reals Lra.
From Verif Require Import GoBase GoFacts F64 Utils UtilsFacts Spec Params Tlwe TlweFacts ProxyReenc ReencSpec ReencProps LutSpec LutProps MaskCount MaskTail CoinSpec CoinProps BootCoinProps.
Import ListNotations.
Local Open Scope Z_scope.
Ltac Zify.zify_post_hook ::= idtac.
Notation rounding := CoinSpec.rounding.

Lemma last_bin n F a hs : bin_key n a -> Forall (hop_good n F) hs -> bin_key n (last_key a hs).
Proof. intros Ha Hg. revert a Ha. induction Hg as [|h hs G Gs IH]; intros a Ha; [exact Ha|]. cbn [last_key]. apply IH. apply G. Qed.

Section Many.
Context (n bb t F : Z) (Hn : 0 <= n) (Hb : 1 <= bb) (Ht : 1 <= t) (Hbt : bb * t <= 31) (HF : F < 2 ^ 31).
Context (a : list Z) (hs : list hop_to) (T Q : Z) (Ha : bin_key n a) (Hg : Forall (hop_good n F) hs) (HT : 0 < T) (HQ : 0 < Q) (HS : spread n t F hs <= Q).
Notation eps := (2 * exp (- (IZR T * IZR T / IZR Q)))%R.

Lemma relay_phase ct : lwe_ok n ct ->
  but_for (map (toss_count n bb t) hs) eps (fun ws => exists ct', relay n bb t a hs ws ct = Ok ct' /\ lwe_ok n ct' /\
    close (rounding n bb t a hs + T - 1) (lwe_phase n (last_key a hs) ct') (lwe_phase n a ct)).
Proof.
  intro Hct. exists (filter (fun ws => T <=? Z.abs (rtotal n bb t a hs ws ct)) (wordss (map (toss_count n bb t) hs))). split.
  - intros ws Hw Hi. assert (Hin := wordss_in _ _ Hw). assert (Hl := wordss_len _ _ Hin). rewrite map_length in Hl.
    assert (Hsm: Z.abs (rtotal n bb t a hs ws ct) < T).
    { apply Z.nle_gt. intro Hle. apply Hi. apply filter_In. split; [exact Hin|lia]. }
    destruct (relay_ok n bb t F Hn Hb Ht Hbt hs a ws ct Ha Hg Hct Hl) as (ct' & E & Hok & d & Hd & Hq). exists ct'. split; [exact E|]. split; [exact Hok|].
    exists (d - rtotal n bb t a hs ws ct). split; [lia|]. rewrite Hq. apply eqm_refl'. ring.
  - apply (tail_bound _ (fun ws => rtotal n bb t a hs ws ct) _ (spread n t F hs) Q T HT HQ HS); [|apply Z.pow_nonneg; lia].
    intro lam. apply relay_mgf; assumption.
Qed.

Lemma relay_many cts : Forall (lwe_ok n) cts ->
  but_for (map (toss_count n bb t) hs) (IZR (zlen cts) * eps) (fun ws => Forall (fun ct => exists ct', relay n bb t a hs ws ct = Ok ct' /\ lwe_ok n ct' /\
    close (rounding n bb t a hs + T - 1) (lwe_phase n (last_key a hs) ct') (lwe_phase n a ct)) cts).
Proof. intro H. apply (but_for_all _ _ (fun ct ws => exists ct', relay n bb t a hs ws ct = Ok ct' /\ lwe_ok n ct' /\
    close (rounding n bb t a hs + T - 1) (lwe_phase n (last_key a hs) ct') (lwe_phase n a ct))). intros ct Hi. rewrite Forall_forall in H. apply relay_phase, H, Hi. Qed.

Lemma relay_bits E (cts : list (list Z * bool)) : Forall (fun c => lwe_ok n (fst c) /\ close E (lwe_phase n a (fst c)) (mu_bit (snd c))) cts ->
  E + rounding n bb t a hs + T <= 2 ^ 29 ->
  but_for (map (toss_count n bb t) hs) (IZR (zlen cts) * eps) (fun ws => Forall (fun c => exists ct',
    relay n bb t a hs ws (fst c) = Ok ct' /\ DecryptBool n ct' (last_key a hs) = Ok (snd c)) cts).
Proof.
  intros HC HE. rewrite Forall_forall in HC. apply (but_for_all _ _ (fun c ws => exists ct', relay n bb t a hs ws (fst c) = Ok ct' /\ DecryptBool n ct' (last_key a hs) = Ok (snd c))).
  intros [ct v] Hi. cbn [fst snd]. destruct (HC _ Hi) as (Hok & e & He & Ee). cbn [fst snd] in *.
  apply (relay_tail n bb t F Hn Hb Ht Hbt HF a hs v ct e T Q); try assumption. lia.
Qed.

Lemma relay_messages E (cts : list (list Z * Z * Z)) : Forall (fun '(ct, M, x) => 1 <= M < 2 ^ 20 /\ 0 <= x < M /\ encodes n a ct M x E /\
    E + rounding n bb t a hs + T - 1 <= 2 ^ 31 / M / 2 - M) cts ->
  but_for (map (toss_count n bb t) hs) (IZR (zlen cts) * eps) (fun ws => Forall (fun '(ct, M, x) => exists ct',
    relay n bb t a hs ws ct = Ok ct' /\ DecryptLWEMessage n ct' M (last_key a hs) = Ok x) cts).
Proof.
  intros HC. rewrite Forall_forall in HC. eapply but_for_weaken; [|apply (but_for_all _ eps (fun c ws => let '(ct, M, x) := c in exists ct',
    relay n bb t a hs ws ct = Ok ct' /\ DecryptLWEMessage n ct' M (last_key a hs) = Ok x))].
  - intros ws _ H. exact H.
  - intros [[ct M] x] Hi. destruct (HC _ Hi) as (HM & Hx & [Hok (e & He & Ee)] & HE).
    eapply but_for_weaken; [|exact (relay_phase ct Hok)]. intros ws _ (ct' & Er & Hok' & d & Hd & Ed). exists ct'. split; [exact Er|].
    pose proof (last_bin n F a hs Ha Hg) as [Lk _]. destruct Hok' as [Hl _].
    apply (decodes n ct' M x _ (E + rounding n bb t a hs + T - 1)); try assumption; try lia.
    exists (e + d). split; [lia|]. rewrite Ed, Ee. apply eqm_refl'. ring.
Qed.
End Many.

Lemma sym_many_128 a hs (cts : list (list Z * bool)) : bin_key 700 a -> Forall (hop_good 700 (2 ^ 19)) hs ->
  Forall (fun h => exists b mask noise, h = Symmetric b mask noise) hs -> zlen hs <= 5 ->
  Forall (fun c => lwe_ok 700 (fst c) /\ close (2 ^ 19) (lwe_phase 700 a (fst c)) (mu_bit (snd c))) cts ->
  but_for (map (toss_count 700 2 9) hs) (IZR (zlen cts) / 1000000) (fun ws => Forall (fun c => exists ct',
    relay 700 2 9 a hs ws (fst c) = Ok ct' /\ DecryptBool 700 ct' (last_key a hs) = Ok (snd c)) cts).
Proof.
  intros Ha Hg Hs HL HC. rewrite Forall_forall in HC.
  apply (but_for_all _ (/ 1000000) (fun c ws => exists ct', relay 700 2 9 a hs ws (fst c) = Ok ct' /\ DecryptBool 700 ct' (last_key a hs) = Ok (snd c))).
  intros [ct v] Hi. cbn [fst snd]. destruct (HC _ Hi) as (Hok & e & He & Ee). exact (sym_128 a hs ct v e Ha Hg Hs HL Hok Ee He).
Qed.

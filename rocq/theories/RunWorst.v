(** * Circuits under worst-case noise, and states in which they start *)
From Coq Require Import Lia ZifyBool Setoid Morphisms.
From Verif Require Import GoBase GoFacts GoMem MemFacts F64 Utils UtilsFacts Params Key Tlwe TlweMem TlweFacts BasicFacts
  Poly PolyFacts NegFacts Laws Fft FftTabErr Trlwe TrlweFacts Trgsw TrgswFacts RotFacts KeySwitchFacts Lut Evaluator EvalFacts
  CloudKey CloudKeyFacts Gates LinFacts RunSpec HeapFacts BootFacts Circuit GateFacts NoiseFacts RunProps.
Local Open Scope Z_scope.
Ltac Zify.zify_post_hook ::= idtac.

(** ** ciphertexts that reach the bootstrap have n + 1 entries *)
Lemma for_range_pres {S} (P : S -> Prop) lo hi body (s s' : S) : P s ->
  (forall i s s', P s -> body i s = Ok s' -> P s') -> for_range lo hi body s = Ok s' -> P s'.
Proof.
  intros H0 Hs. unfold for_range. generalize (Z.to_nat (hi - lo)). intro q. revert lo s H0. induction q as [|q IH]; intros l s H0 H; cbn [loop] in H.
  - congruence.
  - destruct (body l s) as [t|] eqn:E; [|discriminate]. cbn [bind] in H. eapply IH in H; [exact H|]. eapply Hs; eassumption.
Qed.
Lemma set_len (l : list Z) i (r : res Z) l' : (v <- r ;; set l i v) = Ok l' -> zlen l' = zlen l.
Proof. destruct r as [v|]; [|discriminate]. cbn [bind]. intro H. apply set_inv in H as [_ ->]. apply zlen_upd. Qed.

Lemma NewTLWE_len n t : NewTLWE n = Ok t -> zlen t = n + 1.
Proof.
  unfold NewTLWE. intro H. destruct (Z_lt_dec (n + 1) 0) as [Hn|Hn].
  - unfold make in H. destruct (Z.ltb_spec (n + 1) 0); [discriminate|lia].
  - rewrite make_ok in H by lia. injection H as <-. rewrite zlen_repeat. lia.
Qed.
Lemma map2_len n f a b p : tlwe_map2 n f a b = Ok p -> zlen p = n + 1.
Proof.
  unfold tlwe_map2. destruct (NewTLWE n) as [t|] eqn:E; [|discriminate]. cbn [bind]. apply NewTLWE_len in E.
  intro H. eapply (for_range_pres (fun l => zlen l = n + 1)) in H; [exact H|exact E|].
  intros i s s' Hl X. apply set_len in X. lia.
Qed.
Lemma neg_len n a p : Neg n a = Ok p -> zlen p = n + 1.
Proof.
  unfold Neg. destruct (NewTLWE n) as [t|] eqn:E; [|discriminate]. cbn [bind]. apply NewTLWE_len in E.
  intro H. eapply (for_range_pres (fun l => zlen l = n + 1)) in H; [exact H|exact E|].
  intros i s s' Hl X. apply set_len in X. lia.
Qed.
Lemma prepare_len n f c a b p : prepare n f c a b = Ok p -> zlen p = n + 1.
Proof.
  unfold prepare. destruct (NewTLWE n) as [t|] eqn:E; [|discriminate]. cbn [bind]. apply NewTLWE_len in E.
  match goal with |- context [for_range 0 n ?f t] => destruct (for_range 0 n f t) as [u|] eqn:E2; [|discriminate] end. cbn [bind].
  eapply (for_range_pres (fun l => zlen l = n + 1)) in E2; [|exact E|intros i s s' Hl X; apply set_len in X; lia].
  intro H. apply set_len in H. lia.
Qed.
Lemma add_b_len n c t p : add_b n c t = Ok p -> zlen p = zlen t.
Proof. unfold add_b, SetB. destruct (tlwe_B n t) as [x|]; [|discriminate]. cbn [bind]. intro H. apply set_inv in H as [_ ->]. apply zlen_upd. Qed.

Lemma gate_lin_len g n a b p : gate_lin g n a b = Ok p -> zlen p = n + 1.
Proof.
  assert (B: forall c r, (forall t, r = Ok t -> zlen t = n + 1) -> (t <- r ;; add_b n c t) = Ok p -> zlen p = n + 1).
  { intros c r Hr H. destruct r as [t|]; [|discriminate]. cbn [bind] in H. apply add_b_len in H. rewrite H. apply Hr. reflexivity. }
  assert (C: forall r t x, (s <- r ;; Add n s x) = Ok t -> zlen t = n + 1).
  { intros r t x H. destruct r as [s|]; [|discriminate]. cbn [bind] in H. eapply map2_len, H. }
  destruct g; cbn [gate_lin]; intro H; try (eapply prepare_len, H).
  - eapply B; [|exact H]. intros t Ht. eapply map2_len, Ht.
  - eapply B; [|exact H]. intros t Ht. destruct (Add n a b) as [s|]; [|discriminate]. cbn [bind] in Ht. eapply neg_len, Ht.
  - eapply B; [|exact H]. intros t Ht. eapply C, Ht.
  - eapply B; [|exact H]. intros t Ht. eapply map2_len, Ht.
  - eapply B; [|exact H]. intros t Ht. eapply C, Ht.
  - eapply B; [|exact H]. intros t Ht. eapply map2_len, Ht.
Qed.

Lemma mux_boots_len O pr e k m x y z c : mux_boots O pr e k m x y z c -> zlen c = lv0_N pr + 1.
Proof.
  intros [H|(xy & m1 & nx & m2 & _ & _ & [H|(nz & m3 & _ & H)])]; eapply (gate_lin_len _ _ _ _ _ H).
Qed.
Lemma boots_len O pr e k p : forall w m c, boots O pr e k p w m c -> zlen c = lv0_N pr + 1.
Proof.
  induction p as [|i p IH]; intros w m c; [intros []|]. cbn [boots]. intros [H|(r & m' & _ & H)]; [|eapply IH, H].
  destruct i; cbn [boots_instr] in H; try contradiction.
  - destruct H as (a & b & _ & _ & H). eapply gate_lin_len, H.
  - destruct H as (a & b & d & _ & _ & _ & H). eapply mux_boots_len, H.
Qed.
Lemma adder_boots_len O pr e k m A B c : adder_boots O pr e k m A B c -> zlen c = lv0_N pr + 1.
Proof. intros (i & a & b & s & carry & m' & _ & _ & _ & _ & H). eapply boots_len, H. Qed.

Lemma Forall2_impl' {A B} (P Q : A -> B -> Prop) l l' : (forall a b, P a b -> Q a b) -> Forall2 P l l' -> Forall2 Q l l'.
Proof. intros H F. induction F; constructor; auto. Qed.

(** ** worst case *)
Section Worst.
Context (mc : machine) (O : fops) (pr : pset) (sk : SecretKey) (rk : Z -> enc_rand) (rb : Z -> Z -> trlwe_rand) (ck : CloudKey O)
  (Hcis : mc_ok mc) (S : setup (f64_arith mc) O pr sk rk rb ck) (Bb Bk d d' : Z)
  (Hfft : fft_error_within pr d d') (Hnoise : key_noise_within pr rk rb Bb Bk) (HBb : 0 <= Bb) (HBk : 0 <= Bk) (Hd' : 0 <= d').
Notation n := (lv0_N pr).
Notation s0 := (KeyLv0 sk).
Notation M := (mem (FP O)).
Notation T := (worst_noise pr sk Bb Bk d d').

Lemma p_worst_tv ct : zlen ct = n + 1 -> boot_noise O pr sk ck (BlindRotateTestvec ck) ct T.
Proof.
  intro Hl.
  assert (Ht: BlindRotateTestvec ck = ctv (g_N pr) /\ ct_ok (g_N pr) (ctv (g_N pr))).
  { pose proof S as S'. open_setup S'. destruct (cloud_facts L pr W HBG _ _ _ _ Hsk Hck) as (_ & _ & Ht & _).
    split; [exact Ht|]. apply ctv_ok. pose proof (law_N L). lia. }
  destruct Ht as [Ht [[A1 A2] [B1 B2]]]. rewrite Ht.
  apply (p_worst mc O pr sk rk rb ck Bb Bk d d' (ctv (g_N pr)) ct Hcis S Hfft Hnoise HBb HBk Hd'); assumption.
Qed.

Lemma p_circuit_worst p e (m : M) k w v v' E : reachable O pr e m -> key_at O m e k ck -> wires O pr e sk m w v E ->
  1 <= E -> T <= E -> 3 * E + round_err pr sk < 2 ^ 29 -> plain p v = Ok v' ->
  exists w' m', exec O pr e k p w m = Ok (w ++ w', m') /\
    Forall2 (fun x b => DecryptBool n (tm m' x) s0 = Ok b) (w ++ w') v' /\
    user_kept e m m' /\ reachable O pr e m' /\ key_at O m' e k ck /\ wires O pr e sk m' (w ++ w') v' E.
Proof.
  intros Hr Hk Hw HE HT Hm Hp.
  destruct (p_circuit _ O pr sk rk rb ck S p e m k w v v' E Hr Hk Hw HE Hm) as (w' & m' & A & B & C & D & F & G); [|exact Hp|].
  - intros c Hc. apply boots_len in Hc. destruct (p_worst_tv c Hc) as (eta & ek & X & Y & Z). exists eta, ek.
    split; [exact X|]. split; [exact Y|]. lia.
  - exists w', m'. auto 10.
Qed.

Lemma p_adder_worst e k (m : M) A B va vb E : reachable O pr e m -> key_at O m e k ck ->
  zlen A = zlen B -> wires O pr e sk m A va E -> wires O pr e sk m B vb E ->
  1 <= E -> T <= E -> 3 * E + round_err pr sk < 2 ^ 29 ->
  exists sum carry m' vs vc, Adder O pr e k m A B = Ok (sum, carry, m') /\
    Forall2 (fun x b => DecryptBool n (tm m' x) s0 = Ok b) (sum ++ [carry]) (vs ++ [vc]) /\
    zlen vs = zlen va /\ le_value (vs ++ [vc]) = le_value va + le_value vb /\ user_kept e m m' /\ reachable O pr e m' /\
    wires O pr e sk m' (sum ++ [carry]) (vs ++ [vc]) E.
Proof.
  intros Hr Hk Hl WA WB HE HT Hm.
  destruct (p_adder _ O pr sk rk rb ck S e k m A B va vb E Hr Hk Hl WA WB HE Hm) as (sum & carry & m' & vs & vc & H1 & H2 & H3 & H4 & H5 & H6 & H7).
  - intros c Hc. apply adder_boots_len in Hc. destruct (p_worst_tv c Hc) as (eta & ek & X & Y & Z). exists eta, ek.
    split; [exact X|]. split; [exact Y|]. lia.
  - exists sum, carry, m', vs, vc. auto 10.
Qed.
End Worst.

(** ** a start: a new evaluator, the key's test vector, and inputs *)
Section Start.
Context (R : arith) (O : fops) (pr : pset) (sk : SecretKey) (rk : Z -> enc_rand) (rb : Z -> Z -> trlwe_rand) (ck : CloudKey O)
  (S : setup R O pr sk rk rb ck).
Notation n := (lv0_N pr).
Notation s0 := (KeyLv0 sk).
Notation M := (mem (FP O)).

Lemma empty_ok : mem_ok (empty_mem (f_nil O)).
Proof. unfold mem_ok, empty_mem. cbn. lia. Qed.

Lemma Forall2_in_l {A B} (P : A -> B -> Prop) u v : Forall2 P u v -> forall x, List.In x u -> exists y, P x y.
Proof. induction 1 as [|a b u v H _ IH]; intros x []; [subst; eauto|auto]. Qed.

Lemma p_start (bufs : list (list Z)) :
  exists e (m : M) k w, reachable O pr e m /\ key_at O m e k ck /\ Forall2 (fun x v => user m e x /\ tm m x = v) w bufs /\ List.NoDup w.
Proof.
  open_setup S. destruct (NewEvaluator_ok L pr W (empty_mem (f_nil O)) empty_ok) as (e & m0 & E0 & _).
  assert (R0: reachable O pr e m0) by (eapply r_new with (pr0 := pr); [apply empty_ok|unfold serves; lia|exact E0]).
  destruct (fresh_ok L pr W HBG e m0 (tA (BlindRotateTestvec ck)) R0) as (m1 & _ & V1 & R1 & U1 & K1 & T1).
  destruct (fresh_ok L pr W HBG e m1 (tB (BlindRotateTestvec ck)) R1) as (m2 & _ & V2 & R2 & U2 & K2 & T2).
  assert (G: exists m w, reachable O pr e m /\ user_kept e m2 m /\ Forall2 (fun x v => user m e x /\ tm m x = v) w bufs /\ List.NoDup w).
  { induction bufs as [|v bs IH]; [exists m2, []; split; [exact R2|split; [apply keeps_refl|split; constructor]]|].
    destruct IH as (m & w & Rm & Km & F & D). destruct (fresh_ok L pr W HBG e m v Rm) as (m3 & _ & V3 & R3 & U3 & K3 & T3).
    exists m3, (tnext m :: w). split; [exact R3|]. split; [eapply keeps_trans; eassumption|].
    split; [|constructor; [|exact D]; intro X; destruct (Forall2_in_l _ _ _ F _ X) as (u & [[Hu _] _]); lia].
    constructor; [split; assumption|]. revert F. apply Forall2_impl'. intros x u [Hx Hv]. destruct (K3 x Hx) as [Y1 Y2].
    split; [exact Y1|congruence]. }
  destruct G as (m & w & Rm & Km & F & D).
  exists e, m, {| gk_offset := DecompositionOffset ck; gk_testvec := {| rA := tnext m0; rB := tnext m1 |};
     gk_ksk := KeySwitchingKey ck; gk_bsk := BootstrappingKey ck |}, w.
  split; [exact Rm|]. split; [|split; [exact F|exact D]]. eapply keeps_key; [exact Km|]. destruct (K2 _ U1) as [U1' V1'].
  unfold key_at. cbn [gk_offset gk_testvec gk_ksk gk_bsk rA rB]. rewrite V1', V1, V2. auto 10.
Qed.

Lemma p_start_bits (bits : list bool) (r : Z -> enc_rand) E :
  (forall i, Z.abs (centered (F64ToTorus (er_noise (r i)))) <= E) ->
  exists e (m : M) k w, reachable O pr e m /\ key_at O m e k ck /\ wires O pr e sk m w bits E.
Proof.
  intro HE. assert (Hs: 0 <= n /\ zlen s0 = n).
  { pose proof S as S'. open_setup S'. split; [apply (pw_n _ _ W)|apply Hsk]. }
  destruct Hs as [Hn Hs].
  assert (G: exists bufs, Forall2 (fun v b => encrypts n s0 v b E) bufs bits).
  { induction bits as [|b bs [bufs IH]]; [exists []; constructor|].
    destruct (EncryptBool_total n b s0 (r 0) Hn ltac:(lia)) as (ct & _ & Hok & Hp).
    exists (ct :: bufs). constructor; [|exact IH]. split; [exact Hok|].
    exists (centered (F64ToTorus (er_noise (r 0)))). split; [apply HE|]. rewrite Hp, centered_eq. reflexivity. }
  destruct G as [bufs G]. destruct (p_start bufs) as (e & m & k & w & Hr & Hk & F & _).
  exists e, m, k, w. split; [exact Hr|]. split; [exact Hk|]. unfold wires. revert bits G. induction F as [|x v w bufs [Hu Hv] F IH]; intros bits G.
  - inversion G. constructor.
  - inversion G; subst. constructor; [split; [exact Hu|]|apply IH; assumption]. assumption.
Qed.
End Start.

(** for every valid parameter set, key and randomness there is a setup *)
Lemma setup_exists R pr sk rk rb : good_params pr -> 4 <= g_NBIT pr -> key_ok pr sk ->
  exists O ck, setup R O pr sk rk rb ck.
Proof.
  intros [W HBG] H4 Hk. pose proof (pw_N _ _ W) as HN.
  destruct (FftProps.evaluator_ok R (g_NBIT pr) H4) as (tw & twi & _ & E). rewrite <- HN in E.
  destruct (laws_of _ _ _ E) as [L _]. destruct (key_ok_N pr W sk Hk) as [[H0 _] [H1 _]].
  eexists _, _. split; [split; assumption|]. split; [exact E|]. split; [exact Hk|].
  exact (NewCloudKey_ok L pr W sk rb H0 H1 rk HBG).
Qed.

(** * Programs of several parties compute what they mean *)
From Coq Require Import Lia ZifyBool Setoid Morphisms List.
From Verif Require Import GoBase GoFacts GoMem F64 Utils Spec Params Key Tlwe TlweMem Poly Fft FftTabErr Trlwe Trgsw Lut Evaluator CloudKey Gates RunSpec Circuit LutSpec ProxyReenc ReencSpec Party
  MemFacts TlweFacts PolyFacts NegFacts Laws TrlweFacts MsgFacts TrgswFacts RotFacts EvalFacts HeapFacts CloudKeyFacts BootFacts GateFacts NoiseFacts RunProps RunWorst BasicFacts ReencFacts ReencProps LutProps NibbleProps LutProgProps.
Import ListNotations.
Local Open Scope Z_scope.
Ltac Zify.zify_post_hook ::= idtac.

Lemma get_range {A} (u : list A) i x : get u i = Ok x -> 0 <= i < zlen u.
Proof.
  unfold get, zlen. destruct (Z.ltb_spec i 0) as [?|Hi]; [discriminate|].
  destruct (nth_error u (Z.to_nat i)) eqn:E; [|discriminate]. intros _.
  assert (X: (Z.to_nat i < length u)%nat) by (apply nth_error_Some; congruence). lia.
Qed.
Lemma get_some {A} (u : list A) i : 0 <= i < zlen u -> exists x, get u i = Ok x.
Proof.
  intro H. unfold get, zlen in *. destruct (Z.ltb_spec i 0) as [?|Hi]; [lia|].
  destruct (nth_error u (Z.to_nat i)) eqn:E; [eauto|]. apply nth_error_None in E. lia.
Qed.
Lemma get_In {A} (u : list A) i x : get u i = Ok x -> In x u.
Proof.
  unfold get. destruct (i <? 0); [discriminate|]. destruct (nth_error u (Z.to_nat i)) eqn:E; [|discriminate].
  intro H. injection H as <-. eapply nth_error_In. exact E.
Qed.

Section Parties.
Context (R : arith) (O : fops) (pr : pset) (e : evaluator) (ps : list (party O)) (links : list link).
Notation M := (mem (FP O)).
Notation n := (lv0_N pr).
Notation holds := (holds O pr e ps).
Notation all_hold := (all_hold O pr e ps).
Notation parties := (parties O pr e ps R).

Lemma party_at (m : M) p q : parties m -> get ps p = Ok q ->
  setup R O pr (p_sk q) (p_rk q) (p_rb q) (p_ck q) /\ key_at O m e (p_key q) (p_ck q) /\
    0 <= p_size q /\ NewPublicKeyLv0WithParams n (KeyLv0 (p_sk q)) (p_size q) (p_zeros q) = Ok (p_pub q).
Proof. intros H G. apply get_In in G. unfold Party.parties in H. rewrite Forall_forall in H. apply H. exact G. Qed.

Lemma link_at h k : links_ok O pr ps links -> get links h = Ok k ->
  exists a b, get ps (h_from k) = Ok a /\ get ps (h_to k) = Ok b /\ rkey n (KeyLv0 (p_sk a)) (KeyLv0 (p_sk b)) (h_key k) (h_basebit k) (h_t k) (h_noise k).
Proof. intros H G. apply get_In in G. unfold links_ok in H. rewrite Forall_forall in H. apply H. exact G. Qed.

Lemma party_n (m : M) p q : parties m -> get ps p = Ok q -> 0 <= n /\ zlen (KeyLv0 (p_sk q)) = n.
Proof.
  intros H G. destruct (party_at m p q H G) as (S & _). open_setup S. split; [apply (pw_n _ _ W)|apply Hsk].
Qed.

Lemma parties_kept (m m' : M) : user_kept e m m' -> parties m -> parties m'.
Proof.
  intros K H. unfold Party.parties in *. eapply Forall_impl; [|exact H]. intros q (S & A & B). split; [exact S|]. split; [|exact B].
  destruct A as (A1 & A2 & A3 & A4 & A5 & A6 & A7). destruct (K _ A6) as [B6 C6]. destruct (K _ A7) as [B7 C7].
  unfold key_at. rewrite C6, C7. auto 10.
Qed.

Lemma holds_kept (m m' : M) r v E : user_kept e m m' -> holds m r v E -> holds m' r v E.
Proof. intros K (U & q & G & X). destruct (K _ U) as [U' V]. split; [exact U'|]. exists q. split; [exact G|]. rewrite V. exact X. Qed.

Lemma hold_at (m : M) w v es x b E : all_hold m w v es -> get v x = Ok b -> get es x = Ok E -> exists r, get w x = Ok r /\ holds m r b E.
Proof.
  intros (L1 & L2 & H) Gb GE. destruct (get_some w x) as [r Gr]. { apply get_range in Gb. lia. } exists r. split; [exact Gr|]. eapply H; eassumption.
Qed.

Lemma get_snoc {A} (u : list A) a i x : get (u ++ [a]) i = Ok x -> (0 <= i < zlen u /\ get u i = Ok x) \/ (i = zlen u /\ x = a).
Proof.
  intro G. pose proof (get_range _ _ _ G) as H. rewrite zlen_snoc in H.
  destruct (Z.eq_dec i (zlen u)) as [Ei|Hi].
  - right. split; [exact Ei|]. rewrite Ei, (get_app2 pr) in G. congruence.
  - left. split; [lia|]. rewrite (get_app1 pr) in G by lia. exact G.
Qed.

Lemma hold_snoc (m m' : M) w v es r b E : all_hold m w v es -> user_kept e m m' -> holds m' r b E -> all_hold m' (w ++ [r]) (v ++ [b]) (es ++ [E]).
Proof.
  intros (L1 & L2 & H) K Hr. split; [rewrite !zlen_snoc; lia|]. split; [rewrite !zlen_snoc; lia|].
  intros x r' b' E' Gr Gb GE. apply get_snoc in Gr. apply get_snoc in Gb. apply get_snoc in GE.
  destruct Gr as [[R1 Gr]|[R1 ->]], Gb as [[R2 Gb]|[R2 ->]], GE as [[R3 GE]|[R3 ->]]; try lia; [|exact Hr].
  eapply holds_kept; [exact K|]. eapply H; eassumption.
Qed.

(** a new ciphertext computed on values *)
Lemma fresh_run (m : M) p q (r : res (list Z)) c b E : reachable O pr e m -> parties m -> get ps p = Ok q ->
  r = Ok c -> encrypts n (KeyLv0 (p_sk q)) c b E ->
  exists x m', fresh O m r = Ok (x, m') /\ holds m' x (p, b) E /\ user_kept e m m' /\ reachable O pr e m'.
Proof.
  intros Hr Hp G -> HE. destruct (party_at m p q Hp G) as (S & _). open_setup S.
  destruct (fresh_ok L pr W HBG e m c Hr) as (m1 & E1 & V1 & R1 & U1 & K1 & _). exists (tnext m), m1.
  split; [exact E1|]. split; [|split; [exact K1|exact R1]]. split; [exact U1|]. exists q. split; [exact G|]. cbn [snd]. rewrite V1. exact HE.
Qed.

Section Step.
Context (T Rd : Z -> Z) (HRd : forall p q, get ps p = Ok q -> round_err pr (p_sk q) <= Rd p).

Lemma allowed_inv p E F : allowed T Rd p E = Ok F -> E + Rd p < 2 ^ 29 /\ F = T p.
Proof. unfold allowed. destruct (Z.ltb_spec (E + Rd p) (2 ^ 29)); [|discriminate]. intro X. injection X as <-. auto. Qed.

Lemma bit_of_inv p v x b : bit_of p v x = Ok b -> get v x = Ok (p, b).
Proof.
  unfold bit_of. intro H. apply bind_inv in H. destruct H as ([q c] & G & H). destruct (Z.eqb_spec q p); [|discriminate]. congruence.
Qed.

Lemma holds_enc (m : M) r p b E q : holds m r (p, b) E -> get ps p = Ok q -> encrypts n (KeyLv0 (p_sk q)) (tm m r) b E.
Proof. intros (_ & q' & G & H) G'. cbn [fst snd] in *. rewrite G in G'. injection G' as <-. exact H. Qed.

Lemma step i (m : M) w v es b E : reachable O pr e m -> parties m -> links_ok O pr ps links -> all_hold m w v es ->
  pplain1 ps links i v = Ok b -> pnoise1 ps links T Rd i es = Ok E ->
  (forall p q c, get ps p = Ok q -> pboots1 O pr e ps i w m p c -> boot_noise O pr (p_sk q) (p_ck q) (BlindRotateTestvec (p_ck q)) c (T p)) ->
  (forall h k a c, get links h = Ok k -> get ps (h_from k) = Ok a -> preenc1 O i w m h c -> reenc_noise O pr a k c (h_err k)) ->
  exists r m', pexec1 O pr e ps links i w m = Ok (r, m') /\ holds m' r b E /\ user_kept e m m' /\ reachable O pr e m'.
Proof.
  intros Hr Hp Hl Hw Hv Hn HT HH. destruct i as [p b0 r0|p b0 r0|h x|p g x y|p x y z|x|x|p b0];
    cbn [pplain1 pnoise1 pexec1 pboots1 preenc1] in *.
  - apply bind_inv in Hv. destruct Hv as (q & G & Hv). injection Hv as <-. injection Hn as <-. rewrite G. cbn [bind].
    destruct (party_n m p q Hp G) as [H0 Hz].
    destruct (EncryptBool_total n b0 (KeyLv0 (p_sk q)) r0 H0 ltac:(lia)) as (ct & Ec & Hok & Hph).
    apply (fresh_run m p q _ ct b0); try assumption. split; [exact Hok|].
    exists (sample (er_noise r0)). split; [lia|]. rewrite Hph, sample_eqm. reflexivity.
  - apply bind_inv in Hv. destruct Hv as (q & G & Hv). injection Hv as <-. rewrite G in *. cbn [bind] in *. injection Hn as <-.
    destruct (party_n m p q Hp G) as [H0 Hz]. destruct (party_at m p q Hp G) as (_ & _ & Hs & Hpk).
    destruct (penc_ok n (p_size q) (KeyLv0 (p_sk q)) (p_zeros q) (fun _ => r0) (p_pub q) H0 ltac:(lia) Hs Hpk (if b0 then f_eighth else f_meighth) r0) as (Ec & Hok & Hph).
    eapply (fresh_run m p q _ _ b0); [assumption..|exact Ec|]. split; [exact Hok|].
    exists (pk_total (p_size q) (p_zeros q) r0). split; [lia|]. rewrite Hph.
    replace (F64ToTorus (if b0 then f_eighth else f_meighth)) with (w32 (mu_bit b0)) by (destruct b0; vm_compute; reflexivity). rewrite eqm_w32. reflexivity.
  - apply bind_inv in Hv. destruct Hv as (k & Gk & Hv). rewrite Gk in *. cbn [bind] in *.
    apply bind_inv in Hv. destruct Hv as (b1 & Hb & Hv). injection Hv as <-. apply bit_of_inv in Hb.
    apply bind_inv in Hn. destruct Hn as (E1 & GE & Hn). injection Hn as <-.
    destruct (hold_at m w v es x _ _ Hw Hb GE) as (a & Ga & Ha). rewrite Ga. cbn [bind].
    destruct (link_at h k Hl Gk) as (qa & qb & Fa & Fb & Hh). destruct (party_n m _ qa Hp Fa) as [H0 _].
    pose proof (holds_enc m a _ _ _ qa Ha Fa) as [Hok (e1 & He1 & Hcl)]. destruct (q_run _ _ _ _ _ _ _ H0 Hh _ Hok) as (ct & Ec & Hok' & d & Hd & Hph).
    specialize (HH h k qa (tm m a) Gk Fa (conj eq_refl (ex_intro _ a (conj Ga eq_refl)))). unfold reenc_noise in HH.
    apply (fresh_run m (h_to k) qb _ ct b1); try assumption. split; [exact Hok'|].
    set (u := used_noise n (h_basebit k) (h_t k) (tm m a) (h_noise k)) in *. exists (e1 + d - u). split; [lia|].
    rewrite Hph, Hcl. apply eqm_refl'. ring.
  - apply bind_inv in Hv. destruct Hv as (va & Ha & Hv). apply bind_inv in Hv. destruct Hv as (vb & Hb & Hv). injection Hv as <-.
    apply bit_of_inv in Ha, Hb. apply bind_inv in Hn. destruct Hn as (Ea & GEa & Hn). apply bind_inv in Hn. destruct Hn as (Eb & GEb & Hn).
    apply allowed_inv in Hn. destruct Hn as [Hm ->].
    destruct (hold_at m w v es x _ _ Hw Ha GEa) as (a & Ga & Xa). destruct (hold_at m w v es y _ _ Hw Hb GEb) as (c & Gc & Xc).
    destruct Xa as (Ua & q & Gq & Na). destruct Xc as (Uc & q' & Gq' & Nc). cbn [fst snd] in *. rewrite Gq in Gq'. injection Gq' as <-.
    rewrite Gq, Ga, Gc. cbn [bind]. destruct (party_at m p q Hp Gq) as (S & Hk & _). pose proof (HRd p q Gq) as HR.
    destruct (p_gate R O pr (p_sk q) (p_rk q) (p_rb q) (p_ck q) S g e m (p_key q) a c va vb Ea Eb (T p) Hr Hk Na Nc ltac:(lia)) as (r & m' & E1 & N1 & _ & U1 & _ & K1 & R1 & _).
    { intros pp Hpp. apply (HT p q pp Gq). split; [reflexivity|]. exists a, c. auto. }
    exists r, m'. split; [exact E1|]. split; [|split; [exact K1|exact R1]]. split; [exact U1|]. exists q. split; [exact Gq|exact N1].
  - apply bind_inv in Hv. destruct Hv as (va & Ha & Hv). apply bind_inv in Hv. destruct Hv as (vb & Hb & Hv).
    apply bind_inv in Hv. destruct Hv as (vc & Hc & Hv). injection Hv as <-. apply bit_of_inv in Ha, Hb, Hc.
    apply bind_inv in Hn. destruct Hn as (Ea & GEa & Hn). apply bind_inv in Hn. destruct Hn as (Eb & GEb & Hn).
    apply bind_inv in Hn. destruct Hn as (Ec & GEc & Hn). apply bind_inv in Hn. destruct Hn as (F1 & M1 & Hn). apply bind_inv in Hn. destruct Hn as (F2 & M2 & M3).
    apply allowed_inv in M1, M2, M3. destruct M1 as [M1 _], M2 as [M2 _], M3 as [M3 ->].
    destruct (hold_at m w v es x _ _ Hw Ha GEa) as (a & Ga & Xa). destruct (hold_at m w v es y _ _ Hw Hb GEb) as (c & Gc & Xc).
    destruct (hold_at m w v es z _ _ Hw Hc GEc) as (d & Gd & Xd). pose proof Xd as (Ud & _).
    destruct Xa as (Ua & q & Gq & Na). cbn [fst snd] in *. pose proof (holds_enc _ _ _ _ _ _ Xc Gq) as Nc. pose proof (holds_enc _ _ _ _ _ _ Xd Gq) as Nd. clear Xc Xd. rename Nc into Xc. rename Nd into Xd.
    rewrite Gq, Ga, Gc, Gd. cbn [bind]. destruct (party_at m p q Hp Gq) as (S & Hk & _). pose proof (HRd p q Gq) as HR.
    destruct (p_mux R O pr (p_sk q) (p_rk q) (p_rb q) (p_ck q) S e m (p_key q) a c d va vb vc Ea Eb Ec (T p) Hr Hk Ua Ud Na Xc Xd ltac:(lia) ltac:(lia) ltac:(lia)) as (r & m' & E1 & N1 & _ & U1 & _ & K1 & R1 & _).
    { intros pp Hpp. apply (HT p q pp Gq). split; [reflexivity|]. exists q, a, c, d. auto 10. }
    exists r, m'. split; [exact E1|]. split; [|split; [exact K1|exact R1]]. split; [exact U1|]. exists q. split; [exact Gq|exact N1].
  - apply bind_inv in Hv. destruct Hv as ([p b1] & Gb & Hv). injection Hv as <-.
    destruct (hold_at m w v es x _ _ Hw Gb Hn) as (a & Ga & (Ua & q & Gq & Na)). rewrite Ga. cbn [bind fst snd] in *.
    destruct (party_at m p q Hp Gq) as (S & Hk & _). open_setup S.
    destruct (not_run L pr W HBG (p_sk q) e m a b1 E Hr Na) as (r & m' & E1 & N1 & U1 & _ & K1 & R1).
    exists r, m'. split; [exact E1|]. split; [|split; [exact K1|exact R1]]. split; [exact U1|]. exists q. split; [exact Gq|exact N1].
  - destruct b as [p b1]. destruct (hold_at m w v es x _ _ Hw Hv Hn) as (a & Ga & (Ua & q & Gq & Na)). rewrite Ga. cbn [bind fst snd] in *.
    destruct (party_at m p q Hp Gq) as (S & Hk & _). open_setup S.
    destruct (copy_run L pr W HBG (p_sk q) e m a b1 E Hr Ua Na) as (r & m' & E1 & _ & N1 & U1 & _ & K1 & R1).
    exists r, m'. split; [exact E1|]. split; [|split; [exact K1|exact R1]]. split; [exact U1|]. exists q. split; [exact Gq|exact N1].
  - apply bind_inv in Hv. destruct Hv as (q & G & Hv). injection Hv as <-. injection Hn as <-.
    destruct (party_at m p q Hp G) as (S & Hk & _). open_setup S.
    destruct (const_run L pr W HBG (p_sk q) Hsk e m b0 Hr) as (r & m' & E1 & N1 & U1 & _ & K1 & R1).
    exists r, m'. split; [exact E1|]. split; [|split; [exact K1|exact R1]]. split; [exact U1|]. exists q. split; [exact G|exact N1].
Qed.

Lemma kept_refl (m : M) : user_kept e m m. Proof. intros x H. split; [exact H|reflexivity]. Qed.
Lemma kept_tr (m1 m2 m3 : M) : user_kept e m1 m2 -> user_kept e m2 m3 -> user_kept e m1 m3.
Proof. intros A B x H. destruct (A x H) as [U V]. destruct (B x U) as [U' V']. split; [exact U'|congruence]. Qed.

Lemma m_program cs : forall (m : M) w v es v' es', reachable O pr e m -> parties m -> links_ok O pr ps links -> all_hold m w v es ->
  pplain ps links cs v = Ok v' -> pnoise ps links T Rd cs es = Ok es' ->
  (forall p q c, get ps p = Ok q -> pboots O pr e ps links cs w m p c -> boot_noise O pr (p_sk q) (p_ck q) (BlindRotateTestvec (p_ck q)) c (T p)) ->
  (forall h k a c, get links h = Ok k -> get ps (h_from k) = Ok a -> preencs O pr e ps links cs w m h c -> reenc_noise O pr a k c (h_err k)) ->
  exists nw m', pexec O pr e ps links cs w m = Ok (w ++ nw, m') /\ all_hold m' (w ++ nw) v' es' /\
    user_kept e m m' /\ reachable O pr e m' /\ parties m'.
Proof.
  induction cs as [|i cs IH]; intros m w v es v' es' Hr Hp Hl Hw Hv Hn HT HH; cbn [pplain pnoise pexec pboots preencs] in *.
  - injection Hv as <-. injection Hn as <-. exists [], m. rewrite app_nil_r. split; [reflexivity|]. split; [exact Hw|]. split; [apply kept_refl|]. auto.
  - apply bind_inv in Hv. destruct Hv as (b & Hb & Hv). apply bind_inv in Hn. destruct Hn as (E & HE & Hn).
    destruct (step i m w v es b E Hr Hp Hl Hw Hb HE) as (r & m1 & E1 & H1 & K1 & R1).
    { intros p q c G X. apply (HT p q c G). left. exact X. }
    { intros h k a c G1 G2 X. apply (HH h k a c G1 G2). left. exact X. }
    rewrite E1. cbn [bind].
    destruct (IH m1 (w ++ [r]) (v ++ [b]) (es ++ [E]) v' es' R1 (parties_kept _ _ K1 Hp) Hl (hold_snoc _ _ _ _ _ _ _ _ Hw K1 H1) Hv Hn) as (nw & m' & E2 & H2 & K2 & R2 & P2).
    { intros p q c G X. apply (HT p q c G). right. exists r, m1. split; assumption. }
    { intros h k a c G1 G2 X. apply (HH h k a c G1 G2). right. exists r, m1. split; assumption. }
    exists (r :: nw), m'. rewrite <- app_assoc in E2, H2. split; [exact E2|]. split; [exact H2|]. split; [eapply kept_tr; eassumption|]. split; assumption.
Qed.

Lemma hold_decrypts (m : M) w v es x r p b E q : parties m -> all_hold m w v es -> get w x = Ok r -> get v x = Ok (p, b) -> get es x = Ok E -> E < 2 ^ 29 ->
  get ps p = Ok q -> DecryptBool n (tm m r) (KeyLv0 (p_sk q)) = Ok b.
Proof.
  intros Hp (_ & _ & H) G1 G2 G3 HE Gq. specialize (H x r _ _ G1 G2 G3). destruct (party_n m p q Hp Gq) as [H0 Hz].
  eapply decrypt_enc; [exact H0|lia|eapply holds_enc; eassumption|exact HE].
Qed.
End Step.
End Parties.

Lemma m_parties R O pr e ps links T Rd cs (m : mem (FP O)) w v es v' es' :
  reachable O pr e m -> parties O pr e ps R m -> links_ok O pr ps links -> all_hold O pr e ps m w v es ->
  (forall p q, get ps p = Ok q -> round_err pr (p_sk q) <= Rd p) ->
  (forall p q c, get ps p = Ok q -> pboots O pr e ps links cs w m p c -> boot_noise O pr (p_sk q) (p_ck q) (BlindRotateTestvec (p_ck q)) c (T p)) ->
  (forall h k a c, get links h = Ok k -> get ps (h_from k) = Ok a -> preencs O pr e ps links cs w m h c -> reenc_noise O pr a k c (h_err k)) ->
  pplain ps links cs v = Ok v' -> pnoise ps links T Rd cs es = Ok es' ->
  exists nw m', pexec O pr e ps links cs w m = Ok (w ++ nw, m') /\ all_hold O pr e ps m' (w ++ nw) v' es' /\
    (forall x r p b E q, get (w ++ nw) x = Ok r -> get v' x = Ok (p, b) -> get es' x = Ok E -> E < 2 ^ 29 -> get ps p = Ok q ->
       DecryptBool (lv0_N pr) (tm m' r) (KeyLv0 (p_sk q)) = Ok b) /\
    user_kept e m m' /\ reachable O pr e m' /\ parties O pr e ps R m'.
Proof.
  intros Hr Hp Hl Hw HRd HT HH Hv Hn.
  destruct (m_program R O pr e ps links T Rd HRd cs m w v es v' es' Hr Hp Hl Hw Hv Hn HT HH) as (nw & m' & E1 & H1 & K1 & R1 & P1).
  exists nw, m'. split; [exact E1|]. split; [exact H1|]. split; [|auto].
  intros x r p b E q. eapply hold_decrypts; eassumption.
Qed.

(** ** worst case *)
Lemma pboots_len O pr e ps links cs : forall w m p c, pboots O pr e ps links cs w m p c -> zlen c = lv0_N pr + 1.
Proof.
  induction cs as [|i cs IH]; intros w m p c; [intros []|]. cbn [pboots]. intros [H|(r & m' & _ & H)]; [|eapply IH, H].
  destruct i; cbn [pboots1] in H; try contradiction.
  - destruct H as (_ & a & b & _ & _ & H). eapply gate_lin_len, H.
  - destruct H as (_ & q & a & b & d & _ & _ & _ & _ & H). eapply mux_boots_len, H.
Qed.

Lemma m_parties_worst mc O pr e ps links T Rd Bb Bk d d' cs (m : mem (FP O)) w v es v' es' :
  mc_ok mc -> fft_error_within pr d d' -> 0 <= Bb -> 0 <= Bk -> 0 <= d' ->
  (forall p q, get ps p = Ok q -> key_noise_within pr (p_rk q) (p_rb q) Bb Bk /\
     worst_noise pr (p_sk q) Bb Bk d d' <= T p /\ round_err pr (p_sk q) <= Rd p) ->
  (forall h k a, get links h = Ok k -> get ps (h_from k) = Ok a -> exists E, (forall i, Z.abs (h_noise k i) <= E) /\
     reenc_error (lv0_N pr) (h_basebit k) (h_t k) (KeyLv0 (p_sk a)) E <= h_err k) ->
  reachable O pr e m -> parties O pr e ps (f64_arith mc) m -> links_ok O pr ps links -> all_hold O pr e ps m w v es ->
  pplain ps links cs v = Ok v' -> pnoise ps links T Rd cs es = Ok es' ->
  exists nw m', pexec O pr e ps links cs w m = Ok (w ++ nw, m') /\ all_hold O pr e ps m' (w ++ nw) v' es' /\
    (forall x r p b E q, get (w ++ nw) x = Ok r -> get v' x = Ok (p, b) -> get es' x = Ok E -> E < 2 ^ 29 -> get ps p = Ok q ->
       DecryptBool (lv0_N pr) (tm m' r) (KeyLv0 (p_sk q)) = Ok b) /\
    user_kept e m m' /\ reachable O pr e m' /\ parties O pr e ps (f64_arith mc) m'.
Proof.
  intros Hc Hf HBb HBk Hd HT HH Hr Hp Hl Hw Hv Hn.
  apply (m_parties (f64_arith mc) O pr e ps links T Rd cs m w v es v' es'); try assumption.
  - intros p q G. apply (HT p q G).
  - intros p q c G X. destruct (HT p q G) as (N & W & _). destruct (party_at _ _ _ _ _ m p q Hp G) as (S & _).
    destruct (p_worst_tv mc O pr _ _ _ _ Hc S Bb Bk d d' Hf N HBb HBk Hd c (pboots_len _ _ _ _ _ _ _ _ _ _ X)) as (eta & ek & H1 & H2 & H3).
    exists eta, ek. split; [exact H1|]. split; [exact H2|]. lia.
  - intros h k a c G1 G2 _. destruct (HH h k a G1 G2) as (E & HE & HB). unfold reenc_noise, reenc_error in *.
    destruct (link_at O pr ps links h k Hl G1) as (a' & b & F1 & _ & Hk). rewrite G2 in F1. injection F1 as <-. destruct (rkey_len _ _ _ _ _ _ _ Hk) as (_ & _ & B1 & B2 & _).
    destruct (party_n _ _ _ _ _ m _ a Hp G2) as [H0 _].
    pose proof (used_noise_le (lv0_N pr) (h_basebit k) (h_t k) c (h_noise k) E H0 ltac:(lia) HE). lia.
Qed.

(** ** a start: for all keys and randomness, the parties and a new evaluator *)
Record pdata : Type := { i_sk : SecretKey; i_rk : Z -> enc_rand; i_rb : Z -> Z -> trlwe_rand; i_size : Z; i_zeros : Z -> enc_rand }.

Lemma m_start R pr (ds : list pdata) : good_params pr -> 4 <= g_NBIT pr ->
  Forall (fun d => key_ok pr (i_sk d) /\ 0 <= i_size d) ds ->
  exists O e (m : mem (FP O)) (ps : list (party O)), reachable O pr e m /\ parties O pr e ps R m /\
    Forall2 (fun d q => p_sk q = i_sk d /\ p_rk q = i_rk d /\ p_rb q = i_rb d /\ p_size q = i_size d /\ p_zeros q = i_zeros d) ds ps.
Proof.
  intros [W HBG] H4 HD. pose proof (pw_N _ _ W) as HN.
  destruct (FftProps.evaluator_ok R (g_NBIT pr) H4) as (tw & twi & _ & Ev). rewrite <- HN in Ev.
  destruct (laws_of _ _ _ Ev) as [L _]. match type of Ev with _ = Ok ?o => set (O := o) in *; clearbody O end.
  destruct (NewEvaluator_ok L pr W (empty_mem (f_nil O)) (empty_ok O)) as (e & m0 & E0 & _).
  assert (R0: reachable O pr e m0) by (eapply r_new with (pr0 := pr); [apply (empty_ok O)|unfold serves; lia|exact E0]).
  exists O, e. induction HD as [|d ds [Hk Hs] HD IH].
  - exists m0, []. split; [exact R0|]. split; constructor.
  - destruct IH as (m & ps & Rm & Pm & F). destruct (key_ok_N pr W (i_sk d) Hk) as [[H0 B0] [H1 _]].
    pose proof (NewCloudKey_ok L pr W (i_sk d) (i_rb d) H0 H1 (i_rk d) HBG) as Ec. 
    match type of Ec with NewCloudKey _ _ _ _ _ = Ok ?c => set (ck := c) in * end.
    destruct (pk_new (lv0_N pr) (KeyLv0 (i_sk d)) (i_size d) (i_zeros d)) as (pk & Ep & _); [apply (pw_n _ _ W)|lia|exact Hs|].
    destruct (fresh_ok L pr W HBG e m (tA (BlindRotateTestvec ck)) Rm) as (m1 & _ & V1 & R1 & U1 & K1 & T1).
    destruct (fresh_ok L pr W HBG e m1 (tB (BlindRotateTestvec ck)) R1) as (m2 & _ & V2 & R2 & U2 & K2 & T2).
    exists m2, ({| p_sk := i_sk d; p_rk := i_rk d; p_rb := i_rb d; p_ck := ck;
      p_key := {| gk_offset := DecompositionOffset ck; gk_testvec := {| rA := tnext m; rB := tnext m1 |}; gk_ksk := KeySwitchingKey ck; gk_bsk := BootstrappingKey ck |};
      p_size := i_size d; p_zeros := i_zeros d; p_pub := pk |} :: ps).
    split; [exact R2|]. split; [|constructor; [cbn; auto|exact F]]. constructor.
    + cbn [p_sk p_rk p_rb p_ck p_key p_size p_zeros p_pub]. split; [split; [split; assumption|]; split; [exact Ev|]; split; assumption|].
      split; [|split; assumption]. destruct (K2 _ U1) as [U1' V1'].
      unfold key_at. cbn [gk_offset gk_testvec gk_ksk gk_bsk rA rB]. rewrite V1', V1, V2. auto 10.
    + apply (parties_kept R O pr e ps m); [|exact Pm]. eapply kept_tr; eassumption.
Qed.

(** ** a message, re-encrypted, then a function of it *)
Lemma m_message mc O pr sk rk rb ck Bb Bk d d' D a rks : mc_ok mc -> setup (f64_arith mc) O pr sk rk rb ck ->
  fft_error_within pr d d' -> key_noise_within pr rk rb Bb Bk -> 0 <= Bb -> 0 <= Bk -> 0 <= d' ->
  chain (lv0_N pr) D a rks (KeyLv0 sk) ->
  forall e (m : mem (FP O)) c f k x E, reachable O pr e m -> 0 <= k < g_NBIT pr -> 0 <= x < 2 ^ k ->
  encodes (lv0_N pr) a (tm m c) (2 ^ k) x E -> E + zlen rks * D + round_err pr sk < 2 ^ (30 - k) ->
  worst_noise pr sk Bb Bk d d' < 2 ^ (30 - k) ->
  exists c' m1 r m', fresh O m (reencrypt_all (lv0_N pr) (tm m c) rks) = Ok (c', m1) /\
    BootstrapFunc O pr m1 e c' f (2 ^ k) (BootstrappingKey ck) (KeySwitchingKey ck) (DecompositionOffset ck) = Ok (r, m') /\
    encodes (lv0_N pr) (KeyLv0 sk) (tm m' r) (2 ^ k) (f x mod 2 ^ k) (worst_noise pr sk Bb Bk d d') /\
    DecryptLWEMessage (lv0_N pr) (tm m' r) (2 ^ k) (KeyLv0 sk) = Ok (f x mod 2 ^ k) /\
    user m' e r /\ ~ user m e r /\ user_kept e m m' /\ reachable O pr e m'.
Proof.
  intros Hc S Hf Hn HBb HBk Hd Hch e m c f k x E Hr Hk Hx [Hok HE] Hm HT.
  assert (X: exists ct', reencrypt_all (lv0_N pr) (tm m c) rks = Ok ct' /\ lwe_ok (lv0_N pr) ct' /\
    close (E + zlen rks * D) (lwe_phase (lv0_N pr) (KeyLv0 sk) ct') (x * 2 ^ 31 / 2 ^ k) /\
    exists m1, fresh O m (Ok ct') = Ok (tnext m, m1) /\ tm m1 (tnext m) = ct' /\ reachable O pr e m1 /\ user m1 e (tnext m) /\ user_kept e m m1 /\ ~ user m e (tnext m)).
  { pose proof S as S'. open_setup S'. destruct (q_chain _ _ _ _ _ (pw_n _ _ W) Hch (tm m c) Hok) as (ct' & E1 & Hok' & Hcl).
    exists ct'. split; [exact E1|]. split; [exact Hok'|]. split; [rewrite Z.add_comm; eapply close_trans; eassumption|].
    destruct (fresh_ok L pr W HBG e m ct' Hr) as (m1 & E2 & V1 & R1 & U1 & K1 & _). exists m1. split; [exact E2|]. split; [exact V1|]. split; [exact R1|].
    split; [exact U1|]. split; [exact K1|]. intros [U _]. lia. }
  destruct X as (ct' & E1 & Hok' & Hcl & m1 & E2 & V1 & R1 & U1 & K1 & U0).
  destruct (t_message_worst mc O pr sk rk rb ck Bb Bk d d' Hc S Hf Hn HBb HBk Hd e m1 (tnext m) f k x (E + zlen rks * D) R1) as (r & m' & B1 & B2 & B3 & B4 & B5 & B6 & B7); try assumption.
  - split; [rewrite V1; apply Hok'|]. left. exact U1.
  - split; rewrite V1; assumption.
  - exists (tnext m), m1, r, m'. rewrite E1. split; [exact E2|]. split; [exact B1|]. split; [exact B2|]. split; [exact B3|]. split; [exact B4|].
    split; [|split; [eapply kept_tr; eassumption|exact B7]]. intro U. apply B5. apply K1. exact U.
Qed.

(** * Gates and circuits *)
From Coq Require Import Lia ZifyBool Setoid Morphisms.
From Verif Require Import GoBase GoFacts GoMem MemFacts F64 Utils UtilsFacts Params Key Tlwe TlweMem TlweFacts
  Poly PolyFacts NegFacts Laws Trlwe TrlweFacts Trgsw TrgswFacts RotFacts KeySwitchFacts Lut Evaluator EvalFacts
  CloudKey CloudKeyFacts OldRotFacts CallFacts Gates LinFacts RunSpec HeapFacts BootFacts Circuit.
Local Open Scope Z_scope.
Ltac Zify.zify_post_hook ::= idtac.

Section Gate.
Context {O : fops} {N : Z} (L : flaws O N) (pr : pset) (W : pwf pr N) (HBG : g_BG pr = 2 ^ g_BGBIT pr).
Notation M := (mem (FP O)).
Notation l := (g_L pr).
Notation bg := (g_BGBIT pr).
Notation n := (lv0_N pr).
Notation nb := (g_NBIT pr).
Notation ev_ok := (EvalFacts.ev_ok L pr).

(** ** keys *)
Lemma key_ok_N sk : key_ok pr sk -> bin_key n (KeyLv0 sk) /\ bin_key N (KeyLv1 sk).
Proof. intros [H0 H1]. rewrite (pw_lv1N _ _ W) in H1. split; assumption. Qed.

Lemma cloud_facts sk rk rb ck : key_ok pr sk -> NewCloudKey O pr sk rk rb = Ok ck ->
  bsk_ok L pr (BootstrappingKey ck) /\ @ksk_ok N pr (KeySwitchingKey ck) /\ BlindRotateTestvec ck = ctv N /\
  DecompositionOffset ck = w32 (doff bg l).
Proof.
  intros Hk E. destruct (key_ok_N sk Hk) as [[H0 _] [H1 _]].
  rewrite (NewCloudKey_ok L pr W sk rb H0 H1 rk HBG) in E. injection E as <-. cbn.
  split; [apply bskp_ok; assumption|]. split; [|split; reflexivity].
  unfold ksk_ok. rewrite <- (pw_gN _ _ W). pose proof (law_N L). apply kskp_shape; destruct W; lia || assumption.
Qed.

(** ** every reachable evaluator is in order *)
Lemma own_scr m e k x : ev_ok m e -> k <= 17 -> scr e k x -> own e x.
Proof. intros. eapply scr_own; eassumption. Qed.

Lemma input_inp m e x : ev_ok m e -> input O pr m e x -> inp pr m e x.
Proof.
  intros He [Hl Hx]. split; [exact Hl|]. intro Hs. destruct Hx as [[_ Hn]|Hr].
  - apply Hn. eapply own_scr; [exact He| |exact Hs]. lia.
  - pose proof (eo_t2 _ _ _ _ He). destruct Hs as [Hs|Hs]; unfold dcb, blk in Hs; lia.
Qed.

Lemma table_tvp m e r tv : ev_ok m e -> table O pr m e r tv -> @tvp O N m e r tv.
Proof.
  intros He (TA & TB & [_ UA] & [_ UB] & LA & LB & KA & KB). rewrite (pw_gN _ _ W) in LA, LB.
  split; [split; assumption|]. split; [split; split; assumption|].
  split; intro Hs; [apply UA|apply UB]; (eapply own_scr; [exact He| |exact Hs]; lia).
Qed.

Lemma ev_ok_elsewhere m m' e : ev_ok m e -> elsewhere O e m m' -> ev_ok m' e.
Proof.
  intros H (HT & HR & HF & HI & NT & NF & NI). pose proof (pw_l _ _ W). unfold own, ring in HT. unfold ring in HR. unfold fown in HF. unfold iown in HI.
  destruct H. constructor; try assumption; try lia; try (intros x Hx; unfold blk in *).
  - rewrite HT by lia. apply eo_pt. exact Hx.
  - rewrite HT by lia. apply eo_dt. exact Hx.
  - rewrite HT by lia. apply eo_bt. exact Hx.
  - rewrite HT by lia. assumption.
  - destruct (Z_lt_dec x (bp_t (ev_bp e) + 13)).
    + rewrite HT by lia. apply eo_b11. exact Hx.
    + rewrite HR by lia. apply eo_b11. exact Hx.
  - rewrite HF by lia. apply eo_pf. exact Hx.
  - rewrite HF by lia. apply eo_df. exact Hx.
  - rewrite HF by lia. apply eo_bf. exact Hx.
  - rewrite HI by lia. assumption.
  - rewrite HI by lia. assumption.
  - rewrite HI by lia. assumption.
Qed.

Lemma step_mem_ok T P I (m m' : M) : step L T P I m m' -> mem_ok m -> mem_ok m'.
Proof. intros [Hf _] H. destruct (fr_n _ _ _ _ _ Hf) as (a & b & c). unfold mem_ok in *. lia. Qed.

Lemma ring_slot e x : ring e x -> exists i, 0 <= i < 4 /\ x = slot e i.
Proof. unfold ring, slot. intro H. exists (x - bp_t (ev_bp e) - 13). lia. Qed.
Lemma ring_scr m e x : ev_ok m e -> ring e x -> ~ scr e 11 x.
Proof. intros He Hx. destruct (ring_slot e x Hx) as (i & Hi & ->). eapply slot_scr; eassumption. Qed.
Lemma ring_own m e x : ev_ok m e -> ring e x -> own e x.
Proof. intros He Hx. destruct (ring_slot e x Hx) as (i & Hi & ->). eapply slot_own; eassumption. Qed.
Lemma user_scr m e k x : ev_ok m e -> k <= 17 -> user m e x -> ~ scr e k x.
Proof. intros He Hk [_ Hx] Hs. apply Hx. eapply own_scr; eassumption. Qed.
Lemma pscr_own m e x : ev_ok m e -> pscr (ev_pe e) x -> own e x /\ ~ ring e x.
Proof.
  intros H. pose proof (eo_t1 _ _ _ _ H). pose proof (eo_t2 _ _ _ _ H). pose proof (eo_lv _ _ _ _ H). pose proof (pw_l _ _ W).
  unfold pscr, own, ring, blk. lia.
Qed.
Lemma room_ne m e r : ev_ok m e -> room O pr m e r -> zlen (tm m (rA r)) = N /\ zlen (tm m (rB r)) = N /\ rA r <> rB r /\
  outside (scr e 17) r.
Proof.
  intros He (A & B & Hne & LA & LB). rewrite (pw_gN _ _ W) in LA, LB. split; [exact LA|]. split; [exact LB|]. split; [exact Hne|].
  split; eapply user_scr; try eassumption; lia.
Qed.
Lemma acc_blk e x : ~ scr e 17 x -> ~ blk (bp_t (ev_bp e) + 4) 4 x.
Proof. unfold scr, blk. intros H G. apply H. right. lia. Qed.

(** what one operation does: the evaluator stays in order, the ring index
    moves by [j], and buffers that are not its outputs keep their contents *)
Definition kept (e : evaluator) (m : M) (j : Z) (x : Z) : Prop :=
  user m e x \/ (ring e x /\ (j = 1 -> x <> slot e (im m (bp_i (ev_bp e))))).

Lemma step_uses (T P I : Z -> Prop) e (keep : Z -> Prop) m m' : step L T P I m m' -> ev_ok m e -> mem_ok m ->
  (forall x, I x -> blk (pe_i (ev_pe e)) 2 x /\ 0 <= im m' x < 4) ->
  (forall x, keep x -> kept e m 0 x -> ~ T x) ->
  ev_ok m' e /\ mem_ok m' /\ im m' (bp_i (ev_bp e)) = (im m (bp_i (ev_bp e)) + 0) mod 4 /\ tnext m <= tnext m' /\
  (forall x, keep x -> kept e m 0 x -> tm m' x = tm m x).
Proof.
  intros S He Hm HI HT. split; [|split; [|split; [|split]]].
  - eapply ev_ok_step; [exact S|exact He|]. intros x Hx _. apply (HI x Hx).
  - eapply step_mem_ok; eassumption.
  - rewrite (step_i _ _ _ _ _ _ _ S).
    + rewrite Z.add_0_r. rewrite Z.mod_small; [reflexivity|apply (eo_bi _ _ _ _ He)].
    + intro X. destruct (HI _ X) as [Y _]. pose proof (eo_i1 _ _ _ _ He). unfold blk in Y. lia.
  - destruct (fr_n _ _ _ _ _ (proj1 S)) as (a & _). lia.
  - intros x Hk Hx. apply (step_t _ _ _ _ _ _ _ S). apply HT; assumption.
Qed.

Lemma uses_ok e keep j m m' : ev_ok m e -> mem_ok m -> uses O pr e keep j m m' ->
  ev_ok m' e /\ mem_ok m' /\ im m' (bp_i (ev_bp e)) = (im m (bp_i (ev_bp e)) + j) mod 4 /\ tnext m <= tnext m' /\
  (forall x, keep x -> kept e m j x -> tm m' x = tm m x).
Proof.
  intros He Hm H. destruct H as [m m' Ho Hk
    |m m' sk rk rb ck ct tvr tv r Hk EK Hi Ht E
    |m m' sk rk rb ck ct tvr tv out Hk EK Hi Ht Ho Hko E
    |m m' sk rk rb ck ct tvr tv out Hk EK Hi Ht Hro KA KB E
    |m m' key msg rs g r c off out Hk Hg Ht Hro KA KB E
    |m m' key msg rs g r0 c0 r1 c1 off out Hk Hg Ht0 Ht1 Hro KA KB D0 D1 E
    |m m' Hc].
  - assert (He' := ev_ok_elsewhere _ _ _ He Ho). destruct Ho as (HT & HR & HF & HI & NT & NF & NI).
    split; [exact He'|]. split; [unfold mem_ok in *; lia|]. split; [|split; [exact NT|intros x Hx _; apply Hk; exact Hx]].
    rewrite HI by (unfold iown; pose proof (eo_i1 _ _ _ _ He); lia). rewrite Z.add_0_r, Z.mod_small; [reflexivity|apply (eo_bi _ _ _ _ He)].
  - destruct (cloud_facts _ _ _ _ Hk EK) as (Hb & Hks & _).
    destruct (Bootstrap_ok L pr W m e ct tvr tv _ _ (DecompositionOffset ck) He Hb Hks (input_inp _ _ _ He Hi) (table_tvp _ _ _ _ He Ht))
      as (m1 & E1 & _ & I1 & He1 & S1).
    rewrite E1 in E. injection E as _ <-. split; [exact He1|]. split; [eapply step_mem_ok; eassumption|]. split; [exact I1|].
    split; [destruct (fr_n _ _ _ _ _ (proj1 S1)) as (a & _); lia|].
    intros x _ Hx. apply (step_t _ _ _ _ _ _ _ S1). intros [Hs| ->]; destruct Hx as [Hu|[Hr1 Hr2]].
    + exact (user_scr m e 11 x He ltac:(lia) Hu Hs).
    + exact (ring_scr m e x He Hr1 Hs).
    + destruct Hu as [_ Hu]. apply Hu. eapply slot_own; [exact W|exact He|apply (eo_bi _ _ _ _ He)].
    + apply Hr2; reflexivity.
  - destruct (cloud_facts _ _ _ _ Hk EK) as (Hb & Hks & _).
    destruct (input_inp _ _ _ He Hi) as [I1 I2]. destruct (table_tvp _ _ _ _ He Ht) as (T1 & T2 & T3 & T4).
    destruct Ho as [O1 O2].
    destruct (BootstrapAssign_ok L pr W m e ct tvr tv _ _ (DecompositionOffset ck) out He Hb Hks I1 T1 T2 I2 T3 T4 O1)
      as (m1 & E1 & _ & S1).
    { intros ->. destruct O2 as [[_ O2]|O2]; [|lia]. apply O2. pose proof (eo_t1 _ _ _ _ He). pose proof (eo_t2 _ _ _ _ He).
      pose proof (eo_lv _ _ _ _ He). pose proof (pw_l _ _ W). unfold own. lia. }
    rewrite E1 in E. injection E as <-. eapply step_uses; [exact S1|exact He|exact Hm|intros x []|].
    intros x Hx Hq [Hs| ->]; [|exact (Hko Hx)]. destruct Hq as [Hu|[Hr1 _]].
    + exact (user_scr m e 11 x He ltac:(lia) Hu Hs).
    + exact (ring_scr m e x He Hr1 Hs).
  - destruct (cloud_facts _ _ _ _ Hk EK) as (Hb & Hks & _).
    destruct (input_inp _ _ _ He Hi) as [I1 I2]. destruct (table_tvp _ _ _ _ He Ht) as (T1 & T2 & T3 & T4).
    destruct (room_ne _ _ _ He Hro) as (La & Lb & Hne & Oa & Ob).
    destruct (BlindRotateAssign_ok L pr W m e ct tvr tv _ (DecompositionOffset ck) out He Hb I1 T1 T2 I2 T3 T4 (acc_blk _ _ Oa) (acc_blk _ _ Ob) La Lb Hne)
      as (m1 & E1 & _ & S1).
    rewrite E1 in E. injection E as <-. eapply step_uses; [exact S1|exact He|exact Hm|intros x []|].
    intros x Hx Hq [Hs|[-> | ->]]; [|exact (KA Hx)|exact (KB Hx)]. destruct Hq as [Hu|[Hr1 _]].
    + exact (user_scr m e 8 x He ltac:(lia) Hu Hs).
    + exact (scr_mono e 11 8 x (ring_scr m e x He Hr1) ltac:(lia) Hs).
  - destruct (table_tvp _ _ _ _ He Ht) as (T1 & T2 & T3 & T4). destruct (room_ne _ _ _ He Hro) as (La & Lb & Hne & Oa & Ob).
    destruct (ExternalProductAssign_ok L pr W m e g c r off out He (trgsw_ok L pr W _ _ _ _ Hk Hg) T1 T2 (scr_dcb _ _ _ T3) (scr_dcb _ _ _ T4) La Lb Hne)
      as (m1 & E1 & _ & S1).
    rewrite E1 in E. injection E as <-. eapply step_uses; [exact S1|exact He|exact Hm|intros x []|].
    intros x Hx Hq [Hs|[-> | ->]]; [|exact (KA Hx)|exact (KB Hx)]. destruct Hq as [Hu|[Hr1 _]].
    + apply (user_scr m e 11 x He ltac:(lia) Hu). left. exact Hs.
    + apply (ring_scr m e x He Hr1). left. exact Hs.
  - destruct (table_tvp _ _ _ _ He Ht0) as (T1 & T2 & T3 & T4). destruct (table_tvp _ _ _ _ He Ht1) as (U1 & U2 & U3 & U4).
    destruct (room_ne _ _ _ He Hro) as (La & Lb & Hne & Oa & Ob).
    destruct (CMuxAssign_ok L pr W m e g c0 c1 r0 r1 off out He (trgsw_ok L pr W _ _ _ _ Hk Hg) T1 U1 T2 U2) as (m1 & E1 & _ & S1); try assumption.
    { split; eapply scr_mono; [exact T3|lia|exact T4|lia]. }
    { split; eapply scr_mono; [exact U3|lia|exact U4|lia]. }
    { split; eapply scr_mono; [exact Oa|lia|exact Ob|lia]. }
    rewrite E1 in E. injection E as <-. eapply step_uses; [exact S1|exact He|exact Hm|intros x []|].
    intros x Hx Hq [Hs|[-> | ->]]; [|exact (KA Hx)|exact (KB Hx)]. destruct Hq as [Hu|[Hr1 _]].
    + exact (user_scr m e 4 x He ltac:(lia) Hu Hs).
    + exact (scr_mono e 11 4 x (ring_scr m e x He Hr1) ltac:(lia) Hs).
  - destruct (pcall_step L pr W HBG m m' (ev_pe e) (ev_pe_ok L pr m e He) Hc) as [S1 He1].
    eapply step_uses; [exact S1|exact He|exact Hm| |].
    + intros x Hx. split; [exact Hx|]. unfold blk in Hx. assert (C: x = pe_i (ev_pe e) \/ x = pe_i (ev_pe e) + 1) by lia.
      destruct C as [-> | ->]; apply He1.
    + intros x _ Hq Hs. destruct (pscr_own m e x He Hs) as [X Y]. destruct Hq as [[_ Hu]|[Hr1 _]]; contradiction.
Qed.

Lemma reset_ok e m : ev_ok m e -> mem_ok m -> ev_ok (ResetBuffers O m e) e /\ mem_ok (ResetBuffers O m e).
Proof.
  intros He Hm. assert (S1: step L none none (eq (bp_i (ev_bp e))) m (ResetBuffers O m e)) by (apply step_iset; reflexivity).
  split; [|eapply step_mem_ok; eassumption]. eapply ev_ok_step; [exact S1|exact He|]. intros x <- _.
  unfold ResetBuffers. change (bp_Index (ev_bp e)) with (bp_i (ev_bp e)). rewrite im_iset. lia.
Qed.

Lemma reach_ok e m : reachable O pr e m -> ev_ok m e /\ mem_ok m.
Proof.
  induction 1 as [pr0 m m' Hm V E|m m' j _ [He Hm] Hu|m _ [He Hm]].
  - rewrite (proj1 V), (pw_gN _ _ W) in E. destruct (NewEvaluator_ok' L pr W pr0 m V Hm) as (e' & m1 & E' & He & G & _).
    rewrite E' in E. injection E as <- <-. split; [exact He|]. eapply grows_mem_ok; eassumption.
  - destruct (uses_ok _ _ _ _ _ He Hm Hu) as (A & B & _). split; assumption.
  - apply reset_ok; assumption.
Qed.

Lemma reach_other e m m' : reachable O pr e m ->
  (forall x, own e x -> tm m' x = tm m x) -> (forall x, fown e x -> fm m' x = fm m x) ->
  (forall x, iown e x -> im m' x = im m x) ->
  tnext m <= tnext m' -> fnext m <= fnext m' -> inext m <= inext m' -> reachable O pr e m'.
Proof.
  intros Hr HT HF HI NT NF NI. destruct (reach_ok e m Hr) as [He _]. eapply r_uses; [exact Hr|]. apply u_other; [|intros x []].
  split; [intros; apply HT; assumption|]. split; [|auto 10]. intros x Hx. rewrite HT; [reflexivity|eapply ring_own; eassumption].
Qed.

(** ** what the gates leave alone *)
Notation keeps := user_kept.

Lemma keeps_refl e (m : M) : keeps e m m. Proof. intros x H. split; [exact H|reflexivity]. Qed.
Lemma keeps_trans e (m1 m2 m3 : M) : keeps e m1 m2 -> keeps e m2 m3 -> keeps e m1 m3.
Proof. intros A B x H. destruct (A x H) as [H1 E1]. destruct (B x H1) as [H2 E2]. split; [exact H2|congruence]. Qed.
Lemma grows_keeps e (m m' : M) : grows L (own e) (fown e) (iown e) m m' -> keeps e m m'.
Proof.
  intros G x H. split; [eapply user_grows; eassumption|]. destruct H as [[H1 H2] H3].
  apply (gr_t _ _ _ _ _ _ G); assumption.
Qed.
Lemma keeps_key e m m' k ck : keeps e m m' -> key_at O m e k ck -> key_at O m' e k ck.
Proof.
  intros K (A & B & C & D & E & F & G). destruct (K _ F) as [F' FE]. destruct (K _ G) as [G' GE].
  unfold key_at. rewrite FE, GE. auto 10.
Qed.
Lemma keeps_wires sk e m m' w v E : keeps e m m' -> wires O pr e sk m w v E -> wires O pr e sk m' w v E.
Proof.
  intros K H. unfold wires in *. induction H as [|x b w v [Hu He] _ IH]; constructor; [|exact IH].
  destruct (K x Hu) as [Hu' ->]. split; assumption.
Qed.

Lemma new_user e (m m' : M) : ev_ok m e -> mem_ok m -> tnext m < tnext m' -> user m' e (tnext m).
Proof.
  intros He [Hm _] H. split; [lia|]. intro Ho. pose proof (eo_t3 _ _ _ _ He). unfold own in Ho. lia.
Qed.

Lemma fresh_ok e m v : reachable O pr e m ->
  exists m', fresh O m (Ok v) = Ok (tnext m, m') /\ tm m' (tnext m) = v /\ reachable O pr e m' /\ user m' e (tnext m) /\
    keeps e m m' /\ tnext m' = tnext m + 1.
Proof.
  intro H. destruct (reach_ok e m H) as [He Hm]. exists (snd (alloc m v)).
  assert (G: grows L (own e) (fown e) (iown e) m (snd (alloc m v))) by apply alloc_grows.
  split; [reflexivity|]. split; [apply alloc_at|]. split; [|split; [|split; [|reflexivity]]].
  - eapply reach_other; [exact H| | | |cbn; lia|cbn; lia|cbn; lia]; try (intros; reflexivity).
    intros x Hx. apply (keep_t L); [apply alloc_grows|]. pose proof (eo_t3 _ _ _ _ He). unfold own in Hx. lia.
  - eapply new_user; try eassumption. cbn. lia.
  - apply grows_keeps. exact G.
Qed.

(** ** bootstrap *)
Section Key.
Context (sk : SecretKey) (rk : Z -> enc_rand) (rb : Z -> Z -> trlwe_rand) (ck : CloudKey O)
  (Hsk : key_ok pr sk) (Hck : NewCloudKey O pr sk rk rb = Ok ck).
Notation s0 := (KeyLv0 sk). Notation s1 := (KeyLv1 sk).
Notation tv := (BlindRotateTestvec ck).

Lemma key_at_gk m e k : key_at O m e k ck -> gk_ok L pr m e k (ctv N) /\ gk_offset k = DecompositionOffset ck /\
  gk_bsk k = BootstrappingKey ck /\ gk_ksk k = KeySwitchingKey ck.
Proof.
  intros (A & B & C & D & E & F & G). destruct (cloud_facts _ _ _ _ Hsk Hck) as (Hb & Hk & Ht & Ho).
  split; [|auto]. rewrite Ht in D, E. constructor; try assumption.
  - rewrite C. exact Hb.
  - rewrite B. exact Hk.
  - split; assumption.
  - apply ctv_ok. pose proof (law_N L). lia.
Qed.

Lemma key_at_table m e k : key_at O m e k ck -> table O pr m e (gk_testvec k) tv.
Proof.
  intros H. destruct (key_at_gk m e k H) as ([_ _ _ [[L1 K1] [L2 K2]] _ _] & _). destruct H as (A & B & C & D & E & F & G).
  destruct (cloud_facts _ _ _ _ Hsk Hck) as (_ & _ & Ht & _). rewrite Ht in *. unfold table. rewrite (pw_gN _ _ W). auto 10.
Qed.

Definition boot_val (c : list Z) : list Z :=
  bootp L pr (DecompositionOffset ck) (BootstrappingKey ck) (KeySwitchingKey ck) (ctv N) c.

Lemma boot_phase c b T : zlen c = n + 1 -> boot_noise O pr sk ck tv c T ->
  side b (round_err pr sk) (lwe_phase n s0 c) -> encrypts n s0 (boot_val c) b T.
Proof.
  intros Hc (eta & ek & H1 & H2 & H3) Hs. destruct (cloud_facts _ _ _ _ Hsk Hck) as (Hb & Hk & Ht & Ho). rewrite Ht in *.
  destruct (key_ok_N sk Hsk) as [K0 K1]. rewrite (pw_gN _ _ W) in H3. split.
  - apply bootp_ok; assumption.
  - eapply close_weaken; [|exact H3]. apply (bootp_sign L pr W sk K0 K1); assumption.
Qed.

(** gates.bootstrap *)
Lemma bootstrap_run e m k c : reachable O pr e m -> key_at O m e k ck -> user m e c -> zlen (tm m c) = n + 1 ->
  exists m', bootstrap O pr m e c k = Ok (tnext m, m') /\ tm m' (tnext m) = boot_val (tm m c) /\
    reachable O pr e m' /\ user m' e (tnext m) /\ keeps e m m' /\ tnext m' = tnext m + 1.
Proof.
  intros Hr Hk Hu Hc. destruct (reach_ok e m Hr) as [He Hm]. destruct (key_at_gk m e k Hk) as (Hg & G1 & G2 & G3).
  destruct (gates_bootstrap_ok L pr W m e c k (ctv N) Hm He Hg Hu Hc) as (m' & E & V & He' & G & Hn).
  exists m'. split; [exact E|]. split; [|split; [|split; [|split; [|exact Hn]]]].
  - rewrite V. unfold bval_of, boot_val. rewrite G1, G2, G3. reflexivity.
  - (* through the three steps *)
    revert E. unfold bootstrap, new_ct, NewTLWE. pose proof (pw_n _ _ W) as Hn0. rewrite make_ok by lia. cbn [bind].
    set (z := repeat 0 (Z.to_nat (n + 1))). assert (EA: alloc m z = (tnext m, snd (alloc m z))) by reflexivity.
    rewrite EA. cbn [bind]. set (m1 := snd (alloc m z)).
    destruct (fresh_ok e m z Hr) as (m1' & E1 & _ & Hr1 & Hu1 & K1 & N1).
    assert (m1' = m1) by (unfold fresh in E1; cbn [bind] in E1; rewrite EA in E1; injection E1 as E1; symmetry; exact E1). subst m1'.
    destruct (K1 c Hu) as [Hu1c Ec]. pose proof (keeps_key _ _ _ _ _ K1 Hk) as Hk1.
    destruct (reach_ok e m1 Hr1) as [He1 Hm1].
    assert (Hi: input O pr m1 e c) by (split; [rewrite Ec; exact Hc|left; exact Hu1c]).
    pose proof (key_at_table m1 e k Hk1) as Ht1. destruct (cloud_facts _ _ _ _ Hsk Hck) as (Hb & Hks & _).
    destruct (Bootstrap_ok L pr W m1 e c (gk_testvec k) tv (BootstrappingKey ck) (KeySwitchingKey ck) (DecompositionOffset ck) He1 Hb Hks
      (input_inp _ _ _ He1 Hi) (table_tvp _ _ _ _ He1 Ht1)) as (m2 & E2 & _ & _ & He2 & S2).
    rewrite G1, G2, G3, E2. cbn [bind].
    assert (Hr2: reachable O pr e m2) by (eapply r_uses; [exact Hr1|eapply u_boot; eassumption]).
    destruct (fr_n _ _ _ _ _ (proj1 S2)) as (F1 & F2 & F3).
    set (b := slot e _). unfold load, store. intro E.
    destruct (get (tm (mcopy m2 (tnext m) b) b) n) as [x|]; [|discriminate]. cbn [bind] in E.
    destruct (set (tm (mcopy m2 (tnext m) b) (tnext m)) n x) as [y|]; [|discriminate]. cbn [bind] in E. injection E as <-.
    eapply reach_other; [exact Hr2| | | | | |]; try (intros; reflexivity); try (cbn; lia).
    intros z' Hz. assert (z' <> tnext m) by (pose proof (eo_t3 _ _ _ _ He); unfold own in Hz; lia).
    unfold mcopy. cbn [tm tset]. destruct (Z.eqb_spec z' (tnext m)); [contradiction|reflexivity].
  - eapply new_user; try eassumption. lia.
  - apply grows_keeps. exact G.
Qed.

(** ** two-input gates *)
Lemma mult_pos g : 1 <= mult g <= 2. Proof. destruct g; cbn; lia. Qed.
Lemma round_err_nonneg : 0 <= round_err pr sk.
Proof.
  destruct (key_ok_N sk Hsk) as [K0 _]. unfold round_err. apply Z.mul_nonneg_nonneg; [apply Z.pow_nonneg; lia|].
  assert (0 <= weight n s0); [|lia]. apply zsum_nonneg. intros i Hi. eapply bin_nonneg; eassumption.
Qed.

Lemma gate_fun_eq g : gate_fun g O pr = gate2 O pr (gate_lin g n).
Proof. destruct g; reflexivity. Qed.

Lemma gate_lin_side g a b va vb Ea Eb : encrypts n s0 a va Ea -> encrypts n s0 b vb Eb ->
  Ea + mult g * Eb + round_err pr sk < 2 ^ 29 ->
  exists p, gate_lin g n a b = Ok p /\ lwe_ok n p /\ side (truth g va vb) (round_err pr sk) (lwe_phase n s0 p).
Proof.
  intros [[La _] (ea & Ha & Pa)] [[Lb _] (eb & Hb & Pb)] Hm. pose proof (pw_n _ _ W) as Hn. pose proof round_err_nonneg as Hr.
  assert (G: forall ca cb c op, lin_spec n (gate_lin g n) ca cb c -> gate_ideal ca cb c op -> Z.abs ca = 1 -> Z.abs cb = mult g ->
    (forall x y, op x y = truth g x y) ->
    exists p, gate_lin g n a b = Ok p /\ lwe_ok n p /\ side (truth g va vb) (round_err pr sk) (lwe_phase n s0 p)).
  { intros ca cb c op Hl Hi H1 H2 Ho. destruct (Hl s0 a b La Lb) as (p & E & Hp & P). exists p. split; [exact E|]. split; [exact Hp|].
    rewrite <- Ho. eapply gate_side; try eassumption. rewrite H1, H2. pose proof (mult_pos g).
    assert (mult g * Z.abs eb <= mult g * Eb) by (apply Z.mul_le_mono_nonneg_l; lia). lia. }
  destruct g; cbn [gate_lin] in G.
  - eapply G; [apply PrepareNAND_spec, Hn|apply ideal_nand|reflexivity..].
  - eapply G; [apply PrepareOR_spec, Hn|apply ideal_or|reflexivity..].
  - eapply G; [apply PrepareAND_spec, Hn|apply ideal_and|reflexivity..].
  - eapply G; [apply PrepareXOR_spec, Hn|apply ideal_xor|reflexivity..].
  - eapply G; [apply xnor_spec, Hn|apply ideal_xnor|reflexivity|reflexivity|]. intros [] []; reflexivity.
  - eapply G; [apply nor_spec, Hn|apply ideal_nor|reflexivity..].
  - eapply G; [apply andny_spec, Hn|apply ideal_andny|reflexivity..].
  - eapply G; [apply andyn_spec, Hn|apply ideal_andyn|reflexivity..].
  - eapply G; [apply orny_spec, Hn|apply ideal_orny|reflexivity..].
  - eapply G; [apply oryn_spec, Hn|apply ideal_oryn|reflexivity..].
Qed.

Lemma gate_run g e m k a b va vb Ea Eb T : reachable O pr e m -> key_at O m e k ck ->
  encrypts n s0 (tm m a) va Ea -> encrypts n s0 (tm m b) vb Eb ->
  Ea + mult g * Eb + round_err pr sk < 2 ^ 29 ->
  (forall p, gate_lin g n (tm m a) (tm m b) = Ok p -> boot_noise O pr sk ck tv p T) ->
  exists r m', gate_fun g O pr m e a b k = Ok (r, m') /\ encrypts n s0 (tm m' r) (truth g va vb) T /\
    user m' e r /\ ~ user m e r /\ keeps e m m' /\ reachable O pr e m' /\ key_at O m' e k ck.
Proof.
  intros Hr Hk Ha Hb Hm HT. destruct (gate_lin_side g _ _ _ _ _ _ Ha Hb Hm) as (p & Ep & [Lp Kp] & Sp).
  specialize (HT p Ep). rewrite gate_fun_eq. unfold gate2. rewrite Ep.
  destruct (fresh_ok e m p Hr) as (m1 & E1 & V1 & Hr1 & Hu1 & K1 & N1). rewrite E1. cbn [bind].
  destruct (bootstrap_run e m1 k (tnext m) Hr1 (keeps_key _ _ _ _ _ K1 Hk) Hu1) as (m2 & E2 & V2 & Hr2 & Hu2 & K2 & N2).
  { rewrite V1. exact Lp. }
  rewrite E2. exists (tnext m1), m2. split; [reflexivity|]. split; [|split; [exact Hu2|split; [|split; [|split; [exact Hr2|]]]]].
  - rewrite V2, V1. apply boot_phase; assumption.
  - intros [[_ X] _]. lia.
  - eapply keeps_trans; eassumption.
  - eapply keeps_key; [exact K2|]. eapply keeps_key; eassumption.
Qed.

(** ** NOT, Constant, Copy *)
Lemma not_run e m a va Ea : reachable O pr e m -> encrypts n s0 (tm m a) va Ea ->
  exists r m', NOT O pr m a = Ok (r, m') /\ encrypts n s0 (tm m' r) (negb va) Ea /\
    user m' e r /\ ~ user m e r /\ keeps e m m' /\ reachable O pr e m'.
Proof.
  intros Hr [[La Ka] (ea & Ha & Pa)]. unfold NOT, not_val. pose proof (pw_n _ _ W) as Hn.
  destruct (Neg_phase n s0 (tm m a) Hn La) as (v & -> & Hv & Pv).
  destruct (fresh_ok e m v Hr) as (m1 & E1 & V1 & Hr1 & Hu1 & K1 & N1). exists (tnext m), m1.
  split; [exact E1|]. split; [|split; [exact Hu1|split; [|split; assumption]]].
  - rewrite V1. split; [exact Hv|]. exists (- ea). split; [lia|]. rewrite Pv, Pa. unfold mu_bit. destruct va; cbn [negb]; apply eqm_refl'; ring.
  - intros [[_ X] _]. lia.
Qed.

Lemma const_run e m b : reachable O pr e m ->
  exists r m', Constant O pr m b = Ok (r, m') /\ encrypts n s0 (tm m' r) b 1 /\
    user m' e r /\ ~ user m e r /\ keeps e m m' /\ reachable O pr e m'.
Proof.
  intros Hr. unfold Constant. pose proof (pw_n _ _ W) as Hn.
  destruct (constant_ok n Hn s0 b (proj1 (proj1 Hsk))) as (v & -> & Hv & _ & Pv).
  destruct (fresh_ok e m v Hr) as (m1 & E1 & V1 & Hr1 & Hu1 & K1 & N1). exists (tnext m), m1.
  split; [exact E1|]. split; [|split; [exact Hu1|split; [|split; assumption]]].
  - rewrite V1. split; [exact Hv|]. exists (if b then 0 else 1). split; [destruct b; lia|exact Pv].
  - intros [[_ X] _]. lia.
Qed.

Lemma copy_run e m a va Ea : reachable O pr e m -> user m e a -> encrypts n s0 (tm m a) va Ea ->
  exists r m', Copy O pr m a = Ok (r, m') /\ tm m' r = tm m a /\ encrypts n s0 (tm m' r) va Ea /\
    user m' e r /\ ~ user m e r /\ keeps e m m' /\ reachable O pr e m'.
Proof.
  intros Hr Hu Ha. pose proof (pw_n _ _ W) as Hn. destruct (reach_ok e m Hr) as [He Hm].
  unfold Copy, new_ct, NewTLWE. rewrite make_ok by lia. cbn [bind].
  set (z := repeat 0 (Z.to_nat (n + 1))). assert (Hz: zlen z = n + 1) by (unfold z; rewrite zlen_repeat; lia).
  destruct (fresh_ok e m z Hr) as (m1 & E1 & V1 & Hr1 & Hu1 & K1 & N1). unfold fresh in E1. cbn [bind] in E1.
  destruct (alloc m z) as [r0 m0]. injection E1 as -> ->. cbn [bind]. destruct (K1 a Hu) as [Hua Ea1].
  set (t := tnext m). exists t, (mcopy m1 t a).
  assert (Hl: zlen (tm m1 a) = zlen (tm m1 t)) by (unfold t; rewrite V1, Ea1; destruct Ha as [[X _] _]; lia).
  assert (V: tm (mcopy m1 t a) t = tm m a).
  { unfold mcopy. cbn [tm tset]. rewrite Z.eqb_refl, copy_slice_same_len by (symmetry; exact Hl). exact Ea1. }
  assert (Vo: forall x, x <> t -> tm (mcopy m1 t a) x = tm m1 x).
  { intros x Hx. unfold mcopy. cbn [tm tset]. destruct (Z.eqb_spec x t); [contradiction|reflexivity]. }
  split; [reflexivity|]. split; [exact V|]. split; [rewrite V; exact Ha|]. split; [exact Hu1|].
  split; [intros [[_ X] _]; unfold t in X; lia|]. split.
  - intros x Hx. destruct (K1 x Hx) as [H1 H2]. split; [exact H1|]. rewrite Vo; [exact H2|]. destruct Hx. unfold t. lia.
  - eapply reach_other; [exact Hr1| | | | | |]; try (intros; reflexivity); try apply Z.le_refl.
    intros x Hx. apply Vo. intros ->. destruct Hu1 as [_ Hu1]. apply Hu1. exact Hx.
Qed.

Lemma enc_weaken c b E E' : encrypts n s0 c b E -> E <= E' -> encrypts n s0 c b E'.
Proof. intros [H1 H2] H. split; [exact H1|]. eapply close_weaken; eassumption. Qed.

(** ** MUX *)
Lemma mux_run e m k a b c va vb vc Ea Eb Ec T : reachable O pr e m -> key_at O m e k ck ->
  user m e a -> user m e c ->
  encrypts n s0 (tm m a) va Ea -> encrypts n s0 (tm m b) vb Eb -> encrypts n s0 (tm m c) vc Ec ->
  Ea + Eb + round_err pr sk < 2 ^ 29 -> Ea + Ec + round_err pr sk < 2 ^ 29 -> T + T + round_err pr sk < 2 ^ 29 ->
  (forall p, mux_boots O pr e k m a b c p -> boot_noise O pr sk ck tv p T) ->
  exists r m', MUX O pr m e a b c k = Ok (r, m') /\ encrypts n s0 (tm m' r) (if va then vb else vc) T /\
    user m' e r /\ ~ user m e r /\ keeps e m m' /\ reachable O pr e m' /\ key_at O m' e k ck.
Proof.
  intros Hr Hk Ua Uc Ha Hb Hc M1 M2 M3 HT. unfold MUX.
  destruct (gate_run Gand e m k a b va vb Ea Eb T Hr Hk Ha Hb ltac:(cbn [mult]; lia)) as (ab & m1 & E1 & H1 & U1 & _ & K1 & R1 & Q1).
  { intros p Hp. apply HT. left. exact Hp. }
  change (gate_fun Gand O pr) with (AND O pr) in E1. rewrite E1. cbn [bind].
  destruct (K1 a Ua) as [Ua1 Ea1]. destruct (K1 c Uc) as [Uc1 Ec1].
  destruct (not_run e m1 a va Ea R1) as (na & m2 & E2 & H2 & U2 & _ & K2 & R2); [rewrite Ea1; exact Ha|].
  rewrite E2. cbn [bind]. pose proof (keeps_key _ _ _ _ _ K2 Q1) as Q2. destruct (K2 c Uc1) as [Uc2 Ec2].
  destruct (gate_run Gand e m2 k na c (negb va) vc Ea Ec T R2 Q2 H2) as (nc & m3 & E3 & H3 & U3 & _ & K3 & R3 & Q3).
  { rewrite Ec2, Ec1. exact Hc. }
  { cbn [mult]. lia. }
  { intros p Hp. apply HT. right. exists ab, m1, na, m2. split; [exact E1|]. split; [exact E2|]. left. exact Hp. }
  change (gate_fun Gand O pr) with (AND O pr) in E3. rewrite E3. cbn [bind].
  destruct (K2 ab U1) as [Uab2 Eab2]. destruct (K3 ab Uab2) as [Uab3 Eab3].
  destruct (gate_run Gor e m3 k ab nc (va && vb) (negb va && vc) T T T R3 Q3) as (r & m4 & E4 & H4 & U4 & N4 & K4 & R4 & Q4).
  { rewrite Eab3, Eab2. exact H1. }
  { exact H3. }
  { cbn [mult]. lia. }
  { intros p Hp. apply HT. right. exists ab, m1, na, m2. split; [exact E1|]. split; [exact E2|]. right. exists nc, m3. split; assumption. }
  change (gate_fun Gor O pr) with (OR O pr) in E4. rewrite E4. exists r, m4. split; [reflexivity|].
  assert (K: keeps e m m3) by (eapply keeps_trans; [exact K1|eapply keeps_trans; eassumption]).
  split; [|split; [exact U4|split; [|split; [|split; assumption]]]].
  - replace (if va then vb else vc) with (truth Gor (va && vb) (negb va && vc)); [exact H4|]. destruct va, vb, vc; reflexivity.
  - intro X. apply N4. apply K. exact X.
  - eapply keeps_trans; eassumption.
Qed.

(** ** circuits *)
Lemma wires_get e m w v E x : wires O pr e sk m w v E -> forall b, get v x = Ok b ->
  exists a, get w x = Ok a /\ user m e a /\ encrypts n s0 (tm m a) b E.
Proof.
  intros H b Hb. assert (Hl: length w = length v) by (clear -H; induction H; cbn [length]; congruence).
  assert (Hx: 0 <= x < zlen v).
  { destruct (Z_lt_dec x 0); [rewrite get_panic in Hb by (left; lia); discriminate|].
    destruct (Z_lt_dec x (zlen v)); [lia|]. rewrite get_panic in Hb by (right; lia). discriminate. }
  rewrite (get_ok false) in Hb by exact Hx. injection Hb as <-. exists (zn w x). split; [apply get_zn; unfold zlen in *; lia|].
  assert (G: forall i, (i < length v)%nat -> user m e (nth i w 0) /\ encrypts n s0 (tm m (nth i w 0)) (nth i v false) E).
  { clear -H. unfold wires in H. induction H as [|y c w v Hyc _ IH]; intros i Hi; [cbn in Hi; lia|]. destruct i; cbn [nth]; [exact Hyc|].
    apply IH. cbn in Hi. lia. }
  unfold zn, znd. apply G. unfold zlen in Hx. lia.
Qed.

Lemma wires_app e m w v E r b : wires O pr e sk m w v E -> user m e r -> encrypts n s0 (tm m r) b E ->
  wires O pr e sk m (w ++ [r]) (v ++ [b]) E.
Proof. intros H Hu He. apply Forall2_app; [exact H|]. constructor; [split; assumption|constructor]. Qed.

Lemma bind_ok {A B} (r : res A) (f : A -> res B) b : bind r f = Ok b -> exists a, r = Ok a /\ f a = Ok b.
Proof. destruct r as [a|]; cbn [bind]; [|discriminate]. intro H. exists a. split; [reflexivity|exact H]. Qed.

Lemma instr_run i e m k w v b E : reachable O pr e m -> key_at O m e k ck -> wires O pr e sk m w v E ->
  1 <= E -> 3 * E + round_err pr sk < 2 ^ 29 ->
  (forall p, boots_instr O pr e k i w m p -> boot_noise O pr sk ck tv p E) ->
  plain_instr i v = Ok b ->
  exists r m', exec_instr O pr e k i w m = Ok (r, m') /\ encrypts n s0 (tm m' r) b E /\
    user m' e r /\ keeps e m m' /\ reachable O pr e m' /\ key_at O m' e k ck.
Proof.
  intros Hr Hk Hw HE Hm HT Hp. pose proof round_err_nonneg as Hr0.
  destruct i as [g x y|x|c|x|x y z]; cbn [plain_instr exec_instr boots_instr] in *.
  - apply bind_ok in Hp. destruct Hp as (va & Gx & Hp). apply bind_ok in Hp. destruct Hp as (vb & Gy & Hp). injection Hp as <-.
    destruct (wires_get _ _ _ _ _ _ Hw _ Gx) as (a & Wx & Ux & Ex). destruct (wires_get _ _ _ _ _ _ Hw _ Gy) as (b & Wy & Uy & Ey).
    rewrite Wx, Wy. cbn [bind].
    destruct (gate_run g e m k a b va vb E E E Hr Hk Ex Ey) as (r & m' & E1 & H1 & U1 & _ & K1 & R1 & Q1).
    { pose proof (mult_pos g). assert (mult g * E <= 2 * E) by (apply Z.mul_le_mono_nonneg_r; lia). lia. }
    { intros p P. apply HT. exists a, b. auto. }
    exists r, m'. auto 10.
  - apply bind_ok in Hp. destruct Hp as (va & Gx & Hp). injection Hp as <-.
    destruct (wires_get _ _ _ _ _ _ Hw _ Gx) as (a & Wx & Ux & Ex). rewrite Wx. cbn [bind].
    destruct (not_run e m a va E Hr Ex) as (r & m' & E1 & H1 & U1 & _ & K1 & R1).
    exists r, m'. repeat (split; [assumption|]). eapply keeps_key; eassumption.
  - injection Hp as <-. destruct (const_run e m c Hr) as (r & m' & E1 & H1 & U1 & _ & K1 & R1).
    exists r, m'. split; [exact E1|]. split; [eapply enc_weaken; eassumption|]. repeat (split; [assumption|]). eapply keeps_key; eassumption.
  - destruct (wires_get _ _ _ _ _ _ Hw _ Hp) as (a & Wx & Ux & Ex). rewrite Wx. cbn [bind].
    destruct (copy_run e m a b E Hr Ux Ex) as (r & m' & E1 & _ & H1 & U1 & _ & K1 & R1).
    exists r, m'. repeat (split; [assumption|]). eapply keeps_key; eassumption.
  - apply bind_ok in Hp. destruct Hp as (va & Gx & Hp). apply bind_ok in Hp. destruct Hp as (vb & Gy & Hp).
    apply bind_ok in Hp. destruct Hp as (vc & Gz & Hp). injection Hp as <-.
    destruct (wires_get _ _ _ _ _ _ Hw _ Gx) as (a & Wx & Ux & Ex). destruct (wires_get _ _ _ _ _ _ Hw _ Gy) as (b & Wy & Uy & Ey).
    destruct (wires_get _ _ _ _ _ _ Hw _ Gz) as (c & Wz & Uz & Ez).
    rewrite Wx, Wy, Wz. cbn [bind].
    destruct (mux_run e m k a b c va vb vc E E E E Hr Hk Ux Uz Ex Ey Ez) as (r & m' & E1 & H1 & U1 & _ & K1 & R1 & Q1); try lia.
    { intros p P. apply HT. exists a, b, c. auto. }
    exists r, m'. auto 10.
Qed.

Lemma exec_run p e m k w v v' E : reachable O pr e m -> key_at O m e k ck -> wires O pr e sk m w v E ->
  1 <= E -> 3 * E + round_err pr sk < 2 ^ 29 ->
  (forall c, boots O pr e k p w m c -> boot_noise O pr sk ck tv c E) ->
  plain p v = Ok v' ->
  exists w' m', exec O pr e k p w m = Ok (w ++ w', m') /\ wires O pr e sk m' (w ++ w') v' E /\
    keeps e m m' /\ reachable O pr e m' /\ key_at O m' e k ck.
Proof.
  revert m w v. induction p as [|i p IH]; intros m w v Hr Hk Hw HE Hm HT Hp; cbn [plain exec boots] in *.
  - injection Hp as <-. exists [], m. rewrite app_nil_r. split; [reflexivity|]. split; [exact Hw|].
    split; [apply keeps_refl|]. split; assumption.
  - apply bind_ok in Hp. destruct Hp as (b & Hb & Hp).
    destruct (instr_run i e m k w v b E Hr Hk Hw HE Hm) as (r & m1 & E1 & H1 & U1 & K1 & R1 & Q1); [|exact Hb|].
    { intros c Hc. apply HT. left. exact Hc. }
    rewrite E1. cbn [bind].
    destruct (IH m1 (w ++ [r]) (v ++ [b]) R1 Q1) as (w' & m' & E2 & H2 & K2 & R2 & Q2); try assumption.
    { apply wires_app; [eapply keeps_wires; eassumption|assumption..]. }
    { intros c Hc. apply HT. right. exists r, m1. split; assumption. }
    exists (r :: w'), m'. rewrite <- app_assoc in E2, H2. split; [exact E2|]. split; [exact H2|].
    split; [eapply keeps_trans; eassumption|]. split; assumption.
Qed.

(** ** the README adder *)
Lemma full_adder_run e m k a b c va vb vc E : reachable O pr e m -> key_at O m e k ck ->
  wires O pr e sk m [a; b; c] [va; vb; vc] E -> 1 <= E -> 3 * E + round_err pr sk < 2 ^ 29 ->
  (forall p, full_adder_boots O pr e k m a b c p -> boot_noise O pr sk ck tv p E) ->
  exists s c' m', FullAdder O pr e k m a b c = Ok (s, c', m') /\
    wires O pr e sk m' [s; c'] [xorb (xorb va vb) vc; (va && vb) || (xorb va vb && vc)] E /\
    keeps e m m' /\ reachable O pr e m' /\ key_at O m' e k ck.
Proof.
  intros Hr Hk Hw HE Hm HT. unfold full_adder_boots in HT.
  destruct (exec_run _ e m k _ _ _ E Hr Hk Hw HE Hm HT eq_refl) as (w' & m' & E1 & H1 & K1 & R1 & Q1).
  cbn [truth app] in H1.
  unfold wires in H1. cbn [app] in H1.
  repeat match goal with H : Forall2 _ _ (_ :: _) |- _ => inversion H; clear H; subst end.
  match goal with H : Forall2 _ _ [] |- _ => inversion H; clear H; subst end.
  match type of E1 with _ = Ok ([_; _; _] ++ [?x; ?y; ?z; ?s; ?c], _) => exists s, c, m' end.
  split; [|split; [|split; [exact K1|split; assumption]]].
  - unfold FullAdder. cbn [exec exec_instr app] in E1.
    repeat match type of E1 with
    | context [get [a;b;c] 0] => change (get [a;b;c] 0) with (Ok a) in E1
    | context [get [a;b;c] 1] => change (get [a;b;c] 1) with (Ok b) in E1 end.
    cbn [bind] in E1. change (gate_fun Gxor O pr) with (XOR O pr) in E1.
    change (gate_fun Gand O pr) with (AND O pr) in E1. change (gate_fun Gor O pr) with (OR O pr) in E1.
    destruct (XOR O pr m e a b k) as [[r1 m1]|]; [|discriminate]. cbn [bind] in *.
    change (get [a;b;c;r1] 0) with (Ok a) in E1. change (get [a;b;c;r1] 1) with (Ok b) in E1. cbn [bind] in E1.
    destruct (AND O pr m1 e a b k) as [[r2 m2]|]; [|discriminate]. cbn [bind] in *.
    change (get [a;b;c;r1;r2] 3) with (Ok r1) in E1. change (get [a;b;c;r1;r2] 2) with (Ok c) in E1. cbn [bind] in E1.
    destruct (AND O pr m2 e r1 c k) as [[r3 m3]|]; [|discriminate]. cbn [bind] in *.
    change (get [a;b;c;r1;r2;r3] 3) with (Ok r1) in E1. change (get [a;b;c;r1;r2;r3] 2) with (Ok c) in E1. cbn [bind] in E1.
    destruct (XOR O pr m3 e r1 c k) as [[r4 m4]|]; [|discriminate]. cbn [bind] in *.
    change (get [a;b;c;r1;r2;r3;r4] 4) with (Ok r2) in E1. change (get [a;b;c;r1;r2;r3;r4] 5) with (Ok r3) in E1. cbn [bind] in E1.
    destruct (OR O pr m4 e r2 r3 k) as [[r5 m5]|]; [|discriminate]. cbn [bind] in *. injection E1 as -> -> -> -> -> ->. reflexivity.
  - constructor; [assumption|]. constructor; [assumption|constructor].
Qed.

Lemma get_app1 {A} (u v : list A) i : 0 <= i < zlen u -> get (u ++ v) i = get u i.
Proof.
  intro H. destruct u as [|d u]; [unfold zlen in H; cbn in H; lia|]. set (u' := d :: u) in *.
  rewrite !(get_ok d) by (unfold zlen in *; rewrite ?app_length; lia). unfold znd. rewrite app_nth1 by (unfold zlen in H; lia). reflexivity.
Qed.
Lemma get_app2 {A} (u v : list A) x : get (u ++ x :: v) (zlen u) = Ok x.
Proof.
  rewrite (get_ok x) by (unfold zlen; rewrite app_length; cbn [length]; lia). unfold znd, zlen.
  rewrite Nat2Z.id, app_nth2, Nat.sub_diag by lia. reflexivity.
Qed.

Lemma firstn_zlen {A} (u v : list A) : firstn (Z.to_nat (zlen u)) (u ++ v) = u.
Proof. unfold zlen. rewrite Nat2Z.id, firstn_app, Nat.sub_diag, firstn_all. cbn [firstn]. apply app_nil_r. Qed.

Lemma Adder_snoc e k m A B a b : zlen A = zlen B ->
  Adder O pr e k m (A ++ [a]) (B ++ [b]) =
  ('(res, carry, m) <- Adder O pr e k m A B ;; '(s, c, m) <- FullAdder O pr e k m a b carry ;; Ok (res ++ [s], c, m)).
Proof.
  intro Hl. unfold Adder. destruct (Constant O pr m false) as [[c0 m0]|]; [|reflexivity]. cbn [bind].
  replace (zlen (A ++ [a])) with (zlen A + 1) by (unfold zlen; rewrite app_length; cbn [length]; lia).
  assert (HA: 0 <= zlen A) by (unfold zlen; lia).
  rewrite (for_range_split 0 (zlen A)) by lia.
  rewrite (for_range_ext 0 (zlen A) _ (fun i '(result, carry, m) =>
    a <- get A i ;; b <- get B i ;; '(sum, carry, m) <- FullAdder O pr e k m a b carry ;; Ok (result ++ [sum], carry, m))).
  2: { intros i [[r c] mm] Hi. rewrite !get_app1 by lia. reflexivity. }
  match goal with |- bind ?x _ = bind ?y _ => change y with x; destruct x as [[[r c] mm]|]; [|reflexivity] end. cbn [bind].
  rewrite for_range_S by lia. rewrite get_app2.
  replace (get (B ++ [b]) (zlen A)) with (Ok b) by (rewrite Hl, get_app2; reflexivity). cbn [bind].
  destruct (FullAdder O pr e k mm a b c) as [[[s c'] m']|]; [|reflexivity]. cbn [bind]. rewrite for_range_empty by lia. reflexivity.
Qed.

Lemma le_value_app u v : le_value (u ++ v) = le_value u + 2 ^ zlen u * le_value v.
Proof.
  induction u as [|b u IH]; [unfold zlen; cbn [app le_value length]; change (2 ^ Z.of_nat 0) with 1; lia|].
  cbn [app le_value]. rewrite IH. unfold zlen. cbn [length].
  rewrite Nat2Z.inj_succ, Z.pow_succ_r by lia. ring.
Qed.

Lemma wires_len e m w v E : wires O pr e sk m w v E -> zlen w = zlen v.
Proof. unfold wires, zlen. intro H. f_equal. clear -H. induction H; cbn [length]; congruence. Qed.

Lemma adder_boots_snoc e k m A B a b c : zlen A = zlen B -> adder_boots O pr e k m A B c ->
  adder_boots O pr e k m (A ++ [a]) (B ++ [b]) c.
Proof.
  intros Hl (i & x & y & s & cy & m' & Hi & Gx & Gy & E & H). exists i, x, y, s, cy, m'.
  assert (Hn: (Z.to_nat i <= length A)%nat /\ (Z.to_nat i <= length B)%nat) by (unfold zlen in *; lia).
  rewrite !get_app1 by lia. rewrite !firstn_app. replace (Z.to_nat i - length A)%nat with 0%nat by lia.
  replace (Z.to_nat i - length B)%nat with 0%nat by lia. cbn [firstn]. rewrite !app_nil_r.
  split; [unfold zlen in *; rewrite app_length; cbn [length]; lia|]. auto.
Qed.

Lemma adder_run e k m A B va vb E : reachable O pr e m -> key_at O m e k ck ->
  zlen A = zlen B -> wires O pr e sk m A va E -> wires O pr e sk m B vb E -> 1 <= E -> 3 * E + round_err pr sk < 2 ^ 29 ->
  (forall c, adder_boots O pr e k m A B c -> boot_noise O pr sk ck tv c E) ->
  exists res carry m' vs vc, Adder O pr e k m A B = Ok (res, carry, m') /\
    wires O pr e sk m' (res ++ [carry]) (vs ++ [vc]) E /\ zlen vs = zlen va /\
    le_value (vs ++ [vc]) = le_value va + le_value vb /\
    keeps e m m' /\ reachable O pr e m' /\ key_at O m' e k ck.
Proof.
  intros Hr Hk. revert B va vb. induction A as [|a A IH] using rev_ind; intros B va vb Hl WA WB HE Hm HT.
  - destruct B as [|b B]; [|unfold zlen in Hl; cbn in Hl; lia]. inversion WA; subst. inversion WB; subst.
    destruct (const_run e m false Hr) as (r & m' & E1 & H1 & U1 & _ & K1 & R1).
    exists [], r, m', [], false. unfold Adder. rewrite E1. cbn [bind app]. split; [reflexivity|].
    split; [constructor; [split; [exact U1|eapply enc_weaken; eassumption]|constructor]|]. split; [reflexivity|]. split; [reflexivity|].
    split; [exact K1|]. split; [exact R1|]. eapply keeps_key; eassumption.
  - destruct B as [|b B _] using rev_ind; [unfold zlen in Hl; rewrite app_length in Hl; cbn in Hl; lia|].
    assert (Hl': zlen A = zlen B) by (unfold zlen in *; rewrite !app_length in Hl; cbn [length] in Hl; lia).
    apply Forall2_app_inv_l in WA. destruct WA as (va' & va1 & WA & WA1 & ->). inversion WA1 as [|? xa ? ? [Ua Ea] Wn]; subst. inversion Wn; subst.
    apply Forall2_app_inv_l in WB. destruct WB as (vb' & vb1 & WB & WB1 & ->). inversion WB1 as [|? xb ? ? [Ub Eb] Wn']; subst. inversion Wn'; subst.
    destruct (IH B va' vb' Hl' WA WB HE Hm) as (res & carry & m1 & vs & vc & E1 & W1 & Hvs & HV & K1 & R1 & Q1).
    { intros c Hc. apply HT. apply adder_boots_snoc; assumption. }
    rewrite Adder_snoc, E1 by assumption. cbn [bind].
    apply Forall2_app_inv_l in W1. destruct W1 as (vs' & vc' & W1 & W1' & Heq).
    inversion W1' as [|? xc ? ? [Uc Ec] Wn'']; subst. inversion Wn''; subst.
    apply app_inj_tail in Heq. destruct Heq as [<- <-].
    destruct (K1 a Ua) as [Ua1 Ea1]. destruct (K1 b Ub) as [Ub1 Eb1].
    destruct (full_adder_run e m1 k a b carry xa xb vc E R1 Q1) as (s & c' & m2 & E2 & W2 & K2 & R2 & Q2); try assumption.
    { constructor; [split; [exact Ua1|rewrite Ea1; exact Ea]|]. constructor; [split; [exact Ub1|rewrite Eb1; exact Eb]|].
      constructor; [split; assumption|constructor]. }
    { intros c Hc. apply HT. exists (zlen A), a, b, res, carry, m1.
      split; [unfold zlen; rewrite app_length; cbn [length]; lia|]. rewrite get_app2. split; [reflexivity|].
      split; [rewrite Hl'; apply get_app2|].
      rewrite firstn_zlen. replace (firstn (Z.to_nat (zlen A)) (B ++ [b])) with B by (rewrite Hl', firstn_zlen; reflexivity).
      split; assumption. }
    rewrite E2. cbn [bind]. exists (res ++ [s]), c', m2, (vs ++ [xorb (xorb xa xb) vc]), ((xa && xb) || (xorb xa xb && vc)).
    split; [reflexivity|]. split; [|split; [|split; [|split; [eapply keeps_trans; eassumption|split; assumption]]]].
    + rewrite <- !app_assoc. apply Forall2_app; [|exact W2]. eapply keeps_wires; eassumption.
    + unfold zlen in *. rewrite !app_length. cbn [length]. lia.
    + pose proof (wires_len _ _ _ _ _ WA) as L1. pose proof (wires_len _ _ _ _ _ WB) as L2.
      rewrite !le_value_app in HV. rewrite !le_value_app. cbn [le_value] in *.
      assert (Lz: zlen (vs ++ [xorb (xorb xa xb) vc]) = zlen vs + 1) by (unfold zlen; rewrite app_length; cbn [length]; lia).
      rewrite Lz, <- L2, <- L1, <- Hl', Hvs, <- L1. rewrite Hvs, <- L1 in HV.
      rewrite Z.pow_add_r by (unfold zlen; lia). change (2 ^ 1) with 2.
      generalize dependent (2 ^ zlen A). intros P HV.
      destruct xa, xb, vc; cbn [xorb andb orb Z.b2z] in *; lia.
Qed.

End Key.
End Gate.

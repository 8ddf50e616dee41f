(** * External product, CMUX and blind rotation, stated without the transform's laws *)
From Coq Require Import Lia ZifyBool Setoid Morphisms.
From Verif Require Import GoBase GoFacts GoMem MemFacts F64 Utils UtilsFacts Params Key Tlwe TlweMem TlweFacts BasicFacts
  Poly PolyFacts NegFacts Laws Fft FftTabErr Trlwe TrlweFacts Trgsw TrgswFacts RotFacts KeySwitchFacts Lut Evaluator EvalFacts OldRotFacts
  CloudKey CloudKeyFacts CallFacts Gates LinFacts RunSpec HeapFacts BootFacts Circuit GateFacts NoiseFacts RunProps.
Local Open Scope Z_scope.
Ltac Zify.zify_post_hook ::= idtac.

(** ** the float64 evaluator *)
Lemma f64_good mc O pr d d' : mc_ok mc -> good_params pr -> fft_evaluator (f64_arith mc) (g_N pr) = Ok O ->
  fft_error_within pr d d' ->
  exists L : flaws O (g_N pr), facc L (2 * g_L pr) (2 ^ (g_BGBIT pr - 1)) d /\ facc_mul L two31 1 d'.
Proof.
  intros Hc [W HBG] EO [Hd Hdd].
  pose proof (pw_nb _ _ W) as Hnb. pose proof (pw_N _ _ W) as HN. pose proof (pw_l _ _ W). pose proof (pw_2l _ _ W).
  pose proof (pw_bg _ _ W). pose proof (pw_lbg _ _ W).
  assert (H4: 4 <= g_NBIT pr).
  { destruct (eval_pow2 _ _ _ EO) as (k & Hk & E). rewrite HN in E. apply Z.pow_inj_r in E; lia. }
  assert (EO' := EO). rewrite HN in EO'.
  pose proof (f64_laws mc (g_NBIT pr) O Hc ltac:(lia) EO') as X. rewrite <- HN in X. destruct X as (L & HL1 & HL2).
  exists L.
  assert (Hb31: g_BGBIT pr <= 32).
  { assert (1 * g_BGBIT pr <= g_L pr * g_BGBIT pr) by (apply Z.mul_le_mono_nonneg_r; lia). lia. }
  assert (P31: 1 <= 2 ^ (g_BGBIT pr - 1) <= 2 ^ 31).
  { split; [apply (Z.pow_le_mono_r 2 0); lia|apply Z.pow_le_mono_r; lia]. }
  split.
  - apply HL1; [lia|exact P31|exact Hd].
  - apply HL2; [unfold two31; lia|lia|]. rewrite Z.mul_1_r. unfold two31. exact Hdd.
Qed.

Lemma bin_sbound N s : bin_key N s -> sbound N 1 s.
Proof. intros H i Hi. destruct (bin_zn N s i H Hi) as [-> | ->]; cbn; lia. Qed.

Section EP.
Context {O : fops} {N : Z} (L : flaws O N) (pr : pset) (W : pwf pr N) (HBG : g_BG pr = 2 ^ g_BGBIT pr).
Notation l := (g_L pr).
Notation bg := (g_BGBIT pr).
Notation n := (lv0_N pr).
Notation nb := (g_NBIT pr).
Notation M := (mem (FP O)).
Notation off := (w32 (doff bg l)).

(** ** digits *)
Lemma dsig_digits c : ct_ok N c -> digits pr c (dsig bg l off c).
Proof.
  intros [[_ KA] [_ KB]]. pose proof (pw_bg _ _ W). pose proof (pw_l _ _ W). pose proof (pw_lbg _ _ W).
  assert (Hl: 0 <= l) by lia.
  unfold digits. rewrite (pw_gN _ _ W). split; [|split].
  - intros i j _ _. apply dsig_range; assumption.
  - intros j Hj. change (dropped pr (tA c) j) with (trunc bg l (tA c) j).
    rewrite <- (trunc_eqm bg l off) by (assumption || reflexivity || (apply zn_tok; exact KA)).
    apply zsum_eqm. intros i Hi. unfold dsig. destruct (Z.ltb_spec i l); [reflexivity|lia].
  - intros j Hj. change (dropped pr (tB c) j) with (trunc bg l (tB c) j).
    rewrite <- (trunc_eqm bg l off) by (assumption || reflexivity || (apply zn_tok; exact KB)).
    apply zsum_eqm. intros i Hi. unfold dsig. destruct (Z.ltb_spec (l + i) l); [lia|]. replace (l + i - l) with i by lia. reflexivity.
Qed.

Lemma product_phase_eq s p er c k :
  product_phase pr s p er (dsig bg l off c) c k = p * cphase N s c k + @ep_noise N bg l off p s er c k.
Proof. unfold product_phase, ep_noise, cphase, trunc, dropped. rewrite (pw_gN _ _ W). ring. Qed.

Section Noise.
Context (d d' : Z) (Hfa : facc L (2 * l) (2 ^ (bg - 1)) d) (Hfm : facc_mul L two31 1 d').

Lemma epp_product s p rs g c : bin_key N s -> trgsw_of O pr s p rs g -> ct_ok N c ->
  product_of pr s p rs d d' c (epp L bg l off g c).
Proof.
  intros Hs Hg Hc. pose proof (pw_bg _ _ W). pose proof (pw_l _ _ W). pose proof (pw_lbg _ _ W).
  destruct (rowp_enc L pr W p s rs d' (bin_poly N s Hs) (bin_sbound N s Hs) Hfm) as (er & Her & Bnd).
  exists (dsig bg l off c), er. split; [apply dsig_digits; exact Hc|]. rewrite (pw_gN _ _ W). split.
  - intros i k _ Hk. apply Bnd. exact Hk.
  - intros k Hk. rewrite product_phase_eq.
    apply (epp_phase L bg l off) with (rw := rowp L pr p s rs); try assumption; try reflexivity; try lia.
    + apply trgsw_gkey; [exact W| |exact Hg]. rewrite (pw_gN _ _ W). apply Hs.
    + intros i Hi. eapply bin_nonneg; eassumption.
Qed.
End Noise.

Lemma product_of_worst s p rs c c' B d d' : bin_key N s -> product_of pr s p rs d d' c c' -> 0 <= B -> 0 <= d' ->
  (forall i k, 0 <= k < g_N pr -> Z.abs (samples rs i k) <= B) ->
  forall k, 0 <= k < g_N pr ->
  close (product_worst pr s p B d d') (rlwe_phase (g_N pr) s (tA c') (tB c') k) (p * rlwe_phase (g_N pr) s (tA c) (tB c) k).
Proof.
  intros Hs (dg & er & (Hr & _ & _) & He & Hp) HB Hd' HS k Hk. specialize (Hp k Hk).
  pose proof (pw_l _ _ W) as Hl. pose proof (pw_bg _ _ W) as Hbg. pose proof (pw_lbg _ _ W) as Hlb. pose proof (law_N L) as H16.
  unfold product_worst, product_phase in *. rewrite (pw_gN _ _ W) in *.
  assert (Hw: forall i, 0 <= i < N -> 0 <= zn s i) by (intros; eapply bin_nonneg; eassumption).
  assert (P1: 0 < 2 ^ (bg - 1)) by (apply Z.pow_pos_nonneg; lia).
  assert (P2: 0 < 2 ^ (32 - l * bg)) by (apply Z.pow_pos_nonneg; lia).
  assert (A1: Z.abs (zsum (2 * l) (fun i => negacyclic N (dg i) (er i) k)) <= 2 * l * (N * (2 ^ (bg - 1) * (B + d')))).
  { eapply Z.le_trans; [apply zsum_abs|]. rewrite <- (zsum_const (2 * l) (N * (2 ^ (bg - 1) * (B + d')))) by lia.
    apply zsum_le. intros i Hi. apply neg_abs; [assumption|lia| |].
    - intros j Hj. specialize (Hr i j Hi Hj). lia.
    - intros j Hj. specialize (He i j Hi Hj). specialize (HS i j Hj). lia. }
  assert (Htr: forall a j, 0 <= dropped pr a j <= 2 ^ (32 - l * bg) - 1).
  { intros a j. unfold dropped. pose proof (Z.mod_pos_bound (zn a j) _ P2). lia. }
  assert (A2: Z.abs (negacyclic N (dropped pr (tA c)) (zn s) k) <= (2 ^ (32 - l * bg) - 1) * weight N s).
  { apply neg_abs_weight; [assumption| |assumption]. intros j Hj. pose proof (Htr (tA c) j). lia. }
  pose proof (Htr (tB c) k) as A3.
  assert (A4: Z.abs (p * (dropped pr (tB c) k - negacyclic N (dropped pr (tA c)) (zn s) k)) <=
      Z.abs p * ((1 + weight N s) * (2 ^ (32 - l * bg) - 1))).
  { rewrite Z.abs_mul. apply Z.mul_le_mono_nonneg_l; [lia|]. lia. }
  eapply close_trans'; [exact Hp| |].
  - exists (zsum (2 * l) (fun i => negacyclic N (dg i) (er i) k) - p * (dropped pr (tB c) k - negacyclic N (dropped pr (tA c)) (zn s) k)).
    split; [|apply eqm_refl'; ring]. eapply Z.le_trans; [apply Z.abs_triangle with (m := - _)|]. rewrite Z.abs_opp.
    apply Z.add_le_mono; [exact A1|exact A4].
  - apply Z.eq_le_incl. ring.
Qed.

(** ** memory *)
Lemma uses_mono e (keep keep' : Z -> Prop) j m m' : (forall x, keep' x -> keep x) -> uses O pr e keep j m m' -> uses O pr e keep' j m m'.
Proof.
  intros H U. destruct U.
  - apply u_other; [assumption|]. intros x Hx. auto.
  - eapply u_boot; eassumption.
  - eapply u_assign with (ct := ct) (out := out); try eassumption. auto.
  - eapply u_rotate; try eassumption; auto.
  - eapply u_product; try eassumption; auto.
  - eapply u_cmux with (r0 := r0) (r1 := r1); try eassumption; auto.
  - apply u_pcall. assumption.
Qed.

(** one operation with output [o] *)
Lemma uses_out e o m m' : reachable O pr e m -> uses O pr e (fun x => x <> rA o /\ x <> rB o) 0 m m' ->
  reachable O pr e m' /\ user_kept_but e o m m'.
Proof.
  intros Hr U. split.
  - eapply r_uses; [exact Hr|]. eapply uses_mono; [|exact U]. intros x [].
  - destruct (reach_ok L pr W HBG e m Hr) as [He Hm]. destruct (uses_ok L pr W HBG _ _ _ _ _ He Hm U) as (_ & _ & _ & Nx & K).
    intros x Hx HA HB. split; [|apply K; [split; assumption|left; exact Hx]]. destruct Hx as [Hx Ho]. split; [lia|exact Ho].
Qed.

Definition at_ct (m : M) r c : at_ m r c -> ct_at m r = c.
Proof. intros [A B]. unfold ct_at. rewrite A, B. destruct c. reflexivity. Qed.

Lemma product_run e m key p rs g r c of out : reachable O pr e m -> zlen key = N -> trgsw_of O pr key p rs g ->
  table O pr m e r c -> room O pr m e out ->
  exists m', ExternalProductAssign O pr m e g r of out = Ok m' /\ ct_at m' out = epp L bg l of g c /\
    reachable O pr e m' /\ user_kept_but e out m m'.
Proof.
  intros Hr Hk Hg Ht Ho. destruct (reach_ok L pr W HBG e m Hr) as [He Hm]. rewrite <- (pw_gN _ _ W) in Hk.
  destruct (table_tvp L pr W _ _ _ _ He Ht) as (T1 & T2 & T3 & T4). destruct (room_ne L pr W _ _ _ He Ho) as (La & Lb & Hne & Oa & Ob).
  destruct (ExternalProductAssign_ok L pr W m e g c r of out He (trgsw_ok L pr W _ _ _ _ Hk Hg) T1 T2 (scr_dcb _ _ _ T3) (scr_dcb _ _ _ T4) La Lb Hne)
      as (m1 & E1 & V1 & S1).
  exists m1. split; [exact E1|]. split; [apply at_ct; exact V1|]. apply uses_out; [exact Hr|].
  eapply u_product; try eassumption; intros [X Y]; congruence.
Qed.

Lemma cmux_run e m key p rs g r0 c0 r1 c1 of out : reachable O pr e m -> zlen key = N -> trgsw_of O pr key p rs g ->
  table O pr m e r0 c0 -> table O pr m e r1 c1 -> room O pr m e out -> r0 = out \/ disjoint r0 out -> disjoint r1 out ->
  exists m', CMuxAssign O pr m e g r0 r1 of out = Ok m' /\ ct_at m' out = cmuxp L bg l of g c0 c1 /\
    reachable O pr e m' /\ user_kept_but e out m m'.
Proof.
  intros Hr Hk Hg Ht0 Ht1 Ho D0 D1. destruct (reach_ok L pr W HBG e m Hr) as [He Hm]. rewrite <- (pw_gN _ _ W) in Hk.
  destruct (table_tvp L pr W _ _ _ _ He Ht0) as (T1 & T2 & T3 & T4). destruct (table_tvp L pr W _ _ _ _ He Ht1) as (U1 & U2 & U3 & U4).
  destruct (room_ne L pr W _ _ _ He Ho) as (La & Lb & Hne & Oa & Ob).
  destruct (CMuxAssign_ok L pr W m e g c0 c1 r0 r1 of out He (trgsw_ok L pr W _ _ _ _ Hk Hg) T1 U1 T2 U2) as (m1 & E1 & V1 & S1); try assumption.
  { split; eapply scr_mono; [exact T3|lia|exact T4|lia]. }
  { split; eapply scr_mono; [exact U3|lia|exact U4|lia]. }
  { split; eapply scr_mono; [exact Oa|lia|exact Ob|lia]. }
  exists m1. split; [exact E1|]. split; [apply at_ct; exact V1|]. apply uses_out; [exact Hr|].
  eapply u_cmux with (r0 := r0) (r1 := r1); try eassumption; intros [X Y]; congruence.
Qed.

Lemma rotate_run sk rk rb ck e m ct tvr tv out : key_ok pr sk -> NewCloudKey O pr sk rk rb = Ok ck ->
  reachable O pr e m -> input O pr m e ct -> table O pr m e tvr tv -> room O pr m e out ->
  exists m', BlindRotateAssign O pr m e ct tvr (BootstrappingKey ck) (DecompositionOffset ck) out = Ok m' /\
    ct_at m' out = br_acc L bg l (DecompositionOffset ck) nb n (BootstrappingKey ck) (tm m ct) tv n /\
    reachable O pr e m' /\ user_kept_but e out m m'.
Proof.
  intros Hsk Hck Hr Hi Ht Ho. destruct (reach_ok L pr W HBG e m Hr) as [He Hm].
  destruct (cloud_facts L pr W HBG _ _ _ _ Hsk Hck) as (Hb & Hks & _).
  destruct (input_inp L pr W _ _ _ He Hi) as [I1 I2]. destruct (table_tvp L pr W _ _ _ _ He Ht) as (T1 & T2 & T3 & T4).
  destruct (room_ne L pr W _ _ _ He Ho) as (La & Lb & Hne & Oa & Ob).
  destruct (BlindRotateAssign_ok L pr W m e ct tvr tv _ (DecompositionOffset ck) out He Hb I1 T1 T2 I2 T3 T4 (acc_blk pr _ _ Oa) (acc_blk pr _ _ Ob) La Lb Hne)
    as (m1 & E1 & V1 & S1).
  exists m1. split; [exact E1|]. split; [apply at_ct; exact V1|]. apply uses_out; [exact Hr|].
  eapply u_rotate; try eassumption; intros [X Y]; congruence.
Qed.

(** ** the same on a polynomial evaluator *)
Lemma pcall_out p m m' : preachable O pr p m -> pcall O pr p m m' ->
  preachable O pr p m' /\ forall x, puser O m p x -> puser O m' p x /\ tm m' x = tm m x.
Proof.
  intros Hr Hc. destruct (preach_ok L pr W HBG p m Hr) as [He Hm]. destruct (pcall_step L pr W HBG m m' p He Hc) as [S1 _].
  split; [eapply pr_call; eassumption|]. intros x [Hx Ho]. split.
  - split; [|exact Ho]. destruct (fr_n _ _ _ _ _ (proj1 S1)) as (a & _). lia.
  - apply (step_t _ _ _ _ _ _ _ S1). intro X. apply Ho. unfold pscr, blk in X. unfold pown. lia.
Qed.

Lemma pproduct_run p m key msg rs g r c of : preachable O pr p m -> zlen key = N -> trgsw_of O pr key msg rs g -> ptable O pr m p r c ->
  exists out m', ExternalProductWithFFT O pr m g r of p = Ok (out, m') /\ ct_at m' out = epp L bg l of g c /\
    preachable O pr p m' /\ forall x, puser O m p x -> puser O m' p x /\ tm m' x = tm m x.
Proof.
  intros Hr Hk Hg Ht. destruct (preach_ok L pr W HBG p m Hr) as [He Hm]. rewrite <- (pw_gN _ _ W) in Hk.
  destruct (ptable_at pr W _ _ _ _ Ht) as (A & K & NA & NB).
  destruct (ExternalProductWithFFT_ok L pr W m p g c r of He (trgsw_ok L pr W _ _ _ _ Hk Hg) A K (pscr_8 pr _ _ NA) (pscr_8 pr _ _ NB))
      as (m1 & E1 & V1 & I1 & S1).
  eexists _, m1. split; [exact E1|]. split; [apply at_ct; exact V1|]. apply pcall_out; [exact Hr|]. eapply pc_product; eassumption.
Qed.

Lemma pcmux_run p m key msg rs g r0 c0 r1 c1 of : preachable O pr p m -> zlen key = N -> trgsw_of O pr key msg rs g ->
  ptable O pr m p r0 c0 -> ptable O pr m p r1 c1 ->
  exists out m', CMUX O pr m r0 r1 g of p = Ok (out, m') /\ ct_at m' out = cmuxp L bg l of g c0 c1 /\
    preachable O pr p m' /\ forall x, puser O m p x -> puser O m' p x /\ tm m' x = tm m x.
Proof.
  intros Hr Hk Hg Ht0 Ht1. destruct (preach_ok L pr W HBG p m Hr) as [He Hm]. rewrite <- (pw_gN _ _ W) in Hk.
  destruct (ptable_at pr W _ _ _ _ Ht0) as (A0 & K0 & NA0 & NB0). destruct (ptable_at pr W _ _ _ _ Ht1) as (A1 & K1 & NA1 & NB1).
  pose proof (po_i1 _ _ _ He) as Hi. destruct (next4_range _ Hi) as (Hn & _).
  destruct (CMUX_ok L pr W m p g c0 c1 r0 r1 of He (trgsw_ok L pr W _ _ _ _ Hk Hg) A0 A1 K0 K1) as (m1 & E1 & V1 & I1 & S1).
  - split; apply (pscr_8 pr); assumption.
  - apply pscr_slot; assumption.
  - apply pscr_slot; assumption.
  - apply pscr_slot; assumption.
  - eexists _, m1. split; [exact E1|]. split; [apply at_ct; exact V1|]. apply pcall_out; [exact Hr|].
    eapply pc_cmux; [exact Hk|exact Hg|exact Ht0|exact Ht1|exact E1].
Qed.

Lemma protate_run sk rk rb ck p m src tvr tv : key_ok pr sk -> NewCloudKey O pr sk rk rb = Ok ck ->
  preachable O pr p m -> zlen (tm m src) = n + 1 -> puser O m p src -> ptable O pr m p tvr tv ->
  exists out m', BlindRotate O pr m src tvr (BootstrappingKey ck) (DecompositionOffset ck) p = Ok (out, m') /\
    ct_at m' out = br_acc L bg l (DecompositionOffset ck) nb n (BootstrappingKey ck) (tm m src) tv n /\
    preachable O pr p m' /\ forall x, puser O m p x -> puser O m' p x /\ tm m' x = tm m x.
Proof.
  intros Hsk Hck Hr Hl Hu Ht. destruct (preach_ok L pr W HBG p m Hr) as [He Hm].
  destruct (ptable_at pr W _ _ _ _ Ht) as (A & K & NA & NB).
  assert (Hn: ~ pscr p src). { destruct Hu as [_ Hu]. intro X. apply Hu. unfold pscr, blk in X. unfold pown. lia. }
  destruct (BlindRotate_ok L pr W m p src tvr tv _ (DecompositionOffset ck) He (cloud_bsk L pr W HBG _ _ _ _ Hsk Hck) Hl A K Hn NA NB)
      as (r & m1 & E1 & V1 & _ & _ & S1 & He1).
  exists r, m1. split; [exact E1|]. split; [apply at_ct; exact V1|]. apply pcall_out; [exact Hr|]. eapply pc_rotate; eassumption.
Qed.

(** ** the index *)
Lemma rounded_br x : 0 <= nb <= 30 -> N = 2 ^ nb -> exists q, br_a nb x = rounded pr x - 2 * N * q.
Proof.
  intros Hnb HN. unfold br_a, rounded. set (y := x + 2 ^ (30 - nb)). set (t := 2 ^ (31 - nb)).
  assert (Ht: 0 < t) by (apply Z.pow_pos_nonneg; lia).
  assert (E: two32 = t * (2 * N)).
  { subst N t. rewrite Z.mul_assoc, (Z.mul_comm _ 2), <- Z.mul_assoc, <- Z.pow_add_r by lia. replace (31 - nb + nb) with 31 by lia. reflexivity. }
  exists (y / two32). rewrite Z.mod_eq by (unfold two32; lia). rewrite E at 1.
  replace (y - t * (2 * N) * (y / two32)) with (y + (- (2 * N * (y / two32))) * t) by ring. rewrite Z.div_add by lia. ring.
Qed.

Lemma index_rho s ct : exists q, rho N nb n s ct n = - rotation_index pr s ct + 2 * N * q.
Proof.
  pose proof (pw_nb _ _ W) as Hnb. pose proof (pw_N _ _ W) as HN. pose proof (pw_n _ _ W) as Hn. unfold rho, rotation_index, br_b.
  assert (G: exists q, zsum n (fun j => zn s j * br_a nb (zn ct j)) = zsum n (fun j => zn s j * rounded pr (zn ct j)) + 2 * N * q).
  { revert Hn. generalize n. apply (zsum_ind (fun n => exists q, zsum n (fun j => zn s j * br_a nb (zn ct j)) = zsum n (fun j => zn s j * rounded pr (zn ct j)) + 2 * N * q)).
    - exists 0. cbn. ring.
    - intros i Hi [q IH]. destruct (rounded_br (zn ct i) Hnb HN) as [q' E]. exists (q - zn s i * q').
      rewrite !zsum_S by lia. rewrite IH, E. ring. }
  destruct G as [q ->]. exists (q + 1). unfold rounded. ring.
Qed.

Lemma mono_index s ct a k : mono_mul N (rho N nb n s ct n) a k = mono_mul N (- rotation_index pr s ct) a k.
Proof.
  pose proof (law_N L). destruct (index_rho s ct) as [q E]. rewrite <- (mono_mod N (rho N nb n s ct n)), <- (mono_mod N (- rotation_index pr s ct)) by lia.
  f_equal. rewrite E. replace (- rotation_index pr s ct + 2 * N * q) with (- rotation_index pr s ct + q * (2 * N)) by ring.
  apply Z.mod_add. lia.
Qed.

Lemma index_close s ct : bin_key n s ->
  close (2 ^ (30 - nb) * (1 + weight n s)) (rotation_index pr s ct * 2 ^ (31 - nb)) (lwe_phase n s ct).
Proof.
  intro Hs. pose proof (pw_nb _ _ W) as Hnb. pose proof (pw_N _ _ W) as HN. pose proof (pw_n _ _ W) as Hn.
  destruct (lwe_idx_close nb n s ct Hnb Hn) as (x & Hx & E); [intros; eapply bin_nonneg; eassumption|].
  exists x. split; [exact Hx|]. rewrite <- E. destruct (index_rho s ct) as [q Q]. rewrite (lwe_idx_rho N), Q.
  assert (T: 2 * N * 2 ^ (31 - nb) = two32).
  { subst N. rewrite <- Z.mul_assoc, <- Z.pow_add_r by lia. replace (nb + (31 - nb)) with 31 by lia. reflexivity. }
  unfold eqm. replace ((2 * N - (- rotation_index pr s ct + 2 * N * q)) * 2 ^ (31 - nb))
    with (rotation_index pr s ct * 2 ^ (31 - nb) + (1 - q) * (2 * N * 2 ^ (31 - nb))) by ring.
  rewrite T. symmetry. apply Z.mod_add. unfold two32. lia.
Qed.

Lemma acc_phase sk rk rb ck ct tv eta k : key_ok pr sk -> NewCloudKey O pr sk rk rb = Ok ck -> zlen ct = n + 1 -> ct_ok N tv ->
  cmux_noise O pr sk (BootstrappingKey ck) (DecompositionOffset ck) ct tv eta -> 0 <= k < N ->
  close (zsum n eta + (1 + weight n (KeyLv0 sk)) * (1 + weight N (KeyLv1 sk)))
    (cphase N (KeyLv1 sk) (br_acc L bg l (DecompositionOffset ck) nb n (BootstrappingKey ck) ct tv n) k)
    (mono_mul N (- rotation_index pr (KeyLv0 sk) ct) (cphase N (KeyLv1 sk) tv) k).
Proof.
  intros Hsk Hck Hc Htv He Hk. destruct (key_ok_N pr W sk Hsk) as [K0 K1]. pose proof (pw_n _ _ W) as Hn.
  destruct (cloud_facts L pr W HBG _ _ _ _ Hsk Hck) as (Hb & _). rewrite (cmux_noise_iff L pr W sk K0) in He by assumption.
  rewrite <- mono_index. apply br_phase; try assumption.
  - intros j Hj. eapply bin_nonneg; eassumption.
  - intros j Hj. eapply bin_zn; eassumption.
Qed.
End EP.

(** ** CMUX when the output is the second operand *)
Lemma for_range_ext_inv {S} (P : S -> Prop) lo hi (b1 b2 : Z -> S -> res S) s : P s ->
  (forall i s, P s -> b1 i s = b2 i s /\ forall s', b2 i s = Ok s' -> P s') -> for_range lo hi b1 s = for_range lo hi b2 s.
Proof.
  intros Hs H. unfold for_range. generalize (Z.to_nat (hi - lo)) as k. revert lo s Hs. intros lo s Hs k. revert lo s Hs.
  induction k as [|k IH]; intros lo s Hs; cbn [loop]; [reflexivity|]. destruct (H lo s Hs) as [-> G].
  destruct (b2 lo s) as [s'|]; cbn [bind]; [|reflexivity]. apply IH. apply G. reflexivity.
Qed.

Lemma load_same {F} (m : mem F) x y i : tm m x = tm m y -> load m x i = load m y i.
Proof. intro H. unfold load. rewrite H. reflexivity. Qed.
Lemma store_other {F} (m m' : mem F) x y i v : store m x i v = Ok m' -> y <> x -> tm m' y = tm m y.
Proof.
  unfold store. destruct (set (tm m x) i v) as [u|]; cbn [bind]; [|discriminate]. intros H Hy. injection H as <-. apply tm_tset_ne. congruence.
Qed.

Lemma cmux_alias (O : fops) (pr : pset) (m : mem (FP O)) e g r0 of out :
  disjoint r0 out -> rA out <> rB out -> zlen (tm m (rA r0)) = zlen (tm m (rA out)) -> zlen (tm m (rB r0)) = zlen (tm m (rB out)) ->
  ~ blk (bp_t (ev_bp e)) 4 (rA out) -> ~ blk (bp_t (ev_bp e)) 4 (rB out) -> ~ blk (bp_t (ev_bp e)) 4 (rA r0) -> ~ blk (bp_t (ev_bp e)) 4 (rB r0) ->
  CMuxAssign O pr m e g r0 out of out = CMuxAssign O pr m e g r0 r0 of out.
Proof.
  intros (D1 & D2 & D3 & D4) Hne LA LB N1 N2 N3 N4. unfold CMuxAssign. cbn [bp_Temp bp_Result rA rB].
  set (m2 := mcopy (mcopy m (rA out) (rA r0)) (rB out) (rB r0)).
  set (P := fun m' : mem (FP O) => tm m' (rA out) = tm m' (rA r0) /\ tm m' (rB out) = tm m' (rB r0)).
  assert (H2: P m2).
  { assert (Q: forall (u : mem (FP O)) x y, zlen (tm u y) = zlen (tm u x) -> tm (mcopy u x y) x = tm u y).
    { intros u x y Hl. apply mcopy_same. symmetry. exact Hl. }
    assert (Q': forall (u : mem (FP O)) x y z, z <> x -> tm (mcopy u x y) z = tm u z).
    { intros u x y z Hz. unfold mcopy. apply tm_tset_ne. congruence. }
    unfold P, m2. split.
    - rewrite (Q' _ (rB out) _ (rA out)), (Q' _ (rB out) _ (rA r0)) by assumption. rewrite Q by exact LA. symmetry. apply Q'; assumption.
    - rewrite Q; [|rewrite !Q' by congruence; exact LB]. rewrite (Q' _ (rB out)) by congruence. rewrite !Q' by congruence. reflexivity. }
  rewrite (for_range_ext_inv P 0 (g_N pr) _ (fun i m => m <- (x <- load m (rA r0) i ;; y <- load m (rA r0) i ;; store m (bp_t (ev_bp e) + 2) i (tsub x y)) ;;
         x <- load m (rB r0) i ;; y <- load m (rB r0) i ;; store m (bp_t (ev_bp e) + 3) i (tsub x y)) m2 H2); [reflexivity|].
  assert (St: forall (u u' : mem (FP O)) k i v, 0 <= k < 4 -> store u (bp_t (ev_bp e) + k) i v = Ok u' -> P u -> P u').
  { intros u u' k i v Hk E [A B]. assert (Bk: blk (bp_t (ev_bp e)) 4 (bp_t (ev_bp e) + k)) by (unfold blk; lia).
    split; rewrite !(store_other _ _ _ _ _ _ E) by (intro X; rewrite X in *; contradiction); assumption. }
  intros i u Hu. split.
  - destruct Hu as [A B]. rewrite (load_same u _ _ i A). destruct (load u (rA r0) i) as [x|]; cbn [bind]; [|reflexivity].
    destruct (store u (bp_t (ev_bp e) + 2) i (tsub x x)) as [u1|] eqn:E1; cbn [bind]; [|reflexivity].
    destruct (St _ _ 2 _ _ ltac:(lia) E1 (conj A B)) as [A1 B1]. rewrite (load_same u1 _ _ i B1). reflexivity.
  - intros u' E. destruct (load u (rA r0) i) as [x|]; cbn [bind] in E; [|discriminate].
    destruct (store u (bp_t (ev_bp e) + 2) i (tsub x x)) as [u1|] eqn:E1; cbn [bind] in E; [|discriminate].
    destruct (load u1 (rB r0) i) as [y|]; cbn [bind] in E; [|discriminate].
    eapply (St _ _ 3); [lia|exact E|]. eapply (St _ _ 2); [lia|exact E1|exact Hu].
Qed.

(** ** without the laws *)
Section F64.
Context (mc : machine) (O : fops) (pr : pset) (d d' : Z) (Hcis : mc_ok mc) (Hpr : good_params pr)
  (EO : fft_evaluator (f64_arith mc) (g_N pr) = Ok O) (Hfft : fft_error_within pr d d').
Notation N := (g_N pr).
Notation n := (lv0_N pr).
Notation M := (mem (FP O)).
Notation ph s c := (rlwe_phase N s (tA c) (tB c)).

Lemma off_val of : genDecompositionOffset pr = Ok of -> of = w32 (doff (g_BGBIT pr) (g_L pr)).
Proof.
  destruct Hpr as [W HBG]. pose proof (pw_l _ _ W). rewrite genDecompositionOffset_ok by (assumption || lia || apply W). congruence.
Qed.

Lemma r_product s p rs g of e (m : M) r c out : bin_key N s -> trgsw_of O pr s p rs g -> genDecompositionOffset pr = Ok of ->
  reachable O pr e m -> table O pr m e r c -> room O pr m e out ->
  exists m', ExternalProductAssign O pr m e g r of out = Ok m' /\ product_of pr s p rs d d' c (ct_at m' out) /\
    reachable O pr e m' /\ user_kept_but e out m m'.
Proof.
  intros Hs Hg Hof Hr Ht Ho. destruct (f64_good mc O pr d d' Hcis Hpr EO Hfft) as (L & F1 & F2). apply off_val in Hof. destruct Hpr as [W HBG].
  destruct (product_run L pr W HBG e m s p rs g r c of out Hr (proj1 Hs) Hg Ht Ho) as (m' & E & V & R & K).
  exists m'. split; [exact E|]. split; [|split; assumption]. rewrite V, Hof.
  destruct Ht as (_ & _ & _ & _ & L1 & L2 & K1 & K2). apply epp_product; try assumption. split; split; assumption.
Qed.

Lemma r_pproduct s p rs g of q (m : M) r c : bin_key N s -> trgsw_of O pr s p rs g -> genDecompositionOffset pr = Ok of ->
  preachable O pr q m -> ptable O pr m q r c ->
  exists out m', ExternalProductWithFFT O pr m g r of q = Ok (out, m') /\ product_of pr s p rs d d' c (ct_at m' out) /\
    preachable O pr q m' /\ forall x, puser O m q x -> puser O m' q x /\ tm m' x = tm m x.
Proof.
  intros Hs Hg Hof Hr Ht. destruct (f64_good mc O pr d d' Hcis Hpr EO Hfft) as (L & F1 & F2). apply off_val in Hof. destruct Hpr as [W HBG].
  destruct (pproduct_run L pr W HBG q m s p rs g r c of Hr (proj1 Hs) Hg Ht) as (out & m' & E & V & R).
  exists out, m'. split; [exact E|]. split; [|exact R]. rewrite V, Hof.
  destruct Ht as (_ & _ & _ & _ & L1 & L2 & K1 & K2). apply epp_product; try assumption. split; split; assumption.
Qed.

Lemma r_worst s p rs c c' B : bin_key N s -> product_of pr s p rs d d' c c' -> 0 <= B -> 0 <= d' ->
  (forall i k, 0 <= k < N -> Z.abs (samples rs i k) <= B) ->
  forall k, 0 <= k < N -> close (product_worst pr s p B d d') (ph s c' k) (p * ph s c k).
Proof.
  intros. destruct (f64_good mc O pr d d' Hcis Hpr EO Hfft) as (L & F1 & F2). destruct Hpr as [W HBG].
  eapply (product_of_worst L pr W); eassumption.
Qed.

Lemma cmuxp_worst (L : flaws O N) : facc L (2 * g_L pr) (2 ^ (g_BGBIT pr - 1)) d -> facc_mul L two31 1 d' ->
  forall s p rs g c0 c1 B of, of = w32 (doff (g_BGBIT pr) (g_L pr)) -> bin_key N s -> trgsw_of O pr s p rs g -> 0 <= B -> 0 <= d' ->
  (forall i k, 0 <= k < N -> Z.abs (samples rs i k) <= B) ->
  forall k, 0 <= k < N ->
  close (product_worst pr s p B d d') (ph s (cmuxp L (g_BGBIT pr) (g_L pr) of g c0 c1) k) (ph s c0 k + p * (ph s c1 k - ph s c0 k)).
Proof.
  intros F1 F2 s p rs g c0 c1 B of -> Hs Hg HB Hd' HS k Hk. destruct Hpr as [W HBG]. pose proof (law_N L).
  apply (cmuxp_phase L); [exact Hk|]. apply (product_of_worst L pr W s p rs) with (c := csub N c1 c0); try assumption.
  apply epp_product; try assumption. apply csub_ok. lia.
Qed.

Lemma r_cmux s p rs g of e (m : M) r0 c0 r1 c1 out B : bin_key N s -> trgsw_of O pr s p rs g -> genDecompositionOffset pr = Ok of ->
  0 <= B -> 0 <= d' -> (forall i k, 0 <= k < N -> Z.abs (samples rs i k) <= B) ->
  reachable O pr e m -> table O pr m e r0 c0 -> table O pr m e r1 c1 -> room O pr m e out ->
  r0 = out \/ disjoint r0 out -> disjoint r1 out ->
  exists m', CMuxAssign O pr m e g r0 r1 of out = Ok m' /\
    (forall k, 0 <= k < N ->
      close (product_worst pr s p B d d') (ph s (ct_at m' out) k) (ph s c0 k + p * (ph s c1 k - ph s c0 k))) /\
    reachable O pr e m' /\ user_kept_but e out m m'.
Proof.
  intros Hs Hg Hof HB Hd' HS Hr Ht0 Ht1 Ho D0 D1. destruct (f64_good mc O pr d d' Hcis Hpr EO Hfft) as (L & F1 & F2). apply off_val in Hof.
  pose proof Hpr as [W HBG].
  destruct (cmux_run L pr W HBG e m s p rs g r0 c0 r1 c1 of out Hr (proj1 Hs) Hg Ht0 Ht1 Ho D0 D1) as (m' & E & V & R & K).
  exists m'. split; [exact E|]. split; [|split; assumption]. rewrite V. intros k Hk. eapply cmuxp_worst; eassumption.
Qed.

(** with the second operand as output, the second operand is lost *)
Lemma r_cmux_alias s p rs g of e (m : M) r0 c0 out B : bin_key N s -> trgsw_of O pr s p rs g -> genDecompositionOffset pr = Ok of ->
  0 <= B -> 0 <= d' -> (forall i k, 0 <= k < N -> Z.abs (samples rs i k) <= B) ->
  reachable O pr e m -> table O pr m e r0 c0 -> room O pr m e out -> disjoint r0 out ->
  exists m', CMuxAssign O pr m e g r0 out of out = Ok m' /\
    (forall k, 0 <= k < N -> close (product_worst pr s p B d d') (ph s (ct_at m' out) k) (ph s c0 k)) /\
    reachable O pr e m' /\ user_kept_but e out m m'.
Proof.
  intros Hs Hg Hof HB Hd' HS Hr Ht0 Ho D0.
  destruct (r_cmux s p rs g of e m r0 c0 r0 c0 out B Hs Hg Hof HB Hd' HS Hr Ht0 Ht0 Ho (or_intror D0) D0) as (m' & E & P & Q).
  exists m'. split; [|split; [|exact Q]].
  - rewrite <- E. destruct (f64_good mc O pr d d' Hcis Hpr EO Hfft) as (L & _ & _). destruct Hpr as [W HBG].
    destruct (reach_ok L pr W HBG e m Hr) as [He Hm]. destruct (table_tvp L pr W _ _ _ _ He Ht0) as ([T1 T1'] & [[T2 _] [T2' _]] & T3 & T4).
    destruct (room_ne L pr W _ _ _ He Ho) as (La & Lb & Hne & Oa & Ob).
    assert (G: forall x k, 4 <= k -> ~ scr e k x -> ~ blk (bp_t (ev_bp e)) 4 x).
    { unfold scr, blk. intros x k Hk H X. apply H. right. lia. }
    apply cmux_alias; try assumption; try congruence; (eapply G; [|eassumption]); lia.
  - intros k Hk. specialize (P k Hk). replace (ph s c0 k + p * (ph s c0 k - ph s c0 k)) with (ph s c0 k) in P by ring. exact P.
Qed.

Lemma r_pcmux s p rs g of q (m : M) r0 c0 r1 c1 B : bin_key N s -> trgsw_of O pr s p rs g -> genDecompositionOffset pr = Ok of ->
  0 <= B -> 0 <= d' -> (forall i k, 0 <= k < N -> Z.abs (samples rs i k) <= B) ->
  preachable O pr q m -> ptable O pr m q r0 c0 -> ptable O pr m q r1 c1 ->
  exists out m', CMUX O pr m r0 r1 g of q = Ok (out, m') /\
    (forall k, 0 <= k < N ->
      close (product_worst pr s p B d d') (ph s (ct_at m' out) k) (ph s c0 k + p * (ph s c1 k - ph s c0 k))) /\
    preachable O pr q m' /\ forall x, puser O m q x -> puser O m' q x /\ tm m' x = tm m x.
Proof.
  intros Hs Hg Hof HB Hd' HS Hr Ht0 Ht1. destruct (f64_good mc O pr d d' Hcis Hpr EO Hfft) as (L & F1 & F2). apply off_val in Hof.
  pose proof Hpr as [W HBG].
  destruct (pcmux_run L pr W HBG q m s p rs g r0 c0 r1 c1 of Hr (proj1 Hs) Hg Ht0 Ht1) as (out & m' & E & V & R).
  exists out, m'. split; [exact E|]. split; [|exact R]. rewrite V. intros k Hk. eapply cmuxp_worst; eassumption.
Qed.

End F64.

Section Props.
Context (R : arith) (O : fops) (pr : pset) (sk : SecretKey) (rk : Z -> enc_rand) (rb : Z -> Z -> trlwe_rand) (ck : CloudKey O)
  (S : setup R O pr sk rk rb ck).
Notation n := (lv0_N pr).
Notation N := (g_N pr).
Notation s0 := (KeyLv0 sk).
Notation s1 := (KeyLv1 sk).
Notation M := (mem (FP O)).
Notation ph s c := (rlwe_phase N s (tA c) (tB c)).

Lemma r_rotate e (m : M) ct tvr tv out eta : reachable O pr e m -> input O pr m e ct -> table O pr m e tvr tv -> room O pr m e out ->
  cmux_noise O pr sk (BootstrappingKey ck) (DecompositionOffset ck) (tm m ct) tv eta ->
  exists m', BlindRotateAssign O pr m e ct tvr (BootstrappingKey ck) (DecompositionOffset ck) out = Ok m' /\
    (forall k, 0 <= k < N -> close (zsum n eta + (1 + weight n s0) * (1 + weight N s1)) (ph s1 (ct_at m' out) k)
       (mono_mul N (- rotation_index pr s0 (tm m ct)) (ph s1 tv) k)) /\
    reachable O pr e m' /\ user_kept_but e out m m'.
Proof.
  intros Hr Hi Ht Ho He. open_setup S.
  destruct (rotate_run L pr W HBG sk rk rb ck e m ct tvr tv out Hsk Hck Hr Hi Ht Ho) as (m' & E & V & Q & K).
  exists m'. split; [exact E|]. split; [|split; assumption]. rewrite V. intros k Hk.
  destruct Ht as (_ & _ & _ & _ & L1 & L2 & K1 & K2).
  eapply (acc_phase L pr W HBG); try eassumption; [apply Hi|split; split; assumption].
Qed.

Lemma r_index ct : close (round_err pr sk) (rotation_index pr s0 ct * 2 ^ (31 - g_NBIT pr)) (lwe_phase n s0 ct).
Proof. open_setup S. apply (index_close L pr W). apply Hsk. Qed.

Lemma r_rotate_same e (m : M) p (m2 : M) ct ct2 tvr tvr2 tv out :
  reachable O pr e m -> input O pr m e ct -> table O pr m e tvr tv -> room O pr m e out ->
  preachable O pr p m2 -> puser O m2 p ct2 -> ptable O pr m2 p tvr2 tv -> tm m2 ct2 = tm m ct ->
  exists m' out2 m2',
    BlindRotateAssign O pr m e ct tvr (BootstrappingKey ck) (DecompositionOffset ck) out = Ok m' /\
    BlindRotate O pr m2 ct2 tvr2 (BootstrappingKey ck) (DecompositionOffset ck) p = Ok (out2, m2') /\
    ct_at m2' out2 = ct_at m' out /\ reachable O pr e m' /\ preachable O pr p m2'.
Proof.
  intros Hr Hi Ht Ho Hp Hu Hpt Eq. open_setup S.
  destruct (rotate_run L pr W HBG sk rk rb ck e m ct tvr tv out Hsk Hck Hr Hi Ht Ho) as (m' & E & V & Q & K).
  destruct (protate_run L pr W HBG sk rk rb ck p m2 ct2 tvr2 tv Hsk Hck Hp) as (out2 & m2' & E2 & V2 & Q2 & K2); try assumption.
  { rewrite Eq. apply Hi. }
  exists m', out2, m2'. split; [exact E|]. split; [exact E2|]. split; [|split; assumption]. rewrite V, V2, Eq. reflexivity.
Qed.

(** key generation schedules *)
Lemma r_bsk_schedule : exists gs, bsk_goroutines O pr sk rb = Ok gs /\ zlen (BootstrappingKey ck) = n /\
  forall tr, interleaving gs tr ->
    apply_writes (repeat [] (Z.to_nat n)) tr = Ok (BootstrappingKey ck) /\
    forall x, 0 <= x < n -> zlen (filter (fun w => fst w =? x) tr) = 1.
Proof.
  open_setup S. destruct (key_ok_N pr W sk Hsk) as [[H0 _] [H1 _]].
  rewrite (NewCloudKey_ok L pr W sk rb H0 H1 rk HBG) in Hck. injection Hck as <-. cbn [BootstrappingKey].
  exists (tab n (bws L pr sk rb)). split; [apply bsk_goroutines_ok; assumption|]. split; [apply zlen_tab; apply (pw_n _ _ W)|].
  intros tr Htr. split; [apply bsk_any_schedule; assumption|]. intros x Hx.
  change (SchedFacts.times tr x = 1). rewrite (SchedFacts.times_perm tr (concat (tab n (bws L pr sk rb)))) by (apply SchedFacts.interleaving_perm; assumption).
  apply bws_times; assumption.
Qed.
End Props.

(** worst case of the rotation *)
Lemma r_rotate_worst mc O pr sk rk rb ck Bb Bk d d' ct tv : mc_ok mc -> setup (f64_arith mc) O pr sk rk rb ck ->
  fft_error_within pr d d' -> key_noise_within pr rk rb Bb Bk -> 0 <= Bb -> 0 <= d' ->
  zlen (tA tv) = g_N pr -> zlen (tB tv) = g_N pr -> tok_list (tA tv) -> tok_list (tB tv) -> zlen ct = lv0_N pr + 1 ->
  cmux_noise O pr sk (BootstrappingKey ck) (DecompositionOffset ck) ct tv (fun _ => cmux_worst pr sk Bb d d').
Proof.
  intros Hc S Hfft [Hrb Hrk] HBb Hd' L1 L2 K1 K2 Hl. destruct S as (Hpr & EO & Hsk & Hck).
  destruct (f64_good mc O pr d d' Hc Hpr EO Hfft) as (L & F1 & F2). destruct Hpr as [W HBG].
  apply (cmux_worst_ok L pr W HBG sk rk rb ck Hsk Hck Bb Bk d d' HBb Hd' F1 F2 Hrb Hrk); [split; split; assumption|exact Hl].
Qed.

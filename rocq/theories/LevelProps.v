(** * Lemmas for C34 and C35 *)
From Coq Require Import Lia ZifyBool String.
From Verif Require Import GoBase GoFacts GoMem F64 Utils Spec Params Key Tlwe TlweMem Poly PolyFacts NegFacts Fft Laws Trlwe Trgsw Evaluator CloudKey Gates
  RunSpec MemFacts TrlweFacts TrgswFacts FftOps FftProps NoiseFacts CloudKeyFacts EvalFacts HeapFacts GateFacts LevelSpec LenFacts RunProps.
Import ListNotations.
Local Open Scope Z_scope.
Ltac Zify.zify_post_hook ::= idtac.

(** ** C34: too few decomposition levels *)
Section Few.
Context (O : fops) (pr : pset).
Notation M := (mem (FP O)).

Lemma few_product (m : M) e g c off out : dc_levels (ev_dec e) < 2 * g_L pr ->
  ExternalProductAssign O pr m e g c off out = Panic (PMsg "decomposition level exceeds buffer size").
Proof. intro H. unfold ExternalProductAssign, GetPolyDecomposedBuffer. assert (E: dc_levels (ev_dec e) <? g_L pr * 2 = true) by lia. rewrite E. reflexivity. Qed.
Lemma few_cmux (m : M) e g c0 c1 off out : dc_levels (ev_dec e) < 2 * g_L pr -> panics (CMuxAssign O pr m e g c0 c1 off out).
Proof. intro H. unfold CMuxAssign. apply bind_panics2. intros m1 _. apply bind_panics1. rewrite few_product by exact H. eexists. reflexivity. Qed.
Lemma few_rotate (m : M) e c tv bsk off out : dc_levels (ev_dec e) < 2 * g_L pr -> 0 < lv0_N pr -> panics (BlindRotateAssign O pr m e c tv bsk off out).
Proof.
  intros H Hn. unfold BlindRotateAssign. do 3 (apply bind_panics2; intros ? _). apply bind_panics1.
  apply (range_panics (fun _ => True) _ _ _ 0); auto; [lia|]. intros s _. do 4 (apply bind_panics2; intros ? _). apply few_cmux. exact H.
Qed.

Lemma copy_levels (m : M) e c m' : ShallowCopy O pr m e = Ok (c, m') -> dc_levels (ev_dec c) = 1.
Proof.
  unfold ShallowCopy. intro H. inv_bind H. destruct x as [pe m1]. inv_bind H. inv_bind H. destruct x0 as [d m2]. inv_bind H. destruct x0 as [bp m3].
  injection H as <- <-. cbn [ev_dec]. unfold NewDecomposer in E1. change (1 <? 0) with false in E1. change (1 =? 0) with false in E1. cbn [bind] in E1.
  do 2 inv_bind E1. injection E1 as <- _. reflexivity.
Qed.
End Few.

(** what is wrong with the copies, and only that *)
Lemma l_copy_panics (O : fops) pr : 1 <= g_L pr -> 0 < lv0_N pr -> forall (m0 : mem (FP O)) e c m1, ShallowCopy O pr m0 e = Ok (c, m1) ->
  forall m : mem (FP O),
  (forall g r off out, ExternalProductAssign O pr m c g r off out = Panic (PMsg "decomposition level exceeds buffer size")) /\
  (forall g r0 r1 off out, panics (CMuxAssign O pr m c g r0 r1 off out)) /\
  (forall ct tv bsk off out, panics (BlindRotateAssign O pr m c ct tv bsk off out)) /\
  (forall ct tv bsk ksk off out, panics (BootstrapAssign O pr m c ct tv bsk ksk off out)) /\
  (forall ct tv bsk ksk off, panics (Bootstrap O pr m c ct tv bsk ksk off)) /\
  (forall ct lut bsk ksk off, panics (BootstrapLUT O pr m c ct lut bsk ksk off)) /\
  (forall ct f mm bsk ksk off, panics (BootstrapFunc O pr m c ct f mm bsk ksk off)).
Proof.
  intros Hl Hn m0 e c m1 E m. apply copy_levels in E. assert (H: dc_levels (ev_dec c) < 2 * g_L pr) by lia.
  assert (BA: forall m ct tv bsk ksk off out, panics (BootstrapAssign O pr m c ct tv bsk ksk off out))
    by (intros; unfold BootstrapAssign; apply bind_panics1, few_rotate; assumption).
  split; [intros; apply few_product; exact H|]. split; [intros; apply few_cmux; exact H|]. split; [intros; apply few_rotate; assumption|].
  split; [intros; apply BA|].
  assert (BL: forall m ct lut bsk ksk off, panics (BootstrapLUT O pr m c ct lut bsk ksk off)).
  { intros. unfold BootstrapLUT. apply bind_panics2. intros [r ?] _. apply bind_panics1. apply BA. }
  split; [|split; [intros; apply BL|]].
  - intros. unfold Bootstrap. apply bind_panics2. intros [r ?] _. apply bind_panics1, BA.
  - intros. unfold BootstrapFunc. apply bind_panics2. intros [r ?] _. apply BL.
Qed.

Section Copy.
Context (R : arith) (O : fops) (pr : pset) (sk : SecretKey) (rk : Z -> enc_rand) (rb : Z -> Z -> trlwe_rand) (ck : CloudKey O)
  (S : setup R O pr sk rk rb ck).
Notation M := (mem (FP O)).

Lemma l_copy_made e (m : M) : reachable O pr e m -> exists c m', ShallowCopy O pr m e = Ok (c, m') /\
  (forall x, x < tnext m -> tm m' x = tm m x) /\ (forall x, x < fnext m -> fm m' x = fm m x) /\ (forall x, x < inext m -> im m' x = im m x) /\
  reachable O pr e m' /\ preachable O pr (ev_pe c) m' /\ new_buffers m m' c.
Proof.
  intro Hr. open_setup S. destruct (reach_ok L pr W HBG e m Hr) as [He Hm]. pose proof Hm as (M1 & M2 & M3).
  unfold ShallowCopy. rewrite (eo_deg _ _ _ _ He). unfold PolyEvaluator_ShallowCopy. rewrite (eo_deg _ _ _ _ He).
  destruct (NewPolyEvaluator_ok L m) as (m1 & E1 & (G1 & A1 & B1 & C1) & _). unfold NewPolyEvaluator in E1.
  assert (ED: exists u, check_degree (g_N pr) = Ok u) by (destruct (check_degree (g_N pr)) as [u|]; [eexists; reflexivity|discriminate]).
  destruct ED as [u ED]. pose proof E1 as E1'. rewrite ED in E1. cbn [bind] in E1. rewrite E1. cbn [bind].
  unfold GetPolyDecomposedBuffer. pose proof (pw_l _ _ W) as Hl. pose proof (eo_lv _ _ _ _ He) as Hlv.
  assert (EL: dc_levels (ev_dec e) <? 1 = false) by lia. rewrite EL. change (1 <? 0) with false. cbn [bind].
  destruct (NewDecomposer_ok L m1 1 ltac:(lia)) as (m2 & E2 & (G2 & A2 & B2 & C2) & _). rewrite E2. cbn [bind].
  destruct (NewBufferPool_ok L pr W m2) as (m3 & E3 & (G3 & A3 & B3 & C3) & _). rewrite E3. cbn [bind].
  eexists _, _. split; [reflexivity|].
  assert (G: grows L none none none m m3) by (eapply grows_trans; [exact G1|]; eapply grows_trans; [exact G2|exact G3]).
  assert (T: forall x, x < tnext m -> tm m3 x = tm m x) by (intros x Hx; apply (gr_t _ _ _ _ _ _ G); [exact Hx|intros []]).
  assert (F: forall x, x < fnext m -> fm m3 x = fm m x) by (intros x Hx; apply (gr_f _ _ _ _ _ _ G); [exact Hx|intros []]).
  assert (I: forall x, x < inext m -> im m3 x = im m x) by (intros x Hx; apply (gr_i _ _ _ _ _ _ G); [exact Hx|intros []]).
  split; [exact T|]. split; [exact F|]. split; [exact I|].
  split; [|split].
  - eapply (reach_other L pr W HBG); [exact Hr| | | |lia|lia|lia]; intros x Hx.
    + apply T. pose proof (eo_t3 _ _ _ _ He). unfold own in Hx. lia.
    + apply F. pose proof (eo_f3 _ _ _ _ He). unfold fown in Hx. lia.
    + apply I. pose proof (eo_i2 _ _ _ _ He). unfold iown in Hx. lia.
  - cbn [ev_pe]. assert (G': grows L none none none m1 m3) by (eapply grows_trans; [exact G2|exact G3]).
    eapply pr_other; [eapply pr_new; [exact Hm|exact E1']| | | |lia|lia|lia]; cbn [pe_t pe_f pe_i]; unfold pown; cbn [pe_t]; intros x Hx.
    + apply (gr_t _ _ _ _ _ _ G'); [lia|intros []].
    + apply (gr_f _ _ _ _ _ _ G'); [lia|intros []].
    + apply (gr_i _ _ _ _ _ _ G'); [lia|intros []].
  - unfold new_buffers. cbn [ev_pe ev_bp ev_dec pe_t pe_f pe_i bp_t bp_f bp_i dc_t dc_f dc_levels]. cbv zeta. repeat split; lia.
Qed.
End Copy.

(** ** C35: the package's evaluator at other levels *)

(** where it works *)
Lemma l_serves level : In level [Security128Bit; SecurityUint1] -> serves params128Bit (get_params level).
Proof. intros [<-|[<-|[]]]; repeat split; discriminate. Qed.

Lemma l_works O level (m0 m1 : mem (FP O)) e : In level [Security128Bit; SecurityUint1] ->
  mem_ok m0 -> init O m0 = Ok (e, m1) -> reachable O (get_params level) e m1.
Proof. intros Hl H0 E. unfold init in E. exact (r_new O (get_params level) e params128Bit m0 m1 H0 (l_serves level Hl) E). Qed.

Section Sizes.
Context (R : arith) (tw twi : list (AN R * AN R)).
Notation O := (fft_ops R tw twi).
Notation M := (mem (list (AN R))).

(** the lengths after init *)
Lemma init_sizes (m0 m1 : M) e : mem_ok m0 -> init O m0 = Ok (e, m1) ->
  (forall x, bp_t (ev_bp e) <= x < bp_t (ev_bp e) + 10 -> x < tnext m1 /\ zlen (tm m1 x) = 1024) /\
  (forall x, bp_t (ev_bp e) + 11 <= x < bp_t (ev_bp e) + 17 -> x < tnext m1 /\ zlen (tm m1 x) = 701) /\
  (forall x, bp_f (ev_bp e) <= x < bp_f (ev_bp e) + 2 -> x < fnext m1 /\ zlen (fm m1 x) = 1024).
Proof.
  intros (M1 & M2 & M3). unfold init, NewEvaluator. intro H. inv_bind H. destruct x as [pe m2]. inv_bind H. destruct x as [d m3]. inv_bind H. destruct x as [bp m4].
  injection H as <- <-. cbn [ev_bp]. revert E1. unfold NewBufferPool, NewTRLWELv1, NewTLWE. change (f_new O) with (NewFourierPoly R).
  change (g_N params128Bit) with 1024. change (trlwe_N params128Bit) with 1024. change (lv1_N params128Bit) with 1024. change (lv0_N params128Bit) with 700.
  unfold NewFourierPoly. change (check_degree 1024) with (Ok tt). rewrite !make_ok by lia. cbn [bind]. intro H. 
  set (f := repeat (a_zero R) (Z.to_nat 1024)) in H. set (t := repeat 0 (Z.to_nat 1024)) in H. set (c1 := repeat 0 (Z.to_nat (1024 + 1))) in H. set (c0 := repeat 0 (Z.to_nat (700 + 1))) in H.
  assert (Lf: zlen f = 1024) by (unfold zlen, f; rewrite repeat_length; lia). assert (Lt: zlen t = 1024) by (unfold zlen, t; rewrite repeat_length; lia).
  assert (Lc: zlen c0 = 701) by (unfold zlen, c0; rewrite repeat_length; lia). clearbody f t c1 c0.
  unfold alloc_fs, alloc_ts, alloc_is in H. cbn [tA bind tnext fnext inext tm fm im] in H. injection H as <- <-. cbn [bp_t bp_f tnext fnext tm fm].
  split; [|split]; intros x Hx; (split; [lia|]).
  all: repeat match goal with |- context [if ?b then _ else _] => destruct b eqn:?; cbv beta iota; try assumption; try (exfalso; lia) end.
Qed.

(** a memory in which the evaluator's buffers have those lengths *)
Definition sized (m : M) (e : evaluator) : Prop :=
  (forall x, bp_t (ev_bp e) <= x < bp_t (ev_bp e) + 10 -> x < tnext m /\ zlen (tm m x) = 1024) /\
  (forall x, bp_t (ev_bp e) + 11 <= x < bp_t (ev_bp e) + 17 -> x < tnext m /\ zlen (tm m x) = 701) /\
  (forall x, bp_f (ev_bp e) <= x < bp_f (ev_bp e) + 2 -> x < fnext m /\ zlen (fm m x) = 1024).
Lemma sized_kept m m' e : sizes_kept m m' -> sized m e -> sized m' e.
Proof.
  intros S (A & B & C). pose proof S as (N1 & N2 & _). split; [|split]; intros x Hx.
  - destruct (A x Hx). rewrite (sk_t _ _ _ S) by assumption. split; [lia|assumption].
  - destruct (B x Hx). rewrite (sk_t _ _ _ S) by assumption. split; [lia|assumption].
  - destruct (C x Hx). rewrite (sk_f _ _ _ S) by assumption. split; [lia|assumption].
Qed.

(** degree 2048 *)
Lemma big_cmux pr (m : M) e g c0 c1 off out : 1024 < g_N pr -> sized m e -> panics (CMuxAssign O pr m e g c0 c1 off out).
Proof.
  intros HN Hs. unfold CMuxAssign. apply bind_panics1. apply (range_panics (fun m => sized m e) _ _ _ 1024); [lia| | |].
  - eapply sized_kept; [|exact Hs]. eapply sk_trans; apply sk_mcopy.
  - intros j s s' H E. eapply sized_kept; [|exact H]. inv_bind E. inv_bind E0. inv_bind E0. inv_bind E. inv_bind E. eapply sk_trans; eapply sk_store; eassumption.
  - intros s (A & _). apply bind_panics1. do 2 (apply bind_panics2; intros ? _). apply store_panics. right.
    pose proof (proj2 (A (bp_t (ev_bp e) + 2) ltac:(lia))) as Q. change (zlen (tm s (bp_t (ev_bp e) + 2)) <= 1024). lia.
Qed.
(** degree 512 *)
Definition rows512 (g : trgsw_fft O) : Prop := Forall (fun r => zlen (fst r) = 512) g.
Lemma small_product pr (m : M) e g c off out : 1 <= g_L pr -> sized m e -> rows512 g -> panics (ExternalProductAssign O pr m e g c off out).
Proof.
  intros Hl Hs Hg. unfold ExternalProductAssign. do 2 (apply bind_panics2; intros ? _).
  apply bind_panics2. intros m1 E1. apply sk_decompose in E1. apply bind_panics2. intros m2 E2. apply sk_decompose in E2.
  apply bind_panics2. intros m3 E3.
  assert (A3: sizes_kept m2 m3).
  { eapply sk_loop; [|exact E3]. intros i u v E'. unfold ToFourierPolyAssign in E'. inv_bind E'. injection E' as <-. apply sk_fset. eapply toFourier_len. exact E. }
  assert (CL: forall (a b : M) f, ClearBuffer O a f = Ok b -> sizes_kept a b).
  { intros a b f Hab. unfold ClearBuffer in Hab. inv_bind Hab. injection Hab as <-. apply sk_fset. eapply clear_len. exact E. }
  apply bind_panics2. intros m4 E4. apply CL in E4. apply bind_panics2. intros m5 E5. apply CL in E5.
  assert (H5: sized m5 e) by (repeat (eapply sized_kept; [eassumption|]); exact Hs).
  apply bind_panics1. apply (range_panics (fun m => sized m e) _ _ _ 0); [lia|exact H5| |].
  - intros j s s' Hj E. eapply sized_kept; [|exact Hj]. do 2 inv_bind E. unfold MulAddFourierPolyAssign in *. inv_bind E6. injection E6 as <-. inv_bind E. injection E as <-.
    cbn [f_muladd fft_ops] in *. unfold elementWiseMulAddCmplxAssign in *. eapply sk_trans; apply sk_fset; eapply elementwise_len; [exact E7|exact E6].
  - intros s (_ & _ & C). apply bind_panics2. intros row Er. apply bind_panics1. unfold MulAddFourierPolyAssign. apply bind_panics1.
    apply (get_inv ([], [])) in Er. destruct Er as [Hr ->]. apply (elementwise_short R _ _ _ _ 64); [lia| |].
    + apply (proj1 (Forall_znd (fun r => zlen (fst r) = 512) ([], []) g) Hg). exact Hr.
    + pose proof (proj2 (C (bp_f (ev_bp e)) ltac:(lia))) as Q. change (8 * 64 < zlen (fm s (bp_f (ev_bp e)))). lia.
Qed.

(** key switching into a buffer of the wrong length *)
Lemma zero_loop (m : M) out m' : for_range 0 (zlen (tm m out)) (fun i m => store m out i 0) m = Ok m' ->
  sizes_kept m m' /\ (forall i, 0 <= i < zlen (tm m out) -> zn (tm m' out) i = 0) /\ (forall x, x <> out -> tm m' x = tm m x).
Proof.
  intro E. destruct (mem_fill_all m out (zlen (tm m out)) (fun _ _ => Ok 0) (fun _ => 0) eq_refl) as (m1 & E1 & V1 & F1); [intros; reflexivity|].
  assert (E2: for_range 0 (zlen (tm m out)) (fun i m => store m out i 0) m = Ok m1) by exact E1. rewrite E in E2. injection E2 as <-.
  split; [|split].
  - eapply sk_loop; [|exact E]. intros i a b. apply sk_store.
  - intros i Hi. rewrite V1. change (znd 0 (tab (zlen (tm m out)) (fun _ => 0)) i = 0). rewrite znd_tab by lia. reflexivity.
  - intros x Hx. apply (fr_t _ _ _ _ _ F1). intro H. apply Hx. symmetry. exact H.
Qed.
Lemma ks_long pr (m : M) src ksk out : zlen (tm m out) <= lv0_N pr -> out < tnext m -> panics (IdentityKeySwitchingAssign pr m src ksk out).
Proof.
  intros H Ho. unfold IdentityKeySwitchingAssign. apply bind_panics2. intros ? _. apply bind_panics2. intros m1 E1. apply bind_panics2. intros b _.
  apply bind_panics1. apply store_panics. right. apply zero_loop in E1. destruct E1 as (S & _). rewrite (sk_t _ _ _ S Ho). exact H.
Qed.
Lemma ks_short pr (m : M) src ksk out m' : 0 <= lv0_N pr -> Forall (fun r => zlen r = lv0_N pr + 1) ksk -> lv0_N pr + 1 < zlen (tm m out) -> out < tnext m ->
  IdentityKeySwitchingAssign pr m src ksk out = Ok m' ->
  sizes_kept m m' /\ forall i, 0 <= i < zlen (tm m out) -> i <> lv0_N pr -> zn (tm m' out) i = 0.
Proof.
  intros Hn Hk Hl Ho H. unfold IdentityKeySwitchingAssign in H. do 5 inv_bind H. apply zero_loop in E0. destruct E0 as (S0 & V0 & _).
  pose proof (sk_store _ _ _ _ _ E2) as S1. assert (S: sizes_kept m x2) by (eapply sk_trans; eassumption).
  assert (Lx: zlen (tm x2 out) = zlen (tm m out)) by (apply sk_t; assumption).
  assert (m' = x2).
  { revert H. apply loop_same. intros i s' H. inv_bind H. revert H. apply loop_same. intros j s'' H. inv_bind H. destruct (x5 =? 0); [injection H as <-; reflexivity|].
    exfalso. revert H. cbv zeta. intro H. rewrite Lx in H.
    assert (P: panics (for_range 0 (zlen (tm m out)) (fun x6 m0 =>
          v <- (r <- load m0 out x6;; row <- get ksk (x * g_IKS_T pr * i + x * j + x5);; q <- get row x6;; Ok (tsub r q)) ;; store m0 out x6 v) x2)).
    { apply (range_panics (fun _ => True) _ _ _ (lv0_N pr + 1)); auto; [lia|]. intros s _. apply bind_panics1. apply bind_panics2. intros ? _.
      apply bind_panics2. intros row Er. apply bind_panics1. apply get_panics. right. apply (get_inv []) in Er. destruct Er as [Hr ->].
      rewrite (proj1 (Forall_znd (fun r => zlen r = lv0_N pr + 1) [] ksk) Hk _ Hr). lia. }
    destruct P as [p P]. rewrite P in H. discriminate. }
  subst m'. split; [exact S|]. intros i Hi Hne. unfold store in E2. inv_bind E2. injection E2 as <-. cbn [tm tset]. rewrite Z.eqb_refl.
  apply set_inv in E0. destruct E0 as [Hr ->]. change (znd 0 (upd (tm x0 out) (lv0_N pr) x1) i = 0). rewrite znd_upd by lia. destruct (Z.eqb_spec i (lv0_N pr)); [contradiction|]. apply V0. exact Hi.
Qed.

(** the three ways a bootstrap of a gate goes wrong *)
Definition bad (pr : pset) (k : gkey O) : Prop :=
  1 <= g_L pr /\ 0 < lv0_N pr /\ (1024 < g_N pr \/ 701 <= lv0_N pr \/ Forall rows512 (gk_bsk k)).

Lemma next_slot (m : M) bp r m' : GetNextResult O m bp = Ok (r, m') -> sizes_kept m m' /\ bp_t bp + 13 <= r < bp_t bp + 17.
Proof.
  unfold GetNextResult. cbv zeta. generalize (im (F := FP O) m (bp_Index bp)). intro i. destruct ((_ <? 0) || _) eqn:E; [discriminate|]. intro H. injection H as <- <-. split; [apply sk_iset|].
  unfold bp_Buffers. apply orb_false_iff in E. destruct E as [E1 E2]. apply Z.ltb_ge in E1. apply Z.leb_gt in E2. lia.
Qed.

Lemma bad_rotate pr k (m : M) e c off out : 1 <= g_L pr -> 0 < lv0_N pr -> 1024 < g_N pr \/ Forall rows512 (gk_bsk k) -> sized m e ->
  panics (BlindRotateAssign O pr m e c (gk_testvec k) (gk_bsk k) off out).
Proof.
  intros Hl Hn Hb Hs. unfold BlindRotateAssign. apply bind_panics2. intros ? _. apply bind_panics2. intros m1 E1. apply sk_mono in E1.
  apply bind_panics2. intros m2 E2. apply sk_mono in E2. assert (H2: sized m2 e) by (eapply sized_kept; [exact E2|]; eapply sized_kept; [exact E1|exact Hs]).
  apply bind_panics1. apply range_panics0; [lia|]. apply bind_panics2. intros ? _. apply bind_panics2. intros m3 E3. apply sk_mono in E3. apply bind_panics2. intros m4 E4. apply sk_mono in E4.
      assert (H4: sized m4 e) by (eapply sized_kept; [exact E4|]; eapply sized_kept; [exact E3|exact H2]).
      apply bind_panics2. intros key Ek. destruct Hb as [Hb|Hb]; [apply big_cmux; assumption|].
      unfold CMuxAssign. apply bind_panics2. intros m5 E5. apply bind_panics1. apply small_product; [exact Hl| |].
      - eapply sized_kept; [eapply sk_loop; [|exact E5]|].
        + intros i u v E'. inv_bind E'. inv_bind E. inv_bind E. inv_bind E'. inv_bind E'. eapply sk_trans; eapply sk_store; eassumption.
        + eapply sized_kept; [apply sk_mcopy|]. eapply sized_kept; [apply sk_mcopy|]. exact H4.
      - apply (get_inv []) in Ek. destruct Ek as [Hi ->]. apply (proj1 (Forall_znd rows512 [] (gk_bsk k)) Hb). exact Hi.
Qed.

Lemma sk_bassign pr k (m : M) e c out m' : BootstrapAssign O pr m e c (gk_testvec k) (gk_bsk k) (gk_ksk k) (gk_offset k) out = Ok m' -> out < tnext m ->
  exists m1, sizes_kept m m1 /\ IdentityKeySwitchingAssign pr m1 (bp_ExtractedLWE (ev_bp e)) (gk_ksk k) out = Ok m'.
Proof.
  intros H Ho. unfold BootstrapAssign in H. do 2 inv_bind H. apply sk_rotate in E. apply sk_extract in E0. exists x0. split; [|exact H]. eapply sk_trans; eassumption.
Qed.

Lemma bad_bootstrap pr k (m : M) e c : bad pr k -> sized m e -> panics (bootstrap O pr m e c k).
Proof.
  intros (Hl & Hn & Hb) Hs. unfold bootstrap. apply bind_panics2. intros [r m1] E1. unfold new_ct in E1. inv_bind E1. injection E1 as <- <-.
  assert (H1: sized (snd (alloc m x)) e) by (eapply sized_kept; [apply sk_alloc|exact Hs]).
  apply bind_panics1. unfold Bootstrap. apply bind_panics2. intros [r m2] E2. apply next_slot in E2. destruct E2 as [S2 Hr].
  assert (H2: sized m2 e) by (eapply sized_kept; [exact S2|exact H1]). apply bind_panics1.
  destruct (BootstrapAssign O pr m2 e c (gk_testvec k) (gk_bsk k) (gk_ksk k) (gk_offset k) r) as [m3|p] eqn:E3; [|exists p; reflexivity]. exfalso.
  assert (Q: panics (BootstrapAssign O pr m2 e c (gk_testvec k) (gk_bsk k) (gk_ksk k) (gk_offset k) r)); [|destruct Q as [p Q]; congruence].
  assert (Hb': (1024 < g_N pr \/ Forall rows512 (gk_bsk k)) \/ 701 <= lv0_N pr) by tauto. clear Hb. destruct Hb' as [Hb|Hb].
  - unfold BootstrapAssign. apply bind_panics1. apply bad_rotate; assumption.
  - destruct H2 as (_ & B & _). destruct (B r ltac:(lia)) as [Hlt Hlen]. destruct (sk_bassign _ _ _ _ _ _ _ E3 Hlt) as (m4 & S4 & E4).
    destruct (ks_long pr m4 (bp_ExtractedLWE (ev_bp e)) (gk_ksk k) r) as [p P]; [rewrite (sk_t _ _ _ S4 Hlt); lia|destruct S4; lia|congruence].
Qed.

Lemma short_bootstrap pr k (m : M) e c r m' : 0 <= lv0_N pr < 700 -> Forall (fun r => zlen r = lv0_N pr + 1) (gk_ksk k) -> sized m e ->
  bootstrap O pr m e c k = Ok (r, m') -> forall i, 0 <= i < lv0_N pr -> zn (tm m' r) i = 0.
Proof.
  intros Hn Hk Hs H i Hi. unfold bootstrap in H. inv_bind H. destruct x as [res m1]. unfold new_ct, NewTLWE in E. rewrite make_ok in E by lia. cbn [bind] in E.
  injection E as <- <-. set (z := repeat 0 (Z.to_nat (lv0_N pr + 1))) in *. set (m1 := snd (alloc m z)) in *.
  change (Mem _ _ _ _ _ _) with m1 in H.
  assert (Lz: zlen z = lv0_N pr + 1) by (unfold zlen, z; rewrite repeat_length; lia).
  assert (H1: sized m1 e) by (eapply sized_kept; [apply sk_alloc|exact Hs]).
  inv_bind H. destruct x as [b m4]. unfold Bootstrap in E. inv_bind E. destruct x as [b' m2]. inv_bind E. injection E as <- <-.
  apply next_slot in E0. destruct E0 as [S2 Hr]. assert (H2: sized m2 e) by (eapply sized_kept; [exact S2|exact H1]).
  pose proof H2 as (_ & B & _). destruct (B b' ltac:(lia)) as [Hlt Hlen]. destruct (sk_bassign _ _ _ _ _ _ _ E1 Hlt) as (m3 & S3 & E3).
  assert (Hlt3: b' < tnext m3) by (destruct S3; lia). assert (Hlen3: zlen (tm m3 b') = 701) by (rewrite (sk_t _ _ _ S3 Hlt); exact Hlen).
  apply ks_short in E3; [|lia|exact Hk|lia|exact Hlt3]. destruct E3 as [S4 V4]. rewrite Hlen3 in V4.
  assert (LR: zlen (tm x (tnext m)) = lv0_N pr + 1).
  { assert (S: sizes_kept m1 x) by (eapply sk_trans; [exact S2|]; eapply sk_trans; [exact S3|exact S4]).
    rewrite (sk_t _ _ _ S) by (unfold m1, alloc; cbn [snd tnext]; lia). unfold m1, alloc. cbn [snd tm]. rewrite Z.eqb_refl. exact Lz. }
  cbv zeta in H. do 2 inv_bind H. injection H as <- <-. match goal with H : store _ _ _ _ = Ok _ |- _ => rename H into E2 end. unfold store in E2. inv_bind E2. injection E2 as <-. cbn [tm tset].
 rewrite Z.eqb_refl. match goal with H : set _ _ _ = Ok _ |- _ => apply set_inv in H; destruct H as [Hset ->] end.
  match goal with |- zn ?l i = 0 => change (znd 0 l i = 0) end. rewrite znd_upd by lia. destruct (Z.eqb_spec i (lv0_N pr)); [lia|]. unfold mcopy. cbn [tm tset]. rewrite Z.eqb_refl.
  assert (LB: zlen (tm x b') = 701) by (exact (eq_trans (sk_t _ _ _ S4 Hlt3) Hlen3)).
  rewrite znd_copy; [apply V4; lia| |].
  - refine (eq_ind_r (fun z => 0 <= i < z) _ LR). lia.
  - refine (eq_ind_r (fun z => i < z) _ LB). lia.
Qed.

(** everything keeps the lengths *)
Lemma sk_switch pr (m : M) src ksk out m' : IdentityKeySwitchingAssign pr m src ksk out = Ok m' -> sizes_kept m m'.
Proof.
  unfold IdentityKeySwitchingAssign. intro H. do 5 inv_bind H. apply zero_loop in E0. destruct E0 as (S0 & _). apply sk_store in E2.
  apply (sk_trans _ x0); [exact S0|]. apply (sk_trans _ x2); [exact E2|]. eapply sk_loop; [|exact H]. intros i a b F. inv_bind F. eapply sk_loop; [|exact F].
  intros j a' b' E'. inv_bind E'. destruct (_ =? 0); [injection E' as <-; apply sk_refl|]. eapply sk_loop; [|exact E']. intros y a2 b2 E''. inv_bind E''. eapply sk_store. exact E''.
Qed.
Lemma sk_bootstrap pr k (m : M) e c r m' : bootstrap O pr m e c k = Ok (r, m') -> sizes_kept m m'.
Proof.
  unfold bootstrap. intro H. inv_bind H. destruct x as [z m1]. unfold new_ct in E. inv_bind E. injection E as <- <-.
  inv_bind H. destruct x0 as [b m2]. unfold Bootstrap in E. inv_bind E. destruct x0 as [b' m3]. inv_bind E. injection E as <- <-.
  apply next_slot in E1. destruct E1 as [S1 _]. unfold BootstrapAssign in E2. do 2 inv_bind E2. apply sk_rotate in E. apply sk_extract in E1. apply sk_switch in E2.
  do 2 inv_bind H. injection H as <- <-. apply sk_store in E4.
  apply (sk_trans _ (snd (alloc m x))); [apply sk_alloc|]. apply (sk_trans _ m3); [exact S1|]. apply (sk_trans _ x1); [exact E|]. apply (sk_trans _ x2); [exact E1|].
  apply (sk_trans _ x0); [exact E2|]. eapply sk_trans; [apply sk_mcopy|exact E4].
Qed.
Lemma sk_gate pr g k (m : M) e a b r m' : gate_fun g O pr m e a b k = Ok (r, m') -> sizes_kept m m'.
Proof.
  rewrite gate_fun_eq. unfold gate2, fresh. intro H. inv_bind H. destruct x as [c m1]. inv_bind E. injection E as <- <-. apply sk_bootstrap in H.
  eapply sk_trans; [apply sk_alloc|exact H].
Qed.

Lemma bad_gate pr g k (m : M) e a b : bad pr k -> sized m e -> panics (gate_fun g O pr m e a b k).
Proof.
  intros Hb Hs. rewrite gate_fun_eq. unfold gate2, fresh. apply bind_panics2. intros [c m1] E. inv_bind E. injection E as <- <-.
  apply bad_bootstrap; [exact Hb|]. eapply sized_kept; [apply sk_alloc|exact Hs].
Qed.
Lemma short_gate pr g k (m : M) e a b r m' : 0 <= lv0_N pr < 700 -> Forall (fun r => zlen r = lv0_N pr + 1) (gk_ksk k) -> sized m e ->
  gate_fun g O pr m e a b k = Ok (r, m') -> forall i, 0 <= i < lv0_N pr -> zn (tm m' r) i = 0.
Proof.
  intros Hn Hk Hs. rewrite gate_fun_eq. unfold gate2, fresh. intro H. inv_bind H. destruct x as [c m1]. inv_bind E. injection E as <- <-.
  eapply short_bootstrap; [exact Hn|exact Hk| |exact H]. eapply sized_kept; [apply sk_alloc|exact Hs].
Qed.
End Sizes.

(** keys made at a level have rows of that level's sizes *)
Lemma l_bsk_rows R tw2 twi2 pr sk rk rb (ck : CloudKey (fft_ops R tw2 twi2)) :
  genTwiddleFactors R (g_N pr / 2) = Ok (tw2, twi2) -> setup R (fft_ops R tw2 twi2) pr sk rk rb ck ->
  Forall (fun g : list (list (AN R) * list (AN R)) => Forall (fun r => zlen (fst r) = g_N pr) g) (BootstrappingKey ck).
Proof.
  intros T2 ([W HBG] & EO & Hsk & Hck). destruct (eval_pow2 R (g_N pr) _ EO) as (k & Hk & EN).
  destruct (tables_len R k Hk) as (tw & twi & T & Lt & Li). rewrite EN, T in T2. injection T2 as <- <-.
  destruct (pow_half k Hk) as (E2 & _).
  set (L := pow_laws R k Hk tw twi Lt Li).
  assert (EN': g_N pr = 2 * 2 ^ (k - 1)) by lia. rewrite EN' in W.
  destruct (key_ok_N pr W sk Hsk) as [[H0 _] [H1 _]].
  rewrite (NewCloudKey_ok L pr W sk rb H0 H1 rk HBG) in Hck. injection Hck as <-. cbn [BootstrappingKey].
  pose proof (bskp_ok L pr W sk rb H1) as [Ln Hb].
  apply (proj2 (Forall_znd _ [] _)). intros i Hi. unfold bskp in Hi. rewrite zlen_tab in Hi by (apply W).
  destruct (Hb i Hi) as [Lg Hg]. apply (proj2 (Forall_znd _ (Fzero L, Fzero L) _)). intros j Hj. assert (Hj2: 0 <= j < 2 * g_L pr) by (exact (eq_ind _ (fun z => 0 <= j < z) Hj _ Lg)). destruct (Hg j Hj2) as [Q _]. 
  rewrite EN'. exact Q.
Qed.
Lemma l_ksk_rows R O pr sk rk rb (ck : CloudKey O) : setup R O pr sk rk rb ck -> Forall (fun r => zlen r = lv0_N pr + 1) (KeySwitchingKey ck).
Proof.
  intro S. open_setup S. destruct (key_ok_N pr W sk Hsk) as [[H0 _] [H1 _]].
  destruct (cloud_facts L pr W HBG sk rk rb ck Hsk Hck) as (_ & [K1 K2] & _).
  rewrite (NewCloudKey_ok L pr W sk rb H0 H1 rk HBG) in Hck. injection Hck as <-. cbn [KeySwitchingKey] in *.
  apply (proj2 (Forall_znd _ [] _)). intros i Hi. apply K2. unfold kskp in Hi. rewrite zlen_tab in Hi; [exact Hi|].
  pose proof (law_N L). apply size_nonneg; [lia|apply W].
Qed.

Lemma message_params level : In level message_levels ->
  1 <= g_L (get_params level) /\ 0 < lv0_N (get_params level) /\
  (1024 < g_N (get_params level) \/ 701 <= lv0_N (get_params level) \/ g_N (get_params level) = 512).
Proof.
  intro Hin. repeat (destruct Hin as [<-|Hin]); [..|destruct Hin]; (split; [discriminate|]); (split; [reflexivity|]);
    [right; right; reflexivity|right; left; discriminate|left; reflexivity..].
Qed.

Section Level.
Context (R : arith) (tw twi : list (AN R * AN R)).
Notation O := (fft_ops R tw twi).
Notation M := (mem (list (AN R))).

Context (m0 m1 m : M) (e : evaluator) (Hm0 : mem_ok m0) (Hinit : init O m0 = Ok (e, m1)) (Hkept : sizes_kept m1 m).

Lemma sized_now : sized R m e.
Proof. eapply sized_kept; [exact Hkept|]. eapply init_sizes; [exact Hm0|exact Hinit]. Qed.

Lemma l_message level tw2 twi2 sk rk rb (ck : CloudKey (fft_ops R tw2 twi2)) (k : gkey O) : In level message_levels ->
  genTwiddleFactors R (g_N (get_params level) / 2) = Ok (tw2, twi2) -> setup R (fft_ops R tw2 twi2) (get_params level) sk rk rb ck -> gk_bsk k = BootstrappingKey ck ->
  (forall g a b, panics (gate_fun g O (get_params level) m e a b k)) /\ (forall a b c, panics (MUX O (get_params level) m e a b c k)).
Proof.
  intros Hin T2 S Ek. apply l_bsk_rows in S; [|exact T2]. rewrite <- Ek in S. assert (Hb: bad R tw twi (get_params level) k).
  { destruct (message_params level Hin) as (P1 & P2 & P3). split; [exact P1|]. split; [exact P2|].
    destruct P3 as [P3|[P3|P3]]; [left; exact P3|right; left; exact P3|right; right]. rewrite P3 in S. exact S. }
  split; intros.
  - apply bad_gate; [exact Hb|exact sized_now].
  - unfold MUX. apply bind_panics1. apply (bad_gate R tw twi _ Gand); [exact Hb|exact sized_now].
Qed.

Lemma l_smaller level tw2 twi2 sk rk rb (ck : CloudKey (fft_ops R tw2 twi2)) (k : gkey O) : In level smaller_levels ->
  setup R (fft_ops R tw2 twi2) (get_params level) sk rk rb ck -> gk_ksk k = KeySwitchingKey ck ->
  forall g a b r m', gate_fun g O (get_params level) m e a b k = Ok (r, m') -> forall i, 0 <= i < lv0_N (get_params level) -> zn (tm m' r) i = 0.
Proof.
  intros Hin S Ek g a b r m' E. apply l_ksk_rows in S. rewrite <- Ek in S. eapply short_gate; [|exact S|exact sized_now|exact E].
  repeat (destruct Hin as [<-|Hin]); [..|destruct Hin]; split; try reflexivity; discriminate.
Qed.
End Level.

(** ** examples *)
Definition ones_key (pr : pset) : SecretKey := {| KeyLv0 := repeat 1 (Z.to_nat (lv0_N pr)); KeyLv1 := repeat 1 (Z.to_nat (lv1_N pr)) |}.
Lemma l_secret level : key_ok (get_params level) (ones_key (get_params level)).
Proof.
  destruct (shipped_params level) as [W _]. pose proof (pw_n _ _ W) as Hn. pose proof (pw_lv1N _ _ W) as H1. pose proof (pw_N _ _ W) as HN.
  assert (0 <= g_N (get_params level)) by (rewrite HN; apply Z.pow_nonneg; lia).
  unfold key_ok, bin_key, ones_key. cbn [KeyLv0 KeyLv1]. rewrite !zlen_repeat.
  assert (F: forall n, Forall (fun b : Z => b = 0 \/ b = 1) (repeat 1 n)) by (induction n; cbn; constructor; auto).
  repeat split; try lia; apply F.
Qed.
Lemma l_keys R level sk rk rb : key_ok (get_params level) sk ->
  exists tw2 twi2 (ck : CloudKey (fft_ops R tw2 twi2)), genTwiddleFactors R (g_N (get_params level) / 2) = Ok (tw2, twi2) /\
    setup R (fft_ops R tw2 twi2) (get_params level) sk rk rb ck.
Proof.
  intro Hk. destruct (shipped_params level) as [W HBG]. pose proof (pw_N _ _ W) as HN.
  assert (H4: 4 <= g_NBIT (get_params level)).
  { unfold get_params. repeat match goal with |- context [if ?b then _ else _] => destruct b; [discriminate|] end. discriminate. }
  destruct (FftProps.evaluator_ok R (g_NBIT (get_params level)) H4) as (tw & twi & T & E). rewrite <- HN in E, T.
  destruct (laws_of _ _ _ E) as [L _]. destruct (key_ok_N _ W sk Hk) as [[H0 _] [H1 _]].
  exists tw, twi. eexists. split; [exact T|]. split; [split; assumption|]. split; [exact E|]. split; [exact Hk|].
  exact (NewCloudKey_ok L _ W sk rb H0 H1 rk HBG).
Qed.
Lemma l_init R : exists tw twi e m1, fft_evaluator R 1024 = Ok (fft_ops R tw twi) /\
  init (fft_ops R tw twi) (empty_mem (f_nil (fft_ops R tw twi))) = Ok (e, m1).
Proof.
  destruct (shipped_params Security128Bit) as [W HBG].
  destruct (FftProps.evaluator_ok R 10 ltac:(lia)) as (tw & twi & T & E). exists tw, twi.
  destruct (laws_of _ _ _ E) as [L _].
  destruct (NewEvaluator_ok L params128Bit W (empty_mem (f_nil (fft_ops R tw twi)))) as (e & m & En & _); [repeat split; discriminate|].
  exists e, m. split; [exact E|exact En].
Qed.

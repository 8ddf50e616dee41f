(** * Evaluators used with arbitrary keys *)
From Coq Require Import Lia ZifyBool Setoid Morphisms List.
From Verif Require Import GoBase GoFacts GoMem F64 Utils Spec Params Key Tlwe TlweMem Poly Fft Trlwe Trgsw Lut Evaluator CloudKey Gates RunSpec LutSpec Circuit LutProg MixProg
  MemFacts TlweFacts PolyFacts NegFacts Laws TrlweFacts TrgswFacts RotFacts KeySwitchFacts EvalFacts OldRotFacts LinFacts HeapFacts CloudKeyFacts CallFacts BootFacts GateFacts
  NoiseFacts RunProps RlweProps HistProps LutProps LutProgProps.
Import ListNotations.
Local Open Scope Z_scope.
Ltac Zify.zify_post_hook ::= idtac.

Section Any.
Context {O : fops} {N : Z} (L : flaws O N) (pr : pset) (W : pwf pr N) (HBG : g_BG pr = 2 ^ g_BGBIT pr).
Notation n := (lv0_N pr).
Notation M := (mem (FP O)).
Notation ix e m := (im m (bp_i (ev_bp e))).
Notation keeps := user_kept.

Definition good (e : evaluator) (m : M) : Prop := ev_ok L pr m e /\ mem_ok m.

Lemma good_other e (m m' : M) : good e m ->
  (forall x, own e x -> tm m' x = tm m x) -> (forall x, fown e x -> fm m' x = fm m x) ->
  (forall x, iown e x -> im m' x = im m x) ->
  tnext m <= tnext m' -> fnext m <= fnext m' -> inext m <= inext m' -> good e m'.
Proof.
  intros [He Hm] HT HF HI NT NF NI. split; [|unfold mem_ok in *; lia]. eapply ev_ok_elsewhere; [exact W|exact He|].
  split; [intros; apply HT; assumption|]. split; [|auto 10]. intros x Hx. rewrite HT; [reflexivity|eapply ring_own; eassumption].
Qed.

Lemma good_alloc e (m : M) v : good e m -> good e (snd (alloc m v)) /\ user (snd (alloc m v)) e (tnext m) /\
  tm (snd (alloc m v)) (tnext m) = v /\ keeps e m (snd (alloc m v)) /\ ~ user m e (tnext m) /\
  (forall x, x <> tnext m -> tm (snd (alloc m v)) x = tm m x).
Proof.
  intros [He Hm]. assert (G: forall T P I, grows L T P I m (snd (alloc m v))) by (intros; apply alloc_grows).
  split; [split; [apply ev_ok_alloc; assumption|eapply (grows_mem_ok L none none none); [apply G|exact Hm]]|].
  split; [eapply new_user; try eassumption; cbn; lia|]. split; [apply alloc_at|]. split; [eapply grows_keeps; apply G|].
  split; [intros [X _]; lia|]. intros x Hx. cbn. destruct (Z.eqb_spec x (tnext m)); [contradiction|reflexivity].
Qed.

(** ** bootstraps *)
Section Key.
Context (bsk : list (trgsw_fft O)) (ksk : list (list Z)) (off : Z) (Hb : bsk_ok L pr bsk) (Hks : @ksk_ok N pr ksk).
Notation bootv tv c := (bootp L pr off bsk ksk tv c).

Lemma g_boot e (m : M) ct tvr tv : good e m -> input O pr m e ct -> table O pr m e tvr tv ->
  exists m', Bootstrap O pr m e ct tvr bsk ksk off = Ok (slot e (ix e m), m') /\
    tm m' (slot e (ix e m)) = bootv tv (tm m ct) /\ good e m' /\ keeps e m m' /\ tnext m <= tnext m'.
Proof.
  intros [He Hm] Hi Ht.
  destruct (Bootstrap_ok L pr W m e ct tvr tv _ _ off He Hb Hks (input_inp L pr W _ _ _ He Hi) (table_tvp L pr W _ _ _ _ He Ht))
    as (m' & E & V & I & He1 & S1).
  destruct (fr_n _ _ _ _ _ (proj1 S1)) as (a & _).
  exists m'. split; [exact E|]. split; [exact V|]. split; [split; [exact He1|eapply step_mem_ok; eassumption]|]. split; [|lia].
  intros x Hx. split; [destruct Hx as [X Y]; split; [lia|exact Y]|]. apply (step_t _ _ _ _ _ _ _ S1). intros [Hs| ->].
  - exact (user_scr L pr W m e 11 x He ltac:(lia) Hx Hs).
  - destruct Hx as [_ Hx]. apply Hx. eapply slot_own; [exact W|exact He|apply (eo_bi _ _ _ _ He)].
Qed.

Lemma g_assign e (m : M) ct tvr tv out : good e m -> input O pr m e ct -> table O pr m e tvr tv -> input O pr m e out ->
  exists m', BootstrapAssign O pr m e ct tvr bsk ksk off out = Ok m' /\ tm m' out = bootv tv (tm m ct) /\ good e m' /\
    (forall x, user m e x -> x <> out -> user m' e x /\ tm m' x = tm m x) /\ (forall x, user m e x -> user m' e x).
Proof.
  intros [He Hm] Hi Ht Ho.
  destruct (input_inp L pr W _ _ _ He Hi) as [I1 I2]. destruct (table_tvp L pr W _ _ _ _ He Ht) as (T1 & T2 & T3 & T4).
  pose proof Ho as [O1 O2].
  destruct (BootstrapAssign_ok L pr W m e ct tvr tv _ _ off out He Hb Hks I1 T1 T2 I2 T3 T4 O1) as (m' & E & V & S1).
  { intros ->. destruct O2 as [[_ O2]|O2]; [|lia]. apply O2. pose proof (eo_t1 _ _ _ _ He). pose proof (eo_t2 _ _ _ _ He).
    pose proof (eo_lv _ _ _ _ He). pose proof (pw_l _ _ W). unfold own. lia. }
  destruct (fr_n _ _ _ _ _ (proj1 S1)) as (a & _).
  exists m'. split; [exact E|]. split; [exact V|].
  assert (U: forall x, user m e x -> user m' e x) by (intros x [X Y]; split; [lia|exact Y]).
  split; [|split; [|exact U]].
  - split; [eapply ev_ok_step; [exact S1|exact He|intros x []]|eapply step_mem_ok; eassumption].
  - intros x Hx Hne. split; [apply U; exact Hx|]. apply (step_t _ _ _ _ _ _ _ S1). intros [Hs|H]; [|exact (Hne H)].
    exact (user_scr L pr W m e 11 x He ltac:(lia) Hx Hs).
Qed.

Lemma g_rotate e (m : M) ct tvr tv out : good e m -> input O pr m e ct -> table O pr m e tvr tv -> room O pr m e out ->
  exists m', BlindRotateAssign O pr m e ct tvr bsk off out = Ok m' /\ good e m'.
Proof.
  intros [He Hm] Hi Ht Hro.
  destruct (input_inp L pr W _ _ _ He Hi) as [I1 I2]. destruct (table_tvp L pr W _ _ _ _ He Ht) as (T1 & T2 & T3 & T4).
  destruct (room_ne L pr W _ _ _ He Hro) as (La & Lb & Hne & Oa & Ob).
  destruct (BlindRotateAssign_ok L pr W m e ct tvr tv _ off out He Hb I1 T1 T2 I2 T3 T4 (acc_blk pr _ _ Oa) (acc_blk pr _ _ Ob) La Lb Hne)
    as (m1 & E1 & _ & S1).
  exists m1. split; [exact E1|]. split; [eapply ev_ok_step; [exact S1|exact He|intros x []]|eapply step_mem_ok; eassumption].
Qed.

(** copying the result out of the ring *)
Lemma g_copy_out e (m : M) s : good e m -> 0 <= s < tnext m -> zlen (tm m s) = n + 1 ->
  exists m', ('(c, m) <- new_ct m n ;; let m := mcopy m c s in b <- load m s n ;; m <- store m c n b ;; Ok (c, m)) = Ok (tnext m, m') /\
    tm m' (tnext m) = tm m s /\ good e m' /\ user m' e (tnext m) /\ user_kept e m m'.
Proof.
  intros Hg Hs Hl. pose proof (pw_n _ _ W) as Hn. pose proof Hg as [He Hm].
  unfold new_ct, NewTLWE. rewrite make_ok by lia. cbn [bind]. set (z := repeat 0 (Z.to_nat (n + 1))).
  set (m1 := snd (alloc m z)). change (alloc m z) with (tnext m, m1). cbv beta iota zeta. 
  assert (A1: tm m1 (tnext m) = z) by apply alloc_at.
  assert (A2: forall x, x <> tnext m -> tm m1 x = tm m x).
  { intros x Hx. unfold m1. cbn. destruct (Z.eqb_spec x (tnext m)); [contradiction|reflexivity]. }
  set (m2 := mcopy m1 (tnext m) s).
  assert (T2: tm m2 (tnext m) = tm m s).
  { unfold m2. rewrite mcopy_same; [apply A2; lia|]. rewrite A1, A2 by lia. unfold z. rewrite zlen_repeat, Hl. lia. }
  assert (O2: forall x, x <> tnext m -> tm m2 x = tm m x).
  { intros x Hx. unfold m2, mcopy. rewrite tm_tset_ne by congruence. apply A2. exact Hx. }
  rewrite load_ok by (rewrite O2, Hl; lia). cbn [bind]. rewrite store_ok by (rewrite T2, Hl; lia). cbn [bind].
  rewrite T2, O2 by lia. rewrite upd_same by (rewrite Hl; lia).
  set (m3 := tset m2 (tnext m) (tm m s)). exists m3. split; [reflexivity|].
  assert (O3: forall x, x <> tnext m -> tm m3 x = tm m x).
  { intros x Hx. unfold m3. rewrite tm_tset_ne by congruence. apply O2. exact Hx. }
  assert (NT: tnext m3 = tnext m + 1) by reflexivity.
  assert (NO: ~ own e (tnext m)) by (pose proof (eo_t3 _ _ _ _ He); unfold own; lia).
  split; [apply tm_tset|]. split; [|split].
  - eapply good_other; [exact Hg| | | |rewrite NT; lia|cbn; lia|cbn; lia]; try (intros; reflexivity).
    intros x Hx. apply O3. intros ->. contradiction.
  - eapply new_user; try eassumption. lia.
  - intros x [Hx Hnx]. split; [split; [lia|exact Hnx]|]. apply O3. lia.
Qed.

Lemma g_lut e (m : M) ct lut tv : good e m -> input O pr m e ct -> table O pr m e lut tv ->
  exists r m', BootstrapLUT O pr m e ct lut bsk ksk off = Ok (r, m') /\ tm m' r = bootv tv (tm m ct) /\
    good e m' /\ user m' e r /\ ~ user m e r /\ user_kept e m m'.
Proof.
  intros Hg Hi Ht. destruct (g_boot e m ct lut tv Hg Hi Ht) as (m1 & E & V & G1 & K1 & N1). pose proof Hg as [He Hm]. pose proof G1 as [He1 Hm1].
  pose proof (eo_bi _ _ _ _ He) as Hix.
  destruct (g_copy_out e m1 (slot e (ix e m)) G1) as (m2 & E2 & V2 & R2 & U2 & K2).
  - pose proof (slot_own L pr W m e (ix e m) He Hix) as S. pose proof (eo_t3 _ _ _ _ He1).
    unfold own in S. pose proof (eo_t0 _ _ _ _ He1). lia.
  - rewrite V. apply (bootp_ok L pr W).
  - exists (tnext m1), m2. split; [rewrite LUT_eq, E; exact E2|]. split; [rewrite V2; exact V|]. split; [exact R2|]. split; [exact U2|].
    split; [intros [A _]; lia|]. eapply keeps_trans; eassumption.
Qed.

Lemma g_new_lut e (m : M) f mm : good e m -> 0 < mm ->
  exists lut tv m', new_lut O pr m f mm = Ok (lut, m') /\ GenLookUpTable pr (NewGenerator pr mm) f = Ok tv /\
    table O pr m' e lut tv /\ good e m' /\ user_kept e m m' /\ ~ user m e (rA lut) /\ ~ user m e (rB lut) /\
    (forall x, input O pr m e x -> input O pr m' e x /\ tm m' x = tm m x).
Proof.
  intros Hr HM. assert (GP: good_params pr) by (split; [rewrite (pw_gN _ _ W); exact W|exact HBG]). pose proof (law_N L) as H16.
  destruct (t_layout pr (NewGenerator pr mm) f GP eq_refl HM) as (tv & E & Ht & _). pose proof Ht as (LA & LB & KB & _).
  rewrite (pw_gN _ _ W) in Ht. pose proof (plain_tokA N tv ltac:(lia) Ht) as KA.
  pose proof Hr as [He Hm].
  destruct (good_alloc e m (tA tv) Hr) as (R1 & U1 & V1 & K1 & N1 & X1). set (m1 := snd (alloc m (tA tv))) in *.
  destruct (good_alloc e m1 (tB tv) R1) as (R2 & U2 & V2 & K2 & N2 & X2). set (m2 := snd (alloc m1 (tB tv))) in *.
  assert (T1: tnext m1 = tnext m + 1) by reflexivity. assert (T2: tnext m2 = tnext m + 2) by (unfold m2; cbn [snd alloc tnext]; lia).
  assert (KU: forall x, x < tnext m -> tm m2 x = tm m x) by (intros x Hx; rewrite X2 by lia; apply X1; lia).
  exists {| rA := tnext m; rB := tnext m1 |}, tv, m2. split; [unfold new_lut; rewrite E; reflexivity|]. split; [exact E|].
  split; [|split; [exact R2|]].
  - unfold table. cbn [rA rB]. split; [rewrite X2 by lia; exact V1|]. split; [exact V2|]. split; [|split; [exact U2|auto 10]].
    destruct U1 as [A B]. split; [lia|exact B].
  - cbn [rA rB]. split; [|split; [exact N1|split; [intros [X _]; lia|]]].
    + intros x [Hx Hnx]. split; [split; [lia|exact Hnx]|]. apply KU. lia.
    + intros x [Hl Hx]. assert (x < tnext m).
      { destruct Hx as [[Hx _]|Hx]; [lia|]. pose proof (eo_t3 _ _ _ _ He). lia. }
      rewrite KU by assumption. split; [|reflexivity]. split; [rewrite KU by assumption; exact Hl|].
      destruct Hx as [[Hx Hnx]|Hx]; [left; split; [lia|exact Hnx]|right; exact Hx].
Qed.
End Key.

Lemma g_product e (m : M) g off r c out : gkey_ok L (g_L pr) g -> good e m -> table O pr m e r c -> room O pr m e out ->
  exists m', ExternalProductAssign O pr m e g r off out = Ok m' /\ good e m'.
Proof.
  intros Hg [He Hm] Ht Hro. destruct (table_tvp L pr W _ _ _ _ He Ht) as (T1 & T2 & T3 & T4). destruct (room_ne L pr W _ _ _ He Hro) as (La & Lb & Hne & Oa & Ob).
  destruct (ExternalProductAssign_ok L pr W m e g c r off out He Hg T1 T2 (scr_dcb _ _ _ T3) (scr_dcb _ _ _ T4) La Lb Hne) as (m1 & E1 & _ & S1).
  exists m1. split; [exact E1|]. split; [eapply ev_ok_step; [exact S1|exact He|intros x []]|eapply step_mem_ok; eassumption].
Qed.

Lemma g_cmux e (m : M) g off r0 c0 r1 c1 out : gkey_ok L (g_L pr) g -> good e m -> table O pr m e r0 c0 -> table O pr m e r1 c1 -> room O pr m e out ->
  r0 = out \/ disjoint r0 out -> disjoint r1 out -> exists m', CMuxAssign O pr m e g r0 r1 off out = Ok m' /\ good e m'.
Proof.
  intros Hg [He Hm] Ht0 Ht1 Hro D0 D1.
  destruct (table_tvp L pr W _ _ _ _ He Ht0) as (T1 & T2 & T3 & T4). destruct (table_tvp L pr W _ _ _ _ He Ht1) as (U1 & U2 & U3 & U4).
  destruct (room_ne L pr W _ _ _ He Hro) as (La & Lb & Hne & Oa & Ob).
  destruct (CMuxAssign_ok L pr W m e g c0 c1 r0 r1 off out He Hg T1 U1 T2 U2) as (m1 & E1 & _ & S1); try assumption.
  { split; eapply scr_mono; [exact T3|lia|exact T4|lia]. }
  { split; eapply scr_mono; [exact U3|lia|exact U4|lia]. }
  { split; eapply scr_mono; [exact Oa|lia|exact Ob|lia]. }
  exists m1. split; [exact E1|]. split; [eapply ev_ok_step; [exact S1|exact He|intros x []]|eapply step_mem_ok; eassumption].
Qed.

(** ** gates *)
Section Gates.
Context (gk : gkey O) (tv : trlwe) (Hgb : bsk_ok L pr (gk_bsk gk)) (Hgk : @ksk_ok N pr (gk_ksk gk)) (Htv : ct_ok N tv).

(** the test vector is in place *)
Definition tv_at (e : evaluator) (m : M) : Prop :=
  at_ m (gk_testvec gk) tv /\ user m e (rA (gk_testvec gk)) /\ user m e (rB (gk_testvec gk)).
Lemma tv_kept e (m m' : M) : keeps e m m' -> tv_at e m -> tv_at e m'.
Proof.
  intros K ([A B] & UA & UB). destruct (K _ UA) as [UA' EA]. destruct (K _ UB) as [UB' EB].
  split; [split; congruence|]. split; assumption.
Qed.
Lemma tv_gk e (m : M) : tv_at e m -> gk_ok L pr m e gk tv.
Proof. intros (A & B & C). constructor; assumption. Qed.

Notation BV c := (bval_of L pr gk tv c).
Definition agval (g : bgate) (a b : list Z) : list Z :=
  match gate_lin g n a b with Ok p => BV p | Panic _ => [] end.
Definition anval (a : list Z) : list Z := match not_val n a with Ok v => v | Panic _ => [] end.
Definition acval (b : bool) : list Z := match constant_val n b with Ok v => v | Panic _ => [] end.
Definition amval (a b c : list Z) : list Z := agval Gor (agval Gand a b) (agval Gand (anval a) c).

Definition adone (e : evaluator) (m : M) (x : res (Z * M)) (v : list Z) : Prop :=
  exists r m', x = Ok (r, m') /\ tm m' r = v /\ zlen v = n + 1 /\ user m' e r /\ ~ user m e r /\ keeps e m m' /\ good e m' /\ tv_at e m'.

Lemma afresh_done e (m : M) v : good e m -> tv_at e m -> zlen v = n + 1 -> adone e m (fresh O m (Ok v)) v.
Proof.
  intros Hr Hk Lv. destruct (good_alloc e m v Hr) as (R1 & U1 & V1 & K1 & N1 & _).
  exists (tnext m), (snd (alloc m v)). split; [reflexivity|]. split; [exact V1|]. split; [exact Lv|]. split; [exact U1|]. split; [exact N1|].
  split; [exact K1|]. split; [exact R1|]. eapply tv_kept; eassumption.
Qed.

Lemma aboot_done e (m : M) c : good e m -> tv_at e m -> user m e c -> zlen (tm m c) = n + 1 ->
  adone e m (bootstrap O pr m e c gk) (BV (tm m c)).
Proof.
  intros [He Hm] Hk Hu Hc. destruct (gates_bootstrap_ok L pr W m e c gk tv Hm He (tv_gk e m Hk) Hu Hc) as (m' & E & V & He' & G & Hn).
  assert (K: keeps e m m') by (eapply grows_keeps; exact G).
  exists (tnext m), m'. split; [exact E|]. split; [exact V|]. split; [apply (bootp_ok L pr W)|]. split; [eapply new_user; try eassumption; lia|].
  split; [intros [X _]; lia|]. split; [exact K|]. split; [split; [exact He'|eapply grows_mem_ok; eassumption]|]. eapply tv_kept; eassumption.
Qed.

Lemma adone_trans e (m m1 : M) x v : keeps e m m1 -> adone e m1 x v -> adone e m x v.
Proof.
  intros K (r & m' & E & V & Lv & U & NU & K' & G & T). exists r, m'. split; [exact E|]. split; [exact V|]. split; [exact Lv|]. split; [exact U|].
  split; [intro X; apply NU; apply (K r X)|]. split; [eapply keeps_trans; eassumption|]. split; assumption.
Qed.

Lemma agate_done g e (m : M) a b : good e m -> tv_at e m -> zlen (tm m a) = n + 1 -> zlen (tm m b) = n + 1 ->
  adone e m (gate_fun g O pr m e a b gk) (agval g (tm m a) (tm m b)).
Proof.
  intros Hr Hk La Lb. rewrite gate_fun_eq. unfold gate2, agval. destruct (gate_lin_tot pr W g _ _ La Lb) as (p & Ep & Lp). rewrite Ep.
  destruct (afresh_done e m p Hr Hk Lp) as (r & m1 & E1 & V1 & L1 & U1 & N1 & K1 & G1 & T1). rewrite E1. cbn [bind].
  eapply adone_trans; [exact K1|]. rewrite <- V1. apply aboot_done; try assumption. rewrite V1. exact Lp.
Qed.

Lemma anot_done e (m : M) a : good e m -> tv_at e m -> zlen (tm m a) = n + 1 -> adone e m (NOT O pr m a) (anval (tm m a)).
Proof.
  intros Hr Hk La. unfold NOT, anval, not_val. destruct (Neg_phase n [] (tm m a) (pw_n _ _ W) La) as (v & -> & [Lv _] & _).
  apply afresh_done; assumption.
Qed.

Lemma aconst_done e (m : M) b : good e m -> tv_at e m -> adone e m (Constant O pr m b) (acval b).
Proof.
  intros Hr Hk. unfold Constant, acval. pose proof (pw_n _ _ W) as Hn.
  destruct (constant_ok n Hn (repeat 0 (Z.to_nat n)) b ltac:(rewrite zlen_repeat; lia)) as (v & -> & [Lv _] & _). apply afresh_done; assumption.
Qed.

Lemma acopy_done e (m : M) a : good e m -> tv_at e m -> user m e a -> zlen (tm m a) = n + 1 -> adone e m (Copy O pr m a) (tm m a).
Proof.
  intros Hr Hk Hu La. pose proof (pw_n _ _ W) as Hn. unfold Copy, new_ct, NewTLWE. rewrite make_ok by lia. cbn [bind].
  set (z := repeat 0 (Z.to_nat (n + 1))). assert (Hz: zlen z = n + 1) by (unfold z; rewrite zlen_repeat; lia).
  destruct (good_alloc e m z Hr) as (R1 & U1 & V1 & K1 & N1 & X1). change (alloc m z) with (tnext m, snd (alloc m z)). cbv beta iota.
  set (m1 := snd (alloc m z)) in *. set (t := tnext m) in *. destruct (K1 a Hu) as [Hua Ea1].
  assert (Hl: zlen (tm m1 a) = zlen (tm m1 t)) by (rewrite V1, Ea1; lia).
  assert (V: tm (mcopy m1 t a) t = tm m a).
  { unfold mcopy. cbn [tm tset]. rewrite Z.eqb_refl, copy_slice_same_len by (symmetry; exact Hl). exact Ea1. }
  assert (Vo: forall x, x <> t -> tm (mcopy m1 t a) x = tm m1 x).
  { intros x Hx. unfold mcopy. cbn [tm tset]. destruct (Z.eqb_spec x t); [contradiction|reflexivity]. }
  assert (K: user_kept e m (mcopy m1 t a)).
  { intros x Hx. destruct (K1 x Hx) as [H1 H2]. split; [exact H1|]. rewrite Vo; [exact H2|]. intros ->. contradiction. }
  exists t, (mcopy m1 t a).
  split; [reflexivity|]. split; [exact V|]. split; [exact La|]. split; [exact U1|]. split; [exact N1|]. split; [exact K|].
  split; [|eapply tv_kept; eassumption].
  eapply good_other; [exact R1| | | | | |]; try (intros; reflexivity); try apply Z.le_refl.
  intros x Hx. apply Vo. intros ->. destruct U1 as [_ U1]. apply U1. exact Hx.
Qed.

Lemma amux_done e (m : M) a b c : good e m -> tv_at e m -> user m e a -> user m e c ->
  zlen (tm m a) = n + 1 -> zlen (tm m b) = n + 1 -> zlen (tm m c) = n + 1 ->
  adone e m (MUX O pr m e a b c gk) (amval (tm m a) (tm m b) (tm m c)).
Proof.
  intros Hr Hk Ua Uc La Lb Lc. unfold MUX, amval.
  destruct (agate_done Gand e m a b Hr Hk La Lb) as (ab & m1 & E1 & V1 & L1 & U1 & N1 & K1 & R1 & Q1).
  change (gate_fun Gand O pr) with (AND O pr) in E1. rewrite E1. cbn [bind].
  destruct (K1 a Ua) as [Ua1 Ea1]. destruct (K1 c Uc) as [Uc1 Ec1].
  destruct (anot_done e m1 a R1 Q1) as (na & m2 & E2 & V2 & L2 & U2 & N2 & K2 & R2 & Q2); [rewrite Ea1; exact La|].
  rewrite E2. cbn [bind]. rewrite Ea1 in V2, L2. destruct (K2 c Uc1) as [Uc2 Ec2]. destruct (K2 ab U1) as [U1' Eab].
  destruct (agate_done Gand e m2 na c R2 Q2) as (nc & m3 & E3 & V3 & L3 & U3 & N3 & K3 & R3 & Q3);
    [rewrite V2; exact L2|rewrite Ec2, Ec1; exact Lc|].
  change (gate_fun Gand O pr) with (AND O pr) in E3. rewrite E3. cbn [bind]. destruct (K3 ab U1') as [U1'' Eab'].
  pose proof (agate_done Gor e m3 ab nc R3 Q3) as D. rewrite V2, Ec2, Ec1 in V3. rewrite Eab', Eab, V1, V3 in D.
  change (gate_fun Gor O pr) with (OR O pr) in D.
  eapply adone_trans; [|apply D; [exact L1|rewrite <- V3; rewrite V3; rewrite V2, Ec2, Ec1 in L3; exact L3]].
  eapply keeps_trans; [|exact K3]. eapply keeps_trans; eassumption.
Qed.
End Gates.
End Any.

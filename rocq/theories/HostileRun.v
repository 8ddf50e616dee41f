(** * Programs run with arbitrary keys on arbitrary ciphertexts *)
From Coq Require Import Lia ZifyBool Setoid Morphisms List.
From Verif Require Import GoBase GoFacts GoMem F64 Utils Spec Params Key Tlwe TlweMem Poly Fft Trlwe Trgsw Lut Evaluator CloudKey Gates RunSpec LutSpec Circuit LutProg MixProg HostileSpec
  MemFacts TlweFacts PolyFacts NegFacts Laws TrlweFacts TrgswFacts RotFacts KeySwitchFacts EvalFacts OldRotFacts LinFacts HeapFacts CloudKeyFacts CallFacts BootFacts GateFacts
  NoiseFacts RunProps RlweProps HistProps LutProps LutProgProps HostileFacts.
Import ListNotations.
Local Open Scope Z_scope.
Ltac Zify.zify_post_hook ::= idtac.

Definition okv (r : res (list Z)) : list Z := match r with Ok v => v | Panic _ => [] end.
Definition no_trlwe : trlwe := {| tA := []; tB := [] |}.
Definition okt (r : res trlwe) : trlwe := match r with Ok v => v | Panic _ => no_trlwe end.

Section Run.
Context {O : fops} {N : Z} (L : flaws O N) (pr : pset) (W : pwf pr N) (HBG : g_BG pr = 2 ^ g_BGBIT pr).
Notation n := (lv0_N pr).
Notation M := (mem (FP O)).
Notation good := (good L pr).
Context (ck : CloudKey O) (gk : gkey O) (gtv : trlwe) (k : Z) (Hk : 0 <= k)
  (Hb : bsk_ok L pr (BootstrappingKey ck)) (Hks : @ksk_ok N pr (KeySwitchingKey ck))
  (Hgb : bsk_ok L pr (gk_bsk gk)) (Hgk : @ksk_ok N pr (gk_ksk gk)) (Htv : ct_ok N gtv).
Notation tv_at := (tv_at gk gtv).
Notation boot tv c := (bootp L pr (DecompositionOffset ck) (BootstrappingKey ck) (KeySwitchingKey ck) tv c).
Notation gen f := (okt (GenLookUpTable pr (NewGenerator pr (2 ^ k)) f)).
Notation at_hand vs a := (0 <= a < zlen vs).

(** ** what the calls compute, on contents *)
Definition vstep (i : mcall) (vs : list (list Z)) (tvs : list trlwe) : list (list Z) * list trlwe :=
  let V a := znd [] vs a in
  let new v := (vs ++ [v], tvs) in
  let into o v := (upd vs o v, tvs) in
  match i with
  | MGate (IGate g a b) => new (agval L pr gk gtv g (V a) (V b))
  | MGate (INot a) => new (anval pr (V a))
  | MGate (IConst b) => new (acval pr b)
  | MGate (ICopy a) => new (V a)
  | MGate (IMux a b c) => new (amval L pr gk gtv (V a) (V b) (V c))
  | MMsg (LAdd a b) => new (okv (Add n (V a) (V b)))
  | MMsg (LSub a b) => new (okv (Sub n (V a) (V b)))
  | MMsg (LNeg a) => new (okv (Neg n (V a)))
  | MMsg (LAddMul a b c) => new (okv (AddMul n (V a) (V b) (w32 c)))
  | MMsg (LSubMul a b c) => new (okv (SubMul n (V a) (V b) (w32 c)))
  | MMsg (LAddInto a b o) => into o (okv (Add n (V a) (V b)))
  | MMsg (LTable f) => (vs, tvs ++ [gen f])
  | MMsg (LLut t a) => new (boot (znd no_trlwe tvs t) (V a))
  | MMsg (LLutInto t a o) => into o (boot (znd no_trlwe tvs t) (V a))
  | MMsg (LFunc f a) => new (boot (gen f) (V a))
  | MMsg (LFuncInto f a o) => into o (boot (gen f) (V a))
  end.
Fixpoint vrun (p : list mcall) (vs : list (list Z)) (tvs : list trlwe) : list (list Z) * list trlwe :=
  match p with
  | [] => (vs, tvs)
  | i :: p => vrun p (fst (vstep i vs tvs)) (snd (vstep i vs tvs))
  end.

(** ** the invariant *)
Definition hold (e : evaluator) (m : M) (ws : list Z) (vs : list (list Z)) : Prop :=
  zlen vs = zlen ws /\ NoDup ws /\
  forall i, 0 <= i < zlen ws -> user m e (zn ws i) /\ tm m (zn ws i) = znd [] vs i /\ zlen (znd [] vs i) = n + 1.
Definition tabs (e : evaluator) (m : M) (ws : list Z) (ts : list tref) (tvs : list trlwe) : Prop :=
  Forall2 (fun t tv => table O pr m e t tv /\ ~ In (rA t) ws /\ ~ In (rB t) ws) ts tvs.
Definition apart (ws : list Z) : Prop := ~ In (rA (gk_testvec gk)) ws /\ ~ In (rB (gk_testvec gk)) ws.
Record Inv (e : evaluator) (m : M) (ws : list Z) (ts : list tref) (vs : list (list Z)) (tvs : list trlwe) : Prop := {
  i_good : good e m; i_tv : tv_at e m; i_apart : apart ws; i_hold : hold e m ws vs; i_tabs : tabs e m ws ts tvs }.

Definition stepped (e : evaluator) (i : mcall) (ws : list Z) (ts : list tref) (m : M) (vs' : list (list Z)) (tvs' : list trlwe) : Prop :=
  exists nw ts' m', mexec1 O pr ck e gk k i ws ts m = Ok (ws ++ nw, ts', m') /\ Inv e m' (ws ++ nw) ts' vs' tvs' /\
    kept_but O e (moutputs [i]) ws m m' /\ (forall x, In x nw -> ~ user m e x) /\ zlen nw = new_cts i /\ zlen ts' = zlen ts + new_tables i.

Lemma hold_at e m ws vs a : hold e m ws vs -> 0 <= a < zlen ws ->
  exists r, get ws a = Ok r /\ r = zn ws a /\ user m e r /\ tm m r = znd [] vs a /\ zlen (tm m r) = n + 1 /\ zlen (znd [] vs a) = n + 1.
Proof.
  intros (L1 & _ & H) Ha. exists (zn ws a). split; [apply get_zn; exact Ha|]. split; [reflexivity|]. destruct (H a Ha) as (U & E & Z).
  split; [exact U|]. split; [exact E|]. rewrite E. auto.
Qed.

Lemma tabs_keep e (m m' : M) ws ws' ts tvs : tabs e m ws ts tvs -> others_kept O e ws m m' ->
  (forall x, In x ws' -> In x ws \/ ~ user m e x) -> tabs e m' ws' ts tvs.
Proof.
  intros H K HI. eapply Forall2_mono; [|exact H]. cbn beta. intros t tv ((B1 & B2 & U1 & U2 & B3) & N1 & N2).
  destruct (K _ U1 N1) as [V1 E1]. destruct (K _ U2 N2) as [V2 E2]. split; [|split].
  - unfold table. rewrite E1, E2. auto.
  - intro X. apply HI in X. tauto.
  - intro X. apply HI in X. tauto.
Qed.
Lemma apart_keep e (m : M) ws ws' : tv_at e m -> apart ws -> (forall x, In x ws' -> In x ws \/ ~ user m e x) -> apart ws'.
Proof. intros (_ & U1 & U2) [A B] HI. split; intro X; apply HI in X; tauto. Qed.
Lemma tv_others e (m m' : M) ws : tv_at e m -> apart ws -> others_kept O e ws m m' -> tv_at e m'.
Proof.
  intros ([A B] & U1 & U2) [N1 N2] K. destruct (K _ U1 N1) as [V1 E1]. destruct (K _ U2 N2) as [V2 E2].
  split; [split; congruence|]. split; assumption.
Qed.

(** a call that appends *)
Lemma inv_new e (m m' : M) ws ts vs tvs r v : Inv e m ws ts vs tvs -> user_kept e m m' -> good e m' -> user m' e r -> ~ user m e r ->
  tm m' r = v -> zlen v = n + 1 -> Inv e m' (ws ++ [r]) ts (vs ++ [v]) tvs.
Proof.
  intros [G T A (L1 & ND & H) TB] K G' U1 U2 E Lv.
  assert (HI: forall x, In x (ws ++ [r]) -> In x ws \/ ~ user m e x).
  { intros x X. apply in_app_or in X. destruct X as [X|[<-|[]]]; auto. }
  constructor; [exact G'|eapply tv_kept; eassumption|eapply apart_keep; eassumption| |].
  - split; [rewrite !zlen_snoc; lia|]. split.
    + apply nodup_snoc; [exact ND|]. intro X. apply In_zn in X. destruct X as (i & Hi & <-). apply U2. apply H. exact Hi.
    + intros i Hi. rewrite zlen_snoc in Hi. destruct (Z.eq_dec i (zlen ws)) as [->|Hne].
      * rewrite zn_app2 by lia. rewrite <- L1, znd_app2 by lia. rewrite Z.sub_diag. change (znd [] [v] 0) with v. auto.
      * rewrite zn_app1, znd_app1 by lia. destruct (H i ltac:(lia)) as (U & B & C). destruct (K _ U) as [U' ->]. auto.
  - eapply tabs_keep; [exact TB|apply kept_others; exact K|exact HI].
Qed.

(** a call that writes to the ciphertext [o] *)
Lemma inv_set e (m m' : M) ws ts vs tvs o r v : Inv e m ws ts vs tvs -> 0 <= o < zlen ws -> r = zn ws o ->
  (forall z, user m e z -> z <> r -> user m' e z /\ tm m' z = tm m z) -> user m' e r -> good e m' ->
  tm m' r = v -> zlen v = n + 1 -> Inv e m' ws ts (upd vs o v) tvs.
Proof.
  intros [G T A (L1 & ND & H) TB] Ho Er K U1 G' E Lv.
  assert (Q: others_kept O e ws m m').
  { intros z Hz Hn. apply K; [exact Hz|]. intros ->. apply Hn. rewrite Er. apply zn_In. exact Ho. }
  constructor; [exact G'|eapply tv_others; eassumption|exact A| |eapply tabs_keep; [exact TB|exact Q|auto]].
  split; [rewrite zlen_upd; exact L1|]. split; [exact ND|]. intros i Hi. rewrite znd_upd by lia. destruct (Z.eqb_spec i o) as [->|Hne].
  - rewrite <- Er. auto.
  - destruct (H i Hi) as (U & B & C). destruct (K _ U) as [U' ->]; [|auto]. rewrite Er. intro X. apply Hne. eapply nodup_zn; eassumption.
Qed.

Lemma step_app e i (m : M) ws ts vs tvs r (m' : M) v : Inv e m ws ts vs tvs -> mexec1 O pr ck e gk k i ws ts m = Ok (ws ++ [r], ts, m') ->
  new_cts i = 1 -> new_tables i = 0 ->
  user_kept e m m' -> good e m' -> user m' e r -> ~ user m e r -> tm m' r = v -> zlen v = n + 1 -> stepped e i ws ts m (vs ++ [v]) tvs.
Proof.
  intros HI E C1 C2 K G U1 U2 V Lv. exists [r], ts, m'. split; [exact E|]. split; [eapply inv_new; eassumption|]. split; [apply kept_all; exact K|].
  split; [intros x [<-|[]]; exact U2|]. rewrite C1, C2. split; [reflexivity|lia].
Qed.

Lemma step_into e i (m : M) ws ts vs tvs o r (m' : M) v : Inv e m ws ts vs tvs -> mexec1 O pr ck e gk k i ws ts m = Ok (ws, ts, m') ->
  new_cts i = 0 -> new_tables i = 0 -> moutputs [i] = [o] -> 0 <= o < zlen ws -> get ws o = Ok r ->
  (forall z, user m e z -> z <> r -> user m' e z /\ tm m' z = tm m z) -> user m' e r -> good e m' ->
  tm m' r = v -> zlen v = n + 1 -> stepped e i ws ts m (upd vs o v) tvs.
Proof.
  intros HI E C1 C2 C3 Ho Gr K U1 G V Lv. exists [], ts, m'. rewrite app_nil_r. split; [exact E|].
  split; [eapply inv_set; try eassumption; destruct (get_inv 0 _ _ _ Gr) as [_ X]; exact X|]. split; [rewrite C3; eapply kept_one; eassumption|].
  split; [intros x []|]. rewrite C1, C2. split; [reflexivity|lia].
Qed.

Lemma step_val e i (m : M) ws ts vs tvs (rv : res (list Z)) v : Inv e m ws ts vs tvs ->
  mexec1 O pr ck e gk k i ws ts m = (v <- rv ;; let '(r, m) := alloc m v in Ok (ws ++ [r], ts, m)) ->
  new_cts i = 1 -> new_tables i = 0 -> rv = Ok v -> zlen v = n + 1 -> stepped e i ws ts m (vs ++ [v]) tvs.
Proof.
  intros HI E C1 C2 -> Lv. cbn [bind] in E. destruct (good_alloc L pr W e m v (i_good _ _ _ _ _ _ HI)) as (R1 & U1 & V1 & K1 & N1 & _).
  eapply step_app; [exact HI|exact E|exact C1|exact C2|exact K1|exact R1|exact U1|exact N1|exact V1|exact Lv].
Qed.

Lemma step_gate e i (m : M) ws ts vs tvs x v : Inv e m ws ts vs tvs -> exec_instr O pr e gk i ws m = x ->
  adone L pr gk gtv e m x v -> stepped e (MGate i) ws ts m (vs ++ [v]) tvs.
Proof.
  intros HI E (r & m' & E1 & V & Lv & U & NU & K & G & T). eapply step_app; try eassumption; try reflexivity.
  cbn [mexec1]. rewrite E, E1. reflexivity.
Qed.

Lemma gen_ok f : exists tv, GenLookUpTable pr (NewGenerator pr (2 ^ k)) f = Ok tv /\ gen f = tv.
Proof.
  assert (GP: good_params pr) by (split; [rewrite (pw_gN _ _ W); exact W|exact HBG]).
  assert (HM: 0 < 2 ^ k) by (apply Z.pow_pos_nonneg; lia).
  destruct (t_layout pr (NewGenerator pr (2 ^ k)) f GP eq_refl HM) as (tv & E & _). exists tv. rewrite E. auto.
Qed.

Lemma tabs_at e (m : M) ws ts tvs t : tabs e m ws ts tvs -> 0 <= t < zlen ts ->
  exists l, get ts t = Ok l /\ table O pr m e l (znd no_trlwe tvs t).
Proof.
  intros H Ht. assert (HL: zlen tvs = zlen ts) by (unfold tabs in H; unfold zlen; f_equal; symmetry; clear Ht; induction H; cbn [length]; congruence).
  assert (G: get tvs t = Ok (znd no_trlwe tvs t)) by (apply get_ok; lia).
  destruct (Forall2_get_r _ _ _ _ _ H G) as (l & Gl & Tb & _). eauto.
Qed.

Lemma new_lut_keep e (m : M) f : good e m -> exists lut m1, new_lut O pr m f (2 ^ k) = Ok (lut, m1) /\ table O pr m1 e lut (gen f) /\
  good e m1 /\ user_kept e m m1 /\ ~ user m e (rA lut) /\ ~ user m e (rB lut).
Proof.
  intro G. assert (HM: 0 < 2 ^ k) by (apply Z.pow_pos_nonneg; lia).
  destruct (g_new_lut L pr W HBG e m f (2 ^ k) G HM) as (lut & tv & m1 & E & GT & Tb & G1 & K1 & NA & NB & _).
  exists lut, m1. rewrite GT. cbn [okt]. auto 10.
Qed.

Lemma usr (e : evaluator) (m : M) r : user m e r -> zlen (tm m r) = n + 1 -> input O pr m e r.
Proof. intros U Lr. split; [exact Lr|left; exact U]. Qed.

Ltac opnd HH a Ha r G U E Z1 Z2 :=
  destruct (hold_at _ _ _ _ a (i_hold _ _ _ _ _ _ HH) Ha) as (r & G & ? & U & E & Z1 & Z2).

Lemma step_total e i (m : M) ws ts vs tvs : Inv e m ws ts vs tvs -> asks i (zlen ws) (zlen ts) ->
  stepped e i ws ts m (fst (vstep i vs tvs)) (snd (vstep i vs tvs)).
Proof.
  intros HI HA. pose proof (pw_n _ _ W) as Hn. pose proof (i_good _ _ _ _ _ _ HI) as HG. pose proof (i_tv _ _ _ _ _ _ HI) as HT.
  destruct i as [i|i].
  - destruct i as [g a b|a|c|a|a b c]; cbn [asks HostileSpec.at_hand] in HA; unfold HostileSpec.at_hand in HA; cbn [vstep fst snd].
    + destruct HA as [Ha Hb']. opnd HI a Ha ra Ga Ua Ea Za Ya. opnd HI b Hb' rb Gb Ub Eb Zb Yb.
      eapply step_gate; [exact HI|cbn [exec_instr]; rewrite Ga, Gb; reflexivity|]. rewrite <- Ea, <- Eb. cbn [bind].
      apply (agate_done L pr W gk gtv Hgb Hgk Htv); assumption.
    + opnd HI a HA ra Ga Ua Ea Za Ya. eapply step_gate; [exact HI|cbn [exec_instr]; rewrite Ga; reflexivity|]. rewrite <- Ea. cbn [bind].
      apply (anot_done L pr W gk gtv); assumption.
    + eapply step_gate; [exact HI|reflexivity|]. apply (aconst_done L pr W gk gtv); assumption.
    + opnd HI a HA ra Ga Ua Ea Za Ya. eapply step_gate; [exact HI|cbn [exec_instr]; rewrite Ga; reflexivity|]. rewrite <- Ea. cbn [bind].
      apply (acopy_done L pr W gk gtv); assumption.
    + destruct HA as (Ha & Hb' & Hc). opnd HI a Ha ra Ga Ua Ea Za Ya. opnd HI b Hb' rb Gb Ub Eb Zb Yb. opnd HI c Hc rc Gc Uc Ec Zc Yc.
      eapply step_gate; [exact HI|cbn [exec_instr]; rewrite Ga, Gb, Gc; reflexivity|]. rewrite <- Ea, <- Eb, <- Ec. cbn [bind].
      apply (amux_done L pr W gk gtv Hgb Hgk Htv); assumption.
  - destruct i as [a b|a b|a|a b c|a b c|a b o|f|t a|t a o|f a|f a o]; cbn [asks] in HA; unfold HostileSpec.at_hand in HA; cbn [vstep fst snd].
    + destruct HA as [Ha Hb']. opnd HI a Ha ra Ga Ua Ea Za Ya. opnd HI b Hb' rb Gb Ub Eb Zb Yb. rewrite <- Ea, <- Eb.
      destruct (Add_ok n [] (tm m ra) (tm m rb) Hn Za Zb) as (v & E & [Lv _] & _).
      eapply step_val; [exact HI|cbn [mexec1 lexec1]; rewrite Ga, Gb; reflexivity|reflexivity|reflexivity|rewrite E; reflexivity|rewrite E; exact Lv].
    + destruct HA as [Ha Hb']. opnd HI a Ha ra Ga Ua Ea Za Ya. opnd HI b Hb' rb Gb Ub Eb Zb Yb. rewrite <- Ea, <- Eb.
      destruct (Sub_ok n [] (tm m ra) (tm m rb) Hn Za Zb) as (v & E & [Lv _] & _).
      eapply step_val; [exact HI|cbn [mexec1 lexec1]; rewrite Ga, Gb; reflexivity|reflexivity|reflexivity|rewrite E; reflexivity|rewrite E; exact Lv].
    + opnd HI a HA ra Ga Ua Ea Za Ya. rewrite <- Ea.
      destruct (Neg_phase n [] (tm m ra) Hn Za) as (v & E & [Lv _] & _).
      eapply step_val; [exact HI|cbn [mexec1 lexec1]; rewrite Ga; reflexivity|reflexivity|reflexivity|rewrite E; reflexivity|rewrite E; exact Lv].
    + destruct HA as [Ha Hb']. opnd HI a Ha ra Ga Ua Ea Za Ya. opnd HI b Hb' rb Gb Ub Eb Zb Yb. rewrite <- Ea, <- Eb.
      destruct (AddMul_ok n [] (tm m ra) (tm m rb) (w32 c) Hn Za Zb) as (v & E & [Lv _] & _).
      eapply step_val; [exact HI|cbn [mexec1 lexec1]; rewrite Ga, Gb; reflexivity|reflexivity|reflexivity|rewrite E; reflexivity|rewrite E; exact Lv].
    + destruct HA as [Ha Hb']. opnd HI a Ha ra Ga Ua Ea Za Ya. opnd HI b Hb' rb Gb Ub Eb Zb Yb. rewrite <- Ea, <- Eb.
      destruct (SubMul_ok n [] (tm m ra) (tm m rb) (w32 c) Hn Za Zb) as (v & E & [Lv _] & _).
      eapply step_val; [exact HI|cbn [mexec1 lexec1]; rewrite Ga, Gb; reflexivity|reflexivity|reflexivity|rewrite E; reflexivity|rewrite E; exact Lv].
    + destruct HA as (Ha & Hb' & Ho). opnd HI a Ha ra Ga Ua Ea Za Ya. opnd HI b Hb' rb Gb Ub Eb Zb Yb. opnd HI o Ho ro Go Uo Eo Zo Yo.
      destruct (AddAssign_ok m n ra rb ro Hn Za Zb Zo) as (m' & E & V & Fr). destruct (fr_n _ _ _ _ _ Fr) as (T1 & T2 & T3).
      assert (EA: okv (Add n (znd [] vs a) (znd [] vs b)) = tm m' ro).
      { rewrite V, <- Ea, <- Eb. unfold Add. rewrite tlwe_map2_ok by lia. reflexivity. }
      rewrite EA. eapply (step_into e _ m ws ts vs tvs o ro m'); try eassumption; try reflexivity.
      * cbn [mexec1 lexec1]. rewrite Ga, Gb, Go. cbn [bind]. rewrite E. reflexivity.
      * intros z [Hz Hnz] Hne. split; [split; [lia|exact Hnz]|]. apply (fr_t _ _ _ _ _ Fr). congruence.
      * destruct Uo as [X Y]. split; [lia|exact Y].
      * eapply good_other; [exact W|exact HG| | | |lia|lia|lia].
        -- intros x Hx. apply (fr_t _ _ _ _ _ Fr). intros ->. destruct Uo as [_ Uo]. contradiction.
        -- intros x Hx. apply (fr_f _ _ _ _ _ Fr). intros [].
        -- intros x Hx. apply (fr_i _ _ _ _ _ Fr). intros [].
      * rewrite V. apply zlen_tab. lia.
    + destruct (new_lut_keep e m f HG) as (lut & m1 & E & Tb & G1 & K1 & NA & NB). exists [], (ts ++ [lut]), m1. rewrite app_nil_r.
      split; [cbn [mexec1 lexec1]; rewrite E; reflexivity|]. split; [|split; [apply kept_all; exact K1|split; [intros x []|]]].
      * destruct HI as [_ _ A (L1 & ND & H) TB]. constructor; [exact G1|eapply tv_kept; eassumption|exact A| |].
        -- split; [exact L1|]. split; [exact ND|]. intros j Hj. destruct (H j Hj) as (U & B & C). destruct (K1 _ U) as [U' ->]. auto.
        -- apply Forall2_app; [eapply tabs_keep; [exact TB|apply kept_others; exact K1|auto]|]. constructor; [|constructor]. split; [exact Tb|].
           split; intro X; apply In_zn in X; destruct X as (j & Hj & X); destruct (H j Hj) as (U & _); rewrite X in U; contradiction.
      * split; [reflexivity|]. rewrite zlen_snoc. reflexivity.
    + destruct HA as [Ht Ha]. opnd HI a Ha ra Ga Ua Ea Za Ya. destruct (tabs_at e m ws ts tvs t (i_tabs _ _ _ _ _ _ HI) Ht) as (l & Gl & Tb). rewrite <- Ea.
      destruct (g_lut L pr W _ _ (DecompositionOffset ck) Hb Hks e m ra l _ HG (usr _ _ _ Ua Za) Tb) as (r & m' & E & V & G1 & U1 & N1 & K1).
      eapply step_app; [exact HI| |reflexivity|reflexivity|exact K1|exact G1|exact U1|exact N1|exact V|apply (bootp_ok L pr W)].
      cbn [mexec1 lexec1]. rewrite Gl, Ga. cbn [bind]. rewrite E. reflexivity.
    + destruct HA as (Ht & Ha & Ho). opnd HI a Ha ra Ga Ua Ea Za Ya. opnd HI o Ho ro Go Uo Eo Zo Yo.
      destruct (tabs_at e m ws ts tvs t (i_tabs _ _ _ _ _ _ HI) Ht) as (l & Gl & Tb). rewrite <- Ea.
      destruct (g_assign L pr W _ _ (DecompositionOffset ck) Hb Hks e m ra l _ ro HG (usr _ _ _ Ua Za) Tb (usr _ _ _ Uo Zo)) as (m' & E & V & G1 & K1 & U1).
      eapply (step_into e _ m ws ts vs tvs o ro m'); [exact HI| |reflexivity|reflexivity|reflexivity|exact Ho|exact Go|exact K1|apply U1; exact Uo|exact G1|exact V|apply (bootp_ok L pr W)].
      cbn [mexec1 lexec1]. rewrite Gl, Ga, Go. cbn [bind]. rewrite Assign_eq, E. reflexivity.
    + opnd HI a HA ra Ga Ua Ea Za Ya. destruct (new_lut_keep e m f HG) as (lut & m1 & E1 & Tb & G1 & K1 & _). destruct (K1 _ Ua) as [Ua1 Ea1]. rewrite <- Ea, <- Ea1.
      destruct (g_lut L pr W _ _ (DecompositionOffset ck) Hb Hks e m1 ra lut _ G1 (usr _ _ _ Ua1 ltac:(rewrite Ea1; exact Za)) Tb) as (r & m' & E & V & G2 & U2 & N2 & K2).
      eapply step_app; [exact HI| |reflexivity|reflexivity|eapply keeps_trans; eassumption|exact G2|exact U2| |exact V|apply (bootp_ok L pr W)].
      * cbn [mexec1 lexec1]. rewrite Ga. cbn [bind]. unfold BootstrapFunc. rewrite E1. cbn [bind]. rewrite E. reflexivity.
      * intro X. apply N2. apply (K1 r X).
    + destruct HA as (Ha & Ho). opnd HI a Ha ra Ga Ua Ea Za Ya. opnd HI o Ho ro Go Uo Eo Zo Yo.
      destruct (new_lut_keep e m f HG) as (lut & m1 & E1 & Tb & G1 & K1 & _). destruct (K1 _ Ua) as [Ua1 Ea1]. destruct (K1 _ Uo) as [Uo1 Eo1]. rewrite <- Ea, <- Ea1.
      destruct (g_assign L pr W _ _ (DecompositionOffset ck) Hb Hks e m1 ra lut _ ro G1 (usr _ _ _ Ua1 ltac:(rewrite Ea1; exact Za)) Tb
        (usr _ _ _ Uo1 ltac:(rewrite Eo1; exact Zo))) as (m' & E & V & G2 & K2 & U2).
      eapply (step_into e _ m ws ts vs tvs o ro m'); [exact HI| |reflexivity|reflexivity|reflexivity|exact Ho|exact Go| |apply U2; exact Uo1|exact G2|exact V|apply (bootp_ok L pr W)].
      * cbn [mexec1 lexec1]. rewrite Ga, Go. cbn [bind]. unfold BootstrapFuncAssign. rewrite E1. cbn [bind]. rewrite Assign_eq, E. reflexivity.
      * intros z Hz Hne. destruct (K1 z Hz) as [Hz1 Ez1]. destruct (K2 z Hz1 Hne) as [Hz2 Ez2]. split; [exact Hz2|congruence].
Qed.

Lemma run_total e p : forall (m : M) ws ts vs tvs, Inv e m ws ts vs tvs -> asks_all p (zlen ws) (zlen ts) ->
  exists nw ts' m', mexec O pr ck e gk k p ws ts m = Ok (ws ++ nw, ts', m') /\ Inv e m' (ws ++ nw) ts' (fst (vrun p vs tvs)) (snd (vrun p vs tvs)) /\
    kept_but O e (moutputs p) ws m m' /\ (forall x, In x nw -> ~ user m e x).
Proof.
  induction p as [|i p IH]; intros m ws ts vs tvs HI HA; cbn [asks_all vrun mexec] in *.
  - exists [], ts, m. rewrite app_nil_r. split; [reflexivity|]. split; [exact HI|]. split; [intros x Hx _; auto|intros x []].
  - destruct HA as [H1 H2]. destruct (step_total e i m ws ts vs tvs HI H1) as (nw1 & ts1 & m1 & E1 & I1 & O1 & F1 & N1 & N2).
    destruct (IH m1 (ws ++ nw1) ts1 _ _ I1) as (nw2 & ts2 & m2 & E2 & I2 & O2 & F2).
    { rewrite zlen_app, N1, N2. exact H2. }
    exists (nw1 ++ nw2), ts2, m2. rewrite E1. cbn [bind]. rewrite app_assoc. split; [exact E2|]. split; [exact I2|].
    assert (KU: forall x, user m e x -> user m1 e x).
    { intros x Hx. destruct (in_dec Z.eq_dec x ws) as [I|I].
      - apply In_zn in I. destruct I as (j & Hj & <-). destruct (i_hold _ _ _ _ _ _ I1) as (_ & _ & H). rewrite <- (zn_app1 ws nw1) by exact Hj. apply H.
        unfold zlen in *. rewrite app_length. lia.
      - apply O1; [exact Hx|]. intros o _ G. apply I. destruct (get_inv 0 _ _ _ G) as [Hj ->]. apply (zn_In ws o). exact Hj. }
    split.
    + intros x Hx Hnx. cbn [moutputs flat_map] in Hnx, O1. rewrite app_nil_r in O1. destruct (O1 x Hx) as [V1 E1'].
      { intros o Ho. apply Hnx. apply in_or_app. left. exact Ho. }
      destruct (O2 x V1) as [V2 E2'].
      * intros o Ho G. destruct (get_inv 0 _ _ _ G) as [Hj Ex]. destruct (Z_lt_dec o (zlen ws)) as [Hlt|Hge].
        { apply (Hnx o); [apply in_or_app; right; exact Ho|]. rewrite <- G. unfold get. destruct (Z.ltb_spec o 0); [lia|].
          rewrite nth_error_app1 by (unfold zlen in Hlt; lia). reflexivity. }
        { apply (F1 x); [|exact Hx]. rewrite Ex. unfold znd. rewrite app_nth2 by (unfold zlen in Hge; lia). apply nth_In.
          rewrite zlen_app in Hj. unfold zlen in *. lia. }
      * split; [exact V2|congruence].
    + intros x I. apply in_app_or in I. destruct I as [I|I]; [apply F1; exact I|]. intro X. apply (F2 x I). apply KU. exact X.
Qed.
End Run.

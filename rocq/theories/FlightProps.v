(** * Several batches in flight: results *)
From Coq Require Import Lia ZifyBool Setoid Morphisms List.
From Verif Require Import GoBase GoFacts GoMem F64 Utils Spec Params Key Tlwe TlweMem Poly Fft FftTabErr Trlwe Trgsw Evaluator CloudKey Gates RunSpec BatchSpec Flight FlightSpec
  MemFacts TlweFacts PolyFacts NegFacts Laws TrlweFacts TrgswFacts RotFacts KeySwitchFacts EvalFacts HeapFacts LinFacts OldRotFacts CloudKeyFacts CallFacts BootFacts
  GateFacts NoiseFacts RunProps RlweProps HistProps RunWorst ReencFacts BatchFacts BatchProps FlightFacts.
Import ListNotations.
Local Open Scope Z_scope.
Ltac Zify.zify_post_hook ::= idtac.

Section Sched.
Context (O : fops) (pr : pset).
Notation srcs jobs := (map (fj_src O) jobs).

Lemma fsched_app jobs a b s : fsched O pr jobs (a ++ b) s = match fsched O pr jobs a s with Some (Ok s') => fsched O pr jobs b s' | r => r end.
Proof.
  revert s. induction a as [|ev a IH]; intro s; cbn [app fsched]; [reflexivity|].
  destruct (fstep O pr jobs ev s) as [[s'|]|]; [apply IH|reflexivity|reflexivity].
Qed.
Lemma fhanded_app jobs a b s s' : fsched O pr jobs a s = Some (Ok s') -> fhanded O pr jobs (a ++ b) s = fhanded O pr jobs a s ++ fhanded O pr jobs b s'.
Proof.
  revert s. induction a as [|ev a IH]; intros s E; cbn [app fsched fhanded] in *; [congruence|].
  destruct (fstep O pr jobs ev s) as [[s1|]|]; [|discriminate|discriminate]. rewrite (IH _ E). apply app_assoc.
Qed.
(** the events of one goroutine *)
Lemma own_events jobs i j evs : get jobs i = Ok j -> Forall (fun ev => event_of ev = i) evs -> forall s,
  fsched O pr jobs evs s = bsched O pr (srcs jobs) (fj_testvec O j) (fj_bsk O j) (fj_offset O j) evs s /\
  fhanded O pr jobs evs s = handed_out O pr (srcs jobs) (fj_testvec O j) (fj_bsk O j) (fj_offset O j) evs s.
Proof.
  intros Ej. induction evs as [|ev evs IH]; intros F s; [split; reflexivity|]. inversion F as [|? ? E F']; subst. specialize (IH F').
  cbn [fsched fhanded bsched handed_out]. unfold fstep. rewrite Ej.
  destruct (bstep _ _ _ _ _ _ ev s) as [[s'|]|]; [|split; reflexivity|split; reflexivity]. destruct (IH s') as [A B]. rewrite A, B. split; reflexivity.
Qed.

Context {N : Z} (W : pwf pr N).
Definition block (i : Z) (c : option Z) : list bevent := BGet i c :: repeat (BStep i) (Z.to_nat (lv0_N pr) + 2) ++ [BPut i].

(** one goroutine from beginning to end *)
Lemma block_all (jobs : list (fjob O)) i c s e m1 pool1 r m2 : 0 <= i < zlen jobs -> zlen (bs_gor O s) = zlen jobs ->
  let j := znd (@job0 O) jobs i in
  bstep O pr (srcs jobs) (fj_testvec O j) (fj_bsk O j) (fj_offset O j) (BGet i c) s =
    Some (Ok {| bs_mem := m1; bs_pool := pool1; bs_gor := upd (bs_gor O s) i (GHas e); bs_results := bs_results O s |}) ->
  BlindRotate O pr m1 (fj_src O j) (fj_testvec O j) (fj_bsk O j) (fj_offset O j) e = Ok (r, m2) ->
  fsched O pr jobs (block i c) s = Some (Ok {| bs_mem := m2; bs_pool := e :: pool1; bs_gor := upd (bs_gor O s) i GDone; bs_results := upd (bs_results O s) i (Some r) |}) /\
  fhanded O pr jobs (block i c) s = [e].
Proof.
  intros Hi Hl j E1 E2. pose proof (get_ok (@job0 O) jobs i Hi) as Ej.
  assert (F: Forall (fun ev => event_of ev = i) (block i c)).
  { constructor; [reflexivity|]. apply Forall_app. split; [|repeat constructor]. apply Forall_forall. intros x Hx. apply repeat_spec in Hx. subst x. reflexivity. }
  destruct (own_events jobs i _ _ Ej F s) as [A B]. rewrite A, B. fold j. unfold block. cbn [bsched handed_out]. rewrite E1.
  set (s1 := {| bs_mem := m1; bs_pool := pool1; bs_gor := upd (bs_gor O s) i (GHas e); bs_results := bs_results O s |}).
  assert (GU: forall (u : list gor) g, zlen u = zlen jobs -> get (upd u i g) i = Ok g).
  { intros u g Hu. rewrite (get_ok GDone) by (rewrite zlen_upd; lia). rewrite znd_upd, Z.eqb_refl by lia. reflexivity. }
  assert (UU: forall g g', upd (upd (bs_gor O s) i g) i g' = upd (bs_gor O s) i g').
  { intros g g'. apply (list_ext GDone); rewrite !zlen_upd; [reflexivity|]. intros k Hk. rewrite !znd_upd by (rewrite ?zlen_upd; lia). destruct (k =? i); reflexivity. }
  destruct (steps_both pr W (srcs jobs) (fj_testvec O j) (fj_bsk O j) (fj_offset O j) s1 i e (fj_src O j) r m2 [BPut i]) as [C D];
    [apply GU; exact Hl|apply get_src; exact Hi|exact E2|].
  rewrite C, D. change (bs_gor O s1) with (upd (bs_gor O s) i (GHas e)). rewrite UU.
  cbn [bsched handed_out bstep bs_gor bs_mem bs_pool bs_results s1]. rewrite !GU by exact Hl. rewrite UU. split; reflexivity.
Qed.

(** a goroutine takes at most one evaluator *)
Lemma single_handed (j : fjob O) evs : forall s, get (bs_gor O s) 0 <> Ok GNew -> fhanded O pr [j] evs s = [].
Proof.
  induction evs as [|ev evs IH]; intros s Hs; [reflexivity|]. cbn [fhanded]. unfold fstep.
  destruct (Z.eq_dec (event_of ev) 0) as [E0|E0].
  2:{ destruct (get [j] (event_of ev)) as [j'|] eqn:Ej; [|reflexivity]. apply (get_inv j) in Ej. unfold zlen in Ej. cbn in Ej. lia. }
  rewrite E0. change (get [j] 0) with (Ok j). cbv match.
  assert (GU: forall g x, get (bs_gor O s) 0 = Ok x -> get (upd (bs_gor O s) 0 g) 0 = Ok g).
  { intros g x Hx. apply (get_inv GDone) in Hx. rewrite (get_ok GDone) by (rewrite zlen_upd; lia). rewrite znd_upd, Z.eqb_refl by lia. reflexivity. }
  destruct ev as [i c|i|i]; cbn [event_of] in E0; subst i; cbn [bstep].
  - destruct (get (bs_gor O s) 0) as [g|]; [|reflexivity]. destruct g; try reflexivity. contradiction.
  - destruct (get (bs_gor O s) 0) as [g|] eqn:Eg; [|reflexivity]. change (get (map (fj_src O) [j]) 0) with (Ok (fj_src O j)).
    destruct g as [|e|e k r|e|]; try reflexivity.
    + destruct (br_first _ _ _ _ _ _) as [[r m]|]; [|reflexivity]. cbn [bind app]. apply IH. cbn [bs_gor]. rewrite (GU _ _ eq_refl). discriminate.
    + destruct (k <? lv0_N pr).
      * destruct (br_next _ _ _ _ _ _ _ _) as [[r' m]|]; [|reflexivity]. cbn [bind app]. apply IH. cbn [bs_gor]. rewrite (GU _ _ eq_refl). discriminate.
      * cbn [app]. apply IH. cbn [bs_gor]. rewrite (GU _ _ eq_refl). discriminate.
  - destruct (get (bs_gor O s) 0) as [g|] eqn:Eg; [|reflexivity]. destruct g as [|e|e k r|e|]; try reflexivity.
    cbn [app]. apply IH. cbn [bs_gor]. rewrite (GU _ _ eq_refl). discriminate.
Qed.
Lemma single_no_reuse (j : fjob O) evs : forall s, NoDup (fhanded O pr [j] evs s).
Proof.
  intro s. destruct evs as [|ev evs]; cbn [fhanded]; [constructor|]. destruct (fstep O pr [j] ev s) as [[s'|]|] eqn:E; [|constructor|constructor].
  assert (D: get (bs_gor O s') 0 <> Ok GNew).
  { unfold fstep in E. destruct (Z.eq_dec (event_of ev) 0) as [E0|E0].
    2:{ destruct (get [j] (event_of ev)) as [j'|] eqn:Ej; [|discriminate]. apply (get_inv j) in Ej. unfold zlen in Ej. cbn in Ej. lia. }
    rewrite E0 in E. change (get [j] 0) with (Ok j) in E. cbv match in E.
    assert (GU: forall g x, get (bs_gor O s) 0 = Ok x -> get (upd (bs_gor O s) 0 g) 0 = Ok g).
    { intros g x Hx. apply (get_inv GDone) in Hx. rewrite (get_ok GDone) by (rewrite zlen_upd; lia). rewrite znd_upd, Z.eqb_refl by lia. reflexivity. }
    destruct ev as [i c|i|i]; cbn [event_of] in E0; subst i; cbn [bstep] in E; destruct (get (bs_gor O s) 0) as [g|] eqn:Eg; try discriminate.
    - destruct g; try discriminate. destruct c as [c|].
      + destruct (get (bs_pool O s) c); [|discriminate]. injection E as <-. cbn [bs_gor]. rewrite (GU _ _ eq_refl). discriminate.
      + destruct (NewPolyEvaluator _ _ _) as [[e m]|]; [|discriminate]. cbn [bind] in E. injection E as <-. cbn [bs_gor]. rewrite (GU _ _ eq_refl). discriminate.
    - change (get (map (fj_src O) [j]) 0) with (Ok (fj_src O j)) in E. destruct g as [|e|e k r|e|]; try discriminate.
      + destruct (br_first _ _ _ _ _ _) as [[r m]|]; [|discriminate]. cbn [bind] in E. injection E as <-. cbn [bs_gor]. rewrite (GU _ _ eq_refl). discriminate.
      + destruct (k <? lv0_N pr).
        * destruct (br_next _ _ _ _ _ _ _ _) as [[r' m]|]; [|discriminate]. cbn [bind] in E. injection E as <-. cbn [bs_gor]. rewrite (GU _ _ eq_refl). discriminate.
        * injection E as <-. cbn [bs_gor]. rewrite (GU _ _ eq_refl). discriminate.
    - destruct g as [|e|e k r|e|]; try discriminate. injection E as <-. cbn [bs_gor]. rewrite (GU _ _ eq_refl). discriminate. }
  rewrite (single_handed j evs s' D), app_nil_r. destruct ev; [|constructor|constructor].
  destruct (get (bs_gor O s') i) as [[]|]; repeat constructor; intros [].
Qed.
End Sched.

Lemma args_of {O N} (L : flaws O N) pr (W : pwf pr N) (HBG : g_BG pr = 2 ^ g_BGBIT pr) (m : mem (FP O)) pool jobs tvs : flight_args O pr m pool jobs tvs ->
  (forall i j, get jobs i = Ok j -> bsk_ok L pr (fj_bsk O j)) /\
  (forall i j, get jobs i = Ok j -> batch_args O pr m pool [fj_src O j] (fj_testvec O j) (tvs i)).
Proof.
  intro F. split; intros i j E; destruct (F i j E) as (A & sk & rk & rb & ck & Hsk & Hck & Eb & _); [|exact A].
  rewrite Eb. exact (cloud_bsk L pr W HBG _ _ _ _ Hsk Hck).
Qed.

Lemma fpool_ok {O N} (L : flaws O N) pr (W : pwf pr N) m pool : flight_reachable O pr m pool -> mem_ok m /\ Forall (good L m) pool /\ ForallOrdPairs sep pool.
Proof.
  induction 1 as [m Hm|m m' pool _ (Hm & Hg & Hp) Hs Ht Hf Hi|m p1 p p2 _ (Hm & Hg & Hp)|m pool pr' jobs tvs evs s _ (Hm & Hg & Hp) [W' HBG'] EN Ha E].
  - split; [exact Hm|]. split; constructor.
  - destruct Hm as (a & b & c). split; [unfold mem_ok; lia|]. split; [|exact Hp]. rewrite Forall_forall in *. intros p Hin.
    eapply (good_same L pr); [apply Hg; exact Hin|apply Hs; exact Hin|unfold grew; lia].
  - split; [exact Hm|]. split; [|apply (pairs_mid sep sep_sym _ _ _ Hp)]. rewrite Forall_forall in *. intros q Hq. apply Hg.
    apply in_app_or in Hq. apply in_or_app. destruct Hq; [left|right; right]; assumption.
  - rewrite EN, (pw_gN _ _ W) in W'. destruct (args_of L pr' W' HBG' _ _ _ _ Ha) as [Hb Hx].
    destruct (FlightFacts.inv_sched L pr' W' m pool jobs tvs Hb Hx _ evs _ _ (FlightFacts.inv_init L pr' m pool jobs tvs Hb Hx evs Hm Hg Hp) E) as (s' & [= <-] & I).
    split; [apply (FlightFacts.v_mem _ _ _ _ _ _ _ _ _ I)|]. split; [|apply (FlightFacts.v_pp _ _ _ _ _ _ _ _ _ I)].
    pose proof (FlightFacts.v_pool _ _ _ _ _ _ _ _ _ I) as F. rewrite Forall_forall in *. intros p Hin. apply (F p Hin).
Qed.

(** a batch alone is a flight *)
Definition jobs_of {O} (srcs : list Z) tvr bsk off : list (fjob O) :=
  map (fun x => {| fj_src := x; fj_testvec := tvr; fj_bsk := bsk; fj_offset := off |}) srcs.
Lemma batch_flight O pr (srcs : list Z) tvr bsk off evs : forall s s', zlen (bs_gor O s) = zlen srcs ->
  bsched O pr srcs tvr bsk off evs s = Some (Ok s') -> fsched O pr (jobs_of srcs tvr bsk off) evs s = Some (Ok s').
Proof.
  assert (Es: map (fj_src O) (jobs_of srcs tvr bsk off) = srcs) by (unfold jobs_of; rewrite map_map; apply map_id).
  induction evs as [|ev evs IH]; intros s s' Hl E; cbn [bsched fsched] in *; [exact E|].
  destruct (bstep O pr srcs tvr bsk off ev s) as [[s1|]|] eqn:E1; [|discriminate|discriminate].
  assert (X: 0 <= event_of ev < zlen srcs /\ zlen (bs_gor O s1) = zlen srcs).
  { destruct ev as [i c|i|i]; cbn [bstep event_of] in *; destruct (get (bs_gor O s) i) as [g|] eqn:Eg; try discriminate;
      (apply (get_inv GDone) in Eg; split; [lia|]).
    - destruct g; try discriminate. destruct c as [c|].
      + destruct (get (bs_pool O s) c); [|discriminate]. injection E1 as <-. cbn [bs_gor]. rewrite zlen_upd. exact Hl.
      + destruct (NewPolyEvaluator _ _ _) as [[e m]|]; [|discriminate]. cbn [bind] in E1. injection E1 as <-. cbn [bs_gor]. rewrite zlen_upd. exact Hl.
    - destruct (get srcs i) as [x|]; [|destruct g; discriminate]. destruct g as [|e|e k r|e|]; try discriminate.
      + destruct (br_first _ _ _ _ _ _) as [[r m]|]; [|discriminate]. cbn [bind] in E1. injection E1 as <-. cbn [bs_gor]. rewrite zlen_upd. exact Hl.
      + destruct (k <? lv0_N pr).
        * destruct (br_next _ _ _ _ _ _ _ _) as [[r' m]|]; [|discriminate]. cbn [bind] in E1. injection E1 as <-. cbn [bs_gor]. rewrite zlen_upd. exact Hl.
        * injection E1 as <-. cbn [bs_gor]. rewrite zlen_upd. exact Hl.
    - destruct g as [|e|e k r|e|]; try discriminate. injection E1 as <-. cbn [bs_gor]. rewrite zlen_upd. exact Hl. }
  destruct X as [Hi Hl1]. unfold fstep. rewrite Es.
  assert (Lj: zlen (@jobs_of O srcs tvr bsk off) = zlen srcs) by (unfold jobs_of, zlen; rewrite map_length; reflexivity).
  assert (Ej: exists x, get (jobs_of srcs tvr bsk off) (event_of ev) = Ok {| fj_src := x; fj_testvec := tvr; fj_bsk := bsk; fj_offset := off |}).
  { rewrite (get_ok (@job0 O)) by lia. unfold znd. destruct (Z.ltb_spec (event_of ev) 0); [lia|]. unfold jobs_of.
    set (f := fun x => {| fj_src := x; fj_testvec := tvr; fj_bsk := bsk; fj_offset := off |} : fjob O). rewrite (nth_indep _ job0 (f 0)) by (rewrite map_length; unfold zlen in Hi; lia). rewrite map_nth. eexists. reflexivity. }
  destruct Ej as (x & Ej). rewrite Ej. cbn [fj_testvec fj_bsk fj_offset]. rewrite E1. exact (IH s1 s' Hl1 E).
Qed.

Lemma pool_flight O pr m pool : pool_reachable O pr m pool -> flight_reachable O pr m pool.
Proof.
  induction 1 as [m Hm|m m' pool _ IH Hs Ht Hf Hi|m p1 p p2 _ IH|m pool pr' sk rk rb ck srcs tvr tv evs s _ IH G EN Hsk Hck Ha E _].
  - apply fr_empty. exact Hm.
  - eapply fr_other; eassumption.
  - eapply fr_drop. exact IH.
  - apply (fr_flight O pr m pool pr' (jobs_of srcs tvr (BootstrappingKey ck) (DecompositionOffset ck)) (fun _ => tv) evs s IH G EN).
    + intros i j Ej. unfold jobs_of in Ej. pose proof Ej as Ei. apply (get_inv (@job0 O)) in Ei. destruct Ei as [Hi Ei].
      assert (Lj: zlen (map (fun x => {| fj_src := x; fj_testvec := tvr; fj_bsk := BootstrappingKey ck; fj_offset := DecompositionOffset ck |} : fjob O) srcs) = zlen srcs) by (unfold zlen; rewrite map_length; reflexivity).
      assert (Ej': exists x, In x srcs /\ j = {| fj_src := x; fj_testvec := tvr; fj_bsk := BootstrappingKey ck; fj_offset := DecompositionOffset ck |}).
      { assert (Hin: In j (map (fun x => {| fj_src := x; fj_testvec := tvr; fj_bsk := BootstrappingKey ck; fj_offset := DecompositionOffset ck |} : fjob O) srcs)).
        { rewrite Ei. unfold znd. destruct (Z.ltb_spec i 0); [lia|]. apply nth_In. unfold zlen in Hi. lia. }
        apply in_map_iff in Hin. destruct Hin as (x & Ex & Hx). exists x. auto. }
      destruct Ej' as (x & Hx & ->). cbn [fj_src fj_testvec fj_bsk fj_offset]. split.
      * destruct Ha as (F & R). split; [|exact R]. rewrite Forall_forall in F. constructor; [apply F; exact Hx|constructor].
      * exists sk, rk, rb, ck. cbn [fj_bsk fj_offset]. auto.
    + unfold finit. replace (map (fj_src O) (jobs_of srcs tvr (BootstrappingKey ck) (DecompositionOffset ck))) with srcs by (unfold jobs_of; rewrite map_map; symmetry; apply map_id).
      apply (batch_flight O pr' srcs); [|exact E]. cbn [binit bs_gor]. unfold zlen. rewrite repeat_length. reflexivity.
Qed.

Section F.
Context {O : fops} {N : Z} (L : flaws O N) (pr : pset) (W : pwf pr N) (HBG : g_BG pr = 2 ^ g_BGBIT pr).
Notation M := (mem (FP O)).
Notation n := (lv0_N pr).

Lemma own_rotation_ok (m : M) pool j tv : flight_job O pr m pool j tv ->
  own_rotation O pr m j tv = Ok (br_acc L (g_BGBIT pr) (g_L pr) (fj_offset O j) (g_NBIT pr) n (fj_bsk O j) (tm m (fj_src O j)) tv n).
Proof.
  intros (A & sk & rk & rb & ck & Hsk & Hck & Eb & _). unfold own_rotation. pose proof (pw_n _ _ W).
  assert (Hb: bsk_ok L pr (fj_bsk O j)) by (rewrite Eb; exact (cloud_bsk L pr W HBG _ _ _ _ Hsk Hck)).
  destruct (src_ok pr m pool _ _ _ A 0) as [_ Ls]; [cbn; lia|]. change (znd 0 [fj_src O j] 0) with (fj_src O j) in Ls.
  apply (rotation_ok L pr W _ _ _ tv n Hb Ls (tv_ok pr W _ _ _ _ _ A)). lia.
Qed.

Lemma flight_run (m : M) pool jobs tvs evs r : flight_reachable O pr m pool -> flight_args O pr m pool jobs tvs ->
  fsched O pr jobs evs (finit O m pool jobs) = Some r ->
  exists s, r = Ok s /\ zlen (bs_results O s) = zlen jobs /\ (forall x, outside_pool O m pool x -> tm (bs_mem O s) x = tm m x) /\
    forall i j, get jobs i = Ok j -> fdone O s i ->
      exists t, znd None (bs_results O s) i = Some t /\ (zlen (tm (bs_mem O s) (rA t)) = N /\ zlen (tm (bs_mem O s) (rB t)) = N) /\
        (fno_reuse O pr m pool jobs evs -> own_rotation O pr m j (tvs i) = Ok (ct_at (bs_mem O s) t)).
Proof.
  intros Hp Ha E. destruct (fpool_ok L pr W _ _ Hp) as (Hm & Hg & Hs). destruct (args_of L pr W HBG _ _ _ _ Ha) as [Hb Hx].
  destruct (FlightFacts.inv_sched L pr W m pool jobs tvs Hb Hx _ evs _ _ (FlightFacts.inv_init L pr m pool jobs tvs Hb Hx evs Hm Hg Hs) E) as (s & -> & I).
  exists s. split; [reflexivity|]. split; [apply (FlightFacts.v_res _ _ _ _ _ _ _ _ _ I)|]. split; [apply (FlightFacts.v_args _ _ _ _ _ _ _ _ _ I)|].
  intros i j Ej D. pose proof Ej as Ej'. apply (get_inv (@job0 O)) in Ej'. destruct Ej' as [Hi Ej']. apply (get_inv GDone) in D. destruct D as [_ D].
  assert (Fi: finished (znd GDone (bs_gor O s) i)) by (rewrite <- D; exact Logic.I).
  destruct (FlightFacts.v_set _ _ _ _ _ _ _ _ _ I i Hi Fi) as (t & Et & _ & LA & LB). exists t. split; [exact Et|]. split; [split; assumption|].
  intro NR. destruct (FlightFacts.v_fin _ _ _ _ _ _ _ _ _ I NR i Hi Fi) as (e & t' & Et' & _ & _ & _ & _ & At & _).
  assert (t' = t) by congruence. subst t'. rewrite (own_rotation_ok m pool j (tvs i) (Ha i j Ej)). f_equal. symmetry. apply at_ct. rewrite Ej'. exact At.
Qed.

(** every goroutine with an evaluator of its own *)
Lemma flight_block (m : M) pool jobs tvs s i : flight_args O pr m pool jobs tvs ->
  FlightFacts.inv L pr m pool jobs tvs False [] s -> 0 <= i < zlen jobs -> znd GDone (bs_gor O s) i = GNew ->
  exists s' e, fsched O pr jobs (own_block pr i) s = Some (Ok s') /\ fhanded O pr jobs (own_block pr i) s = [e] /\
    FlightFacts.inv L pr m pool jobs tvs False [] s' /\ bs_gor O s' = upd (bs_gor O s) i GDone /\ pe_t e = tnext (bs_mem O s) /\ tnext (bs_mem O s) < tnext (bs_mem O s').
Proof.
  intros Ha I Hi Hg. pose proof (FlightFacts.v_len _ _ _ _ _ _ _ _ _ I) as Hl. destruct (FlightFacts.v_mem _ _ _ _ _ _ _ _ _ I) as [Hm Ht].
  destruct (args_of L pr W HBG _ _ _ _ Ha) as [Hb Hx]. pose proof (get_ok (@job0 O) jobs i Hi) as Ej. set (j := znd job0 jobs i) in *.
  destruct (Hx i j Ej) as (Fs & OA & OB & TA & TB & _). inversion Fs as [|? ? [Os Ls] _]; subst. pose proof (tv_ok pr W _ _ _ _ _ (Hx i j Ej)) as Htv.
  pose proof (NewPolyEvaluator_ok L (bs_mem O s)) as NE.
  destruct (new_good L pr W (bs_mem O s) Hm) as (e & m1 & E1 & Ge & Hm1 & Gr & Hx1 & _ & Ho & _).
  assert (Te: pe_t e = tnext (bs_mem O s) /\ tnext m1 = tnext (bs_mem O s) + 24).
  { destruct NE as (m1' & E1' & (_ & T1 & _) & _). rewrite (pw_gN _ _ W) in E1. rewrite E1 in E1'. injection E1' as -> ->. split; [reflexivity|exact T1]. }
  assert (Lt: forall z, outside_pool O m pool z -> z < tnext (bs_mem O s)) by (intros z [[_ X] _]; lia).
  assert (Same: forall z, outside_pool O m pool z -> tm m1 z = tm m z).
  { intros z Hz. rewrite Hx1 by (apply Lt; exact Hz). apply (FlightFacts.v_args _ _ _ _ _ _ _ _ _ I). exact Hz. }
  assert (NP: forall z, outside_pool O m pool z -> ~ pscr e z).
  { intros z Hz Hp. specialize (Lt z Hz). specialize (Ho z Hp). lia. }
  destruct (BlindRotate_slot L pr W m1 e (fj_src O j) (fj_testvec O j) (tvs i) (fj_bsk O j) (fj_offset O j) (proj1 Ge) (Hb i j Ej)) as (r1 & m2 & E2 & _ & _ & S2 & _);
    [rewrite Same by exact Os; exact Ls|split; rewrite Same; assumption|exact Htv|apply NP; exact Os|apply NP; exact OA|apply NP; exact OB|].
  destruct (block_all O pr W jobs i None s e m1 (bs_pool O s) r1 m2 Hi Hl) as [A B]; [|exact E2|].
  { cbn [bstep]. rewrite (get_ok GDone) by lia. rewrite Hg, E1. reflexivity. }
  eexists _, e. split; [exact A|]. split; [exact B|]. split; [|split; [reflexivity|split; [apply Te|]]].
  - assert (I': FlightFacts.inv L pr m pool jobs tvs False (own_block pr i) s) by (eapply FlightFacts.inv_evs; exact I).
    destruct (FlightFacts.inv_sched L pr W m pool jobs tvs Hb Hx False _ s _ I' A) as (s' & Es & I3). injection Es as <-. exact I3.
  - cbn [bs_mem]. destruct (step_grew L pr _ _ _ _ _ S2) as (X & _). lia.
Qed.

Lemma flight_blocks (m : M) pool jobs tvs q : flight_args O pr m pool jobs tvs -> forall i s,
  FlightFacts.inv L pr m pool jobs tvs False [] s -> 0 <= i -> i + Z.of_nat q = zlen jobs ->
  (forall j, 0 <= j < zlen jobs -> znd GDone (bs_gor O s) j = if j <? i then GDone else GNew) ->
  exists s', fsched O pr jobs (own_blocks pr q i) s = Some (Ok s') /\ (forall j, 0 <= j < zlen jobs -> fdone O s' j) /\
    NoDup (fhanded O pr jobs (own_blocks pr q i) s) /\
    Forall (fun e => tnext (bs_mem O s) <= pe_t e) (fhanded O pr jobs (own_blocks pr q i) s).
Proof.
  intro Ha. induction q as [|q IH]; intros i s I Hi Hq Hg; cbn [own_blocks]; pose proof (FlightFacts.v_len _ _ _ _ _ _ _ _ _ I) as Hl.
  - exists s. split; [reflexivity|]. split; [|split; constructor]. intros j Hj. unfold fdone. rewrite (get_ok GDone) by lia. rewrite Hg by exact Hj.
    destruct (Z.ltb_spec j i); [reflexivity|lia].
  - destruct (flight_block m pool jobs tvs s i Ha I) as (s1 & e & A & B & I1 & G1 & Te & Tn); [lia|rewrite Hg by lia; rewrite Z.ltb_irrefl; reflexivity|].
    destruct (IH (i + 1) s1 I1) as (s' & E & D & ND & F); [lia|lia| |].
    { intros j Hj. rewrite G1, znd_upd by lia. rewrite Hg by exact Hj. destruct (Z.eqb_spec j i), (Z.ltb_spec j i), (Z.ltb_spec j (i + 1)); try lia; reflexivity. }
    exists s'. rewrite fsched_app, A. rewrite (fhanded_app O pr jobs _ _ _ _ A), B. cbn [app]. split; [exact E|]. split; [exact D|]. rewrite Forall_forall in F. split.
    + constructor; [|exact ND]. intro X. specialize (F e X). lia.
    + constructor; [lia|]. apply Forall_forall. intros x Hx. specialize (F x Hx). lia.
Qed.

Lemma flight_own (m : M) pool jobs tvs : flight_reachable O pr m pool -> flight_args O pr m pool jobs tvs ->
  exists evs s, fno_reuse O pr m pool jobs evs /\ fsched O pr jobs evs (finit O m pool jobs) = Some (Ok s) /\ forall j, 0 <= j < zlen jobs -> fdone O s j.
Proof.
  intros Hp Ha. destruct (fpool_ok L pr W _ _ Hp) as (Hm & Hg & Hs). destruct (args_of L pr W HBG _ _ _ _ Ha) as [Hb Hx].
  assert (I: FlightFacts.inv L pr m pool jobs tvs False [] (finit O m pool jobs)).
  { pose proof (FlightFacts.inv_init L pr m pool jobs tvs Hb Hx [] Hm Hg Hs) as [H1 H2 H3 H4 H5 H6 H7 H8 H9 _ _]. constructor; try assumption; intros []. }
  destruct (flight_blocks m pool jobs tvs (length jobs) Ha 0 _ I) as (s & E & D & ND & _); [lia|unfold zlen; lia| |].
  - intros j Hj. unfold finit. cbn [binit bs_gor]. destruct (Z.ltb_spec j 0); [lia|]. apply znd_repeat. rewrite map_length. unfold zlen in Hj. lia.
  - eexists _, s. split; [exact ND|]. split; [exact E|exact D].
Qed.

(** two batches of one input, one after the other *)
Lemma flight_serial (m : M) pool j1 j2 tvs : flight_reachable O pr m pool -> flight_args O pr m pool [j1; j2] tvs -> Z.even n = true -> 0 < n ->
  exists t s1 s2, fsched O pr [j1; j2] (block pr 0 None) (finit O m pool [j1; j2]) = Some (Ok s1) /\
    fsched O pr [j1; j2] (block pr 1 (Some 0)) s1 = Some (Ok s2) /\
    (fdone O s1 0 /\ bs_results O s1 = [Some t; None] /\ own_rotation O pr m j1 (tvs 0) = Ok (ct_at (bs_mem O s1) t)) /\
    (bs_results O s2 = [Some t; Some t] /\ own_rotation O pr m j2 (tvs 1) = Ok (ct_at (bs_mem O s2) t)).
Proof.
  intros Hp Ha Hev Hn0. pose proof (pw_n _ _ W) as Hn. destruct (fpool_ok L pr W _ _ Hp) as (Hm & _). destruct (args_of L pr W HBG _ _ _ _ Ha) as [Hb Hx].
  pose proof (own_rotation_ok m pool j1 (tvs 0) (Ha 0 j1 eq_refl)) as R1. pose proof (own_rotation_ok m pool j2 (tvs 1) (Ha 1 j2 eq_refl)) as R2.
  pose proof (Hb 0 j1 eq_refl) as Hb1. pose proof (Hb 1 j2 eq_refl) as Hb2. pose proof (Hx 0 j1 eq_refl) as Hx1. pose proof (Hx 1 j2 eq_refl) as Hx2.
  pose proof (tv_ok pr W _ _ _ _ _ Hx1) as Htv1. pose proof (tv_ok pr W _ _ _ _ _ Hx2) as Htv2.
  destruct Hx1 as (F1 & OA1 & OB1 & TA1 & TB1 & _). destruct Hx2 as (F2 & OA2 & OB2 & TA2 & TB2 & _).
  inversion F1 as [|? ? [Ox Lx] _]; subst. inversion F2 as [|? ? [Oy Ly] _]; subst.
  destruct (new_good L pr W m Hm) as (e & m1 & E1 & Ge & Hm1 & Gr & H1 & _ & Ho & I1).
  assert (Lt: forall z, outside_pool O m pool z -> z < tnext m) by (intros z [[_ X] _]; exact X).
  assert (NE: forall z, outside_pool O m pool z -> ~ pscr e z).
  { intros z Hz Hpz. specialize (Lt z Hz). specialize (Ho z Hpz). lia. }
  destruct (BlindRotate_slot L pr W m1 e (fj_src O j1) (fj_testvec O j1) (tvs 0) (fj_bsk O j1) (fj_offset O j1) (proj1 Ge) Hb1) as (r1 & m2 & E2 & V2 & A2 & S2 & He2);
    [rewrite H1; [exact Lx|apply Lt; exact Ox]|split; rewrite H1; [exact TA1|apply Lt; exact OA1|exact TB1|apply Lt; exact OB1]|exact Htv1|apply NE; exact Ox|apply NE; exact OA1|apply NE; exact OB1|].
  assert (H2: forall z, z < tnext m -> tm m2 z = tm m z).
  { intros z Hz. rewrite (step_t _ _ _ _ _ _ _ S2); [apply H1; exact Hz|]. intro Hpz. specialize (Ho z Hpz). lia. }
  destruct (BlindRotate_slot L pr W m2 e (fj_src O j2) (fj_testvec O j2) (tvs 1) (fj_bsk O j2) (fj_offset O j2) He2 Hb2) as (r2 & m3 & E3 & V3 & A3 & S3 & He3);
    [rewrite H2; [exact Ly|apply Lt; exact Oy]|split; rewrite H2; [exact TA2|apply Lt; exact OA2|exact TB2|apply Lt; exact OB2]|exact Htv2|apply NE; exact Oy|apply NE; exact OA2|apply NE; exact OB2|].
  assert (Er: r2 = r1).
  { rewrite I1 in A2. destruct A2 as [J2 [(B & _)|(_ & _ & ->)]]; [lia|]. rewrite J2 in A3. destruct A3 as [_ [(B & _)|(_ & _ & ->)]]; [lia|].
    f_equal. apply Z.even_spec in Hev. destruct Hev as [h ->].
    assert (X: (0 + 2 * (2 * h)) mod 4 = 0) by (replace (0 + 2 * (2 * h)) with (h * 4) by ring; apply Z.mod_mul; lia). rewrite X. reflexivity. }
  subst r2.
  destruct (block_all O pr W [j1; j2] 0 None (finit O m pool [j1; j2]) e m1 pool r1 m2) as [B1 _]; [cbn; lia|reflexivity| |exact E2|].
  { unfold finit. cbn [bstep binit bs_gor bs_mem bs_pool bs_results map length repeat]. change (get [GNew; GNew] 0) with (Ok GNew). cbv match. rewrite E1. reflexivity. }
  set (s1 := {| bs_mem := m2; bs_pool := e :: pool; bs_gor := upd (bs_gor O (finit O m pool [j1; j2])) 0 GDone; bs_results := upd (bs_results O (finit O m pool [j1; j2])) 0 (Some r1) |}) in *.
  destruct (block_all O pr W [j1; j2] 1 (Some 0) s1 e m2 pool r1 m3) as [B2 _]; [cbn; lia|reflexivity|reflexivity|exact E3|].
  eexists r1, s1, _. split; [exact B1|]. split; [exact B2|]. split.
  - split; [reflexivity|]. split; [reflexivity|]. rewrite R1. f_equal. symmetry. apply at_ct. rewrite H1 in V2 by (apply Lt; exact Ox). exact V2.
  - split; [reflexivity|]. rewrite R2. f_equal. symmetry. apply at_ct. rewrite H2 in V3 by (apply Lt; exact Oy). exact V3.
Qed.
End F.

Section Top.
Context (R : arith) (O : fops) (pr : pset) (G : good_params pr) (EO : fft_evaluator R (g_N pr) = Ok O).
Notation M := (mem (FP O)).
Notation n := (lv0_N pr).

Lemma f_run (m : M) pool jobs tvs evs r : flight_reachable O pr m pool -> flight_args O pr m pool jobs tvs ->
  fsched O pr jobs evs (finit O m pool jobs) = Some r ->
  exists s, r = Ok s /\ zlen (bs_results O s) = zlen jobs /\ (forall x, outside_pool O m pool x -> tm (bs_mem O s) x = tm m x) /\
    forall i j, get jobs i = Ok j -> fdone O s i ->
      exists t, get (bs_results O s) i = Ok (Some t) /\
        (fno_reuse O pr m pool jobs evs -> own_rotation O pr m j (tvs i) = Ok (ct_at (bs_mem O s) t)).
Proof.
  intros Hp Ha E. destruct G as [W HBG]. destruct (laws_of _ _ _ EO) as [L _].
  destruct (flight_run L pr W HBG m pool jobs tvs evs r Hp Ha E) as (s & Es & Lr & Hx & Hv). exists s. split; [exact Es|]. split; [exact Lr|]. split; [exact Hx|].
  intros i j Ej D. destruct (Hv i j Ej D) as (t & Et & _ & V). exists t. split; [|exact V].
  apply (get_inv (@job0 O)) in Ej. rewrite (get_ok None) by lia. f_equal. exact Et.
Qed.

Lemma f_own (m : M) pool jobs tvs : flight_reachable O pr m pool -> flight_args O pr m pool jobs tvs ->
  exists evs s, fno_reuse O pr m pool jobs evs /\ fsched O pr jobs evs (finit O m pool jobs) = Some (Ok s) /\ forall i, 0 <= i < zlen jobs -> fdone O s i.
Proof. destruct G as [W HBG]. destruct (laws_of _ _ _ EO) as [L _]. exact (flight_own L pr W HBG m pool jobs tvs). Qed.

Lemma f_alone (m : M) pool j tvs evs s : flight_reachable O pr m pool -> flight_args O pr m pool [j] tvs ->
  fsched O pr [j] evs (finit O m pool [j]) = Some (Ok s) -> fdone O s 0 ->
  exists t, get (bs_results O s) 0 = Ok (Some t) /\ own_rotation O pr m j (tvs 0) = Ok (ct_at (bs_mem O s) t).
Proof.
  intros Hp Ha E D. destruct (f_run m pool [j] tvs evs _ Hp Ha E) as (s' & [= <-] & _ & _ & V).
  destruct (V 0 j eq_refl D) as (t & Et & X). exists t. split; [exact Et|]. apply X. apply single_no_reuse.
Qed.

Lemma f_serial (m : M) pool j1 j2 tvs : flight_reachable O pr m pool -> flight_args O pr m pool [j1; j2] tvs -> Z.even n = true -> 0 < n ->
  exists t evs1 evs2 s1 s2, fsched O pr [j1; j2] evs1 (finit O m pool [j1; j2]) = Some (Ok s1) /\ fsched O pr [j1; j2] evs2 s1 = Some (Ok s2) /\
    Forall (fun ev => event_of ev = 0) evs1 /\ Forall (fun ev => event_of ev = 1) evs2 /\
    fdone O s1 0 /\ bs_results O s1 = [Some t; None] /\ own_rotation O pr m j1 (tvs 0) = Ok (ct_at (bs_mem O s1) t) /\
    bs_results O s2 = [Some t; Some t] /\ own_rotation O pr m j2 (tvs 1) = Ok (ct_at (bs_mem O s2) t).
Proof.
  intros Hp Ha He Hn. destruct G as [W HBG]. destruct (laws_of _ _ _ EO) as [L _].
  destruct (flight_serial L pr W HBG m pool j1 j2 tvs Hp Ha He Hn) as (t & s1 & s2 & E1 & E2 & (D1 & R1 & V1) & (R2 & V2)).
  assert (F: forall i c, Forall (fun ev => event_of ev = i) (block pr i c)).
  { intros i c. constructor; [reflexivity|]. apply Forall_app. split; [|repeat constructor]. apply Forall_forall. intros x Hx. apply repeat_spec in Hx. subst x. reflexivity. }
  exists t, (block pr 0 None), (block pr 1 (Some 0)), s1, s2. split; [exact E1|]. split; [exact E2|]. split; [apply F|]. split; [apply F|].
  split; [exact D1|]. split; [exact R1|]. split; [exact V1|]. split; [exact R2|exact V2].
Qed.

Lemma f_bits sk rk rb (ck : CloudKey O) : key_ok pr sk -> NewCloudKey O pr sk rk rb = Ok ck ->
  forall (m : M) pool jobs tvs evs s batch b T, flight_reachable O pr m pool -> flight_args O pr m pool jobs tvs ->
  fsched O pr jobs evs (finit O m pool jobs) = Some (Ok s) -> batch_of O jobs tvs s ck batch ->
  exists outs, batch_post O pr (bs_mem O s) (KeySwitchingKey ck) (results_of O s batch) = Ok outs /\ zlen outs = zlen batch /\
    (fno_reuse O pr m pool jobs evs ->
     (forall i j, In i batch -> get jobs i = Ok j -> boot_noise O pr sk ck (BlindRotateTestvec ck) (tm m (fj_src O j)) T /\
        side (b i) (round_err pr sk) (lwe_phase n (KeyLv0 sk) (tm m (fj_src O j)))) ->
     forall k, 0 <= k < zlen batch -> encrypts n (KeyLv0 sk) (znd [] outs k) (b (zn batch k)) T).
Proof.
  intros Hsk Hck m pool jobs tvs evs s batch b T Hp Ha E Hbt. destruct G as [W HBG]. destruct (laws_of _ _ _ EO) as [L _].
  destruct (flight_run L pr W HBG m pool jobs tvs evs _ Hp Ha E) as (s' & [= <-] & Lr & _ & Hv).
  assert (LR: zlen (results_of O s batch) = zlen batch) by (unfold results_of, zlen; rewrite map_length; reflexivity).
  assert (In_: forall k, 0 <= k < zlen batch -> In (zn batch k) batch).
  { intros k Hk. unfold zn, znd. destruct (Z.ltb_spec k 0); [lia|]. apply nth_In. unfold zlen in Hk. lia. }
  assert (Rk: forall k, 0 <= k < zlen batch -> exists j t, get jobs (zn batch k) = Ok j /\ fj_bsk O j = BootstrappingKey ck /\ fj_offset O j = DecompositionOffset ck /\
    tvs (zn batch k) = BlindRotateTestvec ck /\ znd None (results_of O s batch) k = Some t /\
    (zlen (tm (bs_mem O s) (rA t)) = g_N pr /\ zlen (tm (bs_mem O s) (rB t)) = g_N pr) /\
    (fno_reuse O pr m pool jobs evs -> own_rotation O pr m j (tvs (zn batch k)) = Ok (ct_at (bs_mem O s) t))).
  { intros k Hk. destruct (Hbt _ (In_ k Hk)) as (D & Et & j & Ej & Eb & Eo). destruct (Hv _ j Ej D) as (t & Er & Ln & V).
    exists j, t. split; [exact Ej|]. split; [exact Eb|]. split; [exact Eo|]. split; [exact Et|]. split; [|split; [exact Ln|exact V]].
    apply (get_inv (@job0 O)) in Ej. unfold results_of. unfold znd. destruct (Z.ltb_spec k 0); [lia|].
    set (f := fun i => match get (bs_results O s) i with Ok r => r | Panic _ => None end).
    rewrite (nth_indep _ None (f 0)) by (rewrite map_length; unfold zlen in Hk; lia). rewrite map_nth.
    assert (Z0: nth (Z.to_nat k) batch 0 = zn batch k) by (unfold zn, znd; destruct (Z.ltb_spec k 0); [lia|reflexivity]).
    rewrite Z0. unfold f. rewrite (get_ok None) by lia. exact Er. }
  destruct (post_run L pr W HBG sk rk rb ck Hsk Hck (bs_mem O s) (results_of O s batch)) as (outs & Eo & Lo & Ho).
  { intros i Hi. rewrite LR in Hi. destruct (Rk i Hi) as (j & t & _ & _ & _ & _ & Et & [A B] & _). exists t. auto. }
  exists outs. split; [exact Eo|]. split; [lia|]. intros NR Hn k Hk.
  destruct (Rk k Hk) as (j & t & Ej & Eb & Eof & Etv & Et & _ & V). destruct (Hn _ j (In_ k Hk) Ej) as [Bn Sd].
  destruct (Ho k ltac:(lia)) as [_ Vk]. specialize (V NR). pose proof (Ha _ j Ej) as Hj.
  rewrite (own_rotation_ok L pr W HBG m pool j _ Hj) in V. injection V as V1.
  destruct (cloud_facts L pr W HBG _ _ _ _ Hsk Hck) as (_ & _ & Ht & _).
  rewrite (Vk t (tm m (fj_src O j)) Et).
  - apply (boot_phase L pr W HBG sk rk rb ck Hsk Hck); [|exact Bn|exact Sd].
    destruct Hj as ((F & _) & _). inversion F as [|? ? [_ Ls] _]. exact Ls.
  - rewrite Eb, Eof, Etv, Ht in V1. rewrite V1. split; reflexivity.
Qed.
End Top.

Lemma f_bits_worst mc O pr sk rk rb (ck : CloudKey O) : mc_ok mc -> setup (f64_arith mc) O pr sk rk rb ck ->
  forall Bb Bk d d', fft_error_within pr d d' -> key_noise_within pr rk rb Bb Bk -> 0 <= Bb -> 0 <= Bk -> 0 <= d' ->
  forall (m : mem (FP O)) pool jobs tvs evs s batch b, flight_reachable O pr m pool -> flight_args O pr m pool jobs tvs ->
  fsched O pr jobs evs (finit O m pool jobs) = Some (Ok s) -> batch_of O jobs tvs s ck batch -> fno_reuse O pr m pool jobs evs ->
  (forall i j, In i batch -> get jobs i = Ok j -> side (b i) (round_err pr sk) (lwe_phase (lv0_N pr) (KeyLv0 sk) (tm m (fj_src O j)))) ->
  exists outs, batch_post O pr (bs_mem O s) (KeySwitchingKey ck) (results_of O s batch) = Ok outs /\ zlen outs = zlen batch /\
    forall k, 0 <= k < zlen batch -> encrypts (lv0_N pr) (KeyLv0 sk) (znd [] outs k) (b (zn batch k)) (worst_noise pr sk Bb Bk d d').
Proof.
  intros Hmc S Bb Bk d d' Hf Hk Hb Hbk Hd m pool jobs tvs evs s batch b Hp Ha E Hbt NR Hs. pose proof S as (Gp & EO & Hsk & Hck).
  destruct (f_bits (f64_arith mc) O pr Gp EO sk rk rb ck Hsk Hck m pool jobs tvs evs s batch b (worst_noise pr sk Bb Bk d d') Hp Ha E Hbt) as (outs & Eo & Lo & Ho).
  exists outs. split; [exact Eo|]. split; [exact Lo|]. apply Ho; [exact NR|]. intros i j Hi Ej. split; [|exact (Hs i j Hi Ej)].
  destruct (Ha i j Ej) as ((F & _ & _ & _ & _ & A1 & A2 & A3 & A4) & _). inversion F as [|? ? [_ Ls] _].
  destruct (Hbt i Hi) as (_ & Etv & _). rewrite Etv in A1, A2, A3, A4.
  apply (p_worst mc O pr sk rk rb ck Bb Bk d d' (BlindRotateTestvec ck) (tm m (fj_src O j)) Hmc S Hf Hk Hb Hbk Hd A1 A2 A3 A4 Ls).
Qed.

Lemma enc_side n s ct b E d : encrypts n s ct b E -> 0 <= d -> E + d < 2 ^ 29 -> side b d (lwe_phase n s ct).
Proof.
  intros [_ (e & He & Hp)] Hd Hl. apply (side_intro b (2 ^ 29) e); [left; reflexivity| |lia|lia].
  unfold mu_bit in Hp. destruct b; exact Hp.
Qed.

Lemma testvec_shape R O pr sk rk rb (ck : CloudKey O) : setup R O pr sk rk rb ck ->
  zlen (tA (BlindRotateTestvec ck)) = g_N pr /\ zlen (tB (BlindRotateTestvec ck)) = g_N pr /\ tok_list (tA (BlindRotateTestvec ck)) /\ tok_list (tB (BlindRotateTestvec ck)).
Proof.
  intro S. open_setup S. destruct (cloud_facts L pr W HBG _ _ _ _ Hsk Hck) as (_ & _ & Ht & _). rewrite Ht. pose proof (law_N L) as H16.
  destruct (ctv_ok (g_N pr) ltac:(lia)) as [[A1 A2] [B1 B2]]. auto.
Qed.

Lemma f_start R O pr sk rk rb (ck : CloudKey O) sk2 rk2 rb2 (ck2 : CloudKey O) : setup R O pr sk rk rb ck -> setup R O pr sk2 rk2 rb2 ck2 ->
  forall (r : Z -> enc_rand) E, (forall i, Z.abs (centered (F64ToTorus (er_noise (r i)))) <= E) ->
  exists (m : mem (FP O)) j1 j2 tvs, flight_reachable O pr m [] /\ flight_args O pr m [] [j1; j2] tvs /\
    (fj_bsk O j1 = BootstrappingKey ck /\ fj_offset O j1 = DecompositionOffset ck /\ tvs 0 = BlindRotateTestvec ck) /\
    (fj_bsk O j2 = BootstrappingKey ck2 /\ fj_offset O j2 = DecompositionOffset ck2 /\ tvs 1 = BlindRotateTestvec ck2) /\
    encrypts (lv0_N pr) (KeyLv0 sk) (tm m (fj_src O j1)) true E /\ encrypts (lv0_N pr) (KeyLv0 sk) (tm m (fj_src O j2)) false E.
Proof.
  intros S S2 r E Hr. pose proof S as (_ & _ & Hsk & Hck). pose proof S2 as (_ & _ & Hsk2 & Hck2).
  destruct (b_start R O pr sk rk rb ck S [true; false] r E Hr) as (e & m & k & w & _ & _ & Hp & Hb & Hw).
  inversion Hw as [|a x1 w1 x2 [Oa Ea] H1]; subst. inversion H1 as [|b y1 w2 y2 [Ob Eb] H2]; subst. inversion H2; subst.
  set (j1 := {| fj_src := a; fj_testvec := gk_testvec k; fj_bsk := BootstrappingKey ck; fj_offset := DecompositionOffset ck |}).
  set (j2 := {| fj_src := b; fj_testvec := gk_testvec k; fj_bsk := BootstrappingKey ck2; fj_offset := DecompositionOffset ck2 |}).
  assert (Et: BlindRotateTestvec ck2 = BlindRotateTestvec ck).
  { open_setup S. destruct (cloud_facts L pr W HBG _ _ _ _ Hsk0 Hck0) as (_ & _ & Ht & _). destruct (cloud_facts L pr W HBG _ _ _ _ Hsk2 Hck2) as (_ & _ & Ht2 & _). congruence. }
  destruct (testvec_shape _ _ _ _ _ _ _ S) as (T1 & T2 & T3 & T4).
  assert (Ag: forall x, outside_pool O m [] x -> zlen (tm m x) = lv0_N pr + 1 -> batch_args O pr m [] [x] (gk_testvec k) (BlindRotateTestvec ck)).
  { intros x Ox Lx. destruct Hb as (_ & _ & _ & B1 & B2 & B3 & B4). split; [constructor; [split; assumption|constructor]|].
    split; [exact B3|]. split; [exact B4|]. split; [exact B1|]. split; [exact B2|]. auto. }
  exists m, j1, j2, (fun _ => BlindRotateTestvec ck). split; [exact (pool_flight _ _ _ _ Hp)|]. split; [|split; [auto|split; [auto|split; assumption]]].
  intros i j Ej. pose proof Ej as Ei. apply (get_inv j1) in Ei. destruct Ei as [Hi Ei]. change (zlen [j1; j2]) with 2 in Hi.
  assert (X: i = 0 \/ i = 1) by lia. destruct X as [-> | ->].
  - change (znd j1 [j1; j2] 0) with j1 in Ei. subst j. split; [apply Ag; [exact Oa|apply Ea]|]. exists sk, rk, rb, ck. auto.
  - change (znd j1 [j1; j2] 1) with j2 in Ei. subst j. split; [apply Ag; [exact Ob|apply Eb]|]. exists sk2, rk2, rb2, ck2. auto.
Qed.

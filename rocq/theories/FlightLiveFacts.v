(** * Batches in flight come to an end *)
From Coq Require Import Lia ZifyBool Setoid Morphisms List.
From Verif Require Import GoBase GoFacts GoMem F64 Utils Spec Params Key Tlwe TlweMem Poly Fft FftTabErr Trlwe Trgsw Evaluator CloudKey Gates RunSpec BatchSpec Flight FlightSpec FlightOtherSpec FlightLiveSpec
  MemFacts TlweFacts PolyFacts NegFacts Laws TrlweFacts TrgswFacts RotFacts KeySwitchFacts EvalFacts HeapFacts LinFacts OldRotFacts CloudKeyFacts CallFacts BootFacts
  GateFacts NoiseFacts RunProps RlweProps HistProps RunWorst ReencFacts BatchFacts BatchProps FlightFacts FlightProps FlightOtherFacts FlightOtherProps.
Import ListNotations.
Local Open Scope Z_scope.
Ltac Zify.zify_post_hook ::= idtac.

Section W.
Context (pr : pset).
Notation left := (events_left pr).
Notation tot l := (fold_right (fun g a => left g + a) 0 l).
Lemma tot_upd_nat l : forall i g, (i < length l)%nat -> tot (upd_nat l i g) = tot l - left (nth i l GDone) + left g.
Proof.
  induction l as [|x l IH]; intros [|i] g Hi; cbn [length upd_nat fold_right nth] in *; try lia. rewrite IH by lia. lia.
Qed.
Lemma tot_upd l i g : 0 <= i < zlen l -> tot (upd l i g) = tot l - left (znd GDone l i) + left g.
Proof. intro Hi. unfold upd, znd. apply tot_upd_nat. unfold zlen in Hi. lia. Qed.
Lemma tot_bound l B : (forall i, 0 <= i < zlen l -> 0 <= left (znd GDone l i) <= B) -> 0 <= tot l <= B * zlen l.
Proof.
  induction l as [|x l IH]; intro H; [cbn; lia|]. assert (H0: 0 <= left x <= B) by (apply (H 0); unfold zlen; cbn [length]; lia).
  assert (IH': 0 <= tot l <= B * zlen l).
  { apply IH. intros i Hi. specialize (H (i + 1)). unfold znd in *. replace (Z.to_nat (i + 1)) with (S (Z.to_nat i)) in H by lia. apply H. unfold zlen in *. cbn [length]. lia. }
  cbn [fold_right]. unfold zlen in *. cbn [length]. lia.
Qed.
Lemma tot_app l l' : tot (l ++ l') = tot l + tot l'.
Proof. induction l as [|x l IH]; cbn [app fold_right]; [reflexivity|]. rewrite IH. lia. Qed.
Lemma tot_zero l : (forall i, 0 <= i < zlen l -> 0 <= left (znd GDone l i)) -> (forall i, 0 <= i < zlen l -> left (znd GDone l i) = 0 -> znd GDone l i = GDone) ->
  tot l = 0 <-> Forall (fun g => g = GDone) l.
Proof.
  intros H0 H1. induction l as [|x l IH]; [split; [constructor|reflexivity]|].
  assert (Sh: forall i, 0 <= i < zlen l -> znd GDone (x :: l) (i + 1) = znd GDone l i /\ 0 <= i + 1 < zlen (x :: l)).
  { intros i Hi. unfold znd. replace (Z.to_nat (i + 1)) with (S (Z.to_nat i)) by lia. split; [reflexivity|]. unfold zlen in *. cbn [length]. lia. }
  assert (P: forall i, 0 <= i < zlen l -> 0 <= left (znd GDone l i)) by (intros i Hi; destruct (Sh i Hi) as [<- X]; apply H0; exact X).
  assert (Q: forall i, 0 <= i < zlen l -> left (znd GDone l i) = 0 -> znd GDone l i = GDone) by (intros i Hi; destruct (Sh i Hi) as [<- X]; apply H1; exact X).
  specialize (IH P Q). assert (Z0: 0 <= 0 < zlen (x :: l)) by (unfold zlen; cbn [length]; lia).
  pose proof (H0 0 Z0) as A. pose proof (H1 0 Z0) as B. change (znd GDone (x :: l) 0) with x in A, B.
  assert (T: 0 <= tot l).
  { clear - P. induction l as [|y l IHl]; [cbn; lia|]. cbn [fold_right]. assert (Y: 0 <= left y) by (apply (P 0); unfold zlen; cbn [length]; lia).
    assert (0 <= tot l); [|lia]. apply IHl. intros i Hi. specialize (P (i + 1)). unfold znd in *. replace (Z.to_nat (i + 1)) with (S (Z.to_nat i)) in P by lia. apply P. unfold zlen in *. cbn [length]. lia. }
  cbn [fold_right]. split.
  - intro E. constructor; [apply B; lia|apply IH; lia].
  - intro F. inversion F as [|? ? E F']; subst. apply IH in F'. cbn [events_left]. lia.
Qed.
End W.

Section F.
Context {O : fops} {N : Z} (L : flaws O N) (pr : pset) (W : pwf pr N) (HBG : g_BG pr = 2 ^ g_BGBIT pr).
Notation M := (mem (FP O)).
Notation n := (lv0_N pr).
Notation fin := (inv L pr).

Lemma left_ok calls hs s i : fin calls hs s -> 0 <= i < zlen calls ->
  0 <= events_left pr (znd GDone (bs_gor O s) i) <= n + 4 /\ (events_left pr (znd GDone (bs_gor O s) i) = 0 -> znd GDone (bs_gor O s) i = GDone).
Proof.
  intros I Hi. pose proof (v_gok _ _ _ _ _ I i Hi) as G. pose proof (pw_n _ _ W). destruct (znd GDone (bs_gor O s) i); cbn [events_left gok] in *; try (split; [lia|]; first [reflexivity|intro; lia]).
Qed.

(** an event is one less *)
Lemma event_one calls hs s ev s' : fin calls hs s -> fstep O pr (map (fc_job O) calls) ev s = Some (Ok s') ->
  exists g g', get (bs_gor O s) (event_of ev) = Ok g /\ bs_gor O s' = upd (bs_gor O s) (event_of ev) g' /\ events_left pr g' = events_left pr g - 1.
Proof.
  intros I E. pose proof (v_len _ _ _ _ _ I) as Hl. unfold fstep in E. destruct (get _ _) as [j|]; [|discriminate].
  destruct ev as [i c|i|i]; cbn [bstep event_of] in *; destruct (get (bs_gor O s) i) as [g|] eqn:Eg; try discriminate; exists g.
  - destruct g; try discriminate. destruct c as [c|].
    + destruct (get (bs_pool O s) c); [|discriminate]. injection E as <-. cbn [bs_gor]. eexists. split; [reflexivity|]. split; [reflexivity|]. cbn [events_left]. lia.
    + destruct (NewPolyEvaluator _ _ _) as [[e m]|]; [|discriminate]. cbn [bind] in E. injection E as <-. cbn [bs_gor]. eexists. split; [reflexivity|]. split; [reflexivity|]. cbn [events_left]. lia.
  - destruct (get (map (fj_src O) (map (fc_job O) calls)) i) as [x|]; [|destruct g; discriminate]. destruct g as [|e|e k r|e|]; try discriminate.
    + destruct (br_first _ _ _ _ _ _) as [[r m]|]; [|discriminate]. cbn [bind] in E. injection E as <-. cbn [bs_gor]. eexists. split; [reflexivity|]. split; [reflexivity|]. cbn [events_left]. lia.
    + destruct (Z.ltb_spec k n) as [Hk|Hk].
      * destruct (br_next _ _ _ _ _ _ _ _) as [[r' m]|]; [|discriminate]. cbn [bind] in E. injection E as <-. cbn [bs_gor]. eexists. split; [reflexivity|]. split; [reflexivity|]. cbn [events_left]. lia.
      * injection E as <-. cbn [bs_gor]. eexists. split; [reflexivity|]. split; [reflexivity|]. cbn [events_left].
        apply (get_inv GDone) in Eg. destruct Eg as [Hi Eg]. rewrite Hl in Hi. pose proof (v_gok _ _ _ _ _ I i Hi) as G. rewrite <- Eg in G. cbn [gok] in G. lia.
  - destruct g as [|e|e k r|e|]; try discriminate. injection E as <-. cbn [bs_gor]. eexists. split; [reflexivity|]. split; [reflexivity|]. cbn [events_left]. lia.
Qed.
Lemma event_left calls hs s ev s' : fin calls hs s -> fstep O pr (map (fc_job O) calls) ev s = Some (Ok s') -> all_left O pr s' = all_left O pr s - 1.
Proof.
  intros I E. destruct (event_one calls hs s ev s' I E) as (g & g' & Eg & Eu & Ew). unfold all_left. rewrite Eu.
  apply (get_inv GDone) in Eg. destruct Eg as [Hi Eg]. rewrite tot_upd by exact Hi. rewrite <- Eg. lia.
Qed.
Lemma event_own calls hs s ev s' i g : fin calls hs s -> fstep O pr (map (fc_job O) calls) ev s = Some (Ok s') -> get (bs_gor O s) i = Ok g ->
  exists g', get (bs_gor O s') i = Ok g' /\ events_left pr g' = events_left pr g - (if event_of ev =? i then 1 else 0) /\ (event_of ev <> i -> g' = g).
Proof.
  intros I E Ei. destruct (event_one calls hs s ev s' I E) as (h & h' & Eg & Eu & Ew). rewrite Eu.
  apply (get_inv GDone) in Eg. destruct Eg as [Hi Eg]. apply (get_inv GDone) in Ei. destruct Ei as [Hj Ei].
  exists (znd GDone (upd (bs_gor O s) (event_of ev) h') i). split; [apply get_ok; rewrite zlen_upd; exact Hj|].
  rewrite znd_upd by lia. destruct (Z.eqb_spec (event_of ev) i) as [X|X].
  - rewrite <- X in *. rewrite Z.eqb_refl. split; [|intro; contradiction]. rewrite Ew, Eg, <- Ei. reflexivity.
  - destruct (Z.eqb_spec i (event_of ev)) as [Y|Y]; [congruence|]. rewrite <- Ei. split; [lia|reflexivity].
Qed.

(** a goroutine that has not finished has an event *)
Lemma event_enabled calls hs s i : fin calls hs s -> 0 <= i < zlen calls -> znd GDone (bs_gor O s) i <> GDone ->
  exists ev s', event_of ev = i /\ fstep O pr (map (fc_job O) calls) ev s = Some (Ok s').
Proof.
  intros I Hi Hn. pose proof (v_len _ _ _ _ _ I) as Hl.
  assert (Gi: get (bs_gor O s) i = Ok (znd GDone (bs_gor O s) i)) by (apply get_ok; lia).
  assert (Jn: get (map (fc_job O) calls) i = Ok (znd job0 (map (fc_job O) calls) i)) by (apply get_ok; rewrite zlen_jobs; exact Hi).
  assert (Sn: get (map (fj_src O) (map (fc_job O) calls)) i = Ok (fj_src O (znd job0 (map (fc_job O) calls) i))) by (apply get_src; rewrite zlen_jobs; exact Hi).
  assert (X: exists ev r, event_of ev = i /\ fstep O pr (map (fc_job O) calls) ev s = Some r).
  { destruct (znd GDone (bs_gor O s) i) as [|e|e k r|e|] eqn:Eg.
    - exists (BGet i None). eexists. split; [reflexivity|]. unfold fstep. cbn [event_of bstep]. rewrite Jn, Gi. reflexivity.
    - exists (BStep i). eexists. split; [reflexivity|]. unfold fstep. cbn [event_of bstep]. rewrite Jn, Gi, Sn. reflexivity.
    - exists (BStep i). unfold fstep. cbn [event_of bstep]. rewrite Jn, Gi, Sn. destruct (k <? n); eexists; split; reflexivity.
    - exists (BPut i). eexists. split; [reflexivity|]. unfold fstep. cbn [event_of bstep]. rewrite Jn, Gi. reflexivity.
    - contradiction. }
  destruct X as (ev & r & Ei & E). destruct (inv_step L pr W calls hs ev s r I E) as (s' & -> & _). exists ev, s'. auto.
Qed.

(** and can take it without an evaluator being handed out a second time *)
Lemma event_fresh calls hs s i : fin calls hs s -> 0 <= i < zlen calls -> znd GDone (bs_gor O s) i <> GDone -> NoDup hs ->
  exists ev s', fstep O pr (map (fc_job O) calls) ev s = Some (Ok s') /\ NoDup (got O ev s' ++ hs).
Proof.
  intros I Hi Hn ND. pose proof (v_len _ _ _ _ _ I) as Hl.
  destruct (znd GDone (bs_gor O s) i) as [|e|e k r|e|] eqn:Eg; try (destruct (event_enabled calls hs s i I Hi) as (ev & s' & Ei & E); [congruence|];
    exists ev, s'; split; [exact E|]; destruct ev as [j c|j|j]; try exact ND; exfalso; cbn [event_of] in Ei; subst j; unfold fstep in E; destruct (get (map (fc_job O) calls) _); [|discriminate];
    cbn [bstep event_of] in E; rewrite (get_ok GDone) in E by lia; rewrite Eg in E; destruct c; discriminate).
  clear Hn. exists (BGet i None). pose proof (NewPolyEvaluator_ok L (bs_mem O s)) as (m1 & E1 & _).
  eexists. split.
  - unfold fstep. cbn [event_of bstep]. rewrite (get_ok job0) by (rewrite zlen_jobs; exact Hi). rewrite (get_ok GDone) by lia. rewrite Eg, (pw_gN _ _ W), E1. reflexivity.
  - cbn [got bs_gor]. rewrite (get_ok GDone) by (rewrite zlen_upd; lia). rewrite znd_upd, Z.eqb_refl by lia. cbn [app]. constructor; [|exact ND].
    intro X. apply (v_hs _ _ _ _ _ I) in X. cbn [pe_t] in X. lia.
Qed.

Lemma left_bound calls hs s : fin calls hs s -> 0 <= all_left O pr s <= (n + 4) * zlen calls.
Proof.
  intro I. pose proof (v_len _ _ _ _ _ I) as Hl. rewrite <- Hl. apply tot_bound. intros i Hi. rewrite Hl in Hi. apply (left_ok calls hs s i I Hi).
Qed.
Lemma left_zero calls hs s : fin calls hs s -> all_left O pr s = 0 <-> all_done O s.
Proof.
  intro I. pose proof (v_len _ _ _ _ _ I) as Hl. apply tot_zero; intros i Hi; rewrite Hl in Hi; apply (left_ok calls hs s i I Hi).
Qed.

Lemma sched_left calls evs : forall hs s s', fin calls hs s -> fsched O pr (map (fc_job O) calls) evs s = Some (Ok s') ->
  all_left O pr s' = all_left O pr s - zlen evs /\ exists hs', fin calls hs' s'.
Proof.
  induction evs as [|ev evs IH]; intros hs s s' I E; cbn [fsched] in E.
  - injection E as <-. split; [cbn; lia|]. exists hs. exact I.
  - destruct (fstep O pr (map (fc_job O) calls) ev s) as [[s1|]|] eqn:E1; try discriminate.
    pose proof (event_left calls hs s ev s1 I E1) as X. destruct (inv_step L pr W calls hs ev s _ I E1) as (s1' & [= <-] & I1 & _).
    destruct (IH _ s1 s' I1 E) as [Y Z]. split; [|exact Z]. unfold zlen in *. cbn [length]. lia.
Qed.

Lemma sched_own calls i evs : forall hs s s' g, fin calls hs s -> fsched O pr (map (fc_job O) calls) evs s = Some (Ok s') -> get (bs_gor O s) i = Ok g ->
  exists g', get (bs_gor O s') i = Ok g' /\ events_left pr g' = events_left pr g - turns_of i evs.
Proof.
  induction evs as [|ev evs IH]; intros hs s s' g I E Eg; cbn [fsched] in E.
  - injection E as <-. exists g. split; [exact Eg|]. cbn. lia.
  - destruct (fstep O pr (map (fc_job O) calls) ev s) as [[s1|]|] eqn:E1; try discriminate.
    destruct (event_own calls hs s ev s1 i g I E1 Eg) as (g1 & Eg1 & W1 & _). destruct (inv_step L pr W calls hs ev s _ I E1) as (s1' & [= <-] & I1 & _).
    destruct (IH _ s1 s' g1 I1 E Eg1) as (g' & Eg' & Wg). exists g'. split; [exact Eg'|]. rewrite Wg, W1. unfold turns_of. cbn [filter].
    destruct (event_of ev =? i); unfold zlen; cbn [length]; lia.
Qed.

Lemma undone calls hs s : fin calls hs s -> all_left O pr s <> 0 -> exists i, 0 <= i < zlen calls /\ znd GDone (bs_gor O s) i <> GDone.
Proof.
  intros I E. pose proof (v_len _ _ _ _ _ I) as Hl. assert (ND: ~ all_done O s) by (intro D; apply (left_zero calls hs s I) in D; contradiction).
  unfold all_done in ND. apply neg_Forall_Exists_neg in ND; [|intro g; destruct g; first [left; reflexivity|right; discriminate]].
  apply Exists_exists in ND. destruct ND as (g & Hin & Hg). apply (In_nth _ _ GDone) in Hin. destruct Hin as (q & Hq & Eq).
  exists (Z.of_nat q). split; [unfold zlen in *; lia|]. unfold znd. rewrite Nat2Z.id, Eq. exact Hg.
Qed.

Lemma finish calls k : forall hs s, fin calls hs s -> all_left O pr s = Z.of_nat k ->
  exists evs s', fsched O pr (map (fc_job O) calls) evs s = Some (Ok s') /\ all_done O s'.
Proof.
  induction k as [|k IH]; intros hs s I E.
  - exists [], s. split; [reflexivity|]. apply (left_zero calls hs s I). exact E.
  - destruct (undone calls hs s I ltac:(lia)) as (i & Hi & Hn). destruct (event_enabled calls hs s i I Hi Hn) as (ev & s1 & _ & E1).
    pose proof (event_left calls hs s ev s1 I E1) as Y. destruct (inv_step L pr W calls hs ev s _ I E1) as (s1' & [= <-] & I1 & _).
    destruct (IH _ s1 I1 ltac:(lia)) as (evs & s' & Es & D). exists (ev :: evs), s'. split; [|exact D]. cbn [fsched]. rewrite E1. exact Es.
Qed.
End F.

(** a batch alone *)
Lemma flight_batch O pr (srcs : list Z) tvr bsk off evs : forall s s',
  fsched O pr (jobs_of srcs tvr bsk off) evs s = Some (Ok s') -> bsched O pr srcs tvr bsk off evs s = Some (Ok s').
Proof.
  assert (Es: map (fj_src O) (jobs_of srcs tvr bsk off) = srcs) by (unfold jobs_of; rewrite map_map; apply map_id).
  induction evs as [|ev evs IH]; intros s s' E; cbn [bsched fsched] in *; [exact E|]. unfold fstep in E. rewrite Es in E.
  destruct (get (jobs_of srcs tvr bsk off) (event_of ev)) as [j|] eqn:Ej; [|discriminate].
  assert (Hj: fj_testvec O j = tvr /\ fj_bsk O j = bsk /\ fj_offset O j = off).
  { apply (get_inv (@job0 O)) in Ej. destruct Ej as [Hi Ej]. assert (Hin: In j (jobs_of srcs tvr bsk off)) by (rewrite Ej; unfold znd; apply nth_In; unfold zlen in Hi; lia).
    unfold jobs_of in Hin. apply in_map_iff in Hin. destruct Hin as (x & <- & _). auto. }
  destruct Hj as (H1 & H2 & H3). rewrite H1, H2, H3 in E. destruct (bstep O pr srcs tvr bsk off ev s) as [[s1|]|]; try discriminate. exact (IH s1 s' E).
Qed.

Section Top.
Context (R : arith) (O : fops) (pr : pset) (G : good_params pr) (EO : fft_evaluator R (g_N pr) = Ok O).
Notation M := (mem (FP O)).
Notation n := (lv0_N pr).

Lemma l_steps (m : M) pool calls hs s : others_reachable O pr m pool -> in_flight O pr m pool calls hs s ->
  0 <= all_left O pr s <= (n + 4) * zlen calls /\ (all_left O pr s = 0 <-> all_done O s) /\
  forall ev s', fstep O pr (map (fc_job O) calls) ev s = Some (Ok s') -> all_left O pr s' = all_left O pr s - 1 /\
    forall i g, get (bs_gor O s) i = Ok g -> exists g', get (bs_gor O s') i = Ok g' /\
      events_left pr g' = events_left pr g - (if event_of ev =? i then 1 else 0) /\ (event_of ev <> i -> g' = g).
Proof.
  intros Hp F. destruct G as [W HBG]. destruct (laws_of _ _ _ EO) as [L _]. destruct (opool_ok L pr W _ _ Hp) as (Hm & Hg & Hs).
  pose proof (inv_flight L pr W HBG m pool calls hs s Hm Hg Hs F) as I.
  split; [exact (left_bound L pr W calls hs s I)|]. split; [exact (left_zero L pr W calls hs s I)|]. intros ev s' E. split; [exact (event_left L pr calls hs s ev s' I E)|].
  intros i g. exact (event_own L pr calls hs s ev s' i g I E).
Qed.

Lemma l_enabled (m : M) pool calls hs s i c : others_reachable O pr m pool -> in_flight O pr m pool calls hs s -> get calls i = Ok c -> ~ fdone O s i ->
  exists ev s', event_of ev = i /\ fstep O pr (map (fc_job O) calls) ev s = Some (Ok s').
Proof.
  intros Hp F Ec Hn. destruct G as [W HBG]. destruct (laws_of _ _ _ EO) as [L _]. destruct (opool_ok L pr W _ _ Hp) as (Hm & Hg & Hs).
  pose proof (inv_flight L pr W HBG m pool calls hs s Hm Hg Hs F) as I. apply (get_inv c) in Ec. destruct Ec as [Hi _].
  apply (event_enabled L pr W calls hs s i I Hi). intro X. apply Hn. unfold fdone. rewrite (get_ok GDone) by (rewrite (v_len _ _ _ _ _ I); exact Hi). rewrite X. reflexivity.
Qed.

Lemma l_finish (m : M) pool calls hs s : others_reachable O pr m pool -> in_flight O pr m pool calls hs s ->
  (forall evs s', fsched O pr (map (fc_job O) calls) evs s = Some (Ok s') -> zlen evs <= (n + 4) * zlen calls) /\
  exists evs s', fsched O pr (map (fc_job O) calls) evs s = Some (Ok s') /\ all_done O s'.
Proof.
  intros Hp F. destruct G as [W HBG]. destruct (laws_of _ _ _ EO) as [L _]. destruct (opool_ok L pr W _ _ Hp) as (Hm & Hg & Hs).
  pose proof (inv_flight L pr W HBG m pool calls hs s Hm Hg Hs F) as I. pose proof (left_bound L pr W calls hs s I) as Bd. split.
  - intros evs s' E. destruct (sched_left L pr W calls evs hs s s' I E) as [X (hs' & I')]. pose proof (left_bound L pr W calls hs' s' I') as Y. lia.
  - apply (finish L pr W calls (Z.to_nat (all_left O pr s)) hs s I). lia.
Qed.

Lemma l_right (m : M) pool calls hs s : others_reachable O pr m pool -> in_flight O pr m pool calls hs s -> NoDup hs ->
  exists evs s', fsched O pr (map (fc_job O) calls) evs s = Some (Ok s') /\ all_done O s' /\
    forall i c, get calls i = Ok c -> exists t, get (bs_results O s') i = Ok (Some t) /\ call_rotation O pr c = Ok (ct_at (bs_mem O s') t).
Proof.
  intros Hp F0 ND0. pose proof G as [W HBG]. destruct (laws_of _ _ _ EO) as [L _]. destruct (opool_ok L pr W _ _ Hp) as (Hm & Hg & Hs).
  assert (X: forall k hs s, in_flight O pr m pool calls hs s -> NoDup hs -> all_left O pr s = Z.of_nat k ->
    exists evs s' hs', fsched O pr (map (fc_job O) calls) evs s = Some (Ok s') /\ all_done O s' /\ in_flight O pr m pool calls hs' s' /\ NoDup hs').
  { clear hs s F0 ND0. induction k as [|k IH]; intros hs s F ND E; pose proof (inv_flight L pr W HBG m pool calls hs s Hm Hg Hs F) as I.
    - exists [], s, hs. split; [reflexivity|]. split; [apply (left_zero L pr W calls hs s I); exact E|]. auto.
    - destruct (undone L pr W calls hs s I ltac:(lia)) as (i & Hi & Hn). destruct (event_fresh L pr W calls hs s i I Hi Hn ND) as (ev & s1 & E1 & ND1).
      pose proof (event_left L pr calls hs s ev s1 I E1) as Y. destruct (IH (got O ev s1 ++ hs) s1) as (evs & s' & hs' & Es & D & F' & ND'); [apply (if_event O pr m pool calls hs s ev s1 F E1)|exact ND1|lia|].
      exists (ev :: evs), s', hs'. split; [|auto]. cbn [fsched]. rewrite E1. exact Es. }
  pose proof (inv_flight L pr W HBG m pool calls hs s Hm Hg Hs F0) as I0. pose proof (left_bound L pr W calls hs s I0) as B0.
  destruct (X (Z.to_nat (all_left O pr s)) hs s F0 ND0 ltac:(lia)) as (evs & s' & hs' & Es & D & F' & ND'). exists evs, s'. split; [exact Es|]. split; [exact D|].
  intros i c Ec. pose proof (inv_flight L pr W HBG m pool calls hs' s' Hm Hg Hs F') as I'.
  assert (Fd: fdone O s' i).
  { apply (get_inv c) in Ec. destruct Ec as [Hi _]. unfold fdone. rewrite (get_ok GDone) by (rewrite (v_len _ _ _ _ _ I'); exact Hi). f_equal.
    unfold all_done in D. rewrite Forall_forall in D. apply D. unfold znd. apply nth_In. pose proof (v_len _ _ _ _ _ I') as Hl. unfold zlen in *. lia. }
  destruct (o_run R O pr G EO m pool calls hs' s' Hp F') as [_ Z]. destruct (Z i c Ec Fd) as (t & Et & Ht). exists t. auto.
Qed.

Lemma l_turns (m : M) pool calls hs s evs s' i g : others_reachable O pr m pool -> in_flight O pr m pool calls hs s ->
  fsched O pr (map (fc_job O) calls) evs s = Some (Ok s') -> get (bs_gor O s) i = Ok g ->
  turns_of i evs <= events_left pr g /\ (fdone O s' i <-> turns_of i evs = events_left pr g).
Proof.
  intros Hp F E Eg. destruct G as [W HBG]. destruct (laws_of _ _ _ EO) as [L _]. destruct (opool_ok L pr W _ _ Hp) as (Hm & Hg & Hs).
  pose proof (inv_flight L pr W HBG m pool calls hs s Hm Hg Hs F) as I. destruct (sched_own L pr W calls i evs hs s s' g I E Eg) as (g' & Eg' & Wg).
  destruct (sched_left L pr W calls evs hs s s' I E) as [_ (hs' & I')]. pose proof Eg' as X. apply (get_inv GDone) in X. destruct X as [Hi X]. rewrite (v_len _ _ _ _ _ I') in Hi.
  destruct (left_ok L pr W calls hs' s' i I' Hi) as [Y Z]. rewrite <- X in Y, Z. split; [lia|]. unfold fdone. rewrite Eg'. split.
  - intros [= ->]. cbn [events_left] in Wg. lia.
  - intro T. f_equal. apply Z. lia.
Qed.

Lemma l_batch sk rk rb ck (m : M) pool srcs tvr tv evs s : key_ok pr sk -> NewCloudKey O pr sk rk rb = Ok ck ->
  pool_reachable O pr m pool -> batch_args O pr m pool srcs tvr tv ->
  bsched O pr srcs tvr (BootstrappingKey ck) (DecompositionOffset ck) evs (binit O m pool srcs) = Some (Ok s) ->
  zlen evs <= (n + 4) * zlen srcs /\
  exists evs' rs m', BatchBlindRotate O pr m pool srcs tvr (BootstrappingKey ck) (DecompositionOffset ck) (evs ++ evs') = Some (Ok (rs, m')).
Proof.
  intros Hsk Hck Hp Ha E. pose proof (flights_others O pr m pool G (pool_flight O pr m pool Hp)) as Ho.
  set (jobs := jobs_of srcs tvr (BootstrappingKey ck) (DecompositionOffset ck) : list (fjob O)).
  assert (Es: map (fj_src O) jobs = srcs) by (unfold jobs, jobs_of; rewrite map_map; apply map_id).
  assert (Hj: flight_args O pr m pool jobs (fun _ => tv)).
  { intros i j Ej. apply (get_inv (@job0 O)) in Ej. destruct Ej as [Hi Ej]. assert (Hin: In j jobs) by (rewrite Ej; unfold znd; apply nth_In; unfold zlen in Hi; lia).
    unfold jobs, jobs_of in Hin. apply in_map_iff in Hin. destruct Hin as (x & <- & Hx). split.
    - cbn [fj_src fj_testvec]. destruct Ha as (F & Rt). split; [|exact Rt]. rewrite Forall_forall in F. constructor; [apply F; exact Hx|constructor].
    - exists sk, rk, rb, ck. cbn [fj_bsk fj_offset]. auto. }
  assert (E0: fsched O pr jobs evs (finit O m pool jobs) = Some (Ok s)).
  { unfold finit. rewrite Es. apply (batch_flight O pr srcs); [|exact E]. cbn [binit bs_gor]. unfold zlen. rewrite repeat_length. reflexivity. }
  destruct (start_all O pr m pool _ jobs Hj) as (calls & (Em & _) & F0).
  assert (Lc: zlen calls = zlen srcs) by (rewrite <- Es, <- Em; unfold zlen; rewrite !map_length; reflexivity).
  destruct (l_finish m pool calls [] _ Ho F0) as [B0 _]. rewrite Em in B0. split; [rewrite <- Lc; exact (B0 _ _ E0)|].
  assert (E2: fsched O pr (map (fc_job O) calls) evs (finit O m pool jobs) = Some (Ok s)) by (rewrite Em; exact E0).
  pose proof (sched_flight O pr calls m pool evs [] _ _ F0 E2) as F1. destruct (l_finish m pool calls _ s Ho F1) as [_ (evs' & s' & E1 & D)].
  exists evs', (bs_results O s'), (bs_mem O s'). unfold BatchBlindRotate.
  rewrite Em in E1. unfold jobs in E1. apply flight_batch in E1.
  assert (App: forall a b t, bsched O pr srcs tvr (BootstrappingKey ck) (DecompositionOffset ck) (a ++ b) t =
    match bsched O pr srcs tvr (BootstrappingKey ck) (DecompositionOffset ck) a t with Some (Ok t') => bsched O pr srcs tvr (BootstrappingKey ck) (DecompositionOffset ck) b t' | r => r end).
  { induction a as [|x a IH]; intros b t; [reflexivity|]. cbn [app bsched]. destruct (bstep _ _ _ _ _ _ x t) as [[t1|]|]; [apply IH|reflexivity|reflexivity]. }
  rewrite App, E, E1.
  assert (B: ball_done O s' = true).
  { unfold ball_done. apply forallb_forall. intros g Hg. unfold all_done in D. rewrite Forall_forall in D. rewrite (D g Hg). reflexivity. }
  rewrite B. reflexivity.
Qed.
End Top.

(** a batch gate *)
Lemma l_gate (R : arith) O pr sk rk rb (ck : CloudKey O) : setup R O pr sk rk rb ck ->
  forall g (m : mem (FP O)) pool inputs k, pool_reachable O pr m pool -> batch_inputs O pr m pool inputs -> batch_key O m pool k ck ->
  exists prepared m1, batch_prepare O (batch_lin pr g) m inputs = Ok (prepared, m1) /\
    forall evs s, bsched O pr prepared (gk_testvec k) (gk_bsk k) (gk_offset k) evs (binit O m1 pool prepared) = Some (Ok s) ->
    zlen evs <= (lv0_N pr + 4) * zlen inputs /\
    exists evs' outs, batch_fun O pr g m pool inputs k (evs ++ evs') = Some (Ok outs).
Proof.
  intros S g m pool inputs k Hp Hi Hk. pose proof S as (G & EO & Hsk & Hck). pose proof G as (W & HBG). pose proof EO as EO'. destruct (laws_of _ _ _ EO') as [L _].
  pose proof (batch_total R O pr sk rk rb ck S g) as Hlin.
  edestruct (@prepare_run O 0 pr (batch_lin pr g) m inputs Hlin) as (m1 & E1 & T1 & F1 & I1 & Ff & Fi & Fx & Gp); [eapply inputs_at; exact Hi|].
  destruct (prepared_args L pr W HBG sk rk rb ck Hsk Hck m pool inputs k m1 Hp Hk (fun i Hi => proj2 (Gp i Hi)) T1 Fx F1 I1 Ff Fi) as (Hp1 & Ha1 & _).
  eexists _, m1. split; [exact E1|]. intros evs s E. pose proof Hk as (K1 & K2 & K3 & _). rewrite K1, K3 in E.
  destruct (l_batch R O pr G EO sk rk rb ck m1 pool _ _ _ evs s Hsk Hck Hp1 Ha1 E) as (B & evs' & rs & m' & Er). rewrite zlen_tab in B by (pose proof (zlen_nonneg inputs); lia).
  split; [exact B|]. exists evs'.
  assert (E2: exists r, batch_fun O pr g m pool inputs k (evs ++ evs') = Some r).
  { rewrite (batch_fun_eq O pr g). unfold batch_gate. rewrite E1, K1, K3, Er. eexists. reflexivity. }
  destruct E2 as [r E2]. destruct (b_gate R O pr sk rk rb ck S g m pool inputs k _ r Hp Hi Hk E2) as (outs & -> & _). exists outs. exact E2.
Qed.

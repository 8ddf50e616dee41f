(** * Batches in flight while other code runs: results *)
From Coq Require Import Lia ZifyBool Setoid Morphisms List.
From Verif Require Import GoBase GoFacts GoMem F64 Utils Spec Params Key Tlwe TlweMem Poly Fft FftTabErr Trlwe Trgsw Evaluator CloudKey Gates RunSpec BatchSpec Flight FlightSpec FlightOtherSpec
  MemFacts TlweFacts PolyFacts NegFacts Laws TrlweFacts TrgswFacts RotFacts KeySwitchFacts EvalFacts HeapFacts LinFacts OldRotFacts CloudKeyFacts CallFacts BootFacts
  GateFacts NoiseFacts RunProps RlweProps HistProps RunWorst ReencFacts BatchFacts BatchProps FlightFacts FlightProps FlightOtherFacts.
Import ListNotations.
Local Open Scope Z_scope.
Ltac Zify.zify_post_hook ::= idtac.

Lemma get_snoc {T} (xs : list T) y i z : get (xs ++ [y]) i = Ok z -> get xs i = Ok z \/ (i = zlen xs /\ z = y).
Proof.
  intro E. apply (get_inv y) in E. destruct E as [Hi Ez]. unfold zlen in Hi. rewrite app_length in Hi. cbn [length] in Hi.
  destruct (Z.eq_dec i (zlen xs)) as [->|Hne].
  - right. split; [reflexivity|]. unfold znd, zlen in Ez. rewrite app_nth2 in Ez by lia. replace (Z.to_nat (Z.of_nat (length xs)) - length xs)%nat with 0%nat in Ez by lia. exact Ez.
  - left. unfold zlen in Hne. rewrite (get_ok y) by (unfold zlen; lia). f_equal. unfold znd in Ez. rewrite app_nth1 in Ez by lia. symmetry. exact Ez.
Qed.
Lemma get_pre {T} (xs ys : list T) i z : get xs i = Ok z -> get (xs ++ ys) i = Ok z.
Proof.
  intro E. apply (get_inv z) in E. destruct E as [Hi Ez]. unfold zlen in Hi. rewrite (get_ok z) by (unfold zlen; rewrite app_length; lia).
  f_equal. unfold znd in *. rewrite app_nth1 by lia. symmetry. exact Ez.
Qed.
Lemma get_last {T} (xs : list T) y : get (xs ++ [y]) (zlen xs) = Ok y.
Proof.
  rewrite (get_ok y) by (unfold zlen; rewrite app_length; cbn [length]; lia). f_equal. unfold znd, zlen. rewrite app_nth2 by lia.
  replace (Z.to_nat (Z.of_nat (length xs)) - length xs)%nat with 0%nat by lia. reflexivity.
Qed.

(** all goroutines started at the beginning *)
Definition started {O} (m : mem (FP O)) (jobs : list (fjob O)) (tvs : Z -> trlwe) (calls : list (fcall O)) : Prop :=
  map (fc_job O) calls = jobs /\ forall i c, get calls i = Ok c -> fc_src O c = tm m (fj_src O (fc_job O c)) /\ fc_tv O c = tvs i.
Lemma start_all O pr (m : mem (FP O)) pool tvs jobs : flight_args O pr m pool jobs tvs ->
  exists calls, started m jobs tvs calls /\ in_flight O pr m pool calls [] (finit O m pool jobs).
Proof.
  induction jobs as [|j jobs IH] using rev_ind; intro Ha.
  - exists []. split; [|apply if_start]. split; [reflexivity|]. intros i c E. apply (get_inv c) in E. cbn in E. lia.
  - destruct IH as (calls & (Em & Hc) & F); [intros i j' E; apply Ha; apply get_pre; exact E|].
    assert (J: flight_job O pr m pool j (tvs (zlen jobs))) by (apply Ha; apply get_last).
    assert (Lc: zlen calls = zlen jobs) by (rewrite <- Em; unfold zlen; rewrite map_length; reflexivity).
    exists (calls ++ [{| fc_job := j; fc_src := tm m (fj_src O j); fc_tv := tvs (zlen jobs) |}]). split; [split|].
    + rewrite map_app, Em. reflexivity.
    + intros i c E. apply get_snoc in E. destruct E as [E|[-> ->]]; [apply Hc; exact E|]. split; [reflexivity|]. rewrite Lc. reflexivity.
    + pose proof (if_call O pr m pool calls [] (finit O m pool jobs) j (tvs (zlen jobs)) F J) as X.
      replace (finit O m pool (jobs ++ [j])) with {| bs_mem := bs_mem O (finit O m pool jobs); bs_pool := bs_pool O (finit O m pool jobs);
        bs_gor := bs_gor O (finit O m pool jobs) ++ [GNew]; bs_results := bs_results O (finit O m pool jobs) ++ [None] |}; [exact X|].
      unfold finit, binit; cbn [bs_mem bs_pool bs_gor bs_results]. rewrite !map_length, app_length, !repeat_app. reflexivity.
Qed.

(** a schedule is such a run *)
Lemma sched_flight O pr calls (m : mem (FP O)) pool evs : forall hs s s', in_flight O pr m pool calls hs s -> fsched O pr (map (fc_job O) calls) evs s = Some (Ok s') ->
  in_flight O pr m pool calls (rev (fhanded O pr (map (fc_job O) calls) evs s) ++ hs) s'.
Proof.
  induction evs as [|ev evs IH]; intros hs s s' F E; cbn [fsched fhanded] in *.
  - injection E as <-. exact F.
  - destruct (fstep O pr (map (fc_job O) calls) ev s) as [[s1|]|] eqn:E1; try discriminate. rewrite rev_app_distr, <- app_assoc.
    assert (G: rev match ev with BGet i _ => match get (bs_gor O s1) i with Ok (GHas e) => [e] | _ => [] end | _ => [] end = got O ev s1).
    { unfold got. destruct ev as [i c| |]; try reflexivity. destruct (get (bs_gor O s1) i) as [[]|]; reflexivity. }
    rewrite G. apply IH; [|exact E]. eapply if_event; eassumption.
Qed.
Lemma sched_is_flight O pr jobs tvs (m : mem (FP O)) pool evs s : flight_args O pr m pool jobs tvs -> fsched O pr jobs evs (finit O m pool jobs) = Some (Ok s) ->
  exists calls, map (fc_job O) calls = jobs /\ (forall i c, get calls i = Ok c -> fc_src O c = tm m (fj_src O (fc_job O c)) /\ fc_tv O c = tvs i) /\
    in_flight O pr m pool calls (rev (fhanded O pr jobs evs (finit O m pool jobs))) s.
Proof.
  intros Ha E. destruct (start_all O pr m pool tvs jobs Ha) as (calls & (Em & Hc) & F). exists calls. split; [exact Em|]. split; [exact Hc|].
  subst jobs. pose proof (sched_flight O pr calls m pool evs [] _ _ F E) as X. rewrite app_nil_r in X. exact X.
Qed.

Lemma flights_others O pr m pool : good_params pr -> flight_reachable O pr m pool -> others_reachable O pr m pool.
Proof.
  intro Gp. induction 1 as [m Hm|m m' pool _ IH Hs Ht Hf Hi|m p1 p p2 _ IH|m pool pr' jobs tvs evs s _ IH G' EN Ha E].
  - apply or_empty. exact Hm.
  - assert (F: in_flight O pr m pool [] [] {| bs_mem := m'; bs_pool := pool; bs_gor := []; bs_results := [] |}).
    { apply (if_other O pr m pool [] [] (finit O m pool [])); [apply if_start| | |exact Ht|exact Hf|exact Hi].
      - intros q [[]|Hq]. apply Hs. exact Hq.
      - intros x (i & c & E & _). apply (get_inv c) in E. cbn in E. lia. }
    exact (or_flight O pr m pool pr [] [] _ IH Gp eq_refl F).
  - assert (F: in_flight O pr m (p1 ++ p :: p2) [] [] {| bs_mem := m; bs_pool := p1 ++ p2; bs_gor := []; bs_results := [] |}).
    { apply (if_drop O pr m (p1 ++ p :: p2) [] [] (finit O m (p1 ++ p :: p2) []) p1 p p2); [apply if_start|reflexivity]. }
    exact (or_flight O pr m _ pr [] [] _ IH Gp eq_refl F).
  - destruct (sched_is_flight O pr' jobs tvs m pool evs s Ha E) as (calls & _ & _ & F). eapply or_flight; eassumption.
Qed.

Lemma opool_ok {O N} (L : flaws O N) pr (W : pwf pr N) m pool : others_reachable O pr m pool -> mem_ok m /\ Forall (good L m) pool /\ ForallOrdPairs sep pool.
Proof.
  induction 1 as [m Hm|m pool pr' calls hs s _ (Hm & Hg & Hp) [W' HBG'] EN F].
  - split; [exact Hm|]. split; constructor.
  - rewrite EN, (pw_gN _ _ W) in W'.
    pose proof (FlightOtherFacts.inv_flight L pr' W' HBG' m pool calls hs s Hm Hg Hp F) as I.
    split; [apply (FlightOtherFacts.v_mem _ _ _ _ _ I)|]. split; [|apply (FlightOtherFacts.v_pp _ _ _ _ _ I)].
    pose proof (FlightOtherFacts.v_pool _ _ _ _ _ I) as Fp. rewrite Forall_forall in *. intros p Hin. apply (Fp p Hin).
Qed.

Section F.
Context {O : fops} {N : Z} (L : flaws O N) (pr : pset) (W : pwf pr N) (HBG : g_BG pr = 2 ^ g_BGBIT pr).
Notation M := (mem (FP O)).
Lemma other_run (m : M) pool calls hs s : others_reachable O pr m pool -> in_flight O pr m pool calls hs s ->
  (forall ev r, fstep O pr (map (fc_job O) calls) ev s = Some r -> exists s', r = Ok s' /\
     forall x, outside_pool O (bs_mem O s) (hs ++ bs_pool O s) x -> tm (bs_mem O s') x = tm (bs_mem O s) x) /\
  zlen (bs_results O s) = zlen calls /\
    forall i c, get calls i = Ok c ->
      (bsk_ok L pr (fj_bsk O (fc_job O c)) /\ ct_ok N (fc_tv O c) /\ zlen (fc_src O c) = lv0_N pr + 1) /\ (fdone O s i ->
      exists t, znd None (bs_results O s) i = Some t /\ (zlen (tm (bs_mem O s) (rA t)) = N /\ zlen (tm (bs_mem O s) (rB t)) = N) /\
        (NoDup hs -> call_rotation O pr c = Ok (ct_at (bs_mem O s) t))).
Proof.
  intros Hp F. destruct (opool_ok L pr W _ _ Hp) as (Hm & Hg & Hs).
  pose proof (FlightOtherFacts.inv_flight L pr W HBG m pool calls hs s Hm Hg Hs F) as I.
  split. { intros ev r E. destruct (FlightOtherFacts.inv_step L pr W calls hs ev s r I E) as (s' & -> & _ & X). exists s'. split; [reflexivity|exact X]. }
  split; [apply (FlightOtherFacts.v_res _ _ _ _ _ I)|].
  intros i c Ec. apply (get_inv (@call0 O)) in Ec. destruct Ec as [Hi ->]. destruct (FlightOtherFacts.v_st _ _ _ _ _ I i Hi) as (Hb & Ht & Ls).
  split; [auto|]. intro D. apply (get_inv GDone) in D. destruct D as [_ D].
  assert (Fi: finished (znd GDone (bs_gor O s) i)) by (rewrite <- D; exact Logic.I).
  destruct (FlightOtherFacts.v_set _ _ _ _ _ I i Hi Fi) as (t & Et & _ & [LA LB] & _). exists t. split; [exact Et|]. split; [split; assumption|].
  intro NR. destruct (FlightOtherFacts.v_fin _ _ _ _ _ I NR i Hi Fi) as (e & t' & Et' & _ & _ & _ & _ & At & _).
  assert (t' = t) by congruence. subst t'. unfold call_rotation. pose proof (pw_n _ _ W). rewrite (rotation_ok L pr W _ _ _ _ (lv0_N pr) Hb Ls Ht) by lia.
  f_equal. symmetry. apply at_ct. exact At.
Qed.
End F.

(** a goroutine that has not begun can run to its end, with a new evaluator *)
Section P.
Context {O : fops} {N : Z} (L : flaws O N) (pr : pset) (W : pwf pr N) (HBG : g_BG pr = 2 ^ g_BGBIT pr).
Notation M := (mem (FP O)).
Lemma other_block (m : M) pool calls hs s i : others_reachable O pr m pool -> in_flight O pr m pool calls hs s -> get (bs_gor O s) i = Ok GNew ->
  exists evs s' e, fsched O pr (map (fc_job O) calls) evs s = Some (Ok s') /\ in_flight O pr m pool calls (e :: hs) s' /\ fdone O s' i /\ ~ In e hs.
Proof.
  intros Hp F Hg. destruct (opool_ok L pr W _ _ Hp) as (Hm0 & Hg0 & Hs0).
  pose proof (FlightOtherFacts.inv_flight L pr W HBG m pool calls hs s Hm0 Hg0 Hs0 F) as I.
  pose proof (FlightOtherFacts.v_len _ _ _ _ _ I) as Hl. pose proof (FlightOtherFacts.v_mem _ _ _ _ _ I) as Hm.
  apply (get_inv GDone) in Hg. destruct Hg as [Hi Hg]. symmetry in Hg. rewrite Hl in Hi.
  destruct (FlightOtherFacts.v_st _ _ _ _ _ I i Hi) as (Hb & Htv & Ls).
  assert (Hu: ~ finished (znd GDone (bs_gor O s) i)) by (rewrite Hg; intros []). destruct (FlightOtherFacts.v_args _ _ _ _ _ I i Hi Hu) as [Es [TA TB]].
  set (j := fc_job O (znd call0 calls i)) in *. set (tv := fc_tv O (znd call0 calls i)) in *.
  pose proof (NewPolyEvaluator_ok L (bs_mem O s)) as NE.
  destruct (new_good L pr W (bs_mem O s) Hm) as (e & m1 & E1 & Ge & Hm1 & Gr & Hx1 & _ & Ho & _).
  assert (Te: pe_t e = tnext (bs_mem O s)).
  { destruct NE as (m1' & E1' & (_ & T1 & _) & _). rewrite (pw_gN _ _ W) in E1. rewrite E1 in E1'. injection E1' as -> ->. reflexivity. }
  assert (Lt: forall z, In z [fj_src O j; rA (fj_testvec O j); rB (fj_testvec O j)] -> z < tnext (bs_mem O s)) by (intros z Hz; apply (FlightOtherFacts.v_argb _ _ _ _ _ I); exists i; auto).
  assert (NP: forall z, In z [fj_src O j; rA (fj_testvec O j); rB (fj_testvec O j)] -> ~ pscr e z) by (intros z Hz Hpz; specialize (Lt z Hz); specialize (Ho z Hpz); lia).
  assert (I1: In (fj_src O j) [fj_src O j; rA (fj_testvec O j); rB (fj_testvec O j)]) by (left; reflexivity).
  assert (I2: In (rA (fj_testvec O j)) [fj_src O j; rA (fj_testvec O j); rB (fj_testvec O j)]) by (right; left; reflexivity).
  assert (I3: In (rB (fj_testvec O j)) [fj_src O j; rA (fj_testvec O j); rB (fj_testvec O j)]) by (right; right; left; reflexivity).
  destruct (BlindRotate_slot L pr W m1 e (fj_src O j) (fj_testvec O j) tv (fj_bsk O j) (fj_offset O j) (proj1 Ge) Hb) as (r1 & m2 & E2 & _);
    [rewrite Hx1 by (apply Lt; exact I1); rewrite Es; exact Ls|split; rewrite Hx1 by (apply Lt; assumption); assumption|exact Htv|apply NP; exact I1|apply NP; exact I2|apply NP; exact I3|].
  destruct (block_all O pr W (map (fc_job O) calls) i None s e m1 (bs_pool O s) r1 m2) as [A B]; [rewrite zlen_jobs; exact Hi|rewrite zlen_jobs; exact Hl| | |].
  { cbn [bstep]. rewrite (get_ok GDone) by lia. rewrite Hg, E1. reflexivity. }
  { rewrite job_map. exact E2. }
  eexists _, _, e. split; [exact A|]. split; [|split].
  - pose proof (sched_flight O pr calls m pool _ hs _ _ F A) as X. rewrite B in X. exact X.
  - unfold fdone. cbn [bs_gor]. rewrite (get_ok GDone) by (rewrite zlen_upd; lia). rewrite znd_upd, Z.eqb_refl by lia. reflexivity.
  - intro X. apply (FlightOtherFacts.v_hs _ _ _ _ _ I) in X. lia.
Qed.

Definition store3 (m : M) (a b c : list Z) : M :=
  Mem (fun x => if x =? tnext m then a else if x =? tnext m + 1 then b else if x =? tnext m + 2 then c else tm m x) (fm m) (im m) (tnext m + 3) (fnext m) (inext m).
(** at any moment any user can bootstrap any ciphertext they hold *)
Lemma other_next (m : M) pool calls hs s sk rk rb ck ct tv : others_reachable O pr m pool -> in_flight O pr m pool calls hs s -> NoDup hs ->
  key_ok pr sk -> NewCloudKey O pr sk rk rb = Ok ck -> zlen ct = lv0_N pr + 1 ->
  zlen (tA tv) = g_N pr -> zlen (tB tv) = g_N pr -> tok_list (tA tv) -> tok_list (tB tv) ->
  exists c s' e, in_flight O pr m pool (calls ++ [c]) (e :: hs) s' /\ NoDup (e :: hs) /\ fdone O s' (zlen calls) /\
    fc_src O c = ct /\ fc_tv O c = tv /\ fj_bsk O (fc_job O c) = BootstrappingKey ck /\ fj_offset O (fc_job O c) = DecompositionOffset ck.
Proof.
  intros Hp F ND Hsk Hck Lc A1 A2 A3 A4. destruct (opool_ok L pr W _ _ Hp) as (Hm0 & Hg0 & Hs0).
  pose proof (FlightOtherFacts.inv_flight L pr W HBG m pool calls hs s Hm0 Hg0 Hs0 F) as I.
  pose proof (FlightOtherFacts.v_len _ _ _ _ _ I) as Hl. destruct (FlightOtherFacts.v_mem _ _ _ _ _ I) as (T1 & T2 & T3).
  set (x := tnext (bs_mem O s)) in *. set (m' := store3 (bs_mem O s) ct (tA tv) (tB tv)).
  assert (Old: forall y, y < x -> tm m' y = tm (bs_mem O s) y).
  { intros y Hy. cbn [m' store3 tm]. fold x. destruct (Z.eqb_spec y x); [lia|]. destruct (Z.eqb_spec y (x + 1)); [lia|]. destruct (Z.eqb_spec y (x + 2)); [lia|reflexivity]. }
  assert (Bd: forall p, In p hs \/ In p (bs_pool O s) -> pe_t p + 24 <= x).
  { intros p [Hq|Hq]; [apply (FlightOtherFacts.v_hs _ _ _ _ _ I); exact Hq|]. pose proof (FlightOtherFacts.v_pool _ _ _ _ _ I) as Fp. rewrite Forall_forall in Fp.
    destruct (Fp p Hq) as [(_ & X & _) _]. unfold x. lia. }
  pose proof (if_other O pr m pool calls hs s m' F) as F1. 
  assert (F1': in_flight O pr m pool calls hs {| bs_mem := m'; bs_pool := bs_pool O s; bs_gor := bs_gor O s; bs_results := bs_results O s |}).
  { apply F1; cbn [m' store3 tnext fnext inext]; try lia.
    - intros p Hq. specialize (Bd p Hq). split; [|split; reflexivity]. intros y Hy. apply Old. unfold pown in Hy. lia.
    - intros y (i & c & Ec & Hy & _). apply Old. apply (FlightOtherFacts.v_argb _ _ _ _ _ I). apply (get_inv (@call0 O)) in Ec. destruct Ec as [Hi ->]. exists i. auto. }
  clear F1. set (s1 := {| bs_mem := m'; bs_pool := bs_pool O s; bs_gor := bs_gor O s; bs_results := bs_results O s |}) in *.
  set (j := {| fj_src := x; fj_testvec := {| rA := x + 1; rB := x + 2 |}; fj_bsk := BootstrappingKey ck; fj_offset := DecompositionOffset ck |} : fjob O).
  assert (V0: tm m' x = ct) by (cbn [m' store3 tm]; fold x; rewrite Z.eqb_refl; reflexivity).
  assert (V1: tm m' (x + 1) = tA tv) by (cbn [m' store3 tm]; fold x; rewrite Z.eqb_refl; destruct (Z.eqb_spec (x + 1) x); [lia|reflexivity]).
  assert (V2: tm m' (x + 2) = tB tv) by (cbn [m' store3 tm]; fold x; rewrite Z.eqb_refl; destruct (Z.eqb_spec (x + 2) x); [lia|]; destruct (Z.eqb_spec (x + 2) (x + 1)); [lia|reflexivity]).
  assert (Out: forall k, 0 <= k < 3 -> outside_pool O m' (hs ++ bs_pool O s) (x + k)).
  { intros k Hk. split; [cbn [m' store3 tnext]; fold x; lia|]. intros p Hq Hy. apply in_app_or in Hq. specialize (Bd p Hq). unfold pown in Hy. lia. }
  assert (J: flight_job O pr (bs_mem O s1) (hs ++ bs_pool O s1) j tv).
  { split; [|exists sk, rk, rb, ck; auto]. cbn [s1 bs_mem bs_pool j fj_src fj_testvec]. split; [constructor; [split; [|rewrite V0; exact Lc]|constructor]|].
    - rewrite <- (Z.add_0_r x). apply Out. lia.
    - cbn [rA rB]. split; [apply Out; lia|]. split; [apply Out; lia|]. auto 10. }
  pose proof (if_call O pr m pool calls hs s1 j tv F1' J) as F2. cbn [s1 bs_mem bs_pool bs_gor bs_results j fj_src] in F2. rewrite V0 in F2.
  destruct (other_block m pool _ hs _ (zlen calls) Hp F2) as (evs & s' & e & _ & F3 & D & Ne).
  { cbn [bs_gor]. rewrite <- Hl. apply get_last. }
  eexists _, s', e. split; [exact F3|]. split; [constructor; assumption|]. split; [exact D|]. auto.
Qed.
End P.

Section Top.
Context (R : arith) (O : fops) (pr : pset) (G : good_params pr) (EO : fft_evaluator R (g_N pr) = Ok O).
Notation M := (mem (FP O)).
Notation n := (lv0_N pr).

Lemma o_run (m : M) pool calls hs s : others_reachable O pr m pool -> in_flight O pr m pool calls hs s ->
  (forall ev r, fstep O pr (map (fc_job O) calls) ev s = Some r -> exists s', r = Ok s' /\
     forall x, outside_pool O (bs_mem O s) (hs ++ bs_pool O s) x -> tm (bs_mem O s') x = tm (bs_mem O s) x) /\
  forall i c, get calls i = Ok c -> fdone O s i ->
    exists t, get (bs_results O s) i = Ok (Some t) /\ (NoDup hs -> call_rotation O pr c = Ok (ct_at (bs_mem O s) t)).
Proof.
  intros Hp F. destruct G as [W HBG]. destruct (laws_of _ _ _ EO) as [L _].
  destruct (other_run L pr W HBG m pool calls hs s Hp F) as (Np & Lr & Hv). split; [exact Np|].
  intros i c Ec D. destruct (Hv i c Ec) as [_ V]. destruct (V D) as (t & Et & _ & V'). exists t. split; [|exact V'].
  apply (get_inv c) in Ec. rewrite (get_ok None) by lia. f_equal. exact Et.
Qed.

Lemma o_block (m : M) pool calls hs s i : others_reachable O pr m pool -> in_flight O pr m pool calls hs s -> get (bs_gor O s) i = Ok GNew ->
  exists evs s' e, fsched O pr (map (fc_job O) calls) evs s = Some (Ok s') /\ in_flight O pr m pool calls (e :: hs) s' /\ fdone O s' i /\ ~ In e hs.
Proof. destruct G as [W HBG]. destruct (laws_of _ _ _ EO) as [L _]. exact (other_block L pr W HBG m pool calls hs s i). Qed.

Lemma o_next (m : M) pool calls hs s sk rk rb ck ct tv : others_reachable O pr m pool -> in_flight O pr m pool calls hs s -> NoDup hs ->
  key_ok pr sk -> NewCloudKey O pr sk rk rb = Ok ck -> zlen ct = n + 1 ->
  zlen (tA tv) = g_N pr -> zlen (tB tv) = g_N pr -> tok_list (tA tv) -> tok_list (tB tv) ->
  exists c s' e, in_flight O pr m pool (calls ++ [c]) (e :: hs) s' /\ NoDup (e :: hs) /\ fdone O s' (zlen calls) /\
    fc_src O c = ct /\ fc_tv O c = tv /\ fj_bsk O (fc_job O c) = BootstrappingKey ck /\ fj_offset O (fc_job O c) = DecompositionOffset ck.
Proof. destruct G as [W HBG]. destruct (laws_of _ _ _ EO) as [L _]. exact (other_next L pr W HBG m pool calls hs s sk rk rb ck ct tv). Qed.

Lemma o_bits sk rk rb (ck : CloudKey O) : key_ok pr sk -> NewCloudKey O pr sk rk rb = Ok ck ->
  forall (m : M) pool calls hs s batch b T, others_reachable O pr m pool ->
  in_flight O pr m pool calls hs s -> call_of O calls s ck batch ->
  exists outs, batch_post O pr (bs_mem O s) (KeySwitchingKey ck) (results_of O s batch) = Ok outs /\ zlen outs = zlen batch /\
    (NoDup hs ->
     (forall i c, In i batch -> get calls i = Ok c -> boot_noise O pr sk ck (BlindRotateTestvec ck) (fc_src O c) T /\
        side (b i) (round_err pr sk) (lwe_phase n (KeyLv0 sk) (fc_src O c))) ->
     forall k, 0 <= k < zlen batch -> encrypts n (KeyLv0 sk) (znd [] outs k) (b (zn batch k)) T).
Proof.
  intros Hsk Hck m pool calls hs s batch b T Hp E Hbt. destruct G as [W HBG]. destruct (laws_of _ _ _ EO) as [L _].
  destruct (other_run L pr W HBG m pool calls hs s Hp E) as (_ & Lr & Hv).
  assert (LR: zlen (results_of O s batch) = zlen batch) by (unfold results_of, zlen; rewrite map_length; reflexivity).
  assert (In_: forall k, 0 <= k < zlen batch -> In (zn batch k) batch).
  { intros k Hk. unfold zn, znd. apply nth_In. unfold zlen in Hk. lia. }
  assert (Rk: forall k, 0 <= k < zlen batch -> exists c t, get calls (zn batch k) = Ok c /\ fj_bsk O (fc_job O c) = BootstrappingKey ck /\ fj_offset O (fc_job O c) = DecompositionOffset ck /\
    fc_tv O c = BlindRotateTestvec ck /\ znd None (results_of O s batch) k = Some t /\
    (zlen (tm (bs_mem O s) (rA t)) = g_N pr /\ zlen (tm (bs_mem O s) (rB t)) = g_N pr) /\
    (NoDup hs -> call_rotation O pr c = Ok (ct_at (bs_mem O s) t))).
  { intros k Hk. destruct (Hbt _ (In_ k Hk)) as (D & c & Ec & Et & Eb & Eo). destruct (Hv _ c Ec) as [_ V0]. destruct (V0 D) as (t & Er & Ln & V).
    exists c, t. split; [exact Ec|]. split; [exact Eb|]. split; [exact Eo|]. split; [exact Et|]. split; [|split; [exact Ln|exact V]].
    apply (get_inv (@call0 O)) in Ec. unfold results_of. unfold znd.
    set (f := fun i => match get (bs_results O s) i with Ok r => r | Panic _ => None end).
    rewrite (nth_indep _ None (f 0)) by (rewrite map_length; unfold zlen in Hk; lia). rewrite map_nth.
    change (nth (Z.to_nat k) batch 0) with (zn batch k). unfold f. rewrite (get_ok None) by lia. exact Er. }
  destruct (post_run L pr W HBG sk rk rb ck Hsk Hck (bs_mem O s) (results_of O s batch)) as (outs & Eo & Lo & Ho).
  { intros i Hi. rewrite LR in Hi. destruct (Rk i Hi) as (c & t & _ & _ & _ & _ & Et & [A B] & _). exists t. auto. }
  exists outs. split; [exact Eo|]. split; [lia|]. intros NR Hn k Hk.
  destruct (Rk k Hk) as (c & t & Ec & Eb & Eof & Etv & Et & _ & V). destruct (Hn _ c (In_ k Hk) Ec) as [Bn Sd].
  destruct (Ho k ltac:(lia)) as [_ Vk]. specialize (V NR). destruct (Hv _ c Ec) as [(Hb & Htv & Ls) _].
  unfold call_rotation in V. pose proof (pw_n _ _ W). rewrite (rotation_ok L pr W _ _ _ _ n Hb Ls Htv) in V by lia. injection V as V1.
  destruct (cloud_facts L pr W HBG _ _ _ _ Hsk Hck) as (_ & _ & Ht & _).
  rewrite (Vk t (fc_src O c) Et).
  - apply (boot_phase L pr W HBG sk rk rb ck Hsk Hck); [exact Ls|exact Bn|exact Sd].
  - rewrite Eb, Eof, Etv, Ht in V1. rewrite V1. split; reflexivity.
Qed.
End Top.

Lemma o_bits_worst mc O pr sk rk rb (ck : CloudKey O) : mc_ok mc -> setup (f64_arith mc) O pr sk rk rb ck ->
  forall Bb Bk d d', fft_error_within pr d d' -> key_noise_within pr rk rb Bb Bk -> 0 <= Bb -> 0 <= Bk -> 0 <= d' ->
  forall (m : mem (FP O)) pool calls hs s batch b, others_reachable O pr m pool ->
  in_flight O pr m pool calls hs s -> call_of O calls s ck batch -> NoDup hs ->
  (forall i c, In i batch -> get calls i = Ok c -> side (b i) (round_err pr sk) (lwe_phase (lv0_N pr) (KeyLv0 sk) (fc_src O c))) ->
  exists outs, batch_post O pr (bs_mem O s) (KeySwitchingKey ck) (results_of O s batch) = Ok outs /\ zlen outs = zlen batch /\
    forall k, 0 <= k < zlen batch -> encrypts (lv0_N pr) (KeyLv0 sk) (znd [] outs k) (b (zn batch k)) (worst_noise pr sk Bb Bk d d').
Proof.
  intros Hmc S Bb Bk d d' Hf Hk Hb Hbk Hd m pool calls hs s batch b Hp E Hbt NR Hs. pose proof S as (Gp & EO & Hsk & Hck).
  destruct (o_bits (f64_arith mc) O pr Gp EO sk rk rb ck Hsk Hck m pool calls hs s batch b (worst_noise pr sk Bb Bk d d') Hp E Hbt) as (outs & Eo & Lo & Ho).
  exists outs. split; [exact Eo|]. split; [exact Lo|]. apply Ho; [exact NR|]. intros i c Hi Ec. split; [|exact (Hs i c Hi Ec)].
  destruct Gp as [W HBG]. destruct (laws_of _ _ _ EO) as [L _]. destruct (other_run L pr W HBG m pool calls hs s Hp E) as (_ & _ & Hv).
  destruct (Hv i c Ec) as [(_ & [[A1 A3] [A2 A4]] & Ls) _]. destruct (Hbt i Hi) as (_ & c' & Ec' & Etv & _). assert (c' = c) by congruence. subst c'. rewrite Etv in A1, A2, A3, A4.
  apply (p_worst mc O pr sk rk rb ck Bb Bk d d' (BlindRotateTestvec ck) (fc_src O c) Hmc S Hf Hk Hb Hbk Hd A1 A2 A3 A4 Ls).
Qed.

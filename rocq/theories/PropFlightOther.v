(** * Property C69, continued: batches in flight while other code runs

    The vocabulary is in FlightOtherSpec.v.  Here batches are called at any time
    during the flight, with arguments that may have been computed since it began,
    other code runs between the events, and the pool may lose evaluators.  [calls]
    are the goroutines started so far and [hs] the evaluators handed out so far. *)
From Coq Require Import Lia List.
From Verif Require Import GoBase GoFacts GoMem F64 Utils Spec Params Key Tlwe Poly Fft FftTabErr Trlwe Trgsw Evaluator CloudKey Gates
  RunSpec BatchSpec Flight FlightSpec FlightOtherSpec RunProps RunWorst BatchProps FlightProps FlightOtherProps Tiny TinyRun PropBatch PropFlight.
Import ListNotations.
Local Open Scope Z_scope.

(** At every moment: no event that can come next panics, and it changes nothing
    outside the evaluators; and every finished goroutine has stored a result,
    which, if no evaluator has been handed out twice so far, is the blind rotation
    of its own ciphertext as it was when its batch was called, with its own test
    vector and key. *)
Theorem C69_others : forall (R : arith) O pr, good_params pr -> fft_evaluator R (g_N pr) = Ok O ->
  forall (m : mem (FP O)) pool calls hs s, others_reachable O pr m pool -> in_flight O pr m pool calls hs s ->
  (forall ev r, fstep O pr (map (fc_job O) calls) ev s = Some r -> exists s', r = Ok s' /\
     forall x, outside_pool O (bs_mem O s) (hs ++ bs_pool O s) x -> tm (bs_mem O s') x = tm (bs_mem O s) x) /\
  forall i c, get calls i = Ok c -> fdone O s i ->
    exists t, get (bs_results O s) i = Ok (Some t) /\ (NoDup hs -> call_rotation O pr c = Ok (ct_at (bs_mem O s) t)).
Proof. exact o_run. Qed.
Print Assumptions C69_others.

(** What a batch gate returns from the results of its goroutines, at any moment
    after they have finished... *)
Theorem C69_others_bits : forall (R : arith) O pr, good_params pr -> fft_evaluator R (g_N pr) = Ok O ->
  forall sk rk rb (ck : CloudKey O), key_ok pr sk -> NewCloudKey O pr sk rk rb = Ok ck ->
  forall (m : mem (FP O)) pool calls hs s batch b T, others_reachable O pr m pool ->
  in_flight O pr m pool calls hs s -> call_of O calls s ck batch ->
  exists outs, batch_post O pr (bs_mem O s) (KeySwitchingKey ck) (results_of O s batch) = Ok outs /\ zlen outs = zlen batch /\
    (NoDup hs ->
     (forall i c, In i batch -> get calls i = Ok c -> boot_noise O pr sk ck (BlindRotateTestvec ck) (fc_src O c) T /\
        side (b i) (round_err pr sk) (lwe_phase (lv0_N pr) (KeyLv0 sk) (fc_src O c))) ->
     forall k, 0 <= k < zlen batch -> encrypts (lv0_N pr) (KeyLv0 sk) (znd [] outs k) (b (zn batch k)) T).
Proof. exact o_bits. Qed.
Print Assumptions C69_others_bits.

(** ... in binary64 from bounds on the noise of this user's keys alone. *)
Theorem C69_others_bits_float64 : forall mc O pr sk rk rb (ck : CloudKey O), mc_ok mc -> setup (f64_arith mc) O pr sk rk rb ck ->
  forall Bb Bk d d', fft_error_within pr d d' -> key_noise_within pr rk rb Bb Bk -> 0 <= Bb -> 0 <= Bk -> 0 <= d' ->
  forall (m : mem (FP O)) pool calls hs s batch b, others_reachable O pr m pool ->
  in_flight O pr m pool calls hs s -> call_of O calls s ck batch -> NoDup hs ->
  (forall i c, In i batch -> get calls i = Ok c -> side (b i) (round_err pr sk) (lwe_phase (lv0_N pr) (KeyLv0 sk) (fc_src O c))) ->
  exists outs, batch_post O pr (bs_mem O s) (KeySwitchingKey ck) (results_of O s batch) = Ok outs /\ zlen outs = zlen batch /\
    forall k, 0 <= k < zlen batch -> encrypts (lv0_N pr) (KeyLv0 sk) (znd [] outs k) (b (zn batch k)) (worst_noise pr sk Bb Bk d d').
Proof. exact o_bits_worst. Qed.
Print Assumptions C69_others_bits_float64.

(** A goroutine that has been started but has not begun can at any moment run to
    its end on an evaluator that has not been handed out before... *)
Theorem C69_others_progress : forall (R : arith) O pr, good_params pr -> fft_evaluator R (g_N pr) = Ok O ->
  forall (m : mem (FP O)) pool calls hs s i, others_reachable O pr m pool -> in_flight O pr m pool calls hs s -> get (bs_gor O s) i = Ok GNew ->
  exists evs s' e, fsched O pr (map (fc_job O) calls) evs s = Some (Ok s') /\ in_flight O pr m pool calls (e :: hs) s' /\ fdone O s' i /\ ~ In e hs.
Proof. exact o_block. Qed.
Print Assumptions C69_others_progress.

(** ... and at any moment any user can bootstrap any ciphertext they hold by then. *)
Theorem C69_others_next : forall (R : arith) O pr, good_params pr -> fft_evaluator R (g_N pr) = Ok O ->
  forall (m : mem (FP O)) pool calls hs s sk rk rb ck ct tv, others_reachable O pr m pool -> in_flight O pr m pool calls hs s -> NoDup hs ->
  key_ok pr sk -> NewCloudKey O pr sk rk rb = Ok ck -> zlen ct = lv0_N pr + 1 ->
  zlen (tA tv) = g_N pr -> zlen (tB tv) = g_N pr -> tok_list (tA tv) -> tok_list (tB tv) ->
  exists c s' e, in_flight O pr m pool (calls ++ [c]) (e :: hs) s' /\ NoDup (e :: hs) /\ fdone O s' (zlen calls) /\
    fc_src O c = ct /\ fc_tv O c = tv /\ fj_bsk O (fc_job O c) = BootstrappingKey ck /\ fj_offset O (fc_job O c) = DecompositionOffset ck.
Proof. exact o_next. Qed.
Print Assumptions C69_others_next.

(** The schedules of C69_flight are such runs, all goroutines being started at the
    beginning, and the states they start from are among those here. *)
Theorem C69_others_schedules : forall O pr jobs tvs (m : mem (FP O)) pool evs s, flight_args O pr m pool jobs tvs ->
  fsched O pr jobs evs (finit O m pool jobs) = Some (Ok s) ->
  exists calls, map (fc_job O) calls = jobs /\
    (forall i c, get calls i = Ok c -> fc_src O c = tm m (fj_src O (fc_job O c)) /\ fc_tv O c = tvs i) /\
    in_flight O pr m pool calls (rev (fhanded O pr jobs evs (finit O m pool jobs))) s.
Proof. exact sched_is_flight. Qed.
Print Assumptions C69_others_schedules.
Theorem C69_others_histories : forall O pr (m : mem (FP O)) pool, good_params pr -> flight_reachable O pr m pool -> others_reachable O pr m pool.
Proof. exact flights_others. Qed.
Print Assumptions C69_others_histories.

(** ** The hypotheses are met *)

(** A user bootstraps a ciphertext, and then, during the same flight, the
    ciphertext this gave; in binary64 the bit survives both. *)
Example C69_others_case : exists mc O ck, mc_ok mc /\ setup (f64_arith mc) O tiny tiny_key tiny_rk tiny_rb ck /\
  exists (m : mem (FP O)) c1 c2 hs1 s1 hs s out1 out2, others_reachable O tiny m [] /\
    in_flight O tiny m [] [c1] hs1 s1 /\ batch_post O tiny (bs_mem O s1) (KeySwitchingKey ck) (results_of O s1 [0]) = Ok [out1] /\
    in_flight O tiny m [] [c1; c2] hs s /\ fc_src O c2 = out1 /\ NoDup hs /\
    batch_post O tiny (bs_mem O s) (KeySwitchingKey ck) (results_of O s [1]) = Ok [out2] /\
    DecryptBool 3 (fc_src O c1) (KeyLv0 tiny_key) = Ok true /\ DecryptBool 3 out2 (KeyLv0 tiny_key) = Ok true.
Proof.
  destruct (setup_exists (f64_arith mc0) tiny tiny_key tiny_rk tiny_rb tiny_params ltac:(cbn; lia) tiny_key_ok) as (O & ck & S).
  exists mc0, O, ck. split; [exact mc0_ok|]. split; [exact S|]. pose proof S as (Gp & Ev & Hsk & Hck).
  destruct (C69_start _ O tiny _ _ _ ck _ _ _ ck S S tiny_rk 16) as (m & j1 & j2 & tvs & Hp0 & _ & _ & _ & Ea & _).
  { intro i. apply small_noise_le. }
  pose proof (C69_others_histories O tiny m [] Gp Hp0) as Hp. destruct (testvec_shape _ _ _ _ _ _ _ S) as (T1 & T2 & T3 & T4).
  assert (Wn: fft_error_within tiny 1 0) by (vm_compute; repeat split; congruence).
  set (wn := worst_noise tiny tiny_key 16 16 1 0). assert (Hwn: wn + round_err tiny tiny_key < 2 ^ 29) by (vm_compute; reflexivity).
  assert (Hre: 0 <= round_err tiny tiny_key) by (vm_compute; congruence).
  destruct (C69_others_next _ O tiny Gp Ev m [] [] [] (finit O m [] []) tiny_key tiny_rk tiny_rb ck (tm m (fj_src O j1)) (BlindRotateTestvec ck))
    as (c1 & s1 & e1 & F1 & N1 & D1 & Sc1 & Tc1 & B1 & O1); [exact Hp|apply if_start|constructor|exact Hsk|exact Hck|apply Ea|exact T1|exact T2|exact T3|exact T4|].
  cbn [app] in F1. change (zlen (@nil (fcall O))) with 0 in D1.
  assert (C1: call_of O [c1] s1 ck [0]) by (intros i [<- | []]; split; [exact D1|]; exists c1; auto).
  destruct (C69_others_bits_float64 mc0 O tiny tiny_key tiny_rk tiny_rb ck mc0_ok S 16 16 1 0 Wn tiny_key_noise ltac:(lia) ltac:(lia) ltac:(lia)
    m [] [c1] [e1] s1 [0] (fun _ => true) Hp F1 C1 N1) as (outs1 & Eo1 & Lo1 & Ho1).
  { intros i c [<- | []] Ec. change (get [c1] 0) with (Ok c1) in Ec. injection Ec as <-. rewrite Sc1.
    apply (enc_side _ _ _ _ 16); [exact Ea|exact Hre|vm_compute; reflexivity]. }
  destruct outs1 as [|out1 [|o1 outs1]]; try (unfold zlen in Lo1; cbn [length] in Lo1; lia).
  specialize (Ho1 0 ltac:(cbn; lia)). change (znd [] [out1] 0) with out1 in Ho1.
  destruct (C69_others_next _ O tiny Gp Ev m [] [c1] [e1] s1 tiny_key tiny_rk tiny_rb ck out1 (BlindRotateTestvec ck))
    as (c2 & s & e2 & F2 & N2 & D2 & Sc2 & Tc2 & B2 & O2); [exact Hp|exact F1|exact N1|exact Hsk|exact Hck|apply Ho1|exact T1|exact T2|exact T3|exact T4|].
  cbn [app] in F2. change (zlen [c1]) with 1 in D2.
  assert (C2: call_of O [c1; c2] s ck [1]) by (intros i [<- | []]; split; [exact D2|]; exists c2; auto).
  destruct (C69_others_bits_float64 mc0 O tiny tiny_key tiny_rk tiny_rb ck mc0_ok S 16 16 1 0 Wn tiny_key_noise ltac:(lia) ltac:(lia) ltac:(lia)
    m [] [c1; c2] [e2; e1] s [1] (fun _ => true) Hp F2 C2 N2) as (outs2 & Eo2 & Lo2 & Ho2).
  { intros i c [<- | []] Ec. change (get [c1; c2] 1) with (Ok c2) in Ec. injection Ec as <-. rewrite Sc2.
    apply (enc_side _ _ _ _ wn); [exact Ho1|exact Hre|exact Hwn]. }
  destruct outs2 as [|out2 [|o2 outs2]]; try (unfold zlen in Lo2; cbn [length] in Lo2; lia).
  specialize (Ho2 0 ltac:(cbn; lia)). change (znd [] [out2] 0) with out2 in Ho2.
  exists m, c1, c2, [e1], s1, [e2; e1], s, out1, out2. split; [exact Hp|]. split; [exact F1|]. split; [exact Eo1|]. split; [exact F2|]. split; [exact Sc2|].
  split; [exact N2|]. split; [exact Eo2|]. split.
  - rewrite Sc1. apply (decrypt_enc 3 (KeyLv0 tiny_key) _ true 16); [lia|cbn; lia|exact Ea|lia].
  - apply (decrypt_enc 3 (KeyLv0 tiny_key) out2 true wn); [lia|cbn; lia|exact Ho2|vm_compute; reflexivity].
Qed.

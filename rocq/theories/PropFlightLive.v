(** * Property C70: batches come to an end

    The vocabulary is in FlightLiveSpec.v, FlightSpec.v and FlightOtherSpec.v.
    [calls] are the goroutines that batch calls have started so far, of any number
    of users, and [s] is the state at any moment of the flight: other code has run
    and the pool has behaved in any way. *)
From Coq Require Import Lia List.
From Verif Require Import GoBase GoFacts GoMem F64 Utils Spec Params Key Tlwe Poly Fft FftTabErr Trlwe Trgsw Evaluator CloudKey Gates
  RunSpec BatchSpec Flight FlightSpec FlightOtherSpec FlightLiveSpec RunProps RunWorst BatchProps FlightProps FlightOtherProps FlightLiveFacts
  Tiny TinyRun PropBatch PropFlight PropFlightOther.
Import ListNotations.
Local Open Scope Z_scope.

(** Every event brings its goroutine one event closer to its end and leaves the
    progress of the others as it was. *)
Theorem C70_event : forall (R : arith) O pr, good_params pr -> fft_evaluator R (g_N pr) = Ok O ->
  forall (m : mem (FP O)) pool calls hs s, others_reachable O pr m pool -> in_flight O pr m pool calls hs s ->
  0 <= all_left O pr s <= (lv0_N pr + 4) * zlen calls /\ (all_left O pr s = 0 <-> all_done O s) /\
  forall ev s', fstep O pr (map (fc_job O) calls) ev s = Some (Ok s') -> all_left O pr s' = all_left O pr s - 1 /\
    forall i g, get (bs_gor O s) i = Ok g -> exists g', get (bs_gor O s') i = Ok g' /\
      events_left pr g' = events_left pr g - (if event_of ev =? i then 1 else 0) /\ (event_of ev <> i -> g' = g).
Proof. exact l_steps. Qed.
Print Assumptions C70_event.

(** A goroutine that has not finished can always take its next event: it waits
    neither for the pool nor for another goroutine, and does not panic. *)
Theorem C70_enabled : forall (R : arith) O pr, good_params pr -> fft_evaluator R (g_N pr) = Ok O ->
  forall (m : mem (FP O)) pool calls hs s i c, others_reachable O pr m pool -> in_flight O pr m pool calls hs s -> get calls i = Ok c -> ~ fdone O s i ->
  exists ev s', event_of ev = i /\ fstep O pr (map (fc_job O) calls) ev s = Some (Ok s').
Proof. exact l_enabled. Qed.
Print Assumptions C70_enabled.

(** A goroutine has finished exactly when it has run as often as it had events
    before it: [n + 4] times in all. *)
Theorem C70_turns : forall (R : arith) O pr, good_params pr -> fft_evaluator R (g_N pr) = Ok O ->
  forall (m : mem (FP O)) pool calls hs s evs s' i g, others_reachable O pr m pool -> in_flight O pr m pool calls hs s ->
  fsched O pr (map (fc_job O) calls) evs s = Some (Ok s') -> get (bs_gor O s) i = Ok g ->
  turns_of i evs <= events_left pr g /\ (fdone O s' i <-> turns_of i evs = events_left pr g).
Proof. exact l_turns. Qed.
Print Assumptions C70_turns.

(** From every moment on, no schedule is longer than [n + 4] events for each
    goroutine, and there is one with which all of them finish. *)
Theorem C70_finish : forall (R : arith) O pr, good_params pr -> fft_evaluator R (g_N pr) = Ok O ->
  forall (m : mem (FP O)) pool calls hs s, others_reachable O pr m pool -> in_flight O pr m pool calls hs s ->
  (forall evs s', fsched O pr (map (fc_job O) calls) evs s = Some (Ok s') -> zlen evs <= (lv0_N pr + 4) * zlen calls) /\
  exists evs s', fsched O pr (map (fc_job O) calls) evs s = Some (Ok s') /\ all_done O s'.
Proof. exact l_finish. Qed.
Print Assumptions C70_finish.

(** If no evaluator has been handed out twice so far, all of them can finish with
    every result right. *)
Theorem C70_right : forall (R : arith) O pr, good_params pr -> fft_evaluator R (g_N pr) = Ok O ->
  forall (m : mem (FP O)) pool calls hs s, others_reachable O pr m pool -> in_flight O pr m pool calls hs s -> NoDup hs ->
  exists evs s', fsched O pr (map (fc_job O) calls) evs s = Some (Ok s') /\ all_done O s' /\
    forall i c, get calls i = Ok c -> exists t, get (bs_results O s') i = Ok (Some t) /\ call_rotation O pr c = Ok (ct_at (bs_mem O s') t).
Proof. exact l_right. Qed.
Print Assumptions C70_right.

(** A batch alone: however its goroutines have been scheduled so far, at most
    [n + 4] events each have happened, and it can go on to return. *)
Theorem C70_batch : forall (R : arith) O pr, good_params pr -> fft_evaluator R (g_N pr) = Ok O ->
  forall sk rk rb (ck : CloudKey O) (m : mem (FP O)) pool srcs tvr tv evs s, key_ok pr sk -> NewCloudKey O pr sk rk rb = Ok ck ->
  pool_reachable O pr m pool -> batch_args O pr m pool srcs tvr tv ->
  bsched O pr srcs tvr (BootstrappingKey ck) (DecompositionOffset ck) evs (binit O m pool srcs) = Some (Ok s) ->
  zlen evs <= (lv0_N pr + 4) * zlen srcs /\
  exists evs' rs m', BatchBlindRotate O pr m pool srcs tvr (BootstrappingKey ck) (DecompositionOffset ck) (evs ++ evs') = Some (Ok (rs, m')).
Proof. exact l_batch. Qed.
Print Assumptions C70_batch.

(** And a batch gate: its preparation never fails, and however the goroutines of
    its rotations have been scheduled so far, it can go on to return. *)
Theorem C70_gate : forall (R : arith) O pr sk rk rb (ck : CloudKey O), setup R O pr sk rk rb ck ->
  forall g (m : mem (FP O)) pool inputs k, pool_reachable O pr m pool -> batch_inputs O pr m pool inputs -> batch_key O m pool k ck ->
  exists prepared m1, batch_prepare O (batch_lin pr g) m inputs = Ok (prepared, m1) /\
    forall evs s, bsched O pr prepared (gk_testvec k) (gk_bsk k) (gk_offset k) evs (binit O m1 pool prepared) = Some (Ok s) ->
    zlen evs <= (lv0_N pr + 4) * zlen inputs /\
    exists evs' outs, batch_fun O pr g m pool inputs k (evs ++ evs') = Some (Ok outs).
Proof. exact l_gate. Qed.
Print Assumptions C70_gate.

(** ** The hypotheses are met *)

(** Two users with keys of their own have started a goroutine each: 14 events are
    left, and one of them can come next. *)
Example C70_case : exists mc O ck ck2, mc_ok mc /\ setup (f64_arith mc) O tiny tiny_key tiny_rk tiny_rb ck /\
  setup (f64_arith mc) O tiny other_key tiny_rk tiny_rb ck2 /\
  exists (m : mem (FP O)) calls s ev s', others_reachable O tiny m [] /\ in_flight O tiny m [] calls [] s /\ zlen calls = 2 /\
    all_left O tiny s = 14 /\ event_of ev = 1 /\ fstep O tiny (map (fc_job O) calls) ev s = Some (Ok s') /\ all_left O tiny s' = 13.
Proof.
  destruct (setup_exists (f64_arith mc0) tiny tiny_key tiny_rk tiny_rb tiny_params ltac:(cbn; lia) tiny_key_ok) as (O & ck & S).
  assert (K2: key_ok tiny other_key) by (split; (split; [reflexivity|repeat (constructor; [lia|]); constructor])).
  pose proof S as (Gp & Ev & _). destruct (setup_exists (f64_arith mc0) tiny other_key tiny_rk tiny_rb tiny_params ltac:(cbn; lia) K2) as (O2 & ck2 & S2).
  assert (EO: O2 = O) by (destruct S2 as (_ & Ev2 & _); congruence). subst O2.
  exists mc0, O, ck, ck2. split; [exact mc0_ok|]. split; [exact S|]. split; [exact S2|].
  destruct (C69_start _ O tiny _ _ _ ck _ _ _ ck2 S S2 tiny_rk 16) as (m & j1 & j2 & tvs & Hp & Ha & _).
  { intro i. apply small_noise_le. }
  destruct (C69_others_schedules O tiny [j1; j2] tvs m [] [] _ Ha eq_refl) as (calls & Ec & _ & F). cbn [fhanded rev] in F.
  pose proof (C69_others_histories O tiny m [] Gp Hp) as Ho.
  assert (L: zlen calls = 2) by (replace (zlen calls) with (zlen (map (fc_job O) calls)) by (unfold zlen; rewrite map_length; reflexivity); rewrite Ec; reflexivity).
  assert (A: all_left O tiny (finit O m [] [j1; j2]) = 14) by reflexivity.
  destruct (get calls 1) as [c|] eqn:E1; [|exfalso; destruct calls as [|? [|? ?]]; discriminate].
  destruct (C70_enabled _ O tiny Gp Ev m [] calls [] _ 1 c Ho F E1) as (ev & s' & E2 & E3); [intro X; discriminate X|].
  exists m, calls, (finit O m [] [j1; j2]), ev, s'. split; [exact Ho|]. split; [exact F|]. split; [exact L|]. split; [exact A|]. split; [exact E2|]. split; [exact E3|].
  destruct (C70_event _ O tiny Gp Ev m [] calls [] _ Ho F) as (_ & _ & X). rewrite (proj1 (X ev s' E3)), A. reflexivity.
Qed.

(** and those of C70_batch: a batch of two ciphertexts, which returns *)
Example C70_batch_case : exists mc O ck, mc_ok mc /\ setup (f64_arith mc) O tiny tiny_key tiny_rk tiny_rb ck /\
  exists (m : mem (FP O)) srcs tvr evs rs m', pool_reachable O tiny m [] /\ zlen srcs = 2 /\ batch_args O tiny m [] srcs tvr (BlindRotateTestvec ck) /\
    BatchBlindRotate O tiny m [] srcs tvr (BootstrappingKey ck) (DecompositionOffset ck) evs = Some (Ok (rs, m')).
Proof.
  destruct (setup_exists (f64_arith mc0) tiny tiny_key tiny_rk tiny_rb tiny_params ltac:(cbn; lia) tiny_key_ok) as (O & ck & S).
  exists mc0, O, ck. split; [exact mc0_ok|]. split; [exact S|]. pose proof S as (Gp & Ev & Hsk & Hck).
  destruct (C30_start _ O tiny tiny_key tiny_rk tiny_rb ck S [true; false] tiny_rk 16) as (e & m & k & w & _ & _ & Hp & Hb & Hw).
  { intro i. apply small_noise_le. }
  destruct (testvec_shape _ _ _ _ _ _ _ S) as (T1 & T2 & T3 & T4). destruct Hb as (_ & _ & _ & V1 & V2 & V3 & V4).
  assert (A: batch_args O tiny m [] w (gk_testvec k) (BlindRotateTestvec ck)).
  { split; [|auto 10]. clear - Hw. induction Hw as [|x b w bs (X & Y) _ IH]; constructor; [|exact IH]. split; [exact X|apply Y]. }
  assert (L: zlen w = 2) by (clear - Hw; inversion Hw as [|? ? ? ? _ Q1]; subst; inversion Q1 as [|? ? ? ? _ Q2]; subst; inversion Q2; reflexivity).
  destruct (C70_batch _ O tiny Gp Ev tiny_key tiny_rk tiny_rb ck m [] w (gk_testvec k) (BlindRotateTestvec ck) [] _ Hsk Hck Hp A eq_refl) as (_ & evs & rs & m' & E).
  exists m, w, (gk_testvec k), evs, rs, m'. auto.
Qed.

(** the hypotheses of C70_gate are those of C30_schedule, met in C30_full *)
Example C70_gate_case : exists mc O ck, mc_ok mc /\ setup (f64_arith mc) O tiny tiny_key tiny_rk tiny_rb ck /\
  exists (m : mem (FP O)) k a b, pool_reachable O tiny m [] /\ batch_inputs O tiny m [] [(a, b); (b, a)] /\ batch_key O m [] k ck.
Proof.
  destruct (setup_exists (f64_arith mc0) tiny tiny_key tiny_rk tiny_rb tiny_params ltac:(cbn; lia) tiny_key_ok) as (O & ck & S).
  exists mc0, O, ck. split; [exact mc0_ok|]. split; [exact S|].
  destruct (C30_start _ O tiny tiny_key tiny_rk tiny_rb ck S [true; false] tiny_rk 16) as (e & m & k & w & _ & _ & Hp & Hb & Hw).
  { intro i. apply small_noise_le. }
  inversion Hw as [|a x1 w1 y1 (A1 & A2) Q1]; subst. inversion Q1 as [|b x2 w2 y2 (B1 & B2) Q2]; subst.
  exists m, k, a, b. split; [exact Hp|]. split; [|exact Hb]. pose proof (proj1 A2) as A3. pose proof (proj1 B2) as B3.
  unfold batch_inputs. apply Forall_cons; [|apply Forall_cons; [|apply Forall_nil]]; cbn [fst snd]; (split; [split|split]); first [exact A1|exact B1|apply A3|apply B3].
Qed.

(** * Property C69: several batches in flight

    The vocabulary is in FlightSpec.v.  The pool of evaluators is global, so all
    batches running at a time share it.  [jobs] lists the goroutines of all of
    them, each with its own ciphertext, test vector and key; the batches may
    belong to different users.  A schedule is a list of events of any of the
    goroutines.  [flight_reachable] is every state of memory and pool after any
    earlier flights. *)
From Coq Require Import Lia List.
From Verif Require Import GoBase GoFacts GoMem F64 Utils Spec Params Key Tlwe Poly Fft FftTabErr Trlwe Trgsw Evaluator CloudKey Gates
  RunSpec BatchSpec Flight FlightSpec RunProps RunWorst BatchProps FlightProps Tiny TinyRun PropBatch.
Import ListNotations.
Local Open Scope Z_scope.

(** At every moment of every schedule: nothing has panicked, nothing outside the
    pool's evaluators has changed, and every finished goroutine has stored a
    result.  If no evaluator has been handed out twice so far, to whichever
    batch, every such result is the blind rotation of its goroutine's own
    ciphertext, with its own test vector and key. *)
Theorem C69_flight : forall (R : arith) O pr, good_params pr -> fft_evaluator R (g_N pr) = Ok O ->
  forall (m : mem (FP O)) pool jobs tvs evs r, flight_reachable O pr m pool -> flight_args O pr m pool jobs tvs ->
  fsched O pr jobs evs (finit O m pool jobs) = Some r ->
  exists s, r = Ok s /\ zlen (bs_results O s) = zlen jobs /\ (forall x, outside_pool O m pool x -> tm (bs_mem O s) x = tm m x) /\
    forall i j, get jobs i = Ok j -> fdone O s i ->
      exists t, get (bs_results O s) i = Ok (Some t) /\
        (fno_reuse O pr m pool jobs evs -> own_rotation O pr m j (tvs i) = Ok (ct_at (bs_mem O s) t)).
Proof. exact f_run. Qed.
Print Assumptions C69_flight.

(** The states after any batches one after the other, those of C30 and C31, are
    among the starting states. *)
Theorem C69_histories : forall O pr (m : mem (FP O)) pool, pool_reachable O pr m pool -> flight_reachable O pr m pool.
Proof. exact pool_flight. Qed.
Print Assumptions C69_histories.

(** There is always such a schedule in which every goroutine finishes. *)
Theorem C69_possible : forall (R : arith) O pr, good_params pr -> fft_evaluator R (g_N pr) = Ok O ->
  forall (m : mem (FP O)) pool jobs tvs, flight_reachable O pr m pool -> flight_args O pr m pool jobs tvs ->
  exists evs s, fno_reuse O pr m pool jobs evs /\ fsched O pr jobs evs (finit O m pool jobs) = Some (Ok s) /\
    forall i, 0 <= i < zlen jobs -> fdone O s i.
Proof. exact f_own. Qed.
Print Assumptions C69_possible.

(** What a batch gate returns from the results of its goroutines: always one
    ciphertext for each, without a panic; and, without reuse, encryptions of the
    right bits, whatever the other batches are and whosever they are... *)
Theorem C69_bits : forall (R : arith) O pr, good_params pr -> fft_evaluator R (g_N pr) = Ok O ->
  forall sk rk rb (ck : CloudKey O), key_ok pr sk -> NewCloudKey O pr sk rk rb = Ok ck ->
  forall (m : mem (FP O)) pool jobs tvs evs s batch b T, flight_reachable O pr m pool -> flight_args O pr m pool jobs tvs ->
  fsched O pr jobs evs (finit O m pool jobs) = Some (Ok s) -> batch_of O jobs tvs s ck batch ->
  exists outs, batch_post O pr (bs_mem O s) (KeySwitchingKey ck) (results_of O s batch) = Ok outs /\ zlen outs = zlen batch /\
    (fno_reuse O pr m pool jobs evs ->
     (forall i j, In i batch -> get jobs i = Ok j -> boot_noise O pr sk ck (BlindRotateTestvec ck) (tm m (fj_src O j)) T /\
        side (b i) (round_err pr sk) (lwe_phase (lv0_N pr) (KeyLv0 sk) (tm m (fj_src O j)))) ->
     forall k, 0 <= k < zlen batch -> encrypts (lv0_N pr) (KeyLv0 sk) (znd [] outs k) (b (zn batch k)) T).
Proof. exact f_bits. Qed.
Print Assumptions C69_bits.

(** ... in binary64 from bounds on the noise of this user's keys alone. *)
Theorem C69_bits_float64 : forall mc O pr sk rk rb (ck : CloudKey O), mc_ok mc -> setup (f64_arith mc) O pr sk rk rb ck ->
  forall Bb Bk d d', fft_error_within pr d d' -> key_noise_within pr rk rb Bb Bk -> 0 <= Bb -> 0 <= Bk -> 0 <= d' ->
  forall (m : mem (FP O)) pool jobs tvs evs s batch b, flight_reachable O pr m pool -> flight_args O pr m pool jobs tvs ->
  fsched O pr jobs evs (finit O m pool jobs) = Some (Ok s) -> batch_of O jobs tvs s ck batch -> fno_reuse O pr m pool jobs evs ->
  (forall i j, In i batch -> get jobs i = Ok j -> side (b i) (round_err pr sk) (lwe_phase (lv0_N pr) (KeyLv0 sk) (tm m (fj_src O j)))) ->
  exists outs, batch_post O pr (bs_mem O s) (KeySwitchingKey ck) (results_of O s batch) = Ok outs /\ zlen outs = zlen batch /\
    forall k, 0 <= k < zlen batch -> encrypts (lv0_N pr) (KeyLv0 sk) (znd [] outs k) (b (zn batch k)) (worst_noise pr sk Bb Bk d d').
Proof. exact f_bits_worst. Qed.
Print Assumptions C69_bits_float64.

(** A batch of one ciphertext, alone, is right under every schedule and every
    behaviour of the pool... *)
Theorem C69_alone : forall (R : arith) O pr, good_params pr -> fft_evaluator R (g_N pr) = Ok O ->
  forall (m : mem (FP O)) pool j tvs evs s, flight_reachable O pr m pool -> flight_args O pr m pool [j] tvs ->
  fsched O pr [j] evs (finit O m pool [j]) = Some (Ok s) -> fdone O s 0 ->
  exists t, get (bs_results O s) 0 = Ok (Some t) /\ own_rotation O pr m j (tvs 0) = Ok (ct_at (bs_mem O s) t).
Proof. exact f_alone. Qed.
Print Assumptions C69_alone.

(** ... but not beside another batch of one ciphertext, of whichever user: there
    is a schedule in which the first batch finishes, with the right result, then
    the second batch runs on the evaluator the first has put back, and from then
    on the result of the first is the blind rotation of the second's ciphertext
    under the second's key.  (The levels with an even dimension are in
    C31_reuse_levels.) *)
Theorem C69_refuted : forall (R : arith) O pr, good_params pr -> fft_evaluator R (g_N pr) = Ok O ->
  forall (m : mem (FP O)) pool j1 j2 tvs, flight_reachable O pr m pool -> flight_args O pr m pool [j1; j2] tvs ->
  Z.even (lv0_N pr) = true -> 0 < lv0_N pr ->
  exists t evs1 evs2 s1 s2, fsched O pr [j1; j2] evs1 (finit O m pool [j1; j2]) = Some (Ok s1) /\ fsched O pr [j1; j2] evs2 s1 = Some (Ok s2) /\
    Forall (fun ev => event_of ev = 0) evs1 /\ Forall (fun ev => event_of ev = 1) evs2 /\
    fdone O s1 0 /\ bs_results O s1 = [Some t; None] /\ own_rotation O pr m j1 (tvs 0) = Ok (ct_at (bs_mem O s1) t) /\
    bs_results O s2 = [Some t; Some t] /\ own_rotation O pr m j2 (tvs 1) = Ok (ct_at (bs_mem O s2) t).
Proof. exact f_serial. Qed.
Print Assumptions C69_refuted.

(** ** The hypotheses are met *)

(** any two users can be in flight together *)
Example C69_start : forall (R : arith) O pr sk rk rb (ck : CloudKey O) sk2 rk2 rb2 (ck2 : CloudKey O),
  setup R O pr sk rk rb ck -> setup R O pr sk2 rk2 rb2 ck2 ->
  forall (r : Z -> enc_rand) E, (forall i, Z.abs (centered (F64ToTorus (er_noise (r i)))) <= E) ->
  exists (m : mem (FP O)) j1 j2 tvs, flight_reachable O pr m [] /\ flight_args O pr m [] [j1; j2] tvs /\
    (fj_bsk O j1 = BootstrappingKey ck /\ fj_offset O j1 = DecompositionOffset ck /\ tvs 0 = BlindRotateTestvec ck) /\
    (fj_bsk O j2 = BootstrappingKey ck2 /\ fj_offset O j2 = DecompositionOffset ck2 /\ tvs 1 = BlindRotateTestvec ck2) /\
    encrypts (lv0_N pr) (KeyLv0 sk) (tm m (fj_src O j1)) true E /\ encrypts (lv0_N pr) (KeyLv0 sk) (tm m (fj_src O j2)) false E.
Proof. exact f_start. Qed.

(** a second user *)
Definition other_key : SecretKey := {| KeyLv0 := [1; 1; 0]; KeyLv1 := KeyLv1 tiny_key |}.

(** Two users with keys of their own bootstrap a ciphertext each at the same
    time, in binary64; the first gets their bit back. *)
Example C69_case : exists mc O ck ck2, mc_ok mc /\ setup (f64_arith mc) O tiny tiny_key tiny_rk tiny_rb ck /\
  setup (f64_arith mc) O tiny other_key tiny_rk tiny_rb ck2 /\
  exists (m : mem (FP O)) j1 j2 tvs evs s out, flight_reachable O tiny m [] /\ flight_args O tiny m [] [j1; j2] tvs /\
    fj_bsk O j1 = BootstrappingKey ck /\ fj_bsk O j2 = BootstrappingKey ck2 /\
    fsched O tiny [j1; j2] evs (finit O m [] [j1; j2]) = Some (Ok s) /\ batch_of O [j1; j2] tvs s ck [0] /\ fno_reuse O tiny m [] [j1; j2] evs /\
    DecryptBool 3 (tm m (fj_src O j1)) (KeyLv0 tiny_key) = Ok true /\
    batch_post O tiny (bs_mem O s) (KeySwitchingKey ck) (results_of O s [0]) = Ok [out] /\ DecryptBool 3 out (KeyLv0 tiny_key) = Ok true.
Proof.
  destruct (setup_exists (f64_arith mc0) tiny tiny_key tiny_rk tiny_rb tiny_params ltac:(cbn; lia) tiny_key_ok) as (O & ck & S).
  assert (K2: key_ok tiny other_key) by (split; (split; [reflexivity|repeat (constructor; [lia|]); constructor])).
  destruct (setup_exists (f64_arith mc0) tiny other_key tiny_rk tiny_rb tiny_params ltac:(cbn; lia) K2) as (O2 & ck2 & S2).
  assert (EO: O2 = O) by (destruct S as (_ & A & _); destruct S2 as (_ & B & _); congruence). subst O2.
  exists mc0, O, ck, ck2. split; [exact mc0_ok|]. split; [exact S|]. split; [exact S2|].
  destruct (C69_start _ O tiny _ _ _ ck _ _ _ ck2 S S2 tiny_rk 16) as (m & j1 & j2 & tvs & Hp & Ha & (B1 & B2 & B3) & (C1 & _) & Ea & _).
  { intro i. apply small_noise_le. }
  pose proof S as (Gp & Ev & _).
  destruct (C69_possible _ O tiny Gp Ev m [] [j1; j2] tvs Hp Ha) as (evs & s & NR & E & D).
  assert (Bt: batch_of O [j1; j2] tvs s ck [0]).
  { intros i [<- | []]. split; [apply D; cbn; lia|]. split; [exact B3|]. exists j1. auto. }
  assert (Wn: fft_error_within tiny 1 0) by (vm_compute; repeat split; congruence).
  assert (Sd: side true (round_err tiny tiny_key) (lwe_phase 3 (KeyLv0 tiny_key) (tm m (fj_src O j1)))).
  { apply (enc_side _ _ _ _ 16); [exact Ea|vm_compute; congruence|vm_compute; reflexivity]. }
  destruct (C69_bits_float64 mc0 O tiny tiny_key tiny_rk tiny_rb ck mc0_ok S 16 16 1 0 Wn tiny_key_noise ltac:(lia) ltac:(lia) ltac:(lia)
    m [] [j1; j2] tvs evs s [0] (fun _ => true) Hp Ha E Bt NR) as (outs & Eo & Lo & Ho).
  { intros i j [<- | []] Ej. change (get [j1; j2] 0) with (Ok j1) in Ej. injection Ej as <-. exact Sd. }
  destruct outs as [|out [|o1 outs]]; try (unfold zlen in Lo; cbn [length] in Lo; lia).
  exists m, j1, j2, tvs, evs, s, out. split; [exact Hp|]. split; [exact Ha|]. split; [exact B1|]. split; [exact C1|]. split; [exact E|]. split; [exact Bt|]. split; [exact NR|].
  specialize (Ho 0 ltac:(cbn; lia)). change (znd [] [out] 0) with out in Ho.
  split; [|split; [exact Eo|]].
  - apply (decrypt_enc 3 (KeyLv0 tiny_key) (tm m (fj_src O j1)) true 16); [lia|cbn; lia|exact Ea|lia].
  - apply (decrypt_enc 3 (KeyLv0 tiny_key) out true (worst_noise tiny tiny_key 16 16 1 0)); [lia|cbn; lia|exact Ho|vm_compute; reflexivity].
Qed.

(** and the hypotheses of C69_refuted, with an even dimension (the set [tiny4]
    and its key are those of C31_reuse_computed) *)
Definition other_key4 : SecretKey := {| KeyLv0 := [1; 1; 0; 0]; KeyLv1 := KeyLv1 tiny_key |}.
Example C69_refuted_case : exists mc O ck ck2, mc_ok mc /\ setup (f64_arith mc) O tiny4 tiny4_key tiny_rk tiny_rb ck /\
  setup (f64_arith mc) O tiny4 other_key4 tiny_rk tiny_rb ck2 /\
  exists (m : mem (FP O)) j1 j2 tvs, flight_reachable O tiny4 m [] /\ flight_args O tiny4 m [] [j1; j2] tvs /\
    fj_bsk O j1 = BootstrappingKey ck /\ fj_bsk O j2 = BootstrappingKey ck2 /\ Z.even (lv0_N tiny4) = true /\ 0 < lv0_N tiny4.
Proof.
  assert (G4: good_params tiny4) by (split; [constructor; cbn; lia|reflexivity]).
  assert (K1: key_ok tiny4 tiny4_key) by (split; (split; [reflexivity|repeat (constructor; [lia|]); constructor])).
  assert (K2: key_ok tiny4 other_key4) by (split; (split; [reflexivity|repeat (constructor; [lia|]); constructor])).
  destruct (setup_exists (f64_arith mc0) tiny4 tiny4_key tiny_rk tiny_rb G4 ltac:(cbn; lia) K1) as (O & ck & S).
  destruct (setup_exists (f64_arith mc0) tiny4 other_key4 tiny_rk tiny_rb G4 ltac:(cbn; lia) K2) as (O2 & ck2 & S2).
  assert (EO: O2 = O) by (destruct S as (_ & A & _); destruct S2 as (_ & B & _); congruence). subst O2.
  exists mc0, O, ck, ck2. split; [exact mc0_ok|]. split; [exact S|]. split; [exact S2|].
  destruct (C69_start _ O tiny4 _ _ _ ck _ _ _ ck2 S S2 tiny_rk 16) as (m & j1 & j2 & tvs & Hp & Ha & (B1 & _) & (C1 & _) & _).
  { intro i. apply small_noise_le. }
  exists m, j1, j2, tvs. split; [exact Hp|]. split; [exact Ha|]. split; [exact B1|]. split; [exact C1|]. split; reflexivity.
Qed.

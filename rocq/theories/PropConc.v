(** * Property C36: gates called from several goroutines

    Conc.v writes the operations behind a gate as programs of single memory
    accesses; a schedule is the list of the goroutines that make the next
    access.  [together ps m sched] is what the goroutines [ps] return and the
    memory they leave; it is [None] if [sched] is not the schedule of a run to
    the end.  The rest of the vocabulary is in ConcSpec.v. *)
From Coq Require Import Lia List.
From Verif Require Import GoBase GoFacts GoMem F64 Utils Spec Params Key Tlwe Poly Fft FftTabErr Trlwe Trgsw Evaluator CloudKey Gates
  RunSpec Circuit RunProps RunWorst Conc ConcSpec ConcFacts ConcProps ConcRace Tiny TinyRun.
Import ListNotations.
Local Open Scope Z_scope.

(** A goroutine that runs alone does what the sequential functions do: the
    programs of accesses and the functions of Gates.v are the same program. *)
Theorem C36_alone : forall O pr (t : worker O) (m : mem (FP O)), run (work pr t) m = alone pr t m.
Proof. intros. apply run_exec. Qed.
Print Assumptions C36_alone.

(** Any number of goroutines, each with an evaluator to itself, sharing the
    cloud key and any inputs, under every schedule: nothing panics and every
    goroutine gets exactly the ciphertexts it gets alone.  Buffers that belong
    to no evaluator keep their contents. *)
Theorem C36_separate : forall (R : arith) O pr sk rk rb ck, setup R O pr sk rk rb ck ->
  forall (ts : list (worker O)) (m : mem (FP O)), separate pr ts m ->
  Forall (fun t => exists w mt, alone pr t m = Ok (w, mt)) ts ->
  forall sched r, together (map (work pr) ts) m sched = Some r ->
  exists ls m', r = Ok (ls, m') /\
    Forall2 (fun t l => exists w mt, alone pr t m = Ok (w, mt) /\ map (tm m') l = map (tm mt) w) ts ls /\
    (forall x, outside ts m x -> outside ts m' x /\ tm m' x = tm m x).
Proof. exact c_same. Qed.
Print Assumptions C36_separate.

(** and no schedule gets stuck: whatever the interleaving, the goroutines have
    all ended once each has made as many accesses as it makes alone *)
Theorem C36_ends : forall (R : arith) O pr sk rk rb ck, setup R O pr sk rk rb ck ->
  forall (ts : list (worker O)) (m : mem (FP O)), separate pr ts m ->
  Forall (fun t => exists w mt, alone pr t m = Ok (w, mt)) ts ->
  forall sched, turns pr ts m sched -> exists r, together (map (work pr) ts) m sched = Some r.
Proof. exact c_ends. Qed.
Print Assumptions C36_ends.

Theorem C36_turns : forall O pr (ts : list (worker O)) (m : mem (FP O)), exists sched, turns pr ts m sched.
Proof. exact @turns_exist. Qed.
Print Assumptions C36_turns.

(** In terms of bits, for float64: under every schedule every wire of every
    goroutine decrypts to the bit the boolean circuit computes.  The results
    can be passed on to any of the goroutines, whose evaluators are again
    separate. *)
Theorem C36_circuits_float64 : forall mc O pr sk rk rb ck, mc_ok mc -> setup (f64_arith mc) O pr sk rk rb ck ->
  forall Bb Bk d d', fft_error_within pr d d' -> key_noise_within pr rk rb Bb Bk -> 0 <= Bb -> 0 <= Bk -> 0 <= d' ->
  forall (ts : list (worker O)) vs (m : mem (FP O)) E sched r, separate pr ts m ->
  Forall2 (fun t v => key_at O m (wk_ev t) (wk_key t) ck /\ wires O pr (wk_ev t) sk m (wk_in t) v E /\
    exists v', plain (wk_calls t) v = Ok v') ts vs ->
  1 <= E -> worst_noise pr sk Bb Bk d d' <= E -> 3 * E + round_err pr sk < 2 ^ 29 ->
  together (map (work pr) ts) m sched = Some r ->
  exists ls m', r = Ok (ls, m') /\ zlen ls = zlen ts /\
    (forall i t v v', get ts i = Ok t -> get vs i = Ok v -> plain (wk_calls t) v = Ok v' -> exists l, get ls i = Ok l /\
       Forall2 (fun x b => outside ts m' x /\ encrypts (lv0_N pr) (KeyLv0 sk) (tm m' x) b E /\
         DecryptBool (lv0_N pr) (tm m' x) (KeyLv0 sk) = Ok b) l v') /\
    separate pr ts m' /\ (forall x, outside ts m x -> outside ts m' x /\ tm m' x = tm m x).
Proof. exact c_truth. Qed.
Print Assumptions C36_circuits_float64.

(** Such goroutines exist for every key, every list of circuits and all input
    bits: one new evaluator each, the key and the inputs shared. *)
Theorem C36_start : forall (R : arith) O pr sk rk rb ck, setup R O pr sk rk rb ck ->
  forall (calls : list (list instr)) bits (r : Z -> enc_rand) E, (forall i, Z.abs (centered (F64ToTorus (er_noise (r i)))) <= E) ->
  exists (ts : list (worker O)) m, separate pr ts m /\ map wk_calls ts = calls /\
    Forall (fun t => key_at O m (wk_ev t) (wk_key t) ck /\ wires O pr (wk_ev t) sk m (wk_in t) bits E) ts.
Proof. exact c_start. Qed.
Print Assumptions C36_start.

(** The functions of package gates share one evaluator.  For any two gates, any
    inputs and any earlier calls there is a schedule under which both calls
    return an encryption of the first gate's truth value: the second call's
    result is wrong whenever the two values differ. *)
Theorem C36_refuted : forall (R : arith) O pr sk rk rb ck, setup R O pr sk rk rb ck ->
  forall g h e (m : mem (FP O)) k a b c d va vb vc vd E T, reachable O pr e m -> key_at O m e k ck ->
  wires O pr e sk m [a; b] [va; vb] E -> wires O pr e sk m [c; d] [vc; vd] E -> 1 <= E -> 3 * E + round_err pr sk < 2 ^ 29 ->
  (forall p, gate_lin g (lv0_N pr) (tm m a) (tm m b) = Ok p -> boot_noise O pr sk ck (BlindRotateTestvec ck) p T) -> T < 2 ^ 29 ->
  exists sched x y m', together [work pr (one g a b e k); work pr (one h c d e k)] m sched = Some (Ok ([[a; b; x]; [c; d; y]], m')) /\
    DecryptBool (lv0_N pr) (tm m' x) (KeyLv0 sk) = Ok (truth g va vb) /\ DecryptBool (lv0_N pr) (tm m' y) (KeyLv0 sk) = Ok (truth g va vb).
Proof. exact race_decrypts. Qed.
Print Assumptions C36_refuted.

Theorem C36_refuted_float64 : forall mc O pr sk rk rb ck, mc_ok mc -> setup (f64_arith mc) O pr sk rk rb ck ->
  forall Bb Bk d d', fft_error_within pr d d' -> key_noise_within pr rk rb Bb Bk -> 0 <= Bb -> 0 <= Bk -> 0 <= d' ->
  forall g h e (m : mem (FP O)) k a b c0 d0 va vb vc vd E, reachable O pr e m -> key_at O m e k ck ->
  wires O pr e sk m [a; b] [va; vb] E -> wires O pr e sk m [c0; d0] [vc; vd] E ->
  1 <= E -> worst_noise pr sk Bb Bk d d' <= E -> 3 * E + round_err pr sk < 2 ^ 29 ->
  exists sched x y m', together [work pr (one g a b e k); work pr (one h c0 d0 e k)] m sched = Some (Ok ([[a; b; x]; [c0; d0; y]], m')) /\
    DecryptBool (lv0_N pr) (tm m' x) (KeyLv0 sk) = Ok (truth g va vb) /\ DecryptBool (lv0_N pr) (tm m' y) (KeyLv0 sk) = Ok (truth g va vb).
Proof. exact race_worst. Qed.
Print Assumptions C36_refuted_float64.

(** ** Concrete cases *)
Lemma tiny_worst : let E := worst_noise tiny tiny_key 16 16 1 0 in
  1 <= E /\ 16 <= E /\ 3 * E + round_err tiny tiny_key < 2 ^ 29 /\ fft_error_within tiny 1 0.
Proof. vm_compute. repeat split; congruence. Qed.

(** Three goroutines on the same two encrypted bits: one computes a half adder,
    one a multiplexer on derived wires, one a single gate.  A schedule exists
    (so the hypotheses above are met), and under every schedule the results
    are right. *)
Example C36_full : exists mc O ck, mc_ok mc /\ setup (f64_arith mc) O tiny tiny_key tiny_rk tiny_rb ck /\
  exists (ts : list (worker O)) (m : mem (FP O)), separate tiny ts m /\ zlen ts = 3 /\
  (exists sched r, together (map (work tiny) ts) m sched = Some r) /\
  forall sched r, together (map (work tiny) ts) m sched = Some r -> exists l0 l1 l2 m', r = Ok ([l0; l1; l2], m') /\
    let ok := Forall2 (fun x b => DecryptBool 3 (tm m' x) (KeyLv0 tiny_key) = Ok b) in
    ok l0 [true; false; true; false] /\ ok l1 [true; false; false; true] /\ ok l2 [true; false; true].
Proof.
  destruct (setup_exists (f64_arith mc0) tiny tiny_key tiny_rk tiny_rb tiny_params ltac:(cbn; lia) tiny_key_ok) as (O & ck & S).
  exists mc0, O, ck. split; [exact mc0_ok|]. split; [exact S|].
  set (E := worst_noise tiny tiny_key 16 16 1 0). destruct tiny_worst as (W1 & W0 & W2 & W3). fold E in W1, W0, W2.
  set (calls := [[IGate Gxor 0 1; IGate Gand 0 1]; [INot 0; IMux 1 2 0]; [IGate Gnand 0 1]]).
  destruct (C36_start _ O tiny tiny_key tiny_rk tiny_rb ck S calls [true; false] tiny_rk E) as (ts & m & Hs & Hc & Hk).
  { intro i. pose proof (small_noise_le i). cbn [er_noise tiny_rk]. lia. }
  destruct ts as [|t0 [|t1 [|t2 [|? ?]]]]; try discriminate Hc. injection Hc as Hc0 Hc1 Hc2.
  exists [t0; t1; t2], m. split; [exact Hs|]. split; [reflexivity|].
  inversion Hk as [|? ? [K0 V0] Hk1]; subst. inversion Hk1 as [|? ? [K1 V1] Hk2]; subst. inversion Hk2 as [|? ? [K2 V2] _]; subst.
  set (vs := [[true; false]; [true; false]; [true; false]]).
  assert (HV: Forall2 (fun t v => key_at O m (wk_ev t) (wk_key t) ck /\ wires O tiny (wk_ev t) tiny_key m (wk_in t) v E /\
    exists v', plain (wk_calls t) v = Ok v') [t0; t1; t2] vs).
  { constructor; [split; [exact K0|split; [exact V0|rewrite Hc0; eexists; reflexivity]]|].
    constructor; [split; [exact K1|split; [exact V1|rewrite Hc1; eexists; reflexivity]]|].
    constructor; [split; [exact K2|split; [exact V2|rewrite Hc2; eexists; reflexivity]]|constructor]. }
  pose proof (C36_circuits_float64 mc0 O tiny tiny_key tiny_rk tiny_rb ck mc0_ok S 16 16 1 0 W3 tiny_key_noise ltac:(lia) ltac:(lia) ltac:(lia)
    [t0; t1; t2] vs m E) as G.
  split.
  - destruct (C36_turns O tiny [t0; t1; t2] m) as [sched Ht]. exists sched. eapply C36_ends; [exact S|exact Hs| |exact Ht].
    exact (c_alone mc0 O tiny tiny_key tiny_rk tiny_rb ck mc0_ok S 16 16 1 0 W3 tiny_key_noise ltac:(lia) ltac:(lia) ltac:(lia) _ vs m E Hs HV W1 (Z.le_refl _) W2).
  - intros sched r Er. destruct (G sched r Hs HV W1 (Z.le_refl _) W2 Er) as (ls & m' & -> & Zl & H & _).
    destruct (H 0 t0 _ _ eq_refl eq_refl ltac:(rewrite Hc0; reflexivity)) as (l0 & G0 & F0).
    destruct (H 1 t1 _ _ eq_refl eq_refl ltac:(rewrite Hc1; reflexivity)) as (l1 & G1 & F1).
    destruct (H 2 t2 _ _ eq_refl eq_refl ltac:(rewrite Hc2; reflexivity)) as (l2 & G2 & F2).
    destruct ls as [|x0 [|x1 [|x2 [|? ?]]]]; unfold zlen in Zl; cbn [length] in Zl; try lia.
    injection G0 as ->. injection G1 as ->. injection G2 as ->. exists l0, l1, l2, m'. split; [reflexivity|].
    split; [refine (Forall2_impl' _ _ _ _ _ F0)|split; [refine (Forall2_impl' _ _ _ _ _ F1)|refine (Forall2_impl' _ _ _ _ _ F2)]];
      intros x b Hx; apply Hx.
Qed.

(** OR(true, false) and AND(true, false) called from two goroutines: both return
    an encryption of true. *)
Example C36_race : exists mc O ck, mc_ok mc /\ setup (f64_arith mc) O tiny tiny_key tiny_rk tiny_rb ck /\
  exists e (m : mem (FP O)) k a b, reachable O tiny e m /\ key_at O m e k ck /\
  exists sched x y m', together [work tiny (one Gor a b e k); work tiny (one Gand a b e k)] m sched = Some (Ok ([[a; b; x]; [a; b; y]], m')) /\
    DecryptBool 3 (tm m' x) (KeyLv0 tiny_key) = Ok true /\ DecryptBool 3 (tm m' y) (KeyLv0 tiny_key) = Ok true.
Proof.
  destruct (setup_exists (f64_arith mc0) tiny tiny_key tiny_rk tiny_rb tiny_params ltac:(cbn; lia) tiny_key_ok) as (O & ck & S).
  exists mc0, O, ck. split; [exact mc0_ok|]. split; [exact S|].
  set (E := worst_noise tiny tiny_key 16 16 1 0). destruct tiny_worst as (W1 & W0 & W2 & W3). fold E in W1, W0, W2.
  destruct (p_start_bits _ O tiny tiny_key tiny_rk tiny_rb ck S [true; false] tiny_rk E) as (e & m & k & w & Hr & Hk & Hw).
  { intro i. pose proof (small_noise_le i). cbn [er_noise tiny_rk]. lia. }
  assert (Hl: exists a b, w = [a; b]) by (unfold wires in Hw; inversion Hw as [|a ? ? ? _ Hw1]; inversion Hw1 as [|b ? ? ? _ Hw2]; inversion Hw2; eauto).
  destruct Hl as (a & b & ->). exists e, m, k, a, b. split; [exact Hr|]. split; [exact Hk|].
  exact (C36_refuted_float64 mc0 O tiny tiny_key tiny_rk tiny_rb ck mc0_ok S 16 16 1 0 W3 tiny_key_noise ltac:(lia) ltac:(lia) ltac:(lia)
    Gor Gand e m k a b a b true false true false E Hr Hk Hw Hw W1 (Z.le_refl _) W2).
Qed.

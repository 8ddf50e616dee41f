(** * Property C62: goroutines that mix gates and programmable bootstraps

    Any number of goroutines, each with an evaluator to itself, sharing one
    cloud key, each calling gates, linear operations and programmable
    bootstraps in any order (C61), under every schedule of their memory
    accesses.  The vocabulary is in ConcMixSpec.v. *)
From Coq Require Import Lia List.
From Verif Require Import GoBase GoFacts GoMem F64 Utils Spec Params Key Tlwe TlweMem Poly Fft FftTabErr Trlwe Trgsw Lut Evaluator CloudKey Gates
  RunSpec LutSpec Circuit LutProg MixProg RunProps RunWorst Conc ConcLut ConcSpec ConcLutSpec ConcMixSpec ConcMixProps ConcMixStart ConcMixRace Tiny TinyRun PropLut PropMix.
Import ListNotations.
Local Open Scope Z_scope.

(** A goroutine that runs alone does what the sequential functions do. *)
Theorem C62_alone : forall O pr (ck : CloudKey O) gk k t (m : mem (FP O)), run (mwork pr ck gk k t) m = malone pr ck gk k t m.
Proof. intros. apply run_mexec. Qed.
Print Assumptions C62_alone.

(** Nothing panics and every goroutine gets exactly the ciphertexts and tables
    it gets alone.  What nobody writes to, the cloud key's test vector among it,
    keeps its contents. *)
Theorem C62_separate : forall (R : arith) O pr sk rk rb ck, setup R O pr sk rk rb ck ->
  forall gk k (ts : list mworker) (m : mem (FP O)), mseparate pr gk ts m ->
  Forall (fun t => exists r, malone pr ck gk k t m = Ok r) ts ->
  forall sched r, together (map (mwork pr ck gk k) ts) m sched = Some r ->
  exists ls m', r = Ok (ls, m') /\
    Forall2 (fun t l => exists w mt, malone pr ck gk k t m = Ok (w, mt) /\ contents m' l = contents mt w) ts ls /\
    (forall x, moutside ts m x -> (forall t, In t ts -> ~ mtarget t x) -> tm m' x = tm m x).
Proof. exact mx_same. Qed.
Print Assumptions C62_separate.

(** No schedule gets stuck. *)
Theorem C62_ends : forall (R : arith) O pr sk rk rb ck, setup R O pr sk rk rb ck ->
  forall gk k (ts : list mworker) (m : mem (FP O)), mseparate pr gk ts m ->
  Forall (fun t => exists r, malone pr ck gk k t m = Ok r) ts ->
  forall sched, mturns pr ck gk k ts m sched -> exists r, together (map (mwork pr ck gk k) ts) m sched = Some r.
Proof. exact mx_ends. Qed.
Print Assumptions C62_ends.

Theorem C62_turns : forall O pr (ck : CloudKey O) gk k (ts : list mworker) (m : mem (FP O)), exists sched, mturns pr ck gk k ts m sched.
Proof. exact @mturns_exist. Qed.
Print Assumptions C62_turns.

(** In terms of messages and bits: under every schedule every ciphertext of
    every goroutine decrypts to what its program computes, if the noise bounds
    of the program allow each of its gates and bootstraps.  The goroutines are
    again separate, hold the cloud key and can be given more calls. *)
Theorem C62_messages : forall (R : arith) O pr sk rk rb ck, setup R O pr sk rk rb ck ->
  forall gk k, 2 <= k < g_NBIT pr -> forall T (ts : list mworker) (vs : list lvals) (m : mem (FP O)) sched r, mseparate pr gk ts m ->
  Forall2 (fun t v => mholds O pr sk ck gk k m (mw_ev t) (mw_cts t) (mw_tabs t) v /\ (exists v', mmeans k T (round_err pr sk) (mw_calls t) v = Ok v') /\
    forall f c, mboots O pr ck (mw_ev t) gk k (mw_calls t) (mw_cts t) (mw_tabs t) (snd (fst v)) m f c -> zlen c = lv0_N pr + 1 ->
      mix_noise O pr ck k sk f c T) ts vs ->
  together (map (mwork pr ck gk k) ts) m sched = Some r ->
  exists ls m', r = Ok (ls, m') /\ zlen ls = zlen ts /\
    (forall i t v v', get ts i = Ok t -> get vs i = Ok v -> mmeans k T (round_err pr sk) (mw_calls t) v = Ok v' -> exists l, get ls i = Ok l /\
       mholds O pr sk ck gk k m' (mw_ev t) (fst l) (snd l) v' /\ mdecrypts O pr sk k m' (fst l) v' /\ forall x, In x (fst l) -> moutside ts m' x) /\
    mseparate pr gk ts m' /\
    (forall x, moutside ts m x -> moutside ts m' x /\ ((forall t, In t ts -> ~ mtarget t x) -> tm m' x = tm m x)).
Proof. exact mx_messages. Qed.
Print Assumptions C62_messages.

Theorem C62_messages_float64 : forall mc O pr sk rk rb ck, mc_ok mc -> setup (f64_arith mc) O pr sk rk rb ck ->
  forall Bb Bk d d', fft_error_within pr d d' -> key_noise_within pr rk rb Bb Bk -> 0 <= Bb -> 0 <= Bk -> 0 <= d' ->
  forall gk k, 2 <= k < g_NBIT pr -> let T := worst_noise pr sk Bb Bk d d' in let Rd := round_err pr sk in
  forall (ts : list mworker) (vs : list lvals) (m : mem (FP O)) sched r, mseparate pr gk ts m ->
  Forall2 (fun t v => mholds O pr sk ck gk k m (mw_ev t) (mw_cts t) (mw_tabs t) v /\ exists v', mmeans k T Rd (mw_calls t) v = Ok v') ts vs ->
  together (map (mwork pr ck gk k) ts) m sched = Some r ->
  exists ls m', r = Ok (ls, m') /\ zlen ls = zlen ts /\
    (forall i t v v', get ts i = Ok t -> get vs i = Ok v -> mmeans k T Rd (mw_calls t) v = Ok v' -> exists l, get ls i = Ok l /\
       mholds O pr sk ck gk k m' (mw_ev t) (fst l) (snd l) v' /\ mdecrypts O pr sk k m' (fst l) v' /\ forall x, In x (fst l) -> moutside ts m' x) /\
    mseparate pr gk ts m' /\
    (forall x, moutside ts m x -> moutside ts m' x /\ ((forall t, In t ts -> ~ mtarget t x) -> tm m' x = tm m x)).
Proof. exact mx_float64. Qed.
Print Assumptions C62_messages_float64.

(** Such goroutines exist for every key, all messages and tables, and all
    programs: one new evaluator each, the ciphertexts and tables shared but for
    those one of them writes to. *)
Theorem C62_start : forall (R : arith) O pr sk rk rb ck, setup R O pr sk rk rb ck ->
  forall k, 0 <= k -> forall (js : list mjob) xs fs (r : Z -> enc_rand) E, g_N pr <> lv0_N pr + 1 -> k < 20 ->
  (forall i, Z.abs (centered (F64ToTorus (er_noise (r i)))) <= E) ->
  Forall (fun x => 0 <= x < 2 ^ k) xs -> mjobs_ok (zlen xs) (zlen fs) js ->
  exists (gk : gkey O) (ts : list mworker) (m : mem (FP O)), mseparate pr gk ts m /\
    Forall2 (fun t j => mw_calls t = mj_calls j /\ mholds O pr sk ck gk k m (mw_ev t) (mw_cts t) (mw_tabs t) (mj_vals xs fs (E + 1) j)) ts js.
Proof. exact mx_start. Qed.
Print Assumptions C62_start.

(** Without an evaluator to itself a goroutine can lose its result: a
    BootstrapLUT and a gate on one evaluator, on ciphertexts of their own, can
    be scheduled so that both get the result of the BootstrapLUT.  If that is
    the message at the position of the bit true, so the gate's result decrypts,
    whatever the gate and its inputs. *)
Theorem C62_refuted : forall mc O pr sk rk rb ck, mc_ok mc -> setup (f64_arith mc) O pr sk rk rb ck ->
  forall Bb Bk d d', fft_error_within pr d d' -> key_noise_within pr rk rb Bb Bk -> 0 <= Bb -> 0 <= Bk -> 0 <= d' ->
  forall gk k, 2 <= k < g_NBIT pr -> forall h e (m : mem (FP O)) a b c t va vb vc f E F G, reachable O pr e m ->
  mholds O pr sk ck gk k m e [a] [t] ([va], [f], [E]) -> mholds O pr sk ck gk k m e [b; c] [] ([vb; vc], [], [F; G]) -> 0 <= va < 2 ^ k ->
  E + round_err pr sk < 2 ^ (30 - k) -> worst_noise pr sk Bb Bk d d' < 2 ^ (30 - k) ->
  exists sched x y m', together [mwork pr ck gk k (mix_lut e a t); mwork pr ck gk k (mix_gate h e b c)] m sched = Some (Ok ([([a; x], [t]); ([b; c; y], [])], m')) /\
    DecryptLWEMessage (lv0_N pr) (tm m' x) (2 ^ k) (KeyLv0 sk) = Ok (f va mod 2 ^ k) /\ DecryptLWEMessage (lv0_N pr) (tm m' y) (2 ^ k) (KeyLv0 sk) = Ok (f va mod 2 ^ k) /\
    (f va mod 2 ^ k = 2 ^ (k - 2) -> DecryptBool (lv0_N pr) (tm m' y) (KeyLv0 sk) = Ok true).
Proof. exact mrace_float64. Qed.
Print Assumptions C62_refuted.

(** ** A case

    Encrypted 12, 7 and 3 and a table for squares are shared.  The first
    goroutine runs [decide] of C61 on 12 and 7; the second finds out whether 7
    is odd, negates the bit, and writes the square of 7 over the ciphertext of
    3, which the others are not given; the third computes with constant bits
    and squares 12. *)
Definition mix_jobs : list mjob :=
  [{| mj_calls := decide; mj_cts := [0; 1]; mj_tabs := [] |};
   {| mj_calls := message_to_bit 5 Z.odd 0 2 ++ [MGate (INot 5); MMsg (LLutInto 0 0 1)]; mj_cts := [1; 2]; mj_tabs := [0] |};
   {| mj_calls := [MGate (IConst true); MGate (IConst false); MGate (IGate Gnand 1 2); MMsg (LLut 0 0)]; mj_cts := [0]; mj_tabs := [0] |}].
Definition squares (x : Z) : Z := x * x.
Lemma mix_jobs_ok : mjobs_ok 3 1 mix_jobs.
Proof.
  split.
  - unfold mix_jobs. repeat (first [apply Forall_cons|apply Forall_nil]); cbn [mj_cts mj_tabs]; (split; [repeat (constructor; [cbn; lia|]); constructor|]); split; repeat (constructor; [lia|]); constructor.
  - assert (W: forall j p, In j mix_jobs -> mj_writes j p -> p = 2 /\ mj_cts j = [1; 2]).
    { intros j p [<-|[<-|[<-|[]]]] (o & Ho & G); cbn in Ho; try tauto. destruct Ho as [<-|[]]. injection G as <-. split; reflexivity. }
    unfold mix_jobs in *. repeat (first [apply FOP_cons|apply FOP_nil|apply Forall_cons|apply Forall_nil]); intro p; (split; intros [H1 H2]);
      apply W in H1; try (cbn [In]; tauto); destruct H1 as [-> H1]; cbn in H1, H2; try discriminate H1; lia.
Qed.
Lemma mix_means : let T := worst_noise mid mid_key 16 16 29 0 in let Rd := round_err mid mid_key in
  Forall2 (fun j w => exists fs es, mmeans 5 T Rd (mj_calls j) (mj_vals [12; 7; 3] [squares] 17 j) = Ok (w, fs, es) /\ Forall (fun E => E < 2 ^ (30 - 5)) es)
    mix_jobs [[12; 7; 0; 8; 0; 56; 8; 8; 16; 8; 8; 56; 8; 1; 14; 4]; [7; 17; 8; 8; 16; 8; 56]; [12; 8; 56; 8; 16]].
Proof.
  intros T Rd. set (U := T). vm_compute in U. subst U. set (V := Rd). vm_compute in V.
  repeat (constructor; [do 2 eexists; split; [vm_compute; reflexivity|repeat (constructor; [reflexivity|]); constructor]|]). constructor.
Qed.

Example C62_full : exists mc O ck gk, mc_ok mc /\ setup (f64_arith mc) O mid mid_key tiny_rk tiny_rb ck /\
  exists (ts : list mworker) (m : mem (FP O)), mseparate mid gk ts m /\ map mw_calls ts = map mj_calls mix_jobs /\
  (exists sched r, together (map (mwork mid ck gk 5) ts) m sched = Some r) /\
  forall sched r, together (map (mwork mid ck gk 5) ts) m sched = Some r -> exists l0 l1 l2 m', r = Ok ([l0; l1; l2], m') /\
    let bit l i := bind (get (fst l) i) (fun x => DecryptBool 3 (tm m' x) [1; 0; 1]) in
    let message l i := bind (get (fst l) i) (fun x => DecryptLWEMessage 3 (tm m' x) 32 [1; 0; 1]) in
    map (bit l0) [5; 9; 10; 12] = map Ok [false; true; true; true] /\ message l0 15 = Ok 4 /\
    map (bit l1) [5; 6] = map Ok [true; false] /\ message l1 1 = Ok 17 /\
    map (bit l2) [1; 2; 3] = map Ok [true; false; true] /\ message l2 4 = Ok 16.
Proof.
  destruct (setup_exists (f64_arith mc0) mid mid_key tiny_rk tiny_rb mid_params ltac:(cbn; lia) mid_key_ok) as (O & ck & S).
  destruct mid_worst as (W1 & _ & _).
  destruct (C62_start _ O mid mid_key tiny_rk tiny_rb ck S 5 ltac:(lia) mix_jobs [12; 7; 3] [squares] tiny_rk 16 ltac:(cbn; lia) ltac:(lia)) as (gk & ts & m & Hs & F).
  { intro i. apply small_noise_le. }
  { repeat (constructor; [cbn; lia|]). constructor. }
  { exact mix_jobs_ok. }
  exists mc0, O, ck, gk. split; [exact mc0_ok|]. split; [exact S|]. exists ts, m. split; [exact Hs|].
  pose proof mix_means as DM. cbv zeta in DM. set (T := worst_noise mid mid_key 16 16 29 0) in *. set (Rd := round_err mid mid_key) in *.
  inversion DM as [|? ? ? ? (f0 & e0 & M0 & B0) DM1]; subst. inversion DM1 as [|? ? ? ? (f1 & e1 & M1 & B1) DM2]; subst. inversion DM2 as [|? ? ? ? (f2 & e2 & M2 & B2) _]; subst.
  inversion F as [|t0 ? ? ? [C0 H0] F1]; subst. inversion F1 as [|t1 ? ? ? [C1 H1] F2]; subst. inversion F2 as [|t2 ? ? ? [C2 H2] F3]; subst. inversion F3; subst.
  split; [cbn [map]; rewrite C0, C1, C2; reflexivity|].
  set (vs := map (mj_vals [12; 7; 3] [squares] 17) mix_jobs).
  assert (HV: Forall2 (fun t v => mholds O mid mid_key ck gk 5 m (mw_ev t) (mw_cts t) (mw_tabs t) v /\ exists v', mmeans 5 T Rd (mw_calls t) v = Ok v') [t0; t1; t2] vs).
  { constructor; [split; [exact H0|rewrite C0; eexists; exact M0]|]. constructor; [split; [exact H1|rewrite C1; eexists; exact M1]|].
    constructor; [split; [exact H2|rewrite C2; eexists; exact M2]|constructor]. }
  split.
  - destruct (C62_turns O mid ck gk 5 [t0; t1; t2] m) as [sched Ht]. exists sched. eapply C62_ends; [exact S|exact Hs| |exact Ht].
    pose proof (mx_float64_alone mc0 O mid mid_key tiny_rk tiny_rb ck mc0_ok S 16 16 29 0 W1 mid_key_noise ltac:(lia) ltac:(lia) ltac:(lia) gk 5 ltac:(cbn; lia) _ vs m Hs HV) as A.
    clear - A. induction A as [|t v ts vs (_ & v' & w & mt & _ & E & _) A IH]; constructor; [exists (w, mt); exact E|exact IH].
  - intros sched r Er.
    destruct (C62_messages_float64 mc0 O mid mid_key tiny_rk tiny_rb ck mc0_ok S 16 16 29 0 W1 mid_key_noise ltac:(lia) ltac:(lia) ltac:(lia) gk 5 ltac:(cbn; lia)
      _ vs m sched r Hs HV Er) as (ls & m' & -> & Zl & H & _).
    destruct (H 0 t0 _ _ eq_refl eq_refl ltac:(rewrite C0; exact M0)) as (l0 & G0 & L0 & D0 & _).
    destruct (H 1 t1 _ _ eq_refl eq_refl ltac:(rewrite C1; exact M1)) as (l1 & G1 & L1 & D1 & _).
    destruct (H 2 t2 _ _ eq_refl eq_refl ltac:(rewrite C2; exact M2)) as (l2 & G2 & L2 & D2 & _).
    destruct ls as [|x0 [|x1 [|x2 [|? ?]]]]; unfold zlen in Zl; cbn [length] in Zl; try lia.
    injection G0 as ->. injection G1 as ->. injection G2 as ->. exists l0, l1, l2, m'. split; [reflexivity|]. intros bit message.
    assert (MSG: forall l xs fs es i x, mholds O mid mid_key ck gk 5 m' (mw_ev t0) (fst l) (snd l) (xs, fs, es) \/ mholds O mid mid_key ck gk 5 m' (mw_ev t1) (fst l) (snd l) (xs, fs, es) \/
        mholds O mid mid_key ck gk 5 m' (mw_ev t2) (fst l) (snd l) (xs, fs, es) -> mdecrypts O mid mid_key 5 m' (fst l) (xs, fs, es) ->
      Forall (fun E => E < 2 ^ (30 - 5)) es -> get xs i = Ok x -> message l i = Ok (x mod 32) /\ forall b, x = bit_pos 5 b -> bit l i = Ok b).
    { intros l xs fs es i x HH [DD DB] HB Gx.
      assert (LL: zlen (fst l) = zlen xs /\ zlen (fst l) = zlen es) by (destruct HH as [[[(A1 & A2 & _) _] _]|[[[(A1 & A2 & _) _] _]|[[(A1 & A2 & _) _] _]]]; split; lia).
      pose proof (get_inv x _ _ _ Gx) as [Hi _].
      assert (Gl: get (fst l) i = Ok (zn (fst l) i)) by (apply (get_ok 0); lia). assert (Ge: get es i = Ok (zn es i)) by (apply (get_ok 0); lia).
      assert (Be: zn es i < 2 ^ (30 - 5)). { rewrite Forall_forall in HB. apply HB. unfold zn, znd. apply nth_In. unfold zlen in *. lia. }
      unfold message, bit. rewrite Gl. cbn [bind]. split; [exact (DD i _ _ _ Gl Gx Ge Be)|]. intros b ->. apply (DB i _ b _ Gl Gx Ge). change (2 ^ (30 - 5)) with 33554432 in Be. lia. }
    assert (P0: forall i x, get _ i = Ok x -> message l0 i = Ok (x mod 32) /\ forall b, x = bit_pos 5 b -> bit l0 i = Ok b) by (intros i x; apply (MSG l0 _ f0 e0 i x (or_introl L0) D0 B0)).
    assert (P1: forall i x, get _ i = Ok x -> message l1 i = Ok (x mod 32) /\ forall b, x = bit_pos 5 b -> bit l1 i = Ok b) by (intros i x; apply (MSG l1 _ f1 e1 i x (or_intror (or_introl L1)) D1 B1)).
    assert (P2: forall i x, get _ i = Ok x -> message l2 i = Ok (x mod 32) /\ forall b, x = bit_pos 5 b -> bit l2 i = Ok b) by (intros i x; apply (MSG l2 _ f2 e2 i x (or_intror (or_intror L2)) D2 B2)).
    cbn [map].
    rewrite (proj2 (P0 5 56 eq_refl) false eq_refl), (proj2 (P0 9 8 eq_refl) true eq_refl), (proj2 (P0 10 8 eq_refl) true eq_refl), (proj2 (P0 12 8 eq_refl) true eq_refl), (proj1 (P0 15 4 eq_refl)).
    rewrite (proj2 (P1 5 8 eq_refl) true eq_refl), (proj2 (P1 6 56 eq_refl) false eq_refl), (proj1 (P1 1 17 eq_refl)).
    rewrite (proj2 (P2 1 8 eq_refl) true eq_refl), (proj2 (P2 2 56 eq_refl) false eq_refl), (proj2 (P2 3 8 eq_refl) true eq_refl), (proj1 (P2 4 16 eq_refl)).
    repeat split; reflexivity.
Qed.

(** On one evaluator: NAND of true and true is false when alone, but with a
    BootstrapLUT of a table that is 8 everywhere beside it, it can be true. *)
Definition race_job : mjob := {| mj_calls := []; mj_cts := [0; 1; 2]; mj_tabs := [0] |}.
Lemma holds_some O pr sk ck (gk : gkey O) k (m : mem (FP O)) e a b c t va vb vc f E F G : mholds O pr sk ck gk k m e [a; b; c] [t] ([va; vb; vc], [f], [E; F; G]) ->
  mholds O pr sk ck gk k m e [a] [t] ([va], [f], [E]) /\ mholds O pr sk ck gk k m e [b; c] [] ([vb; vc], [], [F; G]).
Proof.
  intros ([(_ & _ & ND & W) T] & HK & HN). inversion ND as [|? ? N1 ND1]; subst. cbn [In] in *.
  pose proof (W 0 ltac:(change (zlen [a; b; c]) with 3; lia)) as W0. pose proof (W 1 ltac:(change (zlen [a; b; c]) with 3; lia)) as W1. pose proof (W 2 ltac:(change (zlen [a; b; c]) with 3; lia)) as W2.
  split; (split; [split|split; [exact HK|]]).
  - split; [reflexivity|]. split; [reflexivity|]. split; [repeat constructor; cbn; tauto|]. intros i Hi. change (zlen [a]) with 1 in Hi. assert (i = 0) as -> by lia. exact W0.
  - inversion T as [|? ? ? ? [T1 [T2 T3]] T4]; subst. constructor; [|constructor]. split; [exact T1|]. cbn [In] in *. tauto.
  - intros x Hx [Q|[]]. apply (HN x Hx). left. exact Q.
  - split; [reflexivity|]. split; [reflexivity|]. split; [exact ND1|]. intros i Hi. change (zlen [b; c]) with 2 in Hi. assert (i = 0 \/ i = 1) as [-> | ->] by lia; assumption.
  - constructor.
  - intros x Hx Q. apply (HN x Hx). right. exact Q.
Qed.

Example C62_race : exists mc O ck gk, mc_ok mc /\ setup (f64_arith mc) O mid mid_key tiny_rk tiny_rb ck /\
  exists e (m : mem (FP O)) a b c t, reachable O mid e m /\ mholds O mid mid_key ck gk 5 m e [a; b; c] [t] ([12; bit_pos 5 true; bit_pos 5 true], [fun _ => 8], [17; 17; 17]) /\
  (exists r m', malone mid ck gk 5 (mix_gate Gnand e b c) m = Ok ([b; c; r], [], m') /\ DecryptBool 3 (tm m' r) [1; 0; 1] = Ok false) /\
  exists sched x y m', together [mwork mid ck gk 5 (mix_lut e a t); mwork mid ck gk 5 (mix_gate Gnand e b c)] m sched = Some (Ok ([([a; x], [t]); ([b; c; y], [])], m')) /\
    DecryptBool 3 (tm m' y) [1; 0; 1] = Ok true.
Proof.
  destruct (setup_exists (f64_arith mc0) mid mid_key tiny_rk tiny_rb mid_params ltac:(cbn; lia) mid_key_ok) as (O & ck & S).
  destruct mid_worst as (W1 & _ & _).
  destruct (C62_start _ O mid mid_key tiny_rk tiny_rb ck S 5 ltac:(lia) [race_job] [12; 8; 8] [fun _ => 8] tiny_rk 16 ltac:(cbn; lia) ltac:(lia)) as (gk & ts & m & (Hr & _) & F).
  { intro i. apply small_noise_le. }
  { repeat (constructor; [cbn; lia|]). constructor. }
  { split; [|repeat constructor]. constructor; [|constructor]. cbn. split; [repeat (constructor; [cbn; lia|]); constructor|]. split; repeat (constructor; [lia|]); constructor. }
  inversion F as [|t0 ? ? ? [_ H0] F1]; subst. inversion F1; subst. inversion Hr as [|? ? Hr0 _]; subst.
  destruct t0 as [e p ws tt]. cbn [mw_ev mw_cts mw_tabs] in *.
  change (mj_vals [12; 8; 8] [fun _ => 8] (16 + 1) race_job) with ([12; bit_pos 5 true; bit_pos 5 true], [fun _ : Z => 8], [17; 17; 17]) in H0.
  assert (Hl: zlen ws = 3 /\ zlen tt = 1).
  { destruct H0 as [[(A1 & _) A2] _]. split; [symmetry; exact A1|]. inversion A2 as [|? ? ? ? _ A3]; subst. inversion A3; subst. reflexivity. }
  destruct ws as [|a [|b [|c [|? ?]]]]; unfold zlen in Hl; cbn [length] in Hl; try lia. destruct tt as [|t [|? ?]]; cbn [length] in Hl; try lia.
  destruct (holds_some _ _ _ _ _ _ _ _ _ _ _ _ _ _ _ _ _ _ _ H0) as [Ha Hb].
  exists mc0, O, ck, gk. split; [exact mc0_ok|]. split; [exact S|]. exists e, m, a, b, c, t. split; [exact Hr0|]. split; [exact H0|].
  assert (RT: 17 + round_err mid mid_key < 2 ^ (30 - 5) /\ worst_noise mid mid_key 16 16 29 0 < 2 ^ (30 - 5)) by (vm_compute; split; reflexivity).
  destruct RT as [RT1 RT2]. split.
  - destruct Hb as ([Wb Tb] & HK & HN).
    destruct (C61_program_float64 mc0 O mid mid_key tiny_rk tiny_rb ck 16 16 29 0 e gk 5
      [MGate (IGate Gnand 0 1)] m [b; c] [] [bit_pos 5 true; bit_pos 5 true] [] [17; 17] [bit_pos 5 true; bit_pos 5 true; bit_pos 5 false] [] [17; 17; worst_noise mid mid_key 16 16 29 0]
      mc0_ok S W1 mid_key_noise ltac:(lia) ltac:(lia) ltac:(lia) ltac:(cbn; lia)) as (nw & ts' & m' & E0 & HW & HT & _ & D & _); try assumption.
    + apply HN. left. reflexivity.
    + apply HN. right. reflexivity.
    + reflexivity.
    + vm_compute. reflexivity.
    + destruct HW as (L1 & _). rewrite zlen_app in L1. change (zlen [b; c]) with 2 in L1. change (zlen [bit_pos 5 true; bit_pos 5 true; bit_pos 5 false]) with 3 in L1.
      destruct nw as [|r [|? ?]]; unfold zlen in L1; cbn [length] in L1; try lia. exists r, m'. split.
      * unfold malone. cbn [mix_gate mw_ev mw_calls mw_cts mw_tabs]. rewrite E0. inversion HT. reflexivity.
      * apply (D 2 r false _ eq_refl eq_refl eq_refl). lia.
  - destruct (C62_refuted mc0 O mid mid_key tiny_rk tiny_rb ck mc0_ok S 16 16 29 0 W1 mid_key_noise ltac:(lia) ltac:(lia) ltac:(lia) gk 5 ltac:(cbn; lia)
      Gnand e m a b c t _ _ _ _ _ _ _ Hr0 Ha Hb ltac:(lia) RT1 RT2) as (sched & x & y & m' & H & _ & _ & D).
    exists sched, x, y, m'. split; [exact H|]. apply D. reflexivity.
Qed.

(** * Property C59: programs over encrypted messages on several goroutines

    ConcLut.v writes the operations behind a programmable bootstrap and the
    linear operations as programs of single memory accesses, as Conc.v does for
    the gates.  The vocabulary is in ConcLutSpec.v. *)
From Coq Require Import Lia List.
From Verif Require Import GoBase GoFacts GoMem F64 Utils Spec Params Key Tlwe TlweMem Poly Fft FftTabErr Trlwe Trgsw Lut Evaluator CloudKey Gates
  RunSpec LutSpec LutProg RunProps RunWorst Conc ConcLut ConcSpec ConcLutSpec ConcLutFacts ConcLutProps ConcLutStart ConcLutRace Tiny TinyRun PropLut.
Import ListNotations.
Local Open Scope Z_scope.

(** A goroutine that runs alone does what the sequential functions do. *)
Theorem C59_alone : forall O pr (ck : CloudKey O) k t (m : mem (FP O)), run (lwork pr ck k t) m = lalone pr ck k t m.
Proof. intros. apply run_lexec. Qed.
Print Assumptions C59_alone.

(** Any number of goroutines, each with an evaluator to itself, sharing the
    cloud key and any ciphertexts and tables none of them writes to, under every
    schedule: nothing panics and every goroutine gets exactly the ciphertexts
    and tables it gets alone.  What nobody writes to keeps its contents. *)
Theorem C59_separate : forall (R : arith) O pr sk rk rb ck, setup R O pr sk rk rb ck ->
  forall k (ts : list lworker) (m : mem (FP O)), lseparate pr ts m ->
  Forall (fun t => exists r, lalone pr ck k t m = Ok r) ts ->
  forall sched r, together (map (lwork pr ck k) ts) m sched = Some r ->
  exists ls m', r = Ok (ls, m') /\
    Forall2 (fun t l => exists w mt, lalone pr ck k t m = Ok (w, mt) /\ contents m' l = contents mt w) ts ls /\
    (forall x, loutside ts m x -> (forall t, In t ts -> ~ ltarget t x) -> tm m' x = tm m x).
Proof. exact lc_same. Qed.
Print Assumptions C59_separate.

(** No schedule gets stuck. *)
Theorem C59_ends : forall (R : arith) O pr sk rk rb ck, setup R O pr sk rk rb ck ->
  forall k (ts : list lworker) (m : mem (FP O)), lseparate pr ts m ->
  Forall (fun t => exists r, lalone pr ck k t m = Ok r) ts ->
  forall sched, lturns pr ck k ts m sched -> exists r, together (map (lwork pr ck k) ts) m sched = Some r.
Proof. exact lc_ends. Qed.
Print Assumptions C59_ends.

Theorem C59_turns : forall O pr (ck : CloudKey O) k (ts : list lworker) (m : mem (FP O)), exists sched, lturns pr ck k ts m sched.
Proof. exact @lturns_exist. Qed.
Print Assumptions C59_turns.

(** In terms of messages: under every schedule every ciphertext of every
    goroutine decrypts to what its program computes on messages, if the noise
    bounds of the program allow each of its bootstraps.  The goroutines are
    again separate and can be given more calls. *)
Theorem C59_messages : forall (R : arith) O pr sk rk rb ck, setup R O pr sk rk rb ck ->
  forall k, 0 <= k < g_NBIT pr -> forall T Rd (ts : list lworker) (vs : list lvals) (m : mem (FP O)) sched r, lseparate pr ts m ->
  Forall2 (fun t v => lholds O pr sk k m (lw_ev t) (lw_cts t) (lw_tabs t) v /\ (exists v', lmeans k T Rd (lw_calls t) v = Ok v') /\
    forall f c, lboots O pr ck (lw_ev t) k (lw_calls t) (lw_cts t) (lw_tabs t) (snd (fst v)) m f c ->
      rounding pr (KeyLv0 sk) c Rd /\ gen_noise O pr sk ck f (2 ^ k) c T) ts vs ->
  together (map (lwork pr ck k) ts) m sched = Some r ->
  exists ls m', r = Ok (ls, m') /\ zlen ls = zlen ts /\
    (forall i t v v', get ts i = Ok t -> get vs i = Ok v -> lmeans k T Rd (lw_calls t) v = Ok v' -> exists l, get ls i = Ok l /\
       lholds O pr sk k m' (lw_ev t) (fst l) (snd l) v' /\ ldecrypts O pr sk k m' (fst l) v' /\ forall x, In x (fst l) -> loutside ts m' x) /\
    lseparate pr ts m' /\
    (forall x, loutside ts m x -> loutside ts m' x /\ ((forall t, In t ts -> ~ ltarget t x) -> tm m' x = tm m x)).
Proof. exact lc_messages. Qed.
Print Assumptions C59_messages.

Theorem C59_messages_float64 : forall mc O pr sk rk rb ck, mc_ok mc -> setup (f64_arith mc) O pr sk rk rb ck ->
  forall Bb Bk d d', fft_error_within pr d d' -> key_noise_within pr rk rb Bb Bk -> 0 <= Bb -> 0 <= Bk -> 0 <= d' ->
  forall k, 0 <= k < g_NBIT pr -> let T := worst_noise pr sk Bb Bk d d' in let Rd := round_err pr sk in
  forall (ts : list lworker) (vs : list lvals) (m : mem (FP O)) sched r, lseparate pr ts m ->
  Forall2 (fun t v => lholds O pr sk k m (lw_ev t) (lw_cts t) (lw_tabs t) v /\ exists v', lmeans k T Rd (lw_calls t) v = Ok v') ts vs ->
  together (map (lwork pr ck k) ts) m sched = Some r ->
  exists ls m', r = Ok (ls, m') /\ zlen ls = zlen ts /\
    (forall i t v v', get ts i = Ok t -> get vs i = Ok v -> lmeans k T Rd (lw_calls t) v = Ok v' -> exists l, get ls i = Ok l /\
       lholds O pr sk k m' (lw_ev t) (fst l) (snd l) v' /\ ldecrypts O pr sk k m' (fst l) v' /\ forall x, In x (fst l) -> loutside ts m' x) /\
    lseparate pr ts m' /\
    (forall x, loutside ts m x -> loutside ts m' x /\ ((forall t, In t ts -> ~ ltarget t x) -> tm m' x = tm m x)).
Proof. exact lc_float64. Qed.
Print Assumptions C59_messages_float64.

(** Such goroutines exist for every key, all messages and tables, and all
    programs: one new evaluator each, the ciphertexts and tables shared but for
    those one of them writes to. *)
Theorem C59_start : forall (R : arith) O pr sk rk rb ck, setup R O pr sk rk rb ck ->
  forall k, 0 <= k -> forall (js : list ljob) xs fs (r : Z -> enc_rand) E, k < 20 -> (forall i, Z.abs (centered (F64ToTorus (er_noise (r i)))) <= E) ->
  Forall (fun x => 0 <= x < 2 ^ k) xs -> ljobs_ok (zlen xs) (zlen fs) js ->
  exists (ts : list lworker) (m : mem (FP O)), lseparate pr ts m /\
    Forall2 (fun t j => lw_calls t = lj_calls j /\ lholds O pr sk k m (lw_ev t) (lw_cts t) (lw_tabs t) (lj_vals xs fs (E + 1) j)) ts js.
Proof. exact lc_start. Qed.
Print Assumptions C59_start.

(** Two calls of BootstrapLUT on one evaluator: for all inputs, tables and
    earlier calls there is a schedule under which both return an encryption of
    the first call's value. *)
Theorem C59_refuted : forall (R : arith) O pr sk rk rb ck, setup R O pr sk rk rb ck ->
  forall k, 0 <= k < g_NBIT pr -> forall T Rd e (m : mem (FP O)) a c la lc va vc f g E F, reachable O pr e m ->
  lholds O pr sk k m e [a] [la] ([va], [f], [E]) -> lholds O pr sk k m e [c] [lc] ([vc], [g], [F]) -> 0 <= va < 2 ^ k ->
  E + Rd < 2 ^ (30 - k) -> T < 2 ^ (30 - k) -> rounding pr (KeyLv0 sk) (tm m a) Rd -> gen_noise O pr sk ck f (2 ^ k) (tm m a) T ->
  exists sched x y m', together [lwork pr ck k (one_lut e a la); lwork pr ck k (one_lut e c lc)] m sched = Some (Ok ([([a; x], [la]); ([c; y], [lc])], m')) /\
    DecryptLWEMessage (lv0_N pr) (tm m' x) (2 ^ k) (KeyLv0 sk) = Ok (f va mod 2 ^ k) /\
    DecryptLWEMessage (lv0_N pr) (tm m' y) (2 ^ k) (KeyLv0 sk) = Ok (f va mod 2 ^ k).
Proof. exact lrace_decrypts. Qed.
Print Assumptions C59_refuted.

Theorem C59_refuted_float64 : forall mc O pr sk rk rb ck Bb Bk d d' k e (m : mem (FP O)) a c la lc va vc f g E F, mc_ok mc -> setup (f64_arith mc) O pr sk rk rb ck ->
  fft_error_within pr d d' -> key_noise_within pr rk rb Bb Bk -> 0 <= Bb -> 0 <= Bk -> 0 <= d' -> 0 <= k < g_NBIT pr ->
  reachable O pr e m -> lholds O pr sk k m e [a] [la] ([va], [f], [E]) -> lholds O pr sk k m e [c] [lc] ([vc], [g], [F]) -> 0 <= va < 2 ^ k ->
  E + round_err pr sk < 2 ^ (30 - k) -> worst_noise pr sk Bb Bk d d' < 2 ^ (30 - k) ->
  exists sched x y m', together [lwork pr ck k (one_lut e a la); lwork pr ck k (one_lut e c lc)] m sched = Some (Ok ([([a; x], [la]); ([c; y], [lc])], m')) /\
    DecryptLWEMessage (lv0_N pr) (tm m' x) (2 ^ k) (KeyLv0 sk) = Ok (f va mod 2 ^ k) /\
    DecryptLWEMessage (lv0_N pr) (tm m' y) (2 ^ k) (KeyLv0 sk) = Ok (f va mod 2 ^ k).
Proof. exact lrace_float64. Qed.
Print Assumptions C59_refuted_float64.

(** ** Concrete cases

    Encrypted 3, 10 and 7 and a table for squares are shared by three
    goroutines.  The first squares 3 and adds 10; the second doubles 10 into the
    ciphertext of 7, which the others are not given, and adds 10; the third
    squares -3. *)
Definition demo_jobs : list ljob :=
  [{| lj_calls := [LLut 0 0; LAdd 2 1]; lj_cts := [0; 1]; lj_tabs := [0] |};
   {| lj_calls := [LFuncInto (fun x => 2 * x) 0 1; LAdd 1 0]; lj_cts := [1; 2]; lj_tabs := [] |};
   {| lj_calls := [LNeg 0; LLut 0 1]; lj_cts := [0]; lj_tabs := [0] |}].
Lemma demo_jobs_ok : ljobs_ok 3 1 demo_jobs.
Proof.
  assert (W0: forall p, ~ lj_writes {| lj_calls := [LLut 0 0; LAdd 2 1]; lj_cts := [0; 1]; lj_tabs := [0] |} p) by (intros p (o & [] & _)).
  assert (W2: forall p, ~ lj_writes {| lj_calls := [LNeg 0; LLut 0 1]; lj_cts := [0]; lj_tabs := [0] |} p) by (intros p (o & [] & _)).
  assert (W1: forall p, lj_writes {| lj_calls := [LFuncInto (fun x => 2 * x) 0 1; LAdd 1 0]; lj_cts := [1; 2]; lj_tabs := [] |} p -> p = 2).
  { intros p (o & [<-|[]] & G). injection G as <-. reflexivity. }
  split.
  - repeat (first [apply Forall_cons|apply Forall_nil]); cbn [lj_cts lj_tabs]; (split; [repeat (constructor; [cbn; lia|]); constructor|]); split; repeat (constructor; [lia|]); constructor.
  - repeat (first [apply FOP_cons|apply FOP_nil|apply Forall_cons|apply Forall_nil]); intro p; (split; intros [H1 H2]);
      try (apply W0 in H1; exact H1); try (apply W2 in H1; exact H1); apply W1 in H1; subst p; cbn in H2; lia.
Qed.
Definition square (x : Z) : Z := x * x.
Lemma demo_means : let T := worst_noise mid mid_key 16 16 29 0 in let Rd := round_err mid mid_key in
  Forall2 (fun j w => exists fs es, lmeans 5 T Rd (lj_calls j) (lj_vals [3; 10; 7] [square] 17 j) = Ok (w, fs, es) /\ Forall (fun E => E < 2 ^ (30 - 5)) es)
    demo_jobs [[3; 10; 9; 19]; [10; 20; 30]; [3; 61; 55]].
Proof.
  intros T Rd. set (U := T). vm_compute in U. subst U. set (V := Rd). vm_compute in V.
  repeat (constructor; [do 2 eexists; split; [reflexivity|repeat (constructor; [reflexivity|]); constructor]|]). constructor.
Qed.

Example C59_full : exists mc O ck, mc_ok mc /\ setup (f64_arith mc) O mid mid_key tiny_rk tiny_rb ck /\
  exists (ts : list lworker) (m : mem (FP O)), lseparate mid ts m /\ map lw_calls ts = map lj_calls demo_jobs /\
  (exists sched r, together (map (lwork mid ck 5) ts) m sched = Some r) /\
  forall sched r, together (map (lwork mid ck 5) ts) m sched = Some r -> exists l0 l1 l2 m', r = Ok ([l0; l1; l2], m') /\
    let values l := map (fun x => DecryptLWEMessage 3 (tm m' x) 32 [1; 0; 1]) (fst l) in
    values l0 = [Ok 3; Ok 10; Ok 9; Ok 19] /\ values l1 = [Ok 10; Ok 20; Ok 30] /\ values l2 = [Ok 3; Ok 29; Ok 23].
Proof.
  destruct (setup_exists (f64_arith mc0) mid mid_key tiny_rk tiny_rb mid_params ltac:(cbn; lia) mid_key_ok) as (O & ck & S).
  exists mc0, O, ck. split; [exact mc0_ok|]. split; [exact S|]. destruct mid_worst as (W1 & _ & _).
  destruct (C59_start _ O mid mid_key tiny_rk tiny_rb ck S 5 ltac:(lia) demo_jobs [3; 10; 7] [square] tiny_rk 16 ltac:(lia)) as (ts & m & Hs & F).
  { intro i. apply small_noise_le. }
  { repeat (constructor; [cbn; lia|]). constructor. }
  { exact demo_jobs_ok. }
  exists ts, m. split; [exact Hs|].
  pose proof demo_means as DM. cbv zeta in DM. set (T := worst_noise mid mid_key 16 16 29 0) in *. set (Rd := round_err mid mid_key) in *.
  inversion DM as [|? ? ? ? (f0 & e0 & M0 & B0) DM1]; subst. inversion DM1 as [|? ? ? ? (f1 & e1 & M1 & B1) DM2]; subst. inversion DM2 as [|? ? ? ? (f2 & e2 & M2 & B2) _]; subst.
  inversion F as [|t0 ? ? ? [C0 H0] F1]; subst. inversion F1 as [|t1 ? ? ? [C1 H1] F2]; subst. inversion F2 as [|t2 ? ? ? [C2 H2] F3]; subst. inversion F3; subst.
  split; [cbn [map]; rewrite C0, C1, C2; reflexivity|].
  set (vs := map (lj_vals [3; 10; 7] [square] 17) demo_jobs).
  assert (HV: Forall2 (fun t v => lholds O mid mid_key 5 m (lw_ev t) (lw_cts t) (lw_tabs t) v /\ exists v', lmeans 5 T Rd (lw_calls t) v = Ok v') [t0; t1; t2] vs).
  { constructor; [split; [exact H0|rewrite C0; eexists; exact M0]|]. constructor; [split; [exact H1|rewrite C1; eexists; exact M1]|].
    constructor; [split; [exact H2|rewrite C2; eexists; exact M2]|constructor]. }
  split.
  - destruct (C59_turns O mid ck 5 [t0; t1; t2] m) as [sched Ht]. exists sched. eapply C59_ends; [exact S|exact Hs| |exact Ht].
    pose proof (lc_float64_alone mc0 O mid mid_key tiny_rk tiny_rb ck mc0_ok S 16 16 29 0 W1 mid_key_noise ltac:(lia) ltac:(lia) ltac:(lia) 5 ltac:(cbn; lia) _ vs m Hs HV) as A.
    clear - A. induction A as [|t v ts vs (v' & w & mt & _ & E & _) A IH]; constructor; [exists (w, mt); exact E|exact IH].
  - intros sched r Er.
    destruct (C59_messages_float64 mc0 O mid mid_key tiny_rk tiny_rb ck mc0_ok S 16 16 29 0 W1 mid_key_noise ltac:(lia) ltac:(lia) ltac:(lia) 5 ltac:(cbn; lia)
      _ vs m sched r Hs HV Er) as (ls & m' & -> & Zl & H & _).
    destruct (H 0 t0 _ _ eq_refl eq_refl ltac:(rewrite C0; exact M0)) as (l0 & G0 & L0 & D0 & _).
    destruct (H 1 t1 _ _ eq_refl eq_refl ltac:(rewrite C1; exact M1)) as (l1 & G1 & L1 & D1 & _).
    destruct (H 2 t2 _ _ eq_refl eq_refl ltac:(rewrite C2; exact M2)) as (l2 & G2 & L2 & D2 & _).
    destruct ls as [|x0 [|x1 [|x2 [|? ?]]]]; unfold zlen in Zl; cbn [length] in Zl; try lia.
    injection G0 as ->. injection G1 as ->. injection G2 as ->. exists l0, l1, l2, m'. split; [reflexivity|].
    split; [exact (decrypts_all _ _ _ _ _ _ _ _ _ _ _ L0 D0 B0)|]. split; [exact (decrypts_all _ _ _ _ _ _ _ _ _ _ _ L1 D1 B1)|exact (decrypts_all _ _ _ _ _ _ _ _ _ _ _ L2 D2 B2)].
Qed.

(** The square of 3 and the double of 10 on one evaluator: both calls return
    encryptions of 9. *)
Example C59_race : exists mc O ck, mc_ok mc /\ setup (f64_arith mc) O mid mid_key tiny_rk tiny_rb ck /\
  exists e (m : mem (FP O)) a c la lc, reachable O mid e m /\
    lholds O mid mid_key 5 m e [a] [la] ([3], [square], [17]) /\ lholds O mid mid_key 5 m e [c] [lc] ([10], [Z.mul 2], [17]) /\
  exists sched x y m', together [lwork mid ck 5 (one_lut e a la); lwork mid ck 5 (one_lut e c lc)] m sched = Some (Ok ([([a; x], [la]); ([c; y], [lc])], m')) /\
    DecryptLWEMessage 3 (tm m' x) 32 [1; 0; 1] = Ok 9 /\ DecryptLWEMessage 3 (tm m' y) 32 [1; 0; 1] = Ok 9.
Proof.
  destruct (setup_exists (f64_arith mc0) mid mid_key tiny_rk tiny_rb mid_params ltac:(cbn; lia) mid_key_ok) as (O & ck & S).
  exists mc0, O, ck. split; [exact mc0_ok|]. split; [exact S|]. destruct mid_worst as (W1 & _ & _).
  destruct (C59_start _ O mid mid_key tiny_rk tiny_rb ck S 5 ltac:(lia) [{| lj_calls := []; lj_cts := [0; 1]; lj_tabs := [0; 1] |}] [3; 10] [square; Z.mul 2] tiny_rk 16 ltac:(lia)) as (ts & m & Hs & F).
  { intro i. apply small_noise_le. }
  { repeat (constructor; [cbn; lia|]). constructor. }
  { split; [|repeat constructor]. constructor; [|constructor]. cbn [lj_cts lj_tabs]. split; [repeat (constructor; [cbn; lia|]); constructor|]. split; repeat (constructor; [cbn; lia|]); constructor. }
  inversion F as [|t ? ? ? [_ H0] F1]; subst. inversion F1; subst. destruct H0 as [(Lw & _ & ND & HW) HT].
  cbn [lj_vals lj_cts lj_tabs map] in *. destruct (lw_cts t) as [|a [|c [|? ?]]]; try (unfold zlen in Lw; cbn [length] in Lw; lia).
  inversion HT as [|la ? ? ? [T1 [N1 N2]] HT1]; subst. inversion HT1 as [|lc ? ? ? [T2 [N3 N4]] HT2]; subst. inversion HT2; subst.
  destruct Hs as [Hr _]. inversion Hr as [|? ? Hr0 _]; subst. exists (lw_ev t), m, a, c, la, lc. split; [exact Hr0|].
  assert (I: forall (b : Z) (l : list Z) i, 0 <= i < zlen [b] -> i = 0) by (intros b _ i Hi; unfold zlen in Hi; cbn [length] in Hi; lia).
  assert (HA: lholds O mid mid_key 5 m (lw_ev t) [a] [la] ([3], [square], [17])).
  { split; [|constructor; [|constructor]].
    - split; [reflexivity|]. split; [reflexivity|]. split; [repeat constructor; intros []|]. intros i Hi. rewrite (I a [] i Hi). exact (HW 0 ltac:(unfold zlen; cbn [length]; lia)).
    - split; [exact T1|]. split; intros [X|[]]; [apply N1|apply N2]; left; exact X. }
  assert (HC: lholds O mid mid_key 5 m (lw_ev t) [c] [lc] ([10], [Z.mul 2], [17])).
  { split; [|constructor; [|constructor]].
    - split; [reflexivity|]. split; [reflexivity|]. split; [repeat constructor; intros []|]. intros i Hi. rewrite (I c [] i Hi). exact (HW 1 ltac:(unfold zlen; cbn [length]; lia)).
    - split; [exact T2|]. split; intros [X|[]]; [apply N3|apply N4]; right; left; exact X. }
  split; [exact HA|]. split; [exact HC|].
  exact (C59_refuted_float64 mc0 O mid mid_key tiny_rk tiny_rb ck 16 16 29 0 5 (lw_ev t) m a c la lc 3 10 square (Z.mul 2) 17 17 mc0_ok S W1 mid_key_noise
    ltac:(lia) ltac:(lia) ltac:(lia) ltac:(cbn; lia) Hr0 HA HC ltac:(cbn; lia) ltac:(vm_compute; reflexivity) ltac:(vm_compute; reflexivity)).
Qed.

(** * A goroutine for each client, some clients hostile

    C67: the server runs a goroutine with an evaluator of its own for each
    client.  Some clients send cloud keys and ciphertexts that contain
    anything, of the right lengths.  Under every schedule no goroutine panics,
    and every client gets exactly what it gets when nothing else runs.  The
    vocabulary is in HostileSpec.v and ConcHostSpec.v. *)
From Coq Require Import Lia List.
From Flocq Require Import BinarySingleNaN.
From Verif Require Import GoBase GoMem F64 Utils Spec Params Key Tlwe TlweMem Poly Fft FftTabErr Trlwe Trgsw Lut Evaluator CloudKey Gates RunSpec LutSpec Circuit LutProg MixProg
  Conc ConcLut ConcSpec ConcLutSpec ConcMixSpec HostileSpec ConcHostSpec
  Tiny TinyRun RunWorst PropLut PropMix PropHostile LutProgProps HostileProps ConcMixProps ConcHostProps ConcHostStart.
Import ListNotations.
Local Open Scope Z_scope.

(** ** C67 *)

(** Nothing panics, and every client gets the numbers it gets alone.  What no
    client's program writes to keeps its contents. *)
Theorem C67_separate : forall R tw twi pr (cs : list (client R tw twi)) (m : mem (FP (fft_ops R tw twi))) sched r,
  good_params pr -> transform R tw twi pr -> crowd pr cs m -> Forall (client_shape pr m) cs ->
  together (map (serve pr) cs) m sched = Some r ->
  exists ls m', r = Ok (ls, m') /\
    Forall2 (fun c l => exists w mt, served pr c m = Ok (w, mt) /\ contents m' l = contents mt w) cs ls /\
    crowd pr cs m' /\ (forall x, free_of cs m x -> (forall c, In c cs -> ~ cl_target c x) -> tm m' x = tm m x).
Proof. exact cr_separate. Qed.
Print Assumptions C67_separate.

(** No schedule gets stuck. *)
Theorem C67_ends : forall R tw twi pr, good_params pr -> transform R tw twi pr ->
  forall (cs : list (client R tw twi)) (m : mem (FP (fft_ops R tw twi))), crowd pr cs m -> Forall (client_shape pr m) cs ->
  forall sched, cl_turns pr cs m sched -> exists r, together (map (serve pr) cs) m sched = Some r.
Proof. exact cl_ends. Qed.
Print Assumptions C67_ends.

Theorem C67_turns : forall R tw twi pr (cs : list (client R tw twi)) (m : mem (FP (fft_ops R tw twi))), exists sched, cl_turns pr cs m sched.
Proof. exact cr_turns. Qed.
Print Assumptions C67_turns.

(** A client with keys from key generation, encryptions, and a program whose
    noise bounds allow its calls is one of those above. *)
Theorem C67_client : forall R tw twi pr sk rk rb T v v' (c : client R tw twi) (m : mem (FP (fft_ops R tw twi))), transform R tw twi pr ->
  setup R (fft_ops R tw twi) pr sk rk rb (cl_key c) -> 0 <= cl_bits c ->
  mholds _ pr sk (cl_key c) (cl_gates c) (cl_bits c) m (cl_ev c) (mw_cts (cl_work c)) (mw_tabs (cl_work c)) v ->
  mmeans (cl_bits c) T (round_err pr sk) (mw_calls (cl_work c)) v = Ok v' -> client_shape pr m c.
Proof. exact cr_client. Qed.
Print Assumptions C67_client.

(** Whatever the other clients send and whenever their calls run, the
    ciphertexts of such a client decrypt to what its program computes. *)
Theorem C67_honest : forall R tw twi pr sk rk rb T v v' (cs : list (client R tw twi)) (m : mem (FP (fft_ops R tw twi))) sched r i c,
  transform R tw twi pr -> crowd pr cs m -> Forall (client_shape pr m) cs ->
  together (map (serve pr) cs) m sched = Some r -> get cs i = Ok c ->
  setup R (fft_ops R tw twi) pr sk rk rb (cl_key c) -> 2 <= cl_bits c < g_NBIT pr ->
  mholds _ pr sk (cl_key c) (cl_gates c) (cl_bits c) m (cl_ev c) (mw_cts (cl_work c)) (mw_tabs (cl_work c)) v ->
  mmeans (cl_bits c) T (round_err pr sk) (mw_calls (cl_work c)) v = Ok v' ->
  (forall f x, zlen x = lv0_N pr + 1 -> mix_noise _ pr (cl_key c) (cl_bits c) sk f x T) ->
  exists ls m' l, r = Ok (ls, m') /\ crowd pr cs m' /\ get ls i = Ok l /\
    mholds _ pr sk (cl_key c) (cl_gates c) (cl_bits c) m' (cl_ev c) (fst l) (snd l) v' /\
    mdecrypts _ pr sk (cl_bits c) m' (fst l) v' /\ forall x, In x (fst l) -> free_of cs m' x.
Proof. exact cr_honest. Qed.
Print Assumptions C67_honest.

(** With float64 arithmetic and the worst-case noise of a bootstrap. *)
Theorem C67_honest_float64 : forall mc tw twi pr sk rk rb Bb Bk d d' v v' (cs : list (client (f64_arith mc) tw twi)) (m : mem (FP (fft_ops (f64_arith mc) tw twi))) sched r i c,
  mc_ok mc -> transform (f64_arith mc) tw twi pr -> crowd pr cs m -> Forall (client_shape pr m) cs ->
  together (map (serve pr) cs) m sched = Some r -> get cs i = Ok c ->
  setup (f64_arith mc) (fft_ops (f64_arith mc) tw twi) pr sk rk rb (cl_key c) -> 2 <= cl_bits c < g_NBIT pr ->
  fft_error_within pr d d' -> key_noise_within pr rk rb Bb Bk -> 0 <= Bb -> 0 <= Bk -> 0 <= d' ->
  mholds _ pr sk (cl_key c) (cl_gates c) (cl_bits c) m (cl_ev c) (mw_cts (cl_work c)) (mw_tabs (cl_work c)) v ->
  mmeans (cl_bits c) (worst_noise pr sk Bb Bk d d') (round_err pr sk) (mw_calls (cl_work c)) v = Ok v' ->
  exists ls m' l, r = Ok (ls, m') /\ crowd pr cs m' /\ get ls i = Ok l /\
    mholds _ pr sk (cl_key c) (cl_gates c) (cl_bits c) m' (cl_ev c) (fst l) (snd l) v' /\
    mdecrypts _ pr sk (cl_bits c) m' (fst l) v' /\ forall x, In x (fst l) -> free_of cs m' x.
Proof. exact cr_float64. Qed.
Print Assumptions C67_honest_float64.

(** For any number of clients, whatever they send, the server can be set up so:
    a new evaluator for each, its key and ciphertexts in buffers of their own. *)
Theorem C67_start : forall R tw twi pr, good_params pr -> transform R tw twi pr -> forall qs : list (request R tw twi), Forall (request_ok pr) qs ->
  exists cs (m : mem (FP (fft_ops R tw twi))), crowd pr cs m /\ Forall (client_shape pr m) cs /\ Forall2 (sent m) cs qs.
Proof. exact cr_start. Qed.
Print Assumptions C67_start.

(** ** A case

    Two goroutines.  One serves a client whose bootstrapping key is NaN
    throughout and whose ciphertexts are any two slices of the right length,
    the other an honest client that decides about encrypted 12 and 7 (C61).
    Under every schedule the honest client gets the right bits and message. *)
Example C67_case : forall a b : list Z, zlen a = 4 -> zlen b = 4 -> exists mc tw twi ck, mc_ok mc /\ transform (f64_arith mc) tw twi mid /\
  setup (f64_arith mc) (fft_ops (f64_arith mc) tw twi) mid mid_key tiny_rk tiny_rb ck /\
  exists (bad good : client (f64_arith mc) tw twi) m,
    cl_key bad = constant_key (f64_arith mc) tw twi mid B754_nan 12345 /\ mw_calls (cl_work bad) = nuisance /\ map (tm m) (mw_cts (cl_work bad)) = [a; b] /\
    cl_key good = ck /\ mw_calls (cl_work good) = decide /\
    map (fun x => DecryptLWEMessage 3 (tm m x) 32 [1; 0; 1]) (mw_cts (cl_work good)) = map Ok [12; 7] /\
    (exists sched r, together (map (serve mid) [bad; good]) m sched = Some r) /\
    forall sched r, together (map (serve mid) [bad; good]) m sched = Some r -> exists l0 l m', r = Ok ([l0; l], m') /\
      map (fun i => bind (get (fst l) i) (fun x => DecryptBool 3 (tm m' x) [1; 0; 1])) [5; 9; 10; 12] = map Ok [false; true; true; true] /\
      bind (get (fst l) 15) (fun x => DecryptLWEMessage 3 (tm m' x) 32 [1; 0; 1]) = Ok 4.
Proof.
  intros a b Ha Hb. destruct (h_transform (f64_arith mc0) mid mid_params ltac:(cbn; lia)) as (tw & twi & TR).
  destruct (h_setup (f64_arith mc0) tw twi mid mid_key tiny_rk tiny_rb mid_params TR mid_key_ok) as (ck & S).
  exists mc0, tw, twi, ck. split; [exact mc0_ok|]. split; [exact TR|]. split; [exact S|].
  set (bk := constant_key (f64_arith mc0) tw twi mid B754_nan 12345).
  assert (SB: key_shape (f64_arith mc0) tw twi mid bk) by exact (h_constant (f64_arith mc0) tw twi mid B754_nan 12345 mid_params TR).
  pose proof (h_keys _ _ _ _ _ _ _ _ TR S) as SG. destruct mid_worst as (W1 & _ & _).
  destruct (C61_start _ _ mid mid_key tiny_rk tiny_rb ck S ltac:(cbn; lia) 5 [12; 7] tiny_rk 16 ltac:(lia)) as (e' & m' & gk' & w & _ & _ & _ & _ & HW).
  { repeat (constructor; [cbn; lia|]). constructor. }
  { intro i. apply small_noise_le. }
  assert (Lw: exists x y, w = [x; y]).
  { destruct HW as (L & _). unfold zlen in L. apply Nat2Z.inj in L. destruct w as [|x [|y [|? ?]]]; try discriminate L. eauto. }
  destruct Lw as (x' & y' & ->). destruct HW as (_ & _ & _ & HW).
  destruct (HW 0 ltac:(cbn; lia)) as (_ & X1 & X2). destruct (HW 1 ltac:(cbn; lia)) as (_ & Y1 & Y2).
  change (zn [x'; y'] 0) with x' in X2. change (zn [x'; y'] 1) with y' in Y2.
  destruct (C67_start (f64_arith mc0) tw twi mid mid_params TR
    [{| rq_key := bk; rq_bits := 5; rq_calls := nuisance; rq_cts := [a; b] |}; {| rq_key := ck; rq_bits := 5; rq_calls := decide; rq_cts := [tm m' x'; tm m' y'] |}])
    as (cs & m & HC & HA & F).
  { constructor; [|constructor; [|constructor]]; (split; [assumption|]); (split; [cbn; lia|]); split.
    - constructor; [exact Ha|constructor; [exact Hb|constructor]].
    - cbn. unfold at_hand. lia.
    - constructor; [exact (proj1 (proj1 X2))|constructor; [exact (proj1 (proj1 Y2))|constructor]].
    - cbn. unfold at_hand. lia. }
  inversion F as [|bad q l1 l2 (A1 & A2 & A3 & A4 & A5 & A6) F1]; subst. inversion F1 as [|good q l3 l4 (B1 & B2 & B3 & B4 & B5 & B6) F2]; subst. inversion F2; subst.
  cbn [rq_key rq_bits rq_calls rq_cts] in *.
  assert (Lg: exists x y, mw_cts (cl_work good) = [x; y] /\ tm m x = tm m' x' /\ tm m y = tm m' y').
  { destruct (mw_cts (cl_work good)) as [|x [|y [|? ?]]]; try discriminate B5. injection B5 as E1 E2. exists x, y. auto. }
  destruct Lg as (x & y & Eg & Ex & Ey).
  rewrite Forall_forall in HA. pose proof (HA good (or_intror (or_introl eq_refl))) as (_ & _ & _ & (ND & RW & _ & RN) & _). rewrite <- Forall_forall in HA.
  rewrite Eg in ND, RW, RN.
  assert (HH: mholds _ mid mid_key (cl_key good) (cl_gates good) (cl_bits good) m (cl_ev good) (mw_cts (cl_work good)) (mw_tabs (cl_work good)) ([12; 7], [], [17; 17])).
  { rewrite B1, B3, B6, Eg. split; [split; [|constructor]|split; [exact B2|]].
    - split; [reflexivity|]. split; [reflexivity|]. split; [exact ND|]. intros i Hi. assert (C: i = 0 \/ i = 1) by (cbn in Hi; lia). destruct C as [-> | ->].
      + split; [exact (proj1 (RW x (or_introl eq_refl)))|]. split; [exact X1|]. change (zn [x; y] 0) with x. rewrite Ex. exact X2.
      + split; [exact (proj1 (RW y (or_intror (or_introl eq_refl))))|]. split; [exact Y1|]. change (zn [x; y] 1) with y. rewrite Ey. exact Y2.
    - intros z [-> | ->]; apply RN. }
  exists bad, good, m. split; [exact A1|]. split; [exact A4|]. split; [exact A5|]. split; [exact B1|]. split; [exact B4|].
  destruct decide_plain as (_ & _ & gs & Hp). destruct decide_noise as (es & Hn & Hes).
  assert (HM: mmeans (cl_bits good) (worst_noise mid mid_key 16 16 29 0) (round_err mid mid_key) (mw_calls (cl_work good)) ([12; 7], [], [17; 17]) = Ok ([12; 7; 0; 8; 0; 56; 8; 8; 16; 8; 8; 56; 8; 1; 14; 4], gs, es)).
  { rewrite B3, B4. unfold mmeans. rewrite Hp. cbn [bind]. rewrite Hn. reflexivity. }
  split; [|split].
  - assert (DD: mdecrypts (fft_ops (f64_arith mc0) tw twi) mid mid_key 5 m [x; y] ([12; 7], [], [17; 17])).
    { rewrite B1, B3, Eg in HH. eapply mholds_decrypts; [exact S| |exact HH]. cbn; lia. }
    destruct DD as [DD _]. rewrite Eg. cbn [map]. f_equal; [exact (DD 0 x 12 17 eq_refl eq_refl eq_refl eq_refl)|]. f_equal. exact (DD 1 y 7 17 eq_refl eq_refl eq_refl eq_refl).
  - destruct (C67_turns _ _ _ mid [bad; good] m) as [sched Ht]. exists sched. eapply C67_ends; eassumption || exact mid_params.
  - intros sched r Er.
    destruct (C67_honest_float64 mc0 tw twi mid mid_key tiny_rk tiny_rb 16 16 29 0 _ _ [bad; good] m sched r 1 good mc0_ok TR HC HA Er eq_refl
      ltac:(rewrite B1; exact S) ltac:(rewrite B3; cbn; lia) W1 mid_key_noise ltac:(lia) ltac:(lia) ltac:(lia) HH HM) as (ls & m2 & l & -> & _ & Gl & (((L1 & _) & _) & _) & (D & B) & _).
    destruct (C67_separate _ _ _ _ _ _ _ _ mid_params TR HC HA Er) as (ls' & m3 & E' & F' & _). injection E' as <- <-.
    inversion F' as [|? l0 ? ls0 _ F1']; subst. inversion F1' as [|? l' ? ls1 _ F2']; subst. inversion F2'; subst. injection Gl as <-.
    exists l0, l', m2. split; [reflexivity|]. rewrite B3 in D, B. unfold zlen in L1. apply Nat2Z.inj in L1. destruct l' as [ws ts]. cbn [fst] in *.
    do 16 (destruct ws as [|? ws]; [discriminate L1|]). destruct ws; [|discriminate L1].
    split.
    - cbn [map]. repeat (apply f_equal2; [first [solve [eapply (B 5 _ false); reflexivity]|solve [eapply (B 9 _ true); reflexivity]|solve [eapply (B 10 _ true); reflexivity]|eapply (B 12 _ true); reflexivity]|]). reflexivity.
    - eapply (D 15 _ 4); reflexivity.
Qed.

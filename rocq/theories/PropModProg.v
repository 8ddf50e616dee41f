(** * Programs over encrypted messages of several moduli

    C65: as C50, for moduli that need not be powers of two, and with a modulus of
    its own for every bootstrap.  The vocabulary is in ModProg.v: [qplain] is the
    meaning, [qnoise] the bounds, [qexec] the run. *)
From Coq Require Import Lia List.
From Verif Require Import GoBase GoMem F64 Utils Spec Params Key Tlwe TlweMem Poly Fft FftTabErr Trlwe Trgsw Lut Evaluator CloudKey RunSpec LutSpec LutProg ModProg
  Tiny TinyRun RunWorst PropLut ModProgProps.
Import ListNotations.
Local Open Scope Z_scope.

(** ** C65: programs *)
Theorem C65_program : forall (R : arith) O pr sk rk rb ck e Q T Rd p (m : mem (FP O)) ws ts xs fs es xs' fs' es',
  setup R O pr sk rk rb ck -> 0 < Q ->
  reachable O pr e m -> qwires O pr e Q sk m ws xs es -> qtables O pr e m ws ts fs ->
  qplain Q p xs fs = Ok (xs', fs') -> qnoise Q (g_NBIT pr) T Rd p fs es = Ok es' ->
  (forall mm f c, qboots O pr ck e p ws ts fs m mm f c -> rounding pr (KeyLv0 sk) c Rd /\ gen_noise O pr sk ck f mm c T) ->
  exists nw ts' m', qexec O pr ck e p ws ts m = Ok (ws ++ nw, ts', m') /\
    qwires O pr e Q sk m' (ws ++ nw) xs' es' /\ qtables O pr e m' (ws ++ nw) ts' fs' /\
    (forall i r x F mm, get (ws ++ nw) i = Ok r -> get xs' i = Ok x -> get es' i = Ok F -> 1 <= mm < 2 ^ 20 -> (mm | Q) -> (Q / mm | x) ->
       F <= Q * (2 ^ 31 / mm / 2 - 2 * mm) -> DecryptLWEMessage (lv0_N pr) (tm m' r) mm (KeyLv0 sk) = Ok (x / (Q / mm) mod mm)) /\
    kept_but O e (qoutputs p) ws m m' /\ (forall x, In x nw -> ~ user m e x) /\ reachable O pr e m'.
Proof. exact qp_program. Qed.
Print Assumptions C65_program.

Theorem C65_program_float64 : forall mc O pr sk rk rb ck Bb Bk d d' e Q p (m : mem (FP O)) ws ts xs fs es xs' fs' es',
  mc_ok mc -> setup (f64_arith mc) O pr sk rk rb ck ->
  fft_error_within pr d d' -> key_noise_within pr rk rb Bb Bk -> 0 <= Bb -> 0 <= Bk -> 0 <= d' -> 0 < Q ->
  reachable O pr e m -> qwires O pr e Q sk m ws xs es -> qtables O pr e m ws ts fs ->
  qplain Q p xs fs = Ok (xs', fs') -> qnoise Q (g_NBIT pr) (worst_noise pr sk Bb Bk d d') (round_err pr sk) p fs es = Ok es' ->
  exists nw ts' m', qexec O pr ck e p ws ts m = Ok (ws ++ nw, ts', m') /\
    qwires O pr e Q sk m' (ws ++ nw) xs' es' /\ qtables O pr e m' (ws ++ nw) ts' fs' /\
    (forall i r x F mm, get (ws ++ nw) i = Ok r -> get xs' i = Ok x -> get es' i = Ok F -> 1 <= mm < 2 ^ 20 -> (mm | Q) -> (Q / mm | x) ->
       F <= Q * (2 ^ 31 / mm / 2 - 2 * mm) -> DecryptLWEMessage (lv0_N pr) (tm m' r) mm (KeyLv0 sk) = Ok (x / (Q / mm) mod mm)) /\
    kept_but O e (qoutputs p) ws m m' /\ (forall x, In x nw -> ~ user m e x) /\ reachable O pr e m'.
Proof. exact qp_float64. Qed.
Print Assumptions C65_program_float64.

(** An encryption of message y of modulus M is at position y * (Q / M). *)
Theorem C65_start : forall n s ct M c y E, 0 < M -> 0 < c -> encodes n s ct M y E -> stands n s ct (c * M) (y * c) (c * M * (E + 1)).
Proof. exact encodes_stands. Qed.
Print Assumptions C65_start.

(** Two numbers of any number of digits in base B, with any modulus Q from 2B. *)
Theorem C65_adder_float64 : forall mc O pr sk rk rb ck Bb Bk d d' e Q B w (m : mem (FP O)) la lb va vb E,
  mc_ok mc -> setup (f64_arith mc) O pr sk rk rb ck ->
  fft_error_within pr d d' -> key_noise_within pr rk rb Bb Bk -> 0 <= Bb -> 0 <= Bk -> 0 <= d' ->
  1 <= B -> 2 * B <= Q -> Q < 2 ^ 20 -> 1 <= w ->
  Q * (2 * E + worst_noise pr sk Bb Bk d d' + round_err pr sk + 2 ^ (31 - g_NBIT pr) + 3) <= 2 ^ 30 ->
  Q * (4 * E + round_err pr sk + 2 ^ (31 - g_NBIT pr) + 4) <= 2 ^ 30 ->
  worst_noise pr sk Bb Bk d d' + 1 <= 2 ^ 31 / Q / 2 - 2 * Q ->
  reachable O pr e m -> zlen la = w -> zlen lb = w -> NoDup (la ++ lb) ->
  (forall i, 0 <= i < w -> user m e (zn la i) /\ 0 <= va i < B /\ encodes (lv0_N pr) (KeyLv0 sk) (tm m (zn la i)) Q (va i) E) ->
  (forall i, 0 <= i < w -> user m e (zn lb i) /\ 0 <= vb i < B /\ encodes (lv0_N pr) (KeyLv0 sk) (tm m (zn lb i)) Q (vb i) E) ->
  exists ws ts m' ds co, qexec O pr ck e (qradix_adder Q B w) (la ++ lb) [] m = Ok (ws, ts, m') /\
    (forall i, 0 <= i < w -> 0 <= ds i < B /\ exists r, get ws (sum_digit w i) = Ok r /\
       DecryptLWEMessage (lv0_N pr) (tm m' r) Q (KeyLv0 sk) = Ok (ds i)) /\
    (exists r, get ws (sum_carry w) = Ok r /\ DecryptLWEMessage (lv0_N pr) (tm m' r) Q (KeyLv0 sk) = Ok co) /\
    zsum w (fun i => ds i * B ^ i) + co * B ^ w = zsum w (fun i => va i * B ^ i) + zsum w (fun i => vb i * B ^ i) /\
    user_kept e m m' /\ reachable O pr e m'.
Proof. exact qradix_float64. Qed.
Print Assumptions C65_adder_float64.

(** ** Cases *)

(** Messages 7 and 8 of modulus 20, with Q = 60: their sum is 15; the carry in
    base 10 is 1 and the digit 5.  That digit is at position 15 of 120, which is
    message 3 of modulus 12; its square 9 overwrites the first ciphertext.  The
    difference of the two, position 45 - 15, is message 1 of modulus 2, and
    message 2 of modulus 4. *)
Definition demo : list qcall :=
  [QTable 20 (fun x => x / 10); QAdd 0 1; QLut 0 2; QFunc 20 (fun x => x mod 10) 2; QFuncInto 12 (fun x => x * x) 4 0; QSub 0 4; QFunc 2 (fun x => 1 - x) 5].
Example demo_plain : exists fs, qplain 60 demo [21; 24] [] = Ok ([45; 24; 45; 3; 15; 30; 0], fs).
Proof. eexists. vm_compute. reflexivity. Qed.
Example demo_noise : qnoise 60 (g_NBIT mid) (worst_noise mid mid_key 16 16 29 0) (round_err mid mid_key) demo [] [1080; 1080] =
  Ok [567993120; 1080; 2160; 567993120; 567993120; 1135986240; 567993120].
Proof. vm_compute. reflexivity. Qed.
Example demo_divides : (20 | 60) /\ (12 | 60) /\ (4 | 60) /\ (2 | 60).
Proof. split; [exists 3|split; [exists 5|split; [exists 15|exists 30]]]; reflexivity. Qed.

Example C65_demo : exists mc O ck, mc_ok mc /\ setup (f64_arith mc) O mid mid_key tiny_rk tiny_rb ck /\
  exists e (m : mem (FP O)) a b, reachable O mid e m /\ qwires O mid e 60 mid_key m [a; b] [21; 24] [1080; 1080] /\
  exists c d f g h ts m', qexec O mid ck e demo [a; b] [] m = Ok ([a; b; c; d; f; g; h], ts, m') /\
    DecryptLWEMessage 3 (tm m' a) 12 [1; 0; 1] = Ok 9 /\ DecryptLWEMessage 3 (tm m' d) 20 [1; 0; 1] = Ok 1 /\
    DecryptLWEMessage 3 (tm m' f) 20 [1; 0; 1] = Ok 5 /\ DecryptLWEMessage 3 (tm m' f) 12 [1; 0; 1] = Ok 3 /\
    DecryptLWEMessage 3 (tm m' g) 4 [1; 0; 1] = Ok 2 /\ DecryptLWEMessage 3 (tm m' h) 2 [1; 0; 1] = Ok 0.
Proof.
  destruct (setup_exists (f64_arith mc0) mid mid_key tiny_rk tiny_rb mid_params ltac:(cbn; lia) mid_key_ok) as (O & ck & S).
  exists mc0, O, ck. split; [exact mc0_ok|]. split; [exact S|]. destruct mid_worst as (W1 & W2 & W3).
  destruct (C38_start _ O mid mid_key tiny_rk tiny_rb ck S 20 [7; 8] tiny_rk 16 ltac:(lia)) as (e & m & w & Hr & F & ND).
  { repeat (constructor; [lia|]). constructor. }
  { intro i. apply small_noise_le. }
  inversion F as [|a ? ? ? [Ua Ea] F1]; subst. inversion F1 as [|b ? ? ? [Ub Eb] F2]; subst. inversion F2; subst.
  exists e, m, a, b. split; [exact Hr|].
  assert (HW: qwires O mid e 60 mid_key m [a; b] [21; 24] [1080; 1080]).
  { split; [reflexivity|]. split; [reflexivity|]. split; [exact ND|]. intros i Hi. change (zlen [a; b]) with 2 in Hi.
    assert (D: i = 0 \/ i = 1) by lia. destruct D as [-> | ->].
    - change (zn [a; b] 0) with a. change (zn [21; 24] 0) with 21. change (zn [1080; 1080] 0) with 1080. split; [exact Ua|]. split; [lia|].
      exact (C65_start 3 _ _ 20 3 7 17 ltac:(lia) ltac:(lia) Ea).
    - change (zn [a; b] 1) with b. change (zn [21; 24] 1) with 24. change (zn [1080; 1080] 1) with 1080. split; [exact Ub|]. split; [lia|].
      exact (C65_start 3 _ _ 20 3 8 17 ltac:(lia) ltac:(lia) Eb). }
  split; [exact HW|]. destruct demo_plain as [fs Hp]. pose proof demo_noise as Hn. destruct demo_divides as (D20 & D12 & D4 & D2).
  destruct (C65_program_float64 mc0 O mid mid_key tiny_rk tiny_rb ck 16 16 29 0 e 60 demo m [a; b] [] [21; 24] [] [1080; 1080] _ _ _ mc0_ok S W1 mid_key_noise
    ltac:(lia) ltac:(lia) ltac:(lia) ltac:(lia) Hr HW (Forall2_nil _) Hp Hn) as (nw & ts & m' & E1 & (L1 & _) & _ & D & _).
  unfold zlen in L1. apply Nat2Z.inj in L1. destruct nw as [|c [|d [|f [|g [|h [|? ?]]]]]]; try discriminate L1.
  exists c, d, f, g, h, ts, m'. split; [exact E1|]. cbn [app] in D.
  split; [exact (D 0 a 45 567993120 12 eq_refl eq_refl eq_refl (conj (ltac:(lia) : 1 <= 12) (eq_refl : 12 < 2 ^ 20)) D12 (ex_intro _ 9 eq_refl) (ltac:(discriminate)))|].
  split; [exact (D 3 d 3 567993120 20 eq_refl eq_refl eq_refl (conj (ltac:(lia) : 1 <= 20) (eq_refl : 20 < 2 ^ 20)) D20 (ex_intro _ 1 eq_refl) (ltac:(discriminate)))|].
  split; [exact (D 4 f 15 567993120 20 eq_refl eq_refl eq_refl (conj (ltac:(lia) : 1 <= 20) (eq_refl : 20 < 2 ^ 20)) D20 (ex_intro _ 5 eq_refl) (ltac:(discriminate)))|].
  split; [exact (D 4 f 15 567993120 12 eq_refl eq_refl eq_refl (conj (ltac:(lia) : 1 <= 12) (eq_refl : 12 < 2 ^ 20)) D12 (ex_intro _ 3 eq_refl) (ltac:(discriminate)))|].
  split; [exact (D 5 g 30 1135986240 4 eq_refl eq_refl eq_refl (conj (ltac:(lia) : 1 <= 4) (eq_refl : 4 < 2 ^ 20)) D4 (ex_intro _ 2 eq_refl) (ltac:(discriminate)))|].
  exact (D 6 h 0 567993120 2 eq_refl eq_refl eq_refl (conj (ltac:(lia) : 1 <= 2) (eq_refl : 2 < 2 ^ 20)) D2 (ex_intro _ 0 eq_refl) (ltac:(discriminate))).
Qed.

(** Three decimal digits with modulus 20: 957 + 468 = 1425. *)
Example C65_decimal : exists mc O ck, mc_ok mc /\ setup (f64_arith mc) O mid mid_key tiny_rk tiny_rb ck /\
  exists e (m : mem (FP O)) a0 a1 a2 b0 b1 b2, reachable O mid e m /\
    Forall2 (fun r x => encodes 3 [1; 0; 1] (tm m r) 20 x 17) [a0; a1; a2; b0; b1; b2] [7; 5; 9; 8; 6; 4] /\
  exists ws ts m' r0 r1 r2 r3, qexec O mid ck e (qradix_adder 20 10 3) [a0; a1; a2; b0; b1; b2] [] m = Ok (ws, ts, m') /\
    map (get ws) [9; 13; 17; 18] = map Ok [r0; r1; r2; r3] /\
    map (fun r => DecryptLWEMessage 3 (tm m' r) 20 [1; 0; 1]) [r0; r1; r2; r3] = map Ok [5; 2; 4; 1].
Proof.
  destruct (setup_exists (f64_arith mc0) mid mid_key tiny_rk tiny_rb mid_params ltac:(cbn; lia) mid_key_ok) as (O & ck & S).
  exists mc0, O, ck. split; [exact mc0_ok|]. split; [exact S|]. destruct mid_worst as (W1 & W2 & W3).
  destruct (C38_start _ O mid mid_key tiny_rk tiny_rb ck S 20 [7; 5; 9; 8; 6; 4] tiny_rk 16 ltac:(lia)) as (e & m & w & Hr & F & ND).
  { repeat (constructor; [lia|]). constructor. }
  { intro i. apply small_noise_le. }
  do 6 (match goal with F : Forall2 _ _ (_ :: _) |- _ => inversion F as [|? ? ? ? [? ?] ?]; clear F; subst end).
  match goal with F : Forall2 _ _ [] |- _ => inversion F; subst; clear F end.
  match goal with ND : NoDup [?a; ?b; ?c; ?d; ?f; ?g] |- _ => exists e, m, a, b, c, d, f, g; set (la := [a; b; c]); set (lb := [d; f; g]) end.
  split; [exact Hr|]. split; [repeat (constructor; [assumption|]); constructor|].
  destruct (C65_adder_float64 mc0 O mid mid_key tiny_rk tiny_rb ck 16 16 29 0 e 20 10 3 m la lb (zn [7; 5; 9]) (zn [8; 6; 4]) 17 mc0_ok S W1 mid_key_noise
    ltac:(lia) ltac:(lia) ltac:(lia) ltac:(lia) ltac:(lia) ltac:(reflexivity) ltac:(lia) ltac:(vm_compute; discriminate) ltac:(vm_compute; discriminate)
    ltac:(vm_compute; discriminate) Hr eq_refl eq_refl ND) as (ws & ts & m' & ds & co & E1 & HS & (rc & Gc & Dc) & Hz & _).
  1, 2: intros i Hi; assert (D: i = 0 \/ i = 1 \/ i = 2) by lia; destruct D as [-> | [-> | ->]]; (split; [assumption|]; split; [vm_compute; split; [discriminate|reflexivity]|assumption]).
  destruct (HS 0 ltac:(lia)) as (B0 & r0 & G0 & D0). destruct (HS 1 ltac:(lia)) as (B1 & r1 & G1 & D1). destruct (HS 2 ltac:(lia)) as (B2 & r2 & G2 & D2).
  exists ws, ts, m', r0, r1, r2, rc. split; [exact E1|].
  assert (Hz': ds 0 + ds 1 * 10 + ds 2 * 100 + co * 1000 = 1425).
  { revert Hz. clear. unfold zsum. change (Z.to_nat 3) with 3%nat. cbn [sumf Z.of_nat Pos.of_succ_nat Pos.succ].
    change (zn [7; 5; 9] 0) with 7. change (zn [7; 5; 9] 1) with 5. change (zn [7; 5; 9] 2) with 9.
    change (zn [8; 6; 4] 0) with 8. change (zn [8; 6; 4] 1) with 6. change (zn [8; 6; 4] 2) with 4.
    change (10 ^ 0) with 1. change (10 ^ 1) with 10. change (10 ^ 2) with 100. change (10 ^ 3) with 1000. lia. }
  assert (ds 0 = 5 /\ ds 1 = 2 /\ ds 2 = 4 /\ co = 1) as (V0 & V1 & V2 & V3) by lia. rewrite V0 in D0. rewrite V1 in D1. rewrite V2 in D2. rewrite V3 in Dc.
  cbn [map]. split; [repeat (apply f_equal2; [assumption|]); reflexivity|]. repeat (apply f_equal2; [assumption|]). reflexivity.
Qed.

(** * Programs over encrypted messages

    C50: a program of any length over encrypted messages, made of the linear
    operations of package tlwe and of programmable bootstraps, computes its
    meaning, as long as its noise bounds allow each bootstrap.  The vocabulary
    is in LutProg.v: [lplain] is the meaning, [lnoise] the bounds, [lexec] the
    run. *)
From Coq Require Import Lia List.
From Verif Require Import GoBase GoMem F64 Utils Spec Params Key Tlwe TlweMem Poly Fft FftTabErr Trlwe Trgsw Lut Evaluator CloudKey RunSpec LutSpec LutProg
  Tiny TinyRun RunWorst PropLut LutProgProps.
Import ListNotations.
Local Open Scope Z_scope.

(** ** C50: programs *)
Theorem C50_program : forall (R : arith) O pr sk rk rb ck e k T Rd p (m : mem (FP O)) ws ts xs fs es xs' fs' es',
  setup R O pr sk rk rb ck -> 0 <= k < g_NBIT pr ->
  reachable O pr e m -> lwires O pr e k sk m ws xs es -> ltables O pr e k m ws ts fs ->
  lplain k p xs fs = Ok (xs', fs') -> lnoise k T Rd p es = Ok es' ->
  (forall f c, lboots O pr ck e k p ws ts fs m f c -> rounding pr (KeyLv0 sk) c Rd /\ gen_noise O pr sk ck f (2 ^ k) c T) ->
  exists nw ts' m', lexec O pr ck e k p ws ts m = Ok (ws ++ nw, ts', m') /\
    lwires O pr e k sk m' (ws ++ nw) xs' es' /\ ltables O pr e k m' (ws ++ nw) ts' fs' /\
    (forall i r x E, get (ws ++ nw) i = Ok r -> get xs' i = Ok x -> get es' i = Ok E -> E < 2 ^ (30 - k) ->
       DecryptLWEMessage (lv0_N pr) (tm m' r) (2 ^ k) (KeyLv0 sk) = Ok (x mod 2 ^ k)) /\
    kept_but O e (outputs p) ws m m' /\ (forall x, In x nw -> ~ user m e x) /\ reachable O pr e m'.
Proof. exact lp_program. Qed.
Print Assumptions C50_program.

Theorem C50_program_float64 : forall mc O pr sk rk rb ck Bb Bk d d' e k p (m : mem (FP O)) ws ts xs fs es xs' fs' es',
  mc_ok mc -> setup (f64_arith mc) O pr sk rk rb ck ->
  fft_error_within pr d d' -> key_noise_within pr rk rb Bb Bk -> 0 <= Bb -> 0 <= Bk -> 0 <= d' -> 0 <= k < g_NBIT pr ->
  reachable O pr e m -> lwires O pr e k sk m ws xs es -> ltables O pr e k m ws ts fs ->
  lplain k p xs fs = Ok (xs', fs') -> lnoise k (worst_noise pr sk Bb Bk d d') (round_err pr sk) p es = Ok es' ->
  exists nw ts' m', lexec O pr ck e k p ws ts m = Ok (ws ++ nw, ts', m') /\
    lwires O pr e k sk m' (ws ++ nw) xs' es' /\ ltables O pr e k m' (ws ++ nw) ts' fs' /\
    (forall i r x E, get (ws ++ nw) i = Ok r -> get xs' i = Ok x -> get es' i = Ok E -> E < 2 ^ (30 - k) ->
       DecryptLWEMessage (lv0_N pr) (tm m' r) (2 ^ k) (KeyLv0 sk) = Ok (x mod 2 ^ k)) /\
    kept_but O e (outputs p) ws m m' /\ (forall x, In x nw -> ~ user m e x) /\ reachable O pr e m'.
Proof. exact lp_float64. Qed.
Print Assumptions C50_program_float64.

(** Any number of functions, one after the other in one ciphertext: one bound
    on the noise of a bootstrap is enough. *)
Theorem C50_chain_float64 : forall mc O pr sk rk rb ck Bb Bk d d' e k fs (m : mem (FP O)) c x E,
  mc_ok mc -> setup (f64_arith mc) O pr sk rk rb ck ->
  fft_error_within pr d d' -> key_noise_within pr rk rb Bb Bk -> 0 <= Bb -> 0 <= Bk -> 0 <= d' -> 0 <= k < g_NBIT pr ->
  worst_noise pr sk Bb Bk d d' + round_err pr sk < 2 ^ (30 - k) -> E + round_err pr sk < 2 ^ (30 - k) ->
  reachable O pr e m -> user m e c -> 0 <= x < 2 ^ k -> encodes (lv0_N pr) (KeyLv0 sk) (tm m c) (2 ^ k) x E ->
  exists m', lexec O pr ck e k (in_place fs) [c] [] m = Ok ([c], [], m') /\
    DecryptLWEMessage (lv0_N pr) (tm m' c) (2 ^ k) (KeyLv0 sk) = Ok (fold_left (fun x f => f x mod 2 ^ k) fs x) /\
    (forall z, user m e z -> z <> c -> user m' e z /\ tm m' z = tm m z) /\ reachable O pr e m'.
Proof. exact chain_float64. Qed.
Print Assumptions C50_chain_float64.

(** Two numbers of any number of digits in base B. *)
Theorem C50_adder_float64 : forall mc O pr sk rk rb ck Bb Bk d d' e k B w (m : mem (FP O)) la lb va vb E,
  mc_ok mc -> setup (f64_arith mc) O pr sk rk rb ck ->
  fft_error_within pr d d' -> key_noise_within pr rk rb Bb Bk -> 0 <= Bb -> 0 <= Bk -> 0 <= d' -> 0 <= k < g_NBIT pr ->
  1 <= B -> 2 * B <= 2 ^ k -> 1 <= w ->
  2 * E + worst_noise pr sk Bb Bk d d' + round_err pr sk < 2 ^ (30 - k) -> 4 * E + round_err pr sk < 2 ^ (30 - k) ->
  worst_noise pr sk Bb Bk d d' < 2 ^ (30 - k) ->
  reachable O pr e m -> zlen la = w -> zlen lb = w -> NoDup (la ++ lb) ->
  (forall i, 0 <= i < w -> user m e (zn la i) /\ 0 <= va i < B /\ encodes (lv0_N pr) (KeyLv0 sk) (tm m (zn la i)) (2 ^ k) (va i) E) ->
  (forall i, 0 <= i < w -> user m e (zn lb i) /\ 0 <= vb i < B /\ encodes (lv0_N pr) (KeyLv0 sk) (tm m (zn lb i)) (2 ^ k) (vb i) E) ->
  exists ws ts m' ds co, lexec O pr ck e k (radix_adder B w) (la ++ lb) [] m = Ok (ws, ts, m') /\
    (forall i, 0 <= i < w -> 0 <= ds i < B /\ exists r, get ws (sum_digit w i) = Ok r /\
       DecryptLWEMessage (lv0_N pr) (tm m' r) (2 ^ k) (KeyLv0 sk) = Ok (ds i)) /\
    (exists r, get ws (sum_carry w) = Ok r /\ DecryptLWEMessage (lv0_N pr) (tm m' r) (2 ^ k) (KeyLv0 sk) = Ok co) /\
    zsum w (fun i => ds i * B ^ i) + co * B ^ w = zsum w (fun i => va i * B ^ i) + zsum w (fun i => vb i * B ^ i) /\
    user_kept e m m' /\ reachable O pr e m'.
Proof. exact radix_float64. Qed.
Print Assumptions C50_adder_float64.

(** ** Cases *)

(** On messages 3 and 10 of modulus 32: 3 + 4*10 = 43; a table of x*x there
    (43 is opposite to 11, 121 mod 32 = 25) gives -25 = 39; its negation is 25;
    then 10 is overwritten with 25+7 mod 32 = 0, and that by 0 + 25. *)
Definition demo : list lcall :=
  [LTable (fun x => x * x); LAddMul 0 1 4; LLut 0 2; LNeg 3; LFuncInto (fun x => x + 7) 4 1; LAddInto 1 4 1; LSub 0 1].
Example demo_plain : exists fs, lplain 5 demo [3; 10] [] = Ok ([3; 25; 43; 39; 25; 42], fs).
Proof. eexists. vm_compute. reflexivity. Qed.
Example demo_noise : lnoise 5 (worst_noise mid mid_key 16 16 29 0) (round_err mid mid_key) demo [17; 17] =
  Ok [17; 18933102; 85; 9466551; 9466551; 18933119].
Proof. vm_compute. reflexivity. Qed.

Example C50_demo : exists mc O ck, mc_ok mc /\ setup (f64_arith mc) O mid mid_key tiny_rk tiny_rb ck /\
  exists e (m : mem (FP O)) a b, reachable O mid e m /\ lwires O mid e 5 mid_key m [a; b] [3; 10] [17; 17] /\
  exists c d f g ts m', lexec O mid ck e 5 demo [a; b] [] m = Ok ([a; b; c; d; f; g], ts, m') /\
    DecryptLWEMessage 3 (tm m' b) 32 [1; 0; 1] = Ok 25 /\ DecryptLWEMessage 3 (tm m' d) 32 [1; 0; 1] = Ok 7 /\
    DecryptLWEMessage 3 (tm m' f) 32 [1; 0; 1] = Ok 25 /\ DecryptLWEMessage 3 (tm m' g) 32 [1; 0; 1] = Ok 10.
Proof.
  destruct (setup_exists (f64_arith mc0) mid mid_key tiny_rk tiny_rb mid_params ltac:(cbn; lia) mid_key_ok) as (O & ck & S).
  exists mc0, O, ck. split; [exact mc0_ok|]. split; [exact S|]. destruct mid_worst as (W1 & W2 & W3).
  destruct (C38_start _ O mid mid_key tiny_rk tiny_rb ck S 32 [3; 10] tiny_rk 16 ltac:(lia)) as (e & m & w & Hr & F & ND).
  { repeat (constructor; [lia|]). constructor. }
  { intro i. apply small_noise_le. }
  inversion F as [|a ? ? ? [Ua Ea] F1]; subst. inversion F1 as [|b ? ? ? [Ub Eb] F2]; subst. inversion F2; subst.
  exists e, m, a, b. split; [exact Hr|]. 
  assert (HW: lwires O mid e 5 mid_key m [a; b] [3; 10] [17; 17]).
  { split; [reflexivity|]. split; [reflexivity|]. split; [exact ND|]. intros i Hi. change (zlen [a; b]) with 2 in Hi.
    assert (D: i = 0 \/ i = 1) by lia. destruct D as [-> | ->].
    - change (zn [a; b] 0) with a. change (zn [3; 10] 0) with 3. change (zn [17; 17] 0) with 17. split; [exact Ua|]. split; [cbn; lia|exact Ea].
    - change (zn [a; b] 1) with b. change (zn [3; 10] 1) with 10. change (zn [17; 17] 1) with 17. split; [exact Ub|]. split; [cbn; lia|exact Eb]. }
  split; [exact HW|]. destruct demo_plain as [fs Hp]. pose proof demo_noise as Hn.
  destruct (C50_program_float64 mc0 O mid mid_key tiny_rk tiny_rb ck 16 16 29 0 e 5 demo m [a; b] [] [3; 10] [] [17; 17] _ _ _ mc0_ok S W1 mid_key_noise
    ltac:(lia) ltac:(lia) ltac:(lia) ltac:(cbn; lia) Hr HW (Forall2_nil _) Hp Hn) as (nw & ts & m' & E1 & (L1 & _) & _ & D & _).
  unfold zlen in L1. apply Nat2Z.inj in L1. destruct nw as [|c [|d [|f [|g [|? ?]]]]]; try discriminate L1.
  exists c, d, f, g, ts, m'. split; [exact E1|]. cbn [app] in D.
  split; [exact (D 1 b 25 18933102 eq_refl eq_refl eq_refl eq_refl)|].
  split; [exact (D 3 d 39 9466551 eq_refl eq_refl eq_refl eq_refl)|].
  split; [exact (D 4 f 25 9466551 eq_refl eq_refl eq_refl eq_refl)|].
  exact (D 5 g 42 18933119 eq_refl eq_refl eq_refl eq_refl).
Qed.

(** Three digits in base 16: 0xFA7 + 0x95C = 0x1903. *)
Example C50_adder : exists mc O ck, mc_ok mc /\ setup (f64_arith mc) O mid mid_key tiny_rk tiny_rb ck /\
  exists e (m : mem (FP O)) a0 a1 a2 b0 b1 b2, reachable O mid e m /\
  exists ws ts m' r0 r1 r2 r3, lexec O mid ck e 5 (radix_adder 16 3) [a0; a1; a2; b0; b1; b2] [] m = Ok (ws, ts, m') /\
    map (fun r => DecryptLWEMessage 3 (tm m r) 32 [1; 0; 1]) [a0; a1; a2] = map Ok [7; 10; 15] /\
    map (fun r => DecryptLWEMessage 3 (tm m r) 32 [1; 0; 1]) [b0; b1; b2] = map Ok [12; 5; 9] /\
    map (get ws) [9; 13; 17; 18] = map Ok [r0; r1; r2; r3] /\
    map (fun r => DecryptLWEMessage 3 (tm m' r) 32 [1; 0; 1]) [r0; r1; r2; r3] = map Ok [3; 0; 9; 1].
Proof.
  destruct (setup_exists (f64_arith mc0) mid mid_key tiny_rk tiny_rb mid_params ltac:(cbn; lia) mid_key_ok) as (O & ck & S).
  exists mc0, O, ck. split; [exact mc0_ok|]. split; [exact S|]. destruct mid_worst as (W1 & W2 & W3).
  destruct (C38_start _ O mid mid_key tiny_rk tiny_rb ck S 32 [7; 10; 15; 12; 5; 9] tiny_rk 16 ltac:(lia)) as (e & m & w & Hr & F & ND).
  { repeat (constructor; [lia|]). constructor. }
  { intro i. apply small_noise_le. }
  do 6 (match goal with F : Forall2 _ _ (_ :: _) |- _ => inversion F as [|? ? ? ? [? ?] ?]; clear F; subst end).
  match goal with F : Forall2 _ _ [] |- _ => inversion F; subst; clear F end.
  match goal with ND : NoDup [?a; ?b; ?c; ?d; ?f; ?g] |- _ => exists e, m, a, b, c, d, f, g; set (la := [a; b; c]); set (lb := [d; f; g]) end.
  split; [exact Hr|].
  assert (HD: forall r x, encodes (lv0_N mid) (KeyLv0 mid_key) (tm m r) 32 x 17 -> 0 <= x < 32 -> DecryptLWEMessage 3 (tm m r) 32 [1; 0; 1] = Ok x).
  { intros r v (Lr & C) Hx. rewrite <- (Z.mod_small v (2 ^ 5)) by (cbn; lia).
    apply (position_decrypts 3 (tm m r) 5 v [1; 0; 1] 17); [lia| |cbn; lia|lia|exact C|reflexivity]. destruct Lr as [Lr _]. change (lv0_N mid) with 3 in Lr. lia. }
  destruct (C50_adder_float64 mc0 O mid mid_key tiny_rk tiny_rb ck 16 16 29 0 e 5 16 3 m la lb (zn [7; 10; 15]) (zn [12; 5; 9]) 17 mc0_ok S W1 mid_key_noise
    ltac:(lia) ltac:(lia) ltac:(lia) ltac:(cbn; lia) ltac:(lia) ltac:(cbn; lia) ltac:(lia) ltac:(vm_compute; reflexivity) ltac:(vm_compute; reflexivity)
    ltac:(vm_compute; reflexivity) Hr eq_refl eq_refl ND) as (ws & ts & m' & ds & co & E1 & HS & (rc & Gc & Dc) & Hz & _).
  1, 2: intros i Hi; assert (D: i = 0 \/ i = 1 \/ i = 2) by lia; destruct D as [-> | [-> | ->]]; (split; [assumption|]; split; [vm_compute; split; [discriminate|reflexivity]|assumption]).
  destruct (HS 0 ltac:(lia)) as (B0 & r0 & G0 & D0). destruct (HS 1 ltac:(lia)) as (B1 & r1 & G1 & D1). destruct (HS 2 ltac:(lia)) as (B2 & r2 & G2 & D2).
  exists ws, ts, m', r0, r1, r2, rc. split; [exact E1|]. 
  assert (Hz': ds 0 + ds 1 * 16 + ds 2 * 256 + co * 4096 = 6403).
  { revert Hz. clear. unfold zsum. change (Z.to_nat 3) with 3%nat. cbn [sumf Z.of_nat Pos.of_succ_nat Pos.succ].
    change (zn [7; 10; 15] 0) with 7. change (zn [7; 10; 15] 1) with 10. change (zn [7; 10; 15] 2) with 15.
    change (zn [12; 5; 9] 0) with 12. change (zn [12; 5; 9] 1) with 5. change (zn [12; 5; 9] 2) with 9.
    change (16 ^ 0) with 1. change (16 ^ 1) with 16. change (16 ^ 2) with 256. change (16 ^ 3) with 4096. lia. }
  assert (ds 0 = 3 /\ ds 1 = 0 /\ ds 2 = 9 /\ co = 1) as (V0 & V1 & V2 & V3) by lia. rewrite V0 in D0. rewrite V1 in D1. rewrite V2 in D2. rewrite V3 in Dc.
  unfold la, lb. cbn [map].
  split; [repeat (apply f_equal2; [apply HD; [assumption|lia]|]); reflexivity|].
  split; [repeat (apply f_equal2; [apply HD; [assumption|lia]|]); reflexivity|].
  split; [repeat (apply f_equal2; [assumption|]); reflexivity|]. repeat (apply f_equal2; [assumption|]). reflexivity.
Qed.

(** A thousand increments of 7 leave 7 + 1000 mod 32. *)
Example C50_chain : exists mc O ck, mc_ok mc /\ setup (f64_arith mc) O mid mid_key tiny_rk tiny_rb ck /\
  exists e (m : mem (FP O)) c m', reachable O mid e m /\ encodes 3 [1; 0; 1] (tm m c) 32 7 17 /\
    lexec O mid ck e 5 (in_place (repeat (fun x => x + 1) (Z.to_nat 1000))) [c] [] m = Ok ([c], [], m') /\
    DecryptLWEMessage 3 (tm m' c) 32 [1; 0; 1] = Ok ((7 + 1000) mod 32).
Proof.
  destruct (setup_exists (f64_arith mc0) mid mid_key tiny_rk tiny_rb mid_params ltac:(cbn; lia) mid_key_ok) as (O & ck & S).
  exists mc0, O, ck. split; [exact mc0_ok|]. split; [exact S|]. destruct mid_worst as (W1 & W2 & W3).
  destruct (C38_start _ O mid mid_key tiny_rk tiny_rb ck S 32 [7] tiny_rk 16 ltac:(lia)) as (e & m & w & Hr & F & ND).
  { repeat (constructor; [lia|]). constructor. }
  { intro i. apply small_noise_le. }
  inversion F as [|c ? ? ? [Uc Ec] F1]; subst. inversion F1; subst. exists e, m, c.
  destruct (C50_chain_float64 mc0 O mid mid_key tiny_rk tiny_rb ck 16 16 29 0 e 5 (repeat (fun x => x + 1) (Z.to_nat 1000)) m c 7 17 mc0_ok S W1 mid_key_noise
    ltac:(lia) ltac:(lia) ltac:(lia) ltac:(cbn; lia) ltac:(vm_compute; reflexivity) ltac:(vm_compute; reflexivity) Hr Uc ltac:(cbn; lia) Ec) as (m' & E1 & D & _).
  exists m'. split; [exact Hr|]. split; [exact Ec|]. split; [exact E1|]. refine (eq_trans D _). vm_compute. reflexivity.
Qed.

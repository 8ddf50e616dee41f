(** * Gates and programmable bootstraps on the same ciphertexts

    C61: a program that calls gates and programmable bootstraps in any order,
    on the same ciphertexts and the same evaluator, computes its meaning.  With
    messages of modulus 2^k the bits are the positions 2^(k-2) (true) and
    7*2^(k-2) (false); a lookup table can turn a bit into a message and a
    message into a bit.  The vocabulary is in MixProg.v. *)
From Coq Require Import Lia List.
From Verif Require Import GoBase GoMem F64 Utils Spec Params Key Tlwe TlweMem Poly Fft FftTabErr Trlwe Trgsw Lut Evaluator CloudKey Gates RunSpec LutSpec Circuit LutProg MixProg
  Tiny TinyRun RunWorst PropLut MixProps.
Import ListNotations.
Local Open Scope Z_scope.

(** ** C61 *)
Theorem C61_program : forall (R : arith) O pr sk rk rb ck e gk k T p (m : mem (FP O)) ws ts xs fs es xs' fs' es',
  setup R O pr sk rk rb ck -> 2 <= k < g_NBIT pr ->
  reachable O pr e m -> key_at O m e gk ck -> ~ In (rA (gk_testvec gk)) ws -> ~ In (rB (gk_testvec gk)) ws ->
  lwires O pr e k sk m ws xs es -> ltables O pr e k m ws ts fs ->
  mplain k p xs fs = Ok (xs', fs') -> mnoise k T (round_err pr sk) p es = Ok es' ->
  (forall f c, mboots O pr ck e gk k p ws ts fs m f c -> zlen c = lv0_N pr + 1 -> mix_noise O pr ck k sk f c T) ->
  exists nw ts' m', mexec O pr ck e gk k p ws ts m = Ok (ws ++ nw, ts', m') /\
    lwires O pr e k sk m' (ws ++ nw) xs' es' /\ ltables O pr e k m' (ws ++ nw) ts' fs' /\
    (forall i r x E, get (ws ++ nw) i = Ok r -> get xs' i = Ok x -> get es' i = Ok E -> E < 2 ^ (30 - k) ->
       DecryptLWEMessage (lv0_N pr) (tm m' r) (2 ^ k) (KeyLv0 sk) = Ok (x mod 2 ^ k)) /\
    (forall i r b E, get (ws ++ nw) i = Ok r -> get xs' i = Ok (bit_pos k b) -> get es' i = Ok E -> E < 2 ^ 29 ->
       DecryptBool (lv0_N pr) (tm m' r) (KeyLv0 sk) = Ok b) /\
    kept_but O e (moutputs p) ws m m' /\ (forall x, In x nw -> ~ user m e x) /\ reachable O pr e m' /\ key_at O m' e gk ck.
Proof. exact mp_program. Qed.
Print Assumptions C61_program.

Theorem C61_program_float64 : forall mc O pr sk rk rb ck Bb Bk d d' e gk k p (m : mem (FP O)) ws ts xs fs es xs' fs' es',
  mc_ok mc -> setup (f64_arith mc) O pr sk rk rb ck ->
  fft_error_within pr d d' -> key_noise_within pr rk rb Bb Bk -> 0 <= Bb -> 0 <= Bk -> 0 <= d' -> 2 <= k < g_NBIT pr ->
  reachable O pr e m -> key_at O m e gk ck -> ~ In (rA (gk_testvec gk)) ws -> ~ In (rB (gk_testvec gk)) ws ->
  lwires O pr e k sk m ws xs es -> ltables O pr e k m ws ts fs ->
  mplain k p xs fs = Ok (xs', fs') -> mnoise k (worst_noise pr sk Bb Bk d d') (round_err pr sk) p es = Ok es' ->
  exists nw ts' m', mexec O pr ck e gk k p ws ts m = Ok (ws ++ nw, ts', m') /\
    lwires O pr e k sk m' (ws ++ nw) xs' es' /\ ltables O pr e k m' (ws ++ nw) ts' fs' /\
    (forall i r x E, get (ws ++ nw) i = Ok r -> get xs' i = Ok x -> get es' i = Ok E -> E < 2 ^ (30 - k) ->
       DecryptLWEMessage (lv0_N pr) (tm m' r) (2 ^ k) (KeyLv0 sk) = Ok (x mod 2 ^ k)) /\
    (forall i r b E, get (ws ++ nw) i = Ok r -> get xs' i = Ok (bit_pos k b) -> get es' i = Ok E -> E < 2 ^ 29 ->
       DecryptBool (lv0_N pr) (tm m' r) (KeyLv0 sk) = Ok b) /\
    kept_but O e (moutputs p) ws m m' /\ (forall x, In x nw -> ~ user m e x) /\ reachable O pr e m' /\ key_at O m' e gk ck.
Proof. exact mp_float64. Qed.
Print Assumptions C61_program_float64.

(** The encryption of a bit is the encryption of its position. *)
Theorem C61_bits : forall n s c k b E, 2 <= k <= 30 ->
  (encrypts n s c b E <-> encodes n s c (2 ^ k) (bit_pos k b) E).
Proof. intros n s c k b E Hk. split; [apply bit_encodes; exact Hk|apply encodes_bit; exact Hk]. Qed.
Print Assumptions C61_bits.

(** Any predicate of an encrypted message, as a bit for the gates. *)
Theorem C61_to_bit_float64 : forall mc O pr sk rk rb ck Bb Bk d d' e gk k P a (m : mem (FP O)) ws ts xs fs es x E,
  mc_ok mc -> setup (f64_arith mc) O pr sk rk rb ck ->
  fft_error_within pr d d' -> key_noise_within pr rk rb Bb Bk -> 0 <= Bb -> 0 <= Bk -> 0 <= d' -> 2 <= k < g_NBIT pr ->
  reachable O pr e m -> key_at O m e gk ck -> ~ In (rA (gk_testvec gk)) ws -> ~ In (rB (gk_testvec gk)) ws ->
  lwires O pr e k sk m ws xs es -> ltables O pr e k m ws ts fs ->
  get xs a = Ok x -> 0 <= x < 2 ^ k -> get es a = Ok E -> E + round_err pr sk < 2 ^ (30 - k) ->
  2 * worst_noise pr sk Bb Bk d d' + 1 < 2 ^ 29 ->
  exists nw r ts' m', mexec O pr ck e gk k (message_to_bit k P a (zlen ws)) ws ts m = Ok (ws ++ nw ++ [r], ts', m') /\ zlen nw = 3 /\
    encrypts (lv0_N pr) (KeyLv0 sk) (tm m' r) (P x) (2 * worst_noise pr sk Bb Bk d d' + 1) /\
    DecryptBool (lv0_N pr) (tm m' r) (KeyLv0 sk) = Ok (P x) /\ user_kept e m m' /\ reachable O pr e m' /\ key_at O m' e gk ck.
Proof. exact to_bit_float64. Qed.
Print Assumptions C61_to_bit_float64.

(** The result of a gate, as the message 1 or 0. *)
Theorem C61_to_message_float64 : forall mc O pr sk rk rb ck Bb Bk d d' e gk k a (m : mem (FP O)) ws ts xs fs es b E,
  mc_ok mc -> setup (f64_arith mc) O pr sk rk rb ck ->
  fft_error_within pr d d' -> key_noise_within pr rk rb Bb Bk -> 0 <= Bb -> 0 <= Bk -> 0 <= d' -> 2 <= k < g_NBIT pr ->
  reachable O pr e m -> key_at O m e gk ck -> ~ In (rA (gk_testvec gk)) ws -> ~ In (rB (gk_testvec gk)) ws ->
  lwires O pr e k sk m ws xs es -> ltables O pr e k m ws ts fs ->
  get xs a = Ok (bit_pos k b) -> get es a = Ok E -> E + round_err pr sk < 2 ^ (30 - k) -> worst_noise pr sk Bb Bk d d' < 2 ^ (30 - k) ->
  exists r ts' m', mexec O pr ck e gk k (bit_to_message k a) ws ts m = Ok (ws ++ [r], ts', m') /\
    encodes (lv0_N pr) (KeyLv0 sk) (tm m' r) (2 ^ k) (if b then 1 else 0) (worst_noise pr sk Bb Bk d d') /\
    DecryptLWEMessage (lv0_N pr) (tm m' r) (2 ^ k) (KeyLv0 sk) = Ok (if b then 1 else 0) /\ user_kept e m m' /\ reachable O pr e m' /\ key_at O m' e gk ck.
Proof. exact to_message_float64. Qed.
Print Assumptions C61_to_message_float64.

(** ** A case *)

(** every setup has states to start from *)
Example C61_start : forall R O pr sk rk rb ck, setup R O pr sk rk rb ck -> g_N pr <> lv0_N pr + 1 -> forall k (xs : list Z) (r : Z -> enc_rand) E, 0 <= k < 20 ->
  Forall (fun x => 0 <= x < 2 ^ k) xs -> (forall i, Z.abs (centered (F64ToTorus (er_noise (r i)))) <= E) ->
  exists e (m : mem (FP O)) gk ws, reachable O pr e m /\ key_at O m e gk ck /\ ~ In (rA (gk_testvec gk)) ws /\ ~ In (rB (gk_testvec gk)) ws /\
    lwires O pr e k sk m ws xs (map (fun _ => E + 1) xs).
Proof. exact mix_start. Qed.

(** two messages x, y of modulus 32: the bits "x < 10" and "y is odd", gates on
    them, and the result as a message that is used in a sum and a table *)
Definition decide : list mcall :=
  message_to_bit 5 (fun x => x <? 10) 0 2 ++          (* 2..5: the bit x < 10 *)
  message_to_bit 5 Z.odd 1 6 ++                       (* 6..9: the bit "y is odd" *)
  [MGate (IGate Gxor 5 9);                            (* 10 *)
   MGate (IMux 10 5 9);                               (* 11 *)
   MGate (INot 11)] ++                                (* 12 *)
  bit_to_message 5 12 ++                              (* 13: 1 or 0 *)
  [MMsg (LAddMul 0 13 2); MMsg (LFunc (fun x => x * x) 14)].  (* 14: x + 2 * that, 15: its square *)
Example decide_plain : exists fs, mplain 5 decide [3; 7] [] =
  Ok ([3; 7; 8; 8; 16; 8; 8; 8; 16; 8; 56; 8; 56; 0; 3; 9], fs) /\ exists gs, mplain 5 decide [12; 7] [] =
  Ok ([12; 7; 0; 8; 0; 56; 8; 8; 16; 8; 8; 56; 8; 1; 14; 4], gs).
Proof. eexists. split; [vm_compute; reflexivity|]. eexists. vm_compute. reflexivity. Qed.
Example decide_noise : exists es, mnoise 5 (worst_noise mid mid_key 16 16 29 0) (round_err mid mid_key) decide [17; 17] = Ok es /\
  es = [17; 17; 9466551; 1; 18933102; 18933103; 9466551; 1; 18933102; 18933103; 9466551; 9466551; 9466551; 9466551; 18933119; 9466551].
Proof. eexists. split; vm_compute; reflexivity. Qed.

Example C61_decide : exists mc O ck, mc_ok mc /\ setup (f64_arith mc) O mid mid_key tiny_rk tiny_rb ck /\
  exists e (m : mem (FP O)) gk x y, reachable O mid e m /\ key_at O m e gk ck /\ lwires O mid e 5 mid_key m [x; y] [12; 7] [17; 17] /\
  exists ws ts m' b1 b2 b3 b4 v, mexec O mid ck e gk 5 decide [x; y] [] m = Ok (ws, ts, m') /\
    map (get ws) [5; 9; 10; 12; 15] = map Ok [b1; b2; b3; b4; v] /\
    map (fun r => DecryptBool 3 (tm m' r) [1; 0; 1]) [b1; b2; b3; b4] = map Ok [false; true; true; true] /\
    DecryptLWEMessage 3 (tm m' v) 32 [1; 0; 1] = Ok 4.
Proof.
  destruct (setup_exists (f64_arith mc0) mid mid_key tiny_rk tiny_rb mid_params ltac:(cbn; lia) mid_key_ok) as (O & ck & S).
  exists mc0, O, ck. split; [exact mc0_ok|]. split; [exact S|]. destruct mid_worst as (W1 & _ & _).
  destruct (C61_start _ O mid mid_key tiny_rk tiny_rb ck S ltac:(cbn; lia) 5 [12; 7] tiny_rk 16 ltac:(lia)) as (e & m & gk & w & Hr & Hg & A1 & A2 & HW).
  { repeat (constructor; [cbn; lia|]). constructor. }
  { intro i. apply small_noise_le. }
  assert (Lw: exists x y, w = [x; y]).
  { destruct HW as (L & _). unfold zlen in L. apply Nat2Z.inj in L. destruct w as [|x [|y [|? ?]]]; try discriminate L. eauto. }
  destruct Lw as (x & y & ->). exists e, m, gk, x, y. split; [exact Hr|]. split; [exact Hg|]. split; [exact HW|].
  destruct decide_plain as (_ & _ & gs & Hp). destruct decide_noise as (es & Hn & Hes).
  destruct (C61_program_float64 mc0 O mid mid_key tiny_rk tiny_rb ck 16 16 29 0 e gk 5 decide m [x; y] [] _ _ _ _ _ _ mc0_ok S W1 mid_key_noise
    ltac:(lia) ltac:(lia) ltac:(lia) ltac:(cbn; lia) Hr Hg A1 A2 HW (Forall2_nil _) Hp Hn) as (nw & ts & m' & E1 & (L1 & _) & _ & D & B & _).
  unfold zlen in L1. apply Nat2Z.inj in L1. do 14 (destruct nw as [|? nw]; [discriminate L1|]). destruct nw; [|discriminate L1].
  cbn [app] in *. eexists _, ts, m', _, _, _, _, _. split; [exact E1|]. split; [reflexivity|]. subst es.
  split.
  - cbn [map]. repeat (apply f_equal2; [first [solve [eapply (B 5 _ false); reflexivity]|solve [eapply (B 9 _ true); reflexivity]|solve [eapply (B 10 _ true); reflexivity]|eapply (B 12 _ true); reflexivity]|]). reflexivity.
  - eapply (D 15 _ 4); reflexivity.
Qed.

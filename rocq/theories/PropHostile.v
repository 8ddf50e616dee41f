(** * One server, many clients, some of them hostile

    C66: a server keeps one evaluator for all its clients.  A client's cloud
    key and ciphertexts may contain anything, as long as the slices have the
    right lengths: no call panics, no call changes a buffer that is not one of
    its outputs, and nothing such a client did can change what a later client
    gets.  The vocabulary is in HostileSpec.v. *)
From Coq Require Import Lia List.
From Flocq Require Import BinarySingleNaN.
From Verif Require Import GoBase GoMem F64 Utils Spec Params Key Tlwe TlweMem Poly Fft FftTabErr Trlwe Trgsw Lut Evaluator CloudKey Gates RunSpec LutSpec Circuit LutProg MixProg HostileSpec
  Tiny TinyRun RunWorst PropLut PropMix LutProgProps HostileProps.
Import ListNotations.
Local Open Scope Z_scope.

(** ** C66 *)

(** Programs of gates, linear operations and programmable bootstraps never
    panic, whatever is in the keys and the ciphertexts. *)
Theorem C66_total : forall R tw twi pr ck ck' e (m : mem (FP (fft_ops R tw twi))) gk k p ws ts,
  good_params pr -> transform R tw twi pr ->
  key_shape R tw twi pr ck -> key_shape R tw twi pr ck' -> any_history R tw twi pr e m -> key_at _ m e gk ck' -> 0 <= k ->
  received R tw twi pr e m gk ws ts -> asks_all p (zlen ws) (zlen ts) ->
  exists nw ts' m', mexec _ pr ck e gk k p ws ts m = Ok (ws ++ nw, ts', m') /\
    received R tw twi pr e m' gk (ws ++ nw) ts' /\ kept_but _ e (moutputs p) ws m m' /\ (forall x, In x nw -> ~ user m e x) /\
    any_history R tw twi pr e m' /\ key_at _ m' e gk ck'.
Proof. exact h_total. Qed.
Print Assumptions C66_total.

(** The same for Bootstrap itself, with separate bootstrapping and switching keys. *)
Theorem C66_bootstrap : forall R tw twi pr e (m : mem (FP (fft_ops R tw twi))) bsk ksk off ct tvr tv,
  good_params pr -> transform R tw twi pr ->
  boot_shape R tw twi pr bsk -> switch_shape pr ksk -> any_history R tw twi pr e m -> input _ pr m e ct -> table _ pr m e tvr tv ->
  exists r m', Bootstrap _ pr m e ct tvr bsk ksk off = Ok (r, m') /\ zlen (tm m' r) = lv0_N pr + 1 /\ user_kept e m m' /\ any_history R tw twi pr e m'.
Proof. exact h_boot. Qed.
Print Assumptions C66_bootstrap.

(** What a client gets depends on its own key, ciphertexts and tables alone:
    two servers, with whatever histories, give the same numbers. *)
Theorem C66_same : forall R tw twi pr ck ck' k p e1 e2 (m1 m2 : mem (FP (fft_ops R tw twi))) gk1 gk2 ws1 ws2 ts1 ts2,
  good_params pr -> transform R tw twi pr ->
  key_shape R tw twi pr ck -> key_shape R tw twi pr ck' -> 0 <= k ->
  any_history R tw twi pr e1 m1 -> key_at _ m1 e1 gk1 ck' -> received R tw twi pr e1 m1 gk1 ws1 ts1 ->
  any_history R tw twi pr e2 m2 -> key_at _ m2 e2 gk2 ck' -> received R tw twi pr e2 m2 gk2 ws2 ts2 ->
  same_contents R tw twi m1 ws1 ts1 m2 ws2 ts2 -> asks_all p (zlen ws1) (zlen ts1) ->
  exists nw1 ts1' m1' nw2 ts2' m2',
    mexec _ pr ck e1 gk1 k p ws1 ts1 m1 = Ok (ws1 ++ nw1, ts1', m1') /\ mexec _ pr ck e2 gk2 k p ws2 ts2 m2 = Ok (ws2 ++ nw2, ts2', m2') /\
    same_contents R tw twi m1' (ws1 ++ nw1) ts1' m2' (ws2 ++ nw2) ts2'.
Proof. exact h_same. Qed.
Print Assumptions C66_same.

(** A client with a real key gets correct results, whoever came before. *)
Theorem C66_honest : forall R tw twi pr sk rk rb ck e gk k T p (m : mem (FP (fft_ops R tw twi))) ws ts xs fs es xs' fs' es',
  transform R tw twi pr -> setup R (fft_ops R tw twi) pr sk rk rb ck -> 2 <= k < g_NBIT pr ->
  any_history R tw twi pr e m -> key_at _ m e gk ck -> ~ In (rA (gk_testvec gk)) ws -> ~ In (rB (gk_testvec gk)) ws ->
  lwires _ pr e k sk m ws xs es -> ltables _ pr e k m ws ts fs ->
  mplain k p xs fs = Ok (xs', fs') -> mnoise k T (round_err pr sk) p es = Ok es' ->
  (forall f c, zlen c = lv0_N pr + 1 -> mix_noise _ pr ck k sk f c T) ->
  exists nw ts' m', mexec _ pr ck e gk k p ws ts m = Ok (ws ++ nw, ts', m') /\
    lwires _ pr e k sk m' (ws ++ nw) xs' es' /\ ltables _ pr e k m' (ws ++ nw) ts' fs' /\
    (forall i r x E, get (ws ++ nw) i = Ok r -> get xs' i = Ok x -> get es' i = Ok E -> E < 2 ^ (30 - k) ->
       DecryptLWEMessage (lv0_N pr) (tm m' r) (2 ^ k) (KeyLv0 sk) = Ok (x mod 2 ^ k)) /\
    (forall i r b E, get (ws ++ nw) i = Ok r -> get xs' i = Ok (bit_pos k b) -> get es' i = Ok E -> E < 2 ^ 29 ->
       DecryptBool (lv0_N pr) (tm m' r) (KeyLv0 sk) = Ok b) /\
    kept_but _ e (moutputs p) ws m m' /\ (forall x, In x nw -> ~ user m e x) /\ any_history R tw twi pr e m' /\ key_at _ m' e gk ck.
Proof. exact h_honest. Qed.
Print Assumptions C66_honest.

Theorem C66_honest_float64 : forall mc tw twi pr sk rk rb ck Bb Bk d d' e gk k p (m : mem (FP (fft_ops (f64_arith mc) tw twi))) ws ts xs fs es xs' fs' es',
  mc_ok mc -> transform (f64_arith mc) tw twi pr -> setup (f64_arith mc) (fft_ops (f64_arith mc) tw twi) pr sk rk rb ck ->
  fft_error_within pr d d' -> key_noise_within pr rk rb Bb Bk -> 0 <= Bb -> 0 <= Bk -> 0 <= d' -> 2 <= k < g_NBIT pr ->
  any_history (f64_arith mc) tw twi pr e m -> key_at _ m e gk ck -> ~ In (rA (gk_testvec gk)) ws -> ~ In (rB (gk_testvec gk)) ws ->
  lwires _ pr e k sk m ws xs es -> ltables _ pr e k m ws ts fs ->
  mplain k p xs fs = Ok (xs', fs') -> mnoise k (worst_noise pr sk Bb Bk d d') (round_err pr sk) p es = Ok es' ->
  exists nw ts' m', mexec _ pr ck e gk k p ws ts m = Ok (ws ++ nw, ts', m') /\
    lwires _ pr e k sk m' (ws ++ nw) xs' es' /\ ltables _ pr e k m' (ws ++ nw) ts' fs' /\
    (forall i r x E, get (ws ++ nw) i = Ok r -> get xs' i = Ok x -> get es' i = Ok E -> E < 2 ^ (30 - k) ->
       DecryptLWEMessage (lv0_N pr) (tm m' r) (2 ^ k) (KeyLv0 sk) = Ok (x mod 2 ^ k)) /\
    (forall i r b E, get (ws ++ nw) i = Ok r -> get xs' i = Ok (bit_pos k b) -> get es' i = Ok E -> E < 2 ^ 29 ->
       DecryptBool (lv0_N pr) (tm m' r) (KeyLv0 sk) = Ok b) /\
    kept_but _ e (moutputs p) ws m m' /\ (forall x, In x nw -> ~ user m e x) /\ any_history (f64_arith mc) tw twi pr e m' /\ key_at _ m' e gk ck.
Proof. exact h_float64. Qed.
Print Assumptions C66_honest_float64.

(** Real keys have the shape, so has a key of any constant, and a client may
    come to a server in any state. *)
Theorem C66_keys : forall R tw twi pr sk rk rb (ck : CloudKey (fft_ops R tw twi)),
  transform R tw twi pr -> setup R (fft_ops R tw twi) pr sk rk rb ck -> key_shape R tw twi pr ck.
Proof. exact h_keys. Qed.
Print Assumptions C66_keys.

Theorem C66_join : forall R tw twi pr (ck : CloudKey (fft_ops R tw twi)) e (m : mem (FP (fft_ops R tw twi))) vs,
  good_params pr -> transform R tw twi pr -> any_history R tw twi pr e m ->
  exists (m' : mem (FP (fft_ops R tw twi))) gk ws, any_history R tw twi pr e m' /\ user_kept e m m' /\ key_at _ m' e gk ck /\
    Forall2 (fun x v => user m' e x /\ tm m' x = v) ws vs /\ NoDup ws /\ ~ In (rA (gk_testvec gk)) ws /\ ~ In (rB (gk_testvec gk)) ws.
Proof. exact h_join. Qed.
Print Assumptions C66_join.

(** ** A case: the first client's key is NaN throughout and its ciphertexts are
    arbitrary; the second client's program (PropMix.v) still decrypts *)
Definition nuisance : list mcall :=
  [MGate (IGate Gnand 0 1); MGate (IMux 0 1 2); MMsg (LTable (fun x => x * x)); MMsg (LLut 0 3); MMsg (LFuncInto (fun x => - x) 4 0); MMsg (LAddInto 0 4 1)].

Example C66_case : forall c d : list Z, zlen c = 4 -> zlen d = 4 -> exists mc tw twi ck, mc_ok mc /\ transform (f64_arith mc) tw twi mid /\
  setup (f64_arith mc) (fft_ops (f64_arith mc) tw twi) mid mid_key tiny_rk tiny_rb ck /\
  let bad := constant_key (f64_arith mc) tw twi mid B754_nan 12345 in
  exists e m0 gk0 ws0 ws0' ts0 m1 m2 gk x y,
    any_history _ tw twi mid e m0 /\ key_at _ m0 e gk0 bad /\ map (tm m0) ws0 = [c; d] /\
    mexec _ mid bad e gk0 5 nuisance ws0 [] m0 = Ok (ws0 ++ ws0', ts0, m1) /\ user_kept e m1 m2 /\
    lwires _ mid e 5 mid_key m2 [x; y] [12; 7] [17; 17] /\
    exists ws ts m3 b1 b2 b3 b4 v, mexec _ mid ck e gk 5 decide [x; y] [] m2 = Ok (ws, ts, m3) /\
      map (get ws) [5; 9; 10; 12; 15] = map Ok [b1; b2; b3; b4; v] /\
      map (fun r => DecryptBool 3 (tm m3 r) [1; 0; 1]) [b1; b2; b3; b4] = map Ok [false; true; true; true] /\
      DecryptLWEMessage 3 (tm m3 v) 32 [1; 0; 1] = Ok 4.
Proof.
  intros c d Hc Hd. destruct (h_transform (f64_arith mc0) mid mid_params ltac:(cbn; lia)) as (tw & twi & TR).
  destruct (h_setup (f64_arith mc0) tw twi mid mid_key tiny_rk tiny_rb mid_params TR mid_key_ok) as (ck & S).
  exists mc0, tw, twi, ck. split; [exact mc0_ok|]. split; [exact TR|]. split; [exact S|]. intro bad.
  assert (SB: key_shape (f64_arith mc0) tw twi mid bad) by exact (h_constant (f64_arith mc0) tw twi mid B754_nan 12345 mid_params TR).
  destruct (h_any (f64_arith mc0) tw twi mid bad [c; d] mid_params TR SB) as (e & m0 & gk0 & ws0 & H0 & K0 & R0 & V0).
  { repeat (constructor; [assumption|]). constructor. }
  assert (L0: zlen ws0 = 2).
  { assert (X: length (map (tm m0) ws0) = 2%nat) by (rewrite V0; reflexivity). rewrite map_length in X. unfold zlen. rewrite X. reflexivity. }
  destruct (C66_total (f64_arith mc0) tw twi mid bad bad e m0 gk0 5 nuisance ws0 [] mid_params TR SB SB H0 K0 ltac:(lia) R0) as (ws0' & ts0 & m1 & E1 & _ & _ & _ & H1 & _).
  { rewrite L0. cbn. unfold at_hand. lia. }
  destruct mid_worst as (W1 & _ & _).
  destruct (C61_start _ _ mid mid_key tiny_rk tiny_rb ck S ltac:(cbn; lia) 5 [12; 7] tiny_rk 16 ltac:(lia)) as (e' & m' & gk' & w & _ & _ & _ & _ & HW).
  { repeat (constructor; [cbn; lia|]). constructor. }
  { intro i. apply small_noise_le. }
  assert (Lw: exists x y, w = [x; y]).
  { destruct HW as (L & _). unfold zlen in L. apply Nat2Z.inj in L. destruct w as [|x [|y [|? ?]]]; try discriminate L. eauto. }
  destruct Lw as (x' & y' & ->).
  destruct (C66_join (f64_arith mc0) tw twi mid ck e m1 [tm m' x'; tm m' y'] mid_params TR H1) as (m2 & gk & ws & H2 & KE & KK & F & ND & A1 & A2).
  inversion F as [|x a l1 l2 [Ux Vx] F1]; subst. inversion F1 as [|y b l3 l4 [Uy Vy] F2]; subst. inversion F2; subst.
  exists e, m0, gk0, ws0, ws0', ts0, m1, m2, gk, x, y. split; [exact H0|]. split; [exact K0|]. split; [exact V0|]. split; [exact E1|]. split; [exact KE|].
  assert (HW2: lwires (fft_ops (f64_arith mc0) tw twi) mid e 5 mid_key m2 [x; y] [12; 7] [17; 17]).
  { destruct HW as (_ & _ & _ & HW). split; [reflexivity|]. split; [reflexivity|]. split; [exact ND|]. intros i Hi.
    assert (C: i = 0 \/ i = 1) by (cbn in Hi; lia). destruct C as [-> | ->]; destruct (HW _ Hi) as (_ & Z1 & Z2); (split; [|split; [exact Z1|]]).
    - exact Ux.
    - change (zn [x; y] 0) with x. rewrite Vx. exact Z2.
    - exact Uy.
    - change (zn [x; y] 1) with y. rewrite Vy. exact Z2. }
  split; [exact HW2|].
  destruct decide_plain as (_ & _ & gs & Hp). destruct decide_noise as (es & Hn & Hes).
  destruct (C66_honest_float64 mc0 tw twi mid mid_key tiny_rk tiny_rb ck 16 16 29 0 e gk 5 decide m2 [x; y] [] _ _ _ _ _ _ mc0_ok TR S W1 mid_key_noise
    ltac:(lia) ltac:(lia) ltac:(lia) ltac:(cbn; lia) H2 KK A1 A2 HW2 (Forall2_nil _) Hp Hn) as (nw & ts & m3 & E3 & (L1 & _) & _ & D & B & _).
  unfold zlen in L1. apply Nat2Z.inj in L1. do 14 (destruct nw as [|? nw]; [discriminate L1|]). destruct nw; [|discriminate L1].
  cbn [app] in *. eexists _, ts, m3, _, _, _, _, _. split; [exact E3|]. split; [reflexivity|]. subst es.
  split.
  - cbn [map]. repeat (apply f_equal2; [first [solve [eapply (B 5 _ false); reflexivity]|solve [eapply (B 9 _ true); reflexivity]|solve [eapply (B 10 _ true); reflexivity]|eapply (B 12 _ true); reflexivity]|]). reflexivity.
  - eapply (D 15 _ 4); reflexivity.
Qed.

(** * States in which the theorems about evaluators start *)
From Coq Require Import Lia ZifyBool Setoid Morphisms List.
From Verif Require Import GoBase GoFacts GoMem MemFacts F64 Utils UtilsFacts Params Key Tlwe TlweMem TlweFacts BasicFacts
  Poly PolyFacts NegFacts Laws Fft FftTabErr Trlwe TrlweFacts Trgsw TrgswFacts RotFacts KeySwitchFacts Lut Evaluator EvalFacts OldRotFacts
  CloudKey CloudKeyFacts Gates LinFacts RunSpec HeapFacts CallFacts BootFacts Circuit GateFacts NoiseFacts RunProps RlweProps HistProps RunWorst.
Import ListNotations.
Local Open Scope Z_scope.
Ltac Zify.zify_post_hook ::= idtac.

Definition is_ct (N : Z) (c : trlwe) : Prop := zlen (tA c) = N /\ zlen (tB c) = N /\ tok_list (tA c) /\ tok_list (tB c).

(** two TRLWE ciphertexts, room for a third, and a list of LWE ciphertexts *)
Lemma s_start R O pr sk rk rb ck c0 c1 (cts : list (list Z)) : setup R O pr sk rk rb ck -> is_ct (g_N pr) c0 -> is_ct (g_N pr) c1 ->
  exists e (m : mem (FP O)) k r0 r1 out w, reachable O pr e m /\ key_at O m e k ck /\ table O pr m e r0 c0 /\ table O pr m e r1 c1 /\
    room O pr m e out /\ disjoint r0 out /\ disjoint r1 out /\ Forall2 (fun x v => user m e x /\ tm m x = v) w cts.
Proof.
  intros S (A0 & B0 & A0' & B0') (A1 & B1 & A1' & B1').
  destruct (p_start R O pr sk rk rb ck S (tA c0 :: tB c0 :: tA c1 :: tB c1 :: tA c0 :: tB c0 :: cts)) as (e & m & k & w & Hr & Hk & F & D).
  inversion F as [|a0 ? w1 ? [U1 V1] F1]; subst. inversion F1 as [|b0 ? w2 ? [U2 V2] F2]; subst.
  inversion F2 as [|a1 ? w3 ? [U3 V3] F3]; subst. inversion F3 as [|b1 ? w4 ? [U4 V4] F4]; subst.
  inversion F4 as [|oa ? w5 ? [U5 V5] F5]; subst. inversion F5 as [|ob ? w6 ? [U6 V6] F6]; subst.
  clear F F1 F2 F3 F4 F5.
  repeat match goal with H : NoDup (_ :: _) |- _ => apply NoDup_cons_iff in H; destruct H; cbn [In] in * end.
  exists e, m, k, {| rA := a0; rB := b0 |}, {| rA := a1; rB := b1 |}, {| rA := oa; rB := ob |}, w6.
  unfold table, room, disjoint. cbn [rA rB]. split; [exact Hr|]. split; [exact Hk|]. split; [auto 10|]. split; [auto 10|].
  split; [|split; [|split; [|exact F6]]].
  - split; [exact U5|]. split; [exact U6|]. split; [intros ->; tauto|]. split; congruence.
  - repeat split; intros ->; tauto.
  - repeat split; intros ->; tauto.
Qed.

Lemma s_pstart R O pr (bufs : list (list Z)) : good_params pr -> fft_evaluator R (g_N pr) = Ok O ->
  exists p (m : mem (FP O)) w, preachable O pr p m /\ Forall2 (fun x v => puser O m p x /\ tm m x = v) w bufs.
Proof.
  intros [W HBG] EO. destruct (laws_of _ _ _ EO) as [L _].
  destruct (NewPolyEvaluator_ok L (empty_mem (f_nil O))) as (m0 & E0 & X0 & _).
  set (p := {| pe_deg := _; pe_t := _; pe_f := _; pe_i := _ |}) in E0. exists p.
  assert (R0: preachable O pr p m0) by (eapply pr_new; [apply empty_ok|exact E0]).
  assert (T0: pe_t p + 24 <= tnext m0) by (destruct X0 as (G & N1 & _); unfold p; cbn [pe_t]; lia).
  assert (G: exists m w, preachable O pr p m /\ tnext m0 <= tnext m /\ Forall2 (fun x v => puser O m p x /\ tm m x = v) w bufs).
  { induction bufs as [|v bs IH]; [exists m0, []; split; [exact R0|split; [lia|constructor]]|].
    destruct IH as (m & w & Rm & Tm & F). exists (snd (alloc m v)), (tnext m :: w).
    assert (K: forall x, x <> tnext m -> tm (snd (alloc m v)) x = tm m x).
    { intros x Hx. unfold alloc. cbn [snd tm]. destruct (Z.eqb_spec x (tnext m)); [contradiction|reflexivity]. }
    split; [|split; [cbn [alloc snd tnext]; lia|]].
    - eapply pr_other; [exact Rm| | | | | |]; try (intros; reflexivity); try (cbn [alloc snd tnext fnext inext]; lia).
      intros x Hx. apply K. unfold pown in Hx. lia.
    - constructor.
      + split; [|apply alloc_at]. split; [cbn [alloc snd tnext]|unfold pown; lia]. pose proof (preach_ok L pr W HBG p m Rm) as [_ Hm]. unfold mem_ok in Hm. lia.
      + revert F. apply Forall2_impl'. intros x u [[Hx Hn] Hv]. split; [split; [cbn [alloc snd tnext]; lia|exact Hn]|]. rewrite K by lia. exact Hv. }
  destruct G as (m & w & Rm & _ & F). exists m, w. split; assumption.
Qed.

Lemma s_trgsw R O pr key p rs : good_params pr -> fft_evaluator R (g_N pr) = Ok O -> zlen key = g_N pr -> exists g, trgsw_of O pr key p rs g.
Proof. intros [W HBG] EO Hk. destruct (laws_of _ _ _ EO) as [L _]. apply (trgsw_exists L pr W). exact Hk. Qed.

(** any number of bootstraps can follow *)
Lemma s_after R O pr sk rk rb ck : setup R O pr sk rk rb ck -> forall keep e (m : mem (FP O)) ct tvr tv,
  reachable O pr e m -> user m e ct -> zlen (tm m ct) = lv0_N pr + 1 -> table O pr m e tvr tv ->
  forall j, 0 <= j -> exists m2, after O pr e keep j m m2 /\ reachable O pr e m2 /\ user m2 e ct /\ tm m2 ct = tm m ct /\ table O pr m2 e tvr tv.
Proof.
  intros S keep e m ct tvr tv Hr Hu Hl Ht j Hj. revert j Hj. refine (natlike_ind (fun j => exists m2, after O pr e keep j m m2 /\ reachable O pr e m2 /\ user m2 e ct /\ tm m2 ct = tm m ct /\ table O pr m2 e tvr tv) _ _).
  - exists m. split; [constructor|]. auto.
  - intros j Hj (m1 & Ha & Hr1 & Hu1 & Hv1 & Ht1). pose proof S as S'. open_setup S.
    assert (Hi: input O pr m1 e ct) by (split; [rewrite Hv1; exact Hl|left; exact Hu1]).
    destruct (boot_run L pr W HBG sk rk rb ck Hsk Hck e m1 ct tvr tv Hr1 Hi Ht1) as (m2 & E & _ & _ & R2 & _).
    assert (K: forall kp, uses O pr e kp 1 m1 m2) by (intro kp; eapply u_boot; eassumption).
    assert (U: forall x, user m1 e x -> user m2 e x /\ tm m2 x = tm m1 x).
    { intros x Hx. apply (h_user R O pr sk rk rb ck S' e m1 m2 x Hr1 Hx). eapply rn_uses; [apply rn_refl|apply K]. }
    exists m2. split; [|split; [exact R2|]].
    + unfold Z.succ. eapply af_uses; [exact Ha|apply K].
    + destruct (U ct Hu1) as [U1 V1]. split; [exact U1|]. split; [congruence|].
      destruct Ht1 as (Ea & Eb & A & B & C). destruct (U _ A) as [A1 A2]. destruct (U _ B) as [B1 B2].
      unfold table. split; [congruence|]. split; [congruence|]. split; [exact A1|]. split; [exact B1|]. exact C.
Qed.

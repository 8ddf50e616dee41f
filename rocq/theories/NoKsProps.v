(** * The bootstrap without key switching *)
From Coq Require Import Lia ZifyBool List.
From Verif Require Import GoBase GoFacts GoMem MemFacts F64 Utils UtilsFacts Params Key Tlwe TlweMem TlweFacts BasicFacts
  Poly PolyFacts NegFacts Laws Fft Trlwe TrlweFacts Trgsw TrgswFacts RotFacts KeySwitchFacts Lut Evaluator EvalFacts
  CloudKey CloudKeyFacts Gates LinFacts Spec RunSpec HeapFacts BootFacts Circuit GateFacts NoiseFacts RunProps.
Import ListNotations.
Local Open Scope Z_scope.
Ltac Zify.zify_post_hook ::= idtac.

Lemma noks_iff (R : arith) O pr sk rk rb ck : setup R O pr sk rk rb ck -> forall e (m : mem (FP O)) gk c,
  reachable O pr e m -> key_at O m e gk ck -> user m e c -> zlen (tm m c) = lv0_N pr + 1 ->
  (exists r, bootstrapWithoutKeySwitch O pr m e c gk = Ok r) <-> lv0_N pr = g_N pr.
Proof.
  intros S e m gk c Hr Hk Hu Hc. pose proof S as S'. open_setup S'. pose proof (pw_n _ _ W) as Hn. pose proof (law_N L) as H16.
  pose proof (pw_trN _ _ W) as HT. set (N := g_N pr) in *.
  destruct (cloud_facts L pr W HBG _ _ _ _ Hsk Hck) as (Hb & _).
  set (z := repeat 0 (Z.to_nat N)). assert (Lz: zlen z = N) by (unfold z; rewrite zlen_repeat; lia).
  assert (Et: NewTRLWELv1 pr = Ok {| tA := z; tB := z |}) by (unfold NewTRLWELv1; rewrite HT, make_ok by lia; reflexivity).
  destruct (fresh_ok L pr W HBG e m z Hr) as (m1 & E1 & T1 & R1 & U1 & K1 & N1).
  destruct (fresh_ok L pr W HBG e m1 z R1) as (m2 & E2 & T2 & R2 & U2 & K2 & N2).
  assert (A1: alloc m z = (tnext m, m1)) by (unfold fresh in E1; cbn [bind] in E1; injection E1 as E1; rewrite <- E1; reflexivity).
  assert (A2: alloc m1 z = (tnext m1, m2)) by (unfold fresh in E2; cbn [bind] in E2; injection E2 as E2; rewrite <- E2; reflexivity).
  destruct (K1 c Hu) as [Uc1 Ec1]. destruct (K2 c Uc1) as [Uc2 Ec2]. destruct (K2 _ U1) as [UA2 EA2].
  pose proof (keeps_key _ _ _ _ _ K2 (keeps_key _ _ _ _ _ K1 Hk)) as Hk2.
  destruct (reach_ok L pr W HBG e m2 R2) as [He2 _].
  destruct (key_at_gk L pr W HBG sk rk rb ck Hsk Hck m2 e gk Hk2) as (_ & G1 & G2 & _).
  destruct (table_tvp L pr W _ _ _ _ He2 (key_at_table L pr W HBG sk rk rb ck Hsk Hck m2 e gk Hk2)) as (Hat & Hct & NA & NB).
  assert (NS: forall x, user m2 e x -> forall j, 0 <= j <= 11 -> ~ scr e j x).
  { intros x Hx j Hj A. apply (proj2 Hx). eapply scr_own; [exact W|exact He2| |exact A]; lia. }
  assert (NBk: forall x, user m2 e x -> ~ blk (bp_t (ev_bp e) + 4) 4 x).
  { intros x Hx A. apply (proj2 Hx). pose proof (eo_t1 _ _ _ _ He2). pose proof (eo_t2 _ _ _ _ He2). pose proof (eo_lv _ _ _ _ He2). pose proof (pw_l _ _ W). unfold own, blk in *. lia. }
  destruct (BlindRotateAssign_ok L pr W m2 e c (gk_testvec gk) (BlindRotateTestvec ck) (BootstrappingKey ck) (DecompositionOffset ck) {| rA := tnext m; rB := tnext m1 |})
    as (m3 & E3 & _ & S3); try assumption; cbn [rA rB].
  { rewrite Ec2, Ec1. exact Hc. }
  { apply NS; [exact Uc2|lia]. }
  { apply NBk, UA2. }
  { apply NBk, U2. }
  { rewrite EA2, T1. exact Lz. }
  { rewrite T2. exact Lz. }
  { lia. }
  assert (LA: zlen (tm m3 (tnext m)) = N) by (rewrite (step_len _ _ _ _ _ _ _ S3), EA2, T1; exact Lz).
  assert (LB: zlen (tm m3 (tnext m1)) = N) by (rewrite (step_len _ _ _ _ _ _ _ S3), T2; exact Lz).
  unfold bootstrapWithoutKeySwitch. rewrite Et. cbn [bind tA tB]. rewrite A1, A2, G1, G2, E3. cbn [bind].
  split.
  - intros [r H]. destruct (Z.eq_dec (lv0_N pr) N) as [E|E]; [exact E|exfalso].
    pose proof (SampleExtractIndex2_panics pr {| tA := tm m3 (tnext m); tB := tm m3 (tnext m1) |} 0) as P. cbn [tA] in P.
    destruct (SampleExtractIndex2 pr {| tA := tm m3 (tnext m); tB := tm m3 (tnext m1) |} 0); [|discriminate H]. discriminate P. lia.
  - intro E. rewrite (SampleExtractIndex2_ok pr _ 0 N E) by (first [lia|assumption]). eexists. reflexivity.
Qed.

Lemma noks_shipped (R : arith) O level sk rk rb ck : setup R O (get_params level) sk rk rb ck -> forall e (m : mem (FP O)) gk c,
  reachable O (get_params level) e m -> key_at O m e gk ck -> user m e c -> zlen (tm m c) = lv0_N (get_params level) + 1 ->
  is_panic (bootstrapWithoutKeySwitch O (get_params level) m e c gk) = true.
Proof.
  intros S e m gk c Hr Hk Hu Hc. pose proof (noks_iff R O _ sk rk rb ck S e m gk c Hr Hk Hu Hc) as H.
  destruct (bootstrapWithoutKeySwitch O (get_params level) m e c gk) as [r|]; [exfalso|reflexivity].
  destruct S as ([W _] & _). apply (shipped_dims_differ level). rewrite (pw_lv1N _ _ W). symmetry. apply H. exists r. reflexivity.
Qed.

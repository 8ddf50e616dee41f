(** * Two gates on one evaluator *)
From Coq Require Import Lia ZifyBool Setoid Morphisms.
From Verif Require Import GoBase GoFacts GoMem MemFacts F64 Utils UtilsFacts Params Key Tlwe TlweMem TlweFacts BasicFacts
  Poly PolyFacts NegFacts Laws Fft FftTabErr Trlwe TrlweFacts Trgsw TrgswFacts RotFacts KeySwitchFacts Lut Evaluator EvalFacts
  CloudKey CloudKeyFacts Gates LinFacts RunSpec HeapFacts BootFacts Circuit GateFacts NoiseFacts RunProps RunWorst Conc ConcSpec ConcFacts.
Import ListNotations.
Local Open Scope Z_scope.
Ltac Zify.zify_post_hook ::= idtac.

Section Drive.
Context {O : fops} {A : Type}.
Notation M := (mem (FP O)).

(** programs that are about to do what [p] does *)
Definition hole {X} (C : prog O X -> prog O A) : Prop :=
  forall p (m : M) p' m', access p m = Some (Ok (p', m')) -> access (C p) m = Some (Ok (C p', m')).
Lemma hole_bind {X Y} (C : prog O Y -> prog O A) (f : X -> prog O Y) : hole C -> hole (fun p => C (pbind p f)).
Proof.
  intros H p m p' m' E. apply H. destruct p; cbn [access pbind] in *; try discriminate; try (injection E as <- <-; reflexivity).
  - destruct (store m x i v) as [m1|]; [|discriminate]. cbn [bind] in *. injection E as <- <-. reflexivity.
  - destruct (ClearBuffer O m f0) as [m1|]; [|discriminate]. cbn [bind] in *. injection E as <- <-. reflexivity.
  - destruct (ToFourierPolyAssign O m x f0) as [m1|]; [|discriminate]. cbn [bind] in *. injection E as <- <-. reflexivity.
  - destruct (ToPolyAssignUnsafe O m f0 x) as [m1|]; [|discriminate]. cbn [bind] in *. injection E as <- <-. reflexivity.
  - destruct (MulAddFourierPolyAssign O m f0 v g) as [m1|]; [|discriminate]. cbn [bind] in *. injection E as <- <-. reflexivity.
Qed.
Lemma hole_id : hole (fun p => p). Proof. intros p m p' m' E. exact E. Qed.

Lemma go0 (P Q P' : prog O A) (m m' : M) s : access P m = Some (Ok (P', m')) ->
  csched (0 :: s) {| cs_progs := [P; Q]; cs_mem := m |} = csched s {| cs_progs := [P'; Q]; cs_mem := m' |}.
Proof. intro E. cbn [csched]. unfold cstep. cbn [cs_progs cs_mem]. change (get [P; Q] 0) with (Ok P). cbv iota. rewrite E. reflexivity. Qed.
Lemma go1 (P Q Q' : prog O A) (m m' : M) s : access Q m = Some (Ok (Q', m')) ->
  csched (1 :: s) {| cs_progs := [P; Q]; cs_mem := m |} = csched s {| cs_progs := [P; Q']; cs_mem := m' |}.
Proof. intro E. cbn [csched]. unfold cstep. cbn [cs_progs cs_mem]. change (get [P; Q] 1) with (Ok Q). cbv iota. rewrite E. reflexivity. Qed.

Lemma drive0 {X} (C : prog O X -> prog O A) Q : hole C -> forall (p : prog O X) m a m', run p m = Ok (a, m') ->
  exists n, forall s, csched (repeat 0 n ++ s) {| cs_progs := [C p; Q]; cs_mem := m |} = csched s {| cs_progs := [C (Ret a); Q]; cs_mem := m' |}.
Proof.
  intros HC p. induction p as [v|e|x k IH|x i v k IH|d s k IH|v k IH|x k IH|x v k IH|g k IH|x g k IH|g x k IH|g v h k IH]; intros m a m' E; cbn [run] in E; try discriminate.
  - injection E as -> ->. exists 0%nat. reflexivity.
  - destruct (IH _ _ _ _ E) as [n Hn]. exists (Datatypes.S n). intro s. cbn [repeat app]. rewrite <- Hn. apply go0, HC. reflexivity.
  - destruct (store m x i v) as [m1|] eqn:E1; [|discriminate]. cbn [bind] in E. destruct (IH _ _ _ E) as [n Hn]. exists (Datatypes.S n). intro s. cbn [repeat app]. rewrite <- Hn. apply go0, HC. cbn [access]. rewrite E1. reflexivity.
  - destruct (IH _ _ _ E) as [n Hn]. exists (Datatypes.S n). intro t. cbn [repeat app]. rewrite <- Hn. apply go0, HC. reflexivity.
  - destruct (alloc m v) as [x m1] eqn:E1. destruct (IH _ _ _ _ E) as [n Hn]. exists (Datatypes.S n). intro t. cbn [repeat app]. rewrite <- Hn. apply go0, HC. cbn [access]. rewrite E1. reflexivity.
  - destruct (IH _ _ _ _ E) as [n Hn]. exists (Datatypes.S n). intro s. cbn [repeat app]. rewrite <- Hn. apply go0, HC. reflexivity.
  - destruct (IH _ _ _ E) as [n Hn]. exists (Datatypes.S n). intro s. cbn [repeat app]. rewrite <- Hn. apply go0, HC. reflexivity.
  - destruct (ClearBuffer O m g) as [m1|] eqn:E1; [|discriminate]. cbn [bind] in E. destruct (IH _ _ _ E) as [n Hn]. exists (Datatypes.S n). intro s. cbn [repeat app]. rewrite <- Hn. apply go0, HC. cbn [access]. rewrite E1. reflexivity.
  - destruct (ToFourierPolyAssign O m x g) as [m1|] eqn:E1; [|discriminate]. cbn [bind] in E. destruct (IH _ _ _ E) as [n Hn]. exists (Datatypes.S n). intro s. cbn [repeat app]. rewrite <- Hn. apply go0, HC. cbn [access]. rewrite E1. reflexivity.
  - destruct (ToPolyAssignUnsafe O m g x) as [m1|] eqn:E1; [|discriminate]. cbn [bind] in E. destruct (IH _ _ _ E) as [n Hn]. exists (Datatypes.S n). intro s. cbn [repeat app]. rewrite <- Hn. apply go0, HC. cbn [access]. rewrite E1. reflexivity.
  - destruct (MulAddFourierPolyAssign O m g v h) as [m1|] eqn:E1; [|discriminate]. cbn [bind] in E. destruct (IH _ _ _ E) as [n Hn]. exists (Datatypes.S n). intro s. cbn [repeat app]. rewrite <- Hn. apply go0, HC. cbn [access]. rewrite E1. reflexivity.
Qed.
Lemma drive1 {X} P (C : prog O X -> prog O A) : hole C -> forall (p : prog O X) m a m', run p m = Ok (a, m') ->
  exists n, forall s, csched (repeat 1 n ++ s) {| cs_progs := [P; C p]; cs_mem := m |} = csched s {| cs_progs := [P; C (Ret a)]; cs_mem := m' |}.
Proof.
  intros HC p. induction p as [v|e|x k IH|x i v k IH|d s k IH|v k IH|x k IH|x v k IH|g k IH|x g k IH|g x k IH|g v h k IH]; intros m a m' E; cbn [run] in E; try discriminate.
  - injection E as -> ->. exists 0%nat. reflexivity.
  - destruct (IH _ _ _ _ E) as [n Hn]. exists (Datatypes.S n). intro s. cbn [repeat app]. rewrite <- Hn. apply go1, HC. reflexivity.
  - destruct (store m x i v) as [m1|] eqn:E1; [|discriminate]. cbn [bind] in E. destruct (IH _ _ _ E) as [n Hn]. exists (Datatypes.S n). intro s. cbn [repeat app]. rewrite <- Hn. apply go1, HC. cbn [access]. rewrite E1. reflexivity.
  - destruct (IH _ _ _ E) as [n Hn]. exists (Datatypes.S n). intro t. cbn [repeat app]. rewrite <- Hn. apply go1, HC. reflexivity.
  - destruct (alloc m v) as [x m1] eqn:E1. destruct (IH _ _ _ _ E) as [n Hn]. exists (Datatypes.S n). intro t. cbn [repeat app]. rewrite <- Hn. apply go1, HC. cbn [access]. rewrite E1. reflexivity.
  - destruct (IH _ _ _ _ E) as [n Hn]. exists (Datatypes.S n). intro s. cbn [repeat app]. rewrite <- Hn. apply go1, HC. reflexivity.
  - destruct (IH _ _ _ E) as [n Hn]. exists (Datatypes.S n). intro s. cbn [repeat app]. rewrite <- Hn. apply go1, HC. reflexivity.
  - destruct (ClearBuffer O m g) as [m1|] eqn:E1; [|discriminate]. cbn [bind] in E. destruct (IH _ _ _ E) as [n Hn]. exists (Datatypes.S n). intro s. cbn [repeat app]. rewrite <- Hn. apply go1, HC. cbn [access]. rewrite E1. reflexivity.
  - destruct (ToFourierPolyAssign O m x g) as [m1|] eqn:E1; [|discriminate]. cbn [bind] in E. destruct (IH _ _ _ E) as [n Hn]. exists (Datatypes.S n). intro s. cbn [repeat app]. rewrite <- Hn. apply go1, HC. cbn [access]. rewrite E1. reflexivity.
  - destruct (ToPolyAssignUnsafe O m g x) as [m1|] eqn:E1; [|discriminate]. cbn [bind] in E. destruct (IH _ _ _ E) as [n Hn]. exists (Datatypes.S n). intro s. cbn [repeat app]. rewrite <- Hn. apply go1, HC. cbn [access]. rewrite E1. reflexivity.
  - destruct (MulAddFourierPolyAssign O m g v h) as [m1|] eqn:E1; [|discriminate]. cbn [bind] in E. destruct (IH _ _ _ E) as [n Hn]. exists (Datatypes.S n). intro s. cbn [repeat app]. rewrite <- Hn. apply go1, HC. cbn [access]. rewrite E1. reflexivity.
Qed.
End Drive.

Section Race.
Context (R : arith) (O : fops) (pr : pset) (sk : SecretKey) (rk : Z -> enc_rand) (rb : Z -> Z -> trlwe_rand) (ck : CloudKey O)
  (S : setup R O pr sk rk rb ck).
Notation M := (mem (FP O)).
Notation n := (lv0_N pr).
Notation s0 := (KeyLv0 sk).
Notation tv := (BlindRotateTestvec ck).
Lemma alloc_reach e (m : M) v : reachable O pr e m -> reachable O pr e (snd (alloc m v)) /\ user (snd (alloc m v)) e (tnext m) /\ user_kept e m (snd (alloc m v)).
Proof.
  intro Hr. pose proof S as S'. open_setup S'. destruct (fresh_ok L pr W HBG e m v Hr) as (m' & E & _ & H1 & H2 & H3 & _).
  assert (m' = snd (alloc m v)) by (unfold fresh in E; cbn [bind] in E; injection E as <-; reflexivity). subst m'. auto.
Qed.

Lemma copy_out (m : M) r s v : tm m s = v -> zlen v = n + 1 -> 0 <= n -> zlen (tm m r) = n + 1 -> r <> s ->
  exists m', store (mcopy m r s) r n (zn v n) = Ok m' /\ get (tm (mcopy m r s) s) n = Ok (zn v n) /\
    tm m' r = v /\ (forall x, x <> r -> tm m' x = tm m x) /\ tm (mcopy m r s) s = v.
Proof.
  intros Es Hv Hn Hr Hne. assert (T: tm (mcopy m r s) r = v) by (rewrite mcopy_same; [exact Es|rewrite Hr, Es, Hv; reflexivity]).
  assert (T2: tm (mcopy m r s) s = v) by (unfold mcopy; rewrite tm_tset_ne by congruence; exact Es).
  exists (tset (mcopy m r s) r v). split; [rewrite store_ok by (rewrite T, Hv; lia); rewrite T, upd_same by (rewrite Hv; lia); reflexivity|].
  split; [rewrite T2; apply (get_ok 0); lia|]. split; [apply tm_tset|]. split; [|exact T2]. intros x Hx. rewrite tm_tset_ne by assumption. unfold mcopy. apply tm_tset_ne. assumption.
Qed.

(** Goroutine 0 reads the index of the next result buffer; goroutine 1
    bootstraps into that buffer; then goroutine 0 does; then goroutine 1 copies
    it. *)
Lemma race g h e (m : M) k a b c d p q : reachable O pr e m -> key_at O m e k ck -> user m e c -> user m e d ->
  gate_lin g n (tm m a) (tm m b) = Ok p -> gate_lin h n (tm m c) (tm m d) = Ok q -> zlen p = n + 1 -> zlen q = n + 1 ->
  exists sched x y m', together [work pr (one g a b e k); work pr (one h c d e k)] m sched = Some (Ok ([[a; b; x]; [c; d; y]], m')) /\
    exists m0 r, alone pr (one g a b e k) m = Ok ([a; b; r], m0) /\ tm m' x = tm m0 r /\ tm m' y = tm m0 r.
Proof.
  intros Hr Hk Hc Hd Ep Eq Lp Lq. pose proof S as S'. open_setup S'. pose proof (pw_n _ _ W) as Hn.
  set (z := repeat 0 (Z.to_nat (n + 1))). assert (Ez: NewTLWE n = Ok z) by (unfold NewTLWE; rewrite make_ok by lia; reflexivity).
  assert (Lz: zlen z = n + 1) by (unfold z; rewrite zlen_repeat; lia).
  set (m1 := snd (alloc m p)). set (m2 := snd (alloc m1 z)). set (m3 := snd (alloc m2 q)). set (m4 := snd (alloc m3 z)).
  destruct (alloc_reach e m p Hr) as (R1 & U1 & K1). fold m1 in R1, U1, K1.
  destruct (alloc_reach e m1 z R1) as (R2 & U2 & K2). fold m2 in R2, U2, K2.
  destruct (alloc_reach e m2 q R2) as (R3 & U3 & K3). fold m3 in R3, U3, K3.
  destruct (alloc_reach e m3 z R3) as (R4 & U4 & K4). fold m4 in R4, U4, K4.
  pose proof (keeps_key _ _ _ _ _ K1 Hk) as Hk1. pose proof (keeps_key _ _ _ _ _ K2 Hk1) as Hk2. pose proof (keeps_key _ _ _ _ _ K3 Hk2) as Hk3. pose proof (keeps_key _ _ _ _ _ K4 Hk3) as Hk4.
  assert (T1: tm m1 (tnext m) = p) by apply alloc_at. assert (T2: tm m2 (tnext m1) = z) by apply alloc_at.
  assert (T3: tm m3 (tnext m2) = q) by apply alloc_at. assert (T4: tm m4 (tnext m3) = z) by apply alloc_at.
  set (pA := tnext m) in *. set (xA := tnext m1) in *. set (pB := tnext m2) in *. set (xB := tnext m3) in *.
  assert (NA: xA = pA + 1 /\ pB = pA + 2 /\ xB = pA + 3) by (unfold xA, pB, xB, m3, m2, m1, pA; cbn [alloc snd tnext]; lia).
  assert (X4: forall x, user m1 e x -> user m4 e x /\ tm m4 x = tm m1 x).
  { intros x Hx. destruct (K2 x Hx) as [A1 A2]. destruct (K3 x A1) as [B1 B2]. destruct (K4 x B1) as [C1 C2]. split; [exact C1|congruence]. }
  destruct (X4 pA U1) as [UA4 TA4]. rewrite T1 in TA4.
  destruct (K3 xA U2) as [UX3 TX3]. destruct (K4 xA UX3) as [UX4 TX4]. rewrite TX3, T2 in TX4.
  destruct (K4 pB U3) as [UB4 TB4]. rewrite T3 in TB4.
  destruct (reach_ok L pr W HBG e m4 R4) as [He4 Hm4].
  destruct (cloud_facts L pr W HBG _ _ _ _ Hsk Hck) as (Hb & Hks & Ht & _).
  destruct (key_at_gk L pr W HBG sk rk rb ck Hsk Hck m4 e k Hk4) as (Hg & G1 & G2 & G3).
  pose proof (table_tvp L pr W _ _ _ _ He4 (key_at_table L pr W HBG sk rk rb ck Hsk Hck m4 e k Hk4)) as Htv.
  set (idx := bp_i (ev_bp e)). set (i := im m idx). assert (Ei4: im m4 idx = i) by reflexivity. pose proof (eo_bi _ _ _ _ He4) as Hi. fold idx in Hi. rewrite Ei4 in Hi.
  destruct (Bootstrap_ok L pr W m4 e pB (gk_testvec k) tv (BootstrappingKey ck) (KeySwitchingKey ck) (DecompositionOffset ck) He4 Hb Hks) as (m5 & E5 & V5 & I5 & He5 & S5); [|exact Htv|].
  { split; [rewrite TB4; exact Lq|]. intro A. apply (proj2 UB4). eapply scr_own; [exact W|exact He4| |exact A]; lia. }
  fold idx in E5, V5, I5, S5. rewrite Ei4 in E5, V5, I5, S5. set (s := slot e i) in *.
  assert (Os: own e s) by (apply (slot_own L pr W m4); assumption).
  assert (Y5: forall x, ~ own e x -> tm m5 x = tm m4 x).
  { intros x Hx. apply (step_t _ _ _ _ _ _ _ S5). intros [A|A]; apply Hx; [eapply scr_own; [exact W|exact He4| |exact A]; lia|rewrite A; exact Os]. }
  set (m6 := iset m5 idx (Z.rem (i + 1) 4)).
  assert (B6: 0 <= Z.rem (i + 1) 4 < 4) by (rewrite Z.rem_mod_nonneg by lia; apply Z.mod_pos_bound; lia).
  assert (S6: step L none none (eq idx) m5 m6) by (apply step_iset; reflexivity).
  assert (He6: ev_ok L pr m6 e). { eapply ev_ok_step; [exact S6|exact He5|]. intros x <- _. unfold m6. rewrite im_iset. exact B6. }
  assert (TA6: tm m6 pA = p) by (change (tm m5 pA = p); rewrite Y5 by apply UA4; exact TA4).
  destruct Htv as ([HA HB] & Hct & N1 & N2). destruct Hk4 as (_ & _ & _ & _ & _ & UKA & UKB).
  destruct (BootstrapAssign_ok L pr W m6 e pA (gk_testvec k) tv (BootstrappingKey ck) (KeySwitchingKey ck) (DecompositionOffset ck) s) as (m7 & E7 & V7 & S7); try assumption.
  { rewrite TA6. exact Lp. }
  { split; [change (tm m5 (rA (gk_testvec k)) = tA tv)|change (tm m5 (rB (gk_testvec k)) = tB tv)]; rewrite Y5; try assumption; [apply UKA|apply UKB]. }
  { intro A. apply (proj2 UA4). eapply scr_own; [exact W|exact He4| |exact A]; lia. }
  { apply (eo_b11 _ _ _ _ He6). unfold blk, s, slot. lia. }
  { unfold s, slot. lia. }
  rewrite TA6 in V7. set (val := bootp L pr (DecompositionOffset ck) (BootstrappingKey ck) (KeySwitchingKey ck) tv p) in *.
  assert (Y7: forall x, ~ own e x -> tm m7 x = tm m4 x).
  { intros x Hx. rewrite <- Y5 by exact Hx. change (tm m5 x) with (tm m6 x). apply (step_t _ _ _ _ _ _ _ S7). intros [A|A]; apply Hx; [eapply scr_own; [exact W|exact He4| |exact A]; lia|rewrite A; exact Os]. }
  assert (Lv: zlen val = n + 1) by (apply (bootp_ok L pr W)).
  assert (NeA: xA <> s) by (intros ->; apply (proj2 UX4); exact Os). assert (NeB: xB <> s) by (intros ->; apply (proj2 U4); exact Os).
  destruct (copy_out m7 xA s val V7 Lv Hn) as (m9 & E9 & G9 & V9 & Y9 & Q9); [rewrite Y7, TX4 by apply UX4; exact Lz|exact NeA|].
  destruct (copy_out m9 xB s val) as (m11 & E11 & G11 & V11 & Y11 & Q11); [rewrite Y9 by congruence; exact V7|exact Lv|exact Hn|rewrite Y9 by lia; rewrite Y7, T4 by apply U4; exact Lz|exact NeB|].
  (* the gate alone *)
  destruct (bootstrap_run L pr W HBG sk rk rb ck Hsk Hck e m1 k pA R1 Hk1 U1) as (m0 & E0 & V0 & _); [rewrite T1; exact Lp|].
  assert (Ealone: alone pr (one g a b e k) m = Ok ([a; b; xA], m0) /\ tm m0 xA = val).
  { split.
    - unfold alone. cbn [one wk_ev wk_key wk_calls wk_in exec exec_instr]. change (get [a; b] 0) with (Ok a). change (get [a; b] 1) with (Ok b). cbn [bind].
      rewrite gate_fun_eq. unfold gate2, fresh. rewrite Ep. cbn [bind].
      change (alloc m p) with (pA, m1). cbn [bind]. rewrite E0. reflexivity.
    - fold xA in V0. rewrite V0, T1. unfold boot_val, val. rewrite Ht. reflexivity. }
  (* the programs *)
  set (fin := fun x bs : Z => CopyTo x bs (pbind (elem bs n) (fun v => Store x n v (Ret x))) : prog O Z).
  set (KA := fun r : Z => Ret ([a; b] ++ [r]) : prog O (list Z)). set (KB := fun r : Z => Ret ([c; d] ++ [r]) : prog O (list Z)).
  set (boot := fun x => p_Bootstrap O pr e x (gk_testvec k) (gk_bsk k) (gk_ksk k) (gk_offset k)).
  assert (PB: forall x, p_bootstrap O pr e x k = New z (fun r => pbind (boot x) (fin r))).
  { intro x. unfold p_bootstrap, p_new_ct. rewrite Ez. reflexivity. }
  set (kont := fun (x j : Z) => if (j <? 0) || (4 <=? j) then Fail PIndex else
    let result := bp_Buffers (ev_bp e) j in
    SetInt (bp_Index (ev_bp e)) (Z.rem (j + 1) 4) (
    pbind (p_BlindRotateAssign O pr e x (gk_testvec k) (gk_bsk k) (gk_offset k) (bp_Rotated (ev_bp e))) (fun _ =>
    pbind (p_SampleExtractIndexAssign O pr (bp_Rotated (ev_bp e)) 0 (bp_ExtractedLWE (ev_bp e))) (fun _ =>
    pbind (p_IdentityKeySwitchingAssign O pr (bp_ExtractedLWE (ev_bp e)) (gk_ksk k) result) (fun _ => Ret result))))).
  assert (EB: forall x, boot x = ReadInt idx (kont x)) by reflexivity.
  set (A0 := work pr (one g a b e k)). set (B0 := work pr (one h c d e k)).
  assert (HC: forall r K, hole (fun p => pbind (pbind p (fin r)) K : prog O (list Z))).
  { intros r K. apply (hole_bind (fun p => pbind p K)). apply (hole_bind (fun p => p)). apply hole_id. }
  (* goroutine 1 bootstraps *)
  assert (RB: run (boot pB) m4 = Ok (s, m5)).
  { unfold boot. rewrite run_Bootstrap, G1, G2, G3. exact E5. }
  assert (RA: run (kont pA i) m5 = Ok (s, m7)).
  { unfold kont. destruct (Z.ltb_spec i 0); [lia|]. destruct (Z.leb_spec 4 i); [lia|]. cbn [orb]. cbv zeta. cbn [run]. change (bp_Index (ev_bp e)) with idx. fold m6.
    rewrite (run_does _ _ _ _ (does_rotate _ _ _ _ _ _ _ _)). unfold BootstrapAssign in E7. rewrite G1, G2, G3.
    change (bp_Buffers (ev_bp e) i) with s.
    destruct (BlindRotateAssign O pr m6 e pA (gk_testvec k) (BootstrappingKey ck) (DecompositionOffset ck) (bp_Rotated (ev_bp e))) as [m6'|]; [|discriminate]. cbn [bind] in *.
    rewrite (run_does _ _ _ _ (does_extract _ _ _ _ _)).
    destruct (SampleExtractIndexAssign pr m6' (bp_Rotated (ev_bp e)) 0 (bp_ExtractedLWE (ev_bp e))) as [m6''|]; [|discriminate]. cbn [bind] in *.
    rewrite (run_does _ _ _ _ (does_switch _ _ _ _ _)), E7. reflexivity. }
  destruct (drive1 (pbind (pbind (kont pA i) (fin xA)) KA) (fun p => pbind (pbind p (fin xB)) KB) (HC xB KB) (boot pB) m4 s m5 RB) as [n1 D1].
  destruct (drive0 (fun p => pbind (pbind p (fin xA)) KA) (pbind (pbind (Ret s) (fin xB)) KB) (HC xA KA) (kont pA i) m5 s m7 RA) as [n2 D2].
  exists ([0; 0; 0; 0; 0; 1; 1; 1; 1] ++ repeat 1 n1 ++ repeat 0 n2 ++ [0; 0; 0; 1; 1; 1]), xA, xB, m11. split.
  2:{ exists m0, xA. split; [apply Ealone|]. destruct Ealone as [_ ->]. split; [rewrite Y11 by lia; exact V9|exact V11]. }
  unfold together. cbn [app].
  rewrite (go0 A0 B0 (pbind (Read b (fun vb => pbind (lift (gate_lin g n (tm m a) vb)) (fun v => New v (fun x => p_bootstrap O pr e x k)))) KA) m m) by reflexivity.
  rewrite (go0 _ B0 (pbind (New p (fun x => p_bootstrap O pr e x k)) KA) m m) by (cbn [pbind access]; rewrite Ep; reflexivity).
  rewrite (go0 _ B0 (pbind (New z (fun r => pbind (boot pA) (fin r))) KA) m m1) by (cbn [pbind access]; change (alloc m p) with (pA, m1); cbv iota; rewrite PB; reflexivity).
  rewrite (go0 _ B0 (pbind (pbind (boot pA) (fin xA)) KA) m1 m2) by reflexivity.
  rewrite (go0 _ B0 (pbind (pbind (kont pA i) (fin xA)) KA) m2 m2) by (rewrite EB; reflexivity).
  set (A1 := pbind (pbind (kont pA i) (fin xA)) KA) in *.
  rewrite (go1 A1 B0 (pbind (Read d (fun vb => pbind (lift (gate_lin h n (tm m2 c) vb)) (fun v => New v (fun x => p_bootstrap O pr e x k)))) KB) m2 m2) by reflexivity.
  assert (EC: tm m2 c = tm m c /\ tm m2 d = tm m d).
  { destruct (K1 c Hc) as [C1 C2]. destruct (K2 c C1) as [_ C3]. destruct (K1 d Hd) as [D3 D4]. destruct (K2 d D3) as [_ D5]. split; congruence. }
  destruct EC as [EC ED].
  rewrite (go1 A1 _ (pbind (New q (fun x => p_bootstrap O pr e x k)) KB) m2 m2) by (cbn [pbind access]; rewrite EC, ED, Eq; reflexivity).
  rewrite (go1 A1 _ (pbind (New z (fun r => pbind (boot pB) (fin r))) KB) m2 m3) by (cbn [pbind access]; change (alloc m2 q) with (pB, m3); cbv iota; rewrite PB; reflexivity).
  rewrite (go1 A1 _ (pbind (pbind (boot pB) (fin xB)) KB) m3 m4) by reflexivity.
  rewrite D1. unfold A1. rewrite D2.
  set (B1 := pbind (pbind (Ret s) (fin xB)) KB).
  rewrite (go0 _ B1 (pbind (pbind (elem s n) (fun v => Store xA n v (Ret xA))) KA) m7 (mcopy m7 xA s)) by reflexivity.
  rewrite (go0 _ B1 (pbind (Store xA n (zn val n) (Ret xA)) KA) (mcopy m7 xA s) (mcopy m7 xA s)) by (cbn [pbind elem access]; rewrite G9; reflexivity).
  rewrite (go0 _ B1 (Ret [a; b; xA]) (mcopy m7 xA s) m9) by (cbn [pbind access]; rewrite E9; reflexivity).
  unfold B1.
  rewrite (go1 (Ret [a; b; xA]) _ (pbind (pbind (elem s n) (fun v => Store xB n v (Ret xB))) KB) m9 (mcopy m9 xB s)) by reflexivity.
  rewrite (go1 (Ret [a; b; xA]) _ (pbind (Store xB n (zn val n) (Ret xB)) KB) (mcopy m9 xB s) (mcopy m9 xB s)) by (cbn [pbind elem access]; rewrite G11; reflexivity).
  rewrite (go1 (Ret [a; b; xA]) _ (Ret [c; d; xB]) (mcopy m9 xB s) m11) by (cbn [pbind access]; rewrite E11; reflexivity).
  reflexivity.
Qed.

Lemma race_decrypts g h e (m : M) k a b c d va vb vc vd E T : reachable O pr e m -> key_at O m e k ck ->
  wires O pr e sk m [a; b] [va; vb] E -> wires O pr e sk m [c; d] [vc; vd] E -> 1 <= E -> 3 * E + round_err pr sk < 2 ^ 29 ->
  (forall p, gate_lin g n (tm m a) (tm m b) = Ok p -> boot_noise O pr sk ck tv p T) -> T < 2 ^ 29 ->
  exists sched x y m', together [work pr (one g a b e k); work pr (one h c d e k)] m sched = Some (Ok ([[a; b; x]; [c; d; y]], m')) /\
    DecryptBool n (tm m' x) s0 = Ok (truth g va vb) /\ DecryptBool n (tm m' y) s0 = Ok (truth g va vb).
Proof.
  intros Hr Hk W1 W2 HE Hm HT Ht. inversion W1 as [|? ? ? ? [Ua Ea] W1']; subst. inversion W1' as [|? ? ? ? [Ub Eb] _]; subst.
  inversion W2 as [|? ? ? ? [Uc Ec] W2']; subst. inversion W2' as [|? ? ? ? [Ud Ed] _]; subst.
  pose proof S as S'. open_setup S'. pose proof (pw_n _ _ W) as Hn.
  assert (Hg: forall g0, E + mult g0 * E + round_err pr sk < 2 ^ 29).
  { intro g0. assert (1 <= mult g0 <= 2) by (destruct g0; cbn; lia). assert (mult g0 * E <= 2 * E) by (apply Z.mul_le_mono_nonneg_r; lia). lia. }
  destruct (gate_lin_side pr W sk Hsk g _ _ _ _ _ _ Ea Eb (Hg g)) as (p & Ep & [Lp _] & _).
  destruct (gate_lin_side pr W sk Hsk h _ _ _ _ _ _ Ec Ed (Hg h)) as (q & Eq & [Lq _] & _).
  destruct (race g h e m k a b c d p q Hr Hk Uc Ud Ep Eq Lp Lq) as (sched & x & y & m' & H & m0 & r & Ha & Hx & Hy).
  exists sched, x, y, m'. split; [exact H|].
  destruct (gate_run L pr W HBG sk rk rb ck Hsk Hck g e m k a b va vb E E T Hr Hk Ea Eb (Hg g) HT) as (r' & m0' & Er & En & _).
  assert (r' = r /\ m0' = m0).
  { unfold alone in Ha. cbn [one wk_ev wk_key wk_calls wk_in exec exec_instr] in Ha. change (get [a; b] 0) with (Ok a) in Ha. change (get [a; b] 1) with (Ok b) in Ha. cbn [bind] in Ha.
    rewrite Er in Ha. cbn [bind] in Ha. injection Ha as <- <-. split; reflexivity. }
  destruct H0 as [-> ->]. assert (D: DecryptBool n (tm m0 r) s0 = Ok (truth g va vb)).
  { eapply decrypt_enc; [exact Hn| |exact En|exact Ht]. destruct Hsk as [[Y _] _]. lia. }
  rewrite Hx, Hy. split; exact D.
Qed.
End Race.

Section RaceWorst.
Context (mc : machine) (O : fops) (pr : pset) (sk : SecretKey) (rk : Z -> enc_rand) (rb : Z -> Z -> trlwe_rand) (ck : CloudKey O)
  (Hcis : mc_ok mc) (S : setup (f64_arith mc) O pr sk rk rb ck) (Bb Bk d d' : Z)
  (Hfft : fft_error_within pr d d') (Hnoise : key_noise_within pr rk rb Bb Bk) (HBb : 0 <= Bb) (HBk : 0 <= Bk) (Hd' : 0 <= d').

Lemma race_worst g h e (m : mem (FP O)) k a b c0 d0 va vb vc vd E : reachable O pr e m -> key_at O m e k ck ->
  wires O pr e sk m [a; b] [va; vb] E -> wires O pr e sk m [c0; d0] [vc; vd] E -> 1 <= E -> worst_noise pr sk Bb Bk d d' <= E -> 3 * E + round_err pr sk < 2 ^ 29 ->
  exists sched x y m', together [work pr (one g a b e k); work pr (one h c0 d0 e k)] m sched = Some (Ok ([[a; b; x]; [c0; d0; y]], m')) /\
    DecryptBool (lv0_N pr) (tm m' x) (KeyLv0 sk) = Ok (truth g va vb) /\ DecryptBool (lv0_N pr) (tm m' y) (KeyLv0 sk) = Ok (truth g va vb).
Proof.
  intros Hr Hk W1 W2 HE HT Hm. pose proof S as S'. open_setup S'.
  pose proof (round_err_nonneg pr W sk Hsk).
  eapply (race_decrypts _ O pr sk rk rb ck S g h e m k a b c0 d0 va vb vc vd E (worst_noise pr sk Bb Bk d d')); try assumption; try lia.
  intros p Ep. apply p_worst_tv with (mc := mc) (rk := rk) (rb := rb); try assumption.
  inversion W1 as [|? ? ? ? [Ua Ea] W1']; subst. inversion W1' as [|? ? ? ? [Ub Eb] _]; subst.
  assert (Hg: E + mult g * E + round_err pr sk < 2 ^ 29).
  { assert (1 <= mult g <= 2) by (destruct g; cbn; lia). assert (mult g * E <= 2 * E) by (apply Z.mul_le_mono_nonneg_r; lia). lia. }
  destruct (gate_lin_side pr W sk Hsk g _ _ _ _ _ _ Ea Eb Hg) as (p2 & Ep2 & [Lp _] & _). congruence.
Qed.
End RaceWorst.

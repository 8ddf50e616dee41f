(** * One server, many clients, some of them hostile: the statements *)
From Coq Require Import Lia ZifyBool Setoid Morphisms List.
From Verif Require Import GoBase GoFacts GoMem F64 Utils Spec Params Key Tlwe TlweMem Poly Fft FftTabErr FftOps FftProps Trlwe Trgsw Lut Evaluator CloudKey Gates RunSpec LutSpec Circuit LutProg MixProg HostileSpec
  MemFacts TlweFacts PolyFacts NegFacts Laws TrlweFacts TrgswFacts RotFacts KeySwitchFacts EvalFacts OldRotFacts LinFacts HeapFacts CloudKeyFacts CallFacts BootFacts GateFacts
  NoiseFacts RunProps RunWorst RlweProps HistProps LutProps LutProgProps MixProps HostileFacts HostileRun.
Import ListNotations.
Local Open Scope Z_scope.
Ltac Zify.zify_post_hook ::= idtac.

(** ** the transform, and what its lengths are *)
Lemma shape_laws R tw twi pr : good_params pr -> transform R tw twi pr ->
  fft_evaluator R (g_N pr) = Ok (fft_ops R tw twi) /\
  exists L : flaws (fft_ops R tw twi) (g_N pr), forall x : list (AN R), fok L x <-> zlen x = g_N pr.
Proof.
  intros _ [E1 E2]. assert (E: fft_evaluator R (g_N pr) = Ok (fft_ops R tw twi)) by (unfold fft_evaluator; rewrite E1; cbn [bind]; rewrite E2; reflexivity).
  split; [exact E|]. destruct (eval_pow2 _ _ _ E) as (k & Hk & EN). clear E E1. revert E2. generalize (g_N pr), EN. clear EN. intros N ->. intro E2.
  destruct (tables_len R k Hk) as (tw' & twi' & T & Lt & Li). rewrite T in E2. injection E2 as -> ->.
  rewrite (proj1 (pow_half k Hk)). exists (pow_laws R k Hk tw twi Lt Li). intro x. reflexivity.
Qed.

Section H.
Context (R : arith) (tw twi : list (AN R * AN R)) (pr : pset) (GP : good_params pr) (TR : transform R tw twi pr).
Notation O := (fft_ops R tw twi).
Notation M := (mem (FP O)).
Notation n := (lv0_N pr).
Notation N := (g_N pr).
Context (L : flaws O N) (FL : forall x : list (AN R), fok L x <-> zlen x = N).
Notation W := (proj1 GP).
Notation HBG := (proj2 GP).

Lemma sh_gkey g : trgsw_shape R tw twi pr g -> gkey_ok L (g_L pr) g.
Proof.
  intros [H1 H2]. split; [exact H1|]. intros i Hi. assert (X: row_shape R pr (znd (Fzero L, Fzero L) g i)).
  { rewrite Forall_forall in H2. apply H2. unfold znd. apply nth_In. unfold zlen in H1. lia. }
  destruct X as [X Y]. split; apply FL; assumption.
Qed.
Lemma sh_bsk bsk : boot_shape R tw twi pr bsk -> bsk_ok L pr bsk.
Proof. intros [H1 H2]. split; [exact H1|]. intros i Hi. apply sh_gkey. eapply (H2 i); [lia|]. apply get_ok. lia. Qed.
Lemma sh_ksk ksk : switch_shape pr ksk -> @ksk_ok N pr ksk.
Proof. intros [H1 H2]. split; [exact H1|]. intros i Hi. eapply (H2 i); [unfold switch_rows; lia|]. apply get_ok. unfold switch_rows in H1. lia. Qed.

Lemma bsk_sh bsk : bsk_ok L pr bsk -> boot_shape R tw twi pr bsk.
Proof.
  intros [H1 H2]. split; [exact H1|]. intros i g Hi G. destruct (get_inv [] _ _ _ G) as [Hj ->]. destruct (H2 i ltac:(lia)) as [A B]. split; [exact A|].
  apply Forall_forall. intros c Hc. destruct (In_nth _ _ (Fzero L, Fzero L) Hc) as (j & Hj' & E).
  destruct (B (Z.of_nat j)) as [X Y]; [unfold zlen in A; lia|]. unfold grow, znd in X, Y. rewrite Nat2Z.id in X, Y. unfold znd in E, X, Y. rewrite E in X, Y.
  split; apply FL; assumption.
Qed.
Lemma ksk_sh ksk : @ksk_ok N pr ksk -> switch_shape pr ksk.
Proof. intros [H1 H2]. split; [exact H1|]. intros i row Hi G. destruct (get_inv [] _ _ _ G) as [Hj ->]. apply H2. unfold switch_rows in Hi. lia. Qed.

Lemma sh_tv (ck : CloudKey O) gk e (m : M) : key_shape R tw twi pr ck -> key_at O m e gk ck ->
  gk_offset gk = DecompositionOffset ck /\ bsk_ok L pr (gk_bsk gk) /\ @ksk_ok N pr (gk_ksk gk) /\ ct_ok N (BlindRotateTestvec ck) /\
  tv_at gk (BlindRotateTestvec ck) e m.
Proof.
  intros (H1 & H2 & (A & B & C & D)) (K1 & K2 & K3 & K4 & K5 & K6 & K7). split; [exact K1|]. rewrite K2, K3.
  split; [apply sh_bsk; exact H1|]. split; [apply sh_ksk; exact H2|]. split; [split; split; assumption|]. split; [split; assumption|auto].
Qed.
Lemma tv_sh (ck : CloudKey O) gk e (m m' : M) : key_at O m e gk ck -> tv_at gk (BlindRotateTestvec ck) e m' -> key_at O m' e gk ck.
Proof. intros (K1 & K2 & K3 & K4 & K5 & K6 & K7) ([A B] & U1 & U2). unfold key_at. auto 10. Qed.

(** contents *)
Lemma rec_inv e (m : M) gk tv ws ts : good L pr e m -> tv_at gk tv e m -> received R tw twi pr e m gk ws ts ->
  exists tvs, Inv L pr gk tv e m ws ts (map (tm m) ws) tvs.
Proof.
  intros G T (ND & H & HT & A & B).
  assert (X: exists tvs, tabs pr e m ws ts tvs).
  { clear - HT. induction HT as [|t ts ((tv & H) & H1) _ [tvs IH]]; [exists []; constructor|]. exists (tv :: tvs). constructor; auto. }
  destruct X as [tvs X]. exists tvs. constructor; [exact G|exact T|split; assumption| |exact X].
  split; [unfold zlen; rewrite map_length; reflexivity|]. split; [exact ND|]. intros i Hi. destruct (H (zn ws i) (zn_In ws i Hi)) as [U Lz].
  split; [exact U|]. assert (E: tm m (zn ws i) = znd [] (map (tm m) ws) i).
  { unfold znd. rewrite (nth_indep _ [] (tm m 0)) by (rewrite map_length; unfold zlen in Hi; lia). rewrite map_nth. reflexivity. }
  split; [exact E|]. rewrite <- E. exact Lz.
Qed.
Lemma inv_rec e (m : M) gk tv ws ts vs tvs : Inv L pr gk tv e m ws ts vs tvs -> received R tw twi pr e m gk ws ts /\ map (tm m) ws = vs.
Proof.
  intros [G T [A B] (L1 & ND & H) TB]. split.
  - split; [exact ND|]. split.
    + intros x Hx. apply In_zn in Hx. destruct Hx as (i & Hi & <-). destruct (H i Hi) as (U & E & Lz). split; [exact U|]. rewrite E. exact Lz.
    + split; [|auto]. clear - TB. induction TB as [|t tv ts tvs (X & Y) _ IH]; constructor; eauto.
  - apply (list_ext []); [unfold zlen in *; rewrite map_length; lia|]. intros i Hi. unfold zlen in Hi; rewrite map_length in Hi. fold (zlen ws) in Hi.
    destruct (H i Hi) as (_ & E & _). rewrite <- E. unfold znd. rewrite (nth_indep _ [] (tm m 0)) by (rewrite map_length; unfold zlen in Hi; lia).
    rewrite map_nth. reflexivity.
Qed.

Notation history := (any_history R tw twi pr).
Lemma run_any e (m : M) ck ck' gk k p ws ts : good L pr e m -> key_shape R tw twi pr ck -> key_shape R tw twi pr ck' -> key_at O m e gk ck' -> 0 <= k ->
  received R tw twi pr e m gk ws ts -> asks_all p (zlen ws) (zlen ts) ->
  exists nw ts' m', mexec O pr ck e gk k p ws ts m = Ok (ws ++ nw, ts', m') /\ good L pr e m' /\ key_at O m' e gk ck' /\
    received R tw twi pr e m' gk (ws ++ nw) ts' /\ kept_but O e (moutputs p) ws m m' /\ (forall x, In x nw -> ~ user m e x).
Proof.
  intros G S1 S2 K Hk Hr Ha. destruct (sh_tv ck' gk e m S2 K) as (_ & B1 & B2 & B3 & T). destruct S1 as (S11 & S12 & _).
  destruct (rec_inv e m gk _ ws ts G T Hr) as (tvs & HI).
  destruct (run_total L pr W HBG ck gk (BlindRotateTestvec ck') k Hk (sh_bsk _ S11) (sh_ksk _ S12) B1 B2 B3 e p m ws ts _ tvs HI Ha)
    as (nw & ts' & m' & E & I' & O' & F'). exists nw, ts', m'. split; [exact E|]. split; [apply (i_good _ _ _ _ _ _ _ _ _ _ I')|].
  split; [eapply tv_sh; [exact K|apply (i_tv _ _ _ _ _ _ _ _ _ _ I')]|]. destruct (inv_rec _ _ _ _ _ _ _ _ I') as [X _]. auto.
Qed.

(** a program that ran was within its lists *)
Ltac gi H x G Q := apply bind_inv in H; destruct H as (x & G & H); cbv beta in H; pose proof (proj1 (get_inv 0 _ _ _ G)) as Q.
Lemma exec_asks (ck : CloudKey O) gk e k i ws ts (m : M) r : mexec1 O pr ck e gk k i ws ts m = Ok r -> asks i (zlen ws) (zlen ts).
Proof.
  destruct i as [i|i]; destruct i; cbn [mexec1 exec_instr lexec1 asks]; unfold at_hand; cbv zeta; intro H; try exact I;
    repeat (apply bind_inv in H; let x := fresh "x" in let G := fresh "G" in destruct H as (x & G & H); cbv beta in H;
      try (apply bind_inv in G; let y := fresh "y" in let F := fresh "F" in destruct G as (y & F & G); cbv beta in G;
        try (apply bind_inv in G; let y := fresh "y" in let F := fresh "F" in destruct G as (y & F & G); cbv beta in G);
        try (apply bind_inv in G; let y := fresh "y" in let F := fresh "F" in destruct G as (y & F & G); cbv beta in G)));
    repeat split; repeat match goal with G : get ws ?a = Ok _ |- _ => apply (get_inv 0) in G | G : get ts ?a = Ok _ |- _ => apply (get_inv {| rA := 0; rB := 0 |}) in G end; lia.
Qed.

Lemma ran_asks e (ck ck' : CloudKey O) gk k p : key_shape R tw twi pr ck -> bsk_ok L pr (gk_bsk gk) -> @ksk_ok N pr (gk_ksk gk) -> ct_ok N (BlindRotateTestvec ck') -> 0 <= k ->
  forall (m : M) ws ts vs tvs r, Inv L pr gk (BlindRotateTestvec ck') e m ws ts vs tvs -> mexec O pr ck e gk k p ws ts m = Ok r -> asks_all p (zlen ws) (zlen ts).
Proof.
  intros (S11 & S12 & _) B1 B2 B3 Hk. induction p as [|i p IH]; intros m ws ts vs tvs r HI E; cbn [asks_all]; [exact I|].
  cbn [mexec] in E. apply bind_inv in E. destruct E as ([[ws1 ts1] m1] & E1 & E2). pose proof (exec_asks _ _ _ _ _ _ _ _ _ E1) as A1. split; [exact A1|].
  destruct (step_total L pr W HBG ck gk (BlindRotateTestvec ck') k Hk (sh_bsk _ S11) (sh_ksk _ S12) B1 B2 B3 e i m ws ts vs tvs HI A1)
    as (nw & ts' & m' & E' & I' & _ & _ & N1 & N2).
  rewrite E' in E1. injection E1 as <- <- <-. specialize (IH _ _ _ _ _ _ I' E2). rewrite zlen_app, N1, N2 in IH. exact IH.
Qed.

Lemma history_good e (m : M) : history e m -> good L pr e m.
Proof.
  induction 1 as [m Hr|m m' j _ IH U|m _ IH|m m' bsk ksk off ct tvr tv r _ IH S1 S2 Hi Ht E|m m' bsk ksk off ct tvr tv out _ IH S1 S2 Hi Ht Ho E
    |m m' bsk off ct tvr tv out _ IH S1 Hi Ht Ho E|m m' g off r c out _ IH S1 Ht Ho E|m m' g off r0 c0 r1 c1 out _ IH S1 Ht0 Ht1 Ho D0 D1 E
    |m m' ck ck' gk k p ws ts ws' ts' _ IH S1 S2 K Hk Hr E].
  - exact (reach_ok L pr W HBG e m Hr).
  - destruct IH as [He Hm]. destruct (uses_ok L pr W HBG e _ _ _ _ He Hm U) as (A & B & _). split; assumption.
  - destruct IH as [He Hm]. exact (reset_ok L pr e m He Hm).
  - destruct (g_boot L pr W bsk ksk off (sh_bsk _ S1) (sh_ksk _ S2) e m ct tvr tv IH Hi Ht) as (m1 & E1 & _ & G & _). rewrite E1 in E. injection E as _ <-. exact G.
  - destruct (g_assign L pr W bsk ksk off (sh_bsk _ S1) (sh_ksk _ S2) e m ct tvr tv out IH Hi Ht Ho) as (m1 & E1 & _ & G & _). rewrite E1 in E. injection E as <-. exact G.
  - destruct (g_rotate L pr W bsk off (sh_bsk _ S1) e m ct tvr tv out IH Hi Ht Ho) as (m1 & E1 & G). rewrite E1 in E. injection E as <-. exact G.
  - destruct (g_product L pr W e m g off r c out (sh_gkey _ S1) IH Ht Ho) as (m1 & E1 & G). rewrite E1 in E. injection E as <-. exact G.
  - destruct (g_cmux L pr W e m g off r0 c0 r1 c1 out (sh_gkey _ S1) IH Ht0 Ht1 Ho D0 D1) as (m1 & E1 & G). rewrite E1 in E. injection E as <-. exact G.
  - destruct (sh_tv ck' gk e m S2 K) as (_ & B1 & B2 & B3 & T). destruct (rec_inv e m gk _ ws ts IH T Hr) as (tvs & HI).
    pose proof (ran_asks e ck ck' gk k p S1 B1 B2 B3 Hk m ws ts _ tvs _ HI E) as Ha.
    destruct (run_any e m ck ck' gk k p ws ts IH S1 S2 K Hk Hr Ha) as (nw & ts1 & m1 & E1 & G & _). rewrite E1 in E. injection E as _ _ <-. exact G.
Qed.

(** ** a start *)
Lemma h_start (bufs : list (list Z)) :
  exists e (m : M) w, reachable O pr e m /\ Forall2 (fun x v => user m e x /\ tm m x = v) w bufs /\ NoDup w.
Proof.
  destruct (NewEvaluator_ok L pr W (empty_mem (f_nil O)) (empty_ok O)) as (e & m0 & E0 & _).
  assert (R0: reachable O pr e m0) by (eapply r_new with (pr0 := pr); [apply empty_ok|unfold serves; pose proof (pw_gN _ _ W); lia|exact E0]).
  exists e. induction bufs as [|v bs IH]; [exists m0, []; split; [exact R0|split; constructor]|].
  destruct IH as (m & w & Rm & F & D). destruct (fresh_ok L pr W HBG e m v Rm) as (m3 & _ & V3 & R3 & U3 & K3 & T3).
  exists m3, (tnext m :: w). split; [exact R3|].
  split; [|constructor; [|exact D]; intro X; destruct (Forall2_in_l _ _ _ F _ X) as (u & [[Hu _] _]); lia].
  constructor; [split; assumption|]. revert F. apply Forall2_impl'. intros x u [Hx Hv]. destruct (K3 x Hx) as [Y1 Y2].
  split; [exact Y1|congruence].
Qed.

Definition flat (tvs : list trlwe) : list (list Z) := flat_map (fun tv => [tA tv; tB tv]) tvs.
Definition vsh (tv : trlwe) : Prop := zlen (tA tv) = N /\ zlen (tB tv) = N /\ tok_list (tA tv) /\ tok_list (tB tv).
Lemma h_split e (m : M) tvs vs : Forall vsh tvs -> forall w, Forall2 (fun x v => user m e x /\ tm m x = v) w (flat tvs ++ vs) ->
  exists ts ws pre, w = pre ++ ws /\ Forall2 (fun t tv => table O pr m e t tv /\ In (rA t) pre /\ In (rB t) pre) ts tvs /\
    Forall2 (fun x v => user m e x /\ tm m x = v) ws vs.
Proof.
  induction 1 as [|tv tvs (H1 & H2 & H3 & H4) _ IH]; intros w F; cbn [flat flat_map app] in F.
  - exists [], w, []. split; [reflexivity|]. split; [constructor|exact F].
  - inversion F as [|x v w1 l1 [X1 X2] F1]; subst. inversion F1 as [|y v w2 l2 [Y1 Y2] F2]; subst. destruct (IH _ F2) as (ts & ws & pre & -> & A & B).
    exists ({| rA := x; rB := y |} :: ts), ws, (x :: y :: pre). split; [reflexivity|]. split; [|exact B]. constructor.
    + split; [unfold table; cbn [rA rB]; auto 10|]. cbn [rA rB]. cbn [In]. auto.
    + revert A. apply Forall2_impl'. intros t tv' (A1 & A2 & A3). cbn [In]. auto.
Qed.

Lemma nodup_app (u v : list Z) : NoDup (u ++ v) -> NoDup v /\ forall x, In x u -> ~ In x v.
Proof.
  induction u as [|a u IH]; cbn [app]; intro H; [split; [exact H|intros x []]|]. inversion H as [|a' u' Ha Hu]; subst. destruct (IH Hu) as [A B].
  split; [exact A|]. intros x [<-|Hx]; [|apply B; exact Hx]. intro X. apply Ha. apply in_or_app. right. exact X.
Qed.

Definition key_in (ck : CloudKey O) (t : tref) : gkey O :=
  {| gk_offset := DecompositionOffset ck; gk_testvec := t; gk_ksk := KeySwitchingKey ck; gk_bsk := BootstrappingKey ck |}.

Lemma h_state (ck : CloudKey O) tvs vs : vsh (BlindRotateTestvec ck) -> Forall vsh tvs -> Forall (fun v => zlen v = n + 1) vs ->
  exists e (m : M) gk ws ts, reachable O pr e m /\ key_at O m e gk ck /\ Inv L pr gk (BlindRotateTestvec ck) e m ws ts vs tvs.
Proof.
  intros HV HT HW. destruct (h_start (flat (BlindRotateTestvec ck :: tvs) ++ vs)) as (e & m & w & Hr & F & ND).
  destruct (h_split e m (BlindRotateTestvec ck :: tvs) vs ltac:(constructor; assumption) w F) as (ts & ws & pre & -> & A & B).
  destruct (nodup_app _ _ ND) as [NW NA]. inversion A as [|t tv ts1 tvs1 ((A1 & A2 & U1 & U2 & _) & I1 & I2) A']; subst.
  exists e, m, (key_in ck t), ws, ts1. split; [exact Hr|]. split; [unfold key_at, key_in; cbn [gk_offset gk_ksk gk_bsk gk_testvec]; auto 10|].
  constructor.
  - exact (reach_ok L pr W HBG e m Hr).
  - split; [split; assumption|split; assumption].
  - split; apply NA; assumption.
  - assert (HL: zlen vs = zlen ws) by (unfold zlen; f_equal; clear - B; induction B; cbn [length]; congruence).
    split; [exact HL|]. split; [exact NW|]. intros i Hi.
    assert (G: get vs i = Ok (znd [] vs i)) by (apply get_ok; lia).
    destruct (Forall2_get_r _ _ _ _ _ B G) as (x & Gx & Ux & Ex). destruct (get_inv 0 _ _ _ Gx) as [_ Ez]. change (znd 0 ws i) with (zn ws i) in Ez. subst x.
    split; [exact Ux|]. split; [exact Ex|]. rewrite Forall_forall in HW. apply HW. unfold znd. apply nth_In. unfold zlen in *. lia.
  - revert A'. apply Forall2_impl'. intros t' tv' (Q1 & Q2 & Q3). split; [exact Q1|]. split; apply NA; assumption.
Qed.

(** ** the same contents give the same results *)
Lemma vstep_key gk gk' tv ck k i vs tvs : gk_offset gk = gk_offset gk' -> gk_bsk gk = gk_bsk gk' -> gk_ksk gk = gk_ksk gk' ->
  vstep L pr ck gk tv k i vs tvs = vstep L pr ck gk' tv k i vs tvs.
Proof. destruct gk as [o1 t1 k1 b1], gk' as [o2 t2 k2 b2]. cbn [gk_offset gk_bsk gk_ksk]. intros -> -> ->. reflexivity. Qed.
Lemma vrun_key gk gk' tv ck k p : gk_offset gk = gk_offset gk' -> gk_bsk gk = gk_bsk gk' -> gk_ksk gk = gk_ksk gk' ->
  forall vs tvs, vrun L pr ck gk tv k p vs tvs = vrun L pr ck gk' tv k p vs tvs.
Proof.
  intros A B C. induction p as [|i p IH]; intros vs tvs; cbn [vrun]; [reflexivity|]. rewrite (vstep_key gk gk' tv ck k i vs tvs A B C). apply IH.
Qed.
End H.

(** ** the statements *)
Ltac open_shape GP TR E L FL := match goal with |- _ => destruct (shape_laws _ _ _ _ GP TR) as [E [L FL]] end.

Lemma h_keys R tw twi pr sk rk rb (ck : CloudKey (fft_ops R tw twi)) : transform R tw twi pr -> setup R (fft_ops R tw twi) pr sk rk rb ck ->
  key_shape R tw twi pr ck.
Proof.
  intros TR (GP & _ & Hsk & Hck). open_shape GP TR E L FL. destruct (cloud_facts L pr (proj1 GP) (proj2 GP) _ _ _ _ Hsk Hck) as (A & B & C & _).
  split; [eapply bsk_sh; eassumption|]. split; [eapply ksk_sh; eassumption|]. rewrite C. pose proof (law_N L).
  destruct (ctv_ok (g_N pr) ltac:(lia)) as [[X1 X2] [X3 X4]]. split; [exact X1|]. split; [exact X3|]. split; assumption.
Qed.

Lemma h_total R tw twi pr ck ck' e (m : mem (FP (fft_ops R tw twi))) gk k p ws ts : good_params pr -> transform R tw twi pr ->
  key_shape R tw twi pr ck -> key_shape R tw twi pr ck' -> any_history R tw twi pr e m -> key_at _ m e gk ck' -> 0 <= k ->
  received R tw twi pr e m gk ws ts -> asks_all p (zlen ws) (zlen ts) ->
  exists nw ts' m', mexec _ pr ck e gk k p ws ts m = Ok (ws ++ nw, ts', m') /\
    received R tw twi pr e m' gk (ws ++ nw) ts' /\ kept_but _ e (moutputs p) ws m m' /\ (forall x, In x nw -> ~ user m e x) /\
    any_history R tw twi pr e m' /\ key_at _ m' e gk ck'.
Proof.
  intros GP TR S1 S2 Hh K Hk Hr Ha. open_shape GP TR E L FL. pose proof (history_good R tw twi pr GP L FL e m Hh) as G.
  destruct (run_any R tw twi pr GP L FL e m ck ck' gk k p ws ts G S1 S2 K Hk Hr Ha) as (nw & ts' & m' & E1 & G1 & K1 & R1 & O1 & F1).
  exists nw, ts', m'. split; [exact E1|]. split; [exact R1|]. split; [exact O1|]. split; [exact F1|]. split; [|exact K1].
  eapply ah_program with (ck := ck) (ck' := ck'); eassumption.
Qed.

(** the four procedures, directly *)
Lemma h_boot R tw twi pr e (m : mem (FP (fft_ops R tw twi))) bsk ksk off ct tvr tv : good_params pr -> transform R tw twi pr ->
  boot_shape R tw twi pr bsk -> switch_shape pr ksk -> any_history R tw twi pr e m -> input _ pr m e ct -> table _ pr m e tvr tv ->
  exists r m', Bootstrap _ pr m e ct tvr bsk ksk off = Ok (r, m') /\ zlen (tm m' r) = lv0_N pr + 1 /\ user_kept e m m' /\ any_history R tw twi pr e m'.
Proof.
  intros GP TR S1 S2 Hh Hi Ht. open_shape GP TR E L FL. pose proof (history_good R tw twi pr GP L FL e m Hh) as G.
  destruct (g_boot L pr (proj1 GP) bsk ksk off (sh_bsk R tw twi pr L FL _ S1) (sh_ksk pr _ S2) e m ct tvr tv G Hi Ht) as (m1 & E1 & V1 & G1 & K1 & _).
  eexists _, m1. split; [exact E1|]. split; [rewrite V1; apply (bootp_ok L pr (proj1 GP))|]. split; [exact K1|]. eapply ah_boot; eassumption.
Qed.

Lemma same_tabs {O : fops} pr e1 e2 (m1 m2 : mem (FP O)) ws1 ws2 ts1 ts2 tvs1 tvs2 : tabs pr e1 m1 ws1 ts1 tvs1 -> tabs pr e2 m2 ws2 ts2 tvs2 ->
  Forall2 (fun t u => tm m1 (rA t) = tm m2 (rA u) /\ tm m1 (rB t) = tm m2 (rB u)) ts1 ts2 -> tvs1 = tvs2.
Proof.
  intros A. revert ts2 tvs2. induction A as [|t tv ts tvs ((B1 & B2 & _) & _) _ IH]; intros ts2 tvs2 C D.
  - inversion D; subst. inversion C; subst. reflexivity.
  - inversion D as [|t1 t2 l1 l2 [X1 X2] D']; subst. inversion C as [|t3 tv3 l3 l4 ((Y1 & Y2 & _) & _) C']; subst.
    f_equal; [|eapply IH; eassumption]. destruct tv as [a1 b1], tv3 as [a2 b2]. cbn [tA tB] in *. congruence.
Qed.
Lemma tabs_same {O : fops} pr e1 e2 (m1 m2 : mem (FP O)) ws1 ws2 ts1 ts2 tvs : tabs pr e1 m1 ws1 ts1 tvs -> tabs pr e2 m2 ws2 ts2 tvs ->
  Forall2 (fun t u => tm m1 (rA t) = tm m2 (rA u) /\ tm m1 (rB t) = tm m2 (rB u)) ts1 ts2.
Proof.
  intros A. revert ts2. induction A as [|t tv ts tvs ((B1 & B2 & _) & _) _ IH]; intros ts2 C; inversion C as [|t2 tv2 ts2' tvs2' ((Y1 & Y2 & _) & _) C']; subst; constructor.
  - split; congruence.
  - apply IH. assumption.
Qed.
Lemma map_same {O : fops} (m1 m2 : mem (FP O)) ws1 ws2 : map (tm m1) ws1 = map (tm m2) ws2 <-> Forall2 (fun x y => tm m1 x = tm m2 y) ws1 ws2.
Proof.
  split.
  - revert ws2. induction ws1 as [|x ws1 IH]; intros [|y ws2] H; cbn [map] in H; try discriminate; constructor; [congruence|]. apply IH. congruence.
  - induction 1 as [|x y ws1 ws2 H _ IH]; cbn [map]; congruence.
Qed.

Lemma h_same R tw twi pr ck ck' k p e1 e2 (m1 m2 : mem (FP (fft_ops R tw twi))) gk1 gk2 ws1 ws2 ts1 ts2 : good_params pr -> transform R tw twi pr ->
  key_shape R tw twi pr ck -> key_shape R tw twi pr ck' -> 0 <= k ->
  any_history R tw twi pr e1 m1 -> key_at _ m1 e1 gk1 ck' -> received R tw twi pr e1 m1 gk1 ws1 ts1 ->
  any_history R tw twi pr e2 m2 -> key_at _ m2 e2 gk2 ck' -> received R tw twi pr e2 m2 gk2 ws2 ts2 ->
  same_contents R tw twi m1 ws1 ts1 m2 ws2 ts2 -> asks_all p (zlen ws1) (zlen ts1) ->
  exists nw1 ts1' m1' nw2 ts2' m2',
    mexec _ pr ck e1 gk1 k p ws1 ts1 m1 = Ok (ws1 ++ nw1, ts1', m1') /\ mexec _ pr ck e2 gk2 k p ws2 ts2 m2 = Ok (ws2 ++ nw2, ts2', m2') /\
    same_contents R tw twi m1' (ws1 ++ nw1) ts1' m2' (ws2 ++ nw2) ts2'.
Proof.
  intros GP TR S1 S2 Hk H1 K1 R1 H2 K2 R2 [SC1 SC2] Ha. open_shape GP TR E L FL. pose proof S1 as (S11 & S12 & _).
  pose proof (history_good R tw twi pr GP L FL _ _ H1) as G1. pose proof (history_good R tw twi pr GP L FL _ _ H2) as G2.
  destruct (sh_tv R tw twi pr L FL ck' gk1 e1 m1 S2 K1) as (O1 & A1 & A2 & A3 & T1). destruct (sh_tv R tw twi pr L FL ck' gk2 e2 m2 S2 K2) as (O2 & B1 & B2 & _ & T2).
  destruct (rec_inv R tw twi pr L e1 m1 gk1 _ ws1 ts1 G1 T1 R1) as (tvs1 & I1). destruct (rec_inv R tw twi pr L e2 m2 gk2 _ ws2 ts2 G2 T2 R2) as (tvs2 & I2).
  pose proof (same_tabs pr e1 e2 m1 m2 ws1 ws2 ts1 ts2 tvs1 tvs2 (i_tabs _ _ _ _ _ _ _ _ _ _ I1) (i_tabs _ _ _ _ _ _ _ _ _ _ I2) SC2) as ET. subst tvs2.
  pose proof (proj2 (map_same m1 m2 ws1 ws2) SC1) as EW. rewrite <- EW in I2.
  assert (LW: zlen ws2 = zlen ws1) by (unfold zlen; f_equal; symmetry; clear - SC1; induction SC1; cbn [length]; congruence).
  assert (LT: zlen ts2 = zlen ts1) by (unfold zlen; f_equal; symmetry; clear - SC2; induction SC2; cbn [length]; congruence).
  destruct (run_total L pr (proj1 GP) (proj2 GP) ck gk1 (BlindRotateTestvec ck') k Hk (sh_bsk R tw twi pr L FL _ S11) (sh_ksk pr _ S12) A1 A2 A3 e1 p m1 ws1 ts1 _ tvs1 I1 Ha)
    as (nw1 & ts1' & m1' & E1 & J1 & _).
  destruct (run_total L pr (proj1 GP) (proj2 GP) ck gk2 (BlindRotateTestvec ck') k Hk (sh_bsk R tw twi pr L FL _ S11) (sh_ksk pr _ S12) B1 B2 A3 e2 p m2 ws2 ts2 _ tvs1 I2
    ltac:(rewrite LW, LT; exact Ha)) as (nw2 & ts2' & m2' & E2 & J2 & _).
  exists nw1, ts1', m1', nw2, ts2', m2'. split; [exact E1|]. split; [exact E2|].
  assert (EV: forall vs tvs, vrun L pr ck gk1 (BlindRotateTestvec ck') k p vs tvs = vrun L pr ck gk2 (BlindRotateTestvec ck') k p vs tvs).
  { destruct K1 as (Q1 & Q2 & Q3 & _). destruct K2 as (Q1' & Q2' & Q3' & _). intros. apply vrun_key; congruence. }
  rewrite EV in J1. destruct (inv_rec R tw twi pr L _ _ _ _ _ _ _ _ J1) as [_ X1]. destruct (inv_rec R tw twi pr L _ _ _ _ _ _ _ _ J2) as [_ X2].
  split; [apply map_same; congruence|]. eapply tabs_same; [apply (i_tabs _ _ _ _ _ _ _ _ _ _ J1)|apply (i_tabs _ _ _ _ _ _ _ _ _ _ J2)].
Qed.

(** a start with any key *)
Lemma h_any R tw twi pr (ck : CloudKey (fft_ops R tw twi)) vs : good_params pr -> transform R tw twi pr -> key_shape R tw twi pr ck ->
  Forall (fun v => zlen v = lv0_N pr + 1) vs ->
  exists e (m : mem (FP (fft_ops R tw twi))) gk ws, any_history R tw twi pr e m /\ key_at _ m e gk ck /\ received R tw twi pr e m gk ws [] /\ map (tm m) ws = vs.
Proof.
  intros GP TR S HV. open_shape GP TR E L FL. destruct S as (_ & _ & S3).
  destruct (h_state R tw twi pr GP L ck [] vs S3 (Forall_nil _) HV) as (e & m & gk & ws & ts & Hr & K & I').
  pose proof (i_tabs _ _ _ _ _ _ _ _ _ _ I') as TB. inversion TB; subst. destruct (inv_rec R tw twi pr L _ _ _ _ _ _ _ _ I') as [X1 X2].
  exists e, m, gk, ws. split; [apply ah_reach; exact Hr|]. auto.
Qed.

(** ** an honest tenant *)
Lemma plain_asks k i xs fs xs' fs' : mplain1 k i xs fs = Ok (xs', fs') ->
  asks i (zlen xs) (zlen fs) /\ zlen xs' = zlen xs + new_cts i /\ zlen fs' = zlen fs + new_tables i.
Proof.
  destruct i as [i|i]; destruct i; cbn [mplain1 lplain1 asks new_cts new_tables]; unfold at_hand; cbv zeta; intro H;
    repeat (apply bind_inv in H; let x := fresh "x" in let G := fresh "G" in destruct H as (x & G & H); cbv beta in H;
      try (apply bind_inv in G; let y := fresh "y" in let F := fresh "F" in destruct G as (y & F & G); cbv beta in G));
    injection H as <- <-;
    repeat match goal with G : get xs ?a = Ok _ |- _ => apply (get_inv 0) in G | G : get fs ?a = Ok _ |- _ => apply (get_inv (fun x : Z => x)) in G
      | G : set xs _ _ = Ok _ |- _ => apply set_inv in G; destruct G as [G ->] end;
    rewrite ?zlen_snoc, ?zlen_upd; repeat split; try lia.
Qed.
Lemma plain_asks_all k p : forall xs fs xs' fs', mplain k p xs fs = Ok (xs', fs') -> asks_all p (zlen xs) (zlen fs).
Proof.
  induction p as [|i p IH]; intros xs fs xs' fs' H; cbn [mplain asks_all] in *; [exact I|]. apply bind_inv in H. destruct H as ([xs1 fs1] & E1 & H).
  destruct (plain_asks k i xs fs xs1 fs1 E1) as (A & B & C). split; [exact A|]. rewrite <- B, <- C. eapply IH. exact H.
Qed.

Lemma Forall2_zlen {A B} (P : A -> B -> Prop) u v : Forall2 P u v -> zlen u = zlen v.
Proof. intro H. unfold zlen. f_equal. induction H; cbn [length]; congruence. Qed.

Lemma h_honest R tw twi pr sk rk rb ck e gk k T p (m : mem (FP (fft_ops R tw twi))) ws ts xs fs es xs' fs' es' : transform R tw twi pr ->
  setup R (fft_ops R tw twi) pr sk rk rb ck -> 2 <= k < g_NBIT pr ->
  any_history R tw twi pr e m -> key_at _ m e gk ck -> ~ In (rA (gk_testvec gk)) ws -> ~ In (rB (gk_testvec gk)) ws ->
  lwires _ pr e k sk m ws xs es -> ltables _ pr e k m ws ts fs ->
  mplain k p xs fs = Ok (xs', fs') -> mnoise k T (round_err pr sk) p es = Ok es' ->
  (forall f c, zlen c = lv0_N pr + 1 -> mix_noise _ pr ck k sk f c T) ->
  exists nw ts' m', mexec _ pr ck e gk k p ws ts m = Ok (ws ++ nw, ts', m') /\
    lwires _ pr e k sk m' (ws ++ nw) xs' es' /\ ltables _ pr e k m' (ws ++ nw) ts' fs' /\
    (forall i r x E, get (ws ++ nw) i = Ok r -> get xs' i = Ok x -> get es' i = Ok E -> E < 2 ^ (30 - k) ->
       DecryptLWEMessage (lv0_N pr) (tm m' r) (2 ^ k) (KeyLv0 sk) = Ok (x mod 2 ^ k)) /\
    (forall i r b E, get (ws ++ nw) i = Ok r -> get xs' i = Ok (bit_pos k b) -> get es' i = Ok E -> E < 2 ^ 29 ->
       DecryptBool (lv0_N pr) (tm m' r) (KeyLv0 sk) = Ok b) /\
    kept_but _ e (moutputs p) ws m m' /\ (forall x, In x nw -> ~ user m e x) /\ any_history R tw twi pr e m' /\ key_at _ m' e gk ck.
Proof.
  intros TR S Hk Hh K A1 A2 Hw Ht Hp Hn HB. pose proof S as (GP & _). pose proof (h_keys _ _ _ _ _ _ _ _ TR S) as SH. open_shape GP TR E L FL.
  pose proof SH as (S11 & S12 & S13). pose proof (history_good R tw twi pr GP L FL _ _ Hh) as G.
  destruct (sh_tv R tw twi pr L FL ck gk e m SH K) as (_ & B1 & B2 & B3 & T1).
  pose proof Hw as (LX & LE & ND & HW). pose proof (Forall2_zlen _ _ _ Ht) as LT.
  assert (RC: received R tw twi pr e m gk ws ts).
  { split; [exact ND|]. split; [intros x Hx; apply In_zn in Hx; destruct Hx as (i & Hi & <-); destruct (HW i Hi) as (U & _ & ((Hl & _) & _)); auto|].
    split; [|auto]. clear - Ht. induction Ht as [|t f ts fs ((tv & _ & X) & Y) _ IH]; constructor; eauto. }
  destruct (rec_inv R tw twi pr L e m gk _ ws ts G T1 RC) as (tvs & HI). set (vs := map (tm m) ws) in *.
  assert (HA: asks_all p (zlen ws) (zlen ts)) by (rewrite <- LX, LT; eapply plain_asks_all; exact Hp).
  (* the same contents, on a new evaluator *)
  pose proof (i_hold _ _ _ _ _ _ _ _ _ _ HI) as (LV & _ & HV). pose proof (i_tabs _ _ _ _ _ _ _ _ _ _ HI) as TB.
  destruct (h_state R tw twi pr GP L ck tvs vs S13) as (e0 & m0 & gk0 & ws0 & ts0 & R0 & K0 & I0).
  { clear - TB. induction TB as [|t tv ts tvs ((_ & _ & _ & _ & X) & _) _ IH]; constructor; [exact X|exact IH]. }
  { apply Forall_forall. intros v Hv. apply (In_nth _ _ []) in Hv. destruct Hv as (j & Hj & <-). destruct (HV (Z.of_nat j)) as (_ & _ & X); [unfold zlen in *; lia|].
    unfold znd in X. rewrite Nat2Z.id in X. exact X. }
  pose proof (i_hold _ _ _ _ _ _ _ _ _ _ I0) as (LV0 & ND0 & HV0). pose proof (i_tabs _ _ _ _ _ _ _ _ _ _ I0) as TB0.
  destruct (sh_tv R tw twi pr L FL ck gk0 e0 m0 SH K0) as (_ & C1 & C2 & _ & _).
  assert (W0: lwires _ pr e0 k sk m0 ws0 xs es).
  { split; [lia|]. split; [lia|]. split; [exact ND0|]. intros i Hi. destruct (HV0 i Hi) as (U & X & _). destruct (HV i ltac:(lia)) as (_ & Y & _).
    destruct (HW i ltac:(lia)) as (_ & Z1 & Z2). split; [exact U|]. split; [exact Z1|]. rewrite X, <- Y. exact Z2. }
  assert (T0: ltables _ pr e0 k m0 ws0 ts0 fs).
  { clear - Ht TB TB0. revert ts0 TB0 fs Ht. induction TB as [|t tv ts tvs ((X1 & X2 & _) & _) TB IH]; intros ts0 TB0 fs Ht.
    - inversion TB0; subst. inversion Ht; subst. constructor.
    - inversion TB0 as [|t1 tv1 l1 l2 (Y1 & Y2 & Y3) TB1]; subst. inversion Ht as [|t2 f l3 l4 ((tv' & Z1 & (Z2 & Z3 & _)) & _) Ht1]; subst.
      constructor; [|apply IH; assumption]. split; [|auto]. exists tv. split; [|exact Y1].
      rewrite Z1. f_equal. destruct tv as [a1 b1], tv' as [a2 b2]. cbn [tA tB] in *. congruence. }
  destruct (i_apart _ _ _ _ _ _ _ _ _ _ I0) as [A01 A02].
  destruct (mp_program R _ pr sk rk rb ck e0 gk0 k T p m0 ws0 ts0 xs fs es xs' fs' es' S Hk R0 K0 A01 A02 W0 T0 Hp Hn) as (nw0 & ts0' & m0' & E0 & W0' & T0' & _).
  { intros f c _ Hl. apply HB. exact Hl. }
  destruct (run_total L pr (proj1 GP) (proj2 GP) ck gk0 (BlindRotateTestvec ck) k ltac:(lia) (sh_bsk R tw twi pr L FL _ S11) (sh_ksk pr _ S12) C1 C2 B3 e0 p m0 ws0 ts0 vs tvs I0)
    as (nw0' & ts0'' & m0'' & E0' & J0 & _).
  { rewrite <- LV0, LV. rewrite (Forall2_zlen _ _ _ TB0), <- (Forall2_zlen _ _ _ TB). exact HA. }
  rewrite E0 in E0'. injection E0' as Ew <- <-. apply app_inv_head in Ew. subst nw0'.
  destruct (run_total L pr (proj1 GP) (proj2 GP) ck gk (BlindRotateTestvec ck) k ltac:(lia) (sh_bsk R tw twi pr L FL _ S11) (sh_ksk pr _ S12) B1 B2 B3 e p m ws ts vs tvs HI HA)
    as (nw & ts' & m' & E1 & J & O1 & F1).
  assert (EV: vrun L pr ck gk0 (BlindRotateTestvec ck) k p vs tvs = vrun L pr ck gk (BlindRotateTestvec ck) k p vs tvs).
  { destruct K as (Q1 & Q2 & Q3 & _). destruct K0 as (Q1' & Q2' & Q3' & _). apply vrun_key; congruence. }
  rewrite EV in J0. set (vs' := fst (vrun L pr ck gk (BlindRotateTestvec ck) k p vs tvs)) in *. set (tvs' := snd (vrun L pr ck gk (BlindRotateTestvec ck) k p vs tvs)) in *.
  pose proof (i_hold _ _ _ _ _ _ _ _ _ _ J) as (LV' & ND' & HV'). pose proof (i_hold _ _ _ _ _ _ _ _ _ _ J0) as (LV0' & _ & HV0').
  pose proof (i_tabs _ _ _ _ _ _ _ _ _ _ J) as TB'. pose proof (i_tabs _ _ _ _ _ _ _ _ _ _ J0) as TB0'. destruct W0' as (X1 & X2 & _ & X3).
  assert (W1: lwires _ pr e k sk m' (ws ++ nw) xs' es').
  { split; [lia|]. split; [lia|]. split; [exact ND'|]. intros i Hi. destruct (HV' i Hi) as (U & X & _). destruct (HV0' i ltac:(lia)) as (_ & Y & _).
    destruct (X3 i ltac:(lia)) as (_ & Z1 & Z2). split; [exact U|]. split; [exact Z1|]. rewrite X, <- Y. exact Z2. }
  exists nw, ts', m'. split; [exact E1|]. split; [exact W1|]. split; [|split; [|split; [|split; [exact O1|split; [exact F1|split]]]]].
  - clear - TB' TB0' T0'. revert ts0' TB0' fs' T0'. induction TB' as [|t tv ts1 tvs1 ((X1 & X2 & X4) & X5) TB IH]; intros ts0 TB0 fs Ht.
    + inversion TB0; subst. inversion Ht; subst. constructor.
    + inversion TB0 as [|t1 tv1 l1 l2 ((Y1 & Y2 & _) & _) TB1]; subst. inversion Ht as [|t2 f l3 l4 ((tv' & Z1 & (Z2 & Z3 & _)) & _) Ht1]; subst.
      constructor; [|eapply IH; eassumption]. split; [|exact X5]. exists tv. split; [|unfold table; auto].
      rewrite Z1. f_equal. destruct tv as [a1 b1], tv' as [a2 b2]. cbn [tA tB] in *. congruence.
  - intros i r x F Gr Gx Ge HE. destruct (wires_decrypts R _ pr sk rk rb ck S e k ltac:(lia) m' _ _ _ i x F W1 Gx Ge HE) as (r' & Gr' & D).
    rewrite Gr in Gr'. injection Gr' as <-. exact D.
  - intros i r b F Gr Gx Ge HE. eapply (wires_bool R _ pr sk rk rb ck S e k Hk); eassumption.
  - eapply ah_program with (ck := ck) (ck' := ck) (k := k); try eassumption. lia.
  - eapply tv_sh; [exact K|apply (i_tv _ _ _ _ _ _ _ _ _ _ J)].
Qed.

Lemma h_float64 mc tw twi pr sk rk rb ck Bb Bk d d' e gk k p (m : mem (FP (fft_ops (f64_arith mc) tw twi))) ws ts xs fs es xs' fs' es' : mc_ok mc ->
  transform (f64_arith mc) tw twi pr -> setup (f64_arith mc) (fft_ops (f64_arith mc) tw twi) pr sk rk rb ck ->
  fft_error_within pr d d' -> key_noise_within pr rk rb Bb Bk -> 0 <= Bb -> 0 <= Bk -> 0 <= d' -> 2 <= k < g_NBIT pr ->
  any_history (f64_arith mc) tw twi pr e m -> key_at _ m e gk ck -> ~ In (rA (gk_testvec gk)) ws -> ~ In (rB (gk_testvec gk)) ws ->
  lwires _ pr e k sk m ws xs es -> ltables _ pr e k m ws ts fs ->
  mplain k p xs fs = Ok (xs', fs') -> mnoise k (worst_noise pr sk Bb Bk d d') (round_err pr sk) p es = Ok es' ->
  exists nw ts' m', mexec _ pr ck e gk k p ws ts m = Ok (ws ++ nw, ts', m') /\
    lwires _ pr e k sk m' (ws ++ nw) xs' es' /\ ltables _ pr e k m' (ws ++ nw) ts' fs' /\
    (forall i r x E, get (ws ++ nw) i = Ok r -> get xs' i = Ok x -> get es' i = Ok E -> E < 2 ^ (30 - k) ->
       DecryptLWEMessage (lv0_N pr) (tm m' r) (2 ^ k) (KeyLv0 sk) = Ok (x mod 2 ^ k)) /\
    (forall i r b E, get (ws ++ nw) i = Ok r -> get xs' i = Ok (bit_pos k b) -> get es' i = Ok E -> E < 2 ^ 29 ->
       DecryptBool (lv0_N pr) (tm m' r) (KeyLv0 sk) = Ok b) /\
    kept_but _ e (moutputs p) ws m m' /\ (forall x, In x nw -> ~ user m e x) /\ any_history (f64_arith mc) tw twi pr e m' /\ key_at _ m' e gk ck.
Proof.
  intros Hc TR S H1 H2 H3 H4 H5 Hk Hr Hg A1 A2 Hw Ht Hp Hn.
  eapply (h_honest _ tw twi pr sk rk rb ck e gk k _ p m ws ts xs fs es xs' fs' es' TR S Hk Hr Hg A1 A2 Hw Ht Hp Hn).
  intros f c Hl. destruct f as [f|]; cbn [mix_noise].
  - eapply t_worst; try eassumption. apply Z.pow_pos_nonneg; lia.
  - eapply p_worst_tv; eassumption.
Qed.

(** ** keys of a constant *)
Lemma h_constant R tw twi pr x y : good_params pr -> transform R tw twi pr -> key_shape R tw twi pr (constant_key R tw twi pr x y).
Proof.
  intros GP TR. open_shape GP TR E L FL. pose proof (law_N L) as HN. pose proof (proj1 GP) as W. pose proof (pw_n _ _ W) as Hn. pose proof (pw_l _ _ W) as Hl.
  assert (HS: 0 <= switch_rows pr).
  { unfold switch_rows. pose proof (pw_t _ _ W). pose proof (Z.pow_nonneg 2 (g_BASEBIT pr) ltac:(lia)).
    apply Z.mul_nonneg_nonneg; [apply Z.mul_nonneg_nonneg; lia|lia]. }
  assert (RP: forall {A} (a : A) k i g, get (repeat a k) i = Ok g -> g = a).
  { intros A a k i g G. unfold get in G. destruct (i <? 0); [discriminate|]. destruct (nth_error (repeat a k) (Z.to_nat i)) as [z|] eqn:Q; [|discriminate].
    injection G as <-. apply nth_error_In in Q. apply repeat_spec in Q. exact Q. }
  assert (KN: forall k, tok_list (repeat (w32 y) k)).
  { intro k. apply Forall_forall. intros z Hz. apply repeat_spec in Hz. subst z. apply tok_w32. }
  unfold key_shape, constant_key. cbn [BootstrappingKey KeySwitchingKey BlindRotateTestvec]. split; [|split].
  - split; [rewrite zlen_repeat; lia|]. intros i g _ G. apply RP in G. subst g. split; [rewrite zlen_repeat; lia|].
    apply Forall_forall. intros c Hc. apply repeat_spec in Hc. subst c. split; cbn [fst snd]; rewrite zlen_repeat; lia.
  - split; [rewrite zlen_repeat; lia|]. intros i row _ G. apply RP in G. subst row. rewrite zlen_repeat. lia.
  - split; [cbn [tA]; rewrite zlen_repeat; lia|]. split; [cbn [tB]; rewrite zlen_repeat; lia|]. split; apply KN.
Qed.
Lemma h_transform R pr : good_params pr -> 4 <= g_NBIT pr -> exists tw twi, transform R tw twi pr.
Proof.
  intros [W _] H4. pose proof (pw_N _ _ W) as HN. destruct (tables_len R (g_NBIT pr) H4) as (tw & twi & T & _). exists tw, twi. unfold transform. rewrite HN. split; [apply degree_ok; exact H4|exact T].
Qed.
Lemma h_setup R tw twi pr sk rk rb : good_params pr -> transform R tw twi pr -> key_ok pr sk -> exists ck, setup R (fft_ops R tw twi) pr sk rk rb ck.
Proof.
  intros GP TR Hk. open_shape GP TR E L FL. destruct GP as [W HBG]. destruct (key_ok_N pr W sk Hk) as [[H0 _] [H1 _]].
  eexists. split; [split; assumption|]. split; [exact E|]. split; [exact Hk|]. exact (NewCloudKey_ok L pr W sk rb H0 H1 rk HBG).
Qed.

(** an honest tenant's buffers may be added to any state *)
Lemma h_join R tw twi pr (ck : CloudKey (fft_ops R tw twi)) e (m : mem (FP (fft_ops R tw twi))) vs : good_params pr -> transform R tw twi pr -> any_history R tw twi pr e m ->
  exists (m' : mem (FP (fft_ops R tw twi))) gk ws, any_history R tw twi pr e m' /\ user_kept e m m' /\ key_at _ m' e gk ck /\
    Forall2 (fun x v => user m' e x /\ tm m' x = v) ws vs /\ NoDup ws /\ ~ In (rA (gk_testvec gk)) ws /\ ~ In (rB (gk_testvec gk)) ws.
Proof.
  intros GP TR Hh. open_shape GP TR E L FL.
  assert (AL: forall m0 v, any_history R tw twi pr e m0 -> exists m1, any_history R tw twi pr e m1 /\ user_kept e m0 m1 /\ user m1 e (tnext m0) /\
    tm m1 (tnext m0) = v /\ ~ user m0 e (tnext m0)).
  { intros m0 v H0. destruct (good_alloc L pr (proj1 GP) e m0 v (history_good R tw twi pr GP L FL e m0 H0)) as (_ & U & V & K & NU & X).
    exists (snd (alloc m0 v)). split; [|auto]. eapply ah_uses with (j := 0); [exact H0|]. apply u_other; [|intros x []].
    assert (NO: forall x, own e x -> x <> tnext m0).
    { intros x Hx ->. destruct U as [_ U]. contradiction. }
    split; [intros x Hx _; apply X, NO; exact Hx|].
    split; [intros x Hx; rewrite X; [reflexivity|]; apply NO; eapply ring_own; [exact (proj1 GP)| |exact Hx]; apply (history_good R tw twi pr GP L FL e m0 H0)|].
    cbn. split; [auto|]. split; [auto|]. lia. }
  destruct (AL m (tA (BlindRotateTestvec ck)) Hh) as (m1 & H1 & K1 & U1 & V1 & N1). destruct (AL m1 (tB (BlindRotateTestvec ck)) H1) as (m2 & H2 & K2 & U2 & V2 & N2).
  destruct (K2 _ U1) as [U1' V1'].
  assert (G: exists m3 w, any_history R tw twi pr e m3 /\ user_kept e m2 m3 /\ Forall2 (fun x v => user m3 e x /\ tm m3 x = v) w vs /\ NoDup w /\
    (forall x, In x w -> ~ user m2 e x)).
  { induction vs as [|v bs IH]; [exists m2, []; split; [exact H2|split; [apply keeps_refl|split; [constructor|split; [constructor|intros x []]]]]|].
    destruct IH as (m3 & w & Rm & Km & F & D & Q). destruct (AL m3 v Rm) as (m4 & H4 & K4 & U4 & V4 & N4).
    exists m4, (tnext m3 :: w). split; [exact H4|]. split; [eapply keeps_trans; eassumption|].
    split; [|split].
    - constructor; [split; assumption|]. revert F. apply Forall2_impl'. intros x u [Hx Hv]. destruct (K4 x Hx) as [Y1 Y2]. split; [exact Y1|congruence].
    - constructor; [|exact D]. intro X. destruct (Forall2_in_l _ _ _ F _ X) as (u & [Hu _]). contradiction.
    - intros x [<-|Hx]; [|apply Q; exact Hx]. intro X. apply N4. apply (Km _ X). }
  destruct G as (m3 & w & H3 & K3 & F & D & Q).
  exists m3, (key_in R tw twi ck {| rA := tnext m; rB := tnext m1 |}), w. split; [exact H3|]. split; [eapply keeps_trans; [|exact K3]; eapply keeps_trans; eassumption|].
  destruct (K3 _ U1') as [A1 A2]. destruct (K3 _ U2) as [B1 B2].
  split; [unfold key_at, key_in; cbn [gk_offset gk_testvec gk_ksk gk_bsk rA rB]; rewrite A2, V1', V1, B2, V2; auto 10|].
  split; [exact F|]. split; [exact D|]. unfold key_in. cbn [gk_testvec rA rB]. split; intro X; apply Q in X; contradiction.
Qed.

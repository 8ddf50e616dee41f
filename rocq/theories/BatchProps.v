(** * Batch operations: values and truth tables *)
From Coq Require Import Lia ZifyBool Setoid Morphisms List.
From Verif Require Import GoBase GoFacts GoMem F64 Utils Spec Params Key Tlwe TlweMem Poly Fft FftTabErr Trlwe Trgsw Evaluator CloudKey Gates RunSpec BatchSpec
  MemFacts TlweFacts PolyFacts NegFacts Laws TrlweFacts TrgswFacts RotFacts KeySwitchFacts EvalFacts HeapFacts LinFacts OldRotFacts CloudKeyFacts CallFacts BootFacts
  GateFacts NoiseFacts RunProps RlweProps HistProps RunWorst ReencFacts BatchFacts.
Import ListNotations.
Local Open Scope Z_scope.
Ltac Zify.zify_post_hook ::= idtac.

(** IdentityKeySwitching on anything of the right length *)
Lemma ks_total pr src ksk n N bb t :
  lv0_N pr = n -> g_N pr = N -> g_BASEBIT pr = bb -> g_IKS_T pr = t ->
  0 <= n -> 0 <= N -> 1 <= bb -> 0 <= t -> bb * t <= 31 ->
  zlen src = N + 1 -> ksk_shape n N bb t ksk ->
  exists v, IdentityKeySwitching pr src ksk = Ok v /\ zlen v = n + 1.
Proof.
  intros En EN Eb Et Hn HN Hb Ht Hbt Hs [Hkl Hkr]. unfold IdentityKeySwitching. rewrite En, EN, Eb, Et.
  rewrite shl_int_ok by lia. cbn [bind]. unfold NewTLWE. rewrite make_ok by lia. cbn [bind].
  rewrite Hs. replace (N + 1 - 1) with N by lia. rewrite get_zn by lia. cbn [bind].
  rewrite set_ok by (rewrite zlen_repeat; lia). cbn [bind]. rewrite prec_ok by lia. cbn [bind].
  rewrite Z.shiftl_mul_pow2, Z.mul_1_l by lia.
  for_inv (fun (_ : Z) (v : list Z) => zlen v = n + 1) E HP.
  - lia.
  - rewrite zlen_upd, zlen_repeat. lia.
  - intros i v Hi Hv. rewrite get_zn by lia. cbn [bind].
    for_inv (fun (_ : Z) (v : list Z) => zlen v = n + 1) E HP; [lia|exact Hv| |eexists; split; [reflexivity|exact HP]].
    intros j u Hj Hu. rewrite ks_digit_ok by lia. cbn [bind]. pose proof (kdig_range bb t (zn src i) j ltac:(lia)) as Hk.
    destruct (Z.eqb_spec (kdig bb t (zn src i) j) 0); [eexists; split; [reflexivity|exact Hu]|].
    rewrite Hu. pose proof (kidx_range bb t N i j _ ltac:(lia) Hi Hj Hk) as Hx.
    eexists. split; [apply row_sub_ok; [exact Hu| |apply Hkr; exact Hx]|rewrite zlen_tab; lia].
    change (0 <= kidx bb t i j (kdig bb t (zn src i) j) < zlen ksk). lia.
  - eexists. split; [reflexivity|exact HP].
Qed.

Lemma tab_snoc {A} (f : Z -> A) k : 0 <= k -> tab (k + 1) f = tab k f ++ [f k].
Proof.
  intro Hk. symmetry. apply (eq_tab (f 0)); [rewrite zlen_app, zlen_tab by lia; reflexivity|]. intros i Hi.
  destruct (Z_lt_dec i k); [rewrite znd_app1, znd_tab by (rewrite ?zlen_tab; lia); reflexivity|].
  rewrite znd_app2 by (rewrite ?zlen_tab; lia). rewrite zlen_tab by lia. replace (i - k) with 0 by lia. replace i with k by lia. reflexivity.
Qed.

Section B.
Context {O : fops} {N : Z} (L : flaws O N) (pr : pset) (W : pwf pr N) (HBG : g_BG pr = 2 ^ g_BGBIT pr).
Context (sk : SecretKey) (rk : Z -> enc_rand) (rb : Z -> Z -> trlwe_rand) (ck : CloudKey O)
  (Hsk : key_ok pr sk) (Hck : NewCloudKey O pr sk rk rb = Ok ck).
Notation M := (mem (FP O)).
Notation n := (lv0_N pr).
Notation s0 := (KeyLv0 sk).
Notation BK := (BootstrappingKey ck). Notation KK := (KeySwitchingKey ck). Notation OFF := (DecompositionOffset ck).
Notation brp ct := (br_acc L (g_BGBIT pr) (g_L pr) OFF (g_NBIT pr) n BK ct (ctv N) n).
Notation bv := (boot_val L pr ck).

Definition lin_total (lin : list Z -> list Z -> res (list Z)) : Prop :=
  forall a b, zlen a = n + 1 -> zlen b = n + 1 -> exists p, lin a b = Ok p /\ zlen p = n + 1.

Lemma prepare_run lin m inputs : lin_total lin ->
  (forall i, 0 <= i < zlen inputs -> let ab := znd (0, 0) inputs i in (fst ab < tnext m /\ zlen (tm m (fst ab)) = n + 1) /\ (snd ab < tnext m /\ zlen (tm m (snd ab)) = n + 1)) ->
  exists m1, batch_prepare O lin m inputs = Ok (tab (zlen inputs) (fun i => tnext m + i), m1) /\
    tnext m1 = tnext m + zlen inputs /\ fnext m1 = fnext m /\ inext m1 = inext m /\ (forall x, fm m1 x = fm m x) /\ (forall x, im m1 x = im m x) /\
    (forall x, x < tnext m -> tm m1 x = tm m x) /\
    (forall i, 0 <= i < zlen inputs -> let ab := znd (0, 0) inputs i in
       lin (tm m (fst ab)) (tm m (snd ab)) = Ok (tm m1 (tnext m + i)) /\ zlen (tm m1 (tnext m + i)) = n + 1).
Proof.
  intros Hl Hi. unfold batch_prepare.
  destruct (for_each_inv (0, 0) (fun k (st : list Z * M) => let '(p, m1) := st in p = tab k (fun i => tnext m + i) /\
    tnext m1 = tnext m + k /\ fnext m1 = fnext m /\ inext m1 = inext m /\ (forall x, fm m1 x = fm m x) /\ (forall x, im m1 x = im m x) /\
    (forall x, x < tnext m -> tm m1 x = tm m x) /\
    (forall i, 0 <= i < k -> let ab := znd (0, 0) inputs i in
       lin (tm m (fst ab)) (tm m (snd ab)) = Ok (tm m1 (tnext m + i)) /\ zlen (tm m1 (tnext m + i)) = n + 1)) inputs
    (fun _ '(a, b) '(prepared, m) => '(p, m) <- fresh O m (lin (tm m a) (tm m b)) ;; Ok (prepared ++ [p], m)) ([], m)) as ([p m1] & E & H).
  - split; [reflexivity|]. split; [lia|]. repeat (split; [reflexivity|]). intros i X. lia.
  - intros k [p m1] Hk (-> & T1 & F1 & I1 & Ff & Fi & Fx & G). destruct (Hi k Hk) as [[A1 A2] [B1 B2]]. destruct (znd (0, 0) inputs k) as [a b] eqn:Eab. cbn [fst snd] in *.
    rewrite !Fx by assumption. destruct (Hl _ _ A2 B2) as (q & Eq & Lq). rewrite Eq. unfold fresh. cbn [bind]. unfold alloc. cbn [bind].
    eexists. split; [reflexivity|]. cbn [tm fm im tnext fnext inext]. split; [|split; [lia|split; [exact F1|split; [exact I1|split; [exact Ff|split; [exact Fi|split]]]]]].
    + rewrite T1. symmetry. apply tab_snoc. lia.
    + intros x Hx. destruct (Z.eqb_spec x (tnext m1)); [lia|]. apply Fx. exact Hx.
    + intros i Hik. cbv zeta. destruct (Z.eqb_spec (tnext m + i) (tnext m1)) as [X|X].
      * assert (i = k) by lia. subst i. rewrite Eab. cbn [fst snd]. split; assumption.
      * apply G. lia.
  - exists m1. destruct H as (-> & H). split; [exact E|exact H].
Qed.

Lemma post_run m' rs :
  (forall i, 0 <= i < zlen rs -> exists t, znd None rs i = Some t /\ zlen (tm m' (rA t)) = N /\ zlen (tm m' (rB t)) = N) ->
  exists outs, batch_post O pr m' KK rs = Ok outs /\ zlen outs = zlen rs /\ forall i, 0 <= i < zlen rs -> zlen (znd [] outs i) = n + 1 /\
    (forall t c, znd None rs i = Some t -> at_ m' t (brp c) -> znd [] outs i = bv c).
Proof.
  intros Hrs. pose proof (law_N L) as H16. pose proof (pw_n _ _ W) as Hn. destruct (cloud_facts L pr W HBG _ _ _ _ Hsk Hck) as (Hb & Hks & Ht & Ho).
  unfold batch_post. rewrite make_ok by apply zlen_nonneg. cbn [bind].
  set (ok := fun i (v : list Z) => zlen v = n + 1 /\ (forall t c, znd None rs i = Some t -> at_ m' t (brp c) -> v = bv c)).
  destruct (for_each_inv (@None tref) (fun k (st : list (list Z)) => zlen st = zlen rs /\ forall i, 0 <= i < k -> ok i (znd [] st i)) rs
    (fun i t results => match t with None => Panic PNil | Some t =>
        v <- (lv1 <- SampleExtractIndex pr {| tA := tm m' (rA t); tB := tm m' (rB t) |} 0 ;; IdentityKeySwitching pr lv1 KK) ;; set results i v end)
    (repeat [] (Z.to_nat (zlen rs)))) as (outs & E & Hl & Hv).
  - split; [rewrite zlen_repeat; pose proof (zlen_nonneg rs); lia|]. intros i X. lia.
  - intros i st Hi [Hl Hv]. destruct (Hrs i Hi) as (t & Et & LA & LB). rewrite Et.
    rewrite (SampleExtractIndex_ok pr _ 0 N) by (cbn [tA tB]; assumption || lia || apply W). cbn [bind tA tB].
    set (ex := extp N 0 (tm m' (rA t)) (tm m' (rB t))).
    assert (Lx: zlen ex = N + 1) by (unfold ex, extp; rewrite zlen_tab; lia).
    assert (G: exists v, IdentityKeySwitching pr ex KK = Ok v /\ ok i v).
    { destruct (ks_total pr ex KK n N (g_BASEBIT pr) (g_IKS_T pr)) as (v & Ev & Lv); try reflexivity; try assumption; try (destruct W; assumption || lia).
      exists v. split; [exact Ev|]. split; [exact Lv|]. intros t' c Et' [A B]. rewrite Et in Et'. injection Et' as <-.
      assert (Hc: ct_ok N (brp c)) by (apply br_acc_ok; [apply ctv_ok; lia|exact Hn]). destruct Hc as [[_ TA] [_ TB]].
      destruct (extp_ok N 0 (tA (brp c)) (tB (brp c)) ltac:(lia) TA TB) as [X1 X2].
      unfold ex in Ev. rewrite A, B in Ev. rewrite (IdentityKeySwitching_ok pr _ KK n N (g_BASEBIT pr) (g_IKS_T pr)) in Ev; try reflexivity; try assumption; try (destruct W; assumption || lia).
      injection Ev as <-. reflexivity. }
    destruct G as (v & Ev & Gv). rewrite Ev. cbn [bind]. rewrite set_ok by lia. eexists. split; [reflexivity|]. split; [rewrite zlen_upd; exact Hl|].
    intros j Hj. rewrite znd_upd by lia. destruct (Z.eqb_spec j i) as [->|]; [exact Gv|]. apply Hv. lia.
  - exists outs. split; [exact E|]. split; [exact Hl|exact Hv].
Qed.
Notation inp i inputs := (znd (0, 0) inputs i).

Lemma inputs_at m pool inputs : batch_inputs O pr m pool inputs -> forall i, 0 <= i < zlen inputs ->
  let ab := inp i inputs in (fst ab < tnext m /\ zlen (tm m (fst ab)) = n + 1) /\ (snd ab < tnext m /\ zlen (tm m (snd ab)) = n + 1).
Proof.
  intros F i Hi. unfold batch_inputs in F. rewrite Forall_forall in F.
  assert (X: In (inp i inputs) inputs) by (unfold znd; destruct (Z.ltb_spec i 0); [lia|]; apply nth_In; unfold zlen in Hi; lia).
  destruct (F _ X) as [[[[_ A] _] B] [[[_ C] _] D]]. cbv zeta. auto.
Qed.

Lemma prepared_args m pool (inputs : list (Z * Z)) k m1 : pool_reachable O pr m pool -> batch_key O m pool k ck ->
  (forall i, 0 <= i < zlen inputs -> zlen (tm m1 (tnext m + i)) = n + 1) -> tnext m1 = tnext m + zlen inputs ->
  (forall x, x < tnext m -> tm m1 x = tm m x) -> fnext m1 = fnext m -> inext m1 = inext m -> (forall x, fm m1 x = fm m x) -> (forall x, im m1 x = im m x) ->
  pool_reachable O pr m1 pool /\ batch_args O pr m1 pool (tab (zlen inputs) (fun i => tnext m + i)) (gk_testvec k) (ctv N) /\
  (forall x, outside_pool O m pool x -> outside_pool O m1 pool x).
Proof.
  intros Hp (K1 & K2 & K3 & K4 & K5 & K6 & K7) Hl T1 Fx F1 I1 Ff Fi. destruct (pool_ok L pr W _ _ Hp) as (Hm & Hg & _).
  destruct (cloud_facts L pr W HBG _ _ _ _ Hsk Hck) as (_ & _ & Ht & _). rewrite Ht in *. pose proof (law_N L) as H16. pose proof (zlen_nonneg inputs) as Hz.
  assert (Out: forall x, outside_pool O m pool x -> outside_pool O m1 pool x) by (intros x [A B]; split; [lia|exact B]).
  split; [|split; [|exact Out]].
  - eapply pl_other; [exact Hp| |lia|lia|lia]. intros p Hin. rewrite Forall_forall in Hg. destruct (Hg p Hin) as (_ & B & _).
    split; [intros x Hx; apply Fx; unfold pown in Hx; lia|]. split; intros; auto.
  - destruct (ctv_ok N ltac:(lia)) as [[A1 A2] [B1 B2]].
    assert (Lt: forall x, outside_pool O m pool x -> x < tnext m) by (intros x [[_ X] _]; exact X).
    split; [|split; [apply Out; exact K6|split; [apply Out; exact K7|]]].
    + apply Forall_tab. intros i Hi. split; [split; [destruct Hm; lia|]|apply Hl; exact Hi].
      intros p Hin Hx. rewrite Forall_forall in Hg. destruct (Hg p Hin) as (_ & B & _). unfold pown in Hx. lia.
    + rewrite !Fx by (apply Lt; assumption). rewrite (pw_gN _ _ W). auto 10.
Qed.

Lemma bgate_run lin m pool inputs k evs r : lin_total lin -> pool_reachable O pr m pool -> batch_inputs O pr m pool inputs -> batch_key O m pool k ck ->
  batch_gate O pr lin m pool inputs k evs = Some r ->
  exists outs, r = Ok outs /\ zlen outs = zlen inputs /\ forall i, 0 <= i < zlen inputs -> zlen (znd [] outs i) = n + 1 /\
    (gate_no_reuse O pr lin m pool inputs k evs -> forall p, lin (tm m (fst (inp i inputs))) (tm m (snd (inp i inputs))) = Ok p -> znd [] outs i = bv p).
Proof.
  intros Hlin Hp Hi Hk E. destruct (prepare_run lin m inputs Hlin (inputs_at _ _ _ Hi)) as (m1 & E1 & T1 & F1 & I1 & Ff & Fi & Fx & G).
  destruct (prepared_args m pool inputs k m1 Hp Hk (fun i Hi => proj2 (G i Hi)) T1 Fx F1 I1 Ff Fi) as (Hp1 & Ha1 & _).
  unfold batch_gate in E. rewrite E1 in E. destruct Hk as (K1 & K2 & K3 & _).
  destruct (BatchBlindRotate _ _ _ _ _ _ _ _ _) as [r1|] eqn:E2; [|discriminate].
  destruct (pool_ok L pr W _ _ Hp1) as (Hm1 & Hg1 & Hs1). pose proof E2 as E2'. rewrite K1, K3 in E2.
  destruct (cloud_facts L pr W HBG _ _ _ _ Hsk Hck) as (Hb & _). pose proof (zlen_nonneg inputs) as Hz.
  destruct (batch_run L pr W m1 pool _ _ _ _ OFF Hb Ha1 Hm1 Hg1 Hs1 evs r1 E2) as (rs & m2 & -> & Lrs & Hrs & _ & Hv).
  rewrite zlen_tab in * by lia. rewrite K2 in E. injection E as <-.
  destruct (post_run m2 rs) as (outs & E3 & Lo & Ho); [intros i Hi'; apply Hrs; lia|]. exists outs. split; [exact E3|]. split; [lia|].
  intros i Hii. destruct (Ho i ltac:(lia)) as [Lv Vv]. split; [exact Lv|]. intros NR p Ep.
  destruct (Hrs i Hii) as (t & Et & _). apply (Vv t p Et).
  specialize (NR _ _ E1). rewrite K1, K3 in NR. specialize (Hv NR i t Hii Et). rewrite znd_tab in Hv by lia.
  destruct (G i Hii) as [Gp _]. cbv zeta in Gp. rewrite Ep in Gp. injection Gp as ->. exact Hv.
Qed.

Lemma bgate_own lin m pool inputs k : lin_total lin -> pool_reachable O pr m pool -> batch_inputs O pr m pool inputs -> batch_key O m pool k ck ->
  exists evs outs, gate_no_reuse O pr lin m pool inputs k evs /\ batch_gate O pr lin m pool inputs k evs = Some (Ok outs).
Proof.
  intros Hlin Hp Hi Hk. destruct (prepare_run lin m inputs Hlin (inputs_at _ _ _ Hi)) as (m1 & E1 & T1 & F1 & I1 & Ff & Fi & Fx & G).
  destruct (prepared_args m pool inputs k m1 Hp Hk (fun i Hi => proj2 (G i Hi)) T1 Fx F1 I1 Ff Fi) as (Hp1 & Ha1 & _).
  pose proof Hk as (K1 & K2 & K3 & _). destruct (pool_ok L pr W _ _ Hp1) as (Hm1 & Hg1 & Hs1).
  destruct (cloud_facts L pr W HBG _ _ _ _ Hsk Hck) as (Hb & _).
  destruct (fresh_run L pr W m1 pool _ _ _ _ OFF Hb Ha1 Hm1 Hg1 Hs1) as (NR & rs & m' & E).
  set (evs := own_blocks _ _ _) in *. exists evs.
  assert (E2: exists r, batch_gate O pr lin m pool inputs k evs = Some r).
  { unfold batch_gate. rewrite E1, K1, K3, E. eexists. reflexivity. }
  destruct E2 as [r E2]. destruct (bgate_run lin m pool inputs k evs r Hlin Hp Hi Hk E2) as (outs & -> & _). exists outs. split; [|exact E2].
  intros prep m1' E1'. rewrite E1 in E1'. injection E1' as <- <-. rewrite K1, K3. exact NR.
Qed.

(** the serial schedule *)
Lemma bgate_serial lin m pool ab cd k : lin_total lin -> pool_reachable O pr m pool -> batch_inputs O pr m pool [ab; cd] -> batch_key O m pool k ck ->
  Z.even n = true -> 0 < n ->
  exists p, lin (tm m (fst cd)) (tm m (snd cd)) = Ok p /\ batch_gate O pr lin m pool [ab; cd] k (serial pr) = Some (Ok [bv p; bv p]).
Proof.
  intros Hlin Hp Hi Hk Hev Hn0. destruct (prepare_run lin m [ab; cd] Hlin (inputs_at _ _ _ Hi)) as (m1 & E1 & T1 & F1 & I1 & Ff & Fi & Fx & G).
  destruct (prepared_args m pool [ab; cd] k m1 Hp Hk (fun i Hi => proj2 (G i Hi)) T1 Fx F1 I1 Ff Fi) as (Hp1 & Ha1 & _).
  destruct (G 1) as [Gp Lp]; [cbn; lia|]. cbv zeta in Gp. change (inp 1 [ab; cd]) with cd in Gp. exists (tm m1 (tnext m + 1)). split; [exact Gp|].
  unfold batch_gate. rewrite E1. destruct Hk as (K1 & K2 & K3 & _). rewrite K1, K2, K3.
  change (tab (zlen [ab; cd]) (fun i => tnext m + i)) with [tnext m + 0; tnext m + 1] in *.
  destruct (cloud_facts L pr W HBG _ _ _ _ Hsk Hck) as (Hb & _). destruct (pool_ok L pr W _ _ Hp1) as (Hm1 & _).
  destruct (serial_run L pr W m1 pool _ _ _ _ _ OFF Hb Ha1 Hm1 Hev Hn0) as (t & m2 & E2 & V2 & _). rewrite E2.
  assert (Hct: ct_ok N (brp (tm m1 (tnext m + 1)))) by (apply br_acc_ok; [apply ctv_ok; pose proof (law_N L); lia|apply (pw_n _ _ W)]).
  destruct (post_run m2 [Some t; Some t]) as (outs & E3 & Lo & Ho).
  { intros i Hii. exists t. destruct V2 as [VA VB]. destruct Hct as [[A _] [B _]]. split; [|rewrite VA, VB; auto].
    change (zlen [Some t; Some t]) with 2 in Hii. assert (X: i = 0 \/ i = 1) by lia. destruct X as [-> | ->]; reflexivity. }
  rewrite E3. f_equal. f_equal. change (zlen [Some t; Some t]) with 2 in *.
  destruct (Ho 0 ltac:(lia)) as [_ A]. destruct (Ho 1 ltac:(lia)) as [_ B]. specialize (A t _ eq_refl V2). specialize (B t _ eq_refl V2).
  destruct outs as [|o0 [|o1 [|o2 outs]]]; try (unfold zlen in Lo; cbn [length] in Lo; lia).
  change (znd [] [o0; o1] 0) with o0 in A. change (znd [] [o0; o1] 1) with o1 in B. congruence.
Qed.
End B.

Section Top.
Context (R : arith) (O : fops) (pr : pset) (sk : SecretKey) (rk : Z -> enc_rand) (rb : Z -> Z -> trlwe_rand) (ck : CloudKey O)
  (S : setup R O pr sk rk rb ck).
Notation M := (mem (FP O)).
Notation n := (lv0_N pr).
Notation s0 := (KeyLv0 sk).
Notation BK := (BootstrappingKey ck). Notation OFF := (DecompositionOffset ck).
Notation inp i inputs := (znd (0, 0) inputs i).

Lemma b_rotate (m : M) pool srcs tvr tv evs r : pool_reachable O pr m pool -> batch_args O pr m pool srcs tvr tv ->
  BatchBlindRotate O pr m pool srcs tvr BK OFF evs = Some r ->
  exists rs m', r = Ok (rs, m') /\ zlen rs = zlen srcs /\ (forall x, outside_pool O m pool x -> tm m' x = tm m x) /\
    forall i, 0 <= i < zlen srcs -> exists t, znd None rs i = Some t /\
      (no_reuse O pr m pool srcs tvr BK OFF evs -> rotation O pr BK OFF (tm m (zn srcs i)) tv n = Ok (ct_at m' t)).
Proof.
  intros Hp Ha E. open_setup S. destruct (pool_ok L pr W _ _ Hp) as (Hm & Hg & Hs). pose proof (cloud_bsk L pr W HBG _ _ _ _ Hsk Hck) as Hb.
  destruct (batch_run L pr W m pool srcs tvr tv BK OFF Hb Ha Hm Hg Hs evs r E) as (rs & m' & -> & Lr & Hr & Hx & Hv).
  exists rs, m'. split; [reflexivity|]. split; [exact Lr|]. split; [exact Hx|]. intros i Hi. destruct (Hr i Hi) as (t & Et & _). exists t. split; [exact Et|].
  intro NR. destruct (src_ok pr m pool srcs tvr tv Ha i Hi) as [_ Ls]. pose proof (pw_n _ _ W). change (zn srcs i) with (znd 0 srcs i).
  rewrite (rotation_ok L pr W BK OFF _ tv n Hb Ls (tv_ok pr W _ _ _ _ _ Ha)) by lia. f_equal. symmetry. apply at_ct. apply (Hv NR i t Hi Et).
Qed.

Lemma b_own (m : M) pool srcs tvr tv : pool_reachable O pr m pool -> batch_args O pr m pool srcs tvr tv ->
  exists evs rs m', no_reuse O pr m pool srcs tvr BK OFF evs /\ BatchBlindRotate O pr m pool srcs tvr BK OFF evs = Some (Ok (rs, m')).
Proof.
  intros Hp Ha. open_setup S. destruct (pool_ok L pr W _ _ Hp) as (Hm & Hg & Hs). pose proof (cloud_bsk L pr W HBG _ _ _ _ Hsk Hck) as Hb.
  destruct (fresh_run L pr W m pool srcs tvr tv BK OFF Hb Ha Hm Hg Hs) as (NR & rs & m' & E). eexists _, rs, m'. split; [exact NR|exact E].
Qed.

Lemma b_serial (m : M) pool x y tvr tv : pool_reachable O pr m pool -> batch_args O pr m pool [x; y] tvr tv -> Z.even n = true -> 0 < n ->
  exists t m', BatchBlindRotate O pr m pool [x; y] tvr BK OFF (serial pr) = Some (Ok ([Some t; Some t], m')) /\
    rotation O pr BK OFF (tm m y) tv n = Ok (ct_at m' t).
Proof.
  intros Hp Ha Hev Hn. open_setup S. destruct (pool_ok L pr W _ _ Hp) as (Hm & _). pose proof (cloud_bsk L pr W HBG _ _ _ _ Hsk Hck) as Hb.
  destruct (serial_run L pr W m pool x y tvr tv BK OFF Hb Ha Hm Hev Hn) as (t & m' & E & V & _). exists t, m'. split; [exact E|].
  destruct (src_ok pr m pool [x; y] tvr tv Ha 1) as [_ Ls]; [cbn; lia|]. change (znd 0 [x; y] 1) with y in Ls.
  rewrite (rotation_ok L pr W BK OFF _ tv n Hb Ls (tv_ok pr W _ _ _ _ _ Ha)) by lia. f_equal. symmetry. apply at_ct. exact V.
Qed.

(** ** gates *)
Lemma batch_eq g a b : zlen a = n + 1 -> zlen b = n + 1 -> batch_lin pr g a b = gate_lin (single g) n a b.
Proof.
  intros Ha Hb. open_setup S. pose proof (pw_n _ _ W) as Hn. destruct g; cbn [batch_lin single gate_lin].
  - apply batch_nand_eq; assumption.
  - apply batch_and_eq; assumption.
  - apply batch_or_eq; assumption.
  - apply batch_xor_eq; assumption.
  - apply batch_nor_eq.
Qed.
Lemma batch_total g : lin_total pr (batch_lin pr g).
Proof.
  intros a b Ha Hb. rewrite batch_eq by assumption. open_setup S. apply (gate_lin_tot pr W); assumption.
Qed.
Lemma batch_fun_eq g : batch_fun O pr g = batch_gate O pr (batch_lin pr g).
Proof. destruct g; reflexivity. Qed.

Lemma b_gate g (m : M) pool inputs k evs r : pool_reachable O pr m pool -> batch_inputs O pr m pool inputs -> batch_key O m pool k ck ->
  batch_fun O pr g m pool inputs k evs = Some r ->
  exists outs, r = Ok outs /\ zlen outs = zlen inputs /\ forall i, 0 <= i < zlen inputs -> zlen (znd [] outs i) = n + 1 /\
    (gate_no_reuse O pr (batch_lin pr g) m pool inputs k evs -> forall e, reachable O pr e m -> key_at O m e k ck ->
      exists c m', gate_fun (single g) O pr m e (fst (inp i inputs)) (snd (inp i inputs)) k = Ok (c, m') /\ znd [] outs i = tm m' c).
Proof.
  intros Hp Hi Hk E. rewrite batch_fun_eq in E. pose proof (batch_total g) as HT. pose proof (batch_eq g) as HE. open_setup S.
  destruct (bgate_run L pr W HBG sk rk rb ck Hsk Hck _ m pool inputs k evs r HT Hp Hi Hk E) as (outs & -> & Lo & Ho).
  exists outs. split; [reflexivity|]. split; [exact Lo|]. intros i Hii. destruct (Ho i Hii) as [Lv Vv]. split; [exact Lv|]. intros NR e Hr Hke.
  destruct (inputs_at pr _ _ _ Hi i Hii) as [[_ La] [_ Lb]]. cbv zeta in La, Lb.
  destruct (gate_done L pr W HBG sk rk rb ck Hsk Hck (single g) e m k _ _ Hr Hke La Lb) as (c & m' & E1 & V1 & _). exists c, m'. split; [exact E1|].
  rewrite V1. unfold gval. destruct (gate_lin_tot pr W (single g) _ _ La Lb) as (p & Ep & _). rewrite Ep. 
  apply (Vv NR p). rewrite HE by assumption. exact Ep.
Qed.

Lemma b_gate_serial g (m : M) pool ab cd k e : pool_reachable O pr m pool -> batch_inputs O pr m pool [ab; cd] -> batch_key O m pool k ck ->
  Z.even n = true -> 0 < n -> reachable O pr e m -> key_at O m e k ck ->
  exists c m', gate_fun (single g) O pr m e (fst cd) (snd cd) k = Ok (c, m') /\
    batch_fun O pr g m pool [ab; cd] k (serial pr) = Some (Ok [tm m' c; tm m' c]).
Proof.
  intros Hp Hi Hk Hev Hn Hr Hke. rewrite batch_fun_eq. pose proof (batch_total g) as HT. pose proof (batch_eq g) as HE. open_setup S.
  destruct (bgate_serial L pr W HBG sk rk rb ck Hsk Hck _ m pool ab cd k HT Hp Hi Hk Hev Hn) as (p & Ep & E).
  destruct (inputs_at pr _ _ _ Hi 1) as [[_ La] [_ Lb]]; [cbn; lia|]. cbv zeta in La, Lb. change (inp 1 [ab; cd]) with cd in *.
  destruct (gate_done L pr W HBG sk rk rb ck Hsk Hck (single g) e m k _ _ Hr Hke La Lb) as (c & m' & E1 & V1 & _). exists c, m'. split; [exact E1|].
  rewrite V1, E. unfold gval. rewrite <- HE, Ep by assumption. reflexivity.
Qed.

Lemma b_gate_own g (m : M) pool inputs k : pool_reachable O pr m pool -> batch_inputs O pr m pool inputs -> batch_key O m pool k ck ->
  exists evs outs, gate_no_reuse O pr (batch_lin pr g) m pool inputs k evs /\ batch_fun O pr g m pool inputs k evs = Some (Ok outs).
Proof.
  intros Hp Hi Hk. rewrite batch_fun_eq. pose proof (batch_total g) as HT. open_setup S.
  apply (bgate_own L pr W HBG sk rk rb ck Hsk Hck); assumption.
Qed.

Lemma b_start (bits : list bool) (r : Z -> enc_rand) E : (forall i, Z.abs (centered (F64ToTorus (er_noise (r i)))) <= E) ->
  exists e (m : M) k w, reachable O pr e m /\ key_at O m e k ck /\ pool_reachable O pr m [] /\ batch_key O m [] k ck /\
    Forall2 (fun x b => outside_pool O m [] x /\ encrypts n s0 (tm m x) b E) w bits.
Proof.
  intro HE. destruct (p_start_bits R O pr sk rk rb ck S bits r E HE) as (e & m & k & w & Hr & Hk & Hw). exists e, m, k, w.
  split; [exact Hr|]. split; [exact Hk|]. open_setup S. destruct (reach_ok L pr W HBG e m Hr) as [_ Hm].
  split; [apply pl_empty; exact Hm|]. assert (X: forall x, user m e x -> outside_pool O m [] x) by (intros x [A _]; split; [exact A|intros p []]).
  split; [destruct Hk as (A & B & C & D & F & G & H); unfold batch_key; auto 10|].
  eapply Forall2_impl'; [|exact Hw]. intros x b [A B]. split; [apply X; exact A|exact B].
Qed.

Lemma b_truth lin ca cb c op mu (m : M) pool inputs k evs outs va vb Ea Eb T :
  lin_spec n lin ca cb c -> gate_ideal ca cb c op -> Z.abs ca = 1 -> Z.abs cb = mu ->
  pool_reachable O pr m pool -> batch_inputs O pr m pool inputs -> batch_key O m pool k ck ->
  gate_no_reuse O pr lin m pool inputs k evs ->
  (forall i, 0 <= i < zlen inputs -> encrypts n s0 (tm m (fst (inp i inputs))) (va i) Ea /\ encrypts n s0 (tm m (snd (inp i inputs))) (vb i) Eb) ->
  Ea + mu * Eb + round_err pr sk < 2 ^ 29 -> T < 2 ^ 29 ->
  (forall i p, 0 <= i < zlen inputs -> lin (tm m (fst (inp i inputs))) (tm m (snd (inp i inputs))) = Ok p ->
    boot_noise O pr sk ck (BlindRotateTestvec ck) p T) ->
  batch_gate O pr lin m pool inputs k evs = Some (Ok outs) ->
  zlen outs = zlen inputs /\ forall i, 0 <= i < zlen inputs -> DecryptBool n (znd [] outs i) s0 = Ok (op (va i) (vb i)).
Proof.
  intros Hl Hid Ca Cb Hp Hi Hk NR Henc Hm HT Hnoise E. open_setup S. pose proof (pw_n _ _ W) as Hn.
  assert (Tot: lin_total pr lin).
  { intros a b La Lb. destruct (Hl [] a b La Lb) as (p & Ep & [Lp _] & _). exists p. split; assumption. }
  destruct (bgate_run L pr W HBG sk rk rb ck Hsk Hck lin m pool inputs k evs _ Tot Hp Hi Hk E) as (outs' & [= <-] & Lo & Ho).
  split; [exact Lo|]. intros i Hii. destruct (Ho i Hii) as [_ Vv]. destruct (Henc i Hii) as [[[La _] (ea & Ha & Pa)] [[Lb _] (eb & Hb & Pb)]].
  destruct (Hl s0 _ _ La Lb) as (p & Ep & [Lp Kp] & P). rewrite (Vv NR p Ep).
  eapply decrypt_enc; [exact Hn|destruct Hsk as [[Y _] _]; lia| |exact HT].
  apply (boot_phase L pr W HBG sk rk rb ck Hsk Hck); [exact Lp|apply (Hnoise i p Hii Ep)|].
  pose proof (round_err_nonneg pr W sk Hsk) as Hr0.
  eapply gate_side; try eassumption. rewrite Ca, Cb.
  assert (mu * Z.abs eb <= mu * Eb) by (apply Z.mul_le_mono_nonneg_l; lia). lia.
Qed.

Lemma b_gate_truth g (m : M) pool inputs k evs outs va vb Ea Eb T :
  pool_reachable O pr m pool -> batch_inputs O pr m pool inputs -> batch_key O m pool k ck ->
  gate_no_reuse O pr (batch_lin pr g) m pool inputs k evs ->
  (forall i, 0 <= i < zlen inputs -> encrypts n s0 (tm m (fst (inp i inputs))) (va i) Ea /\ encrypts n s0 (tm m (snd (inp i inputs))) (vb i) Eb) ->
  Ea + mult (single g) * Eb + round_err pr sk < 2 ^ 29 -> T < 2 ^ 29 ->
  (forall i p, 0 <= i < zlen inputs -> gate_lin (single g) n (tm m (fst (inp i inputs))) (tm m (snd (inp i inputs))) = Ok p ->
    boot_noise O pr sk ck (BlindRotateTestvec ck) p T) ->
  batch_fun O pr g m pool inputs k evs = Some (Ok outs) ->
  zlen outs = zlen inputs /\ forall i, 0 <= i < zlen inputs -> DecryptBool n (znd [] outs i) s0 = Ok (truth (single g) (va i) (vb i)).
Proof.
  intros Hp Hi Hk NR Henc Hm HT Hnoise E. rewrite batch_fun_eq in E. pose proof S as S'. open_setup S'. pose proof (pw_n _ _ W) as Hn.
  pose proof (inputs_at pr _ _ _ Hi) as Hlen.
  assert (G: forall ca cb c op, lin_spec n (gate_lin (single g) n) ca cb c -> gate_ideal ca cb c op -> Z.abs ca = 1 -> Z.abs cb = mult (single g) ->
    (forall x y, op x y = truth (single g) x y) ->
    zlen outs = zlen inputs /\ forall i, 0 <= i < zlen inputs -> DecryptBool n (znd [] outs i) s0 = Ok (truth (single g) (va i) (vb i))).
  { intros ca cb c op Hl Hid H1 H2 Hop.
    destruct (b_truth (batch_lin pr g) ca cb c op (mult (single g)) m pool inputs k evs outs va vb Ea Eb T) as [A B]; try assumption.
    - intros s a b La Lb. rewrite batch_eq by assumption. apply Hl; assumption.
    - intros i p Hii Ep. apply (Hnoise i p Hii). destruct (Hlen i Hii) as [[_ La] [_ Lb]]. rewrite <- batch_eq by assumption. exact Ep.
    - split; [exact A|]. intros i Hii. rewrite (B i Hii), Hop. reflexivity. }
  destruct g; cbn [single gate_lin] in G.
  - eapply G; [apply PrepareNAND_spec, Hn|apply ideal_nand|reflexivity..].
  - eapply G; [apply PrepareAND_spec, Hn|apply ideal_and|reflexivity..].
  - eapply G; [apply PrepareOR_spec, Hn|apply ideal_or|reflexivity..].
  - eapply G; [apply PrepareXOR_spec, Hn|apply ideal_xor|reflexivity..].
  - eapply G; [apply nor_spec, Hn|apply ideal_nor|reflexivity..].
Qed.

Lemma b_xnor (m : M) pool inputs k evs outs va vb Ea Eb T :
  pool_reachable O pr m pool -> batch_inputs O pr m pool inputs -> batch_key O m pool k ck ->
  gate_no_reuse O pr (batch_xnor_lin n) m pool inputs k evs ->
  (forall i, 0 <= i < zlen inputs -> encrypts n s0 (tm m (fst (inp i inputs))) (va i) Ea /\ encrypts n s0 (tm m (snd (inp i inputs))) (vb i) Eb) ->
  Ea + 2 * Eb + round_err pr sk < 2 ^ 29 -> T < 2 ^ 29 ->
  (forall i p, 0 <= i < zlen inputs -> batch_xnor_lin n (tm m (fst (inp i inputs))) (tm m (snd (inp i inputs))) = Ok p ->
    boot_noise O pr sk ck (BlindRotateTestvec ck) p T) ->
  BatchXNOR O pr m pool inputs k evs = Some (Ok outs) ->
  zlen outs = zlen inputs /\ forall i, 0 <= i < zlen inputs -> DecryptBool n (znd [] outs i) s0 = Ok (xorb (va i) (vb i)).
Proof.
  intros Hp Hi Hk NR Henc Hm HT Hnoise E. pose proof S as S'. open_setup S'.
  eapply (b_truth (batch_xnor_lin n) 1 (-2) (- 2 ^ 30) xorb 2); try eassumption; try reflexivity.
  - apply batch_xnor_spec, (pw_n _ _ W).
  - apply ideal_batch_xnor.
Qed.
End Top.

Section Worst.
Context (mc : machine) (O : fops) (pr : pset) (sk : SecretKey) (rk : Z -> enc_rand) (rb : Z -> Z -> trlwe_rand) (ck : CloudKey O)
  (Hcis : mc_ok mc) (S : setup (f64_arith mc) O pr sk rk rb ck) (Bb Bk d d' : Z)
  (Hfft : fft_error_within pr d d') (Hnoise : key_noise_within pr rk rb Bb Bk) (HBb : 0 <= Bb) (HBk : 0 <= Bk) (Hd' : 0 <= d').
Notation n := (lv0_N pr).
Notation s0 := (KeyLv0 sk).
Notation M := (mem (FP O)).
Notation inp i inputs := (znd (0, 0) inputs i).

Lemma b_gate_worst g (m : M) pool inputs k evs outs va vb Ea Eb :
  pool_reachable O pr m pool -> batch_inputs O pr m pool inputs -> batch_key O m pool k ck ->
  gate_no_reuse O pr (batch_lin pr g) m pool inputs k evs ->
  (forall i, 0 <= i < zlen inputs -> encrypts n s0 (tm m (fst (inp i inputs))) (va i) Ea /\ encrypts n s0 (tm m (snd (inp i inputs))) (vb i) Eb) ->
  Ea + mult (single g) * Eb + round_err pr sk < 2 ^ 29 -> worst_noise pr sk Bb Bk d d' < 2 ^ 29 ->
  batch_fun O pr g m pool inputs k evs = Some (Ok outs) ->
  zlen outs = zlen inputs /\ forall i, 0 <= i < zlen inputs -> DecryptBool n (znd [] outs i) s0 = Ok (truth (single g) (va i) (vb i)).
Proof.
  intros Hp Hi Hk NR Henc Hm HT E. eapply (b_gate_truth _ O pr sk rk rb ck S); try eassumption.
  intros i p _ Ep. apply gate_lin_len in Ep. apply (p_worst_tv mc O pr sk rk rb ck Hcis S Bb Bk d d' Hfft Hnoise HBb HBk Hd'). exact Ep.
Qed.
End Worst.

(** * Lifetime of results and independence from history *)
From Coq Require Import Lia ZifyBool Setoid Morphisms List.
From Verif Require Import GoBase GoFacts GoMem F64 Utils Spec Params Key Tlwe TlweMem Poly Fft Trlwe Trgsw Lut Evaluator CloudKey Gates RunSpec Circuit
  MemFacts TlweFacts PolyFacts NegFacts Laws TrlweFacts TrgswFacts RotFacts EvalFacts OldRotFacts LinFacts HeapFacts CloudKeyFacts CallFacts BootFacts GateFacts
  NoiseFacts RunProps RlweProps.
Import ListNotations.
Local Open Scope Z_scope.
Ltac Zify.zify_post_hook ::= idtac.

Lemma mod4_add i j : (i mod 4 + j) mod 4 = (i + j) mod 4.
Proof. apply Z.add_mod_idemp_l. lia. Qed.
Lemma mod4_ne i j : 0 <= i < 4 -> 1 <= j <= 3 -> (i + j) mod 4 <> i.
Proof. intros Hi Hj. destruct (Z_lt_dec (i + j) 4); [rewrite Z.mod_small by lia; lia|].
  replace (i + j) with ((i + j - 4) + 1 * 4) by lia. rewrite Z_mod_plus_full, Z.mod_small by lia. lia. Qed.
Lemma mod4_back i : 0 <= i < 4 -> (i + 1 + 3) mod 4 = i.
Proof. intro. replace (i + 1 + 3) with (i + 1 * 4) by lia. rewrite Z_mod_plus_full, Z.mod_small; lia. Qed.

Lemma after_nonneg O pr e keep j (m m' : mem (FP O)) : after O pr e keep j m m' -> 0 <= j.
Proof. induction 1 as [|i j m m1 m2 _ IH U]; [lia|]. destruct U; lia. Qed.
Lemma uses_01 O pr e keep j (m m' : mem (FP O)) : uses O pr e keep j m m' -> j = 0 \/ j = 1.
Proof. intros []; lia. Qed.

Section Hist.
Context {O : fops} {N : Z} (L : flaws O N) (pr : pset) (W : pwf pr N) (HBG : g_BG pr = 2 ^ g_BGBIT pr).
Notation n := (lv0_N pr).
Notation M := (mem (FP O)).
Notation ix e m := (im m (bp_i (ev_bp e))).

(** ** the ring of results *)
Lemma after_ok e keep j (m m' : M) : ev_ok L pr m e -> mem_ok m -> after O pr e keep j m m' ->
  ev_ok L pr m' e /\ mem_ok m' /\ ix e m' = (ix e m + j) mod 4 /\ tnext m <= tnext m' /\
  (forall i, 0 <= i < 4 -> keep (slot e i) -> (forall k, 0 <= k < j -> (ix e m + k) mod 4 <> i) ->
    tm m' (slot e i) = tm m (slot e i)).
Proof.
  intros He Hm H. induction H as [m|i j m m1 m2 Ha IH U].
  - split; [exact He|]. split; [exact Hm|]. split; [|split; [lia|reflexivity]].
    rewrite Z.add_0_r, Z.mod_small; [reflexivity|apply (eo_bi _ _ _ _ He)].
  - destruct (IH He Hm) as (He1 & Hm1 & I1 & N1 & K1). pose proof (after_nonneg _ _ _ _ _ _ _ Ha) as Hi0. pose proof (uses_01 _ _ _ _ _ _ _ U) as Hj.
    destruct (uses_ok L pr W HBG _ _ _ _ _ He1 Hm1 U) as (He2 & Hm2 & I2 & N2 & K2).
    split; [exact He2|]. split; [exact Hm2|]. split; [rewrite I2, I1, mod4_add; f_equal; lia|]. split; [lia|].
    intros s Hs Hk Hd. rewrite K2; [apply K1; [exact Hs|exact Hk|intros k Hk'; apply Hd; lia]|exact Hk|].
    right. split; [unfold ring, slot; lia|]. intros -> Heq. apply slot_inj in Heq. rewrite I1 in Heq. apply (Hd i); [lia|]. congruence.
Qed.

Lemma runs_user e (keep : Z -> Prop) (m m' : M) : ev_ok L pr m e -> mem_ok m -> runs O pr e keep m m' ->
  ev_ok L pr m' e /\ mem_ok m' /\ tnext m <= tnext m' /\ forall x, keep x -> user m e x -> user m' e x /\ tm m' x = tm m x.
Proof.
  intros He Hm H. induction H as [m|j m m1 m2 _ IH U|m m1 _ IH].
  - split; [exact He|]. split; [exact Hm|]. split; [lia|]. intros x _ Hx. split; [exact Hx|reflexivity].
  - destruct (IH He Hm) as (He1 & Hm1 & N1 & K1). destruct (uses_ok L pr W HBG _ _ _ _ _ He1 Hm1 U) as (He2 & Hm2 & _ & N2 & K2).
    split; [exact He2|]. split; [exact Hm2|]. split; [lia|]. intros x Hk Hx. destruct (K1 x Hk Hx) as [Ux Ex].
    split; [destruct Ux as [B1 B2]; split; [lia|exact B2]|]. rewrite K2; [exact Ex|exact Hk|left; exact Ux].
  - destruct (IH He Hm) as (He1 & Hm1 & N1 & K1). destruct (reset_ok L pr e m1 He1 Hm1) as [He2 Hm2].
    split; [exact He2|]. split; [exact Hm2|]. split; [exact N1|]. exact K1.
Qed.

(** ** values *)
Section Key.
Context (sk : SecretKey) (rk : Z -> enc_rand) (rb : Z -> Z -> trlwe_rand) (ck : CloudKey O)
  (Hsk : key_ok pr sk) (Hck : NewCloudKey O pr sk rk rb = Ok ck).
Notation BK := (BootstrappingKey ck).
Notation KK := (KeySwitchingKey ck).
Notation OFF := (DecompositionOffset ck).
Notation bootv tv c := (bootp L pr OFF BK KK tv c).

Lemma boot_run e (m : M) ct tvr tv : reachable O pr e m -> input O pr m e ct -> table O pr m e tvr tv ->
  exists m', Bootstrap O pr m e ct tvr BK KK OFF = Ok (slot e (ix e m), m') /\
    tm m' (slot e (ix e m)) = bootv tv (tm m ct) /\ ix e m' = (ix e m + 1) mod 4 /\ reachable O pr e m' /\
    uses O pr e (fun x => x <> slot e (ix e m)) 1 m m'.
Proof.
  intros Hr Hi Ht. destruct (reach_ok L pr W HBG e m Hr) as [He Hm]. destruct (cloud_facts L pr W HBG _ _ _ _ Hsk Hck) as (Hb & Hks & _).
  destruct (Bootstrap_ok L pr W m e ct tvr tv _ _ OFF He Hb Hks (input_inp L pr W _ _ _ He Hi) (table_tvp L pr W _ _ _ _ He Ht))
    as (m' & E & V & I & _ & _).
  exists m'. split; [exact E|]. split; [exact V|]. split; [exact I|]. split; [eapply r_uses; [exact Hr|]|]; eapply u_boot; eassumption.
Qed.

Lemma assign_run e (m : M) ct tvr tv out : reachable O pr e m -> input O pr m e ct -> table O pr m e tvr tv -> input O pr m e out ->
  exists m', BootstrapAssign O pr m e ct tvr BK KK OFF out = Ok m' /\ tm m' out = bootv tv (tm m ct) /\ reachable O pr e m' /\
    (forall x, user m e x -> x <> out -> user m' e x /\ tm m' x = tm m x).
Proof.
  intros Hr Hi Ht Ho. destruct (reach_ok L pr W HBG e m Hr) as [He Hm]. destruct (cloud_facts L pr W HBG _ _ _ _ Hsk Hck) as (Hb & Hks & _).
  destruct (input_inp L pr W _ _ _ He Hi) as [I1 I2]. destruct (table_tvp L pr W _ _ _ _ He Ht) as (T1 & T2 & T3 & T4).
  pose proof Ho as [O1 O2].
  destruct (BootstrapAssign_ok L pr W m e ct tvr tv _ _ OFF out He Hb Hks I1 T1 T2 I2 T3 T4 O1) as (m' & E & V & S1).
  { intros ->. destruct O2 as [[_ O2]|O2]; [|lia]. apply O2. pose proof (eo_t1 _ _ _ _ He). pose proof (eo_t2 _ _ _ _ He).
    pose proof (eo_lv _ _ _ _ He). pose proof (pw_l _ _ W). unfold own. lia. }
  assert (U: forall keep : Z -> Prop, ~ keep out -> uses O pr e keep 0 m m') by (intros keep Hk; eapply u_assign with (ct := ct) (out := out); eassumption).
  exists m'. split; [exact E|]. split; [exact V|]. split; [eapply r_uses; [exact Hr|]; apply U; intros []|].
  intros x Hx Hne. destruct (uses_ok L pr W HBG _ _ _ _ _ He Hm (U (eq x) Hne)) as (_ & _ & _ & Hn & K).
  split; [destruct Hx as [X Y]; split; [lia|exact Y]|]. apply K; [reflexivity|left; exact Hx].
Qed.

(** ** gates: values as functions of contents *)
Lemma gate_lin_tot g a b : zlen a = n + 1 -> zlen b = n + 1 -> exists p, gate_lin g n a b = Ok p /\ zlen p = n + 1.
Proof.
  intros La Lb. pose proof (pw_n _ _ W) as Hn.
  assert (G: forall ca cb c, lin_spec n (gate_lin g n) ca cb c -> exists p, gate_lin g n a b = Ok p /\ zlen p = n + 1).
  { intros ca cb c Hl. destruct (Hl [] a b La Lb) as (p & E & [Hp _] & _). exists p. split; assumption. }
  destruct g; cbn [gate_lin] in G.
  - eapply G, PrepareNAND_spec, Hn.
  - eapply G, PrepareOR_spec, Hn.
  - eapply G, PrepareAND_spec, Hn.
  - eapply G, PrepareXOR_spec, Hn.
  - eapply G, xnor_spec, Hn.
  - eapply G, nor_spec, Hn.
  - eapply G, andny_spec, Hn.
  - eapply G, andyn_spec, Hn.
  - eapply G, orny_spec, Hn.
  - eapply G, oryn_spec, Hn.
Qed.

Notation BV c := (boot_val L pr ck c).
Definition gval (g : bgate) (a b : list Z) : list Z :=
  match gate_lin g n a b with Ok p => BV p | Panic _ => [] end.
Definition nval (a : list Z) : list Z := match not_val n a with Ok v => v | Panic _ => [] end.
Definition cval (b : bool) : list Z := match constant_val n b with Ok v => v | Panic _ => [] end.

Definition done (e : evaluator) (k : gkey O) (m : M) (x : res (Z * M)) (v : list Z) : Prop :=
  exists r m', x = Ok (r, m') /\ tm m' r = v /\ zlen v = n + 1 /\ user m' e r /\ user_kept e m m' /\ reachable O pr e m' /\ key_at O m' e k ck.

Lemma gate_done g e (m : M) k a b : reachable O pr e m -> key_at O m e k ck -> zlen (tm m a) = n + 1 -> zlen (tm m b) = n + 1 ->
  done e k m (gate_fun g O pr m e a b k) (gval g (tm m a) (tm m b)).
Proof.
  intros Hr Hk La Lb. rewrite gate_fun_eq. unfold gate2, gval. destruct (gate_lin_tot g _ _ La Lb) as (p & Ep & Lp). rewrite Ep.
  destruct (fresh_ok L pr W HBG e m p Hr) as (m1 & E1 & V1 & Hr1 & Hu1 & K1 & N1). rewrite E1. cbn [bind].
  destruct (bootstrap_run L pr W HBG sk rk rb ck Hsk Hck e m1 k (tnext m) Hr1 (keeps_key _ _ _ _ _ K1 Hk) Hu1) as (m2 & E2 & V2 & Hr2 & Hu2 & K2 & N2).
  { rewrite V1. exact Lp. }
  rewrite V1 in V2. exists (tnext m1), m2. split; [exact E2|]. split; [exact V2|]. split; [apply bootp_ok; exact W|].
  split; [exact Hu2|]. split; [eapply keeps_trans; eassumption|]. split; [exact Hr2|].
  eapply keeps_key; [exact K2|]. eapply keeps_key; eassumption.
Qed.

Lemma fresh_done e (m : M) k v : reachable O pr e m -> key_at O m e k ck -> zlen v = n + 1 -> done e k m (fresh O m (Ok v)) v.
Proof.
  intros Hr Hk Lv. destruct (fresh_ok L pr W HBG e m v Hr) as (m1 & E1 & V1 & Hr1 & Hu1 & K1 & N1).
  exists (tnext m), m1. split; [exact E1|]. split; [exact V1|]. split; [exact Lv|]. split; [exact Hu1|]. split; [exact K1|].
  split; [exact Hr1|]. eapply keeps_key; eassumption.
Qed.

Lemma not_done e (m : M) k a : reachable O pr e m -> key_at O m e k ck -> zlen (tm m a) = n + 1 ->
  done e k m (NOT O pr m a) (nval (tm m a)).
Proof.
  intros Hr Hk La. unfold NOT, nval, not_val. destruct (Neg_phase n [] (tm m a) (pw_n _ _ W) La) as (v & -> & [Lv _] & _).
  apply fresh_done; assumption.
Qed.

Lemma const_done e (m : M) k b : reachable O pr e m -> key_at O m e k ck -> done e k m (Constant O pr m b) (cval b).
Proof.
  intros Hr Hk. unfold Constant, cval.
  destruct (constant_ok n (pw_n _ _ W) (KeyLv0 sk) b (proj1 (proj1 Hsk))) as (v & -> & [Lv _] & _). apply fresh_done; assumption.
Qed.

Lemma copy_done e (m : M) k a : reachable O pr e m -> key_at O m e k ck -> user m e a -> zlen (tm m a) = n + 1 ->
  done e k m (Copy O pr m a) (tm m a).
Proof.
  intros Hr Hk Hu La. pose proof (pw_n _ _ W) as Hn. unfold Copy, new_ct, NewTLWE. rewrite make_ok by lia. cbn [bind].
  set (z := repeat 0 (Z.to_nat (n + 1))). assert (Hz: zlen z = n + 1) by (unfold z; rewrite zlen_repeat; lia).
  destruct (fresh_ok L pr W HBG e m z Hr) as (m1 & E1 & V1 & Hr1 & Hu1 & K1 & N1). unfold fresh in E1. cbn [bind] in E1.
  destruct (alloc m z) as [r0 m0]. injection E1 as -> ->. cbn [bind]. destruct (K1 a Hu) as [Hua Ea1].
  set (t := tnext m). exists t, (mcopy m1 t a).
  assert (Hl: zlen (tm m1 a) = zlen (tm m1 t)) by (unfold t; rewrite V1, Ea1; lia).
  assert (V: tm (mcopy m1 t a) t = tm m a).
  { unfold mcopy. cbn [tm tset]. rewrite Z.eqb_refl, copy_slice_same_len by (symmetry; exact Hl). exact Ea1. }
  assert (Vo: forall x, x <> t -> tm (mcopy m1 t a) x = tm m1 x).
  { intros x Hx. unfold mcopy. cbn [tm tset]. destruct (Z.eqb_spec x t); [contradiction|reflexivity]. }
  assert (K: user_kept e m (mcopy m1 t a)).
  { intros x Hx. destruct (K1 x Hx) as [H1 H2]. split; [exact H1|]. rewrite Vo; [exact H2|]. destruct Hx. unfold t. lia. }
  split; [reflexivity|]. split; [exact V|]. split; [exact La|]. split; [exact Hu1|]. split; [exact K|].
  split; [|eapply keeps_key; eassumption].
  eapply (reach_other L pr W HBG); [exact Hr1| | | | | |]; try (intros; reflexivity); try apply Z.le_refl.
  intros x Hx. apply Vo. intros ->. destruct Hu1 as [_ Hu1]. apply Hu1. exact Hx.
Qed.

Definition mval (a b c : list Z) : list Z := gval Gor (gval Gand a b) (gval Gand (nval a) c).

Lemma mux_done e (m : M) k a b c : reachable O pr e m -> key_at O m e k ck -> user m e a -> user m e c ->
  zlen (tm m a) = n + 1 -> zlen (tm m b) = n + 1 -> zlen (tm m c) = n + 1 ->
  done e k m (MUX O pr m e a b c k) (mval (tm m a) (tm m b) (tm m c)).
Proof.
  intros Hr Hk Ua Uc La Lb Lc. unfold MUX, mval.
  destruct (gate_done Gand e m k a b Hr Hk La Lb) as (ab & m1 & E1 & V1 & L1 & U1 & K1 & R1 & Q1).
  change (gate_fun Gand O pr) with (AND O pr) in E1. rewrite E1. cbn [bind].
  destruct (K1 a Ua) as [Ua1 Ea1]. destruct (K1 c Uc) as [Uc1 Ec1].
  destruct (not_done e m1 k a R1 Q1) as (na & m2 & E2 & V2 & L2 & U2 & K2 & R2 & Q2); [rewrite Ea1; exact La|].
  rewrite E2. cbn [bind]. rewrite Ea1 in V2, L2. destruct (K2 c Uc1) as [Uc2 Ec2]. destruct (K2 ab U1) as [U1' Eab].
  destruct (gate_done Gand e m2 k na c R2 Q2) as (nc & m3 & E3 & V3 & L3 & U3 & K3 & R3 & Q3);
    [rewrite V2; exact L2|rewrite Ec2, Ec1; exact Lc|].
  change (gate_fun Gand O pr) with (AND O pr) in E3. rewrite E3. cbn [bind]. destruct (K3 ab U1') as [U1'' Eab'].
  destruct (gate_done Gor e m3 k ab nc R3 Q3) as (r & m4 & E4 & V4 & L4 & U4 & K4 & R4 & Q4);
    [rewrite Eab', Eab, V1; exact L1|rewrite V3; exact L3|].
  change (gate_fun Gor O pr) with (OR O pr) in E4. rewrite V2, Ec2, Ec1 in V3. rewrite Eab', Eab, V1, V3 in V4, L4.
  exists r, m4. split; [exact E4|]. split; [exact V4|]. split; [exact L4|]. split; [exact U4|].
  split; [|split; assumption]. eapply keeps_trans; [|exact K4]. eapply keeps_trans; [|exact K3]. eapply keeps_trans; eassumption.
Qed.

(** ** programs *)
Definition ival (i : instr) (vs : list (list Z)) : res (list Z) :=
  match i with
  | IGate g x y => a <- get vs x ;; b <- get vs y ;; Ok (gval g a b)
  | INot x => a <- get vs x ;; Ok (nval a)
  | IConst b => Ok (cval b)
  | ICopy x => get vs x
  | IMux x y z => a <- get vs x ;; b <- get vs y ;; c <- get vs z ;; Ok (mval a b c)
  end.
Fixpoint pval (p : list instr) (vs : list (list Z)) : res (list (list Z)) :=
  match p with
  | [] => Ok vs
  | i :: p => v <- ival i vs ;; pval p (vs ++ [v])
  end.
Definition holds (e : evaluator) (m : M) (w : list Z) (vs : list (list Z)) : Prop :=
  Forall2 (fun x v => user m e x /\ tm m x = v /\ zlen v = n + 1) w vs.

Lemma holds_get e m w vs x : holds e m w vs ->
  match get vs x with
  | Ok v => exists a, get w x = Ok a /\ user m e a /\ tm m a = v /\ zlen v = n + 1
  | Panic p => get w x = Panic p
  end.
Proof.
  intro H. unfold get. destruct (x <? 0); [reflexivity|]. revert H. generalize (Z.to_nat x). intros i H. revert i.
  induction H as [|a v w vs Hh _ IH]; intros [|i]; cbn [nth_error]; try reflexivity.
  - exists a. split; [reflexivity|exact Hh].
  - apply IH.
Qed.
Lemma holds_kept e m m' w vs : user_kept e m m' -> holds e m w vs -> holds e m' w vs.
Proof.
  intros K H. induction H as [|x v w vs (A & B & C) _ IH]; constructor; [|exact IH]. destruct (K x A) as [X Y]. split; [exact X|]. split; [congruence|exact C].
Qed.

Lemma ival_run i e (m : M) k w vs : reachable O pr e m -> key_at O m e k ck -> holds e m w vs ->
  match ival i vs with
  | Ok v => done e k m (exec_instr O pr e k i w m) v
  | Panic p => exec_instr O pr e k i w m = Panic p
  end.
Proof.
  intros Hr Hk Hw. destruct i as [g x y|x|c|x|x y z]; cbn [ival exec_instr].
  - pose proof (holds_get e m w vs x Hw) as Gx. destruct (get vs x) as [a|]; cbn [bind]; [|rewrite Gx; reflexivity].
    pose proof (holds_get e m w vs y Hw) as Gy. destruct Gx as (ax & -> & Ux & Vx & Lx). destruct (get vs y) as [b|]; cbn [bind]; [|rewrite Gy; reflexivity].
    destruct Gy as (ay & -> & Uy & Vy & Ly). cbn [bind]. rewrite <- Vx, <- Vy. apply gate_done; try assumption; congruence.
  - pose proof (holds_get e m w vs x Hw) as Gx. destruct (get vs x) as [a|]; cbn [bind]; [|rewrite Gx; reflexivity].
    destruct Gx as (ax & -> & Ux & Vx & Lx). cbn [bind]. rewrite <- Vx. apply not_done; try assumption; congruence.
  - apply const_done; assumption.
  - pose proof (holds_get e m w vs x Hw) as Gx. destruct (get vs x) as [a|]; cbn [bind]; [|rewrite Gx; reflexivity].
    destruct Gx as (ax & -> & Ux & Vx & Lx). cbn [bind]. rewrite <- Vx. apply copy_done; try assumption; congruence.
  - pose proof (holds_get e m w vs x Hw) as Gx. destruct (get vs x) as [a|]; cbn [bind]; [|rewrite Gx; reflexivity].
    pose proof (holds_get e m w vs y Hw) as Gy. destruct Gx as (ax & -> & Ux & Vx & Lx). destruct (get vs y) as [b|]; cbn [bind]; [|rewrite Gy; reflexivity].
    pose proof (holds_get e m w vs z Hw) as Gz. destruct Gy as (ay & -> & Uy & Vy & Ly). destruct (get vs z) as [c|]; cbn [bind]; [|rewrite Gz; reflexivity].
    destruct Gz as (az & -> & Uz & Vz & Lz). cbn [bind]. rewrite <- Vx, <- Vy, <- Vz. apply mux_done; try assumption; congruence.
Qed.

Lemma pval_run p e (m : M) k w vs : reachable O pr e m -> key_at O m e k ck -> holds e m w vs ->
  match pval p vs with
  | Ok vs' => exists w' m', exec O pr e k p w m = Ok (w', m') /\ holds e m' w' vs' /\ user_kept e m m' /\ reachable O pr e m' /\ key_at O m' e k ck
  | Panic x => exec O pr e k p w m = Panic x
  end.
Proof.
  revert m w vs. induction p as [|i p IH]; intros m w vs Hr Hk Hw; cbn [pval exec].
  - exists w, m. split; [reflexivity|]. split; [exact Hw|]. split; [apply keeps_refl|]. split; assumption.
  - pose proof (ival_run i e m k w vs Hr Hk Hw) as Hi. destruct (ival i vs) as [v|x]; cbn [bind]; [|rewrite Hi; reflexivity].
    destruct Hi as (r & m1 & -> & V & Lv & U & K & R1 & Q1). cbn [bind].
    assert (Hw1: holds e m1 (w ++ [r]) (vs ++ [v])).
    { apply Forall2_app; [eapply holds_kept; eassumption|]. constructor; [|constructor]. split; [exact U|]. split; assumption. }
    specialize (IH m1 _ _ R1 Q1 Hw1). destruct (pval p (vs ++ [v])) as [vs'|x]; [|exact IH].
    destruct IH as (w' & m' & E & H' & K' & R' & Q'). exists w', m'. split; [exact E|]. split; [exact H'|].
    split; [eapply keeps_trans; eassumption|]. split; assumption.
Qed.
End Key.
End Hist.

(** ** without the laws *)
Section Props.
Context (R : arith) (O : fops) (pr : pset) (sk : SecretKey) (rk : Z -> enc_rand) (rb : Z -> Z -> trlwe_rand) (ck : CloudKey O)
  (S : setup R O pr sk rk rb ck).
Notation n := (lv0_N pr).
Notation N := (g_N pr).
Notation M := (mem (FP O)).
Notation BK := (BootstrappingKey ck).
Notation KK := (KeySwitchingKey ck).
Notation OFF := (DecompositionOffset ck).

Lemma h_result e (m : M) ct tvr tv : reachable O pr e m -> input O pr m e ct -> table O pr m e tvr tv ->
  exists r m1, Bootstrap O pr m e ct tvr BK KK OFF = Ok (r, m1) /\ ring e r /\ reachable O pr e m1 /\
    (forall j m2, after O pr e (eq r) j m1 m2 -> j <= 3 -> tm m2 r = tm m1 r) /\
    (forall keep j m2 ct2 tvr2 tv2, after O pr e keep j m1 m2 -> reachable O pr e m2 -> input O pr m2 e ct2 -> table O pr m2 e tvr2 tv2 ->
      exists r' m3, Bootstrap O pr m2 e ct2 tvr2 BK KK OFF = Ok (r', m3) /\ ring e r' /\ (j < 3 -> r' <> r) /\ (j = 3 -> r' = r)).
Proof.
  intros Hr Hi Ht. open_setup S. destruct (boot_run L pr W HBG sk rk rb ck Hsk Hck e m ct tvr tv Hr Hi Ht) as (m1 & E & V & I & R1 & U).
  destruct (reach_ok L pr W HBG e m Hr) as [He Hm]. destruct (reach_ok L pr W HBG e m1 R1) as [He1 Hm1].
  pose proof (eo_bi _ _ _ _ He) as Hx. set (x := im m (bp_i (ev_bp e))) in *.
  exists (slot e x), m1. split; [exact E|]. split; [unfold ring, slot; lia|]. split; [exact R1|]. split.
  - intros j m2 Ha Hj. destruct (after_ok L pr W HBG _ _ _ _ _ He1 Hm1 Ha) as (_ & _ & _ & _ & K). apply K; [exact Hx|reflexivity|].
    intros k Hk. rewrite I, mod4_add. replace (x + 1 + k) with (x + (1 + k)) by lia. apply mod4_ne; [exact Hx|lia].
  - intros keep j m2 ct2 tvr2 tv2 Ha Hr2 Hi2 Ht2. destruct (after_ok L pr W HBG _ _ _ _ _ He1 Hm1 Ha) as (He2 & _ & I2 & _ & _).
    destruct (boot_run L pr W HBG sk rk rb ck Hsk Hck e m2 ct2 tvr2 tv2 Hr2 Hi2 Ht2) as (m3 & E3 & _). pose proof (eo_bi _ _ _ _ He2) as Hx2.
    exists (slot e (im m2 (bp_i (ev_bp e)))), m3. split; [exact E3|]. split; [unfold ring, slot; lia|].
    assert (Hj: 0 <= j) by (eapply after_nonneg; eassumption). rewrite I2, I, mod4_add. split.
    + intros Hj3 Heq. apply slot_inj in Heq. replace (x + 1 + j) with (x + (1 + j)) in Heq by lia. revert Heq. apply mod4_ne; [exact Hx|lia].
    + intros ->. rewrite mod4_back by exact Hx. reflexivity.
Qed.

(** resetting makes the very next result reuse a buffer handed out before *)
Lemma h_reset e (m : M) ct tvr tv ct2 tvr2 tv2 : reachable O pr e m -> input O pr m e ct -> table O pr m e tvr tv ->
  exists r m1, Bootstrap O pr (ResetBuffers O m e) e ct tvr BK KK OFF = Ok (r, m1) /\
    (input O pr m1 e ct2 -> table O pr m1 e tvr2 tv2 ->
     exists m2, Bootstrap O pr (ResetBuffers O m1 e) e ct2 tvr2 BK KK OFF = Ok (r, m2)).
Proof.
  intros Hr Hi Ht. open_setup S. assert (Hr' := r_reset O pr e m Hr).
  destruct (boot_run L pr W HBG sk rk rb ck Hsk Hck e _ ct tvr tv Hr' Hi Ht) as (m1 & E & _ & _ & R1 & _).
  exists (slot e (im (ResetBuffers O m e) (bp_i (ev_bp e)))), m1. split; [exact E|]. intros Hi2 Ht2. assert (R1' := r_reset O pr e m1 R1).
  destruct (boot_run L pr W HBG sk rk rb ck Hsk Hck e _ ct2 tvr2 tv2 R1' Hi2 Ht2) as (m2 & E2 & _).
  exists m2. rewrite E2. unfold ResetBuffers. change (bp_Index (ev_bp e)) with (bp_i (ev_bp e)). rewrite !im_iset. reflexivity.
Qed.

(** user buffers that nobody writes to keep their contents, for good *)
Lemma h_user e (m m' : M) x : reachable O pr e m -> user m e x -> runs O pr e (eq x) m m' -> user m' e x /\ tm m' x = tm m x.
Proof.
  intros Hr Hu H. open_setup S. destruct (reach_ok L pr W HBG e m Hr) as [He Hm].
  destruct (runs_user L pr W HBG _ _ _ _ He Hm H) as (_ & _ & _ & K). apply K; [reflexivity|exact Hu].
Qed.

Lemma h_bootstrap e1 (m1 : M) c1 t1 e2 (m2 : M) c2 t2 tv : reachable O pr e1 m1 -> reachable O pr e2 m2 ->
  input O pr m1 e1 c1 -> input O pr m2 e2 c2 -> tm m2 c2 = tm m1 c1 -> table O pr m1 e1 t1 tv -> table O pr m2 e2 t2 tv ->
  exists r1 m1' r2 m2', Bootstrap O pr m1 e1 c1 t1 BK KK OFF = Ok (r1, m1') /\ Bootstrap O pr m2 e2 c2 t2 BK KK OFF = Ok (r2, m2') /\
    tm m2' r2 = tm m1' r1.
Proof.
  intros R1 R2 I1 I2 Eq T1 T2. open_setup S.
  destruct (boot_run L pr W HBG sk rk rb ck Hsk Hck e1 m1 c1 t1 tv R1 I1 T1) as (m1' & E1 & V1 & _).
  destruct (boot_run L pr W HBG sk rk rb ck Hsk Hck e2 m2 c2 t2 tv R2 I2 T2) as (m2' & E2 & V2 & _).
  exists (slot e1 (im m1 (bp_i (ev_bp e1)))), m1', (slot e2 (im m2 (bp_i (ev_bp e2)))), m2'. split; [exact E1|]. split; [exact E2|]. rewrite V1, V2, Eq. reflexivity.
Qed.

Lemma h_assign e1 (m1 : M) c1 t1 o1 e2 (m2 : M) c2 t2 o2 tv : reachable O pr e1 m1 -> reachable O pr e2 m2 ->
  input O pr m1 e1 c1 -> input O pr m2 e2 c2 -> tm m2 c2 = tm m1 c1 -> table O pr m1 e1 t1 tv -> table O pr m2 e2 t2 tv ->
  input O pr m1 e1 o1 -> input O pr m2 e2 o2 ->
  exists m1' m2', BootstrapAssign O pr m1 e1 c1 t1 BK KK OFF o1 = Ok m1' /\ BootstrapAssign O pr m2 e2 c2 t2 BK KK OFF o2 = Ok m2' /\
    tm m2' o2 = tm m1' o1.
Proof.
  intros R1 R2 I1 I2 Eq T1 T2 O1 O2. open_setup S.
  destruct (assign_run L pr W HBG sk rk rb ck Hsk Hck e1 m1 c1 t1 tv o1 R1 I1 T1 O1) as (m1' & E1 & V1 & _).
  destruct (assign_run L pr W HBG sk rk rb ck Hsk Hck e2 m2 c2 t2 tv o2 R2 I2 T2 O2) as (m2' & E2 & V2 & _).
  exists m1', m2'. split; [exact E1|]. split; [exact E2|]. rewrite V1, V2, Eq. reflexivity.
Qed.

Lemma h_rotate e1 (m1 : M) c1 t1 o1 e2 (m2 : M) c2 t2 o2 tv : reachable O pr e1 m1 -> reachable O pr e2 m2 ->
  input O pr m1 e1 c1 -> input O pr m2 e2 c2 -> tm m2 c2 = tm m1 c1 -> table O pr m1 e1 t1 tv -> table O pr m2 e2 t2 tv ->
  room O pr m1 e1 o1 -> room O pr m2 e2 o2 ->
  exists m1' m2', BlindRotateAssign O pr m1 e1 c1 t1 BK OFF o1 = Ok m1' /\ BlindRotateAssign O pr m2 e2 c2 t2 BK OFF o2 = Ok m2' /\
    ct_at m2' o2 = ct_at m1' o1.
Proof.
  intros R1 R2 I1 I2 Eq T1 T2 O1 O2. open_setup S.
  destruct (rotate_run L pr W HBG sk rk rb ck e1 m1 c1 t1 tv o1 Hsk Hck R1 I1 T1 O1) as (m1' & E1 & V1 & _).
  destruct (rotate_run L pr W HBG sk rk rb ck e2 m2 c2 t2 tv o2 Hsk Hck R2 I2 T2 O2) as (m2' & E2 & V2 & _).
  exists m1', m2'. split; [exact E1|]. split; [exact E2|]. rewrite V1, V2, Eq. reflexivity.
Qed.

Lemma h_programs p e1 (m1 : M) k1 w1 e2 (m2 : M) k2 w2 : reachable O pr e1 m1 -> reachable O pr e2 m2 ->
  key_at O m1 e1 k1 ck -> key_at O m2 e2 k2 ck ->
  Forall2 (fun x y => user m1 e1 x /\ user m2 e2 y /\ tm m2 y = tm m1 x /\ zlen (tm m1 x) = n + 1) w1 w2 ->
  match exec O pr e1 k1 p w1 m1, exec O pr e2 k2 p w2 m2 with
  | Ok (w1', m1'), Ok (w2', m2') => Forall2 (fun x y => tm m2' y = tm m1' x) w1' w2'
  | Panic x, Panic y => y = x
  | _, _ => False
  end.
Proof.
  intros R1 R2 K1 K2 Hw. open_setup S. set (vs := map (tm m1) w1).
  assert (H1: holds pr e1 m1 w1 vs).
  { unfold vs, holds. induction Hw as [|x y u v (A & B & C & D) _ IH]; cbn [map]; constructor; auto. }
  assert (H2: holds pr e2 m2 w2 vs).
  { unfold vs, holds. induction Hw as [|x y u v (A & B & C & D) _ IH]; cbn [map]; constructor; [auto|]. apply IH. inversion H1; assumption. }
  pose proof (pval_run L pr W HBG sk rk rb ck Hsk Hck p e1 m1 k1 w1 vs R1 K1 H1) as P1.
  pose proof (pval_run L pr W HBG sk rk rb ck Hsk Hck p e2 m2 k2 w2 vs R2 K2 H2) as P2.
  destruct (pval L pr ck p vs) as [vs'|x].
  - destruct P1 as (w1' & m1' & -> & Q1 & _). destruct P2 as (w2' & m2' & -> & Q2 & _). clear - Q1 Q2. revert w2' Q2. unfold holds in *.
    induction Q1 as [|x v u vs (A & B & C) _ IH]; intros w2' Q2; inversion Q2 as [|y v' u' vs' (A' & B' & C') Q2']; subst; constructor; [congruence|].
    apply IH. assumption.
  - rewrite P1, P2. reflexivity.
Qed.
End Props.

Section NoKey.
Context (R : arith) (O : fops) (pr : pset) (Hpr : good_params pr) (EO : fft_evaluator R (g_N pr) = Ok O).
Notation M := (mem (FP O)).

Lemma h_product s p rs g off e1 (m1 : M) r1 o1 e2 (m2 : M) r2 o2 c : zlen s = g_N pr -> trgsw_of O pr s p rs g ->
  reachable O pr e1 m1 -> reachable O pr e2 m2 -> table O pr m1 e1 r1 c -> table O pr m2 e2 r2 c -> room O pr m1 e1 o1 -> room O pr m2 e2 o2 ->
  exists m1' m2', ExternalProductAssign O pr m1 e1 g r1 off o1 = Ok m1' /\ ExternalProductAssign O pr m2 e2 g r2 off o2 = Ok m2' /\
    ct_at m2' o2 = ct_at m1' o1.
Proof.
  intros Hs Hg R1 R2 T1 T2 O1 O2. destruct Hpr as [W HBG]. destruct (laws_of _ _ _ EO) as [L _].
  destruct (product_run L pr W HBG e1 m1 s p rs g r1 c off o1 R1 Hs Hg T1 O1) as (m1' & E1 & V1 & _).
  destruct (product_run L pr W HBG e2 m2 s p rs g r2 c off o2 R2 Hs Hg T2 O2) as (m2' & E2 & V2 & _).
  exists m1', m2'. split; [exact E1|]. split; [exact E2|]. rewrite V1, V2. reflexivity.
Qed.

Lemma h_cmux s p rs g off e1 (m1 : M) a1 b1 o1 e2 (m2 : M) a2 b2 o2 c0 c1 : zlen s = g_N pr -> trgsw_of O pr s p rs g ->
  reachable O pr e1 m1 -> reachable O pr e2 m2 -> table O pr m1 e1 a1 c0 -> table O pr m2 e2 a2 c0 ->
  table O pr m1 e1 b1 c1 -> table O pr m2 e2 b2 c1 -> room O pr m1 e1 o1 -> room O pr m2 e2 o2 ->
  a1 = o1 \/ disjoint a1 o1 -> disjoint b1 o1 -> a2 = o2 \/ disjoint a2 o2 -> disjoint b2 o2 ->
  exists m1' m2', CMuxAssign O pr m1 e1 g a1 b1 off o1 = Ok m1' /\ CMuxAssign O pr m2 e2 g a2 b2 off o2 = Ok m2' /\
    ct_at m2' o2 = ct_at m1' o1.
Proof.
  intros Hs Hg R1 R2 A1 A2 B1 B2 O1 O2 D1 D1' D2 D2'. destruct Hpr as [W HBG]. destruct (laws_of _ _ _ EO) as [L _].
  destruct (cmux_run L pr W HBG e1 m1 s p rs g a1 c0 b1 c1 off o1 R1 Hs Hg A1 B1 O1 D1 D1') as (m1' & E1 & V1 & _).
  destruct (cmux_run L pr W HBG e2 m2 s p rs g a2 c0 b2 c1 off o2 R2 Hs Hg A2 B2 O2 D2 D2') as (m2' & E2 & V2 & _).
  exists m1', m2'. split; [exact E1|]. split; [exact E2|]. rewrite V1, V2. reflexivity.
Qed.
End NoKey.

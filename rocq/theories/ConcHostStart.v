(** * Clients to start with, for C67 *)
From Coq Require Import Lia ZifyBool Setoid Morphisms List.
From Verif Require Import GoBase GoFacts GoMem MemFacts F64 Utils UtilsFacts Params Key Tlwe TlweMem TlweFacts BasicFacts
  Poly PolyFacts NegFacts Laws Fft FftTabErr Trlwe TrlweFacts Trgsw TrgswFacts RotFacts KeySwitchFacts Lut Evaluator EvalFacts
  CloudKey CloudKeyFacts Gates LinFacts Spec RunSpec HeapFacts BootFacts Circuit GateFacts NoiseFacts RunProps RunWorst LutSpec LutProg LutProps LutProgProps MixProg MixProps
  Conc ConcLut ConcSpec ConcLutSpec ConcMixSpec ConcFacts ConcRel ConcOps ConcProps ConcLutFacts ConcLutProps ConcMixProps
  HostileSpec HostileFacts HostileRun HostileProps ConcHostSpec ConcHostProps.
Import ListNotations.
Local Open Scope Z_scope.
Ltac Zify.zify_post_hook ::= idtac.

Section Start.
Context (R : arith) (tw twi : list (AN R * AN R)) (pr : pset) (GP : good_params pr) (TR : transform R tw twi pr).
Notation O := (fft_ops R tw twi).
Notation M := (mem (FP O)).
Notation client := (client R tw twi).

(** a client whose buffers keep their contents keeps its shape *)
Definition stays (cs : list client) (m m' : M) : Prop := forall x, free_of cs m x -> free_of cs m' x /\ tm m' x = tm m x.
Lemma stays_refl cs m : stays cs m m.
Proof. intros x H. auto. Qed.
Lemma stays_trans cs m1 m2 m3 : stays cs m1 m2 -> stays cs m2 m3 -> stays cs m1 m3.
Proof. intros A B x H. destruct (A x H) as [H1 E1]. destruct (B x H1) as [H2 E2]. split; [exact H2|congruence]. Qed.
Lemma stays_user cs m m' (c : client) x : In c cs -> stays cs m m' -> free_of cs m x -> user m' (cl_ev c) x /\ tm m' x = tm m x.
Proof. intros Hc K Hx. destruct (K x Hx) as [[F1 F2] E]. split; [|exact E]. split; [exact F1|exact (F2 c Hc)]. Qed.
Lemma stays_key cs m m' (c : client) ck : In c cs -> stays cs m m' -> (forall x, cl_given c x -> free_of cs m x) ->
  key_at O m (cl_ev c) (cl_gates c) ck -> key_at O m' (cl_ev c) (cl_gates c) ck.
Proof.
  intros Hc K HG (A1 & A2 & A3 & A4 & A5 & _).
  destruct (stays_user cs m m' c _ Hc K (HG _ (or_intror (or_intror (or_introl eq_refl))))) as [U1 V1].
  destruct (stays_user cs m m' c _ Hc K (HG _ (or_intror (or_intror (or_intror eq_refl))))) as [U2 V2].
  split; [exact A1|]. split; [exact A2|]. split; [exact A3|]. split; [congruence|]. split; [congruence|]. split; assumption.
Qed.
Lemma stays_shape cs m m' (c : client) : In c cs -> stays cs m m' -> (forall x, cl_given c x -> free_of cs m x) ->
  client_shape pr m c -> client_shape pr m' c.
Proof.
  intros Hc K HG (S1 & (ck & S2 & KA) & Hk & (ND & HW & HT & HN) & Ha). split; [exact S1|]. split; [exists ck; split; [exact S2|eapply stays_key; eassumption]|].
  split; [exact Hk|]. split; [|exact Ha]. split; [exact ND|]. split; [|split; [|exact HN]].
  - intros x Hx. destruct (HW x Hx) as [_ L]. destruct (stays_user cs m m' c x Hc K (HG x (or_introl Hx))) as [U V]. split; [exact U|congruence].
  - rewrite Forall_forall in *. intros t Ht. destruct (HT t Ht) as [(tv & T1 & T2 & T3 & T4 & T5) N].
    assert (G: forall x, in_table x t -> free_of cs m x) by (intros x Hx; apply HG; right; left; apply Exists_exists; exists t; auto).
    destruct (stays_user cs m m' c _ Hc K (G _ (or_introl eq_refl))) as [U1 V1]. destruct (stays_user cs m m' c _ Hc K (G _ (or_intror eq_refl))) as [U2 V2].
    split; [|exact N]. exists tv. split; [congruence|]. split; [congruence|]. auto.
Qed.

Definition new_buf (m : M) (v : list Z) : M := snd (alloc m v).
Lemma crowd_alloc cs m v : mem_ok m -> crowd pr cs m -> mem_ok (new_buf m v) /\ crowd pr cs (new_buf m v) /\ stays cs m (new_buf m v) /\
  free_of cs (new_buf m v) (tnext m) /\ tm (new_buf m v) (tnext m) = v.
Proof.
  intros Hm (H1 & H2 & H3). set (m' := new_buf m v).
  assert (T: tnext m' = tnext m + 1 /\ fnext m' = fnext m /\ inext m' = inext m /\ fm m' = fm m /\ im m' = im m) by (unfold m', new_buf; cbn; auto).
  destruct T as (T1 & T2 & T3 & T4 & T5).
  assert (V: tm m' (tnext m) = v) by (unfold m', new_buf; cbn; rewrite Z.eqb_refl; reflexivity).
  assert (X: forall x, x <> tnext m -> tm m' x = tm m x) by (intros x Hx; change (tm m' x) with (if x =? tnext m then v else tm m x); rewrite (proj2 (Z.eqb_neq x (tnext m)) Hx); reflexivity).
  rewrite Forall_forall in H1.
  assert (ST: stays cs m m').
  { intros x [F1 F2]. split; [split; [lia|exact F2]|apply X; lia]. }
  split; [unfold mem_ok in *; lia|]. split; [|split; [exact ST|split; [|exact V]]].
  - split; [|split; [exact H2|]].
    + rewrite Forall_forall. intros c Hc. eapply (hist_other R tw twi pr GP TR); [exact (H1 c Hc)| | | |lia|lia|lia].
      * intros x Hx. apply X. pose proof (hist_own R tw twi pr GP TR _ _ x (H1 c Hc) Hx). lia.
      * intros x _. rewrite T4. reflexivity.
      * intros x _. rewrite T5. reflexivity.
    + rewrite Forall_forall in *. intros c Hc x Hx. apply ST. exact (H3 c Hc x Hx).
  - destruct Hm as (M1 & _). split; [lia|]. intros c Hc Hx. pose proof (hist_own R tw twi pr GP TR _ _ _ (H1 c Hc) Hx). lia.
Qed.

Lemma crowd_allocs cs vs : forall m, mem_ok m -> crowd pr cs m -> exists m' w, mem_ok m' /\ crowd pr cs m' /\ stays cs m m' /\ tnext m <= tnext m' /\
  Forall (fun x => free_of cs m' x /\ tnext m <= x) w /\ map (tm m') w = vs /\ NoDup w.
Proof.
  induction vs as [|v vs IH]; intros m Hm HC.
  - exists m, []. split; [exact Hm|]. split; [exact HC|]. split; [apply stays_refl|]. split; [lia|]. split; [constructor|]. split; [reflexivity|constructor].
  - destruct (crowd_alloc cs m v Hm HC) as (M1 & C1 & S1 & F1 & V1). destruct (IH _ M1 C1) as (m' & w & M2 & C2 & S2 & N2 & F2 & V2 & D2).
    assert (T1: tnext (new_buf m v) = tnext m + 1) by reflexivity. rewrite T1 in *.
    destruct (S2 _ F1) as [F1' V1']. exists m', (tnext m :: w). split; [exact M2|]. split; [exact C2|]. split; [eapply stays_trans; eassumption|]. split; [lia|].
    rewrite Forall_forall in F2. split; [|split].
    + constructor; [split; [exact F1'|lia]|]. rewrite Forall_forall. intros x Hx. destruct (F2 x Hx). split; [assumption|lia].
    + cbn [map]. rewrite V2, V1', V1. reflexivity.
    + constructor; [|exact D2]. intro Hx. destruct (F2 _ Hx). lia.
Qed.

(** one more client *)
Lemma crowd_more cs m (q : request R tw twi) : mem_ok m -> crowd pr cs m -> Forall (client_shape pr m) cs -> request_ok pr q ->
  exists c m', mem_ok m' /\ crowd pr (c :: cs) m' /\ Forall (client_shape pr m') (c :: cs) /\ sent m' c q /\ stays cs m m'.
Proof.
  intros Hm HC HA (Q1 & Q2 & Q3 & Q4). set (tv := BlindRotateTestvec (rq_key q)).
  destruct (crowd_allocs cs (tA tv :: tB tv :: rq_cts q) m Hm HC) as (m1 & w & M1 & C1 & S1 & N1 & F1 & V1 & D1).
  destruct w as [|xa [|xb w]]; try discriminate V1. injection V1 as VA VB VW.
  open_shape GP TR E L FL. destruct (NewEvaluator_ok L pr (proj1 GP) m1 M1) as (e & m2 & Ee & He & G & OW & FW & IW & _).
  pose proof (gr_n _ _ _ _ _ _ G) as (P1 & P2 & P3). pose proof M1 as (Z1 & Z2 & Z3).
  set (gk := key_in R tw twi (rq_key q) {| rA := xa; rB := xb |}).
  set (c := {| cl_key := rq_key q; cl_gates := gk; cl_bits := rq_bits q; cl_work := {| mw_ev := e; mw_calls := rq_calls q; mw_cts := w; mw_tabs := [] |} |} : client).
  pose proof HC as (_ & _ & G0). destruct C1 as (H1 & H2 & H3). rewrite Forall_forall in F1, H1, H3, HA, G0.
  assert (OUT: forall x, free_of cs m1 x -> free_of (c :: cs) m2 x /\ tm m2 x = tm m1 x).
  { intros x [X1 X2]. split.
    - split; [lia|]. intros u [<-|Hu]; [|exact (X2 u Hu)]. unfold cl_ev, c. cbn [cl_work mw_ev]. rewrite OW. lia.
    - apply (gr_t _ _ _ _ _ _ G); [lia|intros []]. }
  assert (NEW: forall x, cl_given c x -> In x (xa :: xb :: w)).
  { intros x [Hx|[Hx|Hx]]; cbn [c cl_work mw_cts mw_tabs cl_gates gk key_in gk_testvec] in Hx; [right; right; exact Hx|inversion Hx|].
    destruct Hx as [-> | ->]; cbn [rA rB]; [left|right; left]; reflexivity. }
  exists c, m2. split; [unfold mem_ok; lia|].
  assert (CR: crowd pr (c :: cs) m2).
  { split; [|split].
    - constructor.
      + apply ah_reach. apply r_new with (pr0 := pr) (m := m1); [exact M1| |exact Ee]. pose proof (pw_l _ _ (proj1 GP)). unfold serves. lia.
      + rewrite Forall_forall. intros u Hu. eapply (hist_other R tw twi pr GP TR); [exact (H1 u Hu)| | | |lia|lia|lia].
        * intros x Hx. apply (gr_t _ _ _ _ _ _ G); [|intros []]. apply (hist_own R tw twi pr GP TR _ _ x (H1 u Hu) Hx).
        * intros x Hx. apply (gr_f _ _ _ _ _ _ G); [|intros []]. apply (hist_fown R tw twi pr GP TR _ _ x (H1 u Hu) Hx).
        * intros x Hx. apply (gr_i _ _ _ _ _ _ G); [|intros []]. apply (hist_iown R tw twi pr GP TR _ _ x (H1 u Hu) Hx).
    - constructor; [|exact H2]. rewrite Forall_forall. intros u Hu. split.
      + intro x. unfold cl_ev at 1 3 5, c. cbn [cl_work mw_ev]. rewrite OW, FW, IW.
        split; [intros [A B]; pose proof (hist_own R tw twi pr GP TR _ _ x (H1 u Hu) B); lia|].
        split; [intros [A B]; pose proof (hist_fown R tw twi pr GP TR _ _ x (H1 u Hu) B); lia|intros [A B]; pose proof (hist_iown R tw twi pr GP TR _ _ x (H1 u Hu) B); lia].
      + assert (NG: forall x, cl_given c x -> cl_given u x -> False).
        { intros x A B. destruct (F1 x (NEW x A)) as [_ A']. destruct (G0 u Hu x B) as [B' _]. lia. }
        intro x. split; intros [A B]; apply (NG x); try assumption; apply mtarget_given; assumption.
    - constructor.
      + intros x Hx. apply OUT. apply F1. exact (NEW x Hx).
      + rewrite Forall_forall. intros u Hu x Hx. apply OUT. exact (H3 u Hu x Hx). }
  assert (ST: stays cs m m2).
  { intros x Hx. destruct (S1 x Hx) as [A1 A2]. destruct (OUT x A1) as [[B1 B2] B3]. split; [split; [exact B1|]|congruence]. intros u Hu. apply B2. right. exact Hu. }
  assert (UN: forall x, In x (xa :: xb :: w) -> user m2 e x /\ tm m2 x = tm m1 x).
  { intros x Hx. destruct (F1 x Hx) as [A _]. destruct (OUT x A) as [[B1 B2] B3]. split; [|exact B3]. split; [exact B1|]. exact (B2 c (or_introl eq_refl)). }
  assert (KA: key_at O m2 e gk (rq_key q)).
  { destruct (UN xa (or_introl eq_refl)) as [U1 E1]. destruct (UN xb (or_intror (or_introl eq_refl))) as [U2 E2].
    unfold key_at, gk, key_in. cbn [gk_offset gk_testvec gk_ksk gk_bsk rA rB]. split; [reflexivity|]. split; [reflexivity|]. split; [reflexivity|]. split; [exact (eq_trans E1 VA)|]. split; [exact (eq_trans E2 VB)|]. split; assumption. }
  assert (VW2: map (tm m2) w = rq_cts q).
  { rewrite <- VW. apply map_ext_in. intros x Hx. apply UN. right. right. exact Hx. }
  inversion D1 as [|? ? D2 D3]; subst. inversion D3 as [|? ? D4 D5]; subst.
  split; [exact CR|]. split; [|split; [|exact ST]].
  - constructor.
    + unfold client_shape, cl_ev, c. cbn [cl_key cl_gates cl_bits cl_work mw_ev mw_calls mw_cts mw_tabs]. split; [exact Q1|]. split; [exists (rq_key q); split; assumption|].
      split; [exact Q2|]. split.
      * split; [exact D5|]. split; [|split; [constructor|]].
        -- intros x Hx. split; [apply UN; right; right; exact Hx|]. rewrite Forall_forall in Q3. apply Q3. rewrite <- VW2. apply in_map. exact Hx.
        -- unfold gk, key_in. cbn [gk_testvec rA rB]. split; [intro X; apply D2; right; exact X|exact D4].
      * assert (LW: zlen w = zlen (rq_cts q)) by (rewrite <- VW2; unfold zlen; rewrite map_length; reflexivity). rewrite LW. exact Q4.
    + rewrite Forall_forall. intros u Hu. assert (UG: forall x, cl_given u x -> free_of cs m x) by exact (G0 u Hu). eapply stays_shape; [exact Hu|exact ST|exact UG|exact (HA u Hu)].
  - unfold sent, cl_ev, c. cbn [cl_key cl_gates cl_bits cl_work mw_ev mw_calls mw_cts mw_tabs]. auto 10.
Qed.

Lemma sent_stays cs m m' (c : client) q : In c cs -> stays cs m m' -> (forall x, cl_given c x -> free_of cs m x) -> sent m c q -> sent m' c q.
Proof.
  intros Hc K HG (A1 & A2 & A3 & A4 & A5 & A6). split; [exact A1|]. split; [eapply stays_key; eassumption|]. split; [exact A3|]. split; [exact A4|]. split; [|exact A6].
  rewrite <- A5. apply map_ext_in. intros x Hx. apply K, HG. left. exact Hx.
Qed.

Lemma cr_start (qs : list (request R tw twi)) : Forall (request_ok pr) qs ->
  exists cs (m : M), crowd pr cs m /\ Forall (client_shape pr m) cs /\ Forall2 (sent m) cs qs.
Proof.
  intro H. assert (G: exists cs (m : M), mem_ok m /\ crowd pr cs m /\ Forall (client_shape pr m) cs /\ Forall2 (sent m) cs qs).
  { induction H as [|q qs Hq _ IH].
    - exists [], (empty_mem (f_nil O)). split; [apply empty_ok|]. split; [split; [|split]; constructor|]. split; constructor.
    - destruct IH as (cs & m & Hm & HC & HA & HF). destruct (crowd_more cs m q Hm HC HA Hq) as (c & m' & M1 & C1 & A1 & S1 & ST).
      exists (c :: cs), m'. split; [exact M1|]. split; [exact C1|]. split; [exact A1|]. constructor; [exact S1|].
      destruct HC as (_ & _ & HG). rewrite Forall_forall in HG.
      assert (SUB: forall c', In c' cs -> forall q', sent m c' q' -> sent m' c' q').
      { intros c' Hc' q' Hs. eapply sent_stays; [exact Hc'|exact ST|exact (HG c' Hc')|exact Hs]. }
      clear - HF SUB. induction HF as [|a b cs qs X F IH]; constructor; [apply SUB; [left; reflexivity|exact X]|]. apply IH. intros c' Hc'. apply SUB. right. exact Hc'. }
  destruct G as (cs & m & _ & X). exists cs, m. exact X.
Qed.
End Start.

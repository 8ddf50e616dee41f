(** * Goroutines to start with, for C62 *)
From Coq Require Import Lia ZifyBool Setoid Morphisms List.
From Verif Require Import GoBase GoFacts GoMem MemFacts F64 Utils UtilsFacts Params Key Tlwe TlweMem TlweFacts BasicFacts
  Poly PolyFacts NegFacts Laws Fft FftTabErr Trlwe TrlweFacts Trgsw TrgswFacts RotFacts KeySwitchFacts Lut Evaluator EvalFacts
  CloudKey CloudKeyFacts Gates LinFacts Spec RunSpec HeapFacts BootFacts Circuit GateFacts NoiseFacts RunProps RunWorst LutSpec LutProg LutProps NibbleProps LutProgProps MixProg MixProps
  Conc ConcLut ConcSpec ConcLutSpec ConcMixSpec ConcFacts ConcRel ConcOps ConcProps ConcLutFacts ConcLutProps ConcLutStart ConcMixProps.
Import ListNotations.
Local Open Scope Z_scope.
Ltac Zify.zify_post_hook ::= idtac.

Section Start.
Context (R : arith) (O : fops) (pr : pset) (sk : SecretKey) (rk : Z -> enc_rand) (rb : Z -> Z -> trlwe_rand) (ck : CloudKey O)
  (S : setup R O pr sk rk rb ck) (k : Z) (Hk : 0 <= k).
Notation M := (mem (FP O)).

Lemma new_mworker (gk : gkey O) (ts : list mworker) (m : M) p w tb : mem_ok m -> @mseparate O pr gk ts m ->
  (forall x, In x w \/ Exists (in_table x) tb \/ in_table x (gk_testvec gk) -> moutside ts m x) ->
  (forall e u, In u ts -> let t := {| mw_ev := e; mw_calls := p; mw_cts := w; mw_tabs := tb |} in forall x, ~ (mtarget t x /\ mgiven gk u x) /\ ~ (mtarget u x /\ mgiven gk t x)) ->
  exists e m', let t := {| mw_ev := e; mw_calls := p; mw_cts := w; mw_tabs := tb |} in
    mem_ok m' /\ @mseparate O pr gk (t :: ts) m' /\ forall x, moutside ts m x -> moutside (t :: ts) m' x /\ tm m' x = tm m x.
Proof.
  intros Hm (H1 & H2 & H3) Hw Ha. pose proof S as S'. open_setup S'. destruct (NewEvaluator_ok L pr W m Hm) as (e & m' & E & He & G & OW & FW & IW & _).
  pose proof (gr_n _ _ _ _ _ _ G) as (N1 & N2 & N3). destruct Hm as (M1 & M2 & M3). exists e, m'. intro t. split; [unfold mem_ok; lia|].
  assert (OLD: forall u, In u ts -> (forall x, own (mw_ev u) x -> x < tnext m) /\ (forall x, fown (mw_ev u) x -> x < fnext m) /\ (forall x, iown (mw_ev u) x -> x < inext m)).
  { intros u Hu. rewrite Forall_forall in H1. destruct (reach_ok L pr W HBG _ _ (H1 u Hu)) as [[] _]. unfold own, fown, iown. repeat split; intros; lia. }
  assert (OUT: forall x, moutside ts m x -> moutside (t :: ts) m' x /\ tm m' x = tm m x).
  { intros x [X1 X2]. split.
    - split; [lia|]. intros u [<-|Hu]; [|apply X2, Hu]. cbn [t mw_ev]. rewrite OW. lia.
    - apply (gr_t _ _ _ _ _ _ G); [lia|intros []]. }
  split; [|exact OUT]. split; [|split].
  - constructor.
    + apply r_new with (pr0 := pr) (m := m); [unfold mem_ok; lia| |exact E]. pose proof (pw_l _ _ W). unfold serves. lia.
    + rewrite Forall_forall in *. intros u Hu. destruct (OLD u Hu) as (Q1 & Q2 & Q3). eapply (reach_other L pr W HBG); [exact (H1 u Hu)| | | |lia|lia|lia].
      * intros x Hx. apply (gr_t _ _ _ _ _ _ G); [apply Q1, Hx|intros []].
      * intros x Hx. apply (gr_f _ _ _ _ _ _ G); [apply Q2, Hx|intros []].
      * intros x Hx. apply (gr_i _ _ _ _ _ _ G); [apply Q3, Hx|intros []].
  - constructor; [|exact H2]. rewrite Forall_forall. intros u Hu. split; [|exact (Ha e u Hu)]. intro x. cbn [t mw_ev]. destruct (OLD u Hu) as (Q1 & Q2 & Q3). rewrite OW, FW, IW.
    split; [intros [A B]; apply Q1 in B; lia|]. split; [intros [A B]; apply Q2 in B; lia|intros [A B]; apply Q3 in B; lia].
  - constructor; [intros x Hx; apply OUT, Hw; exact Hx|]. rewrite Forall_forall in *. intros u Hu x Hx. apply OUT. exact (H3 u Hu x Hx).
Qed.

Lemma mx_start (js : list mjob) xs fs (r : Z -> enc_rand) E : g_N pr <> lv0_N pr + 1 -> k < 20 -> (forall i, Z.abs (centered (F64ToTorus (er_noise (r i)))) <= E) ->
  Forall (fun x => 0 <= x < 2 ^ k) xs -> mjobs_ok (zlen xs) (zlen fs) js ->
  exists (gk : gkey O) (ts : list mworker) (m : M), @mseparate O pr gk ts m /\
    Forall2 (fun t j => mw_calls t = mj_calls j /\ mholds O pr sk ck gk k m (mw_ev t) (mw_cts t) (mw_tabs t) (mj_vals xs fs (E + 1) j)) ts js.
Proof.
  intros HNn Hk' HE Hx [J1 J2].
  destruct (mix_start R O pr sk rk rb ck S HNn k xs r E (conj Hk Hk') Hx HE) as (e & m00 & gk & w & Hr0 & Hg & Ng1 & Ng2 & (LW1 & LW2 & ND & HW0)).
  assert (F0: Forall2 (fun a x => user m00 e a /\ encodes (lv0_N pr) (KeyLv0 sk) (tm m00 a) (2 ^ k) x (E + 1)) w xs).
  { apply forall2_get; [lia|]. intros i a Ga. apply (get_inv 0) in Ga. destruct Ga as [Hi ->]. exists (zn xs i). split; [apply (get_ok 0); lia|].
    destruct (HW0 i Hi) as (U & _ & C). split; [exact U|]. assert (En: zn (map (fun _ => E + 1) xs) i = E + 1).
    { unfold zn, znd. rewrite (nth_indep (map (fun _ => E + 1) xs) 0 (E + 1)) by (rewrite map_length; unfold zlen in *; lia).
      exact (map_nth (fun _ : Z => E + 1) xs 0 (Z.to_nat i)). }
    rewrite En in C. exact C. }
  assert (GV: forall x, in_table x (gk_testvec gk) -> user m00 e x /\ ~ In x w).
  { destruct Hg as (_ & _ & _ & _ & _ & U1 & U2). intros x [-> | ->]; split; assumption. }
  destruct (table_pool R O pr sk rk rb ck S k Hk e m00 fs Hr0) as (tb & m0 & Hr & K0 & FT).
  assert (Hm0: mem_ok m0). { pose proof S as S'. open_setup S'. apply (reach_ok L pr W HBG e m0 Hr). }
  assert (FW: Forall2 (fun a x => user m0 e a /\ user m00 e a /\ encodes (lv0_N pr) (KeyLv0 sk) (tm m0 a) (2 ^ k) x (E + 1)) w xs).
  { eapply forall2_mono; [|exact F0]. intros a x [U C]. destruct (K0 a U) as [U' ->]. auto. }
  pose proof (forall2_zlen _ _ _ FW) as Lw. pose proof (forall2_zlen _ _ _ FT) as Lt.
  set (dt := {| rA := 0; rB := 0 |}). set (wk := fun p => zn w p). set (tk := fun p => znd dt tb p).
  assert (GW: forall p, 0 <= p < zlen xs -> user m0 e (wk p) /\ user m00 e (wk p) /\ encodes (lv0_N pr) (KeyLv0 sk) (tm m0 (wk p)) (2 ^ k) (zn xs p) (E + 1)).
  { intros p Hp. destruct (get_forall2 _ _ _ FW p (zn w p) (get_ok 0 w p ltac:(lia))) as (x & Gx & X). apply (get_inv 0) in Gx. destruct Gx as [_ ->]. exact X. }
  assert (GT: forall p, 0 <= p < zlen fs -> (exists tv, GenLookUpTable pr (NewGenerator pr (2 ^ k)) (znd (fun x => x) fs p) = Ok tv /\ table O pr m0 e (tk p) tv) /\
    ~ user m00 e (rA (tk p)) /\ ~ user m00 e (rB (tk p))).
  { intros p Hp. destruct (get_forall2 _ _ _ FT p (tk p) (get_ok dt tb p ltac:(lia))) as (x & Gx & X). apply (get_inv (fun x => x)) in Gx. destruct Gx as [_ ->]. exact X. }
  set (inn := fun x => (exists p, 0 <= p < zlen xs /\ x = wk p) \/ (exists p, 0 <= p < zlen fs /\ in_table x (tk p)) \/ in_table x (gk_testvec gk)).
  assert (IN: forall x, inn x -> 0 <= x < tnext m0).
  { intros x [(p & Hp & ->)|[(p & Hp & D)|D]]; [apply (GW p Hp)| |destruct (GV x D) as [U _]; destruct (K0 x U) as [U' _]; apply U']. destruct (GT p Hp) as [(tv & _ & T1 & T2 & T3 & T4 & _) _]. destruct D as [-> | ->]; [apply T3|apply T4]. }
  assert (G: exists ts m, mem_ok m /\ @mseparate O pr gk ts m /\ Forall2 (fun t j => mw_calls t = mj_calls j /\ mw_cts t = map wk (mj_cts j) /\ mw_tabs t = map tk (mj_tabs j)) ts js /\
     forall x, inn x -> moutside ts m x /\ tm m x = tm m0 x).
  { induction js as [|j js IH].
    - exists [], m0. split; [exact Hm0|]. split; [repeat split; constructor|]. split; [constructor|]. intros x Hi. split; [|reflexivity]. split; [apply IN, Hi|intros t []].
    - inversion J1 as [|? ? J1a J1b]; subst. inversion J2 as [|? ? J2a J2b]; subst.
      destruct (IH J1b J2b) as (ts & m & A1 & A2 & A3 & A4).
      assert (P1: forall j, NoDup (mj_cts j) /\ Forall (fun p => 0 <= p < zlen xs) (mj_cts j) /\ Forall (fun p => 0 <= p < zlen fs) (mj_tabs j) ->
        forall x, In x (map wk (mj_cts j)) -> exists p, In p (mj_cts j) /\ 0 <= p < zlen xs /\ x = wk p).
      { intros j0 (_ & Q & _) x Hi. apply in_map_iff in Hi. destruct Hi as (p & <- & Hp). exists p. rewrite Forall_forall in Q. auto. }
      assert (P2: forall j, NoDup (mj_cts j) /\ Forall (fun p => 0 <= p < zlen xs) (mj_cts j) /\ Forall (fun p => 0 <= p < zlen fs) (mj_tabs j) ->
        forall x, Exists (in_table x) (map tk (mj_tabs j)) -> exists p, 0 <= p < zlen fs /\ in_table x (tk p)).
      { intros j0 (_ & _ & Q) x Hi. rewrite Exists_exists in Hi. destruct Hi as (t & Ht & Hi). apply in_map_iff in Ht. destruct Ht as (p & <- & Hp). exists p. rewrite Forall_forall in Q. auto. }
      assert (CL: forall e1 e2 j1 j2, In j1 (j :: js) -> In j2 (j :: js) -> (forall p, ~ (mj_writes j1 p /\ In p (mj_cts j2))) ->
        forall x, ~ (mtarget {| mw_ev := e1; mw_calls := mj_calls j1; mw_cts := map wk (mj_cts j1); mw_tabs := map tk (mj_tabs j1) |} x /\
                     mgiven gk {| mw_ev := e2; mw_calls := mj_calls j2; mw_cts := map wk (mj_cts j2); mw_tabs := map tk (mj_tabs j2) |} x)).
      { intros e1 e2 j1 j2 I1 I2 HN x [(o & Ho & Go) Hg0]. rewrite Forall_forall in J1. pose proof (J1 _ I1) as B1. pose proof (J1 _ I2) as B2. cbn [mw_calls mw_cts mw_tabs] in *.
        apply (get_inv 0) in Go. destruct Go as [Ho1 Eo]. unfold zlen in Ho1. rewrite map_length in Ho1. fold (zlen (mj_cts j1)) in Ho1.
        assert (Go: get (mj_cts j1) o = Ok (zn (mj_cts j1) o)) by (apply (get_ok 0); exact Ho1).
        assert (Ip: In (zn (mj_cts j1) o) (mj_cts j1)) by (eapply get_in; exact Go).
        assert (Ex: x = wk (zn (mj_cts j1) o)).
        { rewrite Eo. unfold znd. rewrite (nth_indep _ 0 (wk 0)) by (rewrite map_length; unfold zlen in Ho1; lia). rewrite map_nth. reflexivity. }
        assert (Rp: 0 <= zn (mj_cts j1) o < zlen xs) by (destruct B1 as (_ & Q & _); rewrite Forall_forall in Q; apply Q; exact Ip).
        destruct Hg0 as [Hg0|[Hg0|Hg0]]; cbn [mw_cts mw_tabs] in Hg0.
        - destruct (P1 _ B2 _ Hg0) as (q & Iq & Rq & Eq). rewrite Ex in Eq. apply (nodup_zn w) in Eq; [|exact ND|lia|lia]. subst q. apply (HN (zn (mj_cts j1) o)). split; [exists o; auto|exact Iq].
        - destruct (P2 _ B2 _ Hg0) as (q & Rq & Hq). destruct (GT q Rq) as (_ & N1 & N2). destruct (GW _ Rp) as (_ & U & _). rewrite Ex in Hq. destruct Hq as [Hq|Hq]; rewrite Hq in U; contradiction.
        - destruct (GV x Hg0) as [_ N]. apply N. rewrite Ex. unfold wk. eapply get_in. apply (get_ok 0). lia. }
      destruct (new_mworker gk ts m (mj_calls j) (map wk (mj_cts j)) (map tk (mj_tabs j)) A1 A2) as (e1 & m1 & B1 & B2 & B3).
      + intros x [Hi|[Hi|Hi]]; apply A4; [left|right; left|right; right]; [destruct (P1 _ J1a _ Hi) as (p & _ & Q1 & Q2); exists p; auto|exact (P2 _ J1a _ Hi)|exact Hi].
      + intros e1 u Hu t x.
        assert (Q: exists j', In j' js /\ mw_calls u = mj_calls j' /\ mw_cts u = map wk (mj_cts j') /\ mw_tabs u = map tk (mj_tabs j')).
        { clear - A3 Hu. induction A3 as [|a b ts js X A3 IH]; [destruct Hu|]. destruct Hu as [->|Hu]; [exists b; split; [left; reflexivity|exact X]|].
          destruct (IH Hu) as (j' & I & Y). exists j'. split; [right; exact I|exact Y]. }
        destruct Q as (j' & Ij & Q1 & Q2 & Q3). rewrite Forall_forall in J2a.
        assert (Eu: u = {| mw_ev := mw_ev u; mw_calls := mj_calls j'; mw_cts := map wk (mj_cts j'); mw_tabs := map tk (mj_tabs j') |}) by (destruct u; cbn in *; congruence).
        rewrite Eu. unfold t. split; apply CL; try (left; reflexivity); try (right; exact Ij); intro p; apply (J2a _ Ij p).
      + exists ({| mw_ev := e1; mw_calls := mj_calls j; mw_cts := map wk (mj_cts j); mw_tabs := map tk (mj_tabs j) |} :: ts), m1.
        split; [exact B1|]. split; [exact B2|]. split; [constructor; [auto|exact A3]|].
        intros x Hi. destruct (A4 x Hi) as [C1 C2]. destruct (B3 x C1) as [D1 D2]. split; [exact D1|congruence]. }
  destruct G as (ts & m & _ & A2 & A3 & A4). exists gk, ts, m. split; [exact A2|].
  assert (U: forall t x, In t ts -> inn x -> user m (mw_ev t) x) by (intros t x Ht Hi; destruct (A4 x Hi) as [[X1 X2] _]; split; [exact X1|exact (X2 t Ht)]).
  assert (A5: forall t j, In t ts -> In j js -> mw_calls t = mj_calls j /\ mw_cts t = map wk (mj_cts j) /\ mw_tabs t = map tk (mj_tabs j) ->
    mw_calls t = mj_calls j /\ mholds O pr sk ck gk k m (mw_ev t) (mw_cts t) (mw_tabs t) (mj_vals xs fs (E + 1) j)).
  { intros t j Ht Hj (C1 & -> & ->). split; [exact C1|]. rewrite Forall_forall in J1. destruct (J1 j Hj) as (D1 & D2 & D3). rewrite Forall_forall in D2, D3.
    assert (ZL: forall (A B : Type) (f : A -> B) l, zlen (map f l) = zlen l) by (intros; unfold zlen; rewrite map_length; reflexivity).
    assert (ZN: forall (f : Z -> Z) l i, 0 <= i < zlen l -> zn (map f l) i = f (zn l i)).
    { intros f l i Hi. unfold zn, znd. rewrite (nth_indep _ 0 (f 0)) by (rewrite map_length; unfold zlen in Hi; lia). apply map_nth. }
    split; [split|split].
    - split; [rewrite !ZL; reflexivity|]. split; [rewrite !ZL; reflexivity|]. split.
      + clear - D1 D2 ND Lw. assert (Q: forall p q, In p (mj_cts j) -> In q (mj_cts j) -> wk p = wk q -> p = q).
        { intros p q Hp Hq E. apply (nodup_zn w); [exact ND|rewrite Lw in *; try apply D2; try assumption..|exact E]. }
        clear D2. induction (mj_cts j) as [|a l IH]; [constructor|]. inversion D1; subst. cbn [map]. constructor.
        * intro Hi. apply in_map_iff in Hi. destruct Hi as (q & Eq & Hq). apply Q in Eq; [subst; contradiction|right; exact Hq|left; reflexivity].
        * apply IH; [assumption|]. intros p q Hp Hq. apply Q; right; assumption.
      + intros i Hi. rewrite ZL in Hi. rewrite !ZN by exact Hi. assert (Ip: In (zn (mj_cts j) i) (mj_cts j)) by (eapply get_in; apply (get_ok 0); exact Hi).
        pose proof (D2 _ Ip) as Rp. destruct (GW _ Rp) as (_ & _ & En). assert (Iw: inn (wk (zn (mj_cts j) i))) by (left; exists (zn (mj_cts j) i); auto).
        split; [apply U; assumption|]. split.
        * rewrite Forall_forall in Hx. assert (Iz: In (zn xs (zn (mj_cts j) i)) xs) by (eapply get_in; apply (get_ok 0); exact Rp). pose proof (Hx _ Iz). lia.
        * destruct (A4 _ Iw) as [_ ->]. exact En.
    - unfold ltables. assert (NI: forall p, 0 <= p < zlen fs -> forall x, in_table x (tk p) -> ~ In x (map wk (mj_cts j))).
      { intros p Rp x Dx Hi. apply in_map_iff in Hi. destruct Hi as (q & <- & Hq). destruct (GT p Rp) as (_ & N1 & N2). destruct (GW _ (D2 _ Hq)) as (_ & X & _). destruct Dx as [Dx|Dx]; rewrite Dx in X; contradiction. }
      revert D3. generalize (mj_tabs j) as l. induction l as [|p l IH]; intro D3; [constructor|]. cbn [map]. constructor; [|apply IH; intros; apply D3; right; assumption].
      pose proof (D3 p (or_introl eq_refl)) as Rp. destruct (GT p Rp) as [(tv & Gt & T1 & T2 & T3 & T4 & T5) _].
      assert (I1: inn (rA (tk p))) by (right; left; exists p; split; [exact Rp|left; reflexivity]). assert (I2: inn (rB (tk p))) by (right; left; exists p; split; [exact Rp|right; reflexivity]).
      split; [exists tv; split; [exact Gt|]|split; apply (NI p Rp); [left|right]; reflexivity].
      split; [destruct (A4 _ I1) as [_ ->]; exact T1|]. split; [destruct (A4 _ I2) as [_ ->]; exact T2|]. split; [apply U; assumption|]. split; [apply U; assumption|exact T5].
    - assert (TV: forall x, in_table x (gk_testvec gk) -> user m (mw_ev t) x /\ tm m x = tm m00 x).
      { intros x Hv. assert (Ix: inn x) by (right; right; exact Hv). split; [apply U; assumption|]. destruct (A4 x Ix) as [_ ->]. destruct (GV x Hv) as [Ux _]. apply (K0 x Ux). }
      destruct Hg as (B1 & B2 & B3 & B4 & B5 & _). destruct (TV _ (or_introl eq_refl)) as [U1 V1]. destruct (TV _ (or_intror eq_refl)) as [U2 V2].
      split; [exact B1|]. split; [exact B2|]. split; [exact B3|]. split; [congruence|]. split; [congruence|]. split; assumption.
    - intros x Hv Hin. destruct (GV x Hv) as [_ N]. apply N. apply in_map_iff in Hin. destruct Hin as (q & <- & Hq). unfold wk. eapply get_in. apply (get_ok 0). rewrite Lw. apply D2. exact Hq. }
  clear - A3 A5. induction A3 as [|t j ts js X A3 IH]; constructor; [apply A5; [left; reflexivity|left; reflexivity|exact X]|].
  apply IH. intros; apply A5; try (right; assumption); assumption.
Qed.
End Start.

(** * Goroutines to start with *)
From Coq Require Import Lia ZifyBool Setoid Morphisms List.
From Verif Require Import GoBase GoFacts GoMem MemFacts F64 Utils UtilsFacts Params Key Tlwe TlweMem TlweFacts BasicFacts
  Poly PolyFacts NegFacts Laws Fft FftTabErr Trlwe TrlweFacts Trgsw TrgswFacts RotFacts KeySwitchFacts Lut Evaluator EvalFacts
  CloudKey CloudKeyFacts Gates LinFacts Spec RunSpec HeapFacts BootFacts Circuit GateFacts NoiseFacts RunProps RunWorst LutSpec LutProg LutProps NibbleProps LutProgProps
  Conc ConcLut ConcSpec ConcLutSpec ConcFacts ConcRel ConcOps ConcProps ConcLutFacts ConcLutProps.
Import ListNotations.
Local Open Scope Z_scope.
Ltac Zify.zify_post_hook ::= idtac.

Lemma forall2_mono {A B} (P Q : A -> B -> Prop) l l' : (forall a b, P a b -> Q a b) -> Forall2 P l l' -> Forall2 Q l l'.
Proof. intros H F. induction F; constructor; auto. Qed.

Section Start.
Context (R : arith) (O : fops) (pr : pset) (sk : SecretKey) (rk : Z -> enc_rand) (rb : Z -> Z -> trlwe_rand) (ck : CloudKey O)
  (S : setup R O pr sk rk rb ck) (k : Z) (Hk : 0 <= k).
Notation M := (mem (FP O)).

Lemma new_lworker (ts : list lworker) (m : M) p w tb : mem_ok m -> @lseparate O pr ts m ->
  (forall x, In x w \/ Exists (in_table x) tb -> loutside ts m x) ->
  (forall e u, In u ts -> let t := {| lw_ev := e; lw_calls := p; lw_cts := w; lw_tabs := tb |} in forall x, ~ (ltarget t x /\ lgiven u x) /\ ~ (ltarget u x /\ lgiven t x)) ->
  exists e m', let t := {| lw_ev := e; lw_calls := p; lw_cts := w; lw_tabs := tb |} in
    mem_ok m' /\ @lseparate O pr (t :: ts) m' /\ forall x, loutside ts m x -> loutside (t :: ts) m' x /\ tm m' x = tm m x.
Proof.
  intros Hm (H1 & H2 & H3) Hw Ha. pose proof S as S'. open_setup S'. destruct (NewEvaluator_ok L pr W m Hm) as (e & m' & E & He & G & OW & FW & IW & _).
  pose proof (gr_n _ _ _ _ _ _ G) as (N1 & N2 & N3). destruct Hm as (M1 & M2 & M3). exists e, m'. intro t. split; [unfold mem_ok; lia|].
  assert (OLD: forall u, In u ts -> (forall x, own (lw_ev u) x -> x < tnext m) /\ (forall x, fown (lw_ev u) x -> x < fnext m) /\ (forall x, iown (lw_ev u) x -> x < inext m)).
  { intros u Hu. rewrite Forall_forall in H1. destruct (reach_ok L pr W HBG _ _ (H1 u Hu)) as [[] _]. unfold own, fown, iown. repeat split; intros; lia. }
  assert (OUT: forall x, loutside ts m x -> loutside (t :: ts) m' x /\ tm m' x = tm m x).
  { intros x [X1 X2]. split.
    - split; [lia|]. intros u [<-|Hu]; [|apply X2, Hu]. cbn [t lw_ev]. rewrite OW. lia.
    - apply (gr_t _ _ _ _ _ _ G); [lia|intros []]. }
  split; [|exact OUT]. split; [|split].
  - constructor.
    + apply r_new with (pr0 := pr) (m := m); [unfold mem_ok; lia| |exact E]. pose proof (pw_l _ _ W). unfold serves. lia.
    + rewrite Forall_forall in *. intros u Hu. destruct (OLD u Hu) as (Q1 & Q2 & Q3). eapply (reach_other L pr W HBG); [exact (H1 u Hu)| | | |lia|lia|lia].
      * intros x Hx. apply (gr_t _ _ _ _ _ _ G); [apply Q1, Hx|intros []].
      * intros x Hx. apply (gr_f _ _ _ _ _ _ G); [apply Q2, Hx|intros []].
      * intros x Hx. apply (gr_i _ _ _ _ _ _ G); [apply Q3, Hx|intros []].
  - constructor; [|exact H2]. rewrite Forall_forall. intros u Hu. split; [|exact (Ha e u Hu)]. intro x. cbn [t lw_ev]. destruct (OLD u Hu) as (Q1 & Q2 & Q3). rewrite OW, FW, IW.
    split; [intros [A B]; apply Q1 in B; lia|]. split; [intros [A B]; apply Q2 in B; lia|intros [A B]; apply Q3 in B; lia].
  - constructor; [intros x Hx; apply OUT, Hw; exact Hx|]. rewrite Forall_forall in *. intros u Hu x Hx. apply OUT. exact (H3 u Hu x Hx).
Qed.

(** a pool of tables *)
Lemma table_pool e (m0 : M) fs : reachable O pr e m0 -> exists tb m, reachable O pr e m /\ user_kept e m0 m /\
  Forall2 (fun t f => (exists tv, GenLookUpTable pr (NewGenerator pr (2 ^ k)) f = Ok tv /\ table O pr m e t tv) /\ ~ user m0 e (rA t) /\ ~ user m0 e (rB t)) tb fs.
Proof.
  intro Hr. induction fs as [|f fs (tb & m & R1 & K1 & F1)].
  - exists [], m0. split; [exact Hr|]. split; [intros x Hx; auto|constructor].
  - pose proof S as S'. open_setup S'. destruct (reach_ok L pr W HBG _ _ Hr) as [_ [Hm0 _]]. destruct (reach_ok L pr W HBG _ _ R1) as [_ [Hm _]].
    assert (HM: 0 < 2 ^ k) by (apply Z.pow_pos_nonneg; lia).
    destruct (new_lut_run L pr W HBG e m f (2 ^ k) R1 HM) as (lut & tv & m' & E & G & T & R2 & K2 & _).
    assert (LE: tnext m0 <= tnext m).
    { destruct (Z.le_gt_cases (tnext m0) (tnext m)); [assumption|exfalso]. pose proof (reach_ok L pr W HBG _ _ R1) as [He1 _].
      pose proof (reach_ok L pr W HBG _ _ Hr) as [He0 _]. pose proof (eo_t3 _ _ _ _ He1) as B1.
      assert (U: user m0 e (tnext m0 - 1)). { split; [lia|]. intro A. unfold own in A. lia. }
      destruct (K1 _ U) as [[U1 _] _]. lia. }
    assert (Q: rA lut = tnext m /\ rB lut = tnext m + 1).
    { unfold new_lut in E. rewrite G in E. cbn [bind] in E. unfold alloc in E. cbn [bind tnext] in E. injection E as <- _. split; reflexivity. }
    exists (lut :: tb), m'. split; [exact R2|]. split; [eapply keeps_trans; eassumption|]. constructor.
    + split; [exists tv; auto|]. destruct Q as [-> ->]. unfold user. split; lia.
    + eapply forall2_mono; [|exact F1]. intros t g [(tv' & G' & T1 & T2 & T3 & T4 & T5) Hn]. split; [|exact Hn]. exists tv'. split; [exact G'|].
      destruct (K2 _ T3) as [X1 X2]. destruct (K2 _ T4) as [X3 X4]. split; [congruence|]. split; [congruence|]. auto.
Qed.

Lemma nodup_zn (w : list Z) i j : NoDup w -> 0 <= i < zlen w -> 0 <= j < zlen w -> zn w i = zn w j -> i = j.
Proof.
  intros ND Hi Hj E. unfold zn, znd in E. apply Z2Nat.inj; [lia|lia|]. apply (proj1 (NoDup_nth w 0) ND); unfold zlen in *; try lia.
Qed.

Lemma lc_start (js : list ljob) xs fs (r : Z -> enc_rand) E : k < 20 -> (forall i, Z.abs (centered (F64ToTorus (er_noise (r i)))) <= E) ->
  Forall (fun x => 0 <= x < 2 ^ k) xs -> ljobs_ok (zlen xs) (zlen fs) js ->
  exists (ts : list lworker) (m : M), @lseparate O pr ts m /\
    Forall2 (fun t j => lw_calls t = lj_calls j /\ lholds O pr sk k m (lw_ev t) (lw_cts t) (lw_tabs t) (lj_vals xs fs (E + 1) j)) ts js.
Proof.
  intros Hk' HE Hx [J1 J2].
  assert (HM: 1 <= 2 ^ k < 2 ^ 20) by (split; [pose proof (Z.pow_pos_nonneg 2 k); lia|apply Z.pow_lt_mono_r; lia]).
  destruct (t_start R O pr sk rk rb ck S (2 ^ k) xs r E HM Hx HE) as (e & m00 & w & Hr0 & F0 & ND).
  destruct (table_pool e m00 fs Hr0) as (tb & m0 & Hr & K0 & FT).
  assert (Hm0: mem_ok m0). { pose proof S as S'. open_setup S'. apply (reach_ok L pr W HBG e m0 Hr). }
  assert (FW: Forall2 (fun a x => user m0 e a /\ user m00 e a /\ encodes (lv0_N pr) (KeyLv0 sk) (tm m0 a) (2 ^ k) x (E + 1)) w xs).
  { eapply forall2_mono; [|exact F0]. intros a x [U C]. destruct (K0 a U) as [U' ->]. auto. }
  pose proof (forall2_zlen _ _ _ FW) as Lw. pose proof (forall2_zlen _ _ _ FT) as Lt.
  set (dt := {| rA := 0; rB := 0 |}). set (wk := fun p => zn w p). set (tk := fun p => znd dt tb p).
  assert (GW: forall p, 0 <= p < zlen xs -> user m0 e (wk p) /\ user m00 e (wk p) /\ encodes (lv0_N pr) (KeyLv0 sk) (tm m0 (wk p)) (2 ^ k) (zn xs p) (E + 1)).
  { intros p Hp. destruct (get_forall2 _ _ _ FW p (zn w p) (get_ok 0 w p ltac:(lia))) as (x & Gx & X). apply (get_inv 0) in Gx. destruct Gx as [_ ->]. exact X. }
  assert (GT: forall p, 0 <= p < zlen fs -> (exists tv, GenLookUpTable pr (NewGenerator pr (2 ^ k)) (znd (fun x => x) fs p) = Ok tv /\ table O pr m0 e (tk p) tv) /\
    ~ user m00 e (rA (tk p)) /\ ~ user m00 e (rB (tk p))).
  { intros p Hp. destruct (get_forall2 _ _ _ FT p (tk p) (get_ok dt tb p ltac:(lia))) as (x & Gx & X). apply (get_inv (fun x => x)) in Gx. destruct Gx as [_ ->]. exact X. }
  set (inn := fun x => (exists p, 0 <= p < zlen xs /\ x = wk p) \/ exists p, 0 <= p < zlen fs /\ in_table x (tk p)).
  assert (IN: forall x, inn x -> 0 <= x < tnext m0).
  { intros x [(p & Hp & ->)|(p & Hp & D)]; [apply (GW p Hp)|]. destruct (GT p Hp) as [(tv & _ & T1 & T2 & T3 & T4 & _) _]. destruct D as [-> | ->]; [apply T3|apply T4]. }
  assert (G: exists ts m, mem_ok m /\ @lseparate O pr ts m /\ Forall2 (fun t j => lw_calls t = lj_calls j /\ lw_cts t = map wk (lj_cts j) /\ lw_tabs t = map tk (lj_tabs j)) ts js /\
     forall x, inn x -> loutside ts m x /\ tm m x = tm m0 x).
  { induction js as [|j js IH].
    - exists [], m0. split; [exact Hm0|]. split; [repeat split; constructor|]. split; [constructor|]. intros x Hi. split; [|reflexivity]. split; [apply IN, Hi|intros t []].
    - inversion J1 as [|? ? J1a J1b]; subst. inversion J2 as [|? ? J2a J2b]; subst.
      destruct (IH J1b J2b) as (ts & m & A1 & A2 & A3 & A4).
      assert (P1: forall j, NoDup (lj_cts j) /\ Forall (fun p => 0 <= p < zlen xs) (lj_cts j) /\ Forall (fun p => 0 <= p < zlen fs) (lj_tabs j) ->
        forall x, In x (map wk (lj_cts j)) -> exists p, In p (lj_cts j) /\ 0 <= p < zlen xs /\ x = wk p).
      { intros j0 (_ & Q & _) x Hi. apply in_map_iff in Hi. destruct Hi as (p & <- & Hp). exists p. rewrite Forall_forall in Q. auto. }
      assert (P2: forall j, NoDup (lj_cts j) /\ Forall (fun p => 0 <= p < zlen xs) (lj_cts j) /\ Forall (fun p => 0 <= p < zlen fs) (lj_tabs j) ->
        forall x, Exists (in_table x) (map tk (lj_tabs j)) -> exists p, 0 <= p < zlen fs /\ in_table x (tk p)).
      { intros j0 (_ & _ & Q) x Hi. rewrite Exists_exists in Hi. destruct Hi as (t & Ht & Hi). apply in_map_iff in Ht. destruct Ht as (p & <- & Hp). exists p. rewrite Forall_forall in Q. auto. }
      assert (CL: forall e1 e2 j1 j2, In j1 (j :: js) -> In j2 (j :: js) -> (forall p, ~ (lj_writes j1 p /\ In p (lj_cts j2))) ->
        forall x, ~ (ltarget {| lw_ev := e1; lw_calls := lj_calls j1; lw_cts := map wk (lj_cts j1); lw_tabs := map tk (lj_tabs j1) |} x /\
                     lgiven {| lw_ev := e2; lw_calls := lj_calls j2; lw_cts := map wk (lj_cts j2); lw_tabs := map tk (lj_tabs j2) |} x)).
      { intros e1 e2 j1 j2 I1 I2 HN x [(o & Ho & Go) Hg]. rewrite Forall_forall in J1. pose proof (J1 _ I1) as B1. pose proof (J1 _ I2) as B2. cbn [lw_calls lw_cts lw_tabs] in *.
        apply (get_inv 0) in Go. destruct Go as [Ho1 Eo]. unfold zlen in Ho1. rewrite map_length in Ho1. fold (zlen (lj_cts j1)) in Ho1.
        assert (Go: get (lj_cts j1) o = Ok (zn (lj_cts j1) o)) by (apply (get_ok 0); exact Ho1).
        assert (Ip: In (zn (lj_cts j1) o) (lj_cts j1)) by (eapply get_in; exact Go).
        assert (Ex: x = wk (zn (lj_cts j1) o)).
        { rewrite Eo. unfold znd. rewrite (nth_indep _ 0 (wk 0)) by (rewrite map_length; unfold zlen in Ho1; lia). rewrite map_nth. reflexivity. }
        assert (Rp: 0 <= zn (lj_cts j1) o < zlen xs) by (destruct B1 as (_ & Q & _); rewrite Forall_forall in Q; apply Q; exact Ip).
        destruct Hg as [Hg|Hg]; cbn [lw_cts lw_tabs] in Hg.
        - destruct (P1 _ B2 _ Hg) as (q & Iq & Rq & Eq). rewrite Ex in Eq. apply (nodup_zn w) in Eq; [|exact ND|lia|lia]. subst q. apply (HN (zn (lj_cts j1) o)). split; [exists o; auto|exact Iq].
        - destruct (P2 _ B2 _ Hg) as (q & Rq & Hq). destruct (GT q Rq) as (_ & N1 & N2). destruct (GW _ Rp) as (_ & U & _). rewrite Ex in Hq. destruct Hq as [Hq|Hq]; rewrite Hq in U; contradiction. }
      destruct (new_lworker ts m (lj_calls j) (map wk (lj_cts j)) (map tk (lj_tabs j)) A1 A2) as (e1 & m1 & B1 & B2 & B3).
      + intros x [Hi|Hi]; apply A4; [left|right]; [destruct (P1 _ J1a _ Hi) as (p & _ & Q1 & Q2); exists p; auto|exact (P2 _ J1a _ Hi)].
      + intros e1 u Hu t x.
        assert (Q: exists j', In j' js /\ lw_calls u = lj_calls j' /\ lw_cts u = map wk (lj_cts j') /\ lw_tabs u = map tk (lj_tabs j')).
        { clear - A3 Hu. induction A3 as [|a b ts js X A3 IH]; [destruct Hu|]. destruct Hu as [->|Hu]; [exists b; split; [left; reflexivity|exact X]|].
          destruct (IH Hu) as (j' & I & Y). exists j'. split; [right; exact I|exact Y]. }
        destruct Q as (j' & Ij & Q1 & Q2 & Q3). rewrite Forall_forall in J2a.
        assert (Eu: u = {| lw_ev := lw_ev u; lw_calls := lj_calls j'; lw_cts := map wk (lj_cts j'); lw_tabs := map tk (lj_tabs j') |}) by (destruct u; cbn in *; congruence).
        rewrite Eu. unfold t. split; apply CL; try (left; reflexivity); try (right; exact Ij); intro p; apply (J2a _ Ij p).
      + exists ({| lw_ev := e1; lw_calls := lj_calls j; lw_cts := map wk (lj_cts j); lw_tabs := map tk (lj_tabs j) |} :: ts), m1.
        split; [exact B1|]. split; [exact B2|]. split; [constructor; [auto|exact A3]|].
        intros x Hi. destruct (A4 x Hi) as [C1 C2]. destruct (B3 x C1) as [D1 D2]. split; [exact D1|congruence]. }
  destruct G as (ts & m & _ & A2 & A3 & A4). exists ts, m. split; [exact A2|].
  assert (U: forall t x, In t ts -> inn x -> user m (lw_ev t) x) by (intros t x Ht Hi; destruct (A4 x Hi) as [[X1 X2] _]; split; [exact X1|exact (X2 t Ht)]).
  assert (A5: forall t j, In t ts -> In j js -> lw_calls t = lj_calls j /\ lw_cts t = map wk (lj_cts j) /\ lw_tabs t = map tk (lj_tabs j) ->
    lw_calls t = lj_calls j /\ lholds O pr sk k m (lw_ev t) (lw_cts t) (lw_tabs t) (lj_vals xs fs (E + 1) j)).
  { intros t j Ht Hj (C1 & -> & ->). split; [exact C1|]. rewrite Forall_forall in J1. destruct (J1 j Hj) as (D1 & D2 & D3). rewrite Forall_forall in D2, D3.
    assert (ZL: forall (A B : Type) (f : A -> B) l, zlen (map f l) = zlen l) by (intros; unfold zlen; rewrite map_length; reflexivity).
    assert (ZN: forall (f : Z -> Z) l i, 0 <= i < zlen l -> zn (map f l) i = f (zn l i)).
    { intros f l i Hi. unfold zn, znd. rewrite (nth_indep _ 0 (f 0)) by (rewrite map_length; unfold zlen in Hi; lia). apply map_nth. }
    split.
    - split; [rewrite !ZL; reflexivity|]. split; [rewrite !ZL; reflexivity|]. split.
      + clear - D1 D2 ND Lw. assert (Q: forall p q, In p (lj_cts j) -> In q (lj_cts j) -> wk p = wk q -> p = q).
        { intros p q Hp Hq E. apply (nodup_zn w); [exact ND|rewrite Lw in *; try apply D2; try assumption..|exact E]. }
        clear D2. induction (lj_cts j) as [|a l IH]; [constructor|]. inversion D1; subst. cbn [map]. constructor.
        * intro Hi. apply in_map_iff in Hi. destruct Hi as (q & Eq & Hq). apply Q in Eq; [subst; contradiction|right; exact Hq|left; reflexivity].
        * apply IH; [assumption|]. intros p q Hp Hq. apply Q; right; assumption.
      + intros i Hi. rewrite ZL in Hi. rewrite !ZN by exact Hi. assert (Ip: In (zn (lj_cts j) i) (lj_cts j)) by (eapply get_in; apply (get_ok 0); exact Hi).
        pose proof (D2 _ Ip) as Rp. destruct (GW _ Rp) as (_ & _ & En). assert (Iw: inn (wk (zn (lj_cts j) i))) by (left; exists (zn (lj_cts j) i); auto).
        split; [apply U; assumption|]. split.
        * rewrite Forall_forall in Hx. assert (Iz: In (zn xs (zn (lj_cts j) i)) xs) by (eapply get_in; apply (get_ok 0); exact Rp). pose proof (Hx _ Iz). lia.
        * destruct (A4 _ Iw) as [_ ->]. exact En.
    - unfold ltables. assert (NI: forall p, 0 <= p < zlen fs -> forall x, in_table x (tk p) -> ~ In x (map wk (lj_cts j))).
      { intros p Rp x Dx Hi. apply in_map_iff in Hi. destruct Hi as (q & <- & Hq). destruct (GT p Rp) as (_ & N1 & N2). destruct (GW _ (D2 _ Hq)) as (_ & X & _). destruct Dx as [Dx|Dx]; rewrite Dx in X; contradiction. }
      revert D3. generalize (lj_tabs j) as l. induction l as [|p l IH]; intro D3; [constructor|]. cbn [map]. constructor; [|apply IH; intros; apply D3; right; assumption].
      pose proof (D3 p (or_introl eq_refl)) as Rp. destruct (GT p Rp) as [(tv & Gt & T1 & T2 & T3 & T4 & T5) _].
      assert (I1: inn (rA (tk p))) by (right; exists p; split; [exact Rp|left; reflexivity]). assert (I2: inn (rB (tk p))) by (right; exists p; split; [exact Rp|right; reflexivity]).
      split; [exists tv; split; [exact Gt|]|split; apply (NI p Rp); [left|right]; reflexivity].
      split; [destruct (A4 _ I1) as [_ ->]; exact T1|]. split; [destruct (A4 _ I2) as [_ ->]; exact T2|]. split; [apply U; assumption|]. split; [apply U; assumption|exact T5]. }
  clear - A3 A5. induction A3 as [|t j ts js X A3 IH]; constructor; [apply A5; [left; reflexivity|left; reflexivity|exact X]|].
  apply IH. intros; apply A5; try (right; assumption); assumption.
Qed.
End Start.

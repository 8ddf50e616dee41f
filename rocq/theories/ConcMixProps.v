(** * Goroutines that mix gates and programmable bootstraps *)
From Coq Require Import Lia ZifyBool Setoid Morphisms List.
From Verif Require Import GoBase GoFacts GoMem MemFacts F64 Utils UtilsFacts Params Key Tlwe TlweMem TlweFacts BasicFacts
  Poly PolyFacts NegFacts Laws Fft FftTabErr Trlwe TrlweFacts Trgsw TrgswFacts RotFacts KeySwitchFacts Lut Evaluator EvalFacts
  CloudKey CloudKeyFacts Gates LinFacts Spec RunSpec HeapFacts BootFacts Circuit GateFacts NoiseFacts RunProps RunWorst LutSpec LutProg LutProps LutProgProps MixProg MixProps
  Conc ConcLut ConcSpec ConcLutSpec ConcMixSpec ConcFacts ConcRel ConcOps ConcProps ConcLutFacts ConcLutProps.
Import ListNotations.
Local Open Scope Z_scope.
Ltac Zify.zify_post_hook ::= idtac.

(** ** Alone *)
Lemma run_mcall O pr ck e gk k i ws ts (m : mem (FP O)) : run (p_mcall O pr ck e gk k i ws ts) m = mexec1 O pr ck e gk k i ws ts m.
Proof.
  destruct i as [i|i]; cbn [p_mcall mexec1]; [|apply run_lcall]. rewrite run_bind, run_instr. apply bind_ext. intros [r m1]. reflexivity.
Qed.
Lemma run_mexec O pr ck e gk k p : forall ws ts (m : mem (FP O)), run (p_mexec O pr ck e gk k p ws ts) m = mexec O pr ck e gk k p ws ts m.
Proof.
  induction p as [|i p IH]; intros ws ts m; [reflexivity|]. cbn [p_mexec mexec]. rewrite run_bind, run_mcall. apply bind_ext. intros [[ws' ts'] m1]. cbn [fst snd]. apply IH.
Qed.

(** ** Inside its evaluator and targets *)
Section Stays.
Context (O : fops) (pr : pset) (Rd : rel) (Wf Wi : Z -> Prop) (e : evaluator) (Hs : shape e)
  (Hf : forall f, fown e f -> Wf f) (Hi : forall i, iown e i -> Wi i).
Notation prel := (@prel O Rd Wf Wi).
Notation acc := (acc Rd).
Definition msgs (p : list mcall) : list lcall := flat_map (fun i => match i with MMsg i => [i] | _ => [] end) p.
Lemma msgs_outputs p : outputs (msgs p) = moutputs p.
Proof. induction p as [|[i|i] p IH]; [reflexivity|exact IH|]. cbn [msgs flat_map moutputs]. cbn [app outputs flat_map]. f_equal. exact IH. Qed.

Lemma pr_mcall ck gk k i p W ws ws' ts ts' : owns e W -> held Rd (msgs (i :: p)) W ws ws' -> tabs Rd W ts ts' ->
  acc W (rA (gk_testvec gk)) (rA (gk_testvec gk)) -> acc W (rB (gk_testvec gk)) (rB (gk_testvec gk)) ->
  prel (QL Rd (msgs p)) W (p_mcall O pr ck e gk k i ws ts) (p_mcall O pr ck e gk k i ws' ts').
Proof.
  intros Hw H Ht HA HB. destruct i as [i|i]; cbn [p_mcall].
  - eapply prel_bind; [eapply pr_instr; try eassumption; exact (proj1 H)|]. intros W1 r r' S Hr. unfold Qnew in Hr. constructor. split; cbn [fst snd].
    + apply (held_snoc Rd Wf Wi e Hf Hi (LNeg 0)); [|exact Hr]. eapply held_sub; [exact S|]. exact H.
    + eapply tabs_sub; eassumption.
  - apply (pr_lcall O pr Rd Wf Wi e Hs Hf Hi ck k i (msgs p)); assumption.
Qed.
Lemma pr_mexec ck gk k p : forall W ws ws' ts ts', owns e W -> held Rd (msgs p) W ws ws' -> tabs Rd W ts ts' ->
  acc W (rA (gk_testvec gk)) (rA (gk_testvec gk)) -> acc W (rB (gk_testvec gk)) (rB (gk_testvec gk)) ->
  prel (QL Rd []) W (p_mexec O pr ck e gk k p ws ts) (p_mexec O pr ck e gk k p ws' ts').
Proof.
  induction p as [|i p IH]; intros W ws ws' ts ts' Hw H Ht HA HB; cbn [p_mexec]; [constructor; split; assumption|].
  eapply prel_bind; [apply pr_mcall; eassumption|]. intros W1 r r' S [H1 H2]. apply IH; [eapply owns_sub; eassumption|exact H1|exact H2|eapply acc_sub; eassumption|eapply acc_sub; eassumption].
Qed.
End Stays.

Lemma mtarget_given {O} (gk : gkey O) t x : mtarget t x -> mgiven gk t x.
Proof. intros (o & _ & H). left. exact (get_in _ _ _ H). Qed.

Section Separate.
Context (R : arith) (O : fops) (pr : pset) (sk : SecretKey) (rk : Z -> enc_rand) (rb : Z -> Z -> trlwe_rand) (ck : CloudKey O)
  (S : setup R O pr sk rk rb ck) (gk : gkey O) (k : Z).
Notation M := (mem (FP O)).
Notation A := (list Z * list tref)%type.
Context (ts : list mworker) (m : M) (HS : @mseparate O pr gk ts m)
  (HA : Forall (fun t => exists r, malone pr ck gk k t m = Ok r) ts).

Let d0 : mworker := {| mw_ev := {| ev_pe := {| pe_deg := 0; pe_t := 0; pe_f := 0; pe_i := 0 |}; ev_dec := {| dc_t := 0; dc_f := 0; dc_levels := 0 |};
  ev_bp := {| bp_t := 0; bp_f := 0; bp_i := 0 |} |}; mw_calls := []; mw_cts := []; mw_tabs := [] |}.
Notation th := (znd d0 ts).
Let Rd (i : Z) : rel := fun x y => x = y /\ mgiven gk (th i) x.
Let W0 (i : Z) : rel := fun x y => x = y /\ (own (mw_ev (th i)) x \/ mtarget (th i) x).
Let Wf (i : Z) := fown (mw_ev (th i)).
Let Wi (i : Z) := iown (mw_ev (th i)).
Let sol (i : Z) : A * M := match malone pr ck gk k (th i) m with Ok r => r | Panic _ => (([], []), m) end.
Let QW (i : Z) : rel -> A -> A -> Prop := QL (Rd i) [].
Lemma th_in i : 0 <= i < zlen ts -> In (th i) ts.
Proof. intro Hi. unfold znd. apply nth_In. unfold zlen in Hi. lia. Qed.
Lemma th_reach i : 0 <= i < zlen ts -> reachable O pr (mw_ev (th i)) m.
Proof. intro Hi. destruct HS as [H _]. rewrite Forall_forall in H. apply H, th_in, Hi. Qed.
Lemma th_given i x : 0 <= i < zlen ts -> mgiven gk (th i) x -> moutside ts m x.
Proof. intros Hi Hx. destruct HS as (_ & _ & H). rewrite Forall_forall in H. apply (H _ (th_in i Hi)), Hx. Qed.
Lemma th_apart i j : 0 <= i < zlen ts -> 0 <= j < zlen ts -> i <> j -> mapart gk (th i) (th j).
Proof.
  intros Hi Hj Hn. destruct HS as (_ & H & _). destruct (Z_lt_dec i j).
  - apply (ordpairs_znd _ d0 ts H); lia.
  - destruct (ordpairs_znd _ d0 ts H j i ltac:(lia) ltac:(lia) ltac:(lia)) as [X Y]. split.
    + intro x. specialize (X x). tauto.
    + intro x. specialize (Y x). tauto.
Qed.
Lemma th_sol i : 0 <= i < zlen ts -> malone pr ck gk k (th i) m = Ok (sol i).
Proof. intro Hi. rewrite Forall_forall in HA. destruct (HA _ (th_in i Hi)) as (r & E). unfold sol. rewrite E. reflexivity. Qed.
Lemma th_get i t : get ts i = Ok t -> 0 <= i < zlen ts /\ t = th i.
Proof. apply get_inv. Qed.
Lemma th_own i x : 0 <= i < zlen ts -> own (mw_ev (th i)) x -> 0 <= x < tnext m.
Proof.
  intros Hi Hx. pose proof (th_reach i Hi) as Hr. pose proof S as S'. open_setup S'. destruct (reach_ok L pr W HBG _ _ Hr) as [He _]. destruct He. unfold own in Hx. lia.
Qed.
Lemma th_shape i : 0 <= i < zlen ts -> shape (mw_ev (th i)).
Proof.
  intros Hi. pose proof (th_reach i Hi) as Hr. pose proof S as S'. open_setup S'. destruct (reach_ok L pr W HBG _ _ Hr) as [He _]. destruct He.
  pose proof (pw_l _ _ W). constructor; lia.
Qed.

Lemma start : inv (zlen ts) Rd Wf Wi W0 m QW sol (map (mwork pr ck gk k) ts) m W0 (fun i => cost (mwork pr ck gk k (th i)) m).
Proof.
  constructor.
  - unfold zlen. rewrite map_length. reflexivity.
  - intros i Hi. exists (mwork pr ck gk k (th i)), m.
    assert (E: znd (Fail PNil) (map (mwork pr ck gk k) ts) i = mwork pr ck gk k (th i)).
    { unfold znd. rewrite (nth_indep _ (Fail PNil) (mwork pr ck gk k d0)) by (rewrite map_length; unfold zlen in Hi; lia). apply map_nth. }
    rewrite E. split; [|split; [|split; [|reflexivity]]].
    + unfold mwork, QW. apply pr_mexec.
      * exact (th_shape i Hi).
      * intros f Hf. exact Hf.
      * intros f Hf. exact Hf.
      * intros x Hx. split; [reflexivity|left; exact Hx].
      * split.
        -- assert (G: forall x, In x (mw_cts (th i)) -> Rd i x x) by (intros x Hx; split; [reflexivity|left; exact Hx]).
           revert G. generalize (mw_cts (th i)). intro l. induction l as [|x l IH]; intro G; constructor; [left; apply G; left; reflexivity|apply IH; intros y Hy; apply G; right; exact Hy].
        -- intros o a a' Ho H1 H2. rewrite H1 in H2. injection H2 as <-. split; [reflexivity|]. right. exists o. rewrite msgs_outputs in Ho. split; assumption.
      * assert (G: forall t, In t (mw_tabs (th i)) -> tacc (Rd i) (W0 i) t t).
        { intros t Ht. split; left; (split; [reflexivity|]); right; left; apply Exists_exists; exists t; (split; [exact Ht|]); [left|right]; reflexivity. }
        unfold tabs. revert G. generalize (mw_tabs (th i)). intro l. induction l as [|x l IH]; intro G; constructor; [apply G; left; reflexivity|apply IH; intros y Hy; apply G; right; exact Hy].
      * left. split; [reflexivity|]. right. right. left. reflexivity.
      * left. split; [reflexivity|]. right. right. right. reflexivity.
    + constructor; try reflexivity; try lia.
      * intros x y x' y' [[<- _]|[<- _]] [[<- _]|[<- _]]; tauto.
      * intros x y [[<- H]|[<- [H|H]]]; [destruct (th_given i x Hi H)|pose proof (th_own i x Hi H)|destruct (th_given i x Hi (mtarget_given gk _ _ H))]; lia.
      * intros x y [[<- H]|[<- H]]; reflexivity.
    + unfold mwork. rewrite run_mexec. exact (th_sol i Hi).
  - intros i j x x' y Hi Hj Hn [<- H1] H2. destruct (th_apart i j Hi Hj Hn) as [AP TG]. specialize (AP x). specialize (TG x).
    assert (H2': x' = x /\ (mgiven gk (th j) x \/ own (mw_ev (th j)) x)).
    { destruct H2 as [[-> H2]|[-> [H2|H2]]]; split; auto. left. apply mtarget_given. exact H2. }
    destruct H2' as [-> H3]. destruct H1 as [H1|H1], H3 as [H3|H3].
    + destruct (th_given j x Hj H3) as [_ G]. exact (G _ (th_in i Hi) H1).
    + destruct AP as (AP & _ & _). apply AP. split; assumption.
    + apply (proj1 TG). split; assumption.
    + destruct (th_given i x Hi (mtarget_given gk _ _ H1)) as [_ G]. exact (G _ (th_in j Hj) H3).
  - intros i Hi. apply sub_refl.
  - intros i x y Hi H. left. exact H.
  - reflexivity.
  - reflexivity.
  - reflexivity.
  - lia.
Qed.

Lemma HWf0 i j f : 0 <= i < zlen ts -> 0 <= j < zlen ts -> i <> j -> Wf i f -> Wf j f -> False.
Proof. intros Hi Hj Hn H1 H2. destruct (th_apart i j Hi Hj Hn) as [AP _]. destruct (AP f) as (_ & X & _). apply X. split; assumption. Qed.
Lemma HWi0 i j f : 0 <= i < zlen ts -> 0 <= j < zlen ts -> i <> j -> Wi i f -> Wi j f -> False.
Proof. intros Hi Hj Hn H1 H2. destruct (th_apart i j Hi Hj Hn) as [AP _]. destruct (AP f) as (_ & _ & X). apply X. split; assumption. Qed.
Lemma in_th t : In t ts -> exists i, 0 <= i < zlen ts /\ t = th i.
Proof. intro H. apply In_nth with (d := d0) in H. destruct H as (i & Hi & <-). exists (Z.of_nat i). unfold zlen, znd. rewrite Nat2Z.id. split; [lia|reflexivity]. Qed.

(** the buffers of the run alone and of this run correspond *)
Definition matched (t : mworker) (mt m' : M) (r : rel) : Prop :=
  (forall x y x' y', r x y -> r x' y' -> (x = x' <-> y = y')) /\
  (forall x y, r x y -> tm m' y = tm mt x /\ (user mt (mw_ev t) x -> moutside ts m' y)).

Lemma mx_core sched r : together (map (mwork pr ck gk k) ts) m sched = Some r ->
  exists ls m', r = Ok (ls, m') /\ zlen ls = zlen ts /\
    (forall i t, get ts i = Ok t -> exists l w mt c, get ls i = Ok l /\ malone pr ck gk k t m = Ok (w, mt) /\ matched t mt m' c /\ (forall x, mgiven gk t x -> c x x) /\
       Forall2 c (fst w) (fst l) /\ Forall2 (fun a b => c (rA a) (rA b) /\ c (rB a) (rB b)) (snd w) (snd l) /\
       (reachable O pr (mw_ev t) mt -> reachable O pr (mw_ev t) m')) /\
    (forall x, moutside ts m x -> moutside ts m' x /\ ((forall t, In t ts -> ~ mtarget t x) -> tm m' x = tm m x)).
Proof.
  intro E. destruct (inv_together _ _ _ _ _ _ _ _ HWf0 HWi0 sched _ _ _ r start E) as (ls & m' & W' & -> & Zl & [c' IV] & H).
  exists ls, m'. split; [reflexivity|]. split; [exact Zl|]. pose proof (iv_n _ _ _ _ _ _ _ _ _ _ _ _ IV) as (N1 & N2 & N3). split.
  - intros i t Ht. apply th_get in Ht. destruct Ht as [Hi ->]. destruct (H i ([], []) Hi) as [HQ HW]. pose proof (th_sol i Hi) as Es. destruct (sol i) as [w mt] eqn:Esol. cbn [fst snd] in HQ, HW.
    exists (znd ([], []) ls i), w, mt, (acc (Rd i) (W' i)). split; [apply get_ok; lia|]. split; [exact Es|].
    pose proof (iv_W0 _ _ _ _ _ _ _ _ _ _ _ _ IV) as IW0. pose proof (iv_W _ _ _ _ _ _ _ _ _ _ _ _ IV i Hi) as IW.
    destruct HW as [B1 B2 B3 B4 B5 B6]. destruct HQ as [[HQ _] HT]. split; [|split; [intros x Hx; left; split; [reflexivity|exact Hx]|split; [exact HQ|split; [exact HT|]]]].
    + split; [exact B1|]. intros x y Hxy. split; [symmetry; apply B3, Hxy|]. intros [_ Hu]. destruct Hxy as [[<- Hg]|Hxy].
      * destruct (th_given i x Hi Hg) as [G1 G2]. split; [lia|exact G2].
      * pose proof (B2 x y (or_intror Hxy)) as [L1 L2]. destruct (IW0 i x y Hi Hxy) as [[<- [Ho|Ho]]|Ho]; [contradiction| |].
        -- destruct (th_given i x Hi (mtarget_given gk _ _ Ho)) as [G1 G2]. split; [lia|exact G2].
        -- assert (P0: 0 <= tnext m). { pose proof (th_reach i Hi) as Hr. pose proof S as S'. open_setup S'. destruct (reach_ok L pr W HBG _ _ Hr) as [_ [P0 _]]. exact P0. }
           split; [lia|]. intros t Ht Hot. apply in_th in Ht. destruct Ht as (j & Hj & ->). pose proof (th_own j y Hj Hot). lia.
    + intro Hr. pose proof S as S'. open_setup S'. eapply (reach_other L pr W HBG); [exact Hr| | | |lia|lia|lia].
      * intros x Hx. symmetry. apply B3. right. apply IW. split; [reflexivity|left; exact Hx].
      * intros f Hf. symmetry. apply B4. exact Hf.
      * intros f Hf. symmetry. apply B5. exact Hf.
  - intros x [Hx Ho]. split; [split; [lia|exact Ho]|]. intro HT. apply (iv_t _ _ _ _ _ _ _ _ _ _ _ _ IV); [lia|]. intros i z Hi [-> [Hz|Hz]]; [exact (Ho _ (th_in i Hi) Hz)|exact (HT _ (th_in i Hi) Hz)].
Qed.

Lemma mx_ends sched : mturns pr ck gk k ts m sched -> exists r, together (map (mwork pr ck gk k) ts) m sched = Some r.
Proof.
  intros [T1 T2]. refine (inv_ends _ _ _ _ _ _ _ _ HWf0 HWi0 sched _ _ _ start T1 _). intros i Hi. apply T2. apply get_ok. exact Hi.
Qed.

Lemma mx_same sched r : together (map (mwork pr ck gk k) ts) m sched = Some r ->
  exists ls m', r = Ok (ls, m') /\
    Forall2 (fun t l => exists w mt, malone pr ck gk k t m = Ok (w, mt) /\ contents m' l = contents mt w) ts ls /\
    (forall x, moutside ts m x -> (forall t, In t ts -> ~ mtarget t x) -> tm m' x = tm m x).
Proof.
  intro E. destruct (mx_core sched r E) as (ls & m' & -> & Zl & H & K). exists ls, m'. split; [reflexivity|]. split; [|intros x Hx HT; apply (K x Hx); exact HT].
  apply forall2_get; [exact Zl|]. intros i t Ht. destruct (H i t Ht) as (l & w & mt & c & El & Ea & [_ MV] & _ & F1 & F2 & _). exists l. split; [exact El|]. exists w, mt. split; [exact Ea|].
  unfold contents. f_equal.
  - clear - F1 MV. induction F1 as [|x y a b Hxy F IH]; [reflexivity|]. cbn [map]. rewrite IH. f_equal. apply MV, Hxy.
  - clear - F2 MV. induction F2 as [|x y a b [HA HB] F IH]; [reflexivity|]. cbn [map]. rewrite IH, (proj1 (MV _ _ HA)), (proj1 (MV _ _ HB)). reflexivity.
Qed.
End Separate.

Lemma mturns_exist {O} pr (ck : CloudKey O) gk k (ts : list mworker) (m : mem (FP O)) : exists sched, mturns pr ck gk k ts m sched.
Proof.
  set (c := fun t : mworker => cost (mwork pr ck gk k t) m).
  assert (G: forall l j, exists sched, (forall i, In i sched -> j <= i < j + zlen l) /\ forall i t, get l (i - j) = Ok t -> Z.of_nat (count_occ Z.eq_dec sched i) = c t).
  { induction l as [|t l IH]; intro j.
    - exists []. split; [intros i []|]. intros i t Ht. destruct (get_nil _ _ Ht).
    - destruct (IH (j + 1)) as (s & H1 & H2). exists (repeat j (Z.to_nat (c t)) ++ s). assert (Zl: zlen (t :: l) = zlen l + 1) by (unfold zlen; cbn [length]; lia). pose proof (zlen_nonneg l). split.
      + intros i Hi. apply in_app_or in Hi. destruct Hi as [Hi|Hi]; [apply repeat_spec in Hi|apply H1 in Hi]; lia.
      + intros i u Hu. rewrite count_occ_app. destruct (get_cons _ _ _ _ Hu) as [[Hi <-]|Hi].
        * assert (i = j) by lia. subst i. rewrite count_occ_repeat_eq by reflexivity. rewrite (proj1 (count_occ_not_In Z.eq_dec s j)) by (intro Hj; apply H1 in Hj; lia).
          assert (0 <= c t) by apply cost_nonneg. lia.
        * pose proof (get_inv u _ _ _ Hi) as [Hj _]. rewrite count_occ_repeat_neq by lia. cbn [Nat.add]. apply H2. replace (i - (j + 1)) with (i - j - 1) by lia. exact Hi. }
  destruct (G ts 0) as (s & H1 & H2). exists s. split; [exact H1|]. intros i t Ht. apply H2. rewrite Z.sub_0_r. exact Ht.
Qed.

Section Truth.
Context (R : arith) (O : fops) (pr : pset) (sk : SecretKey) (rk : Z -> enc_rand) (rb : Z -> Z -> trlwe_rand) (ck : CloudKey O)
  (S : setup R O pr sk rk rb ck) (gk : gkey O) (k : Z) (Hk : 2 <= k < g_NBIT pr).
Notation Rd := (round_err pr sk).
Notation M := (mem (FP O)).

Lemma transfer (ts : list mworker) t (mt m' : M) c ws ws' tb tb' v : In t ts -> matched O ts t mt m' c -> Forall2 c ws ws' ->
  Forall2 (fun a b => c (rA a) (rA b) /\ c (rB a) (rB b)) tb tb' ->
  lholds O pr sk k mt (mw_ev t) ws tb v -> lholds O pr sk k m' (mw_ev t) ws' tb' v /\ forall x, In x ws' -> moutside ts m' x.
Proof.
  intros Ht [Bj MV] F1 F2 H. destruct v as [[xs fs] es]. destruct H as [(L1 & L2 & ND & HW) HT].
  assert (U: forall x y, c x y -> user mt (mw_ev t) x -> moutside ts m' y /\ user m' (mw_ev t) y).
  { intros x y Hxy Hu. destruct (proj2 (MV x y Hxy) Hu) as [A B]. split; [split; assumption|]. split; [exact A|apply B; exact Ht]. }
  pose proof (forall2_zlen _ _ _ F1) as Lw.
  assert (GW: forall i, 0 <= i < zlen ws' -> c (zn ws i) (zn ws' i)).
  { intros i Hi. assert (G: get ws' i = Ok (zn ws' i)) by (apply (get_ok 0); exact Hi). destruct (get_ok_forall2 _ _ _ _ _ F1 G) as (a & Ga & Ca).
    apply (get_inv 0) in Ga. destruct Ga as [_ ->]. exact Ca. }
  split; [split|].
  - split; [lia|]. split; [lia|]. split.
    + clear - F1 ND Bj. induction F1 as [|x y a b Hxy F IH]; [constructor|]. inversion ND as [|? ? N1 N2]; subst. constructor; [|apply IH; exact N2].
      intro Hy. apply N1. clear - F Hy Bj Hxy. induction F as [|u v a b Huv F IH]; [destruct Hy|]. destruct Hy as [->|Hy]; [left; apply (Bj u y x y Huv Hxy); reflexivity|right; apply IH, Hy].
    + intros i Hi. rewrite <- Lw in Hi. destruct (HW i Hi) as (U1 & U2 & U3). pose proof (GW i ltac:(lia)) as Ci. split; [apply (U _ _ Ci U1)|]. split; [exact U2|].
      rewrite (proj1 (MV _ _ Ci)). exact U3.
  - unfold ltables in *. revert fs HT. induction F2 as [|a b tb tb' [CA CB] F2 IH]; intros fs HT; inversion HT as [|? f ? fs' [(tv & G & TB) [N1 N2]] HT']; subst; constructor; [|apply IH; exact HT'].
    destruct TB as (T1 & T2 & T3 & T4 & T5). split; [|split].
    + exists tv. split; [exact G|]. split; [rewrite (proj1 (MV _ _ CA)); exact T1|]. split; [rewrite (proj1 (MV _ _ CB)); exact T2|].
      split; [apply (U _ _ CA T3)|]. split; [apply (U _ _ CB T4)|exact T5].
    + intro Hin. apply N1. clear - F1 Hin CA Bj. induction F1 as [|u v p q Huv F IH]; [destruct Hin|]. destruct Hin as [->|Hin]; [left; apply (Bj _ _ _ _ Huv CA); reflexivity|right; apply IH, Hin].
    + intro Hin. apply N2. clear - F1 Hin CB Bj. induction F1 as [|u v p q Huv F IH]; [destruct Hin|]. destruct Hin as [->|Hin]; [left; apply (Bj _ _ _ _ Huv CB); reflexivity|right; apply IH, Hin].
  - intros y Hy. apply In_nth with (d := 0) in Hy. destruct Hy as (i & Hi & <-).
    assert (Hz: 0 <= Z.of_nat i < zlen ws') by (unfold zlen; lia). pose proof (GW _ Hz) as Ci. unfold zn, znd in Ci. rewrite Nat2Z.id in Ci.
    apply (U _ _ Ci). destruct (HW (Z.of_nat i) ltac:(lia)) as (U1 & _). unfold zn, znd in U1. rewrite Nat2Z.id in U1. exact U1.
Qed.

Lemma mholds_decrypts (m : M) e ws tb v : mholds O pr sk ck gk k m e ws tb v -> mdecrypts O pr sk k m ws v.
Proof.
  destruct v as [[xs fs] es]. intros [[HW HT] _]. split.
  - exact (holds_decrypts R O pr sk rk rb ck S k ltac:(lia) m e ws tb (xs, fs, es) (conj HW HT)).
  - intros i r b E Gr Gx Ge HE. exact (wires_bool R O pr sk rk rb ck S e k Hk m ws xs es i r b E HW Gr Gx Ge HE).
Qed.

(** from what each goroutine does alone *)
Lemma mx_truth T (ts : list mworker) (vs : list lvals) (m : M) sched r : @mseparate O pr gk ts m ->
  Forall2 (fun t v => mholds O pr sk ck gk k m (mw_ev t) (mw_cts t) (mw_tabs t) v /\
    exists v' w mt, mmeans k T Rd (mw_calls t) v = Ok v' /\ malone pr ck gk k t m = Ok (w, mt) /\
    mholds O pr sk ck gk k mt (mw_ev t) (fst w) (snd w) v' /\ reachable O pr (mw_ev t) mt) ts vs ->
  together (map (mwork pr ck gk k) ts) m sched = Some r ->
  exists ls m', r = Ok (ls, m') /\ zlen ls = zlen ts /\
    (forall i t v v', get ts i = Ok t -> get vs i = Ok v -> mmeans k T Rd (mw_calls t) v = Ok v' -> exists l, get ls i = Ok l /\
       mholds O pr sk ck gk k m' (mw_ev t) (fst l) (snd l) v' /\ mdecrypts O pr sk k m' (fst l) v' /\ forall x, In x (fst l) -> moutside ts m' x) /\
    @mseparate O pr gk ts m' /\
    (forall x, moutside ts m x -> moutside ts m' x /\ ((forall t, In t ts -> ~ mtarget t x) -> tm m' x = tm m x)).
Proof.
  intros HS HV E0.
  assert (HA: Forall (fun t => exists r, malone pr ck gk k t m = Ok r) ts).
  { clear - HV. induction HV as [|t v ts vs (_ & v' & w & mt & _ & X & _) HV IH]; constructor; [exists (w, mt); exact X|exact IH]. }
  assert (NT: forall x t, In t ts -> in_table x (gk_testvec gk) -> ~ mtarget t x).
  { intros x t Ht Hx (o & _ & Go). destruct (Forall2_in_l _ _ _ HV _ Ht) as (v & (_ & _ & N) & _). apply (N x Hx). exact (get_in _ _ _ Go). }
  destruct (mx_core R O pr sk rk rb ck S gk k ts m HS HA sched r E0) as (ls & m' & -> & Zl & H & K). exists ls, m'. split; [reflexivity|]. split; [exact Zl|].
  split; [|split; [|exact K]].
  - intros i t v v' Ht Hv Hm. destruct (get_forall2 _ _ _ HV _ _ Ht) as (v2 & Hv2 & (_ & KA & _) & v2' & w & mt & X1 & X2 & (X3 & _ & X3') & X4). rewrite Hv in Hv2. injection Hv2 as <-.
    rewrite Hm in X1. injection X1 as <-. destruct (H i t Ht) as (l & w2 & mt2 & c & Y1 & Y2 & Y3 & Y3' & Y4 & Y5 & _). rewrite X2 in Y2. injection Y2 as <- <-. exists l. split; [exact Y1|].
    pose proof (get_in _ _ _ Ht) as It.
    destruct (transfer ts t mt m' c _ _ _ _ v' It Y3 Y4 Y5 X3) as [Z1 Z2].
    assert (TV: forall x, in_table x (gk_testvec gk) -> user m' (mw_ev t) x /\ tm m' x = tm m x).
    { intros x Hx. destruct HS as (_ & _ & HS3). rewrite Forall_forall in HS3. destruct (K x (HS3 t It x (or_intror (or_intror Hx)))) as [[Q1 Q2] Q3].
      split; [split; [exact Q1|exact (Q2 t It)]|]. apply Q3. intros u Hu. exact (NT x u Hu Hx). }
    assert (MH: mholds O pr sk ck gk k m' (mw_ev t) (fst l) (snd l) v').
    { split; [exact Z1|]. split.
      - destruct KA as (A1 & A2 & A3 & A4 & A5 & A6 & A7). destruct (TV _ (or_introl eq_refl)) as [U1 V1]. destruct (TV _ (or_intror eq_refl)) as [U2 V2].
        repeat split; try assumption; try (rewrite V1; assumption); try (rewrite V2; assumption); first [apply U1|apply U2].
      - intros x Hx Hin. apply (X3' x Hx). pose proof (Y3' x (or_intror (or_intror Hx))) as Cx. destruct Y3 as [Bj _]. clear - Y4 Hin Cx Bj.
        induction Y4 as [|a b p q Hab F IH]; [destruct Hin|]. destruct Hin as [->|Hin]; [left; apply (Bj _ _ _ _ Hab Cx); reflexivity|right; apply IH, Hin]. }
    split; [exact MH|]. split; [eapply mholds_decrypts; exact MH|exact Z2].
  - destruct HS as (_ & HS2 & HS3). split; [|split; [exact HS2|]].
    2:{ rewrite Forall_forall in *. intros t Ht x Hx. apply K. exact (HS3 t Ht x Hx). }
    rewrite Forall_forall. intros t Ht. apply In_nth with (d := t) in Ht. destruct Ht as (i & Hi & Et).
    assert (Gt: get ts (Z.of_nat i) = Ok t) by (rewrite (get_ok t) by (unfold zlen; lia); unfold znd; rewrite Nat2Z.id, Et; reflexivity).
    destruct (get_forall2 _ _ _ HV _ _ Gt) as (v & _ & _ & v' & w & mt & _ & X2 & _ & X4). destruct (H _ _ Gt) as (l & w2 & mt2 & c & _ & Y2 & _ & _ & _ & _ & Y6).
    rewrite X2 in Y2. injection Y2 as <- <-. apply Y6, X4.
Qed.

Lemma mmeans_inv T p xs fs es v' : mmeans k T Rd p (xs, fs, es) = Ok v' -> exists xs' fs' es', v' = (xs', fs', es') /\ mplain k p xs fs = Ok (xs', fs') /\ mnoise k T Rd p es = Ok es'.
Proof.
  unfold mmeans. destruct (mplain k p xs fs) as [[xs' fs']|]; [|discriminate]. cbn [bind fst snd]. destruct (mnoise k T Rd p es) as [es'|]; [|discriminate]. cbn [bind].
  intro H. injection H as <-. exists xs', fs', es'. auto.
Qed.

(** the end of a program is the start of another *)
Lemma mholds_end (m m' : M) e ws nw ts ts' v xs' fs' es' : mholds O pr sk ck gk k m e ws ts v -> (forall x, In x nw -> ~ user m e x) ->
  lwires O pr e k sk m' (ws ++ nw) xs' es' -> ltables O pr e k m' (ws ++ nw) ts' fs' -> key_at O m' e gk ck ->
  mholds O pr sk ck gk k m' e (ws ++ nw) ts' (xs', fs', es').
Proof.
  intros (_ & (_ & _ & _ & _ & _ & U1 & U2) & N) Hn Hw Ht Hk'. split; [split; assumption|]. split; [exact Hk'|]. intros x Hx Hin. apply in_app_or in Hin.
  destruct Hin as [Hin|Hin]; [exact (N x Hx Hin)|]. apply (Hn x Hin). destruct Hx as [-> | ->]; assumption.
Qed.

Lemma mx_messages T (ts : list mworker) (vs : list lvals) (m : M) sched r : @mseparate O pr gk ts m ->
  Forall2 (fun t v => mholds O pr sk ck gk k m (mw_ev t) (mw_cts t) (mw_tabs t) v /\ (exists v', mmeans k T Rd (mw_calls t) v = Ok v') /\
    forall f c, mboots O pr ck (mw_ev t) gk k (mw_calls t) (mw_cts t) (mw_tabs t) (snd (fst v)) m f c -> zlen c = lv0_N pr + 1 ->
      mix_noise O pr ck k sk f c T) ts vs ->
  together (map (mwork pr ck gk k) ts) m sched = Some r ->
  exists ls m', r = Ok (ls, m') /\ zlen ls = zlen ts /\
    (forall i t v v', get ts i = Ok t -> get vs i = Ok v -> mmeans k T Rd (mw_calls t) v = Ok v' -> exists l, get ls i = Ok l /\
       mholds O pr sk ck gk k m' (mw_ev t) (fst l) (snd l) v' /\ mdecrypts O pr sk k m' (fst l) v' /\ forall x, In x (fst l) -> moutside ts m' x) /\
    @mseparate O pr gk ts m' /\
    (forall x, moutside ts m x -> moutside ts m' x /\ ((forall t, In t ts -> ~ mtarget t x) -> tm m' x = tm m x)).
Proof.
  intros HS HV. apply (mx_truth T ts vs); [exact HS|]. destruct HS as [HR _]. clear - HV HR S Hk.
  induction HV as [|t v ts vs (Hh & [v' Hm] & Hn) HV IH]; constructor; inversion HR; subst; [|apply IH; assumption].
  split; [exact Hh|]. destruct v as [[xs fs] es]. pose proof Hh as ([Hw Ht] & Hg & N). destruct (mmeans_inv _ _ _ _ _ _ Hm) as (xs' & fs' & es' & -> & Hp & Hl).
  destruct (mp_program R O pr sk rk rb ck (mw_ev t) gk k T (mw_calls t) m (mw_cts t) (mw_tabs t) xs fs es xs' fs' es' S Hk ltac:(assumption) Hg
    (N _ (or_introl eq_refl)) (N _ (or_intror eq_refl)) Hw Ht Hp Hl Hn) as (nw & ts' & m' & E & W1 & T1 & _ & _ & _ & Q1 & R1 & K1).
  exists (xs', fs', es'), (mw_cts t ++ nw, ts'), m'. split; [exact Hm|]. split; [exact E|]. split; [|exact R1]. cbn [fst snd]. eapply mholds_end; eassumption.
Qed.
End Truth.

Section Worst.
Context (mc : machine) (O : fops) (pr : pset) (sk : SecretKey) (rk : Z -> enc_rand) (rb : Z -> Z -> trlwe_rand) (ck : CloudKey O)
  (Hcis : mc_ok mc) (S : setup (f64_arith mc) O pr sk rk rb ck) (Bb Bk d d' : Z)
  (Hfft : fft_error_within pr d d') (Hnoise : key_noise_within pr rk rb Bb Bk) (HBb : 0 <= Bb) (HBk : 0 <= Bk) (Hd' : 0 <= d') (gk : gkey O) (k : Z) (Hk : 2 <= k < g_NBIT pr).
Notation M := (mem (FP O)).
Notation T := (worst_noise pr sk Bb Bk d d').
Notation Rd := (round_err pr sk).

Lemma mx_float64_alone (ts : list mworker) (vs : list lvals) (m : M) : @mseparate O pr gk ts m ->
  Forall2 (fun t v => mholds O pr sk ck gk k m (mw_ev t) (mw_cts t) (mw_tabs t) v /\ exists v', mmeans k T Rd (mw_calls t) v = Ok v') ts vs ->
  Forall2 (fun t v => mholds O pr sk ck gk k m (mw_ev t) (mw_cts t) (mw_tabs t) v /\
    exists v' w mt, mmeans k T Rd (mw_calls t) v = Ok v' /\ malone pr ck gk k t m = Ok (w, mt) /\
    mholds O pr sk ck gk k mt (mw_ev t) (fst w) (snd w) v' /\ reachable O pr (mw_ev t) mt) ts vs.
Proof.
  intros [HR _] HV. induction HV as [|t v ts vs (Hh & [v' Hm]) HV IH]; constructor; inversion HR; subst; [|apply IH; assumption].
  split; [exact Hh|]. destruct v as [[xs fs] es]. pose proof Hh as ([Hw Ht] & Hg & N). destruct (mmeans_inv pr sk k _ _ _ _ _ _ Hm) as (xs' & fs' & es' & -> & Hp & Hl).
  destruct (mp_float64 mc O pr sk rk rb ck Bb Bk d d' (mw_ev t) gk k (mw_calls t) m (mw_cts t) (mw_tabs t) xs fs es xs' fs' es' Hcis S Hfft Hnoise HBb HBk Hd' Hk ltac:(assumption) Hg
    (N _ (or_introl eq_refl)) (N _ (or_intror eq_refl)) Hw Ht Hp Hl) as (nw & ts' & m' & E & W1 & T1 & _ & _ & _ & Q1 & R1 & K1).
  exists (xs', fs', es'), (mw_cts t ++ nw, ts'), m'. split; [exact Hm|]. split; [exact E|]. split; [|exact R1]. cbn [fst snd]. eapply mholds_end; eassumption.
Qed.

Lemma mx_float64 (ts : list mworker) (vs : list lvals) (m : M) sched r : @mseparate O pr gk ts m ->
  Forall2 (fun t v => mholds O pr sk ck gk k m (mw_ev t) (mw_cts t) (mw_tabs t) v /\ exists v', mmeans k T Rd (mw_calls t) v = Ok v') ts vs ->
  together (map (mwork pr ck gk k) ts) m sched = Some r ->
  exists ls m', r = Ok (ls, m') /\ zlen ls = zlen ts /\
    (forall i t v v', get ts i = Ok t -> get vs i = Ok v -> mmeans k T Rd (mw_calls t) v = Ok v' -> exists l, get ls i = Ok l /\
       mholds O pr sk ck gk k m' (mw_ev t) (fst l) (snd l) v' /\ mdecrypts O pr sk k m' (fst l) v' /\ forall x, In x (fst l) -> moutside ts m' x) /\
    @mseparate O pr gk ts m' /\
    (forall x, moutside ts m x -> moutside ts m' x /\ ((forall t, In t ts -> ~ mtarget t x) -> tm m' x = tm m x)).
Proof. intros HS HV. apply (mx_truth _ O pr sk rk rb ck S gk k Hk T ts vs); [exact HS|]. apply mx_float64_alone; assumption. Qed.
End Worst.

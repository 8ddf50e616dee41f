(** * Goroutines that run programs over encrypted messages *)
From Coq Require Import Lia ZifyBool Setoid Morphisms List.
From Verif Require Import GoBase GoFacts GoMem MemFacts F64 Utils UtilsFacts Params Key Tlwe TlweMem TlweFacts BasicFacts
  Poly PolyFacts NegFacts Laws Fft FftTabErr Trlwe TrlweFacts Trgsw TrgswFacts RotFacts KeySwitchFacts Lut Evaluator EvalFacts
  CloudKey CloudKeyFacts Gates LinFacts Spec RunSpec HeapFacts BootFacts Circuit GateFacts NoiseFacts RunProps RunWorst LutSpec LutProg LutProps LutProgProps
  Conc ConcLut ConcSpec ConcLutSpec ConcFacts ConcRel ConcOps ConcProps ConcLutFacts.
Import ListNotations.
Local Open Scope Z_scope.
Ltac Zify.zify_post_hook ::= idtac.

Lemma get_in {T} (l : list T) o x : get l o = Ok x -> In x l.
Proof. intro H. apply (get_inv x) in H. destruct H as [Ho ->]. unfold znd. apply nth_In. unfold zlen in Ho. lia. Qed.
Lemma target_given t x : ltarget t x -> lgiven t x.
Proof. intros (o & _ & H). left. exact (get_in _ _ _ H). Qed.

Section Separate.
Context (R : arith) (O : fops) (pr : pset) (sk : SecretKey) (rk : Z -> enc_rand) (rb : Z -> Z -> trlwe_rand) (ck : CloudKey O)
  (S : setup R O pr sk rk rb ck) (k : Z).
Notation M := (mem (FP O)).
Notation A := (list Z * list tref)%type.
Context (ts : list lworker) (m : M) (HS : @lseparate O pr ts m)
  (HA : Forall (fun t => exists r, lalone pr ck k t m = Ok r) ts).

Let d0 : lworker := {| lw_ev := {| ev_pe := {| pe_deg := 0; pe_t := 0; pe_f := 0; pe_i := 0 |}; ev_dec := {| dc_t := 0; dc_f := 0; dc_levels := 0 |};
  ev_bp := {| bp_t := 0; bp_f := 0; bp_i := 0 |} |}; lw_calls := []; lw_cts := []; lw_tabs := [] |}.
Notation th := (znd d0 ts).
Let Rd (i : Z) : rel := fun x y => x = y /\ lgiven (th i) x.
Let W0 (i : Z) : rel := fun x y => x = y /\ (own (lw_ev (th i)) x \/ ltarget (th i) x).
Let Wf (i : Z) := fown (lw_ev (th i)).
Let Wi (i : Z) := iown (lw_ev (th i)).
Let sol (i : Z) : A * M := match lalone pr ck k (th i) m with Ok r => r | Panic _ => (([], []), m) end.
Let QW (i : Z) : rel -> A -> A -> Prop := QL (Rd i) [].
Lemma th_in i : 0 <= i < zlen ts -> In (th i) ts.
Proof. intro Hi. unfold znd. apply nth_In. unfold zlen in Hi. lia. Qed.
Lemma th_reach i : 0 <= i < zlen ts -> reachable O pr (lw_ev (th i)) m.
Proof. intro Hi. destruct HS as [H _]. rewrite Forall_forall in H. apply H, th_in, Hi. Qed.
Lemma th_given i x : 0 <= i < zlen ts -> lgiven (th i) x -> loutside ts m x.
Proof. intros Hi Hx. destruct HS as (_ & _ & H). rewrite Forall_forall in H. apply (H _ (th_in i Hi)), Hx. Qed.
Lemma th_apart i j : 0 <= i < zlen ts -> 0 <= j < zlen ts -> i <> j -> lapart (th i) (th j).
Proof.
  intros Hi Hj Hn. destruct HS as (_ & H & _). destruct (Z_lt_dec i j).
  - apply (ordpairs_znd _ d0 ts H); lia.
  - destruct (ordpairs_znd _ d0 ts H j i ltac:(lia) ltac:(lia) ltac:(lia)) as [X Y]. split.
    + intro x. specialize (X x). tauto.
    + intro x. specialize (Y x). tauto.
Qed.
Lemma th_sol i : 0 <= i < zlen ts -> lalone pr ck k (th i) m = Ok (sol i).
Proof. intro Hi. rewrite Forall_forall in HA. destruct (HA _ (th_in i Hi)) as (r & E). unfold sol. rewrite E. reflexivity. Qed.
Lemma th_get i t : get ts i = Ok t -> 0 <= i < zlen ts /\ t = th i.
Proof. apply get_inv. Qed.
Lemma th_own i x : 0 <= i < zlen ts -> own (lw_ev (th i)) x -> 0 <= x < tnext m.
Proof.
  intros Hi Hx. pose proof (th_reach i Hi) as Hr. pose proof S as S'. open_setup S'. destruct (reach_ok L pr W HBG _ _ Hr) as [He _]. destruct He. unfold own in Hx. lia.
Qed.
Lemma th_shape i : 0 <= i < zlen ts -> shape (lw_ev (th i)).
Proof.
  intros Hi. pose proof (th_reach i Hi) as Hr. pose proof S as S'. open_setup S'. destruct (reach_ok L pr W HBG _ _ Hr) as [He _]. destruct He.
  pose proof (pw_l _ _ W). constructor; lia.
Qed.

Lemma start : inv (zlen ts) Rd Wf Wi W0 m QW sol (map (lwork pr ck k) ts) m W0 (fun i => cost (lwork pr ck k (th i)) m).
Proof.
  constructor.
  - unfold zlen. rewrite map_length. reflexivity.
  - intros i Hi. exists (lwork pr ck k (th i)), m.
    assert (E: znd (Fail PNil) (map (lwork pr ck k) ts) i = lwork pr ck k (th i)).
    { unfold znd. rewrite (nth_indep _ (Fail PNil) (lwork pr ck k d0)) by (rewrite map_length; unfold zlen in Hi; lia). apply map_nth. }
    rewrite E. split; [|split; [|split; [|reflexivity]]].
    + unfold lwork, QW. apply pr_lexec.
      * exact (th_shape i Hi).
      * intros f Hf. exact Hf.
      * intros f Hf. exact Hf.
      * intros x Hx. split; [reflexivity|left; exact Hx].
      * split.
        -- assert (G: forall x, In x (lw_cts (th i)) -> Rd i x x) by (intros x Hx; split; [reflexivity|left; exact Hx]).
           revert G. generalize (lw_cts (th i)). intro l. induction l as [|x l IH]; intro G; constructor; [left; apply G; left; reflexivity|apply IH; intros y Hy; apply G; right; exact Hy].
        -- intros o a a' Ho H1 H2. rewrite H1 in H2. injection H2 as <-. split; [reflexivity|]. right. exists o. split; assumption.
      * assert (G: forall t, In t (lw_tabs (th i)) -> tacc (Rd i) (W0 i) t t).
        { intros t Ht. split; left; (split; [reflexivity|]); right; apply Exists_exists; exists t; (split; [exact Ht|]); [left|right]; reflexivity. }
        unfold tabs. revert G. generalize (lw_tabs (th i)). intro l. induction l as [|x l IH]; intro G; constructor; [apply G; left; reflexivity|apply IH; intros y Hy; apply G; right; exact Hy].
    + constructor; try reflexivity; try lia.
      * intros x y x' y' [[<- _]|[<- _]] [[<- _]|[<- _]]; tauto.
      * intros x y [[<- H]|[<- [H|H]]]; [destruct (th_given i x Hi H)|pose proof (th_own i x Hi H)|destruct (th_given i x Hi (target_given _ _ H))]; lia.
      * intros x y [[<- H]|[<- H]]; reflexivity.
    + unfold lwork. rewrite run_lexec. exact (th_sol i Hi).
  - intros i j x x' y Hi Hj Hn [<- H1] H2. destruct (th_apart i j Hi Hj Hn) as [AP TG]. specialize (AP x). specialize (TG x).
    assert (H2': x' = x /\ (lgiven (th j) x \/ own (lw_ev (th j)) x)).
    { destruct H2 as [[-> H2]|[-> [H2|H2]]]; split; auto. left. apply target_given. exact H2. }
    destruct H2' as [-> H3]. destruct H1 as [H1|H1], H3 as [H3|H3].
    + destruct (th_given j x Hj H3) as [_ G]. exact (G _ (th_in i Hi) H1).
    + destruct AP as (AP & _ & _). apply AP. split; assumption.
    + apply (proj1 TG). split; assumption.
    + destruct (th_given i x Hi (target_given _ _ H1)) as [_ G]. exact (G _ (th_in j Hj) H3).
  - intros i Hi. apply sub_refl.
  - intros i x y Hi H. left. exact H.
  - reflexivity.
  - reflexivity.
  - reflexivity.
  - lia.
Qed.

Lemma HWf0 i j f : 0 <= i < zlen ts -> 0 <= j < zlen ts -> i <> j -> Wf i f -> Wf j f -> False.
Proof. intros Hi Hj Hn H1 H2. destruct (th_apart i j Hi Hj Hn) as [AP _]. destruct (AP f) as (_ & X & _). apply X. split; assumption. Qed.
Lemma HWi0 i j f : 0 <= i < zlen ts -> 0 <= j < zlen ts -> i <> j -> Wi i f -> Wi j f -> False.
Proof. intros Hi Hj Hn H1 H2. destruct (th_apart i j Hi Hj Hn) as [AP _]. destruct (AP f) as (_ & _ & X). apply X. split; assumption. Qed.
Lemma in_th t : In t ts -> exists i, 0 <= i < zlen ts /\ t = th i.
Proof. intro H. apply In_nth with (d := d0) in H. destruct H as (i & Hi & <-). exists (Z.of_nat i). unfold zlen, znd. rewrite Nat2Z.id. split; [lia|reflexivity]. Qed.

(** the buffers of the run alone and of this run correspond *)
Definition matched (t : lworker) (mt m' : M) (r : rel) : Prop :=
  (forall x y x' y', r x y -> r x' y' -> (x = x' <-> y = y')) /\
  (forall x y, r x y -> tm m' y = tm mt x /\ (user mt (lw_ev t) x -> loutside ts m' y)).

Lemma lc_core sched r : together (map (lwork pr ck k) ts) m sched = Some r ->
  exists ls m', r = Ok (ls, m') /\ zlen ls = zlen ts /\
    (forall i t, get ts i = Ok t -> exists l w mt c, get ls i = Ok l /\ lalone pr ck k t m = Ok (w, mt) /\ matched t mt m' c /\
       Forall2 c (fst w) (fst l) /\ Forall2 (fun a b => c (rA a) (rA b) /\ c (rB a) (rB b)) (snd w) (snd l) /\
       (reachable O pr (lw_ev t) mt -> reachable O pr (lw_ev t) m')) /\
    (forall x, loutside ts m x -> loutside ts m' x /\ ((forall t, In t ts -> ~ ltarget t x) -> tm m' x = tm m x)).
Proof.
  intro E. destruct (inv_together _ _ _ _ _ _ _ _ HWf0 HWi0 sched _ _ _ r start E) as (ls & m' & W' & -> & Zl & [c' IV] & H).
  exists ls, m'. split; [reflexivity|]. split; [exact Zl|]. pose proof (iv_n _ _ _ _ _ _ _ _ _ _ _ _ IV) as (N1 & N2 & N3). split.
  - intros i t Ht. apply th_get in Ht. destruct Ht as [Hi ->]. destruct (H i ([], []) Hi) as [HQ HW]. pose proof (th_sol i Hi) as Es. destruct (sol i) as [w mt] eqn:Esol. cbn [fst snd] in HQ, HW.
    exists (znd ([], []) ls i), w, mt, (acc (Rd i) (W' i)). split; [apply get_ok; lia|]. split; [exact Es|].
    pose proof (iv_W0 _ _ _ _ _ _ _ _ _ _ _ _ IV) as IW0. pose proof (iv_W _ _ _ _ _ _ _ _ _ _ _ _ IV i Hi) as IW.
    destruct HW as [B1 B2 B3 B4 B5 B6]. destruct HQ as [[HQ _] HT]. split; [|split; [exact HQ|split; [exact HT|]]].
    + split; [exact B1|]. intros x y Hxy. split; [symmetry; apply B3, Hxy|]. intros [_ Hu]. destruct Hxy as [[<- Hg]|Hxy].
      * destruct (th_given i x Hi Hg) as [G1 G2]. split; [lia|exact G2].
      * pose proof (B2 x y (or_intror Hxy)) as [L1 L2]. destruct (IW0 i x y Hi Hxy) as [[<- [Ho|Ho]]|Ho]; [contradiction| |].
        -- destruct (th_given i x Hi (target_given _ _ Ho)) as [G1 G2]. split; [lia|exact G2].
        -- assert (P0: 0 <= tnext m). { pose proof (th_reach i Hi) as Hr. pose proof S as S'. open_setup S'. destruct (reach_ok L pr W HBG _ _ Hr) as [_ [P0 _]]. exact P0. }
           split; [lia|]. intros t Ht Hot. apply in_th in Ht. destruct Ht as (j & Hj & ->). pose proof (th_own j y Hj Hot). lia.
    + intro Hr. pose proof S as S'. open_setup S'. eapply (reach_other L pr W HBG); [exact Hr| | | |lia|lia|lia].
      * intros x Hx. symmetry. apply B3. right. apply IW. split; [reflexivity|left; exact Hx].
      * intros f Hf. symmetry. apply B4. exact Hf.
      * intros f Hf. symmetry. apply B5. exact Hf.
  - intros x [Hx Ho]. split; [split; [lia|exact Ho]|]. intro HT. apply (iv_t _ _ _ _ _ _ _ _ _ _ _ _ IV); [lia|]. intros i z Hi [-> [Hz|Hz]]; [exact (Ho _ (th_in i Hi) Hz)|exact (HT _ (th_in i Hi) Hz)].
Qed.

Lemma lc_ends sched : lturns pr ck k ts m sched -> exists r, together (map (lwork pr ck k) ts) m sched = Some r.
Proof.
  intros [T1 T2]. refine (inv_ends _ _ _ _ _ _ _ _ HWf0 HWi0 sched _ _ _ start T1 _). intros i Hi. apply T2. apply get_ok. exact Hi.
Qed.

Lemma lc_same sched r : together (map (lwork pr ck k) ts) m sched = Some r ->
  exists ls m', r = Ok (ls, m') /\
    Forall2 (fun t l => exists w mt, lalone pr ck k t m = Ok (w, mt) /\ contents m' l = contents mt w) ts ls /\
    (forall x, loutside ts m x -> (forall t, In t ts -> ~ ltarget t x) -> tm m' x = tm m x).
Proof.
  intro E. destruct (lc_core sched r E) as (ls & m' & -> & Zl & H & K). exists ls, m'. split; [reflexivity|]. split; [|intros x Hx HT; apply (K x Hx); exact HT].
  apply forall2_get; [exact Zl|]. intros i t Ht. destruct (H i t Ht) as (l & w & mt & c & El & Ea & [_ MV] & F1 & F2 & _). exists l. split; [exact El|]. exists w, mt. split; [exact Ea|].
  unfold contents. f_equal.
  - clear - F1 MV. induction F1 as [|x y a b Hxy F IH]; [reflexivity|]. cbn [map]. rewrite IH. f_equal. apply MV, Hxy.
  - clear - F2 MV. induction F2 as [|x y a b [HA HB] F IH]; [reflexivity|]. cbn [map]. rewrite IH, (proj1 (MV _ _ HA)), (proj1 (MV _ _ HB)). reflexivity.
Qed.
End Separate.

Lemma lturns_exist {O} pr (ck : CloudKey O) k (ts : list lworker) (m : mem (FP O)) : exists sched, lturns pr ck k ts m sched.
Proof.
  set (c := fun t : lworker => cost (lwork pr ck k t) m).
  assert (G: forall l j, exists sched, (forall i, In i sched -> j <= i < j + zlen l) /\ forall i t, get l (i - j) = Ok t -> Z.of_nat (count_occ Z.eq_dec sched i) = c t).
  { induction l as [|t l IH]; intro j.
    - exists []. split; [intros i []|]. intros i t Ht. destruct (get_nil _ _ Ht).
    - destruct (IH (j + 1)) as (s & H1 & H2). exists (repeat j (Z.to_nat (c t)) ++ s). assert (Zl: zlen (t :: l) = zlen l + 1) by (unfold zlen; cbn [length]; lia). pose proof (zlen_nonneg l). split.
      + intros i Hi. apply in_app_or in Hi. destruct Hi as [Hi|Hi]; [apply repeat_spec in Hi|apply H1 in Hi]; lia.
      + intros i u Hu. rewrite count_occ_app. destruct (get_cons _ _ _ _ Hu) as [[Hi <-]|Hi].
        * assert (i = j) by lia. subst i. rewrite count_occ_repeat_eq by reflexivity. rewrite (proj1 (count_occ_not_In Z.eq_dec s j)) by (intro Hj; apply H1 in Hj; lia).
          assert (0 <= c t) by apply cost_nonneg. lia.
        * pose proof (get_inv u _ _ _ Hi) as [Hj _]. rewrite count_occ_repeat_neq by lia. cbn [Nat.add]. apply H2. replace (i - (j + 1)) with (i - j - 1) by lia. exact Hi. }
  destruct (G ts 0) as (s & H1 & H2). exists s. split; [exact H1|]. intros i t Ht. apply H2. rewrite Z.sub_0_r. exact Ht.
Qed.

Lemma get_ok_forall2 {A B} (P : A -> B -> Prop) l l' i b : Forall2 P l l' -> get l' i = Ok b -> exists a, get l i = Ok a /\ P a b.
Proof.
  intros F. assert (F': Forall2 (fun b a => P a b) l' l) by (clear - F; induction F; constructor; assumption). intro H. exact (get_forall2 _ _ _ F' i b H).
Qed.

Section Truth.
Context (R : arith) (O : fops) (pr : pset) (sk : SecretKey) (rk : Z -> enc_rand) (rb : Z -> Z -> trlwe_rand) (ck : CloudKey O)
  (S : setup R O pr sk rk rb ck) (k : Z) (Hk : 0 <= k < g_NBIT pr).
Notation M := (mem (FP O)).

Lemma transfer (ts : list lworker) t (mt m' : M) c ws ws' tb tb' v : In t ts -> matched O ts t mt m' c -> Forall2 c ws ws' ->
  Forall2 (fun a b => c (rA a) (rA b) /\ c (rB a) (rB b)) tb tb' ->
  lholds O pr sk k mt (lw_ev t) ws tb v -> lholds O pr sk k m' (lw_ev t) ws' tb' v /\ forall x, In x ws' -> loutside ts m' x.
Proof.
  intros Ht [Bj MV] F1 F2 H. destruct v as [[xs fs] es]. destruct H as [(L1 & L2 & ND & HW) HT].
  assert (U: forall x y, c x y -> user mt (lw_ev t) x -> loutside ts m' y /\ user m' (lw_ev t) y).
  { intros x y Hxy Hu. destruct (proj2 (MV x y Hxy) Hu) as [A B]. split; [split; assumption|]. split; [exact A|apply B; exact Ht]. }
  pose proof (forall2_zlen _ _ _ F1) as Lw.
  assert (GW: forall i, 0 <= i < zlen ws' -> c (zn ws i) (zn ws' i)).
  { intros i Hi. assert (G: get ws' i = Ok (zn ws' i)) by (apply (get_ok 0); exact Hi). destruct (get_ok_forall2 _ _ _ _ _ F1 G) as (a & Ga & Ca).
    apply (get_inv 0) in Ga. destruct Ga as [_ ->]. exact Ca. }
  split; [split|].
  - split; [lia|]. split; [lia|]. split.
    + clear - F1 ND Bj. induction F1 as [|x y a b Hxy F IH]; [constructor|]. inversion ND as [|? ? N1 N2]; subst. constructor; [|apply IH; exact N2].
      intro Hy. apply N1. clear - F Hy Bj Hxy. induction F as [|u v a b Huv F IH]; [destruct Hy|]. destruct Hy as [->|Hy]; [left; apply (Bj u y x y Huv Hxy); reflexivity|right; apply IH, Hy].
    + intros i Hi. rewrite <- Lw in Hi. destruct (HW i Hi) as (U1 & U2 & U3). pose proof (GW i ltac:(lia)) as Ci. split; [apply (U _ _ Ci U1)|]. split; [exact U2|].
      rewrite (proj1 (MV _ _ Ci)). exact U3.
  - unfold ltables in *. revert fs HT. induction F2 as [|a b tb tb' [CA CB] F2 IH]; intros fs HT; inversion HT as [|? f ? fs' [(tv & G & TB) [N1 N2]] HT']; subst; constructor; [|apply IH; exact HT'].
    destruct TB as (T1 & T2 & T3 & T4 & T5). split; [|split].
    + exists tv. split; [exact G|]. split; [rewrite (proj1 (MV _ _ CA)); exact T1|]. split; [rewrite (proj1 (MV _ _ CB)); exact T2|].
      split; [apply (U _ _ CA T3)|]. split; [apply (U _ _ CB T4)|exact T5].
    + intro Hin. apply N1. clear - F1 Hin CA Bj. induction F1 as [|u v p q Huv F IH]; [destruct Hin|]. destruct Hin as [->|Hin]; [left; apply (Bj _ _ _ _ Huv CA); reflexivity|right; apply IH, Hin].
    + intro Hin. apply N2. clear - F1 Hin CB Bj. induction F1 as [|u v p q Huv F IH]; [destruct Hin|]. destruct Hin as [->|Hin]; [left; apply (Bj _ _ _ _ Huv CB); reflexivity|right; apply IH, Hin].
  - intros y Hy. apply In_nth with (d := 0) in Hy. destruct Hy as (i & Hi & <-).
    assert (Hz: 0 <= Z.of_nat i < zlen ws') by (unfold zlen; lia). pose proof (GW _ Hz) as Ci. unfold zn, znd in Ci. rewrite Nat2Z.id in Ci.
    apply (U _ _ Ci). destruct (HW (Z.of_nat i) ltac:(lia)) as (U1 & _). unfold zn, znd in U1. rewrite Nat2Z.id in U1. exact U1.
Qed.

Lemma holds_decrypts (m : M) e ws tb v : lholds O pr sk k m e ws tb v -> ldecrypts O pr sk k m ws v.
Proof.
  destruct v as [[xs fs] es]. intros [HW _] i r x E Gr Gx Ge HE.
  destruct (wires_decrypts R O pr sk rk rb ck S e k Hk m ws xs es i x E HW Gx Ge HE) as (r' & Gr' & D). rewrite Gr in Gr'. injection Gr' as <-. exact D.
Qed.

(** from what each goroutine does alone *)
Lemma lc_truth T Rd (ts : list lworker) (vs : list lvals) (m : M) sched r : @lseparate O pr ts m ->
  Forall2 (fun t v => exists v' w mt, lmeans k T Rd (lw_calls t) v = Ok v' /\ lalone pr ck k t m = Ok (w, mt) /\
    lholds O pr sk k mt (lw_ev t) (fst w) (snd w) v' /\ reachable O pr (lw_ev t) mt) ts vs ->
  together (map (lwork pr ck k) ts) m sched = Some r ->
  exists ls m', r = Ok (ls, m') /\ zlen ls = zlen ts /\
    (forall i t v v', get ts i = Ok t -> get vs i = Ok v -> lmeans k T Rd (lw_calls t) v = Ok v' -> exists l, get ls i = Ok l /\
       lholds O pr sk k m' (lw_ev t) (fst l) (snd l) v' /\ ldecrypts O pr sk k m' (fst l) v' /\ forall x, In x (fst l) -> loutside ts m' x) /\
    @lseparate O pr ts m' /\
    (forall x, loutside ts m x -> loutside ts m' x /\ ((forall t, In t ts -> ~ ltarget t x) -> tm m' x = tm m x)).
Proof.
  intros HS HV E0.
  assert (HA: Forall (fun t => exists r, lalone pr ck k t m = Ok r) ts).
  { clear - HV. induction HV as [|t v ts vs (v' & w & mt & _ & X & _) HV IH]; constructor; [exists (w, mt); exact X|exact IH]. }
  destruct (lc_core R O pr sk rk rb ck S k ts m HS HA sched r E0) as (ls & m' & -> & Zl & H & K). exists ls, m'. split; [reflexivity|]. split; [exact Zl|].
  split; [|split; [|exact K]].
  - intros i t v v' Ht Hv Hm. destruct (get_forall2 _ _ _ HV _ _ Ht) as (v2 & Hv2 & v2' & w & mt & X1 & X2 & X3 & X4). rewrite Hv in Hv2. injection Hv2 as <-.
    rewrite Hm in X1. injection X1 as <-. destruct (H i t Ht) as (l & w2 & mt2 & c & Y1 & Y2 & Y3 & Y4 & Y5 & _). rewrite X2 in Y2. injection Y2 as <- <-. exists l. split; [exact Y1|].
    destruct (transfer ts t mt m' c _ _ _ _ v' (get_in _ _ _ Ht) Y3 Y4 Y5 X3) as [Z1 Z2]. split; [exact Z1|]. split; [eapply holds_decrypts; exact Z1|exact Z2].
  - destruct HS as (_ & HS2 & HS3). split; [|split; [exact HS2|]].
    2:{ rewrite Forall_forall in *. intros t Ht x Hx. apply K. exact (HS3 t Ht x Hx). }
    rewrite Forall_forall. intros t Ht. apply In_nth with (d := t) in Ht. destruct Ht as (i & Hi & Et).
    assert (Gt: get ts (Z.of_nat i) = Ok t) by (rewrite (get_ok t) by (unfold zlen; lia); unfold znd; rewrite Nat2Z.id, Et; reflexivity).
    destruct (get_forall2 _ _ _ HV _ _ Gt) as (v & _ & v' & w & mt & _ & X2 & _ & X4). destruct (H _ _ Gt) as (l & w2 & mt2 & c & _ & Y2 & _ & _ & _ & Y6).
    rewrite X2 in Y2. injection Y2 as <- <-. apply Y6, X4.
Qed.

Lemma lmeans_inv T Rd p xs fs es v' : lmeans k T Rd p (xs, fs, es) = Ok v' -> exists xs' fs' es', v' = (xs', fs', es') /\ lplain k p xs fs = Ok (xs', fs') /\ lnoise k T Rd p es = Ok es'.
Proof.
  unfold lmeans. destruct (lplain k p xs fs) as [[xs' fs']|]; [|discriminate]. cbn [bind fst snd]. destruct (lnoise k T Rd p es) as [es'|]; [|discriminate]. cbn [bind].
  intro H. injection H as <-. exists xs', fs', es'. auto.
Qed.

Lemma lc_messages T Rd (ts : list lworker) (vs : list lvals) (m : M) sched r : @lseparate O pr ts m ->
  Forall2 (fun t v => lholds O pr sk k m (lw_ev t) (lw_cts t) (lw_tabs t) v /\ (exists v', lmeans k T Rd (lw_calls t) v = Ok v') /\
    forall f c, lboots O pr ck (lw_ev t) k (lw_calls t) (lw_cts t) (lw_tabs t) (snd (fst v)) m f c ->
      rounding pr (KeyLv0 sk) c Rd /\ gen_noise O pr sk ck f (2 ^ k) c T) ts vs ->
  together (map (lwork pr ck k) ts) m sched = Some r ->
  exists ls m', r = Ok (ls, m') /\ zlen ls = zlen ts /\
    (forall i t v v', get ts i = Ok t -> get vs i = Ok v -> lmeans k T Rd (lw_calls t) v = Ok v' -> exists l, get ls i = Ok l /\
       lholds O pr sk k m' (lw_ev t) (fst l) (snd l) v' /\ ldecrypts O pr sk k m' (fst l) v' /\ forall x, In x (fst l) -> loutside ts m' x) /\
    @lseparate O pr ts m' /\
    (forall x, loutside ts m x -> loutside ts m' x /\ ((forall t, In t ts -> ~ ltarget t x) -> tm m' x = tm m x)).
Proof.
  intros HS HV. apply lc_truth; [exact HS|]. destruct HS as [HR _]. clear - HV HR S Hk.
  induction HV as [|t v ts vs (Hh & [v' Hm] & Hn) HV IH]; constructor; inversion HR; subst; [|apply IH; assumption].
  destruct v as [[xs fs] es]. destruct Hh as [Hw Ht]. destruct (lmeans_inv _ _ _ _ _ _ _ Hm) as (xs' & fs' & es' & -> & Hp & Hl).
  destruct (lp_program R O pr sk rk rb ck (lw_ev t) k T Rd (lw_calls t) m (lw_cts t) (lw_tabs t) xs fs es xs' fs' es' S Hk ltac:(assumption) Hw Ht Hp Hl Hn)
    as (nw & ts' & m' & E & W1 & T1 & _ & _ & _ & R1).
  exists (xs', fs', es'), (lw_cts t ++ nw, ts'), m'. split; [exact Hm|]. split; [exact E|]. split; [split; assumption|exact R1].
Qed.
End Truth.

Section Worst.
Context (mc : machine) (O : fops) (pr : pset) (sk : SecretKey) (rk : Z -> enc_rand) (rb : Z -> Z -> trlwe_rand) (ck : CloudKey O)
  (Hcis : mc_ok mc) (S : setup (f64_arith mc) O pr sk rk rb ck) (Bb Bk d d' : Z)
  (Hfft : fft_error_within pr d d') (Hnoise : key_noise_within pr rk rb Bb Bk) (HBb : 0 <= Bb) (HBk : 0 <= Bk) (Hd' : 0 <= d') (k : Z) (Hk : 0 <= k < g_NBIT pr).
Notation M := (mem (FP O)).
Notation T := (worst_noise pr sk Bb Bk d d').
Notation Rd := (round_err pr sk).

Lemma lc_float64_alone (ts : list lworker) (vs : list lvals) (m : M) : @lseparate O pr ts m ->
  Forall2 (fun t v => lholds O pr sk k m (lw_ev t) (lw_cts t) (lw_tabs t) v /\ exists v', lmeans k T Rd (lw_calls t) v = Ok v') ts vs ->
  Forall2 (fun t v => exists v' w mt, lmeans k T Rd (lw_calls t) v = Ok v' /\ lalone pr ck k t m = Ok (w, mt) /\
    lholds O pr sk k mt (lw_ev t) (fst w) (snd w) v' /\ reachable O pr (lw_ev t) mt) ts vs.
Proof.
  intros [HR _] HV. induction HV as [|t v ts vs (Hh & [v' Hm]) HV IH]; constructor; inversion HR; subst; [|apply IH; assumption].
  destruct v as [[xs fs] es]. destruct Hh as [Hw Ht]. destruct (lmeans_inv _ _ _ _ _ _ _ _ Hm) as (xs' & fs' & es' & -> & Hp & Hl).
  destruct (lp_float64 mc O pr sk rk rb ck Bb Bk d d' (lw_ev t) k (lw_calls t) m (lw_cts t) (lw_tabs t) xs fs es xs' fs' es' Hcis S Hfft Hnoise HBb HBk Hd' Hk ltac:(assumption) Hw Ht Hp Hl)
    as (nw & ts' & m' & E & W1 & T1 & _ & _ & _ & R1).
  exists (xs', fs', es'), (lw_cts t ++ nw, ts'), m'. split; [exact Hm|]. split; [exact E|]. split; [split; assumption|exact R1].
Qed.

Lemma lc_float64 (ts : list lworker) (vs : list lvals) (m : M) sched r : @lseparate O pr ts m ->
  Forall2 (fun t v => lholds O pr sk k m (lw_ev t) (lw_cts t) (lw_tabs t) v /\ exists v', lmeans k T Rd (lw_calls t) v = Ok v') ts vs ->
  together (map (lwork pr ck k) ts) m sched = Some r ->
  exists ls m', r = Ok (ls, m') /\ zlen ls = zlen ts /\
    (forall i t v v', get ts i = Ok t -> get vs i = Ok v -> lmeans k T Rd (lw_calls t) v = Ok v' -> exists l, get ls i = Ok l /\
       lholds O pr sk k m' (lw_ev t) (fst l) (snd l) v' /\ ldecrypts O pr sk k m' (fst l) v' /\ forall x, In x (fst l) -> loutside ts m' x) /\
    @lseparate O pr ts m' /\
    (forall x, loutside ts m x -> loutside ts m' x /\ ((forall t, In t ts -> ~ ltarget t x) -> tm m' x = tm m x)).
Proof. intros HS HV. apply (lc_truth _ O pr sk rk rb ck S k Hk T Rd); [exact HS|]. apply lc_float64_alone; assumption. Qed.
End Worst.

(** all ciphertexts at once *)
Lemma decrypts_all O pr sk k (m : mem (FP O)) e ws tb xs fs es : lholds O pr sk k m e ws tb (xs, fs, es) -> ldecrypts O pr sk k m ws (xs, fs, es) ->
  Forall (fun E => E < 2 ^ (30 - k)) es -> map (fun r => DecryptLWEMessage (lv0_N pr) (tm m r) (2 ^ k) (KeyLv0 sk)) ws = map (fun x => Ok (x mod 2 ^ k)) xs.
Proof.
  intros [(L1 & L2 & _) _] D HE. unfold zlen in L1, L2. set (g := fun r => DecryptLWEMessage (lv0_N pr) (tm m r) (2 ^ k) (KeyLv0 sk)). set (h := fun x => Ok (x mod 2 ^ k)).
  apply nth_ext with (d := g 0) (d' := h 0); [rewrite !map_length; lia|].
  intros i Hi. rewrite map_length in Hi. rewrite (map_nth g), (map_nth h). unfold g, h.
  assert (G: forall l : list Z, length l = length ws -> get l (Z.of_nat i) = Ok (nth i l 0)) by (intros l Hl; rewrite (get_ok 0) by (unfold zlen; lia); unfold znd; rewrite Nat2Z.id; reflexivity).
  apply (D (Z.of_nat i) _ _ (nth i es 0)); [apply G; lia..|]. rewrite Forall_forall in HE. apply HE, nth_In. lia.
Qed.

(** * A goroutine for each client, some clients hostile *)
From Coq Require Import Lia ZifyBool Setoid Morphisms List.
From Verif Require Import GoBase GoFacts GoMem MemFacts F64 Utils UtilsFacts Params Key Tlwe TlweMem TlweFacts BasicFacts
  Poly PolyFacts NegFacts Laws Fft FftTabErr Trlwe TrlweFacts Trgsw TrgswFacts RotFacts KeySwitchFacts Lut Evaluator EvalFacts
  CloudKey CloudKeyFacts Gates LinFacts Spec RunSpec HeapFacts BootFacts Circuit GateFacts NoiseFacts RunProps RunWorst LutSpec LutProg LutProps LutProgProps MixProg MixProps
  Conc ConcLut ConcSpec ConcLutSpec ConcMixSpec ConcFacts ConcRel ConcOps ConcProps ConcLutFacts ConcLutProps ConcMixProps
  HostileSpec HostileFacts HostileRun HostileProps ConcHostSpec.
Import ListNotations.
Local Open Scope Z_scope.
Ltac Zify.zify_post_hook ::= idtac.

Section Crowd.
Context (R : arith) (tw twi : list (AN R * AN R)) (pr : pset) (GP : good_params pr) (TR : transform R tw twi pr).
Notation O := (fft_ops R tw twi).
Notation M := (mem (FP O)).
Notation A := (list Z * list tref)%type.
Notation client := (client R tw twi).
Notation history := (any_history R tw twi pr).

Lemma hist_good e (m : M) : history e m -> exists L : flaws O (g_N pr), good L pr e m.
Proof. intro H. open_shape GP TR E L FL. exists L. exact (history_good R tw twi pr GP L FL e m H). Qed.
Lemma hist_own e (m : M) x : history e m -> own e x -> 0 <= x < tnext m.
Proof. intros H Hx. destruct (hist_good e m H) as (L & [[] _]). unfold own in Hx. lia. Qed.
Lemma hist_fown e (m : M) x : history e m -> fown e x -> x < fnext m.
Proof. intros H Hx. destruct (hist_good e m H) as (L & [[] _]). unfold fown in Hx. lia. Qed.
Lemma hist_iown e (m : M) x : history e m -> iown e x -> x < inext m.
Proof. intros H Hx. destruct (hist_good e m H) as (L & [[] _]). unfold iown in Hx. lia. Qed.
Lemma hist_mem e (m : M) : history e m -> mem_ok m.
Proof. intros H. destruct (hist_good e m H) as (L & [_ X]). exact X. Qed.
Lemma hist_shape e (m : M) : history e m -> shape e.
Proof. intros H. destruct (hist_good e m H) as (L & [[] _]). pose proof (pw_l _ _ (proj1 GP)). constructor; lia. Qed.
Lemma hist_other e (m m' : M) : history e m ->
  (forall x, own e x -> tm m' x = tm m x) -> (forall x, fown e x -> fm m' x = fm m x) -> (forall x, iown e x -> im m' x = im m x) ->
  tnext m <= tnext m' -> fnext m <= fnext m' -> inext m <= inext m' -> history e m'.
Proof.
  intros H HT HF HI NT NF NI. destruct (hist_good e m H) as (L & [He _]). eapply ah_uses with (j := 0); [exact H|]. apply u_other; [|intros x []].
  split; [intros; apply HT; assumption|]. split; [|auto 10]. intros x Hx. rewrite HT; [reflexivity|]. eapply ring_own; [exact (proj1 GP)|exact He|exact Hx].
Qed.

Section Separate.
Context (cs : list client) (m : M) (HS : crowd pr cs m) (HA : Forall (client_shape pr m) cs).

Lemma shape_alone c : In c cs -> exists nw ts' mt ck, served pr c m = Ok ((mw_cts (cl_work c) ++ nw, ts'), mt) /\
  key_shape R tw twi pr ck /\ history (cl_ev c) mt /\ received R tw twi pr (cl_ev c) mt (cl_gates c) (mw_cts (cl_work c) ++ nw) ts' /\ key_at O mt (cl_ev c) (cl_gates c) ck /\
  kept_but O (cl_ev c) (moutputs (mw_calls (cl_work c))) (mw_cts (cl_work c)) m mt.
Proof.
  intro Hc. rewrite Forall_forall in HA. destruct (HA c Hc) as (S1 & (ck & S2 & K) & Hk & Hr & Ha). destruct HS as [HH _]. rewrite Forall_forall in HH.
  destruct (h_total R tw twi pr (cl_key c) ck (cl_ev c) m (cl_gates c) (cl_bits c) (mw_calls (cl_work c)) _ _ GP TR S1 S2 (HH c Hc) K Hk Hr Ha)
    as (nw & ts' & m' & E & R1 & KB & _ & H1 & K1).
  exists nw, ts', m', ck. split; [exact E|]. auto.
Qed.

Let d0 : client := {| cl_key := {| DecompositionOffset := 0; BlindRotateTestvec := {| tA := []; tB := [] |}; KeySwitchingKey := []; BootstrappingKey := [] |};
  cl_gates := {| gk_offset := 0; gk_testvec := {| rA := 0; rB := 0 |}; gk_ksk := []; gk_bsk := [] |}; cl_bits := 0;
  cl_work := {| mw_ev := {| ev_pe := {| pe_deg := 0; pe_t := 0; pe_f := 0; pe_i := 0 |}; ev_dec := {| dc_t := 0; dc_f := 0; dc_levels := 0 |};
  ev_bp := {| bp_t := 0; bp_f := 0; bp_i := 0 |} |}; mw_calls := []; mw_cts := []; mw_tabs := [] |} |}.
Notation th := (znd d0 cs).
Let Rd (i : Z) : rel := fun x y => x = y /\ cl_given (th i) x.
Let W0 (i : Z) : rel := fun x y => x = y /\ (own (cl_ev (th i)) x \/ cl_target (th i) x).
Let Wf (i : Z) := fown (cl_ev (th i)).
Let Wi (i : Z) := iown (cl_ev (th i)).
Let sol (i : Z) : A * M := match served pr (th i) m with Ok r => r | Panic _ => (([], []), m) end.
Let QW (i : Z) : rel -> A -> A -> Prop := QL (Rd i) [].

Lemma cl_in i : 0 <= i < zlen cs -> In (th i) cs.
Proof. intro Hi. unfold znd. apply nth_In. unfold zlen in Hi. lia. Qed.
Lemma cl_hist i : 0 <= i < zlen cs -> history (cl_ev (th i)) m.
Proof. intro Hi. destruct HS as [H _]. rewrite Forall_forall in H. apply H, cl_in, Hi. Qed.
Lemma cl_free i x : 0 <= i < zlen cs -> cl_given (th i) x -> free_of cs m x.
Proof. intros Hi Hx. destruct HS as (_ & _ & H). rewrite Forall_forall in H. apply (H _ (cl_in i Hi)), Hx. Qed.
Lemma cl_apart i j : 0 <= i < zlen cs -> 0 <= j < zlen cs -> i <> j -> strangers (th i) (th j).
Proof.
  intros Hi Hj Hn. destruct HS as (_ & H & _). destruct (Z_lt_dec i j).
  - apply (ordpairs_znd _ d0 cs H); lia.
  - destruct (ordpairs_znd _ d0 cs H j i ltac:(lia) ltac:(lia) ltac:(lia)) as [X Y]. split.
    + intro x. specialize (X x). tauto.
    + intro x. specialize (Y x). tauto.
Qed.
Lemma cl_sol i : 0 <= i < zlen cs -> served pr (th i) m = Ok (sol i).
Proof. intro Hi. destruct (shape_alone _ (cl_in i Hi)) as (nw & ts & mt & ck & E & _). unfold sol. rewrite E. reflexivity. Qed.
Lemma cl_get i c : get cs i = Ok c -> 0 <= i < zlen cs /\ c = th i.
Proof. apply get_inv. Qed.
Lemma cl_tg (c : client) x : cl_target c x -> cl_given c x.
Proof. apply mtarget_given. Qed.

Lemma cl_start : inv (zlen cs) Rd Wf Wi W0 m QW sol (map (serve pr) cs) m W0 (fun i => cost (serve pr (th i)) m).
Proof.
  constructor.
  - unfold zlen. rewrite map_length. reflexivity.
  - intros i Hi. exists (serve pr (th i)), m.
    assert (E: znd (Fail PNil) (map (serve pr) cs) i = serve pr (th i)).
    { unfold znd. rewrite (nth_indep _ (Fail PNil) (serve pr d0)) by (rewrite map_length; unfold zlen in Hi; lia). apply map_nth. }
    rewrite E. split; [|split; [|split; [|reflexivity]]].
    + unfold serve, mwork, QW. apply pr_mexec.
      * exact (hist_shape _ _ (cl_hist i Hi)).
      * intros f Hf. exact Hf.
      * intros f Hf. exact Hf.
      * intros x Hx. split; [reflexivity|left; exact Hx].
      * split.
        -- assert (G: forall x, In x (mw_cts (cl_work (th i))) -> Rd i x x) by (intros x Hx; split; [reflexivity|left; exact Hx]).
           revert G. generalize (mw_cts (cl_work (th i))). intro l. induction l as [|x l IH]; intro G; constructor; [left; apply G; left; reflexivity|apply IH; intros y Hy; apply G; right; exact Hy].
        -- intros o a a' Ho H1 H2. rewrite H1 in H2. injection H2 as <-. split; [reflexivity|]. right. exists o. rewrite msgs_outputs in Ho. split; assumption.
      * assert (G: forall t, In t (mw_tabs (cl_work (th i))) -> tacc (Rd i) (W0 i) t t).
        { intros t Ht. split; left; (split; [reflexivity|]); right; left; apply Exists_exists; exists t; (split; [exact Ht|]); [left|right]; reflexivity. }
        unfold ConcLutFacts.tabs. revert G. generalize (mw_tabs (cl_work (th i))). intro l. induction l as [|x l IH]; intro G; constructor; [apply G; left; reflexivity|apply IH; intros y Hy; apply G; right; exact Hy].
      * left. split; [reflexivity|]. right. right. left. reflexivity.
      * left. split; [reflexivity|]. right. right. right. reflexivity.
    + constructor; try reflexivity; try lia.
      * intros x y x' y' [[<- _]|[<- _]] [[<- _]|[<- _]]; tauto.
      * intros x y [[<- H]|[<- [H|H]]]; [destruct (cl_free i x Hi H)|pose proof (hist_own _ _ x (cl_hist i Hi) H)|destruct (cl_free i x Hi (cl_tg _ _ H))]; lia.
      * intros x y [[<- H]|[<- H]]; reflexivity.
    + unfold serve, mwork. rewrite run_mexec. exact (cl_sol i Hi).
  - intros i j x x' y Hi Hj Hn [<- H1] H2. destruct (cl_apart i j Hi Hj Hn) as [AP TG]. specialize (AP x). specialize (TG x).
    assert (H2': x' = x /\ (cl_given (th j) x \/ own (cl_ev (th j)) x)).
    { destruct H2 as [[-> H2]|[-> [H2|H2]]]; split; auto. left. apply cl_tg. exact H2. }
    destruct H2' as [-> H3]. destruct H1 as [H1|H1], H3 as [H3|H3].
    + destruct (cl_free j x Hj H3) as [_ G]. exact (G _ (cl_in i Hi) H1).
    + destruct AP as (AP & _ & _). apply AP. split; assumption.
    + apply (proj1 TG). split; assumption.
    + destruct (cl_free i x Hi (cl_tg _ _ H1)) as [_ G]. exact (G _ (cl_in j Hj) H3).
  - intros i Hi. apply sub_refl.
  - intros i x y Hi H. left. exact H.
  - reflexivity.
  - reflexivity.
  - reflexivity.
  - lia.
Qed.

Lemma cl_Wf i j f : 0 <= i < zlen cs -> 0 <= j < zlen cs -> i <> j -> Wf i f -> Wf j f -> False.
Proof. intros Hi Hj Hn H1 H2. destruct (cl_apart i j Hi Hj Hn) as [AP _]. destruct (AP f) as (_ & X & _). apply X. split; assumption. Qed.
Lemma cl_Wi i j f : 0 <= i < zlen cs -> 0 <= j < zlen cs -> i <> j -> Wi i f -> Wi j f -> False.
Proof. intros Hi Hj Hn H1 H2. destruct (cl_apart i j Hi Hj Hn) as [AP _]. destruct (AP f) as (_ & _ & X). apply X. split; assumption. Qed.
Lemma in_cl c : In c cs -> exists i, 0 <= i < zlen cs /\ c = th i.
Proof. intro H. apply In_nth with (d := d0) in H. destruct H as (i & Hi & <-). exists (Z.of_nat i). unfold zlen, znd. rewrite Nat2Z.id. split; [lia|reflexivity]. Qed.
Lemma in_get c : In c cs -> exists i, get cs i = Ok c.
Proof. intro H. apply in_cl in H. destruct H as (i & Hi & ->). exists i. apply get_ok. exact Hi. Qed.

(** the buffers of the run alone and of this run correspond *)
Definition paired (c : client) (mt m' : M) (r : rel) : Prop :=
  (forall x y x' y', r x y -> r x' y' -> (x = x' <-> y = y')) /\
  (forall x y, r x y -> tm m' y = tm mt x /\ (user mt (cl_ev c) x -> free_of cs m' y)).

Lemma cl_core sched r : together (map (serve pr) cs) m sched = Some r ->
  exists ls m', r = Ok (ls, m') /\ zlen ls = zlen cs /\
    (forall i c, get cs i = Ok c -> exists l w mt q, get ls i = Ok l /\ served pr c m = Ok (w, mt) /\ paired c mt m' q /\ (forall x, cl_given c x -> q x x) /\
       Forall2 q (fst w) (fst l) /\ Forall2 (fun a b => q (rA a) (rA b) /\ q (rB a) (rB b)) (snd w) (snd l)) /\
    crowd pr cs m' /\
    (forall x, free_of cs m x -> free_of cs m' x /\ ((forall c, In c cs -> ~ cl_target c x) -> tm m' x = tm m x)).
Proof.
  intro E. destruct (inv_together _ _ _ _ _ _ _ _ cl_Wf cl_Wi sched _ _ _ r cl_start E) as (ls & m' & W' & -> & Zl & [c' IV] & H).
  exists ls, m'. split; [reflexivity|]. split; [exact Zl|]. pose proof (iv_n _ _ _ _ _ _ _ _ _ _ _ _ IV) as (N1 & N2 & N3).
  assert (K: forall x, free_of cs m x -> free_of cs m' x /\ ((forall c, In c cs -> ~ cl_target c x) -> tm m' x = tm m x)).
  { intros x [Hx Ho]. split; [split; [lia|exact Ho]|]. intro HT. apply (iv_t _ _ _ _ _ _ _ _ _ _ _ _ IV); [lia|]. intros i z Hi [-> [Hz|Hz]]; [exact (Ho _ (cl_in i Hi) Hz)|exact (HT _ (cl_in i Hi) Hz)]. }
  split; [|split; [|exact K]].
  - intros i c Hc. apply cl_get in Hc. destruct Hc as [Hi ->]. destruct (H i ([], []) Hi) as [HQ HW]. pose proof (cl_sol i Hi) as Es. destruct (sol i) as [w mt] eqn:Esol. cbn [fst snd] in HQ, HW.
    exists (znd ([], []) ls i), w, mt, (acc (Rd i) (W' i)). split; [apply get_ok; lia|]. split; [exact Es|].
    pose proof (iv_W0 _ _ _ _ _ _ _ _ _ _ _ _ IV) as IW0.
    destruct HW as [B1 B2 B3 B4 B5 B6]. destruct HQ as [[HQ _] HT]. split; [|split; [intros x Hx; left; split; [reflexivity|exact Hx]|split; [exact HQ|exact HT]]].
    split; [exact B1|]. intros x y Hxy. split; [symmetry; apply B3, Hxy|]. intros [_ Hu]. destruct Hxy as [[<- Hg]|Hxy].
    * destruct (cl_free i x Hi Hg) as [G1 G2]. split; [lia|exact G2].
    * pose proof (B2 x y (or_intror Hxy)) as [L1 L2]. destruct (IW0 i x y Hi Hxy) as [[<- [Ho|Ho]]|Ho]; [contradiction| |].
      -- destruct (cl_free i x Hi (cl_tg _ _ Ho)) as [G1 G2]. split; [lia|exact G2].
      -- pose proof (hist_mem _ _ (cl_hist i Hi)) as [P0 _]. split; [lia|]. intros t Ht Hot. apply in_cl in Ht. destruct Ht as (j & Hj & ->). pose proof (hist_own _ _ y (cl_hist j Hj) Hot). lia.
  - destruct HS as (_ & H2 & H3). split; [|split; [exact H2|]].
    + rewrite Forall_forall. intros c Hc. destruct (shape_alone c Hc) as (nw & ts1 & mt1 & ck & Ea & _ & Ht & _). apply in_cl in Hc. destruct Hc as (i & Hi & ->).
      destruct (H i ([], []) Hi) as [_ HW]. pose proof (cl_sol i Hi) as Es. rewrite Ea in Es. injection Es as Es. rewrite <- Es in HW. cbn [snd] in HW.
      pose proof (iv_W _ _ _ _ _ _ _ _ _ _ _ _ IV i Hi) as IW. destruct HW as [B1 B2 B3 B4 B5 B6].
      eapply hist_other; [exact Ht| | | |lia|lia|lia].
      * intros x Hx. symmetry. apply B3. right. apply IW. split; [reflexivity|left; exact Hx].
      * intros f Hf. symmetry. apply B4. exact Hf.
      * intros f Hf. symmetry. apply B5. exact Hf.
    + rewrite Forall_forall in *. intros c Hc x Hx. apply K. exact (H3 c Hc x Hx).
Qed.

Lemma cl_ends sched : cl_turns pr cs m sched -> exists r, together (map (serve pr) cs) m sched = Some r.
Proof.
  intros [T1 T2]. refine (inv_ends _ _ _ _ _ _ _ _ cl_Wf cl_Wi sched _ _ _ cl_start T1 _). intros i Hi. apply T2. apply get_ok. exact Hi.
Qed.
End Separate.
End Crowd.

(** ** the statements *)
Lemma cr_separate R tw twi pr (cs : list (client R tw twi)) (m : mem (FP (fft_ops R tw twi))) sched r : good_params pr -> transform R tw twi pr ->
  crowd pr cs m -> Forall (client_shape pr m) cs -> together (map (serve pr) cs) m sched = Some r ->
  exists ls m', r = Ok (ls, m') /\
    Forall2 (fun c l => exists w mt, served pr c m = Ok (w, mt) /\ contents m' l = contents mt w) cs ls /\
    crowd pr cs m' /\ (forall x, free_of cs m x -> (forall c, In c cs -> ~ cl_target c x) -> tm m' x = tm m x).
Proof.
  intros GP TR HS HA E. destruct (cl_core R tw twi pr GP TR cs m HS HA sched r E) as (ls & m' & -> & Zl & H & HC & K). exists ls, m'. split; [reflexivity|].
  split; [|split; [exact HC|intros x Hx HT; apply (K x Hx); exact HT]].
  apply forall2_get; [exact Zl|]. intros i c Hc. destruct (H i c Hc) as (l & w & mt & q & El & Ea & [_ MV] & _ & F1 & F2). exists l. split; [exact El|]. exists w, mt. split; [exact Ea|].
  unfold contents. f_equal.
  - clear - F1 MV. induction F1 as [|x y a b Hxy F IH]; [reflexivity|]. cbn [map]. rewrite IH. f_equal. apply MV, Hxy.
  - clear - F2 MV. induction F2 as [|x y a b [HA HB] F IH]; [reflexivity|]. cbn [map]. rewrite IH, (proj1 (MV _ _ HA)), (proj1 (MV _ _ HB)). reflexivity.
Qed.

Lemma cr_turns R tw twi pr (cs : list (client R tw twi)) (m : mem (FP (fft_ops R tw twi))) : exists sched, cl_turns pr cs m sched.
Proof.
  set (f := fun t : client R tw twi => cost (serve pr t) m).
  assert (G: forall l j, exists sched, (forall i, In i sched -> j <= i < j + zlen l) /\ forall i t, get l (i - j) = Ok t -> Z.of_nat (count_occ Z.eq_dec sched i) = f t).
  { induction l as [|t l IH]; intro j.
    - exists []. split; [intros i []|]. intros i t Ht. destruct (get_nil _ _ Ht).
    - destruct (IH (j + 1)) as (s & H1 & H2). exists (repeat j (Z.to_nat (f t)) ++ s). assert (Zl: zlen (t :: l) = zlen l + 1) by (unfold zlen; cbn [length]; lia). pose proof (zlen_nonneg l). split.
      + intros i Hi. apply in_app_or in Hi. destruct Hi as [Hi|Hi]; [apply repeat_spec in Hi|apply H1 in Hi]; lia.
      + intros i u Hu. rewrite count_occ_app. destruct (get_cons _ _ _ _ Hu) as [[Hi <-]|Hi].
        * assert (i = j) by lia. subst i. rewrite count_occ_repeat_eq by reflexivity. rewrite (proj1 (count_occ_not_In Z.eq_dec s j)) by (intro Hj; apply H1 in Hj; lia).
          assert (0 <= f t) by apply cost_nonneg. lia.
        * pose proof (get_inv u _ _ _ Hi) as [Hj _]. rewrite count_occ_repeat_neq by lia. cbn [Nat.add]. apply H2. replace (i - (j + 1)) with (i - j - 1) by lia. exact Hi. }
  destruct (G cs 0) as (s & H1 & H2). exists s. split; [exact H1|]. intros i t Ht. apply H2. rewrite Z.sub_0_r. exact Ht.
Qed.

(** a client with a real key has the shape *)
Lemma cr_client R tw twi pr sk rk rb T v v' (c : client R tw twi) (m : mem (FP (fft_ops R tw twi))) : transform R tw twi pr ->
  setup R (fft_ops R tw twi) pr sk rk rb (cl_key c) -> 0 <= cl_bits c ->
  mholds _ pr sk (cl_key c) (cl_gates c) (cl_bits c) m (cl_ev c) (mw_cts (cl_work c)) (mw_tabs (cl_work c)) v ->
  mmeans (cl_bits c) T (round_err pr sk) (mw_calls (cl_work c)) v = Ok v' -> client_shape pr m c.
Proof.
  intros TR S Hk Hh Hm. pose proof (h_keys _ _ _ _ _ _ _ _ TR S) as SH. destruct v as [[xs fs] es]. pose proof Hh as ([Hw Ht] & Hg & N).
  destruct (mmeans_inv pr sk _ _ _ _ _ _ _ Hm) as (xs' & fs' & es' & _ & Hp & _). pose proof Hw as (LX & LE & ND & HW). pose proof (HostileProps.Forall2_zlen _ _ _ Ht) as LT.
  split; [exact SH|]. split; [exists (cl_key c); split; assumption|]. split; [exact Hk|]. split.
  - split; [exact ND|]. split; [intros x Hx; apply In_zn in Hx; destruct Hx as (i & Hi & <-); destruct (HW i Hi) as (U & _ & ((Hl & _) & _)); auto|].
    split; [|split; apply N; [left|right]; reflexivity]. clear - Ht. induction Ht as [|t f ts fs ((tv & _ & X) & Y) _ IH]; constructor; eauto.
  - rewrite <- LX, LT. eapply plain_asks_all. exact Hp.
Qed.

(** from what the client gets alone *)
Lemma cr_truth R tw twi pr sk rk rb v' w mt (cs : list (client R tw twi)) (m : mem (FP (fft_ops R tw twi))) sched r i c : transform R tw twi pr ->
  crowd pr cs m -> Forall (client_shape pr m) cs -> together (map (serve pr) cs) m sched = Some r -> get cs i = Ok c ->
  setup R (fft_ops R tw twi) pr sk rk rb (cl_key c) -> 2 <= cl_bits c < g_NBIT pr ->
  key_at _ m (cl_ev c) (cl_gates c) (cl_key c) -> served pr c m = Ok (w, mt) ->
  mholds _ pr sk (cl_key c) (cl_gates c) (cl_bits c) mt (cl_ev c) (fst w) (snd w) v' ->
  exists ls m' l, r = Ok (ls, m') /\ crowd pr cs m' /\ get ls i = Ok l /\ mholds _ pr sk (cl_key c) (cl_gates c) (cl_bits c) m' (cl_ev c) (fst l) (snd l) v' /\
    mdecrypts _ pr sk (cl_bits c) m' (fst l) v' /\ forall x, In x (fst l) -> free_of cs m' x.
Proof.
  intros TR HS HA E Hc S Hk KA X2 (X3 & _ & X3'). pose proof S as (GP & _). pose proof (get_in _ _ _ Hc) as Ic.
  destruct (cl_core R tw twi pr GP TR cs m HS HA sched r E) as (ls & m' & -> & Zl & H & HC & K).
  destruct (H i c Hc) as (l & w2 & mt2 & q & Y1 & Y2 & Y3 & Y3' & Y4 & Y5). rewrite X2 in Y2. injection Y2 as <- <-. exists ls, m', l. split; [reflexivity|]. split; [exact HC|]. split; [exact Y1|].
  assert (OUT: forall x, free_of cs m' x <-> moutside (map cl_work cs) m' x).
  { intro x. split; intros [F1 F2]; (split; [exact F1|]).
    - intros t Ht. apply in_map_iff in Ht. destruct Ht as (d & <- & Hd). exact (F2 d Hd).
    - intros d Hd. apply (F2 (cl_work d)). apply in_map. exact Hd. }
  assert (MT: matched _ (map cl_work cs) (cl_work c) mt m' q).
  { destruct Y3 as [Bj MV]. split; [exact Bj|]. intros x y Hxy. destruct (MV x y Hxy) as [A B]. split; [exact A|]. intro U. apply OUT, B, U. }
  destruct (transfer _ pr sk _ Hk (map cl_work cs) (cl_work c) mt m' q _ _ _ _ v' (in_map _ _ _ Ic) MT Y4 Y5 X3) as [Z1 Z2].
  assert (NT: forall x d, In d cs -> in_table x (gk_testvec (cl_gates c)) -> ~ cl_target d x).
  { intros x d Hd Hx HT. assert (GX: cl_given c x) by (right; right; exact Hx).
    destruct (in_get R tw twi cs d Hd) as (j & Hj). destruct (Z.eq_dec i j) as [<-|Hn].
    - rewrite Hc in Hj. injection Hj as <-. destruct HT as (o & _ & Go). rewrite Forall_forall in HA. destruct (HA c Ic) as (_ & _ & _ & (_ & _ & _ & N1 & N2) & _).
      pose proof (get_in _ _ _ Go). destruct Hx as [-> | ->]; contradiction.
    - apply (cl_get R tw twi) in Hc. destruct Hc as [Hi0 ->]. apply (cl_get R tw twi) in Hj. destruct Hj as [Hj0 ->].
      destruct (cl_apart R tw twi pr cs m HS i j Hi0 Hj0 Hn) as [_ TG]. apply (TG x). split; assumption. }
  assert (TV: forall x, in_table x (gk_testvec (cl_gates c)) -> user m' (cl_ev c) x /\ tm m' x = tm m x).
  { intros x Hx. destruct HS as (_ & _ & HS3). rewrite Forall_forall in HS3. destruct (K x (HS3 c Ic x (or_intror (or_intror Hx)))) as [[Q1 Q2] Q3].
    split; [split; [exact Q1|exact (Q2 c Ic)]|]. apply Q3. intros d Hd. exact (NT x d Hd Hx). }
  assert (MH: mholds _ pr sk (cl_key c) (cl_gates c) (cl_bits c) m' (cl_ev c) (fst l) (snd l) v').
  { split; [exact Z1|]. split.
    - destruct KA as (A1 & A2 & A3 & A4 & A5 & A6 & A7). destruct (TV _ (or_introl eq_refl)) as [U1 V1]. destruct (TV _ (or_intror eq_refl)) as [U2 V2].
      repeat split; try assumption; try (rewrite V1; assumption); try (rewrite V2; assumption); first [apply U1|apply U2].
    - intros x Hx Hin. apply (X3' x Hx). pose proof (Y3' x (or_intror (or_intror Hx))) as Cx. destruct Y3 as [Bj _]. clear - Y4 Hin Cx Bj.
      induction Y4 as [|a b p q0 Hab F IH]; [destruct Hin|]. destruct Hin as [->|Hin]; [left; apply (Bj _ _ _ _ Hab Cx); reflexivity|right; apply IH, Hin]. }
  split; [exact MH|]. split; [eapply mholds_decrypts; eassumption|]. intros x Hx. apply OUT, Z2, Hx.
Qed.

Lemma cr_honest R tw twi pr sk rk rb T v v' (cs : list (client R tw twi)) (m : mem (FP (fft_ops R tw twi))) sched r i c : transform R tw twi pr ->
  crowd pr cs m -> Forall (client_shape pr m) cs -> together (map (serve pr) cs) m sched = Some r -> get cs i = Ok c ->
  setup R (fft_ops R tw twi) pr sk rk rb (cl_key c) -> 2 <= cl_bits c < g_NBIT pr ->
  mholds _ pr sk (cl_key c) (cl_gates c) (cl_bits c) m (cl_ev c) (mw_cts (cl_work c)) (mw_tabs (cl_work c)) v ->
  mmeans (cl_bits c) T (round_err pr sk) (mw_calls (cl_work c)) v = Ok v' ->
  (forall f x, zlen x = lv0_N pr + 1 -> mix_noise _ pr (cl_key c) (cl_bits c) sk f x T) ->
  exists ls m' l, r = Ok (ls, m') /\ crowd pr cs m' /\ get ls i = Ok l /\ mholds _ pr sk (cl_key c) (cl_gates c) (cl_bits c) m' (cl_ev c) (fst l) (snd l) v' /\
    mdecrypts _ pr sk (cl_bits c) m' (fst l) v' /\ forall x, In x (fst l) -> free_of cs m' x.
Proof.
  intros TR HS HA E Hc S Hk Hh Hm HB. pose proof (get_in _ _ _ Hc) as Ic. pose proof HS as (HH & _). rewrite Forall_forall in HH. specialize (HH c Ic).
  destruct v as [[xs fs] es]. pose proof Hh as ([Hw Ht] & Hg & N). destruct (mmeans_inv pr sk _ _ _ _ _ _ _ Hm) as (xs' & fs' & es' & -> & Hp & Hl).
  destruct (h_honest R tw twi pr sk rk rb (cl_key c) (cl_ev c) (cl_gates c) (cl_bits c) T (mw_calls (cl_work c)) m (mw_cts (cl_work c)) (mw_tabs (cl_work c)) xs fs es xs' fs' es' TR S Hk HH Hg
    (N _ (or_introl eq_refl)) (N _ (or_intror eq_refl)) Hw Ht Hp Hl HB) as (nw & ts' & mt & Er & W1 & T1 & _ & _ & _ & Q1 & R1 & K1).
  eapply (cr_truth R tw twi pr sk rk rb (xs', fs', es') (mw_cts (cl_work c) ++ nw, ts') mt); try eassumption. cbn [fst snd]. eapply mholds_end; eassumption.
Qed.

Lemma cr_float64 mc tw twi pr sk rk rb Bb Bk d d' v v' (cs : list (client (f64_arith mc) tw twi)) (m : mem (FP (fft_ops (f64_arith mc) tw twi))) sched r i c : mc_ok mc ->
  transform (f64_arith mc) tw twi pr ->
  crowd pr cs m -> Forall (client_shape pr m) cs -> together (map (serve pr) cs) m sched = Some r -> get cs i = Ok c ->
  setup (f64_arith mc) (fft_ops (f64_arith mc) tw twi) pr sk rk rb (cl_key c) -> 2 <= cl_bits c < g_NBIT pr ->
  fft_error_within pr d d' -> key_noise_within pr rk rb Bb Bk -> 0 <= Bb -> 0 <= Bk -> 0 <= d' ->
  mholds _ pr sk (cl_key c) (cl_gates c) (cl_bits c) m (cl_ev c) (mw_cts (cl_work c)) (mw_tabs (cl_work c)) v ->
  mmeans (cl_bits c) (worst_noise pr sk Bb Bk d d') (round_err pr sk) (mw_calls (cl_work c)) v = Ok v' ->
  exists ls m' l, r = Ok (ls, m') /\ crowd pr cs m' /\ get ls i = Ok l /\ mholds _ pr sk (cl_key c) (cl_gates c) (cl_bits c) m' (cl_ev c) (fst l) (snd l) v' /\
    mdecrypts _ pr sk (cl_bits c) m' (fst l) v' /\ forall x, In x (fst l) -> free_of cs m' x.
Proof.
  intros Hmc TR HS HA E Hc S Hk Hf Hn HBb HBk Hd Hh Hm. pose proof (get_in _ _ _ Hc) as Ic. pose proof HS as (HH & _). rewrite Forall_forall in HH. specialize (HH c Ic).
  destruct v as [[xs fs] es]. pose proof Hh as ([Hw Ht] & Hg & N). destruct (mmeans_inv pr sk _ _ _ _ _ _ _ Hm) as (xs' & fs' & es' & -> & Hp & Hl).
  destruct (h_float64 mc tw twi pr sk rk rb (cl_key c) Bb Bk d d' (cl_ev c) (cl_gates c) (cl_bits c) (mw_calls (cl_work c)) m (mw_cts (cl_work c)) (mw_tabs (cl_work c)) xs fs es xs' fs' es' Hmc TR S Hf Hn HBb HBk Hd Hk HH Hg
    (N _ (or_introl eq_refl)) (N _ (or_intror eq_refl)) Hw Ht Hp Hl) as (nw & ts' & mt & Er & W1 & T1 & _ & _ & _ & Q1 & R1 & K1).
  eapply (cr_truth (f64_arith mc) tw twi pr sk rk rb (xs', fs', es') (mw_cts (cl_work c) ++ nw, ts') mt); try eassumption. cbn [fst snd]. eapply mholds_end; eassumption.
Qed.

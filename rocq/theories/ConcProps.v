(** * Goroutines with an evaluator each, and goroutines that share one *)
From Coq Require Import Lia ZifyBool Setoid Morphisms.
From Verif Require Import GoBase GoFacts GoMem MemFacts F64 Utils UtilsFacts Params Key Tlwe TlweMem TlweFacts BasicFacts
  Poly PolyFacts NegFacts Laws Fft FftTabErr Trlwe TrlweFacts Trgsw TrgswFacts RotFacts KeySwitchFacts Lut Evaluator EvalFacts
  CloudKey CloudKeyFacts Gates LinFacts RunSpec HeapFacts BootFacts Circuit GateFacts NoiseFacts RunProps RunWorst Conc ConcSpec ConcFacts ConcRel ConcOps.
Import ListNotations.
Local Open Scope Z_scope.
Ltac Zify.zify_post_hook ::= idtac.

Lemma ordpairs_znd {A} (P : A -> A -> Prop) d l : ForallOrdPairs P l -> forall i j, 0 <= i -> i < j -> j < zlen l -> P (znd d l i) (znd d l j).
Proof.
  induction 1 as [|a l Ha H IH]; intros i j Hi Hij Hj; [unfold zlen in Hj; cbn [length] in Hj; lia|].
  assert (Z1: zlen (a :: l) = zlen l + 1) by (unfold zlen; cbn [length]; lia).
  change (a :: l) with ([a] ++ l). rewrite (znd_app2 d [a] l j) by (unfold zlen; cbn [length]; lia). change (zlen [a]) with 1.
  destruct (Z.eq_dec i 0) as [->|Hn].
  - change (P a (znd d l (j - 1))). rewrite Forall_forall in Ha. apply Ha. unfold znd. apply nth_In. unfold zlen in *. lia.
  - rewrite znd_app2 by (unfold zlen; cbn [length]; lia). change (zlen [a]) with 1. apply IH; lia.
Qed.

Lemma forall2_get {A B} (P : A -> B -> Prop) l : forall l', zlen l' = zlen l -> (forall i a, get l i = Ok a -> exists b, get l' i = Ok b /\ P a b) -> Forall2 P l l'.
Proof.
  induction l as [|a l IH]; intros [|b l'] Hl H; unfold zlen in Hl; cbn [length] in Hl; try lia; constructor.
  - destruct (H 0 a eq_refl) as (b' & E & Hb). injection E as <-. exact Hb.
  - apply IH; [unfold zlen; lia|]. intros i c Hc. pose proof (get_inv a _ _ _ Hc) as [Hi _].
    assert (G: forall T (x : T) y, 0 <= i -> get (x :: y) (i + 1) = get y i).
    { intros T x y Hy. unfold get. destruct (i + 1 <? 0) eqn:E1; [lia|]. destruct (i <? 0) eqn:E2; [lia|]. replace (Z.to_nat (i + 1)) with (Datatypes.S (Z.to_nat i)) by lia. reflexivity. }
    destruct (H (i + 1) c) as (b' & E & Hb); [rewrite G by lia; exact Hc|]. rewrite G in E by lia. exists b'. split; assumption.
Qed.

Lemma get_cons {A} (x a : A) l i : get (x :: l) i = Ok a -> (i = 0 /\ x = a) \/ get l (i - 1) = Ok a.
Proof.
  unfold get. destruct (i <? 0) eqn:Ei; [discriminate|]. destruct (Z.eq_dec i 0) as [->|Hi].
  - cbn. intro H. injection H as <-. left. split; reflexivity.
  - intro H. right. destruct (i - 1 <? 0) eqn:Ej; [lia|]. replace (Z.to_nat i) with (Datatypes.S (Z.to_nat (i - 1))) in H by lia. exact H.
Qed.

Lemma get_nil {A} (a : A) i : get [] i = Ok a -> False.
Proof. unfold get. destruct (i <? 0); [discriminate|]. destruct (Z.to_nat i); discriminate. Qed.

Lemma get_forall2 {A B} (P : A -> B -> Prop) l l' : Forall2 P l l' -> forall i a, get l i = Ok a -> exists b, get l' i = Ok b /\ P a b.
Proof.
  induction 1 as [|x y l l' H0 H IH]; intros i a Ha; [destruct (get_nil _ _ Ha)|]. destruct (get_cons _ _ _ _ Ha) as [[-> <-]|Hi].
  - exists y. split; [reflexivity|exact H0].
  - destruct (IH _ _ Hi) as (b & Hb & Hp). exists b. split; [|exact Hp]. pose proof (get_inv b _ _ _ Hb) as [Hj _]. revert Hb. unfold get.
    destruct (i - 1 <? 0) eqn:E1; [lia|]. destruct (i <? 0) eqn:E2; [lia|]. replace (Z.to_nat i) with (Datatypes.S (Z.to_nat (i - 1))) by lia. exact (fun H => H).
Qed.

Section Separate.
Context (R : arith) (O : fops) (pr : pset) (sk : SecretKey) (rk : Z -> enc_rand) (rb : Z -> Z -> trlwe_rand) (ck : CloudKey O)
  (S : setup R O pr sk rk rb ck).
Notation M := (mem (FP O)).
Context (ts : list (worker O)) (m : M) (HS : separate pr ts m)
  (HA : Forall (fun t => exists w mt, alone pr t m = Ok (w, mt)) ts).

Let d0 : worker O := {| wk_ev := {| ev_pe := {| pe_deg := 0; pe_t := 0; pe_f := 0; pe_i := 0 |}; ev_dec := {| dc_t := 0; dc_f := 0; dc_levels := 0 |};
  ev_bp := {| bp_t := 0; bp_f := 0; bp_i := 0 |} |}; wk_key := {| gk_offset := 0; gk_testvec := {| rA := 0; rB := 0 |}; gk_ksk := []; gk_bsk := [] |}; wk_calls := []; wk_in := [] |}.
Notation th := (znd d0 ts).
Let Rd (i : Z) : rel := fun x y => x = y /\ given (th i) x.
Let W0 (i : Z) : rel := fun x y => x = y /\ own (wk_ev (th i)) x.
Let Wf (i : Z) := fown (wk_ev (th i)).
Let Wi (i : Z) := iown (wk_ev (th i)).
Let sol (i : Z) : list Z * M := match alone pr (th i) m with Ok r => r | Panic _ => ([], m) end.
Let QW (i : Z) : rel -> list Z -> list Z -> Prop := fun W => Forall2 (acc (Rd i) W).
Lemma th_in i : 0 <= i < zlen ts -> In (th i) ts.
Proof. intro Hi. unfold znd. apply nth_In. unfold zlen in Hi. lia. Qed.
Lemma th_reach i : 0 <= i < zlen ts -> reachable O pr (wk_ev (th i)) m.
Proof. intro Hi. destruct HS as [H _]. rewrite Forall_forall in H. apply H, th_in, Hi. Qed.
Lemma th_given i x : 0 <= i < zlen ts -> given (th i) x -> outside ts m x.
Proof. intros Hi Hx. destruct HS as (_ & _ & H). rewrite Forall_forall in H. apply (H _ (th_in i Hi)), Hx. Qed.
Lemma th_apart i j : 0 <= i < zlen ts -> 0 <= j < zlen ts -> i <> j -> apart (wk_ev (th i)) (wk_ev (th j)).
Proof.
  intros Hi Hj Hn. destruct HS as (_ & H & _). destruct (Z_lt_dec i j).
  - apply (ordpairs_znd _ d0 ts H); lia.
  - pose proof (ordpairs_znd _ d0 ts H j i ltac:(lia) ltac:(lia) ltac:(lia)) as X. intro x. cbv beta in X. specialize (X x). tauto.
Qed.
Lemma th_sol i : 0 <= i < zlen ts -> alone pr (th i) m = Ok (sol i).
Proof. intro Hi. rewrite Forall_forall in HA. destruct (HA _ (th_in i Hi)) as (w & mt & E). unfold sol. rewrite E. reflexivity. Qed.
Lemma th_get i t : get ts i = Ok t -> 0 <= i < zlen ts /\ t = th i.
Proof. apply get_inv. Qed.

Lemma th_own i x : 0 <= i < zlen ts -> own (wk_ev (th i)) x -> 0 <= x < tnext m.
Proof.
  intros Hi Hx. pose proof (th_reach i Hi) as Hr. pose proof S as S'. open_setup S'. destruct (reach_ok L pr W HBG _ _ Hr) as [He _]. destruct He. unfold own in Hx. lia.
Qed.
Lemma th_shape i : 0 <= i < zlen ts -> shape (wk_ev (th i)).
Proof.
  intros Hi. pose proof (th_reach i Hi) as Hr. pose proof S as S'. open_setup S'. destruct (reach_ok L pr W HBG _ _ Hr) as [He _]. destruct He.
  pose proof (pw_l _ _ W). constructor; lia.
Qed.

Lemma start : inv (zlen ts) Rd Wf Wi W0 m QW sol (map (work pr) ts) m W0 (fun i => cost (work pr (th i)) m).
Proof.
  constructor.
  - unfold zlen. rewrite map_length. reflexivity.
  - intros i Hi. exists (work pr (th i)), m.
    assert (E: znd (Fail PNil) (map (work pr) ts) i = work pr (th i)).
    { unfold znd. rewrite (nth_indep _ (Fail PNil) (work pr d0)) by (rewrite map_length; unfold zlen in Hi; lia). apply map_nth. }
    rewrite E. split; [|split; [|split; [|reflexivity]]].
    + unfold work, QW. apply pr_exec.
      * exact (th_shape i Hi).
      * intros f Hf. exact Hf.
      * intros f Hf. exact Hf.
      * intros x Hx. split; [reflexivity|exact Hx].
      * assert (G: forall x, In x (wk_in (th i)) -> Rd i x x) by (intros x Hx; split; [reflexivity|left; exact Hx]).
        revert G. generalize (wk_in (th i)). intro l. induction l as [|x l IH]; intro G; constructor; [left; apply G; left; reflexivity|apply IH; intros y Hy; apply G; right; exact Hy].
      * left. split; [reflexivity|]. right. left. reflexivity.
      * left. split; [reflexivity|]. right. right. reflexivity.
    + constructor; try reflexivity; try lia.
      * intros x y x' y' [[<- _]|[<- _]] [[<- _]|[<- _]]; tauto.
      * intros x y [[<- H]|[<- H]]; [destruct (th_given i x Hi H)|pose proof (th_own i x Hi H)]; lia.
      * intros x y [[<- H]|[<- H]]; reflexivity.
    + unfold work. rewrite run_exec. exact (th_sol i Hi).
  - intros i j x x' y Hi Hj Hn [<- H1] [[<- H2]|[<- H2]].
    + destruct (th_given j x' Hj H2) as [_ G]. exact (G _ (th_in i Hi) H1).
    + destruct (th_apart i j Hi Hj Hn x') as (A & _ & _). apply A. split; [exact H1|exact H2].
  - intros i Hi. apply sub_refl.
  - intros i x y Hi H. left. exact H.
  - reflexivity.
  - reflexivity.
  - reflexivity.
  - lia.
Qed.

Lemma HWf0 i j f : 0 <= i < zlen ts -> 0 <= j < zlen ts -> i <> j -> Wf i f -> Wf j f -> False.
Proof. intros Hi Hj Hn H1 H2. destruct (th_apart i j Hi Hj Hn f) as (_ & A & _). apply A. split; assumption. Qed.
Lemma HWi0 i j f : 0 <= i < zlen ts -> 0 <= j < zlen ts -> i <> j -> Wi i f -> Wi j f -> False.
Proof. intros Hi Hj Hn H1 H2. destruct (th_apart i j Hi Hj Hn f) as (_ & _ & A). apply A. split; assumption. Qed.

Lemma in_th t : In t ts -> exists i, 0 <= i < zlen ts /\ t = th i.
Proof. intro H. apply In_nth with (d := d0) in H. destruct H as (i & Hi & <-). exists (Z.of_nat i). unfold zlen, znd. rewrite Nat2Z.id. split; [lia|reflexivity]. Qed.

Lemma c_core sched r : together (map (work pr) ts) m sched = Some r ->
  exists ls m', r = Ok (ls, m') /\ zlen ls = zlen ts /\
    (forall i t, get ts i = Ok t -> exists l w mt, get ls i = Ok l /\ alone pr t m = Ok (w, mt) /\
       Forall2 (fun x y => tm m' y = tm mt x /\ (user mt (wk_ev t) x -> outside ts m' y)) w l /\
       (reachable O pr (wk_ev t) mt -> reachable O pr (wk_ev t) m')) /\
    (forall x, outside ts m x -> outside ts m' x /\ tm m' x = tm m x).
Proof.
  intro E. destruct (inv_together _ _ _ _ _ _ _ _ HWf0 HWi0 sched _ _ _ r start E) as (ls & m' & W' & -> & Zl & [c' IV] & H).
  exists ls, m'. split; [reflexivity|]. split; [exact Zl|]. pose proof (iv_n _ _ _ _ _ _ _ _ _ _ _ _ IV) as (N1 & N2 & N3). split.
  - intros i t Ht. apply th_get in Ht. destruct Ht as [Hi ->]. destruct (H i [] Hi) as [HQ HW]. pose proof (th_sol i Hi) as Es. destruct (sol i) as [w mt] eqn:Esol. cbn [fst snd] in HQ, HW.
    exists (znd [] ls i), w, mt. split; [apply get_ok; lia|]. split; [exact Es|]. pose proof (iv_W0 _ _ _ _ _ _ _ _ _ _ _ _ IV) as IW0. pose proof (iv_W _ _ _ _ _ _ _ _ _ _ _ _ IV i Hi) as IW.
    destruct HW as [B1 B2 B3 B4 B5 B6]. split.
    + unfold QW in HQ. clear Es Esol. set (l := znd [] ls i) in *. clearbody l. clear H. induction HQ as [|x y w l Hxy HQ IH]; constructor; [|exact IH]. split; [symmetry; apply B3, Hxy|].
      intros [_ Hu]. destruct Hxy as [[<- Hg]|Hxy].
      * destruct (th_given i x Hi Hg) as [G1 G2]. split; [lia|exact G2].
      * pose proof (B2 x y (or_intror Hxy)) as [L1 L2]. destruct (IW0 i x y Hi Hxy) as [[<- Ho]|Ho]; [contradiction|].
        assert (P0: 0 <= tnext m). { pose proof (th_reach i Hi) as Hr. pose proof S as S'. open_setup S'. destruct (reach_ok L pr W HBG _ _ Hr) as [_ [P0 _]]. exact P0. }
        split; [lia|]. intros t Ht Hot. apply in_th in Ht. destruct Ht as (j & Hj & ->). pose proof (th_own j y Hj Hot). lia.
    + intro Hr. pose proof S as S'. open_setup S'. eapply (reach_other L pr W HBG); [exact Hr| | | |lia|lia|lia].
      * intros x Hx. symmetry. apply B3. right. apply IW. split; [reflexivity|exact Hx].
      * intros f Hf. symmetry. apply B4. exact Hf.
      * intros f Hf. symmetry. apply B5. exact Hf.
  - intros x [Hx Ho]. split; [split; [lia|exact Ho]|]. apply (iv_t _ _ _ _ _ _ _ _ _ _ _ _ IV); [lia|]. intros i z Hi [-> Hz]. exact (Ho _ (th_in i Hi) Hz).
Qed.

Lemma c_ends sched : turns pr ts m sched -> exists r, together (map (work pr) ts) m sched = Some r.
Proof.
  intros [T1 T2]. refine (inv_ends _ _ _ _ _ _ _ _ HWf0 HWi0 sched _ _ _ start T1 _). intros i Hi. apply T2. apply get_ok. exact Hi.
Qed.

Lemma c_same sched r : together (map (work pr) ts) m sched = Some r ->
  exists ls m', r = Ok (ls, m') /\
    Forall2 (fun t l => exists w mt, alone pr t m = Ok (w, mt) /\ map (tm m') l = map (tm mt) w) ts ls /\
    (forall x, outside ts m x -> outside ts m' x /\ tm m' x = tm m x).
Proof.
  intro E. destruct (c_core sched r E) as (ls & m' & -> & Zl & H & K). exists ls, m'. split; [reflexivity|]. split; [|exact K].
  assert (G: forall i t, get ts i = Ok t -> exists l, get ls i = Ok l /\ exists w mt, alone pr t m = Ok (w, mt) /\ map (tm m') l = map (tm mt) w).
  { intros i t Ht. destruct (H i t Ht) as (l & w & mt & El & Ea & F & _). exists l. split; [exact El|]. exists w, mt. split; [exact Ea|]. clear - F. induction F as [|x y w l [Hxy _] F IH]; [reflexivity|].
    cbn [map]. rewrite IH. f_equal. exact Hxy. }
  apply forall2_get; assumption.
Qed.
End Separate.

Lemma cost_nonneg {O A} (p : prog O A) : forall m, 0 <= cost p m.
Proof.
  induction p; intro m0; cbn [cost]; try (destruct (alloc m0 v));
    repeat match goal with |- context [match ?r with Ok _ => _ | Panic _ => _ end] => destruct r end; try lia;
    match goal with
    | IH : forall x m, 0 <= cost (?f x) m |- context [cost (?f ?x) ?m] => pose proof (IH x m); lia
    | IH : forall m, 0 <= cost ?q m |- context [cost ?q ?m] => pose proof (IH m); lia
    | _ => idtac
    end.
Qed.

Lemma turns_exist {O} pr (ts : list (worker O)) (m : mem (FP O)) : exists sched, turns pr ts m sched.
Proof.
  set (c := fun t : worker O => cost (work pr t) m).
  assert (G: forall l j, exists sched, (forall i, In i sched -> j <= i < j + zlen l) /\ forall i t, get l (i - j) = Ok t -> Z.of_nat (count_occ Z.eq_dec sched i) = c t).
  { induction l as [|t l IH]; intro j.
    - exists []. split; [intros i []|]. intros i t Ht. destruct (get_nil _ _ Ht).
    - destruct (IH (j + 1)) as (s & H1 & H2). exists (repeat j (Z.to_nat (c t)) ++ s). assert (Zl: zlen (t :: l) = zlen l + 1) by (unfold zlen; cbn [length]; lia). pose proof (zlen_nonneg l). split.
      + intros i Hi. apply in_app_or in Hi. destruct Hi as [Hi|Hi]; [apply repeat_spec in Hi|apply H1 in Hi]; lia.
      + intros i u Hu. rewrite count_occ_app. destruct (get_cons _ _ _ _ Hu) as [[Hi <-]|Hi].
        * assert (i = j) by lia. subst i. rewrite count_occ_repeat_eq by reflexivity. rewrite (proj1 (count_occ_not_In Z.eq_dec s j)) by (intro Hj; apply H1 in Hj; lia).
          assert (0 <= c t) by apply cost_nonneg. lia.
        * pose proof (get_inv u _ _ _ Hi) as [Hj _]. rewrite count_occ_repeat_neq by lia. cbn [Nat.add]. apply H2. replace (i - (j + 1)) with (i - j - 1) by lia. exact Hi. }
  destruct (G ts 0) as (s & H1 & H2). exists s. split; [exact H1|]. intros i t Ht. apply H2. rewrite Z.sub_0_r. exact Ht.
Qed.

Section Start.
Context (R : arith) (O : fops) (pr : pset) (sk : SecretKey) (rk : Z -> enc_rand) (rb : Z -> Z -> trlwe_rand) (ck : CloudKey O)
  (S : setup R O pr sk rk rb ck).
Notation M := (mem (FP O)).

Lemma new_worker (ts : list (worker O)) (m : M) k p w : mem_ok m -> separate pr ts m ->
  (forall x, In x w \/ x = rA (gk_testvec k) \/ x = rB (gk_testvec k) -> outside ts m x) ->
  exists e m', let t := {| wk_ev := e; wk_key := k; wk_calls := p; wk_in := w |} in
    mem_ok m' /\ separate pr (t :: ts) m' /\ forall x, outside ts m x -> outside (t :: ts) m' x /\ tm m' x = tm m x.
Proof.
  intros Hm (H1 & H2 & H3) Hw. pose proof S as S'. open_setup S'. destruct (NewEvaluator_ok L pr W m Hm) as (e & m' & E & He & G & OW & FW & IW & _).
  pose proof (gr_n _ _ _ _ _ _ G) as (N1 & N2 & N3). destruct Hm as (M1 & M2 & M3). exists e, m'. intro t. split; [unfold mem_ok; lia|].
  assert (OLD: forall u, In u ts -> (forall x, own (wk_ev u) x -> x < tnext m) /\ (forall x, fown (wk_ev u) x -> x < fnext m) /\ (forall x, iown (wk_ev u) x -> x < inext m)).
  { intros u Hu. rewrite Forall_forall in H1. destruct (reach_ok L pr W HBG _ _ (H1 u Hu)) as [[] _]. unfold own, fown, iown. repeat split; intros; lia. }
  assert (OUT: forall x, outside ts m x -> outside (t :: ts) m' x /\ tm m' x = tm m x).
  { intros x [X1 X2]. split.
    - split; [lia|]. intros u [<-|Hu]; [|apply X2, Hu]. cbn [t wk_ev]. rewrite OW. lia.
    - apply (gr_t _ _ _ _ _ _ G); [lia|intros []]. }
  split; [|exact OUT]. split; [|split].
  - constructor.
    + apply r_new with (pr0 := pr) (m := m); [unfold mem_ok; lia| |exact E]. pose proof (pw_l _ _ W). unfold serves. lia.
    + rewrite Forall_forall in *. intros u Hu. destruct (OLD u Hu) as (Q1 & Q2 & Q3). eapply (reach_other L pr W HBG); [exact (H1 u Hu)| | | |lia|lia|lia].
      * intros x Hx. apply (gr_t _ _ _ _ _ _ G); [apply Q1, Hx|intros []].
      * intros x Hx. apply (gr_f _ _ _ _ _ _ G); [apply Q2, Hx|intros []].
      * intros x Hx. apply (gr_i _ _ _ _ _ _ G); [apply Q3, Hx|intros []].
  - constructor; [|exact H2]. rewrite Forall_forall. intros u Hu x. cbn [t wk_ev]. destruct (OLD u Hu) as (Q1 & Q2 & Q3). rewrite OW, FW, IW.
    split; [intros [A B]; apply Q1 in B; lia|]. split; [intros [A B]; apply Q2 in B; lia|intros [A B]; apply Q3 in B; lia].
  - constructor; [intros x Hx; apply OUT, Hw; exact Hx|]. rewrite Forall_forall in *. intros u Hu x Hx. apply OUT. exact (H3 u Hu x Hx).
Qed.

Lemma c_start (calls : list (list instr)) bits (r : Z -> enc_rand) E : (forall i, Z.abs (centered (F64ToTorus (er_noise (r i)))) <= E) ->
  exists (ts : list (worker O)) m, separate pr ts m /\ map wk_calls ts = calls /\
    Forall (fun t => key_at O m (wk_ev t) (wk_key t) ck /\ wires O pr (wk_ev t) sk m (wk_in t) bits E) ts.
Proof.
  intro HE. destruct (p_start_bits R O pr sk rk rb ck S bits r E HE) as (e & m0 & k & w & Hr & Hk & Hw).
  assert (Hm0: mem_ok m0). { pose proof S as S'. open_setup S'. apply (reach_ok L pr W HBG e m0 Hr). }
  set (inn := fun x => In x w \/ x = rA (gk_testvec k) \/ x = rB (gk_testvec k)).
  assert (IN: forall x, inn x -> 0 <= x < tnext m0).
  { intros x [H|[H|H]].
    - clear - Hw H. unfold wires in Hw. induction Hw as [|y b w v [Hu _] Hw IH]; [destruct H|]. destruct H as [<-|H]; [apply Hu|apply IH, H].
    - subst. apply Hk.
    - subst. apply Hk. }
  assert (G: exists ts m, mem_ok m /\ separate pr ts m /\ map wk_calls ts = calls /\ Forall (fun t => wk_key t = k /\ wk_in t = w) ts /\
     forall x, inn x -> outside ts m x /\ tm m x = tm m0 x).
  { induction calls as [|p calls IH].
    - exists [], m0. split; [exact Hm0|]. split; [repeat split; constructor|]. split; [reflexivity|]. split; [constructor|]. intros x Hx. split; [|reflexivity]. split; [apply IN, Hx|intros t []].
    - destruct IH as (ts & m & A1 & A2 & A3 & A4 & A5). destruct (new_worker ts m k p w A1 A2 (fun x Hx => proj1 (A5 x Hx))) as (e1 & m1 & B1 & B2 & B3).
      exists ({| wk_ev := e1; wk_key := k; wk_calls := p; wk_in := w |} :: ts), m1. split; [exact B1|]. split; [exact B2|]. split; [cbn [map wk_calls]; rewrite A3; reflexivity|].
      split; [constructor; [split; reflexivity|exact A4]|]. intros x Hx. destruct (A5 x Hx) as [C1 C2]. destruct (B3 x C1) as [D1 D2]. split; [exact D1|congruence]. }
  destruct G as (ts & m & _ & A2 & A3 & A4 & A5). exists ts, m. split; [exact A2|]. split; [exact A3|]. rewrite Forall_forall in *. intros t Ht. destruct (A4 t Ht) as [-> ->].
  assert (U: forall x, inn x -> user m (wk_ev t) x) by (intros x Hx; destruct (A5 x Hx) as [[X1 X2] _]; split; [exact X1|exact (X2 t Ht)]).
  split.
  - destruct Hk as (K1 & K2 & K3 & K4 & K5 & _). assert (I1: inn (rA (gk_testvec k))) by (right; left; reflexivity). assert (I2: inn (rB (gk_testvec k))) by (right; right; reflexivity).
    split; [exact K1|]. split; [exact K2|]. split; [exact K3|]. split; [rewrite <- K4; apply A5, I1|]. split; [rewrite <- K5; apply A5, I2|]. split; apply U; assumption.
  - unfold wires in *. assert (Q: forall x, In x w -> inn x) by (intros x Hx; left; exact Hx). clearbody inn. clear - Hw Q U A5. induction Hw as [|x b w v [_ He] Hw IH]; constructor.
    + split; [apply U, Q; left; reflexivity|]. destruct (A5 x (Q x (or_introl eq_refl))) as [_ ->]. exact He.
    + apply IH. intros y Hy. apply Q. right. exact Hy.
Qed.
End Start.

Section Truth.
Context (mc : machine) (O : fops) (pr : pset) (sk : SecretKey) (rk : Z -> enc_rand) (rb : Z -> Z -> trlwe_rand) (ck : CloudKey O)
  (Hcis : mc_ok mc) (S : setup (f64_arith mc) O pr sk rk rb ck) (Bb Bk d d' : Z)
  (Hfft : fft_error_within pr d d') (Hnoise : key_noise_within pr rk rb Bb Bk) (HBb : 0 <= Bb) (HBk : 0 <= Bk) (Hd' : 0 <= d').
Notation M := (mem (FP O)).
Notation T := (worst_noise pr sk Bb Bk d d').

Lemma c_alone (ts : list (worker O)) vs (m : M) E : separate pr ts m ->
  Forall2 (fun t v => key_at O m (wk_ev t) (wk_key t) ck /\ wires O pr (wk_ev t) sk m (wk_in t) v E /\ exists v', plain (wk_calls t) v = Ok v') ts vs ->
  1 <= E -> T <= E -> 3 * E + round_err pr sk < 2 ^ 29 -> Forall (fun t => exists w mt, alone pr t m = Ok (w, mt)) ts.
Proof.
  intros [H1 _] HV HE HT Hm. induction HV as [|t v ts vs (Hk & Hw & v' & Hp) HV IH]; constructor; inversion H1; subst; [|apply IH; assumption].
  destruct (p_circuit_worst mc O pr sk rk rb ck Hcis S Bb Bk d d' Hfft Hnoise HBb HBk Hd' (wk_calls t) (wk_ev t) m (wk_key t) (wk_in t) v v' E ltac:(assumption) Hk Hw HE HT Hm Hp)
    as (w' & mt & X & _). exists (wk_in t ++ w'), mt. exact X.
Qed.

Lemma c_truth (ts : list (worker O)) vs (m : M) E sched r : separate pr ts m ->
  Forall2 (fun t v => key_at O m (wk_ev t) (wk_key t) ck /\ wires O pr (wk_ev t) sk m (wk_in t) v E /\ exists v', plain (wk_calls t) v = Ok v') ts vs ->
  1 <= E -> T <= E -> 3 * E + round_err pr sk < 2 ^ 29 -> together (map (work pr) ts) m sched = Some r ->
  exists ls m', r = Ok (ls, m') /\ zlen ls = zlen ts /\
    (forall i t v v', get ts i = Ok t -> get vs i = Ok v -> plain (wk_calls t) v = Ok v' -> exists l, get ls i = Ok l /\
       Forall2 (fun x b => outside ts m' x /\ encrypts (lv0_N pr) (KeyLv0 sk) (tm m' x) b E /\ DecryptBool (lv0_N pr) (tm m' x) (KeyLv0 sk) = Ok b) l v') /\
    separate pr ts m' /\ (forall x, outside ts m x -> outside ts m' x /\ tm m' x = tm m x).
Proof.
  intros HS HV HE HT Hm Et0.
  assert (AL: forall i t v v', get ts i = Ok t -> get vs i = Ok v -> plain (wk_calls t) v = Ok v' -> exists w mt, alone pr t m = Ok (w, mt) /\
     wires O pr (wk_ev t) sk mt w v' E /\ Forall2 (fun x b => DecryptBool (lv0_N pr) (tm mt x) (KeyLv0 sk) = Ok b) w v' /\ reachable O pr (wk_ev t) mt).
  { intros i t v v' Ht Hv Hp.
    assert (X: key_at O m (wk_ev t) (wk_key t) ck /\ wires O pr (wk_ev t) sk m (wk_in t) v E).
    { destruct (get_forall2 _ _ _ HV _ _ Ht) as (v2 & Hv2 & X). rewrite Hv in Hv2. injection Hv2 as <-. tauto. }
    destruct X as [Hk Hw]. assert (Hr: reachable O pr (wk_ev t) m).
    { destruct HS as [H1 _]. rewrite Forall_forall in H1. apply H1. apply get_inv with (d := t) in Ht. destruct Ht as [Hi ->]. unfold znd. apply nth_In. unfold zlen in Hi. lia. }
    destruct (p_circuit_worst mc O pr sk rk rb ck Hcis S Bb Bk d d' Hfft Hnoise HBb HBk Hd' (wk_calls t) (wk_ev t) m (wk_key t) (wk_in t) v v' E Hr Hk Hw HE HT Hm Hp)
      as (w' & mt & X1 & X3 & _ & X4 & _ & X2).
    exists (wk_in t ++ w'), mt. auto. }
  assert (LV: zlen vs = zlen ts) by (clear - HV; induction HV; unfold zlen in *; cbn [length]; lia).
  assert (PV: forall i t, get ts i = Ok t -> exists v v', get vs i = Ok v /\ plain (wk_calls t) v = Ok v').
  { intros i t Ht. destruct (get_forall2 _ _ _ HV _ _ Ht) as (v & Hv & _ & _ & v' & Hp). exists v, v'. split; assumption. }
  assert (HA: Forall (fun t => exists w mt, alone pr t m = Ok (w, mt)) ts).
  { rewrite Forall_forall. intros t Ht. apply In_nth with (d := t) in Ht. destruct Ht as (i & Hi & Et).
    assert (Gt: get ts (Z.of_nat i) = Ok t) by (rewrite (get_ok t) by (unfold zlen; lia); unfold znd; rewrite Nat2Z.id, Et; reflexivity).
    destruct (PV _ _ Gt) as (v & v' & Gv & Hp). destruct (AL _ _ _ _ Gt Gv Hp) as (w & mt & X & _). eauto. }
  destruct (c_core _ O pr sk rk rb ck S ts m HS HA sched r Et0) as (ls & m' & -> & Zl & H & K). exists ls, m'. split; [reflexivity|]. split; [exact Zl|].
  split; [|split; [|exact K]].
  - intros i t v v' Ht Hv Hp. destruct (AL i t v v' Ht Hv Hp) as (w & mt & X1 & X2 & X3 & _). destruct (H i t Ht) as (l & w2 & mt2 & Y1 & Y2 & Y3 & _).
    rewrite X1 in Y2. injection Y2 as <- <-. exists l. split; [exact Y1|]. clear - X2 X3 Y3. unfold wires in X2. revert l Y3. induction X2 as [|x b w v' [Hu He] X2 IH]; intros l Y3.
    + inversion Y3. constructor.
    + inversion Y3 as [|? y ? l' [Z1 Z2] Y3']; subst. inversion X3; subst. constructor; [|apply IH; assumption]. rewrite Z1. split; [apply Z2, Hu|]. split; assumption.
  - destruct HS as (H1 & H2 & H3). split; [|split; [exact H2|]].
    + rewrite Forall_forall. intros t Ht. apply In_nth with (d := t) in Ht. destruct Ht as (i & Hi & Et).
      assert (Gt: get ts (Z.of_nat i) = Ok t) by (rewrite (get_ok t) by (unfold zlen; lia); unfold znd; rewrite Nat2Z.id, Et; reflexivity).
      destruct (PV _ _ Gt) as (v & v' & Gv & Hp). destruct (AL _ _ _ _ Gt Gv Hp) as (w & mt & X & _ & _ & Xr). destruct (H _ _ Gt) as (l & w2 & mt2 & _ & Y2 & _ & Yr).
      rewrite X in Y2. injection Y2 as <- <-. apply Yr, Xr.
    + rewrite Forall_forall in *. intros t Ht x Hx. apply K. exact (H3 t Ht x Hx).
Qed.
End Truth.

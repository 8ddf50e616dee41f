(** * Several batches in flight: every schedule *)
From Coq Require Import Lia ZifyBool Setoid Morphisms List.
From Verif Require Import GoBase GoFacts GoMem F64 Utils Spec Params Key Tlwe TlweMem Poly Fft Trlwe Trgsw Evaluator CloudKey Gates RunSpec BatchSpec Flight FlightSpec
  MemFacts TlweFacts PolyFacts NegFacts Laws TrlweFacts TrgswFacts RotFacts EvalFacts HeapFacts OldRotFacts CloudKeyFacts CallFacts BootFacts BatchFacts.
Import ListNotations.
Local Open Scope Z_scope.
Ltac Zify.zify_post_hook ::= idtac.

Definition job0 {O} : fjob O := {| fj_src := 0; fj_testvec := {| rA := 0; rB := 0 |}; fj_bsk := []; fj_offset := 0 |}.
Lemma get_src {O} (jobs : list (fjob O)) i : 0 <= i < zlen jobs -> get (map (fj_src O) jobs) i = Ok (fj_src O (znd job0 jobs i)).
Proof.
  intro Hi. rewrite (get_ok 0) by (unfold zlen in *; rewrite map_length; exact Hi). f_equal. unfold znd. destruct (i <? 0) eqn:E; [lia|].
  change 0 with (fj_src O (@job0 O)) at 1. apply map_nth.
Qed.

Section Flight.
Context {O : fops} {N : Z} (L : flaws O N) (pr : pset) (W : pwf pr N) (HBG : g_BG pr = 2 ^ g_BGBIT pr).
Notation M := (mem (FP O)).
Notation n := (lv0_N pr).
Notation l := (g_L pr). Notation bg := (g_BGBIT pr). Notation nb := (g_NBIT pr).

Notation good := (BatchFacts.good L). Notation same := (@BatchFacts.same O). Notation grew := (@BatchFacts.grew O).

Context (m0 : M) (pool0 : list peval) (jobs : list (fjob O)) (tv : Z -> trlwe)
  (Hbsk : forall i j, get jobs i = Ok j -> bsk_ok L pr (fj_bsk O j))
  (Hargs : forall i j, get jobs i = Ok j -> batch_args O pr m0 pool0 [fj_src O j] (fj_testvec O j) (tv i)).
Notation K := (zlen jobs).
Notation job i := (znd job0 jobs i).
Notation brp i k := (br_acc L bg l (fj_offset O (job i)) nb n (fj_bsk O (job i)) (tm m0 (fj_src O (job i))) (tv i) k).
Notation gor_at s i := (znd GDone (bs_gor O s) i).
Notation res_at s i := (znd None (bs_results O s) i).
Notation out0 x := (outside_pool O m0 pool0 x).
Notation handed := (fhanded O pr jobs).
Notation bstep := (fstep O pr jobs).

Lemma job_ok i : 0 <= i < K -> bsk_ok L pr (fj_bsk O (job i)) /\ batch_args O pr m0 pool0 [fj_src O (job i)] (fj_testvec O (job i)) (tv i).
Proof. intro Hi. pose proof (get_ok (@job0 O) jobs i Hi) as E. split; [apply (Hbsk i)|apply (Hargs i)]; exact E. Qed.
Lemma ftv_ok i : 0 <= i < K -> ct_ok N (tv i).
Proof. intro Hi. exact (tv_ok pr W _ _ _ _ _ (proj2 (job_ok i Hi))). Qed.
Lemma fsrc_ok i : 0 <= i < K -> out0 (fj_src O (job i)) /\ zlen (tm m0 (fj_src O (job i))) = n + 1.
Proof. intro Hi. destruct (job_ok i Hi) as [_ (F & _)]. inversion F; assumption. Qed.

Definition gok (m : M) (i : Z) (g : gor) : Prop :=
  match g with
  | GAcc e k r => 0 <= k <= n /\ at_ m r (brp i k) /\ exists t0, acc_at e t0 k m r
  | _ => True
  end.

Record inv (P : Prop) (evs : list bevent) (s : bstate O) : Prop := {
  v_len : zlen (bs_gor O s) = K;
  v_res : zlen (bs_results O s) = K;
  v_mem : mem_ok (bs_mem O s) /\ tnext m0 <= tnext (bs_mem O s);
  v_args : forall x, out0 x -> tm (bs_mem O s) x = tm m0 x;
  v_pool : Forall (fun p => good (bs_mem O s) p /\ forall x, out0 x -> ~ pown p x) (bs_pool O s);
  v_pp : ForallOrdPairs sep (bs_pool O s);
  v_held : forall i e, 0 <= i < K -> held (gor_at s i) = Some e ->
    (good (bs_mem O s) e /\ forall x, out0 x -> ~ pown e x) /\ Forall (sep e) (bs_pool O s) /\
    (forall j e', 0 <= j < K -> j <> i -> held (gor_at s j) = Some e' -> sep e e');
  v_gok : forall i, 0 <= i < K -> gok (bs_mem O s) i (gor_at s i);
  v_set : forall i, 0 <= i < K -> finished (gor_at s i) -> exists r, res_at s i = Some r /\
    (rA r < tnext (bs_mem O s) /\ rB r < tnext (bs_mem O s)) /\ zlen (tm (bs_mem O s) (rA r)) = N /\ zlen (tm (bs_mem O s) (rB r)) = N;
  v_fin : P -> forall i, 0 <= i < K -> finished (gor_at s i) -> exists e r, res_at s i = Some r /\
    good (bs_mem O s) e /\ (forall e', gor_at s i = GRet e' -> e' = e) /\
    pscr e (rA r) /\ pscr e (rB r) /\ at_ (bs_mem O s) r (brp i n) /\
    (forall j e', 0 <= j < K -> j <> i -> held (gor_at s j) = Some e' -> sep e e') /\
    Forall (fun q => q = e \/ sep e q) (bs_pool O s) /\ ~ In e (handed evs s);
  v_nodup : P -> NoDup (handed evs s) /\ forall i e, 0 <= i < K -> held (gor_at s i) = Some e -> ~ In e (handed evs s)
}.

Lemma acc_len e t0 k m r : good m e -> acc_at e t0 k m r -> (rA r < tnext m /\ rB r < tnext m) /\ zlen (tm m (rA r)) = N /\ zlen (tm m (rB r)) = N.
Proof.
  intros (G & B & _) A. destruct (acc_in _ _ _ _ _ A) as [X Y]. split; [unfold pscr, blk in *; lia|]. split; apply (po_t _ _ _ G); assumption.
Qed.

Lemma gor_upd s i j g : 0 <= i < zlen (bs_gor O s) -> 0 <= j -> znd GDone (upd (bs_gor O s) i g) j = if j =? i then g else gor_at s j.
Proof. intros Hi Hj. rewrite znd_upd by assumption. destruct (Z.eqb_spec i j), (Z.eqb_spec j i); subst; try lia; reflexivity. Qed.

(** a goroutine works on its evaluator *)
Lemma inv_work P ev evs s i e k r m' : inv P (ev :: evs) s -> 0 <= i < K -> held (gor_at s i) = Some e -> ~ finished (gor_at s i) ->
  step L (pscr e) (blk (pe_f e) 15) (blk (pe_i e) 2) (bs_mem O s) m' -> pe_ok L m' e -> gok m' i (GAcc e k r) ->
  let s' := {| bs_mem := m'; bs_pool := bs_pool O s; bs_gor := upd (bs_gor O s) i (GAcc e k r); bs_results := bs_results O s |} in
  bstep ev s = Some (Ok s') -> (forall j c, ev <> BGet j c) -> inv P evs s'.
Proof.
  intros I Hi Hh Hf S He Hg s' Es Hev.
  assert (EH: handed (ev :: evs) s = handed evs s').
  { cbn [fhanded]. rewrite Es. destruct ev; [exfalso; eapply Hev; reflexivity|reflexivity|reflexivity]. }
  pose proof (v_len _ _ _ I) as Hl. destruct (v_held _ _ _ I i e Hi Hh) as ([Ge Oe] & Pe & Se).
  pose proof (step_grew L pr _ _ _ _ _ S) as Gr.
  assert (HH: forall j e', 0 <= j < K -> held (znd GDone (bs_gor O s') j) = Some e' -> held (gor_at s j) = Some e').
  { intros j e' Hj. cbn [bs_gor s']. rewrite gor_upd by lia. destruct (Z.eqb_spec j i) as [->|]; [cbn [held]; congruence|auto]. }
  assert (SE: forall j e', 0 <= j < K -> j <> i -> held (gor_at s j) = Some e' -> same e' (bs_mem O s) m') by (intros; eapply (step_same L pr); [exact S|apply (Se j); assumption]).
  constructor; cbn [bs_mem bs_pool bs_gor bs_results s'].
  - rewrite zlen_upd. exact Hl.
  - apply (v_res _ _ _ I).
  - destruct (v_mem _ _ _ I) as [(a & b & c) d]. destruct Gr as (x & y & z). unfold mem_ok. lia.
  - intros x Hx. rewrite (step_t _ _ _ _ _ _ _ S) by (exact (Oe x Hx)). apply (v_args _ _ _ I). exact Hx.
  - pose proof (v_pool _ _ _ I) as Fp. rewrite Forall_forall in *. intros p Hp. destruct (Fp p Hp) as [Gp Op]. split; [|exact Op].
    eapply (good_same L pr); [exact Gp| |exact Gr]. eapply (step_same L pr); [exact S|apply Pe; exact Hp].
  - apply (v_pp _ _ _ I).
  - intros j e' Hj Hhj. assert (Hhj' := HH j e' Hj Hhj). destruct (v_held _ _ _ I j e' Hj Hhj') as ([Gj Oj] & Pj & Sj).
    split; [split; [|exact Oj]|split; [exact Pj|]].
    + destruct (Z.eq_dec j i) as [->|Hne]; [assert (e' = e) by congruence; subst e'; apply (good_step L pr e _ _ S Ge He)|].
      eapply (good_same L pr); [exact Gj|apply (SE j); assumption|exact Gr].
    + intros k' e'' Hk' Hne H. eapply Sj; [exact Hk'|exact Hne|]. apply HH; assumption.
  - intros j Hj. rewrite gor_upd by lia. destruct (Z.eqb_spec j i) as [->|Hne]; [exact Hg|].
    pose proof (v_gok _ _ _ I j Hj) as Gj. destruct (gor_at s j) as [|e'|e' k' r'|e'|] eqn:Ej; try exact Logic.I.
    destruct Gj as (Hk' & At & t0 & Ac).
    assert (Sm: same e' (bs_mem O s) m') by (apply (SE j); [exact Hj|exact Hne|rewrite Ej; reflexivity]).
    destruct (acc_in _ _ _ _ _ Ac). split; [exact Hk'|]. split; [eapply BatchFacts.at_same; eassumption|]. exists t0. eapply BatchFacts.acc_same; eassumption.
  - intros j Hj. rewrite gor_upd by lia. destruct (Z.eqb_spec j i) as [->|Hne]; [intros []|]. intro Hfj.
    destruct (v_set _ _ _ I j Hj Hfj) as (r' & H1 & [H2 H3] & H4 & H5). destruct Gr as (X & _). exists r'. rewrite !(step_len _ _ _ _ _ _ _ S).
    split; [exact H1|]. split; [split; lia|]. split; assumption.
  - intros HP j Hj. rewrite gor_upd by lia. destruct (Z.eqb_spec j i) as [->|Hne]; [intros []|]. intro Hfj.
    destruct (v_fin _ _ _ I HP j Hj Hfj) as (e' & r' & H1 & H2 & H3 & H4 & H5 & H6 & H7 & H8 & H9).
    assert (Sm: same e' (bs_mem O s) m') by (eapply (step_same L pr); [exact S|apply sep_sym; apply (H7 i); [exact Hi|congruence|exact Hh]]).
    exists e', r'. split; [exact H1|]. split; [eapply (good_same L pr); eassumption|]. split; [exact H3|]. split; [exact H4|]. split; [exact H5|].
    split; [eapply BatchFacts.at_same; eassumption|]. split; [|split; [exact H8|rewrite EH in H9; exact H9]].
    intros k' e'' Hk' Hne' H. eapply H7; [exact Hk'|exact Hne'|]. apply HH; assumption.
  - intro HP. destruct (v_nodup _ _ _ I HP) as [A B]. rewrite EH in A, B. split; [exact A|]. intros j e' Hj H. apply (B j e' Hj). apply HH; assumption.
Qed.

(** a goroutine gets an evaluator *)
Lemma inv_get P evs s i c e m' pool' : inv P (BGet i c :: evs) s -> 0 <= i < K -> gor_at s i = GNew ->
  (forall x, x < tnext (bs_mem O s) -> tm m' x = tm (bs_mem O s) x) -> (forall q, good (bs_mem O s) q -> same q (bs_mem O s) m') -> mem_ok m' -> grew (bs_mem O s) m' ->
  good m' e -> (forall x, out0 x -> ~ pown e x) -> Forall (sep e) pool' -> ForallOrdPairs sep pool' ->
  (forall q, In q pool' -> In q (bs_pool O s)) ->
  (forall j e', 0 <= j < K -> held (gor_at s j) = Some e' -> sep e e') ->
  (forall e', P -> good (bs_mem O s) e' -> Forall (fun q => q = e' \/ sep e' q) (bs_pool O s) -> e' <> e -> sep e' e) ->
  let s' := {| bs_mem := m'; bs_pool := pool'; bs_gor := upd (bs_gor O s) i (GHas e); bs_results := bs_results O s |} in
  bstep (BGet i c) s = Some (Ok s') -> inv P evs s'.
Proof.
  intros I Hi Hn Ha Hs Hm Gr Ge Oe Pe Pp Hsub Hse Hfs s' Es. pose proof (v_len _ _ _ I) as Hl.
  assert (EH: handed (BGet i c :: evs) s = e :: handed evs s').
  { cbn [fhanded]. rewrite Es. cbn [bs_gor s']. rewrite (get_ok GDone) by (rewrite zlen_upd; lia). rewrite gor_upd, Z.eqb_refl by lia. reflexivity. }
  constructor; cbn [bs_mem bs_pool bs_gor bs_results s'].
  - rewrite zlen_upd. exact Hl.
  - apply (v_res _ _ _ I).
  - destruct (v_mem _ _ _ I) as [_ d]. destruct Gr as (x & y & z). split; [exact Hm|lia].
  - intros x Hx. rewrite Ha by (destruct (v_mem _ _ _ I) as [_ d]; destruct Hx as [[_ X] _]; lia). apply (v_args _ _ _ I). exact Hx.
  - pose proof (v_pool _ _ _ I) as Fp. rewrite Forall_forall in *. intros p Hp. destruct (Fp p (Hsub p Hp)) as [Gp Op]. split; [|exact Op].
    eapply (good_same L pr); [exact Gp|apply Hs; exact Gp|exact Gr].
  - exact Pp.
  - intros j e' Hj. rewrite gor_upd by lia. destruct (Z.eqb_spec j i) as [->|Hne].
    + cbn [held]. intros [= <-]. split; [split; [exact Ge|exact Oe]|]. split; [exact Pe|]. intros k e'' Hk Hne'. rewrite gor_upd by lia.
      destruct (Z.eqb_spec k i); [lia|]. apply Hse. exact Hk.
    + intro Hh. destruct (v_held _ _ _ I j e' Hj Hh) as ([Gj Oj] & Pj & Sj). split; [split; [|exact Oj]|split].
      * eapply (good_same L pr); [exact Gj|apply Hs; exact Gj|exact Gr].
      * rewrite Forall_forall in *. intros q Hq. apply Pj. apply Hsub. exact Hq.
      * intros k e'' Hk Hne'. rewrite gor_upd by lia. destruct (Z.eqb_spec k i) as [->|]; [|apply Sj; assumption].
        cbn [held]. intros [= <-]. apply sep_sym. apply (Hse j); assumption.
  - intros j Hj. rewrite gor_upd by lia. destruct (Z.eqb_spec j i) as [->|Hne]; [exact Logic.I|].
    pose proof (v_gok _ _ _ I j Hj) as Gj. destruct (gor_at s j) as [|e'|e' k' r'|e'|] eqn:Ej; try exact Logic.I.
    destruct (v_held _ _ _ I j e' Hj) as ([Gj' _] & _); [rewrite Ej; reflexivity|].
    destruct Gj as (Hk' & At & t0 & Ac). pose proof (Hs e' Gj') as Sm.
    destruct (acc_in _ _ _ _ _ Ac). split; [exact Hk'|]. split; [eapply BatchFacts.at_same; eassumption|]. exists t0. eapply BatchFacts.acc_same; eassumption.
  - intros j Hj. rewrite gor_upd by lia. destruct (Z.eqb_spec j i) as [->|Hne]; [intros []|]. intro Hfj.
    destruct (v_set _ _ _ I j Hj Hfj) as (r' & H1 & [H2 H3] & H4 & H5). destruct Gr as (X & _). exists r'. rewrite !Ha by lia.
    split; [exact H1|]. split; [split; lia|]. split; assumption.
  - intros HP j Hj. rewrite gor_upd by lia. destruct (Z.eqb_spec j i) as [->|Hne]; [intros []|]. intro Hfj.
    destruct (v_fin _ _ _ I HP j Hj Hfj) as (e' & r' & H1 & H2 & H3 & H4 & H5 & H6 & H7 & H8 & H9).
    rewrite EH in H9. assert (Hee: e' <> e /\ ~ In e' (handed evs s')) by (cbn [In] in H9; split; [intro X; apply H9; auto|tauto]). destruct Hee as [Hee H9'].
    pose proof (Hs e' H2) as Sm.
    exists e', r'. split; [exact H1|]. split; [eapply (good_same L pr); eassumption|]. split; [exact H3|]. split; [exact H4|]. split; [exact H5|].
    split; [eapply BatchFacts.at_same; eassumption|]. split; [|split; [|exact H9']].
    + intros k' e'' Hk' Hne'. rewrite gor_upd by lia. destruct (Z.eqb_spec k' i) as [->|]; [cbn [held]; intros [= <-]; apply Hfs; assumption|].
      apply H7; assumption.
    + rewrite Forall_forall in *. intros q Hq. apply H8. apply Hsub. exact Hq.
  - intro HP. destruct (v_nodup _ _ _ I HP) as [A B]. rewrite EH in A, B. inversion A as [|? ? A1 A2]; subst. split; [exact A2|].
    intros j e' Hj. rewrite gor_upd by lia. destruct (Z.eqb_spec j i) as [->|]; [cbn [held]; intros [= <-]; exact A1|].
    intros Hh X. apply (B j e' Hj Hh). right. exact X.
Qed.

Lemma inv_step P ev evs s r : inv P (ev :: evs) s -> bstep ev s = Some r -> exists s', r = Ok s' /\ inv P evs s'.
Proof.
  intros I E. pose proof (v_len _ _ _ I) as Hl. pose proof (v_res _ _ _ I) as Hr. destruct (v_mem _ _ _ I) as [Hm Ht].
  assert (E0 := E). unfold fstep in E. destruct (get jobs (event_of ev)) as [jb|] eqn:Ej; [|discriminate]. apply (get_inv job0) in Ej. destruct Ej as [Hi0 ->].
  destruct ev as [i c|i|i]; cbn [event_of] in Hi0; cbn [event_of Gates.bstep] in E.
  - destruct (get (bs_gor O s) i) as [g|] eqn:Eg; [|discriminate]. apply (get_inv GDone) in Eg. destruct Eg as [Hi Eg]. rewrite Hl in Hi.
    destruct g; try discriminate. destruct c as [c|].
    + destruct (get (bs_pool O s) c) as [e|] eqn:Ee; [|discriminate]. injection E as <-. eexists. split; [reflexivity|].
      destruct (remove_split _ _ _ Ee) as (l1 & l2 & E1 & E2).
      pose proof (v_pp _ _ _ I) as PP. rewrite E1 in PP. destruct (pairs_mid sep sep_sym _ _ _ PP) as [P1 P2].
      pose proof (v_pool _ _ _ I) as Fp. rewrite Forall_forall in Fp. assert (Hin: In e (bs_pool O s)) by (rewrite E1; apply in_elt).
      destruct (Fp e Hin) as [Ge Oe].
      apply (inv_get P evs s i (Some c) e (bs_mem O s) (remove_at c (bs_pool O s)) I Hi); [congruence| | |exact Hm| |exact Ge|exact Oe| | | | | |exact E0].
      * reflexivity.
      * intros. apply BatchFacts.same_refl.
      * unfold grew. lia.
      * rewrite E2. exact P2.
      * rewrite E2. exact P1.
      * rewrite E2, E1. intros q Hq. apply in_app_or in Hq. apply in_or_app. destruct Hq; [left|right; right]; assumption.
      * intros j e' Hj Hh. destruct (v_held _ _ _ I j e' Hj Hh) as (_ & Pj & _). rewrite Forall_forall in Pj. apply sep_sym. apply Pj. exact Hin.
      * intros e' _ _ F Hne. rewrite Forall_forall in F. destruct (F e Hin) as [->|X]; [contradiction|exact X].
    + destruct (new_good L pr W (bs_mem O s) Hm) as (e & m' & E1 & Ge & Hm' & Gr & Hx & Hq & Ho & _). rewrite E1 in E. cbn [bind] in E. injection E as <-.
      eexists. split; [reflexivity|].
      assert (OutLt: forall x, out0 x -> x < tnext (bs_mem O s)) by (intros x [[_ X] _]; lia).
      apply (inv_get P evs s i None e m' (bs_pool O s) I Hi); [congruence| | |exact Hm'|exact Gr|exact Ge| | |apply (v_pp _ _ _ I)|auto| | |].
      * exact Hx.
      * intros q Gq. apply (Hq q Gq).
      * intros x Hx' Hown. specialize (Ho x Hown). specialize (OutLt x Hx'). lia.
      * pose proof (v_pool _ _ _ I) as Fp. rewrite Forall_forall in *. intros q Hq'. apply Hq. apply (Fp q Hq').
      * intros j e' Hj Hh. apply Hq. apply (v_held _ _ _ I j e' Hj Hh).
      * intros e' _ Ge' _ _. apply sep_sym. apply Hq. exact Ge'.
      * exact E0.
  - destruct (get (bs_gor O s) i) as [g|] eqn:Eg; [|discriminate]. apply (get_inv GDone) in Eg. destruct Eg as [Hi Eg]. rewrite Hl in Hi.
    rewrite get_src in E by exact Hi. destruct (fsrc_ok i Hi) as [Os Ls]. set (src := fj_src O (job i)) in *.
    assert (Es: tm (bs_mem O s) src = tm m0 src) by (apply (v_args _ _ _ I); exact Os).
    destruct g as [|e|e k r0|e|]; try discriminate.
    + destruct (v_held _ _ _ I i e Hi) as ([Ge Oe] & _); [rewrite <- Eg; reflexivity|].
      assert (Tv: at_ (bs_mem O s) (fj_testvec O (job i)) (tv i) /\ ~ pscr e (rA (fj_testvec O (job i))) /\ ~ pscr e (rB (fj_testvec O (job i)))).
      { destruct (proj2 (job_ok i Hi)) as (_ & OA & OB & TA & TB & _). split; [split; rewrite (v_args _ _ _ I) by assumption; assumption|]. split; apply Oe; assumption. }
      destruct Tv as (Tv & NA & NB).
      destruct (br_first_ok L pr W (bs_mem O s) e src (fj_testvec O (job i)) (tv i) (fj_offset O (job i)) (fj_bsk O (job i)) (proj1 Ge)) as (r1 & m1 & E1 & V1 & A1 & S1 & He1); [rewrite Es; exact Ls|exact Tv|apply ftv_ok; exact Hi|exact NA|exact NB|].
      rewrite E1 in E. cbn [bind] in E. injection E as <-. eexists. split; [reflexivity|].
      eapply inv_work; [exact I|exact Hi|rewrite <- Eg; reflexivity|rewrite <- Eg; intros []|exact S1|exact He1| | |congruence].
      * rewrite Es in V1. pose proof (pw_n _ _ W). split; [lia|]. split; [exact V1|]. eexists. exact A1.
      * exact E0.
    + pose proof (v_gok _ _ _ I i Hi) as Gi. rewrite <- Eg in Gi. destruct Gi as (Hk & At & t0 & Ac).
      destruct (v_held _ _ _ I i e Hi) as ([Ge Oe] & Pe & Se); [rewrite <- Eg; reflexivity|].
      destruct (Z.ltb_spec k n) as [Hkn|Hkn].
      * destruct (br_next_ok L pr W (bs_mem O s) e src (tv i) (fj_bsk O (job i)) (fj_offset O (job i)) t0 k r0 (proj1 Ge) (proj1 (job_ok i Hi))) as (r1 & m1 & E1 & V1 & A1 & S1 & He1);
          [rewrite Es; exact Ls|apply ftv_ok; exact Hi|apply Oe; exact Os|lia|rewrite Es; exact At|exact Ac|].
        rewrite E1 in E. cbn [bind] in E. injection E as <-. eexists. split; [reflexivity|].
        eapply inv_work; [exact I|exact Hi|rewrite <- Eg; reflexivity|rewrite <- Eg; intros []|exact S1|exact He1| | |congruence].
        -- rewrite Es in V1. split; [lia|]. split; [exact V1|]. eexists. exact A1.
        -- rewrite E0. reflexivity.
      * injection E as <-. eexists. split; [reflexivity|]. replace k with n in * by lia.
        set (s' := {| bs_mem := bs_mem O s; bs_pool := bs_pool O s; bs_gor := upd (bs_gor O s) i (GRet e); bs_results := upd (bs_results O s) i (Some r0) |}) in *.
        assert (EH: handed (BStep i :: evs) s = handed evs s') by (cbn [fhanded]; rewrite E0; reflexivity).
        assert (HH: forall j e', 0 <= j < K -> held (znd GDone (bs_gor O s') j) = Some e' -> held (gor_at s j) = Some e').
        { intros j e' Hj. cbn [bs_gor s']. rewrite gor_upd by lia. destruct (Z.eqb_spec j i) as [->|]; [cbn [held]; rewrite <- Eg; auto|auto]. }
        assert (RU: forall j, 0 <= j -> znd None (upd (bs_results O s) i (Some r0)) j = if j =? i then Some r0 else res_at s j).
        { intros j Hj. rewrite znd_upd by lia. destruct (Z.eqb_spec i j), (Z.eqb_spec j i); subst; try lia; reflexivity. }
        constructor; cbn [bs_mem bs_pool bs_gor bs_results s'].
        -- rewrite zlen_upd. exact Hl.
        -- rewrite zlen_upd. exact Hr.
        -- auto.
        -- apply (v_args _ _ _ I).
        -- apply (v_pool _ _ _ I).
        -- apply (v_pp _ _ _ I).
        -- intros j e' Hj Hh. destruct (v_held _ _ _ I j e' Hj (HH j e' Hj Hh)) as (A & B & C). split; [exact A|]. split; [exact B|].
           intros k' e'' Hk' Hne H. eapply C; [exact Hk'|exact Hne|]. apply HH; assumption.
        -- intros j Hj. rewrite gor_upd by lia. destruct (Z.eqb_spec j i) as [->|]; [exact Logic.I|]. apply (v_gok _ _ _ I). exact Hj.
        -- intros j Hj. rewrite gor_upd, RU by lia. destruct (Z.eqb_spec j i) as [->|]; [intros _; exists r0; split; [reflexivity|apply (acc_len e t0 n); assumption]|]. apply (v_set _ _ _ I). exact Hj.
        -- intros HP j Hj. rewrite gor_upd, RU by lia. destruct (Z.eqb_spec j i) as [->|Hne].
           ++ intros _. exists e, r0. destruct (acc_in _ _ _ _ _ Ac) as [PA PB]. split; [reflexivity|]. split; [exact Ge|]. split; [congruence|].
              split; [exact PA|]. split; [exact PB|]. split; [exact At|]. split; [|split].
              ** intros k' e'' Hk' Hne H. eapply Se; [exact Hk'|exact Hne|]. apply HH; assumption.
              ** rewrite Forall_forall in *. intros q Hq. right. apply Pe. exact Hq.
              ** destruct (v_nodup _ _ _ I HP) as [_ B]. rewrite <- EH. apply (B i e Hi). rewrite <- Eg. reflexivity.
           ++ intro Hfj. destruct (v_fin _ _ _ I HP j Hj Hfj) as (e' & r' & H1 & H2 & H3 & H4 & H5 & H6 & H7 & H8 & H9).
              exists e', r'. rewrite EH in H9. repeat (split; [assumption|]). split; [|split; assumption].
              intros k' e'' Hk' Hne' H. eapply H7; [exact Hk'|exact Hne'|]. apply HH; assumption.
        -- intro HP. destruct (v_nodup _ _ _ I HP) as [A B]. rewrite EH in A, B. split; [exact A|]. intros j e' Hj H. apply (B j e' Hj). apply HH; assumption.
  - destruct (get (bs_gor O s) i) as [g|] eqn:Eg; [|discriminate]. apply (get_inv GDone) in Eg. destruct Eg as [Hi Eg]. rewrite Hl in Hi.
    destruct g as [|e|e k r0|e|]; try discriminate. injection E as <-. eexists. split; [reflexivity|].
    destruct (v_held _ _ _ I i e Hi) as ([Ge Oe] & Pe & Se); [rewrite <- Eg; reflexivity|].
    set (s' := {| bs_mem := bs_mem O s; bs_pool := e :: bs_pool O s; bs_gor := upd (bs_gor O s) i GDone; bs_results := bs_results O s |}) in *.
    assert (EH: handed (BPut i :: evs) s = handed evs s') by (cbn [fhanded]; rewrite E0; reflexivity).
    assert (HH: forall j e', 0 <= j < K -> held (znd GDone (bs_gor O s') j) = Some e' -> held (gor_at s j) = Some e' /\ j <> i).
    { intros j e' Hj. cbn [bs_gor s']. rewrite gor_upd by lia. destruct (Z.eqb_spec j i) as [->|]; [discriminate|auto]. }
    constructor; cbn [bs_mem bs_pool bs_gor bs_results s'].
    + rewrite zlen_upd. exact Hl.
    + exact Hr.
    + auto.
    + apply (v_args _ _ _ I).
    + constructor; [split; assumption|apply (v_pool _ _ _ I)].
    + constructor; [exact Pe|apply (v_pp _ _ _ I)].
    + intros j e' Hj Hh. destruct (HH j e' Hj Hh) as [Hh' Hne]. destruct (v_held _ _ _ I j e' Hj Hh') as (A & B & C). split; [exact A|]. split.
      * constructor; [|exact B]. apply sep_sym. apply (Se j); assumption.
      * intros k' e'' Hk' Hne' H. destruct (HH k' e'' Hk' H). eapply C; eassumption.
    + intros j Hj. rewrite gor_upd by lia. destruct (Z.eqb_spec j i) as [->|]; [exact Logic.I|]. apply (v_gok _ _ _ I). exact Hj.
    + intros j Hj. rewrite gor_upd by lia. destruct (Z.eqb_spec j i) as [->|].
      * intros _. apply (v_set _ _ _ I i Hi). rewrite <- Eg. exact Logic.I.
      * apply (v_set _ _ _ I). exact Hj.
    + intros HP j Hj. rewrite gor_upd by lia. destruct (Z.eqb_spec j i) as [->|Hne].
      * intros _. destruct (v_fin _ _ _ I HP i Hi) as (e' & r' & H1 & H2 & H3 & H4 & H5 & H6 & H7 & H8 & H9); [rewrite <- Eg; exact Logic.I|].
        assert (e = e') by (apply H3; congruence). subst e'. rewrite EH in H9.
        exists e, r'. split; [exact H1|]. split; [exact H2|]. split; [discriminate|]. repeat (split; [assumption|]). split; [|split; [|exact H9]].
        -- intros k' e'' Hk' Hne' H. destruct (HH k' e'' Hk' H). eapply H7; eassumption.
        -- constructor; [left; reflexivity|exact H8].
      * intro Hfj. destruct (v_fin _ _ _ I HP j Hj Hfj) as (e' & r' & H1 & H2 & H3 & H4 & H5 & H6 & H7 & H8 & H9). rewrite EH in H9.
        exists e', r'. repeat (split; [assumption|]). split; [|split; [|exact H9]].
        -- intros k' e'' Hk' Hne' H. destruct (HH k' e'' Hk' H). eapply H7; eassumption.
        -- constructor; [right; apply (H7 i); [exact Hi|congruence|rewrite <- Eg; reflexivity]|exact H8].
    + intro HP. destruct (v_nodup _ _ _ I HP) as [A B]. rewrite EH in A, B. split; [exact A|]. intros j e' Hj H. destruct (HH j e' Hj H). apply (B j e' Hj). assumption.
Qed.

Lemma inv_evs evs evs' s : inv False evs s -> inv False evs' s.
Proof. intros []. constructor; try assumption; intros []. Qed.

Lemma inv_sched P evs : forall s r, inv P evs s -> fsched O pr jobs evs s = Some r -> exists s', r = Ok s' /\ inv P [] s'.
Proof.
  induction evs as [|ev evs IH]; intros s r I E; cbn [fsched] in E.
  - injection E as <-. exists s. auto.
  - destruct (bstep ev s) as [r1|] eqn:E1; [|discriminate]. destruct (inv_step P ev evs s r1 I E1) as (s' & -> & I'). exact (IH s' r I' E).
Qed.

Lemma inv_init evs : mem_ok m0 -> Forall (good m0) pool0 -> ForallOrdPairs sep pool0 ->
  inv (NoDup (handed evs (finit O m0 pool0 jobs))) evs (finit O m0 pool0 jobs).
Proof.
  intros Hm Hg Hp. 
  assert (GN: forall i, 0 <= i < K -> gor_at (finit O m0 pool0 jobs) i = GNew).
  { intros i Hi. unfold finit; cbn [binit bs_gor]. apply znd_repeat. rewrite map_length. unfold zlen in Hi. lia. }
  constructor; unfold finit; cbn [binit bs_mem bs_pool bs_results].
  - cbn [binit bs_gor]. unfold zlen. rewrite repeat_length, map_length. reflexivity.
  - unfold zlen. rewrite repeat_length, map_length. reflexivity.
  - split; [exact Hm|lia].
  - reflexivity.
  - rewrite Forall_forall in *. intros p Hp'. split; [apply Hg; exact Hp'|]. intros x [_ Hx]. apply Hx. exact Hp'.
  - exact Hp.
  - intros i e Hi. rewrite GN by exact Hi. discriminate.
  - intros i Hi. rewrite GN by exact Hi. exact Logic.I.
  - intros i Hi. rewrite GN by exact Hi. intros [].
  - intros _ i Hi. rewrite GN by exact Hi. intros [].
  - intro HP. split; [exact HP|]. intros i e Hi. rewrite GN by exact Hi. discriminate.
Qed.
End Flight.

(** * Batches in flight while other code runs *)
From Coq Require Import Lia ZifyBool Setoid Morphisms List.
From Verif Require Import GoBase GoFacts GoMem F64 Utils Spec Params Key Tlwe TlweMem Poly Fft Trlwe Trgsw Evaluator CloudKey Gates RunSpec BatchSpec Flight FlightSpec FlightOtherSpec
  MemFacts TlweFacts PolyFacts NegFacts Laws TrlweFacts TrgswFacts RotFacts EvalFacts HeapFacts OldRotFacts CloudKeyFacts CallFacts BootFacts BatchFacts FlightFacts FlightProps.
Import ListNotations.
Local Open Scope Z_scope.
Ltac Zify.zify_post_hook ::= idtac.

Definition call0 {O} : fcall O := {| fc_job := job0; fc_src := []; fc_tv := {| tA := []; tB := [] |} |}.
Lemma job_map {O} (calls : list (fcall O)) i : znd job0 (map (fc_job O) calls) i = fc_job O (znd call0 calls i).
Proof. unfold znd. rewrite <- (map_nth (fc_job O)). reflexivity. Qed.
Lemma zlen_jobs {O} (calls : list (fcall O)) : zlen (map (fc_job O) calls) = zlen calls.
Proof. unfold zlen. rewrite map_length. reflexivity. Qed.

Section Flight.
Context {O : fops} {N : Z} (L : flaws O N) (pr : pset) (W : pwf pr N) (HBG : g_BG pr = 2 ^ g_BGBIT pr).
Notation M := (mem (FP O)).
Notation n := (lv0_N pr).
Notation l := (g_L pr). Notation bg := (g_BGBIT pr). Notation nb := (g_NBIT pr).

Notation good := (BatchFacts.good L). Notation same := (@BatchFacts.same O). Notation grew := (@BatchFacts.grew O).

Context (calls : list (fcall O)).
Notation jobs := (map (fc_job O) calls).
Notation K := (zlen calls).
Notation call i := (znd call0 calls i).
Notation job i := (fc_job O (call i)).
Notation tv i := (fc_tv O (call i)).
Notation brp i k := (br_acc L bg l (fj_offset O (job i)) nb n (fj_bsk O (job i)) (fc_src O (call i)) (tv i) k).
Notation gor_at s i := (znd GDone (bs_gor O s) i).
Notation res_at s i := (znd None (bs_results O s) i).
Notation arg_of i x := (In x [fj_src O (job i); rA (fj_testvec O (job i)); rB (fj_testvec O (job i))]).
Notation out0 x := (exists i, 0 <= i < K /\ arg_of i x).
Notation bstep := (fstep O pr jobs).

Definition args_at (m : M) (i : Z) : Prop := tm m (fj_src O (job i)) = fc_src O (call i) /\ at_ m (fj_testvec O (job i)) (tv i).
Lemma args_same m m' i : (forall x, arg_of i x -> tm m' x = tm m x) -> args_at m i -> args_at m' i.
Proof.
  intros H [A [B C]]. split; [rewrite H by (left; reflexivity); exact A|]. split; [rewrite H by (right; left; reflexivity); exact B|rewrite H by (right; right; left; reflexivity); exact C].
Qed.

Definition gok (m : M) (i : Z) (g : gor) : Prop :=
  match g with
  | GAcc e k r => 0 <= k <= n /\ at_ m r (brp i k) /\ exists t0, acc_at e t0 k m r
  | _ => True
  end.

Record inv (seen : list peval) (s : bstate O) : Prop := {
  v_len : zlen (bs_gor O s) = K;
  v_res : zlen (bs_results O s) = K;
  v_st : forall i, 0 <= i < K -> bsk_ok L pr (fj_bsk O (job i)) /\ ct_ok N (tv i) /\ zlen (fc_src O (call i)) = n + 1;
  v_hs : forall p, In p seen -> pe_t p + 24 <= tnext (bs_mem O s);
  v_mem : mem_ok (bs_mem O s);
  v_argb : forall x, out0 x -> x < tnext (bs_mem O s);
  v_args : forall i, 0 <= i < K -> ~ finished (gor_at s i) -> args_at (bs_mem O s) i;
  v_pool : Forall (fun p => good (bs_mem O s) p /\ forall x, out0 x -> ~ pown p x) (bs_pool O s);
  v_pp : ForallOrdPairs sep (bs_pool O s);
  v_held : forall i e, 0 <= i < K -> held (gor_at s i) = Some e ->
    ((good (bs_mem O s) e /\ In e seen) /\ forall x, out0 x -> ~ pown e x) /\ Forall (sep e) (bs_pool O s) /\
    (forall j e', 0 <= j < K -> j <> i -> held (gor_at s j) = Some e' -> sep e e');
  v_gok : forall i, 0 <= i < K -> gok (bs_mem O s) i (gor_at s i);
  v_set : forall i, 0 <= i < K -> finished (gor_at s i) -> exists r, res_at s i = Some r /\
    (rA r < tnext (bs_mem O s) /\ rB r < tnext (bs_mem O s)) /\ (zlen (tm (bs_mem O s) (rA r)) = N /\ zlen (tm (bs_mem O s) (rB r)) = N) /\
    exists e, In e seen /\ pscr e (rA r) /\ pscr e (rB r);
  v_fin : NoDup seen -> forall i, 0 <= i < K -> finished (gor_at s i) -> exists e r, res_at s i = Some r /\
    good (bs_mem O s) e /\ (forall e', gor_at s i = GRet e' -> e' = e) /\
    pscr e (rA r) /\ pscr e (rB r) /\ at_ (bs_mem O s) r (brp i n) /\
    (forall j e', 0 <= j < K -> j <> i -> held (gor_at s j) = Some e' -> sep e e') /\
    Forall (fun q => q = e \/ sep e q) (bs_pool O s) /\ In e seen
}.

Lemma acc_len e t0 k m r : good m e -> acc_at e t0 k m r -> (rA r < tnext m /\ rB r < tnext m) /\ zlen (tm m (rA r)) = N /\ zlen (tm m (rB r)) = N.
Proof.
  intros (G & B & _) A. destruct (acc_in _ _ _ _ _ A) as [X Y]. split; [unfold pscr, blk in *; lia|]. split; apply (po_t _ _ _ G); assumption.
Qed.

Lemma gor_upd s i j g : 0 <= i < zlen (bs_gor O s) -> 0 <= j -> znd GDone (upd (bs_gor O s) i g) j = if j =? i then g else gor_at s j.
Proof. intros Hi Hj. rewrite znd_upd by assumption. destruct (Z.eqb_spec i j), (Z.eqb_spec j i); subst; try lia; reflexivity. Qed.

(** a goroutine works on its evaluator *)
Lemma inv_work hs s i e k r m' : inv hs s -> 0 <= i < K -> held (gor_at s i) = Some e -> ~ finished (gor_at s i) ->
  step L (pscr e) (blk (pe_f e) 15) (blk (pe_i e) 2) (bs_mem O s) m' -> pe_ok L m' e -> gok m' i (GAcc e k r) ->
  let s' := {| bs_mem := m'; bs_pool := bs_pool O s; bs_gor := upd (bs_gor O s) i (GAcc e k r); bs_results := bs_results O s |} in
  inv hs s'.
Proof.
  intros I Hi Hh Hf S He Hg s'.
  pose proof (v_len _ _ I) as Hl. destruct (v_held _ _ I i e Hi Hh) as ([[Ge Ie] Oe] & Pe & Se).
  pose proof (step_grew L pr _ _ _ _ _ S) as Gr.
  assert (HH: forall j e', 0 <= j < K -> held (znd GDone (bs_gor O s') j) = Some e' -> held (gor_at s j) = Some e').
  { intros j e' Hj. cbn [bs_gor s']. rewrite gor_upd by lia. destruct (Z.eqb_spec j i) as [->|]; [cbn [held]; congruence|auto]. }
  assert (SE: forall j e', 0 <= j < K -> j <> i -> held (gor_at s j) = Some e' -> same e' (bs_mem O s) m') by (intros; eapply (step_same L pr); [exact S|apply (Se j); assumption]).
  constructor; cbn [bs_mem bs_pool bs_gor bs_results s'].
  - rewrite zlen_upd. exact Hl.
  - apply (v_res _ _ I).
  - apply (v_st _ _ I).
  - intros p Hp. apply (v_hs _ _ I) in Hp. destruct Gr as (X & _). lia.
  - destruct (v_mem _ _ I) as (a & b & c). destruct Gr as (x & y & z). unfold mem_ok. lia.
  - intros x Hx. apply (v_argb _ _ I) in Hx. destruct Gr as (X & _). lia.
  - intros j Hj. rewrite gor_upd by lia. intro Hu. apply (args_same (bs_mem O s)).
    + intros x Hx. apply (step_t _ _ _ _ _ _ _ S). apply Oe. exists j. auto.
    + apply (v_args _ _ I); [exact Hj|]. destruct (Z.eqb_spec j i) as [->|]; assumption.
  - pose proof (v_pool _ _ I) as Fp. rewrite Forall_forall in *. intros p Hp. destruct (Fp p Hp) as [Gp Op]. split; [|exact Op].
    eapply (good_same L pr); [exact Gp| |exact Gr]. eapply (step_same L pr); [exact S|apply Pe; exact Hp].
  - apply (v_pp _ _ I).
  - intros j e' Hj Hhj. assert (Hhj' := HH j e' Hj Hhj). destruct (v_held _ _ I j e' Hj Hhj') as ([[Gj Ij] Oj] & Pj & Sj).
    split; [split; [split; [|exact Ij]|exact Oj]|split; [exact Pj|]].
    + destruct (Z.eq_dec j i) as [->|Hne]; [assert (e' = e) by congruence; subst e'; apply (good_step L pr e _ _ S Ge He)|].
      eapply (good_same L pr); [exact Gj|apply (SE j); assumption|exact Gr].
    + intros k' e'' Hk' Hne H. eapply Sj; [exact Hk'|exact Hne|]. apply HH; assumption.
  - intros j Hj. rewrite gor_upd by lia. destruct (Z.eqb_spec j i) as [->|Hne]; [exact Hg|].
    pose proof (v_gok _ _ I j Hj) as Gj. destruct (gor_at s j) as [|e'|e' k' r'|e'|] eqn:Ej; try exact Logic.I.
    destruct Gj as (Hk' & At & t0 & Ac).
    assert (Sm: same e' (bs_mem O s) m') by (apply (SE j); [exact Hj|exact Hne|rewrite Ej; reflexivity]).
    destruct (acc_in _ _ _ _ _ Ac). split; [exact Hk'|]. split; [eapply BatchFacts.at_same; eassumption|]. exists t0. eapply BatchFacts.acc_same; eassumption.
  - intros j Hj. rewrite gor_upd by lia. destruct (Z.eqb_spec j i) as [->|Hne]; [intros []|]. intro Hfj.
    destruct (v_set _ _ I j Hj Hfj) as (r' & H1 & [H2 H3] & [H4 H5] & H6). destruct Gr as (X & _). exists r'. rewrite !(step_len _ _ _ _ _ _ _ S).
    split; [exact H1|]. split; [split; lia|]. split; [split; assumption|exact H6].
  - intros HP j Hj. rewrite gor_upd by lia. destruct (Z.eqb_spec j i) as [->|Hne]; [intros []|]. intro Hfj.
    destruct (v_fin _ _ I HP j Hj Hfj) as (e' & r' & H1 & H2 & H3 & H4 & H5 & H6 & H7 & H8 & H9).
    assert (Sm: same e' (bs_mem O s) m') by (eapply (step_same L pr); [exact S|apply sep_sym; apply (H7 i); [exact Hi|congruence|exact Hh]]).
    exists e', r'. split; [exact H1|]. split; [eapply (good_same L pr); eassumption|]. split; [exact H3|]. split; [exact H4|]. split; [exact H5|].
    split; [eapply BatchFacts.at_same; eassumption|]. split; [|split; [exact H8|exact H9]].
    intros k' e'' Hk' Hne' H. eapply H7; [exact Hk'|exact Hne'|]. apply HH; assumption.
Qed.

(** a goroutine gets an evaluator *)
Lemma inv_get hs s i e m' pool' : inv hs s -> 0 <= i < K -> gor_at s i = GNew ->
  (forall x, x < tnext (bs_mem O s) -> tm m' x = tm (bs_mem O s) x) -> (forall q, good (bs_mem O s) q -> same q (bs_mem O s) m') -> mem_ok m' -> grew (bs_mem O s) m' ->
  good m' e -> (forall x, out0 x -> ~ pown e x) -> Forall (sep e) pool' -> ForallOrdPairs sep pool' ->
  (forall q, In q pool' -> In q (bs_pool O s)) ->
  (forall j e', 0 <= j < K -> held (gor_at s j) = Some e' -> sep e e') ->
  (forall e', good (bs_mem O s) e' -> Forall (fun q => q = e' \/ sep e' q) (bs_pool O s) -> e' <> e -> sep e' e) ->
  let s' := {| bs_mem := m'; bs_pool := pool'; bs_gor := upd (bs_gor O s) i (GHas e); bs_results := bs_results O s |} in
  inv (e :: hs) s'.
Proof.
  intros I Hi Hn Ha Hs Hm Gr Ge Oe Pe Pp Hsub Hse Hfs s'. pose proof (v_len _ _ I) as Hl.
  constructor; cbn [bs_mem bs_pool bs_gor bs_results s'].
  - rewrite zlen_upd. exact Hl.
  - apply (v_res _ _ I).
  - apply (v_st _ _ I).
  - intros p [<-|Hp]; [destruct Ge as (_ & X & _); lia|]. apply (v_hs _ _ I) in Hp. destruct Gr as (X & _). lia.
  - exact Hm.
  - intros x Hx. apply (v_argb _ _ I) in Hx. destruct Gr as (X & _). lia.
  - intros j Hj. rewrite gor_upd by lia. intro Hu. apply (args_same (bs_mem O s)).
    + intros x Hx. apply Ha. apply (v_argb _ _ I). exists j. auto.
    + apply (v_args _ _ I); [exact Hj|]. destruct (Z.eqb_spec j i) as [->|]; [rewrite Hn; exact Hu|exact Hu].
  - pose proof (v_pool _ _ I) as Fp. rewrite Forall_forall in *. intros p Hp. destruct (Fp p (Hsub p Hp)) as [Gp Op]. split; [|exact Op].
    eapply (good_same L pr); [exact Gp|apply Hs; exact Gp|exact Gr].
  - exact Pp.
  - intros j e' Hj. rewrite gor_upd by lia. destruct (Z.eqb_spec j i) as [->|Hne].
    + cbn [held]. intros [= <-]. split; [split; [split; [exact Ge|left; reflexivity]|exact Oe]|]. split; [exact Pe|]. intros k e'' Hk Hne'. rewrite gor_upd by lia.
      destruct (Z.eqb_spec k i); [lia|]. apply Hse. exact Hk.
    + intro Hh. destruct (v_held _ _ I j e' Hj Hh) as ([[Gj Ij] Oj] & Pj & Sj). split; [split; [split; [|right; exact Ij]|exact Oj]|split].
      * eapply (good_same L pr); [exact Gj|apply Hs; exact Gj|exact Gr].
      * rewrite Forall_forall in *. intros q Hq. apply Pj. apply Hsub. exact Hq.
      * intros k e'' Hk Hne'. rewrite gor_upd by lia. destruct (Z.eqb_spec k i) as [->|]; [|apply Sj; assumption].
        cbn [held]. intros [= <-]. apply sep_sym. apply (Hse j); assumption.
  - intros j Hj. rewrite gor_upd by lia. destruct (Z.eqb_spec j i) as [->|Hne]; [exact Logic.I|].
    pose proof (v_gok _ _ I j Hj) as Gj. destruct (gor_at s j) as [|e'|e' k' r'|e'|] eqn:Ej; try exact Logic.I.
    destruct (v_held _ _ I j e' Hj) as ([[Gj' _] _] & _); [rewrite Ej; reflexivity|].
    destruct Gj as (Hk' & At & t0 & Ac). pose proof (Hs e' Gj') as Sm.
    destruct (acc_in _ _ _ _ _ Ac). split; [exact Hk'|]. split; [eapply BatchFacts.at_same; eassumption|]. exists t0. eapply BatchFacts.acc_same; eassumption.
  - intros j Hj. rewrite gor_upd by lia. destruct (Z.eqb_spec j i) as [->|Hne]; [intros []|]. intro Hfj.
    destruct (v_set _ _ I j Hj Hfj) as (r' & H1 & [H2 H3] & [H4 H5] & H6). destruct Gr as (X & _). exists r'. rewrite !Ha by lia.
    split; [exact H1|]. split; [split; lia|]. split; [split; assumption|]. destruct H6 as (e' & X1 & X2). exists e'. split; [right; exact X1|exact X2].
  - intros HP0 j Hj. inversion HP0 as [|? ? HP1 HP]; subst. rewrite gor_upd by lia. destruct (Z.eqb_spec j i) as [->|Hne]; [intros []|]. intro Hfj.
    destruct (v_fin _ _ I HP j Hj Hfj) as (e' & r' & H1 & H2 & H3 & H4 & H5 & H6 & H7 & H8 & H9).
    assert (Hee: e' <> e) by (intros ->; exact (HP1 H9)).
    pose proof (Hs e' H2) as Sm.
    exists e', r'. split; [exact H1|]. split; [eapply (good_same L pr); eassumption|]. split; [exact H3|]. split; [exact H4|]. split; [exact H5|].
    split; [eapply BatchFacts.at_same; eassumption|]. split; [|split; [|right; exact H9]].
    + intros k' e'' Hk' Hne'. rewrite gor_upd by lia. destruct (Z.eqb_spec k' i) as [->|]; [cbn [held]; intros [= <-]; apply Hfs; assumption|].
      apply H7; assumption.
    + rewrite Forall_forall in *. intros q Hq. apply H8. apply Hsub. exact Hq.
Qed.

Lemma inv_step hs ev s r : inv hs s -> bstep ev s = Some r -> exists s', r = Ok s' /\ inv (got O ev s' ++ hs) s' /\
  forall x, outside_pool O (bs_mem O s) (hs ++ bs_pool O s) x -> tm (bs_mem O s') x = tm (bs_mem O s) x.
Proof.
  intros I E. pose proof (v_len _ _ I) as Hl. pose proof (v_res _ _ I) as Hr. pose proof (v_mem _ _ I) as Hm. pose proof (v_st _ _ I) as St.
  assert (E0 := E). unfold fstep in E. destruct (get jobs (event_of ev)) as [jb|] eqn:Ej; [|discriminate]. apply (get_inv job0) in Ej. destruct Ej as [Hi0 ->]. rewrite job_map in E. rewrite zlen_jobs in Hi0.
  destruct ev as [i c|i|i]; cbn [event_of] in Hi0; cbn [event_of Gates.bstep] in E.
  - destruct (get (bs_gor O s) i) as [g|] eqn:Eg; [|discriminate]. apply (get_inv GDone) in Eg. destruct Eg as [Hi Eg]. rewrite Hl in Hi.
    destruct g; try discriminate. destruct c as [c|].
    + destruct (get (bs_pool O s) c) as [e|] eqn:Ee; [|discriminate]. injection E as <-. eexists. split; [reflexivity|]. split; [|reflexivity].
      destruct (remove_split _ _ _ Ee) as (l1 & l2 & E1 & E2).
      pose proof (v_pp _ _ I) as PP. rewrite E1 in PP. destruct (pairs_mid sep sep_sym _ _ _ PP) as [P1 P2].
      pose proof (v_pool _ _ I) as Fp. rewrite Forall_forall in Fp. assert (Hin: In e (bs_pool O s)) by (rewrite E1; apply in_elt).
      destruct (Fp e Hin) as [Ge Oe].
      cbn [got bs_gor]. rewrite (get_ok GDone) by (rewrite zlen_upd; lia). rewrite gor_upd, Z.eqb_refl by lia. cbn [app].
      apply (inv_get hs s i e (bs_mem O s) (remove_at c (bs_pool O s)) I Hi); [congruence| | |exact Hm| |exact Ge|exact Oe| | | | | ].
      * reflexivity.
      * intros. apply BatchFacts.same_refl.
      * unfold grew. lia.
      * rewrite E2. exact P2.
      * rewrite E2. exact P1.
      * rewrite E2, E1. intros q Hq. apply in_app_or in Hq. apply in_or_app. destruct Hq; [left|right; right]; assumption.
      * intros j e' Hj Hh. destruct (v_held _ _ I j e' Hj Hh) as (_ & Pj & _). rewrite Forall_forall in Pj. apply sep_sym. apply Pj. exact Hin.
      * intros e' _ F Hne. rewrite Forall_forall in F. destruct (F e Hin) as [->|X]; [contradiction|exact X].
    + destruct (new_good L pr W (bs_mem O s) Hm) as (e & m' & E1 & Ge & Hm' & Gr & Hx & Hq & Ho & _). rewrite E1 in E. cbn [bind] in E. injection E as <-.
      eexists. split; [reflexivity|]. split; [|intros x [Hx' _]; apply Hx; apply Hx'].
      pose proof (v_argb _ _ I) as OutLt.
      cbn [got bs_gor]. rewrite (get_ok GDone) by (rewrite zlen_upd; lia). rewrite gor_upd, Z.eqb_refl by lia. cbn [app].
      apply (inv_get hs s i e m' (bs_pool O s) I Hi); [congruence| | |exact Hm'|exact Gr|exact Ge| | |apply (v_pp _ _ I)|auto| | ].
      * exact Hx.
      * intros q Gq. apply (Hq q Gq).
      * intros x Hx' Hown. specialize (Ho x Hown). specialize (OutLt x Hx'). lia.
      * pose proof (v_pool _ _ I) as Fp. rewrite Forall_forall in *. intros q Hq'. apply Hq. apply (Fp q Hq').
      * intros j e' Hj Hh. apply Hq. apply (v_held _ _ I j e' Hj Hh).
      * intros e' Ge' _ _. apply sep_sym. apply Hq. exact Ge'.
  - destruct (get (bs_gor O s) i) as [g|] eqn:Eg; [|discriminate]. apply (get_inv GDone) in Eg. destruct Eg as [Hi Eg]. rewrite Hl in Hi.
    rewrite get_src, job_map in E by (rewrite zlen_jobs; exact Hi). destruct (St i Hi) as (Hb & Htv & Ls). set (src := fj_src O (job i)) in *.
    assert (Os: out0 src) by (exists i; split; [exact Hi|left; reflexivity]).
    destruct g as [|e|e k r0|e|]; try discriminate.
    + destruct (v_held _ _ I i e Hi) as ([[Ge Ie] Oe] & _); [rewrite <- Eg; reflexivity|].
      assert (Hu: ~ finished (gor_at s i)) by (rewrite <- Eg; intros []). destruct (v_args _ _ I i Hi Hu) as [Es Tv0]. fold src in Es.
      assert (Tv: at_ (bs_mem O s) (fj_testvec O (job i)) (tv i) /\ ~ pscr e (rA (fj_testvec O (job i))) /\ ~ pscr e (rB (fj_testvec O (job i)))).
      { split; [exact Tv0|]. split; apply Oe; exists i; (split; [exact Hi|]); [right; left; reflexivity|right; right; left; reflexivity]. }
      destruct Tv as (Tv & NA & NB).
      destruct (br_first_ok L pr W (bs_mem O s) e src (fj_testvec O (job i)) (tv i) (fj_offset O (job i)) (fj_bsk O (job i)) (proj1 Ge)) as (r1 & m1 & E1 & V1 & A1 & S1 & He1); [rewrite Es; exact Ls|exact Tv|exact Htv|exact NA|exact NB|].
      rewrite E1 in E. cbn [bind] in E. injection E as <-. eexists. split; [reflexivity|]. split; [|intros x [_ Hx']; apply (step_t _ _ _ _ _ _ _ S1); apply Hx'; apply in_or_app; left; exact Ie].
      eapply inv_work; [exact I|exact Hi|rewrite <- Eg; reflexivity|rewrite <- Eg; intros []|exact S1|exact He1|].
      rewrite Es in V1. pose proof (pw_n _ _ W). split; [lia|]. split; [exact V1|]. eexists. exact A1.
    + assert (Hu: ~ finished (gor_at s i)) by (rewrite <- Eg; intros []). destruct (v_args _ _ I i Hi Hu) as [Es Tv0]. fold src in Es.
      pose proof (v_gok _ _ I i Hi) as Gi. rewrite <- Eg in Gi. destruct Gi as (Hk & At & t0 & Ac).
      destruct (v_held _ _ I i e Hi) as ([[Ge Ie] Oe] & Pe & Se); [rewrite <- Eg; reflexivity|].
      destruct (Z.ltb_spec k n) as [Hkn|Hkn].
      * destruct (br_next_ok L pr W (bs_mem O s) e src (tv i) (fj_bsk O (job i)) (fj_offset O (job i)) t0 k r0 (proj1 Ge) Hb) as (r1 & m1 & E1 & V1 & A1 & S1 & He1);
          [rewrite Es; exact Ls|exact Htv|apply Oe; exact Os|lia|rewrite Es; exact At|exact Ac|].
        rewrite E1 in E. cbn [bind] in E. injection E as <-. eexists. split; [reflexivity|]. split; [|intros x [_ Hx']; apply (step_t _ _ _ _ _ _ _ S1); apply Hx'; apply in_or_app; left; exact Ie].
        eapply inv_work; [exact I|exact Hi|rewrite <- Eg; reflexivity|rewrite <- Eg; intros []|exact S1|exact He1|].
        rewrite Es in V1. split; [lia|]. split; [exact V1|]. eexists. exact A1.
      * injection E as <-. eexists. split; [reflexivity|]. split; [|reflexivity]. replace k with n in * by lia.
        set (s' := {| bs_mem := bs_mem O s; bs_pool := bs_pool O s; bs_gor := upd (bs_gor O s) i (GRet e); bs_results := upd (bs_results O s) i (Some r0) |}) in *.
        assert (HH: forall j e', 0 <= j < K -> held (znd GDone (bs_gor O s') j) = Some e' -> held (gor_at s j) = Some e').
        { intros j e' Hj. cbn [bs_gor s']. rewrite gor_upd by lia. destruct (Z.eqb_spec j i) as [->|]; [cbn [held]; rewrite <- Eg; auto|auto]. }
        assert (RU: forall j, 0 <= j -> znd None (upd (bs_results O s) i (Some r0)) j = if j =? i then Some r0 else res_at s j).
        { intros j Hj. rewrite znd_upd by lia. destruct (Z.eqb_spec i j), (Z.eqb_spec j i); subst; try lia; reflexivity. }
        constructor; cbn [bs_mem bs_pool bs_gor bs_results s'].
        -- rewrite zlen_upd. exact Hl.
        -- rewrite zlen_upd. exact Hr.
        -- exact St.
        -- apply (v_hs _ _ I).
        -- exact Hm.
        -- apply (v_argb _ _ I).
        -- intros j Hj. rewrite gor_upd by lia. destruct (Z.eqb_spec j i) as [->|]; [intro X; exfalso; apply X; exact Logic.I|]. apply (v_args _ _ I). exact Hj.
        -- apply (v_pool _ _ I).
        -- apply (v_pp _ _ I).
        -- intros j e' Hj Hh. destruct (v_held _ _ I j e' Hj (HH j e' Hj Hh)) as (A & B & C). split; [exact A|]. split; [exact B|].
           intros k' e'' Hk' Hne H. eapply C; [exact Hk'|exact Hne|]. apply HH; assumption.
        -- intros j Hj. rewrite gor_upd by lia. destruct (Z.eqb_spec j i) as [->|]; [exact Logic.I|]. apply (v_gok _ _ I). exact Hj.
        -- intros j Hj. rewrite gor_upd, RU by lia. destruct (Z.eqb_spec j i) as [->|]; [intros _; exists r0; split; [reflexivity|destruct (acc_len e t0 n _ _ Ge Ac) as [X1 X2]; split; [exact X1|split; [exact X2|exists e; split; [exact Ie|exact (acc_in _ _ _ _ _ Ac)]]]]|]. apply (v_set _ _ I). exact Hj.
        -- intros HP j Hj. rewrite gor_upd, RU by lia. destruct (Z.eqb_spec j i) as [->|Hne].
           ++ intros _. exists e, r0. destruct (acc_in _ _ _ _ _ Ac) as [PA PB]. split; [reflexivity|]. split; [exact Ge|]. split; [congruence|].
              split; [exact PA|]. split; [exact PB|]. split; [exact At|]. split; [|split].
              ** intros k' e'' Hk' Hne H. eapply Se; [exact Hk'|exact Hne|]. apply HH; assumption.
              ** rewrite Forall_forall in *. intros q Hq. right. apply Pe. exact Hq.
              ** exact Ie.
           ++ intro Hfj. destruct (v_fin _ _ I HP j Hj Hfj) as (e' & r' & H1 & H2 & H3 & H4 & H5 & H6 & H7 & H8 & H9).
              exists e', r'. repeat (split; [assumption|]). split; [|split; assumption].
              intros k' e'' Hk' Hne' H. eapply H7; [exact Hk'|exact Hne'|]. apply HH; assumption.
  - destruct (get (bs_gor O s) i) as [g|] eqn:Eg; [|discriminate]. apply (get_inv GDone) in Eg. destruct Eg as [Hi Eg]. rewrite Hl in Hi.
    destruct g as [|e|e k r0|e|]; try discriminate. injection E as <-. eexists. split; [reflexivity|]. split; [|reflexivity].
    destruct (v_held _ _ I i e Hi) as ([[Ge Ie] Oe] & Pe & Se); [rewrite <- Eg; reflexivity|].
    set (s' := {| bs_mem := bs_mem O s; bs_pool := e :: bs_pool O s; bs_gor := upd (bs_gor O s) i GDone; bs_results := bs_results O s |}) in *.
    assert (HH: forall j e', 0 <= j < K -> held (znd GDone (bs_gor O s') j) = Some e' -> held (gor_at s j) = Some e' /\ j <> i).
    { intros j e' Hj. cbn [bs_gor s']. rewrite gor_upd by lia. destruct (Z.eqb_spec j i) as [->|]; [discriminate|auto]. }
    constructor; cbn [bs_mem bs_pool bs_gor bs_results s'].
    + rewrite zlen_upd. exact Hl.
    + exact Hr.
    + exact St.
    + apply (v_hs _ _ I).
    + exact Hm.
    + apply (v_argb _ _ I).
    + intros j Hj. rewrite gor_upd by lia. destruct (Z.eqb_spec j i) as [->|]; [intro X; exfalso; apply X; exact Logic.I|]. apply (v_args _ _ I). exact Hj.
    + constructor; [split; assumption|apply (v_pool _ _ I)].
    + constructor; [exact Pe|apply (v_pp _ _ I)].
    + intros j e' Hj Hh. destruct (HH j e' Hj Hh) as [Hh' Hne]. destruct (v_held _ _ I j e' Hj Hh') as (A & B & C). split; [exact A|]. split.
      * constructor; [|exact B]. apply sep_sym. apply (Se j); assumption.
      * intros k' e'' Hk' Hne' H. destruct (HH k' e'' Hk' H). eapply C; eassumption.
    + intros j Hj. rewrite gor_upd by lia. destruct (Z.eqb_spec j i) as [->|]; [exact Logic.I|]. apply (v_gok _ _ I). exact Hj.
    + intros j Hj. rewrite gor_upd by lia. destruct (Z.eqb_spec j i) as [->|].
      * intros _. apply (v_set _ _ I i Hi). rewrite <- Eg. exact Logic.I.
      * apply (v_set _ _ I). exact Hj.
    + intros HP j Hj. rewrite gor_upd by lia. destruct (Z.eqb_spec j i) as [->|Hne].
      * intros _. destruct (v_fin _ _ I HP i Hi) as (e' & r' & H1 & H2 & H3 & H4 & H5 & H6 & H7 & H8 & H9); [rewrite <- Eg; exact Logic.I|].
        assert (e = e') by (apply H3; congruence). subst e'.
        exists e, r'. split; [exact H1|]. split; [exact H2|]. split; [discriminate|]. repeat (split; [assumption|]). split; [|split; [|exact H9]].
        -- intros k' e'' Hk' Hne' H. destruct (HH k' e'' Hk' H). eapply H7; eassumption.
        -- constructor; [left; reflexivity|exact H8].
      * intro Hfj. destruct (v_fin _ _ I HP j Hj Hfj) as (e' & r' & H1 & H2 & H3 & H4 & H5 & H6 & H7 & H8 & H9).
        exists e', r'. repeat (split; [assumption|]). split; [|split; [|exact H9]].
        -- intros k' e'' Hk' Hne' H. destruct (HH k' e'' Hk' H). eapply H7; eassumption.
        -- constructor; [right; apply (H7 i); [exact Hi|congruence|rewrite <- Eg; reflexivity]|exact H8].
Qed.

(** other code *)
Lemma inv_other hs s m' : inv hs s ->
  (forall p, In p hs \/ In p (bs_pool O s) -> same p (bs_mem O s) m') ->
  (forall x, still_read O calls s x -> tm m' x = tm (bs_mem O s) x) -> grew (bs_mem O s) m' ->
  inv hs {| bs_mem := m'; bs_pool := bs_pool O s; bs_gor := bs_gor O s; bs_results := bs_results O s |}.
Proof.
  intros I Hs Ha Gr. constructor; cbn [bs_mem bs_pool bs_gor bs_results].
  - apply (v_len _ _ I).
  - apply (v_res _ _ I).
  - apply (v_st _ _ I).
  - intros p Hp. apply (v_hs _ _ I) in Hp. destruct Gr as (X & _). lia.
  - destruct (v_mem _ _ I) as (a & b & c). destruct Gr as (x & y & z). unfold mem_ok. lia.
  - intros x Hx. apply (v_argb _ _ I) in Hx. destruct Gr as (X & _). lia.
  - intros i Hi Hu. apply (args_same (bs_mem O s)); [|apply (v_args _ _ I); assumption]. intros x Hx. apply Ha. exists i, (call i).
    split; [apply (get_ok call0); exact Hi|]. split; [exact Hx|]. rewrite (get_ok GDone) by (rewrite (v_len _ _ I); exact Hi).
    destruct (gor_at s i); try exact Logic.I; apply Hu; exact Logic.I.
  - pose proof (v_pool _ _ I) as Fp. rewrite Forall_forall in *. intros p Hp. destruct (Fp p Hp) as [Gp Op]. split; [|exact Op].
    eapply (good_same L pr); [exact Gp|apply Hs; right; exact Hp|exact Gr].
  - apply (v_pp _ _ I).
  - intros j e' Hj Hh. destruct (v_held _ _ I j e' Hj Hh) as ([[Gj Ij] Oj] & X). split; [|exact X]. split; [split; [|exact Ij]|exact Oj].
    eapply (good_same L pr); [exact Gj|apply Hs; left; exact Ij|exact Gr].
  - intros j Hj. pose proof (v_gok _ _ I j Hj) as Gj. destruct (gor_at s j) as [|e'|e' k' r'|e'|] eqn:Ej; try exact Logic.I.
    destruct (v_held _ _ I j e' Hj) as ([[_ Ij] _] & _); [rewrite Ej; reflexivity|].
    destruct Gj as (Hk' & At & t0 & Ac). pose proof (Hs e' (or_introl Ij)) as Sm.
    destruct (acc_in _ _ _ _ _ Ac). split; [exact Hk'|]. split; [eapply BatchFacts.at_same; eassumption|]. exists t0. eapply BatchFacts.acc_same; eassumption.
  - intros j Hj Hfj. destruct (v_set _ _ I j Hj Hfj) as (r' & H1 & [H2 H3] & [H4 H5] & e & H6 & H7 & H8). destruct (Hs e (or_introl H6)) as (St & _). destruct Gr as (X & _).
    exists r'. rewrite !St by assumption. split; [exact H1|]. split; [split; lia|]. split; [split; assumption|]. exists e. auto.
  - intros HP j Hj Hfj. destruct (v_fin _ _ I HP j Hj Hfj) as (e' & r' & H1 & H2 & H3 & H4 & H5 & H6 & H7 & H8 & H9).
    pose proof (Hs e' (or_introl H9)) as Sm. exists e', r'. split; [exact H1|]. split; [eapply (good_same L pr); eassumption|].
    split; [exact H3|]. split; [exact H4|]. split; [exact H5|]. split; [eapply BatchFacts.at_same; eassumption|]. auto.
Qed.

(** the pool loses an evaluator *)
Lemma inv_drop hs s p1 p p2 : inv hs s -> bs_pool O s = p1 ++ p :: p2 ->
  inv hs {| bs_mem := bs_mem O s; bs_pool := p1 ++ p2; bs_gor := bs_gor O s; bs_results := bs_results O s |}.
Proof.
  intros I E.
  assert (Sub: forall Q : peval -> Prop, Forall Q (bs_pool O s) -> Forall Q (p1 ++ p2)).
  { intros Q F. rewrite E in F. apply Forall_app in F. destruct F as [F1 F2]. inversion F2; subst. apply Forall_app. split; assumption. }
  constructor; cbn [bs_mem bs_pool bs_gor bs_results].
  - apply (v_len _ _ I).
  - apply (v_res _ _ I).
  - apply (v_st _ _ I).
  - apply (v_hs _ _ I).
  - apply (v_mem _ _ I).
  - apply (v_argb _ _ I).
  - apply (v_args _ _ I).
  - apply Sub. apply (v_pool _ _ I).
  - pose proof (v_pp _ _ I) as PP. rewrite E in PP. apply (pairs_mid sep sep_sym _ _ _ PP).
  - intros j e' Hj Hh. destruct (v_held _ _ I j e' Hj Hh) as (A & B & C). split; [exact A|]. split; [apply Sub; exact B|exact C].
  - apply (v_gok _ _ I).
  - apply (v_set _ _ I).
  - intros HP j Hj Hfj. destruct (v_fin _ _ I HP j Hj Hfj) as (e' & r' & H1 & H2 & H3 & H4 & H5 & H6 & H7 & H8 & H9).
    exists e', r'. repeat (split; [assumption|]). split; [apply Sub; exact H8|exact H9].
Qed.

End Flight.

Section Calls.
Context {O : fops} {N : Z} (L : flaws O N) (pr : pset) (W : pwf pr N) (HBG : g_BG pr = 2 ^ g_BGBIT pr).
Notation M := (mem (FP O)).
Notation n := (lv0_N pr).

Lemma inv_start (m : M) pool : mem_ok m -> Forall (good L m) pool -> ForallOrdPairs sep pool -> inv L pr [] [] (finit O m pool []).
Proof.
  intros Hm Hg Hp. assert (NK: forall i, ~ 0 <= i < zlen (@nil (fcall O))) by (intro i; cbn; lia).
  constructor; cbn [finit binit bs_mem bs_pool bs_gor bs_results map length repeat].
  - reflexivity.
  - reflexivity.
  - intros i Hi. destruct (NK i Hi).
  - intros p [].
  - exact Hm.
  - intros x (i & Hi & _). destruct (NK i Hi).
  - intros i Hi. destruct (NK i Hi).
  - rewrite Forall_forall in *. intros p Hp'. split; [apply Hg; exact Hp'|]. intros x (i & Hi & _). destruct (NK i Hi).
  - exact Hp.
  - intros i e Hi. destruct (NK i Hi).
  - intros i Hi. destruct (NK i Hi).
  - intros i Hi. destruct (NK i Hi).
  - intros _ i Hi. destruct (NK i Hi).
Qed.

(** a goroutine is started *)
Lemma inv_call calls hs s j tv : inv L pr calls hs s -> flight_job O pr (bs_mem O s) (hs ++ bs_pool O s) j tv ->
  inv L pr (calls ++ [{| fc_job := j; fc_src := tm (bs_mem O s) (fj_src O j); fc_tv := tv |}]) hs
    {| bs_mem := bs_mem O s; bs_pool := bs_pool O s; bs_gor := bs_gor O s ++ [GNew]; bs_results := bs_results O s ++ [None] |}.
Proof.
  intros I J. set (c := {| fc_job := j; fc_src := tm (bs_mem O s) (fj_src O j); fc_tv := tv |}).
  pose proof J as (A & sk & rk & rb & ck & Hsk & Hck & Eb & _). pose proof (tv_ok pr W _ _ _ _ _ A) as Htv.
  assert (Hbsk: bsk_ok L pr (fj_bsk O j)) by (rewrite Eb; exact (cloud_bsk L pr W HBG _ _ _ _ Hsk Hck)).
  destruct A as (F & OA & OB & TA & TB & _). inversion F as [|? ? [Os Ls] _]; subst.
  pose proof (v_len _ _ _ _ _ I) as Hl. pose proof (v_res _ _ _ _ _ I) as Hr.
  assert (SN: forall {T} (d : T) xs y i, 0 <= i < zlen xs + 1 -> znd d (xs ++ [y]) i = if i =? zlen xs then y else znd d xs i).
  { intros T d xs y i Hi. unfold znd, zlen in *. destruct (Z.ltb_spec i 0); [lia|]. destruct (Z.eqb_spec i (Z.of_nat (length xs))) as [->|].
    - rewrite app_nth2 by lia. replace (Z.to_nat (Z.of_nat (length xs)) - length xs)%nat with 0%nat by lia. reflexivity.
    - apply app_nth1. lia. }
  assert (LC: zlen (calls ++ [c]) = zlen calls + 1) by (unfold zlen; rewrite app_length; cbn [length]; lia).
  assert (CA: forall i, 0 <= i < zlen calls -> znd call0 (calls ++ [c]) i = znd call0 calls i) by (intros i Hi; rewrite SN by lia; destruct (Z.eqb_spec i (zlen calls)); [lia|reflexivity]).
  assert (CN: znd call0 (calls ++ [c]) (zlen calls) = c) by (rewrite SN by (pose proof (Zle_0_nat (length calls)); unfold zlen in *; lia); rewrite Z.eqb_refl; reflexivity).
  assert (GA: forall i, 0 <= i < zlen calls -> znd GDone (bs_gor O s ++ [GNew]) i = znd GDone (bs_gor O s) i) by (intros i Hi; rewrite SN by lia; destruct (Z.eqb_spec i (zlen (bs_gor O s))); [lia|reflexivity]).
  assert (GN: znd GDone (bs_gor O s ++ [GNew]) (zlen calls) = GNew) by (rewrite <- Hl, SN by (pose proof (Zle_0_nat (length (bs_gor O s))); unfold zlen in *; lia); rewrite Z.eqb_refl; reflexivity).
  assert (RA: forall i, 0 <= i < zlen calls -> znd None (bs_results O s ++ [None]) i = znd None (bs_results O s) i) by (intros i Hi; rewrite SN by lia; destruct (Z.eqb_spec i (zlen (bs_results O s))); [lia|reflexivity]).
  assert (Cs: forall i, 0 <= i < zlen (calls ++ [c]) -> 0 <= i < zlen calls \/ i = zlen calls) by (intros i Hi; lia).
  assert (AX: forall x, (exists i, 0 <= i < zlen (calls ++ [c]) /\ In x [fj_src O (fc_job O (znd call0 (calls ++ [c]) i)); rA (fj_testvec O (fc_job O (znd call0 (calls ++ [c]) i))); rB (fj_testvec O (fc_job O (znd call0 (calls ++ [c]) i)))]) ->
    (exists i, 0 <= i < zlen calls /\ In x [fj_src O (fc_job O (znd call0 calls i)); rA (fj_testvec O (fc_job O (znd call0 calls i))); rB (fj_testvec O (fc_job O (znd call0 calls i)))]) \/ outside_pool O (bs_mem O s) (hs ++ bs_pool O s) x).
  { intros x (i & Hi & Hx). destruct (Cs i Hi) as [Hi'|Hi'].
    - left. exists i. rewrite CA in Hx by exact Hi'. split; assumption.
    - right. subst i. rewrite CN in Hx. destruct Hx as [<-|[<-|[<-|[]]]]; assumption. }
  constructor; cbn [bs_mem bs_pool bs_gor bs_results].
  - unfold zlen in *. rewrite !app_length. cbn [length]. lia.
  - unfold zlen in *. rewrite !app_length. cbn [length]. lia.
  - intros i Hi. destruct (Cs i Hi) as [Hi'| ->]; [rewrite CA by exact Hi'; apply (v_st _ _ _ _ _ I); exact Hi'|]. rewrite CN. auto.
  - apply (v_hs _ _ _ _ _ I).
  - apply (v_mem _ _ _ _ _ I).
  - intros x Hx. destruct (AX x Hx) as [X|[X _]]; [apply (v_argb _ _ _ _ _ I); exact X|lia].
  - intros i Hi Hu. destruct (Cs i Hi) as [Hi'| ->].
    + unfold args_at. rewrite CA by exact Hi'. apply (v_args _ _ _ _ _ I); [exact Hi'|]. rewrite <- GA by exact Hi'. exact Hu.
    + unfold args_at. rewrite CN. split; [reflexivity|]. split; assumption.
  - pose proof (v_pool _ _ _ _ _ I) as Fp. rewrite Forall_forall in *. intros p Hp. destruct (Fp p Hp) as [Gp Op]. split; [exact Gp|].
    intros x Hx. destruct (AX x Hx) as [X|[_ X]]; [apply Op; exact X|apply X; apply in_or_app; right; exact Hp].
  - apply (v_pp _ _ _ _ _ I).
  - intros i e Hi Hh. destruct (Cs i Hi) as [Hi'| ->]; [|rewrite GN in Hh; discriminate]. rewrite GA in Hh by exact Hi'.
    destruct (v_held _ _ _ _ _ I i e Hi' Hh) as ([[Ge Ie] Oe] & Pe & Se). split; [split; [split; assumption|]|split; [exact Pe|]].
    + intros x Hx. destruct (AX x Hx) as [X|[_ X]]; [apply Oe; exact X|apply X; apply in_or_app; left; exact Ie].
    + intros k e' Hk Hne Hk'. destruct (Cs k Hk) as [Hk2| ->]; [|rewrite GN in Hk'; discriminate]. rewrite GA in Hk' by exact Hk2. eapply Se; eassumption.
  - intros i Hi. destruct (Cs i Hi) as [Hi'| ->]; [|rewrite GN; exact Logic.I]. rewrite GA by exact Hi'.
    pose proof (v_gok _ _ _ _ _ I i Hi') as X. unfold gok in *. rewrite CA by exact Hi'. exact X.
  - intros i Hi Hf. destruct (Cs i Hi) as [Hi'| ->]; [|rewrite GN in Hf; destruct Hf]. rewrite GA in Hf by exact Hi'. rewrite RA by exact Hi'.
    apply (v_set _ _ _ _ _ I i Hi' Hf).
  - intros HP i Hi Hf. destruct (Cs i Hi) as [Hi'| ->]; [|rewrite GN in Hf; destruct Hf]. rewrite GA in Hf by exact Hi'. rewrite RA, GA, CA by exact Hi'.
    destruct (v_fin _ _ _ _ _ I HP i Hi' Hf) as (e & r & H1 & H2 & H3 & H4 & H5 & H6 & H7 & H8).
    exists e, r. repeat (split; [assumption|]). split; [|exact H8].
    intros k e' Hk Hne Hk'. destruct (Cs k Hk) as [Hk2| ->]; [|rewrite GN in Hk'; discriminate]. rewrite GA in Hk' by exact Hk2. eapply H7; eassumption.
Qed.

Lemma inv_flight (m : M) pool calls hs s : mem_ok m -> Forall (good L m) pool -> ForallOrdPairs sep pool -> in_flight O pr m pool calls hs s -> inv L pr calls hs s.
Proof.
  intros Hm Hg Hp F. induction F as [|calls hs s j tv F IH J|calls hs s ev s' F IH E|calls hs s m' F IH Hs Ha Ht Hf Hi|calls hs s p1 p p2 F IH E].
  - apply inv_start; assumption.
  - apply inv_call; assumption.
  - destruct (inv_step L pr W calls hs ev s _ IH E) as (s1 & [= <-] & I & _). exact I.
  - apply inv_other; [exact IH|exact Hs|exact Ha|unfold grew; auto].
  - eapply inv_drop; eassumption.
Qed.
End Calls.

(** * BatchBlindRotate under any schedule *)
From Coq Require Import Lia ZifyBool Setoid Morphisms List.
From Verif Require Import GoBase GoFacts GoMem F64 Utils Spec Params Key Tlwe TlweMem Poly Fft Trlwe Trgsw Evaluator CloudKey Gates RunSpec BatchSpec
  MemFacts TlweFacts PolyFacts NegFacts Laws TrlweFacts TrgswFacts RotFacts EvalFacts HeapFacts OldRotFacts CloudKeyFacts CallFacts BootFacts.
Import ListNotations.
Local Open Scope Z_scope.
Ltac Zify.zify_post_hook ::= idtac.

(** evaluators with separate buffers *)
Definition apart1 (a b k : Z) : Prop := a + k <= b \/ b + k <= a.
Definition sep (p q : peval) : Prop := apart1 (pe_t p) (pe_t q) 24 /\ apart1 (pe_f p) (pe_f q) 15 /\ apart1 (pe_i p) (pe_i q) 2.
Lemma sep_sym p q : sep p q -> sep q p.
Proof. unfold sep, apart1. lia. Qed.

Definition held (g : gor) : option peval :=
  match g with GHas e | GAcc e _ _ | GRet e => Some e | GNew | GDone => None end.
Definition finished (g : gor) : Prop := match g with GRet _ | GDone => True | _ => False end.

Lemma remove_split {A} (l : list A) k x : get l k = Ok x -> exists l1 l2, l = l1 ++ x :: l2 /\ remove_at k l = l1 ++ l2.
Proof.
  intro E. pose proof E as E'. apply (get_inv x) in E. destruct E as [Hk E].
  exists (firstn (Z.to_nat k) l), (skipn (Z.to_nat k + 1) l). split; [|reflexivity].
  unfold zlen in Hk. assert (Hl: (Z.to_nat k < length l)%nat) by lia.
  rewrite <- (firstn_skipn (Z.to_nat k) l) at 1. f_equal.
  unfold znd in E. destruct (k <? 0) eqn:Ek; [lia|].
  clear - E Hl. revert l E Hl. induction (Z.to_nat k) as [|j IH]; intros l E Hl; destruct l as [|y l]; cbn in *; try lia; [subst; reflexivity|].
  apply IH; [exact E|lia].
Qed.
Lemma pairs_mid {A} (R : A -> A -> Prop) (sym : forall a b, R a b -> R b a) l1 x l2 :
  ForallOrdPairs R (l1 ++ x :: l2) -> ForallOrdPairs R (l1 ++ l2) /\ Forall (R x) (l1 ++ l2).
Proof.
  induction l1 as [|y l1 IH]; cbn [app]; intro H; inversion H as [|a b H1 H2]; subst.
  - split; assumption.
  - destruct (IH H2) as [A1 A2]. apply Forall_app in H1. destruct H1 as [B1 B2]. inversion B2; subst. split.
    + constructor; [|exact A1]. apply Forall_app. split; assumption.
    + constructor; [apply sym; assumption|exact A2].
Qed.

Section Batch.
Context {O : fops} {N : Z} (L : flaws O N) (pr : pset) (W : pwf pr N) (HBG : g_BG pr = 2 ^ g_BGBIT pr).
Notation M := (mem (FP O)).
Notation n := (lv0_N pr).
Notation l := (g_L pr). Notation bg := (g_BGBIT pr). Notation nb := (g_NBIT pr).

(** a usable evaluator *)
Definition good (m : M) (p : peval) : Prop :=
  pe_ok L m p /\ (0 <= pe_t p /\ pe_t p + 24 <= tnext m) /\ (0 <= pe_f p /\ pe_f p + 15 <= fnext m) /\ (0 <= pe_i p /\ pe_i p + 2 <= inext m).
(** nothing of [p] changed *)
Definition same (p : peval) (m m' : M) : Prop :=
  (forall x, pown p x -> tm m' x = tm m x) /\ (forall x, pe_f p <= x < pe_f p + 15 -> fm m' x = fm m x) /\
  (forall x, pe_i p <= x < pe_i p + 2 -> im m' x = im m x).
Definition grew (m m' : M) : Prop := tnext m <= tnext m' /\ fnext m <= fnext m' /\ inext m <= inext m'.

Lemma good_same p m m' : good m p -> same p m m' -> grew m m' -> good m' p.
Proof. intros (A & B & C & D) (E & F & G) (a & b & c). split; [eapply (pe_ok_same L); eassumption|lia]. Qed.
Lemma at_same p m m' r c : same p m m' -> pscr p (rA r) -> pscr p (rB r) -> at_ m r c -> at_ m' r c.
Proof. intros (E & _) HA HB [A B]. split; rewrite E; assumption. Qed.
Lemma acc_same p m m' t0 k r : same p m m' -> acc_at p t0 k m r -> acc_at p t0 k m' r.
Proof. intros (_ & _ & E) H. unfold acc_at in *. rewrite !E by lia. exact H. Qed.

Lemma step_same p q m m' : step L (pscr p) (blk (pe_f p) 15) (blk (pe_i p) 2) m m' -> sep p q -> same q m m'.
Proof.
  intros S (A & B & C). unfold apart1 in *. split; [|split].
  - intros x Hx. apply (step_t _ _ _ _ _ _ _ S). unfold pscr, blk, pown in *. lia.
  - intros x Hx. apply (step_f _ _ _ _ _ _ _ S). unfold blk. lia.
  - intros x Hx. apply (step_i _ _ _ _ _ _ _ S). unfold blk. lia.
Qed.
Lemma step_grew (T P I : Z -> Prop) m m' : step L T P I m m' -> grew m m'.
Proof. intros S. destruct (fr_n _ _ _ _ _ (proj1 S)) as (a & b & c). unfold grew. lia. Qed.
Lemma good_step p m m' : step L (pscr p) (blk (pe_f p) 15) (blk (pe_i p) 2) m m' -> good m p -> pe_ok L m' p -> good m' p.
Proof. intros S (_ & A) H. destruct (step_grew _ _ _ _ _ S) as (a & b & c). split; [exact H|lia]. Qed.
Lemma same_refl p m : same p m m.
Proof. split; [|split]; reflexivity. Qed.

Lemma new_good m : mem_ok m -> exists e m', NewPolyEvaluator O m (g_N pr) = Ok (e, m') /\ good m' e /\ mem_ok m' /\ grew m m' /\
  (forall x, x < tnext m -> tm m' x = tm m x) /\ (forall q, good m q -> sep e q /\ same q m m') /\ (forall x, pown e x -> tnext m <= x) /\
  im m' (pe_i e + 1) = 0.
Proof.
  intros (a & b & c). rewrite (pw_gN _ _ W). destruct (NewPolyEvaluator_ok L m) as (m1 & E1 & (G & T1 & F1 & I1) & Z1 & Z2 & Z3).
  eexists _, m1. split; [exact E1|]. cbn [pe_t pe_f pe_i].
  split; [|split; [|split; [|split; [|split; [|split]]]]].
  - split; [|cbn [pe_t pe_f pe_i]; lia]. constructor; cbn [pe_t pe_f pe_i]; [exact Z1|exact Z2| |]; rewrite Z3 by (unfold blk; lia); lia.
  - unfold mem_ok. lia.
  - unfold grew. lia.
  - intros x Hx. apply (gr_t _ _ _ _ _ _ G); [exact Hx|intros []].
  - intros q (_ & B & C & D). split; [unfold sep, apart1; cbn [pe_t pe_f pe_i]; lia|]. split; [|split].
    + intros x Hx. unfold pown in Hx. apply (gr_t _ _ _ _ _ _ G); [lia|intros []].
    + intros x Hx. apply (gr_f _ _ _ _ _ _ G); [lia|intros []].
    + intros x Hx. apply (gr_i _ _ _ _ _ _ G); [lia|intros []].
  - intros x Hx. unfold pown in Hx. cbn [pe_t] in Hx. lia.
  - apply Z3. unfold blk. lia.
Qed.

(** ** one batch *)
Context (m0 : M) (pool0 : list peval) (srcs : list Z) (tvr : tref) (tv : trlwe) (bsk : list (trgsw_fft O)) (off : Z)
  (Hbsk : bsk_ok L pr bsk) (Hargs : batch_args O pr m0 pool0 srcs tvr tv).
Notation K := (zlen srcs).
Notation brp i k := (br_acc L bg l off nb n bsk (tm m0 (znd 0 srcs i)) tv k).
Notation gor_at s i := (znd GDone (bs_gor O s) i).
Notation res_at s i := (znd None (bs_results O s) i).
Notation out0 x := (outside_pool O m0 pool0 x).
Notation handed := (handed_out O pr srcs tvr bsk off).
Notation bstep := (bstep O pr srcs tvr bsk off).

Lemma tv_ok : ct_ok N tv.
Proof. destruct Hargs as (_ & _ & _ & _ & _ & A & B & C & D). rewrite (pw_gN _ _ W) in *. split; split; assumption. Qed.
Lemma src_ok i : 0 <= i < K -> out0 (znd 0 srcs i) /\ zlen (tm m0 (znd 0 srcs i)) = n + 1.
Proof.
  intro Hi. destruct Hargs as (F & _). rewrite Forall_forall in F. apply F.
  unfold znd. destruct (Z.ltb_spec i 0); [lia|]. apply nth_In. unfold zlen in Hi. lia.
Qed.

Definition gok (m : M) (i : Z) (g : gor) : Prop :=
  match g with
  | GAcc e k r => 0 <= k <= n /\ at_ m r (brp i k) /\ exists t0, acc_at e t0 k m r
  | _ => True
  end.

Record inv (P : Prop) (evs : list bevent) (s : bstate O) : Prop := {
  v_len : zlen (bs_gor O s) = K;
  v_res : zlen (bs_results O s) = K;
  v_mem : mem_ok (bs_mem O s) /\ tnext m0 <= tnext (bs_mem O s);
  v_args : forall x, out0 x -> tm (bs_mem O s) x = tm m0 x;
  v_pool : Forall (fun p => good (bs_mem O s) p /\ forall x, out0 x -> ~ pown p x) (bs_pool O s);
  v_pp : ForallOrdPairs sep (bs_pool O s);
  v_held : forall i e, 0 <= i < K -> held (gor_at s i) = Some e ->
    (good (bs_mem O s) e /\ forall x, out0 x -> ~ pown e x) /\ Forall (sep e) (bs_pool O s) /\
    (forall j e', 0 <= j < K -> j <> i -> held (gor_at s j) = Some e' -> sep e e');
  v_gok : forall i, 0 <= i < K -> gok (bs_mem O s) i (gor_at s i);
  v_set : forall i, 0 <= i < K -> finished (gor_at s i) -> exists r, res_at s i = Some r /\
    (rA r < tnext (bs_mem O s) /\ rB r < tnext (bs_mem O s)) /\ zlen (tm (bs_mem O s) (rA r)) = N /\ zlen (tm (bs_mem O s) (rB r)) = N;
  v_fin : P -> forall i, 0 <= i < K -> finished (gor_at s i) -> exists e r, res_at s i = Some r /\
    good (bs_mem O s) e /\ (forall e', gor_at s i = GRet e' -> e' = e) /\
    pscr e (rA r) /\ pscr e (rB r) /\ at_ (bs_mem O s) r (brp i n) /\
    (forall j e', 0 <= j < K -> j <> i -> held (gor_at s j) = Some e' -> sep e e') /\
    Forall (fun q => q = e \/ sep e q) (bs_pool O s) /\ ~ In e (handed evs s);
  v_nodup : P -> NoDup (handed evs s) /\ forall i e, 0 <= i < K -> held (gor_at s i) = Some e -> ~ In e (handed evs s)
}.

Lemma acc_len e t0 k m r : good m e -> acc_at e t0 k m r -> (rA r < tnext m /\ rB r < tnext m) /\ zlen (tm m (rA r)) = N /\ zlen (tm m (rB r)) = N.
Proof.
  intros (G & B & _) A. destruct (acc_in _ _ _ _ _ A) as [X Y]. split; [unfold pscr, blk in *; lia|]. split; apply (po_t _ _ _ G); assumption.
Qed.

Lemma gor_upd s i j g : 0 <= i < zlen (bs_gor O s) -> 0 <= j -> znd GDone (upd (bs_gor O s) i g) j = if j =? i then g else gor_at s j.
Proof. intros Hi Hj. rewrite znd_upd by assumption. destruct (Z.eqb_spec i j), (Z.eqb_spec j i); subst; try lia; reflexivity. Qed.

(** a goroutine works on its evaluator *)
Lemma inv_work P ev evs s i e k r m' : inv P (ev :: evs) s -> 0 <= i < K -> held (gor_at s i) = Some e -> ~ finished (gor_at s i) ->
  step L (pscr e) (blk (pe_f e) 15) (blk (pe_i e) 2) (bs_mem O s) m' -> pe_ok L m' e -> gok m' i (GAcc e k r) ->
  let s' := {| bs_mem := m'; bs_pool := bs_pool O s; bs_gor := upd (bs_gor O s) i (GAcc e k r); bs_results := bs_results O s |} in
  bstep ev s = Some (Ok s') -> (forall j c, ev <> BGet j c) -> inv P evs s'.
Proof.
  intros I Hi Hh Hf S He Hg s' Es Hev.
  assert (EH: handed (ev :: evs) s = handed evs s').
  { cbn [handed_out]. rewrite Es. destruct ev; [exfalso; eapply Hev; reflexivity|reflexivity|reflexivity]. }
  pose proof (v_len _ _ _ I) as Hl. destruct (v_held _ _ _ I i e Hi Hh) as ([Ge Oe] & Pe & Se).
  pose proof (step_grew _ _ _ _ _ S) as Gr.
  assert (HH: forall j e', 0 <= j < K -> held (znd GDone (bs_gor O s') j) = Some e' -> held (gor_at s j) = Some e').
  { intros j e' Hj. cbn [bs_gor s']. rewrite gor_upd by lia. destruct (Z.eqb_spec j i) as [->|]; [cbn [held]; congruence|auto]. }
  assert (SE: forall j e', 0 <= j < K -> j <> i -> held (gor_at s j) = Some e' -> same e' (bs_mem O s) m') by (intros; eapply step_same; [exact S|apply (Se j); assumption]).
  constructor; cbn [bs_mem bs_pool bs_gor bs_results s'].
  - rewrite zlen_upd. exact Hl.
  - apply (v_res _ _ _ I).
  - destruct (v_mem _ _ _ I) as [(a & b & c) d]. destruct Gr as (x & y & z). unfold mem_ok. lia.
  - intros x Hx. rewrite (step_t _ _ _ _ _ _ _ S) by (exact (Oe x Hx)). apply (v_args _ _ _ I). exact Hx.
  - pose proof (v_pool _ _ _ I) as Fp. rewrite Forall_forall in *. intros p Hp. destruct (Fp p Hp) as [Gp Op]. split; [|exact Op].
    eapply good_same; [exact Gp| |exact Gr]. eapply step_same; [exact S|apply Pe; exact Hp].
  - apply (v_pp _ _ _ I).
  - intros j e' Hj Hhj. assert (Hhj' := HH j e' Hj Hhj). destruct (v_held _ _ _ I j e' Hj Hhj') as ([Gj Oj] & Pj & Sj).
    split; [split; [|exact Oj]|split; [exact Pj|]].
    + destruct (Z.eq_dec j i) as [->|Hne]; [assert (e' = e) by congruence; subst e'; apply (good_step e _ _ S Ge He)|].
      eapply good_same; [exact Gj|apply (SE j); assumption|exact Gr].
    + intros k' e'' Hk' Hne H. eapply Sj; [exact Hk'|exact Hne|]. apply HH; assumption.
  - intros j Hj. rewrite gor_upd by lia. destruct (Z.eqb_spec j i) as [->|Hne]; [exact Hg|].
    pose proof (v_gok _ _ _ I j Hj) as Gj. destruct (gor_at s j) as [|e'|e' k' r'|e'|] eqn:Ej; try exact Logic.I.
    destruct Gj as (Hk' & At & t0 & Ac).
    assert (Sm: same e' (bs_mem O s) m') by (apply (SE j); [exact Hj|exact Hne|rewrite Ej; reflexivity]).
    destruct (acc_in _ _ _ _ _ Ac). split; [exact Hk'|]. split; [eapply at_same; eassumption|]. exists t0. eapply acc_same; eassumption.
  - intros j Hj. rewrite gor_upd by lia. destruct (Z.eqb_spec j i) as [->|Hne]; [intros []|]. intro Hfj.
    destruct (v_set _ _ _ I j Hj Hfj) as (r' & H1 & [H2 H3] & H4 & H5). destruct Gr as (X & _). exists r'. rewrite !(step_len _ _ _ _ _ _ _ S).
    split; [exact H1|]. split; [split; lia|]. split; assumption.
  - intros HP j Hj. rewrite gor_upd by lia. destruct (Z.eqb_spec j i) as [->|Hne]; [intros []|]. intro Hfj.
    destruct (v_fin _ _ _ I HP j Hj Hfj) as (e' & r' & H1 & H2 & H3 & H4 & H5 & H6 & H7 & H8 & H9).
    assert (Sm: same e' (bs_mem O s) m') by (eapply step_same; [exact S|apply sep_sym; apply (H7 i); [exact Hi|congruence|exact Hh]]).
    exists e', r'. split; [exact H1|]. split; [eapply good_same; eassumption|]. split; [exact H3|]. split; [exact H4|]. split; [exact H5|].
    split; [eapply at_same; eassumption|]. split; [|split; [exact H8|rewrite EH in H9; exact H9]].
    intros k' e'' Hk' Hne' H. eapply H7; [exact Hk'|exact Hne'|]. apply HH; assumption.
  - intro HP. destruct (v_nodup _ _ _ I HP) as [A B]. rewrite EH in A, B. split; [exact A|]. intros j e' Hj H. apply (B j e' Hj). apply HH; assumption.
Qed.

(** a goroutine gets an evaluator *)
Lemma inv_get P evs s i c e m' pool' : inv P (BGet i c :: evs) s -> 0 <= i < K -> gor_at s i = GNew ->
  (forall x, x < tnext (bs_mem O s) -> tm m' x = tm (bs_mem O s) x) -> (forall q, good (bs_mem O s) q -> same q (bs_mem O s) m') -> mem_ok m' -> grew (bs_mem O s) m' ->
  good m' e -> (forall x, out0 x -> ~ pown e x) -> Forall (sep e) pool' -> ForallOrdPairs sep pool' ->
  (forall q, In q pool' -> In q (bs_pool O s)) ->
  (forall j e', 0 <= j < K -> held (gor_at s j) = Some e' -> sep e e') ->
  (forall e', P -> good (bs_mem O s) e' -> Forall (fun q => q = e' \/ sep e' q) (bs_pool O s) -> e' <> e -> sep e' e) ->
  let s' := {| bs_mem := m'; bs_pool := pool'; bs_gor := upd (bs_gor O s) i (GHas e); bs_results := bs_results O s |} in
  bstep (BGet i c) s = Some (Ok s') -> inv P evs s'.
Proof.
  intros I Hi Hn Ha Hs Hm Gr Ge Oe Pe Pp Hsub Hse Hfs s' Es. pose proof (v_len _ _ _ I) as Hl.
  assert (EH: handed (BGet i c :: evs) s = e :: handed evs s').
  { cbn [handed_out]. rewrite Es. cbn [bs_gor s']. rewrite (get_ok GDone) by (rewrite zlen_upd; lia). rewrite gor_upd, Z.eqb_refl by lia. reflexivity. }
  constructor; cbn [bs_mem bs_pool bs_gor bs_results s'].
  - rewrite zlen_upd. exact Hl.
  - apply (v_res _ _ _ I).
  - destruct (v_mem _ _ _ I) as [_ d]. destruct Gr as (x & y & z). split; [exact Hm|lia].
  - intros x Hx. rewrite Ha by (destruct (v_mem _ _ _ I) as [_ d]; destruct Hx as [[_ X] _]; lia). apply (v_args _ _ _ I). exact Hx.
  - pose proof (v_pool _ _ _ I) as Fp. rewrite Forall_forall in *. intros p Hp. destruct (Fp p (Hsub p Hp)) as [Gp Op]. split; [|exact Op].
    eapply good_same; [exact Gp|apply Hs; exact Gp|exact Gr].
  - exact Pp.
  - intros j e' Hj. rewrite gor_upd by lia. destruct (Z.eqb_spec j i) as [->|Hne].
    + cbn [held]. intros [= <-]. split; [split; [exact Ge|exact Oe]|]. split; [exact Pe|]. intros k e'' Hk Hne'. rewrite gor_upd by lia.
      destruct (Z.eqb_spec k i); [lia|]. apply Hse. exact Hk.
    + intro Hh. destruct (v_held _ _ _ I j e' Hj Hh) as ([Gj Oj] & Pj & Sj). split; [split; [|exact Oj]|split].
      * eapply good_same; [exact Gj|apply Hs; exact Gj|exact Gr].
      * rewrite Forall_forall in *. intros q Hq. apply Pj. apply Hsub. exact Hq.
      * intros k e'' Hk Hne'. rewrite gor_upd by lia. destruct (Z.eqb_spec k i) as [->|]; [|apply Sj; assumption].
        cbn [held]. intros [= <-]. apply sep_sym. apply (Hse j); assumption.
  - intros j Hj. rewrite gor_upd by lia. destruct (Z.eqb_spec j i) as [->|Hne]; [exact Logic.I|].
    pose proof (v_gok _ _ _ I j Hj) as Gj. destruct (gor_at s j) as [|e'|e' k' r'|e'|] eqn:Ej; try exact Logic.I.
    destruct (v_held _ _ _ I j e' Hj) as ([Gj' _] & _); [rewrite Ej; reflexivity|].
    destruct Gj as (Hk' & At & t0 & Ac). pose proof (Hs e' Gj') as Sm.
    destruct (acc_in _ _ _ _ _ Ac). split; [exact Hk'|]. split; [eapply at_same; eassumption|]. exists t0. eapply acc_same; eassumption.
  - intros j Hj. rewrite gor_upd by lia. destruct (Z.eqb_spec j i) as [->|Hne]; [intros []|]. intro Hfj.
    destruct (v_set _ _ _ I j Hj Hfj) as (r' & H1 & [H2 H3] & H4 & H5). destruct Gr as (X & _). exists r'. rewrite !Ha by lia.
    split; [exact H1|]. split; [split; lia|]. split; assumption.
  - intros HP j Hj. rewrite gor_upd by lia. destruct (Z.eqb_spec j i) as [->|Hne]; [intros []|]. intro Hfj.
    destruct (v_fin _ _ _ I HP j Hj Hfj) as (e' & r' & H1 & H2 & H3 & H4 & H5 & H6 & H7 & H8 & H9).
    rewrite EH in H9. assert (Hee: e' <> e /\ ~ In e' (handed evs s')) by (cbn [In] in H9; split; [intro X; apply H9; auto|tauto]). destruct Hee as [Hee H9'].
    pose proof (Hs e' H2) as Sm.
    exists e', r'. split; [exact H1|]. split; [eapply good_same; eassumption|]. split; [exact H3|]. split; [exact H4|]. split; [exact H5|].
    split; [eapply at_same; eassumption|]. split; [|split; [|exact H9']].
    + intros k' e'' Hk' Hne'. rewrite gor_upd by lia. destruct (Z.eqb_spec k' i) as [->|]; [cbn [held]; intros [= <-]; apply Hfs; assumption|].
      apply H7; assumption.
    + rewrite Forall_forall in *. intros q Hq. apply H8. apply Hsub. exact Hq.
  - intro HP. destruct (v_nodup _ _ _ I HP) as [A B]. rewrite EH in A, B. inversion A as [|? ? A1 A2]; subst. split; [exact A2|].
    intros j e' Hj. rewrite gor_upd by lia. destruct (Z.eqb_spec j i) as [->|]; [cbn [held]; intros [= <-]; exact A1|].
    intros Hh X. apply (B j e' Hj Hh). right. exact X.
Qed.

Lemma inv_step P ev evs s r : inv P (ev :: evs) s -> bstep ev s = Some r -> exists s', r = Ok s' /\ inv P evs s'.
Proof.
  intros I E. pose proof (v_len _ _ _ I) as Hl. pose proof (v_res _ _ _ I) as Hr. destruct (v_mem _ _ _ I) as [Hm Ht].
  assert (E0 := E). destruct ev as [i c|i|i]; cbn [Gates.bstep] in E.
  - destruct (get (bs_gor O s) i) as [g|] eqn:Eg; [|discriminate]. apply (get_inv GDone) in Eg. destruct Eg as [Hi Eg]. rewrite Hl in Hi.
    destruct g; try discriminate. destruct c as [c|].
    + destruct (get (bs_pool O s) c) as [e|] eqn:Ee; [|discriminate]. injection E as <-. eexists. split; [reflexivity|].
      destruct (remove_split _ _ _ Ee) as (l1 & l2 & E1 & E2).
      pose proof (v_pp _ _ _ I) as PP. rewrite E1 in PP. destruct (pairs_mid sep sep_sym _ _ _ PP) as [P1 P2].
      pose proof (v_pool _ _ _ I) as Fp. rewrite Forall_forall in Fp. assert (Hin: In e (bs_pool O s)) by (rewrite E1; apply in_elt).
      destruct (Fp e Hin) as [Ge Oe].
      apply (inv_get P evs s i (Some c) e (bs_mem O s) (remove_at c (bs_pool O s)) I Hi); [congruence| | |exact Hm| |exact Ge|exact Oe| | | | | |exact E0].
      * reflexivity.
      * intros. apply same_refl.
      * unfold grew. lia.
      * rewrite E2. exact P2.
      * rewrite E2. exact P1.
      * rewrite E2, E1. intros q Hq. apply in_app_or in Hq. apply in_or_app. destruct Hq; [left|right; right]; assumption.
      * intros j e' Hj Hh. destruct (v_held _ _ _ I j e' Hj Hh) as (_ & Pj & _). rewrite Forall_forall in Pj. apply sep_sym. apply Pj. exact Hin.
      * intros e' _ _ F Hne. rewrite Forall_forall in F. destruct (F e Hin) as [->|X]; [contradiction|exact X].
    + destruct (new_good (bs_mem O s) Hm) as (e & m' & E1 & Ge & Hm' & Gr & Hx & Hq & Ho & _). rewrite E1 in E. cbn [bind] in E. injection E as <-.
      eexists. split; [reflexivity|].
      assert (OutLt: forall x, out0 x -> x < tnext (bs_mem O s)) by (intros x [[_ X] _]; lia).
      apply (inv_get P evs s i None e m' (bs_pool O s) I Hi); [congruence| | |exact Hm'|exact Gr|exact Ge| | |apply (v_pp _ _ _ I)|auto| | |].
      * exact Hx.
      * intros q Gq. apply (Hq q Gq).
      * intros x Hx' Hown. specialize (Ho x Hown). specialize (OutLt x Hx'). lia.
      * pose proof (v_pool _ _ _ I) as Fp. rewrite Forall_forall in *. intros q Hq'. apply Hq. apply (Fp q Hq').
      * intros j e' Hj Hh. apply Hq. apply (v_held _ _ _ I j e' Hj Hh).
      * intros e' _ Ge' _ _. apply sep_sym. apply Hq. exact Ge'.
      * cbn [Gates.bstep] in E0. exact E0.
  - destruct (get (bs_gor O s) i) as [g|] eqn:Eg; [|discriminate]. apply (get_inv GDone) in Eg. destruct Eg as [Hi Eg]. rewrite Hl in Hi.
    rewrite (get_ok 0) in E by exact Hi. destruct (src_ok i Hi) as [Os Ls]. set (src := znd 0 srcs i) in *.
    assert (Es: tm (bs_mem O s) src = tm m0 src) by (apply (v_args _ _ _ I); exact Os).
    destruct g as [|e|e k r0|e|]; try discriminate.
    + destruct (v_held _ _ _ I i e Hi) as ([Ge Oe] & _); [rewrite <- Eg; reflexivity|].
      assert (Tv: at_ (bs_mem O s) tvr tv /\ ~ pscr e (rA tvr) /\ ~ pscr e (rB tvr)).
      { destruct Hargs as (_ & OA & OB & TA & TB & _). split; [split; rewrite (v_args _ _ _ I) by assumption; assumption|]. split; apply Oe; assumption. }
      destruct Tv as (Tv & NA & NB).
      destruct (br_first_ok L pr W (bs_mem O s) e src tvr tv off bsk (proj1 Ge)) as (r1 & m1 & E1 & V1 & A1 & S1 & He1); [rewrite Es; exact Ls|exact Tv|apply tv_ok|exact NA|exact NB|].
      rewrite E1 in E. cbn [bind] in E. injection E as <-. eexists. split; [reflexivity|].
      eapply inv_work; [exact I|exact Hi|rewrite <- Eg; reflexivity|rewrite <- Eg; intros []|exact S1|exact He1| | |congruence].
      * rewrite Es in V1. pose proof (pw_n _ _ W). split; [lia|]. split; [exact V1|]. eexists. exact A1.
      * rewrite E0. cbn [Gates.bstep]. reflexivity.
    + pose proof (v_gok _ _ _ I i Hi) as Gi. rewrite <- Eg in Gi. destruct Gi as (Hk & At & t0 & Ac).
      destruct (v_held _ _ _ I i e Hi) as ([Ge Oe] & Pe & Se); [rewrite <- Eg; reflexivity|].
      destruct (Z.ltb_spec k n) as [Hkn|Hkn].
      * destruct (br_next_ok L pr W (bs_mem O s) e src tv bsk off t0 k r0 (proj1 Ge) Hbsk) as (r1 & m1 & E1 & V1 & A1 & S1 & He1);
          [rewrite Es; exact Ls|apply tv_ok|apply Oe; exact Os|lia|rewrite Es; exact At|exact Ac|].
        rewrite E1 in E. cbn [bind] in E. injection E as <-. eexists. split; [reflexivity|].
        eapply inv_work; [exact I|exact Hi|rewrite <- Eg; reflexivity|rewrite <- Eg; intros []|exact S1|exact He1| | |congruence].
        -- rewrite Es in V1. split; [lia|]. split; [exact V1|]. eexists. exact A1.
        -- rewrite E0. reflexivity.
      * injection E as <-. eexists. split; [reflexivity|]. replace k with n in * by lia.
        set (s' := {| bs_mem := bs_mem O s; bs_pool := bs_pool O s; bs_gor := upd (bs_gor O s) i (GRet e); bs_results := upd (bs_results O s) i (Some r0) |}) in *.
        assert (EH: handed (BStep i :: evs) s = handed evs s') by (cbn [handed_out]; rewrite E0; reflexivity).
        assert (HH: forall j e', 0 <= j < K -> held (znd GDone (bs_gor O s') j) = Some e' -> held (gor_at s j) = Some e').
        { intros j e' Hj. cbn [bs_gor s']. rewrite gor_upd by lia. destruct (Z.eqb_spec j i) as [->|]; [cbn [held]; rewrite <- Eg; auto|auto]. }
        assert (RU: forall j, 0 <= j -> znd None (upd (bs_results O s) i (Some r0)) j = if j =? i then Some r0 else res_at s j).
        { intros j Hj. rewrite znd_upd by lia. destruct (Z.eqb_spec i j), (Z.eqb_spec j i); subst; try lia; reflexivity. }
        constructor; cbn [bs_mem bs_pool bs_gor bs_results s'].
        -- rewrite zlen_upd. exact Hl.
        -- rewrite zlen_upd. exact Hr.
        -- auto.
        -- apply (v_args _ _ _ I).
        -- apply (v_pool _ _ _ I).
        -- apply (v_pp _ _ _ I).
        -- intros j e' Hj Hh. destruct (v_held _ _ _ I j e' Hj (HH j e' Hj Hh)) as (A & B & C). split; [exact A|]. split; [exact B|].
           intros k' e'' Hk' Hne H. eapply C; [exact Hk'|exact Hne|]. apply HH; assumption.
        -- intros j Hj. rewrite gor_upd by lia. destruct (Z.eqb_spec j i) as [->|]; [exact Logic.I|]. apply (v_gok _ _ _ I). exact Hj.
        -- intros j Hj. rewrite gor_upd, RU by lia. destruct (Z.eqb_spec j i) as [->|]; [intros _; exists r0; split; [reflexivity|apply (acc_len e t0 n); assumption]|]. apply (v_set _ _ _ I). exact Hj.
        -- intros HP j Hj. rewrite gor_upd, RU by lia. destruct (Z.eqb_spec j i) as [->|Hne].
           ++ intros _. exists e, r0. destruct (acc_in _ _ _ _ _ Ac) as [PA PB]. split; [reflexivity|]. split; [exact Ge|]. split; [congruence|].
              split; [exact PA|]. split; [exact PB|]. split; [exact At|]. split; [|split].
              ** intros k' e'' Hk' Hne H. eapply Se; [exact Hk'|exact Hne|]. apply HH; assumption.
              ** rewrite Forall_forall in *. intros q Hq. right. apply Pe. exact Hq.
              ** destruct (v_nodup _ _ _ I HP) as [_ B]. rewrite <- EH. apply (B i e Hi). rewrite <- Eg. reflexivity.
           ++ intro Hfj. destruct (v_fin _ _ _ I HP j Hj Hfj) as (e' & r' & H1 & H2 & H3 & H4 & H5 & H6 & H7 & H8 & H9).
              exists e', r'. rewrite EH in H9. repeat (split; [assumption|]). split; [|split; assumption].
              intros k' e'' Hk' Hne' H. eapply H7; [exact Hk'|exact Hne'|]. apply HH; assumption.
        -- intro HP. destruct (v_nodup _ _ _ I HP) as [A B]. rewrite EH in A, B. split; [exact A|]. intros j e' Hj H. apply (B j e' Hj). apply HH; assumption.
  - destruct (get (bs_gor O s) i) as [g|] eqn:Eg; [|discriminate]. apply (get_inv GDone) in Eg. destruct Eg as [Hi Eg]. rewrite Hl in Hi.
    destruct g as [|e|e k r0|e|]; try discriminate. injection E as <-. eexists. split; [reflexivity|].
    destruct (v_held _ _ _ I i e Hi) as ([Ge Oe] & Pe & Se); [rewrite <- Eg; reflexivity|].
    set (s' := {| bs_mem := bs_mem O s; bs_pool := e :: bs_pool O s; bs_gor := upd (bs_gor O s) i GDone; bs_results := bs_results O s |}) in *.
    assert (EH: handed (BPut i :: evs) s = handed evs s') by (cbn [handed_out]; rewrite E0; reflexivity).
    assert (HH: forall j e', 0 <= j < K -> held (znd GDone (bs_gor O s') j) = Some e' -> held (gor_at s j) = Some e' /\ j <> i).
    { intros j e' Hj. cbn [bs_gor s']. rewrite gor_upd by lia. destruct (Z.eqb_spec j i) as [->|]; [discriminate|auto]. }
    constructor; cbn [bs_mem bs_pool bs_gor bs_results s'].
    + rewrite zlen_upd. exact Hl.
    + exact Hr.
    + auto.
    + apply (v_args _ _ _ I).
    + constructor; [split; assumption|apply (v_pool _ _ _ I)].
    + constructor; [exact Pe|apply (v_pp _ _ _ I)].
    + intros j e' Hj Hh. destruct (HH j e' Hj Hh) as [Hh' Hne]. destruct (v_held _ _ _ I j e' Hj Hh') as (A & B & C). split; [exact A|]. split.
      * constructor; [|exact B]. apply sep_sym. apply (Se j); assumption.
      * intros k' e'' Hk' Hne' H. destruct (HH k' e'' Hk' H). eapply C; eassumption.
    + intros j Hj. rewrite gor_upd by lia. destruct (Z.eqb_spec j i) as [->|]; [exact Logic.I|]. apply (v_gok _ _ _ I). exact Hj.
    + intros j Hj. rewrite gor_upd by lia. destruct (Z.eqb_spec j i) as [->|].
      * intros _. apply (v_set _ _ _ I i Hi). rewrite <- Eg. exact Logic.I.
      * apply (v_set _ _ _ I). exact Hj.
    + intros HP j Hj. rewrite gor_upd by lia. destruct (Z.eqb_spec j i) as [->|Hne].
      * intros _. destruct (v_fin _ _ _ I HP i Hi) as (e' & r' & H1 & H2 & H3 & H4 & H5 & H6 & H7 & H8 & H9); [rewrite <- Eg; exact Logic.I|].
        assert (e = e') by (apply H3; congruence). subst e'. rewrite EH in H9.
        exists e, r'. split; [exact H1|]. split; [exact H2|]. split; [discriminate|]. repeat (split; [assumption|]). split; [|split; [|exact H9]].
        -- intros k' e'' Hk' Hne' H. destruct (HH k' e'' Hk' H). eapply H7; eassumption.
        -- constructor; [left; reflexivity|exact H8].
      * intro Hfj. destruct (v_fin _ _ _ I HP j Hj Hfj) as (e' & r' & H1 & H2 & H3 & H4 & H5 & H6 & H7 & H8 & H9). rewrite EH in H9.
        exists e', r'. repeat (split; [assumption|]). split; [|split; [|exact H9]].
        -- intros k' e'' Hk' Hne' H. destruct (HH k' e'' Hk' H). eapply H7; eassumption.
        -- constructor; [right; apply (H7 i); [exact Hi|congruence|rewrite <- Eg; reflexivity]|exact H8].
    + intro HP. destruct (v_nodup _ _ _ I HP) as [A B]. rewrite EH in A, B. split; [exact A|]. intros j e' Hj H. destruct (HH j e' Hj H). apply (B j e' Hj). assumption.
Qed.

Lemma inv_evs evs evs' s : inv False evs s -> inv False evs' s.
Proof. intros []. constructor; try assumption; intros []. Qed.

Lemma inv_sched P evs : forall s r, inv P evs s -> bsched O pr srcs tvr bsk off evs s = Some r -> exists s', r = Ok s' /\ inv P [] s'.
Proof.
  induction evs as [|ev evs IH]; intros s r I E; cbn [bsched] in E.
  - injection E as <-. exists s. auto.
  - destruct (bstep ev s) as [r1|] eqn:E1; [|discriminate]. destruct (inv_step P ev evs s r1 I E1) as (s' & -> & I'). exact (IH s' r I' E).
Qed.

Lemma inv_init evs : mem_ok m0 -> Forall (good m0) pool0 -> ForallOrdPairs sep pool0 ->
  inv (NoDup (handed evs (binit O m0 pool0 srcs))) evs (binit O m0 pool0 srcs).
Proof.
  intros Hm Hg Hp. 
  assert (GN: forall i, 0 <= i < K -> gor_at (binit O m0 pool0 srcs) i = GNew).
  { intros i Hi. cbn [binit bs_gor]. apply znd_repeat. unfold zlen in Hi. lia. }
  constructor; cbn [binit bs_mem bs_pool bs_results].
  - cbn [binit bs_gor]. unfold zlen. f_equal. apply repeat_length.
  - unfold zlen. f_equal. apply repeat_length.
  - split; [exact Hm|lia].
  - reflexivity.
  - rewrite Forall_forall in *. intros p Hp'. split; [apply Hg; exact Hp'|]. intros x [_ Hx]. apply Hx. exact Hp'.
  - exact Hp.
  - intros i e Hi. rewrite GN by exact Hi. discriminate.
  - intros i Hi. rewrite GN by exact Hi. exact Logic.I.
  - intros i Hi. rewrite GN by exact Hi. intros [].
  - intros _ i Hi. rewrite GN by exact Hi. intros [].
  - intro HP. split; [exact HP|]. intros i e Hi. rewrite GN by exact Hi. discriminate.
Qed.
End Batch.

(** ** the pool *)
Section Pool.
Context {O : fops} {N : Z} (L : flaws O N) (pr : pset) (W : pwf pr N) (HBG : g_BG pr = 2 ^ g_BGBIT pr).
Notation M := (mem (FP O)).
Notation n := (lv0_N pr).
Notation l := (g_L pr). Notation bg := (g_BGBIT pr). Notation nb := (g_NBIT pr).

Lemma done_at (s : bstate O) i : ball_done O s = true -> 0 <= i < zlen (bs_gor O s) -> znd GDone (bs_gor O s) i = GDone.
Proof.
  unfold ball_done. intros H Hi. rewrite forallb_forall in H. unfold znd. destruct (Z.ltb_spec i 0); [lia|].
  assert (X: In (nth (Z.to_nat i) (bs_gor O s) GDone) (bs_gor O s)) by (apply nth_In; unfold zlen in Hi; lia).
  specialize (H _ X). destruct (nth _ _ _); try reflexivity; discriminate.
Qed.

Lemma pool_ok m pool : pool_reachable O pr m pool -> mem_ok m /\ Forall (good L m) pool /\ ForallOrdPairs sep pool.
Proof.
  induction 1 as [m Hm|m m' pool _ (Hm & Hg & Hp) Hs Ht Hf Hi|m p1 p p2 _ (Hm & Hg & Hp)|m pool pr' sk rk rb ck srcs tvr tv evs s _ (Hm & Hg & Hp) [W' HBG'] EN Hsk Hck Ha E _].
  - split; [exact Hm|]. split; constructor.
  - destruct Hm as (a & b & c). split; [unfold mem_ok; lia|]. split; [|exact Hp]. rewrite Forall_forall in *. intros p Hin.
    eapply (good_same L pr); [apply Hg; exact Hin|apply Hs; exact Hin|unfold grew; lia].
  - split; [exact Hm|]. split; [|apply (pairs_mid sep sep_sym _ _ _ Hp)]. rewrite Forall_forall in *. intros q Hq. apply Hg.
    apply in_app_or in Hq. apply in_or_app. destruct Hq; [left|right; right]; assumption.
  - rewrite EN, (pw_gN _ _ W) in W'. pose proof (cloud_bsk L pr' W' HBG' _ _ _ _ Hsk Hck) as Hb.
    destruct (inv_sched L pr' W' m pool srcs tvr tv _ _ Hb Ha _ evs _ _ (inv_init L pr' m pool srcs tvr tv _ _ evs Hm Hg Hp) E) as (s' & [= <-] & I).
    split; [apply (v_mem _ _ _ _ _ _ _ _ _ _ _ _ I)|]. split; [|apply (v_pp _ _ _ _ _ _ _ _ _ _ _ _ I)].
    pose proof (v_pool _ _ _ _ _ _ _ _ _ _ _ _ I) as F. rewrite Forall_forall in *. intros p Hin. apply (F p Hin).
Qed.

Section One.
Context (m0 : M) (pool0 : list peval) (srcs : list Z) (tvr : tref) (tv : trlwe) (bsk : list (trgsw_fft O)) (off : Z)
  (Hbsk : bsk_ok L pr bsk) (Hargs : batch_args O pr m0 pool0 srcs tvr tv)
  (Hm : mem_ok m0) (Hg : Forall (good L m0) pool0) (Hp : ForallOrdPairs sep pool0).
Notation brp i := (br_acc L bg l off nb n bsk (tm m0 (znd 0 srcs i)) tv n).

Lemma batch_run evs r : BatchBlindRotate O pr m0 pool0 srcs tvr bsk off evs = Some r ->
  exists rs m', r = Ok (rs, m') /\ zlen rs = zlen srcs /\ (forall i, 0 <= i < zlen srcs -> exists t, znd None rs i = Some t /\ zlen (tm m' (rA t)) = N /\ zlen (tm m' (rB t)) = N) /\
    (forall x, outside_pool O m0 pool0 x -> tm m' x = tm m0 x) /\
    (no_reuse O pr m0 pool0 srcs tvr bsk off evs -> forall i t, 0 <= i < zlen srcs -> znd None rs i = Some t -> at_ m' t (brp i)).
Proof.
  unfold BatchBlindRotate. intro E. destruct (bsched _ _ _ _ _ _ _ _) as [r1|] eqn:E1; [|discriminate].
  destruct (inv_sched L pr W m0 pool0 srcs tvr tv _ _ Hbsk Hargs _ evs _ _ (inv_init L pr m0 pool0 srcs tvr tv _ _ evs Hm Hg Hp) E1) as (s & -> & I).
  destruct (ball_done O s) eqn:Ed; [|discriminate]. injection E as <-. exists (bs_results O s), (bs_mem O s).
  assert (Dn: forall i, 0 <= i < zlen srcs -> finished (znd GDone (bs_gor O s) i)).
  { intros i Hi. rewrite done_at; [exact Logic.I|exact Ed|rewrite (v_len _ _ _ _ _ _ _ _ _ _ _ _ I); exact Hi]. }
  split; [reflexivity|]. split; [apply (v_res _ _ _ _ _ _ _ _ _ _ _ _ I)|]. split; [|split].
  - intros i Hi. destruct (v_set _ _ _ _ _ _ _ _ _ _ _ _ I i Hi (Dn i Hi)) as (t & A & _ & B & C). exists t. auto.
  - apply (v_args _ _ _ _ _ _ _ _ _ _ _ _ I).
  - intros HP i t Hi Et. destruct (v_fin _ _ _ _ _ _ _ _ _ _ _ _ I HP i Hi (Dn i Hi)) as (e & t' & E2 & _ & _ & _ & _ & At & _).
    rewrite Et in E2. injection E2 as <-. exact At.
Qed.
End One.

(** ** one goroutine after another *)
Lemma steps_both (srcs : list Z) tvr bsk off s i e src r m' evs :
  get (bs_gor O s) i = Ok (GHas e) -> get srcs i = Ok src -> BlindRotate O pr (bs_mem O s) src tvr bsk off e = Ok (r, m') ->
  let s' := {| bs_mem := m'; bs_pool := bs_pool O s; bs_gor := upd (bs_gor O s) i (GRet e); bs_results := upd (bs_results O s) i (Some r) |} in
  bsched O pr srcs tvr bsk off (repeat (BStep i) (Z.to_nat n + 2) ++ evs) s = bsched O pr srcs tvr bsk off evs s' /\
  handed_out O pr srcs tvr bsk off (repeat (BStep i) (Z.to_nat n + 2) ++ evs) s = handed_out O pr srcs tvr bsk off evs s'.
Proof.
  intros Eg Es E s'. pose proof (pw_n _ _ W) as Hn. unfold BlindRotate in E.
  destruct (br_first O pr (bs_mem O s) src tvr e) as [[r0 m1]|] eqn:E0; [|discriminate]. cbn [bind] in E.
  replace (Z.to_nat n + 2)%nat with (S (Z.to_nat n + 1)) by lia. cbn [repeat app bsched handed_out]. cbn [bstep]. rewrite Eg, Es, E0. cbn [bind].
  apply get_inv with (d := GDone) in Eg. destruct Eg as [Hi _].
  assert (G: forall q k r1 m2 (g : gor), Z.of_nat q = n - k -> 0 <= k -> loop q k 1 (br_next O pr src bsk off e) (r1, m2) = Ok (r, m') ->
    let s1 := {| bs_mem := m2; bs_pool := bs_pool O s; bs_gor := upd (bs_gor O s) i (GAcc e k r1); bs_results := bs_results O s |} in
    bsched O pr srcs tvr bsk off (repeat (BStep i) (q + 1) ++ evs) s1 = bsched O pr srcs tvr bsk off evs s' /\
    handed_out O pr srcs tvr bsk off (repeat (BStep i) (q + 1) ++ evs) s1 = handed_out O pr srcs tvr bsk off evs s').
  { assert (GU: forall g, get (upd (bs_gor O s) i g) i = Ok g).
    { intro g. rewrite (get_ok GDone) by (rewrite zlen_upd; lia). rewrite znd_upd, Z.eqb_refl by lia. reflexivity. }
    assert (UU: forall g g', upd (upd (bs_gor O s) i g) i g' = upd (bs_gor O s) i g').
    { intros g g'. apply (list_ext GDone); rewrite !zlen_upd; [reflexivity|]. intros j Hj. rewrite !znd_upd by (rewrite ?zlen_upd; lia). destruct (j =? i); reflexivity. }
    induction q as [|q IH]; intros k r1 m2 g Hq Hk Hl; cbn [loop] in Hl; cbn [Nat.add repeat app bsched handed_out bstep bs_gor bs_mem bs_pool bs_results]; rewrite GU, Es.
    - injection Hl as -> ->. destruct (Z.ltb_spec k n); [lia|]. rewrite UU. split; reflexivity.
    - destruct (br_next O pr src bsk off e k (r1, m2)) as [[r2 m3]|] eqn:E2; [|discriminate]. cbn [bind] in Hl.
      destruct (Z.ltb_spec k n); [|lia]. cbn [bind]. rewrite UU. apply IH; [exact g|lia|lia|exact Hl]. }
  unfold for_range in E. rewrite Z.sub_0_r in E. apply (G _ _ _ _ GDone); [lia|lia|exact E].
Qed.
Lemma steps_run (srcs : list Z) tvr bsk off s i e src r m' evs :
  get (bs_gor O s) i = Ok (GHas e) -> get srcs i = Ok src -> BlindRotate O pr (bs_mem O s) src tvr bsk off e = Ok (r, m') ->
  bsched O pr srcs tvr bsk off (repeat (BStep i) (Z.to_nat n + 2) ++ evs) s =
  bsched O pr srcs tvr bsk off evs {| bs_mem := m'; bs_pool := bs_pool O s; bs_gor := upd (bs_gor O s) i (GRet e); bs_results := upd (bs_results O s) i (Some r) |}.
Proof. intros Eg Es E. apply (steps_both srcs tvr bsk off s i e src r m' evs Eg Es E). Qed.

Lemma serial_run m pool x y tvr tv bsk off : bsk_ok L pr bsk -> batch_args O pr m pool [x; y] tvr tv -> mem_ok m -> Z.even n = true -> 0 < n ->
  exists r m', BatchBlindRotate O pr m pool [x; y] tvr bsk off (serial pr) = Some (Ok ([Some r; Some r], m')) /\
    at_ m' r (br_acc L bg l off nb n bsk (tm m y) tv n) /\ (forall z, z < tnext m -> tm m' z = tm m z).
Proof.
  intros Hb Ha Hm Hev Hn0. pose proof (pw_n _ _ W) as Hn.
  pose proof (tv_ok pr W m pool [x; y] tvr tv Ha) as Htv.
  destruct (src_ok pr m pool [x; y] tvr tv Ha 0) as [Ox Lx]; [cbn; lia|]. destruct (src_ok pr m pool [x; y] tvr tv Ha 1) as [Oy Ly]; [cbn; lia|].
  change (znd 0 [x; y] 0) with x in *. change (znd 0 [x; y] 1) with y in *.
  destruct Ha as (_ & OA & OB & TA & TB & _).
  destruct (new_good L pr W m Hm) as (e & m1 & E1 & Ge & Hm1 & Gr & Hx1 & _ & Ho & I1).
  assert (Lt: forall z, outside_pool O m pool z -> z < tnext m) by (intros z [[_ X] _]; exact X).
  assert (NE: forall z, outside_pool O m pool z -> ~ pscr e z).
  { intros z Hz Hp. specialize (Lt z Hz). specialize (Ho z Hp). lia. }
  destruct (BlindRotate_slot L pr W m1 e x tvr tv bsk off (proj1 Ge) Hb) as (r1 & m2 & E2 & V2 & A2 & S2 & He2);
    [rewrite Hx1; [exact Lx|apply Lt; exact Ox]|split; rewrite Hx1; [exact TA|apply Lt; exact OA|exact TB|apply Lt; exact OB]|exact Htv|apply NE; exact Ox|apply NE; exact OA|apply NE; exact OB|].
  assert (Hx2: forall z, z < tnext m -> tm m2 z = tm m z).
  { intros z Hz. rewrite (step_t _ _ _ _ _ _ _ S2); [apply Hx1; exact Hz|]. intro Hp. specialize (Ho z Hp). lia. }
  destruct (BlindRotate_slot L pr W m2 e y tvr tv bsk off He2 Hb) as (r2 & m3 & E3 & V3 & A3 & S3 & He3);
    [rewrite Hx2; [exact Ly|apply Lt; exact Oy]|split; rewrite Hx2; [exact TA|apply Lt; exact OA|exact TB|apply Lt; exact OB]|exact Htv|apply NE; exact Oy|apply NE; exact OA|apply NE; exact OB|].
  assert (Er: r2 = r1).
  { rewrite I1 in A2. destruct A2 as [J2 [(B & _)|(_ & _ & ->)]]; [lia|]. rewrite J2 in A3. destruct A3 as [_ [(B & _)|(_ & _ & ->)]]; [lia|].
    f_equal. apply Z.even_spec in Hev. destruct Hev as [h ->].
    assert (X: (0 + 2 * (2 * h)) mod 4 = 0) by (replace (0 + 2 * (2 * h)) with (h * 4) by ring; apply Z.mod_mul; lia). rewrite X. reflexivity. }
  subst r2. exists r1, m3. split; [|split].
  - unfold BatchBlindRotate, serial. rewrite <- !app_comm_cons. cbn [bsched bstep binit bs_gor bs_mem bs_pool bs_results length repeat].
    change (get [GNew; GNew] 0) with (Ok GNew). cbv match. rewrite E1. cbn [bind]. change (upd [GNew; GNew] 0 (GHas e)) with [GHas e; GNew].
    rewrite <- !app_assoc. rewrite (steps_run [x; y] tvr bsk off _ 0 e x r1 m2) by (reflexivity || exact E2).
    cbn [app bsched bstep bs_gor bs_mem bs_pool bs_results]. 
    change (upd [GHas e; GNew] 0 (GRet e)) with [GRet e; GNew]. change (get [GRet e; GNew] 0) with (Ok (GRet e)). cbv match.
    change (upd [GRet e; GNew] 0 GDone) with [GDone; GNew]. cbn [bs_gor bs_mem bs_pool bs_results].
    change (get [GDone; GNew] 1) with (Ok GNew). cbv match. change (get (e :: pool) 0) with (Ok e). cbv match.
    change (remove_at 0 (e :: pool)) with pool. change (upd [GDone; GNew] 1 (GHas e)) with [GDone; GHas e].
    rewrite (steps_run [x; y] tvr bsk off _ 1 e y r1 m3) by (reflexivity || exact E3).
    cbn [app bsched bstep bs_gor bs_mem bs_pool bs_results]. 
    change (upd [GDone; GHas e] 1 (GRet e)) with [GDone; GRet e]. change (get [GDone; GRet e] 1) with (Ok (GRet e)). cbv match.
    reflexivity.
  - rewrite Hx2 in V3 by (apply Lt; exact Oy). exact V3.
  - intros z Hz. rewrite (step_t _ _ _ _ _ _ _ S3); [apply Hx2; exact Hz|]. intro Hp. specialize (Ho z Hp). lia.
Qed.

(** ** every goroutine with an evaluator of its own: always possible *)
Section Fresh.
Context (m0 : M) (pool0 : list peval) (srcs : list Z) (tvr : tref) (tv : trlwe) (bsk : list (trgsw_fft O)) (off : Z)
  (Hbsk : bsk_ok L pr bsk) (Hargs : batch_args O pr m0 pool0 srcs tvr tv).
Notation K := (zlen srcs).
Notation inv := (inv L pr m0 pool0 srcs tvr tv bsk off False).

Lemma block_run s i evs : inv [] s -> 0 <= i < K -> znd GDone (bs_gor O s) i = GNew ->
  exists s' e, bsched O pr srcs tvr bsk off (own_block pr i ++ evs) s = bsched O pr srcs tvr bsk off evs s' /\
    handed_out O pr srcs tvr bsk off (own_block pr i ++ evs) s = e :: handed_out O pr srcs tvr bsk off evs s' /\
    inv [] s' /\ bs_gor O s' = upd (bs_gor O s) i GDone /\ pe_t e = tnext (bs_mem O s) /\ tnext (bs_mem O s) < tnext (bs_mem O s').
Proof.
  intros I Hi Hg. pose proof (v_len _ _ _ _ _ _ _ _ _ _ _ _ I) as Hl. destruct (v_mem _ _ _ _ _ _ _ _ _ _ _ _ I) as [Hm Ht].
  destruct (src_ok pr m0 pool0 srcs tvr tv Hargs i Hi) as [Os Ls]. pose proof (tv_ok pr W m0 pool0 srcs tvr tv Hargs) as Htv.
  pose proof Hargs as (_ & OA & OB & TA & TB & _).
  pose proof (NewPolyEvaluator_ok L (bs_mem O s)) as NE. 
  destruct (new_good L pr W (bs_mem O s) Hm) as (e & m1 & E1 & Ge & Hm1 & Gr & Hx1 & _ & Ho & _).
  assert (Te: pe_t e = tnext (bs_mem O s) /\ tnext m1 = tnext (bs_mem O s) + 24).
  { destruct NE as (m1' & E1' & (_ & T1 & _) & _). rewrite (pw_gN _ _ W) in E1. rewrite E1 in E1'. injection E1' as -> ->. split; [reflexivity|exact T1]. }
  assert (Lt: forall z, outside_pool O m0 pool0 z -> z < tnext (bs_mem O s)) by (intros z [[_ X] _]; lia).
  assert (Same: forall z, outside_pool O m0 pool0 z -> tm m1 z = tm m0 z).
  { intros z Hz. rewrite Hx1 by (apply Lt; exact Hz). apply (v_args _ _ _ _ _ _ _ _ _ _ _ _ I). exact Hz. }
  assert (NP: forall z, outside_pool O m0 pool0 z -> ~ pscr e z).
  { intros z Hz Hp. specialize (Lt z Hz). specialize (Ho z Hp). lia. }
  destruct (BlindRotate_slot L pr W m1 e (znd 0 srcs i) tvr tv bsk off (proj1 Ge) Hbsk) as (r1 & m2 & E2 & _ & _ & S2 & _);
    [rewrite Same by exact Os; exact Ls|split; rewrite Same; assumption|exact Htv|apply NP; exact Os|apply NP; exact OA|apply NP; exact OB|].
  set (s1 := {| bs_mem := m1; bs_pool := bs_pool O s; bs_gor := upd (bs_gor O s) i (GHas e); bs_results := bs_results O s |}).
  set (s2 := {| bs_mem := m2; bs_pool := bs_pool O s; bs_gor := upd (bs_gor O s1) i (GRet e); bs_results := upd (bs_results O s) i (Some r1) |}).
  set (s3 := {| bs_mem := m2; bs_pool := e :: bs_pool O s; bs_gor := upd (bs_gor O s2) i GDone; bs_results := bs_results O s2 |}).
  assert (B1: bstep O pr srcs tvr bsk off (BGet i None) s = Some (Ok s1)).
  { cbn [bstep]. rewrite (get_ok GDone) by lia. rewrite Hg, E1. reflexivity. }
  assert (GU: forall (u : list gor) g, zlen u = K -> get (upd u i g) i = Ok g).
  { intros u g Hu. rewrite (get_ok GDone) by (rewrite zlen_upd; lia). rewrite znd_upd, Z.eqb_refl by lia. reflexivity. }
  assert (B3: bstep O pr srcs tvr bsk off (BPut i) s2 = Some (Ok s3)).
  { cbn [bstep s2 bs_gor]. rewrite GU by (cbn [s1 bs_gor]; rewrite zlen_upd; exact Hl). reflexivity. }
  assert (B2: forall evs', bsched O pr srcs tvr bsk off (repeat (BStep i) (Z.to_nat n + 2) ++ evs') s1 = bsched O pr srcs tvr bsk off evs' s2 /\
    handed_out O pr srcs tvr bsk off (repeat (BStep i) (Z.to_nat n + 2) ++ evs') s1 = handed_out O pr srcs tvr bsk off evs' s2).
  { intro evs'. apply (steps_both srcs tvr bsk off s1 i e (znd 0 srcs i) r1 m2 evs'); [cbn [s1 bs_gor]; apply GU; exact Hl|apply (get_ok 0); exact Hi|exact E2]. }
  assert (A: forall evs', bsched O pr srcs tvr bsk off (own_block pr i ++ evs') s = bsched O pr srcs tvr bsk off evs' s3).
  { intro evs'. unfold own_block. rewrite <- app_comm_cons. cbn [bsched]. rewrite B1. rewrite <- app_assoc. rewrite (proj1 (B2 _)). cbn [app bsched]. rewrite B3. reflexivity. }
  exists s3, e. split; [apply A|]. split; [|split; [|split; [|split; [apply Te|]]]].
  - unfold own_block. rewrite <- app_comm_cons. cbn [handed_out]. rewrite B1. cbn [s1 bs_gor]. rewrite GU by exact Hl. cbn [app]. f_equal.
    fold s1. rewrite <- app_assoc. rewrite (proj2 (B2 _)). cbn [app handed_out]. rewrite B3. reflexivity.
  - assert (I': inv (own_block pr i ++ []) s) by (eapply inv_evs; exact I).
    destruct (inv_sched L pr W m0 pool0 srcs tvr tv bsk off Hbsk Hargs False _ s (Ok s3) I') as (s' & Es & I3); [rewrite A; reflexivity|]. assert (Es': s3 = s') by congruence. rewrite Es'. exact I3.
  - cbn [s3 s2 s1 bs_gor]. apply (list_ext GDone); rewrite !zlen_upd; [reflexivity|]. intros j Hj.
    rewrite !znd_upd by (rewrite ?zlen_upd; lia). destruct (j =? i); reflexivity.
  - cbn [s3 bs_mem]. destruct (step_grew L pr _ _ _ _ _ S2) as (X & _). lia.
Qed.

Lemma blocks_run q : forall i s, inv [] s -> 0 <= i -> i + Z.of_nat q = K ->
  (forall j, 0 <= j < K -> znd GDone (bs_gor O s) j = if j <? i then GDone else GNew) ->
  exists s', bsched O pr srcs tvr bsk off (own_blocks pr q i) s = Some (Ok s') /\ ball_done O s' = true /\
    NoDup (handed_out O pr srcs tvr bsk off (own_blocks pr q i) s) /\
    Forall (fun e => tnext (bs_mem O s) <= pe_t e) (handed_out O pr srcs tvr bsk off (own_blocks pr q i) s).
Proof.
  induction q as [|q IH]; intros i s I Hi Hq Hg; cbn [own_blocks].
  - exists s. split; [reflexivity|]. split; [|split; constructor]. unfold ball_done. apply forallb_forall. intros g Hin.
    apply (In_nth _ _ GDone) in Hin. destruct Hin as (j & Hj & <-). pose proof (v_len _ _ _ _ _ _ _ _ _ _ _ _ I) as Hl. unfold zlen in Hl, Hq.
    specialize (Hg (Z.of_nat j)). unfold znd in Hg. destruct (Z.ltb_spec (Z.of_nat j) 0); [lia|]. rewrite Nat2Z.id in Hg.
    rewrite Hg by (unfold zlen; lia). destruct (Z.ltb_spec (Z.of_nat j) i); [reflexivity|lia].
  - destruct (block_run s i (own_blocks pr q (i + 1)) I) as (s1 & e & A & B & I1 & G1 & Te & Tn); [lia|rewrite Hg by lia; rewrite Z.ltb_irrefl; reflexivity|].
    pose proof (v_len _ _ _ _ _ _ _ _ _ _ _ _ I) as Hl.
    destruct (IH (i + 1) s1 I1) as (s' & E & D & ND & F); [lia|lia| |].
    { intros j Hj. rewrite G1, znd_upd by lia. rewrite Hg by exact Hj. destruct (Z.eqb_spec j i), (Z.ltb_spec j i), (Z.ltb_spec j (i + 1)); try lia; reflexivity. }
    exists s'. rewrite A, B. split; [exact E|]. split; [exact D|]. rewrite Forall_forall in F. split.
    + constructor; [|exact ND]. intro X. specialize (F e X). lia.
    + constructor; [lia|]. apply Forall_forall. intros x Hx. specialize (F x Hx). lia.
Qed.

Lemma fresh_run : mem_ok m0 -> Forall (good L m0) pool0 -> ForallOrdPairs sep pool0 ->
  let evs := own_blocks pr (length srcs) 0 in
  no_reuse O pr m0 pool0 srcs tvr bsk off evs /\ exists rs m', BatchBlindRotate O pr m0 pool0 srcs tvr bsk off evs = Some (Ok (rs, m')).
Proof.
  intros Hm Hg Hp evs.
  assert (I: inv [] (binit O m0 pool0 srcs)).
  { pose proof (inv_init L pr m0 pool0 srcs tvr tv bsk off [] Hm Hg Hp) as [H1 H2 H3 H4 H5 H6 H7 H8 H9 _ _]. constructor; try assumption; intros []. }
  destruct (blocks_run (length srcs) 0 _ I) as (s' & E & D & ND & _); [lia|unfold zlen; lia| |].
  - intros j Hj. cbn [binit bs_gor]. destruct (Z.ltb_spec j 0); [lia|]. apply znd_repeat. unfold zlen in Hj. lia.
  - split; [exact ND|]. unfold BatchBlindRotate. fold evs in E. rewrite E, D. eexists _, _. reflexivity.
Qed.
End Fresh.
End Pool.

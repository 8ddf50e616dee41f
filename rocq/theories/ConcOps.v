(** * The operations behind a gate stay inside their evaluator *)
From Coq Require Import Lia ZifyBool.
From Verif Require Import GoBase GoFacts GoMem F64 Utils Params Tlwe TlweMem Poly Trlwe Trgsw Evaluator Gates RunSpec Circuit Conc ConcSpec ConcRel.
Import ListNotations.
Local Open Scope Z_scope.
Ltac Zify.zify_post_hook ::= idtac.

(** the parts of an evaluator are in order *)
Record shape (e : evaluator) : Prop := {
  sh_t : pe_t (ev_pe e) <= dc_t (ev_dec e) /\ dc_t (ev_dec e) + dc_levels (ev_dec e) <= bp_t (ev_bp e);
  sh_f : pe_f (ev_pe e) <= dc_f (ev_dec e) /\ dc_f (ev_dec e) + dc_levels (ev_dec e) <= bp_f (ev_bp e);
  sh_i : pe_i (ev_pe e) <= bp_i (ev_bp e);
  sh_l : 0 <= dc_levels (ev_dec e)
}.

Section Ops.
Context (O : fops) (pr : pset) (Rd : rel) (Wf Wi : Z -> Prop).
Notation prel := (@prel O Rd Wf Wi).
Notation acc := (acc Rd).
Notation T := (any (A := unit)).

Lemma pt W : prel T W (Ret tt) (Ret tt).
Proof. constructor. exact I. Qed.
Hint Resolve pt : core.

Lemma pr_mul W a a' k r r' : acc W a a' -> W r r' -> prel T W (p_PolyMulWithXKInPlace O a k r) (p_PolyMulWithXKInPlace O a' k r').
Proof.
  intros Ha Hr. unfold p_PolyMulWithXKInPlace. constructor; [exact Ha|]. intro l. apply prel_lift. intros k' _. destruct (k' =? 0); [constructor; auto|].
  assert (F: forall lo hi g h W', sub W W' -> prel T W' (pfor lo hi (fun i => pbind (elem a i) (fun x => Store r (h i) (g x) (Ret tt))))
     (pfor lo hi (fun i => pbind (elem a' i) (fun x => Store r' (h i) (g x) (Ret tt))))).
  { intros lo hi g h W' S. apply prel_for. intros j W2 _ S2. apply prel_elem; [eapply acc_sub; [exact S2|]; eapply acc_sub; [exact S|exact Ha]|]. intro v.
    constructor; [apply S2, S, Hr|]. apply pt. }
  destruct (_ <? zlen l).
  - apply (prel_seq _ _ _ T); [apply (F _ _ (fun x => x) (fun i => i + _)), sub_refl|]. intros W' S. apply (F _ _ tnot (fun i => i + _ - _)), S.
  - apply (prel_seq _ _ _ T); [apply (F _ _ tnot (fun i => i + _)), sub_refl|]. intros W' S. apply (F _ _ (fun x => x) (fun i => i + _ - _)), S.
Qed.

Lemma pr_decompose W p p' bgbit level off out : acc W p p' -> (forall i, 0 <= i < level -> W (out + i) (out + i)) ->
  prel T W (p_DecomposePolyAssign O p bgbit level off out) (p_DecomposePolyAssign O p' bgbit level off out).
Proof.
  intros Hp Ho. unfold p_DecomposePolyAssign. constructor; [exact Hp|]. intro l. cbv zeta. apply prel_lift. intros mask _. apply prel_lift. intros half _.
  apply prel_for. intros j W' _ S. apply prel_elem; [eapply acc_sub; eassumption|]. intro x. apply prel_for. intros i W2 Hi S2. constructor; [|apply pt].
  apply S2, S, Ho. exact Hi.
Qed.

Section Ev.
Context (e : evaluator) (Hs : shape e) (Hf : forall f, fown e f -> Wf f) (Hi : forall i, iown e i -> Wi i).
Definition owns (W : rel) : Prop := forall x, own e x -> W x x.
Lemma owns_sub W W' : sub W W' -> owns W -> owns W'.
Proof. intros S H x Hx. apply S, H, Hx. Qed.
Ltac inown := unfold own, fown, iown, bp_Buffers, bp_ExtractedLWE, bp_FourierA, bp_FourierB, bp_Index in *; cbn [rA rB bp_Result bp_Temp bp_Acc1 bp_Acc2 bp_Rotated] in *;
  destruct Hs as [[? ?] [? ?] ? ?]; lia.

Lemma pr_product W g i o off : owns W -> acc W (rA i) (rA i) -> acc W (rB i) (rB i) -> W (rA o) (rA o) -> W (rB o) (rB o) ->
  prel T W (p_ExternalProductAssign O pr e g i off o) (p_ExternalProductAssign O pr e g i off o).
Proof.
  intros Hw HA HB OA OB. unfold p_ExternalProductAssign. cbv zeta. apply prel_lift. intros pd Ed. apply prel_lift. intros pf Ef.
  assert (Lv: g_L pr * 2 <= dc_levels (ev_dec e) /\ pd = dc_t (ev_dec e)).
  { unfold GetPolyDecomposedBuffer in Ed. destruct (_ <? _) eqn:E1; [discriminate|]. destruct (_ <? 0); [discriminate|]. injection Ed as <-. lia. }
  assert (Lf: pf = dc_f (ev_dec e)).
  { unfold GetPolyFourierDecomposedBuffer in Ef. destruct (_ <? _) eqn:E1; [discriminate|]. destruct (_ <? 0); [discriminate|]. injection Ef as <-. reflexivity. }
  destruct Lv as [Lv ->]. subst pf.
  assert (DT: forall j W', sub W W' -> 0 <= j < g_L pr * 2 -> W' (dc_t (ev_dec e) + j) (dc_t (ev_dec e) + j)) by (intros j W' S Hj; apply S, Hw; inown).
  assert (DF: forall j, 0 <= j < g_L pr * 2 -> Wf (dc_f (ev_dec e) + j)) by (intros j Hj; apply Hf; inown).
  assert (FA: Wf (bp_FourierA (ev_bp e))) by (apply Hf; inown). assert (FB: Wf (bp_FourierB (ev_bp e))) by (apply Hf; inown).
  apply (prel_seq _ _ _ T); [apply pr_decompose; [exact HA|intros j Hj; apply DT; [apply sub_refl|lia]]|]. intros W1 S1.
  apply (prel_seq _ _ _ T); [apply pr_decompose; [eapply acc_sub; eassumption|intros j Hj; rewrite <- Z.add_assoc; apply DT; [exact S1|lia]]|]. intros W2 S2.
  assert (S02: sub W W2) by (eapply sub_trans; eassumption).
  apply (prel_seq _ _ _ T). { apply prel_for. intros j W3 Hj S3. constructor; [right; apply DT; [eapply sub_trans; eassumption|exact Hj]|apply DF; exact Hj|apply pt]. }
  intros W3 S3. constructor; [exact FA|]. constructor; [exact FB|]. assert (S03: sub W W3) by (eapply sub_trans; eassumption).
  apply (prel_seq _ _ _ T).
  { apply prel_for. intros j W4 Hj S4. apply prel_lift. intros row _. constructor; [apply DF; exact Hj|exact FA|]. constructor; [apply DF; exact Hj|exact FB|apply pt]. }
  intros W4 S4. assert (S04: sub W W4) by (eapply sub_trans; eassumption). constructor; [exact FA|apply S04, OA|]. constructor; [exact FB|apply S04, OB|apply pt].
Qed.

Lemma pr_cmux W cond c0 c1 off o : owns W -> W (rA c0) (rA c0) -> W (rB c0) (rB c0) -> W (rA c1) (rA c1) -> W (rB c1) (rB c1) -> W (rA o) (rA o) -> W (rB o) (rB o) ->
  prel T W (p_CMuxAssign O pr e cond c0 c1 off o) (p_CMuxAssign O pr e cond c0 c1 off o).
Proof.
  intros Hw A0 B0 A1 B1 Ao Bo. unfold p_CMuxAssign. cbv zeta.
  assert (TA: W (rA (bp_Temp (ev_bp e))) (rA (bp_Temp (ev_bp e)))) by (apply Hw; inown). assert (TB: W (rB (bp_Temp (ev_bp e))) (rB (bp_Temp (ev_bp e)))) by (apply Hw; inown).
  assert (RA: W (rA (bp_Result (ev_bp e))) (rA (bp_Result (ev_bp e)))) by (apply Hw; inown). assert (RB: W (rB (bp_Result (ev_bp e))) (rB (bp_Result (ev_bp e)))) by (apply Hw; inown).
  constructor; [exact Ao|right; exact A0|]. constructor; [exact Bo|right; exact B0|].
  apply (prel_seq _ _ _ T).
  { apply prel_for. intros j W' _ S. do 2 (apply prel_elem; [right; apply S; assumption|]; intro). constructor; [apply S; assumption|].
    do 2 (apply prel_elem; [right; apply S; assumption|]; intro). constructor; [apply S; assumption|apply pt]. }
  intros W1 S1. apply (prel_seq _ _ _ T).
  { apply pr_product; [eapply owns_sub; eassumption|right; apply S1; assumption|right; apply S1; assumption|apply S1; assumption|apply S1; assumption]. }
  intros W2 S2. assert (S: sub W W2) by (eapply sub_trans; eassumption).
  apply prel_for. intros j W' _ S'. do 2 (apply prel_elem; [right; apply S', S; assumption|]; intro). constructor; [apply S', S; assumption|].
  do 2 (apply prel_elem; [right; apply S', S; assumption|]; intro). constructor; [apply S', S; assumption|apply pt].
Qed.

Lemma pr_rotate W c c' tv tv' bsk off o : owns W -> acc W c c' -> acc W (rA tv) (rA tv') -> acc W (rB tv) (rB tv') -> W (rA o) (rA o) -> W (rB o) (rB o) ->
  prel T W (p_BlindRotateAssign O pr e c tv bsk off o) (p_BlindRotateAssign O pr e c' tv' bsk off o).
Proof.
  intros Hw Hc HA HB OA OB. unfold p_BlindRotateAssign. cbv zeta. apply prel_elem; [exact Hc|]. intro b. apply prel_lift. intros bT _.
  assert (X: forall W', sub W W' -> W' (rA (bp_Acc1 (ev_bp e))) (rA (bp_Acc1 (ev_bp e))) /\ W' (rB (bp_Acc1 (ev_bp e))) (rB (bp_Acc1 (ev_bp e))) /\
     W' (rA (bp_Acc2 (ev_bp e))) (rA (bp_Acc2 (ev_bp e))) /\ W' (rB (bp_Acc2 (ev_bp e))) (rB (bp_Acc2 (ev_bp e)))).
  { intros W' S. repeat split; apply S, Hw; inown. }
  destruct (X W (sub_refl W)) as (X1 & X2 & X3 & X4).
  apply (prel_seq _ _ _ T); [apply pr_mul; assumption|]. intros W1 S1. destruct (X W1 S1) as (Y1 & Y2 & Y3 & Y4).
  apply (prel_seq _ _ _ T); [apply pr_mul; [eapply acc_sub; eassumption|assumption]|]. intros W2 S2. assert (S02: sub W W2) by (eapply sub_trans; eassumption).
  apply (prel_seq _ _ _ T).
  - apply prel_for. intros j W' _ S'. assert (S03: sub W W') by (eapply sub_trans; eassumption). destruct (X W' S03) as (Z1 & Z2 & Z3 & Z4).
    apply prel_elem; [eapply acc_sub; eassumption|]. intro a. apply prel_lift. intros aT _.
    apply (prel_seq _ _ _ T); [apply pr_mul; [right|]; assumption|]. intros W4 S4. assert (S04: sub W W4) by (eapply sub_trans; eassumption). destruct (X W4 S04) as (V1 & V2 & V3 & V4).
    apply (prel_seq _ _ _ T); [apply pr_mul; [right|]; assumption|]. intros W5 S5. assert (S05: sub W W5) by (eapply sub_trans; eassumption). destruct (X W5 S05) as (U1 & U2 & U3 & U4).
    apply prel_lift. intros key _. apply pr_cmux; try assumption. eapply owns_sub; eassumption.
  - intros W' S'. assert (S03: sub W W') by (eapply sub_trans; eassumption). destruct (X W' S03) as (Z1 & Z2 & Z3 & Z4).
    constructor; [apply S03; assumption|right; assumption|]. constructor; [apply S03; assumption|right; assumption|apply pt].
Qed.

Lemma pr_extract W t k o : acc W (rA t) (rA t) -> acc W (rB t) (rB t) -> W o o -> prel T W (p_SampleExtractIndexAssign O pr t k o) (p_SampleExtractIndexAssign O pr t k o).
Proof.
  intros HA HB Ho. unfold p_SampleExtractIndexAssign. cbv zeta. apply (prel_seq _ _ _ T).
  - apply prel_for. intros j W' _ S. constructor; [eapply acc_sub; eassumption|]. intro l. apply prel_lift. intros v _. constructor; [apply S; assumption|apply pt].
  - intros W' S. apply prel_elem; [eapply acc_sub; eassumption|]. intro v. constructor; [apply S; assumption|apply pt].
Qed.
Lemma pr_switch W s s' ksk o o' : acc W s s' -> W o o' -> prel T W (p_IdentityKeySwitchingAssign O pr s ksk o) (p_IdentityKeySwitchingAssign O pr s' ksk o').
Proof.
  intros Hx Ho. unfold p_IdentityKeySwitchingAssign. cbv zeta. apply prel_lift. intros base _. constructor; [right; exact Ho|]. intro l.
  apply (prel_seq _ _ _ T). { apply prel_for. intros j W' _ S. constructor; [apply S; exact Ho|apply pt]. }
  intros W1 S1. constructor; [eapply acc_sub; eassumption|]. intro l'. apply prel_lift. intros b _. constructor; [apply S1, Ho|]. apply prel_lift. intros po _.
  apply prel_for. intros j W2 _ S2. assert (S02: sub W W2) by (eapply sub_trans; eassumption). apply prel_elem; [eapply acc_sub; eassumption|]. intro x.
  apply prel_for. intros d W3 _ S3. assert (S03: sub W W3) by (eapply sub_trans; eassumption). apply prel_lift. intros dg _. destruct (dg =? 0); [apply pt|].
  constructor; [right; apply S03, Ho|]. intro l2. apply prel_for. intros y W4 _ S4. assert (S04: sub W W4) by (eapply sub_trans; eassumption).
  apply prel_elem; [right; apply S04, Ho|]. intro r. apply prel_lift. intros row _. apply prel_lift. intros q _. constructor; [apply S04, Ho|apply pt].
Qed.

(** results: buffers in use *)
(** a result that may be written to *)
Definition Qnew : rel -> Z -> Z -> Prop := fun W x y => W x y.

Lemma pr_Bootstrap W c c' tv bsk ksk off : owns W -> acc W c c' -> acc W (rA tv) (rA tv) -> acc W (rB tv) (rB tv) ->
  prel (fun W' x y => x = y /\ W' x x) W (p_Bootstrap O pr e c tv bsk ksk off) (p_Bootstrap O pr e c' tv bsk ksk off).
Proof.
  intros Hw Hc HA HB. unfold p_Bootstrap. constructor; [apply Hi; inown|]. intro i. destruct ((i <? 0) || (4 <=? i)) eqn:Ei; [constructor|].
  assert (Hi4: 0 <= i < 4) by (apply orb_false_iff in Ei; lia). cbv zeta. constructor; [apply Hi; inown|].
  assert (X: forall W' x, sub W W' -> own e x -> W' x x) by (intros W' x S Hx; apply S, Hw; exact Hx).
  apply (prel_seq _ _ _ T); [apply pr_rotate; try assumption; apply X; [apply sub_refl|inown|apply sub_refl|inown]|]. intros W1 S1.
  apply (prel_seq _ _ _ T); [apply pr_extract; [right| right|]; apply X; [exact S1|inown|exact S1|inown|exact S1|inown]|]. intros W2 S2. assert (S02: sub W W2) by (eapply sub_trans; eassumption).
  apply (prel_seq _ _ _ T); [apply pr_switch; [right|]; apply X; [exact S02|inown|exact S02|inown]|]. intros W3 S3. assert (S03: sub W W3) by (eapply sub_trans; eassumption).
  constructor. split; [reflexivity|]. apply X; [exact S03|inown].
Qed.

Lemma pr_new_ct W : prel (fun W' x y => W' x y) W (p_new_ct O pr) (p_new_ct O pr).
Proof. unfold p_new_ct. apply prel_lift. intros v _. constructor. intros x y W' S Hxy. constructor. exact Hxy. Qed.

Lemma pr_bootstrap W c c' k : owns W -> acc W c c' -> acc W (rA (gk_testvec k)) (rA (gk_testvec k)) -> acc W (rB (gk_testvec k)) (rB (gk_testvec k)) ->
  prel Qnew W (p_bootstrap O pr e c k) (p_bootstrap O pr e c' k).
Proof.
  intros Hw Hc HA HB. unfold p_bootstrap. eapply prel_bind; [apply pr_new_ct|]. intros W1 x y S1 Hxy. cbv beta in Hxy.
  eapply prel_bind; [apply pr_Bootstrap; [eapply owns_sub; eassumption|eapply acc_sub; eassumption|eapply acc_sub; eassumption|eapply acc_sub; eassumption]|].
  intros W2 b b' S2 [<- Hb]. constructor; [apply S2, Hxy|right; exact Hb|]. apply prel_elem; [right; exact Hb|]. intro v. constructor; [apply S2, Hxy|].
  constructor. apply S2, Hxy.
Qed.
Lemma pr_gate2 W lin a a' b b' k : owns W -> acc W a a' -> acc W b b' -> acc W (rA (gk_testvec k)) (rA (gk_testvec k)) -> acc W (rB (gk_testvec k)) (rB (gk_testvec k)) ->
  prel Qnew W (p_gate2 O pr lin e a b k) (p_gate2 O pr lin e a' b' k).
Proof.
  intros Hw Ha Hb HA HB. unfold p_gate2. constructor; [exact Ha|]. intro va. constructor; [exact Hb|]. intro vb. apply prel_lift. intros v _. constructor.
  intros x y W' S Hxy. apply pr_bootstrap; [eapply owns_sub; eassumption|right; exact Hxy|eapply acc_sub; eassumption|eapply acc_sub; eassumption].
Qed.
Lemma pr_NOT W a a' : acc W a a' -> prel Qnew W (p_NOT O pr a) (p_NOT O pr a').
Proof. intro Ha. unfold p_NOT. constructor; [exact Ha|]. intro va. apply prel_lift. intros v _. constructor. intros x y W' S Hxy. constructor. exact Hxy. Qed.
Lemma pr_Constant W b : prel Qnew W (p_Constant O pr b) (p_Constant O pr b).
Proof. unfold p_Constant. apply prel_lift. intros v _. constructor. intros x y W' S Hxy. constructor. exact Hxy. Qed.
Lemma pr_Copy W a a' : acc W a a' -> prel Qnew W (p_Copy O pr a) (p_Copy O pr a').
Proof.
  intro Ha. unfold p_Copy. eapply prel_bind; [apply pr_new_ct|]. intros W1 x y S1 Hxy. cbv beta in Hxy. constructor; [exact Hxy|eapply acc_sub; eassumption|]. constructor. exact Hxy.
Qed.
Lemma pr_MUX W a a' b b' c c' k : owns W -> acc W a a' -> acc W b b' -> acc W c c' -> acc W (rA (gk_testvec k)) (rA (gk_testvec k)) -> acc W (rB (gk_testvec k)) (rB (gk_testvec k)) ->
  prel Qnew W (p_MUX O pr e a b c k) (p_MUX O pr e a' b' c' k).
Proof.
  intros Hw Ha Hb Hc HA HB. unfold p_MUX.
  eapply prel_bind; [apply pr_gate2; assumption|]. intros W1 x x' S1 Hx.
  eapply prel_bind; [apply pr_NOT; eapply acc_sub; eassumption|]. intros W2 y y' S2 Hy. assert (S02: sub W W2) by (eapply sub_trans; eassumption).
  eapply prel_bind; [apply pr_gate2; [eapply owns_sub; eassumption|right; exact Hy|eapply acc_sub; eassumption|eapply acc_sub; eassumption|eapply acc_sub; eassumption]|].
  intros W3 z z' S3 Hz. assert (S03: sub W W3) by (eapply sub_trans; eassumption).
  apply pr_gate2; [eapply owns_sub; eassumption| |right; exact Hz|eapply acc_sub; eassumption|eapply acc_sub; eassumption].
  right. apply S3, S2. exact Hx.
Qed.

Lemma get_rel W (w w' : list Z) x : Forall2 (acc W) w w' ->
  (exists a a', get w x = Ok a /\ get w' x = Ok a' /\ acc W a a') \/ (exists e1, get w x = Panic e1 /\ get w' x = Panic e1).
Proof.
  intro H. assert (L: zlen w = zlen w') by (clear - H; induction H; unfold zlen in *; cbn [length]; lia).
  destruct (Z_lt_dec x 0) as [Hx|Hx]; [right; exists PIndex; rewrite !get_panic by lia; split; reflexivity|].
  destruct (Z_lt_dec x (zlen w)) as [Hx2|Hx2]; [|right; exists PIndex; rewrite !get_panic by lia; split; reflexivity].
  left. exists (znd 0 w x), (znd 0 w' x). rewrite !(get_ok 0) by lia. split; [reflexivity|]. split; [reflexivity|].
  apply Z.nlt_ge in Hx. clear - H Hx Hx2. revert x Hx Hx2. induction H as [|a b w w' Hab H IH]; intros x Hx Hx2; [unfold zlen in Hx2; cbn [length] in Hx2; lia|].
  destruct (Z.eq_dec x 0) as [->|Hn]; [exact Hab|]. assert (Z1: zlen (a :: w) = zlen w + 1) by (unfold zlen; cbn [length]; lia).
  change (a :: w) with ([a] ++ w). change (b :: w') with ([b] ++ w'). rewrite !znd_app2 by (unfold zlen; cbn [length]; lia). change (zlen [a]) with 1. change (zlen [b]) with 1. apply IH; lia.
Qed.
Lemma prel_get {B} (Q' : rel -> B -> B -> Prop) W w w' x f g : Forall2 (acc W) w w' -> (forall a b, acc W a b -> prel Q' W (f a) (g b)) ->
  prel Q' W (pbind (lift (get w x)) f) (pbind (lift (get w' x)) g).
Proof. intros H K. destruct (get_rel W w w' x H) as [(a & b & -> & -> & Hab)|(e1 & -> & ->)]; cbn [lift pbind]; [apply K, Hab|constructor]. Qed.

Lemma pr_instr W k i w w' : owns W -> Forall2 (acc W) w w' -> acc W (rA (gk_testvec k)) (rA (gk_testvec k)) -> acc W (rB (gk_testvec k)) (rB (gk_testvec k)) ->
  prel Qnew W (p_instr O pr e k i w) (p_instr O pr e k i w').
Proof.
  intros Hw H HA HB. destruct i as [g x y|x|b|x|x y z]; cbn [p_instr].
  - apply prel_get; [exact H|]. intros a a' Ha. apply prel_get; [exact H|]. intros b b' Hb. apply pr_gate2; assumption.
  - apply prel_get; [exact H|]. intros a a' Ha. apply pr_NOT; assumption.
  - apply pr_Constant.
  - apply prel_get; [exact H|]. intros a a' Ha. apply pr_Copy; assumption.
  - apply prel_get; [exact H|]. intros a a' Ha. apply prel_get; [exact H|]. intros b b' Hb. apply prel_get; [exact H|]. intros c c' Hc. apply pr_MUX; assumption.
Qed.
Lemma pr_exec k p : forall W w w', owns W -> Forall2 (acc W) w w' -> acc W (rA (gk_testvec k)) (rA (gk_testvec k)) -> acc W (rB (gk_testvec k)) (rB (gk_testvec k)) ->
  prel (fun W' => Forall2 (acc W')) W (p_exec O pr e k p w) (p_exec O pr e k p w').
Proof.
  induction p as [|i p IH]; intros W w w' Hw H HA HB; cbn [p_exec]; [constructor; exact H|].
  eapply prel_bind; [apply pr_instr; eassumption|]. intros W1 r r' S Hr. unfold Qnew in Hr. apply IH; [eapply owns_sub; eassumption| |eapply acc_sub; eassumption|eapply acc_sub; eassumption].
  apply Forall2_app; [|constructor; [right; exact Hr|constructor]]. clear - S H. induction H; constructor; [eapply acc_sub; eassumption|assumption].
Qed.
End Ev.
End Ops.

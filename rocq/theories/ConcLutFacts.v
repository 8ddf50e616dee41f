(** * Programmable bootstraps as programs of accesses: what they do alone, and
    that they stay inside their evaluator and targets *)
From Coq Require Import Lia ZifyBool List.
From Verif Require Import GoBase GoFacts GoMem F64 Utils Params Key Tlwe TlweMem Poly Fft Trlwe Trgsw Lut Evaluator CloudKey Gates Spec RunSpec LutSpec LutProg
  Conc ConcLut ConcSpec ConcLutSpec ConcFacts ConcRel ConcOps.
Import ListNotations.
Local Open Scope Z_scope.
Ltac Zify.zify_post_hook ::= idtac.

Section Alone.
Context (O : fops) (pr : pset).
Notation M := (mem (FP O)).

Lemma run_GetNextResult e (m : M) : run (p_GetNextResult O e) m = GetNextResult O m (ev_bp e).
Proof. unfold p_GetNextResult, GetNextResult. cbn [run]. cbv zeta. destruct (_ || _); reflexivity. Qed.
Lemma does_LUTAssign e ct l bsk ksk off out :
  does (p_BootstrapLUTAssign O pr e ct l bsk ksk off out) (fun m : M => BootstrapLUTAssign O pr m e ct l bsk ksk off out).
Proof.
  intro m. unfold p_BootstrapLUTAssign, BootstrapLUTAssign.
  rewrite (run_does _ _ _ _ (does_rotate _ _ _ _ _ _ _ _)), !bind_bind. apply bind_ext. intro m1.
  rewrite (run_does _ _ _ _ (does_extract _ _ _ _ _)), !bind_bind. apply bind_ext. intro m2.
  exact (does_switch O pr _ _ _ m2).
Qed.
Lemma run_LUT e ct l bsk ksk off (m : M) : run (p_BootstrapLUT O pr e ct l bsk ksk off) m = BootstrapLUT O pr m e ct l bsk ksk off.
Proof.
  unfold p_BootstrapLUT, BootstrapLUT. rewrite run_bind, run_GetNextResult. apply bind_ext. intros [r m1].
  rewrite (run_does _ _ _ _ (does_LUTAssign _ _ _ _ _ _ _)). apply bind_ext. intro m2.
  rewrite run_bind, run_new_ct. apply bind_ext. intros [c m3]. cbn [run]. rewrite run_elem. cbv zeta.
  unfold load. unfold mcopy at 1. change (tm (tset m3 c (copy_slice (tm m3 c) (tm m3 r))) r) with (tm (mcopy m3 c r) r).
  apply bind_ext. intro b. reflexivity.
Qed.
Lemma run_new_lut f mm (m : M) : run (p_new_lut O pr f mm) m = new_lut O pr m f mm.
Proof. unfold p_new_lut, new_lut. rewrite run_lift. apply bind_ext. intro t. reflexivity. Qed.
Lemma run_Func e ct f mm bsk ksk off (m : M) : run (p_BootstrapFunc O pr e ct f mm bsk ksk off) m = BootstrapFunc O pr m e ct f mm bsk ksk off.
Proof. unfold p_BootstrapFunc, BootstrapFunc. rewrite run_bind, run_new_lut. apply bind_ext. intros [l m1]. apply run_LUT. Qed.
Lemma does_FuncAssign e ct f mm bsk ksk off out :
  does (p_BootstrapFuncAssign O pr e ct f mm bsk ksk off out) (fun m : M => BootstrapFuncAssign O pr m e ct f mm bsk ksk off out).
Proof.
  intro m. unfold p_BootstrapFuncAssign, BootstrapFuncAssign. rewrite run_bind, run_new_lut, !bind_bind. apply bind_ext. intros [l m1]. apply does_LUTAssign.
Qed.
Lemma does_AddAssign x y o : does (p_AddAssign O x y o) (fun m : M => AddAssign m x y o).
Proof. intro m. unfold p_AddAssign, AddAssign. cbn [run]. apply does_for. intros j m'. alone. Qed.

Lemma run_lcall ck e k i ws ts (m : M) : run (p_lcall O pr ck e k i ws ts) m = lexec1 O pr ck e k i ws ts m.
Proof.
  destruct i as [a b|a b|a|a b c|a b c|a b o|f|t a|t a o|f a|f a o]; cbn [p_lcall lexec1]; cbv zeta.
  1,2,4,5: rewrite run_lift; apply bind_ext; intro x; rewrite run_lift; apply bind_ext; intro y;
    unfold p_op2, p_new; cbn [pbind run]; rewrite run_bind, run_lift, !bind_bind; apply bind_ext; intro v; reflexivity.
  - rewrite run_lift. apply bind_ext. intro x. unfold p_op1, p_new. cbn [pbind run]. rewrite run_bind, run_lift, !bind_bind. apply bind_ext. intro v. reflexivity.
  - rewrite run_lift. apply bind_ext. intro x. rewrite run_lift. apply bind_ext. intro y. rewrite run_lift. apply bind_ext. intro r.
    rewrite (run_does _ _ _ _ (does_AddAssign _ _ _)). reflexivity.
  - rewrite run_bind, run_new_lut. apply bind_ext. intros [t m1]. reflexivity.
  - rewrite run_lift. apply bind_ext. intro l. rewrite run_lift. apply bind_ext. intro x. rewrite run_bind, run_LUT. apply bind_ext. intros [r m1]. reflexivity.
  - rewrite run_lift. apply bind_ext. intro l. rewrite run_lift. apply bind_ext. intro x. rewrite run_lift. apply bind_ext. intro r.
    rewrite (run_does _ _ _ _ (does_LUTAssign _ _ _ _ _ _ _)). reflexivity.
  - rewrite run_lift. apply bind_ext. intro x. rewrite run_bind, run_Func. apply bind_ext. intros [r m1]. reflexivity.
  - rewrite run_lift. apply bind_ext. intro x. rewrite run_lift. apply bind_ext. intro r.
    rewrite (run_does _ _ _ _ (does_FuncAssign _ _ _ _ _ _ _ _)). reflexivity.
Qed.
Lemma run_lexec ck e k p : forall ws ts (m : M), run (p_lexec O pr ck e k p ws ts) m = lexec O pr ck e k p ws ts m.
Proof.
  induction p as [|i p IH]; intros ws ts m; [reflexivity|]. cbn [p_lexec lexec]. rewrite run_bind, run_lcall. apply bind_ext. intros [[ws' ts'] m1]. cbn [fst snd]. apply IH.
Qed.
End Alone.

Section Stays.
Context (O : fops) (pr : pset) (Rd : rel) (Wf Wi : Z -> Prop) (e : evaluator) (Hs : shape e)
  (Hf : forall f, fown e f -> Wf f) (Hi : forall i, iown e i -> Wi i).
Notation prel := (@prel O Rd Wf Wi).
Notation acc := (acc Rd).
Notation T := (any (A := unit)).
Notation owns := (owns e).
Ltac inown := unfold own, fown, iown, bp_Buffers, bp_ExtractedLWE, bp_FourierA, bp_FourierB, bp_Index in *; cbn [rA rB bp_Result bp_Temp bp_Acc1 bp_Acc2 bp_Rotated] in *;
  destruct Hs as [[? ?] [? ?] ? ?]; lia.
Definition tacc (W : rel) (t t' : tref) : Prop := acc W (rA t) (rA t') /\ acc W (rB t) (rB t').
Lemma tacc_sub W W' t t' : sub W W' -> tacc W t t' -> tacc W' t t'.
Proof. intros S [A B]. split; eapply acc_sub; eassumption. Qed.

Lemma pr_next W : owns W -> prel (fun W' x y => x = y /\ W' x x) W (p_GetNextResult O e) (p_GetNextResult O e).
Proof.
  intro Hw. unfold p_GetNextResult. constructor; [apply Hi; inown|]. intro i. destruct ((i <? 0) || (4 <=? i)) eqn:Ei; [constructor|].
  assert (Hi4: 0 <= i < 4) by (apply orb_false_iff in Ei; lia). constructor; [apply Hi; inown|]. constructor. split; [reflexivity|]. apply Hw. inown.
Qed.
Lemma pr_LUTAssign W c c' t t' bsk ksk off o o' : owns W -> acc W c c' -> tacc W t t' -> W o o' ->
  prel T W (p_BootstrapLUTAssign O pr e c t bsk ksk off o) (p_BootstrapLUTAssign O pr e c' t' bsk ksk off o').
Proof.
  intros Hw Hc [HA HB] Ho. unfold p_BootstrapLUTAssign.
  assert (X: forall W' x, sub W W' -> own e x -> W' x x) by (intros W' x S Hx; apply S, Hw; exact Hx).
  apply (prel_seq _ _ _ T). { apply pr_rotate; try assumption; apply X; [apply sub_refl|inown|apply sub_refl|inown]. }
  intros W1 S1.
  apply (prel_seq _ _ _ T). { apply pr_extract; [right|right|]; apply X; [exact S1|inown|exact S1|inown|exact S1|inown]. }
  intros W2 S2. assert (S02: sub W W2) by (eapply sub_trans; eassumption).
  apply pr_switch; [right; apply X; [exact S02|inown]|apply S02; exact Ho].
Qed.
Lemma pr_LUT W c c' t t' bsk ksk off : owns W -> acc W c c' -> tacc W t t' ->
  prel (fun W' x y => W' x y) W (p_BootstrapLUT O pr e c t bsk ksk off) (p_BootstrapLUT O pr e c' t' bsk ksk off).
Proof.
  intros Hw Hc Ht. unfold p_BootstrapLUT. eapply prel_bind; [apply pr_next; exact Hw|]. intros W1 r r' S1 [<- Hr].
  apply (prel_seq _ _ _ T). { apply pr_LUTAssign; [eapply owns_sub; eassumption|eapply acc_sub; eassumption|eapply tacc_sub; eassumption|exact Hr]. }
  intros W2 S2. eapply prel_bind; [apply pr_new_ct|]. intros W3 x y S3 Hxy. cbv beta in Hxy.
  assert (Hr3: W3 r r) by (apply S3, S2, Hr). constructor; [exact Hxy|right; exact Hr3|]. apply prel_elem; [right; exact Hr3|]. intro v.
  constructor; [exact Hxy|]. constructor. exact Hxy.
Qed.
Lemma pr_new_lut W f mm : prel (fun W' t t' => tacc W' t t') W (p_new_lut O pr f mm) (p_new_lut O pr f mm).
Proof.
  unfold p_new_lut. apply prel_lift. intros t _. constructor. intros a a' W1 S1 Ha. constructor. intros b b' W2 S2 Hb. constructor.
  split; right; [apply S2; exact Ha|exact Hb].
Qed.
Lemma pr_Func W c c' f mm bsk ksk off : owns W -> acc W c c' ->
  prel (fun W' x y => W' x y) W (p_BootstrapFunc O pr e c f mm bsk ksk off) (p_BootstrapFunc O pr e c' f mm bsk ksk off).
Proof.
  intros Hw Hc. unfold p_BootstrapFunc. eapply prel_bind; [apply pr_new_lut|]. intros W1 t t' S Ht.
  apply pr_LUT; [eapply owns_sub; eassumption|eapply acc_sub; eassumption|exact Ht].
Qed.
Lemma pr_FuncAssign W c c' f mm bsk ksk off o o' : owns W -> acc W c c' -> W o o' ->
  prel T W (p_BootstrapFuncAssign O pr e c f mm bsk ksk off o) (p_BootstrapFuncAssign O pr e c' f mm bsk ksk off o').
Proof.
  intros Hw Hc Ho. unfold p_BootstrapFuncAssign. eapply prel_bind; [apply pr_new_lut|]. intros W1 t t' S Ht.
  apply pr_LUTAssign; [eapply owns_sub; eassumption|eapply acc_sub; eassumption|exact Ht|apply S, Ho].
Qed.
Lemma pr_AddAssign W x x' y y' o o' : acc W x x' -> acc W y y' -> W o o' -> prel T W (p_AddAssign O x y o) (p_AddAssign O x' y' o').
Proof.
  intros Hx Hy Ho. unfold p_AddAssign. constructor; [right; exact Ho|]. intro l. apply prel_for. intros j W' _ S.
  apply prel_elem; [eapply acc_sub; eassumption|]. intro u. apply prel_elem; [eapply acc_sub; eassumption|]. intro v.
  constructor; [apply S, Ho|]. constructor. exact I.
Qed.
Lemma pr_pnew W v : prel (fun W' x y => W' x y) W (p_new O v) (p_new O v).
Proof. unfold p_new. apply prel_lift. intros u _. constructor. intros x y W' S H. constructor. exact H. Qed.
Lemma pr_op2 W f a a' b b' : acc W a a' -> acc W b b' -> prel (fun W' x y => W' x y) W (p_op2 O f a b) (p_op2 O f a' b').
Proof. intros Ha Hb. unfold p_op2. constructor; [exact Ha|]. intro x. constructor; [exact Hb|]. intro y. apply pr_pnew. Qed.
Lemma pr_op1 W f a a' : acc W a a' -> prel (fun W' x y => W' x y) W (p_op1 O f a) (p_op1 O f a').
Proof. intros Ha. unfold p_op1. constructor; [exact Ha|]. intro x. apply pr_pnew. Qed.

(** the ciphertexts, those that will be written to, and the tables *)
Definition held (p : list lcall) (W : rel) (ws ws' : list Z) : Prop :=
  Forall2 (acc W) ws ws' /\ forall o a a', In o (outputs p) -> get ws o = Ok a -> get ws' o = Ok a' -> W a a'.
Definition tabs (W : rel) (ts ts' : list tref) : Prop := Forall2 (tacc W) ts ts'.
Lemma tabs_sub W W' ts ts' : sub W W' -> tabs W ts ts' -> tabs W' ts ts'.
Proof. intros S H. unfold tabs in *. induction H; constructor; [eapply tacc_sub; eassumption|assumption]. Qed.
Lemma held_sub p W W' ws ws' : sub W W' -> held p W ws ws' -> held p W' ws ws'.
Proof.
  intros S [A B]. split; [|intros o a a' H1 H2 H3; apply S; eapply B; eassumption]. clear B. induction A; constructor; [eapply acc_sub; eassumption|assumption].
Qed.
Lemma get_snoc (l : list Z) r o a : get (l ++ [r]) o = Ok a -> get l o = Ok a \/ (o = zlen l /\ a = r).
Proof.
  intro H. pose proof (get_inv 0 _ _ _ H) as [Ho ->]. assert (Zl: zlen (l ++ [r]) = zlen l + 1) by (unfold zlen; rewrite app_length; cbn [length]; lia).
  destruct (Z_lt_dec o (zlen l)) as [Hl|Hl].
  - left. rewrite znd_app1 by lia. apply get_ok. lia.
  - right. assert (o = zlen l) by lia. subst o. split; [reflexivity|]. rewrite znd_app2 by lia. rewrite Z.sub_diag. reflexivity.
Qed.
Lemma forall2_zlen {A B} (P : A -> B -> Prop) l l' : Forall2 P l l' -> zlen l = zlen l'.
Proof. induction 1; unfold zlen in *; cbn [length]; lia. Qed.
Lemma held_snoc i p W ws ws' r r' : held (i :: p) W ws ws' -> W r r' -> held p W (ws ++ [r]) (ws' ++ [r']).
Proof.
  intros [A B] Hr. split; [apply Forall2_app; [exact A|constructor; [right; exact Hr|constructor]]|].
  pose proof (forall2_zlen _ _ _ A) as L. intros o a a' Ho H1 H2. apply get_snoc in H1. apply get_snoc in H2.
  assert (Ho': In o (outputs (i :: p))) by (cbn [outputs flat_map]; apply in_or_app; right; exact Ho).
  destruct H1 as [H1|[E1 ->]], H2 as [H2|[E2 ->]].
  - eapply B; eassumption.
  - apply (get_inv 0) in H1. lia.
  - apply (get_inv 0) in H2. lia.
  - exact Hr.
Qed.
Lemma held_tl i p W ws ws' : held (i :: p) W ws ws' -> held p W ws ws'.
Proof. intros [A B]. split; [exact A|]. intros o a a' Ho. apply B. cbn [outputs flat_map]. apply in_or_app. right. exact Ho. Qed.
Lemma prel_tab {B} (Q' : rel -> B -> B -> Prop) W ts ts' x f g : tabs W ts ts' -> (forall a b, tacc W a b -> prel Q' W (f a) (g b)) ->
  prel Q' W (pbind (lift (get ts x)) f) (pbind (lift (get ts' x)) g).
Proof.
  intros H K. pose proof (forall2_zlen _ _ _ H) as L. destruct (Z_lt_dec x 0) as [Hx|Hx]; [rewrite !get_panic by lia; constructor|].
  destruct (Z_lt_dec x (zlen ts)) as [Hx2|Hx2]; [|rewrite !get_panic by lia; constructor].
  set (d := {| rA := 0; rB := 0 |}). rewrite !(get_ok d) by lia. cbn [lift pbind]. apply K. clear K f g. apply Z.nlt_ge in Hx. unfold tabs in H. revert x Hx Hx2.
  induction H as [|a b w w' Hab H IH]; intros x Hx Hx2; [unfold zlen in Hx2; cbn [length] in Hx2; lia|].
  destruct (Z.eq_dec x 0) as [->|Hn]; [exact Hab|]. assert (Z1: zlen (a :: w) = zlen w + 1) by (unfold zlen; cbn [length]; lia).
  change (a :: w) with ([a] ++ w). change (b :: w') with ([b] ++ w'). rewrite !znd_app2 by (unfold zlen; cbn [length]; lia). change (zlen [a]) with 1. change (zlen [b]) with 1. apply IH; [|lia|lia].
  unfold zlen in *. cbn [length] in L. lia.
Qed.
Lemma prel_out {B} (Q' : rel -> B -> B -> Prop) p W ws ws' o f g : held p W ws ws' -> In o (outputs p) -> (forall a b, W a b -> prel Q' W (f a) (g b)) ->
  prel Q' W (pbind (lift (get ws o)) f) (pbind (lift (get ws' o)) g).
Proof.
  intros [A B0] Ho K. destruct (get_rel Rd Wf Wi e Hf Hi W ws ws' o A) as [(a & b & Ea & Eb & _)|(e1 & -> & ->)]; [|cbn [lift pbind]; constructor].
  rewrite Ea, Eb. cbn [lift pbind]. apply K. exact (B0 o a b Ho Ea Eb).
Qed.

Definition QL (p : list lcall) : rel -> list Z * list tref -> list Z * list tref -> Prop :=
  fun W r r' => held p W (fst r) (fst r') /\ tabs W (snd r) (snd r').
Lemma pr_lcall ck k i p W ws ws' ts ts' : owns W -> held (i :: p) W ws ws' -> tabs W ts ts' ->
  prel (QL p) W (p_lcall O pr ck e k i ws ts) (p_lcall O pr ck e k i ws' ts').
Proof.
  intros Hw H Ht. pose proof H as [HA _].
  assert (NEW: forall W1 (q q' : prog O Z), sub W W1 -> prel (fun W' x y => W' x y) W1 q q' -> prel (QL p) W1 (pbind q (fun r => Ret (ws ++ [r], ts))) (pbind q' (fun r => Ret (ws' ++ [r], ts')))).
  { intros W1 q q' S Hq. eapply prel_bind; [exact Hq|]. intros W2 r r' S2 Hr. cbv beta in Hr. assert (S3: sub W W2) by (eapply sub_trans; eassumption). constructor. split; cbn [fst snd].
    - eapply held_snoc; [|exact Hr]. eapply held_sub; eassumption.
    - eapply tabs_sub; eassumption. }
  assert (DONE: forall (q q' : prog O unit), prel T W q q' -> prel (QL p) W (pbind q (fun _ => Ret (ws, ts))) (pbind q' (fun _ => Ret (ws', ts')))).
  { intros q q' Hq. apply (prel_seq _ _ _ T); [exact Hq|]. intros W2 S2. constructor. split; cbn [fst snd]; [eapply held_sub; [exact S2|]; eapply held_tl; exact H|eapply tabs_sub; eassumption]. }
  assert (OUT: forall o, In o (outputs1 i) -> In o (outputs (i :: p))) by (intros o Ho; cbn [outputs flat_map]; apply in_or_app; left; exact Ho).
  destruct i as [a b|a b|a|a b c|a b c|a b o|f|t a|t a o|f a|f a o]; cbn [p_lcall]; cbv zeta.
  1,2,4,5: apply (prel_get _ _ _ _ e Hf Hi); [exact HA|]; intros x x' Hx; apply (prel_get _ _ _ _ e Hf Hi); [exact HA|]; intros y y' Hy; apply NEW; [apply sub_refl|]; apply pr_op2; assumption.
  - apply (prel_get _ _ _ _ e Hf Hi); [exact HA|]. intros x x' Hx. apply NEW; [apply sub_refl|]. apply pr_op1; assumption.
  - apply (prel_get _ _ _ _ e Hf Hi); [exact HA|]. intros x x' Hx. apply (prel_get _ _ _ _ e Hf Hi); [exact HA|]. intros y y' Hy.
    apply (prel_out _ _ _ _ _ _ _ _ H); [apply OUT; left; reflexivity|]. intros r r' Hr. apply DONE. apply pr_AddAssign; assumption.
  - eapply prel_bind; [apply pr_new_lut|]. intros W1 t t' S1 H1. cbv beta in H1. constructor. split; cbn [fst snd].
    + eapply held_sub; [exact S1|]. eapply held_tl; exact H.
    + apply Forall2_app; [eapply tabs_sub; eassumption|constructor; [exact H1|constructor]].
  - apply prel_tab; [exact Ht|]. intros l l' Hl. apply (prel_get _ _ _ _ e Hf Hi); [exact HA|]. intros x x' Hx. apply NEW; [apply sub_refl|]. apply pr_LUT; assumption.
  - apply prel_tab; [exact Ht|]. intros l l' Hl. apply (prel_get _ _ _ _ e Hf Hi); [exact HA|]. intros x x' Hx.
    apply (prel_out _ _ _ _ _ _ _ _ H); [apply OUT; left; reflexivity|]. intros r r' Hr. apply DONE. apply pr_LUTAssign; assumption.
  - apply (prel_get _ _ _ _ e Hf Hi); [exact HA|]. intros x x' Hx. apply NEW; [apply sub_refl|]. apply pr_Func; assumption.
  - apply (prel_get _ _ _ _ e Hf Hi); [exact HA|]. intros x x' Hx. apply (prel_out _ _ _ _ _ _ _ _ H); [apply OUT; left; reflexivity|]. intros r r' Hr. apply DONE. apply pr_FuncAssign; assumption.
Qed.
Lemma pr_lexec ck k p : forall W ws ws' ts ts', owns W -> held p W ws ws' -> tabs W ts ts' ->
  prel (QL []) W (p_lexec O pr ck e k p ws ts) (p_lexec O pr ck e k p ws' ts').
Proof.
  induction p as [|i p IH]; intros W ws ws' ts ts' Hw H Ht; cbn [p_lexec]; [constructor; split; assumption|].
  eapply prel_bind; [apply pr_lcall; eassumption|]. intros W1 r r' S [H1 H2]. apply IH; [eapply owns_sub; eassumption|exact H1|exact H2].
Qed.
End Stays.

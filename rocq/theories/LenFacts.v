(** * Lengths of slices never change; loops that cannot complete *)
From Coq Require Import Lia ZifyBool.
From Verif Require Import GoBase GoFacts GoMem F64 Utils Params Tlwe TlweMem Poly Fft Trlwe Trgsw Evaluator Gates LevelSpec.
Local Open Scope Z_scope.
Ltac Zify.zify_post_hook ::= idtac.

(** ** panics *)
Lemma bind_panics1 {A B} (r : res A) (f : A -> res B) : panics r -> panics (bind r f).
Proof. intros [e ->]. exists e. reflexivity. Qed.
Lemma bind_panics2 {A B} (r : res A) (f : A -> res B) : (forall x, r = Ok x -> panics (f x)) -> panics (bind r f).
Proof. intro H. destruct r as [x|e]; [apply H; reflexivity|exists e; reflexivity]. Qed.
Lemma get_panics {A} (l : list A) i : i < 0 \/ zlen l <= i -> panics (get l i).
Proof. intro H. exists PIndex. apply get_panic. exact H. Qed.
Lemma set_panics {A} (l : list A) i v : i < 0 \/ zlen l <= i -> panics (set l i v).
Proof. intro H. unfold set. exists PIndex. assert (E: (i <? 0) || (zlen l <=? i) = true) by lia. rewrite E. reflexivity. Qed.
Lemma store_panics {F} (m : mem F) x i v : i < 0 \/ zlen (tm m x) <= i -> panics (store m x i v).
Proof. intro H. unfold store. apply bind_panics1, set_panics, H. Qed.

(** iteration [k] cannot complete in any state satisfying the invariant *)
Lemma loop_panics {S} (P : S -> Prop) (body : Z -> S -> res S) step k : forall n i s, (k < n)%nat -> P s ->
  (forall j s s', P s -> body j s = Ok s' -> P s') ->
  (forall s, P s -> panics (body (i + Z.of_nat k * step) s)) -> panics (loop n i step body s).
Proof.
  induction k as [|k IH]; intros n i s Hn Hs HP Hk; (destruct n as [|n]; [lia|]); cbn [loop].
  - apply bind_panics1. replace i with (i + Z.of_nat 0 * step) by lia. apply Hk, Hs.
  - apply bind_panics2. intros s' E. apply IH; [lia|eapply HP; eassumption|exact HP|].
    intros s0 H0. replace (i + step + Z.of_nat k * step) with (i + Z.of_nat (Datatypes.S k) * step) by lia. apply Hk, H0.
Qed.
Lemma range_panics {S} (P : S -> Prop) (body : Z -> S -> res S) lo hi k s : lo <= k < hi -> P s ->
  (forall j s s', P s -> body j s = Ok s' -> P s') -> (forall s, P s -> panics (body k s)) -> panics (for_range lo hi body s).
Proof.
  intros Hk Hs HP H. unfold for_range. apply (loop_panics P body 1 (Z.to_nat (k - lo))); [lia|assumption|assumption|].
  intros s0 H0. replace (lo + Z.of_nat (Z.to_nat (k - lo)) * 1) with k by lia. apply H, H0.
Qed.
Lemma range_panics0 {S} (body : Z -> S -> res S) lo hi s : lo < hi -> panics (body lo s) -> panics (for_range lo hi body s).
Proof.
  intros H P. unfold for_range. replace (Z.to_nat (hi - lo)) with (Datatypes.S (Z.to_nat (hi - lo - 1))) by lia. cbn [loop]. apply bind_panics1. exact P.
Qed.
Lemma step_panics {S} (body : Z -> S -> res S) lo hi step k s : 0 < step -> 0 <= k -> lo + k * step < hi ->
  (forall s, panics (body (lo + k * step) s)) -> panics (for_step lo hi step body s).
Proof.
  intros Hst Hk Hlt H. unfold for_step. apply (loop_panics (fun _ => True) body step (Z.to_nat k)); auto.
  - assert (k < (hi - lo + step - 1) / step); [|lia]. assert (k + 1 <= (hi - lo + step - 1) / step); [|lia].
    apply Z.div_le_lower_bound; [lia|]. lia.
  - intros s0 _. rewrite Z2Nat.id by lia. apply H.
Qed.

(** ** a relation kept by every step is kept by the loop *)
Lemma loop_rel {S} (Q : S -> S -> Prop) (body : Z -> S -> res S) step : (forall s, Q s s) -> (forall a b c, Q a b -> Q b c -> Q a c) ->
  (forall i s s', body i s = Ok s' -> Q s s') -> forall n i s s', loop n i step body s = Ok s' -> Q s s'.
Proof.
  intros HR HT HB. induction n as [|n IH]; intros i s s' E; cbn [loop] in E; [injection E as <-; apply HR|].
  destruct (body i s) as [s1|] eqn:E1; [|discriminate]. cbn [bind] in E. eapply HT; [eapply HB; exact E1|eapply IH; exact E].
Qed.
(** a loop whose iterations leave [s] as it is *)
Lemma loop_same {S} (body : Z -> S -> res S) step s : (forall i s', body i s = Ok s' -> s' = s) ->
  forall n i s', loop n i step body s = Ok s' -> s' = s.
Proof.
  intros HB. induction n as [|n IH]; intros i s' E; cbn [loop] in E; [injection E as <-; reflexivity|].
  destruct (body i s) as [s1|] eqn:E1; [|discriminate]. cbn [bind] in E. apply HB in E1. subst s1. eapply IH. exact E.
Qed.

Ltac inv_bind H := cbv beta zeta in H; match type of H with
  | bind ?r _ = Ok _ => let x := fresh "x" in let E := fresh "E" in destruct r as [x|] eqn:E; cbn [bind] in H; [|discriminate H]
  end.

Lemma znd_copy {A} (d : A) dst src i : 0 <= i < zlen dst -> i < zlen src -> znd d (copy_slice dst src) i = znd d src i.
Proof.
  intros H1 H2. unfold copy_slice. unfold zlen in *. rewrite znd_app1 by (unfold zlen; rewrite firstn_length; lia).
  unfold znd.
  rewrite <- (firstn_skipn (length dst) src) at 2. rewrite app_nth1 by (rewrite firstn_length; lia). reflexivity.
Qed.

(** ** lengths of slices *)
Definition len_eq {A} (l l' : list A) : Prop := zlen l' = zlen l.
Lemma len_refl {A} (l : list A) : len_eq l l. Proof. reflexivity. Qed.
Lemma len_trans {A} (a b c : list A) : len_eq a b -> len_eq b c -> len_eq a c. Proof. unfold len_eq. congruence. Qed.
Lemma set_len {A} (l : list A) i v l' : set l i v = Ok l' -> len_eq l l'.
Proof. intro E. apply set_inv in E. destruct E as [_ ->]. apply zlen_upd. Qed.
Lemma loop_len {A} (body : Z -> list A -> res (list A)) step n i s s' : (forall i s s', body i s = Ok s' -> len_eq s s') ->
  loop n i step body s = Ok s' -> len_eq s s'.
Proof. intros HB E. eapply loop_rel; [apply len_refl|apply len_trans|exact HB|exact E]. Qed.
Definition len_fst {A} (a b : list A * Z) : Prop := len_eq (fst a) (fst b).
Lemma loop_len2 {A} (body : Z -> list A * Z -> res (list A * Z)) step n i s s' :
  (forall i s s', body i s = Ok s' -> len_fst s s') -> loop n i step body s = Ok s' -> len_fst s s'.
Proof. intros HB E. eapply (loop_rel len_fst); [intro; apply len_refl|intros a b c; apply len_trans|exact HB|exact E]. Qed.

Ltac lens0 H := repeat first
  [ match type of H with (let '(_, _) := ?p in _) = _ => destruct p eqn:? end
  | inv_bind H ].
Ltac len_set := repeat match goal with H : set ?l _ _ = Ok _ |- _ => apply set_len in H end; unfold len_eq in *; congruence.

Section Fft.
Context (R : arith).

Lemma apply_bf_len bf w (c : list (AN R)) a b d e c' : apply_bf R bf w c a b d e = Ok c' -> len_eq c c'.
Proof. unfold apply_bf. intro H. lens0 H. len_set. Qed.
Lemma bf_block_len bf w t j (c c' : list (AN R)) : bf_block R bf w t j c = Ok c' -> len_eq c c'.
Proof. unfold bf_block. intro H. inv_bind H. inv_bind H. eapply loop_len; [|exact H]. intros i s s' E1. eapply apply_bf_len. exact E1. Qed.
Lemma bf_pair2_len bf w j (c c' : list (AN R)) : bf_pair2 R bf w j c = Ok c' -> len_eq c c'.
Proof. unfold bf_pair2. intro H. inv_bind H. inv_bind H. inv_bind H. eapply len_trans; eapply apply_bf_len; eassumption. Qed.
Lemma bf_pair1_len bf w w' j (c c' : list (AN R)) : bf_pair1 R bf w w' j c = Ok c' -> len_eq c c'.
Proof. unfold bf_pair1. intro H. inv_bind H. inv_bind H. inv_bind H. eapply len_trans; eapply apply_bf_len; eassumption. Qed.
Lemma mid_stage_len bf tw m t s s' : mid_stage R bf tw m t s = Ok s' -> len_fst s s'.
Proof.
  unfold mid_stage. apply loop_len2. intros i [c w] s1 E. inv_bind E. inv_bind E. injection E as <-. unfold len_fst. cbn [fst].
  eapply loop_len; [|exact E1]. intros j a b. apply bf_block_len.
Qed.
Lemma fft_mid_len tw N : forall fuel m t s s', fft_mid R fuel tw N m t s = Ok s' -> len_fst s s'.
Proof.
  induction fuel as [|f IH]; intros m t s s' E; cbn [fft_mid] in E; [discriminate|]. destruct (m <=? N / 16); [|injection E as <-; reflexivity].
  inv_bind E. apply mid_stage_len in E0. apply IH in E. unfold len_fst, len_eq in *. congruence.
Qed.
Lemma ifft_mid_len tw : forall fuel m t s s', ifft_mid R fuel tw m t s = Ok s' -> len_fst s s'.
Proof.
  induction fuel as [|f IH]; intros m t s s' E; cbn [ifft_mid] in E; [discriminate|]. destruct (2 <=? m); [|injection E as <-; reflexivity].
  inv_bind E. apply mid_stage_len in E0. apply IH in E. unfold len_fst, len_eq in *. congruence.
Qed.
Lemma fft_len c tw c' : fftInPlace R c tw = Ok c' -> len_eq c c'.
Proof.
  unfold fftInPlace. intro H. inv_bind H. inv_bind H. inv_bind H. destruct x1 as [c1 w1]. inv_bind H. destruct x1 as [c2 w2]. inv_bind H. destruct x1 as [c3 w3].
  injection H as <-. apply fft_mid_len in E1.
  assert (A1: len_eq c x0) by (eapply loop_len; [|exact E0]; intros i a b; apply bf_block_len).
  assert (A2: len_fst (c1, w1) (c2, w2)).
  { eapply loop_len2; [|exact E2]. intros i [a b] s' E'. inv_bind E'. inv_bind E'. injection E' as <-. eapply bf_pair2_len. exact E5. }
  assert (A3: len_fst (c2, w2) (c3, w3)).
  { eapply loop_len2; [|exact E3]. intros i [a b] s' E'. inv_bind E'. inv_bind E'. inv_bind E'. injection E' as <-. eapply bf_pair1_len. exact E6. }
  unfold len_fst, len_eq in *. cbn [fst] in *. congruence.
Qed.
Lemma scale8_len s j (c c' : list (AN R)) : scale8 R s j c = Ok c' -> len_eq c c'.
Proof. unfold scale8. apply loop_len. intros i a b E. inv_bind E. eapply set_len. exact E. Qed.
Lemma ifft_len c tw c' : ifftInPlace R c tw = Ok c' -> len_eq c c'.
Proof.
  unfold ifftInPlace. intro H. inv_bind H. destruct x as [c1 w1]. inv_bind H. destruct x as [c2 w2]. inv_bind H. destruct x as [c3 w3]. inv_bind H.
  apply ifft_mid_len in E1.
  assert (A2: len_fst (c1, w1) (c2, w2)).
  { eapply loop_len2; [|exact E0]. intros i [a b] s' E'. inv_bind E'. inv_bind E'. injection E' as <-. eapply bf_pair2_len. exact E4. }
  assert (A1: len_fst (c, 0) (c1, w1)).
  { eapply loop_len2; [|exact E]. intros i [a b] s' E'. inv_bind E'. inv_bind E'. inv_bind E'. injection E' as <-. eapply bf_pair1_len. exact E5. }
  assert (A3: len_eq c3 c').
  { eapply loop_len; [|exact H]. intros i a b E'. inv_bind E'. inv_bind E'. apply bf_block_len in E3. apply scale8_len in E4. apply scale8_len in E'.
    unfold len_eq in *. congruence. }
  unfold len_fst, len_eq in *. cbn [fst] in *. congruence.
Qed.
Lemma toFourier_len tw p o o' : toFourier R tw p o = Ok o' -> len_eq o o'.
Proof.
  unfold toFourier. intro H. inv_bind H. apply fft_len in H. eapply len_trans; [|exact H]. unfold convertPolyToFourierPolyAssign in E.
  eapply loop_len; [|exact E]. intros i a b E'. do 4 inv_bind E'.
  eapply len_trans; [eapply loop_len; [|exact E3]|eapply loop_len; [|exact E']]; intros k u v E5; inv_bind E5; eapply set_len; exact E5.
Qed.
Lemma toPoly_len tw f p f' p' : toPoly R tw f p = Ok (f', p') -> len_eq f f' /\ len_eq p p'.
Proof.
  unfold toPoly. intro H. do 3 inv_bind H. injection H as <- <-. apply ifft_len in E. split.
  - eapply len_trans; [exact E|]. eapply loop_len; [|exact E0]. intros i a b E'. inv_bind E'. eapply loop_len; [|exact E'].
    intros k u v E3. inv_bind E3. eapply set_len; exact E3.
  - eapply loop_len; [|exact E1]. intros i a b E'. do 4 inv_bind E'.
    eapply len_trans; [eapply loop_len; [|exact E5]|eapply loop_len; [|exact E']]; intros k u v E6; do 2 inv_bind E6; eapply set_len; exact E6.
Qed.
Lemma clear_len (f f' : list (AN R)) : FourierPoly_Clear R f = Ok f' -> len_eq f f'.
Proof. apply loop_len. intros i a b. apply set_len. Qed.
Lemma elementwise_len op (a b o o' : list (AN R)) : elementwise R op a b o = Ok o' -> len_eq o o'.
Proof.
  apply loop_len. intros i u v E. do 3 inv_bind E. eapply loop_len; [|exact E]. intros k s s' E3. do 6 inv_bind E3.
  destruct (op _ _ _) as [r im]. inv_bind E3. len_set.
Qed.
Lemma elementwise_short op (a b o : list (AN R)) k : 0 <= k -> zlen b = 8 * k -> 8 * k < zlen o -> panics (elementwise R op a b o).
Proof.
  intros Hk Hb Ho. unfold elementwise. apply (step_panics _ 0 _ 8 k); try lia. intro s.
  apply bind_panics2. intros _ _. apply bind_panics1. unfold ptr. exists PIndex.
  assert (E: (0 + k * 8 <? 0) || (zlen b <=? 0 + k * 8) = true) by lia. rewrite E. reflexivity.
Qed.
End Fft.

(** ** memory *)
Section Mem.
Context {T : Type}.
Notation M := (mem (list T)).
Lemma sk_refl (m : M) : sizes_kept m m. Proof. repeat split; try lia. Qed.
Lemma sk_trans (a b c : M) : sizes_kept a b -> sizes_kept b c -> sizes_kept a c.
Proof.
  intros (A1 & A2 & A3 & A4) (B1 & B2 & B3 & B4). repeat split; [lia|lia| |]; intros x Hx.
  - rewrite B3 by lia. apply A3. lia.
  - rewrite B4 by lia. apply A4. lia.
Qed.
Lemma sk_tset (m : M) x v : zlen v = zlen (tm m x) -> sizes_kept m (tset m x v).
Proof. intro H. repeat split; cbn [tset tm fm tnext fnext]; try lia. intros y Hy. destruct (Z.eqb_spec y x) as [->|]; [exact H|reflexivity]. Qed.
Lemma sk_fset (m : M) x v : zlen v = zlen (fm m x) -> sizes_kept m (fset m x v).
Proof. intro H. repeat split; cbn [fset tm fm tnext fnext]; try lia. intros y Hy. destruct (Z.eqb_spec y x) as [->|]; [exact H|reflexivity]. Qed.
Lemma sk_iset (m : M) x v : sizes_kept m (iset m x v). Proof. repeat split; cbn; lia. Qed.
Lemma sk_mcopy (m : M) a b : sizes_kept m (mcopy m a b). Proof. apply sk_tset. apply copy_slice_len. Qed.
Lemma sk_store (m : M) x i v m' : store m x i v = Ok m' -> sizes_kept m m'.
Proof. unfold store. intro H. inv_bind H. injection H as <-. apply sk_tset. eapply set_len. exact E. Qed.
Lemma sk_alloc (m : M) v : sizes_kept m (snd (alloc m v)).
Proof. repeat split; cbn [alloc snd tm fm tnext fnext]; try lia. intros x Hx. destruct (Z.eqb_spec x (tnext m)); [lia|reflexivity]. Qed.
Lemma sk_loop (body : Z -> M -> res M) step n i m m' : (forall i a b, body i a = Ok b -> sizes_kept a b) -> loop n i step body m = Ok m' -> sizes_kept m m'.
Proof. intros HB E. eapply loop_rel; [apply sk_refl|apply sk_trans|exact HB|exact E]. Qed.
Lemma sk_t (m m' : M) x : sizes_kept m m' -> x < tnext m -> zlen (tm m' x) = zlen (tm m x). Proof. intros (_ & _ & H & _). apply H. Qed.
Lemma sk_f (m m' : M) x : sizes_kept m m' -> x < fnext m -> zlen (fm m' x) = zlen (fm m x). Proof. intros (_ & _ & _ & H). apply H. Qed.

Lemma sk_mono (m : M) a k r m' : PolyMulWithXKInPlace m a k r = Ok m' -> sizes_kept m m'.
Proof.
  unfold PolyMulWithXKInPlace. intro H. inv_bind H. destruct (x =? 0); [injection H as <-; apply sk_mcopy|].
  destruct (_ <? _); inv_bind H; (eapply sk_trans; [eapply sk_loop; [|exact E0]|eapply sk_loop; [|exact H]]); intros i u v E2; inv_bind E2; eapply sk_store; exact E2.
Qed.
Lemma sk_decompose (m : M) p bg l off d m' : DecomposePolyAssign m p bg l off d = Ok m' -> sizes_kept m m'.
Proof.
  unfold DecomposePolyAssign. intro H. inv_bind H. inv_bind H. eapply sk_loop; [|exact H]. intros i u v E2. inv_bind E2.
  eapply sk_loop; [|exact E2]. intros j a b. apply sk_store.
Qed.
Lemma sk_extract pr (m : M) t k o m' : SampleExtractIndexAssign pr m t k o = Ok m' -> sizes_kept m m'.
Proof.
  unfold SampleExtractIndexAssign. intro H. inv_bind H. inv_bind H. eapply sk_trans; [|eapply sk_store; exact H]. eapply sk_loop; [|exact E].
  intros i u v E2. inv_bind E2. eapply sk_store. exact E2.
Qed.
End Mem.

(** ** the operations of an evaluator, with the transform of any tables *)
Section Eval.
Context (R : arith) (tw twi : list (AN R * AN R)) (pr : pset).
Notation O := (fft_ops R tw twi).
Notation M := (mem (list (AN R))).

Lemma sk_product (m : M) e g c off out m' : ExternalProductAssign O pr m e g c off out = Ok m' -> sizes_kept m m'.
Proof.
  unfold ExternalProductAssign. intro H. do 9 inv_bind H.
  apply sk_decompose in E1. apply sk_decompose in E2.
  assert (A3: sizes_kept x2 x3).
  { eapply sk_loop; [|exact E3]. intros i u v E'. unfold ToFourierPolyAssign in E'. inv_bind E'. injection E' as <-. apply sk_fset. eapply toFourier_len. exact E8. }
  assert (A4: sizes_kept x3 x4). { unfold ClearBuffer in E4. inv_bind E4. injection E4 as <-. apply sk_fset. eapply clear_len. exact E8. }
  assert (A5: sizes_kept x4 x5). { unfold ClearBuffer in E5. inv_bind E5. injection E5 as <-. apply sk_fset. eapply clear_len. exact E8. }
  assert (A6: sizes_kept x5 x6).
  { eapply sk_loop; [|exact E6]. intros i u v E'. do 2 inv_bind E'. unfold MulAddFourierPolyAssign in *. inv_bind E9. injection E9 as <-. inv_bind E'. injection E' as <-. 
    cbn [f_muladd fft_ops] in *. unfold elementWiseMulAddCmplxAssign in *.
    eapply sk_trans; apply sk_fset; eapply elementwise_len; [exact E10|exact E9]. }
  assert (B: forall a b f p (Hab: ToPolyAssignUnsafe O a f p = Ok b), sizes_kept a b).
  { intros a b f p Hab. unfold ToPolyAssignUnsafe in Hab. inv_bind Hab. destruct x8 as [f' p']. injection Hab as <-. apply toPoly_len in E8. destruct E8 as [Q1 Q2].
    eapply sk_trans; [apply sk_fset; exact Q1|apply sk_tset; exact Q2]. }
  apply B in E7. apply B in H.
  apply (sk_trans _ x1); [exact E1|]. apply (sk_trans _ x2); [exact E2|]. apply (sk_trans _ x3); [exact A3|]. apply (sk_trans _ x4); [exact A4|].
  apply (sk_trans _ x5); [exact A5|]. apply (sk_trans _ x6); [exact A6|]. apply (sk_trans _ x7); [exact E7|exact H].
Qed.
Lemma sk_cmux (m : M) e g c0 c1 off out m' : CMuxAssign O pr m e g c0 c1 off out = Ok m' -> sizes_kept m m'.
Proof.
  unfold CMuxAssign. intro H. do 2 inv_bind H. apply sk_product in E0.
  eapply sk_trans; [apply sk_mcopy|]. eapply sk_trans; [apply sk_mcopy|]. eapply sk_trans; [eapply sk_loop; [|exact E]|].
  { intros i u v E'. inv_bind E'. inv_bind E1. inv_bind E1. inv_bind E'. inv_bind E'. eapply sk_trans; eapply sk_store; eassumption. }
  eapply sk_trans; [exact E0|]. eapply sk_loop; [|exact H].
  intros i u v E'. inv_bind E'. inv_bind E1. inv_bind E1. inv_bind E'. inv_bind E'. eapply sk_trans; eapply sk_store; eassumption.
Qed.
Lemma sk_rotate (m : M) e c tv bsk off out m' : BlindRotateAssign O pr m e c tv bsk off out = Ok m' -> sizes_kept m m'.
Proof.
  unfold BlindRotateAssign. intro H. do 4 inv_bind H. injection H as <-. apply sk_mono in E0. apply sk_mono in E1.
  eapply sk_trans; [exact E0|]. eapply sk_trans; [exact E1|]. eapply sk_trans; [eapply sk_loop; [|exact E2]|].
  { intros i u v E'. do 4 inv_bind E'. apply sk_mono in E4. apply sk_mono in E5. apply sk_cmux in E'.
    eapply sk_trans; [exact E4|]. eapply sk_trans; [exact E5|exact E']. }
  eapply sk_trans; apply sk_mcopy.
Qed.
End Eval.

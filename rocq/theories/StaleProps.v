(** * Lemmas for C58: batches after a change of level *)
From Coq Require Import Lia ZifyBool.
From Verif Require Import GoBase GoFacts GoMem F64 Utils Spec Params Key Tlwe TlweMem Poly PolyFacts Fft Trlwe Trgsw Evaluator CloudKey Gates
  RunSpec BatchSpec LevelSpec LenFacts FftProps NoiseFacts RunProps LevelProps.
Import ListNotations.
Local Open Scope Z_scope.
Ltac Zify.zify_post_hook ::= idtac.

(** ** levels of the same ring size *)
Lemma s_same_ring O pr pr' (m : mem (FP O)) pool : g_N pr = g_N pr' -> pool_reachable O pr m pool -> pool_reachable O pr' m pool.
Proof.
  intros E. induction 1 as [m Hm|m m' pool _ IH H1 H2 H3 H4|m p1 p p2 _ IH|m pool pr0 sk rk rb ck srcs tvr tv evs s _ IH Hg EN Hsk Hck Ha Es Hd].
  - apply pl_empty. exact Hm.
  - eapply pl_other; [exact IH|exact H1|exact H2|exact H3|exact H4].
  - eapply pl_drop. exact IH.
  - eapply pl_batch with (pr' := pr0); [exact IH|exact Hg|congruence|exact Hsk|exact Hck|exact Ha|exact Es|exact Hd].
Qed.

Lemma s_ring_sizes level :
  g_N (get_params level) = if level =? 2 then 512 else if (4 <=? level) && (level <=? 8) then 2048 else 1024.
Proof.
  unfold get_params, Security80Bit, Security110Bit, SecurityUint1, SecurityUint2, SecurityUint3, SecurityUint4, SecurityUint5, SecurityUint6, SecurityUint7, SecurityUint8.
  repeat match goal with |- context [if level =? ?k then _ else _] => destruct (Z.eqb_spec level k); [subst level; reflexivity|] end.
  assert (E: (4 <=? level) && (level <=? 8) = false) by lia. rewrite E. reflexivity.
Qed.

(** ** evaluators of another ring size *)
Section Stale.
Context (R : arith) (tw twi : list (AN R * AN R)).
Notation O := (fft_ops R tw twi).
Notation M := (mem (list (AN R))).
Context (N' : Z).

Definition held (m : M) (p : peval) : Prop :=
  (forall i, 0 <= i < 4 -> pe_rot p i < tnext m /\ zlen (tm m (pe_rot p i)) = N') /\
  pe_fpAcc p < fnext m /\ zlen (fm m (pe_fpAcc p)) = N'.

Lemma held_kept m m' p : sizes_kept m m' -> held m p -> held m' p.
Proof.
  intros S (A & B & C). pose proof S as (N1 & N2 & _). split; [|split].
  - intros i Hi. destruct (A i Hi). rewrite (sk_t _ _ _ S) by assumption. split; [lia|assumption].
  - lia.
  - rewrite (sk_f _ _ _ S) by exact B. exact C.
Qed.

Lemma held_made m p : made_for R tw twi N' m p -> held m p.
Proof.
  intros (m0 & m1 & (M1 & M2 & M3) & E & S). eapply held_kept; [exact S|]. clear S. revert E. unfold NewPolyEvaluator, newEvaluationBuffer.
  destruct (check_degree N') as [u|] eqn:ED; [|discriminate]. cbn [bind]. intro H. inv_bind H. inv_bind H. unfold NewPoly in E. change (f_new O) with (NewFourierPoly R) in E0. unfold NewFourierPoly in E0.
  rewrite ED in E, E0. cbn [bind] in E, E0.
  assert (HN: 0 <= N').
  { destruct (Z_lt_le_dec N' 0) as [Hl|Hl]; [|exact Hl]. unfold make in E. assert (X: N' <? 0 = true) by lia. rewrite X in E. discriminate. }
  rewrite make_ok in E by exact HN. rewrite make_ok in E0 by exact HN. injection E as <-. injection E0 as <-.
  set (t := repeat 0 (Z.to_nat N')) in *. set (f := repeat (a_zero R) (Z.to_nat N')) in *.
  assert (Lt: zlen t = N') by (unfold zlen, t; rewrite repeat_length; lia). assert (Lf: zlen f = N') by (unfold zlen, f; rewrite repeat_length; lia). clearbody t f.
  unfold alloc_ts, alloc_fs, alloc_is in H. cbn [tnext fnext inext tm fm im] in H. injection H as <- <-.
  unfold held, pe_rot, pe_fpAcc, pe_tsize, pe_fsize. cbn [pe_t pe_f tnext fnext tm fm]. split; [|split].
  - intros i Hi. split; [lia|].
    repeat match goal with |- context [if ?b then _ else _] => destruct b eqn:?; cbv beta iota; try assumption; try (exfalso; lia) end.
  - lia.
  - repeat match goal with |- context [if ?b then _ else _] => destruct b eqn:?; cbv beta iota; try assumption; try (exfalso; lia) end.
Qed.

(** ** everything keeps the lengths *)
Lemma sk_rotbuf (m : M) p r m' : GetRotationBuffer m p = Ok (r, m') -> sizes_kept m m' /\ exists i, 0 <= i < 4 /\ r = pe_rot p i.
Proof.
  unfold GetRotationBuffer. destruct (_ || _) eqn:E; [discriminate|]. intro H. injection H as <- <-. split; [apply sk_iset|]. eexists. split; [|reflexivity]. lia.
Qed.
Lemma sk_trlwebuf (m : M) p a b m' : GetTRLWEBuffer m p = Ok (a, b, m') -> sizes_kept m m'.
Proof. unfold GetTRLWEBuffer. destruct (_ || _); [discriminate|]. intro H. injection H as <- <- <-. apply sk_iset. Qed.
Lemma sk_xk (m : M) p a k r m' : PolyMulWithXK m p a k = Ok (r, m') -> sizes_kept m m' /\ exists i, 0 <= i < 4 /\ r = pe_rot p i.
Proof.
  unfold PolyMulWithXK. intro H. inv_bind H. destruct x as [r0 m0]. inv_bind H. injection H as <- <-. apply sk_rotbuf in E. destruct E as [S X].
  split; [|exact X]. eapply sk_trans; [exact S|]. eapply sk_mono. exact E0.
Qed.
Lemma sk_first pr (m : M) src tv p r m' : br_first O pr m src tv p = Ok (r, m') -> sizes_kept m m'.
Proof.
  unfold br_first. cbv zeta. intro H. inv_bind H. inv_bind H. destruct x0 as [a m1]. inv_bind H. destruct x0 as [b m2]. injection H as <- <-.
  apply sk_xk in E0. apply sk_xk in E1. eapply sk_trans; [apply sk_iset|]. eapply sk_trans; [apply E0|apply E1].
Qed.

Lemma sk_dec pr (m : M) t off p m' : decompositionInPlace O pr m t off p = Ok m' -> sizes_kept m m'.
Proof.
  unfold decompositionInPlace. cbv zeta. intro H. do 4 inv_bind H.
  eapply sk_trans; [eapply sk_loop; [|exact E1]|eapply sk_trans; [eapply sk_loop; [|exact E2]|eapply sk_loop; [|exact H]]].
  - intros i a b F. inv_bind F. eapply sk_loop; [|exact F]. intros j c d. apply sk_store.
  - intros i a b F. do 3 inv_bind F. eapply sk_trans; [eapply sk_loop; [|exact E5]|eapply sk_loop; [|exact F]]; intros j c d G; inv_bind G; eapply sk_store; exact G.
  - intros i a b F. inv_bind F. unfold ToFourierPolyInBuffer in F. destruct (_ <=? _); [discriminate|]. destruct (_ <? _); [discriminate|].
    unfold ToFourierPolyAssign in F. inv_bind F. injection F as <-. apply sk_fset. eapply toFourier_len. exact E4.
Qed.

(** ** a CMUX with an evaluator of another ring size does not return *)
Definition rowsN (N : Z) (g : trgsw_fft O) : Prop := Forall (fun r => zlen (fst r) = N) g.

Lemma long_product pr N (m : M) g t off p : 1 <= g_L pr -> held m p -> rowsN N g -> (exists k, 0 <= k /\ N = 8 * k) -> N < N' ->
  panics (ExternalProductWithFFT O pr m g t off p).
Proof.
  intros Hl Hh Hg (k & Hk & EN) HN. unfold ExternalProductWithFFT. cbv zeta. apply bind_panics2. intros m1 E1. apply sk_dec in E1.
  assert (CL: forall (a b : M) f, ClearBuffer O a f = Ok b -> sizes_kept a b).
  { intros a b f Hab. unfold ClearBuffer in Hab. inv_bind Hab. injection Hab as <-. apply sk_fset. eapply clear_len. exact E. }
  apply bind_panics2. intros m2 E2. apply CL in E2. apply bind_panics2. intros m3 E3. apply CL in E3.
  assert (H3: held m3 p) by (repeat (eapply held_kept; [eassumption|]); exact Hh).
  apply bind_panics1. apply range_panics0; [lia|]. apply bind_panics2. intros row Er. apply bind_panics1. unfold MulAddFourierPolyAssignBuffered.
  destruct (_ || _); [eexists; reflexivity|]. unfold MulAddFourierPolyAssign. apply bind_panics1.
  apply (get_inv ([], [])) in Er. destruct Er as [Hr ->]. destruct H3 as (_ & _ & C). apply (elementwise_short R _ _ _ _ k); [exact Hk| |].
  - rewrite <- EN. apply (proj1 (Forall_znd (fun r => zlen (fst r) = N) ([], []) g) Hg). exact Hr.
  - refine (eq_ind_r (fun z => 8 * k < z) _ C). lia.
Qed.

Lemma stale_cmux pr (m : M) c1 i j g off p : 1 <= g_L pr -> held m p -> rowsN (g_N pr) g -> (exists k, 0 <= k /\ g_N pr = 8 * k) -> 0 <= N' -> g_N pr <> N' ->
  0 <= i < 4 -> panics (CMUX O pr m c1 {| rA := pe_rot p i; rB := j |} g off p).
Proof.
  intros Hl Hh Hg HN HN0 Hne Hi. unfold CMUX. cbv zeta. apply bind_panics2. intros [[ta tb] m1] E1. apply sk_trlwebuf in E1.
  assert (H1: held m1 p) by (eapply held_kept; eassumption).
  assert (BK: forall (s s' : M) q, (m0 <- (x <- load s (rA {| rA := pe_rot p i; rB := j |}) q;; y <- load s (rA c1) q;; store s ta q (tsub x y)) ;;
     x <- load m0 (rB {| rA := pe_rot p i; rB := j |}) q;; y <- load m0 (rB c1) q;; store m0 tb q (tsub x y)) = Ok s' -> sizes_kept s s').
  { intros s s' q F. inv_bind F. do 2 inv_bind E. do 2 inv_bind F. eapply sk_trans; eapply sk_store; eassumption. }
  destruct (Z_lt_le_dec N' (g_N pr)) as [Hlt|Hge].
  - apply bind_panics1. apply (range_panics (fun m => held m p) _ _ _ N'); [lia|exact H1| |].
    + intros q s s' Hs F. eapply held_kept; [eapply BK; exact F|exact Hs].
    + intros s (A & _). apply bind_panics1. apply bind_panics1. unfold load. apply get_panics. right. exact (eq_ind_r (fun z => z <= N') (Z.le_refl N') (proj2 (A i Hi))).
  - apply bind_panics2. intros m2 E2. apply bind_panics1. apply (long_product pr (g_N pr)); [exact Hl| |exact Hg|exact HN|lia].
    eapply held_kept; [|exact H1]. eapply sk_loop; [|exact E2]. intros q s s' F. eapply BK. exact F.
Qed.

Section Key.
Context (pr : pset) (bsk : list (trgsw_fft O)) (off : Z) (Hl : 1 <= g_L pr) (Hn : 0 < lv0_N pr)
  (Hb : Forall (rowsN (g_N pr)) bsk) (H8 : exists k, 0 <= k /\ g_N pr = 8 * k) (HN0 : 0 <= N') (Hne : g_N pr <> N').

Lemma stale_next (m : M) src p r i : held m p -> panics (br_next O pr src bsk off p i (r, m)).
Proof.
  intro Hh. unfold br_next. cbv zeta. apply bind_panics2. intros aT _. apply bind_panics2. intros [a m1] E1. apply bind_panics2. intros [b m2] E2.
  apply sk_xk in E1. destruct E1 as (S1 & q & Hq & ->). apply sk_xk in E2. destruct E2 as (S2 & _).
  apply bind_panics2. intros key Ek. apply stale_cmux; try assumption.
  - eapply held_kept; [exact S2|]. eapply held_kept; [exact S1|exact Hh].
  - apply (get_inv []) in Ek. destruct Ek as [Hi ->]. apply (proj1 (Forall_znd (rowsN (g_N pr)) [] bsk) Hb). exact Hi.
Qed.

Lemma stale_rotate (m : M) src tv p : held m p -> panics (BlindRotate O pr m src tv bsk off p).
Proof.
  intro Hh. unfold BlindRotate. apply bind_panics2. intros [r m1] E1. apply sk_first in E1. apply range_panics0; [exact Hn|].
  apply stale_next. eapply held_kept; eassumption.
Qed.

(** no goroutine gets beyond its first rotation *)
Definition early (m : M) (g : gor) : Prop :=
  match g with GNew => True | GHas p => held m p | GAcc p k _ => k = 0 /\ held m p | _ => False end.
Definition binv (q : Z) (s : bstate O) : Prop :=
  Forall (held (bs_mem O s)) (bs_pool O s) /\ zlen (bs_gor O s) = q /\ Forall (early (bs_mem O s)) (bs_gor O s).

Lemma early_kept m m' g : sizes_kept m m' -> early m g -> early m' g.
Proof. intro S. destruct g; cbn [early]; auto; [apply held_kept; exact S|]. intros [A B]. split; [exact A|]. eapply held_kept; eassumption. Qed.
Lemma forall_upd_nat {A} (P : A -> Prop) (l : list A) x : P x -> Forall P l -> forall i, Forall P (upd_nat l i x).
Proof.
  intros Hx H. induction H as [|y l Hy Hl' IH]; intros [|i]; cbn [upd_nat]; try (constructor; [assumption|]); [constructor..|exact Hl'|apply IH].
Qed.
Lemma forall_remove {A} (P : A -> Prop) k (l : list A) : Forall P l -> Forall P (remove_at k l).
Proof.
  intro H. unfold remove_at. apply Forall_app. rewrite Forall_forall in H. split; apply Forall_forall; intros x Hx; apply H.
  - rewrite <- (firstn_skipn (Z.to_nat k) l). apply in_or_app. left. exact Hx.
  - rewrite <- (firstn_skipn (Z.to_nat k + 1) l). apply in_or_app. right. exact Hx.
Qed.
Lemma get_forall {A} (P : A -> Prop) (l : list A) i x : Forall P l -> get l i = Ok x -> P x.
Proof. intros H E. apply (get_inv x) in E. destruct E as [Hi ->]. apply (proj1 (Forall_znd P x l) H). exact Hi. Qed.

Lemma binv_step srcs tv q ev s s' : (forall i, ev <> BGet i None) -> binv q s -> bstep O pr srcs tv bsk off ev s = Some (Ok s') -> binv q s'.
Proof.
  intros Hev (Hp & Hq & Hg) E.
  assert (KG: forall i g (m' : M), sizes_kept (bs_mem O s) m' -> early m' g ->
     binv q (Build_bstate O m' (bs_pool O s) (upd (bs_gor O s) i g) (bs_results O s))).
  { intros i g m' S Hx. split; [|split]; cbn [bs_mem bs_pool bs_gor].
    - eapply Forall_impl; [|exact Hp]. intros p. apply held_kept. exact S.
    - rewrite zlen_upd. exact Hq.
    - apply forall_upd_nat; [exact Hx|]. eapply Forall_impl; [|exact Hg]. intro g'. apply early_kept. exact S. }
  destruct ev as [i [k|]|i|i]; cbn [bstep] in E; [|exfalso; eapply Hev; reflexivity| |].
  - destruct (get (bs_gor O s) i) as [g|] eqn:E1; [|discriminate]. destruct g; try discriminate.
    destruct (get (bs_pool O s) k) as [e|] eqn:E2; [|discriminate]. injection E as <-. split; [|split]; cbn [bs_mem bs_pool bs_gor].
    + apply forall_remove. exact Hp.
    + rewrite zlen_upd. exact Hq.
    + apply forall_upd_nat; [|exact Hg]. cbn [early]. exact (get_forall _ _ _ _ Hp E2).
  - destruct (get (bs_gor O s) i) as [g|] eqn:E1; [|discriminate]. pose proof (get_forall _ _ _ _ Hg E1) as Eg. destruct g as [|p|p k r|p|]; cbn [early] in Eg; try discriminate.
    + destruct (get srcs i) as [src|]; [|discriminate]. injection E as E. inv_bind E. destruct x as [r m']. injection E as <-.
      pose proof (sk_first _ _ _ _ _ _ _ E0) as S. apply KG; [exact S|]. split; [reflexivity|]. eapply held_kept; [exact S|exact Eg].
    + destruct Eg as [-> Eg]. destruct (get srcs i) as [src|]; [|discriminate]. assert (X: 0 <? lv0_N pr = true) by lia. rewrite X in E. injection E as E. inv_bind E. destruct (stale_next (bs_mem O s) src p r 0 Eg) as [u P]. pose proof (eq_trans (eq_sym P) E0) as X'. discriminate X'.
  - destruct (get (bs_gor O s) i) as [g|] eqn:E1; [|discriminate]. pose proof (get_forall _ _ _ _ Hg E1) as Eg. destruct g; try discriminate. destruct Eg.
Qed.

Lemma binv_sched srcs tv q evs : from_pool evs -> forall s s', binv q s -> bsched O pr srcs tv bsk off evs s = Some (Ok s') -> binv q s'.
Proof.
  induction evs as [|ev evs IH]; intros Hf s s' Hi E; cbn [bsched] in E; [injection E as <-; exact Hi|].
  destruct (bstep O pr srcs tv bsk off ev s) as [[s1|]|] eqn:E1; try discriminate. apply (IH) with (s := s1); [|eapply binv_step; [|exact Hi|exact E1]|exact E].
  - intros i Hin. apply (Hf i). right. exact Hin.
  - intros i ->. apply (Hf i). left. reflexivity.
Qed.

Lemma stale_batch (m : M) pool srcs tv evs r : Forall (held m) pool -> srcs <> [] -> from_pool evs ->
  BatchBlindRotate O pr m pool srcs tv bsk off evs = Some r -> panics r.
Proof.
  intros Hp Hs Hf. unfold BatchBlindRotate. destruct (bsched O pr srcs tv bsk off evs (binit O m pool srcs)) as [[s|e]|] eqn:E; [|intro H; injection H as <-; exists e; reflexivity|discriminate].
  assert (I: binv (zlen srcs) s).
  { eapply binv_sched; [exact Hf| |exact E]. split; [exact Hp|]. cbn [binit bs_gor bs_mem]. split; [unfold zlen; rewrite repeat_length; reflexivity|].
    clear. induction (length srcs) as [|k IH]; cbn [repeat]; constructor; [exact Logic.I|exact IH]. }
  destruct I as (_ & Lg & Hg). destruct (ball_done O s) eqn:Ed; [|discriminate]. exfalso. unfold ball_done in Ed.
  destruct (bs_gor O s) as [|g gs]; [destruct srcs; [contradiction|unfold zlen in Lg; cbn [length] in Lg; lia]|].
  cbn [forallb] in Ed. apply andb_prop in Ed. destruct Ed as [Ed _]. destruct g; try discriminate. inversion Hg as [|? ? Hx _]. exact Hx.
Qed.

Lemma sk_prepare_from lin : forall inputs j st prep m', for_each_nat j inputs
  (fun _ '(a, b) '(prepared, m) => '(p, m) <- fresh O m (lin (tm m a) (tm m b)) ;; Ok (prepared ++ [p], m)) st = Ok (prep, m') ->
  sizes_kept (snd st) m' /\ length prep = (length (fst st) + length inputs)%nat.
Proof.
  induction inputs as [|[a b] inputs IH]; intros j [p0 m0] prep m' E; cbn [for_each_nat] in E.
  - injection E as <- <-. split; [apply sk_refl|cbn [fst length]; lia].
  - inv_bind E. inv_bind E0. destruct x0 as [p m1]. injection E0 as <-. unfold fresh in E1. inv_bind E1. injection E1 as <- <-.
    apply IH in E. destruct E as [S Le]. cbn [fst snd] in S, Le |- *. split.
    + eapply sk_trans; [|exact S]. apply sk_alloc.
    + rewrite app_length in Le. cbn [length] in Le |- *. lia.
Qed.

Lemma stale_gate lin (m : M) pool inputs (k : gkey O) evs r : gk_bsk k = bsk -> gk_offset k = off -> Forall (held m) pool -> inputs <> [] -> from_pool evs ->
  batch_gate O pr lin m pool inputs k evs = Some r -> panics r.
Proof.
  intros Ek Eo Hp Hi Hf. unfold batch_gate. destruct (batch_prepare O lin m inputs) as [[prep m1]|e] eqn:E1; [|intro H; injection H as <-; exists e; reflexivity].
  unfold batch_prepare, for_each in E1. apply sk_prepare_from in E1. cbn [fst snd length] in E1. destruct E1 as [S Le]. rewrite Ek, Eo.
  destruct (BatchBlindRotate O pr m1 pool prep (gk_testvec k) bsk off evs) as [r1|] eqn:E2; [|discriminate].
  apply stale_batch in E2; [|eapply Forall_impl; [|exact Hp]; intro p; apply held_kept; exact S|destruct inputs; [contradiction|]; intros ->; cbn [length] in Le; lia|exact Hf].
  destruct E2 as [e ->]. intro H. injection H as <-. exists e. reflexivity.
Qed.
End Key.
End Stale.

(** ** with the keys of a level *)
Section Top.
Context (R : arith) (tw twi : list (AN R * AN R)) (N' : Z) (pr : pset) (tw2 twi2 : list (AN R * AN R)) (sk : SecretKey) (rk : Z -> enc_rand) (rb : Z -> Z -> trlwe_rand)
  (ck : CloudKey (fft_ops R tw2 twi2)) (Hn : 0 < lv0_N pr)
  (T2 : genTwiddleFactors R (g_N pr / 2) = Ok (tw2, twi2)) (S : setup R (fft_ops R tw2 twi2) pr sk rk rb ck) (Hne : g_N pr <> N').
Notation O := (fft_ops R tw twi).
Notation M := (mem (list (AN R))).

Lemma s_eight : exists k, 0 <= k /\ g_N pr = 8 * k.
Proof.
  destruct S as (_ & EO & _). destruct (eval_pow2 R (g_N pr) _ EO) as (k & Hk & EN). exists (2 ^ (k - 3)). split; [apply Z.pow_nonneg; lia|].
  rewrite EN. replace k with (3 + (k - 3)) at 1 by lia. rewrite Z.pow_add_r by lia. reflexivity.
Qed.
Lemma s_levels : 1 <= g_L pr. Proof. destruct S as ([W _] & _). apply W. Qed.
Lemma s_rows : Forall (rowsN R tw twi (g_N pr)) (BootstrappingKey ck). Proof. exact (l_bsk_rows R tw2 twi2 pr sk rk rb ck T2 S). Qed.
Lemma s_made (m : M) p : made_for R tw twi N' m p -> 0 <= N'.
Proof.
  intros (m0 & m1 & _ & E & _). revert E. unfold NewPolyEvaluator, newEvaluationBuffer, NewPoly. destruct (check_degree N') as [u|]; [|discriminate]. cbn [bind].
  unfold make. destruct (Z.ltb_spec N' 0); [discriminate|lia].
Qed.

Lemma s_rotation (m : M) p src tv : made_for R tw twi N' m p ->
  panics (BlindRotate O pr m src tv (BootstrappingKey ck) (DecompositionOffset ck) p).
Proof.
  intro Hp. pose proof (s_made m p Hp) as H0.
  exact (stale_rotate R tw twi N' pr (BootstrappingKey ck) (DecompositionOffset ck) s_levels Hn s_rows s_eight H0 Hne m src tv p (held_made R tw twi N' m p Hp)).
Qed.

Lemma s_pool (m : M) pool : Forall (made_for R tw twi N' m) pool -> exists N'', 0 <= N'' /\ g_N pr <> N'' /\ Forall (held R N'' m) pool.
Proof.
  intro Hp. destruct pool as [|p pool'].
  - exists (g_N pr + 1). destruct s_eight as (k & Hk & E). split; [lia|]. split; [lia|constructor].
  - exists N'. split; [inversion Hp as [|? ? Hx _]; exact (s_made m p Hx)|]. split; [exact Hne|]. eapply Forall_impl; [|exact Hp]. intro q. apply held_made.
Qed.

Lemma s_batch (m : M) pool srcs tv evs r : Forall (made_for R tw twi N' m) pool -> srcs <> [] -> from_pool evs ->
  BatchBlindRotate O pr m pool srcs tv (BootstrappingKey ck) (DecompositionOffset ck) evs = Some r -> panics r.
Proof.
  intros Hp Hs Hf E. destruct (s_pool m pool Hp) as (N2 & H0 & Hne2 & Hh).
  exact (stale_batch R tw twi N2 pr (BootstrappingKey ck) (DecompositionOffset ck) s_levels Hn s_rows s_eight H0 Hne2 m pool srcs tv evs r Hh Hs Hf E).
Qed.

Lemma s_gate (k : gkey O) (m : M) pool inputs evs r : gk_bsk k = BootstrappingKey ck -> Forall (made_for R tw twi N' m) pool -> inputs <> [] -> from_pool evs ->
  (forall g, batch_fun O pr g m pool inputs k evs = Some r -> panics r) /\ (BatchXNOR O pr m pool inputs k evs = Some r -> panics r).
Proof.
  intros Ek Hp Hi Hf. destruct (s_pool m pool Hp) as (N2 & H0 & Hne2 & Hh).
  assert (G: forall lin, batch_gate O pr lin m pool inputs k evs = Some r -> panics r).
  { intro lin. exact (stale_gate R tw twi N2 pr (BootstrappingKey ck) (gk_offset k) s_levels Hn s_rows s_eight H0 Hne2 lin m pool inputs k evs r Ek eq_refl Hh Hi Hf). }
  split; [intros []; apply G|apply G].
Qed.
End Top.

(** * The evaluator's functions compute the pure values of TrgswFacts/RotFacts *)
From Coq Require Import Lia ZifyBool Setoid Morphisms.
From Verif Require Import GoBase GoFacts GoMem MemFacts F64 Utils Params Tlwe TlweMem TlweFacts
  Poly PolyFacts NegFacts Laws Trlwe TrlweFacts Trgsw TrgswFacts RotFacts KeySwitchFacts Evaluator RunSpec.
Local Open Scope Z_scope.

Section Ev.
Context {O : fops} {N : Z} (L : flaws O N).
Notation M := (mem (FP O)).

(** every buffer keeps its size *)
Definition sh (m m' : M) : Prop :=
  (forall x, zlen (tm m' x) = zlen (tm m x)) /\ (forall x, fok L (fm m x) -> fok L (fm m' x)).

Definition step (T P I : Z -> Prop) (m m' : M) : Prop := framed T P I m m' /\ sh m m'.

Lemma sh_refl m : sh m m.
Proof. split; auto. Qed.
Lemma sh_trans m1 m2 m3 : sh m1 m2 -> sh m2 m3 -> sh m1 m3.
Proof. intros [a b] [c d]. split; auto. intro. rewrite c. apply a. Qed.
Lemma step_refl T P I m : step T P I m m.
Proof. split; [apply framed_refl|apply sh_refl]. Qed.
Lemma step_trans T P I m1 m2 m3 : step T P I m1 m2 -> step T P I m2 m3 -> step T P I m1 m3.
Proof. intros [a b] [c d]. split; [eapply framed_trans|eapply sh_trans]; eassumption. Qed.
Lemma step_weaken (T P I T' P' I' : Z -> Prop) m m' : step T P I m m' ->
  (forall l, T l -> T' l) -> (forall l, P l -> P' l) -> (forall l, I l -> I' l) -> step T' P' I' m m'.
Proof. intros [a b]. split; [|assumption]. eapply framed_weaken; eassumption. Qed.

Lemma step_t T P I m m' x : step T P I m m' -> ~ T x -> tm m' x = tm m x.
Proof. intros [a _]. apply (fr_t _ _ _ _ _ a). Qed.
Lemma step_f T P I m m' x : step T P I m m' -> ~ P x -> fm m' x = fm m x.
Proof. intros [a _]. apply (fr_f _ _ _ _ _ a). Qed.
Lemma step_i T P I m m' x : step T P I m m' -> ~ I x -> im m' x = im m x.
Proof. intros [a _]. apply (fr_i _ _ _ _ _ a). Qed.
Lemma step_len T P I m m' x : step T P I m m' -> zlen (tm m' x) = zlen (tm m x).
Proof. intros [_ b]. apply b. Qed.
Lemma step_fok T P I m m' x : step T P I m m' -> fok L (fm m x) -> fok L (fm m' x).
Proof. intros [_ b]. apply b. Qed.

(** single-buffer writes that keep the length *)
Lemma step_out (m m' : M) out : framed (eq out) none none m m' -> zlen (tm m' out) = zlen (tm m out) ->
  step (eq out) none none m m'.
Proof.
  intros H E. split; [assumption|]. split.
  - intro x. destruct (Z.eq_dec out x) as [<-|Hne]; [assumption|]. rewrite (fr_t _ _ _ _ _ H) by assumption. reflexivity.
  - intros x Hx. rewrite (fr_f _ _ _ _ _ H) by (intro G; exact G). assumption.
Qed.
Lemma step_tset (T P I : Z -> Prop) m l v : T l -> zlen v = zlen (tm m l) -> step T P I m (tset m l v).
Proof.
  intros. split; [apply framed_tset; assumption|]. split; [|auto]. intro x. destruct (Z.eq_dec x l) as [->|].
  - rewrite tm_tset. assumption. - rewrite tm_tset_ne by assumption. reflexivity.
Qed.
Lemma step_fset (T P I : Z -> Prop) m l v : P l -> fok L v -> step T P I m (fset m l v).
Proof.
  intros. split; [apply framed_fset; assumption|]. split; [auto|]. intros x Hx. destruct (Z.eq_dec x l) as [->|].
  - rewrite fm_fset. assumption. - rewrite fm_fset_ne by assumption. assumption.
Qed.
Lemma step_iset (T P I : Z -> Prop) m l v : I l -> step T P I m (iset m l v).
Proof. intros. split; [apply framed_iset; assumption|]. split; auto. Qed.
Lemma step_mcopy (T P I : Z -> Prop) m dst src : T dst -> step T P I m (mcopy m dst src).
Proof. intro. unfold mcopy. apply step_tset; [assumption|]. apply copy_slice_len. Qed.

(** ** pieces of the external product *)
Lemma DecomposePolyAssign_step (m : M) p bg level off out :
  1 <= bg -> 0 <= level -> zlen (tm m p) = N -> ~ blk out level p ->
  (forall i, 0 <= i < level -> zlen (tm m (out + i)) = N) ->
  exists m', DecomposePolyAssign m p bg level off out = Ok m' /\
    (forall i, 0 <= i < level -> tm m' (out + i) = decp N bg off (tm m p) i) /\
    step (blk out level) none none m m'.
Proof.
  intros H1 H2 H3 H4 H5. destruct (DecomposePolyAssign_ok m N p bg level off out H1 H2 H3 H4 H5) as (m' & E & Hv & Hf).
  pose proof (law_N L). exists m'. split; [exact E|]. split; [exact Hv|]. split; [exact Hf|]. split.
  - intro x. destruct (Z_le_dec out x) as [Hle|Hle]; [destruct (Z_lt_dec x (out + level)) as [Hlt|Hlt]|].
    + replace x with (out + (x - out)) by lia. rewrite Hv, H5 by lia. apply zlen_tab. lia.
    + rewrite (fr_t _ _ _ _ _ Hf) by (unfold blk; lia). reflexivity.
    + rewrite (fr_t _ _ _ _ _ Hf) by (unfold blk; lia). reflexivity.
  - intros x Hx. rewrite (fr_f _ _ _ _ _ Hf) by (intro G; exact G). assumption.
Qed.

Lemma four_fill (m : M) K src dst (body : Z -> M -> res M) : 0 <= K ->
  (forall i m', 0 <= i < K -> body i m' = ToFourierPolyAssign O m' (src + i) (dst + i)) ->
  (forall i, 0 <= i < K -> zlen (tm m (src + i)) = N) -> (forall i, 0 <= i < K -> fok L (fm m (dst + i))) ->
  exists m', for_range 0 K body m = Ok m' /\
    (forall i, 0 <= i < K -> fm m' (dst + i) = Fof L (tm m (src + i))) /\
    step none (blk dst K) none m m'.
Proof.
  intros HK Hb Hs Hd. for_inv (fun k m' => step none (blk dst K) none m m' /\
      (forall i, 0 <= i < k -> fm m' (dst + i) = Fof L (tm m (src + i)))) E HI.
  - assumption.
  - split; [apply step_refl|intros; lia].
  - intros k m1 Hk (Hst & HI). rewrite Hb by assumption. unfold ToFourierPolyAssign.
    rewrite (step_t _ _ _ _ _ _ Hst) by (intro G; exact G).
    rewrite (law_of L) by (try apply Hs; try (apply (step_fok _ _ _ _ _ _ Hst), Hd); assumption). cbn [bind].
    eexists; split; [reflexivity|]. split.
    + eapply step_trans; [exact Hst|]. apply step_fset; [unfold blk; lia|]. apply (law_of_ok L), Hs. assumption.
    + intros i Hi. destruct (Z.eq_dec i k) as [->|Hne]; [rewrite fm_fset; reflexivity|].
      rewrite fm_fset_ne by lia. apply HI. lia.
  - destruct HI. exists st. auto.
Qed.

Lemma ClearBuffer_ok (m : M) f : fok L (fm m f) ->
  ClearBuffer O m f = Ok (fset m f (Fzero L)).
Proof. intro H. unfold ClearBuffer. rewrite (law_clear L) by assumption. reflexivity. Qed.

Lemma Fsum_S K d r : 0 <= K -> Fsum L (K + 1) d r = Fma L (d K) (r K) (Fsum L K d r).
Proof.
  intro. unfold Fsum. replace (Z.to_nat (K + 1)) with (S (Z.to_nat K)) by lia. cbn [Fsum_nat].
  rewrite Z2Nat.id by lia. reflexivity.
Qed.

(** the multiply-add loop *)
Lemma ma_fill (m : M) l src fA fB g (d : Z -> list Z) (body : Z -> M -> res M) : 0 <= l ->
  gkey_ok L l g ->
  (forall i m', 0 <= i < 2 * l -> body i m' =
     (row <- get g i ;; m <- MulAddFourierPolyAssign O m' (src + i) (fst row) fA ;;
      MulAddFourierPolyAssign O m (src + i) (snd row) fB)) ->
  (forall i, 0 <= i < 2 * l -> fm m (src + i) = Fof L (d i) /\ zlen (d i) = N) ->
  fm m fA = Fzero L -> fm m fB = Fzero L -> fA <> fB -> ~ blk src (2 * l) fA -> ~ blk src (2 * l) fB ->
  exists m', for_range 0 (2 * l) body m = Ok m' /\
    fm m' fA = Fsum L (2 * l) (fun i => Fof L (d i)) (fun i => fst (grow L g i)) /\
    fm m' fB = Fsum L (2 * l) (fun i => Fof L (d i)) (fun i => snd (grow L g i)) /\
    step none (fun x => x = fA \/ x = fB) none m m'.
Proof.
  intros Hl [Hg1 Hg2] Hb Hd HA HB Hne NA NB. unfold blk in *.
  assert (Hok: forall f k, 0 <= k <= 2 * l -> (forall i, 0 <= i < 2 * l -> fok L (f i)) ->
     fok L (Fsum L k (fun i => Fof L (d i)) f)).
  { intros f k Hk Hf. apply Fsum_fok; [lia|]. intros i Hi. split; [apply (law_of_ok L), Hd; lia|apply Hf; lia]. }
  assert (HokA := fun k Hk => Hok (fun i => fst (grow L g i)) k Hk (fun i Hi => proj1 (Hg2 i Hi))).
  assert (HokB := fun k Hk => Hok (fun i => snd (grow L g i)) k Hk (fun i Hi => proj2 (Hg2 i Hi))).
  for_inv (fun k m' => step none (fun x => x = fA \/ x = fB) none m m' /\
    fm m' fA = Fsum L k (fun i => Fof L (d i)) (fun i => fst (grow L g i)) /\
    fm m' fB = Fsum L k (fun i => Fof L (d i)) (fun i => snd (grow L g i))) E HI.
  - lia.
  - split; [apply step_refl|]. split; assumption.
  - intros k m1 Hk (Hst & IA & IB). rewrite Hb by assumption.
    rewrite (get_ok (Fzero L, Fzero L)) by lia. fold (grow L g k). cbn [bind].
    destruct (Hg2 k Hk) as [G1 G2]. destruct (Hd k Hk) as [D1 D2].
    assert (E0: fm m1 (src + k) = Fof L (d k)) by (rewrite (step_f _ _ _ _ _ _ Hst) by lia; exact D1).
    assert (F0: fok L (Fof L (d k))) by (apply (law_of_ok L); assumption).
    unfold MulAddFourierPolyAssign. rewrite E0, IA.
    rewrite (law_ma L) by (assumption || (apply HokA; lia)). cbn [bind].
    rewrite (fm_fset_ne _ fA _ fB) by congruence. rewrite fm_fset_ne by lia. rewrite E0, IB.
    rewrite (law_ma L) by (assumption || (apply HokB; lia)). cbn [bind].
    eexists; split; [reflexivity|]. split; [|split].
    + eapply step_trans; [exact Hst|]. eapply step_trans; apply step_fset; auto;
        apply (law_ma_ok L); auto; try (apply HokA; lia); apply HokB; lia.
    + rewrite fm_fset_ne, fm_fset by assumption. rewrite Fsum_S by lia. reflexivity.
    + rewrite fm_fset, Fsum_S by lia. reflexivity.
  - destruct HI as (Hst & IA & IB). exists st. auto.
Qed.

Lemma ToPolyAssignUnsafe_ok (m : M) f p : fok L (fm m f) -> zlen (tm m p) = N ->
  exists m', ToPolyAssignUnsafe O m f p = Ok m' /\ tm m' p = Fto L (fm m f) /\
    step (eq p) (eq f) none m m'.
Proof.
  intros Hf Hp. unfold ToPolyAssignUnsafe. destruct (law_to L _ _ Hf Hp) as (x' & E & Hx). rewrite E. cbn [bind].
  eexists; split; [reflexivity|]. split; [apply tm_tset|].
  eapply step_trans; [apply step_fset|apply step_tset]; try reflexivity; try assumption.
  cbn [fset tm]. rewrite Hp. apply (law_to_len L). assumption.
Qed.

(** ** well-formed evaluators *)
Context (pr : pset) (W : pwf pr N).
Notation l := (g_L pr).
Notation bg := (g_BGBIT pr).
Notation n := (lv0_N pr).

Record ev_ok (m : M) (e : evaluator) : Prop := {
  eo_deg : pe_deg (ev_pe e) = N;
  eo_t0 : 0 <= pe_t (ev_pe e);
  eo_t1 : pe_t (ev_pe e) + 24 <= dc_t (ev_dec e);
  eo_t2 : dc_t (ev_dec e) + dc_levels (ev_dec e) <= bp_t (ev_bp e);
  eo_t3 : bp_t (ev_bp e) + 17 <= tnext m;
  eo_f0 : 0 <= pe_f (ev_pe e);
  eo_f1 : pe_f (ev_pe e) + 15 <= dc_f (ev_dec e);
  eo_f2 : dc_f (ev_dec e) + dc_levels (ev_dec e) <= bp_f (ev_bp e);
  eo_f3 : bp_f (ev_bp e) + 2 <= fnext m;
  eo_i0 : 0 <= pe_i (ev_pe e);
  eo_i1 : pe_i (ev_pe e) + 2 <= bp_i (ev_bp e);
  eo_i2 : bp_i (ev_bp e) + 1 <= inext m;
  eo_lv : 2 * l <= dc_levels (ev_dec e);
  eo_pt : forall x, blk (pe_t (ev_pe e)) 24 x -> zlen (tm m x) = N;
  eo_dt : forall x, blk (dc_t (ev_dec e)) (dc_levels (ev_dec e)) x -> zlen (tm m x) = N;
  eo_bt : forall x, blk (bp_t (ev_bp e)) 10 x -> zlen (tm m x) = N;
  eo_b10 : zlen (tm m (bp_t (ev_bp e) + 10)) = N + 1;
  eo_b11 : forall x, blk (bp_t (ev_bp e) + 11) 6 x -> zlen (tm m x) = n + 1;
  eo_pf : forall x, blk (pe_f (ev_pe e)) 15 x -> fok L (fm m x);
  eo_df : forall x, blk (dc_f (ev_dec e)) (dc_levels (ev_dec e)) x -> fok L (fm m x);
  eo_bf : forall x, blk (bp_f (ev_bp e)) 2 x -> fok L (fm m x);
  eo_pi0 : 0 <= im m (pe_i (ev_pe e)) < 4;
  eo_pi1 : 0 <= im m (pe_i (ev_pe e) + 1) < 4;
  eo_bi : 0 <= im m (bp_i (ev_bp e)) < 4
}.

Lemma ev_ok_step T P (I : Z -> Prop) m m' e : step T P I m m' -> ev_ok m e ->
  (forall x, I x -> blk (pe_i (ev_pe e)) 2 x \/ x = bp_i (ev_bp e) -> 0 <= im m' x < 4) ->
  ev_ok m' e.
Proof.
  intros [Hf [S1 S2]] H HI. destruct H. destruct (fr_n _ _ _ _ _ Hf) as (n1 & n2 & n3).
  (* ints: decide membership by the value staying the same or by HI *)
  assert (HK: forall x, blk (pe_i (ev_pe e)) 2 x \/ x = bp_i (ev_bp e) -> 0 <= im m x < 4 ->
     ~ ~ (0 <= im m' x < 4)).
  { intros x Hx Hr Hn. assert (~ I x) by (intro G; apply Hn, HI; assumption).
    apply Hn. rewrite (fr_i _ _ _ _ _ Hf) by assumption. assumption. }
  assert (HD: forall x, ~ ~ (0 <= im m' x < 4) -> 0 <= im m' x < 4) by (intros; lia).
  constructor; try assumption; try lia; try (intros; rewrite S1; auto; fail); try (intros; apply S2; auto; fail).
  - apply HD, HK; [left; unfold blk; lia|assumption].
  - apply HD, HK; [left; unfold blk; lia|assumption].
  - apply HD, HK; [right; reflexivity|assumption].
Qed.

Lemma ev_ok_step0 T P m m' e : step T P none m m' -> ev_ok m e -> ev_ok m' e.
Proof. intros H He. eapply ev_ok_step; [exact H|exact He|]. intros x []. Qed.

Definition dcb (e : evaluator) : Z -> Prop := blk (dc_t (ev_dec e)) (dc_levels (ev_dec e)).
(** Fourier scratch *)
Definition fscr (e : evaluator) (x : Z) : Prop :=
  blk (dc_f (ev_dec e)) (dc_levels (ev_dec e)) x \/ blk (bp_f (ev_bp e)) 2 x.

(** torus scratch of the external product, CMUX, blind rotation, bootstrap:
    the decomposer and the first k buffers of the pool *)
Definition scr (e : evaluator) (k : Z) (x : Z) : Prop := dcb e x \/ blk (bp_t (ev_bp e)) k x.

Definition at_ (m : M) (r : tref) (c : trlwe) : Prop := tm m (rA r) = tA c /\ tm m (rB r) = tB c.

Lemma ExternalProductAssign_ok m e g c ctIn off ctOut :
  ev_ok m e -> gkey_ok L l g -> at_ m ctIn c -> ct_ok N c ->
  ~ dcb e (rA ctIn) -> ~ dcb e (rB ctIn) ->
  zlen (tm m (rA ctOut)) = N -> zlen (tm m (rB ctOut)) = N -> rA ctOut <> rB ctOut ->
  exists m', ExternalProductAssign O pr m e g ctIn off ctOut = Ok m' /\
    at_ m' ctOut (epp L bg l off g c) /\
    step (fun x => dcb e x \/ x = rA ctOut \/ x = rB ctOut) (fscr e) none m m'.
Proof.
  intros He Hg [EA EB] [[HA _] [HB _]] NA NB OA OB Hne. unfold dcb, blk in NA, NB.
  unfold ExternalProductAssign.
  pose proof (pw_bg _ _ W). pose proof (pw_l _ _ W).
  pose proof (eo_lv _ _ He) as Hlv. pose proof (eo_t2 _ _ He). pose proof (eo_f2 _ _ He).
  unfold GetPolyDecomposedBuffer, GetPolyFourierDecomposedBuffer.
  destruct (Z.ltb_spec (dc_levels (ev_dec e)) (l * 2)) as [|_]; [lia|].
  destruct (Z.ltb_spec (l * 2) 0) as [|_]; [lia|]. cbn [bind].
  set (dt := dc_t (ev_dec e)) in *. set (df := dc_f (ev_dec e)) in *. set (lv := dc_levels (ev_dec e)) in *.
  assert (D: forall i, 0 <= i < 2 * l -> zlen (tm m (dt + i)) = N) by (intros; apply (eo_dt _ _ He); unfold blk; fold dt lv; lia).
  (* decompose A *)
  destruct (DecomposePolyAssign_step m (rA ctIn) bg l off dt) as (m1 & E1 & V1 & S1);
    [lia|lia|congruence|unfold blk; lia|intros; apply D; lia|].
  rewrite E1. cbn [bind].
  destruct (DecomposePolyAssign_step m1 (rB ctIn) bg l off (dt + l)) as (m2 & E2 & V2 & S2);
    [lia|lia|rewrite (step_len _ _ _ _ _ _ S1); congruence|unfold blk; lia
    |intros; rewrite (step_len _ _ _ _ _ _ S1), <- Z.add_assoc; apply D; lia|].
  rewrite E2. cbn [bind].
  assert (V: forall i, 0 <= i < 2 * l -> tm m2 (dt + i) = dvec (N := N) bg l off c i).
  { intros i Hi. unfold dvec. destruct (Z.ltb_spec i l).
    - rewrite (step_t _ _ _ _ _ _ S2) by (unfold blk; lia). rewrite V1 by lia. rewrite EA. reflexivity.
    - replace (dt + i) with (dt + l + (i - l)) by lia. rewrite V2 by lia.
      rewrite (step_t _ _ _ _ _ _ S1) by (unfold blk; lia). rewrite EB. reflexivity. }
  assert (S12: step (fun x => blk dt lv x \/ x = rA ctOut \/ x = rB ctOut) (fscr e) none m m2).
  { eapply step_trans; [eapply step_weaken; [exact S1|..]|eapply step_weaken; [exact S2|..]];
      try (intros x []; fail); unfold blk; intros; lia. }
  (* transforms *)
  replace (l * 2) with (2 * l) by lia.
  destruct (four_fill m2 (2 * l) dt df
     (fun i m => ToFourierPolyAssign O m (dt + i) (df + i))) as (m3 & E3 & V3 & S3); [lia|reflexivity| | |].
  { intros; rewrite (step_len _ _ _ _ _ _ S12); apply D; assumption. }
  { intros; apply (step_fok _ _ _ _ _ _ S12), (eo_df _ _ He); unfold blk; fold df lv; lia. }
  rewrite E3. cbn [bind].
  assert (S13: step (fun x => blk dt lv x \/ x = rA ctOut \/ x = rB ctOut) (fscr e) none m m3).
  { eapply step_trans; [exact S12|eapply step_weaken; [exact S3|..]]; try (intros x []; fail).
    unfold fscr, blk; fold df lv. intros; lia. }
  set (fA := bp_FourierA (ev_bp e)). set (fB := bp_FourierB (ev_bp e)).
  assert (F3A: fok L (fm m3 fA)) by (apply (step_fok _ _ _ _ _ _ S13), (eo_bf _ _ He); unfold blk, fA, bp_FourierA; lia).
  assert (F3B: fok L (fm m3 fB)) by (apply (step_fok _ _ _ _ _ _ S13), (eo_bf _ _ He); unfold blk, fB, bp_FourierB; lia).
  rewrite ClearBuffer_ok by assumption. cbn [bind].
  assert (HAB: fA <> fB) by (unfold fA, fB, bp_FourierA, bp_FourierB; lia).
  rewrite ClearBuffer_ok by (rewrite fm_fset_ne by congruence; assumption). cbn [bind].
  set (m4 := fset (fset m3 fA (Fzero L)) fB (Fzero L)).
  assert (S14: step (fun x => blk dt lv x \/ x = rA ctOut \/ x = rB ctOut) (fscr e) none m m4).
  { eapply step_trans; [exact S13|]. unfold m4. eapply step_trans; apply step_fset; try apply (law_zero L);
      unfold fscr, blk, fA, fB, bp_FourierA, bp_FourierB; lia. }
  destruct (ma_fill m4 l df fA fB g (dvec (N := N) bg l off c)
    (fun i m => row <- get g i ;;
         m <- MulAddFourierPolyAssign O m (df + i) (fst row) fA ;;
         MulAddFourierPolyAssign O m (df + i) (snd row) fB)) as (m5 & E5 & VA & VB & S5); try assumption; try lia.
  { intros; reflexivity. }
  { intros i Hi. split; [|apply (zlen_dvec L)]. unfold m4.
    rewrite !fm_fset_ne by (unfold fA, fB, bp_FourierA, bp_FourierB; lia). rewrite V3, V by assumption. reflexivity. }
  { unfold m4. rewrite fm_fset_ne by congruence. apply fm_fset. }
  { unfold m4. apply fm_fset. }
  { unfold blk, fA, bp_FourierA. lia. }
  { unfold blk, fB, bp_FourierB. lia. }
  rewrite E5. cbn [bind].
  assert (S15: step (fun x => blk dt lv x \/ x = rA ctOut \/ x = rB ctOut) (fscr e) none m m5).
  { eapply step_trans; [exact S14|eapply step_weaken; [exact S5|..]]; try (intros x []; fail).
    unfold fscr, blk, fA, fB, bp_FourierA, bp_FourierB. intros; lia. }
  assert (F5: forall x, fok L (fm m x) -> fok L (fm m5 x)) by (intros; apply (step_fok _ _ _ _ _ _ S15); assumption).
  destruct (ToPolyAssignUnsafe_ok m5 fA (rA ctOut)) as (m6 & E6 & V6 & S6).
  { apply F5, (eo_bf _ _ He). unfold blk, fA, bp_FourierA. lia. }
  { rewrite (step_len _ _ _ _ _ _ S15). assumption. }
  rewrite E6. cbn [bind].
  destruct (ToPolyAssignUnsafe_ok m6 fB (rB ctOut)) as (m7 & E7 & V7 & S7).
  { apply (step_fok _ _ _ _ _ _ S6), F5, (eo_bf _ _ He). unfold blk, fB, bp_FourierB. lia. }
  { rewrite (step_len _ _ _ _ _ _ S6), (step_len _ _ _ _ _ _ S15). assumption. }
  rewrite E7. exists m7. split; [reflexivity|]. split.
  - split.
    + rewrite (step_t _ _ _ _ _ _ S7) by congruence. rewrite V6, VA. reflexivity.
    + rewrite V7. rewrite (step_f _ _ _ _ _ _ S6) by congruence. rewrite VB. reflexivity.
  - unfold dcb. fold dt lv. eapply step_trans; [exact S15|].
    eapply step_trans; [eapply step_weaken; [exact S6|..]|eapply step_weaken; [exact S7|..]];
      try (intros x []; fail); unfold fscr, blk, fA, fB, bp_FourierA, bp_FourierB; intros; lia.
Qed.

(** two interleaved fills of distinct buffers *)
Lemma fill2 (m : M) oA oB (f g : Z -> M -> res Z) (vA vB : Z -> Z) (body : Z -> M -> res M) :
  zlen (tm m oA) = N -> zlen (tm m oB) = N -> oA <> oB ->
  (forall i m', body i m' = (m <- (v <- f i m' ;; store m' oA i v) ;; v <- g i m ;; store m oB i v)) ->
  (forall i m', 0 <= i < N -> step (fun x => x = oA \/ x = oB) none none m m' ->
     (forall j, i <= j < N -> zn (tm m' oA) j = zn (tm m oA) j) ->
     (forall j, i <= j < N -> zn (tm m' oB) j = zn (tm m oB) j) -> f i m' = Ok (vA i)) ->
  (forall i m', 0 <= i < N -> step (fun x => x = oA \/ x = oB) none none m m' ->
     (forall j, i + 1 <= j < N -> zn (tm m' oA) j = zn (tm m oA) j) ->
     (forall j, i <= j < N -> zn (tm m' oB) j = zn (tm m oB) j) -> g i m' = Ok (vB i)) ->
  exists m', for_range 0 N body m = Ok m' /\ tm m' oA = tab N vA /\ tm m' oB = tab N vB /\
    step (fun x => x = oA \/ x = oB) none none m m'.
Proof.
  intros LA LB Hne Hb Hf Hg. pose proof (law_N L) as H16.
  for_inv (fun k m' => step (fun x => x = oA \/ x = oB) none none m m' /\
     (forall j, 0 <= j < N -> zn (tm m' oA) j = if j <? k then vA j else zn (tm m oA) j) /\
     (forall j, 0 <= j < N -> zn (tm m' oB) j = if j <? k then vB j else zn (tm m oB) j)) E HI.
  - lia.
  - split; [apply step_refl|]. split; intros j Hj; destruct (Z.ltb_spec j 0); lia || reflexivity.
  - intros k m1 Hk (Hst & IA & IB). rewrite Hb. rewrite Hf; [cbn [bind]|assumption|assumption| |].
    2: { intros j Hj. rewrite IA by lia. destruct (Z.ltb_spec j k); [lia|reflexivity]. }
    2: { intros j Hj. rewrite IB by lia. destruct (Z.ltb_spec j k); [lia|reflexivity]. }
    rewrite store_ok by (rewrite (step_len _ _ _ _ _ _ Hst); lia). cbn [bind].
    set (m2 := tset m1 oA (upd (tm m1 oA) k (vA k))).
    assert (S2: step (fun x => x = oA \/ x = oB) none none m m2).
    { eapply step_trans; [exact Hst|]. apply step_tset; [auto|apply zlen_upd]. }
    assert (A2: forall j, 0 <= j < N -> zn (tm m2 oA) j = if j <? k + 1 then vA j else zn (tm m oA) j).
    { intros j Hj. unfold m2. rewrite tm_tset, zn_upd by (rewrite ?(step_len _ _ _ _ _ _ Hst); lia).
      rewrite IA by assumption.
      destruct (Z.eqb_spec j k), (Z.ltb_spec j k), (Z.ltb_spec j (k + 1)); subst; try lia; reflexivity. }
    assert (B2: tm m2 oB = tm m1 oB) by (unfold m2; apply tm_tset_ne; congruence).
    rewrite Hg; [cbn [bind]|assumption|assumption| |].
    2: { intros j Hj. rewrite A2 by lia. destruct (Z.ltb_spec j (k + 1)); [lia|reflexivity]. }
    2: { intros j Hj. rewrite B2, IB by lia. destruct (Z.ltb_spec j k); [lia|reflexivity]. }
    rewrite store_ok by (rewrite (step_len _ _ _ _ _ _ S2); lia).
    eexists; split; [reflexivity|]. split; [|split].
    + eapply step_trans; [exact S2|]. apply step_tset; [auto|apply zlen_upd].
    + intros j Hj. rewrite tm_tset_ne by congruence. apply A2. assumption.
    + intros j Hj. rewrite tm_tset, zn_upd by (rewrite ?(step_len _ _ _ _ _ _ S2); lia).
      rewrite B2, IB by assumption.
      destruct (Z.eqb_spec j k), (Z.ltb_spec j k), (Z.ltb_spec j (k + 1)); subst; try lia; reflexivity.
  - destruct HI as (Hst & IA & IB). exists st. split; [reflexivity|]. split; [|split; [|exact Hst]].
    + apply (eq_tab 0); [rewrite (step_len _ _ _ _ _ _ Hst); assumption|]. intros j Hj.
      change (znd 0 (tm st oA) j) with (zn (tm st oA) j). rewrite IA by assumption. destruct (Z.ltb_spec j N); [reflexivity|lia].
    + apply (eq_tab 0); [rewrite (step_len _ _ _ _ _ _ Hst); assumption|]. intros j Hj.
      change (znd 0 (tm st oB) j) with (zn (tm st oB) j). rewrite IB by assumption. destruct (Z.ltb_spec j N); [reflexivity|lia].
Qed.

Lemma load_at (m : M) x a i : tm m x = a -> 0 <= i < zlen a -> load m x i = Ok (zn a i).
Proof. intros <- H. apply load_ok. assumption. Qed.

Lemma scr_dcb e k x : ~ scr e k x -> ~ dcb e x.
Proof. unfold scr. tauto. Qed.
Lemma scr_bt e k x j : ~ scr e k x -> 0 <= j < k -> x <> bp_t (ev_bp e) + j.
Proof. unfold scr, blk. intros H Hj ->. apply H. right. lia. Qed.
Lemma scr_bt0 e k x : ~ scr e k x -> 0 < k -> x <> bp_t (ev_bp e).
Proof. unfold scr, blk. intros H Hj ->. apply H. right. lia. Qed.
Lemma scr_mono e k k' x : ~ scr e k x -> k' <= k -> ~ scr e k' x.
Proof. unfold scr, blk. intros H Hj [G|G]; apply H; [left; assumption|right; lia]. Qed.

(** ctOut may be ct0 *)
Definition apart (r o : tref) : Prop := rA r <> rA o /\ rA r <> rB o /\ rB r <> rA o /\ rB r <> rB o.
Definition outside (S : Z -> Prop) (r : tref) : Prop := ~ S (rA r) /\ ~ S (rB r).

Ltac nin := let G := fresh in intro G; repeat (destruct G as [G|G]);
  first [contradiction | congruence
        | revert G; first [assumption | apply not_eq_sym; assumption
           | (eapply scr_bt; [eassumption|split; [discriminate|reflexivity]]) | (eapply scr_bt0; [eassumption|reflexivity])
           | (apply not_eq_sym; eapply scr_bt; [eassumption|split; [discriminate|reflexivity]])
           | (apply not_eq_sym; eapply scr_bt0; [eassumption|reflexivity])
           | (eapply scr_dcb; eassumption)] ].

Lemma CMuxAssign_ok m e g c0 c1 ct0 ct1 off ctOut :
  ev_ok m e -> gkey_ok L l g -> at_ m ct0 c0 -> at_ m ct1 c1 -> ct_ok N c0 -> ct_ok N c1 ->
  outside (scr e 4) ct0 -> outside (scr e 4) ct1 -> outside (scr e 4) ctOut ->
  zlen (tm m (rA ctOut)) = N -> zlen (tm m (rB ctOut)) = N -> rA ctOut <> rB ctOut ->
  (ct0 = ctOut \/ apart ct0 ctOut) -> apart ct1 ctOut ->
  exists m', CMuxAssign O pr m e g ct0 ct1 off ctOut = Ok m' /\
    at_ m' ctOut (cmuxp L bg l off g c0 c1) /\
    step (fun x => scr e 4 x \/ x = rA ctOut \/ x = rB ctOut) (fscr e) none m m'.
Proof.
  intros He Hg [A0 B0] [A1 B1] [[LA0 _] [LB0 _]] [[LA1 _] [LB1 _]] [NA0 NB0] [NA1 NB1] [NAo NBo] LAo LBo Hne H0 (H1 & H2 & H3 & H4).
  pose proof (law_N L) as H16.
  unfold CMuxAssign. rewrite (pw_gN _ _ W). cbn [bp_Temp bp_Result rA rB].
  set (oA := rA ctOut) in *. set (oB := rB ctOut) in *.
  assert (HC: exists m2, mcopy (mcopy m oA (rA ct0)) oB (rB ct0) = m2 /\ at_ m2 ctOut c0 /\ at_ m2 ct0 c0 /\
     step (fun x => x = oA \/ x = oB) none none m m2).
  { eexists; split; [reflexivity|]. set (m1 := mcopy m oA (rA ct0)). set (m2 := mcopy m1 oB (rB ct0)).
    assert (S1: step (fun x => x = oA \/ x = oB) none none m m1) by (apply step_mcopy; auto).
    assert (S2: step (fun x => x = oA \/ x = oB) none none m m2).
    { eapply step_trans; [exact S1|]. apply step_mcopy; auto. }
    assert (VA1: tm m1 oA = tA c0).
    { unfold m1. rewrite mcopy_same by (rewrite A0; congruence). exact A0. }
    assert (VB0: tm m1 (rB ct0) = tB c0).
    { destruct H0 as [E0|(G1 & G2 & G3 & G4)].
      - unfold m1, mcopy. rewrite tm_tset_ne; [exact B0|]. rewrite E0. apply not_eq_sym. exact Hne.
      - rewrite (step_t _ _ _ _ _ _ S1); [exact B0|]. intros [G|G]; contradiction. }
    assert (VB2: tm m2 oB = tB c0).
    { unfold m2. rewrite mcopy_same; [exact VB0|]. rewrite VB0, (step_len _ _ _ _ _ _ S1). congruence. }
    assert (VA2: tm m2 oA = tA c0) by (unfold m2, mcopy; rewrite tm_tset_ne by congruence; exact VA1).
    split; [split; assumption|]. split; [|exact S2].
    destruct H0 as [E0|(G1 & G2 & G3 & G4)]; [rewrite E0; split; assumption|].
    split; (rewrite (step_t _ _ _ _ _ _ S2); [assumption|]); intros [G|G]; contradiction. }
  destruct HC as (m2 & -> & [VA2 VB2] & [A0' B0'] & S2). fold oA in VA2. fold oB in VB2.
  assert (A1': tm m2 (rA ct1) = tA c1) by (rewrite (step_t _ _ _ _ _ _ S2); [assumption|nin]).
  assert (B1': tm m2 (rB ct1) = tB c1) by (rewrite (step_t _ _ _ _ _ _ S2); [assumption|nin]).
  clear H0 H1 H2 H3 H4 A0 B0 A1 B1.
  assert (LT: forall x, blk (bp_t (ev_bp e)) 4 x -> zlen (tm m2 x) = N).
  { intros x Hx. rewrite (step_len _ _ _ _ _ _ S2). apply (eo_bt _ _ He). unfold blk in *. lia. }
  destruct (fill2 m2 (bp_t (ev_bp e) + 2) (bp_t (ev_bp e) + 3)
     (fun i m => x <- load m (rA ct1) i ;; y <- load m (rA ct0) i ;; Ok (tsub x y))
     (fun i m => x <- load m (rB ct1) i ;; y <- load m (rB ct0) i ;; Ok (tsub x y))
     (fun i => tsub (zn (tA c1) i) (zn (tA c0) i)) (fun i => tsub (zn (tB c1) i) (zn (tB c0) i))
     (fun i m => m <- (x <- load m (rA ct1) i ;; y <- load m (rA ct0) i ;; store m (bp_t (ev_bp e) + 2) i (tsub x y)) ;;
         x <- load m (rB ct1) i ;; y <- load m (rB ct0) i ;; store m (bp_t (ev_bp e) + 3) i (tsub x y)))
    as (m3 & E3 & TA & TB & S3).
  { apply LT; unfold blk; lia. } { apply LT; unfold blk; lia. } { lia. }
  { intros i m'. destruct (load m' (rA ct1) i); cbn [bind]; [|reflexivity].
    destruct (load m' (rA ct0) i); cbn [bind]; [|reflexivity].
    destruct (store m' (bp_t (ev_bp e) + 2) i _) as [m''|]; cbn [bind]; [|reflexivity].
    destruct (load m'' (rB ct1) i); cbn [bind]; [|reflexivity]. destruct (load m'' (rB ct0) i); reflexivity. }
  { intros i m' Hi Hst _ _. rewrite (load_at m' _ (tA c1)) by (lia || (rewrite (step_t _ _ _ _ _ _ Hst); [assumption|nin])).
    cbn [bind]. rewrite (load_at m' _ (tA c0)) by (lia || (rewrite (step_t _ _ _ _ _ _ Hst); [assumption|nin])). reflexivity. }
  { intros i m' Hi Hst _ _. rewrite (load_at m' _ (tB c1)) by (lia || (rewrite (step_t _ _ _ _ _ _ Hst); [assumption|nin])).
    cbn [bind]. rewrite (load_at m' _ (tB c0)) by (lia || (rewrite (step_t _ _ _ _ _ _ Hst); [assumption|nin])). reflexivity. }
  rewrite E3. cbn [bind].
  assert (He3: ev_ok m3 e).
  { eapply ev_ok_step0; [exact S3|]. eapply ev_ok_step0; [exact S2|exact He]. }
  pose proof (eo_t2 _ _ He) as Ht2. pose proof (eo_lv _ _ He) as Hlv. pose proof (pw_l _ _ W) as Hl.
  destruct (ExternalProductAssign_ok m3 e g (csub N c1 c0) (bp_Temp (ev_bp e)) off (bp_Result (ev_bp e)))
    as (m4 & E4 & [RA RB] & S4); try assumption.
  { split; assumption. }
  { apply csub_ok. lia. }
  { unfold dcb, blk. cbn [bp_Temp rA]. lia. }
  { unfold dcb, blk. cbn [bp_Temp rB]. lia. }
  { cbn [bp_Result rA]. rewrite (step_len _ _ _ _ _ _ S3). apply LT. unfold blk. lia. }
  { cbn [bp_Result rB]. rewrite (step_len _ _ _ _ _ _ S3). apply LT. unfold blk. lia. }
  { cbn [bp_Result rA rB]. lia. }
  cbn [bp_Temp bp_Result] in E4. rewrite E4. cbn [bind].
  cbn [bp_Result rA rB] in RA, RB, S4.
  assert (epok: ct_ok N (epp L bg l off g (csub N c1 c0))) by (apply epp_ok; [lia|assumption]).
  destruct epok as [[LRA _] [LRB _]].
  assert (OA4: tm m4 oA = tA c0).
  { rewrite (step_t _ _ _ _ _ _ S4) by nin. rewrite (step_t _ _ _ _ _ _ S3) by nin. exact VA2. }
  assert (OB4: tm m4 oB = tB c0).
  { rewrite (step_t _ _ _ _ _ _ S4) by nin. rewrite (step_t _ _ _ _ _ _ S3) by nin. exact VB2. }
  set (ep := epp L bg l off g (csub N c1 c0)) in *.
  destruct (fill2 m4 oA oB
     (fun i m => x <- load m oA i ;; y <- load m (bp_t (ev_bp e)) i ;; Ok (tadd x y))
     (fun i m => x <- load m oB i ;; y <- load m (bp_t (ev_bp e) + 1) i ;; Ok (tadd x y))
     (fun i => tadd (zn (tA c0) i) (zn (tA ep) i))
     (fun i => tadd (zn (tB c0) i) (zn (tB ep) i))
     (fun i m => m <- (x <- load m oA i ;; y <- load m (bp_t (ev_bp e)) i ;; store m oA i (tadd x y)) ;;
         x <- load m oB i ;; y <- load m (bp_t (ev_bp e) + 1) i ;; store m oB i (tadd x y)))
    as (m5 & E5 & FA & FB & S5).
  { rewrite OA4. assumption. } { rewrite OB4. assumption. } { assumption. }
  { intros i m'. destruct (load m' oA i); cbn [bind]; [|reflexivity].
    destruct (load m' (bp_t (ev_bp e)) i); cbn [bind]; [|reflexivity].
    destruct (store m' oA i _) as [m''|]; cbn [bind]; [|reflexivity].
    destruct (load m'' oB i); cbn [bind]; [|reflexivity]. destruct (load m'' (bp_t (ev_bp e) + 1) i); reflexivity. }
  { intros i m' Hi Hst ZA _.
    rewrite load_ok by (rewrite (step_len _ _ _ _ _ _ Hst), OA4; lia). cbn [bind]. rewrite ZA by lia. rewrite OA4.
    rewrite (load_at m' _ (tA ep)) by (lia || (rewrite (step_t _ _ _ _ _ _ Hst); [assumption|nin])). reflexivity. }
  { intros i m' Hi Hst _ ZB.
    rewrite load_ok by (rewrite (step_len _ _ _ _ _ _ Hst), OB4; lia). cbn [bind]. rewrite ZB by lia. rewrite OB4.
    rewrite (load_at m' _ (tB ep)) by (lia || (rewrite (step_t _ _ _ _ _ _ Hst); [assumption|nin])). reflexivity. }
  rewrite E5. exists m5. split; [reflexivity|]. split.
  - unfold cmuxp. rewrite cadd_comm. split; [exact FA|exact FB].
  - eapply step_trans; [eapply step_weaken; [exact S2|..]|]; try (intros x []; fail); [intros; tauto|].
    eapply step_trans; [eapply step_weaken; [exact S3|..]|]; try (intros x []; fail);
      [unfold scr, blk; intros x [->| ->]; left; right; lia|].
    eapply step_trans; [eapply step_weaken; [exact S4|..]|]; try (intros x []; fail);
      [unfold scr, blk; intros x [G|[->| ->]]; left; [left; assumption|right; lia|right; lia]|auto|].
    eapply step_weaken; [exact S5|..]; try (intros x []; fail). intros; tauto.
Qed.

Lemma PolyMulWithXKInPlace_step m a k out : zlen (tm m a) = N -> zlen (tm m out) = N -> a <> out ->
  exists m', PolyMulWithXKInPlace m a k out = Ok m' /\ tm m' out = rot N k (tm m a) /\ step (eq out) none none m m'.
Proof.
  intros Ha Ho Hne. pose proof (law_N L). destruct (PolyMulWithXKInPlace_ok m N a k out) as (m' & E & V & F); try assumption; [lia|].
  exists m'. split; [exact E|]. split; [exact V|]. apply step_out; [exact F|]. rewrite V, Ho. apply zlen_rot. lia.
Qed.

(** the shape of a bootstrapping key *)
Definition bsk_ok (bsk : list (trgsw_fft O)) : Prop :=
  n <= zlen bsk /\ forall i, 0 <= i < n -> gkey_ok L l (znd [] bsk i).

Notation brp off bsk ct tv i := (br_acc L bg l off (g_NBIT pr) n bsk ct tv i).

Lemma BlindRotateAssign_ok m e ctIn tvr tv bsk off ctOut :
  ev_ok m e -> bsk_ok bsk -> zlen (tm m ctIn) = n + 1 -> at_ m tvr tv -> ct_ok N tv ->
  ~ scr e 8 ctIn -> ~ scr e 8 (rA tvr) -> ~ scr e 8 (rB tvr) ->
  ~ blk (bp_t (ev_bp e) + 4) 4 (rA ctOut) -> ~ blk (bp_t (ev_bp e) + 4) 4 (rB ctOut) ->
  zlen (tm m (rA ctOut)) = N -> zlen (tm m (rB ctOut)) = N -> rA ctOut <> rB ctOut ->
  exists m', BlindRotateAssign O pr m e ctIn tvr bsk off ctOut = Ok m' /\
    at_ m' ctOut (brp off bsk (tm m ctIn) tv n) /\
    step (fun x => scr e 8 x \/ x = rA ctOut \/ x = rB ctOut) (fscr e) none m m'.
Proof.
  intros He [Hb1 Hb2] Hc [TA TB] Htv NI NA NB NoA NoB LoA LoB Hne.
  pose proof (law_N L) as H16. pose proof (eo_t2 _ _ He) as Ht2. pose proof (eo_lv _ _ He) as Hlv.
  pose proof (pw_l _ _ W) as Hl. pose proof (pw_n _ _ W) as Hn. pose proof (pw_nb _ _ W) as Hnb.
  unfold BlindRotateAssign. rewrite (pw_gN _ _ W).
  unfold scr, dcb, blk in NI, NA, NB. unfold blk in NoA, NoB.
  unfold bp_Acc1, bp_Acc2. cbn [rA rB]. set (bt := bp_t (ev_bp e)) in *. set (ct := tm m ctIn) in *.
  set (bt4 := bt + 4). set (bt5 := bt + 5). set (bt6 := bt + 6). set (bt7 := bt + 7).
  rewrite (load_at m ctIn ct) by (reflexivity || lia). cbn [bind]. rewrite bTilda_ok by assumption. cbn [bind].
  assert (LT: forall x, blk bt 8 x -> zlen (tm m x) = N).
  { intros x Hx. apply (eo_bt _ _ He). unfold blk in *. fold bt. lia. }
  destruct Htv as [[LtA TtA] [LtB TtB]].
  assert (Hb: bt4 = bt + 4 /\ bt5 = bt + 5 /\ bt6 = bt + 6 /\ bt7 = bt + 7) by (repeat split; reflexivity).
  clearbody bt4 bt5 bt6 bt7. destruct Hb as (Eb4 & Eb5 & Eb6 & Eb7).
  destruct (PolyMulWithXKInPlace_step m (rA tvr) (br_b N (g_NBIT pr) (zn ct n)) bt4) as (m1 & E1 & V1 & S1);
    [congruence|apply LT; unfold blk; lia|lia|].
  rewrite E1. cbn [bind].
  destruct (PolyMulWithXKInPlace_step m1 (rB tvr) (br_b N (g_NBIT pr) (zn ct n)) bt5) as (m2 & E2 & V2 & S2);
    [rewrite (step_len _ _ _ _ _ _ S1); congruence|rewrite (step_len _ _ _ _ _ _ S1); apply LT; unfold blk; lia|lia|].
  rewrite E2. cbn [bind].
  set (T := fun x => scr e 8 x).
  assert (Tw: forall x, bt4 <= x <= bt7 -> T x) by (unfold T, scr, blk; fold bt; intros; lia).
  assert (S12: step T (fscr e) none m m2).
  { eapply step_trans; [eapply step_weaken; [exact S1|..]|eapply step_weaken; [exact S2|..]]; try (intros x []; fail);
      intros; apply Tw; lia. }
  for_inv (fun k m' => step T (fscr e) none m m' /\ at_ m' {| rA := bt4; rB := bt5 |} (brp off bsk ct tv k)) E HI.
  - assumption.
  - split; [exact S12|]. rewrite br_acc_0. split; cbn [rA rB crot tA tB].
    + rewrite (step_t _ _ _ _ _ _ S2) by lia. rewrite V1, TA. reflexivity.
    + rewrite V2. rewrite (step_t _ _ _ _ _ _ S1) by lia. rewrite TB. reflexivity.
  - intros k m3 Hk (S3 & Hat). assert (Hat' := Hat). destruct Hat as [KA KB]. cbn [rA rB] in KA, KB.
    assert (Hacc: ct_ok N (brp off bsk ct tv k)) by (apply br_acc_ok; [split; split; assumption|lia]).
    destruct Hacc as [[LA3 TA3] [LB3 TB3]].
    rewrite (load_at m3 ctIn ct) by (lia || (rewrite (step_t _ _ _ _ _ _ S3) by (unfold T, scr, dcb, blk; fold bt; lia); reflexivity)).
    cbn [bind]. rewrite aTilda_ok by assumption. cbn [bind].
    assert (LT3: forall x, blk bt 8 x -> zlen (tm m3 x) = N).
    { intros x Hx. rewrite (step_len _ _ _ _ _ _ S3). apply LT. assumption. }
    destruct (PolyMulWithXKInPlace_step m3 bt4 (br_a (g_NBIT pr) (zn ct k)) bt6) as (m4 & E4 & V4 & S4);
      [apply LT3; unfold blk; lia|apply LT3; unfold blk; lia|lia|].
    rewrite E4. cbn [bind].
    destruct (PolyMulWithXKInPlace_step m4 bt5 (br_a (g_NBIT pr) (zn ct k)) bt7) as (m5 & E5 & V5 & S5);
      [rewrite (step_len _ _ _ _ _ _ S4); apply LT3; unfold blk; lia
      |rewrite (step_len _ _ _ _ _ _ S4); apply LT3; unfold blk; lia|lia|].
    rewrite E5. cbn [bind]. rewrite (get_ok ([] : trgsw_fft O)) by lia. cbn [bind].
    assert (S35: step T (fscr e) none m3 m5).
    { eapply step_trans; [eapply step_weaken; [exact S4|..]|eapply step_weaken; [exact S5|..]]; try (intros x []; fail);
        intros; apply Tw; lia. }
    assert (S05: step T (fscr e) none m m5) by (eapply step_trans; eassumption).
    destruct (CMuxAssign_ok m5 e (znd [] bsk k) (brp off bsk ct tv k) (crot N (br_a (g_NBIT pr) (zn ct k)) (brp off bsk ct tv k))
       {| rA := bt4; rB := bt5 |} {| rA := bt6; rB := bt7 |} off {| rA := bt4; rB := bt5 |})
      as (m6 & E6 & V6 & S6); unfold outside, apart; cbn [rA rB]; try (clear NI NA NB NoA NoB; unfold scr, dcb, blk; fold bt; lia).
    { eapply ev_ok_step0; [exact S05|exact He]. }
    { apply Hb2. assumption. }
    { split; cbn [rA rB]; rewrite (step_t _ _ _ _ _ _ S5), (step_t _ _ _ _ _ _ S4) by lia; assumption. }
    { split; cbn [rA rB crot tA tB].
      - rewrite (step_t _ _ _ _ _ _ S5) by lia. rewrite V4, KA. reflexivity.
      - rewrite V5. rewrite (step_t _ _ _ _ _ _ S4) by lia. rewrite KB. reflexivity. }
    { split; split; assumption. }
    { apply crot_ok; [lia|]. split; split; assumption. }
    { rewrite (step_len _ _ _ _ _ _ S05). apply LT. unfold blk. lia. }
    { rewrite (step_len _ _ _ _ _ _ S05). apply LT. unfold blk. lia. }
    { left. reflexivity. }
    exists m6. split; [exact E6|]. split.
    + eapply step_trans; [exact S05|]. eapply step_weaken; [exact S6|..]; try (intros x []; fail); [|auto].
      cbn [rA rB]. clear NI NA NB NoA NoB. unfold T, scr, dcb, blk. fold bt. intros; lia.
    + rewrite br_acc_S by lia. exact V6.
  - destruct HI as (S6 & [KA KB]). cbn [rA rB] in KA, KB.
    set (m7 := mcopy st (rA ctOut) bt4).
    assert (Hacc: ct_ok N (brp off bsk ct tv n)) by (apply br_acc_ok; [split; split; assumption|lia]).
    destruct Hacc as [[LA3 TA3] [LB3 TB3]].
    assert (S7: step (fun x => scr e 8 x \/ x = rA ctOut \/ x = rB ctOut) (fscr e) none m m7).
    { eapply step_trans; [eapply step_weaken; [exact S6|..]|]; try (intros x []; fail); [unfold T; tauto|tauto|].
      apply step_mcopy. auto. }
    eexists; split; [reflexivity|]. split.
    + split; unfold mcopy at 1.
      * rewrite tm_tset_ne by assumption. unfold m7. rewrite mcopy_same; [exact KA|].
        rewrite KA, LA3, (step_len _ _ _ _ _ _ S6). assumption.
      * rewrite tm_tset. unfold m7, mcopy. rewrite (tm_tset_ne _ _ _ bt5) by lia. rewrite tm_tset_ne by congruence.
        rewrite KB. apply copy_slice_same_len. rewrite LB3, (step_len _ _ _ _ _ _ S6). assumption.
    + eapply step_trans; [exact S7|]. apply step_mcopy. auto.
Qed.

(** the value of a bootstrap *)
Definition bootp (off : Z) (bsk : list (trgsw_fft O)) (ksk : list (list Z)) (tv : trlwe) (ct : list Z) : list Z :=
  let acc := brp off bsk ct tv n in
  let ex := extp N 0 (tA acc) (tB acc) in
  ksw n N (g_BASEBIT pr) (g_IKS_T pr) (zn ex N) ex ksk.

Lemma bootp_ok off bsk ksk tv ct : lwe_ok n (bootp off bsk ksk tv ct).
Proof. apply ksw_lwe_ok. apply (pw_n _ _ W). Qed.

Definition ksk_ok (ksk : list (list Z)) : Prop := ksk_shape n N (g_BASEBIT pr) (g_IKS_T pr) ksk.

Lemma BootstrapAssign_ok m e ctIn tvr tv bsk ksk off ctOut :
  ev_ok m e -> bsk_ok bsk -> ksk_ok ksk -> zlen (tm m ctIn) = n + 1 -> at_ m tvr tv -> ct_ok N tv ->
  ~ scr e 8 ctIn -> ~ scr e 8 (rA tvr) -> ~ scr e 8 (rB tvr) ->
  zlen (tm m ctOut) = n + 1 -> ctOut <> bp_t (ev_bp e) + 10 ->
  exists m', BootstrapAssign O pr m e ctIn tvr bsk ksk off ctOut = Ok m' /\
    tm m' ctOut = bootp off bsk ksk tv (tm m ctIn) /\
    step (fun x => scr e 11 x \/ x = ctOut) (fscr e) none m m'.
Proof.
  intros He Hb Hk Hc Hat Htv NI NA NB Ho Hne. pose proof (law_N L) as H16.
  unfold BootstrapAssign.
  destruct (BlindRotateAssign_ok m e ctIn tvr tv bsk off (bp_Rotated (ev_bp e))) as (m1 & E1 & [VA VB] & S1);
    try assumption; cbn [bp_Rotated rA rB] in *; try (unfold blk; lia);
    try (apply (eo_bt _ _ He); unfold blk; lia).
  rewrite E1. cbn [bind].
  assert (Hacc: ct_ok N (brp off bsk (tm m ctIn) tv n)) by (apply br_acc_ok; [assumption|apply (pw_n _ _ W)]).
  destruct Hacc as [[LA3 TA3] [LB3 TB3]].
  destruct (SampleExtractIndexAssign_ok pr m1 (bp_Rotated (ev_bp e)) 0 (bp_ExtractedLWE (ev_bp e)) N) as (m2 & E2 & V2 & F2);
    cbn [bp_Rotated rA rB]; unfold bp_ExtractedLWE; try (rewrite ?VA, ?VB; assumption); try lia.
  { apply (pw_trN _ _ W). } { apply (pw_lv1N _ _ W). }
  { rewrite (step_len _ _ _ _ _ _ S1). apply (eo_b10 _ _ He). }
  unfold bp_ExtractedLWE in E2. cbn [bp_Rotated rA rB] in E2. rewrite E2. cbn [bind bp_Rotated rA rB] in *. rewrite VA, VB in V2. unfold bp_ExtractedLWE in *.
  assert (S2: step (eq (bp_t (ev_bp e) + 10)) none none m1 m2).
  { apply step_out; [exact F2|]. rewrite V2, (step_len _ _ _ _ _ _ S1), (eo_b10 _ _ He). apply zlen_tab. lia. }
  assert (HexT: tok_list (extp N 0 (tA (brp off bsk (tm m ctIn) tv n)) (tB (brp off bsk (tm m ctIn) tv n)))) by (apply extp_ok; (lia || assumption)).
  destruct (IdentityKeySwitchingAssign_ok pr m2 (bp_t (ev_bp e) + 10) ksk ctOut n N (g_BASEBIT pr) (g_IKS_T pr))
    as (m3 & E3 & V3 & F3); try reflexivity; try (destruct W; assumption || lia).
  { rewrite V2. apply zlen_tab. lia. }
  { rewrite V2. exact HexT. }
  { rewrite (step_len _ _ _ _ _ _ S2), (step_len _ _ _ _ _ _ S1). assumption. }
  rewrite E3. exists m3. split; [reflexivity|]. rewrite V2 in V3. split; [exact V3|].
  eapply step_trans; [eapply step_weaken; [exact S1|..]|]; try (intros x []; fail);
    [unfold scr, dcb, blk; intros; lia|auto|].
  eapply step_trans; [eapply step_weaken; [exact S2|..]|]; try (intros x []; fail);
    [unfold scr, dcb, blk; intros; lia|].
  eapply step_weaken; [apply step_out; [exact F3|]|..]; try (intros x []; fail); [|auto].
  rewrite V3, (step_len _ _ _ _ _ _ S2), (step_len _ _ _ _ _ _ S1), Ho. apply zlen_tab. pose proof (pw_n _ _ W). lia.
Qed.

End Ev.

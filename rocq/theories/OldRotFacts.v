(** * Package trgsw's external product, CMUX and blind rotation compute the same values *)
From Coq Require Import Lia ZifyBool Setoid Morphisms.
From Verif Require Import GoBase GoFacts GoMem MemFacts F64 Utils Params Tlwe TlweMem TlweFacts
  Poly PolyFacts NegFacts Laws Trlwe TrlweFacts Trgsw TrgswFacts RotFacts KeySwitchFacts Evaluator RunSpec EvalFacts.
Local Open Scope Z_scope.
Ltac Zify.zify_post_hook ::= idtac.

Section Old.
Context {O : fops} {N : Z} (L : flaws O N) (pr : pset) (W : pwf pr N).
Notation M := (mem (FP O)).
Notation l := (g_L pr).
Notation bg := (g_BGBIT pr).
Notation n := (lv0_N pr).
Notation step := (step L).
Notation at_ := (@at_ O).

(** a polynomial evaluator's buffers have the right sizes *)
Record pe_ok (m : M) (e : peval) : Prop := {
  po_t : forall x, blk (pe_t e) 24 x -> zlen (tm m x) = N;
  po_f : forall x, blk (pe_f e) 15 x -> fok L (fm m x);
  po_i0 : 0 <= im m (pe_i e) < 4;
  po_i1 : 0 <= im m (pe_i e + 1) < 4
}.

Lemma pe_ok_step T P (I : Z -> Prop) m m' e : step T P I m m' -> pe_ok m e ->
  0 <= im m' (pe_i e) < 4 -> 0 <= im m' (pe_i e + 1) < 4 -> pe_ok m' e.
Proof.
  intros S [A B C D] H0 H1. constructor; try assumption.
  - intros x Hx. rewrite (step_len _ _ _ _ _ _ _ S). apply A, Hx.
  - intros x Hx. apply (step_fok _ _ _ _ _ _ _ S), B, Hx.
Qed.
Lemma pe_ok_step0 T P m m' e : step T P none m m' -> pe_ok m e -> pe_ok m' e.
Proof.
  intros S H. eapply pe_ok_step; [exact S|exact H|..]; rewrite (step_i _ _ _ _ _ _ _ S) by (intros []); apply H.
Qed.
Lemma ev_pe_ok m e : ev_ok L pr m e -> pe_ok m (ev_pe e).
Proof.
  intro H. constructor; try apply H.
Qed.

(** ** decompositionInPlace *)
Lemma zero_fill (m : M) out : zlen (tm m out) = N ->
  exists m', for_range 0 N (fun j m => store m out j 0) m = Ok m' /\ step (eq out) none none m m'.
Proof.
  intro Hl. pose proof (law_N L). for_inv (fun (_ : Z) (m' : M) => step (eq out) none none m m') E HI.
  - lia.
  - apply step_refl.
  - intros k m1 Hk HI. rewrite store_ok by (rewrite (step_len _ _ _ _ _ _ _ HI); lia). eexists. split; [reflexivity|].
    eapply step_trans; [exact HI|]. apply step_tset; [reflexivity|apply zlen_upd].
  - exists st. auto.
Qed.

Lemma dip_ok m e r c off : pe_ok m e -> at_ m r c -> zlen (tA c) = N -> zlen (tB c) = N ->
  ~ blk (pe_t e) 8 (rA r) -> ~ blk (pe_t e) 8 (rB r) ->
  exists m', decompositionInPlace O pr m r off e = Ok m' /\
    (forall i, 0 <= i < 2 * l -> tm m' (pe_t e + i) = dvec (N := N) bg l off c i) /\
    (forall i, 0 <= i < 2 * l -> fm m' (pe_f e + 7 + i) = Fof L (dvec (N := N) bg l off c i)) /\
    step (blk (pe_t e) 8) (blk (pe_f e + 7) 8) none m m'.
Proof.
  intros He [EA EB] LA LB NA NB. pose proof (law_N L) as H16. pose proof (pw_bg _ _ W). pose proof (pw_l _ _ W). pose proof (pw_2l _ _ W).
  unfold decompositionInPlace. rewrite (pw_gN _ _ W). rewrite !shl_int_ok by lia. cbn [bind]. fold (dmask bg) (dhalf bg).
  replace (l * 2) with (2 * l) by lia. unfold pe_decomp.
  assert (GD: forall i, 0 <= i < 2 * l -> GetDecompBuffer e i = Ok (pe_t e + i)).
  { intros i Hi. unfold GetDecompBuffer, maxDecompLevels, pe_decomp.
    destruct (Z.leb_spec 8 i); [lia|]. destruct (Z.ltb_spec i 0); [lia|]. reflexivity. }
  assert (Z1: exists m1, for_range 0 (2 * l) (fun i m => buf <- GetDecompBuffer e i ;; for_range 0 N (fun j m => store m buf j 0) m) m = Ok m1 /\
     step (blk (pe_t e) 8) none none m m1).
  { for_inv (fun (_ : Z) (m' : M) => step (blk (pe_t e) 8) none none m m') E HI.
    - lia.
    - apply step_refl.
    - intros k m1 Hk HI. rewrite GD by assumption. cbn [bind].
      destruct (zero_fill m1 (pe_t e + k)) as (m2 & E2 & S2).
      { rewrite (step_len _ _ _ _ _ _ _ HI). apply (po_t _ _ He). unfold blk. lia. }
      exists m2. split; [exact E2|]. eapply step_trans; [exact HI|]. eapply step_weaken; [exact S2|..]; auto. intros x <-. unfold blk. lia.
    - exists st. auto. }
  destruct Z1 as (m1 & E1 & S1). rewrite E1. cbn [bind].
  set (vA := fun j i => dec_digit (tadd (zn (tA c) j) off) i bg (dmask bg) (dhalf bg)).
  set (vB := fun j i => dec_digit (tadd (zn (tB c) j) off) i bg (dmask bg) (dhalf bg)).
  assert (Z2: exists m2, for_range 0 N (fun j m =>
         tmp0 <- (x <- load m (rA r) j ;; Ok (tadd x off)) ;;
         tmp1 <- (x <- load m (rB r) j ;; Ok (tadd x off)) ;;
         m <- for_range 0 l (fun i m => buf <- GetDecompBuffer e i ;; store m buf j (dec_digit tmp0 i bg (dmask bg) (dhalf bg))) m ;;
         for_range 0 l (fun i m => buf <- GetDecompBuffer e (i + l) ;; store m buf j (dec_digit tmp1 i bg (dmask bg) (dhalf bg))) m) m1 = Ok m2 /\
     step (blk (pe_t e) 8) none none m m2 /\ (forall i, 0 <= i < 2 * l -> tm m2 (pe_t e + i) = dvec (N := N) bg l off c i)).
  { for_inv (fun k m' => framed (blk (pe_t e) (2 * l)) none none m1 m' /\
      forall i, 0 <= i < 2 * l -> zlen (tm m' (pe_t e + i)) = N /\
        forall j, 0 <= j < k -> zn (tm m' (pe_t e + i)) j = if i <? l then vA j i else vB j (i - l)) E HI.
    - lia.
    - split; [apply framed_refl|]. intros i Hi. split; [|intros; lia]. rewrite (step_len _ _ _ _ _ _ _ S1). apply (po_t _ _ He). unfold blk. lia.
    - intros k m2 Hk (Hfr & HI).
      assert (QA: tm m2 (rA r) = tA c).
      { rewrite (fr_t _ _ _ _ _ Hfr) by (unfold blk in *; lia). rewrite (step_t _ _ _ _ _ _ _ S1) by assumption. exact EA. }
      assert (QB: tm m2 (rB r) = tB c).
      { rewrite (fr_t _ _ _ _ _ Hfr) by (unfold blk in *; lia). rewrite (step_t _ _ _ _ _ _ _ S1) by assumption. exact EB. }
      rewrite (load_at m2 _ (tA c) k QA) by lia. cbn [bind]. rewrite (load_at m2 _ (tB c) k QB) by lia. cbn [bind].
      rewrite (for_range_ext 0 l _ (fun i m => store m (pe_t e + i) k (vA k i))) by (intros i m' Hi; rewrite GD by lia; reflexivity).
      destruct (col_fill m2 (pe_t e) l N k (vA k)) as (m3 & E3 & H3 & Hf3); [lia|lia|intros; apply HI; lia|].
      rewrite E3. cbn [bind].
      rewrite (for_range_ext 0 l _ (fun i m => store m (pe_t e + l + i) k (vB k i)))
        by (intros i m' Hi; rewrite GD by lia; cbn [bind]; replace (pe_t e + (i + l)) with (pe_t e + l + i) by lia; reflexivity).
      destruct (col_fill m3 (pe_t e + l) l N k (vB k)) as (m4 & E4 & H4 & Hf4); [lia|lia| |].
      { intros i Hi. rewrite (fr_t _ _ _ _ _ Hf3) by (unfold blk; lia). rewrite <- Z.add_assoc. apply HI. lia. }
      exists m4. split; [exact E4|]. split.
      + eapply framed_trans; [exact Hfr|]. eapply framed_trans; [eapply framed_weaken; [exact Hf3|..]|eapply framed_weaken; [exact Hf4|..]]; auto;
          unfold blk; intros; lia.
      + intros i Hi. destruct (HI i Hi) as [Li Vi]. destruct (Z.ltb_spec i l).
        * rewrite (fr_t _ _ _ _ _ Hf4) by (unfold blk; lia). rewrite H3 by lia. split; [rewrite zlen_upd; assumption|].
          intros j Hj. rewrite zn_upd by lia. destruct (Z.eqb_spec j k); [subst; reflexivity|]. apply Vi. lia.
        * replace (pe_t e + i) with (pe_t e + l + (i - l)) by lia. rewrite H4 by lia.
          rewrite (fr_t _ _ _ _ _ Hf3) by (unfold blk; lia). replace (pe_t e + l + (i - l)) with (pe_t e + i) by lia.
          split; [rewrite zlen_upd; assumption|]. intros j Hj. rewrite zn_upd by lia.
          destruct (Z.eqb_spec j k); [subst; reflexivity|]. apply Vi. lia.
    - destruct HI as (Hfr & HI). exists st. split; [reflexivity|]. split.
      + split.
        * eapply framed_trans; [exact (proj1 S1)|]. eapply framed_weaken; [exact Hfr|..]; auto. unfold blk. intros; lia.
        * split.
          -- intro x. rewrite <- (step_len L _ _ _ m m1 x S1). destruct (Z_le_dec (pe_t e) x) as [Q1|Q1]; [destruct (Z_lt_dec x (pe_t e + 2 * l)) as [Q2|Q2]|].
             ++ replace x with (pe_t e + (x - pe_t e)) by lia. rewrite (proj1 (HI (x - pe_t e) ltac:(lia))).
                rewrite (step_len _ _ _ _ _ _ _ S1). symmetry. apply (po_t _ _ He). unfold blk. lia.
             ++ rewrite (fr_t _ _ _ _ _ Hfr) by (unfold blk; lia). reflexivity.
             ++ rewrite (fr_t _ _ _ _ _ Hfr) by (unfold blk; lia). reflexivity.
          -- intros x Hx. rewrite (fr_f _ _ _ _ _ Hfr) by (intros []). apply (step_fok _ _ _ _ _ _ _ S1), Hx.
      + intros i Hi. destruct (HI i Hi) as [Li Vi]. unfold dvec. destruct (Z.ltb_spec i l);
          (apply (eq_tab 0); [exact Li|]; intros j Hj; apply (Vi j Hj)). }
  destruct Z2 as (m2 & E2 & S2 & V2). rewrite E2. cbn [bind].
  destruct (four_fill L m2 (2 * l) (pe_t e) (pe_f e + 7)
     (fun i m => buf <- GetDecompBuffer e i ;; ToFourierPolyInBuffer O m e buf i)) as (m3 & E3 & V3 & S3); [lia| | | |].
  { intros i m' Hi. rewrite GD by assumption. cbn [bind]. unfold ToFourierPolyInBuffer, maxDecompLevels, pe_decompFFT.
    destruct (Z.leb_spec 8 i); [lia|]. destruct (Z.ltb_spec i 0); [lia|]. reflexivity. }
  { intros i Hi. rewrite (step_len _ _ _ _ _ _ _ S2). apply (po_t _ _ He). unfold blk. lia. }
  { intros i Hi. apply (step_fok _ _ _ _ _ _ _ S2), (po_f _ _ He). unfold blk. lia. }
  exists m3. split; [exact E3|]. split; [|split].
  - intros i Hi. rewrite (step_t _ _ _ _ _ _ _ S3) by (intros []). apply V2, Hi.
  - intros i Hi. rewrite V3, V2 by assumption. reflexivity.
  - eapply step_trans; [eapply step_weaken; [exact S2|..]; auto; intros x []|eapply step_weaken; [exact S3|..]; auto; [intros x []|]].
    unfold blk. intros; lia.
Qed.

(** ** the external product; the result is in the next pair of the pool *)
Definition slotA (e : peval) (i : Z) : Z := pe_trlweA e i.
Definition slotB (e : peval) (i : Z) : Z := pe_trlweB e i.
Definition slotr (e : peval) (i : Z) : tref := {| rA := pe_trlweA e i; rB := pe_trlweB e i |}.
Definition next4 (i : Z) : Z := Z.rem (i + 1) 4.
Lemma next4_range i : 0 <= i < 4 -> 0 <= next4 i < 4 /\ next4 i <> i /\ next4 (next4 i) <> i.
Proof.
  intro H. assert (C: i = 0 \/ i = 1 \/ i = 2 \/ i = 3) by lia.
  destruct C as [->|[->|[->| ->]]]; unfold next4; cbn; lia.
Qed.

Lemma GetTRLWE_ok (m : M) e : 0 <= im m (pe_i e + 1) < 4 ->
  GetTRLWEBuffer m e = Ok (pe_trlweA e (im m (pe_i e + 1)), pe_trlweB e (im m (pe_i e + 1)), iset m (pe_i e + 1) (next4 (im m (pe_i e + 1)))).
Proof.
  intro H. unfold GetTRLWEBuffer, pe_trlweIdx. destruct (Z.ltb_spec (im m (pe_i e + 1)) 0); [lia|].
  destruct (Z.leb_spec 4 (im m (pe_i e + 1))); [lia|]. reflexivity.
Qed.

Definition tscr (e : peval) (t : Z) (x : Z) : Prop := blk (pe_t e) 8 x \/ x = pe_trlweA e t \/ x = pe_trlweB e t.

Lemma ExternalProductWithFFT_ok m e g c r off : pe_ok m e -> gkey_ok L l g -> at_ m r c -> ct_ok N c ->
  ~ blk (pe_t e) 8 (rA r) -> ~ blk (pe_t e) 8 (rB r) ->
  let t := im m (pe_i e + 1) in
  exists m', ExternalProductWithFFT O pr m g r off e = Ok (slotr e t, m') /\
    at_ m' (slotr e t) (epp L bg l off g c) /\ im m' (pe_i e + 1) = next4 t /\
    step (tscr e t) (blk (pe_f e) 15) (eq (pe_i e + 1)) m m'.
Proof.
  intros He Hg Hat [[LA TA] [LB TB]] NA NB t. pose proof (pw_l _ _ W) as Hl. pose proof (pw_2l _ _ W) as H2l.
  pose proof (po_i1 _ _ He) as Ht. fold t in Ht.
  unfold ExternalProductWithFFT.
  destruct (dip_ok m e r c off He Hat LA LB NA NB) as (m1 & E1 & V1 & F1 & S1). rewrite E1. cbn [bind].
  assert (He1: pe_ok m1 e) by (eapply pe_ok_step0; eassumption).
  assert (FA: fok L (fm m1 (pe_fpAcc e))) by (apply (po_f _ _ He1); unfold blk, pe_fpAcc; lia).
  assert (FB: fok L (fm m1 (pe_fpBcc e))) by (apply (po_f _ _ He1); unfold blk, pe_fpBcc; lia).
  assert (HAB: pe_fpAcc e <> pe_fpBcc e) by (unfold pe_fpAcc, pe_fpBcc; lia).
  rewrite (ClearBuffer_ok L) by assumption. cbn [bind].
  rewrite (ClearBuffer_ok L) by (rewrite fm_fset_ne by congruence; assumption). cbn [bind].
  set (m2 := fset (fset m1 (pe_fpAcc e) (Fzero L)) (pe_fpBcc e) (Fzero L)).
  assert (S2: step none (blk (pe_f e) 15) none m1 m2).
  { eapply step_trans; apply step_fset; try apply (law_zero L); unfold blk, pe_fpAcc, pe_fpBcc; lia. }
  replace (l * 2) with (2 * l) by lia.
  destruct (ma_fill L m2 l (pe_f e + 7) (pe_fpAcc e) (pe_fpBcc e) g (dvec (N := N) bg l off c)
    (fun i m => row <- get g i ;;
         m <- MulAddFourierPolyAssignBuffered O m e i (fst row) (pe_fpAcc e) ;;
         MulAddFourierPolyAssignBuffered O m e i (snd row) (pe_fpBcc e))) as (m3 & E3 & VA & VB & S3); try assumption; try lia.
  { intros i m' Hi. unfold MulAddFourierPolyAssignBuffered, maxDecompLevels, pe_decompFFT.
    destruct (Z.ltb_spec i 0); [lia|]. destruct (Z.leb_spec 8 i); [lia|]. reflexivity. }
  { intros i Hi. split; [|apply (zlen_dvec L)]. unfold m2. rewrite !fm_fset_ne by (unfold pe_fpAcc, pe_fpBcc; lia). apply F1, Hi. }
  { unfold m2. rewrite fm_fset_ne by congruence. apply fm_fset. }
  { unfold m2. apply fm_fset. }
  { unfold blk, pe_fpAcc. lia. } { unfold blk, pe_fpBcc. lia. }
  rewrite E3. cbn [bind].
  assert (S13: step (tscr e t) (blk (pe_f e) 15) (eq (pe_i e + 1)) m m3).
  { eapply step_trans; [eapply step_weaken; [exact S1|..]|]; [left; assumption|unfold blk; intros; lia|intros x []|].
    eapply step_trans; [eapply step_weaken; [exact S2|..]|eapply step_weaken; [exact S3|..]]; try (intros x []; fail); auto.
    unfold blk, pe_fpAcc, pe_fpBcc; intros; lia. }
  assert (I3: im m3 (pe_i e + 1) = t).
  { rewrite (step_i _ _ _ _ _ _ _ S3), (step_i _ _ _ _ _ _ _ S2), (step_i _ _ _ _ _ _ _ S1) by (intros []). reflexivity. }
  rewrite GetTRLWE_ok by (rewrite I3; exact Ht). rewrite I3. cbn [bind].
  set (m4 := iset m3 (pe_i e + 1) (next4 t)).
  assert (S4: step (tscr e t) (blk (pe_f e) 15) (eq (pe_i e + 1)) m m4).
  { eapply step_trans; [exact S13|]. apply step_iset. reflexivity. }
  destruct (ToPolyAssignUnsafe_ok L m4 (pe_fpAcc e) (pe_trlweA e t)) as (m5 & E5 & V5 & S5).
  { apply (step_fok _ _ _ _ _ _ _ S4), (po_f _ _ He). unfold blk, pe_fpAcc. lia. }
  { rewrite (step_len _ _ _ _ _ _ _ S4). apply (po_t _ _ He). unfold blk, pe_trlweA. lia. }
  rewrite E5. cbn [bind].
  destruct (ToPolyAssignUnsafe_ok L m5 (pe_fpBcc e) (pe_trlweB e t)) as (m6 & E6 & V6 & S6).
  { apply (step_fok _ _ _ _ _ _ _ S5), (step_fok _ _ _ _ _ _ _ S4), (po_f _ _ He). unfold blk, pe_fpBcc. lia. }
  { rewrite (step_len _ _ _ _ _ _ _ S5), (step_len _ _ _ _ _ _ _ S4). apply (po_t _ _ He). unfold blk, pe_trlweB. lia. }
  rewrite E6. cbn [bind]. exists m6. split; [reflexivity|]. split; [|split].
  - split; cbn [rA rB slotr].
    + rewrite (step_t _ _ _ _ _ _ _ S6) by (unfold pe_trlweA, pe_trlweB; lia). rewrite V5. change (fm m4) with (fm m3). rewrite VA. reflexivity.
    + rewrite V6. rewrite (step_f _ _ _ _ _ _ _ S5) by congruence. change (fm m4) with (fm m3). rewrite VB. reflexivity.
  - rewrite (step_i _ _ _ _ _ _ _ S6), (step_i _ _ _ _ _ _ _ S5) by (intros []). apply im_iset.
  - eapply step_trans; [exact S4|]. eapply step_trans; [eapply step_weaken; [exact S5|..]|eapply step_weaken; [exact S6|..]];
      try (intros x []; fail); unfold tscr, blk, pe_fpAcc, pe_fpBcc; intros x <-; auto; lia.
Qed.

Lemma slot_ne e i j : i <> j -> pe_trlweA e i <> pe_trlweA e j /\ pe_trlweB e i <> pe_trlweB e j /\
  pe_trlweA e i <> pe_trlweB e j /\ pe_trlweB e i <> pe_trlweA e j.
Proof. unfold pe_trlweA, pe_trlweB. lia. Qed.

Lemma slot_blk e t : 0 <= t < 4 -> blk (pe_t e) 24 (pe_trlweA e t) /\ blk (pe_t e) 24 (pe_trlweB e t) /\
  ~ blk (pe_t e) 8 (pe_trlweA e t) /\ ~ blk (pe_t e) 8 (pe_trlweB e t).
Proof. unfold blk, pe_trlweA, pe_trlweB. lia. Qed.
Lemma slot_AB e t : pe_trlweA e t <> pe_trlweB e t.
Proof. unfold pe_trlweA, pe_trlweB. lia. Qed.

(** ** CMUX *)
Definition off_slot (e : peval) (t : Z) (r : tref) : Prop := apart r (slotr e t).

Lemma CMUX_ok m e g c0 c1 in1 in2 off : pe_ok m e -> gkey_ok L l g -> at_ m in1 c0 -> at_ m in2 c1 -> ct_ok N c0 -> ct_ok N c1 ->
  outside (blk (pe_t e) 8) in1 ->
  let t := im m (pe_i e + 1) in
  off_slot e t in1 -> off_slot e t in2 -> off_slot e (next4 t) in1 ->
  exists m', CMUX O pr m in1 in2 g off e = Ok (slotr e (next4 t), m') /\
    at_ m' (slotr e (next4 t)) (cmuxp L bg l off g c0 c1) /\ im m' (pe_i e + 1) = next4 (next4 t) /\
    step (fun x => tscr e t x \/ tscr e (next4 t) x) (blk (pe_f e) 15) (eq (pe_i e + 1)) m m'.
Proof.
  intros He Hg [A0 B0] [A1 B1] [[LA0 _] [LB0 _]] [[LA1 _] [LB1 _]] [D0A D0B] t (P1 & P2 & P3 & P4) (Q1 & Q2 & Q3 & Q4) (R1 & R2 & R3 & R4).
  cbn [slotr rA rB] in *. pose proof (law_N L) as H16. pose proof (po_i1 _ _ He) as Ht. fold t in Ht.
  destruct (next4_range t Ht) as (Ht1 & Hne1 & Hne2).
  destruct (slot_ne e (next4 t) t Hne1) as (X1 & X2 & X3 & X4).
  unfold CMUX. rewrite (pw_gN _ _ W). rewrite GetTRLWE_ok by exact Ht. fold t. cbn [bind].
  set (tA_ := pe_trlweA e t) in *. set (tB_ := pe_trlweB e t) in *.
  set (m1 := iset m (pe_i e + 1) (next4 t)).
  pose proof (slot_AB e t : tA_ <> tB_) as HAB. destruct (slot_blk e t Ht) as (KA & KB & KA' & KB').
  assert (LtA: zlen (tm m tA_) = N) by (apply (po_t _ _ He), KA).
  assert (LtB: zlen (tm m tB_) = N) by (apply (po_t _ _ He), KB).
  destruct (fill2 L m1 tA_ tB_
     (fun i m => x <- load m (rA in2) i ;; y <- load m (rA in1) i ;; Ok (tsub x y))
     (fun i m => x <- load m (rB in2) i ;; y <- load m (rB in1) i ;; Ok (tsub x y))
     (fun i => tsub (zn (tA c1) i) (zn (tA c0) i)) (fun i => tsub (zn (tB c1) i) (zn (tB c0) i))
     (fun i m => m <- (x <- load m (rA in2) i ;; y <- load m (rA in1) i ;; store m tA_ i (tsub x y)) ;;
         x <- load m (rB in2) i ;; y <- load m (rB in1) i ;; store m tB_ i (tsub x y)))
    as (m2 & E2 & VA & VB & S2); [exact LtA|exact LtB|exact HAB|..].
  { intros i m'. destruct (load m' (rA in2) i); cbn [bind]; [|reflexivity].
    destruct (load m' (rA in1) i); cbn [bind]; [|reflexivity].
    destruct (store m' tA_ i _) as [m''|]; cbn [bind]; [|reflexivity].
    destruct (load m'' (rB in2) i); cbn [bind]; [|reflexivity]. destruct (load m'' (rB in1) i); reflexivity. }
  { intros i m' Hi Hst _ _.
    rewrite (load_at m' _ (tA c1)) by ((clear - Hi LA0 LB0 LA1 LB1; lia) || (rewrite (step_t _ _ _ _ _ _ _ Hst); [assumption|intros [G|G]; contradiction])).
    cbn [bind].
    rewrite (load_at m' _ (tA c0)) by ((clear - Hi LA0 LB0 LA1 LB1; lia) || (rewrite (step_t _ _ _ _ _ _ _ Hst); [assumption|intros [G|G]; contradiction])). reflexivity. }
  { intros i m' Hi Hst _ _.
    rewrite (load_at m' _ (tB c1)) by ((clear - Hi LA0 LB0 LA1 LB1; lia) || (rewrite (step_t _ _ _ _ _ _ _ Hst); [assumption|intros [G|G]; contradiction])).
    cbn [bind].
    rewrite (load_at m' _ (tB c0)) by ((clear - Hi LA0 LB0 LA1 LB1; lia) || (rewrite (step_t _ _ _ _ _ _ _ Hst); [assumption|intros [G|G]; contradiction])). reflexivity. }
  rewrite E2. cbn [bind].
  assert (S02: step (fun x => tscr e t x \/ tscr e (next4 t) x) (blk (pe_f e) 15) (eq (pe_i e + 1)) m m2).
  { eapply step_trans; [apply step_iset; reflexivity|]. eapply step_weaken; [exact S2|..]; try (intros x []; fail).
    unfold tscr. fold tA_ tB_. intros x [->| ->]; left; right; auto. }
  assert (I2: im m2 (pe_i e + 1) = next4 t).
  { rewrite (step_i _ _ _ _ _ _ _ S2) by (intros []). apply im_iset. }
  assert (He2: pe_ok m2 e).
  { eapply pe_ok_step; [exact S02|exact He| |rewrite I2; exact Ht1].
    rewrite (step_i _ _ _ _ _ _ _ S02) by (clear; lia). apply (po_i0 _ _ He). }
  destruct (ExternalProductWithFFT_ok m2 e g (csub N c1 c0) {| rA := tA_; rB := tB_ |} off He2 Hg) as (m3 & E3 & [VA3 VB3] & I3 & S3).
  { split; assumption. }
  { apply csub_ok. clear - H16. lia. }
  { exact KA'. }
  { exact KB'. }
  rewrite I2 in *. rewrite E3. cbn [bind slotr rA rB] in *.
  set (ep := epp L bg l off g (csub N c1 c0)) in *.
  assert (epok: ct_ok N ep) by (apply epp_ok; [pose proof (pw_l _ _ W) as Hl; clear - Hl; lia|assumption]).
  destruct epok as [[LRA _] [LRB _]].
  assert (A3: tm m3 (rA in1) = tA c0).
  { rewrite (step_t _ _ _ _ _ _ _ S3) by (unfold tscr; intros [G|[G|G]]; contradiction).
    rewrite (step_t _ _ _ _ _ _ _ S2) by (intros [G|G]; contradiction). exact A0. }
  assert (B3: tm m3 (rB in1) = tB c0).
  { rewrite (step_t _ _ _ _ _ _ _ S3) by (unfold tscr; intros [G|[G|G]]; contradiction).
    rewrite (step_t _ _ _ _ _ _ _ S2) by (intros [G|G]; contradiction). exact B0. }
  set (oA := pe_trlweA e (next4 t)) in *. set (oB := pe_trlweB e (next4 t)) in *.
  pose proof (slot_AB e (next4 t) : oA <> oB) as HoAB.
  destruct (fill2 L m3 oA oB
     (fun i m => x <- load m oA i ;; y <- load m (rA in1) i ;; Ok (tadd x y))
     (fun i m => x <- load m oB i ;; y <- load m (rB in1) i ;; Ok (tadd x y))
     (fun i => tadd (zn (tA ep) i) (zn (tA c0) i)) (fun i => tadd (zn (tB ep) i) (zn (tB c0) i))
     (fun i m => m <- (x <- load m oA i ;; y <- load m (rA in1) i ;; store m oA i (tadd x y)) ;;
         x <- load m oB i ;; y <- load m (rB in1) i ;; store m oB i (tadd x y)))
    as (m4 & E4 & FA & FB & S4); [congruence|congruence|exact HoAB|..].
  { intros i m'. destruct (load m' oA i); cbn [bind]; [|reflexivity].
    destruct (load m' (rA in1) i); cbn [bind]; [|reflexivity].
    destruct (store m' oA i _) as [m''|]; cbn [bind]; [|reflexivity].
    destruct (load m'' oB i); cbn [bind]; [|reflexivity]. destruct (load m'' (rB in1) i); reflexivity. }
  { intros i m' Hi Hst ZA _.
    rewrite load_ok by (rewrite (step_len _ _ _ _ _ _ _ Hst), VA3; clear - Hi LRA; lia). cbn [bind]. rewrite ZA by (clear - Hi; lia). rewrite VA3.
    rewrite (load_at m' _ (tA c0)) by ((clear - Hi LA0 LB0 LA1 LB1; lia) || (rewrite (step_t _ _ _ _ _ _ _ Hst); [assumption|intros [G|G]; contradiction])). reflexivity. }
  { intros i m' Hi Hst _ ZB.
    rewrite load_ok by (rewrite (step_len _ _ _ _ _ _ _ Hst), VB3; clear - Hi LRB; lia). cbn [bind]. rewrite ZB by (clear - Hi; lia). rewrite VB3.
    rewrite (load_at m' _ (tB c0)) by ((clear - Hi LA0 LB0 LA1 LB1; lia) || (rewrite (step_t _ _ _ _ _ _ _ Hst); [assumption|intros [G|G]; contradiction])). reflexivity. }
  rewrite E4. exists m4. split; [reflexivity|]. split; [|split].
  - split; [exact FA|exact FB].
  - rewrite (step_i _ _ _ _ _ _ _ S4) by (intros []). exact I3.
  - eapply step_trans; [exact S02|]. eapply step_trans; [eapply step_weaken; [exact S3|..]; auto|].
    eapply step_weaken; [exact S4|..]; try (intros x []; fail). unfold tscr. fold oA oB. intros x [->| ->]; right; right; auto.
Qed.

(** ** blind rotation *)
Lemma PolyMulWithXK_ok m e a k : pe_ok m e -> zlen (tm m a) = N ->
  let i := im m (pe_i e) in
  a <> pe_rot e i ->
  exists m', PolyMulWithXK m e a k = Ok (pe_rot e i, m') /\ tm m' (pe_rot e i) = rot N k (tm m a) /\
    im m' (pe_i e) = next4 i /\ step (eq (pe_rot e i)) none (eq (pe_i e)) m m'.
Proof.
  intros He Ha i Hne. pose proof (po_i0 _ _ He) as Hi. fold i in Hi.
  unfold PolyMulWithXK, GetRotationBuffer, pe_rotIdx. fold i.
  destruct (Z.ltb_spec i 0); [lia|]. destruct (Z.leb_spec 4 i); [lia|]. cbn [orb bind].
  set (m1 := iset m (pe_i e) (Z.rem (i + 1) 4)).
  destruct (PolyMulWithXKInPlace_step L m1 a k (pe_rot e i)) as (m2 & E2 & V2 & S2); [exact Ha| |exact Hne|].
  { apply (po_t _ _ He). unfold blk, pe_rot. lia. }
  rewrite E2. cbn [bind]. exists m2. split; [reflexivity|]. split; [exact V2|]. split.
  - rewrite (step_i _ _ _ _ _ _ _ S2) by (intros []). apply im_iset.
  - eapply step_trans; [apply step_iset; reflexivity|]. eapply step_weaken; [exact S2|..]; auto; intros x [].
Qed.

Notation brp off bsk ct tv i := (br_acc L bg l off (g_NBIT pr) n bsk ct tv i).

(** everything the polynomial evaluator may write *)
Definition pscr (e : peval) : Z -> Prop := blk (pe_t e) 24.

(** the accumulator of the loop after [k] steps: rotation slots before the first
    CMUX, the last written pair of the TRLWE pool afterwards; the pool's index
    was [t0] at the start *)
Definition acc_at (e : peval) (t0 k : Z) (m : M) (r : tref) : Prop :=
  im m (pe_i e + 1) = (t0 + 2 * k) mod 4 /\
  ((k = 0 /\ im m (pe_i e) = 2 /\ r = {| rA := pe_rot e 0; rB := pe_rot e 1 |}) \/
   (0 < k /\ (im m (pe_i e) = 0 \/ im m (pe_i e) = 2) /\ r = slotr e ((t0 + 2 * k - 1) mod 4))).

Lemma acc_in e t0 k m r : acc_at e t0 k m r -> pscr e (rA r) /\ pscr e (rB r).
Proof.
  pose proof (Z.mod_pos_bound (t0 + 2 * k - 1) 4 ltac:(lia)) as B. intros [_ [(_ & _ & ->)|(_ & _ & ->)]];
    unfold pscr, blk, slotr, pe_rot, pe_trlweA, pe_trlweB; cbn [rA rB]; lia.
Qed.

Lemma rot_scr e i (m m' : M) : 0 <= i < 4 -> step (eq (pe_rot e i)) none (eq (pe_i e)) m m' ->
  step (pscr e) (blk (pe_f e) 15) (blk (pe_i e) 2) m m'.
Proof. intros Hi Hs. eapply step_weaken; [exact Hs|..]; unfold pscr, blk, pe_rot; intros z Hz; try (destruct Hz; fail); lia. Qed.

Lemma br_first_ok m e src tvr tv off bsk : pe_ok m e -> zlen (tm m src) = n + 1 -> at_ m tvr tv -> ct_ok N tv ->
  ~ pscr e (rA tvr) -> ~ pscr e (rB tvr) ->
  exists r m', br_first O pr m src tvr e = Ok (r, m') /\ at_ m' r (brp off bsk (tm m src) tv 0) /\
    acc_at e (im m (pe_i e + 1)) 0 m' r /\ step (pscr e) (blk (pe_f e) 15) (blk (pe_i e) 2) m m' /\ pe_ok m' e.
Proof.
  intros He Hc [TA TB] Htv NA NB. pose proof (law_N L) as H16. pose proof (pw_n _ _ W) as Hn. pose proof (pw_nb _ _ W) as Hnb.
  unfold br_first. rewrite (pw_gN _ _ W). unfold ResetRotationPool, pe_rotIdx. set (m0 := iset m (pe_i e) 0). set (ct := tm m src) in *.
  assert (I0: im m0 (pe_i e) = 0) by apply im_iset.
  assert (I0': im m0 (pe_i e + 1) = im m (pe_i e + 1)) by (apply im_iset_ne; lia).
  assert (S0: step (pscr e) (blk (pe_f e) 15) (blk (pe_i e) 2) m m0) by (apply step_iset; unfold blk; lia).
  assert (He0: pe_ok m0 e).
  { eapply pe_ok_step; [exact S0|exact He|rewrite I0; lia|rewrite I0'; apply (po_i1 _ _ He)]. }
  rewrite (load_at m0 src ct) by (reflexivity || lia). cbn [bind]. rewrite bTilda_ok by assumption. cbn [bind].
  destruct Htv as [[LtA TtA] [LtB TtB]].
  destruct (PolyMulWithXK_ok m0 e (rA tvr) (br_b N (g_NBIT pr) (zn ct n)) He0) as (m1 & E1 & V1 & I1 & S1).
  { change (tm m0) with (tm m). congruence. }
  { rewrite I0. unfold pscr, blk, pe_rot in *. lia. }
  rewrite I0 in *. rewrite E1. cbn [bind].
  assert (He1: pe_ok m1 e).
  { eapply pe_ok_step; [exact S1|exact He0|rewrite I1; unfold next4; cbn; lia|].
    rewrite (step_i _ _ _ _ _ _ _ S1) by lia. apply (po_i1 _ _ He0). }
  destruct (PolyMulWithXK_ok m1 e (rB tvr) (br_b N (g_NBIT pr) (zn ct n)) He1) as (m2 & E2 & V2 & I2 & S2).
  { rewrite (step_len _ _ _ _ _ _ _ S1). change (tm m0) with (tm m). congruence. }
  { rewrite I1. unfold pscr, blk, pe_rot, next4 in *. cbn. lia. }
  rewrite I1 in *. change (next4 0) with 1 in *. change (next4 1) with 2 in *. rewrite E2. cbn [bind].
  assert (I2': im m2 (pe_i e + 1) = im m (pe_i e + 1)).
  { rewrite (step_i _ _ _ _ _ _ _ S2), (step_i _ _ _ _ _ _ _ S1) by lia. exact I0'. }
  assert (He2: pe_ok m2 e).
  { eapply pe_ok_step; [exact S2|exact He1|rewrite I2; lia|]. rewrite I2'. apply (po_i1 _ _ He). }
  assert (S02: step (pscr e) (blk (pe_f e) 15) (blk (pe_i e) 2) m m2).
  { eapply step_trans; [exact S0|]. eapply step_trans; [eapply (rot_scr e 0); [lia|exact S1]|eapply (rot_scr e 1); [lia|exact S2]]. }
  eexists _, m2. split; [reflexivity|]. split; [|split; [|split; [exact S02|exact He2]]].
  - rewrite br_acc_0. split; cbn [rA rB crot tA tB].
    + rewrite (step_t _ _ _ _ _ _ _ S2) by (unfold pe_rot; lia). rewrite V1. change (tm m0) with (tm m). rewrite TA. reflexivity.
    + rewrite V2. rewrite (step_t _ _ _ _ _ _ _ S1) by (unfold pscr, blk, pe_rot in *; lia). change (tm m0) with (tm m). rewrite TB. reflexivity.
  - split; [|left; auto]. rewrite I2', Z.mod_small; [lia|]. pose proof (po_i1 _ _ He). lia.
Qed.

Lemma next4_mod t : 0 <= t -> next4 t = (t + 1) mod 4.
Proof. intro H. unfold next4. apply Z.rem_mod_nonneg; lia. Qed.

Lemma br_next_ok m3 e src tv bsk off t0 k r : pe_ok m3 e -> bsk_ok L pr bsk -> zlen (tm m3 src) = n + 1 -> ct_ok N tv -> ~ pscr e src -> 0 <= k < n ->
  at_ m3 r (brp off bsk (tm m3 src) tv k) -> acc_at e t0 k m3 r -> 
  exists r' m', br_next O pr src bsk off e k (r, m3) = Ok (r', m') /\ at_ m' r' (brp off bsk (tm m3 src) tv (k + 1)) /\
    acc_at e t0 (k + 1) m' r' /\ step (pscr e) (blk (pe_f e) 15) (blk (pe_i e) 2) m3 m' /\ pe_ok m' e.
Proof.
  intros He3 [Hb1 Hb2] Hc Htv NI Hk [KA KB] [Hidx Hacc]. pose proof (law_N L) as H16. pose proof (pw_n _ _ W) as Hn. pose proof (pw_nb _ _ W) as Hnb.
  unfold br_next. set (ct := tm m3 src) in *.
  assert (Hok: ct_ok N (brp off bsk ct tv k)) by (apply br_acc_ok; [exact Htv|lia]).
  assert (Hok' := Hok). destruct Hok' as [[LA3 TA3] [LB3 TB3]].
  rewrite (load_at m3 src ct) by (lia || reflexivity).
  cbn [bind]. rewrite aTilda_ok by assumption. cbn [bind].
  (* the two rotation slots used in this step *)
  assert (Hs: exists i0, (i0 = 0 \/ i0 = 2) /\ im m3 (pe_i e) = i0 /\
    rA r <> pe_rot e i0 /\ rB r <> pe_rot e (i0 + 1) /\ rA r <> pe_rot e (i0 + 1) /\ rB r <> pe_rot e i0 /\ outside (blk (pe_t e) 8) r /\
    let t := im m3 (pe_i e + 1) in off_slot e t r /\ off_slot e (next4 t) r).
  { pose proof (po_i1 _ _ He3) as Hi1. destruct (next4_range _ Hi1) as (Hn4 & _).
    unfold off_slot, outside, apart. destruct Hacc as [(_ & H2 & ->)|(_ & H02 & ->)].
    - exists 2. cbn [rA rB slotr].
      unfold pe_rot, pe_trlweA, pe_trlweB, blk. repeat split; lia.
    - exists (im m3 (pe_i e)). set (t := (t0 + 2 * k - 1) mod 4) in *.
      assert (Ht: 0 <= t < 4) by (apply Z.mod_pos_bound; lia).
      assert (Hi: im m3 (pe_i e + 1) = next4 t).
      { rewrite Hidx, next4_mod by lia. unfold t. rewrite Zplus_mod_idemp_l. f_equal. ring. }
      rewrite Hi. destruct (next4_range t Ht) as (N1 & N2 & N3).
      cbn [rA rB slotr]. unfold pe_rot, pe_trlweA, pe_trlweB, blk. repeat split; lia. }
  destruct Hs as (i0 & Hi0 & Im3 & R1 & R2 & R3 & R4 & Rout & Rt & Rt').
  assert (Hn0: next4 i0 = i0 + 1) by (destruct Hi0 as [->| ->]; reflexivity).
  assert (Hn1: next4 (i0 + 1) = 0 \/ next4 (i0 + 1) = 2) by (destruct Hi0 as [->| ->]; cbn; auto).
  destruct (PolyMulWithXK_ok m3 e (rA r) (br_a (g_NBIT pr) (zn ct k)) He3) as (m4 & E4 & V4 & I4 & S4).
  { congruence. } { rewrite Im3. exact R1. }
  rewrite Im3 in *. rewrite Hn0 in I4. rewrite E4. cbn [bind].
  assert (He4: pe_ok m4 e).
  { eapply pe_ok_step; [exact S4|exact He3|rewrite I4; lia|]. rewrite (step_i _ _ _ _ _ _ _ S4) by lia. apply (po_i1 _ _ He3). }
  destruct (PolyMulWithXK_ok m4 e (rB r) (br_a (g_NBIT pr) (zn ct k)) He4) as (m5 & E5 & V5 & I5 & S5).
  { rewrite (step_len _ _ _ _ _ _ _ S4). congruence. } { rewrite I4. exact R2. }
  rewrite I4 in *. rewrite E5. cbn [bind].
  assert (He5: pe_ok m5 e).
  { eapply pe_ok_step; [exact S5|exact He4|rewrite I5; lia|]. rewrite (step_i _ _ _ _ _ _ _ S5) by lia. apply (po_i1 _ _ He4). }
  rewrite (get_ok ([] : trgsw_fft O)) by lia. cbn [bind].
  assert (It: im m5 (pe_i e + 1) = im m3 (pe_i e + 1)).
  { rewrite (step_i _ _ _ _ _ _ _ S5), (step_i _ _ _ _ _ _ _ S4) by lia. reflexivity. }
  destruct (CMUX_ok m5 e (znd [] bsk k) (brp off bsk ct tv k) (crot N (br_a (g_NBIT pr) (zn ct k)) (brp off bsk ct tv k))
    r {| rA := pe_rot e i0; rB := pe_rot e (i0 + 1) |} off He5) as (m6 & E6 & V6 & I6 & S6).
  { apply Hb2. assumption. }
  { split; rewrite (step_t _ _ _ _ _ _ _ S5), (step_t _ _ _ _ _ _ _ S4) by congruence; assumption. }
  { split; cbn [rA rB crot tA tB].
    - rewrite (step_t _ _ _ _ _ _ _ S5) by (unfold pe_rot; lia). rewrite V4, KA. reflexivity.
    - rewrite V5. rewrite (step_t _ _ _ _ _ _ _ S4) by congruence. rewrite KB. reflexivity. }
  { exact Hok. }
  { apply crot_ok; [lia|exact Hok]. }
  { exact Rout. }
  { rewrite It. exact Rt. }
  { rewrite It. unfold off_slot, apart, slotr. cbn [rA rB]. pose proof (po_i1 _ _ He3). unfold pe_rot, pe_trlweA, pe_trlweB. lia. }
  { rewrite It. exact Rt'. }
  rewrite It in *. pose proof (po_i1 _ _ He3) as Hi1. set (t := im m3 (pe_i e + 1)) in *. destruct (next4_range t Hi1) as (N1 & N2 & N3).
  exists (slotr e (next4 t)), m6. split; [exact E6|].
  assert (I6': im m6 (pe_i e) = next4 (i0 + 1)) by (rewrite (step_i _ _ _ _ _ _ _ S6) by lia; exact I5).
  split; [|split; [|split]].
  - rewrite br_acc_S by lia. exact V6.
  - assert (Nt: next4 t = (t0 + 2 * (k + 1) - 1) mod 4).
    { rewrite next4_mod by lia. rewrite Hidx, Zplus_mod_idemp_l. f_equal. ring. }
    split; [|right; split; [lia|split; [rewrite I6'; exact Hn1|rewrite Nt; reflexivity]]].
    rewrite I6, (next4_mod (next4 t)) by lia. rewrite Nt, Zplus_mod_idemp_l. f_equal. ring.
  - eapply step_trans; [eapply (rot_scr e i0); [lia|exact S4]|].
    eapply step_trans; [eapply (rot_scr e (i0 + 1)); [lia|exact S5]|]. eapply step_weaken; [exact S6|..]; auto.
    + unfold pscr, tscr, blk, pe_trlweA, pe_trlweB. clear - Hi1 N1. lia.
    + unfold blk. intros; lia.
  - eapply pe_ok_step; [exact S6|exact He5|rewrite I6'; lia|rewrite I6; apply next4_range; exact N1].
Qed.

Lemma BlindRotate_slot m e src tvr tv bsk off : pe_ok m e -> bsk_ok L pr bsk -> zlen (tm m src) = n + 1 -> at_ m tvr tv -> ct_ok N tv ->
  ~ pscr e src -> ~ pscr e (rA tvr) -> ~ pscr e (rB tvr) ->
  exists r m', BlindRotate O pr m src tvr bsk off e = Ok (r, m') /\ at_ m' r (brp off bsk (tm m src) tv n) /\
    acc_at e (im m (pe_i e + 1)) n m' r /\ step (pscr e) (blk (pe_f e) 15) (blk (pe_i e) 2) m m' /\ pe_ok m' e.
Proof.
  intros He Hb Hc TV Htv NI NA NB. pose proof (pw_n _ _ W) as Hn.
  unfold BlindRotate. destruct (br_first_ok m e src tvr tv off bsk He Hc TV Htv NA NB) as (r0 & m2 & E0 & V0 & A0 & S0 & He2).
  rewrite E0. cbn [bind]. set (t0 := im m (pe_i e + 1)) in *. set (ct := tm m src) in *.
  for_inv (fun k (rm : tref * M) => let '(r, m') := rm in
     step (pscr e) (blk (pe_f e) 15) (blk (pe_i e) 2) m m' /\ pe_ok m' e /\ at_ m' r (brp off bsk ct tv k) /\ acc_at e t0 k m' r) E HI.
  - assumption.
  - auto.
  - intros k [r m3] Hk (S3 & He3 & K3 & Hacc).
    assert (Ec: tm m3 src = ct) by (apply (step_t _ _ _ _ _ _ _ S3); assumption).
    destruct (br_next_ok m3 e src tv bsk off t0 k r He3 Hb) as (r' & m4 & E4 & V4 & A4 & S4 & He4); try assumption; [congruence|rewrite Ec; exact K3|].
    rewrite Ec in V4. exists (r', m4). split; [exact E4|]. split; [eapply step_trans; eassumption|]. auto.
  - destruct st as [r m6]. destruct HI as (S6 & He6 & V6 & Hacc). exists r, m6. auto.
Qed.
Lemma BlindRotate_ok m e src tvr tv bsk off : pe_ok m e -> bsk_ok L pr bsk -> zlen (tm m src) = n + 1 -> at_ m tvr tv -> ct_ok N tv ->
  ~ pscr e src -> ~ pscr e (rA tvr) -> ~ pscr e (rB tvr) ->
  exists r m', BlindRotate O pr m src tvr bsk off e = Ok (r, m') /\ at_ m' r (brp off bsk (tm m src) tv n) /\
    pscr e (rA r) /\ pscr e (rB r) /\ step (pscr e) (blk (pe_f e) 15) (blk (pe_i e) 2) m m' /\ pe_ok m' e.
Proof.
  intros He Hb Hc TV Htv NI NA NB. destruct (BlindRotate_slot m e src tvr tv bsk off He Hb Hc TV Htv NI NA NB) as (r & m' & E & V & A & S & He').
  destruct (acc_in _ _ _ _ _ A). exists r, m'. auto 10.
Qed.
End Old.

(** * Memories that grow: allocation, new evaluators, bootstraps and gates *)
From Coq Require Import Lia ZifyBool Setoid Morphisms.
From Verif Require Import GoBase GoFacts GoMem MemFacts F64 Utils Params Tlwe TlweMem TlweFacts
  Poly PolyFacts NegFacts Laws Trlwe TrlweFacts Trgsw TrgswFacts RotFacts KeySwitchFacts Evaluator EvalFacts Gates RunSpec.
Local Open Scope Z_scope.

Lemma upd_same (a : list Z) i : 0 <= i < zlen a -> upd a i (zn a i) = a.
Proof.
  intro H. apply (list_ext 0); [apply zlen_upd|]. intros j Hj. rewrite zlen_upd in Hj. rewrite znd_upd by lia.
  destruct (Z.eqb_spec j i) as [->|]; reflexivity.
Qed.

Section Heap.
Context {O : fops} {N : Z} (L : flaws O N).
Notation M := (mem (FP O)).

(** [m'] is [m] after writes to locations in T, P, I and new allocations *)
Record grows (T P I : Z -> Prop) (m m' : M) : Prop := {
  gr_t : forall x, x < tnext m -> ~ T x -> tm m' x = tm m x;
  gr_f : forall x, x < fnext m -> ~ P x -> fm m' x = fm m x;
  gr_i : forall x, x < inext m -> ~ I x -> im m' x = im m x;
  gr_len : forall x, x < tnext m -> zlen (tm m' x) = zlen (tm m x);
  gr_fok : forall x, x < fnext m -> fok L (fm m x) -> fok L (fm m' x);
  gr_n : tnext m <= tnext m' /\ fnext m <= fnext m' /\ inext m <= inext m'
}.

Lemma grows_refl T P I m : grows T P I m m.
Proof. split; auto. lia. Qed.
Lemma grows_trans T P I m1 m2 m3 : grows T P I m1 m2 -> grows T P I m2 m3 -> grows T P I m1 m3.
Proof.
  intros H1 H2. destruct (gr_n _ _ _ _ _ H1) as (a1 & a2 & a3), (gr_n _ _ _ _ _ H2) as (b1 & b2 & b3). split.
  - intros x Hx Ht. rewrite (gr_t _ _ _ _ _ H2), (gr_t _ _ _ _ _ H1) by (assumption || lia). reflexivity.
  - intros x Hx Ht. rewrite (gr_f _ _ _ _ _ H2), (gr_f _ _ _ _ _ H1) by (assumption || lia). reflexivity.
  - intros x Hx Ht. rewrite (gr_i _ _ _ _ _ H2), (gr_i _ _ _ _ _ H1) by (assumption || lia). reflexivity.
  - intros x Hx. rewrite (gr_len _ _ _ _ _ H2), (gr_len _ _ _ _ _ H1) by lia. reflexivity.
  - intros x Hx Hf. apply (gr_fok _ _ _ _ _ H2); [lia|]. apply (gr_fok _ _ _ _ _ H1); assumption.
  - lia.
Qed.
Lemma grows_weaken (T P I T' P' I' : Z -> Prop) m m' : grows T P I m m' ->
  (forall x, x < tnext m -> T x -> T' x) -> (forall x, x < fnext m -> P x -> P' x) ->
  (forall x, x < inext m -> I x -> I' x) -> grows T' P' I' m m'.
Proof.
  intros H HT HP HI. split; try apply H.
  - intros x Hx Hn. apply (gr_t _ _ _ _ _ H); auto.
  - intros x Hx Hn. apply (gr_f _ _ _ _ _ H); auto.
  - intros x Hx Hn. apply (gr_i _ _ _ _ _ H); auto.
Qed.
Lemma step_grows T P I m m' : step L T P I m m' -> grows T P I m m'.
Proof.
  intros [Hf [S1 S2]]. destruct (fr_n _ _ _ _ _ Hf) as (n1 & n2 & n3). split; auto; try lia; intros.
  - apply (fr_t _ _ _ _ _ Hf); assumption.
  - apply (fr_f _ _ _ _ _ Hf); assumption.
  - apply (fr_i _ _ _ _ _ Hf); assumption.
Qed.
Lemma alloc_grows T P I m v : grows T P I m (snd (alloc m v)).
Proof.
  unfold alloc, snd. split; cbn [tm fm im tnext fnext inext]; auto; try lia;
    intros; destruct (Z.eqb_spec x (tnext m)); try lia; reflexivity.
Qed.
Lemma alloc_at (m : M) v : tm (snd (alloc m v)) (tnext m) = v.
Proof. cbn. rewrite Z.eqb_refl. reflexivity. Qed.

Lemma alloc_ts_grows T P I m k v : 0 <= k -> grows T P I m (snd (alloc_ts m k v)).
Proof.
  intro. unfold alloc_ts, snd. split; cbn [tm fm im tnext fnext inext]; auto; try lia;
    intros; destruct (Z.leb_spec (tnext m) x); try lia; reflexivity.
Qed.
Lemma alloc_fs_grows T P I m k v : 0 <= k -> grows T P I m (snd (alloc_fs m k v)).
Proof.
  intro. unfold alloc_fs, snd. split; cbn [tm fm im tnext fnext inext]; auto; try lia;
    intros; destruct (Z.leb_spec (fnext m) x); try lia; assumption || reflexivity.
Qed.
Lemma alloc_is_grows T P I m k v : 0 <= k -> grows T P I m (snd (alloc_is m k v)).
Proof.
  intro. unfold alloc_is, snd. split; cbn [tm fm im tnext fnext inext]; auto; try lia;
    intros; destruct (Z.leb_spec (inext m) x); try lia; reflexivity.
Qed.

Context (pr : pset) (W : pwf pr N).
Notation l := (g_L pr).
Notation bg := (g_BGBIT pr).
Notation n := (lv0_N pr).
Notation ev_ok := (ev_ok L pr).

Lemma ev_ok_grows T P (I : Z -> Prop) m m' e : grows T P I m m' -> ev_ok m e ->
  0 <= im m' (pe_i (ev_pe e)) < 4 -> 0 <= im m' (pe_i (ev_pe e) + 1) < 4 -> 0 <= im m' (bp_i (ev_bp e)) < 4 ->
  ev_ok m' e.
Proof.
  intros G H I1 I2 I3. destruct (gr_n _ _ _ _ _ G) as (n1 & n2 & n3). destruct H.
  assert (H2l: 0 <= dc_levels (ev_dec e)) by (pose proof (pw_l _ _ W); lia).
  constructor; try assumption; try lia;
    try (intros x Hx; unfold blk in Hx; rewrite (gr_len _ _ _ _ _ G) by lia; first [exact (eo_pt x Hx)|exact (eo_dt x Hx)|exact (eo_bt x Hx)|exact (eo_b11 x Hx)]);
    try (intros x Hx; apply (gr_fok _ _ _ _ _ G); [unfold blk in Hx; lia|first [exact (eo_pf x Hx)|exact (eo_df x Hx)|exact (eo_bf x Hx)]]).
  rewrite (gr_len _ _ _ _ _ G) by lia. assumption.
Qed.

(** when the ints are not written *)
Lemma ev_ok_grows0 T P (I : Z -> Prop) m m' e : grows T P I m m' -> ev_ok m e ->
  (forall x, I x -> ~ iown e x) -> ev_ok m' e.
Proof.
  intros G H HI. pose proof (eo_i0 _ _ _ _ H). pose proof (eo_i1 _ _ _ _ H). pose proof (eo_i2 _ _ _ _ H).
  assert (HK: forall x, iown e x -> im m' x = im m x).
  { intros x Hx. apply (gr_i _ _ _ _ _ G); [unfold iown in Hx; lia|]. intro A. exact (HI x A Hx). }
  eapply ev_ok_grows; [exact G|exact H|..]; rewrite HK by (unfold iown; lia); apply H.
Qed.

Lemma ev_ok_alloc m e v : ev_ok m e -> ev_ok (snd (alloc m v)) e.
Proof.
  intro H. eapply (ev_ok_grows0 none none none); [apply alloc_grows|exact H|]. intros x [].
Qed.

(** ** NewEvaluator *)
Lemma grows_mem_ok T P I m m' : grows T P I m m' -> mem_ok m -> mem_ok m'.
Proof. intros G (a & b & c). destruct (gr_n _ _ _ _ _ G) as (d & e & f). unfold mem_ok. lia. Qed.

Lemma alloc_ts_at (m : M) k v x : blk (tnext m) k x -> tm (snd (alloc_ts m k v)) x = v.
Proof.
  unfold blk. intro. cbn [alloc_ts snd tm]. destruct (Z.leb_spec (tnext m) x), (Z.ltb_spec x (tnext m + k)); try lia. reflexivity.
Qed.
Lemma alloc_fs_at (m : M) k v x : blk (fnext m) k x -> fm (snd (alloc_fs m k v)) x = v.
Proof.
  unfold blk. intro. cbn [alloc_fs snd fm]. destruct (Z.leb_spec (fnext m) x), (Z.ltb_spec x (fnext m + k)); try lia. reflexivity.
Qed.
Lemma alloc_is_at (m : M) k v x : blk (inext m) k x -> im (snd (alloc_is m k v)) x = v.
Proof.
  unfold blk. intro. cbn [alloc_is snd im]. destruct (Z.leb_spec (inext m) x), (Z.ltb_spec x (inext m + k)); try lia. reflexivity.
Qed.

(** old locations keep their contents *)
Lemma keep_t m m' x : grows none none none m m' -> x < tnext m -> tm m' x = tm m x.
Proof. intros G H. apply (gr_t _ _ _ _ _ G); [exact H|intros []]. Qed.
Lemma keep_f m m' x : grows none none none m m' -> x < fnext m -> fm m' x = fm m x.
Proof. intros G H. apply (gr_f _ _ _ _ _ G); [exact H|intros []]. Qed.
Lemma keep_i m m' x : grows none none none m m' -> x < inext m -> im m' x = im m x.
Proof. intros G H. apply (gr_i _ _ _ _ _ G); [exact H|intros []]. Qed.

(** three allocations: torus, Fourier, ints *)
Definition extends (m m' : M) (kt kf ki : Z) : Prop :=
  grows none none none m m' /\ tnext m' = tnext m + kt /\ fnext m' = fnext m + kf /\ inext m' = inext m + ki.

Lemma NewPolyEvaluator_ok m : exists m',
  NewPolyEvaluator O m N = Ok ({| pe_deg := N; pe_t := tnext m; pe_f := fnext m; pe_i := inext m |}, m') /\
  extends m m' 24 15 2 /\
  (forall x, blk (tnext m) 24 x -> zlen (tm m' x) = N) /\ (forall x, blk (fnext m) 15 x -> fok L (fm m' x)) /\
  (forall x, blk (inext m) 2 x -> im m' x = 0).
Proof.
  pose proof (law_N L) as H16.
  unfold NewPolyEvaluator, newEvaluationBuffer. rewrite (law_deg L). cbn [bind].
  rewrite (NewPoly_ok L), (law_new L). cbn [bind]. unfold pe_tsize, pe_fsize.
  set (v := repeat 0 (Z.to_nat N)). assert (Hv: zlen v = N) by (unfold v; rewrite zlen_repeat; lia).
  rewrite (surjective_pairing (alloc_ts m 24 v)). set (m1 := snd (alloc_ts m 24 v)).
  rewrite (surjective_pairing (alloc_fs m1 15 (Fzero L))). set (m2 := snd (alloc_fs m1 15 (Fzero L))).
  rewrite (surjective_pairing (alloc_is m2 2 0)). set (m3 := snd (alloc_is m2 2 0)).
  exists m3. split; [reflexivity|].
  assert (G1: grows none none none m m1) by (apply alloc_ts_grows; lia).
  assert (G2: grows none none none m1 m2) by (apply alloc_fs_grows; lia).
  assert (G3: grows none none none m2 m3) by (apply alloc_is_grows; lia).
  split; [split; [eapply grows_trans; [exact G1|eapply grows_trans; eassumption]|repeat split]|].
  split; [|split].
  - intros x Hx. rewrite (keep_t m2 m3), (keep_t m1 m2) by (try assumption; unfold blk in Hx; cbn; lia).
    unfold m1. rewrite alloc_ts_at by exact Hx. exact Hv.
  - intros x Hx. rewrite (keep_f m2 m3) by (try assumption; unfold blk in Hx; cbn; lia).
    unfold m2. rewrite alloc_fs_at by exact Hx. apply law_zero.
  - intros x Hx. apply alloc_is_at. exact Hx.
Qed.

Lemma NewDecomposer_ok m k : 1 <= k -> exists m',
  NewDecomposer O m N k = Ok ({| dc_t := tnext m; dc_f := fnext m; dc_levels := k |}, m') /\
  extends m m' k k 0 /\
  (forall x, blk (tnext m) k x -> zlen (tm m' x) = N) /\ (forall x, blk (fnext m) k x -> fok L (fm m' x)).
Proof.
  intro Hk. pose proof (law_N L) as H16. unfold NewDecomposer.
  destruct (Z.ltb_spec k 0); [lia|]. cbn [bind]. destruct (Z.eqb_spec k 0); [lia|].
  rewrite (NewPoly_ok L), (law_new L). cbn [bind].
  set (v := repeat 0 (Z.to_nat N)). assert (Hv: zlen v = N) by (unfold v; rewrite zlen_repeat; lia).
  rewrite (surjective_pairing (alloc_ts m k v)). set (m1 := snd (alloc_ts m k v)).
  rewrite (surjective_pairing (alloc_fs m1 k (Fzero L))). set (m2 := snd (alloc_fs m1 k (Fzero L))).
  exists m2. split; [reflexivity|].
  assert (G1: grows none none none m m1) by (apply alloc_ts_grows; lia).
  assert (G2: grows none none none m1 m2) by (apply alloc_fs_grows; lia).
  split; [split; [eapply grows_trans; eassumption|repeat split; cbn; lia]|]. split.
  - intros x Hx. rewrite (keep_t m1 m2) by (try assumption; unfold blk in Hx; cbn; lia).
    unfold m1. rewrite alloc_ts_at by exact Hx. exact Hv.
  - intros x Hx. unfold m2. rewrite alloc_fs_at by exact Hx. apply law_zero.
Qed.

Lemma NewBufferPool_ok m : exists m',
  NewBufferPool O pr m N = Ok ({| bp_t := tnext m; bp_f := fnext m; bp_i := inext m |}, m') /\
  extends m m' 17 2 1 /\
  (forall x, blk (tnext m) 10 x -> zlen (tm m' x) = N) /\ zlen (tm m' (tnext m + 10)) = N + 1 /\
  (forall x, blk (tnext m + 11) 6 x -> zlen (tm m' x) = n + 1) /\
  (forall x, blk (fnext m) 2 x -> fok L (fm m' x)) /\ im m' (inext m) = 0.
Proof.
  pose proof (law_N L) as H16. pose proof (pw_n _ _ W) as Hn. unfold NewBufferPool. rewrite (law_new L). cbn [bind].
  rewrite (NewTRLWELv1_ok L) by apply (pw_trN _ _ W). cbn [bind tA]. unfold NewTLWE. rewrite (pw_lv1N _ _ W).
  rewrite !make_ok by lia. cbn [bind].
  set (v := repeat 0 (Z.to_nat N)). assert (Hv: zlen v = N) by (unfold v; rewrite zlen_repeat; lia).
  set (v1 := repeat 0 (Z.to_nat (N + 1))). assert (Hv1: zlen v1 = N + 1) by (unfold v1; rewrite zlen_repeat; lia).
  set (v0 := repeat 0 (Z.to_nat (n + 1))). assert (Hv0: zlen v0 = n + 1) by (unfold v0; rewrite zlen_repeat; lia).
  rewrite (surjective_pairing (alloc_fs m 2 (Fzero L))). set (m1 := snd (alloc_fs m 2 (Fzero L))).
  rewrite (surjective_pairing (alloc_ts m1 10 v)). set (m2 := snd (alloc_ts m1 10 v)).
  rewrite (surjective_pairing (alloc_ts m2 1 v1)). set (m3 := snd (alloc_ts m2 1 v1)).
  rewrite (surjective_pairing (alloc_ts m3 6 v0)). set (m4 := snd (alloc_ts m3 6 v0)).
  rewrite (surjective_pairing (alloc_is m4 1 0)). set (m5 := snd (alloc_is m4 1 0)).
  exists m5. split; [reflexivity|].
  assert (G1: grows none none none m m1) by (apply alloc_fs_grows; lia).
  assert (G2: grows none none none m1 m2) by (apply alloc_ts_grows; lia).
  assert (G3: grows none none none m2 m3) by (apply alloc_ts_grows; lia).
  assert (G4: grows none none none m3 m4) by (apply alloc_ts_grows; lia).
  assert (G5: grows none none none m4 m5) by (apply alloc_is_grows; lia).
  assert (T2: tnext m2 = tnext m + 10) by reflexivity.
  assert (T3: tnext m3 = tnext m + 11) by (cbn; lia).
  assert (T4: tnext m4 = tnext m + 17) by (cbn; lia).
  assert (G35: grows none none none m3 m5) by (eapply grows_trans; eassumption).
  assert (G25: grows none none none m2 m5) by (eapply grows_trans; eassumption).
  assert (G15: grows none none none m1 m5) by (eapply grows_trans; eassumption).
  split; [split; [eapply grows_trans; eassumption|repeat split; cbn; lia]|]. split; [|split; [|split; [|split]]].
  - intros x Hx. rewrite (keep_t m2 m5) by (try assumption; unfold blk in Hx; lia).
    unfold m2. rewrite alloc_ts_at by exact Hx. exact Hv.
  - rewrite (keep_t m3 m5) by (try assumption; lia). unfold m3. rewrite alloc_ts_at by (unfold blk; lia). exact Hv1.
  - intros x Hx. rewrite (keep_t m4 m5) by (try assumption; unfold blk in Hx; lia).
    unfold m4. rewrite alloc_ts_at by (rewrite T3; exact Hx). exact Hv0.
  - intros x Hx. rewrite (keep_f m1 m5) by (try assumption; unfold blk in Hx; cbn; lia).
    unfold m1. rewrite alloc_fs_at by exact Hx. apply law_zero.
  - apply alloc_is_at. unfold blk. change (inext m4) with (inext m). lia.
Qed.

Lemma NewEvaluator_ok' pr0 m : serves pr0 pr -> mem_ok m -> exists e m',
  NewEvaluator O pr0 m N = Ok (e, m') /\ ev_ok m' e /\ grows none none none m m' /\
  (forall x, own e x <-> tnext m <= x < tnext m') /\ (forall x, fown e x <-> fnext m <= x < fnext m') /\
  (forall x, iown e x <-> inext m <= x < inext m') /\ im m' (bp_i (ev_bp e)) = 0.
Proof.
  intros (V1 & V2 & V3 & V4 & V5) (M1 & M2 & M3). pose proof (pw_l _ _ W) as Hl. unfold NewEvaluator. set (l0 := g_L pr0) in *.
  assert (EB: forall m, NewBufferPool O pr0 m N = NewBufferPool O pr m N) by (intro; unfold NewBufferPool, NewTRLWELv1; rewrite V2, V3, V4; reflexivity).
  destruct (NewPolyEvaluator_ok m) as (m1 & E1 & (G1 & A1 & B1 & C1) & P1 & P2 & P3). rewrite E1. cbn [bind].
  destruct (NewDecomposer_ok m1 (l0 * 2) ltac:(lia)) as (m2 & E2 & (G2 & A2 & B2 & C2) & D1 & D2). rewrite E2. cbn [bind].
  rewrite EB. destruct (NewBufferPool_ok m2) as (m3 & E3 & (G3 & A3 & B3 & C3) & Q1 & Q2 & Q3 & Q4 & Q5). rewrite E3. cbn [bind].
  eexists _, _. split; [reflexivity|].
  assert (G13: grows none none none m1 m3) by (eapply grows_trans; eassumption).
  split; [|split; [eapply grows_trans; eassumption|unfold own, fown, iown; cbn [ev_pe ev_bp pe_t pe_f pe_i bp_t bp_f bp_i]; repeat split; lia]].
  constructor; cbn [ev_pe ev_dec ev_bp pe_deg pe_t pe_f pe_i dc_t dc_f dc_levels bp_t bp_f bp_i];
    [reflexivity|lia|lia|lia|lia|lia|lia|lia|lia|lia|lia|lia|lia|..].
  - intros x Hx. rewrite (gr_len _ _ _ _ _ G13) by (unfold blk in Hx; lia). apply P1. exact Hx.
  - intros x Hx. rewrite (gr_len _ _ _ _ _ G3) by (unfold blk in Hx; lia). apply D1. exact Hx.
  - exact Q1.
  - exact Q2.
  - exact Q3.
  - intros x Hx. apply (gr_fok _ _ _ _ _ G13); [unfold blk in Hx; lia|]. apply P2. exact Hx.
  - intros x Hx. apply (gr_fok _ _ _ _ _ G3); [unfold blk in Hx; lia|]. apply D2. exact Hx.
  - exact Q4.
  - rewrite (keep_i m1 m3) by (try assumption; lia). rewrite P3 by (unfold blk; lia). lia.
  - rewrite (keep_i m1 m3) by (try assumption; lia). rewrite P3 by (unfold blk; lia). lia.
  - rewrite Q5. lia.
Qed.

Lemma NewEvaluator_ok m : mem_ok m -> exists e m',
  NewEvaluator O pr m N = Ok (e, m') /\ ev_ok m' e /\ grows none none none m m' /\
  (forall x, own e x <-> tnext m <= x < tnext m') /\ (forall x, fown e x <-> fnext m <= x < fnext m') /\
  (forall x, iown e x <-> inext m <= x < inext m') /\ im m' (bp_i (ev_bp e)) = 0.
Proof. apply NewEvaluator_ok'. unfold serves. lia. Qed.

(** ** the ring of results *)
Definition slot (e : evaluator) (i : Z) : Z := bp_t (ev_bp e) + 13 + i.

Lemma GetNextResult_ok m e : ev_ok m e ->
  GetNextResult O m (ev_bp e) = Ok (slot e (im m (bp_i (ev_bp e))),
    iset m (bp_i (ev_bp e)) ((im m (bp_i (ev_bp e)) + 1) mod 4)).
Proof.
  intro H. unfold GetNextResult, bp_Index, bp_Buffers, slot. pose proof (eo_bi _ _ _ _ H).
  destruct (Z.ltb_spec (im m (bp_i (ev_bp e))) 0); [lia|]. destruct (Z.leb_spec 4 (im m (bp_i (ev_bp e)))); [lia|].
  cbn [orb]. rewrite Z.rem_mod_nonneg by lia. reflexivity.
Qed.

Lemma scr_own m e k x : ev_ok m e -> k <= 17 -> scr e k x -> own e x.
Proof.
  intros H Hk. pose proof (eo_t1 _ _ _ _ H). pose proof (eo_t2 _ _ _ _ H). pose proof (eo_lv _ _ _ _ H). pose proof (pw_l _ _ W).
  unfold scr, dcb, own, blk. lia.
Qed.
Lemma fscr_own m e x : ev_ok m e -> fscr e x -> fown e x.
Proof.
  intros H. pose proof (eo_f1 _ _ _ _ H). pose proof (eo_f2 _ _ _ _ H). pose proof (eo_lv _ _ _ _ H). pose proof (pw_l _ _ W).
  unfold fscr, fown, blk. lia.
Qed.
Lemma slot_own m e i : ev_ok m e -> 0 <= i < 4 -> own e (slot e i).
Proof.
  intros H Hi. pose proof (eo_t1 _ _ _ _ H). pose proof (eo_t2 _ _ _ _ H). pose proof (eo_lv _ _ _ _ H). pose proof (pw_l _ _ W).
  unfold slot, own. lia.
Qed.
Lemma slot_scr m e i : ev_ok m e -> 0 <= i < 4 -> ~ scr e 11 (slot e i).
Proof.
  intros H Hi. pose proof (eo_t2 _ _ _ _ H). pose proof (eo_lv _ _ _ _ H). pose proof (pw_l _ _ W).
  unfold slot, scr, dcb, blk. lia.
Qed.
Lemma slot_inj e i j : slot e i = slot e j -> i = j.
Proof. unfold slot. lia. Qed.

(** the input of a bootstrap: a ciphertext outside the scratch buffers (it may
    be one of the evaluator's earlier results) *)
Definition inp (m : M) (e : evaluator) (ct : Z) : Prop := zlen (tm m ct) = n + 1 /\ ~ scr e 8 ct.
Definition tvp (m : M) (e : evaluator) (r : tref) (tv : trlwe) : Prop :=
  at_ m r tv /\ ct_ok N tv /\ ~ scr e 8 (rA r) /\ ~ scr e 8 (rB r).

Lemma Bootstrap_ok m e ctIn tvr tv bsk ksk off :
  ev_ok m e -> bsk_ok L pr bsk -> @ksk_ok N pr ksk -> inp m e ctIn -> tvp m e tvr tv ->
  exists m', Bootstrap O pr m e ctIn tvr bsk ksk off = Ok (slot e (im m (bp_i (ev_bp e))), m') /\
    tm m' (slot e (im m (bp_i (ev_bp e)))) = bootp L pr off bsk ksk tv (tm m ctIn) /\
    im m' (bp_i (ev_bp e)) = (im m (bp_i (ev_bp e)) + 1) mod 4 /\
    ev_ok m' e /\
    step L (fun x => scr e 11 x \/ x = slot e (im m (bp_i (ev_bp e)))) (fscr e) (eq (bp_i (ev_bp e))) m m'.
Proof.
  intros He Hb Hk [Hc Nc] ([TA TB] & Htv & N1 & N2). unfold Bootstrap. rewrite GetNextResult_ok by assumption. cbn [bind].
  set (i := im m (bp_i (ev_bp e))). pose proof (eo_bi _ _ _ _ He) as Hi. fold i in Hi.
  set (m1 := iset m (bp_i (ev_bp e)) ((i + 1) mod 4)).
  assert (S1: step L none none (eq (bp_i (ev_bp e))) m m1) by (apply step_iset; reflexivity).
  assert (B: 0 <= (i + 1) mod 4 < 4) by (apply Z.mod_pos_bound; lia).
  assert (I1: im m1 (bp_i (ev_bp e)) = (i + 1) mod 4) by (apply im_iset).
  assert (He1: ev_ok m1 e).
  { eapply ev_ok_step; [exact S1|exact He|]. intros x <- _. rewrite I1. exact B. }
  destruct (BootstrapAssign_ok L pr W m1 e ctIn tvr tv bsk ksk off (slot e i)) as (m2 & E2 & V2 & S2); try assumption.
  - split; assumption.
  - change (tm m1 (slot e i)) with (tm m (slot e i)). apply (eo_b11 _ _ _ _ He). unfold blk, slot. lia.
  - unfold slot. lia.
  - rewrite E2. cbn [bind]. exists m2. split; [reflexivity|]. split; [exact V2|].
    assert (I2: im m2 (bp_i (ev_bp e)) = (i + 1) mod 4).
    { rewrite (step_i _ _ _ _ _ _ _ S2) by (intros []). exact I1. }
    split; [exact I2|]. split; [eapply ev_ok_step0; eassumption|].
    eapply step_trans; [eapply step_weaken; [exact S1|..]|eapply step_weaken; [exact S2|..]];
      try (intros x []; fail); auto.
Qed.

(** ** bootstrap of package gates *)
Definition bval_of (ck : gkey O) (tv : trlwe) (c : list Z) : list Z :=
  bootp L pr (gk_offset ck) (gk_bsk ck) (gk_ksk ck) tv c.

Record gk_ok (m : M) (e : evaluator) (ck : gkey O) (tv : trlwe) : Prop := {
  gk_b : bsk_ok L pr (gk_bsk ck);
  gk_k : @ksk_ok N pr (gk_ksk ck);
  gk_tv : at_ m (gk_testvec ck) tv;
  gk_tvo : ct_ok N tv;
  gk_ua : user m e (rA (gk_testvec ck));
  gk_ub : user m e (rB (gk_testvec ck))
}.

Lemma user_grows T P I m m' e x : grows T P I m m' -> user m e x -> user m' e x.
Proof. intros G [A B]. destruct (gr_n _ _ _ _ _ G) as (a & _). split; [lia|assumption]. Qed.

Lemma user_tm P I m m' e x : grows (own e) P I m m' -> user m e x -> tm m' x = tm m x.
Proof. intros G [A B]. apply (gr_t _ _ _ _ _ G); [lia|assumption]. Qed.

Lemma gk_ok_grows P I m m' e ck tv : grows (own e) P I m m' -> gk_ok m e ck tv -> gk_ok m' e ck tv.
Proof.
  intros G [a b [c1 c2] d ua ub]. constructor; try assumption; try (eapply user_grows; eassumption).
  split; [rewrite (user_tm _ _ _ _ _ _ G ua)|rewrite (user_tm _ _ _ _ _ _ G ub)]; assumption.
Qed.

Lemma gates_bootstrap_ok m e ct ck tv : mem_ok m -> ev_ok m e -> gk_ok m e ck tv -> user m e ct -> zlen (tm m ct) = n + 1 ->
  exists m', bootstrap O pr m e ct ck = Ok (tnext m, m') /\
    tm m' (tnext m) = bval_of ck tv (tm m ct) /\ ev_ok m' e /\
    grows (own e) (fown e) (iown e) m m' /\ tnext m' = tnext m + 1.
Proof.
  intros Hm He Hg [Hu1 Hu2] Hc. pose proof (pw_n _ _ W) as Hn.
  unfold bootstrap, new_ct, NewTLWE. rewrite make_ok by lia. cbn [bind].
  set (v := repeat 0 (Z.to_nat (n + 1))). assert (Hv: zlen v = n + 1) by (unfold v; rewrite zlen_repeat; lia).
  assert (EA: alloc m v = (tnext m, snd (alloc m v))) by reflexivity. rewrite EA. cbn [bind].
  set (m1 := snd (alloc m v)). assert (G1: forall T P I, grows T P I m m1) by (intros; apply alloc_grows).
  assert (T1: tm m1 (tnext m) = v) by apply alloc_at.
  assert (N1: tnext m1 = tnext m + 1) by reflexivity.
  assert (He1: ev_ok m1 e) by (apply ev_ok_alloc; assumption).
  pose proof (gk_ok_grows none none m m1 e ck tv (G1 _ _ _) Hg) as Hg1.
  assert (Uct: tm m1 ct = tm m ct) by (apply (gr_t _ _ _ _ _ (G1 none none none)); [lia|intros []]).
  assert (NO: ~ own e (tnext m)) by (pose proof (eo_t3 _ _ _ _ He); unfold own; lia).
  destruct (Bootstrap_ok m1 e ct (gk_testvec ck) tv (gk_bsk ck) (gk_ksk ck) (gk_offset ck))
    as (m2 & E2 & V2 & I2 & He2 & S2); try assumption; try (apply Hg1).
  { split; [rewrite Uct; assumption|]. intro A. apply Hu2. eapply scr_own; [exact He| |exact A]; lia. }
  { split; [apply Hg1|]. split; [apply Hg1|]. destruct (gk_ua _ _ _ _ Hg) as [_ A1], (gk_ub _ _ _ _ Hg) as [_ A2].
    split; intro A; [apply A1|apply A2]; (eapply scr_own; [exact He| |exact A]; lia). }
  rewrite E2. cbn [bind]. set (s := slot e (im m1 (bp_i (ev_bp e)))) in *.
  pose proof (eo_bi _ _ _ _ He1) as Hi1.
  assert (So: own e s) by (apply (slot_own m1); assumption).
  assert (L2: zlen (tm m2 s) = n + 1) by (rewrite V2; apply (bootp_ok L pr W)).
  assert (Ns: tnext m <> s) by (intro A; apply NO; rewrite A; exact So).
  assert (T2: tm m2 (tnext m) = v).
  { rewrite (step_t _ _ _ _ _ _ _ S2); [exact T1|]. intros [A|A]; [|contradiction]. apply NO. eapply scr_own; [exact He| |exact A]; lia. }
  set (m3 := mcopy m2 (tnext m) s).
  assert (T3: tm m3 (tnext m) = tm m2 s) by (apply mcopy_same; rewrite T2, L2; assumption).
  assert (S3: step L (eq (tnext m)) none none m2 m3) by (apply step_mcopy; reflexivity).
  assert (T3s: tm m3 s = tm m2 s) by (apply (step_t _ _ _ _ _ _ _ S3); assumption).
  rewrite load_ok by (rewrite T3s, L2; lia). cbn [bind]. rewrite store_ok by (rewrite T3, L2; lia). cbn [bind].
  rewrite T3, T3s. rewrite upd_same by (rewrite L2; lia).
  set (m4 := tset m3 (tnext m) (tm m2 s)).
  assert (S4: step L (eq (tnext m)) none none m3 m4) by (apply step_tset; [reflexivity|rewrite T3; reflexivity]).
  exists m4. split; [reflexivity|]. split.
  { unfold m4. rewrite tm_tset, V2. unfold bval_of. rewrite Uct. reflexivity. }
  assert (S24: step L (eq (tnext m)) none none m2 m4) by (eapply step_trans; eassumption).
  split; [eapply ev_ok_step0; eassumption|]. split.
  - apply (grows_weaken (fun x => own e x \/ x = tnext m) (fown e) (iown e)); auto; [|intros x Hx [A|A]; [exact A|lia]].
    eapply grows_trans; [apply G1|]. eapply grows_trans.
    + eapply grows_weaken; [apply step_grows; exact S2|..].
      * intros x _ [A|A]; left; [eapply scr_own; [exact He| |exact A]; lia|rewrite A; exact So].
      * intros x _ A. eapply fscr_own; eassumption.
      * intros x _ <-. pose proof (eo_i1 _ _ _ _ He). unfold iown. lia.
    + eapply grows_weaken; [apply step_grows; exact S24|..]; try (intros x _ []; fail). intros x _ <-. right. reflexivity.
  - destruct (fr_n _ _ _ _ _ (proj1 S24)) as (a & _). destruct (fr_n _ _ _ _ _ (proj1 S2)) as (b & _). lia.
Qed.
End Heap.

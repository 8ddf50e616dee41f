(** * Proofs about the smaller operations *)
From Coq Require Import Lia ZifyBool String.
From Verif Require Import GoBase GoFacts GoMem MemFacts Spec Params Info Poly PolyFacts Fft Tlwe TlweFacts Trlwe Lut Buffers PoolSpec SmallSpec ExactPoly PoolProps.
Local Open Scope Z_scope.
Ltac Zify.zify_post_hook ::= idtac.

(** ** log2 *)
Lemma log2_loop_ok k : forall n a, 1 <= n < 2 ^ Z.of_nat k -> log2_loop k n a = a + Z.log2 n.
Proof.
  induction k as [|k IH]; intros n a Hn.
  - cbn in Hn. lia.
  - cbn [log2_loop]. rewrite Nat2Z.inj_succ, Z.pow_succ_r in Hn by lia. destruct (Z.ltb_spec 1 n).
    + rewrite Z.shiftr_div_pow2 by lia. change (2 ^ 1) with 2. rewrite IH.
      * pose proof (Z.div_mod n 2 ltac:(lia)). pose proof (Z.mod_pos_bound n 2 ltac:(lia)).
        assert (L: Z.log2 n = Z.succ (Z.log2 (n / 2))).
        { assert (C: n mod 2 = 0 \/ n mod 2 = 1) by lia. destruct C as [C|C].
          - rewrite <- Z.log2_double by lia. f_equal. lia.
          - rewrite <- Z.log2_succ_double by lia. f_equal. lia. }
        lia.
      * split; [apply Z.div_le_lower_bound; lia|apply Z.div_lt_upper_bound; lia].
    + replace n with 1 by lia. cbn. lia.
Qed.
Lemma log2_ok n : 1 <= n < 2 ^ 63 -> log2 n = Ok (Z.log2 n).
Proof.
  intro H. unfold log2. destruct (Z.leb_spec n 0); [lia|]. rewrite log2_loop_ok; [f_equal; lia|].
  change (Z.of_nat 64) with (63 + 1). rewrite Z.pow_add_r by lia. lia.
Qed.

(** ** the older rotation *)
Lemma old_rotation {F} (m : mem F) a k out : (0 <= k -> polyMulWithXKInPlace_trgsw m a k out = PolyMulWithXKInPlace m a k out) /\
  (k < 0 -> 0 < zlen (tm m a) -> ~ (2 * zlen (tm m a) | k) -> polyMulWithXKInPlace_trgsw m a k out = Panic PIndex).
Proof.
  unfold polyMulWithXKInPlace_trgsw, PolyMulWithXKInPlace. split.
  - intro Hk. pose proof (zlen_nonneg (tm m a)). unfold go_rem. destruct (Z.eqb_spec (2 * zlen (tm m a)) 0); [reflexivity|]. cbn [bind].
    pose proof (Z.rem_nonneg k (2 * zlen (tm m a)) ltac:(lia) Hk) as R.
    destruct (Z.eqb_spec (Z.rem k (2 * zlen (tm m a))) 0); [reflexivity|].
    destruct (Z.ltb_spec (Z.rem k (2 * zlen (tm m a))) 0); [lia|]. reflexivity.
  - intros Hk Hn Hd. rewrite go_rem_ok by lia. cbn [bind].
    assert (R: Z.rem k (2 * zlen (tm m a)) < 0).
    { pose proof (Z.rem_nonpos k (2 * zlen (tm m a)) ltac:(lia) ltac:(lia)) as R.
      assert (Z.rem k (2 * zlen (tm m a)) <> 0); [|lia]. intro E. apply Hd. apply Z.rem_divide; [lia|exact E]. }
    destruct (Z.eqb_spec (Z.rem k (2 * zlen (tm m a))) 0); [lia|]. destruct (Z.ltb_spec (Z.rem k (2 * zlen (tm m a))) (zlen (tm m a))); [|lia].
    rewrite for_range_S by lia. rewrite load_ok by lia. cbn [bind]. unfold store. rewrite set_panic by lia. reflexivity.
Qed.

(** ** products of ciphertexts *)
Lemma Mul_ok n s t u : 0 <= n -> zlen t = n + 1 -> zlen u = n + 1 ->
  exists r, Mul n t u = Ok r /\ lwe_ok n r /\ (forall i, 0 <= i <= n -> zn r i == zn t i * zn u i) /\
    ((forall i, 0 <= i < n -> zn t i * zn u i == 0) -> lwe_phase n s r == zn t n * zn u n).
Proof.
  intros Hn Ht Hu. unfold Mul. rewrite tlwe_map2_ok by lia. eexists. split; [reflexivity|]. split; [|split].
  - split; [apply zlen_tab; lia|]. apply tok_tab. intros. apply tok_w32.
  - intros i Hi. rewrite zn_tab by lia. apply tmul_eqm.
  - intros Z0. rewrite lwe_phase_eqm. rewrite zn_tab by lia. rewrite tmul_eqm.
    rewrite (zsum_eqm n _ (fun _ => 0)).
    + rewrite zsum_zero by reflexivity. apply eqm_refl'. lia.
    + intros i Hi. rewrite zn_tab by lia. rewrite tmul_eqm, Z0 by lia. reflexivity.
Qed.
Lemma Mul_not : ~ exists f : Z -> Z -> Z, forall n s t u r, 0 <= n -> zlen s = n -> zlen t = n + 1 -> zlen u = n + 1 ->
  Mul n t u = Ok r -> lwe_phase n s r = f (lwe_phase n s t) (lwe_phase n s u).
Proof.
  intros [f H].
  pose proof (H 1 [1] [1; 2] [1; 2] _ ltac:(lia) eq_refl eq_refl eq_refl eq_refl) as H1.
  pose proof (H 1 [1] [0; 1] [0; 1] _ ltac:(lia) eq_refl eq_refl eq_refl eq_refl) as H2.
  vm_compute in H1, H2. rewrite <- H2 in H1. discriminate H1.
Qed.

(** ** lookup tables *)
Lemma lut_copy pr lut : 0 <= trlwe_N pr -> zlen (tA lut) = trlwe_N pr -> zlen (tB lut) = trlwe_N pr -> Lut_Copy pr lut = Ok lut.
Proof.
  intros Hn Ha Hb. unfold Lut_Copy, NewLookUpTable, NewTRLWELv1. rewrite !make_ok by lia. cbn [bind tA tB].
  rewrite !copy_slice_same_len by (rewrite zlen_repeat; lia). destruct lut; reflexivity.
Qed.
Lemma lut_copy_from lut other : zlen (tA lut) = zlen (tA other) -> zlen (tB lut) = zlen (tB other) -> Lut_CopyFrom lut other = other.
Proof. intros Ha Hb. unfold Lut_CopyFrom. rewrite !copy_slice_same_len by assumption. destruct other; reflexivity. Qed.
Lemma lut_clear pr lut : 0 <= g_N pr -> zlen (tA lut) = g_N pr -> zlen (tB lut) = g_N pr ->
  Lut_Clear pr lut = Ok {| tA := repeat 0 (Z.to_nat (g_N pr)); tB := repeat 0 (Z.to_nat (g_N pr)) |}.
Proof.
  intros Hn Ha Hb. unfold Lut_Clear.
  destruct (for_range_inv (fun j s => zlen (tA s) = g_N pr /\ zlen (tB s) = g_N pr /\ forall i, 0 <= i < j -> zn (tA s) i = 0 /\ zn (tB s) i = 0)
    0 (g_N pr) (fun i lut => a <- set (tA lut) i 0 ;; b <- set (tB lut) i 0 ;; Ok {| tA := a; tB := b |}) lut) as (s & E & H1 & H2 & H3).
  - lia.
  - repeat split; try assumption; lia.
  - intros i s Hi (L1 & L2 & L3). rewrite !set_ok by lia. cbn [bind]. eexists. split; [reflexivity|]. cbn [tA tB]. rewrite !zlen_upd.
    repeat split; try assumption; rewrite zn_upd by lia; destruct (Z.eqb_spec i0 i); try reflexivity; apply L3; lia.
  - rewrite E. f_equal. destruct s as [A B]. cbn [tA tB] in *. rewrite !repeat_tab.
    f_equal; apply (eq_tab 0); try assumption; intros i Hi; rewrite <- zn_znd; apply H3; lia.
Qed.

(** ** clearing a ring ciphertext *)
Lemma clear_ring {F} (m : mem F) a b : zlen (tm m a) <= zlen (tm m b) ->
  exists m', ClearTRLWEBuffer m a b = Ok m' /\
    tm m' a = repeat 0 (Z.to_nat (zlen (tm m a))) /\
    tm m' b = tab (zlen (tm m b)) (fun i => if i <? zlen (tm m a) then 0 else zn (tm m b) i) /\
    framed (fun l => l = a \/ l = b) none none m m'.
Proof.
  intro Hl. unfold ClearTRLWEBuffer. pose proof (zlen_nonneg (tm m a)) as Hn. set (n := zlen (tm m a)) in *.
  destruct (for_range_inv (fun j m' => zlen (tm m' a) = n /\ zlen (tm m' b) = zlen (tm m b) /\
     (forall i, 0 <= i < n -> zn (tm m' a) i = if i <? j then 0 else zn (tm m a) i) /\
     (forall i, 0 <= i < zlen (tm m b) -> zn (tm m' b) i = if i <? j then 0 else zn (tm m b) i) /\
     framed (fun l => l = a \/ l = b) none none m m') 0 n (fun i m => m <- store m a i 0 ;; store m b i 0) m) as (m' & E & L1 & L2 & V1 & V2 & Fr).
  - lia.
  - split; [reflexivity|]. split; [reflexivity|]. split; [|split; [|apply framed_refl]]; intros i Hi; destruct (Z.ltb_spec i 0); try reflexivity; lia.
  - intros i s Hi (L1 & L2 & V1 & V2 & Fr). rewrite store_ok by lia. cbn [bind].
    assert (Lb: zlen (tm (tset s a (upd (tm s a) i 0)) b) = zlen (tm m b)).
    { destruct (Z.eq_dec b a) as [->|D]; [rewrite tm_tset, zlen_upd|rewrite tm_tset_ne by assumption]; assumption. }
    rewrite store_ok by lia. eexists. split; [reflexivity|].
    assert (V: forall j, 0 <= j -> j <> i -> zn (tm (tset s a (upd (tm s a) i 0)) b) j = zn (tm s b) j).
    { intros j Hj Hne. destruct (Z.eq_dec b a) as [->|D]; [rewrite tm_tset, zn_upd by lia; destruct (Z.eqb_spec j i); [lia|reflexivity]|].
      rewrite tm_tset_ne by assumption. reflexivity. }
    split; [|split; [|split; [|split]]].
    + destruct (Z.eq_dec a b) as [<-|D]; [rewrite tm_tset, zlen_upd, tm_tset, zlen_upd; exact L1|].
      rewrite tm_tset_ne, tm_tset, zlen_upd by assumption. exact L1.
    + rewrite tm_tset, zlen_upd. exact Lb.
    + intros j Hj. destruct (Z.eq_dec a b) as [<-|D].
      * rewrite tm_tset, zn_upd by lia. destruct (Z.eqb_spec j i) as [->|D]; [destruct (Z.ltb_spec i (i + 1)); [reflexivity|lia]|].
        rewrite V by lia. rewrite V1 by lia. destruct (Z.ltb_spec j i), (Z.ltb_spec j (i + 1)); try reflexivity; lia.
      * rewrite tm_tset_ne, tm_tset, zn_upd by (assumption || lia). destruct (Z.eqb_spec j i) as [->|D']; [destruct (Z.ltb_spec i (i + 1)); [reflexivity|lia]|].
        rewrite V1 by lia. destruct (Z.ltb_spec j i), (Z.ltb_spec j (i + 1)); try reflexivity; lia.
    + intros j Hj. rewrite tm_tset, zn_upd by lia. destruct (Z.eqb_spec j i) as [->|D]; [destruct (Z.ltb_spec i (i + 1)); [reflexivity|lia]|].
      rewrite V by lia. rewrite V2 by lia. destruct (Z.ltb_spec j i), (Z.ltb_spec j (i + 1)); try reflexivity; lia.
    + eapply framed_trans; [exact Fr|]. eapply framed_trans; apply framed_tset; auto.
  - exists m'. split; [exact E|]. split; [|split; [|exact Fr]].
    + rewrite repeat_tab. apply (eq_tab 0); [exact L1|]. intros i Hi. rewrite <- zn_znd, V1 by lia. destruct (Z.ltb_spec i n); [reflexivity|lia].
    + apply (eq_tab 0); [exact L2|]. intros i Hi. rewrite <- zn_znd. apply V2. lia.
Qed.
Lemma clear_ring_short {F} (m : mem F) a b : zlen (tm m b) < zlen (tm m a) -> ClearTRLWEBuffer m a b = Panic PIndex.
Proof.
  intro Hl. unfold ClearTRLWEBuffer. assert (D: b <> a) by (intros ->; lia). pose proof (zlen_nonneg (tm m b)) as Hn.
  apply (for_range_panic (fun _ m' => zlen (tm m' a) = zlen (tm m a) /\ zlen (tm m' b) = zlen (tm m b)) 0 _ (zlen (tm m b))).
  - lia.
  - split; reflexivity.
  - intros i s Hi [L1 L2]. rewrite store_ok by lia. cbn [bind]. rewrite store_ok by (rewrite tm_tset_ne by assumption; lia).
    eexists. split; [reflexivity|]. rewrite tm_tset_ne by congruence. rewrite tm_tset, zlen_upd, tm_tset, zlen_upd, tm_tset_ne by assumption. split; assumption.
  - intros s [L1 L2]. rewrite store_ok by lia. cbn [bind]. unfold store. rewrite set_panic; [reflexivity|]. rewrite tm_tset_ne by assumption. lia.
Qed.

(** ** the ring ciphertext pool *)
Lemma ring_calls_ok {F} (e : peval) cs : forall (m : mem F) t, 0 <= t -> im m (pe_trlweIdx e) = t mod 4 ->
  exists m', ring_calls e cs m = Ok (ring_robin e cs t, m') /\ framed none none (eq (pe_trlweIdx e)) m m'.
Proof.
  induction cs as [|[|] cs IH]; intros m t Ht I.
  - exists m. split; [reflexivity|apply framed_refl].
  - cbn [ring_calls ring_robin]. unfold GetTRLWEBuffer. rewrite I. pose proof (Z.mod_pos_bound t 4 ltac:(lia)) as B.
    destruct (Z.ltb_spec (t mod 4) 0); [lia|]. destruct (Z.leb_spec 4 (t mod 4)); [lia|]. cbn [orb bind].
    destruct (IH (iset m (pe_trlweIdx e) (Z.rem (t mod 4 + 1) 4)) (t + 1)) as (m' & E & Fr).
    + lia.
    + rewrite im_iset. rewrite Z.rem_mod_nonneg by lia. rewrite Z.add_mod_idemp_l by lia. reflexivity.
    + rewrite E. cbn [bind]. exists m'. split; [reflexivity|]. eapply framed_trans; [|exact Fr]. apply framed_iset. reflexivity.
  - cbn [ring_calls ring_robin]. destruct (IH (ResetTRLWEPool m e) 0) as (m' & E & Fr); [lia|unfold ResetTRLWEPool; rewrite im_iset; reflexivity|].
    exists m'. split; [exact E|]. eapply framed_trans; [|exact Fr]. apply framed_iset. reflexivity.
Qed.
Lemma ring_pool O (m : mem (FP O)) N e m1 cs : NewPolyEvaluator O m N = Ok (e, m1) ->
  exists m2, ring_calls e cs m1 = Ok (ring_robin e cs 0, m2) /\
    (forall l, tm m2 l = tm m1 l) /\ (forall l, fm m2 l = fm m1 l) /\ im m2 (pe_rotIdx e) = im m1 (pe_rotIdx e) /\
    (forall i, 0 <= i < 4 -> tnext m <= pe_trlweA e i < tnext m1 /\ tnext m <= pe_trlweB e i < tnext m1 /\
       zlen (tm m1 (pe_trlweA e i)) = N /\ zlen (tm m1 (pe_trlweB e i)) = N) /\
    (forall i j, 0 <= i < 4 -> 0 <= j < 4 -> pe_trlweA e i <> pe_trlweB e j /\ pe_rot e i <> pe_trlweA e j /\ pe_rot e i <> pe_trlweB e j /\
       (i <> j -> pe_trlweA e i <> pe_trlweA e j /\ pe_trlweB e i <> pe_trlweB e j)).
Proof.
  intro H. unfold NewPolyEvaluator, newEvaluationBuffer in H. apply bind_inv in H. destruct H as ([] & Hd & H).
  apply bind_inv in H. destruct H as (p & Hp & H). apply bind_inv in H. destruct H as (f & Hf & H).
  unfold NewPoly in Hp. rewrite Hd in Hp. cbn [bind] in Hp. apply make_zlen in Hp. destruct Hp as [_ Lp].
  cbn [alloc_ts alloc_fs alloc_is] in H. injection H as He Hm.
  destruct (ring_calls_ok e cs m1 0) as (m2 & E & Fr); [lia| |].
  { subst e m1. unfold pe_trlweIdx. cbn [pe_i im inext]. destruct (Z.leb_spec (inext m) (inext m + 1)), (Z.ltb_spec (inext m + 1) (inext m + 2)); try lia. reflexivity. }
  exists m2. split; [exact E|]. split; [intro l; apply (fr_t _ _ _ _ _ Fr); intros []|]. split; [intro l; apply (fr_f _ _ _ _ _ Fr); intros []|].
  split; [apply (fr_i _ _ _ _ _ Fr); unfold pe_trlweIdx, pe_rotIdx; lia|]. clear E Fr.
  subst e m1. unfold pe_trlweA, pe_trlweB, pe_rot, pe_tsize. cbn [pe_t tm tnext]. split.
  - intros i Hi. split; [lia|]. split; [lia|].
    split; (match goal with |- context [(_ <=? ?x) && _] => destruct (Z.leb_spec (tnext m) x), (Z.ltb_spec x (tnext m + 24)); try lia end); exact Lp.
  - intros i j Hi Hj. lia.
Qed.

(** ** the buffer pool of the evaluator *)
Lemma pool_reset R (b : fpool) cs (m : mem (list (AN R))) :
  exists m', calls (fp_poly b) cs (FP_Reset R m b) = Ok (robin (fp_poly b) cs 0 0, m') /\ im (FP_Reset R m b) (fp_i b) = 0 /\
    (forall l, tm m' l = tm m l) /\ (forall l, fm m' l = fm m l).
Proof.
  set (b' := fp_poly b). assert (D: bm_TRLWEInUse b' <> bm_InUse b') by (unfold bm_TRLWEInUse, bm_InUse; lia).
  assert (Z1: im (FP_Reset R m b) (bm_InUse b') = 0) by (unfold FP_Reset, BM_Reset; fold b'; rewrite im_iset_ne, im_iset by congruence; reflexivity).
  assert (Z2: im (FP_Reset R m b) (bm_TRLWEInUse b') = 0) by (unfold FP_Reset, BM_Reset; fold b'; rewrite im_iset; reflexivity).
  destruct (calls_ok R b' cs (FP_Reset R m b) 0 0) as (m' & E & Fr); try lia; rewrite ?Z1, ?Z2; try lia; try reflexivity.
  exists m'. split; [exact E|]. split.
  - unfold FP_Reset, BM_Reset. cbn [iset im]. destruct (fp_i b =? _); [reflexivity|]. destruct (fp_i b =? _); [reflexivity|]. rewrite Z.eqb_refl. reflexivity.
  - split; intro l.
    + rewrite (fr_t _ _ _ _ _ Fr) by (intros []). reflexivity.
    + rewrite (fr_f _ _ _ _ _ Fr) by (intros []). reflexivity.
Qed.

(** ** numbered and named buffers *)
Lemma numbered (e : peval) i : (0 <= i < 8 -> GetDecompBuffer e i = Ok (pe_decomp e i) /\ GetDecompFFTBuffer e i = Ok (pe_decompFFT e i)) /\
  (~ 0 <= i < 8 -> (exists p, GetDecompBuffer e i = Panic p) /\ exists p, GetDecompFFTBuffer e i = Panic p).
Proof.
  unfold GetDecompBuffer, GetDecompFFTBuffer, maxDecompLevels. split; intro H; destruct (Z.leb_spec 8 i), (Z.ltb_spec i 0); try lia; split; try reflexivity; eexists; reflexivity.
Qed.
Lemma copy_in R (m : mem (list (AN R))) (e : peval) src i : 0 <= i < 8 -> zlen (tm m src) = zlen (tm m (pe_decomp e i)) ->
  exists m', CopyToDecompBuffer R m e src i = Ok m' /\ tm m' (pe_decomp e i) = tm m src /\ framed (eq (pe_decomp e i)) none none m m'.
Proof.
  intros Hi L. unfold CopyToDecompBuffer, maxDecompLevels. destruct (Z.leb_spec 8 i), (Z.ltb_spec i 0); try lia.
  eexists. split; [reflexivity|]. split; [apply mcopy_same; congruence|apply mcopy_frame; reflexivity].
Qed.
Lemma names (e : peval) a b la lb : clear_name e a = Ok la -> clear_name e b = Ok lb -> la = lb -> a = b.
Proof.
  unfold clear_name, pe_fpAcc, pe_fpBcc.
  destruct (String.eqb_spec a "fpAcc"), (String.eqb_spec a "fpBcc"), (String.eqb_spec a "fpDiff"), (String.eqb_spec a "fpMul1"), (String.eqb_spec a "fpMul2"); try congruence;
  destruct (String.eqb_spec b "fpAcc"), (String.eqb_spec b "fpBcc"), (String.eqb_spec b "fpDiff"), (String.eqb_spec b "fpMul1"), (String.eqb_spec b "fpMul2"); try congruence;
  intros H1 H2 H3; injection H1; injection H2; intros; lia.
Qed.
Lemma name_iff (e : peval) a : ((exists l, clear_name e a = Ok l) <-> In a ["fpAcc"; "fpBcc"; "fpDiff"; "fpMul1"; "fpMul2"]%string) /\
  ((exists l, to_poly_name e a = Ok l) <-> In a ["fpAcc"; "fpBcc"; "fpDiff"]%string) /\
  (forall l, to_poly_name e a = Ok l -> clear_name e a = Ok l) /\
  (forall l, clear_name e a = Ok l -> pe_f e <= l < pe_f e + 15 /\ forall i, 0 <= i < 8 -> l <> pe_decompFFT e i).
Proof.
  unfold clear_name, to_poly_name, pe_fpAcc, pe_fpBcc, pe_decompFFT. cbn [In].
  destruct (String.eqb_spec a "fpAcc"), (String.eqb_spec a "fpBcc"), (String.eqb_spec a "fpDiff"), (String.eqb_spec a "fpMul1"), (String.eqb_spec a "fpMul2"); try congruence;
  (split; [split; [intros [l H]; try discriminate H; intuition congruence|intros H; (eexists; reflexivity) || (exfalso; intuition congruence)]|]);
  (split; [split; [intros [l H]; try discriminate H; intuition congruence|intros H; (eexists; reflexivity) || (exfalso; intuition congruence)]|]);
  (split; [intros l H; try discriminate H; exact H|]);
  intros l H; try discriminate H; injection H as <-; (split; [lia|intros; lia]).
Qed.

(** ** levels *)
Lemma block_rotation level : Params.UseBlockBlindRotation level = true /\ Buffers.UseBlockBlindRotation (get_params level) = true.
Proof.
  unfold Params.UseBlockBlindRotation, Buffers.UseBlockBlindRotation, get_params.
  repeat match goal with |- context [if ?c then _ else _] => destruct c; [split; reflexivity|] end. split; reflexivity.
Qed.
Lemma info_uint k : 1 <= k <= 8 -> SecurityInfo k = describes k (g_N (get_params k)) (if k =? 1 then "binary/boolean" else "messages").
Proof.
  intro H. assert (C: k = 1 \/ k = 2 \/ k = 3 \/ k = 4 \/ k = 5 \/ k = 6 \/ k = 7 \/ k = 8) by lia.
  destruct C as [->|[->|[->|[->|[->|[->|[->| ->]]]]]]]; vm_compute; reflexivity.
Qed.
Lemma info_same l1 l2 : SecurityInfo l1 = SecurityInfo l2 -> get_params l1 = get_params l2.
Proof.
  unfold SecurityInfo, get_params.
  repeat match goal with |- (if ?c then _ else _) = _ -> _ => destruct c end;
  repeat match goal with |- _ = (if ?c then _ else _) -> _ => destruct c end; intro H; try reflexivity; discriminate H.
Qed.
Lemma same_params l1 l2 : In l1 [80; 110; 128; 1; 2; 3; 4; 5; 6; 7; 8] -> In l2 [80; 110; 128; 1; 2; 3; 4; 5; 6; 7; 8] ->
  (get_params l1 = get_params l2 <-> l1 = l2 \/ In (l1, l2) [(5, 6); (6, 5); (7, 8); (8, 7)]).
Proof.
  cbn [In]. intros H1 H2. split.
  - intro E. assert (D: 200 * (lv0_N (get_params l1)) + g_IKS_T (get_params l1) + 7 * g_BlockSize (get_params l1) + g_N (get_params l1) = 200 * lv0_N (get_params l2) + g_IKS_T (get_params l2) + 7 * g_BlockSize (get_params l2) + g_N (get_params l2)) by (rewrite E; reflexivity).
    clear E. repeat destruct H1 as [<-|H1]; try contradiction; repeat destruct H2 as [<-|H2]; try contradiction; try (left; reflexivity); try (right; repeat ((left; reflexivity) || right); fail); vm_compute in D; discriminate D.
  - intros [->|H]; [reflexivity|]. clear H1 H2. repeat destruct H as [H|H]; try contradiction; injection H as <- <-; reflexivity.
Qed.

(** ** the forms used in the property file *)
Lemma clear_ring_all {F} (m : mem F) a b : zlen (tm m a) <= zlen (tm m b) ->
  exists m', ClearTRLWEBuffer m a b = Ok m' /\
    tm m' a = repeat 0 (Z.to_nat (zlen (tm m a))) /\
    (forall i, 0 <= i < zlen (tm m a) -> zn (tm m' b) i = 0) /\ (forall i, zlen (tm m a) <= i < zlen (tm m b) -> zn (tm m' b) i = zn (tm m b) i) /\
    zlen (tm m' b) = zlen (tm m b) /\
    (forall l, l <> a -> l <> b -> tm m' l = tm m l) /\ (forall l, fm m' l = fm m l) /\ (forall l, im m' l = im m l).
Proof.
  intro H. pose proof (zlen_nonneg (tm m a)). destruct (clear_ring m a b H) as (m' & E & V1 & V2 & Fr). exists m'. split; [exact E|]. split; [exact V1|]. rewrite V2. split; [|split; [|split; [|split; [|split]]]].
  - intros i Hi. rewrite zn_tab by lia. destruct (Z.ltb_spec i (zlen (tm m a))); [reflexivity|lia].
  - intros i Hi. rewrite zn_tab by lia. destruct (Z.ltb_spec i (zlen (tm m a))); [lia|reflexivity].
  - apply zlen_tab. lia.
  - intros l H1 H2. apply (fr_t _ _ _ _ _ Fr). tauto.
  - intro l. apply (fr_f _ _ _ _ _ Fr). intros [].
  - intro l. apply (fr_i _ _ _ _ _ Fr). intros [].
Qed.
Lemma copy_in_all R (m : mem (list (AN R))) (e : peval) src i : 0 <= i < 8 -> zlen (tm m src) = zlen (tm m (pe_decomp e i)) ->
  exists m' l, GetDecompBuffer e i = Ok l /\ CopyToDecompBuffer R m e src i = Ok m' /\ tm m' l = tm m src /\ (forall x, x <> l -> tm m' x = tm m x) /\ (forall x, fm m' x = fm m x).
Proof.
  intros Hi L. destruct (copy_in R m e src i Hi L) as (m' & E & V & Fr). exists m', (pe_decomp e i).
  split; [apply numbered; exact Hi|]. split; [exact E|]. split; [exact V|].
  split; intros x; [intro D; apply (fr_t _ _ _ _ _ Fr); congruence|apply (fr_f _ _ _ _ _ Fr); intros []].
Qed.

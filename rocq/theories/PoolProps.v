(** * C54: proofs about the buffer pools *)
From Coq Require Import Lia ZifyBool.
From Verif Require Import GoBase GoFacts GoMem MemFacts Spec Params Tlwe Poly PolyFacts Fft Trlwe BasicFacts Buffers PoolSpec.
Local Open Scope Z_scope.
Ltac Zify.zify_post_hook ::= idtac.

(** ** powers of two *)
Lemma is_pow2 N : isPowerOfTwo N = true -> exists k, 0 <= k /\ N = 2 ^ k.
Proof.
  unfold isPowerOfTwo. intro H. apply andb_true_iff in H. destruct H as [H1 H2]. apply Z.ltb_lt in H1. apply Z.eqb_eq in H2.
  exists (Z.log2 N). split; [apply Z.log2_nonneg|]. pose proof (Z.log2_spec N H1) as [L1 L2].
  destruct (Z.eq_dec N (2 ^ Z.log2 N)) as [E|E]; [exact E|]. exfalso.
  assert (P: 0 < N - 1) by (pose proof (Z.pow_pos_nonneg 2 (Z.log2 N) ltac:(lia) (Z.log2_nonneg N)); lia).
  assert (L: Z.log2 (N - 1) = Z.log2 N) by (apply Z.log2_unique; [apply Z.log2_nonneg|]; unfold Z.succ in *; lia).
  assert (B: Z.testbit (Z.land N (N - 1)) (Z.log2 N) = true).
  { rewrite Z.land_spec, Z.bit_log2 by exact H1. rewrite <- L. rewrite Z.bit_log2 by exact P. reflexivity. }
  rewrite H2, Z.bits_0 in B. discriminate.
Qed.
Lemma degree_shape N : check_degree N = Ok tt -> exists k, 4 <= k /\ N = 2 ^ k.
Proof.
  unfold check_degree, MinDegree. destruct (isPowerOfTwo N) eqn:E; cbn [negb]; [|discriminate]. apply is_pow2 in E. destruct E as (k & Hk & ->).
  destruct (Z.ltb_spec (2 ^ k) 16) as [H|H]; [discriminate|]. intros _. exists k. split; [|reflexivity].
  apply (Z.pow_le_mono_r_iff 2); [lia|assumption|]. exact H.
Qed.
Lemma degree_mod N : check_degree N = Ok tt -> 16 <= N /\ N mod 16 = 0.
Proof.
  intro H. destruct (degree_shape N H) as (k & Hk & ->). replace k with (4 + (k - 4)) by lia. rewrite Z.pow_add_r by lia. change (2 ^ 4) with 16.
  split.
  - pose proof (Z.pow_pos_nonneg 2 (k - 4)). lia.
  - rewrite Z.mul_comm. apply Z.mod_mul. lia.
Qed.

(** ** aligned constructors *)
Lemma aligned_eq {X} (z : X) line N : line = 8 \/ line = 16 -> aligned z line N = (check_degree N ;;; make z N).
Proof.
  intro Hl. unfold aligned. destruct (check_degree N) as [[]|p] eqn:E; cbn [bind]; [|reflexivity]. destruct (degree_mod N E) as [H1 H2].
  unfold make. destruct (Z.ltb_spec (N + line) 0); [lia|]. destruct (Z.ltb_spec N 0); [lia|]. cbn [bind].
  assert (L: zlen (repeat z (Z.to_nat (N + line))) = N + line) by (rewrite zlen_repeat; lia).
  rewrite L. destruct (Z.ltb_spec 0 (N + line)); [|lia].
  assert (A: (N + line) mod line = 0).
  { pose proof (Z.div_mod N 16 ltac:(lia)) as D. rewrite H2 in D. rewrite D. destruct Hl as [-> | ->].
    - replace (16 * (N / 16) + 0 + 8) with ((2 * (N / 16) + 1) * 8) by lia. apply Z.mod_mul. lia.
    - replace (16 * (N / 16) + 0 + 16) with ((N / 16 + 1) * 16) by lia. apply Z.mod_mul. lia. }
  rewrite A. cbn [Z.eqb]. unfold slice_at. rewrite L.
  destruct (Z.ltb_spec N 0); [lia|]. destruct (Z.ltb_spec (N + line) (0 + N)); [lia|]. cbn [orb].
  f_equal. cbn [Z.to_nat skipn]. replace (Z.to_nat (N + line)) with (Z.to_nat N + Z.to_nat line)%nat by lia.
  rewrite repeat_app. rewrite firstn_app. rewrite repeat_length, Nat.sub_diag. cbn [firstn]. rewrite app_nil_r. apply firstn_all2. rewrite repeat_length. lia.
Qed.
Lemma aligned_poly N : NewPolyAligned N = NewPoly N.
Proof. apply aligned_eq. right. reflexivity. Qed.
Lemma aligned_fourier R N : NewFourierPolyAligned R N = NewFourierPoly R N.
Proof. apply aligned_eq. left. reflexivity. Qed.

(** ** sequences of monomial products *)
Lemma mod4_window c d : 0 <= d <= 3 -> 1 <= d -> (c - d) mod 4 <> c mod 4.
Proof.
  intros H1 H2 E. pose proof (Z.mod_pos_bound c 4). pose proof (Z.div_mod c 4). pose proof (Z.mod_pos_bound (c - d) 4). pose proof (Z.div_mod (c - d) 4). lia.
Qed.

Section Shifts.
Context {F : Type} (e : peval) (N : Z) (HN : 0 < N) (ins : list Z).
Notation M := (mem F).

Record pinv (m0 m : M) (outs : list Z) (mean : list (Z * Z)) : Prop := {
  pi_len : length outs = length mean;
  pi_idx : im m (pe_rotIdx e) = zlen outs mod 4;
  pi_out : forall d, 1 <= d <= zlen outs -> nth_z 0 outs (d - 1) = pe_rot e ((zlen outs - d) mod 4);
  pi_rng : forall d, 1 <= d <= zlen outs -> 0 <= fst (nth_z (0, 0) mean (d - 1)) < zlen ins;
  pi_val : forall d, 1 <= d <= 4 -> d <= zlen outs -> tm m (pe_rot e ((zlen outs - d) mod 4)) =
    rot N (snd (nth_z (0, 0) mean (d - 1))) (tm m0 (nth_z 0 ins (fst (nth_z (0, 0) mean (d - 1)))));
  pi_sz : forall i, 0 <= i < 4 -> zlen (tm m (pe_rot e i)) = N;
  pi_fr : framed (fun l => pe_rot e 0 <= l <= pe_rot e 3) none (eq (pe_rotIdx e)) m0 m
}.

Lemma nthz_cons {X} (d x : X) l i : 2 <= i -> nth_z d (x :: l) (i - 1) = nth_z d l (i - 1 - 1).
Proof. intro H. unfold nth_z. replace (Z.to_nat (i - 1)) with (S (Z.to_nat (i - 1 - 1))) by lia. reflexivity. Qed.
Lemma nthz_1 {X} (d x : X) l : nth_z d (x :: l) (1 - 1) = x.
Proof. reflexivity. Qed.

Lemma rot_step (m : M) a k c : im m (pe_rotIdx e) = c mod 4 -> zlen (tm m a) = N -> a <> pe_rot e (c mod 4) ->
  (forall i, 0 <= i < 4 -> zlen (tm m (pe_rot e i)) = N) ->
  exists m', PolyMulWithXK m e a k = Ok (pe_rot e (c mod 4), m') /\ im m' (pe_rotIdx e) = (c + 1) mod 4 /\
    tm m' (pe_rot e (c mod 4)) = rot N k (tm m a) /\ framed (eq (pe_rot e (c mod 4))) none (eq (pe_rotIdx e)) m m'.
Proof.
  intros Hi Ha Hne Hs. unfold PolyMulWithXK, GetRotationBuffer. rewrite Hi. pose proof (Z.mod_pos_bound c 4 ltac:(lia)) as B.
  destruct (Z.ltb_spec (c mod 4) 0); [lia|]. destruct (Z.leb_spec 4 (c mod 4)); [lia|]. cbn [orb bind].
  set (m1 := iset m (pe_rotIdx e) (Z.rem (c mod 4 + 1) 4)).
  assert (R: Z.rem (c mod 4 + 1) 4 = (c + 1) mod 4) by (rewrite Z.rem_mod_nonneg by lia; rewrite Zplus_mod_idemp_l; reflexivity).
  destruct (PolyMulWithXKInPlace_ok m1 N a k (pe_rot e (c mod 4)) HN Ha (Hs _ B) Hne) as (m2 & E & V & Fr).
  rewrite E. cbn [bind]. exists m2. split; [reflexivity|]. split.
  - rewrite (fr_i _ _ _ _ _ Fr) by (intros []). unfold m1. cbn [iset im]. rewrite Z.eqb_refl. exact R.
  - split; [exact V|]. eapply framed_trans; [apply (framed_iset _ _ _ m); reflexivity|eapply framed_weaken; [exact Fr| | |]]; auto; intros l [].
Qed.

Lemma shifts_ok (m0 : M) : (forall i, 0 <= i < zlen ins -> zlen (tm m0 (nth_z 0 ins i)) = N /\ tok_list (tm m0 (nth_z 0 ins i)) /\ ~ eval_buffer e (nth_z 0 ins i)) ->
  forall prog m outs mean, pinv m0 m outs mean -> within (zlen ins) 3 prog (zlen outs) ->
  exists outs' m', shifts e ins prog m outs = Ok (outs', m') /\ pinv m0 m' outs' (shifts_mean prog mean).
Proof.
  intro Hins. induction prog as [|[o k] prog IH]; intros m outs mean I W.
  - exists outs, m. split; [reflexivity|exact I].
  - cbn [within] in W. destruct W as [W1 W2]. cbn [shifts shifts_mean].
    set (a := match o with Given i => nth_z 0 ins i | Back d => nth_z 0 outs (d - 1) end).
    set (ij := match o with Given i => (i, 0) | Back d => nth_z (0, 0) mean (d - 1) end).
    assert (Hij: 0 <= fst ij < zlen ins) by (unfold ij; destruct o as [i|d]; [exact W1|apply (pi_rng _ _ _ _ I); lia]).
    destruct (Hins (fst ij) Hij) as (I1 & I2 & I3).
    assert (Ha: tm m a = rot N (snd ij) (tm m0 (nth_z 0 ins (fst ij))) /\ a <> pe_rot e (zlen outs mod 4)).
    { unfold a, ij in *. destruct o as [i|d].
      - cbn [fst snd] in *. rewrite rot_0 by lia. split.
        + apply (fr_t _ _ _ _ _ (pi_fr _ _ _ _ I)). unfold eval_buffer in I3. unfold pe_rot. lia.
        + intro E. apply I3. rewrite E. unfold eval_buffer, pe_rot. pose proof (Z.mod_pos_bound (zlen outs) 4). lia.
      - rewrite (pi_out _ _ _ _ I) by lia. split; [apply (pi_val _ _ _ _ I); lia|]. intro E. apply (mod4_window (zlen outs) d); [lia|lia|]. unfold pe_rot in E. lia. }
    destruct Ha as [Ha Hne].
    destruct (rot_step m a k (zlen outs) (pi_idx _ _ _ _ I) ltac:(rewrite Ha; apply zlen_rot; lia) Hne (pi_sz _ _ _ _ I)) as (m' & E & X1 & X2 & X3).
    rewrite E. cbn [bind]. destruct ij as [i j] eqn:Eij. cbn [fst snd] in *. fold (zlen outs) in *.
    assert (L: zlen (pe_rot e (zlen outs mod 4) :: outs) = zlen outs + 1) by (unfold zlen; cbn [length]; lia).
    apply IH; [|rewrite L; exact W2]. split.
    + cbn [length]. f_equal. apply (pi_len _ _ _ _ I).
    + rewrite L. exact X1.
    + rewrite L. intros d Hd. destruct (Z.eq_dec d 1) as [-> | Hd1].
      * rewrite nthz_1. f_equal. f_equal. lia.
      * rewrite nthz_cons by lia. rewrite (pi_out _ _ _ _ I) by lia. do 2 f_equal. lia.
    + rewrite L. intros d Hd. destruct (Z.eq_dec d 1) as [-> | Hd1].
      * rewrite nthz_1. exact Hij.
      * rewrite nthz_cons by lia. apply (pi_rng _ _ _ _ I). lia.
    + rewrite L. intros d Hd1 Hd2. destruct (Z.eq_dec d 1) as [-> | Hd3].
      * rewrite nthz_1. cbn [fst snd]. replace (zlen outs + 1 - 1) with (zlen outs) by lia. rewrite X2, Ha.
        rewrite rot_rot by assumption. f_equal. lia.
      * rewrite nthz_cons by lia. replace (zlen outs + 1 - d) with (zlen outs - (d - 1)) by lia.
        rewrite (fr_t _ _ _ _ _ X3). { apply (pi_val _ _ _ _ I); lia. }
        intro Q. apply (mod4_window (zlen outs) (d - 1)); [lia|lia|]. unfold pe_rot in Q. lia.
    + intros q Hq. destruct (Z.eq_dec q (zlen outs mod 4)) as [-> | Hq'].
      * rewrite X2, Ha, !zlen_rot by lia. reflexivity.
      * rewrite (fr_t _ _ _ _ _ X3) by (unfold pe_rot; lia). apply (pi_sz _ _ _ _ I). exact Hq.
    + eapply framed_trans; [apply (pi_fr _ _ _ _ I)|]. eapply framed_weaken; [exact X3| | |]; auto.
      intros l <-. pose proof (Z.mod_pos_bound (zlen outs) 4). unfold pe_rot. lia.
Qed.
End Shifts.

(** the pool of an evaluator whose rotation buffers have length N *)
Lemma shifts_run {F} (e : peval) N (m0 : mem F) ins prog : 0 < N ->
  (forall i, 0 <= i < 4 -> zlen (tm m0 (pe_rot e i)) = N) ->
  (forall i, 0 <= i < zlen ins -> zlen (tm m0 (nth_z 0 ins i)) = N /\ tok_list (tm m0 (nth_z 0 ins i)) /\ ~ eval_buffer e (nth_z 0 ins i)) ->
  within (zlen ins) 3 prog 0 ->
  exists outs m', shifts e ins prog (ResetRotationPool m0 e) [] = Ok (outs, m') /\ zlen outs = zlen prog /\
    (forall d, 1 <= d <= 4 -> d <= zlen prog -> let ik := nth_z (0, 0) (shifts_mean prog []) (d - 1) in
       zlen (tm m' (nth_z 0 outs (d - 1))) = N /\
       forall j, 0 <= j < N -> zn (tm m' (nth_z 0 outs (d - 1))) j ==
         mono_mul N (snd ik) (zn (tm m0 (nth_z 0 ins (fst ik)))) j - (if Z.even ((j - snd ik) / N) then 0 else 1)) /\
    (forall l, ~ eval_buffer e l -> tm m' l = tm m0 l) /\ (forall l, fm m' l = fm m0 l).
Proof.
  intros HN Hs Hi W.
  assert (I: pinv e N ins m0 (ResetRotationPool m0 e) [] []).
  { split; cbn [length]; try reflexivity.
    - unfold ResetRotationPool. cbn [iset im]. rewrite Z.eqb_refl. reflexivity.
    - intros d Hd. exfalso. change (zlen []) with 0 in Hd. lia.
    - intros d Hd. exfalso. change (zlen []) with 0 in Hd. lia.
    - intros d H1 H2. exfalso. change (zlen []) with 0 in H2. lia.
    - exact Hs.
    - apply framed_iset. reflexivity. }
  destruct (shifts_ok e N HN ins m0 Hi prog _ [] [] I W) as (outs & m' & E & J).
  assert (LM: forall p acc, length (shifts_mean p acc) = (length p + length acc)%nat).
  { clear. induction p as [|[o k] p IH]; intro acc; [reflexivity|]. cbn [shifts_mean].
    destruct (match o with Given i => (i, 0) | Back d => nth_z (0, 0) acc (d - 1) end) as [i j]. rewrite IH. cbn [length]. lia. }
  assert (LO: zlen outs = zlen prog) by (unfold zlen; rewrite (pi_len _ _ _ _ _ _ _ J), LM; cbn [length]; lia).
  exists outs, m'. split; [exact E|]. split; [exact LO|]. split; [|split].
  - intros d Hd1 Hd2 ik. rewrite (pi_out _ _ _ _ _ _ _ J) by lia. rewrite (pi_val _ _ _ _ _ _ _ J) by lia. fold ik.
    split; [apply zlen_rot; lia|]. intros j Hj. apply rot_mono; assumption.
  - intros l Hl. apply (fr_t _ _ _ _ _ (pi_fr _ _ _ _ _ _ _ J)). unfold eval_buffer in Hl. unfold pe_rot. lia.
  - intro l. apply (fr_f _ _ _ _ _ (pi_fr _ _ _ _ _ _ _ J)). intros [].
Qed.

(** in place, the product by X is wrong for every polynomial *)
Lemma in_place {F} (m : mem F) a N : 0 < N -> zlen (tm m a) = N ->
  exists m', PolyMulWithXKInPlace m a 1 a = Ok m' /\
    tm m' a = tab N (fun j => if j =? 0 then tnot (zn (tm m a) 0) else zn (tm m a) 0).
Proof.
  intros HN Ha. unfold PolyMulWithXKInPlace. rewrite Ha. rewrite go_rem_ok by lia. rewrite Z.rem_small by lia. cbn [bind].
  change (1 =? 0) with false. change (1 <? 0) with false. cbv iota.
  set (x := zn (tm m a) 0).
  assert (L: exists m1, for_range 0 (N - 1) (fun i s => y <- load s a i ;; store s a (i + 1) y) m = Ok m1 /\
            (zlen (tm m1 a) = N /\ forall j, 0 <= j <= N - 1 -> zn (tm m1 a) j = x)).
  { apply (for_range_inv (fun i s => zlen (tm s a) = N /\ forall j, 0 <= j <= i -> zn (tm s a) j = x)); [lia| |].
    - split; [exact Ha|]. intros j Hj. replace j with 0 by lia. reflexivity.
    - intros i s Hi [S1 S2]. unfold load, store. rewrite get_zn by lia. cbn [bind]. rewrite set_ok by lia. cbn [bind].
      eexists. split; [reflexivity|]. cbn [tset tm]. rewrite Z.eqb_refl. rewrite zlen_upd. split; [exact S1|].
      intros j Hj. rewrite zn_upd by lia. destruct (Z.eqb_spec j (i + 1)); apply S2; lia. }
  destruct L as (m1 & E1 & L1 & L2).
  destruct (Z.ltb_spec 1 N) as [H1|H1].
  - rewrite E1. cbn [bind]. rewrite for_range_S by lia.
    unfold load, store. rewrite get_zn by lia. cbn [bind]. rewrite set_ok by lia. cbn [bind]. rewrite for_range_empty by lia.
    eexists. split; [reflexivity|]. cbn [tset tm]. rewrite Z.eqb_refl. apply (eq_tab 0); [rewrite zlen_upd; lia|].
    intros j Hj. change (nth (Z.to_nat j) ?l 0) with (zn l j). rewrite <- zn_znd. rewrite zn_upd by lia. replace (N - 1 + 1 - N) with 0 by lia.
    destruct (Z.eqb_spec j 0); [f_equal|]; apply L2; lia.
  - assert (EN: N = 1) by lia. rewrite EN in *. clear EN. change (1 - 1) with 0. cbv zeta. change (1 - 0) with 1. change (1 - 1) with 0.
    rewrite for_range_S by lia. unfold load, store. rewrite get_zn by lia. cbn [bind]. rewrite set_ok by lia. cbn [bind]. rewrite !for_range_empty by lia. cbn [bind]. rewrite ?for_range_empty by lia.
    eexists. split; [reflexivity|]. cbn [tset tm]. rewrite Z.eqb_refl. apply (eq_tab 0); [rewrite zlen_upd; lia|].
    intros j Hj. rewrite <- zn_znd. rewrite zn_upd by lia. replace (0 + 0) with 0 by lia. destruct (Z.eqb_spec j 0); [reflexivity|lia].
Qed.

(** ** a buffer manager *)
Lemma wrap4 r x : 0 <= r -> 0 <= x <= 4 -> x mod 4 = r mod 4 -> (if 4 <=? x then 0 else x) = r mod 4.
Proof.
  intros H1 H2 H3. destruct (Z.leb_spec 4 x).
  - replace x with 4 in H3 by lia. rewrite <- H3. reflexivity.
  - rewrite <- H3. symmetry. apply Z.mod_small. lia.
Qed.
Lemma calls_ok R (b : bmgr) cs : forall (m : mem (list (AN R))) r t, 0 <= r -> 0 <= t ->
  0 <= im m (bm_InUse b) <= 4 -> im m (bm_InUse b) mod 4 = r mod 4 ->
  0 <= im m (bm_TRLWEInUse b) <= 4 -> im m (bm_TRLWEInUse b) mod 4 = t mod 4 ->
  exists m', calls b cs m = Ok (robin b cs r t, m') /\ framed none none (fun l => l = bm_InUse b \/ l = bm_TRLWEInUse b) m m'.
Proof.
  assert (D: bm_TRLWEInUse b <> bm_InUse b) by (unfold bm_TRLWEInUse, bm_InUse; lia).
  induction cs as [|c cs IH]; intros m r t Hr Ht I1 I2 I3 I4.
  - exists m. split; [reflexivity|apply framed_refl].
  - cbn [calls robin]. destruct c.
    + unfold BM_GetRotationBuffer. set (m1 := if 4 <=? im m (bm_InUse b) then iset m (bm_InUse b) 0 else m).
      assert (X: im m1 (bm_InUse b) = r mod 4).
      { rewrite <- (wrap4 r _ Hr I1 I2). unfold m1. destruct (4 <=? im m (bm_InUse b)); [cbn [iset im]; rewrite Z.eqb_refl|]; reflexivity. }
      assert (Y: im m1 (bm_TRLWEInUse b) = im m (bm_TRLWEInUse b)).
      { unfold m1. destruct (4 <=? im m (bm_InUse b)); [cbn [iset im]; rewrite (proj2 (Z.eqb_neq _ _) D)|]; reflexivity. }
      pose proof (Z.mod_pos_bound r 4 ltac:(lia)) as B. rewrite X. destruct (Z.ltb_spec (r mod 4) 0); [lia|]. cbn [bind].
      destruct (IH (iset m1 (bm_InUse b) (r mod 4 + 1)) (r + 1) t) as (m' & E & Fr); try lia; cbn [iset im]; rewrite ?Z.eqb_refl, ?(proj2 (Z.eqb_neq _ _) D), ?Y; try lia.
      rewrite E. cbn [bind]. exists m'. split; [reflexivity|]. eapply framed_trans; [|exact Fr].
      eapply framed_trans; [|apply framed_iset; auto]. unfold m1. destruct (4 <=? im m (bm_InUse b)); [apply framed_iset; auto|apply framed_refl].
    + unfold BM_GetTRLWEBuffer. set (m1 := if 4 <=? im m (bm_TRLWEInUse b) then iset m (bm_TRLWEInUse b) 0 else m).
      assert (D': bm_InUse b <> bm_TRLWEInUse b) by congruence.
      assert (X: im m1 (bm_TRLWEInUse b) = t mod 4).
      { rewrite <- (wrap4 t _ Ht I3 I4). unfold m1. destruct (4 <=? im m (bm_TRLWEInUse b)); [cbn [iset im]; rewrite Z.eqb_refl|]; reflexivity. }
      assert (Y: im m1 (bm_InUse b) = im m (bm_InUse b)).
      { unfold m1. destruct (4 <=? im m (bm_TRLWEInUse b)); [cbn [iset im]; rewrite (proj2 (Z.eqb_neq _ _) D')|]; reflexivity. }
      pose proof (Z.mod_pos_bound t 4 ltac:(lia)) as B. rewrite X. destruct (Z.ltb_spec (t mod 4) 0); [lia|]. cbn [bind].
      destruct (IH (iset m1 (bm_TRLWEInUse b) (t mod 4 + 1)) r (t + 1)) as (m' & E & Fr); try lia; cbn [iset im]; rewrite ?Z.eqb_refl, ?(proj2 (Z.eqb_neq _ _) D'), ?Y; try lia.
      rewrite E. cbn [bind]. exists m'. split; [reflexivity|]. eapply framed_trans; [|exact Fr].
      eapply framed_trans; [|apply framed_iset; auto]. unfold m1. destruct (4 <=? im m (bm_TRLWEInUse b)); [apply framed_iset; auto|apply framed_refl].
    + destruct (IH (BM_Reset R m b) 0 0) as (m' & E & Fr); try lia; unfold BM_Reset in *; cbn [iset im]; rewrite ?Z.eqb_refl, ?(proj2 (Z.eqb_neq (bm_InUse b) (bm_TRLWEInUse b)) ltac:(congruence)); try lia; try reflexivity.
      rewrite E. cbn [bind]. exists m'. split; [reflexivity|]. eapply framed_trans; [|exact Fr].
      eapply framed_trans; apply framed_iset; auto.
Qed.

(** ** memory *)
Section Bytes.
Context {A : Type}.
Notation M := (mem (list A)).
Record kept (m m' : M) : Prop := {
  k_t : tnext m <= tnext m'; k_f : fnext m <= fnext m';
  k_tm : forall l, l < tnext m -> tm m' l = tm m l; k_fm : forall l, l < fnext m -> fm m' l = fm m l }.
Lemma kept_refl m : kept m m. Proof. split; auto; lia. Qed.
Lemma kept_trans m1 m2 m3 : kept m1 m2 -> kept m2 m3 -> kept m1 m3.
Proof.
  intros [A1 A2 A3 A4] [B1 B2 B3 B4]. split; try lia.
  - intros l Hl. rewrite B3 by lia. apply A3. exact Hl.
  - intros l Hl. rewrite B4 by lia. apply A4. exact Hl.
Qed.
Lemma tb_trans m1 m2 m3 : kept m1 m2 -> kept m2 m3 -> torus_bytes m1 m3 = torus_bytes m1 m2 + torus_bytes m2 m3.
Proof.
  intros A1 B1. pose proof (k_t _ _ A1). pose proof (k_t _ _ B1). unfold torus_bytes.
  replace (tnext m3 - tnext m1) with ((tnext m2 - tnext m1) + (tnext m3 - tnext m2)) by lia. rewrite zsum_split by lia. f_equal.
  - apply zsum_ext. intros i Hi. rewrite (k_tm _ _ B1) by lia. reflexivity.
  - apply zsum_ext. intros i Hi. do 3 f_equal. lia.
Qed.
Lemma fb_trans m1 m2 m3 : kept m1 m2 -> kept m2 m3 -> float_bytes m1 m3 = float_bytes m1 m2 + float_bytes m2 m3.
Proof.
  intros A1 B1. pose proof (k_f _ _ A1). pose proof (k_f _ _ B1). unfold float_bytes.
  replace (fnext m3 - fnext m1) with ((fnext m2 - fnext m1) + (fnext m3 - fnext m2)) by lia. rewrite zsum_split by lia. f_equal.
  - apply zsum_ext. intros i Hi. rewrite (k_fm _ _ B1) by lia. reflexivity.
  - apply zsum_ext. intros i Hi. do 3 f_equal. lia.
Qed.
(** a step that adds known amounts *)
Definition adds (t f : Z) (m m' : M) : Prop := kept m m' /\ torus_bytes m m' = t /\ float_bytes m m' = f.
Lemma adds_trans t f t' f' m1 m2 m3 : adds t f m1 m2 -> adds t' f' m2 m3 -> adds (t + t') (f + f') m1 m3.
Proof.
  intros (K1 & T1 & F1) (K2 & T2 & F2). split; [eapply kept_trans; eassumption|]. rewrite (tb_trans _ _ _ K1 K2), (fb_trans _ _ _ K1 K2). split; lia.
Qed.
Lemma adds_ts (m : M) k v : 0 <= k -> adds (k * (4 * zlen v)) 0 m (snd (alloc_ts m k v)).
Proof.
  intro Hk. split; [|split].
  - split; cbn [alloc_ts snd tnext fnext tm fm]; auto; try lia. intros l Hl. destruct (Z.leb_spec (tnext m) l); [lia|reflexivity].
  - unfold torus_bytes. cbn [alloc_ts snd tnext tm]. replace (tnext m + k - tnext m) with k by lia. rewrite <- zsum_const by exact Hk.
    apply zsum_ext. intros i Hi. destruct (Z.leb_spec (tnext m) (tnext m + i)), (Z.ltb_spec (tnext m + i) (tnext m + k)); try lia. reflexivity.
  - unfold float_bytes. cbn [alloc_ts snd fnext]. rewrite Z.sub_diag. reflexivity.
Qed.
Lemma adds_fs (m : M) k v : 0 <= k -> adds 0 (k * (8 * zlen v)) m (snd (alloc_fs m k v)).
Proof.
  intro Hk. split; [|split].
  - split; cbn [alloc_fs snd tnext fnext tm fm]; auto; try lia. intros l Hl. destruct (Z.leb_spec (fnext m) l); [lia|reflexivity].
  - unfold torus_bytes. cbn [alloc_fs snd tnext]. rewrite Z.sub_diag. reflexivity.
  - unfold float_bytes. cbn [alloc_fs snd fnext fm]. replace (fnext m + k - fnext m) with k by lia. rewrite <- zsum_const by exact Hk.
    apply zsum_ext. intros i Hi. destruct (Z.leb_spec (fnext m) (fnext m + i)), (Z.ltb_spec (fnext m + i) (fnext m + k)); try lia. reflexivity.
Qed.
Lemma adds_is (m : M) k v : adds 0 0 m (snd (alloc_is m k v)).
Proof.
  split; [|split].
  - split; cbn [alloc_is snd tnext fnext tm fm]; auto; lia.
  - unfold torus_bytes. cbn [alloc_is snd tnext]. rewrite Z.sub_diag. reflexivity.
  - unfold float_bytes. cbn [alloc_is snd fnext]. rewrite Z.sub_diag. reflexivity.
Qed.
End Bytes.

Lemma make_zlen {X} (z : X) n l : make z n = Ok l -> 0 <= n /\ zlen l = n.
Proof. unfold make. destruct (Z.ltb_spec n 0); [discriminate|]. intro E. injection E as <-. rewrite zlen_repeat. lia. Qed.

Section Manager.
Context (R : arith) (pr : pset).
Notation M := (mem (list (AN R))).

Lemma manager_ok n : check_degree n = Ok tt -> 0 <= g_L pr -> forall m : M,
  exists b m', NewBufferManager R pr m n = Ok (b, m') /\
    adds (bm_tsize (g_L pr) * (4 * n)) (bm_fsize (g_L pr) * (8 * n)) m m' /\
    bm_n b = n /\ bm_l b = g_L pr /\ bm_t b = tnext m /\ bm_f b = fnext m /\ tnext m' = tnext m + bm_tsize (g_L pr) /\
    im m' (bm_InUse b) = 0 /\ im m' (bm_TRLWEInUse b) = 0 /\
    (forall l, tnext m <= l < tnext m' -> zlen (tm m' l) = n) /\ (forall l, fnext m <= l < fnext m' -> zlen (fm m' l) = n).
Proof.
  intros Hn HL m. pose proof (degree_mod n Hn) as [N1 _]. unfold NewBufferManager, NewPoly, NewFourierPoly. rewrite Hn. cbn [bind].
  unfold make. destruct (Z.ltb_spec n 0); [lia|]. cbn [bind]. destruct (Z.ltb_spec (g_L pr) 0); [lia|]. cbn [bind].
  set (p := repeat 0 (Z.to_nat n)). set (f := repeat (a_zero R) (Z.to_nat n)).
  assert (Lp: zlen p = n) by (unfold p; rewrite zlen_repeat; lia). assert (Lf: zlen f = n) by (unfold f; rewrite zlen_repeat; lia).
  rewrite (surjective_pairing (alloc_ts m _ p)). set (m1 := snd (alloc_ts m (bm_tsize (g_L pr)) p)).
  rewrite (surjective_pairing (alloc_fs m1 _ f)). set (m2 := snd (alloc_fs m1 (bm_fsize (g_L pr)) f)).
  rewrite (surjective_pairing (alloc_is m2 2 0)). set (m3 := snd (alloc_is m2 2 0)).
  eexists. exists m3. split; [reflexivity|]. cbn [bm_n bm_l bm_t bm_f]. unfold bm_InUse, bm_TRLWEInUse. cbn [bm_i].
  split.
  { replace (bm_tsize (g_L pr) * (4 * n)) with (bm_tsize (g_L pr) * (4 * zlen p) + 0 + 0) by (rewrite Lp; ring).
    replace (bm_fsize (g_L pr) * (8 * n)) with (0 + bm_fsize (g_L pr) * (8 * zlen f) + 0) by (rewrite Lf; ring).
    eapply adds_trans; [eapply adds_trans|apply adds_is].
    - apply adds_ts. unfold bm_tsize. lia.
    - apply adds_fs. unfold bm_fsize. lia. }
  split; [reflexivity|]. split; [reflexivity|]. split; [reflexivity|]. split; [reflexivity|]. split; [reflexivity|].
  split. { cbn. destruct (Z.leb_spec (inext m) (inext m)), (Z.ltb_spec (inext m) (inext m + 2)); try lia; reflexivity. }
  split. { cbn. destruct (Z.leb_spec (inext m) (inext m + 1)), (Z.ltb_spec (inext m + 1) (inext m + 2)); try lia; reflexivity. }
  split.
  - intros l Hl. cbn [m3 m2 m1 alloc_is alloc_fs alloc_ts snd tnext tm] in *. destruct (Z.leb_spec (tnext m) l), (Z.ltb_spec l (tnext m + bm_tsize (g_L pr))); try lia. exact Lp.
  - intros l Hl. cbn [m3 m2 m1 alloc_is alloc_fs alloc_ts snd fnext fm] in *. destruct (Z.leb_spec (fnext m) l), (Z.ltb_spec l (fnext m + bm_fsize (g_L pr))); try lia. exact Lf.
Qed.

Lemma manager_calls n : check_degree n = Ok tt -> 0 <= g_L pr -> forall (m : M) cs,
  exists b m1 m2, NewBufferManager R pr m n = Ok (b, m1) /\ calls b cs m1 = Ok (robin b cs 0 0, m2) /\
    (forall l, tm m2 l = tm m1 l) /\ (forall l, fm m2 l = fm m1 l) /\ (forall l, l < tnext m -> tm m1 l = tm m l) /\
    (forall i, 0 <= i < 4 -> tnext m <= bm_Pool b i < tnext m1 /\ tnext m <= bm_TRLWEA b i < tnext m1 /\ tnext m <= bm_TRLWEB b i < tnext m1 /\
       zlen (tm m1 (bm_Pool b i)) = n /\ zlen (tm m1 (bm_TRLWEA b i)) = n /\ zlen (tm m1 (bm_TRLWEB b i)) = n) /\
    (forall i j, 0 <= i < 4 -> 0 <= j < 4 -> bm_Pool b i <> bm_TRLWEA b j /\ bm_Pool b i <> bm_TRLWEB b j /\ bm_TRLWEA b i <> bm_TRLWEB b j /\
       (i <> j -> bm_Pool b i <> bm_Pool b j /\ bm_TRLWEA b i <> bm_TRLWEA b j /\ bm_TRLWEB b i <> bm_TRLWEB b j)).
Proof.
  intros Hn HL m cs. destruct (manager_ok n Hn HL m) as (b & m1 & E & (K & _) & B1 & B2 & B3 & B4 & B5 & B6 & B7 & B8 & B9).
  destruct (calls_ok R b cs m1 0 0 ltac:(lia) ltac:(lia)) as (m2 & E2 & Fr); try (rewrite ?B6, ?B7; (lia || reflexivity)).
  exists b, m1, m2. split; [exact E|]. split; [exact E2|].
  split; [intro l; apply (fr_t _ _ _ _ _ Fr); intros []|]. split; [intro l; apply (fr_f _ _ _ _ _ Fr); intros []|]. split; [apply K|].
  unfold bm_tsize in *. unfold bm_Pool, bm_TRLWEA, bm_TRLWEB. rewrite B2, B3. split.
  - intros i Hi. rewrite !B8 by lia. lia.
  - intros i j Hi Hj. lia.
Qed.

Lemma manager_bytes n : check_degree n = Ok tt -> 0 <= g_L pr -> forall m : M,
  exists b m', NewBufferManager R pr m n = Ok (b, m') /\ BM_MemoryUsage pr b = torus_bytes m m' + 2 * float_bytes m m' /\ 0 < float_bytes m m'.
Proof.
  intros Hn HL m. pose proof (degree_mod n Hn) as [N1 _]. destruct (manager_ok n Hn HL m) as (b & m' & E & (_ & T & Fl) & B1 & B2 & _). exists b, m'. split; [exact E|].
  rewrite T, Fl. unfold BM_MemoryUsage, bm_tsize, bm_fsize. rewrite B1. split; [ring|]. apply Z.mul_pos_pos; lia.
Qed.

(** the whole pool *)
Definition pool_torus (n : Z) : Z := bm_tsize (g_L pr) * (4 * n) + 10 * (4 * trlwe_N pr) + 4 * (lv1_N pr + 1) + 6 * (4 * (lv0_N pr + 1)).
Definition pool_float (n : Z) : Z := (bm_fsize (g_L pr) + 2 + (if UseBlockBlindRotation pr then block_count pr else 0)) * (8 * n).
Lemma pool_bytes n : check_degree n = Ok tt -> 0 <= g_L pr -> 0 <= trlwe_N pr -> 0 <= lv1_N pr -> 0 <= lv0_N pr -> forall m : M,
  exists b m', NewBufferPool_all R pr m n = Ok (b, m') /\ adds (pool_torus n) (pool_float n) m m' /\
    bm_n (fp_poly b) = n /\ (if UseBlockBlindRotation pr then fp_block b <> None else fp_block b = None).
Proof.
  intros Hn HL H1 H2 H3 m. pose proof (degree_mod n Hn) as [N1 _].
  destruct (manager_ok n Hn HL m) as (b & m0 & E & Q & B1 & B2 & _). unfold NewBufferPool_all. rewrite E. cbn [bind].
  unfold NewFourierPoly, NewTRLWELv1, NewTLWE. rewrite Hn. cbn [bind]. unfold make. destruct (Z.ltb_spec n 0); [lia|]. cbn [bind].
  destruct (Z.ltb_spec (trlwe_N pr) 0); [lia|]. cbn [bind tA]. destruct (Z.ltb_spec (lv1_N pr + 1) 0); [lia|]. cbn [bind].
  destruct (Z.ltb_spec (lv0_N pr + 1) 0); [lia|]. cbn [bind].
  set (f := repeat (a_zero R) (Z.to_nat n)). set (t := repeat 0 (Z.to_nat (trlwe_N pr))). set (c1 := repeat 0 (Z.to_nat (lv1_N pr + 1))). set (c0 := repeat 0 (Z.to_nat (lv0_N pr + 1))).
  assert (Lf: zlen f = n) by (unfold f; rewrite zlen_repeat; lia). assert (Lt: zlen t = trlwe_N pr) by (unfold t; rewrite zlen_repeat; lia).
  assert (L1: zlen c1 = lv1_N pr + 1) by (unfold c1; rewrite zlen_repeat; lia). assert (L0: zlen c0 = lv0_N pr + 1) by (unfold c0; rewrite zlen_repeat; lia).
  rewrite (surjective_pairing (alloc_fs m0 2 f)). pose proof (adds_fs m0 2 f ltac:(lia)) as Q1. set (m1 := snd (alloc_fs m0 2 f)) in *.
  rewrite (surjective_pairing (alloc_ts m1 10 t)). pose proof (adds_ts m1 10 t ltac:(lia)) as Q2. set (m2 := snd (alloc_ts m1 10 t)) in *.
  rewrite (surjective_pairing (alloc_ts m2 1 c1)). pose proof (adds_ts m2 1 c1 ltac:(lia)) as Q3. set (m3 := snd (alloc_ts m2 1 c1)) in *.
  rewrite (surjective_pairing (alloc_ts m3 6 c0)). pose proof (adds_ts m3 6 c0 ltac:(lia)) as Q4. set (m4 := snd (alloc_ts m3 6 c0)) in *.
  rewrite (surjective_pairing (alloc_is m4 1 0)). pose proof (adds_is m4 1 0) as Q5. set (m5 := snd (alloc_is m4 1 0)) in *.
  pose proof (adds_trans _ _ _ _ _ _ _ (adds_trans _ _ _ _ _ _ _ (adds_trans _ _ _ _ _ _ _ (adds_trans _ _ _ _ _ _ _ (adds_trans _ _ _ _ _ _ _ Q Q1) Q2) Q3) Q4) Q5) as S.
  rewrite Lf, Lt, L1, L0 in S. unfold pool_torus, pool_float.
  destruct (UseBlockBlindRotation pr) eqn:U.
  - unfold newBlockRotationBuffers. destruct (Z.ltb_spec (g_L pr) 0); [lia|]. cbn [bind]. unfold NewFourierPoly. rewrite Hn. cbn [bind]. unfold make. destruct (Z.ltb_spec n 0); [lia|]. cbn [bind]. fold f.
    assert (C: 0 <= block_count pr).
    { unfold block_count, UseBlockBlindRotation in *. apply Z.ltb_lt in U. destruct (Z.ltb_spec (g_BlockSize pr) 1); [lia|]. pose proof (Z.mul_nonneg_nonneg (g_BlockSize pr * (1 + 1)) (g_L pr) ltac:(lia) HL). lia. }
    rewrite (surjective_pairing (alloc_fs m5 (block_count pr) f)). pose proof (adds_fs m5 (block_count pr) f C) as Q6. set (m6 := snd (alloc_fs m5 (block_count pr) f)) in *.
    cbn [bind]. eexists. exists m6. split; [reflexivity|]. cbn [fp_poly fp_block]. split; [|split; [exact B1|discriminate]].
    pose proof (adds_trans _ _ _ _ _ _ _ S Q6) as S'. rewrite Lf in S'.
    match goal with |- adds ?a ?b _ _ => match type of S' with adds ?c ?d _ _ => replace a with c by ring; replace b with d by ring end end. exact S'.
  - eexists. exists m5. split; [reflexivity|]. cbn [fp_poly fp_block]. split; [|split; [exact B1|reflexivity]].
    match goal with |- adds ?a ?b _ _ => match type of S with adds ?c ?d _ _ => replace a with c by ring; replace b with d by ring end end. exact S.
Qed.
End Manager.

(** ** the fourth last result *)
Lemma fourth_back {F} (e : peval) N (m0 : mem F) ins prog : 0 < N -> 4 <= zlen prog ->
  (forall i, 0 <= i < 4 -> zlen (tm m0 (pe_rot e i)) = N) ->
  (forall i, 0 <= i < zlen ins -> zlen (tm m0 (nth_z 0 ins i)) = N /\ tok_list (tm m0 (nth_z 0 ins i)) /\ ~ eval_buffer e (nth_z 0 ins i)) ->
  within (zlen ins) 3 prog 0 ->
  exists outs m1 r m2, shifts e ins prog (ResetRotationPool m0 e) [] = Ok (outs, m1) /\
    shifts e ins [(Back 4, 1)] m1 outs = Ok (r :: outs, m2) /\
    let x := zn (tm m1 (nth_z 0 outs 3)) 0 in tm m2 r = tab N (fun j => if j =? 0 then tnot x else x).
Proof.
  intros HN H4 Hs Hi W.
  assert (I: pinv e N ins m0 (ResetRotationPool m0 e) [] []).
  { split; cbn [length]; try reflexivity.
    - unfold ResetRotationPool. cbn [iset im]. rewrite Z.eqb_refl. reflexivity.
    - intros d Hd. exfalso. change (zlen []) with 0 in Hd. lia.
    - intros d Hd. exfalso. change (zlen []) with 0 in Hd. lia.
    - intros d H1 H2. exfalso. change (zlen []) with 0 in H2. lia.
    - exact Hs.
    - apply framed_iset. reflexivity. }
  destruct (shifts_ok e N HN ins m0 Hi prog _ [] [] I W) as (outs & m1 & E & J).
  assert (LM: forall p acc, length (shifts_mean p acc) = (length p + length acc)%nat).
  { clear. induction p as [|[o k] p IH]; intro acc; [reflexivity|]. cbn [shifts_mean].
    destruct (match o with Given i => (i, 0) | Back d => nth_z (0, 0) acc (d - 1) end) as [i j]. rewrite IH. cbn [length]. lia. }
  assert (LO: zlen outs = zlen prog) by (unfold zlen; rewrite (pi_len _ _ _ _ _ _ _ J), LM; cbn [length]; lia).
  exists outs, m1. cbn [shifts]. change (4 - 1) with 3.
  assert (P: nth_z 0 outs 3 = pe_rot e (zlen outs mod 4)).
  { change 3 with (4 - 1). rewrite (pi_out _ _ _ _ _ _ _ J) by lia. f_equal. rewrite <- (Z.mod_add (zlen outs - 4) 1 4) by lia. f_equal. lia. }
  rewrite P. set (c := zlen outs) in *. pose proof (Z.mod_pos_bound c 4 ltac:(lia)) as B.
  unfold PolyMulWithXK, GetRotationBuffer. rewrite (pi_idx _ _ _ _ _ _ _ J). fold c.
  destruct (Z.ltb_spec (c mod 4) 0); [lia|]. destruct (Z.leb_spec 4 (c mod 4)); [lia|]. cbn [orb bind].
  set (m1' := iset m1 (pe_rotIdx e) (Z.rem (c mod 4 + 1) 4)).
  destruct (in_place m1' (pe_rot e (c mod 4)) N HN (pi_sz _ _ _ _ _ _ _ J _ B)) as (m2 & E2 & V).
  exists (pe_rot e (c mod 4)), m2. split; [exact E|]. rewrite E2. cbn [bind]. split; [reflexivity|]. exact V.
Qed.

Lemma evaluator_ready O (m : mem (FP O)) N e m' : NewPolyEvaluator O m N = Ok (e, m') ->
  im m' (pe_rotIdx e) = 0 /\ (forall i, 0 <= i < 4 -> zlen (tm m' (pe_rot e i)) = N) /\ (forall l, l < tnext m -> ~ eval_buffer e l).
Proof.
  intro H. unfold NewPolyEvaluator, newEvaluationBuffer in H. apply bind_inv in H. destruct H as ([] & Hd & H).
  apply bind_inv in H. destruct H as (p & Hp & H). apply bind_inv in H. destruct H as (f & Hf & H).
  unfold NewPoly in Hp. rewrite Hd in Hp. cbn [bind] in Hp. apply make_zlen in Hp. destruct Hp as [_ Lp].
  cbn [alloc_ts alloc_fs alloc_is] in H. injection H as <- <-. unfold eval_buffer, pe_rotIdx, pe_rot, pe_tsize. cbn [pe_t pe_i tm im inext].
  split; [|split].
  - destruct (Z.leb_spec (inext m) (inext m)), (Z.ltb_spec (inext m) (inext m + 2)); try lia. reflexivity.
  - intros i Hi. destruct (Z.leb_spec (tnext m) (tnext m + 8 + i)), (Z.ltb_spec (tnext m + 8 + i) (tnext m + 24)); try lia. exact Lp.
  - intros l Hl. lia.
Qed.

(** ** the shipped levels *)
Definition reports (p : pset) : Z :=
  FP_MemoryUsage p {| fp_poly := {| bm_n := g_N p; bm_l := g_L p; bm_t := 0; bm_f := 0; bm_i := 0 |}; fp_t := 0; fp_f := 0; fp_i := 0; fp_block := Some 0 |}.
Lemma pool_levels R level : let pr := get_params level in forall m : mem (list (AN R)),
  exists b m', NewBufferPool_all R pr m (g_N pr) = Ok (b, m') /\ (forall l, l < tnext m -> tm m' l = tm m l) /\ (forall l, l < fnext m -> fm m' l = fm m l) /\
    let held := torus_bytes m m' + float_bytes m m' in
    6 * held <= 5 * FP_MemoryUsage pr b /\ 2 * FP_MemoryUsage pr b <= 3 * held /\ 180000 <= held.
Proof.
  intros pr m.
  assert (Q: check_degree (g_N pr) = Ok tt /\ 0 <= g_L pr /\ 0 <= trlwe_N pr /\ 0 <= lv1_N pr /\ 0 <= lv0_N pr /\ UseBlockBlindRotation pr = true /\
     6 * (pool_torus pr (g_N pr) + pool_float pr (g_N pr)) <= 5 * reports pr /\ 2 * reports pr <= 3 * (pool_torus pr (g_N pr) + pool_float pr (g_N pr)) /\
     180000 <= pool_torus pr (g_N pr) + pool_float pr (g_N pr)).
  { unfold pr. clear. revert level. apply (get_params_cases (fun pr => check_degree (g_N pr) = Ok tt /\ 0 <= g_L pr /\ 0 <= trlwe_N pr /\ 0 <= lv1_N pr /\ 0 <= lv0_N pr /\ UseBlockBlindRotation pr = true /\
     6 * (pool_torus pr (g_N pr) + pool_float pr (g_N pr)) <= 5 * reports pr /\ 2 * reports pr <= 3 * (pool_torus pr (g_N pr) + pool_float pr (g_N pr)) /\
     180000 <= pool_torus pr (g_N pr) + pool_float pr (g_N pr))); repeat split; vm_compute; (reflexivity || discriminate). }
  destruct Q as (Q1 & Q2 & Q3 & Q4 & Q5 & Q6 & Q7 & Q8 & Q9).
  destruct (pool_bytes R pr (g_N pr) Q1 Q2 Q3 Q4 Q5 m) as (b & m' & E & (K & T & Fl) & B1 & B2). exists b, m'. split; [exact E|].
  split; [apply K|]. split; [apply K|]. cbv zeta. rewrite T, Fl. rewrite Q6 in B2.
  assert (X: FP_MemoryUsage pr b = reports pr).
  { unfold reports, FP_MemoryUsage, BM_MemoryUsage. cbn [fp_poly bm_n fp_block]. rewrite B1. destruct (fp_block b); [reflexivity|contradiction]. }
  rewrite X. auto.
Qed.

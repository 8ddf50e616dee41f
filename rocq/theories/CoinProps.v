(** * Counting the tosses of re-encryption keys: the statements of PropCoin.v *)
From Coq Require Import Lia ZifyBool Setoid Morphisms List Reals Lra.
From Verif Require Import GoBase GoFacts F64 Utils UtilsFacts Params Tlwe TlweFacts BasicFacts ProxyReenc ReencSpec ReencFacts ReencProps
  MaskCount MaskTail CoinSpec.
Import ListNotations.
Local Open Scope Z_scope.
Ltac Zify.zify_post_hook ::= idtac.

(** ** words over four letters *)
Definition four : list Z := [0; 1; 2; 3].
Lemma four_in x : In x four <-> 0 <= x < 4.
Proof. unfold four. cbn [In]. lia. Qed.
Lemma tosses_words len w : tosses len w -> In w (words four (Z.to_nat len)).
Proof.
  intros [Hl Hf]. apply words_in. split; [unfold zlen in Hl; lia|]. eapply Forall_impl; [|exact Hf]. intros x. apply four_in.
Qed.
Lemma words_tosses len w : 0 <= len -> In w (words four (Z.to_nat len)) -> tosses len w.
Proof.
  intros H Hw. apply words_in in Hw. destruct Hw as [Hl Hf]. split; [unfold zlen; lia|]. eapply Forall_impl; [|exact Hf]. intros x. apply four_in.
Qed.
Lemma four_nodup : NoDup four.
Proof. unfold four. repeat constructor; cbn [In]; lia. Qed.

Lemma zn_cons x a p : 0 < p -> zn (x :: a) p = zn a (p - 1).
Proof. intro H. unfold zn, znd. replace (Z.to_nat p) with (S (Z.to_nat (p - 1))) by lia. reflexivity. Qed.

(** ** exponential moment of a sum over independent letters *)
Section Mgf.
Context (lam : R).
Definition letter_ok (g : Z -> Z) (q : Z) : Prop :=
  (rlsum (fun x => exp (lam * IZR (g x))) four <= 4 * exp (lam * lam * IZR q / 4))%R.
Definition lett (g : Z -> Z -> Z) (k : Z) (a : list Z) : Z := zsum k (fun p => g p (zn a p)).

Lemma lett_cons g k x a : 0 <= k -> lett g (k + 1) (x :: a) = g 0 x + lett (fun p => g (1 + p)) k a.
Proof.
  intro H. unfold lett. rewrite zsum_first by exact H. f_equal. apply zsum_ext. intros i Hi. rewrite zn_cons by lia. do 2 f_equal. lia.
Qed.

Lemma rlsum_pos {A} (f : A -> R) l : (forall x, 0 <= f x)%R -> (0 <= rlsum f l)%R.
Proof. intro H. induction l as [|x l IH]; [apply Rle_refl|]. rewrite rlsum_cons. pose proof (H x). lra. Qed.

Lemma mgf_words k : forall g q, (forall p, 0 <= p < Z.of_nat k -> letter_ok (g p) (q p)) ->
  (rlsum (fun a => exp (lam * IZR (lett g (Z.of_nat k) a))) (words four k) <= IZR (4 ^ Z.of_nat k) * exp (lam * lam * IZR (zsum (Z.of_nat k) q) / 4))%R.
Proof.
  induction k as [|k IH]; intros g q H.
  - cbn [words]. unfold lett. rewrite rlsum_cons. change (Z.of_nat 0) with 0. rewrite !zsum_0 by lia. rewrite Z.pow_0_r. cbn [rlsum fold_right].
    replace (lam * lam * 0 / 4)%R with 0%R by field. rewrite Rmult_0_r, exp_0. lra.
  - rewrite Nat2Z.inj_succ, <- Z.add_1_r. cbn [words]. rewrite rlsum_flat.
    specialize (IH (fun p => g (1 + p)) (fun p => q (1 + p)) ltac:(intros p Hp; apply H; lia)).
    set (W := rlsum _ (words four k)) in IH.
    rewrite (rlsum_ext _ (fun x => W * exp (lam * IZR (g 0%Z x)))%R).
    2: { intros x _. rewrite rlsum_map, Rmult_comm. unfold W. rewrite <- rlsum_mul. apply rlsum_ext. intros a _. rewrite lett_cons by lia.
         rewrite plus_IZR, Rmult_plus_distr_l, exp_plus. reflexivity. }
    rewrite rlsum_mul. rewrite zsum_first by lia. rewrite plus_IZR.
    assert (H0: letter_ok (g 0) (q 0)) by (apply H; lia). unfold letter_ok in H0.
    set (q0 := IZR (q 0)) in *. set (qs := IZR (zsum (Z.of_nat k) _)) in *.
    replace (lam * lam * (q0 + qs) / 4)%R with (lam * lam * q0 / 4 + lam * lam * qs / 4)%R by field.
    rewrite exp_plus, Z.pow_add_r, Z.pow_1_r, mult_IZR by lia.
    set (X := exp (lam * lam * q0 / 4)) in *. set (Y := exp (lam * lam * qs / 4)) in *. set (P := IZR (4 ^ Z.of_nat k)) in *.
    replace (P * 4 * (X * Y))%R with ((P * Y) * (4 * X))%R by ring.
    apply Rmult_le_compat; [apply rlsum_pos; intros; left; apply exp_pos|apply rlsum_pos; intros; left; apply exp_pos|exact IH|exact H0].
Qed.

(** the two kinds of letters *)
Lemma letter_zero : letter_ok (fun _ => 0) 0.
Proof.
  unfold letter_ok, four. rewrite !rlsum_cons. cbn [rlsum fold_right]. replace (lam * lam * 0 / 4)%R with 0%R by field. rewrite Rmult_0_r, exp_0. lra.
Qed.
Lemma letter_sign f : letter_ok (fun x => if Z.odd x then - f else f) (2 * f ^ 2).
Proof.
  unfold letter_ok, four. rewrite !rlsum_cons. cbn [rlsum fold_right Z.odd]. rewrite opp_IZR.
  pose proof (cosh_le (lam * IZR f)) as C. replace (lam * - IZR f)%R with (- (lam * IZR f))%R by ring.
  rewrite mult_IZR. replace (f ^ 2) with (f * f) by ring. rewrite mult_IZR.
  replace (lam * lam * (2 * (IZR f * IZR f)) / 4)%R with (lam * IZR f * (lam * IZR f) / 2)%R by field. lra.
Qed.
Lemma letter_pick z : letter_ok (fun x => if 2 <=? x then (if Z.odd x then z else - z) else 0) (z ^ 2).
Proof.
  unfold letter_ok, four. rewrite !rlsum_cons. cbn [rlsum fold_right Z.odd Z.leb Z.compare Pos.compare Pos.compare_cont]. rewrite opp_IZR.
  replace (z ^ 2) with (z * z) by ring. rewrite mult_IZR.
  set (y := (lam * IZR z / 2)%R). replace (lam * IZR z)%R with (y + y)%R by (unfold y; field).
  replace (lam * - IZR z)%R with (- y + - y)%R by (unfold y; field). rewrite Rmult_0_r, exp_0, !exp_plus.
  replace (lam * lam * (IZR z * IZR z) / 4)%R with (y * y / 2 + y * y / 2)%R by (unfold y; field). rewrite exp_plus.
  pose proof (cosh_le y) as C. assert (E: (exp y * exp (- y) = 1)%R) by (rewrite <- exp_plus, Rplus_opp_r; apply exp_0).
  set (E1 := exp y) in *. set (E2 := exp (- y)) in *. set (G := exp (y * y / 2)) in *.
  assert (0 < E1 + E2)%R by (pose proof (exp_pos y); pose proof (exp_pos (- y)); unfold E1, E2; lra).
  assert (((E1 + E2) * (E1 + E2) <= 2 * G * (2 * G))%R) by (apply Rmult_le_compat; lra).
  replace ((E1 + E2) * (E1 + E2))%R with (E1 * E1 + E2 * E2 + 2 * (E1 * E2))%R in * by ring. rewrite E in *. lra.
Qed.
End Mgf.

(** ** second moment *)
Definition letter_sq (g : Z -> Z) (q : Z) : Prop := lsum g four = 0 /\ 2 * lsum (fun x => g x ^ 2) four = 4 * q.
Lemma sq_words k : forall g q, (forall p, 0 <= p < Z.of_nat k -> letter_sq (g p) (q p)) ->
  lsum (lett g (Z.of_nat k)) (words four k) = 0 /\
  2 * lsum (fun a => lett g (Z.of_nat k) a ^ 2) (words four k) = 4 ^ Z.of_nat k * zsum (Z.of_nat k) q.
Proof.
  induction k as [|k IH]; intros g q H.
  - cbn [words]. unfold lett. rewrite !lsum_cons. change (Z.of_nat 0) with 0. rewrite !zsum_0 by lia. split; reflexivity.
  - rewrite Nat2Z.inj_succ, <- Z.add_1_r. destruct (IH (fun p => g (1 + p)) (fun p => q (1 + p)) ltac:(intros p Hp; apply H; lia)) as [I1 I2].
    destruct (H 0 ltac:(lia)) as [Z1 Z2]. assert (W := words_len four k). change (zlen four) with 4 in W.
    set (h := lett (fun p => g (1 + p)) (Z.of_nat k)) in *. rewrite !lsum_words.
    assert (E1: lsum (fun x => lsum (fun a => lett g (Z.of_nat k + 1) (x :: a)) (words four k)) four = lsum (fun x => zlen (words four k) * g 0 x) four).
    { apply lsum_ext. intros x _. rewrite (lsum_ext _ (fun a => g 0 x + h a)) by (intros a _; apply lett_cons; lia).
      rewrite lsum_add, lsum_const, I1. ring. }
    assert (E2: lsum (fun x => lsum (fun a => lett g (Z.of_nat k + 1) (x :: a) ^ 2) (words four k)) four =
      lsum (fun x => zlen (words four k) * g 0 x ^ 2 + lsum (fun a => h a ^ 2) (words four k)) four).
    { apply lsum_ext. intros x _. rewrite (lsum_ext _ (fun a => g 0 x ^ 2 + (2 * g 0 x * h a + h a ^ 2))).
      2: { intros a _. rewrite lett_cons by lia. unfold h. ring. }
      rewrite !lsum_add, lsum_const, lsum_mul, I1. ring. }
    rewrite E1, E2, lsum_add, !lsum_mul, Z1, lsum_const. change (zlen four) with 4. split; [ring|].
    rewrite zsum_first by lia. rewrite Z.pow_add_r, Z.pow_1_r by lia. rewrite W in *. 
    transitivity (4 ^ Z.of_nat k * (2 * lsum (fun x => g 0 x ^ 2) four) + 4 * (2 * lsum (fun a => h a ^ 2) (words four k))); [ring|].
    rewrite Z2, I2. ring.
Qed.
Lemma sq_zero : letter_sq (fun _ => 0) 0.
Proof. split; reflexivity. Qed.
Lemma sq_sign f : letter_sq (fun x => if Z.odd x then - f else f) (2 * f ^ 2).
Proof. unfold letter_sq, four. rewrite !lsum_cons. cbn [lsum fold_right Z.odd]. split; ring. Qed.
Lemma sq_pick z : letter_sq (fun x => if 2 <=? x then (if Z.odd x then z else - z) else 0) (z ^ 2).
Proof. unfold letter_sq, four. rewrite !lsum_cons. cbn [lsum fold_right Z.odd Z.leb Z.compare Pos.compare Pos.compare_cont]. split; ring. Qed.

(** ** the noise of a re-encryption as a sum over the tosses *)
Lemma zsum_block a b f : 0 <= a -> 0 <= b -> zsum (b * a) f = zsum a (fun i => zsum b (fun j => f (b * i + j))).
Proof.
  intros Ha Hb. revert a Ha. refine (natlike_ind _ _ _); [rewrite Z.mul_0_r, !zsum_0 by lia; reflexivity|].
  intros a Ha IH. rewrite <- Z.add_1_r, Z.mul_add_distr_l, Z.mul_1_r, zsum_split, zsum_S, IH by nia. reflexivity.
Qed.

Definition used_at (bb t : Z) (ct : list Z) (idx : Z) : bool :=
  negb (idx mod 2 ^ bb =? 0) && (digit bb t (zn ct (idx / (2 ^ bb * t))) ((idx / 2 ^ bb) mod t) =? idx mod 2 ^ bb).

Lemma used_flat n bb t ct noise : 0 <= n -> 0 <= bb -> 0 <= t ->
  used_noise n bb t ct noise = zsum (2 ^ bb * t * n) (fun idx => if used_at bb t ct idx then noise idx else 0).
Proof.
  intros Hn Hb Ht. assert (PB: 0 < 2 ^ bb) by (apply Z.pow_pos_nonneg; lia). set (B := 2 ^ bb) in *.
  rewrite zsum_block by nia. unfold used_noise. apply zsum_ext. intros i Hi. rewrite zsum_block by nia. apply zsum_ext. intros j Hj.
  cbv zeta. set (k := digit bb t (zn ct i) j).
  assert (Rk: 0 <= k < B) by (unfold k; rewrite digit_kdig; apply KeySwitchFacts.kdig_range; lia).
  assert (D: forall l, 0 <= l < B -> used_at bb t ct (B * t * i + (B * j + l)) = negb (l =? 0) && (k =? l)).
  { intros l Hl. unfold used_at. fold B.
    assert (E1: (B * t * i + (B * j + l)) mod B = l).
    { replace (B * t * i + (B * j + l)) with (l + (t * i + j) * B) by ring. rewrite Z.mod_add by lia. apply Z.mod_small. exact Hl. }
    assert (E2: (B * t * i + (B * j + l)) / B = t * i + j).
    { replace (B * t * i + (B * j + l)) with (l + (t * i + j) * B) by ring. rewrite Z.div_add, Z.div_small by lia. lia. }
    assert (E3: (B * t * i + (B * j + l)) / (B * t) = i).
    { rewrite <- Z.div_div, E2 by lia. replace (t * i + j) with (j + i * t) by ring. rewrite Z.div_add, Z.div_small by lia. lia. }
    rewrite E1, E2, E3. replace (t * i + j) with (j + i * t) by ring. rewrite Z.mod_add, Z.mod_small by lia. reflexivity. }
  rewrite (zsum_ext B _ (fun l => if negb (l =? 0) && (k =? l) then noise (B * t * i + (B * j + l)) else 0)).
  2: { intros l Hl. rewrite D by exact Hl. reflexivity. }
  rewrite (zsum_single B _ k) by (exact Rk || (intros l Hl Hne; replace (k =? l) with false by lia; rewrite Bool.andb_false_r; reflexivity)).
  rewrite Z.eqb_refl, Bool.andb_true_r. destruct (k =? 0); [reflexivity|]. cbn [negb]. f_equal. fold B. ring.
Qed.

Lemma sample_opp d : is_fin d = true -> Z.abs (sample d) < 2 ^ 31 -> sample (fopp d) = - sample d.
Proof.
  intros Hf Hb. unfold sample. rewrite F64ToTorus_opp by exact Hf. change (2 ^ 31) with two31 in Hb. apply centered_unique.
  - pose proof (sample_eqm d) as E. unfold sample in E. unfold tneg. rewrite E, eqm_w32. reflexivity.
  - fold (sample d). lia.
Qed.

Lemma signed_sample c d : is_fin d = true -> Z.abs (sample d) < 2 ^ 31 -> sample (signed c d) = if Z.odd c then - sample d else sample d.
Proof. intros Hf Hb. unfold signed. destruct (Z.odd c); [apply sample_opp; assumption|reflexivity]. Qed.

(** letters: [e] below [size] picks zero encryption e, [size] is the sign *)
Definition zs (h : hop_to) (e : Z) : Z := match h with Asymmetric _ _ zeros _ => sample (er_noise (zeros e)) | Symmetric _ _ _ => 0 end.
Definition hl (size : Z) (z : Z -> Z) (f e x : Z) : Z :=
  if e =? size then (if Z.odd x then - f else f) else (if 2 <=? x then (if Z.odd x then z e else - z e) else 0).
Definition hq (size : Z) (z : Z -> Z) (f e : Z) : Z := if e =? size then 2 * f ^ 2 else z e ^ 2.
Lemma hl_ok lam size z f e : letter_ok lam (hl size z f e) (hq size z f e).
Proof. unfold hl, hq. destruct (e =? size); [apply letter_sign|apply letter_pick]. Qed.
Lemma hl_sq size z f e : letter_sq (hl size z f e) (hq size z f e).
Proof. unfold hl, hq. destruct (e =? size); [apply sq_sign|apply sq_pick]. Qed.
Lemma hq_sum size z f : 0 <= size -> zsum (size + 1) (hq size z f) = zsum size (fun e => z e ^ 2) + 2 * f ^ 2.
Proof.
  intro H. rewrite zsum_S by exact H. f_equal; [|unfold hq; rewrite Z.eqb_refl; reflexivity].
  apply zsum_ext. intros e He. unfold hq. replace (e =? size) with false by lia. reflexivity.
Qed.

Lemma pk_draw_sum size zeros w idx d : 0 <= size -> is_fin d = true -> Z.abs (sample d) < 2 ^ 31 ->
  pk_total size zeros (pk_draw w size idx d) = zsum (size + 1) (fun e => hl size (fun e => sample (er_noise (zeros e))) (sample d) e (toss w size idx e)).
Proof.
  intros Hs Hf Hb. unfold pk_total, pk_draw. cbn [pk_use pk_add pk_noise]. rewrite signed_sample by assumption.
  rewrite zsum_S by exact Hs. f_equal.
  - apply zsum_ext. intros e He. unfold hl. replace (e =? size) with false by lia. reflexivity.
  - unfold hl. rewrite Z.eqb_refl. reflexivity.
Qed.

Lemma hop_noise_sum n F h w idx : hop_good n F h -> F < 2 ^ 31 ->
  hop_noise h w idx = zsum (to_size h + 1) (fun e => hl (to_size h) (zs h) (sample (to_noise h idx)) e (toss w (to_size h) idx e)).
Proof.
  intros (_ & Hs & Hn) HF. destruct (Hn idx) as [Hf Hb]. destruct h as [b size zeros noise|b mk noise]; cbn [hop_noise to_size to_noise zs] in *.
  - apply pk_draw_sum; [exact Hs|exact Hf|lia].
  - rewrite signed_sample by (assumption || lia). change (0 + 1) with 1. rewrite (zsum_single 1 _ 0) by lia. reflexivity.
Qed.

Section Hop.
Context (n bb t F : Z) (Hn : 0 <= n) (Hb : 0 <= bb) (Ht : 0 <= t) (HF : F < 2 ^ 31) (h : hop_to) (G : hop_good n F h).
Notation L := (toss_count n bb t h).
Notation size1 := (to_size h + 1).
Context (ct : list Z).
Definition hg (p x : Z) : Z :=
  if used_at bb t ct (p / size1) then hl (to_size h) (zs h) (sample (to_noise h (p / size1))) (p mod size1) x else 0.
Definition hqs (p : Z) : Z :=
  if used_at bb t ct (p / size1) then hq (to_size h) (zs h) (sample (to_noise h (p / size1))) (p mod size1) else 0.

Lemma hs1 : 0 < size1. Proof. destruct G as (_ & Hs & _). lia. Qed.
Lemma pB : 0 < 2 ^ bb. Proof. apply Z.pow_pos_nonneg; lia. Qed.
Lemma L_nonneg : 0 <= L. Proof. unfold toss_count. pose proof hs1. pose proof pB. apply Z.mul_nonneg_nonneg; nia. Qed.
Lemma pos_div idx e : 0 <= e < size1 -> (size1 * idx + e) / size1 = idx /\ (size1 * idx + e) mod size1 = e.
Proof.
  intro He. replace (size1 * idx + e) with (e + idx * size1) by ring. rewrite Z.div_add, Z.mod_add, Z.div_small, Z.mod_small by lia. lia.
Qed.

Lemma hop_lett w : used_noise n bb t ct (hop_noise h w) = lett hg L w.
Proof.
  pose proof hs1 as H1. pose proof pB as HB. rewrite used_flat by assumption. unfold lett, toss_count.
  rewrite (Z.mul_comm _ size1), (zsum_block (2 ^ bb * t * n) size1) by nia. apply zsum_ext. intros idx Hi. rewrite (hop_noise_sum n F h w idx G HF).
  destruct (used_at bb t ct idx) eqn:U.
  - apply zsum_ext. intros e He. destruct (pos_div idx e He) as [E1 E2]. unfold hg. rewrite E1, E2, U. unfold toss. do 2 f_equal. ring.
  - symmetry. apply zsum_zero. intros e He. destruct (pos_div idx e He) as [E1 E2]. unfold hg. rewrite E1, U. reflexivity.
Qed.
Lemma hop_qs : zsum L hqs = used_noise n bb t ct (fun idx => to_squares h + 2 * sample (to_noise h idx) ^ 2).
Proof.
  pose proof hs1 as H1. pose proof pB as HB. rewrite used_flat by assumption. unfold toss_count.
  rewrite (Z.mul_comm _ size1), (zsum_block (2 ^ bb * t * n) size1) by nia. apply zsum_ext. intros idx Hi.
  destruct (used_at bb t ct idx) eqn:U.
  - rewrite (zsum_ext size1 _ (hq (to_size h) (zs h) (sample (to_noise h idx)))).
    2: { intros e He. destruct (pos_div idx e He) as [E1 E2]. unfold hqs. rewrite E1, E2, U. reflexivity. }
    rewrite hq_sum by lia. f_equal. destruct h; [reflexivity|]. cbn [to_size to_squares]. apply zsum_0. lia.
  - apply zsum_zero. intros e He. destruct (pos_div idx e He) as [E1 E2]. unfold hqs. rewrite E1, U. reflexivity.
Qed.
Lemma squares_nonneg : 0 <= to_squares h.
Proof. destruct h; cbn [to_squares]; [|lia]. apply zsum_nonneg. intros. nia. Qed.
Lemma hop_qs_le : zsum L hqs <= n * t * (to_squares h + 2 * F ^ 2).
Proof.
  rewrite hop_qs. pose proof squares_nonneg as Q0.
  pose proof (used_noise_le n bb t ct (fun idx => to_squares h + 2 * sample (to_noise h idx) ^ 2) (to_squares h + 2 * F ^ 2) Hn Ht) as X.
  cbv beta in X. specialize (X ltac:(intro idx; destruct G as (_ & _ & Hx); destruct (Hx idx) as [_ Hy]; nia)). lia.
Qed.

Lemma hop_mgf_exact lam : (rlsum (fun w => exp (lam * IZR (used_noise n bb t ct (hop_noise h w)))) (words four (Z.to_nat L)) <=
  IZR (4 ^ L) * exp (lam * lam * IZR (zsum L hqs) / 4))%R.
Proof.
  pose proof L_nonneg as HL. rewrite (rlsum_ext _ (fun w => exp (lam * IZR (lett hg L w)))) by (intros; rewrite hop_lett; reflexivity).
  pose proof (mgf_words lam (Z.to_nat L) hg hqs) as M. rewrite Z2Nat.id in M by exact HL. apply M.
  intros p _. unfold hg, hqs. destruct (used_at bb t ct (p / size1)); [apply hl_ok|apply letter_zero].
Qed.
Lemma hop_mgf lam : (rlsum (fun w => exp (lam * IZR (used_noise n bb t ct (hop_noise h w)))) (words four (Z.to_nat L)) <=
  IZR (4 ^ L) * exp (lam * lam * IZR (n * t * (to_squares h + 2 * F ^ 2)) / 4))%R.
Proof.
  eapply Rle_trans; [apply hop_mgf_exact|].
  apply Rmult_le_compat_l; [apply IZR_le; apply Z.pow_nonneg; lia|]. apply exp_mono. apply Rmult_le_compat_r; [lra|].
  apply Rmult_le_compat_l; [apply Rle_0_sqr|]. apply IZR_le. apply hop_qs_le.
Qed.
Lemma hop_sq : lsum (fun w => used_noise n bb t ct (hop_noise h w)) (words four (Z.to_nat L)) = 0 /\
  2 * lsum (fun w => used_noise n bb t ct (hop_noise h w) ^ 2) (words four (Z.to_nat L)) =
  4 ^ L * used_noise n bb t ct (fun idx => to_squares h + 2 * sample (to_noise h idx) ^ 2).
Proof.
  pose proof L_nonneg as HL. rewrite (lsum_ext (fun w => used_noise n bb t ct (hop_noise h w)) (lett hg L)) by (intros; apply hop_lett).
  rewrite (lsum_ext (fun w => used_noise n bb t ct (hop_noise h w) ^ 2) (fun w => lett hg L w ^ 2)) by (intros; rewrite hop_lett; reflexivity).
  pose proof (sq_words (Z.to_nat L) hg hqs) as M. rewrite Z2Nat.id in M by exact HL. rewrite <- hop_qs. apply M.
  intros p _. unfold hg, hqs. destruct (used_at bb t ct (p / size1)); [apply hl_sq|apply sq_zero].
Qed.
End Hop.

(** ** sequences of words *)
Fixpoint wordss (lens : list Z) : list (list (list Z)) :=
  match lens with [] => [[]] | L :: lens => flat_map (fun w => map (cons w) (wordss lens)) (words four (Z.to_nat L)) end.
Lemma wordss_in lens : forall ws, Forall2 tosses lens ws -> In ws (wordss lens).
Proof.
  induction lens as [|L lens IH]; intros ws H; inversion H; subst; [left; reflexivity|]. cbn [wordss]. apply in_flat_map. eexists.
  split; [apply tosses_words; eassumption|]. apply in_map. apply IH. assumption.
Qed.
Lemma wordss_len lens ws : In ws (wordss lens) -> length ws = length lens.
Proof.
  revert ws. induction lens as [|L lens IH]; intros ws H; [destruct H as [<-|[]]; reflexivity|]. cbn [wordss] in H.
  apply in_flat_map in H. destruct H as (w & _ & H). apply in_map_iff in H. destruct H as (u & <- & Hu). cbn [length]. f_equal. apply IH. exact Hu.
Qed.

(** the tail bound from the exponential moments *)
Lemma tail_bound {A} (l : list A) (f : A -> Z) (C Sp Q T : Z) : 0 < T -> 0 < Q -> Sp <= Q ->
  (forall lam, rlsum (fun x => exp (lam * IZR (f x))) l <= IZR C * exp (lam * lam * IZR Sp / 4))%R -> 0 <= C ->
  (IZR (zlen (filter (fun x => (T <=? Z.abs (f x))%Z) l)) <= 2 * exp (- (IZR T * IZR T / IZR Q)) * IZR C)%R.
Proof.
  intros HT HQ HS H HC. assert (PT: (0 < IZR T)%R) by (apply IZR_lt; exact HT). assert (PQ: (0 < IZR Q)%R) by (apply IZR_lt; exact HQ).
  set (lam := (2 * IZR T / IZR Q)%R). assert (Pl: (0 < lam)%R) by (unfold lam; apply Rdiv_lt_0_compat; lra).
  set (E := (IZR T * IZR T / IZR Q)%R).
  assert (M: forall s, (s = lam \/ s = - lam)%R -> (rlsum (fun x => exp (s * IZR (f x))) l <= IZR C * exp E)%R).
  { intros s Hs. eapply Rle_trans; [apply H|]. apply Rmult_le_compat_l; [apply IZR_le; exact HC|]. apply exp_mono.
    replace (s * s)%R with (lam * lam)%R by (destruct Hs; subst s; ring).
    replace E with (lam * lam * IZR Q / 4)%R by (unfold E, lam; field; lra).
    apply Rmult_le_compat_r; [lra|]. apply Rmult_le_compat_l; [apply Rle_0_sqr|]. apply IZR_le. exact HS. }
  pose proof (M lam (or_introl eq_refl)) as M1. pose proof (M (- lam)%R (or_intror eq_refl)) as M2.
  assert (X: (IZR (zlen (filter (fun x => (T <=? Z.abs (f x))%Z) l)) * exp (lam * IZR T) <= 2 * (IZR C * exp E))%R).
  { eapply Rle_trans; [|assert (Y := Rplus_le_compat _ _ _ _ M1 M2); rewrite double; exact Y].
    rewrite <- rlsum_add, <- (rlsum_filter (fun x => (T <=? Z.abs (f x))%Z)). apply rlsum_le. intros x _.
    pose proof (exp_pos (lam * IZR (f x))). pose proof (exp_pos (- lam * IZR (f x))).
    destruct (Z.leb_spec T (Z.abs (f x))) as [Hl|_]; [|lra]. destruct (Z.le_ge_cases 0 (f x)) as [P|P].
    - assert (exp (lam * IZR T) <= exp (lam * IZR (f x)))%R; [|lra]. apply exp_mono. apply Rmult_le_compat_l; [lra|]. apply IZR_le. lia.
    - assert (exp (lam * IZR T) <= exp (- lam * IZR (f x)))%R; [|lra]. apply exp_mono. replace (- lam * IZR (f x))%R with (lam * IZR (- f x))%R by (rewrite opp_IZR; ring).
      apply Rmult_le_compat_l; [lra|]. apply IZR_le. lia. }
  replace (lam * IZR T)%R with (E + E)%R in X by (unfold E, lam; field; lra). rewrite exp_plus in X.
  assert (Y: (exp E * exp (- E) = 1)%R) by (rewrite <- exp_plus, Rplus_opp_r; apply exp_0).
  set (N := IZR (zlen _)) in *. fold E. set (P := exp E) in *. set (P' := exp (- E)) in *. assert (0 < P')%R by apply exp_pos.
  assert (Z1: (N * (P * P) * (P' * P') <= 2 * (IZR C * P) * (P' * P'))%R) by (apply Rmult_le_compat_r; [nra|exact X]).
  replace (N * (P * P) * (P' * P'))%R with (N * ((P * P') * (P * P')))%R in Z1 by ring.
  replace (2 * (IZR C * P) * (P' * P'))%R with (2 * P' * IZR C * (P * P'))%R in Z1 by ring. rewrite Y in Z1. lra.
Qed.

Section Relay.
Context (n bb t F : Z) (Hn : 0 <= n) (Hb : 1 <= bb) (Ht : 1 <= t) (Hbt : bb * t <= 31) (HF : F < 2 ^ 31).

Lemma hop_step a h w ct : bin_key n a -> hop_good n F h -> lwe_ok n ct ->
  exists rk ct', hop_key n bb t a h w = Ok rk /\ ReencryptTLWELv0 n ct rk = Ok ct' /\ lwe_ok n ct' /\
    exists d, Z.abs d <= weight n a * 2 ^ (31 - bb * t) /\
      lwe_phase n (to_key h) ct' == lwe_phase n a ct + d - used_noise n bb t ct (hop_noise h w).
Proof.
  intros Ha (Hk & Hs & _) Hct. pose proof (bbt_le bb t Hb Ht Hbt) as Hb31. destruct h as [b size zeros noise|b mk noise]; cbn [to_key to_size] in *.
  - destruct (q_limits_asym n bb t size a b zeros (fun idx => pk_draw w size idx (noise idx)) Hn Ha (proj1 Hk) Hs ltac:(lia) Ht) as (pk & rk & E1 & E2 & _).
    destruct (q_run n a b rk bb t (fun idx => pk_total size zeros (pk_draw w size idx (noise idx))) Hn
      (rkey_asymmetric n a b bb t size zeros _ pk rk Ha (proj1 Hk) Hb Ht Hbt Hs E1 E2) ct Hct) as (ct' & E3 & Ho & Hd).
    exists rk, ct'. split; [unfold hop_key; rewrite E1; exact E2|]. split; [exact E3|]. split; [exact Ho|exact Hd].
  - destruct (q_limits_sym n bb t a b (fun idx => {| er_mask := mk idx; er_noise := signed (toss w 0 idx 0) (noise idx) |}) Hn Ha (proj1 Hk) ltac:(lia) Ht) as (rk & E2 & _).
    destruct (q_run n a b rk bb t _ Hn (rkey_symmetric n a b bb t _ rk Ha (proj1 Hk) Hb Ht Hbt E2) ct Hct) as (ct' & E3 & Ho & Hd).
    exists rk, ct'. split; [exact E2|]. split; [exact E3|]. split; [exact Ho|exact Hd].
Qed.

Fixpoint rtotal (a : list Z) (hs : list hop_to) (ws : list (list Z)) (ct : list Z) : Z :=
  match hs, ws with
  | h :: hs, w :: ws => used_noise n bb t ct (hop_noise h w) +
      match (rk <- hop_key n bb t a h w ;; ReencryptTLWELv0 n ct rk) with Ok ct' => rtotal (to_key h) hs ws ct' | Panic _ => 0 end
  | _, _ => 0
  end.

Lemma relay_ok hs : forall a ws ct, bin_key n a -> Forall (hop_good n F) hs -> lwe_ok n ct -> length ws = length hs ->
  exists ct', relay n bb t a hs ws ct = Ok ct' /\ lwe_ok n ct' /\ exists d, Z.abs d <= rounding n bb t a hs /\
    lwe_phase n (last_key a hs) ct' == lwe_phase n a ct + d - rtotal a hs ws ct.
Proof.
  induction hs as [|h hs IH]; intros a ws ct Ha Hg Hct Hl.
  - exists ct. split; [reflexivity|]. split; [exact Hct|]. exists 0. split; [reflexivity|]. cbn [last_key rtotal]. apply eqm_refl'. ring.
  - destruct ws as [|w ws]; [discriminate Hl|]. inversion Hg as [|h' hs' Gh Ghs]; subst.
    destruct (hop_step a h w ct Ha Gh Hct) as (rk & ct1 & E1 & E2 & Ho & d & Hd & Hp).
    destruct (IH (to_key h) ws ct1 (proj1 Gh) Ghs Ho ltac:(cbn [length] in Hl; lia)) as (ct' & E3 & Ho' & d' & Hd' & Hp').
    exists ct'. cbn [relay rounding last_key rtotal]. rewrite E1. cbn [bind]. rewrite E2. cbn [bind]. split; [exact E3|]. split; [exact Ho'|].
    exists (d + d'). split; [lia|]. rewrite Hp', Hp. apply eqm_refl'. ring.
Qed.

Lemma spread_cons h hs : spread n t F (h :: hs) = n * t * (to_squares h + 2 * F ^ 2) + spread n t F hs.
Proof. reflexivity. Qed.
Lemma counts_nonneg hs : Forall (hop_good n F) hs -> 0 <= tosses_in_all (map (toss_count n bb t) hs).
Proof.
  intro H. induction H as [|h hs G Gs IH]; [reflexivity|]. cbn [map tosses_in_all fold_right]. unfold tosses_in_all in IH.
  pose proof (L_nonneg n bb t F Hn ltac:(lia) ltac:(lia) h G). lia.
Qed.

Lemma relay_mgf lam hs : forall a ct, bin_key n a -> Forall (hop_good n F) hs -> lwe_ok n ct ->
  (rlsum (fun ws => exp (lam * IZR (rtotal a hs ws ct))) (wordss (map (toss_count n bb t) hs)) <=
   IZR (4 ^ tosses_in_all (map (toss_count n bb t) hs)) * exp (lam * lam * IZR (spread n t F hs) / 4))%R.
Proof.
  induction hs as [|h hs IH]; intros a ct Ha Hg Hct.
  - cbn [map wordss rtotal spread tosses_in_all fold_right]. rewrite rlsum_cons, Z.pow_0_r. cbn [rlsum fold_right].
    replace (lam * lam * 0 / 4)%R with 0%R by field. rewrite Rmult_0_r, exp_0. lra.
  - inversion Hg as [|h' hs' Gh Ghs]; subst. cbn [map wordss]. rewrite rlsum_flat.
    pose proof (L_nonneg n bb t F Hn ltac:(lia) ltac:(lia) h Gh) as HL. pose proof (counts_nonneg hs Ghs) as HC.
    set (L := toss_count n bb t h) in *. set (C := tosses_in_all (map (toss_count n bb t) hs)) in *.
    change (tosses_in_all (L :: map (toss_count n bb t) hs)) with (L + C).
    set (K := (IZR (4 ^ C) * exp (lam * lam * IZR (spread n t F hs) / 4))%R).
    assert (K0: (0 <= K)%R) by (unfold K; apply Rmult_le_pos; [apply IZR_le; apply Z.pow_nonneg; lia|left; apply exp_pos]).
    eapply Rle_trans.
    { apply (rlsum_le _ (fun w => K * exp (lam * IZR (used_noise n bb t ct (hop_noise h w))))%R). intros w _. rewrite rlsum_map.
      destruct (hop_step a h w ct Ha Gh Hct) as (rk & ct1 & E1 & E2 & Ho & _). cbn [rtotal]. rewrite E1. cbn [bind]. rewrite E2.
      rewrite (rlsum_ext _ (fun ws => exp (lam * IZR (used_noise n bb t ct (hop_noise h w))) * exp (lam * IZR (rtotal (to_key h) hs ws ct1)))%R).
      2: { intros ws _. rewrite plus_IZR, Rmult_plus_distr_l, exp_plus. reflexivity. }
      rewrite rlsum_mul, Rmult_comm. apply Rmult_le_compat_r; [left; apply exp_pos|]. apply (IH (to_key h) ct1 (proj1 Gh) Ghs Ho). }
    rewrite rlsum_mul. pose proof (hop_mgf n bb t F Hn ltac:(lia) ltac:(lia) HF h Gh ct lam) as M. fold L in M.
    eapply Rle_trans; [apply Rmult_le_compat_l; [exact K0|exact M]|]. rewrite spread_cons, plus_IZR. unfold K.
    set (s1 := IZR (n * t * _)). set (s2 := IZR (spread n t F hs)).
    replace (lam * lam * (s1 + s2) / 4)%R with (lam * lam * s1 / 4 + lam * lam * s2 / 4)%R by field.
    rewrite exp_plus, Z.pow_add_r, mult_IZR by lia. apply Req_le. ring.
Qed.

Lemma relay_tail a hs v ct e T Q : bin_key n a -> Forall (hop_good n F) hs -> lwe_ok n ct -> lwe_phase n a ct == mu_bit v + e ->
  Z.abs e + rounding n bb t a hs + T <= 2 ^ 29 -> 0 < T -> 0 < Q -> spread n t F hs <= Q ->
  but_for (map (toss_count n bb t) hs) (2 * exp (- (IZR T * IZR T / IZR Q)))
    (fun ws => exists ct', relay n bb t a hs ws ct = Ok ct' /\ DecryptBool n ct' (last_key a hs) = Ok v).
Proof.
  intros Ha Hg Hct Hp HB HT HQ HS.
  exists (filter (fun ws => T <=? Z.abs (rtotal a hs ws ct)) (wordss (map (toss_count n bb t) hs))). split.
  - intros ws Hw Hi. assert (Hin := wordss_in _ _ Hw). assert (Hl := wordss_len _ _ Hin). rewrite map_length in Hl.
    assert (Hsm: Z.abs (rtotal a hs ws ct) < T).
    { apply Z.nle_gt. intro Hle. apply Hi. apply filter_In. split; [exact Hin|lia]. }
    destruct (relay_ok hs a ws ct Ha Hg Hct Hl) as (ct' & E & [Hlen _] & d & Hd & Hq). exists ct'. split; [exact E|].
    assert (Hk: zlen (last_key a hs) = n).
    { clear - Ha Hg. revert a Ha. induction Hg as [|h hs G Gs IH]; intros a Ha; [apply Ha|]. cbn [last_key]. apply IH. apply G. }
    rewrite DecryptBool_ok by lia. f_equal. set (u := rtotal a hs ws ct) in *. apply (sign_of_phase v (e + d - u)).
    + rewrite Hq, Hp. apply eqm_refl'. ring.
    + change (2 ^ 29) with 536870912 in *. rewrite (centered_unique _ (e + d - u)) by (reflexivity || (unfold two31; lia)).
      unfold bool_noise_ok. change (2 ^ 29) with 536870912. destruct v; lia.
  - apply (tail_bound _ (fun ws => rtotal a hs ws ct) _ (spread n t F hs) Q T HT HQ HS); [|apply Z.pow_nonneg; lia].
    intro lam. apply relay_mgf; assumption.
Qed.
End Relay.

Lemma squares_used n bb t ct V f : used_noise n bb t ct (fun idx => V + 2 * f idx) = digits_used n bb t ct * V + 2 * used_noise n bb t ct f.
Proof.
  unfold used_noise, digits_used. rewrite <- !zsum_mul_l, <- zsum_mul_r, <- zsum_add. apply zsum_ext. intros i Hi.
  rewrite <- !zsum_mul_l, <- zsum_mul_r, <- zsum_add. apply zsum_ext. intros j Hj. cbv zeta. destruct (_ =? 0); ring.
Qed.

(** one hop, with the digits that the ciphertext has *)
Lemma one_tail n bb t F a h v ct e T Q : 0 <= n -> 1 <= bb -> 1 <= t -> bb * t <= 31 -> F < 2 ^ 31 ->
  bin_key n a -> hop_good n F h -> lwe_ok n ct -> lwe_phase n a ct == mu_bit v + e ->
  Z.abs e + weight n a * 2 ^ (31 - bb * t) + T <= 2 ^ 29 -> 0 < T -> 0 < Q ->
  digits_used n bb t ct * to_squares h + 2 * used_noise n bb t ct (fun idx => sample (to_noise h idx) ^ 2) <= Q ->
  but_for [toss_count n bb t h] (2 * exp (- (IZR T * IZR T / IZR Q)))
    (fun ws => exists w, ws = [w] /\ exists rk ct', hop_key n bb t a h w = Ok rk /\ ReencryptTLWELv0 n ct rk = Ok ct' /\ DecryptBool n ct' (to_key h) = Ok v).
Proof.
  intros Hn Hb Ht Hbt HF Ha Hg Hct Hp HB HT HQ HS. set (f := fun w => used_noise n bb t ct (hop_noise h w)).
  pose proof (L_nonneg n bb t F Hn ltac:(lia) ltac:(lia) h Hg) as HL. set (L := toss_count n bb t h) in *.
  exists (map (fun w => [w]) (filter (fun w => T <=? Z.abs (f w)) (words four (Z.to_nat L)))). split.
  - intros ws Hw Hi. inversion Hw as [|x w lens ws' Hx Hnil Ex Ey]; inversion Hnil; subst ws'; subst ws. exists w. split; [reflexivity|].
    assert (Hsm: Z.abs (f w) < T).
    { apply Z.nle_gt. intro Hle. apply Hi. apply (in_map (fun w => [w])). apply filter_In. split; [apply tosses_words; exact Hx|lia]. }
    destruct (hop_step n bb t F Hn Hb Ht Hbt a h w ct Ha Hg Hct) as (rk & ct' & E1 & E2 & [Hlen _] & d & Hd & Hq).
    exists rk, ct'. split; [exact E1|]. split; [exact E2|]. destruct (proj1 Hg) as [Hk _].
    rewrite DecryptBool_ok by lia. f_equal. fold (f w) in Hq. set (u := f w) in *. apply (sign_of_phase v (e + d - u)).
    + rewrite Hq, Hp. apply eqm_refl'. ring.
    + change (2 ^ 29) with 536870912 in *. rewrite (centered_unique _ (e + d - u)) by (reflexivity || (unfold two31; lia)).
      unfold bool_noise_ok. change (2 ^ 29) with 536870912. destruct v; lia.
  - replace (zlen (map _ _)) with (zlen (filter (fun w => T <=? Z.abs (f w)) (words four (Z.to_nat L)))) by (unfold zlen; rewrite map_length; reflexivity).
    unfold tosses_in_all. cbn [fold_right]. rewrite Z.add_0_r.
    apply (tail_bound _ f (4 ^ L) (zsum L (hqs bb t h ct)) Q T HT HQ); [|intro lam; apply (hop_mgf_exact n bb t F); assumption || lia|apply Z.pow_nonneg; lia].
    unfold L. rewrite (hop_qs n bb t F) by (assumption || lia). rewrite squares_used. exact HS.
Qed.

(** ** one public key encryption *)
Lemma pk_tail n sk size zeros b d T Q : 0 <= n -> zlen sk = n -> 0 <= size -> is_fin d = true -> Z.abs (sample d) < 2 ^ 31 ->
  zsum size (fun e => sample (er_noise (zeros e)) ^ 2) + 2 * sample d ^ 2 <= Q -> 0 < Q -> T = 2 ^ 29 ->
  but_for [size + 1] (2 * exp (- (IZR T * IZR T / IZR Q)))
    (fun ws => exists w, ws = [w] /\ exists pk ct, NewPublicKeyLv0WithParams n sk size zeros = Ok pk /\
      PkEncryptBool n pk b (pk_draw w size 0 d) = Ok ct /\ DecryptBool n ct sk = Ok b).
Proof.
  intros Hn Hk Hs Hf Hd HS HQ ->. set (T := 2 ^ 29). set (f := fun w => pk_total size zeros (pk_draw w size 0 d)).
  exists (map (fun w => [w]) (filter (fun w => T <=? Z.abs (f w)) (words four (Z.to_nat (size + 1))))). split.
  - intros ws Hw Hi. inversion Hw as [|x w lens ws' Hx Hnil Ex Ey]; inversion Hnil; subst ws'; subst ws. exists w. split; [reflexivity|].
    apply (q_public_small n sk size zeros b (pk_draw w size 0 d) Hn Hk Hs). apply Z.nle_gt. intro Hle. apply Hi. apply (in_map (fun w => [w])). apply filter_In.
    split; [apply tosses_words; exact Hx|]. unfold f, T. lia.
  - replace (zlen (map _ _)) with (zlen (filter (fun w => T <=? Z.abs (f w)) (words four (Z.to_nat (size + 1))))) by (unfold zlen; rewrite map_length; reflexivity).
    unfold tosses_in_all. cbn [fold_right]. rewrite Z.add_0_r.
    apply (tail_bound _ f (4 ^ (size + 1)) _ Q T ltac:(reflexivity) HQ HS); [|apply Z.pow_nonneg; lia]. intro lam.
    set (z := fun e => sample (er_noise (zeros e))).
    rewrite (rlsum_ext _ (fun w => exp (lam * IZR (lett (fun p => hl size z (sample d) p) (size + 1) w)))).
    2: { intros w _. unfold f. rewrite pk_draw_sum by assumption. unfold lett, toss. fold z. do 3 f_equal. }
    pose proof (mgf_words lam (Z.to_nat (size + 1)) (fun p => hl size z (sample d) p) (hq size z (sample d))) as M.
    rewrite Z2Nat.id in M by lia. rewrite hq_sum in M by exact Hs. apply M. intros p _. apply hl_ok.
Qed.

(** ** the average of the square *)
Lemma mean_square n bb t F h ct : 0 <= n -> 0 <= bb -> 0 <= t -> F < 2 ^ 31 -> hop_good n F h ->
  exists l, NoDup l /\ (forall w, In w l <-> tosses (toss_count n bb t h) w) /\ zlen l = 4 ^ toss_count n bb t h /\
    sum_over (fun w => used_noise n bb t ct (hop_noise h w)) l = 0 /\
    2 * sum_over (fun w => used_noise n bb t ct (hop_noise h w) ^ 2) l =
    zlen l * (digits_used n bb t ct * to_squares h + 2 * used_noise n bb t ct (fun idx => sample (to_noise h idx) ^ 2)).
Proof.
  intros Hn Hb Ht HF G. pose proof (L_nonneg n bb t F Hn Hb Ht h G) as HL. exists (words four (Z.to_nat (toss_count n bb t h))).
  assert (Len: zlen (words four (Z.to_nat (toss_count n bb t h))) = 4 ^ toss_count n bb t h) by (rewrite words_len, Z2Nat.id by exact HL; reflexivity).
  split; [apply words_nodup; exact four_nodup|]. split; [intro w; split; [apply words_tosses; exact HL|apply tosses_words]|]. split; [exact Len|].
  destruct (hop_sq n bb t F Hn Hb Ht HF h G ct) as [S1 S2]. split; [exact S1|]. change @sum_over with @lsum. rewrite S2, Len. f_equal.
  apply squares_used.
Qed.

(** ** numbers *)
Lemma exp_powers x m : (exp (INR m * x) = exp x ^ m)%R.
Proof.
  induction m as [|m IH]; [cbn [pow INR]; rewrite Rmult_0_l, exp_0; reflexivity|].
  rewrite S_INR. replace ((INR m + 1) * x)%R with (x + INR m * x)%R by ring. rewrite exp_plus, IH. reflexivity.
Qed.
Lemma small_exp k m E num den : 0 < k -> 0 < num -> 0 < den -> 0 <= m -> (IZR m / IZR k <= E)%R -> 2 * den * k ^ m <= num * (k + 1) ^ m ->
  (2 * exp (- E) <= IZR num / IZR den)%R.
Proof.
  intros Hk Hn Hd Hm HE HB. assert (PK: (0 < IZR k)%R) by (apply IZR_lt; exact Hk). assert (PD: (0 < IZR den)%R) by (apply IZR_lt; exact Hd).
  assert (X: ((IZR (k + 1) / IZR k) ^ Z.to_nat m <= exp E)%R).
  { eapply Rle_trans; [|apply exp_mono; exact HE]. replace (IZR m / IZR k)%R with (INR (Z.to_nat m) * / IZR k)%R by (rewrite INR_IZR_INZ, Z2Nat.id by exact Hm; reflexivity).
    rewrite exp_powers. apply pow_incr. rewrite plus_IZR. split; [apply Rmult_le_pos; [lra|left; apply Rinv_0_lt_compat; exact PK]|].
    pose proof (exp_ge (/ IZR k)) as X. eapply Rle_trans; [|exact X]. right. field. lra. }
  apply IZR_le in HB. rewrite !mult_IZR, !IZR_pow in HB by exact Hm.
  unfold Rdiv in X. rewrite Rpow_mult_distr, pow_inv in X.
  set (P := (IZR k ^ Z.to_nat m)%R) in *. set (Q := (IZR (k + 1) ^ Z.to_nat m)%R) in *.
  assert (PP: (0 < P)%R) by (apply pow_lt; lra).
  assert (PE: (exp E * exp (- E) = 1)%R) by (rewrite <- exp_plus, Rplus_opp_r; apply exp_0).
  assert (PX: (0 < exp (- E))%R) by apply exp_pos. set (x := exp (- E)) in *. set (y := exp E) in *.
  assert (Y: (Q <= P * y)%R).
  { apply (Rmult_le_compat_l P) in X; [|lra]. replace (P * (Q * / P))%R with Q in X by (field; lra). exact X. }
  assert (PN: (0 < IZR num)%R) by (apply IZR_lt; exact Hn).
  apply (Rmult_le_reg_r (IZR den)); [exact PD|]. unfold Rdiv. rewrite Rmult_assoc, (Rmult_assoc (IZR num)), Rinv_l, Rmult_1_r by lra.
  apply (Rmult_le_reg_r P); [exact PP|].
  assert (Z1: (2 * IZR den * P * x <= IZR num * (P * y) * x)%R).
  { apply Rmult_le_compat_r; [lra|]. eapply Rle_trans; [exact HB|]. apply Rmult_le_compat_l; [lra|exact Y]. }
  replace (IZR num * (P * y) * x)%R with (IZR num * P * (y * x))%R in Z1 by ring. rewrite PE in Z1. lra.
Qed.
Lemma div_ge k m T Q : 0 < k -> 0 < Q -> m * Q <= k * (T * T) -> (IZR m / IZR k <= IZR T * IZR T / IZR Q)%R.
Proof.
  intros Hk HQ H. assert (PK: (0 < IZR k)%R) by (apply IZR_lt; exact Hk). assert (PQ: (0 < IZR Q)%R) by (apply IZR_lt; exact HQ). apply IZR_le in H. rewrite !mult_IZR in H.
  apply (Rmult_le_reg_r (IZR k * IZR Q)); [apply Rmult_lt_0_compat; assumption|].
  replace (IZR m / IZR k * (IZR k * IZR Q))%R with (IZR m * IZR Q)%R by (field; lra).
  replace (IZR T * IZR T / IZR Q * (IZR k * IZR Q))%R with (IZR k * (IZR T * IZR T))%R by (field; lra). exact H.
Qed.
Lemma but_for_le lens eps eps' P : (eps <= eps')%R -> but_for lens eps P -> but_for lens eps' P.
Proof.
  intros H (l & H1 & H2). exists l. split; [exact H1|]. eapply Rle_trans; [exact H2|]. apply Rmult_le_compat_r; [apply IZR_le; apply Z.pow_nonneg; lia|exact H].
Qed.

Lemma weight_max n s : bin_key n s -> 0 <= n -> 0 <= weight n s <= n.
Proof.
  intros Hk Hn. unfold weight. split; [apply zsum_nonneg; intros i Hi; destruct (bin_cases n s i Hk Hi); lia|].
  rewrite <- (Z.mul_1_r n) at 2. rewrite <- zsum_const by exact Hn. apply zsum_le. intros i Hi. destruct (bin_cases n s i Hk Hi); lia.
Qed.

Section Shipped.
Notation F := (2 ^ 19).

Lemma asym_128 a b zeros noise ct v e : bin_key 700 a -> hop_good 700 F (Asymmetric b 1400 zeros noise) ->
  to_squares (Asymmetric b 1400 zeros noise) <= 12 * 10 ^ 12 -> lwe_ok 700 ct -> lwe_phase 700 a ct == mu_bit v + e -> Z.abs e <= 2 ^ 19 ->
  but_for [toss_count 700 2 9 (Asymmetric b 1400 zeros noise)] (if digits_used 700 2 9 ct <=? 4800 then / 50 else / 16)
    (fun ws => exists w, ws = [w] /\ exists rk ct', hop_key 700 2 9 a (Asymmetric b 1400 zeros noise) w = Ok rk /\
       ReencryptTLWELv0 700 ct rk = Ok ct' /\ DecryptBool 700 ct' b = Ok v).
Proof.
  intros Ha Hg HV Hct Hp He. set (h := Asymmetric b 1400 zeros noise) in *.
  destruct (weight_max 700 a Ha ltac:(lia)) as [W0 W1]. assert (S0: 0 <= to_squares h) by (unfold h; cbn [to_squares]; apply zsum_nonneg; intros; nia).
  assert (U: forall K, digits_used 700 2 9 ct <= K -> digits_used 700 2 9 ct * to_squares h + 2 * used_noise 700 2 9 ct (fun idx => sample (to_noise h idx) ^ 2) <= K * (12 * 10 ^ 12 + 2 * F ^ 2)).
  { intros K HK. assert (D0: 0 <= digits_used 700 2 9 ct) by (unfold digits_used; apply zsum_nonneg; intros; apply zsum_nonneg; intros; destruct (_ =? 0); lia).
    assert (X: used_noise 700 2 9 ct (fun idx => sample (to_noise h idx) ^ 2) <= digits_used 700 2 9 ct * F ^ 2).
    { unfold used_noise, digits_used. rewrite <- zsum_mul_r. apply zsum_le. intros i Hi. rewrite <- zsum_mul_r. apply zsum_le. intros j Hj. cbv zeta.
      destruct (digit 2 9 (zn ct i) j =? 0); [lia|]. destruct Hg as (_ & _ & G). destruct (G (2 ^ 2 * 9 * i + 2 ^ 2 * j + digit 2 9 (zn ct i) j)) as [_ G2].
      set (q := sample _) in *. clear - G2. change (F ^ 2) with (F * F). nia. }
    set (D := digits_used 700 2 9 ct) in *. set (S := to_squares h) in *. clear - X D0 S0 HV HK. change (F ^ 2) with (2 ^ 38) in *. nia. }
  assert (DK: digits_used 700 2 9 ct <= 6300).
  { unfold digits_used. change 6300 with (700 * 9). rewrite <- (zsum_const 700 9) by lia. apply zsum_le. intros i Hi.
    apply (Z.le_trans _ (zsum 9 (fun _ => 1))); [|rewrite zsum_const; lia]. apply zsum_le. intros j Hj. destruct (_ =? 0); lia. }
  set (T := 2 ^ 29 - 2 ^ 19 - 700 * 2 ^ 13).
  assert (HB: Z.abs e + weight 700 a * 2 ^ (31 - 2 * 9) + T <= 2 ^ 29) by (unfold T; change (31 - 2 * 9) with 13; change (2 ^ 13) with 8192; lia).
  destruct (Z.leb_spec (digits_used 700 2 9 ct) 4800) as [H48|_].
  - eapply but_for_le; [|apply (one_tail 700 2 9 F a h v ct e T (4800 * (12 * 10 ^ 12 + 2 * F ^ 2)));
      try assumption; try reflexivity; try lia; apply U; exact H48].
    replace (/ 50)%R with (1 / 50)%R by field. apply (small_exp 64 298); [reflexivity|reflexivity|reflexivity|discriminate| |].
    + apply div_ge; [reflexivity|reflexivity|]. vm_compute. discriminate.
    + vm_compute. discriminate.
  - eapply but_for_le; [|apply (one_tail 700 2 9 F a h v ct e T (6300 * (12 * 10 ^ 12 + 2 * F ^ 2)));
      try assumption; try reflexivity; try lia; apply U; exact DK].
    replace (/ 16)%R with (1 / 16)%R by field. apply (small_exp 64 227); [reflexivity|reflexivity|reflexivity|discriminate| |].
    + apply div_ge; [reflexivity|reflexivity|]. vm_compute. discriminate.
    + vm_compute. discriminate.
Qed.

Lemma sym_128 a hs ct v e : bin_key 700 a -> Forall (hop_good 700 F) hs -> Forall (fun h => exists b mask noise, h = Symmetric b mask noise) hs -> zlen hs <= 5 ->
  lwe_ok 700 ct -> lwe_phase 700 a ct == mu_bit v + e -> Z.abs e <= 2 ^ 19 ->
  but_for (map (toss_count 700 2 9) hs) (/ 1000000)
    (fun ws => exists ct', relay 700 2 9 a hs ws ct = Ok ct' /\ DecryptBool 700 ct' (last_key a hs) = Ok v).
Proof.
  intros Ha Hg Hs HL Hct Hp He. set (T := 2 ^ 29 - 2 ^ 19 - 5 * (700 * 2 ^ 13)).
  assert (HR: rounding 700 2 9 a hs <= zlen hs * (700 * 2 ^ 13)).
  { clear - Ha Hg. revert a Ha. induction Hg as [|h hs G Gs IH]; intros a Ha; [cbn; lia|]. cbn [rounding].
    specialize (IH (to_key h) (proj1 G)). destruct (weight_max 700 a Ha ltac:(lia)) as [W0 W1]. change (31 - 2 * 9) with 13. change (2 ^ 13) with 8192 in *.
    unfold zlen in *. cbn [length]. lia. }
  assert (HS: spread 700 9 F hs = zlen hs * (6300 * (2 * F ^ 2))).
  { clear - Hs. induction Hs as [|h hs G Gs IH]; [reflexivity|]. cbn [spread]. rewrite IH. destruct G as (b & mk & d & ->). cbn [to_squares]. unfold zlen. cbn [length]. lia. }
  eapply but_for_le; [|apply (relay_tail 700 2 9 F ltac:(lia) ltac:(lia) ltac:(lia) ltac:(lia) ltac:(reflexivity) a hs v ct e T (5 * (6300 * (2 * F ^ 2))));
    try assumption; try reflexivity].
  - replace (/ 1000000)%R with (1 / 1000000)%R by field. apply (small_exp 64 950); [reflexivity|reflexivity|reflexivity|discriminate| |].
    + apply div_ge; [reflexivity|reflexivity|]. vm_compute. discriminate.
    + vm_compute. discriminate.
  - unfold T. change (2 ^ 13) with 8192 in *. lia.
  - rewrite HS. change (F ^ 2) with (2 ^ 38). lia.
Qed.

Lemma public_128 sk zeros b d : zlen sk = 700 -> is_fin d = true -> Z.abs (sample d) <= F ->
  zsum 1400 (fun e => sample (er_noise (zeros e)) ^ 2) <= 12 * 10 ^ 12 ->
  but_for [1401] (/ IZR (2 ^ 1000))
    (fun ws => exists w, ws = [w] /\ exists pk ct, NewPublicKeyLv0 params128Bit sk zeros = Ok pk /\
      PkEncryptBool 700 pk b (pk_draw w 1400 0 d) = Ok ct /\ DecryptBool 700 ct sk = Ok b).
Proof.
  intros Hk Hf Hd HV. eapply but_for_le; [|apply (pk_tail 700 sk 1400 zeros b d (2 ^ 29) (13 * 10 ^ 12)); [discriminate|exact Hk|discriminate|exact Hf| | |reflexivity|reflexivity]].
  - replace (/ IZR (2 ^ 1000))%R with (1 / IZR (2 ^ 1000))%R by (unfold Rdiv; ring). apply (small_exp 1 1001); [reflexivity|reflexivity|reflexivity|discriminate| |].
    + apply div_ge; [reflexivity|reflexivity|]. vm_compute. discriminate.
    + vm_compute. discriminate.
  - change (2 ^ 31) with 2147483648. change F with 524288 in Hd. lia.
  - change F with 524288 in Hd. set (q := sample d) in *. set (V := zsum 1400 (fun e => sample (er_noise (zeros e)) ^ 2)) in *. clearbody q V. clear - Hd HV. nia.
Qed.
End Shipped.

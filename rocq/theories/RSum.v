(** * Finite real sums, and norms of finite sequences *)
From Coq Require Import ZArith List Lia Reals Lra Psatz.
From Verif Require Import GoBase Spec GoFacts CSum FftFacts.
Local Open Scope R_scope.

Fixpoint rsumf (n : nat) (f : Z -> R) : R :=
  match n with O => 0 | S k => rsumf k f + f (Z.of_nat k) end.
Definition rsum (n : Z) (f : Z -> R) : R := rsumf (Z.to_nat n) f.

Lemma rsum_S f n : (0 <= n)%Z -> rsum (n + 1) f = rsum n f + f n.
Proof. intro Hn. unfold rsum. replace (Z.to_nat (n + 1)) with (S (Z.to_nat n)) by lia. cbn [rsumf]. rewrite Z2Nat.id by lia. reflexivity. Qed.
Lemma rsum_0 f n : (n <= 0)%Z -> rsum n f = 0.
Proof. intro Hn. unfold rsum. replace (Z.to_nat n) with O by lia. reflexivity. Qed.

Lemma rsum_le n f g : (forall i, (0 <= i < n)%Z -> f i <= g i) -> rsum n f <= rsum n g.
Proof.
  revert n. apply (csum_neg (fun n => (forall i, (0 <= i < n)%Z -> f i <= g i) -> rsum n f <= rsum n g)).
  - intros n Hn _. rewrite !rsum_0 by assumption. lra.
  - intros n Hn IH Hfg. rewrite !rsum_S by assumption. apply Rplus_le_compat; [apply IH; intros; apply Hfg; lia|apply Hfg; lia].
Qed.
Lemma rsum_ext n f g : (forall i, (0 <= i < n)%Z -> f i = g i) -> rsum n f = rsum n g.
Proof. intro E. apply Rle_antisym; apply rsum_le; intros i Hi; rewrite (E i Hi); lra. Qed.
Lemma rsum_nonneg n f : (forall i, (0 <= i < n)%Z -> 0 <= f i) -> 0 <= rsum n f.
Proof.
  intro Hf. replace 0 with (rsum n (fun _ => 0)); [apply rsum_le; assumption|].
  clear Hf. revert n. apply csum_neg; [intros; apply rsum_0; assumption|]. intros n Hn IH. rewrite rsum_S, IH by assumption. ring.
Qed.
Lemma rsum_add n f g : rsum n (fun i => f i + g i) = rsum n f + rsum n g.
Proof.
  revert n. apply csum_neg; [intros n Hn; rewrite !rsum_0 by assumption; ring|].
  intros n Hn IH. rewrite !rsum_S by assumption. rewrite IH. ring.
Qed.
Lemma rsum_mul_l n c f : rsum n (fun i => c * f i) = c * rsum n f.
Proof.
  revert n. apply csum_neg; [intros n Hn; rewrite !rsum_0 by assumption; ring|].
  intros n Hn IH. rewrite !rsum_S by assumption. rewrite IH. ring.
Qed.
Lemma rsum_const n c : (0 <= n)%Z -> rsum n (fun _ => c) = IZR n * c.
Proof.
  revert n. apply (zsum_ind (fun n => rsum n (fun _ => c) = IZR n * c)); [rewrite rsum_0 by lia; ring|].
  intros n Hn IH. rewrite rsum_S, IH, plus_IZR by assumption. ring.
Qed.
Lemma rsum_split n m f : (0 <= n)%Z -> (0 <= m)%Z -> rsum (n + m) f = rsum n f + rsum m (fun i => f (n + i)%Z).
Proof.
  intros Hn. revert m. apply (zsum_ind (fun m => rsum (n + m) f = rsum n f + rsum m (fun i => f (n + i)%Z))).
  - rewrite Z.add_0_r. rewrite (rsum_0 _ 0) by lia. ring.
  - intros m Hm IH. replace (n + (m + 1))%Z with (n + m + 1)%Z by lia. rewrite !rsum_S by lia. rewrite IH. ring.
Qed.
Lemma rsum_pairs n f : (0 <= n)%Z -> rsum (2 * n) f = rsum n (fun q => f (2 * q)%Z + f (2 * q + 1)%Z).
Proof.
  revert n. apply (zsum_ind (fun n => rsum (2 * n) f = rsum n (fun q => f (2 * q)%Z + f (2 * q + 1)%Z))).
  - rewrite !rsum_0 by lia. reflexivity.
  - intros n Hn IH. replace (2 * (n + 1))%Z with (2 * n + 1 + 1)%Z by lia. rewrite !rsum_S by lia. rewrite IH. ring.
Qed.
Lemma rsum_term n f c : (0 <= c < n)%Z -> (forall i, (0 <= i < n)%Z -> 0 <= f i) -> f c <= rsum n f.
Proof.
  intros Hc Hf. replace n with (c + 1 + (n - c - 1))%Z by lia. rewrite rsum_split, rsum_S by lia.
  assert (0 <= rsum c f) by (apply rsum_nonneg; intros; apply Hf; lia).
  assert (0 <= rsum (n - c - 1) (fun i => f (c + 1 + i)%Z)) by (apply rsum_nonneg; intros; apply Hf; lia). lra.
Qed.
Lemma rsum_IZR n f : rsum n (fun i => IZR (f i)) = IZR (zsum n f).
Proof.
  revert n. apply csum_neg; [intros n Hn; rewrite rsum_0, zsum_0 by assumption; reflexivity|].
  intros n Hn IH. rewrite rsum_S, zsum_S, plus_IZR, IH by assumption. reflexivity.
Qed.

(** Cauchy-Schwarz *)
Lemma cs_step A B P a b : 0 <= A -> 0 <= B -> P * P <= A * B -> (P + a * b) * (P + a * b) <= (A + a * a) * (B + b * b).
Proof.
  intros HA HB HP.
  assert (G: 0 <= A * (b * b) + B * (a * a) - 2 * P * (a * b)).
  { destruct (Rle_lt_or_eq_dec 0 A HA) as [HA'|HA'].
    - apply Rmult_le_reg_l with A; [assumption|]. rewrite Rmult_0_r.
      replace (A * (A * (b * b) + B * (a * a) - 2 * P * (a * b))) with ((A * b - P * a) * (A * b - P * a) + a * a * (A * B - P * P)) by ring.
      apply Rplus_le_le_0_compat; [apply Rle_0_sqr|]. apply Rmult_le_pos; [apply Rle_0_sqr|lra].
    - subst A. assert (P * P <= 0) by lra. assert (P = 0) by nra. subst P.
      pose proof (Rle_0_sqr a) as S1. unfold Rsqr in S1. assert (0 <= B * (a * a)) by (apply Rmult_le_pos; assumption). lra. }
  pose proof (Rle_0_sqr (a * b)). nra.
Qed.
Lemma cauchy n a b : rsum n (fun i => a i * b i) * rsum n (fun i => a i * b i) <= rsum n (fun i => a i * a i) * rsum n (fun i => b i * b i).
Proof.
  revert n. apply csum_neg.
  - intros n Hn. rewrite !rsum_0 by assumption. lra.
  - intros n Hn IH. rewrite !rsum_S by assumption. apply cs_step; [apply rsum_nonneg; intros; apply Rle_0_sqr|apply rsum_nonneg; intros; apply Rle_0_sqr|assumption].
Qed.

(** ** the Euclidean norm *)
Definition n2 (n : Z) (a : Z -> R) : R := sqrt (rsum n (fun i => a i * a i)).

Lemma n2_sq n a : n2 n a * n2 n a = rsum n (fun i => a i * a i).
Proof. apply sqrt_sqrt. apply rsum_nonneg. intros; apply Rle_0_sqr. Qed.
Lemma n2_pos n a : 0 <= n2 n a.
Proof. apply sqrt_pos. Qed.
Lemma n2_le_sq n a X : 0 <= X -> rsum n (fun i => a i * a i) <= X * X -> n2 n a <= X.
Proof. intros HX HS. unfold n2. rewrite <- (sqrt_square X) by assumption. apply sqrt_le_1_alt. assumption. Qed.
Lemma n2_mono n a b : (forall i, (0 <= i < n)%Z -> 0 <= a i <= b i) -> n2 n a <= n2 n b.
Proof.
  intro Hab. apply sqrt_le_1_alt. apply rsum_le. intros i Hi. specialize (Hab i Hi). apply Rmult_le_compat; lra.
Qed.
Lemma n2_ext n a b : (forall i, (0 <= i < n)%Z -> a i = b i) -> n2 n a = n2 n b.
Proof. intro E. unfold n2. f_equal. apply rsum_ext. intros i Hi. rewrite (E i Hi). reflexivity. Qed.
Lemma dot_le n a b : rsum n (fun i => a i * b i) <= n2 n a * n2 n b.
Proof.
  pose proof (cauchy n a b) as Hc. rewrite <- (n2_sq n a), <- (n2_sq n b) in Hc.
  pose proof (n2_pos n a). pose proof (n2_pos n b). set (S := rsum n (fun i => a i * b i)) in *.
  destruct (Rle_or_lt S (n2 n a * n2 n b)); [assumption|]. exfalso.
  assert (0 <= n2 n a * n2 n b) by (apply Rmult_le_pos; assumption).
  assert (n2 n a * n2 n b * (n2 n a * n2 n b) < S * S) by (apply Rmult_le_0_lt_compat; lra). nra.
Qed.
Lemma n2_tri n a b : n2 n (fun i => a i + b i) <= n2 n a + n2 n b.
Proof.
  pose proof (n2_pos n a). pose proof (n2_pos n b). apply n2_le_sq; [lra|].
  assert (E: rsum n (fun i => (a i + b i) * (a i + b i)) = rsum n (fun i => a i * a i) + 2 * rsum n (fun i => a i * b i) + rsum n (fun i => b i * b i)).
  { rewrite <- rsum_mul_l, <- !rsum_add. apply rsum_ext. intros; ring. }
  rewrite E, <- (n2_sq n a), <- (n2_sq n b). pose proof (dot_le n a b). lra.
Qed.
Lemma n2_scal n k a : 0 <= k -> n2 n (fun i => k * a i) = k * n2 n a.
Proof.
  intro Hk. unfold n2. rewrite (rsum_ext n _ (fun i => (k * k) * (a i * a i))) by (intros; ring).
  rewrite rsum_mul_l. rewrite sqrt_mult_alt by (apply Rle_0_sqr). rewrite sqrt_square by assumption. reflexivity.
Qed.
Lemma n2_const n k : (0 <= n)%Z -> 0 <= k -> n2 n (fun _ => k) <= IZR n * k.
Proof.
  intros Hn Hk. pose proof (IZR_le 0 n Hn). apply n2_le_sq; [apply Rmult_le_pos; assumption|].
  rewrite rsum_const by assumption. destruct (Z.eq_dec n 0) as [->|]; [lra|].
  assert (1 <= IZR n) by (apply IZR_le; lia).
  replace (IZR n * k * (IZR n * k)) with (IZR n * (IZR n * (k * k))) by ring.
  apply Rmult_le_compat_l; [assumption|]. pose proof (Rle_0_sqr k) as Hs. unfold Rsqr in Hs. nra.
Qed.
Lemma n2_term n a c : (0 <= c < n)%Z -> 0 <= a c -> a c <= n2 n a.
Proof.
  intros Hc Ha. rewrite <- (sqrt_square (a c)) by assumption. apply sqrt_le_1_alt.
  apply (rsum_term n (fun i => a i * a i) c Hc). intros; apply Rle_0_sqr.
Qed.
(** sum against Euclidean norm *)
Lemma n1_n2 n a : (0 <= n)%Z -> rsum n a <= sqrt (IZR n) * n2 n a.
Proof.
  intro Hn. pose proof (dot_le n (fun _ => 1) a) as Hd. cbv beta in Hd.
  rewrite (rsum_ext n (fun i => 1 * a i) a) in Hd by (intros; ring).
  replace (n2 n (fun _ => 1)) with (sqrt (IZR n)) in Hd; [assumption|].
  unfold n2. f_equal. rewrite rsum_const by assumption. ring.
Qed.

(** ** sums over the pairs of a butterfly stage *)
Lemma rsum_blocks T m g : (0 <= T)%Z -> (0 <= m)%Z ->
  rsum (2 * T * m) g = rsum m (fun i => rsum T (fun r => g (2 * T * i + r)%Z + g (2 * T * i + r + T)%Z)).
Proof.
  intros HT. revert m.
  apply (zsum_ind (fun m => rsum (2 * T * m) g = rsum m (fun i => rsum T (fun r => g (2 * T * i + r)%Z + g (2 * T * i + r + T)%Z)))).
  - rewrite Z.mul_0_r. rewrite !rsum_0 by lia. reflexivity.
  - intros m Hm IH. rewrite rsum_S by assumption. rewrite <- IH.
    replace (2 * T * (m + 1))%Z with (2 * T * m + (T + T))%Z by ring.
    rewrite rsum_split by nia. f_equal. rewrite rsum_split by lia. rewrite <- rsum_add. apply rsum_ext. intros i Hi.
    replace (2 * T * m + (T + i))%Z with (2 * T * m + i + T)%Z by ring. reflexivity.
Qed.

Lemma rsum_pair_le H T g G : (0 < T)%Z -> (0 < H)%Z -> (H mod (2 * T) = 0)%Z ->
  (forall c, (0 <= c < H)%Z -> lowb T c = true -> (c + T < H)%Z -> g c + g (c + T)%Z <= G c + G (c + T)%Z) -> rsum H g <= rsum H G.
Proof.
  intros HT HH Hm Hg. pose proof (Z.div_mod H (2 * T) ltac:(lia)) as D. rewrite Hm in D. set (m := (H / (2 * T))%Z) in *.
  assert (Hm0: (0 <= m)%Z) by (apply Z.div_pos; lia).
  assert (Dm: H = (2 * T * m)%Z) by lia. rewrite Dm. rewrite !rsum_blocks by lia.
  apply rsum_le. intros i Hi. apply rsum_le. intros r Hr.
  assert (B: (2 * T * (i + 1) <= 2 * T * m)%Z) by (apply Z.mul_le_mono_nonneg_l; lia).
  assert (B0: (0 <= 2 * T * i)%Z) by (apply Z.mul_nonneg_nonneg; lia).
  apply Hg; [lia| |lia]. unfold lowb. rewrite Z.add_comm, Z.mul_comm, Z_mod_plus_full, Z.mod_small by lia. apply Z.ltb_lt. lia.
Qed.

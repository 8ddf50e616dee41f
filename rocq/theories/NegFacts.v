(** * Algebra of polynomials modulo X^N + 1, on coefficient functions *)
From Coq Require Import Lia ZifyBool Setoid Morphisms.
From Verif Require Import GoBase GoFacts.
Local Open Scope Z_scope.
Ltac Zify.zify_post_hook ::= Z.div_mod_to_equations.

(** antiperiodic extension of the coefficients to all integers *)
Definition ext (N : Z) (a : Z -> Z) (k : Z) : Z :=
  if Z.even (k / N) then a (k mod N) else - a (k mod N).

Lemma mono_ext N k a j : mono_mul N k a j = ext N a (j - k).
Proof. reflexivity. Qed.

Lemma ext_small N a k : 0 <= k < N -> ext N a k = a k.
Proof. intro. unfold ext. rewrite Z.div_small, Z.mod_small by lia. reflexivity. Qed.

Lemma ext_antiper N a k : 0 < N -> ext N a (k + N) = - ext N a k.
Proof.
  intro. unfold ext. replace (k + N) with (k + 1 * N) by lia.
  rewrite Z.div_add, Z.mod_add by lia. rewrite Z.even_add. cbn [Z.even].
  destruct (Z.even (k / N)); cbn; lia.
Qed.

Lemma ext_mod N a k : 0 < N -> ext N a k = (if Z.even (k / N) then 1 else -1) * ext N a (k mod N).
Proof.
  intro. rewrite (ext_small N a (k mod N)) by (apply Z.mod_pos_bound; lia).
  unfold ext. destruct (Z.even (k / N)); lia.
Qed.

(** an antiperiodic function is the extension of its first N values *)
Lemma antiper_ext N f : 0 < N -> (forall k, f (k + N) = - f k) -> forall k, f k = ext N f k.
Proof.
  intros HN Hf.
  assert (G: forall q, 0 <= q -> forall r, f (r + q * N) = (if Z.even q then f r else - f r)
                                        /\ f (r - q * N) = (if Z.even q then f r else - f r)).
  { apply (zsum_ind (fun q => forall r, f (r + q * N) = (if Z.even q then f r else - f r)
                                        /\ f (r - q * N) = (if Z.even q then f r else - f r))).
    - intro r. cbn. rewrite Z.add_0_r, Z.sub_0_r. auto.
    - intros q Hq IH r. destruct (IH r) as [I1 I2]. rewrite Z.even_add. cbn [Z.even].
      split.
      + replace (r + (q + 1) * N) with (r + q * N + N) by lia. rewrite Hf, I1. destruct (Z.even q); cbn; lia.
      + pose proof (Hf (r - (q + 1) * N)) as H. replace (r - (q + 1) * N + N) with (r - q * N) in H by lia.
        rewrite I2 in H. destruct (Z.even q); cbn in *; lia. }
  intro k. unfold ext. rewrite (Z.div_mod k N) at 1 by lia. rewrite Z.add_comm.
  destruct (Z_le_dec 0 (k / N)).
  - rewrite (Z.mul_comm N). rewrite (proj1 (G (k / N) l (k mod N))). reflexivity.
  - replace (k mod N + N * (k / N)) with (k mod N - (- (k / N)) * N) by lia.
    rewrite (proj2 (G (- (k / N)) ltac:(lia) (k mod N))). rewrite Z.even_opp. reflexivity.
Qed.

Lemma ext_ext N a b : (forall i, 0 <= i < N -> a i = b i) -> 0 < N -> forall k, ext N a k = ext N b k.
Proof.
  intros H HN k. unfold ext. rewrite H by (apply Z.mod_pos_bound; lia). reflexivity.
Qed.

(** convolution of the extensions *)
Definition conv (N : Z) (a b : Z -> Z) (k : Z) : Z := zsum N (fun i => ext N a i * ext N b (k - i)).

Lemma conv_antiper N a b k : 0 < N -> conv N a b (k + N) = - conv N a b k.
Proof.
  intro. unfold conv. rewrite <- zsum_opp. apply zsum_ext. intros i Hi.
  replace (k + N - i) with (k - i + N) by lia. rewrite ext_antiper by lia. lia.
Qed.

Lemma neg_conv N a b k : 0 <= k < N -> negacyclic N a b k = conv N a b k.
Proof.
  intro Hk. unfold negacyclic, conv. apply zsum_ext. intros i Hi. rewrite (ext_small N a) by lia.
  destruct (Z.leb_spec i k).
  - rewrite ext_small by lia. reflexivity.
  - pose proof (ext_antiper N b (k - i) ltac:(lia)) as H1. rewrite (ext_small N b (k - i + N)) in H1 by lia.
    replace (N + k - i) with (k - i + N) by lia. lia.
Qed.

Lemma neg_ext N a b k : 0 < N -> ext N (negacyclic N a b) k = conv N a b k.
Proof.
  intro HN. rewrite (antiper_ext N (conv N a b) HN) by (intro; apply conv_antiper; lia).
  apply ext_ext; [|assumption]. intros; apply neg_conv; assumption.
Qed.

(** reflection of a periodic sum *)
Lemma zsum_reflect N f k : 0 < N -> (forall i, f (i + N) = f i) -> zsum N (fun i => f (k - i)) = zsum N f.
Proof.
  intros HN Hp. rewrite zsum_rev by lia.
  rewrite <- (zsum_periodic N f (k - N + 1)) by assumption.
  apply zsum_ext. intros. f_equal. lia.
Qed.

Lemma conv_comm N a b k : 0 < N -> conv N a b k = conv N b a k.
Proof.
  intro HN. unfold conv. rewrite <- (zsum_reflect N _ k HN).
  - apply zsum_ext. intros. replace (k - (k - i)) with i by lia. lia.
  - intro i. rewrite ext_antiper by assumption. replace (k - (i + N)) with (k - i - N) by lia.
    pose proof (ext_antiper N b (k - i - N) HN) as H. replace (k - i - N + N) with (k - i) in H by lia. lia.
Qed.

Lemma neg_comm N a b k : 0 <= k < N -> negacyclic N a b k = negacyclic N b a k.
Proof. intro. rewrite !neg_conv by assumption. apply conv_comm. lia. Qed.

Lemma neg_ext_args N a a' b b' k : 0 <= k < N ->
  (forall i, 0 <= i < N -> a i = a' i) -> (forall i, 0 <= i < N -> b i = b' i) ->
  negacyclic N a b k = negacyclic N a' b' k.
Proof.
  intros Hk Ha Hb. unfold negacyclic. apply zsum_ext. intros i Hi. rewrite Ha by assumption.
  destruct (Z.leb_spec i k); rewrite Hb by lia; reflexivity.
Qed.

Lemma neg_eqm_args N a a' b b' k : 0 <= k < N ->
  (forall i, 0 <= i < N -> a i == a' i) -> (forall i, 0 <= i < N -> b i == b' i) ->
  negacyclic N a b k == negacyclic N a' b' k.
Proof.
  intros Hk Ha Hb. unfold negacyclic. apply zsum_eqm. intros i Hi.
  destruct (Z.leb_spec i k); rewrite Ha, Hb by lia; reflexivity.
Qed.

Lemma neg_assoc N a b c k : 0 <= k < N ->
  negacyclic N (negacyclic N a b) c k = negacyclic N a (negacyclic N b c) k.
Proof.
  intro Hk. assert (HN: 0 < N) by lia. rewrite !neg_conv by assumption. unfold conv.
  rewrite (zsum_ext N (fun i => ext N (negacyclic N a b) i * ext N c (k - i))
    (fun i => zsum N (fun j => ext N a j * ext N b (i - j) * ext N c (k - i)))).
  2:{ intros i Hi. rewrite neg_ext by assumption. unfold conv. rewrite <- zsum_mul_r. reflexivity. }
  rewrite zsum_swap. apply zsum_ext. intros j Hj. rewrite neg_ext by assumption. unfold conv.
  rewrite <- zsum_mul_l.
  rewrite <- (zsum_periodic N (fun i => ext N a j * (ext N b i * ext N c (k - j - i))) (- j)).
  - apply zsum_ext. intros i Hi. replace (i + - j) with (i - j) by lia.
    replace (k - j - (i - j)) with (k - i) by lia. ring.
  - assumption.
  - intro i. rewrite ext_antiper by assumption. pose proof (ext_antiper N c (k - j - (i + N)) HN) as H.
    replace (k - j - (i + N) + N) with (k - j - i) in H by lia. rewrite H. ring.
Qed.

Lemma neg_add_l N a a' b k : negacyclic N (fun i => a i + a' i) b k = negacyclic N a b k + negacyclic N a' b k.
Proof. unfold negacyclic. rewrite <- zsum_add. apply zsum_ext. intros. destruct (i <=? k); ring. Qed.
Lemma neg_add_r N a b b' k : negacyclic N a (fun i => b i + b' i) k = negacyclic N a b k + negacyclic N a b' k.
Proof. unfold negacyclic. rewrite <- zsum_add. apply zsum_ext. intros. destruct (i <=? k); ring. Qed.
Lemma neg_sub_l N a a' b k : negacyclic N (fun i => a i - a' i) b k = negacyclic N a b k - negacyclic N a' b k.
Proof. unfold negacyclic. rewrite <- zsum_sub. apply zsum_ext. intros. destruct (i <=? k); ring. Qed.
Lemma neg_sub_r N a b b' k : negacyclic N a (fun i => b i - b' i) k = negacyclic N a b k - negacyclic N a b' k.
Proof. unfold negacyclic. rewrite <- zsum_sub. apply zsum_ext. intros. destruct (i <=? k); ring. Qed.
Lemma neg_mul_l N c a b k : negacyclic N (fun i => c * a i) b k = c * negacyclic N a b k.
Proof. unfold negacyclic. rewrite <- zsum_mul_l. apply zsum_ext. intros. destruct (i <=? k); ring. Qed.
Lemma neg_mul_r N c a b k : negacyclic N a (fun i => c * b i) k = c * negacyclic N a b k.
Proof. unfold negacyclic. rewrite <- zsum_mul_l. apply zsum_ext. intros. destruct (i <=? k); ring. Qed.
Lemma neg_sum_l N l a b k : negacyclic N (fun i => zsum l (fun j => a j i)) b k = zsum l (fun j => negacyclic N (a j) b k).
Proof.
  unfold negacyclic. rewrite zsum_swap. apply zsum_ext. intros i Hi.
  destruct (i <=? k); [rewrite zsum_mul_r|rewrite zsum_opp, zsum_mul_r]; reflexivity.
Qed.
Lemma neg_sum_r N l a b k : negacyclic N a (fun i => zsum l (fun j => b j i)) k = zsum l (fun j => negacyclic N a (b j) k).
Proof.
  unfold negacyclic. rewrite zsum_swap. apply zsum_ext. intros i Hi.
  destruct (i <=? k); [rewrite zsum_mul_l|rewrite zsum_opp, zsum_mul_l]; reflexivity.
Qed.

(** multiplication by a constant polynomial and by X^k *)
Definition cst (c : Z) : Z -> Z := fun i => if i =? 0 then c else 0.
Lemma neg_cst_r N a c k : 0 <= k < N -> negacyclic N a (cst c) k = c * a k.
Proof.
  intro Hk. unfold negacyclic. rewrite (zsum_single N _ k); [|assumption|].
  - rewrite Z.leb_refl. unfold cst. rewrite Z.sub_diag. cbn. lia.
  - intros i Hi Hne. unfold cst. destruct (Z.leb_spec i k).
    + destruct (Z.eqb_spec (k - i) 0); lia.
    + destruct (Z.eqb_spec (N + k - i) 0); lia.
Qed.
Lemma neg_cst_l N a c k : 0 <= k < N -> negacyclic N (cst c) a k = c * a k.
Proof. intro. rewrite neg_comm by assumption. apply neg_cst_r. assumption. Qed.

Lemma neg_mono_l N e a b k : 0 <= k < N ->
  negacyclic N (mono_mul N e a) b k = mono_mul N e (negacyclic N a b) k.
Proof.
  intro Hk. assert (HN: 0 < N) by lia. rewrite neg_conv by assumption. rewrite mono_ext, neg_ext by assumption.
  unfold conv.
  rewrite <- (zsum_periodic N (fun i => ext N a i * ext N b (k - e - i)) (- e)).
  - apply zsum_ext. intros i Hi.
    assert (E: ext N (mono_mul N e a) i = ext N a (i + - e)).
    { rewrite ext_small by assumption. rewrite mono_ext. f_equal. }
    rewrite E. f_equal. f_equal. lia.
  - assumption.
  - intro i. rewrite ext_antiper by assumption. pose proof (ext_antiper N b (k - e - (i + N)) HN) as H.
    replace (k - e - (i + N) + N) with (k - e - i) in H by lia. rewrite H. ring.
Qed.

Lemma mono_mono N e e' a j : 0 < N -> mono_mul N e (mono_mul N e' a) j = mono_mul N (e + e') a j.
Proof.
  intro HN. rewrite !mono_ext.
  rewrite (ext_ext N (mono_mul N e' a) (fun i => ext N a (i - e'))) by (auto; intros; apply mono_ext).
  rewrite <- (antiper_ext N (fun i => ext N a (i - e'))) by
   (assumption || (intro i; replace (i + N - e') with (i - e' + N) by lia; apply ext_antiper; assumption)).
  f_equal. lia.
Qed.

Lemma mono_period N e a j : 0 < N -> mono_mul N (e + 2 * N) a j = mono_mul N e a j.
Proof.
  intro HN. rewrite !mono_ext. pose proof (ext_antiper N a (j - (e + 2 * N)) HN).
  pose proof (ext_antiper N a (j - (e + 2 * N) + N) HN).
  replace (j - (e + 2 * N) + N + N) with (j - e) in * by lia. lia.
Qed.
Lemma mono_mod N e a j : 0 < N -> mono_mul N (e mod (2 * N)) a j = mono_mul N e a j.
Proof.
  intro HN. rewrite (Z.div_mod e (2 * N)) at 2 by lia. set (r := e mod (2 * N)). generalize (e / (2 * N)). intro q.
  assert (G: forall q, 0 <= q -> forall r, mono_mul N (2 * N * q + r) a j = mono_mul N r a j).
  { apply (zsum_ind (fun q => forall r, mono_mul N (2 * N * q + r) a j = mono_mul N r a j)).
    - intro r'. f_equal. lia.
    - intros q' Hq IH r'. replace (2 * N * (q' + 1) + r') with (2 * N * q' + (r' + 2 * N)) by lia.
      rewrite IH. apply mono_period; assumption. }
  destruct (Z_le_dec 0 q) as [Hq|Hq].
  - rewrite G by assumption. reflexivity.
  - rewrite <- (G (- q) ltac:(lia) (2 * N * q + r)). f_equal. lia.
Qed.

Lemma mono_0 N a j : 0 <= j < N -> mono_mul N 0 a j = a j.
Proof. intro. rewrite mono_ext, Z.sub_0_r. apply ext_small. assumption. Qed.
Lemma mono_sub N e a b j : mono_mul N e (fun i => a i - b i) j = mono_mul N e a j - mono_mul N e b j.
Proof. unfold mono_mul. destruct (Z.even _); lia. Qed.
Lemma mono_add N e a b j : mono_mul N e (fun i => a i + b i) j = mono_mul N e a j + mono_mul N e b j.
Proof. unfold mono_mul. destruct (Z.even _); lia. Qed.
Lemma mono_eqm N e a b j : 0 < N -> (forall i, 0 <= i < N -> a i == b i) -> mono_mul N e a j == mono_mul N e b j.
Proof.
  intros HN H. unfold mono_mul. pose proof (Z.mod_pos_bound (j - e) N HN).
  destruct (Z.even _); rewrite H by assumption; reflexivity.
Qed.
Lemma mono_abs N e a j B : 0 < N -> (forall i, 0 <= i < N -> Z.abs (a i) <= B) -> Z.abs (mono_mul N e a j) <= B.
Proof.
  intros HN H. unfold mono_mul. specialize (H ((j - e) mod N) (Z.mod_pos_bound _ _ HN)).
  destruct (Z.even _); lia.
Qed.
Lemma mono_close N e a b j B : 0 < N -> (forall i, 0 <= i < N -> close B (a i) (b i)) ->
  close B (mono_mul N e a j) (mono_mul N e b j).
Proof.
  intros HN H. unfold mono_mul. specialize (H ((j - e) mod N) (Z.mod_pos_bound _ _ HN)).
  destruct (Z.even _); [assumption|apply close_opp; assumption].
Qed.

(** bounds *)
Lemma neg_abs N a b k A B : 0 <= k < N -> 0 <= A ->
  (forall i, 0 <= i < N -> Z.abs (a i) <= A) -> (forall i, 0 <= i < N -> Z.abs (b i) <= B) ->
  Z.abs (negacyclic N a b k) <= N * (A * B).
Proof.
  intros Hk HA Ha Hb. unfold negacyclic. eapply Z.le_trans; [apply zsum_abs|].
  rewrite <- (zsum_const N (A * B)) by lia. apply zsum_le. intros i Hi.
  specialize (Ha i Hi).
  destruct (Z.leb_spec i k); rewrite ?Z.abs_opp, Z.abs_mul; apply Z.mul_le_mono_nonneg; try lia; apply Hb; lia.
Qed.

(** product by a polynomial with nonnegative coefficients: weighted bound *)
Lemma neg_abs_weight N a s k A : 0 <= k < N ->
  (forall i, 0 <= i < N -> Z.abs (a i) <= A) -> (forall i, 0 <= i < N -> 0 <= s i) ->
  Z.abs (negacyclic N a s k) <= A * zsum N s.
Proof.
  intros Hk Ha Hs. rewrite neg_comm by assumption. unfold negacyclic.
  eapply Z.le_trans; [apply zsum_abs|]. rewrite <- zsum_mul_l. apply zsum_le. intros i Hi.
  specialize (Hs i Hi).
  destruct (Z.leb_spec i k); rewrite ?Z.abs_opp, Z.abs_mul, (Z.abs_eq (s i)) by assumption.
  - specialize (Ha (k - i) ltac:(lia)). nia.
  - specialize (Ha (N + k - i) ltac:(lia)). nia.
Qed.

Lemma neg_close N a b s k B : 0 <= k < N -> (forall i, 0 <= i < N -> close B (a i) (b i)) ->
  (forall i, 0 <= i < N -> 0 <= s i) ->
  close (B * zsum N s) (negacyclic N a s k) (negacyclic N b s k).
Proof.
  intros Hk H Hs. rewrite (neg_comm N a), (neg_comm N b) by assumption. unfold negacyclic. rewrite <- zsum_mul_l.
  apply zsum_close. intros i Hi. specialize (Hs i Hi).
  destruct (Z.leb_spec i k).
  - rewrite <- (Z.abs_eq (s i)) at 1 by assumption. rewrite (Z.mul_comm B). apply close_mul. apply H. lia.
  - rewrite <- (Z.abs_eq (s i)) at 1 by assumption. rewrite (Z.mul_comm B). apply close_opp, close_mul. apply H. lia.
Qed.

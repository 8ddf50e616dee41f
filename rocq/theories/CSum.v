(** * Finite sums of complex numbers indexed by integers *)
From Coq Require Import ZArith List Lia Reals Lra.
From Coquelicot Require Import Complex.
From Verif Require Import GoBase Spec GoFacts.
Local Open Scope Z_scope.

Fixpoint csumf (n : nat) (f : Z -> C) : C :=
  match n with O => RtoC 0 | S k => Cplus (csumf k f) (f (Z.of_nat k)) end.
Definition csum (n : Z) (f : Z -> C) : C := csumf (Z.to_nat n) f.

Lemma csum_S f n : 0 <= n -> csum (n + 1) f = Cplus (csum n f) (f n).
Proof. intro Hn. unfold csum. replace (Z.to_nat (n + 1)) with (S (Z.to_nat n)) by lia. cbn [csumf]. rewrite Z2Nat.id by lia. reflexivity. Qed.
Lemma csum_0 f n : n <= 0 -> csum n f = RtoC 0.
Proof. intro Hn. unfold csum. replace (Z.to_nat n) with O by lia. reflexivity. Qed.

Lemma csum_neg (P : Z -> Prop) : (forall n, n <= 0 -> P n) -> (forall n, 0 <= n -> P n -> P (n + 1)) -> forall n, P n.
Proof.
  intros H0 HS n. destruct (Z_le_gt_dec n 0); [auto|].
  assert (0 <= n) as Hn by lia. revert n Hn g. apply (zsum_ind (fun n => n > 0 -> P n)); [lia|].
  intros n Hn IH _. apply HS; [assumption|]. destruct (Z.eq_dec n 0) as [->|]; [apply H0; lia|]. apply IH. lia.
Qed.

Lemma csum_ext n f g : (forall i, 0 <= i < n -> f i = g i) -> csum n f = csum n g.
Proof.
  revert n. apply (csum_neg (fun n => (forall i, 0 <= i < n -> f i = g i) -> csum n f = csum n g)).
  - intros n Hn _. rewrite !csum_0 by assumption. reflexivity.
  - intros n Hn IH Hfg. rewrite !csum_S by assumption. rewrite IH by (intros; apply Hfg; lia). rewrite Hfg by lia. reflexivity.
Qed.
Lemma csum_add n f g : csum n (fun i => Cplus (f i) (g i)) = Cplus (csum n f) (csum n g).
Proof.
  revert n. apply csum_neg; [intros n Hn; rewrite !csum_0 by assumption; ring|].
  intros n Hn IH. rewrite !csum_S by assumption. rewrite IH. ring.
Qed.
Lemma csum_mul_l n c f : csum n (fun i => Cmult c (f i)) = Cmult c (csum n f).
Proof.
  revert n. apply csum_neg; [intros n Hn; rewrite !csum_0 by assumption; ring|].
  intros n Hn IH. rewrite !csum_S by assumption. rewrite IH. ring.
Qed.
Lemma csum_mul_r n c f : csum n (fun i => Cmult (f i) c) = Cmult (csum n f) c.
Proof.
  revert n. apply csum_neg; [intros n Hn; rewrite !csum_0 by assumption; ring|].
  intros n Hn IH. rewrite !csum_S by assumption. rewrite IH. ring.
Qed.
Lemma csum_zero n : csum n (fun _ => RtoC 0) = RtoC 0.
Proof.
  revert n. apply csum_neg; [intros n Hn; apply csum_0; assumption|].
  intros n Hn IH. rewrite csum_S by assumption. rewrite IH. ring.
Qed.
Lemma csum_swap n m f : csum n (fun i => csum m (fun j => f i j)) = csum m (fun j => csum n (fun i => f i j)).
Proof.
  revert n. apply csum_neg.
  - intros n Hn. rewrite csum_0 by assumption. rewrite (csum_ext m _ (fun _ => RtoC 0)); [symmetry; apply csum_zero|].
    intros j Hj. apply csum_0. assumption.
  - intros n Hn IH. rewrite csum_S by assumption. rewrite IH. rewrite <- csum_add. apply csum_ext. intros j Hj.
    rewrite csum_S by assumption. reflexivity.
Qed.
Lemma csum_first n f : 0 <= n -> csum (n + 1) f = Cplus (f 0) (csum n (fun i => f (i + 1))).
Proof.
  revert n. apply (zsum_ind (fun n => csum (n + 1) f = Cplus (f 0) (csum n (fun i => f (i + 1))))).
  - rewrite (csum_S f 0) by lia. rewrite !csum_0 by lia. ring.
  - intros n Hn IH. rewrite (csum_S f (n + 1)) by lia. rewrite IH. rewrite csum_S by assumption. ring.
Qed.
Lemma csum_first1 n f : 0 < n -> csum n f = Cplus (f 0) (csum (n - 1) (fun i => f (i + 1))).
Proof. intro Hn. rewrite <- csum_first by lia. f_equal. lia. Qed.
Lemma csum_last1 n f : 0 < n -> csum n f = Cplus (csum (n - 1) f) (f (n - 1)).
Proof. intro Hn. rewrite <- csum_S by lia. f_equal. lia. Qed.
Lemma csum_split n m f : 0 <= n -> 0 <= m -> csum (n + m) f = Cplus (csum n f) (csum m (fun i => f (n + i))).
Proof.
  intros Hn. revert m. apply (zsum_ind (fun m => csum (n + m) f = Cplus (csum n f) (csum m (fun i => f (n + i))))).
  - rewrite Z.add_0_r. rewrite (csum_0 _ 0) by lia. ring.
  - intros m Hm IH. replace (n + (m + 1)) with (n + m + 1) by lia. rewrite !csum_S by lia. rewrite IH. ring.
Qed.
Lemma csum_pairs n f : 0 <= n -> csum (2 * n) f = csum n (fun q => Cplus (f (2 * q)) (f (2 * q + 1))).
Proof.
  revert n. apply (zsum_ind (fun n => csum (2 * n) f = csum n (fun q => Cplus (f (2 * q)) (f (2 * q + 1))))).
  - rewrite !csum_0 by lia. reflexivity.
  - intros n Hn IH. replace (2 * (n + 1)) with (2 * n + 1 + 1) by lia. rewrite !csum_S by lia. rewrite IH. ring.
Qed.

(** real and imaginary parts of integer sums *)
Lemma csum_RtoC n f : csum n (fun i => RtoC (IZR (f i))) = RtoC (IZR (zsum n f)).
Proof.
  revert n. apply csum_neg.
  - intros n Hn. rewrite csum_0 by assumption. rewrite zsum_0 by assumption. reflexivity.
  - intros n Hn IH. rewrite csum_S by assumption. rewrite IH. rewrite zsum_S by assumption. rewrite plus_IZR, RtoC_plus. reflexivity.
Qed.

Fixpoint cpown (z : C) (n : nat) : C := match n with O => RtoC 1 | S k => Cmult (cpown z k) z end.
Definition cpow (z : C) (n : Z) : C := cpown z (Z.to_nat n).
Lemma cpow_0 z : cpow z 0 = RtoC 1.
Proof. reflexivity. Qed.
Lemma cpow_S z n : 0 <= n -> cpow z (n + 1) = Cmult (cpow z n) z.
Proof. intro. unfold cpow. replace (Z.to_nat (n + 1)) with (S (Z.to_nat n)) by lia. reflexivity. Qed.
Lemma cpow_1 z : cpow z 1 = z.
Proof. change 1 with (0 + 1). rewrite cpow_S, cpow_0 by lia. ring. Qed.
Lemma cpow_add z a b : 0 <= a -> 0 <= b -> cpow z (a + b) = Cmult (cpow z a) (cpow z b).
Proof.
  intros Ha. revert b. apply (zsum_ind (fun b => cpow z (a + b) = Cmult (cpow z a) (cpow z b))).
  - rewrite Z.add_0_r, cpow_0. ring.
  - intros b Hb IH. replace (a + (b + 1)) with (a + b + 1) by lia. rewrite !cpow_S by lia. rewrite IH. ring.
Qed.
Lemma cpow_double z q : 0 <= q -> cpow z (2 * q) = cpow (Cmult z z) q.
Proof.
  revert q. apply (zsum_ind (fun q => cpow z (2 * q) = cpow (Cmult z z) q)); [reflexivity|].
  intros q Hq IH. replace (2 * (q + 1)) with (2 * q + 1 + 1) by lia. rewrite !cpow_S by lia. rewrite IH. ring.
Qed.

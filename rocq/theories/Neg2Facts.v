(** * The ring of polynomials modulo X^N + 1 and modulo 2 *)
From Coq Require Import Lia ZifyBool Setoid Morphisms List.
From Verif Require Import GoBase GoFacts Spec BasicFacts PolyFacts NegFacts Attack.
Import ListNotations.
Local Open Scope Z_scope.
Ltac Zify.zify_post_hook ::= idtac.

Definition eq2 (a b : Z) : Prop := a mod 2 = b mod 2.

#[global] Instance eq2_equiv : Equivalence eq2.
Proof. split; unfold eq2; red; intros; congruence. Qed.
#[global] Instance eq2_add : Proper (eq2 ==> eq2 ==> eq2) Z.add.
Proof. intros a a' Ha b b' Hb. unfold eq2 in *. rewrite Z.add_mod, Ha, Hb, <- Z.add_mod by lia. reflexivity. Qed.
#[global] Instance eq2_mul : Proper (eq2 ==> eq2 ==> eq2) Z.mul.
Proof. intros a a' Ha b b' Hb. unfold eq2 in *. rewrite Z.mul_mod, Ha, Hb, <- Z.mul_mod by lia. reflexivity. Qed.
#[global] Instance eq2_opp : Proper (eq2 ==> eq2) Z.opp.
Proof. intros a a' Ha. replace (- a) with (-1 * a) by ring. replace (- a') with (-1 * a') by ring. rewrite Ha. reflexivity. Qed.

Lemma eq2_refl' a b : a = b -> eq2 a b.
Proof. intros ->. reflexivity. Qed.

Lemma eq2_double a b c : a = b + 2 * c -> eq2 a b.
Proof. intros ->. unfold eq2. rewrite Z.mul_comm, Z_mod_plus_full. reflexivity. Qed.

Lemma eq2_neg a : eq2 (- a) a.
Proof. apply (eq2_double _ _ (- a)). ring. Qed.

Lemma eqm_eq2 a b : a == b -> eq2 a b.
Proof.
  unfold eqm. intro H. assert (D: a = b + 2 * ((a / two32 - b / two32) * 2 ^ 31)).
  { rewrite (Z.div_mod a two32) at 1 by (unfold two32; lia). rewrite (Z.div_mod b two32) at 1 by (unfold two32; lia). rewrite H.
    change two32 with (2 * 2 ^ 31). ring. }
  apply (eq2_double _ _ _ D).
Qed.

Lemma zsum_eq2 n f g : (forall i, 0 <= i < n -> eq2 (f i) (g i)) -> eq2 (zsum n f) (zsum n g).
Proof.
  unfold zsum. intro H. assert (G: forall k, (k <= Z.to_nat n)%nat -> eq2 (sumf k f) (sumf k g)).
  { induction k as [|k IH]; intro Hk; cbn [sumf]; [reflexivity|]. rewrite IH by lia. rewrite (H (Z.of_nat k)) by lia. reflexivity. }
  apply G. lia.
Qed.

Lemma neg_eq2_args N a a' b b' k : 0 <= k < N ->
  (forall i, 0 <= i < N -> eq2 (a i) (a' i)) -> (forall i, 0 <= i < N -> eq2 (b i) (b' i)) ->
  eq2 (negacyclic N a b k) (negacyclic N a' b' k).
Proof.
  intros Hk Ha Hb. unfold negacyclic. apply zsum_eq2. intros i Hi. destruct (Z.leb_spec i k).
  - rewrite (Ha i), (Hb (k - i)) by lia. reflexivity.
  - rewrite (Ha i), (Hb (N + k - i)) by lia. reflexivity.
Qed.

(** is [k] the place of X^e modulo X^N + 1 ? *)
Definition hit (N e k : Z) : Z := if (k - e) mod N =? 0 then 1 else 0.

(** the first m terms of a *)
Definition head (m : Z) (a : Z -> Z) (i : Z) : Z := if i <? m then a i else 0.
Definition term (m : Z) (a : Z -> Z) (i : Z) : Z := if i =? m then a m else 0.

Lemma neg_term N m a b k : 0 <= k < N -> 0 <= m < N ->
  negacyclic N (term m a) b k = a m * (if m <=? k then b (k - m) else - b (N + k - m)).
Proof.
  intros Hk Hm. unfold negacyclic. rewrite (zsum_single N _ m).
  - unfold term. rewrite Z.eqb_refl. destruct (m <=? k); ring.
  - exact Hm.
  - intros i Hi Hne. unfold term. destruct (Z.eqb_spec i m); [contradiction|]. destruct (i <=? k); ring.
Qed.

Lemma term_square N m a k : 0 <= k < N -> 0 <= m < N -> eq2 (negacyclic N (term m a) (term m a) k) (a m * hit N (2 * m) k).
Proof.
  intros Hk Hm. rewrite neg_term by assumption. unfold term, hit.
  assert (S: eq2 (a m * a m) (a m)).
  { unfold eq2. rewrite (Z.div_mod (a m) 2) by lia. set (q := a m / 2). pose proof (Z.mod_pos_bound (a m) 2 ltac:(lia)).
    assert (a m mod 2 = 0 \/ a m mod 2 = 1) as [-> | ->] by lia.
    - apply (eq2_double _ _ (2 * q * q - q)). ring.
    - apply (eq2_double _ _ (2 * q * q + q)). ring. }
  destruct (Z.leb_spec m k).
  - destruct (Z.eqb_spec (k - m) m).
    + replace (k - 2 * m) with 0 by lia. rewrite Z.mod_0_l by lia. cbn [Z.eqb]. rewrite S. apply eq2_refl'. ring.
    + destruct (Z.eqb_spec ((k - 2 * m) mod N) 0) as [E|]; [|apply eq2_refl'; ring].
      exfalso. apply Z.mod_divide in E; [|lia]. destruct E as [q Hq]. assert (q = 0 \/ q <= -1 \/ 1 <= q) as [-> | [Hq1 | Hq1]] by lia; nia.
  - destruct (Z.eqb_spec (N + k - m) m).
    + replace (k - 2 * m) with ((-1) * N) by lia. rewrite Z_mod_mult. cbn [Z.eqb]. replace (a m * - a m) with (- (a m * a m)) by ring. rewrite eq2_neg, S. apply eq2_refl'. ring.
    + destruct (Z.eqb_spec ((k - 2 * m) mod N) 0) as [E|]; [|apply eq2_refl'; ring].
      exfalso. apply Z.mod_divide in E; [|lia]. destruct E as [q Hq]. assert (q = -1 \/ q <= -2 \/ 0 <= q) as [-> | [Hq1 | Hq1]] by lia; nia.
Qed.

(** squaring doubles the exponents *)
Lemma square2 N a k : 0 <= k < N -> eq2 (negacyclic N a a k) (zsum N (fun i => a i * hit N (2 * i) k)).
Proof.
  intro Hk. assert (G: forall m : nat, (m <= Z.to_nat N)%nat ->
    eq2 (negacyclic N (head (Z.of_nat m) a) (head (Z.of_nat m) a) k) (sumf m (fun i => a i * hit N (2 * i) k))).
  { induction m as [|m IH]; intro Hm.
    - cbn [sumf]. unfold negacyclic. rewrite (zsum_ext N _ (fun _ => 0)).
      + unfold zsum. assert (Z0: forall j, sumf j (fun _ => 0) = 0) by (induction j; cbn [sumf]; lia). rewrite Z0. reflexivity.
      + intros i Hi. unfold head. destruct (Z.ltb_spec i (Z.of_nat 0)); [lia|]. destruct (i <=? k); ring.
    - cbn [sumf]. rewrite <- IH by lia. rewrite <- (term_square N (Z.of_nat m) a k) by lia.
      set (p := head (Z.of_nat m) a). set (q := term (Z.of_nat m) a).
      assert (E: forall i, head (Z.of_nat (S m)) a i = p i + q i).
      { intro i. unfold head, p, q, head, term. destruct (Z.ltb_spec i (Z.of_nat (S m))), (Z.ltb_spec i (Z.of_nat m)), (Z.eqb_spec i (Z.of_nat m)); subst; lia. }
      rewrite (neg_ext_args N _ (fun i => p i + q i) _ (fun i => p i + q i)) by (intros; apply E || assumption).
      rewrite neg_add_l, !neg_add_r. rewrite (neg_comm N q p) by assumption.
      apply (eq2_double _ _ (negacyclic N p q k)). ring. }
  specialize (G (Z.to_nat N) (Nat.le_refl _)). fold (zsum N (fun i => a i * hit N (2 * i) k)) in G. rewrite <- G.
  apply neg_eq2_args; [assumption| |]; intros i Hi; unfold head; destruct (Z.ltb_spec i (Z.of_nat (Z.to_nat N))); try lia; reflexivity.
Qed.

(** support on the multiples of d *)
Definition on_multiples (N d : Z) (a : Z -> Z) : Prop := forall i, 0 <= i < N -> i mod d <> 0 -> eq2 (a i) 0.

Lemma square_support N d a : 0 < d -> (2 * d | N) -> on_multiples N d a -> on_multiples N (2 * d) (negacyclic N a a).
Proof.
  intros Hd [w Hw] Ha k Hk Hk2. rewrite square2 by assumption. rewrite (zsum_eq2 N _ (fun _ => 0)).
  - unfold zsum. assert (Z0: forall j, sumf j (fun _ => 0) = 0) by (induction j; cbn [sumf]; lia). rewrite Z0. reflexivity.
  - intros i Hi. destruct (Z.eq_dec (i mod d) 0) as [E|E].
    + unfold hit. destruct (Z.eqb_spec ((k - 2 * i) mod N) 0) as [E1|]; [|apply eq2_refl'; ring].
      exfalso. apply Hk2. apply Z.mod_divide in E; [|lia]. apply Z.mod_divide in E1; [|lia]. apply Z.mod_divide; [lia|].
      destruct E as [q ->], E1 as [q1 E1]. exists (q1 * w + q). rewrite Z.mul_add_distr_r, <- Z.mul_assoc, <- Hw. lia.
    + rewrite (Ha i Hi E). reflexivity.
Qed.

Lemma zsum_swap n m f : zsum n (fun i => zsum m (fun j => f i j)) = zsum m (fun j => zsum n (fun i => f i j)).
Proof.
  unfold zsum. induction (Z.to_nat n) as [|k IH]; cbn [sumf].
  - assert (Z0: forall j, sumf j (fun _ => 0) = 0) by (induction j; cbn [sumf]; lia). rewrite Z0. reflexivity.
  - rewrite IH. assert (A: forall j g h, sumf j (fun x => g x + h x) = sumf j g + sumf j h) by (induction j; intros; cbn [sumf]; rewrite ?IHj; lia).
    rewrite A. reflexivity.
Qed.

Lemma hit_total N e : 0 < N -> zsum N (hit N e) = 1.
Proof.
  intro HN. pose proof (Z.mod_pos_bound e N HN). rewrite (zsum_single N _ (e mod N)).
  - unfold hit. rewrite <- Zminus_mod_idemp_r, Z.sub_diag, Z.mod_0_l by lia. reflexivity.
  - assumption.
  - intros i Hi Hne. unfold hit. destruct (Z.eqb_spec ((i - e) mod N) 0) as [E|]; [|reflexivity].
    exfalso. apply Hne. rewrite <- (Z.mod_small i N) by lia. replace i with ((i - e) + e) by ring.
    rewrite Z.add_mod, E, Z.add_0_l, Z.mod_mod by lia. reflexivity.
Qed.

Lemma square_total N a : 0 < N -> eq2 (zsum N (negacyclic N a a)) (zsum N a).
Proof.
  intro HN. rewrite (zsum_eq2 N _ _ (fun k Hk => square2 N a k Hk)).
  rewrite zsum_swap. apply zsum_eq2. intros i Hi. rewrite zsum_mul_l, hit_total by assumption. apply eq2_refl'. ring.
Qed.

(** ** The solver *)
Section Solve.
Context (N : Z) (HN : 0 < N).

Lemma zlen_times2 a b : zlen (times2 N a b) = N.
Proof. unfold times2. apply (zlen_tab N (fun k => negacyclic N (zn a) (zn b) k mod 2)). lia. Qed.

Lemma zn_times2 a b k : 0 <= k < N -> zn (times2 N a b) k = negacyclic N (zn a) (zn b) k mod 2.
Proof. intro Hk. unfold times2. apply (znd_tab 0 N (fun k => negacyclic N (zn a) (zn b) k mod 2)). exact Hk. Qed.

Lemma mod2_eq2 a : eq2 (a mod 2) a.
Proof. unfold eq2. apply Z.mod_mod. lia. Qed.

Lemma solve2_ok s : forall nb d a b, 0 < d -> N = d * 2 ^ Z.of_nat nb -> on_multiples N d (zn a) -> eq2 (zsum N (zn a)) 1 ->
  (forall k, 0 <= k < N -> eq2 (zn b k) (negacyclic N (zn a) s k)) ->
  forall k, 0 <= k < N -> eq2 (zn (solve2 nb N a b) k) (s k).
Proof.
  induction nb as [|nb IH]; intros d a b Hd HNd Ha Hs Hb k Hk; cbn [solve2].
  - rewrite Hb by assumption. change (2 ^ Z.of_nat 0) with 1 in HNd. rewrite Z.mul_1_r in HNd. subst d.
    rewrite (neg_eq2_args N (zn a) (cst 1) s s) by (assumption || reflexivity ||
      (intros i Hi; unfold cst; destruct (Z.eqb_spec i 0) as [->|Hne];
       [rewrite <- Hs; rewrite <- (Z.add_0_r (zn a 0)); rewrite (zsum_eq2 N (zn a) (fun i => if i =? 0 then zn a 0 else 0));
         [rewrite (zsum_single N _ 0); [apply eq2_refl'; cbn [Z.eqb]; ring|lia|intros j Hj Hjn; destruct (Z.eqb_spec j 0); [contradiction|reflexivity]]
         |intros j Hj; destruct (Z.eqb_spec j 0) as [->|Hjn]; [reflexivity|apply Ha; [assumption|rewrite Z.mod_small by lia; assumption]]]
       |apply Ha; [assumption|rewrite Z.mod_small by lia; assumption]])).
    rewrite neg_cst_l by assumption. apply eq2_refl'. ring.
  - rewrite Nat2Z.inj_succ, Z.pow_succ_r in HNd by lia.
    assert (EA: forall i, 0 <= i < N -> eq2 (zn (times2 N a a) i) (negacyclic N (zn a) (zn a) i)).
    { intros i Hi. rewrite zn_times2 by assumption. apply mod2_eq2. }
    apply (IH (2 * d)); [lia|rewrite HNd; ring| | | |exact Hk].
    + intros i Hi Hne. rewrite EA by assumption. apply (square_support N d); try assumption.
      exists (2 ^ Z.of_nat nb). rewrite HNd. ring.
    + rewrite <- Hs, <- (square_total N (zn a)) by assumption. apply zsum_eq2. exact EA.
    + intros i Hi. rewrite zn_times2 by assumption. rewrite mod2_eq2.
      rewrite (neg_eq2_args N (zn a) (zn a) (zn b) (negacyclic N (zn a) s)) by (assumption || reflexivity || exact Hb).
      rewrite <- neg_assoc by assumption. symmetry. apply neg_eq2_args; [assumption|exact EA|reflexivity].
Qed.

Lemma solve2_range nb a b : (0 < nb)%nat -> zlen (solve2 nb N a b) = N /\ forall k, 0 <= k < N -> 0 <= zn (solve2 nb N a b) k < 2.
Proof.
  revert a b. induction nb as [|nb IH]; intros a b Hnb; [lia|]. cbn [solve2]. destruct nb as [|nb].
  - cbn [solve2]. split; [apply zlen_times2|]. intros k Hk. rewrite zn_times2 by assumption. apply Z.mod_pos_bound. lia.
  - apply IH. lia.
Qed.

Lemma total_zsum a : zlen a = N -> total a = zsum N (zn a).
Proof.
  intros Hl. subst N. unfold zsum, zlen. rewrite Nat2Z.id. clear HN. induction a as [|x a IH] using rev_ind; [reflexivity|].
  rewrite app_length. cbn [length]. rewrite Nat.add_1_r. cbn [sumf]. unfold total in *. rewrite fold_right_app. cbn [fold_right].
  assert (F: forall l c, fold_right Z.add c l = fold_right Z.add 0 l + c) by (induction l as [|y l IHl]; intro c; cbn [fold_right]; [lia|rewrite IHl; lia]).
  rewrite F, IH. f_equal.
  - assert (G: forall k, (k <= length a)%nat -> sumf k (zn a) = sumf k (zn (a ++ [x]))).
    { induction k as [|k IHk]; intro Hk; cbn [sumf]; [reflexivity|]. rewrite IHk by lia. f_equal. unfold zn. rewrite Nat2Z.id, app_nth1 by lia. reflexivity. }
    apply G. lia.
  - unfold zn. rewrite Nat2Z.id, app_nth2, Nat.sub_diag by lia. cbn [nth]. lia.
Qed.
End Solve.

Lemma odd_eq2 a : Z.odd a = true <-> eq2 a 1.
Proof. unfold eq2. rewrite Zmod_odd. destruct (Z.odd a); split; intro H; try reflexivity; try discriminate. Qed.

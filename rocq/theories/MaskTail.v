(** * Few words have a very large sum: an exponential bound *)
From Coq Require Import Lia List Reals Lra.
From Coquelicot Require Import Coquelicot.
From Verif Require Import GoBase GoFacts Spec MaskCount.
Import ListNotations.
Ltac Zify.zify_post_hook ::= idtac.
Local Open Scope R_scope.

(** ** exponentials *)
Lemma exp_mono x y : x <= y -> exp x <= exp y.
Proof. intros [H| ->]; [left; apply exp_increasing; exact H|right; reflexivity]. Qed.
Lemma exp_ge x : 1 + x <= exp x.
Proof. exact (exp_ineq1_le x). Qed.
Lemma exp_le_inv z : z < 1 -> exp z <= / (1 - z).
Proof.
  intro H. rewrite <- (Ropp_involutive z) at 1. rewrite exp_Ropp. apply Rinv_le_contravar; [lra|]. pose proof (exp_ge (- z)). lra.
Qed.
Lemma exp_chord th z : 0 <= th <= 1 -> exp (th * z) <= 1 - th + th * exp z.
Proof.
  intro H. pose proof (exp_ge (- th * z)) as A. pose proof (exp_ge (z - th * z)) as B.
  assert (P := exp_pos (th * z)).
  assert (A': 1 - th * z <= exp (- (th * z))) by (replace (- (th * z)) with (- th * z) by ring; lra).
  rewrite exp_Ropp in A'.
  assert (X: exp (th * z) * (1 - th * z) <= 1).
  { apply (Rmult_le_compat_l (exp (th * z))) in A'; [|lra]. rewrite Rinv_r in A' by lra. exact A'. }
  assert (Y: exp (th * z) * (1 + (z - th * z)) <= exp z).
  { replace (exp z) with (exp (th * z) * exp (z - th * z)) by (rewrite <- exp_plus; f_equal; ring). apply Rmult_le_compat_l; lra. }
  replace (exp (th * z)) with ((1 - th) * (exp (th * z) * (1 - th * z)) + th * (exp (th * z) * (1 + (z - th * z)))) by ring.
  apply Rplus_le_compat.
  - rewrite <- (Rmult_1_r (1 - th)) at 2. apply Rmult_le_compat_l; lra.
  - apply Rmult_le_compat_l; lra.
Qed.

Lemma nondec (f df : R -> R) x : 0 <= x -> (forall y, is_derive f y (df y)) -> (forall y, 0 <= y -> 0 <= df y) -> f 0 <= f x.
Proof.
  intros Hx Hd Hp. destruct (MVT_gen f 0 x df) as (c & Hc & E).
  - intros y _. apply Hd.
  - intros y _. apply continuity_pt_filterlim. apply (ex_derive_continuous f). eexists. apply Hd.
  - rewrite Rmin_left, Rmax_right in Hc by exact Hx. assert (0 <= df c * (x - 0)); [|lra].
    apply Rmult_le_pos; [apply Hp; lra|lra].
Qed.
Lemma sinh_le y : 0 <= y -> exp y - exp (- y) <= y * (exp y + exp (- y)).
Proof.
  intro H. pose proof (nondec (fun y => y * (exp y + exp (- y)) - (exp y - exp (- y))) (fun y => y * (exp y - exp (- y))) y H) as X.
  cbv beta in X. rewrite Ropp_0, exp_0 in X. enough (Y: 0 * (1 + 1) - (1 - 1) <= y * (exp y + exp (- y)) - (exp y - exp (- y))) by lra.
  apply X.
  - intro u. auto_derive; [exact I|ring].
  - intros u Hu. apply Rmult_le_pos; [exact Hu|]. pose proof (exp_mono (- u) u). lra.
Qed.
Lemma cosh_le_pos y : 0 <= y -> exp y + exp (- y) <= 2 * exp (y * y / 2).
Proof.
  intro H. pose proof (nondec (fun y => - ((exp y + exp (- y)) * exp (- (y * y / 2))))
    (fun y => (y * (exp y + exp (- y)) - (exp y - exp (- y))) * exp (- (y * y / 2))) y H) as X. cbv beta in X.
  assert (Y: - ((exp 0 + exp (- 0)) * exp (- (0 * 0 / 2))) <= - ((exp y + exp (- y)) * exp (- (y * y / 2)))).
  { apply X.
    - intro u. auto_derive; [exact I|]. unfold Rdiv. field.
    - intros u Hu. apply Rmult_le_pos; [pose proof (sinh_le u Hu); lra|left; apply exp_pos]. }
  replace (- (0 * 0 / 2)) with 0 in Y by field. rewrite Ropp_0, exp_0 in Y.
  assert (P := exp_pos (y * y / 2)). rewrite (exp_Ropp (y * y / 2)) in Y.
  assert (Z0: (exp y + exp (- y)) * / exp (y * y / 2) * exp (y * y / 2) <= 2 * exp (y * y / 2)) by (apply Rmult_le_compat_r; lra).
  rewrite Rmult_assoc, Rinv_l, Rmult_1_r in Z0 by lra. exact Z0.
Qed.
Lemma cosh_le y : exp y + exp (- y) <= 2 * exp (y * y / 2).
Proof.
  destruct (Rle_dec 0 y) as [H|H]; [apply cosh_le_pos; exact H|].
  pose proof (cosh_le_pos (- y) ltac:(lra)) as X. rewrite Ropp_involutive in X. replace (- y * - y) with (y * y) in X by ring. lra.
Qed.

(** ** sums over lists *)
Definition rlsum {A} (f : A -> R) (l : list A) : R := fold_right (fun x a => f x + a) 0 l.
Ltac nil_ring := cbn [app filter]; repeat match goal with |- context [@rlsum ?A ?f []] => change (@rlsum A f []) with 0 end; repeat match goal with |- context [@zlen ?A []] => change (@zlen A []) with 0%Z end; ring.
Section Rlsum.
Context {A : Type}.
Implicit Types (f g : A -> R) (l : list A).
Lemma rlsum_cons f x l : rlsum f (x :: l) = f x + rlsum f l.
Proof. reflexivity. Qed.
Lemma rlsum_app f l l' : rlsum f (l ++ l') = rlsum f l + rlsum f l'.
Proof. induction l as [|x l IH]; [nil_ring|]. cbn [app]. rewrite !rlsum_cons, IH. ring. Qed.
Lemma rlsum_ext f g l : (forall x, In x l -> f x = g x) -> rlsum f l = rlsum g l.
Proof.
  induction l as [|x l IH]; intro H; [reflexivity|]. rewrite !rlsum_cons, (H x), IH; [reflexivity|intros; apply H; right; assumption|left; reflexivity].
Qed.
Lemma rlsum_le f g l : (forall x, In x l -> f x <= g x) -> rlsum f l <= rlsum g l.
Proof.
  induction l as [|x l IH]; intro H; [apply Rle_refl|]. rewrite !rlsum_cons. apply Rplus_le_compat; [apply H; left; reflexivity|apply IH; intros; apply H; right; assumption].
Qed.
Lemma rlsum_add f g l : rlsum (fun x => f x + g x) l = rlsum f l + rlsum g l.
Proof. induction l as [|x l IH]; [nil_ring|]. rewrite !rlsum_cons, IH. ring. Qed.
Lemma rlsum_mul c f l : rlsum (fun x => c * f x) l = c * rlsum f l.
Proof. induction l as [|x l IH]; [nil_ring|]. rewrite !rlsum_cons, IH. ring. Qed.
Lemma rlsum_const c l : rlsum (fun _ => c) l = IZR (zlen l) * c.
Proof.
  induction l as [|x l IH]; [nil_ring|]. rewrite rlsum_cons, IH. unfold zlen. cbn [length]. rewrite Nat2Z.inj_succ, succ_IZR. ring.
Qed.
Lemma rlsum_filter (p : A -> bool) c l : rlsum (fun x => if p x then c else 0) l = IZR (zlen (filter p l)) * c.
Proof.
  induction l as [|x l IH]; [nil_ring|]. rewrite rlsum_cons, IH. cbn [filter]. destruct (p x); [|ring].
  unfold zlen. cbn [length]. rewrite Nat2Z.inj_succ, succ_IZR. ring.
Qed.
Lemma rlsum_rev f l : rlsum f (rev l) = rlsum f l.
Proof. induction l as [|x l IH]; [reflexivity|]. cbn [rev]. rewrite rlsum_app, IH, !rlsum_cons. nil_ring. Qed.
Lemma rlsum_Z (f : A -> Z) l : rlsum (fun x => IZR (f x)) l = IZR (lsum f l).
Proof. induction l as [|x l IH]; [reflexivity|]. rewrite rlsum_cons, IH, lsum_cons, plus_IZR. reflexivity. Qed.
End Rlsum.
Lemma rlsum_map {A B} (g : A -> B) f l : rlsum f (map g l) = rlsum (fun x => f (g x)) l.
Proof. induction l as [|x l IH]; [reflexivity|]. cbn [map]. rewrite !rlsum_cons, IH. reflexivity. Qed.
Lemma rlsum_flat {A B} (g : A -> list B) f l : rlsum f (flat_map g l) = rlsum (fun x => rlsum f (g x)) l.
Proof. induction l as [|x l IH]; [reflexivity|]. cbn [flat_map]. rewrite rlsum_app, rlsum_cons, IH. reflexivity. Qed.

(** ** exponential moments *)
Section Tail.
Context (h q : Z) (Hh : (0 < h)%Z) (Hq : (0 <= q)%Z).
Notation G := (2 * h)%Z.
Notation al := (alphabet h q).
Notation v := (oddres h).
Notation D := (wsum v).
Notation CR := (IZR (q * G)).

Lemma al_len : zlen al = (q * G)%Z.
Proof. apply zlen_tab. apply Z.mul_nonneg_nonneg; lia. Qed.
Lemma al_rev : rev al = tab (q * G) (fun i => q * G - 1 - i)%Z.
Proof.
  unfold alphabet, tab. generalize (q * G)%Z as N. intro N. destruct (Z_lt_dec N 0) as [Hn|Hn].
  { destruct N; try lia. reflexivity. }
  assert (E: N = Z.of_nat (Z.to_nat N)) by lia. set (k := Z.to_nat N) in *. rewrite E. clear. induction k as [|k IH]; [reflexivity|].
  rewrite seq_S at 1. rewrite map_app, rev_app_distr, IH. cbn [map rev app seq]. f_equal; [lia|].
  rewrite <- seq_shift, map_map. apply map_ext. intro a. lia.
Qed.
Lemma v_rev x : v (q * G - 1 - x) = (- v x)%Z.
Proof.
  rewrite !oddres_mod by exact Hh. replace (q * G - 1 - x + h)%Z with (- 1 - (x + h) + (q + 1) * G)%Z by ring. rewrite Z.mod_add by lia.
  pose proof (Z.div_mod (x + h) G ltac:(lia)) as X. pose proof (Z.mod_pos_bound (x + h) G ltac:(lia)) as B.
  set (m := ((x + h) mod G)%Z) in *. replace (- 1 - (x + h))%Z with (G - 1 - m + (- (x + h) / G - 1 - (- (x + h) / G + (x + h) / G)) * G)%Z by lia.
  rewrite Z.mod_add, Z.mod_small by lia. lia.
Qed.
Lemma al_sym (f : Z -> R) : rlsum (fun x => f (v x)) al = rlsum (fun x => f (- v x)%Z) al.
Proof.
  rewrite <- rlsum_rev, al_rev. unfold alphabet. unfold tab at 1 2. rewrite !rlsum_map. apply rlsum_ext. intros k _. rewrite v_rev. reflexivity.
Qed.

Context (lam : R).
Notation mu := (lam * IZR G).
Notation KK := (1 + (exp (mu * mu / 2) - 1) / 3).
Lemma exp_al : rlsum (fun x => exp (lam * IZR (v x))) al <= CR * KK.
Proof.
  set (Sg := rlsum _ al). assert (E: 2 * Sg = rlsum (fun x => exp (lam * IZR (v x)) + exp (- (lam * IZR (v x)))) al).
  { rewrite rlsum_add. fold Sg. pose proof (al_sym (fun z => exp (lam * IZR z))) as X. cbv beta in X. fold Sg in X.
    rewrite (rlsum_ext (fun x => exp (- (lam * IZR (v x)))) (fun x => exp (lam * IZR (- v x)))).
    - lra.
    - intros x _. f_equal. rewrite opp_IZR. ring. }
  assert (HG: 0 < IZR G) by (apply IZR_lt; lia).
  assert (B: 2 * Sg <= 2 * rlsum (fun x => 1 + (exp (mu * mu / 2) - 1) / (IZR G * IZR G) * IZR (v x ^ 2)) al).
  { rewrite E, <- rlsum_mul. apply rlsum_le. intros x _.
    eapply Rle_trans; [apply cosh_le|]. apply Rmult_le_compat_l; [lra|].
    set (th := IZR (v x) * IZR (v x) / (IZR G * IZR G)).
    assert (Bv: (-G < v x < G)%Z) by (pose proof (residue_bound h Hh x); unfold oddres; lia).
    assert (Bt: 0 <= th <= 1).
    { assert (P: 0 < IZR G * IZR G) by (apply Rmult_lt_0_compat; exact HG).
      assert (Q: IZR (v x) * IZR (v x) <= IZR G * IZR G) by (rewrite <- !mult_IZR; apply IZR_le; nia).
      assert (Q0: 0 <= IZR (v x) * IZR (v x)) by apply Rle_0_sqr.
      unfold th. split.
      - apply Rmult_le_pos; [exact Q0|left; apply Rinv_0_lt_compat; exact P].
      - apply (Rmult_le_reg_r (IZR G * IZR G)); [exact P|]. unfold Rdiv. rewrite Rmult_assoc, Rinv_l by lra. lra. }
    pose proof (exp_chord th (mu * mu / 2) Bt) as X.
    replace (th * (mu * mu / 2)) with (lam * IZR (v x) * (lam * IZR (v x)) / 2) in X by (unfold th; field; lra).
    eapply Rle_trans; [exact X|]. apply Req_le. replace (v x ^ 2)%Z with (v x * v x)%Z by ring. rewrite (mult_IZR (v x) (v x)). unfold th. field. lra. }
  rewrite rlsum_add, rlsum_const, al_len, rlsum_mul, rlsum_Z in B. fold (power al v 2) in B.
  destruct (powers h q Hh Hq) as (_ & _ & P2 & _). apply (f_equal IZR) in P2. rewrite (mult_IZR (q * G) (G ^ 2 - 1)), (mult_IZR 3 (power al v 2)) in P2.
  replace (IZR (G ^ 2 - 1)) with (IZR G * IZR G - 1) in P2.
  2:{ rewrite minus_IZR. replace (G ^ 2)%Z with (G * G)%Z by ring. rewrite (mult_IZR G G). reflexivity. }
  assert (E1: 1 <= exp (mu * mu / 2)).
  { rewrite <- exp_0. apply exp_mono. assert (0 <= mu * mu) by apply Rle_0_sqr. lra. }
  set (W := exp (mu * mu / 2)) in *. set (g := IZR G) in *. set (p2 := IZR (power al v 2)) in *.
  assert (X: p2 <= CR * (g * g) / 3).
  { assert (0 <= CR) by (apply IZR_le; apply Z.mul_nonneg_nonneg; lia). fold g in P2. clear - P2 H. nra. }
  assert (Y: (W - 1) / (g * g) * p2 <= (W - 1) / (g * g) * (CR * (g * g) / 3)).
  { apply Rmult_le_compat_l; [|exact X]. apply Rmult_le_pos; [lra|]. left. apply Rinv_0_lt_compat. apply Rmult_lt_0_compat; exact HG. }
  replace ((W - 1) / (g * g) * (CR * (g * g) / 3)) with (CR * ((W - 1) / 3)) in Y by (field; lra). lra.
Qed.

Lemma exp_words s : Forall (fun x => x = 0 \/ x = 1)%Z s ->
  rlsum (fun a => exp (lam * IZR (D s a))) (words al (length s)) <= CR ^ length s * KK ^ Z.to_nat (ones s).
Proof.
  intro Hs. induction Hs as [|b s Hb Hs IH].
  - cbn [length words rlsum fold_right wsum ones Z.to_nat pow]. rewrite Rmult_0_r, exp_0. lra.
  - cbn [length words ones]. rewrite rlsum_flat. set (Pv := rlsum _ (words al (length s))) in IH.
    assert (E: rlsum (fun x => rlsum (fun a => exp (lam * IZR (D (b :: s) a))) (map (cons x) (words al (length s)))) al =
      rlsum (fun x => Pv * exp (lam * IZR (b * v x))) al).
    { apply rlsum_ext. intros x _. rewrite rlsum_map. unfold Pv. rewrite Rmult_comm, <- rlsum_mul. apply rlsum_ext. intros a _. cbn [wsum].
      rewrite plus_IZR, Rmult_plus_distr_l, exp_plus. reflexivity. }
    rewrite E, rlsum_mul. assert (P0: 0 <= Pv).
    { unfold Pv. replace 0 with (rlsum (fun _ : list Z => 0) (words al (length s))) by (rewrite rlsum_const; ring).
      apply rlsum_le. intros a _. left. apply exp_pos. }
    assert (C0: 0 <= CR) by (apply IZR_le; apply Z.mul_nonneg_nonneg; lia).
    assert (K1: 1 <= KK).
    { enough (1 <= exp (mu * mu / 2)) by lra. rewrite <- exp_0. apply exp_mono. assert (0 <= mu * mu) by apply Rle_0_sqr. lra. }
    assert (O: forall s, Forall (fun x => x = 0 \/ x = 1)%Z s -> (0 <= ones s)%Z).
    { intros t Ht. induction Ht as [|c t Hc Ht IHt]; cbn [ones]; lia. }
    destruct Hb as [-> | ->].
    + rewrite (rlsum_ext _ (fun _ => 1)) by (intros; rewrite Z.mul_0_l, Rmult_0_r; apply exp_0). rewrite rlsum_const, al_len, Z.add_0_l.
      cbn [pow]. rewrite Rmult_1_r. replace (CR * CR ^ length s * KK ^ Z.to_nat (ones s)) with (CR ^ length s * KK ^ Z.to_nat (ones s) * CR) by ring.
      apply Rmult_le_compat_r; assumption.
    + rewrite (rlsum_ext _ (fun x => exp (lam * IZR (v x)))) by (intros; rewrite Z.mul_1_l; reflexivity).
      replace (Z.to_nat (1 + ones s)) with (S (Z.to_nat (ones s))) by (pose proof (O s Hs); lia). cbn [pow].
      replace (CR * CR ^ length s * (KK * KK ^ Z.to_nat (ones s))) with (CR ^ length s * KK ^ Z.to_nat (ones s) * (CR * KK)) by ring.
      apply Rmult_le_compat; [exact P0| |exact IH|exact exp_al].
      replace 0 with (rlsum (fun _ : Z => 0) al) by (rewrite rlsum_const; ring). apply rlsum_le. intros; left; apply exp_pos.
Qed.
End Tail.

Lemma pow_exp m : (65 / 64) ^ m <= exp (INR m / 64).
Proof.
  induction m as [|m IH]; [cbn [pow INR]; unfold Rdiv; rewrite Rmult_0_l, exp_0; lra|].
  rewrite S_INR. replace ((INR m + 1) / 64) with (1 / 64 + INR m / 64) by field. rewrite exp_plus. cbn [pow].
  apply Rmult_le_compat; [lra|apply pow_le; lra| |exact IH]. pose proof (exp_ge (1 / 64)). lra.
Qed.
Lemma IZR_pow x n : (0 <= n)%Z -> IZR (x ^ n) = IZR x ^ Z.to_nat n.
Proof. intro H. rewrite pow_IZR. rewrite Z2Nat.id by exact H. reflexivity. Qed.

Section Few.
Context (h q : Z) (Hh : (0 < h)%Z) (Hq : (0 <= q)%Z).
Notation G := (2 * h)%Z.
Notation al := (alphabet h q).
Notation v := (oddres h).
Context (a b m t num den : Z) (s : list Z) (Hs : Forall (fun x => x = 0 \/ x = 1)%Z s) (Ha : (0 < a)%Z) (Hb : (0 < b)%Z) (Hab : (a * a < 2 * (b * b))%Z)
  (Ht : (0 <= t)%Z) (Hm : (0 <= m)%Z) (Hmt : (m * (b * G) <= 64 * (a * t))%Z) (Hd : (0 <= den)%Z)
  (HN : (den * 2 * (6 * (b * b) - 2 * (a * a)) ^ ones s * 64 ^ m <= num * (6 * (b * b) - 3 * (a * a)) ^ ones s * 65 ^ m)%Z).
Lemma few_tail : (den * zlen (filter (large v t s) (words al (length s))) <= num * (q * G) ^ zlen s)%Z.
Proof.
  set (A := IZR a). set (B := IZR b). assert (PA: 0 < A) by (apply IZR_lt; exact Ha). assert (PB: 0 < B) by (apply IZR_lt; exact Hb).
  assert (PG: 0 < IZR G) by (apply IZR_lt; lia).
  assert (AB: A * A < 2 * (B * B)) by (unfold A, B; rewrite <- !mult_IZR; apply IZR_lt; exact Hab).
  set (lam := A / (B * IZR G)). assert (El: lam * IZR G = A / B) by (unfold lam; field; lra).
  assert (Pl: 0 < lam) by (unfold lam; apply Rdiv_lt_0_compat; [exact PA|apply Rmult_lt_0_compat; assumption]).
  set (Kn := (6 * (B * B) - 2 * (A * A))). set (Kd := (6 * (B * B) - 3 * (A * A))).
  assert (PBB: 0 < B * B) by (apply Rmult_lt_0_compat; exact PB).
  assert (PAA: 0 < A * A) by (apply Rmult_lt_0_compat; exact PA).
  assert (PKd: 0 < Kd) by (unfold Kd; lra). assert (PKn: 0 < Kn) by (unfold Kn; lra).
  assert (HK: 1 + (exp (A / B * (A / B) / 2) - 1) / 3 <= Kn / Kd).
  { assert (Z1: A / B * (A / B) / 2 < 1).
    { replace (A / B * (A / B) / 2) with (A * A / (2 * (B * B))) by (field; lra). apply (Rmult_lt_reg_r (2 * (B * B))); [lra|].
      unfold Rdiv. rewrite Rmult_assoc, Rinv_l by lra. lra. }
    pose proof (exp_le_inv _ Z1) as X. replace (/ (1 - A / B * (A / B) / 2)) with (2 * (B * B) / (2 * (B * B) - A * A)) in X by (field; split; lra).
    replace (Kn / Kd) with (1 + (2 * (B * B) / (2 * (B * B) - A * A) - 1) / 3) by (unfold Kn, Kd; field; lra). lra. }
  assert (K0: 0 <= 1 + (exp (A / B * (A / B) / 2) - 1) / 3) by (pose proof (exp_pos (A / B * (A / B) / 2)); lra).
  set (w := Z.to_nat (ones s)). set (CR := IZR (q * G)).
  assert (C0: 0 <= CR) by (apply IZR_le; apply Z.mul_nonneg_nonneg; lia).
  assert (S1: rlsum (fun x => exp (lam * IZR (wsum v s x))) (words al (length s)) <= CR ^ length s * (Kn / Kd) ^ w).
  { eapply Rle_trans; [apply (exp_words h q Hh Hq lam s Hs)|]. rewrite El. apply Rmult_le_compat_l; [apply pow_le; exact C0|apply pow_incr; split; assumption]. }
  assert (S2: rlsum (fun x => exp (- lam * IZR (wsum v s x))) (words al (length s)) <= CR ^ length s * (Kn / Kd) ^ w).
  { eapply Rle_trans; [apply (exp_words h q Hh Hq (- lam) s Hs)|]. replace (- lam * IZR G) with (- (A / B)) by (rewrite <- El; ring).
    replace (- (A / B) * - (A / B)) with (A / B * (A / B)) by ring.
    apply Rmult_le_compat_l; [apply pow_le; exact C0|apply pow_incr; split; assumption]. }
  set (F := filter (large v t s) (words al (length s))).
  assert (X: IZR (zlen F) * (65 / 64) ^ Z.to_nat m <= 2 * (CR ^ length s * (Kn / Kd) ^ w)).
  { eapply Rle_trans; [|assert (Y := Rplus_le_compat _ _ _ _ S1 S2); rewrite double; exact Y].
    rewrite <- rlsum_add. unfold F. rewrite <- (rlsum_filter (large v t s)). apply rlsum_le. intros x _. unfold large.
    pose proof (exp_pos (lam * IZR (wsum v s x))). pose proof (exp_pos (- lam * IZR (wsum v s x))).
    destruct (Z.ltb_spec (t * t) (wsum v s x * wsum v s x)) as [Hl|_]; [|lra].
    assert (Y: (65 / 64) ^ Z.to_nat m <= exp (lam * IZR t)).
    { eapply Rle_trans; [apply pow_exp|]. apply exp_mono. rewrite INR_IZR_INZ, Z2Nat.id by exact Hm.
      assert (Q: IZR m * (B * IZR G) <= 64 * (A * IZR t)).
      { unfold A, B. rewrite <- (mult_IZR b), <- (mult_IZR m), <- (mult_IZR a), <- (mult_IZR 64). apply IZR_le. exact Hmt. }
      unfold lam. apply (Rmult_le_reg_r (64 * (B * IZR G))); [apply Rmult_lt_0_compat; [lra|apply Rmult_lt_0_compat; assumption]|].
      replace (IZR m / 64 * (64 * (B * IZR G))) with (IZR m * (B * IZR G)) by field.
      replace (A / (B * IZR G) * IZR t * (64 * (B * IZR G))) with (64 * (A * IZR t)) by (field; lra). exact Q. }
    destruct (Z_le_dec t (wsum v s x)) as [C|C].
    - apply IZR_le in C. assert (exp (lam * IZR t) <= exp (lam * IZR (wsum v s x))); [|lra]. apply exp_mono. apply Rmult_le_compat_l; lra.
    - assert (C': (t <= - wsum v s x)%Z) by nia. apply IZR_le in C'. rewrite opp_IZR in C'.
      assert (exp (lam * IZR t) <= exp (- lam * IZR (wsum v s x))); [|lra]. apply exp_mono.
      replace (- lam * IZR (wsum v s x)) with (lam * - IZR (wsum v s x)) by ring. apply Rmult_le_compat_l; lra. }
  assert (Ow: (0 <= ones s)%Z).
  { clear - Hs. induction Hs as [|c u Hc Hu IHu]; cbn [ones]; lia. }
  apply le_IZR. rewrite !mult_IZR. apply IZR_le in HN. rewrite !mult_IZR in HN. rewrite !IZR_pow in HN by assumption.
  rewrite IZR_pow by (unfold zlen; lia). unfold zlen at 2. rewrite Nat2Z.id. fold w in HN.
  rewrite !minus_IZR in HN. rewrite (mult_IZR 6), (mult_IZR 2), (mult_IZR 3), (mult_IZR b b), (mult_IZR a a) in HN. fold A B in HN. fold Kn Kd in HN.
  change (IZR (zlen (filter (large v t s) (words al (length s))))) with (IZR (zlen F)).
  fold CR.
  unfold Rdiv in X. rewrite !Rpow_mult_distr in X. rewrite !pow_inv in X.
  set (p65 := 65 ^ Z.to_nat m) in *. set (p64 := 64 ^ Z.to_nat m) in *. set (kn := Kn ^ w) in *. set (kd := Kd ^ w) in *. set (cn := CR ^ length s) in *.
  assert (P65: 0 < p65) by (apply pow_lt; lra). assert (P64: 0 < p64) by (apply pow_lt; lra). assert (Pkd: 0 < kd) by (apply pow_lt; exact PKd).
  assert (Pcn: 0 <= cn) by (apply pow_le; exact (IZR_le 0 (q * G) ltac:(apply Z.mul_nonneg_nonneg; lia))).
  assert (D0: 0 <= IZR den) by (apply IZR_le; exact Hd).
  apply (Rmult_le_reg_r (p65 * kd)); [apply Rmult_lt_0_compat; assumption|].
  assert (X': IZR (zlen F) * p65 * kd <= 2 * cn * kn * p64).
  { apply (Rmult_le_compat_r (p64 * kd)) in X; [|apply Rlt_le, Rmult_lt_0_compat; assumption].
    replace (IZR (zlen F) * (p65 * / p64) * (p64 * kd)) with (IZR (zlen F) * p65 * kd) in X by (field; lra).
    replace (2 * (cn * (kn * / kd)) * (p64 * kd)) with (2 * cn * kn * p64) in X by (field; lra). exact X. }
  apply (Rmult_le_compat_l (IZR den)) in X'; [|exact D0]. apply (Rmult_le_compat_l cn) in HN; [|exact Pcn].
  change (IZR 2) with 2 in *. lra.
Qed.
End Few.

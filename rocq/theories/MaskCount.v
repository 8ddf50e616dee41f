(** * Counting words by moments *)
From Coq Require Import Lia List.
From Verif Require Import GoBase GoFacts Spec.
Import ListNotations.
Local Open Scope Z_scope.
Ltac Zify.zify_post_hook ::= idtac.

(** ** sums over lists *)
Definition lsum {A} (f : A -> Z) (l : list A) : Z := fold_right (fun x a => f x + a) 0 l.
Section Lsum.
Context {A : Type}.
Implicit Types (f g : A -> Z) (l : list A).
Lemma lsum_cons f x l : lsum f (x :: l) = f x + lsum f l.
Proof. reflexivity. Qed.
Lemma lsum_app f l l' : lsum f (l ++ l') = lsum f l + lsum f l'.
Proof. induction l as [|x l IH]; [reflexivity|]. cbn [app]. rewrite !lsum_cons, IH. ring. Qed.
Lemma lsum_ext f g l : (forall x, In x l -> f x = g x) -> lsum f l = lsum g l.
Proof.
  induction l as [|x l IH]; intro H; [reflexivity|]. rewrite !lsum_cons, (H x), IH; [reflexivity|intros; apply H; right; assumption|left; reflexivity].
Qed.
Lemma lsum_add f g l : lsum (fun x => f x + g x) l = lsum f l + lsum g l.
Proof. induction l as [|x l IH]; [reflexivity|]. rewrite !lsum_cons, IH. ring. Qed.
Lemma lsum_mul c f l : lsum (fun x => c * f x) l = c * lsum f l.
Proof. induction l as [|x l IH]; [cbn [lsum fold_right]; ring|]. rewrite !lsum_cons, IH. ring. Qed.
Lemma lsum_le f g l : (forall x, In x l -> f x <= g x) -> lsum f l <= lsum g l.
Proof.
  induction l as [|x l IH]; intro H; [apply Z.le_refl|]. rewrite !lsum_cons. apply Z.add_le_mono; [apply H; left; reflexivity|apply IH; intros; apply H; right; assumption].
Qed.
Lemma lsum_const c l : lsum (fun _ => c) l = zlen l * c.
Proof. induction l as [|x l IH]; [reflexivity|]. rewrite lsum_cons, IH. unfold zlen. cbn [length]. lia. Qed.
Lemma lsum_filter (p : A -> bool) c l : lsum (fun x => if p x then c else 0) l = c * zlen (filter p l).
Proof.
  induction l as [|x l IH]; [cbn; ring|]. rewrite lsum_cons, IH. cbn [filter]. destruct (p x); [|ring]. unfold zlen. cbn [length]. lia.
Qed.
End Lsum.
Lemma lsum_map {A B} (g : A -> B) f l : lsum f (map g l) = lsum (fun x => f (g x)) l.
Proof. induction l as [|x l IH]; [reflexivity|]. cbn [map]. rewrite !lsum_cons, IH. reflexivity. Qed.
Lemma lsum_flat {A B} (g : A -> list B) f l : lsum f (flat_map g l) = lsum (fun x => lsum f (g x)) l.
Proof. induction l as [|x l IH]; [reflexivity|]. cbn [flat_map]. rewrite lsum_app, lsum_cons, IH. reflexivity. Qed.
Lemma lsum_swap {A B} (h : A -> B -> Z) l l' : lsum (fun x => lsum (h x) l') l = lsum (fun y => lsum (fun x => h x y) l) l'.
Proof.
  induction l as [|x l IH].
  - cbn [lsum fold_right]. induction l' as [|y l' IH']; [reflexivity|]. rewrite lsum_cons. cbn [lsum fold_right]. rewrite <- IH'. reflexivity.
  - rewrite lsum_cons, IH, <- lsum_add. apply lsum_ext. intros y _. reflexivity.
Qed.
Lemma lsum_tab n f : lsum f (tab n (fun i => i)) = zsum n f.
Proof.
  unfold tab, zsum. generalize (Z.to_nat n) as q. clear n. intro q. induction q as [|q IH]; [reflexivity|].
  rewrite seq_S, map_app, lsum_app, IH. cbn [map lsum fold_right sumf]. rewrite Nat.add_0_l. ring.
Qed.

(** ** words over an alphabet *)
Section Words.
Context (al : list Z).
Fixpoint words (n : nat) : list (list Z) :=
  match n with 0%nat => [[]] | S n => flat_map (fun x => map (cons x) (words n)) al end.

Lemma words_in n a : In a (words n) <-> length a = n /\ Forall (fun x => In x al) a.
Proof.
  revert a. induction n as [|n IH]; intro a; cbn [words].
  - split.
    + intros [<-|[]]. split; [reflexivity|constructor].
    + intros [H _]. left. destruct a; [reflexivity|discriminate].
  - rewrite in_flat_map. split.
    + intros (x & Hx & H). apply in_map_iff in H. destruct H as (t & <- & Ht). apply IH in Ht as [Hl Hf]. split; [cbn [length]; rewrite Hl; reflexivity|constructor; assumption].
    + intros [Hl Hf]. destruct a as [|x t]; [discriminate|]. inversion Hf as [|? ? Hx Ht]; subst. exists x. split; [exact Hx|].
      apply in_map. apply IH. split; [cbn [length] in Hl; congruence|exact Ht].
Qed.

Lemma flat_cons_nodup l (ws : list (list Z)) : NoDup l -> NoDup ws -> NoDup (flat_map (fun x => map (cons x) ws) l).
Proof.
  intros Hl Hw. assert (Hm: forall x, NoDup (map (cons x) ws)).
  { intro x. clear Hl. induction Hw as [|t ts Ht Hts IH]; [constructor|]. cbn [map]. constructor; [|exact IH].
    intro X. apply in_map_iff in X. destruct X as (u & E & Hu). injection E as ->. contradiction. }
  induction Hl as [|x l Hx Hl IH]; [constructor|]. cbn [flat_map].
  assert (D: forall t, In t (map (cons x) ws) -> ~ In t (flat_map (fun y => map (cons y) ws) l)).
  { intros t Ht X. apply in_map_iff in Ht. destruct Ht as (u & <- & _). apply in_flat_map in X. destruct X as (y & Hy & X).
    apply in_map_iff in X. destruct X as (u' & E & _). injection E as -> _. contradiction. }
  revert D. generalize (Hm x). generalize (map (cons x) ws) as us. intros us Hus D. induction Hus as [|t us Ht Hus IHu]; [exact IH|].
  cbn [app]. constructor.
  - intro X. apply in_app_or in X. destruct X as [X|X]; [contradiction|]. apply (D t); [left; reflexivity|exact X].
  - apply IHu. intros t' H'. apply D. right. exact H'.
Qed.
Lemma words_nodup n : NoDup al -> NoDup (words n).
Proof.
  intro Ha. induction n as [|n IH]; cbn [words]; [constructor; [intros []|constructor]|]. apply flat_cons_nodup; assumption.
Qed.
Lemma lsum_words n f : lsum f (words (S n)) = lsum (fun x => lsum (fun a => f (x :: a)) (words n)) al.
Proof. cbn [words]. rewrite lsum_flat. apply lsum_ext. intros x _. apply lsum_map. Qed.
Lemma words_len n : zlen (words n) = zlen al ^ Z.of_nat n.
Proof.
  rewrite <- (Z.mul_1_r (zlen (words n))), <- lsum_const. induction n as [|n IH]; [reflexivity|].
  rewrite lsum_words. rewrite (lsum_ext _ (fun _ => zlen al ^ Z.of_nat n)) by (intros; exact IH). rewrite lsum_const.
  rewrite Nat2Z.inj_succ, Z.pow_succ_r by lia. reflexivity.
Qed.
Lemma lsum_prod {A} (f : Z -> Z) (g : A -> Z) l : lsum (fun x => lsum (fun a => f x * g a) l) al = lsum f al * lsum g l.
Proof.
  rewrite (lsum_ext _ (fun x => lsum g l * f x)) by (intros; rewrite lsum_mul; ring). rewrite lsum_mul. ring.
Qed.

(** ** moments of a weighted sum *)
Context (v : Z -> Z).
Fixpoint wsum (s a : list Z) : Z :=
  match s, a with
  | b :: s, x :: a => b * v x + wsum s a
  | _, _ => 0
  end.
Definition moment (p : Z) (s : list Z) : Z := lsum (fun a => wsum s a ^ p) (words (length s)).
Definition power (p : Z) : Z := lsum (fun x => v x ^ p) al.
Fixpoint ones (s : list Z) : Z := match s with [] => 0 | b :: s => b + ones s end.

Context (C q2 q4 q6 : Z) (H0 : power 0 = C) (H1 : power 1 = 0) (H2 : power 2 = C * q2) (H3 : power 3 = 0)
  (H4 : power 4 = C * q4) (H5 : power 5 = 0) (H6 : power 6 = C * q6).
Definition P2 (w : Z) : Z := w * q2.
Definition P4 (w : Z) : Z := w * q4 + 3 * (w * (w - 1)) * q2 ^ 2.
Definition P6 (w : Z) : Z := w * q6 + 15 * (w * (w - 1)) * (q4 * q2) + 15 * (w * (w - 1) * (w - 2)) * q2 ^ 3.

Lemma moment_0 p s : moment p (0 :: s) = C * moment p s.
Proof.
  unfold moment. cbn [length]. rewrite lsum_words. cbn [wsum].
  rewrite (lsum_ext _ (fun x => lsum (fun a => v x ^ 0 * wsum s a ^ p) (words (length s)))).
  - rewrite (lsum_prod (fun x => v x ^ 0) (fun a => wsum s a ^ p)). fold (power 0). rewrite H0. reflexivity.
  - intros x _. apply lsum_ext. intros a _. rewrite Z.mul_0_l, Z.add_0_l, Z.pow_0_r, Z.mul_1_l. reflexivity.
Qed.
Lemma moment_1 p s : moment p (1 :: s) = lsum (fun x => lsum (fun a => (v x + wsum s a) ^ p) (words (length s))) al.
Proof.
  unfold moment. cbn [length]. rewrite lsum_words. cbn [wsum].
  apply lsum_ext. intros x _. apply lsum_ext. intros a _. rewrite Z.mul_1_l. reflexivity.
Qed.
Notation term j k s := (fun x => lsum (fun a => v x ^ j * wsum s a ^ k) (words (length s))).
Lemma term_sum j k s : lsum (term j k s) al = power j * moment k s.
Proof. apply (lsum_prod (fun x => v x ^ j) (fun a => wsum s a ^ k)). Qed.
Lemma moment_12 s : moment 2 (1 :: s) = C * moment 2 s + C * q2 * moment 0 s.
Proof.
  rewrite moment_1. rewrite (lsum_ext _ (fun x => term 0 2 s x + 2 * term 1 1 s x + term 2 0 s x)).
  - rewrite !lsum_add, lsum_mul, !term_sum, H0, H1, H2. ring.
  - intros x _. rewrite <- lsum_mul, <- !lsum_add. apply lsum_ext. intros a _. ring.
Qed.
Lemma moment_14 s : moment 4 (1 :: s) = C * moment 4 s + 6 * (C * q2) * moment 2 s + C * q4 * moment 0 s.
Proof.
  rewrite moment_1. rewrite (lsum_ext _ (fun x => term 0 4 s x + 4 * term 1 3 s x + 6 * term 2 2 s x + 4 * term 3 1 s x + term 4 0 s x)).
  - rewrite !lsum_add, !lsum_mul, !term_sum, H0, H1, H2, H3, H4. ring.
  - intros x _. rewrite <- !lsum_mul, <- !lsum_add. apply lsum_ext. intros a _. ring.
Qed.
Lemma moment_16 s : moment 6 (1 :: s) = C * moment 6 s + 15 * (C * q2) * moment 4 s + 15 * (C * q4) * moment 2 s + C * q6 * moment 0 s.
Proof.
  rewrite moment_1. rewrite (lsum_ext _ (fun x => term 0 6 s x + 6 * term 1 5 s x + 15 * term 2 4 s x + 20 * term 3 3 s x
    + 15 * term 4 2 s x + 6 * term 5 1 s x + term 6 0 s x)).
  - rewrite !lsum_add, !lsum_mul, !term_sum, H0, H1, H2, H3, H4, H5, H6. ring.
  - intros x _. rewrite <- !lsum_mul, <- !lsum_add. apply lsum_ext. intros a _. ring.
Qed.

Lemma moments s : Forall (fun x => x = 0 \/ x = 1) s ->
  moment 0 s = C ^ zlen s /\ moment 2 s = C ^ zlen s * P2 (ones s) /\ moment 4 s = C ^ zlen s * P4 (ones s) /\
  moment 6 s = C ^ zlen s * P6 (ones s).
Proof.
  intro Hs. assert (M0: forall s, moment 0 s = C ^ zlen s).
  { intro t. unfold moment. rewrite (lsum_ext _ (fun _ => 1)) by (intros; apply Z.pow_0_r). rewrite lsum_const, words_len, Z.mul_1_r.
    rewrite <- H0. unfold power. rewrite (lsum_ext _ (fun _ => 1)) by (intros; apply Z.pow_0_r). rewrite lsum_const, Z.mul_1_r. reflexivity. }
  split; [apply M0|]. induction Hs as [|b s Hb Hs (I2 & I4 & I6)].
  - unfold moment, P2, P4, P6, zlen. cbn [length words wsum ones]. rewrite !lsum_cons. cbn [lsum fold_right]. repeat split; ring.
  - assert (L: C ^ zlen (b :: s) = C * C ^ zlen s).
    { unfold zlen. cbn [length]. rewrite Nat2Z.inj_succ, Z.pow_succ_r by lia. reflexivity. }
    rewrite L. cbn [ones]. destruct Hb as [-> | ->].
    + rewrite !moment_0, I2, I4, I6, Z.add_0_l. repeat split; ring.
    + rewrite moment_12, moment_14, moment_16, I2, I4, I6, M0. unfold P2, P4, P6. repeat split; ring.
Qed.

(** ** many words have a large sum *)
Definition large (t : Z) (s a : list Z) : bool := t * t <? wsum s a * wsum s a.
Lemma many_2 t B s : 0 <= t -> t * t <= B -> Forall (fun x => x = 0 \/ x = 1) s ->
  C ^ zlen s * (4 * ((B + t * t) * P2 (ones s) - P4 (ones s) - B * (t * t)))
  <= (B - t * t) ^ 2 * zlen (filter (large t s) (words (length s))).
Proof.
  intros Ht HB Hs. destruct (moments s Hs) as (M0 & M2 & M4 & _).
  rewrite <- lsum_filter.
  replace (C ^ zlen s * _) with (4 * ((B + t * t) * moment 2 s + (-1) * moment 4 s + (- (B * (t * t))) * moment 0 s)) by (rewrite M0, M2, M4; ring).
  unfold moment. rewrite <- !lsum_mul, <- !lsum_add, <- lsum_mul. apply lsum_le. intros a _. unfold large.
  set (d := wsum s a). replace (d ^ 2) with (d * d) by ring. replace (d ^ 4) with (d * d * (d * d)) by ring. rewrite Z.pow_0_r.
  set (y := d * d). set (u := t * t) in *. destruct (Z.ltb_spec u y).
  - assert (0 <= (2 * y - B - u) * (2 * y - B - u)) by apply Z.square_nonneg. nia.
  - nia.
Qed.
Lemma many_3 t B s : 0 <= t -> t * t <= B -> Forall (fun x => x = 0 \/ x = 1) s ->
  C ^ zlen s * (4 * ((B + t * t) * P4 (ones s) - P6 (ones s) - B * (t * t) * P2 (ones s)))
  <= B * (B - t * t) ^ 2 * zlen (filter (large t s) (words (length s))).
Proof.
  intros Ht HB Hs. destruct (moments s Hs) as (M0 & M2 & M4 & M6).
  rewrite <- lsum_filter.
  replace (C ^ zlen s * _) with (4 * ((B + t * t) * moment 4 s + (-1) * moment 6 s + (- (B * (t * t))) * moment 2 s)) by (rewrite M2, M4, M6; ring).
  unfold moment. rewrite <- !lsum_mul, <- !lsum_add, <- lsum_mul. apply lsum_le. intros a _. unfold large.
  set (d := wsum s a). replace (d ^ 2) with (d * d) by ring. replace (d ^ 4) with (d * d * (d * d)) by ring.
  replace (d ^ 6) with (d * d * (d * d) * (d * d)) by ring.
  set (y := d * d). assert (0 <= y) by apply Z.square_nonneg. clearbody y. set (u := t * t) in *. assert (0 <= u) by apply Z.square_nonneg. clearbody u.
  replace (4 * _) with (y * (4 * ((y - u) * (B - y)))) by ring. destruct (Z.ltb_spec u y).
  - assert (X: 4 * ((y - u) * (B - y)) <= (B - u) ^ 2).
    { assert (0 <= (2 * y - B - u) * (2 * y - B - u)) by apply Z.square_nonneg. nia. }
    destruct (Z_le_dec y B).
    + assert (0 <= (B - u) ^ 2) by (apply Z.pow_even_nonneg; exists 1; reflexivity). nia.
    + assert ((y - u) * (B - y) <= 0) by nia. assert (0 <= (B - u) ^ 2) by (apply Z.pow_even_nonneg; exists 1; reflexivity).
      assert (0 <= B * (B - u) ^ 2) by (apply Z.mul_nonneg_nonneg; lia). nia.
  - assert ((y - u) * (B - y) <= 0) by nia. nia.
Qed.
End Words.

(** ** rounding errors *)
Section Resid.
Context (h q : Z) (Hh : 0 < h) (Hq : 0 <= q).
Notation G := (2 * h).
Definition residue (x : Z) : Z := (x + h) / G * G - x.
Definition oddres (x : Z) : Z := 2 * residue x - 1.
Definition alphabet : list Z := tab (q * G) (fun i => i).

Lemma oddres_mod x : oddres x = G - 1 - 2 * ((x + h) mod G).
Proof. unfold oddres, residue. pose proof (Z.div_mod (x + h) G ltac:(lia)). lia. Qed.
Lemma residue_bound x : - h < residue x <= h.
Proof. pose proof (oddres_mod x). unfold oddres in *. pose proof (Z.mod_pos_bound (x + h) G ltac:(lia)). lia. Qed.

Lemma blocks f k : 0 <= k -> (forall y, f (y + G) = f y) -> zsum (k * G) f = k * zsum G f.
Proof.
  intros Hk Hf. revert k Hk. refine (zsum_ind _ _ _); [reflexivity|]. intros k Hk IH.
  replace ((k + 1) * G) with (k * G + G) by ring. rewrite zsum_split, IH by lia.
  rewrite (zsum_ext G (fun i => f (k * G + i)) f); [ring|]. intros i _.
  assert (X: forall j y, 0 <= j -> f (j * G + y) = f y).
  { clear - Hf. intros j y Hj. revert j Hj. refine (zsum_ind _ _ _); [f_equal; ring|]. intros j Hj IH.
    replace ((j + 1) * G + y) with (j * G + y + G) by ring. rewrite Hf. exact IH. }
  apply X. exact Hk.
Qed.
Lemma power_res p : power alphabet oddres p = q * zsum G (fun y => (G - 1 - 2 * y) ^ p).
Proof.
  unfold power, alphabet. rewrite lsum_tab.
  rewrite (zsum_ext _ _ (fun x => (fun y => (G - 1 - 2 * (y mod G)) ^ p) (x + h))) by (intros; rewrite oddres_mod; reflexivity).
  rewrite blocks; [|exact Hq|].
  - f_equal. rewrite (zsum_periodic G (fun y => (G - 1 - 2 * (y mod G)) ^ p) h); [|lia|].
    + apply zsum_ext. intros i Hi. rewrite Z.mod_small by lia. reflexivity.
    + intro k. rewrite <- (Z.mul_1_l G) at 2. rewrite Z.mod_add by lia. reflexivity.
  - intro y. replace (y + G + h) with (y + h + 1 * G) by ring. rewrite Z.mod_add by lia. reflexivity.
Qed.
Lemma antidiff (B : Z -> Z) c p k m : (forall u, B u - B (u - 2) = k * u ^ p) -> 0 <= m ->
  k * zsum m (fun y => (c - 2 * y) ^ p) = B c - B (c - 2 * m).
Proof.
  intros HB Hm. revert m Hm. refine (zsum_ind _ _ _).
  - rewrite zsum_0 by lia. replace (c - 2 * 0) with c by ring. ring.
  - intros m Hm IH. rewrite zsum_S, Z.mul_add_distr_l, IH by lia. rewrite <- HB. replace (c - 2 * (m + 1)) with (c - 2 * m - 2) by ring. ring.
Qed.
Lemma powers : power alphabet oddres 0 = q * G /\ power alphabet oddres 1 = 0 /\ 3 * power alphabet oddres 2 = q * G * (G ^ 2 - 1) /\
  power alphabet oddres 3 = 0 /\ 15 * power alphabet oddres 4 = q * G * (3 * G ^ 4 - 10 * G ^ 2 + 7) /\ power alphabet oddres 5 = 0 /\
  21 * power alphabet oddres 6 = q * G * (3 * G ^ 6 - 21 * G ^ 4 + 49 * G ^ 2 - 31).
Proof.
  rewrite !power_res.
  assert (E0: zsum G (fun y => (G - 1 - 2 * y) ^ 0) = G).
  { rewrite (zsum_ext _ _ (fun _ => 1)) by (intros; apply Z.pow_0_r). rewrite zsum_const by lia. ring. }
  assert (HG: 0 <= G) by lia.
  pose proof (antidiff (fun u => 2 * u + u ^ 2) (G - 1) 1 4 G ltac:(intro; ring) HG) as A1.
  pose proof (antidiff (fun u => 2 * u + 3 * u ^ 2 + u ^ 3) (G - 1) 2 6 G ltac:(intro; ring) HG) as A2.
  pose proof (antidiff (fun u => 4 * u ^ 2 + 4 * u ^ 3 + u ^ 4) (G - 1) 3 8 G ltac:(intro; ring) HG) as A3.
  pose proof (antidiff (fun u => -8 * u + 20 * u ^ 3 + 15 * u ^ 4 + 3 * u ^ 5) (G - 1) 4 30 G ltac:(intro; ring) HG) as A4.
  pose proof (antidiff (fun u => -8 * u ^ 2 + 10 * u ^ 4 + 6 * u ^ 5 + u ^ 6) (G - 1) 5 12 G ltac:(intro; ring) HG) as A5.
  pose proof (antidiff (fun u => 32 * u - 56 * u ^ 3 + 42 * u ^ 5 + 21 * u ^ 6 + 3 * u ^ 7) (G - 1) 6 42 G ltac:(intro; ring) HG) as A6.
  cbv beta in *.
  rewrite E0. split; [reflexivity|].
  set (S1 := zsum G _) in A1 at 1. fold S1. set (S2 := zsum G _) in A2 at 1. fold S2. set (S3 := zsum G _) in A3 at 1. fold S3.
  set (S4 := zsum G _) in A4 at 1. fold S4. set (S5 := zsum G _) in A5 at 1. fold S5. set (S6 := zsum G _) in A6 at 1. fold S6.
  clearbody S1 S2 S3 S4 S5 S6. clear E0.
  assert (X1: S1 = 0) by (apply (Z.mul_reg_l _ _ 4); [discriminate|]; rewrite A1; ring).
  assert (X2: 3 * S2 = G * (G ^ 2 - 1)) by (apply (Z.mul_reg_l _ _ 2); [discriminate|]; replace (2 * (3 * S2)) with (6 * S2) by ring; rewrite A2; ring).
  assert (X3: S3 = 0) by (apply (Z.mul_reg_l _ _ 8); [discriminate|]; rewrite A3; ring).
  assert (X4: 15 * S4 = G * (3 * G ^ 4 - 10 * G ^ 2 + 7)) by (apply (Z.mul_reg_l _ _ 2); [discriminate|]; replace (2 * (15 * S4)) with (30 * S4) by ring; rewrite A4; ring).
  assert (X5: S5 = 0) by (apply (Z.mul_reg_l _ _ 12); [discriminate|]; rewrite A5; ring).
  assert (X6: 21 * S6 = G * (3 * G ^ 6 - 21 * G ^ 4 + 49 * G ^ 2 - 31)) by (apply (Z.mul_reg_l _ _ 2); [discriminate|]; replace (2 * (21 * S6)) with (42 * S6) by ring; rewrite A6; ring).
  rewrite X1, X3, X5. split; [ring|]. split; [replace (3 * (q * S2)) with (q * (3 * S2)) by ring; rewrite X2; ring|]. split; [ring|].
  split; [replace (15 * (q * S4)) with (q * (15 * S4)) by ring; rewrite X4; ring|]. split; [ring|].
  replace (21 * (q * S6)) with (q * (21 * S6)) by ring. rewrite X6. ring.
Qed.
End Resid.

(** * Lemmas about words, slices and loops *)
From Coq Require Import Lia ZifyBool ZifyNat ZifyN Setoid Morphisms.
From Verif Require Import GoBase.
From Verif Require Export Spec.
Local Open Scope Z_scope.
Ltac Zify.zify_post_hook ::= Z.div_mod_to_equations.

Lemma zn_znd l i : zn l i = znd 0 l i. Proof. reflexivity. Qed.

(** ** monad *)
Lemma bind_ok {A B} (a : A) (f : A -> res B) : bind (Ok a) f = f a.
Proof. reflexivity. Qed.

Lemma bind_inv {A B} (r : res A) (f : A -> res B) b :
  bind r f = Ok b -> exists a, r = Ok a /\ f a = Ok b.
Proof. destruct r; simpl; intro H; [eauto | discriminate]. Qed.

(** ** slices *)
Lemma zlen_nonneg {A} (l : list A) : 0 <= zlen l.
Proof. unfold zlen; lia. Qed.

Lemma zlen_nil {A} : zlen (@nil A) = 0. Proof. reflexivity. Qed.
Lemma zlen_cons {A} (x : A) l : zlen (x :: l) = zlen l + 1.
Proof. unfold zlen; simpl length; lia. Qed.
Lemma zlen_app {A} (l1 l2 : list A) : zlen (l1 ++ l2) = zlen l1 + zlen l2.
Proof. unfold zlen; rewrite app_length; lia. Qed.
Lemma zlen_repeat {A} (x : A) n : zlen (repeat x n) = Z.of_nat n.
Proof. unfold zlen; rewrite repeat_length; lia. Qed.
Lemma zlen_map {A B} (f : A -> B) l : zlen (map f l) = zlen l.
Proof. unfold zlen; rewrite map_length; lia. Qed.

Lemma get_ok {A} (d : A) l i : 0 <= i < zlen l -> get l i = Ok (znd d l i).
Proof.
  unfold get, zlen, znd; intros H.
  destruct (Z.ltb_spec i 0); [lia|].
  rewrite (nth_error_nth' l d) by lia; reflexivity.
Qed.

Lemma get_zn l i : 0 <= i < zlen l -> get l i = Ok (zn l i).
Proof. intros; rewrite zn_znd; apply get_ok; assumption. Qed.

Lemma get_panic {A} (l : list A) i : i < 0 \/ zlen l <= i -> get l i = Panic PIndex.
Proof.
  unfold get, zlen; intros H.
  destruct (Z.ltb_spec i 0); [reflexivity|].
  destruct (nth_error l (Z.to_nat i)) eqn:E; [|reflexivity].
  assert (nth_error l (Z.to_nat i) <> None) by congruence.
  apply nth_error_Some in H1; lia.
Qed.

Lemma get_inv {A} (d : A) l i a : get l i = Ok a -> 0 <= i < zlen l /\ a = znd d l i.
Proof.
  intro H. destruct (Z_lt_dec i 0); [rewrite get_panic in H by lia; discriminate|].
  destruct (Z_le_dec (zlen l) i); [rewrite get_panic in H by lia; discriminate|].
  rewrite (get_ok d) in H by lia. split; [lia|congruence].
Qed.

Lemma upd_nat_length {A} (l : list A) i v : length (upd_nat l i v) = length l.
Proof. revert i; induction l as [|x l IH]; intros [|i]; simpl; auto. Qed.

Lemma zlen_upd {A} (l : list A) i v : zlen (upd l i v) = zlen l.
Proof. unfold zlen, upd; rewrite upd_nat_length; reflexivity. Qed.

Lemma nth_upd_nat {A} (d : A) l i j v :
  nth j (upd_nat l i v) d = if (Nat.eqb j i && Nat.ltb i (length l))%bool then v else nth j l d.
Proof.
  revert i j; induction l as [|x l IH]; intros [|i] [|j]; simpl; auto.
  - rewrite andb_false_r; reflexivity.
  - rewrite IH. reflexivity.
Qed.

Lemma znd_upd {A} (d : A) l i j v : 0 <= i < zlen l -> 0 <= j ->
  znd d (upd l i v) j = if j =? i then v else znd d l j.
Proof.
  unfold znd, upd, zlen; intros Hi Hj; rewrite nth_upd_nat.
  destruct (Z.eqb_spec j i).
  - subst. rewrite Nat.eqb_refl. destruct (Nat.ltb_spec (Z.to_nat i) (length l)); [reflexivity|lia].
  - destruct (Nat.eqb_spec (Z.to_nat j) (Z.to_nat i)); [lia|reflexivity].
Qed.

Lemma zn_upd l i j v : 0 <= i < zlen l -> 0 <= j ->
  zn (upd l i v) j = if j =? i then v else zn l j.
Proof. intros; rewrite !zn_znd; apply znd_upd; assumption. Qed.

Lemma set_ok {A} (l : list A) i v : 0 <= i < zlen l -> set l i v = Ok (upd l i v).
Proof.
  unfold set; intros H.
  destruct (Z.ltb_spec i 0); [lia|]. destruct (Z.leb_spec (zlen l) i); [lia|]. reflexivity.
Qed.

Lemma set_panic {A} (l : list A) i v : i < 0 \/ zlen l <= i -> set l i v = Panic PIndex.
Proof.
  unfold set; intros H.
  destruct (Z.ltb_spec i 0); [reflexivity|]. destruct (Z.leb_spec (zlen l) i); [reflexivity|lia].
Qed.

Lemma set_inv {A} (l : list A) i v l' : set l i v = Ok l' -> 0 <= i < zlen l /\ l' = upd l i v.
Proof.
  unfold set; destruct (Z.ltb_spec i 0); simpl; [discriminate|].
  destruct (Z.leb_spec (zlen l) i); simpl; [discriminate|]. intro E; split; [lia|congruence].
Qed.

Lemma make_ok {A} (z : A) n : 0 <= n -> make z n = Ok (repeat z (Z.to_nat n)).
Proof. unfold make; intro; destruct (Z.ltb_spec n 0); [lia|reflexivity]. Qed.

Lemma zn_repeat0 n i : zn (repeat 0 n) i = 0.
Proof.
  unfold zn. destruct (Nat.lt_ge_cases (Z.to_nat i) n).
  - apply nth_repeat.
  - apply nth_overflow; rewrite repeat_length; lia.
Qed.

Lemma znd_repeat {A} (d x : A) n i : 0 <= i < Z.of_nat n -> znd d (repeat x n) i = x.
Proof.
  intros. unfold znd. rewrite (nth_indep _ d x) by (rewrite repeat_length; lia).
  apply nth_repeat.
Qed.

Lemma znd_map {A B} (f : A -> B) d d' l i : 0 <= i < zlen l ->
  znd d' (map f l) i = f (znd d l i).
Proof.
  unfold znd, zlen; intros. rewrite (nth_indep _ d' (f d)) by (rewrite map_length; lia).
  apply map_nth.
Qed.

Lemma znd_app1 {A} (d : A) l1 l2 i : 0 <= i < zlen l1 -> znd d (l1 ++ l2) i = znd d l1 i.
Proof. unfold znd, zlen; intros; apply app_nth1; lia. Qed.
Lemma znd_app2 {A} (d : A) l1 l2 i : zlen l1 <= i -> znd d (l1 ++ l2) i = znd d l2 (i - zlen l1).
Proof.
  unfold znd, zlen; intros; rewrite app_nth2 by lia. f_equal; lia.
Qed.

Lemma znd_cons0 {A} (d x : A) l : znd d (x :: l) 0 = x. Proof. reflexivity. Qed.
Lemma znd_consS {A} (d x : A) l i : 0 < i -> znd d (x :: l) i = znd d l (i - 1).
Proof.
  intro. unfold znd. replace (Z.to_nat i) with (S (Z.to_nat (i - 1))) by lia. reflexivity.
Qed.

Lemma list_ext {A} (d : A) (l1 l2 : list A) :
  zlen l1 = zlen l2 -> (forall i, 0 <= i < zlen l1 -> znd d l1 i = znd d l2 i) -> l1 = l2.
Proof.
  unfold zlen, znd; intros Hl H. apply (nth_ext _ _ d d); [lia|].
  intros n Hn. specialize (H (Z.of_nat n)). rewrite Nat2Z.id in H. apply H; lia.
Qed.

Lemma list_ext_zn (l1 l2 : list Z) :
  zlen l1 = zlen l2 -> (forall i, 0 <= i < zlen l1 -> zn l1 i = zn l2 i) -> l1 = l2.
Proof. apply (list_ext 0). Qed.

Lemma zn_overflow l i : zlen l <= i -> zn l i = 0.
Proof. unfold zn, zlen; intro; apply nth_overflow; lia. Qed.

Lemma Forall_znd {A} (P : A -> Prop) d l : Forall P l <-> (forall i, 0 <= i < zlen l -> P (znd d l i)).
Proof.
  rewrite Forall_nth. unfold znd, zlen. split.
  - intros H i Hi. apply H; lia.
  - intros H i d' Hi. rewrite (nth_indep _ d' d) by lia.
    specialize (H (Z.of_nat i)). rewrite Nat2Z.id in H. apply H; lia.
Qed.

Lemma copy_slice_len {A} (dst src : list A) : zlen (copy_slice dst src) = zlen dst.
Proof. unfold copy_slice, zlen; rewrite app_length, firstn_length, skipn_length; lia. Qed.

Lemma copy_slice_same_len {A} (dst src : list A) : zlen dst = zlen src -> copy_slice dst src = src.
Proof.
  unfold copy_slice, zlen; intro H.
  rewrite firstn_all2 by lia. rewrite skipn_all2 by lia. apply app_nil_r.
Qed.

(** ** tabulation of a slice by a function on indices *)
Definition tab {A} (n : Z) (f : Z -> A) : list A := map (fun k => f (Z.of_nat k)) (seq 0 (Z.to_nat n)).

Lemma zlen_tab {A} n (f : Z -> A) : 0 <= n -> zlen (tab n f) = n.
Proof. unfold tab; intro; rewrite zlen_map; unfold zlen; rewrite seq_length; lia. Qed.

Lemma znd_tab {A} (d : A) n f i : 0 <= i < n -> znd d (tab n f) i = f i.
Proof.
  intros H. unfold tab.
  rewrite (znd_map _ 0%nat) by (unfold zlen; rewrite seq_length; lia).
  f_equal. unfold znd. rewrite seq_nth by lia. lia.
Qed.

Lemma zn_tab n f i : 0 <= i < n -> zn (tab n f) i = f i.
Proof. intros; rewrite zn_znd; apply znd_tab; assumption. Qed.

Lemma tab_ext {A} n (f g : Z -> A) : (forall i, 0 <= i < n -> f i = g i) -> tab n f = tab n g.
Proof.
  intro H. unfold tab. apply map_ext_in. intros k Hk. apply in_seq in Hk. apply H. lia.
Qed.

Lemma tab_znd {A} (d : A) l : tab (zlen l) (znd d l) = l.
Proof.
  apply (list_ext d); rewrite zlen_tab by apply zlen_nonneg; [reflexivity|].
  intros; apply znd_tab; assumption.
Qed.

Lemma tab_zn l : tab (zlen l) (zn l) = l.
Proof. apply (tab_znd 0). Qed.

Lemma eq_tab {A} (d : A) l n f : zlen l = n -> (forall i, 0 <= i < n -> znd d l i = f i) -> l = tab n f.
Proof.
  intros Hl H. pose proof (zlen_nonneg l). apply (list_ext d).
  - rewrite zlen_tab by lia; assumption.
  - intros i Hi. rewrite znd_tab by lia. apply H; lia.
Qed.

Lemma map_tab {A B} (g : A -> B) n f : map g (tab n f) = tab n (fun i => g (f i)).
Proof. unfold tab. rewrite map_map. reflexivity. Qed.

Lemma Forall_tab {A} (P : A -> Prop) n f : (forall i, 0 <= i < n -> P (f i)) -> Forall P (tab n f).
Proof.
  intro H. unfold tab. apply Forall_forall. intros x Hx. apply in_map_iff in Hx.
  destruct Hx as (k & <- & Hk). apply in_seq in Hk. apply H. lia.
Qed.

Lemma repeat_tab {A} (x : A) n : repeat x (Z.to_nat n) = tab n (fun _ => x).
Proof.
  destruct (Z_le_dec 0 n).
  - apply (eq_tab x); [rewrite zlen_repeat; lia|]. intros. apply znd_repeat. lia.
  - unfold tab. replace (Z.to_nat n) with O by lia. reflexivity.
Qed.

(** ** loops *)
Lemma loop_inv {S} (P : Z -> S -> Prop) (step : Z) body n i s :
  P i s ->
  (forall k s, (k < n)%nat -> P (i + Z.of_nat k * step) s ->
     exists s', body (i + Z.of_nat k * step) s = Ok s' /\ P (i + Z.of_nat k * step + step) s') ->
  exists s', loop n i step body s = Ok s' /\ P (i + Z.of_nat n * step) s'.
Proof.
  revert i s; induction n as [|n IH]; intros i s H0 Hs.
  - exists s. split; [reflexivity|]. replace (i + Z.of_nat 0 * step) with i by lia. assumption.
  - destruct (Hs O s) as (s1 & E1 & H1); [lia|replace (i + Z.of_nat 0 * step) with i by lia; assumption|].
    replace (i + Z.of_nat 0 * step) with i in * by lia.
    destruct (IH (i + step) s1) as (s' & E & H'); [assumption| |].
    + intros k t Hk Hp. specialize (Hs (Datatypes.S k) t).
      replace (i + Z.of_nat (Datatypes.S k) * step) with (i + step + Z.of_nat k * step) in Hs by lia.
      apply Hs; [lia|assumption].
    + exists s'. split; [simpl; rewrite E1; exact E|].
      replace (i + Z.of_nat (Datatypes.S n) * step) with (i + step + Z.of_nat n * step) by lia. assumption.
Qed.

Lemma for_range_inv {S} (P : Z -> S -> Prop) lo hi body s :
  lo <= hi -> P lo s ->
  (forall i s, lo <= i < hi -> P i s -> exists s', body i s = Ok s' /\ P (i + 1) s') ->
  exists s', for_range lo hi body s = Ok s' /\ P hi s'.
Proof.
  intros Hle H0 Hs. unfold for_range.
  destruct (loop_inv P 1 body (Z.to_nat (hi - lo)) lo s) as (s' & E & H'); [assumption| |].
  - intros k t Hk Hp. apply Hs; [lia|assumption].
  - exists s'. split; [assumption|]. replace (lo + Z.of_nat (Z.to_nat (hi - lo)) * 1) with hi in H' by lia.
    assumption.
Qed.

Lemma for_range_empty {S} lo hi body (s : S) : hi <= lo -> for_range lo hi body s = Ok s.
Proof. intro; unfold for_range. replace (Z.to_nat (hi - lo)) with O by lia. reflexivity. Qed.

Lemma for_range_S {S} lo hi body (s : S) : lo < hi ->
  for_range lo hi body s = bind (body lo s) (for_range (lo + 1) hi body).
Proof.
  intro H; unfold for_range. replace (Z.to_nat (hi - lo)) with (Datatypes.S (Z.to_nat (hi - (lo + 1)))) by lia.
  reflexivity.
Qed.

Lemma loop_app {S} n m i step body (s : S) :
  loop (n + m) i step body s = bind (loop n i step body s) (loop m (i + Z.of_nat n * step) step body).
Proof.
  revert i s; induction n as [|n IH]; intros i s.
  - simpl. f_equal. lia.
  - cbn [loop Nat.add]. destruct (body i s); cbn [bind]; [|reflexivity]. rewrite IH.
    replace (i + step + Z.of_nat n * step) with (i + Z.of_nat (Datatypes.S n) * step) by lia. reflexivity.
Qed.

Lemma for_range_split {S} lo mid hi body (s : S) : lo <= mid <= hi ->
  for_range lo hi body s = bind (for_range lo mid body s) (for_range mid hi body).
Proof.
  intros [H1 H2]. unfold for_range.
  replace (Z.to_nat (hi - lo)) with (Z.to_nat (mid - lo) + Z.to_nat (hi - mid))%nat by lia.
  rewrite loop_app. replace (lo + Z.of_nat (Z.to_nat (mid - lo)) * 1) with mid by lia. reflexivity.
Qed.

(** a loop whose body never panics and is given by a total function *)
Fixpoint iter_up {S} (n : nat) (i : Z) (f : Z -> S -> S) (s : S) : S :=
  match n with O => s | Datatypes.S k => iter_up k (i + 1) f (f i s) end.

(** first panic: the loop panics if some iteration does and the earlier succeed *)
Lemma for_range_panic {S} (P : Z -> S -> Prop) lo hi j body s e :
  lo <= j < hi -> P lo s ->
  (forall i s, lo <= i < j -> P i s -> exists s', body i s = Ok s' /\ P (i + 1) s') ->
  (forall s, P j s -> body j s = Panic e) ->
  for_range lo hi body s = Panic e.
Proof.
  intros Hj H0 Hs Hp.
  rewrite (for_range_split lo j hi) by lia.
  destruct (for_range_inv P lo j body s) as (s' & E & H'); [lia|assumption|assumption|].
  rewrite E. cbn [bind]. rewrite for_range_S by lia. rewrite Hp by assumption. reflexivity.
Qed.

Lemma loop_ext {S} n i step (b1 b2 : Z -> S -> res S) s :
  (forall i s, b1 i s = b2 i s) -> loop n i step b1 s = loop n i step b2 s.
Proof.
  intro H. revert i s; induction n as [|n IH]; intros i s; simpl; [reflexivity|].
  rewrite H. destruct (b2 i s); simpl; auto.
Qed.

Lemma for_range_ext {S} lo hi (b1 b2 : Z -> S -> res S) s :
  (forall i s, lo <= i < hi -> b1 i s = b2 i s) -> for_range lo hi b1 s = for_range lo hi b2 s.
Proof.
  intro H. unfold for_range.
  assert (G: forall n i s, lo <= i -> i + Z.of_nat n <= Z.max lo hi -> loop n i 1 b1 s = loop n i 1 b2 s).
  { induction n as [|n IH]; intros i t Hlo Hi; simpl; [reflexivity|].
    rewrite H by lia. destruct (b2 i t); simpl; [|reflexivity]. apply IH; lia. }
  apply G; lia.
Qed.

(** ** the common pattern: [for i in lo..hi { out[i] = f i }] *)
Lemma for_fill {A} (d : A) lo hi (f : Z -> res A) (g : Z -> A) out :
  0 <= lo <= hi -> hi <= zlen out ->
  (forall i, lo <= i < hi -> f i = Ok (g i)) ->
  for_range lo hi (fun i o => v <- f i ;; set o i v) out
  = Ok (tab (zlen out) (fun j => if (lo <=? j) && (j <? hi) then g j else znd d out j)).
Proof.
  intros Hlo Hhi Hf.
  destruct (for_range_inv
    (fun i o => zlen o = zlen out /\
       forall j, 0 <= j < zlen out -> znd d o j = if (lo <=? j) && (j <? i) then g j else znd d out j)
    lo hi (fun i o => v <- f i ;; set o i v) out) as (s' & E & Hl & Hn).
  - lia.
  - split; [reflexivity|]. intros j Hj.
    destruct (Z.leb_spec lo j), (Z.ltb_spec j lo); simpl; lia || reflexivity.
  - intros i o Hi [Hl Hn]. rewrite Hf by assumption. cbn [bind].
    rewrite set_ok by lia. eexists; split; [reflexivity|].
    split; [rewrite zlen_upd; assumption|].
    intros j Hj. rewrite znd_upd by lia. rewrite Hn by assumption.
    destruct (Z.eqb_spec j i), (Z.leb_spec lo j), (Z.ltb_spec j i), (Z.ltb_spec j (i+1)); simpl;
      subst; try lia; reflexivity.
  - rewrite E. f_equal. apply (eq_tab d); assumption.
Qed.

Lemma for_fill_all {A} (d : A) (f : Z -> res A) (g : Z -> A) out n :
  zlen out = n -> (forall i, 0 <= i < n -> f i = Ok (g i)) ->
  for_range 0 n (fun i o => v <- f i ;; set o i v) out = Ok (tab n g).
Proof.
  intros Hn Hf. pose proof (zlen_nonneg out).
  rewrite (for_fill d 0 n f g) by (lia || assumption).
  f_equal. rewrite Hn. apply tab_ext. intros i Hi.
  destruct (Z.leb_spec 0 i), (Z.ltb_spec i n); simpl; lia || reflexivity.
Qed.

(** ** words *)
Lemma w32_range z : 0 <= w32 z < two32.
Proof. unfold w32, two32; lia. Qed.
Lemma w32_small z : 0 <= z < two32 -> w32 z = z.
Proof. unfold w32; intro; apply Z.mod_small; assumption. Qed.
Lemma w32_idem z : w32 (w32 z) = w32 z.
Proof. apply w32_small, w32_range. Qed.

Lemma tok_w32 z : tok (w32 z). Proof. apply w32_range. Qed.

Lemma int32_range z : - two31 <= int32 z < two31.
Proof. unfold int32, two31, two32; lia. Qed.
Lemma int32_small z : - two31 <= z < two31 -> int32 z = z.
Proof. unfold int32, two31, two32; lia. Qed.

#[global] Instance eqm_equiv : Equivalence eqm.
Proof. split; unfold eqm; red; intros; congruence. Qed.
#[global] Instance eqm_add : Proper (eqm ==> eqm ==> eqm) Z.add.
Proof. intros a b H c d H'. unfold eqm in *. rewrite Zplus_mod, H, H', <- Zplus_mod. reflexivity. Qed.
#[global] Instance eqm_sub : Proper (eqm ==> eqm ==> eqm) Z.sub.
Proof. intros a b H c d H'. unfold eqm in *. rewrite Zminus_mod, H, H', <- Zminus_mod. reflexivity. Qed.
#[global] Instance eqm_mul : Proper (eqm ==> eqm ==> eqm) Z.mul.
Proof. intros a b H c d H'. unfold eqm in *. rewrite Zmult_mod, H, H', <- Zmult_mod. reflexivity. Qed.
#[global] Instance eqm_opp : Proper (eqm ==> eqm) Z.opp.
Proof. intros a b H. change (- a) with (0 - a). change (-b) with (0 - b). apply eqm_sub; [reflexivity|assumption]. Qed.
#[global] Instance w32_proper : Proper (eqm ==> eq) w32.
Proof. intros a b H; exact H. Qed.
#[global] Instance int32_proper : Proper (eqm ==> eq) int32.
Proof.
  intros a b H. unfold int32.
  assert (H1: (a + two31) == (b + two31)) by (apply eqm_add; [assumption|reflexivity]).
  unfold eqm in H1. rewrite H1. reflexivity.
Qed.

Lemma eqm_w32 z : w32 z == z.
Proof. unfold eqm, w32. rewrite Z.mod_mod by (unfold two32; lia). reflexivity. Qed.
Lemma eqm_int32 z : int32 z == z.
Proof.
  unfold int32. unfold eqm. rewrite Zminus_mod, Z.mod_mod, <- Zminus_mod by (unfold two32; lia).
  f_equal; lia.
Qed.
Lemma eqm_refl' a b : a = b -> a == b. Proof. intros ->; reflexivity. Qed.
Lemma eqm_iff a b : a == b <-> exists k, a = b + k * two32.
Proof.
  unfold eqm; split.
  - intro H. exists (a / two32 - b / two32). unfold two32 in *. lia.
  - intros (k & ->). apply Z_mod_plus_full.
Qed.
Lemma eqm_eq a b : a == b -> tok a -> tok b -> a = b.
Proof. unfold eqm, tok; intros H Ha Hb. rewrite !Z.mod_small in H by assumption. assumption. Qed.
Lemma w32_eqm a b : w32 a = w32 b <-> a == b.
Proof. reflexivity. Qed.
Lemma eqm_two32 : two32 == 0. Proof. reflexivity. Qed.
Lemma eqm_multiple k : k * two32 == 0.
Proof. apply eqm_iff. exists k; lia. Qed.
Lemma int32_eqm_unique z e : z == e -> - two31 <= e < two31 -> int32 z = e.
Proof. intros H He. rewrite (int32_proper _ _ H). apply int32_small; assumption. Qed.

Lemma tadd_eqm a b : tadd a b == a + b. Proof. apply eqm_w32. Qed.
Lemma tsub_eqm a b : tsub a b == a - b. Proof. apply eqm_w32. Qed.
Lemma tmul_eqm a b : tmul a b == a * b. Proof. apply eqm_w32. Qed.
Lemma tneg_eqm a : tneg a == - a. Proof. apply eqm_w32. Qed.
Lemma tnot_eqm a : tnot a == - a - 1.
Proof. unfold tnot. rewrite tsub_eqm. apply eqm_iff. exists 1. lia. Qed.
Lemma tnot_small a : tok a -> tnot a = two32 - 1 - a.
Proof. unfold tnot, tsub, tok; intro; apply w32_small; lia. Qed.
Lemma tnot_involutive a : tok a -> tnot (tnot a) = a.
Proof. intro H. rewrite (tnot_small a H). rewrite tnot_small by (unfold tok in *; lia). lia. Qed.
Lemma tok_tnot a : tok (tnot a). Proof. apply tok_w32. Qed.

(** ** closeness on the torus: equal up to an error of at most [B] *)
Lemma close_refl B a : 0 <= B -> close B a a.
Proof. exists 0; split; [lia|]. apply eqm_refl'; lia. Qed.
Lemma close_weaken B B' a b : close B a b -> B <= B' -> close B' a b.
Proof. intros (e & He & H) HB. exists e; split; [lia|assumption]. Qed.
Lemma close_sym B a b : close B a b -> close B b a.
Proof.
  intros (e & He & H). exists (- e); split; [lia|]. rewrite H. apply eqm_refl'; lia.
Qed.
Lemma close_trans B1 B2 a b c : close B1 a b -> close B2 b c -> close (B1 + B2) a c.
Proof.
  intros (e & He & H) (f & Hf & H'). exists (e + f); split; [lia|]. rewrite H, H'. apply eqm_refl'; lia.
Qed.
Lemma close_add B1 B2 a b c d : close B1 a b -> close B2 c d -> close (B1 + B2) (a + c) (b + d).
Proof.
  intros (e & He & H) (f & Hf & H'). exists (e + f); split; [lia|]. rewrite H, H'. apply eqm_refl'; lia.
Qed.
Lemma close_sub B1 B2 a b c d : close B1 a b -> close B2 c d -> close (B1 + B2) (a - c) (b - d).
Proof.
  intros (e & He & H) (f & Hf & H'). exists (e - f); split; [lia|]. rewrite H, H'. apply eqm_refl'; lia.
Qed.
Lemma close_opp B a b : close B a b -> close B (- a) (- b).
Proof.
  intros (e & He & H). exists (- e); split; [lia|]. rewrite H. apply eqm_refl'; lia.
Qed.
Lemma close_mul B k a b : close B a b -> close (Z.abs k * B) (k * a) (k * b).
Proof.
  intros (e & He & H). exists (k * e); split; [rewrite Z.abs_mul; nia|]. rewrite H. apply eqm_refl'; lia.
Qed.
#[global] Instance close_proper B : Proper (eqm ==> eqm ==> iff) (close B).
Proof.
  intros a a' Ha b b' Hb. unfold close. split; intros (e & He & H); exists e; split; auto.
  - rewrite <- Ha, <- Hb; assumption.
  - rewrite Ha, Hb; assumption.
Qed.

(** ** finite sums *)
Lemma zsum_0 f n : n <= 0 -> zsum n f = 0.
Proof. unfold zsum; intro; replace (Z.to_nat n) with O by lia; reflexivity. Qed.
Lemma zsum_S f n : 0 <= n -> zsum (n + 1) f = zsum n f + f n.
Proof.
  unfold zsum; intro; replace (Z.to_nat (n + 1)) with (S (Z.to_nat n)) by lia. simpl.
  f_equal; f_equal; lia.
Qed.
Lemma zsum_ind (P : Z -> Prop) : P 0 -> (forall n, 0 <= n -> P n -> P (n + 1)) -> forall n, 0 <= n -> P n.
Proof. intros H0 Hs n Hn. apply natlike_ind; auto. Qed.

Lemma zsum_ext n f g : (forall i, 0 <= i < n -> f i = g i) -> zsum n f = zsum n g.
Proof.
  unfold zsum. intro H.
  assert (G: forall k, Z.of_nat k <= Z.max 0 n -> sumf k f = sumf k g).
  { induction k as [|k IH]; intro Hk; simpl; [reflexivity|]. rewrite IH by lia. rewrite H by lia. reflexivity. }
  apply G; lia.
Qed.
Lemma zsum_eqm n f g : (forall i, 0 <= i < n -> f i == g i) -> zsum n f == zsum n g.
Proof.
  unfold zsum. intro H.
  assert (G: forall k, Z.of_nat k <= Z.max 0 n -> sumf k f == sumf k g).
  { induction k as [|k IH]; intro Hk; simpl; [reflexivity|]. rewrite IH by lia. rewrite H by lia. reflexivity. }
  apply G; lia.
Qed.
Lemma zsum_add n f g : zsum n (fun i => f i + g i) = zsum n f + zsum n g.
Proof. unfold zsum; induction (Z.to_nat n); simpl; lia. Qed.
Lemma zsum_sub n f g : zsum n (fun i => f i - g i) = zsum n f - zsum n g.
Proof. unfold zsum; induction (Z.to_nat n); simpl; lia. Qed.
Lemma zsum_opp n f : zsum n (fun i => - f i) = - zsum n f.
Proof. unfold zsum; induction (Z.to_nat n); simpl; lia. Qed.
Lemma zsum_mul_l n c f : zsum n (fun i => c * f i) = c * zsum n f.
Proof. unfold zsum; induction (Z.to_nat n); simpl; lia. Qed.
Lemma zsum_mul_r n c f : zsum n (fun i => f i * c) = zsum n f * c.
Proof. unfold zsum; induction (Z.to_nat n); simpl; lia. Qed.
Lemma zsum_zero n f : (forall i, 0 <= i < n -> f i = 0) -> zsum n f = 0.
Proof.
  intro H. rewrite (zsum_ext n f (fun _ => 0)) by assumption.
  unfold zsum; induction (Z.to_nat n); simpl; lia.
Qed.
Lemma zsum_const n c : 0 <= n -> zsum n (fun _ => c) = n * c.
Proof. intro H; revert n H; apply (zsum_ind (fun n => zsum n (fun _ => c) = n * c)).
  - reflexivity. - intros; rewrite zsum_S by assumption; lia. Qed.
Lemma zsum_swap n m f : zsum n (fun i => zsum m (fun j => f i j)) = zsum m (fun j => zsum n (fun i => f i j)).
Proof.
  unfold zsum. induction (Z.to_nat n) as [|k IH]; simpl.
  - induction (Z.to_nat m); simpl; lia.
  - rewrite IH. clear. induction (Z.to_nat m); simpl; lia.
Qed.
Lemma zsum_split n m f : 0 <= n -> 0 <= m -> zsum (n + m) f = zsum n f + zsum m (fun i => f (n + i)).
Proof.
  intros Hn. revert m. apply (zsum_ind (fun m => zsum (n + m) f = zsum n f + zsum m (fun i => f (n + i)))).
  - replace (n + 0) with n by lia. rewrite (zsum_0 _ 0) by lia. lia.
  - intros m Hm IH. rewrite Z.add_assoc, !zsum_S by lia. rewrite IH. lia.
Qed.
Lemma zsum_first n f : 0 <= n -> zsum (n + 1) f = f 0 + zsum n (fun i => f (1 + i)).
Proof.
  intro. replace (n + 1) with (1 + n) by lia. rewrite zsum_split by lia. unfold zsum at 1. simpl. lia.
Qed.
Lemma zsum_rev n f : 0 <= n -> zsum n f = zsum n (fun i => f (n - 1 - i)).
Proof.
  intro H; revert n H f.
  apply (zsum_ind (fun n => forall f, zsum n f = zsum n (fun i => f (n - 1 - i)))).
  - reflexivity.
  - intros n Hn IH f. rewrite zsum_S by assumption. rewrite zsum_first by assumption.
    rewrite IH. replace (n + 1 - 1 - 0) with n by lia. rewrite Z.add_comm. f_equal.
    apply zsum_ext. intros. f_equal. lia.
Qed.
(** a periodic function has the same sum over every window *)
Lemma zsum_periodic N f s : 0 < N -> (forall k, f (k + N) = f k) -> zsum N (fun i => f (i + s)) = zsum N f.
Proof.
  intros HN Hp.
  assert (step: forall s, zsum N (fun i => f (i + (s + 1))) = zsum N (fun i => f (i + s))).
  { intro t. replace N with (N - 1 + 1) at 1 2 by lia.
    rewrite zsum_S by lia. rewrite zsum_first by lia.
    replace (N - 1 + (t + 1)) with (0 + t + N) by lia. rewrite Hp. rewrite Z.add_comm. f_equal.
    apply zsum_ext; intros; f_equal; lia. }
  assert (base: zsum N (fun i => f (i + 0)) = zsum N f) by (apply zsum_ext; intros; f_equal; lia).
  destruct (Z_le_dec 0 s).
  - revert s l. apply (zsum_ind (fun s => zsum N (fun i => f (i + s)) = zsum N f)); [assumption|].
    intros; rewrite step; assumption.
  - replace s with (- (- s)) by lia. assert (Hs: 0 <= - s) by lia. revert Hs. generalize (- s). clear n s.
    apply (zsum_ind (fun s => zsum N (fun i => f (i + - s)) = zsum N f)); [assumption|].
    intros s Hs IH. rewrite <- IH. rewrite <- (step (- (s + 1))). apply zsum_ext; intros; f_equal; lia.
Qed.
Lemma zsum_le n f g : (forall i, 0 <= i < n -> f i <= g i) -> zsum n f <= zsum n g.
Proof.
  unfold zsum. intro H.
  assert (G: forall k, Z.of_nat k <= Z.max 0 n -> sumf k f <= sumf k g).
  { induction k as [|k IH]; intro Hk; simpl; [lia|]. specialize (IH ltac:(lia)). specialize (H (Z.of_nat k) ltac:(lia)). lia. }
  apply G; lia.
Qed.
Lemma zsum_nonneg n f : (forall i, 0 <= i < n -> 0 <= f i) -> 0 <= zsum n f.
Proof.
  intro H. rewrite <- (zsum_zero n (fun _ => 0)) by reflexivity. apply zsum_le; assumption.
Qed.
Lemma zsum_abs n f : Z.abs (zsum n f) <= zsum n (fun i => Z.abs (f i)).
Proof. unfold zsum; induction (Z.to_nat n); simpl; lia. Qed.
Lemma zsum_close n f g B : (forall i, 0 <= i < n -> close (B i) (f i) (g i)) ->
  close (zsum n B) (zsum n f) (zsum n g).
Proof.
  unfold zsum. intro H.
  assert (G: forall k, Z.of_nat k <= Z.max 0 n -> close (sumf k B) (sumf k f) (sumf k g)).
  { induction k as [|k IH]; intro Hk; simpl; [apply close_refl; lia|].
    apply close_add; [apply IH; lia|apply H; lia]. }
  apply G; lia.
Qed.
Lemma zsum_single n f j : 0 <= j < n -> (forall i, 0 <= i < n -> i <> j -> f i = 0) -> zsum n f = f j.
Proof.
  intros Hj Hz. replace n with (j + (1 + (n - j - 1))) by lia.
  rewrite zsum_split by lia. rewrite zsum_split by lia.
  rewrite (zsum_zero j) by (intros; apply Hz; lia).
  rewrite (zsum_zero (n - j - 1)) by (intros; apply Hz; lia).
  unfold zsum; simpl. replace (j + 0) with j by lia. lia.
Qed.

(** ** tactic: apply the invariant [P] to the first [for_range] of the goal,
    naming its final state's properties [E] (result) and [HP] *)
Ltac for_inv P E HP :=
  match goal with
  | |- context [@for_range ?S ?lo ?hi ?b ?s] =>
      let H := fresh "Hloop" in
      assert (H : exists s', @for_range S lo hi b s = Ok s' /\ P hi s');
      [ apply (for_range_inv P lo hi b s)
      | let s' := fresh "st" in destruct H as (s' & E & HP); rewrite E; cbn [bind] ]
  end.

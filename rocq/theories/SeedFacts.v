(** * Consequences of seeding with 31 bits *)
From Coq Require Import Lia ZifyBool List ListDec.
From Verif Require Import GoBase GoFacts F64 Utils Spec Params Key Tlwe TlweFacts BasicFacts ProxyReenc ReencSpec ReencProps Attack Seed.
Import ListNotations.
Local Open Scope Z_scope.
Ltac Zify.zify_post_hook ::= idtac.

Lemma int32max_pos : 0 < int32max.
Proof. unfold int32max. lia. Qed.

(** ** Finitely many outcomes *)
Lemma seeded_few {A} (f : Z -> A) : exists l, zlen l <= int32max /\ forall seed, In (f (seed mod int32max)) l.
Proof.
  pose proof int32max_pos as HM. exists (tab int32max f). split; [rewrite zlen_tab; lia|]. intro seed.
  unfold tab. apply in_map_iff. pose proof (Z.mod_pos_bound seed _ HM). exists (Z.to_nat (seed mod int32max)).
  rewrite Z2Nat.id by lia. split; [reflexivity|]. apply in_seq. lia.
Qed.

Lemma s_keys pr gen : 0 <= lv0_N pr -> 0 <= lv1_N pr ->
  exists l, zlen l <= int32max /\ forall seed, exists sk, NewSecretKeySeed pr gen seed = Ok sk /\ In sk l.
Proof.
  intros H0 H1.
  assert (G: forall b0 b1, exists sk, NewSecretKey pr b0 b1 = Ok sk).
  { intros b0 b1. destruct (NewSecretKey pr b0 b1) as [sk|p] eqn:E; [exists sk; reflexivity|exfalso].
    rewrite (NewSecretKey_ok pr b0 b1 H0 H1) in E. discriminate. }
  set (f := fun r => match (let '(b0, b1) := gen r in NewSecretKey pr b0 b1) with Ok sk => sk | Panic _ => {| KeyLv0 := []; KeyLv1 := [] |} end).
  destruct (seeded_few f) as (l & Hl & Hin). exists l. split; [exact Hl|]. intro seed. specialize (Hin seed). unfold f in Hin.
  unfold NewSecretKeySeed, seeded. destruct (gen (seed mod int32max)) as [b0 b1]. destruct (G b0 b1) as [sk E]. rewrite E in *.
  exists sk. split; [reflexivity|exact Hin].
Qed.

(** all binary vectors of length k *)
Fixpoint vectors (k : nat) : list (list Z) :=
  match k with O => [[]] | S k => map (cons 0) (vectors k) ++ map (cons 1) (vectors k) end.
Lemma vectors_len k : zlen (vectors k) = 2 ^ Z.of_nat k.
Proof.
  induction k as [|k IH]; [reflexivity|]. cbn [vectors]. unfold zlen in *. rewrite app_length, !map_length, Nat2Z.inj_add, IH.
  rewrite Nat2Z.inj_succ, Z.pow_succ_r by lia. ring.
Qed.
Lemma vectors_nodup k : NoDup (vectors k).
Proof.
  induction k as [|k IH]; cbn [vectors]; [repeat constructor; intros []|].
  assert (I: forall c, NoDup (map (cons c) (vectors k))).
  { intro c. apply FinFun.Injective_map_NoDup; [intros a b E; injection E as E; exact E|exact IH]. }
  assert (D: forall l1 l2 : list (list Z), NoDup l1 -> NoDup l2 -> (forall x, In x l1 -> ~ In x l2) -> NoDup (l1 ++ l2)).
  { induction l1 as [|x l1 IH1]; intros l2 N1 N2 H; [exact N2|]. cbn [app]. inversion N1; subst. constructor.
    - rewrite in_app_iff. intros [A|A]; [contradiction|]. apply (H x); [left; reflexivity|exact A].
    - apply IH1; [assumption|assumption|]. intros y Hy. apply H. right. exact Hy. }
  apply D; try apply I. intros x Hx Hy. apply in_map_iff in Hx, Hy. destruct Hx as (a & <- & _), Hy as (b & E & _). discriminate.
Qed.
Lemma vectors_bin k v : In v (vectors k) -> bin_key (Z.of_nat k) v.
Proof.
  revert v. induction k as [|k IH]; intros v H.
  - destruct H as [<-|[]]. split; [reflexivity|constructor].
  - cbn [vectors] in H. apply in_app_iff in H. destruct H as [H|H]; apply in_map_iff in H; destruct H as (a & <- & Ha);
      destruct (IH a Ha) as [HA HB]; (split; [rewrite zlen_cons; lia|constructor; [lia|exact HB]]).
Qed.

(** a longer list without repetitions has an element the shorter one lacks *)
Lemma missing {A} (dec : forall x y : A, {x = y} + {x <> y}) (big small : list A) : NoDup big -> zlen small < zlen big ->
  exists x, In x big /\ ~ In x small.
Proof.
  intros Hn Hlt. destruct (Exists_dec (fun x => ~ In x small) big) as [H|H].
  - intro x. destruct (in_dec dec x small); [right|left]; tauto.
  - apply Exists_exists in H. exact H.
  - exfalso. assert (I: incl big small).
    { intros x Hx. destruct (in_dec dec x small) as [|Hns]; [assumption|]. exfalso. apply H. apply Exists_exists. exists x. auto. }
    pose proof (NoDup_incl_length Hn I). unfold zlen in Hlt. lia.
Qed.

Lemma s_missing pr gen : 31 <= lv0_N pr -> 0 <= lv1_N pr ->
  exists k0, bin_key (lv0_N pr) k0 /\ forall seed sk, NewSecretKeySeed pr gen seed = Ok sk -> KeyLv0 sk <> k0.
Proof.
  intros H0 H1. destruct (s_keys pr gen ltac:(lia) H1) as (l & Hl & Hin).
  assert (P: int32max < 2 ^ lv0_N pr).
  { apply Z.lt_le_trans with (2 ^ 31); [unfold int32max; lia|apply Z.pow_le_mono_r; lia]. }
  destruct (missing (list_eq_dec Z.eq_dec) (vectors (Z.to_nat (lv0_N pr))) (map KeyLv0 l)) as (v & Hv & Hn).
  - apply vectors_nodup.
  - rewrite vectors_len, Z2Nat.id by lia. unfold zlen in *. rewrite map_length. lia.
  - exists v. split; [pose proof (vectors_bin _ _ Hv) as B; rewrite Z2Nat.id in B by lia; exact B|].
    intros seed sk E Ek. destruct (Hin seed) as (sk' & E' & I). apply Hn. rewrite <- Ek. apply in_map. congruence.
Qed.

(** ** Repetitions *)
Lemma zn_split (l1 l2 l3 : list Z) a : let l := l1 ++ a :: l2 ++ a :: l3 in
  zn l (zlen l1) = a /\ zn l (zlen l1 + 1 + zlen l2) = a /\ zlen l1 + 1 + zlen l2 < zlen l.
Proof.
  cbv zeta. unfold zn, zlen. split; [|split].
  - rewrite Nat2Z.id, app_nth2, Nat.sub_diag by lia. reflexivity.
  - replace (Z.to_nat (Z.of_nat (length l1) + 1 + Z.of_nat (length l2))) with (length l1 + S (length l2))%nat by lia.
    rewrite app_nth2 by lia. replace (length l1 + S (length l2) - length l1)%nat with (S (length l2)) by lia. cbn [nth].
    rewrite app_nth2, Nat.sub_diag by lia. reflexivity.
  - rewrite app_length. cbn [length]. rewrite app_length. cbn [length]. lia.
Qed.

Lemma twice (l : list Z) : ~ NoDup l -> exists a l1 l2 l3, l = l1 ++ a :: l2 ++ a :: l3.
Proof.
  induction l as [|x l IH]; intro H; [exfalso; apply H; constructor|].
  destruct (in_dec Z.eq_dec x l) as [I|I].
  - apply in_split in I. destruct I as (l2 & l3 & ->). exists x, [], l2, l3. reflexivity.
  - destruct IH as (a & l1 & l2 & l3 & ->); [intro N; apply H; constructor; assumption|]. exists a, (x :: l1), l2, l3. reflexivity.
Qed.

Lemma repeats (l : list Z) M : 0 <= M -> (forall x, In x l -> 0 <= x < M) -> M < zlen l ->
  exists i j, 0 <= i < j /\ j < zlen l /\ zn l i = zn l j.
Proof.
  intros HM Hr Hlt. destruct (NoDup_dec Z.eq_dec l) as [Hn|Hn].
  - exfalso. assert (I: incl l (map Z.of_nat (seq 0 (Z.to_nat M)))).
    { intros x Hx. apply in_map_iff. exists (Z.to_nat x). specialize (Hr x Hx). rewrite Z2Nat.id by lia. split; [reflexivity|]. apply in_seq. lia. }
    pose proof (NoDup_incl_length Hn I) as H. rewrite map_length, seq_length in H. unfold zlen in Hlt. lia.
  - destruct (twice l Hn) as (a & l1 & l2 & l3 & E). subst l. destruct (zn_split l1 l2 l3 a) as (E1 & E2 & E3).
    exists (zlen l1), (zlen l1 + 1 + zlen l2). pose proof (zlen_nonneg l1). pose proof (zlen_nonneg l2). split; [lia|]. split; [exact E3|]. congruence.
Qed.

Lemma s_repeat n gen key b seeds : int32max < zlen seeds ->
  exists i j, 0 <= i < j /\ j < zlen seeds /\ EncryptBoolSeed n b key gen (zn seeds i) = EncryptBoolSeed n b key gen (zn seeds j).
Proof.
  intro H. pose proof int32max_pos as HM. destruct (repeats (map (fun s => s mod int32max) seeds) int32max) as (i & j & Hij & Hj & E).
  - lia.
  - intros x Hx. apply in_map_iff in Hx. destruct Hx as (s & <- & _). apply Z.mod_pos_bound. exact HM.
  - unfold zlen in *. rewrite map_length. exact H.
  - assert (Hl: j < zlen seeds) by (unfold zlen in *; rewrite map_length in Hj; exact Hj).
    exists i, j. split; [exact Hij|]. split; [exact Hl|].
    assert (Z: forall k, 0 <= k < zlen seeds -> zn (map (fun s => s mod int32max) seeds) k = zn seeds k mod int32max).
    { intros k Hk. unfold zn. rewrite (nth_indep _ 0 (0 mod int32max)) by (rewrite map_length; unfold zlen in Hk; lia).
      apply (map_nth (fun s => s mod int32max)). }
    rewrite !Z in E by lia. unfold EncryptBoolSeed, seeded. rewrite E. reflexivity.
Qed.

Lemma s_same n gen key b1 b2 s1 s2 : 0 <= n -> zlen key = n -> s1 mod int32max = s2 mod int32max ->
  exists c1 c2, EncryptBoolSeed n b1 key gen s1 = Ok c1 /\ EncryptBoolSeed n b2 key gen s2 = Ok c2 /\
    (forall i, 0 <= i < n -> zn c1 i = zn c2 i) /\ (c1 = c2 <-> b1 = b2).
Proof.
  intros Hn Hk E. unfold EncryptBoolSeed, seeded. rewrite E. unfold NewTLWE. rewrite make_ok by lia. cbn [bind]. unfold EncryptBool.
  set (r := gen (s2 mod int32max)). set (z := repeat 0 (Z.to_nat (n + 1))).
  assert (Hz: zlen z = n + 1) by (unfold z; rewrite zlen_repeat; lia).
  destruct (EncryptF64_ok n z (if b1 then f_eighth else f_meighth) key r Hn ltac:(lia) ltac:(lia)) as (c1 & E1 & L1 & M1 & _ & B1).
  destruct (EncryptF64_ok n z (if b2 then f_eighth else f_meighth) key r Hn ltac:(lia) ltac:(lia)) as (c2 & E2 & L2 & M2 & _ & B2).
  exists c1, c2. split; [exact E1|]. split; [exact E2|]. split; [intros; rewrite M1, M2 by assumption; reflexivity|]. split; [|intros ->; congruence].
  intro EQ. rewrite EQ in B1. rewrite B1 in B2. set (S := zsum n _) in *. set (f := F64ToTorus (er_noise r)) in *.
  assert (X: S + (F64ToTorus (if b1 then f_eighth else f_meighth) + f) == S + (F64ToTorus (if b2 then f_eighth else f_meighth) + f)) by exact B2.
  assert (Y: F64ToTorus (if b1 then f_eighth else f_meighth) == F64ToTorus (if b2 then f_eighth else f_meighth)).
  { set (x := F64ToTorus (if b1 then f_eighth else f_meighth)) in *. set (y := F64ToTorus (if b2 then f_eighth else f_meighth)) in *.
    replace x with ((S + (x + f)) - (S + f)) by ring. rewrite X. apply eqm_refl'. ring. }
  destruct b1, b2; try reflexivity; vm_compute in Y; discriminate.
Qed.

(** ** Guessing a public key encryption *)
Lemma any_seed_true k f : any_seed k f = true <-> exists r, 0 <= r < Z.of_nat k /\ f r = true.
Proof.
  induction k as [|k IH].
  - split; [discriminate|]. intros (r & H & _). lia.
  - cbn [any_seed]. rewrite Bool.orb_true_iff, IH. split.
    + intros [H|(r & H & Hr)]; [exists (Z.of_nat k); split; [lia|exact H]|exists r; split; [lia|exact Hr]].
    + intros (r & H & Hr). destruct (Z.eq_dec r (Z.of_nat k)) as [->|]; [left; exact Hr|right; exists r; split; [lia|exact Hr]].
Qed.

Lemma same_vec_true a b : same_vec a b = true <-> a = b.
Proof.
  revert b. induction a as [|x a IH]; intros [|y b]; cbn [same_vec]; try (split; intro H; (reflexivity || discriminate)).
  rewrite Bool.andb_true_iff, Z.eqb_eq, IH. split; [intros [-> ->]; reflexivity|intro H; injection H as -> ->; auto].
Qed.

Lemma s_guess n sk size zeros pk gen b seed ct : 0 <= n -> zlen sk = n -> 0 <= size ->
  NewPublicKeyLv0WithParams n sk size zeros = Ok pk ->
  (forall r, Z.abs (pk_total size zeros (gen r)) < 2 ^ 29) ->
  PkEncryptBoolSeed n pk b gen seed = Ok ct ->
  guess_bit (PkEncryptBoolSeed n pk true gen) int32max ct = b.
Proof.
  intros Hn Hk Hs Hpk Hnoise Hct. pose proof int32max_pos as HM.
  assert (D: forall b r c, PkEncryptBoolSeed n pk b gen r = Ok c -> DecryptBool n c sk = Ok b).
  { intros b' r c Hc. destruct (q_public_small n sk size zeros b' (seeded gen r) Hn Hk Hs) as (pk' & c' & E1 & E2 & E3); [apply Hnoise|].
    assert (pk' = pk) by congruence. subst pk'. unfold PkEncryptBoolSeed in Hc. congruence. }
  unfold guess_bit. destruct b.
  - apply any_seed_true. exists (seed mod int32max). pose proof (Z.mod_pos_bound seed _ HM). split; [lia|].
    unfold PkEncryptBoolSeed, seeded in *. rewrite Z.mod_mod by lia. rewrite Hct. apply same_vec_true. reflexivity.
  - match goal with |- ?x = false => destruct x eqn:E end; [exfalso|reflexivity].
    apply any_seed_true in E. destruct E as (r & _ & E). destruct (PkEncryptBoolSeed n pk true gen r) as [c|] eqn:Ec; [|discriminate].
    apply same_vec_true in E. subst c. apply D in Ec. apply D in Hct. congruence.
Qed.

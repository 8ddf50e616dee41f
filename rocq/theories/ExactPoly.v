(** * Exact polynomial arithmetic as an instance of the Fourier operations

    The reference instance: a Fourier polynomial is the coefficient list
    itself and the product is the integer product modulo X^N + 1.  Used for
    computed examples and counterexamples, and to state what the upper layers
    compute when the transform makes no error. *)
From Coq Require Import Lia ZifyBool.
From Verif Require Import GoBase GoFacts GoMem MemFacts Poly PolyFacts NegFacts Laws.
Local Open Scope Z_scope.
Ltac Zify.zify_post_hook ::= Z.div_mod_to_equations.

Definition ex_len (l : list Z) (n : Z) : res unit := if zlen l =? n then Ok tt else Panic PUnsafe.

(** product modulo X^n + 1 on lists, by Horner's rule on the first factor *)
Definition ex_shift (b : list Z) : list Z :=
  match rev b with [] => [] | x :: t => - x :: rev t end.
Fixpoint ex_mul (a b : list Z) : list Z :=
  match a with
  | [] => map (fun _ => 0) b
  | x :: t => map (fun p => x * fst p + snd p) (combine b (ex_mul t (ex_shift b)))
  end.
Definition ex_add (a b : list Z) : list Z := map (fun p => fst p + snd p) (combine a b).

Definition exact : fops := {|
  FP := list Z;
  f_nil := [];
  f_new := fun n => check_degree n ;;; make 0 n;
  f_clear := fun x => Ok (map (fun _ => 0) x);
  f_of_poly := fun p o => ex_len p (zlen o) ;;; Ok (map int32 p);
  f_to_poly := fun x p => ex_len p (zlen x) ;;; Ok (x, map w32 x);
  f_mul := fun a b o => ex_len a (zlen o) ;;; ex_len b (zlen o) ;;; Ok (ex_mul a b);
  f_muladd := fun a b o => ex_len a (zlen o) ;;; ex_len b (zlen o) ;;; Ok (ex_add o (ex_mul a b))
|}.

(** coefficient function of a list of length N, of the shift and of the product *)
Lemma zlen_combine {A B} (a : list A) (b : list B) : zlen a = zlen b -> zlen (combine a b) = zlen a.
Proof. unfold zlen. rewrite combine_length. lia. Qed.

Lemma znd_combine {A B} (da : A) (db : B) a b i : zlen a = zlen b -> znd (da, db) (combine a b) i = (znd da a i, znd db b i).
Proof. unfold zlen, znd. intro H. apply combine_nth. lia. Qed.

Lemma zlen_rev {A} (l : list A) : zlen (rev l) = zlen l.
Proof. unfold zlen. rewrite rev_length. reflexivity. Qed.

Lemma ex_shift_len b : zlen (ex_shift b) = zlen b.
Proof.
  unfold ex_shift. destruct (rev b) as [|x t] eqn:E.
  - assert (b = rev []) by (rewrite <- E, rev_involutive; reflexivity). subst. reflexivity.
  - rewrite <- (zlen_rev b), E. rewrite !zlen_cons, zlen_rev. reflexivity.
Qed.

Lemma ex_shift_zn b N i : zlen b = N -> 0 <= i < N -> zn (ex_shift b) i = mono_mul N 1 (zn b) i.
Proof.
  intros Hb Hi. unfold ex_shift. destruct (rev b) as [|x t] eqn:E.
  - assert (b = rev []) by (rewrite <- E, rev_involutive; reflexivity). subst. cbn in Hi. lia.
  - assert (Eb: b = rev t ++ [x]) by (rewrite <- (rev_involutive b), E; reflexivity).
    assert (Ht: zlen t = N - 1).
    { rewrite <- Hb, <- (zlen_rev b), E, zlen_cons. lia. }
    rewrite mono_ext. destruct (Z.eq_dec i 0) as [->|Hne].
    + pose proof (ext_antiper N (zn b) (-1) ltac:(lia)) as H.
      rewrite (ext_small N (zn b) (-1 + N)) in H by lia.
      assert (Hx: zn b (-1 + N) = x).
      { rewrite Eb, zn_znd, znd_app2 by (rewrite zlen_rev; lia). rewrite zlen_rev, Ht.
        replace (-1 + N - (N - 1)) with 0 by lia. reflexivity. }
      change (0 - 1) with (-1). change (zn (- x :: rev t) 0) with (- x). lia.
    + rewrite ext_small by lia. rewrite !zn_znd, znd_consS by lia.
      rewrite Eb. rewrite (znd_app1 0 (rev t)) by (rewrite zlen_rev; lia). reflexivity.
Qed.

Lemma ex_mul_len a b : zlen (ex_mul a b) = zlen b.
Proof.
  revert b. induction a as [|x a IH]; intro b; cbn [ex_mul].
  - apply zlen_map.
  - rewrite zlen_map. apply zlen_combine. rewrite IH, ex_shift_len. reflexivity.
Qed.

Lemma map0_repeat {A} (l : list A) : map (fun _ => 0) l = repeat 0 (length l).
Proof. induction l; cbn; congruence. Qed.

Lemma zn_map0 {A} (l : list A) i : zn (map (fun _ => 0) l) i = 0.
Proof. rewrite map0_repeat. apply zn_repeat0. Qed.

(** general statement: partial first factor *)
Lemma ex_mul_zn N a b k : zlen b = N -> 0 <= k < N -> zlen a <= N ->
  zn (ex_mul a b) k = zsum (zlen a) (fun i => zn a i * mono_mul N i (zn b) k).
Proof.
  revert b. induction a as [|x a IH]; intros b Hb Hk Ha; cbn [ex_mul].
  - rewrite zn_map0. reflexivity.
  - rewrite zn_znd. rewrite (znd_map _ (0, 0)).
    2:{ rewrite zlen_combine by (rewrite ex_mul_len, ex_shift_len; reflexivity). lia. }
    rewrite znd_combine by (rewrite ex_mul_len, ex_shift_len; reflexivity). cbn [fst snd].
    rewrite zlen_cons in *. change (znd 0 (ex_mul a (ex_shift b)) k) with (zn (ex_mul a (ex_shift b)) k).
    rewrite IH by (rewrite ?ex_shift_len; lia).
    rewrite zsum_first by apply zlen_nonneg. rewrite mono_0 by assumption.
    f_equal. apply zsum_ext. intros i Hi.
    assert (E: zn (x :: a) (1 + i) = zn a i).
    { unfold zn. replace (Z.to_nat (1 + i)) with (S (Z.to_nat i)) by lia. reflexivity. }
    rewrite E. f_equal.
    replace (1 + i) with (i + 1) by lia. rewrite <- (mono_mono N i 1) by lia.
    unfold mono_mul at 1 3. rewrite (ex_shift_zn b N) by (try apply Z.mod_pos_bound; lia). reflexivity.
Qed.

Lemma ex_mul_neg N a b k : zlen a = N -> zlen b = N -> 0 <= k < N ->
  zn (ex_mul a b) k = negacyclic N (zn a) (zn b) k.
Proof.
  intros Ha Hb Hk. rewrite (ex_mul_zn N) by lia. rewrite neg_conv by assumption. unfold conv. rewrite Ha.
  apply zsum_ext. intros i Hi. rewrite ext_small by assumption. reflexivity.
Qed.

Lemma ex_add_zn a b k : zlen a = zlen b -> 0 <= k < zlen a -> zn (ex_add a b) k = zn a k + zn b k.
Proof.
  intros H Hk. unfold ex_add. rewrite zn_znd, (znd_map _ (0, 0)) by (rewrite zlen_combine by assumption; lia).
  rewrite znd_combine by assumption. reflexivity.
Qed.
Lemma ex_add_len a b : zlen a = zlen b -> zlen (ex_add a b) = zlen a.
Proof. intro H. unfold ex_add. rewrite zlen_map. apply zlen_combine. assumption. Qed.

Lemma ex_len_ok l n : zlen l = n -> ex_len l n = Ok tt.
Proof. intro H. unfold ex_len. rewrite H, Z.eqb_refl. reflexivity. Qed.

Definition exact_laws (N : Z) (HN : check_degree N = Ok tt) : flaws exact N.
Proof.
  assert (Hpos: 0 <= N).
  { unfold check_degree, isPowerOfTwo in HN. destruct (Z.ltb_spec 0 N); [lia|discriminate]. }
  refine {|
    fok := fun x : FP exact => zlen x = N;
    Fzero := (repeat 0 (Z.to_nat N) : FP exact);
    Fof := (map int32 : list Z -> FP exact);
    Fmul := (ex_mul : FP exact -> FP exact -> FP exact);
    Fma := (fun a b o => ex_add o (ex_mul a b)) : FP exact -> FP exact -> FP exact -> FP exact;
    Fto := (map w32 : FP exact -> list Z)
  |}; cbn [exact f_new f_clear f_of_poly f_mul f_muladd f_to_poly FP].
  - exact HN.
  - rewrite HN. cbn [bind]. apply make_ok. assumption.
  - rewrite zlen_repeat. lia.
  - intros x Hx. rewrite map0_repeat. repeat f_equal. unfold zlen in Hx. lia.
  - intros p o Hp Ho. rewrite ex_len_ok by congruence. reflexivity.
  - intros p Hp. rewrite zlen_map. assumption.
  - intros a b o Ha Hb Ho. rewrite !ex_len_ok by congruence. reflexivity.
  - intros a b Ha Hb. rewrite ex_mul_len. assumption.
  - intros a b o Ha Hb Ho. rewrite !ex_len_ok by congruence. reflexivity.
  - intros a b o Ha Hb Ho. rewrite ex_add_len; [assumption|]. rewrite ex_mul_len. congruence.
  - intros x p Hx Hp. rewrite ex_len_ok by congruence. exists x. split; [reflexivity|assumption].
  - intros x Hx. rewrite zlen_map. assumption.
  - intros x Hx. apply Forall_forall. intros y Hy. apply in_map_iff in Hy. destruct Hy as (z & <- & _). apply w32_range.
Defined.

Lemma zn_map_int32 p i : zn (map int32 p) i == zn p i.
Proof.
  destruct (Z_lt_dec i 0) as [Hi|Hi].
  - unfold zn. replace (Z.to_nat i) with O by lia. destruct p as [|x p]; [reflexivity|]. cbn. apply eqm_int32.
  - destruct (Z_lt_dec i (zlen p)).
    + rewrite zn_znd, (znd_map _ 0) by lia. apply eqm_int32.
    + rewrite !zn_overflow by (rewrite ?zlen_map; lia). reflexivity.
Qed.
Lemma zn_map_w32 p i : zn (map w32 p) i == zn p i.
Proof.
  destruct (Z_lt_dec i 0) as [Hi|Hi].
  - unfold zn. replace (Z.to_nat i) with O by lia. destruct p as [|x p]; [reflexivity|]. cbn. apply eqm_w32.
  - destruct (Z_lt_dec i (zlen p)).
    + rewrite zn_znd, (znd_map _ 0) by lia. apply eqm_w32.
    + rewrite !zn_overflow by (rewrite ?zlen_map; lia). reflexivity.
Qed.

Lemma exact_acc N HN K D : 0 <= K -> facc (exact_laws N HN) K D 0.
Proof.
  intros HK d r H k Hk. exists 0. split; [lia|]. rewrite Z.add_0_r.
  assert (G: forall j, 0 <= j -> j <= K -> zlen (Fsum (exact_laws N HN) j (fun i => map int32 (d i)) (fun i => map int32 (r i))) = N /\
     zn (Fsum (exact_laws N HN) j (fun i => map int32 (d i)) (fun i => map int32 (r i))) k ==
     zsum j (fun i => negacyclic N (zn (d i)) (zn (r i)) k)).
  { apply (zsum_ind (fun j => j <= K -> zlen (Fsum (exact_laws N HN) j (fun i => map int32 (d i)) (fun i => map int32 (r i))) = N /\
     zn (Fsum (exact_laws N HN) j (fun i => map int32 (d i)) (fun i => map int32 (r i))) k ==
     zsum j (fun i => negacyclic N (zn (d i)) (zn (r i)) k))).
    - intros _. unfold Fsum. cbn [Z.to_nat Fsum_nat exact_laws Fzero]. split; [rewrite zlen_repeat; lia|].
      rewrite zn_repeat0. reflexivity.
    - intros j Hj IH Hjk. destruct (IH ltac:(lia)) as [IL IZ]. unfold Fsum in *.
      replace (Z.to_nat (j + 1)) with (S (Z.to_nat j)) by lia. cbn [Fsum_nat].
      set (acc := Fsum_nat (exact_laws N HN) (Z.to_nat j) (fun i => map int32 (d i)) (fun i => map int32 (r i))) in *.
      cbn [exact_laws Fma]. replace (Z.of_nat (Z.to_nat j)) with j by lia.
      destruct (H j ltac:(lia)) as ([Hd _] & _ & [Hr _]).
      assert (L: zlen acc = zlen (ex_mul (map int32 (d j)) (map int32 (r j)))) by (rewrite ex_mul_len, zlen_map; congruence).
      split; [rewrite ex_add_len by exact L; exact IL|].
      rewrite ex_add_zn by (try exact L; rewrite IL; lia). rewrite zsum_S by assumption. rewrite IZ.
      rewrite (ex_mul_neg N) by (rewrite ?zlen_map; assumption).
      apply eqm_add; [reflexivity|]. apply neg_eqm_args; [assumption| |]; intros; apply zn_map_int32. }
  cbn [exact_laws Fto Fof]. rewrite zn_map_w32. apply G; lia.
Qed.

Lemma exact_acc_mul N HN D E : facc_mul (exact_laws N HN) D E 0.
Proof.
  intros a b [Ha _] [Hb _] _ _ k Hk. exists 0. split; [lia|]. rewrite Z.add_0_r. cbn [exact_laws Fto Fmul Fof].
  rewrite zn_map_w32. rewrite (ex_mul_neg N) by (rewrite ?zlen_map; assumption).
  apply neg_eqm_args; [assumption| |]; intros; apply zn_map_int32.
Qed.

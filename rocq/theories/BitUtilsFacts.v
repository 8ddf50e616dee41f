(** * Facts about package bitutils *)
From Coq Require Import Lia ZifyBool ZifyNat.
From Verif Require Import GoBase GoFacts F64 Tlwe TlweFacts Utils BitUtils.
Local Open Scope Z_scope.
Ltac Zify.zify_post_hook ::= Z.div_mod_to_equations.

Lemma le_value_nonneg bits : 0 <= le_value bits.
Proof. induction bits as [|[] t IH]; cbn [le_value Z.b2z]; lia. Qed.

Lemma skipn_znd {A} (d : A) l i : 0 <= i < zlen l ->
  skipn (Z.to_nat i) l = znd d l i :: skipn (Z.to_nat (i + 1)) l.
Proof.
  unfold znd, zlen. intro H. replace (Z.to_nat (i + 1)) with (S (Z.to_nat i)) by lia.
  assert (Hn: (Z.to_nat i < length l)%nat) by lia. clear H. revert Hn. generalize (Z.to_nat i) as n.
  induction l as [|x l IH]; intros n Hn; simpl in Hn; [lia|].
  destruct n; [reflexivity|]. simpl. rewrite IH by lia. reflexivity.
Qed.

Lemma ConvertU_ok w bits : 1 <= w -> ConvertU w bits = Ok (le_value bits mod 2 ^ w).
Proof.
  intro Hw. unfold ConvertU, for_down.
  replace (zlen bits - 0) with (zlen bits) by lia.
  pose proof (zlen_nonneg bits) as Hl.
  pose proof (Z.pow_pos_nonneg 2 (w - 1) ltac:(lia) ltac:(lia)) as Hp.
  assert (H2: 2 ^ w = 2 * 2 ^ (w - 1)) by (rewrite <- Z.pow_succ_r by lia; f_equal; lia).
  match goal with |- loop ?n0 ?i0 ?st0 ?b0 ?s0 = _ =>
    destruct (loop_inv (fun i s => s = le_value (skipn (Z.to_nat (i + 1)) bits) mod 2 ^ w) st0 b0 n0 i0 s0)
      as (s' & E & Hs) end.
  - replace (zlen bits - 1 + 1) with (zlen bits) by lia.
    rewrite skipn_all2 by (unfold zlen; lia). reflexivity.
  - intros k s Hk Hs. unfold zlen in *.
    set (i := Z.of_nat (length bits) - 1 + Z.of_nat k * -1) in *.
    rewrite (get_ok false) by (unfold zlen; lia). cbn [bind]. eexists; split; [reflexivity|].
    replace (i + -1 + 1) with i by lia. rewrite (skipn_znd false) by (unfold zlen; lia).
    cbn [le_value]. rewrite Hs. set (v := le_value _). unfold wN. rewrite Z.shiftl_mul_pow2 by lia.
    change (2 ^ 1) with 2. rewrite (Z.mul_comm (v mod 2 ^ w)). rewrite Zmult_mod_idemp_r.
    rewrite H2. rewrite Zmult_mod_distr_l.
    destruct (znd false bits i); cbn [Z.b2z].
    + rewrite <- (Z.add_comm (2 * v)).
      assert (El: Z.lor (2 * (v mod 2 ^ (w - 1))) 1 = 2 * (v mod 2 ^ (w - 1)) + 1).
      { generalize (v mod 2 ^ (w - 1)). intro x. destruct x as [|p|p]; reflexivity || (destruct p; reflexivity). }
      rewrite El. rewrite Z.rem_mul_r by lia.
      replace ((2 * v + 1) mod 2) with 1 by lia. replace ((2 * v + 1) / 2) with v by lia. lia.
    + change (0 + 2 * v) with (2 * v). rewrite Zmult_mod_distr_l. reflexivity.
  - rewrite E, Hs. unfold zlen in *. replace (Z.to_nat _) with O by lia. reflexivity.
Qed.

Lemma land1_testbit v i : 0 <= i -> negb (Z.land (Z.shiftr v i) 1 =? 0) = Z.testbit v i.
Proof.
  intro H. change 1 with (Z.ones 1). rewrite Z.land_ones by lia. change (2 ^ 1) with 2.
  rewrite Z.testbit_odd. rewrite Zmod_odd. destruct (Z.odd (Z.shiftr v i)); reflexivity.
Qed.

Lemma ToBits_ok v size : 0 <= size -> ToBits v size = Ok (tab size (fun i => Z.testbit v i)).
Proof.
  intro H. unfold ToBits. rewrite make_ok by assumption. cbn [bind].
  rewrite (for_fill_all false (fun i => Ok (negb (Z.land (Z.shiftr v i) 1 =? 0))) (fun i => Z.testbit v i)).
  - reflexivity.
  - rewrite zlen_repeat; lia.
  - intros i Hi. rewrite land1_testbit by lia. reflexivity.
Qed.

Lemma ToBits_negative v size : size < 0 -> ToBits v size = Panic PMake.
Proof. intro H. unfold ToBits, make. destruct (Z.ltb_spec size 0); [reflexivity|lia]. Qed.

Lemma tab_S {A} n (f : Z -> A) : 0 <= n -> tab (n + 1) f = f 0 :: tab n (fun i => f (i + 1)).
Proof.
  intro H. unfold tab. replace (Z.to_nat (n + 1)) with (S (Z.to_nat n)) by lia. cbn [seq map].
  f_equal. rewrite <- seq_shift, map_map. apply map_ext. intro k. f_equal. lia.
Qed.

Lemma le_value_testbits w : 0 <= w -> forall v, le_value (tab w (fun i => Z.testbit v i)) = v mod 2 ^ w.
Proof.
  intro H. revert w H. apply (zsum_ind (fun w => forall v, le_value (tab w (fun i => Z.testbit v i)) = v mod 2 ^ w)).
  - intro v. simpl. change (2 ^ 0) with 1. rewrite Z.mod_1_r. reflexivity.
  - intros w Hw IH v. rewrite tab_S by assumption. cbn [le_value].
    rewrite (tab_ext w _ (fun i => Z.testbit (v / 2) i)).
    + rewrite IH. rewrite Z.bit0_mod. rewrite Z.pow_add_r by lia. change (2 ^ 1) with 2.
      rewrite (Z.mul_comm (2 ^ w)). rewrite Z.rem_mul_r by lia. reflexivity.
    + intros i Hi. rewrite <- Z.div2_div, Z.div2_spec, Z.shiftr_spec by lia. reflexivity.
Qed.

Lemma testbits_le_value bits w : zlen bits = w -> tab w (fun i => Z.testbit (le_value bits) i) = bits.
Proof.
  revert w; induction bits as [|b t IH]; intros w Hw; rewrite <- Hw.
  - reflexivity.
  - rewrite zlen_cons. rewrite tab_S by apply zlen_nonneg. f_equal.
    + cbn [le_value]. rewrite Z.bit0_odd. rewrite Z.odd_add_mul_2. destruct b; reflexivity.
    + rewrite <- (IH (zlen t) eq_refl) at 2. apply tab_ext. intros i Hi. cbn [le_value].
      rewrite (Z.add_comm (Z.b2z b)). change (i + 1) with (Z.succ i). rewrite Z.testbit_succ_r by lia.
      reflexivity.
Qed.

Lemma le_value_bound bits : le_value bits < 2 ^ zlen bits.
Proof.
  induction bits as [|b t IH].
  - reflexivity.
  - rewrite zlen_cons. rewrite Z.pow_add_r by (pose proof (zlen_nonneg t); lia).
    cbn [le_value]. change (2 ^ 1) with 2. destruct b; cbn [Z.b2z]; lia.
Qed.

Lemma bits_value_roundtrip w v : 1 <= w -> 0 <= v < 2 ^ w ->
  (bits <- ToBits v w ;; ConvertU w bits) = Ok v.
Proof.
  intros Hw Hv. rewrite ToBits_ok by lia. cbn [bind]. rewrite ConvertU_ok by assumption.
  rewrite le_value_testbits by lia. rewrite !Z.mod_small by (rewrite ?Z.mod_small by lia; lia). reflexivity.
Qed.

Lemma value_bits_roundtrip w bits : 1 <= w -> zlen bits = w ->
  (v <- ConvertU w bits ;; ToBits v w) = Ok bits.
Proof.
  intros Hw Hl. rewrite ConvertU_ok by assumption. cbn [bind]. rewrite ToBits_ok by lia. f_equal.
  pose proof (le_value_bound bits). pose proof (le_value_nonneg bits).
  rewrite Z.mod_small by (rewrite <- Hl; lia). apply testbits_le_value. assumption.
Qed.

(** ** bit vectors of ciphertexts *)
Lemma for_each_fill {A B} (d : A) (e : B) (l : list A) (f : Z -> A -> res B) (g : Z -> B) out :
  zlen out = zlen l ->
  (forall i, 0 <= i < zlen l -> f i (znd d l i) = Ok (g i)) ->
  for_each l (fun i x o => v <- f i x ;; set o i v) out = Ok (tab (zlen l) g).
Proof.
  intros Hl Hf. unfold for_each.
  assert (G: forall t k o, zlen o = zlen l -> k + zlen t = zlen l -> 0 <= k ->
     (forall i, 0 <= i < zlen t -> znd d t i = znd d l (k + i)) ->
     (forall j, 0 <= j < k -> znd e o j = g j) ->
     for_each_nat k t (fun i x o => v <- f i x ;; set o i v) o = Ok (tab (zlen l) g)).
  { induction t as [|x t IH]; intros k o Ho Hk Hk0 Ht Hj.
    - simpl. f_equal. rewrite zlen_nil in Hk. apply (eq_tab e); [assumption|].
      intros; apply Hj; lia.
    - cbn [for_each_nat]. rewrite zlen_cons in Hk. pose proof (zlen_nonneg t).
      assert (Hx: x = znd d l k).
      { specialize (Ht 0). rewrite znd_cons0, Z.add_0_r in Ht. apply Ht. rewrite zlen_cons; lia. }
      rewrite Hx, Hf by lia. cbn [bind]. rewrite set_ok by lia. cbn [bind]. apply IH.
      + rewrite zlen_upd; assumption.
      + lia.
      + lia.
      + intros i Hi. specialize (Ht (i + 1)). rewrite znd_consS in Ht by lia.
        replace (i + 1 - 1) with i in Ht by lia. rewrite Ht by (rewrite zlen_cons; lia). f_equal; lia.
      + intros j Hj'. rewrite znd_upd by lia. destruct (Z.eqb_spec j k); [subst; reflexivity|]. apply Hj; lia. }
  apply G; try lia. intros; f_equal; lia.
Qed.

Lemma api_roundtrip :
  (forall v, 0 <= v < 2 ^ 8 -> (bits <- U8ToBits v ;; ConvertU8 bits) = Ok v) /\
  (forall v, 0 <= v < 2 ^ 16 -> (bits <- U16ToBits v ;; ConvertU16 bits) = Ok v) /\
  (forall v, 0 <= v < 2 ^ 32 -> (bits <- U32ToBits v ;; ConvertU32 bits) = Ok v) /\
  (forall v, 0 <= v < 2 ^ 64 -> (bits <- U64ToBits v ;; ConvertU64 bits) = Ok v) /\
  (forall bits, zlen bits = 8 -> (v <- ConvertU8 bits ;; U8ToBits v) = Ok bits) /\
  (forall bits, zlen bits = 16 -> (v <- ConvertU16 bits ;; U16ToBits v) = Ok bits) /\
  (forall bits, zlen bits = 32 -> (v <- ConvertU32 bits ;; U32ToBits v) = Ok bits) /\
  (forall bits, zlen bits = 64 -> (v <- ConvertU64 bits ;; U64ToBits v) = Ok bits).
Proof.
  repeat apply conj; intros x Hx.
  - exact (bits_value_roundtrip 8 x ltac:(lia) Hx).
  - exact (bits_value_roundtrip 16 x ltac:(lia) Hx).
  - exact (bits_value_roundtrip 32 x ltac:(lia) Hx).
  - exact (bits_value_roundtrip 64 x ltac:(lia) Hx).
  - exact (value_bits_roundtrip 8 x ltac:(lia) Hx).
  - exact (value_bits_roundtrip 16 x ltac:(lia) Hx).
  - exact (value_bits_roundtrip 32 x ltac:(lia) Hx).
  - exact (value_bits_roundtrip 64 x ltac:(lia) Hx).
Qed.

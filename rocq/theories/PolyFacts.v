(** * Facts about package poly: rotation by a monomial, decomposition *)
From Coq Require Import Lia ZifyBool Setoid Morphisms.
From Verif Require Import GoBase GoFacts GoMem MemFacts TlweFacts Poly.
Local Open Scope Z_scope.
Ltac Zify.zify_post_hook ::= Z.div_mod_to_equations.

(** a block of [k] consecutive locations *)
Definition blk (b k : Z) : Z -> Prop := fun l => b <= l < b + k.

Section Fill.
Context {F : Type}.
Implicit Types m : mem F.

Lemma mem_fill_shift m out lo hi s (f : Z -> mem F -> res Z) (g : Z -> Z) :
  lo <= hi -> 0 <= lo + s -> hi + s <= zlen (tm m out) ->
  (forall i m', lo <= i < hi -> framed (eq out) none none m m' -> f i m' = Ok (g i)) ->
  exists m', for_range lo hi (fun i m => v <- f i m ;; store m out (i + s) v) m = Ok m' /\
    tm m' out = tab (zlen (tm m out)) (fun j => if (lo + s <=? j) && (j <? hi + s) then g (j - s) else zn (tm m out) j) /\
    framed (eq out) none none m m'.
Proof.
  intros Hlo Hs Hhi Hf.
  destruct (for_range_inv (fun i m' => framed (eq out) none none m m' /\ zlen (tm m' out) = zlen (tm m out) /\
      forall j, 0 <= j < zlen (tm m out) ->
        zn (tm m' out) j = if (lo + s <=? j) && (j <? i + s) then g (j - s) else zn (tm m out) j)
    lo hi (fun i m => v <- f i m ;; store m out (i + s) v) m) as (m' & E & Hfr & Hl & Hz).
  - lia.
  - split; [apply framed_refl|]. split; [reflexivity|]. intros j Hj.
    destruct (Z.leb_spec (lo + s) j), (Z.ltb_spec j (lo + s)); cbn [andb]; lia || reflexivity.
  - intros i m1 Hi (Hfr & Hl & Hz). rewrite Hf; [cbn [bind]|assumption|assumption].
    rewrite store_ok by lia. eexists; split; [reflexivity|]. split; [|split].
    + eapply framed_trans; [exact Hfr|]. apply framed_tset. reflexivity.
    + rewrite tm_tset, zlen_upd. assumption.
    + intros j Hj. rewrite tm_tset, zn_upd by lia. rewrite Hz by assumption.
      destruct (Z.eqb_spec j (i + s)), (Z.leb_spec (lo + s) j), (Z.ltb_spec j (i + s)), (Z.ltb_spec j (i + 1 + s));
        cbn [andb]; subst; try lia; try reflexivity. f_equal; lia.
  - exists m'. split; [exact E|]. split; [|exact Hfr]. apply (eq_tab 0); [assumption|exact Hz].
Qed.

(** one column: [for i in 0..level { out[i][j] = v i }] *)
Lemma col_fill m out level n j (v : Z -> Z) :
  0 <= level -> 0 <= j < n -> (forall i, 0 <= i < level -> zlen (tm m (out + i)) = n) ->
  exists m', for_range 0 level (fun i m => store m (out + i) j (v i)) m = Ok m' /\
    (forall i, 0 <= i < level -> tm m' (out + i) = upd (tm m (out + i)) j (v i)) /\
    framed (blk out level) none none m m'.
Proof.
  intros Hl Hj Hlen.
  destruct (for_range_inv (fun k m' => framed (blk out level) none none m m' /\
      (forall i, 0 <= i < k -> tm m' (out + i) = upd (tm m (out + i)) j (v i)) /\
      (forall i, k <= i < level -> tm m' (out + i) = tm m (out + i)))
    0 level (fun i m => store m (out + i) j (v i)) m) as (m' & E & Hfr & H1 & _).
  - lia.
  - split; [apply framed_refl|]. split; [intros; lia|reflexivity].
  - intros k m1 Hk (Hfr & H1 & H2). rewrite store_ok.
    + eexists; split; [reflexivity|]. split; [|split].
      * eapply framed_trans; [exact Hfr|]. apply framed_tset. unfold blk. lia.
      * intros i Hi. destruct (Z.eq_dec i k) as [->|Hne].
        -- rewrite tm_tset. rewrite H2 by lia. reflexivity.
        -- rewrite tm_tset_ne by lia. apply H1. lia.
      * intros i Hi. rewrite tm_tset_ne by lia. apply H2. lia.
    + rewrite H2 by lia. rewrite Hlen by lia. lia.
  - exists m'. auto.
Qed.
End Fill.

(** ** rotation by X^k as the code does it *)
Definition rot (N k : Z) (a : list Z) : list Z :=
  tab N (fun j => let i := (j - k) mod (2 * N) in if i <? N then zn a i else tnot (zn a (i - N))).

Lemma zlen_rot N k a : 0 <= N -> zlen (rot N k a) = N.
Proof. intro. apply zlen_tab. assumption. Qed.

Lemma rot_mod N k k' a : k mod (2 * N) = k' mod (2 * N) -> rot N k a = rot N k' a.
Proof.
  intro H. apply tab_ext. intros j Hj. rewrite Zminus_mod, H, <- Zminus_mod. reflexivity.
Qed.

Lemma tok_rot N k a : 0 < N -> zlen a = N -> tok_list a -> tok_list (rot N k a).
Proof.
  intros HN Hl Ha. apply tok_tab. intros j Hj. cbv zeta.
  assert (0 <= (j - k) mod (2 * N) < 2 * N) by (apply Z.mod_pos_bound; lia).
  destruct (Z.ltb_spec ((j - k) mod (2 * N)) N); [|apply tok_tnot].
  rewrite zn_znd. apply (proj1 (Forall_znd tok 0 a) Ha). lia.
Qed.

Lemma zn_tok a i : tok_list a -> tok (zn a i).
Proof.
  intro Ha. destruct (Z_lt_dec i 0) as [Hi|Hi].
  - unfold zn. replace (Z.to_nat i) with (Z.to_nat 0) by lia. change (tok (zn a 0)).
    destruct a as [|x a]; [unfold tok, two32; cbn; lia|]. cbn. inversion Ha; assumption.
  - destruct (Z_lt_dec i (zlen a)).
    + rewrite zn_znd. apply (proj1 (Forall_znd tok 0 a) Ha). lia.
    + rewrite zn_overflow by lia. unfold tok, two32; lia.
Qed.

Lemma rot_0 N a : 0 <= N -> zlen a = N -> rot N 0 a = a.
Proof.
  intros HN Hl. symmetry. apply (eq_tab 0); [assumption|]. intros j Hj. cbv zeta.
  replace ((j - 0) mod (2 * N)) with j by (symmetry; rewrite Z.sub_0_r; apply Z.mod_small; lia).
  destruct (Z.ltb_spec j N); [reflexivity|lia].
Qed.

Lemma rot_rot N k1 k2 a : 0 < N -> tok_list a -> rot N k1 (rot N k2 a) = rot N (k1 + k2) a.
Proof.
  intros HN Ha. apply tab_ext. intros j Hj. cbv zeta.
  set (i1 := (j - k1) mod (2 * N)).
  assert (H1: 0 <= i1 < 2 * N) by (apply Z.mod_pos_bound; lia).
  assert (E: (j - (k1 + k2)) mod (2 * N) = (i1 - k2) mod (2 * N)).
  { unfold i1. rewrite Zminus_mod_idemp_l. f_equal. lia. }
  rewrite E. set (i2 := (i1 - k2) mod (2 * N)).
  assert (H2: 0 <= i2 < 2 * N) by (apply Z.mod_pos_bound; lia).
  destruct (Z.ltb_spec i1 N).
  - unfold rot. rewrite zn_tab by lia. reflexivity.
  - unfold rot. rewrite zn_tab by lia. cbv zeta.
    assert (E2: (i1 - N - k2) mod (2 * N) = if i2 <? N then i2 + N else i2 - N).
    { unfold i2. symmetry.
      destruct (Z.ltb_spec ((i1 - k2) mod (2 * N)) N).
      - apply (Z.mod_unique_pos _ _ ((i1 - k2) / (2 * N) - 1)); [lia|].
        pose proof (Z.div_mod (i1 - k2) (2 * N) ltac:(lia)). lia.
      - apply (Z.mod_unique_pos _ _ ((i1 - k2) / (2 * N))); [lia|].
        pose proof (Z.div_mod (i1 - k2) (2 * N) ltac:(lia)). lia. }
    rewrite E2. destruct (Z.ltb_spec i2 N).
    + destruct (Z.ltb_spec (i2 + N) N); [lia|].
      replace (i2 + N - N) with i2 by lia. apply tnot_involutive. apply zn_tok. assumption.
    + destruct (Z.ltb_spec (i2 - N) N); [reflexivity|lia].
Qed.

(** relation with the exact monomial product *)
Lemma rot_mono N k a j : 0 < N -> 0 <= j < N ->
  zn (rot N k a) j == mono_mul N k (zn a) j - (if Z.even ((j - k) / N) then 0 else 1).
Proof.
  intros HN Hj. unfold rot. rewrite zn_tab by assumption. cbv zeta. unfold mono_mul.
  assert (E: (j - k) mod (2 * N) = (j - k) mod N + N * (((j - k) / N) mod 2)).
  { replace (2 * N) with (N * 2) by lia. apply Z.rem_mul_r; lia. }
  pose proof (Z.mod_pos_bound (j - k) N HN) as Hm.
  rewrite E. rewrite Zmod_even. destruct (Z.even ((j - k) / N)).
  - rewrite Z.mul_0_r, Z.add_0_r. destruct (Z.ltb_spec ((j - k) mod N) N); [|lia].
    apply eqm_refl'; lia.
  - rewrite Z.mul_1_r. destruct (Z.ltb_spec ((j - k) mod N + N) N); [lia|].
    replace ((j - k) mod N + N - N) with ((j - k) mod N) by lia. rewrite tnot_eqm. reflexivity.
Qed.

Lemma go_rem_ok a b : b <> 0 -> go_rem a b = Ok (Z.rem a b).
Proof. intro. unfold go_rem. destruct (Z.eqb_spec b 0); [contradiction|reflexivity]. Qed.

Lemma rem_mod a b : 0 < b -> (if Z.rem a b <? 0 then Z.rem a b + b else Z.rem a b) = a mod b.
Proof.
  intro Hb. destruct (Z.ltb_spec (Z.rem a b) 0).
  - apply (Z.mod_unique_pos _ _ (Z.quot a b - 1)).
    + pose proof (Z.rem_bound_abs a b ltac:(lia)). lia.
    + pose proof (Z.quot_rem' a b). lia.
  - apply (Z.mod_unique_pos _ _ (Z.quot a b)).
    + pose proof (Z.rem_bound_abs a b ltac:(lia)). lia.
    + pose proof (Z.quot_rem' a b). lia.
Qed.

Lemma PolyMulWithXKInPlace_ok {F} (m : mem F) N a k out :
  0 < N -> zlen (tm m a) = N -> zlen (tm m out) = N -> a <> out ->
  exists m', PolyMulWithXKInPlace m a k out = Ok m' /\ tm m' out = rot N k (tm m a) /\
    framed (eq out) none none m m'.
Proof.
  intros HN Ha Ho Hne. unfold PolyMulWithXKInPlace. rewrite Ha.
  rewrite go_rem_ok by lia. cbn [bind].
  pose proof (rem_mod k (2 * N) ltac:(lia)) as Hk.
  assert (R: forall m', framed (eq out) none none m m' -> tm m' a = tm m a).
  { intros m' Hfr. apply (fr_t _ _ _ _ _ Hfr). congruence. }
  assert (L: forall i m', framed (eq out) none none m m' -> 0 <= i < N -> load m' a i = Ok (zn (tm m a) i)).
  { intros i m' Hfr Hi. unfold load. rewrite R by assumption. apply get_zn. lia. }
  destruct (Z.eqb_spec (Z.rem k (2 * N)) 0) as [E0|E0].
  - eexists; split; [reflexivity|]. split.
    + rewrite mcopy_same by congruence. rewrite E0 in Hk. change (0 = k mod (2 * N)) in Hk.
      rewrite (rot_mod N k 0) by (rewrite <- Hk; symmetry; apply Z.mod_0_l; lia).
      symmetry. apply rot_0; lia.
    + apply mcopy_frame. reflexivity.
  - rewrite Hk. set (k' := k mod (2 * N)) in *.
    assert (Hk': 0 <= k' < 2 * N) by (apply Z.mod_pos_bound; lia).
    rewrite (rot_mod N k k') by (unfold k'; rewrite Z.mod_mod by lia; reflexivity).
    destruct (Z.ltb_spec k' N) as [Hlt|Hge].
    + destruct (mem_fill_shift m out 0 (N - k') k' (fun i m => load m a i) (zn (tm m a)))
        as (m1 & E1 & Hv1 & Hf1); [lia|lia|lia| |].
      { intros i m' Hi Hfr. apply L; [assumption|lia]. }
      rewrite E1. cbn [bind].
      assert (Hl1: zlen (tm m1 out) = N) by (rewrite Hv1, Ho; apply zlen_tab; lia).
      destruct (mem_fill_shift m1 out (N - k') N (k' - N) (fun i m => x <- load m a i ;; Ok (tnot x))
                 (fun i => tnot (zn (tm m a) i))) as (m2 & E2 & Hv2 & Hf2); [lia|lia|lia| |].
      { intros i m' Hi Hfr. rewrite L; [reflexivity| |lia]. eapply framed_trans; eassumption. }
      exists m2. split; [|split].
      * rewrite <- E2. apply for_range_ext. intros i s Hi. destruct (load s a i); cbn [bind]; [|reflexivity].
        f_equal. lia.
      * rewrite Hv2, Hl1. apply tab_ext. intros j Hj. cbv zeta. rewrite Hv1, Ho, zn_tab by lia.
        replace (N - k' + (k' - N)) with 0 by lia. replace (N + (k' - N)) with k' by lia.
        replace (0 + k') with k' by lia. replace (N - k' + k') with N by lia.
        destruct (Z_lt_dec j k').
        -- replace ((j - k') mod (2 * N)) with (j - k' + 2 * N)
             by (apply (Z.mod_unique_pos _ _ (-1)); lia).
           destruct (Z.leb_spec 0 j), (Z.ltb_spec j k'), (Z.ltb_spec (j - k' + 2 * N) N); cbn [andb]; try lia.
           do 2 f_equal. lia.
        -- replace ((j - k') mod (2 * N)) with (j - k') by (symmetry; apply Z.mod_small; lia).
           destruct (Z.ltb_spec j k'), (Z.leb_spec k' j), (Z.ltb_spec j N), (Z.ltb_spec (j - k') N);
             rewrite ?andb_false_r; cbn [andb]; try lia.
      * eapply framed_trans; eassumption.
    + destruct (mem_fill_shift m out 0 (N - (k' - N)) (k' - N) (fun i m => x <- load m a i ;; Ok (tnot x))
          (fun i => tnot (zn (tm m a) i)))
        as (m1 & E1 & Hv1 & Hf1); [lia|lia|lia| |].
      { intros i m' Hi Hfr. rewrite L; [reflexivity|assumption|lia]. }
      rewrite (for_range_ext _ _ _ (fun i m0 => v <- (x <- load m0 a i ;; Ok (tnot x)) ;; store m0 out (i + (k' - N)) v))
        by (intros i s Hi; destruct (load s a i); reflexivity).
      rewrite E1. cbn [bind].
      assert (Hl1: zlen (tm m1 out) = N) by (rewrite Hv1, Ho; apply zlen_tab; lia).
      destruct (mem_fill_shift m1 out (N - (k' - N)) N (k' - N - N) (fun i m => load m a i)
                 (zn (tm m a))) as (m2 & E2 & Hv2 & Hf2); [lia|lia|lia| |].
      { intros i m' Hi Hfr. apply L; [|lia]. eapply framed_trans; eassumption. }
      exists m2. split; [|split].
      * rewrite <- E2. apply for_range_ext. intros i s Hi. destruct (load s a i); cbn [bind]; [|reflexivity].
        f_equal. lia.
      * rewrite Hv2, Hl1. apply tab_ext. intros j Hj. cbv zeta. rewrite Hv1, Ho, zn_tab by lia.
        replace (N - (k' - N) + (k' - N - N)) with 0 by lia. replace (N + (k' - N - N)) with (k' - N) by lia.
        replace (0 + (k' - N)) with (k' - N) by lia. replace (N - (k' - N) + (k' - N)) with N by lia.
        replace ((j - k') mod (2 * N)) with (j - k' + 2 * N)
             by (apply (Z.mod_unique_pos _ _ (-1)); lia).
        destruct (Z_lt_dec j (k' - N)).
        -- destruct (Z.leb_spec 0 j), (Z.ltb_spec j (k' - N)), (Z.ltb_spec (j - k' + 2 * N) N); cbn [andb]; try lia.
           f_equal. lia.
        -- destruct (Z.ltb_spec j (k' - N)), (Z.leb_spec (k' - N) j), (Z.ltb_spec j N), (Z.ltb_spec (j - k' + 2 * N) N);
             rewrite ?andb_false_r; cbn [andb]; try lia. do 2 f_equal. lia.
      * eapply framed_trans; eassumption.
Qed.

(** ** gadget decomposition *)

(** signed digit i of t, base 2^bg *)
Definition sdig (bg t i : Z) : Z := (t / 2 ^ (32 - (i + 1) * bg)) mod 2 ^ bg - 2 ^ (bg - 1).

Lemma sdig_range bg t i : 1 <= bg -> - 2 ^ (bg - 1) <= sdig bg t i < 2 ^ (bg - 1).
Proof.
  intro Hb. unfold sdig. assert (2 ^ bg = 2 * 2 ^ (bg - 1)) by (rewrite <- Z.pow_succ_r by lia; f_equal; lia).
  pose proof (Z.mod_pos_bound (t / 2 ^ (32 - (i + 1) * bg)) (2 ^ bg)).
  assert (0 < 2 ^ (bg - 1)) by (apply Z.pow_pos_nonneg; lia). lia.
Qed.

Definition dmask (bg : Z) : Z := w32 (Z.shiftl 1 bg - 1).
Definition dhalf (bg : Z) : Z := w32 (Z.shiftl 1 (bg - 1)).

Lemma dec_digit_ok bg tmp i : 1 <= bg -> 0 <= i -> (i + 1) * bg <= 32 -> tok tmp ->
  dec_digit tmp i bg (dmask bg) (dhalf bg) = w32 (sdig bg tmp i).
Proof.
  intros Hb Hi Hib Ht. unfold dec_digit, dmask, dhalf, sdig.
  assert (Hib1: 1 <= (i + 1) * bg) by nia. assert (Hb32: bg <= 32) by nia.
  rewrite (w32_small ((i + 1) * bg)) by (unfold two32; lia).
  rewrite (w32_small (32 - (i + 1) * bg)) by (unfold two32; lia).
  destruct (Z.leb_spec 32 (32 - (i + 1) * bg)); [lia|].
  rewrite !Z.shiftl_mul_pow2, !Z.mul_1_l by lia. rewrite Z.shiftr_div_pow2 by lia.
  set (c := 32 - (i + 1) * bg) in *.
  assert (Hpb: 1 <= 2 ^ bg <= two32) by
   (split; [change 1 with (2 ^ 0)|change two32 with (2 ^ 32)]; apply Z.pow_le_mono_r; lia).
  rewrite (w32_small (2 ^ bg - 1)) by lia.
  replace (2 ^ bg - 1) with (Z.ones bg) by (rewrite Z.ones_equiv; lia).
  rewrite Z.land_ones by lia.
  unfold tsub. apply w32_eqm. rewrite eqm_w32. reflexivity.
Qed.

(** the decomposition offset: half the base at each level *)
Definition doff (bg l : Z) : Z := zsum l (fun i => 2 ^ (bg - 1) * 2 ^ (32 - (i + 1) * bg)).

Lemma digits_telescope bg t l : 1 <= bg -> 0 <= l -> l * bg <= 32 -> tok t ->
  zsum l (fun i => (t / 2 ^ (32 - (i + 1) * bg)) mod 2 ^ bg * 2 ^ (32 - (i + 1) * bg))
  = t - t mod 2 ^ (32 - l * bg).
Proof.
  intros Hb Hl Hlb Ht. revert Hlb. revert l Hl.
  apply (zsum_ind (fun l => l * bg <= 32 -> zsum l (fun i => (t / 2 ^ (32 - (i + 1) * bg)) mod 2 ^ bg * 2 ^ (32 - (i + 1) * bg))
  = t - t mod 2 ^ (32 - l * bg))).
  - intros _. rewrite zsum_0 by lia. change (2 ^ (32 - 0 * bg)) with two32.
    rewrite Z.mod_small by assumption. lia.
  - intros l Hl IH Hlb. rewrite zsum_S by assumption. rewrite IH by nia.
    set (c := 32 - (l + 1) * bg).
    replace (32 - l * bg) with (c + bg) by (unfold c; lia).
    rewrite Z.pow_add_r by (unfold c; lia). rewrite Z.rem_mul_r; [lia| |].
    + apply Z.pow_nonzero; unfold c; lia.
    + apply Z.pow_pos_nonneg; lia.
Qed.

Lemma doff_mod bg l : 1 <= bg -> 0 <= l -> l * bg <= 32 -> exists q, doff bg l = q * 2 ^ (32 - l * bg).
Proof.
  intros Hb Hl Hlb. unfold doff.
  assert (G: forall k, 0 <= k -> k <= l -> exists q, zsum k (fun i => 2 ^ (bg - 1) * 2 ^ (32 - (i + 1) * bg)) = q * 2 ^ (32 - l * bg)).
  { apply (zsum_ind (fun k => k <= l -> exists q, zsum k (fun i => 2 ^ (bg - 1) * 2 ^ (32 - (i + 1) * bg)) = q * 2 ^ (32 - l * bg))).
    - intros _. exists 0. rewrite zsum_0 by lia. lia.
    - intros k Hk IH Hkl. destruct (IH ltac:(lia)) as (q & Hq). rewrite zsum_S by assumption. rewrite Hq.
      exists (q + 2 ^ (bg - 1) * 2 ^ ((l - (k + 1)) * bg)).
      replace (32 - (k + 1) * bg) with ((l - (k + 1)) * bg + (32 - l * bg)) by lia.
      rewrite Z.pow_add_r by nia. lia. }
  apply G; lia.
Qed.

Lemma recompose bg l p : 1 <= bg -> 0 <= l -> l * bg <= 32 -> tok p ->
  zsum l (fun i => sdig bg (tadd p (w32 (doff bg l))) i * 2 ^ (32 - (i + 1) * bg)) == p - p mod 2 ^ (32 - l * bg).
Proof.
  intros Hb Hl Hlb Hp. set (t := tadd p (w32 (doff bg l))).
  assert (Ht: tok t) by apply tok_w32.
  rewrite (zsum_ext l _ (fun i => (t / 2 ^ (32 - (i + 1) * bg)) mod 2 ^ bg * 2 ^ (32 - (i + 1) * bg)
     - 2 ^ (bg - 1) * 2 ^ (32 - (i + 1) * bg))) by (intros; unfold sdig; ring).
  rewrite zsum_sub. rewrite digits_telescope by assumption. fold (doff bg l).
  assert (Hpm: t mod 2 ^ (32 - l * bg) = p mod 2 ^ (32 - l * bg)).
  { destruct (doff_mod bg l Hb Hl Hlb) as (q & Hq). unfold t, tadd, w32.
    assert (D: (2 ^ (32 - l * bg) | two32)).
    { exists (2 ^ (l * bg)). rewrite <- Z.pow_add_r by lia. change two32 with (2 ^ 32). f_equal. lia. }
    rewrite <- Znumtheory.Zmod_div_mod; [|apply Z.pow_pos_nonneg; lia|unfold two32; lia|exact D].
    rewrite Zplus_mod. rewrite <- Znumtheory.Zmod_div_mod; [|apply Z.pow_pos_nonneg; lia|unfold two32; lia|exact D].
    rewrite Hq, Z.mod_mul by (apply Z.pow_nonzero; lia). rewrite Z.add_0_r. apply Z.mod_mod.
    apply Z.pow_nonzero; lia. }
  rewrite Hpm. unfold t. rewrite tadd_eqm, eqm_w32. apply eqm_refl'. ring.
Qed.

(** digit polynomial i of [a] *)
Definition decp (N bg off : Z) (a : list Z) (i : Z) : list Z :=
  tab N (fun j => dec_digit (tadd (zn a j) off) i bg (dmask bg) (dhalf bg)).

Lemma shl_int_ok s : 0 <= s -> shl_int s = Ok (Z.shiftl 1 s).
Proof. intro. unfold shl_int. destruct (Z.ltb_spec s 0); [lia|reflexivity]. Qed.

Lemma DecomposePolyAssign_ok {F} (m : mem F) N p bg level off out :
  1 <= bg -> 0 <= level -> zlen (tm m p) = N -> ~ blk out level p ->
  (forall i, 0 <= i < level -> zlen (tm m (out + i)) = N) ->
  exists m', DecomposePolyAssign m p bg level off out = Ok m' /\
    (forall i, 0 <= i < level -> tm m' (out + i) = decp N bg off (tm m p) i) /\
    framed (blk out level) none none m m'.
Proof.
  intros Hb Hl Hp Hnp Hlen. pose proof (zlen_nonneg (tm m p)).
  unfold DecomposePolyAssign. rewrite !shl_int_ok by lia. cbn [bind]. rewrite Hp.
  fold (dmask bg) (dhalf bg).
  set (v := fun j i => dec_digit (tadd (zn (tm m p) j) off) i bg (dmask bg) (dhalf bg)).
  for_inv (fun k m' => framed (blk out level) none none m m' /\
      forall i, 0 <= i < level -> zlen (tm m' (out + i)) = N /\
        forall j, 0 <= j < k -> zn (tm m' (out + i)) j = v j i) E HI.
  - lia.
  - split; [apply framed_refl|]. intros i Hi. split; [auto|intros; lia].
  - intros k m1 Hk (Hfr & HI). rewrite load_ok
      by (rewrite (fr_t _ _ _ _ _ Hfr) by assumption; lia).
    cbn [bind]. rewrite (fr_t _ _ _ _ _ Hfr p) by assumption.
    destruct (col_fill m1 out level N k (v k)) as (m2 & E2 & H2 & Hf2); [assumption|lia|apply HI|].
    exists m2. split; [exact E2|]. split; [eapply framed_trans; eassumption|].
    intros i Hi. rewrite H2 by assumption. destruct (HI i Hi) as [L V]. split; [rewrite zlen_upd; assumption|].
    intros j Hj. rewrite zn_upd by lia. destruct (Z.eqb_spec j k); [subst; reflexivity|]. apply V; lia.
  - destruct HI as (Hfr & HI). exists st. split; [reflexivity|]. split; [|exact Hfr].
    intros i Hi. destruct (HI i Hi) as [L V]. apply (eq_tab 0); [exact L|]. exact V.
Qed.

(** * External product, CMUX and blind rotation: pure values and phases

    The functions here are the values the memory programs compute (proved in
    EvalFacts.v and RotFacts.v); this file computes their phases. *)
From Coq Require Import Lia ZifyBool Setoid Morphisms.
From Verif Require Import GoBase GoFacts GoMem MemFacts F64 Utils UtilsFacts Params Tlwe TlweFacts
  Poly PolyFacts NegFacts Laws Trlwe TrlweFacts Trgsw.
Local Open Scope Z_scope.
Ltac Zify.zify_post_hook ::= Z.div_mod_to_equations.

Definition ct_ok (N : Z) (c : trlwe) : Prop := poly_ok N (tA c) /\ poly_ok N (tB c).
Definition cphase (N : Z) (s : list Z) (c : trlwe) (k : Z) : Z := rlwe_phase N s (tA c) (tB c) k.

Definition csub (N : Z) (c1 c0 : trlwe) : trlwe :=
  {| tA := tab N (fun j => tsub (zn (tA c1) j) (zn (tA c0) j));
     tB := tab N (fun j => tsub (zn (tB c1) j) (zn (tB c0) j)) |}.
Definition cadd (N : Z) (c1 c0 : trlwe) : trlwe :=
  {| tA := tab N (fun j => tadd (zn (tA c1) j) (zn (tA c0) j));
     tB := tab N (fun j => tadd (zn (tB c1) j) (zn (tB c0) j)) |}.
Definition crot (N k : Z) (c : trlwe) : trlwe :=
  {| tA := rot N k (tA c); tB := rot N k (tB c) |}.

Lemma poly_ok_tab N f : 0 <= N -> (forall i, 0 <= i < N -> tok (f i)) -> poly_ok N (tab N f).
Proof. intros. split; [apply zlen_tab; assumption|apply tok_tab; assumption]. Qed.

Lemma csub_ok N c1 c0 : 0 <= N -> ct_ok N (csub N c1 c0).
Proof. intro. split; apply poly_ok_tab; try assumption; intros; apply tok_w32. Qed.
Lemma cadd_ok N c1 c0 : 0 <= N -> ct_ok N (cadd N c1 c0).
Proof. intro. split; apply poly_ok_tab; try assumption; intros; apply tok_w32. Qed.
Lemma crot_ok N k c : 0 < N -> ct_ok N c -> ct_ok N (crot N k c).
Proof.
  intros HN [[Ha Ha'] [Hb Hb']]. split; (split; [apply zlen_rot; lia|apply tok_rot; assumption]).
Qed.
Lemma cadd_comm N c1 c0 : cadd N c1 c0 = cadd N c0 c1.
Proof. unfold cadd. f_equal; apply tab_ext; intros; unfold tadd; f_equal; lia. Qed.
Lemma ct_ext N c c' : ct_ok N c -> ct_ok N c' ->
  (forall j, 0 <= j < N -> zn (tA c) j = zn (tA c') j) -> (forall j, 0 <= j < N -> zn (tB c) j = zn (tB c') j) -> c = c'.
Proof.
  intros [[H1 _] [H2 _]] [[H3 _] [H4 _]] HA HB. destruct c as [a b], c' as [a' b']. cbn [tA tB] in *.
  f_equal; apply list_ext_zn; try congruence; intros i Hi; [apply HA|apply HB]; lia.
Qed.

Section Phase.
Context (N : Z) (HN : 0 < N) (s : list Z) (Hs : forall i, 0 <= i < N -> 0 <= zn s i).

Let w := weight N s.

Lemma w_nonneg : 0 <= w.
Proof. unfold w, weight. apply zsum_nonneg. exact Hs. Qed.

Lemma cphase_eqm c k : cphase N s c k == zn (tB c) k - negacyclic N (zn (tA c)) (zn s) k.
Proof. apply rlwe_phase_eqm. Qed.

Lemma csub_phase c1 c0 k : 0 <= k < N -> cphase N s (csub N c1 c0) k == cphase N s c1 k - cphase N s c0 k.
Proof.
  intro Hk. rewrite !cphase_eqm. cbn [csub tA tB]. rewrite zn_tab by assumption. rewrite tsub_eqm.
  rewrite (neg_eqm_args N _ (fun j => zn (tA c1) j - zn (tA c0) j) (zn s) (zn s)).
  - rewrite neg_sub_l. apply eqm_refl'. ring.
  - assumption.
  - intros i Hi. rewrite zn_tab by assumption. apply tsub_eqm.
  - reflexivity.
Qed.
Lemma cadd_phase c1 c0 k : 0 <= k < N -> cphase N s (cadd N c1 c0) k == cphase N s c1 k + cphase N s c0 k.
Proof.
  intro Hk. rewrite !cphase_eqm. cbn [cadd tA tB]. rewrite zn_tab by assumption. rewrite tadd_eqm.
  rewrite (neg_eqm_args N _ (fun j => zn (tA c1) j + zn (tA c0) j) (zn s) (zn s)).
  - rewrite neg_add_l. apply eqm_refl'. ring.
  - assumption.
  - intros i Hi. rewrite zn_tab by assumption. apply tadd_eqm.
  - reflexivity.
Qed.

(** phases are close when both components are *)
Lemma phase_close c c' B k : 0 <= k < N ->
  (forall j, 0 <= j < N -> close B (zn (tA c) j) (zn (tA c') j)) ->
  (forall j, 0 <= j < N -> close B (zn (tB c) j) (zn (tB c') j)) ->
  close (B * (1 + w)) (cphase N s c k) (cphase N s c' k).
Proof.
  intros Hk HA HB. rewrite !cphase_eqm. replace (B * (1 + w)) with (B + B * w) by ring.
  apply close_sub; [apply HB; assumption|]. apply neg_close; assumption.
Qed.

(** rotation by X^e: exact up to one unit per negated coefficient *)
Lemma crot_phase e c k : 0 <= k < N ->
  close (1 + w) (cphase N s (crot N e c) k) (mono_mul N e (cphase N s c) k).
Proof.
  intro Hk.
  set (c' := fun j => mono_mul N e (zn (tA c)) j). set (b' := fun j => mono_mul N e (zn (tB c)) j).
  assert (H1: forall a j, 0 <= j < N -> close 1 (zn (rot N e a) j) (mono_mul N e (zn a) j)).
  { intros a j Hj. exists (- (if Z.even ((j - e) / N) then 0 else 1)). split.
    - destruct (Z.even _); cbn; lia.
    - rewrite rot_mono by assumption. apply eqm_refl'. ring. }
  assert (H2: close (1 + w) (cphase N s (crot N e c) k) (b' k - negacyclic N c' (zn s) k)).
  { rewrite cphase_eqm. cbn [crot tA tB]. replace (1 + w) with (1 + 1 * w) by ring.
    apply close_sub; [apply H1; assumption|]. apply neg_close; try assumption. intros; apply H1; assumption. }
  destruct H2 as (x & Hx & E). exists x. split; [assumption|]. rewrite E.
  assert (G: mono_mul N e (cphase N s c) k == b' k - negacyclic N c' (zn s) k).
  { rewrite (mono_eqm N e (cphase N s c) (fun k => zn (tB c) k - negacyclic N (zn (tA c)) (zn s) k)).
    - rewrite mono_sub. unfold c'. rewrite (neg_mono_l N e) by assumption. reflexivity.
    - assumption.
    - intros; apply cphase_eqm. }
  rewrite G. reflexivity.
Qed.

End Phase.

(** ** External product *)
Section EP.
Context {O : fops} {N : Z} (L : flaws O N) (bg l off : Z).

(** the 2l digit polynomials of a ciphertext *)
Definition dvec (c : trlwe) (i : Z) : list Z :=
  if i <? l then decp N bg off (tA c) i else decp N bg off (tB c) (i - l).

Definition grow (g : trgsw_fft O) (i : Z) : FP O * FP O := znd (Fzero L, Fzero L) g i.

Definition epp (g : trgsw_fft O) (c : trlwe) : trlwe :=
  {| tA := Fto L (Fsum L (2 * l) (fun i => Fof L (dvec c i)) (fun i => fst (grow g i)));
     tB := Fto L (Fsum L (2 * l) (fun i => Fof L (dvec c i)) (fun i => snd (grow g i))) |}.

Definition cmuxp (g : trgsw_fft O) (c0 c1 : trlwe) : trlwe := cadd N (epp g (csub N c1 c0)) c0.

(** the transformed key entry has the right shape *)
Definition gkey_ok (g : trgsw_fft O) : Prop :=
  zlen g = 2 * l /\ forall i, 0 <= i < 2 * l -> fok L (fst (grow g i)) /\ fok L (snd (grow g i)).

Lemma zlen_decp a i : zlen (decp N bg off a i) = N.
Proof. pose proof (law_N L). apply zlen_tab. lia. Qed.
Lemma zlen_dvec c i : zlen (dvec c i) = N.
Proof. unfold dvec. destruct (i <? l); apply zlen_decp. Qed.

Lemma Fsum_fok K d r : 0 <= K -> (forall i, 0 <= i < K -> fok L (d i) /\ fok L (r i)) -> fok L (Fsum L K d r).
Proof.
  intro HK. revert K HK. apply (zsum_ind (fun K => (forall i, 0 <= i < K -> fok L (d i) /\ fok L (r i)) -> fok L (Fsum L K d r))).
  - intros _. apply (law_zero L).
  - intros n Hn IH H. unfold Fsum. replace (Z.to_nat (n + 1)) with (S (Z.to_nat n)) by lia. cbn [Fsum_nat].
    rewrite Z2Nat.id by lia. destruct (H n ltac:(lia)). apply (law_ma_ok L); try assumption. apply IH. intros; apply H; lia.
Qed.

Lemma epp_ok g c : 0 <= l -> gkey_ok g -> ct_ok N (epp g c).
Proof.
  intros Hl [Hg1 Hg2].
  assert (HA: fok L (Fsum L (2 * l) (fun i => Fof L (dvec c i)) (fun i => fst (grow g i)))).
  { apply Fsum_fok; [lia|]. intros i Hi. split; [apply law_of_ok; apply zlen_dvec|apply Hg2; assumption]. }
  assert (HB: fok L (Fsum L (2 * l) (fun i => Fof L (dvec c i)) (fun i => snd (grow g i)))).
  { apply Fsum_fok; [lia|]. intros i Hi. split; [apply law_of_ok; apply zlen_dvec|apply Hg2; assumption]. }
  split; (split; [apply (law_to_len L)|apply (law_to_tok L)]); assumption.
Qed.

Lemma cmuxp_ok g c0 c1 : ct_ok N (cmuxp g c0 c1).
Proof. pose proof (law_N L). apply cadd_ok. lia. Qed.

(** [g] is the transform of the rows [rw] *)
Definition gkey_of (g : trgsw_fft O) (rw : Z -> trlwe) : Prop :=
  zlen g = 2 * l /\ forall i, 0 <= i < 2 * l -> ct_ok N (rw i) /\ grow g i = (Fof L (tA (rw i)), Fof L (tB (rw i))).

Lemma gkey_of_ok g rw : gkey_of g rw -> gkey_ok g.
Proof.
  intros [H1 H2]. split; [assumption|]. intros i Hi. destruct (H2 i Hi) as [[[Ha _] [Hb _]] ->]. cbn [fst snd].
  split; apply law_of_ok; assumption.
Qed.

(** signed digit i of the ciphertext's polynomials *)
Definition dsig (c : trlwe) (i j : Z) : Z :=
  if i <? l then sdig bg (tadd (zn (tA c) j) off) i else sdig bg (tadd (zn (tB c) j) off) (i - l).

Hypothesis Hbg : 1 <= bg.
Hypothesis Hl : 0 <= l.
Hypothesis Hlb : l * bg <= 32.
Hypothesis Hoff : off = w32 (doff bg l).

Lemma dvec_zn c i j : 0 <= i < 2 * l -> 0 <= j < N -> zn (dvec c i) j = w32 (dsig c i j).
Proof.
  intros Hi Hj. unfold dvec, dsig, decp. destruct (Z.ltb_spec i l); rewrite zn_tab by assumption;
    apply dec_digit_ok; try lia; try apply tok_w32; nia.
Qed.

Lemma dsig_range c i j : - 2 ^ (bg - 1) <= dsig c i j < 2 ^ (bg - 1).
Proof. unfold dsig. destruct (i <? l); apply sdig_range; assumption. Qed.

Lemma dvec_poly c i : 0 <= i < 2 * l -> poly_ok N (dvec c i).
Proof.
  intro Hi. split; [apply zlen_dvec|]. apply (Forall_znd tok 0). intros j Hj. rewrite zlen_dvec in Hj.
  change (znd 0 (dvec c i) j) with (zn (dvec c i) j). rewrite dvec_zn by assumption. apply tok_w32.
Qed.

Lemma bg_le : 1 <= l -> bg <= 32.
Proof. intro. nia. Qed.

Lemma dvec_bound c i : 0 <= i < 2 * l -> sbound N (2 ^ (bg - 1)) (dvec c i).
Proof.
  intros Hi j Hj. rewrite dvec_zn by assumption. pose proof (dsig_range c i j) as Hr.
  assert (Hb: bg <= 32) by (apply bg_le; lia).
  assert (H31: 2 ^ (bg - 1) <= two31) by (change two31 with (2 ^ 31); apply Z.pow_le_mono_r; lia).
  rewrite (centered_unique _ (dsig c i j)).
  - lia.
  - apply eqm_w32.
  - lia.
Qed.

(** Phase of the external product in terms of the phases of the key's rows *)
Lemma epp_rows g rw c s delta k : facc L (2 * l) (2 ^ (bg - 1)) delta -> gkey_of g rw ->
  (forall i, 0 <= i < N -> 0 <= zn s i) -> 0 <= k < N ->
  close (delta * (1 + weight N s)) (cphase N s (epp g c) k)
    (zsum (2 * l) (fun i => negacyclic N (dsig c i) (cphase N s (rw i)) k)).
Proof.
  intros Hacc [Hg1 Hg2] Hs Hk. pose proof (law_N L) as H16.
  assert (HA: forall j, 0 <= j < N -> close delta (zn (tA (epp g c)) j)
     (zsum (2 * l) (fun i => negacyclic N (zn (dvec c i)) (zn (tA (rw i))) j))).
  { intros j Hj. cbn [epp tA].
    assert (E: Fsum L (2 * l) (fun i => Fof L (dvec c i)) (fun i => fst (grow g i))
             = Fsum L (2 * l) (fun i => Fof L (dvec c i)) (fun i => Fof L (tA (rw i)))).
    { unfold Fsum. assert (G: forall n, Z.of_nat n <= 2 * l ->
         Fsum_nat L n (fun i => Fof L (dvec c i)) (fun i => fst (grow g i)) =
         Fsum_nat L n (fun i => Fof L (dvec c i)) (fun i => Fof L (tA (rw i)))).
      { induction n as [|n IH]; intro Hn; [reflexivity|]. cbn [Fsum_nat]. rewrite IH by lia.
        rewrite (proj2 (Hg2 (Z.of_nat n) ltac:(lia))). reflexivity. }
      apply G. lia. }
    rewrite E. apply Hacc; [|assumption]. intros i Hi. split; [apply dvec_poly; assumption|].
    split; [apply dvec_bound; assumption|]. apply (Hg2 i Hi). }
  assert (HB: forall j, 0 <= j < N -> close delta (zn (tB (epp g c)) j)
     (zsum (2 * l) (fun i => negacyclic N (zn (dvec c i)) (zn (tB (rw i))) j))).
  { intros j Hj. cbn [epp tB].
    assert (E: Fsum L (2 * l) (fun i => Fof L (dvec c i)) (fun i => snd (grow g i))
             = Fsum L (2 * l) (fun i => Fof L (dvec c i)) (fun i => Fof L (tB (rw i)))).
    { unfold Fsum. assert (G: forall n, Z.of_nat n <= 2 * l ->
         Fsum_nat L n (fun i => Fof L (dvec c i)) (fun i => snd (grow g i)) =
         Fsum_nat L n (fun i => Fof L (dvec c i)) (fun i => Fof L (tB (rw i)))).
      { induction n as [|n IH]; intro Hn; [reflexivity|]. cbn [Fsum_nat]. rewrite IH by lia.
        rewrite (proj2 (Hg2 (Z.of_nat n) ltac:(lia))). reflexivity. }
      apply G. lia. }
    rewrite E. apply Hacc; [|assumption]. intros i Hi. split; [apply dvec_poly; assumption|].
    split; [apply dvec_bound; assumption|]. apply (Hg2 i Hi). }
  rewrite cphase_eqm.
  assert (Eid: zsum (2 * l) (fun i => negacyclic N (dsig c i) (cphase N s (rw i)) k) ==
     zsum (2 * l) (fun i => negacyclic N (zn (dvec c i)) (zn (tB (rw i))) k)
     - negacyclic N (fun j => zsum (2 * l) (fun i => negacyclic N (zn (dvec c i)) (zn (tA (rw i))) j)) (zn s) k).
  { rewrite neg_sum_l. rewrite <- zsum_sub. apply zsum_eqm. intros i Hi.
    rewrite (neg_assoc N (zn (dvec c i))) by assumption.
    rewrite <- neg_sub_r. apply neg_eqm_args; [assumption| |].
    - intros j Hj. rewrite dvec_zn by assumption. rewrite eqm_w32. reflexivity.
    - intros j Hj. apply cphase_eqm. }
  rewrite Eid. replace (delta * (1 + weight N s)) with (delta + delta * zsum N (fun i => zn s i)) by (unfold weight; ring).
  apply close_sub; [apply HB; assumption|]. apply neg_close; assumption.
Qed.

(** The rows encrypt the message [p]: row i < l is [-p g_i s] and row l + i is
    [p g_i], up to the errors [er] *)
Definition row_target (p : Z) (s : list Z) (i k : Z) : Z :=
  if i <? l then - (p * 2 ^ (32 - (i + 1) * bg) * zn s k)
  else if k =? 0 then p * 2 ^ (32 - (i - l + 1) * bg) else 0.

Definition rows_enc (p : Z) (s : list Z) (rw : Z -> trlwe) (er : Z -> Z -> Z) : Prop :=
  forall i k, 0 <= i < 2 * l -> 0 <= k < N -> cphase N s (rw i) k == row_target p s i k + er i k.

(** what the decomposition of [a] drops *)
Definition trunc (a : list Z) (j : Z) : Z := zn a j mod 2 ^ (32 - l * bg).

(** the noise the external product adds, apart from the rounding of the transform *)
Definition ep_noise (p : Z) (s : list Z) (er : Z -> Z -> Z) (c : trlwe) (k : Z) : Z :=
  zsum (2 * l) (fun i => negacyclic N (dsig c i) (er i) k)
  - p * (trunc (tB c) k - negacyclic N (trunc (tA c)) (zn s) k).

Lemma trunc_eqm a j : tok (zn a j) ->
  zsum l (fun i => sdig bg (tadd (zn a j) off) i * 2 ^ (32 - (i + 1) * bg)) == zn a j - trunc a j.
Proof. intro H. rewrite Hoff. apply recompose; assumption. Qed.

Lemma epp_phase g rw c s p er delta k : facc L (2 * l) (2 ^ (bg - 1)) delta -> gkey_of g rw ->
  (forall i, 0 <= i < N -> 0 <= zn s i) -> ct_ok N c -> rows_enc p s rw er -> 0 <= k < N ->
  close (delta * (1 + weight N s)) (cphase N s (epp g c) k) (p * cphase N s c k + ep_noise p s er c k).
Proof.
  intros Hacc Hg Hs [[HAl HAt] [HBl HBt]] Hrows Hk.
  assert (E: zsum (2 * l) (fun i => negacyclic N (dsig c i) (cphase N s (rw i)) k)
          == p * cphase N s c k + ep_noise p s er c k).
  { transitivity (zsum (2 * l) (fun i => negacyclic N (dsig c i) (row_target p s i) k)
                  + zsum (2 * l) (fun i => negacyclic N (dsig c i) (er i) k)).
    { rewrite <- zsum_add. apply zsum_eqm. intros i Hi. rewrite <- neg_add_r.
      apply neg_eqm_args; [assumption|reflexivity|]. intros j Hj. apply Hrows; assumption. }
    unfold ep_noise.
    assert (G: zsum (2 * l) (fun i => negacyclic N (dsig c i) (row_target p s i) k) ==
               p * (zn (tB c) k - trunc (tB c) k) - p * negacyclic N (fun j => zn (tA c) j - trunc (tA c) j) (zn s) k).
    { replace (2 * l) with (l + l) by lia. rewrite zsum_split by lia.
      assert (G1: zsum l (fun i => negacyclic N (dsig c i) (row_target p s i) k) ==
                  - (p * negacyclic N (fun j => zn (tA c) j - trunc (tA c) j) (zn s) k)).
      { transitivity (- (p * negacyclic N (fun j => zsum l (fun i => sdig bg (tadd (zn (tA c) j) off) i * 2 ^ (32 - (i + 1) * bg))) (zn s) k)).
        - rewrite neg_sum_l, <- zsum_mul_l, <- zsum_opp. apply zsum_eqm. intros i Hi. apply eqm_refl'.
          rewrite (neg_ext_args N (dsig c i) (fun j => sdig bg (tadd (zn (tA c) j) off) i) (row_target p s i)
             (fun k => (- (p * 2 ^ (32 - (i + 1) * bg))) * zn s k)).
          + rewrite neg_mul_r.
            rewrite (neg_ext_args N (fun j => sdig bg (tadd (zn (tA c) j) off) i * 2 ^ (32 - (i + 1) * bg))
              (fun j => 2 ^ (32 - (i + 1) * bg) * sdig bg (tadd (zn (tA c) j) off) i) (zn s) (zn s))
              by (assumption || (intros; ring)).
            rewrite neg_mul_l. ring.
          + assumption.
          + intros j Hj. unfold dsig. destruct (Z.ltb_spec i l); [reflexivity|lia].
          + intros j Hj. unfold row_target. destruct (Z.ltb_spec i l); [ring|lia].
        - assert (Gn: negacyclic N (fun j => zsum l (fun i => sdig bg (tadd (zn (tA c) j) off) i * 2 ^ (32 - (i + 1) * bg))) (zn s) k
              == negacyclic N (fun j => zn (tA c) j - trunc (tA c) j) (zn s) k).
          { apply neg_eqm_args; [assumption| |reflexivity]. intros j Hj. apply trunc_eqm. apply zn_tok. assumption. }
          rewrite Gn. reflexivity. }
      assert (G2: zsum l (fun i => negacyclic N (dsig c (l + i)) (row_target p s (l + i)) k) ==
                  p * (zn (tB c) k - trunc (tB c) k)).
      { transitivity (p * zsum l (fun i => sdig bg (tadd (zn (tB c) k) off) i * 2 ^ (32 - (i + 1) * bg))).
        - rewrite <- zsum_mul_l. apply zsum_eqm. intros i Hi. apply eqm_refl'.
          rewrite (neg_ext_args N (dsig c (l + i)) (fun j => sdig bg (tadd (zn (tB c) j) off) i) (row_target p s (l + i))
             (cst (p * 2 ^ (32 - (i + 1) * bg)))).
          + rewrite neg_cst_r by assumption. ring.
          + assumption.
          + intros j Hj. unfold dsig. destruct (Z.ltb_spec (l + i) l); [lia|]. f_equal. lia.
          + intros j Hj. unfold row_target, cst. destruct (Z.ltb_spec (l + i) l); [lia|].
            destruct (j =? 0); [|reflexivity]. do 3 f_equal. lia.
        - rewrite trunc_eqm by (apply zn_tok; assumption). reflexivity. }
      rewrite G1, G2. apply eqm_refl'. ring. }
    rewrite G, cphase_eqm. rewrite neg_sub_l. apply eqm_refl'. ring. }
  rewrite <- E. apply epp_rows; assumption.
Qed.

(** worst case of that noise *)
Lemma ep_noise_bound p s er c k E : 0 <= k < N -> 0 <= E ->
  (forall i, 0 <= i < N -> 0 <= zn s i) ->
  (forall i j, 0 <= i < 2 * l -> 0 <= j < N -> Z.abs (er i j) <= E) ->
  Z.abs (ep_noise p s er c k) <= 2 * l * (N * (2 ^ (bg - 1) * E)) + Z.abs p * ((1 + weight N s) * (2 ^ (32 - l * bg) - 1)).
Proof.
  intros Hk HE Hs He. unfold ep_noise.
  assert (Hp: 0 < 2 ^ (bg - 1)) by (apply Z.pow_pos_nonneg; lia).
  assert (Hq: 0 < 2 ^ (32 - l * bg)) by (apply Z.pow_pos_nonneg; lia).
  assert (H1: Z.abs (zsum (2 * l) (fun i => negacyclic N (dsig c i) (er i) k)) <= 2 * l * (N * (2 ^ (bg - 1) * E))).
  { eapply Z.le_trans; [apply zsum_abs|]. rewrite <- (zsum_const (2 * l) (N * (2 ^ (bg - 1) * E))) by lia.
    apply zsum_le. intros i Hi. apply neg_abs; [assumption|lia| |intros; apply He; assumption].
    intros j Hj. pose proof (dsig_range c i j). lia. }
  assert (Htr: forall a j, 0 <= trunc a j <= 2 ^ (32 - l * bg) - 1).
  { intros a j. unfold trunc. pose proof (Z.mod_pos_bound (zn a j) _ Hq). lia. }
  assert (H2: Z.abs (negacyclic N (trunc (tA c)) (zn s) k) <= (2 ^ (32 - l * bg) - 1) * weight N s).
  { apply neg_abs_weight; [assumption| |assumption]. intros j Hj. pose proof (Htr (tA c) j). lia. }
  pose proof (Htr (tB c) k) as H3.
  assert (H4: Z.abs (p * (trunc (tB c) k - negacyclic N (trunc (tA c)) (zn s) k)) <=
      Z.abs p * ((1 + weight N s) * (2 ^ (32 - l * bg) - 1))).
  { rewrite Z.abs_mul. apply Z.mul_le_mono_nonneg_l; [lia|]. lia. }
  lia.
Qed.

(** CMUX: selects c0 or c1 *)
Lemma cmuxp_phase g c0 c1 s p eta k : 0 <= k < N ->
  close eta (cphase N s (epp g (csub N c1 c0)) k) (p * cphase N s (csub N c1 c0) k) ->
  close eta (cphase N s (cmuxp g c0 c1) k) (cphase N s c0 k + p * (cphase N s c1 k - cphase N s c0 k)).
Proof.
  intros Hk (e & He & E). exists e. split; [assumption|]. unfold cmuxp. rewrite cadd_phase by assumption.
  rewrite E, csub_phase by assumption. apply eqm_refl'. ring.
Qed.

End EP.

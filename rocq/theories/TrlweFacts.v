(** * Facts about package trlwe *)
From Coq Require Import Lia ZifyBool Setoid Morphisms.
From Verif Require Import GoBase GoFacts GoMem MemFacts F64 Utils UtilsFacts Params Tlwe TlweFacts BitUtilsFacts BasicFacts
  Poly PolyFacts NegFacts Laws Trlwe.
Local Open Scope Z_scope.
Ltac Zify.zify_post_hook ::= Z.div_mod_to_equations.

Lemma check_degree_ge N : check_degree N = Ok tt -> 16 <= N.
Proof.
  unfold check_degree. destruct (isPowerOfTwo N); cbn [negb]; [|discriminate].
  unfold MinDegree. destruct (Z.ltb_spec N 16); [discriminate|intros; lia].
Qed.

Lemma rlwe_phase_eqm N s A B k : rlwe_phase N s A B k == zn B k - negacyclic N (zn A) (zn s) k.
Proof. apply eqm_w32. Qed.
Lemma rlwe_phase_tok N s A B k : tok (rlwe_phase N s A B k).
Proof. apply tok_w32. Qed.

Section Enc.
Context {O : fops} {N : Z} (L : flaws O N).

Lemma law_N : 16 <= N.
Proof. apply check_degree_ge. exact (law_deg L). Qed.

(** the value of MulPoly *)
Definition mulp (a b : list Z) : list Z := Fto L (Fmul L (Fof L a) (Fof L b)).

Lemma NewPoly_ok : NewPoly N = Ok (repeat 0 (Z.to_nat N)).
Proof. pose proof law_N. unfold NewPoly. rewrite (law_deg L). cbn [bind]. apply make_ok. lia. Qed.

Lemma mulp_fok a b : zlen a = N -> zlen b = N -> fok L (Fmul L (Fof L a) (Fof L b)).
Proof. intros. apply law_mul_ok; apply law_of_ok; assumption. Qed.
Lemma zlen_mulp a b : zlen a = N -> zlen b = N -> zlen (mulp a b) = N.
Proof. intros. apply (law_to_len L). apply mulp_fok; assumption. Qed.
Lemma tok_mulp a b : zlen a = N -> zlen b = N -> tok_list (mulp a b).
Proof. intros. apply (law_to_tok L). apply mulp_fok; assumption. Qed.

Lemma MulPoly_ok a b : zlen a = N -> zlen b = N -> MulPoly O N a b = Ok (mulp a b).
Proof.
  intros Ha Hb. pose proof law_N. unfold MulPoly. rewrite NewPoly_ok. cbn [bind].
  rewrite (law_new L). cbn [bind].
  rewrite (law_of L) by (assumption || apply (law_zero L)). cbn [bind].
  rewrite (law_of L) by (assumption || apply (law_zero L)). cbn [bind].
  rewrite (law_mul L) by (apply law_of_ok; assumption). cbn [bind].
  destruct (law_to L (Fmul L (Fof L a) (Fof L b)) (repeat 0 (Z.to_nat N))) as (x & E & _).
  - apply mulp_fok; assumption.
  - rewrite zlen_repeat. lia.
  - rewrite E. reflexivity.
Qed.

(** ** encryption *)
Definition d0 : f64 := f_of_Z 0.
Definition tr_a (r : trlwe_rand) : list Z := tab N (fun i => w32 (tr_mask r i)).
Definition tr_mu (p : list f64) (r : trlwe_rand) (i : Z) : Z :=
  tadd (F64ToTorus (znd d0 p i)) (F64ToTorus (tr_noise r i)).
Definition tenc (p : list f64) (key : list Z) (r : trlwe_rand) : trlwe :=
  {| tA := tr_a r; tB := tab N (fun i => tadd (tr_mu p r i) (zn (mulp (tr_a r) key) i)) |}.

Lemma zlen_tr_a r : zlen (tr_a r) = N.
Proof. pose proof law_N. apply zlen_tab. lia. Qed.
Lemma tok_tr_a r : tok_list (tr_a r).
Proof. apply tok_tab. intros; apply tok_w32. Qed.

Lemma TrlweEncryptF64_ok pr t p key r :
  trlwe_N pr = N -> zlen (tA t) = N -> zlen p = N -> zlen key = N ->
  TrlweEncryptF64 O N pr t p key r = Ok (tenc p key r).
Proof.
  intros Hpr Ht Hp Hk. pose proof law_N. unfold TrlweEncryptF64. rewrite Hpr.
  rewrite (for_range_ext _ _ _ (fun i a => v <- Ok (w32 (tr_mask r i)) ;; set a i v)) by reflexivity.
  rewrite (for_fill_all 0 _ (fun i => w32 (tr_mask r i))) by (assumption || reflexivity). cbn [bind].
  unfold GaussianF64Vec. rewrite make_ok by apply zlen_nonneg. cbn [bind].
  assert (E: for_each p (fun (i : Z) (m : f64) (result : list Z) =>
              set result i (GaussianTorus (F64ToTorus m) (tr_noise r i))) (repeat 0 (Z.to_nat (zlen p)))
            = Ok (tab (zlen p) (tr_mu p r))).
  { apply (for_each_fill d0 0 p (fun i m => Ok (GaussianTorus (F64ToTorus m) (tr_noise r i)))).
    - rewrite zlen_repeat. lia.
    - intros i Hi. reflexivity. }
  rewrite E. cbn [bind]. fold (tr_a r). rewrite MulPoly_ok by (assumption || apply zlen_tr_a). cbn [bind].
  rewrite Hp.
  pose proof (zlen_mulp (tr_a r) key (zlen_tr_a r) Hk) as Hm.
  match goal with |- context [for_range 0 N ?b ?x] =>
    assert (E2: for_range 0 N b x = Ok (tB (tenc p key r))) end.
  { assert (G: forall X Y, X = tab N (tr_mu p r) -> Y = Ok (tB (tenc p key r)) ->
       for_range 0 N (fun (i : Z) (b : list Z) => v <- (x <- get b i ;; y <- get (mulp (tr_a r) key) i ;; Ok (tadd x y)) ;; set b i v) X = Y).
    { intros X Y -> ->.
      for_inv (fun i b => zlen b = N /\ forall j, 0 <= j < N -> zn b j =
        if j <? i then tadd (tr_mu p r j) (zn (mulp (tr_a r) key) j) else tr_mu p r j) E3 HI.
      - lia.
      - split; [apply zlen_tab; lia|]. intros j Hj. rewrite zn_tab by assumption. destruct (Z.ltb_spec j 0); lia || reflexivity.
      - intros i b Hi [Hb Hz]. rewrite !get_zn by lia. cbn [bind]. rewrite set_ok by lia.
        eexists; split; [reflexivity|]. split; [rewrite zlen_upd; assumption|].
        intros j Hj. rewrite zn_upd by lia. rewrite !Hz by lia.
        destruct (Z.eqb_spec j i), (Z.ltb_spec j i), (Z.ltb_spec j (i + 1)), (Z.ltb_spec i i); subst; try lia; reflexivity.
      - f_equal. destruct HI as [Hb Hz]. apply (eq_tab 0); [assumption|]. intros j Hj. change (znd 0 st j) with (zn st j).
        rewrite Hz by assumption. destruct (Z.ltb_spec j N); [reflexivity|lia]. }
    apply G; reflexivity. }
  rewrite E2. cbn [bind]. reflexivity.
Qed.

Lemma NewTRLWELv1_ok pr : trlwe_N pr = N ->
  NewTRLWELv1 pr = Ok {| tA := repeat 0 (Z.to_nat N); tB := repeat 0 (Z.to_nat N) |}.
Proof. intro H. pose proof law_N. unfold NewTRLWELv1. rewrite H, make_ok by lia. reflexivity. Qed.

Lemma zlen_zeros : zlen (repeat 0 (Z.to_nat N)) = N.
Proof. pose proof law_N. rewrite zlen_repeat. lia. Qed.

Lemma tenc_shape p key r :
  zlen (tA (tenc p key r)) = N /\ zlen (tB (tenc p key r)) = N /\
  tok_list (tA (tenc p key r)) /\ tok_list (tB (tenc p key r)).
Proof.
  pose proof law_N. split; [apply zlen_tr_a|]. split; [apply zlen_tab; lia|].
  split; [apply tok_tr_a|]. apply tok_tab. intros; apply tok_w32.
Qed.

(** the phase of a fresh encryption, up to the accuracy of the product *)
Lemma tenc_phase p key r D E delta k : facc_mul L D E delta -> two31 <= D ->
  poly_ok N key -> sbound N E key -> 0 <= k < N ->
  close delta (rlwe_phase N key (tA (tenc p key r)) (tB (tenc p key r)) k) (tr_mu p r k).
Proof.
  intros Hacc HD Hk HE Hkk. rewrite rlwe_phase_eqm. cbn [tA tB tenc]. rewrite zn_tab by assumption.
  rewrite tadd_eqm. destruct (Hacc (tr_a r) key) with (k := k) as (e & He & Heq).
  - split; [apply zlen_tr_a|apply tok_tr_a].
  - assumption.
  - intros i Hi. pose proof (centered_range (zn (tr_a r) i)). lia.
  - assumption.
  - assumption.
  - exists e. split; [assumption|]. unfold mulp. rewrite Heq. apply eqm_refl'. ring.
Qed.

(** decryption compares the same product, so any rounding in it cancels *)
Lemma TrlweDecryptBool_ok t key : zlen (tA t) = N -> zlen (tB t) = N -> zlen key = N ->
  TrlweDecryptBool O N t key = Ok (tab N (fun i => 0 <=? centered (tsub (zn (tB t) i) (zn (mulp (tA t) key) i)))).
Proof.
  intros HA HB Hk. pose proof law_N. unfold TrlweDecryptBool. rewrite HA. rewrite make_ok by lia. cbn [bind].
  rewrite MulPoly_ok by assumption. cbn [bind].
  pose proof (zlen_mulp (tA t) key HA Hk).
  apply (for_fill_all false (fun i => x <- get (tB t) i ;; y <- get (mulp (tA t) key) i ;; Ok (0 <=? int32 (tsub x y)))).
  - rewrite zlen_repeat. lia.
  - intros i Hi. rewrite !get_zn by lia. reflexivity.
Qed.

Definition bool_f64s (bits : list bool) : list f64 := map (fun b : bool => if b then f_eighth else f_meighth) bits.

Lemma TrlweEncryptBool_ok pr t bits key r :
  trlwe_N pr = N -> zlen (tA t) = N -> zlen bits = N -> zlen key = N ->
  TrlweEncryptBool O N pr t bits key r = Ok (tenc (bool_f64s bits) key r).
Proof.
  intros Hpr Ht Hb Hk. pose proof law_N. unfold TrlweEncryptBool. rewrite make_ok by apply zlen_nonneg. cbn [bind].
  assert (E: for_each bits (fun (i : Z) (b : bool) (pF64 : list f64) => set pF64 i (if b then f_eighth else f_meighth))
             (repeat (f_of_Z 0) (Z.to_nat (zlen bits))) = Ok (bool_f64s bits)).
  { rewrite (for_each_fill false d0 bits (fun i (b : bool) => Ok (if b then f_eighth else f_meighth))
       (fun i => if znd false bits i then f_eighth else f_meighth)).
    - f_equal. symmetry. apply (eq_tab d0); [apply zlen_map|]. intros i Hi.
      unfold bool_f64s. rewrite (znd_map _ false) by assumption. reflexivity.
    - rewrite zlen_repeat. lia.
    - reflexivity. }
  rewrite E. cbn [bind]. apply TrlweEncryptF64_ok; try assumption. unfold bool_f64s. rewrite zlen_map. assumption.
Qed.

Lemma tr_mu_bool bits r i : 0 <= i < zlen bits ->
  tr_mu (bool_f64s bits) r i == mu_bit (znd false bits i) + F64ToTorus (tr_noise r i).
Proof.
  intro Hi. unfold tr_mu, bool_f64s. rewrite (znd_map _ false) by assumption. rewrite tadd_eqm.
  destruct (znd false bits i); unfold mu_bit.
  - rewrite F64ToTorus_eighth. reflexivity.
  - rewrite F64ToTorus_meighth. apply eqm_iff. exists 1. lia.
Qed.

Lemma trlwe_roundtrip pr bits key r : trlwe_N pr = N -> zlen bits = N -> zlen key = N ->
  exists ct out, (t <- NewTRLWELv1 pr ;; TrlweEncryptBool O N pr t bits key r) = Ok ct /\
    TrlweDecryptBool O N ct key = Ok out /\ zlen out = N /\
    forall i, 0 <= i < N ->
      (znd false out i = znd false bits i <->
       bool_noise_ok (znd false bits i) (centered (F64ToTorus (tr_noise r i)))).
Proof.
  intros Hpr Hb Hk. pose proof law_N. rewrite NewTRLWELv1_ok by assumption. cbn [bind].
  rewrite TrlweEncryptBool_ok by (assumption || apply zlen_zeros).
  eexists. eexists. split; [reflexivity|].
  destruct (tenc_shape (bool_f64s bits) key r) as (H1 & H2 & H3 & H4).
  split; [apply TrlweDecryptBool_ok; assumption|]. split; [apply zlen_tab; lia|].
  intros i Hi. rewrite znd_tab by assumption. apply sign_of_phase.
  rewrite tsub_eqm. cbn [tA tB tenc]. rewrite zn_tab by assumption. rewrite tadd_eqm, tr_mu_bool by lia.
  apply eqm_refl'. ring.
Qed.

(** the phase polynomial of a fresh boolean encryption *)
Lemma trlwe_bool_phase pr bits key r D E delta : trlwe_N pr = N -> zlen bits = N ->
  facc_mul L D E delta -> two31 <= D -> poly_ok N key -> sbound N E key ->
  exists ct, (t <- NewTRLWELv1 pr ;; TrlweEncryptBool O N pr t bits key r) = Ok ct /\
    poly_ok N (tA ct) /\ poly_ok N (tB ct) /\
    forall i, 0 <= i < N ->
      close delta (rlwe_phase N key (tA ct) (tB ct) i) (mu_bit (znd false bits i) + F64ToTorus (tr_noise r i)).
Proof.
  intros Hpr Hb Hacc HD Hk HE. rewrite NewTRLWELv1_ok by assumption. cbn [bind].
  rewrite TrlweEncryptBool_ok by (assumption || apply zlen_zeros || apply Hk).
  eexists. split; [reflexivity|].
  destruct (tenc_shape (bool_f64s bits) key r) as (H1 & H2 & H3 & H4).
  split; [split; assumption|]. split; [split; assumption|].
  intros i Hi. rewrite <- tr_mu_bool by lia. eapply tenc_phase; eassumption.
Qed.

End Enc.

(** ** sample extraction *)

(** the LWE ciphertext of coefficient k *)
Definition extp (N k : Z) (A B : list Z) : list Z :=
  tab (N + 1) (fun i => if i <? N then (if i <=? k then zn A (k - i) else tnot (zn A (N + k - i))) else zn B k).

Lemma extract_coeff_ok A N k i : zlen A = N -> 0 <= k < N -> 0 <= i < N ->
  extract_coeff A N k i = Ok (if i <=? k then zn A (k - i) else tnot (zn A (N + k - i))).
Proof.
  intros HA Hk Hi. unfold extract_coeff. destruct (Z.leb_spec i k).
  - apply get_zn. lia.
  - rewrite get_zn by lia. reflexivity.
Qed.

Lemma extp_ok N k A B : 0 <= k < N -> tok_list A -> tok_list B -> lwe_ok N (extp N k A B).
Proof.
  intros Hk HA HB. split; [apply zlen_tab; lia|]. apply tok_tab. intros i Hi.
  destruct (i <? N); [destruct (i <=? k)|]; try apply tok_tnot; apply zn_tok; assumption.
Qed.

(** number of ones of the key strictly above position k *)
Definition ones_above (N k : Z) (s : list Z) : Z := zsum (N - 1 - k) (fun i => zn s (k + 1 + i)).

Lemma extp_phase N k A B s : 0 <= k < N ->
  lwe_phase N s (extp N k A B) == rlwe_phase N s A B k + ones_above N k s.
Proof.
  intro Hk. rewrite lwe_phase_eqm, rlwe_phase_eqm. unfold extp at 1. rewrite zn_tab by lia.
  destruct (Z.ltb_spec N N) as [|_]; [lia|].
  rewrite (neg_comm N (zn A)) by assumption. unfold negacyclic.
  assert (E: zsum N (fun i => zn (extp N k A B) i * zn s i) ==
             zsum N (fun i => if i <=? k then zn s i * zn A (k - i) else - (zn s i * zn A (N + k - i)))
             - ones_above N k s).
  { assert (E1: zsum N (fun i => zn (extp N k A B) i * zn s i) ==
       zsum N (fun i => (if i <=? k then zn s i * zn A (k - i) else - (zn s i * zn A (N + k - i)))
                        - (if i <=? k then 0 else zn s i))).
    { apply zsum_eqm. intros i Hi. unfold extp. rewrite zn_tab by lia. destruct (Z.ltb_spec i N); [|lia].
      destruct (Z.leb_spec i k).
      - apply eqm_refl'. ring.
      - rewrite tnot_eqm. apply eqm_refl'. ring. }
    rewrite E1, zsum_sub. apply eqm_refl'. f_equal.
    replace N with ((k + 1) + (N - 1 - k)) at 1 by lia. rewrite zsum_split by lia.
    rewrite zsum_zero by (intros i Hi; destruct (Z.leb_spec i k); lia). unfold ones_above. cbn [Z.add].
    apply zsum_ext. intros i Hi. destruct (Z.leb_spec (k + 1 + i) k); [lia|reflexivity]. }
  rewrite E. apply eqm_refl'. ring.
Qed.

Lemma ones_above_le N k s : 0 <= k < N -> bin_key N s -> 0 <= ones_above N k s <= weight N s.
Proof.
  intros Hk [Hl Hs].
  assert (H0: forall i, 0 <= zn s i).
  { intro i. destruct (Z_lt_dec i 0).
    - unfold zn. replace (Z.to_nat i) with O by lia. destruct s as [|x t]; [cbn; lia|]. pose proof (Forall_inv Hs) as Hx. cbn in Hx |- *. lia.
    - destruct (Z_lt_dec i (zlen s)).
      + pose proof (proj1 (Forall_znd _ 0 s) Hs i ltac:(lia)) as H. cbv beta in H. change (znd 0 s i) with (zn s i) in H. lia.
      + rewrite zn_overflow by lia. lia. }
  split; [apply zsum_nonneg; intros; apply H0|].
  assert (E: weight N s = zsum (k + 1) (fun i => zn s i) + ones_above N k s).
  { unfold weight, ones_above. rewrite <- zsum_split by lia. f_equal. lia. }
  assert (0 <= zsum (k + 1) (fun i => zn s i)) by (apply zsum_nonneg; intros; apply H0). lia.
Qed.

Lemma SampleExtractIndex_ok pr t k N : trlwe_N pr = N -> lv1_N pr = N -> 0 <= k < N ->
  zlen (tA t) = N -> zlen (tB t) = N ->
  SampleExtractIndex pr t k = Ok (extp N k (tA t) (tB t)).
Proof.
  intros H1 H2 Hk HA HB. unfold SampleExtractIndex, NewTLWE, SetB. rewrite H1, H2, make_ok by lia. cbn [bind].
  rewrite (for_fill 0 0 N _ (fun i => if i <=? k then zn (tA t) (k - i) else tnot (zn (tA t) (N + k - i))));
    [|lia|rewrite zlen_repeat; lia|intros; apply extract_coeff_ok; assumption].
  cbn [bind]. rewrite get_zn by lia. cbn [bind].
  rewrite zlen_repeat, Z2Nat.id by lia. rewrite set_ok by (rewrite zlen_tab; lia). f_equal.
  apply (eq_tab 0); [rewrite zlen_upd, zlen_tab; lia|]. intros j Hj.
  rewrite znd_upd by (rewrite ?zlen_tab; lia). rewrite znd_tab by lia.
  destruct (Z.eqb_spec j N), (Z.leb_spec 0 j), (Z.ltb_spec j N); cbn [andb]; try lia; reflexivity.
Qed.

Lemma SampleExtractIndexAssign_ok {F} pr (m : mem F) t k out N :
  trlwe_N pr = N -> lv1_N pr = N -> 0 <= k < N ->
  zlen (tm m (rA t)) = N -> zlen (tm m (rB t)) = N -> zlen (tm m out) = N + 1 ->
  out <> rA t -> out <> rB t ->
  exists m', SampleExtractIndexAssign pr m t k out = Ok m' /\
    tm m' out = extp N k (tm m (rA t)) (tm m (rB t)) /\ framed (eq out) none none m m'.
Proof.
  intros H1 H2 Hk HA HB Ho NA NB. unfold SampleExtractIndexAssign. rewrite H1, H2.
  destruct (mem_fill m out 0 N (fun i m => extract_coeff (tm m (rA t)) N k i)
     (fun i => if i <=? k then zn (tm m (rA t)) (k - i) else tnot (zn (tm m (rA t)) (N + k - i)))) as (m1 & E & Ht & Hfr).
  - lia.
  - lia.
  - intros i m' Hi Hfr _ _. rewrite (fr_t _ _ _ _ _ Hfr) by congruence. apply extract_coeff_ok; assumption.
  - rewrite E. cbn [bind].
    assert (HBm: tm m1 (rB t) = tm m (rB t)) by (apply (fr_t _ _ _ _ _ Hfr); congruence).
    rewrite load_ok by (rewrite HBm; lia). cbn [bind]. rewrite store_ok by (rewrite Ht, zlen_tab; lia).
    eexists; split; [reflexivity|]. split.
    + rewrite tm_tset, Ht, HBm, Ho. apply (eq_tab 0); [rewrite zlen_upd, zlen_tab; lia|]. intros j Hj.
      rewrite znd_upd by (rewrite ?zlen_tab; lia). rewrite znd_tab by lia.
      destruct (Z.eqb_spec j N), (Z.leb_spec 0 j), (Z.ltb_spec j N); cbn [andb]; try lia; reflexivity.
    + eapply framed_trans; [exact Hfr|]. apply framed_tset. reflexivity.
Qed.

(** SampleExtractIndex2: works when the dimensions are equal, else panics *)
Lemma SampleExtractIndex2_panics pr t k : zlen (tA t) <> lv0_N pr -> is_panic (SampleExtractIndex2 pr t k) = true.
Proof.
  intro H. unfold SampleExtractIndex2, NewTLWE. destruct (make 0 (lv0_N pr + 1)); [|reflexivity]. cbn [bind].
  destruct (Z.eqb_spec (zlen (tA t)) (lv0_N pr)); [contradiction|reflexivity].
Qed.

Lemma SampleExtractIndex2_ok pr t k N : lv0_N pr = N -> 0 <= k < N ->
  zlen (tA t) = N -> zlen (tB t) = N ->
  SampleExtractIndex2 pr t k = Ok (extp N k (tA t) (tB t)).
Proof.
  intros H1 Hk HA HB. unfold SampleExtractIndex2, NewTLWE, SetB. rewrite H1, HA, make_ok by lia. cbn [bind].
  rewrite Z.eqb_refl. cbn [negb].
  rewrite (for_fill 0 0 N _ (fun i => if i <=? k then zn (tA t) (k - i) else tnot (zn (tA t) (N + k - i))));
    [|lia|rewrite zlen_repeat; lia|intros; apply extract_coeff_ok; assumption].
  cbn [bind]. rewrite get_zn by lia. cbn [bind].
  rewrite zlen_repeat, Z2Nat.id by lia. rewrite set_ok by (rewrite zlen_tab; lia). f_equal.
  apply (eq_tab 0); [rewrite zlen_upd, zlen_tab; lia|]. intros j Hj.
  rewrite znd_upd by (rewrite ?zlen_tab; lia). rewrite znd_tab by lia.
  destruct (Z.eqb_spec j N), (Z.leb_spec 0 j), (Z.ltb_spec j N); cbn [andb]; try lia; reflexivity.
Qed.

(** in every shipped set the two dimensions differ *)
Lemma shipped_dims_differ level : lv1_N (get_params level) <> lv0_N (get_params level).
Proof. revert level. apply (get_params_cases (fun p => lv1_N p <> lv0_N p)); vm_compute; discriminate. Qed.

Lemma SampleExtractIndex2_shipped level t k : zlen (tA t) = trlwe_N (get_params level) ->
  is_panic (SampleExtractIndex2 (get_params level) t k) = true.
Proof.
  intro H. apply SampleExtractIndex2_panics. rewrite H.
  destruct (get_params_wf level) as (_ & -> & _). apply shipped_dims_differ.
Qed.

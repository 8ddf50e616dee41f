(** * Facts about package tlwe *)
From Coq Require Import Lia ZifyBool ZifyNat.
From Coq Require Import Setoid Morphisms.
From Flocq Require Import Core BinarySingleNaN.
From Verif Require Import GoBase GoFacts F64 F64Facts Utils UtilsFacts Tlwe.
Local Open Scope Z_scope.
Ltac Zify.zify_post_hook ::= Z.div_mod_to_equations.

Lemma lwe_phase_eqm n s ct : lwe_phase n s ct == zn ct n - zsum n (fun i => zn ct i * zn s i).
Proof. apply eqm_w32. Qed.

Lemma lwe_phase_tok n s ct : tok (lwe_phase n s ct).
Proof. apply tok_w32. Qed.

Lemma lwe_phase_char n s ct x : x == zn ct n - zsum n (fun i => zn ct i * zn s i) -> lwe_phase n s ct = w32 x.
Proof. intro H. unfold lwe_phase. symmetry. exact H. Qed.

Lemma inner_product_ok n P key : 0 <= n -> n <= zlen P -> n <= zlen key ->
  inner_product n P key = Ok (w32 (zsum n (fun i => zn P i * zn key i))).
Proof.
  intros Hn HP Hk. unfold inner_product.
  destruct (for_range_inv (fun i ip => ip = w32 (zsum i (fun i => zn P i * zn key i))) 0 n
    (fun i ip => pi <- get P i ;; ki <- get key i ;; Ok (tadd ip (tmul pi ki))) 0) as (s & E & Hs).
  - lia.
  - rewrite zsum_0 by lia. reflexivity.
  - intros i ip Hi ->. rewrite !get_zn by lia. cbn [bind]. eexists; split; [reflexivity|].
    rewrite zsum_S by lia. unfold tadd. apply w32_eqm. rewrite eqm_w32, tmul_eqm. reflexivity.
  - rewrite E, Hs. reflexivity.
Qed.

Lemma phase_sub n P key : tsub (zn P n) (w32 (zsum n (fun i => zn P i * zn key i))) = lwe_phase n key P.
Proof. unfold tsub, lwe_phase. change ((zn P n - zsum n (fun i => zn P i * zn key i)) mod two32)
  with (w32 (zn P n - zsum n (fun i => zn P i * zn key i))). apply w32_eqm. rewrite eqm_w32. reflexivity. Qed.

Lemma DecryptBool_ok n P key : 0 <= n -> n < zlen P -> n <= zlen key ->
  DecryptBool n P key = Ok (0 <=? centered (lwe_phase n key P)).
Proof.
  intros. unfold DecryptBool. rewrite inner_product_ok by lia. cbn [bind].
  rewrite get_zn by lia. cbn [bind]. rewrite phase_sub. reflexivity.
Qed.

Lemma DecryptBoolLv1_ok n P key : 0 <= n -> n < zlen P -> n = zlen key ->
  DecryptBoolLv1 n P key = Ok (0 <=? centered (lwe_phase n key P)).
Proof.
  intros H1 H2 H3. unfold DecryptBoolLv1. rewrite inner_product_ok by lia. cbn [bind].
  rewrite <- H3. rewrite get_zn by lia. cbn [bind]. rewrite phase_sub. reflexivity.
Qed.

(** the ciphertext EncryptF64 produces *)
Lemma EncryptF64_ok n P p key r : 0 <= n -> n < zlen P -> n <= zlen key ->
  exists ct, EncryptF64 n P p key r = Ok ct
    /\ zlen ct = zlen P
    /\ (forall i, 0 <= i < n -> zn ct i = w32 (er_mask r i))
    /\ (forall i, n < i -> zn ct i = zn P i)
    /\ zn ct n = w32 (zsum n (fun i => zn key i * w32 (er_mask r i)) + (F64ToTorus p + F64ToTorus (er_noise r))).
Proof.
  intros Hn HP Hk. unfold EncryptF64.
  for_inv (fun i (st : Z * list Z) => let '(ip, Q) := st in
        ip = w32 (zsum i (fun i => zn key i * w32 (er_mask r i))) /\ zlen Q = zlen P
        /\ (forall j, 0 <= j < i -> zn Q j = w32 (er_mask r j))
        /\ (forall j, i <= j -> zn Q j = zn P j)) E HI.
  - lia.
  - rewrite zsum_0 by lia. repeat split; auto. intros; lia.
  - intros i [ip Q] Hi (Hip & HQl & HQ1 & HQ2). cbv zeta. rewrite get_zn by lia. cbn [bind].
    rewrite set_ok by lia. cbn [bind]. eexists; split; [reflexivity|]. cbv beta iota.
    split; [|split; [|split]].
    + rewrite Hip, zsum_S by lia. unfold tadd. apply w32_eqm. rewrite eqm_w32, tmul_eqm. reflexivity.
    + rewrite zlen_upd; assumption.
    + intros j Hj. rewrite zn_upd by lia. destruct (Z.eqb_spec j i); [subst; reflexivity|]. apply HQ1; lia.
    + intros j Hj. rewrite zn_upd by lia. destruct (Z.eqb_spec j i); [lia|]. apply HQ2; lia.
  - destruct st as [ip Q]. destruct HI as (Hip & HQl & HQ1 & HQ2).
    unfold SetB. rewrite set_ok by lia. eexists; split; [reflexivity|].
    split; [rewrite zlen_upd; lia|]. split; [|split].
    + intros i Hi. rewrite zn_upd by lia. destruct (Z.eqb_spec i n); [lia|]. apply HQ1; lia.
    + intros i Hi. rewrite zn_upd by lia. destruct (Z.eqb_spec i n); [lia|]. apply HQ2; lia.
    + rewrite zn_upd by lia. rewrite Z.eqb_refl. subst ip. unfold tadd. apply w32_eqm.
      rewrite eqm_w32. unfold GaussianF64, GaussianTorus. rewrite tadd_eqm. reflexivity.
Qed.

(** phase of a fresh encryption: message plus noise, exactly *)
Lemma EncryptF64_phase n P p key r ct : 0 <= n -> n < zlen P -> n <= zlen key ->
  EncryptF64 n P p key r = Ok ct ->
  zlen ct = zlen P /\ lwe_phase n key ct = w32 (F64ToTorus p + F64ToTorus (er_noise r)).
Proof.
  intros Hn HP Hk H. destruct (EncryptF64_ok n P p key r Hn HP Hk) as (ct' & E & Hl & H1 & H2 & H3).
  rewrite E in H. injection H as <-. split; [assumption|]. apply lwe_phase_char.
  rewrite H3, eqm_w32.
  rewrite (zsum_ext n (fun i => zn ct' i * zn key i) (fun i => zn key i * w32 (er_mask r i))).
  - apply eqm_refl'. lia.
  - intros i Hi. rewrite H1 by assumption. lia.
Qed.

Lemma EncryptF64_tok n P p key r ct : 0 <= n -> zlen P = n + 1 -> n <= zlen key ->
  EncryptF64 n P p key r = Ok ct -> lwe_ok n ct.
Proof.
  intros Hn HP Hk H. destruct (EncryptF64_ok n P p key r Hn ltac:(lia) Hk) as (ct' & E & Hl & H1 & H2 & H3).
  rewrite E in H. injection H as <-. split; [lia|].
  apply (Forall_znd _ 0). intros i Hi. change (znd 0 ct' i) with (zn ct' i).
  destruct (Z.eq_dec i n) as [->|]; [rewrite H3|rewrite H1 by lia]; apply tok_w32.
Qed.

Lemma F64ToTorus_eighth : F64ToTorus f_eighth = 2 ^ 29.
Proof. vm_compute. reflexivity. Qed.
Lemma F64ToTorus_meighth : F64ToTorus f_meighth = two32 - 2 ^ 29.
Proof. vm_compute. reflexivity. Qed.

Lemma EncryptBool_phase n P b key r ct : 0 <= n -> n < zlen P -> n <= zlen key ->
  EncryptBool n P b key r = Ok ct ->
  zlen ct = zlen P /\ lwe_phase n key ct == mu_bit b + F64ToTorus (er_noise r).
Proof.
  intros Hn HP Hk H. apply EncryptF64_phase in H; try assumption. destruct H as [Hl H]. split; [assumption|].
  rewrite H, eqm_w32. destruct b; unfold mu_bit.
  - rewrite F64ToTorus_eighth. reflexivity.
  - rewrite F64ToTorus_meighth. apply eqm_iff. exists 1. lia.
Qed.

(** decision on the circle: [mu_bit b + e] is on b's side iff e is in the
    half-open interval of width 1/2 around it *)
Lemma centered_eqm a b : a == b -> centered a = centered b.
Proof. apply int32_proper. Qed.
Lemma centered_range a : - two31 <= centered a < two31.
Proof. apply int32_range. Qed.
Lemma centered_eq a : centered a == a.
Proof. apply eqm_int32. Qed.
Lemma centered_unique z e : z == e -> - two31 <= e < two31 -> centered z = e.
Proof. apply int32_eqm_unique. Qed.

(** ** linear operations *)
Lemma tlwe_map2_ok n f t other : 0 <= n -> n + 1 <= zlen t -> n + 1 <= zlen other ->
  tlwe_map2 n f t other = Ok (tab (n + 1) (fun i => f (zn t i) (zn other i))).
Proof.
  intros Hn Ht Ho. unfold tlwe_map2, NewTLWE. rewrite make_ok by lia. cbn [bind].
  rewrite zlen_repeat, Z2Nat.id by lia.
  rewrite (for_fill_all 0 (fun i => x <- get t i ;; y <- get other i ;; Ok (f x y))
                          (fun i => f (zn t i) (zn other i))).
  - reflexivity.
  - rewrite zlen_repeat; lia.
  - intros i Hi. rewrite !get_zn by lia. reflexivity.
Qed.

Lemma Neg_ok n t : 0 <= n -> n + 1 <= zlen t -> Neg n t = Ok (tab (n + 1) (fun i => tneg (zn t i))).
Proof.
  intros Hn Ht. unfold Neg, NewTLWE. rewrite make_ok by lia. cbn [bind].
  rewrite zlen_repeat, Z2Nat.id by lia.
  rewrite (for_fill_all 0 (fun i => x <- get t i ;; Ok (tsub 0 x)) (fun i => tneg (zn t i))).
  - reflexivity.
  - rewrite zlen_repeat; lia.
  - intros i Hi. rewrite !get_zn by lia. reflexivity.
Qed.

(** a pointwise linear combination acts linearly on phases *)
Lemma lwe_phase_lin n s t1 t2 t3 c1 c2 : 0 <= n ->
  (forall i, 0 <= i <= n -> zn t3 i == c1 * zn t1 i + c2 * zn t2 i) ->
  lwe_phase n s t3 == c1 * lwe_phase n s t1 + c2 * lwe_phase n s t2.
Proof.
  intros Hn H. rewrite !lwe_phase_eqm. rewrite H by lia.
  rewrite (zsum_eqm n (fun i => zn t3 i * zn s i)
    (fun i => c1 * (zn t1 i * zn s i) + c2 * (zn t2 i * zn s i))).
  - rewrite zsum_add, !zsum_mul_l. apply eqm_refl'. ring.
  - intros i Hi. rewrite H by lia. apply eqm_refl'. ring.
Qed.

Lemma tok_tab n f : (forall i, 0 <= i < n -> tok (f i)) -> tok_list (tab n f).
Proof. intro H. apply Forall_tab. assumption. Qed.

Lemma Add_ok n s t u : 0 <= n -> zlen t = n + 1 -> zlen u = n + 1 ->
  exists r, Add n t u = Ok r /\ lwe_ok n r /\ lwe_phase n s r == lwe_phase n s t + lwe_phase n s u.
Proof.
  intros Hn Ht Hu. unfold Add. rewrite tlwe_map2_ok by lia. eexists; split; [reflexivity|].
  split; [split; [apply zlen_tab; lia|apply tok_tab; intros; apply tok_w32]|].
  rewrite (lwe_phase_lin n s t u _ 1 1) by (assumption || (intros; rewrite zn_tab by lia; rewrite tadd_eqm; apply eqm_refl'; ring)).
  apply eqm_refl'; ring.
Qed.
Lemma Sub_ok n s t u : 0 <= n -> zlen t = n + 1 -> zlen u = n + 1 ->
  exists r, Sub n t u = Ok r /\ lwe_ok n r /\ lwe_phase n s r == lwe_phase n s t - lwe_phase n s u.
Proof.
  intros Hn Ht Hu. unfold Sub. rewrite tlwe_map2_ok by lia. eexists; split; [reflexivity|].
  split; [split; [apply zlen_tab; lia|apply tok_tab; intros; apply tok_w32]|].
  rewrite (lwe_phase_lin n s t u _ 1 (-1)) by (assumption || (intros; rewrite zn_tab by lia; rewrite tsub_eqm; apply eqm_refl'; ring)).
  apply eqm_refl'; ring.
Qed.
Lemma Neg_phase n s t : 0 <= n -> zlen t = n + 1 ->
  exists r, Neg n t = Ok r /\ lwe_ok n r /\ lwe_phase n s r == - lwe_phase n s t.
Proof.
  intros Hn Ht. rewrite Neg_ok by lia. eexists; split; [reflexivity|].
  split; [split; [apply zlen_tab; lia|apply tok_tab; intros; apply tok_w32]|].
  rewrite (lwe_phase_lin n s t t _ (-1) 0) by (assumption || (intros; rewrite zn_tab by lia; rewrite tneg_eqm; apply eqm_refl'; ring)).
  apply eqm_refl'; ring.
Qed.
Lemma AddMul_ok n s t u m : 0 <= n -> zlen t = n + 1 -> zlen u = n + 1 ->
  exists r, AddMul n t u m = Ok r /\ lwe_ok n r /\ lwe_phase n s r == lwe_phase n s t + m * lwe_phase n s u.
Proof.
  intros Hn Ht Hu. unfold AddMul. rewrite tlwe_map2_ok by lia. eexists; split; [reflexivity|].
  split; [split; [apply zlen_tab; lia|apply tok_tab; intros; apply tok_w32]|].
  rewrite (lwe_phase_lin n s t u _ 1 m) by (assumption || (intros; rewrite zn_tab by lia; rewrite tadd_eqm, tmul_eqm; apply eqm_refl'; ring)).
  apply eqm_refl'; ring.
Qed.
Lemma SubMul_ok n s t u m : 0 <= n -> zlen t = n + 1 -> zlen u = n + 1 ->
  exists r, SubMul n t u m = Ok r /\ lwe_ok n r /\ lwe_phase n s r == lwe_phase n s t - m * lwe_phase n s u.
Proof.
  intros Hn Ht Hu. unfold SubMul. rewrite tlwe_map2_ok by lia. eexists; split; [reflexivity|].
  split; [split; [apply zlen_tab; lia|apply tok_tab; intros; apply tok_w32]|].
  rewrite (lwe_phase_lin n s t u _ 1 (-m)) by (assumption || (intros; rewrite zn_tab by lia; rewrite tsub_eqm, tmul_eqm; apply eqm_refl'; ring)).
  apply eqm_refl'; ring.
Qed.

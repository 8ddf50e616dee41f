(** * The linear parts of the gates, NOT and Constant *)
From Coq Require Import Lia ZifyBool Setoid Morphisms.
From Verif Require Import GoBase GoFacts GoMem F64 Utils UtilsFacts Params Tlwe TlweFacts BasicFacts
  Poly Trlwe Trgsw Evaluator Gates RunSpec.
Local Open Scope Z_scope.
Ltac Zify.zify_post_hook ::= Z.div_mod_to_equations.

Lemma F64ToTorus_quarter : F64ToTorus f_quarter = 2 ^ 30.
Proof. vm_compute. reflexivity. Qed.
Lemma F64ToTorus_mquarter : F64ToTorus f_mquarter = two32 - 2 ^ 30.
Proof. vm_compute. reflexivity. Qed.

(** [lin] computes a ciphertext of phase ca*a + cb*b + c *)
Definition lin_spec (n : Z) (lin : list Z -> list Z -> res (list Z)) (ca cb c : Z) : Prop :=
  forall s a b, zlen a = n + 1 -> zlen b = n + 1 ->
  exists r, lin a b = Ok r /\ lwe_ok n r /\
    lwe_phase n s r == ca * lwe_phase n s a + cb * lwe_phase n s b + c.

Lemma lin_spec_eqm n lin ca cb c c' : c == c' -> lin_spec n lin ca cb c -> lin_spec n lin ca cb c'.
Proof.
  intros Hc H s a b Ha Hb. destruct (H s a b Ha Hb) as (r & E & Hr & Hp).
  exists r. split; [exact E|]. split; [exact Hr|]. rewrite Hp, Hc. reflexivity.
Qed.

Lemma add_b_ok n s c x : 0 <= n -> lwe_ok n x ->
  exists r, add_b n c x = Ok r /\ lwe_ok n r /\ lwe_phase n s r == lwe_phase n s x + c.
Proof.
  intros Hn [Hl Hx]. unfold add_b, tlwe_B, SetB. rewrite get_zn by lia. cbn [bind]. rewrite set_ok by lia.
  eexists; split; [reflexivity|]. split.
  - split; [rewrite zlen_upd; lia|]. unfold tok_list. rewrite (Forall_znd _ 0). intros i Hi. rewrite zlen_upd in Hi.
    rewrite znd_upd by lia. destruct (i =? n); [apply tok_w32|]. apply (proj1 (Forall_znd tok 0 x) Hx). lia.
  - rewrite !lwe_phase_eqm. rewrite zn_upd by lia. rewrite Z.eqb_refl, tadd_eqm.
    rewrite (zsum_ext n _ (fun i => zn x i * zn s i)).
    + apply eqm_refl'. ring.
    + intros i Hi. rewrite zn_upd by lia. destruct (Z.eqb_spec i n); [lia|reflexivity].
Qed.

Lemma prepare_ok n f c ca cb : 0 <= n -> (forall x y, tok (f x y)) -> (forall x y, f x y == ca * x + cb * y) ->
  lin_spec n (prepare n f c) ca cb c.
Proof.
  intros Hn Hf Hl s a b Ha Hb. unfold prepare, NewTLWE. rewrite make_ok by lia. cbn [bind].
  assert (Hz: zlen (repeat 0 (Z.to_nat (n + 1))) = n + 1) by (rewrite zlen_repeat; lia).
  rewrite (for_fill 0 0 n (fun i => x <- get a i ;; y <- get b i ;; Ok (f x y)) (fun i => f (zn a i) (zn b i)));
    [|lia|lia|intros i Hi; rewrite !get_zn by lia; reflexivity].
  cbn [bind]. rewrite !get_zn by lia. cbn [bind]. rewrite Hz. rewrite set_ok by (rewrite ?zlen_tab; lia).
  set (r := upd _ _ _). exists r. split; [reflexivity|].
  assert (E: forall i, 0 <= i <= n -> zn r i = if i =? n then tadd (f (zn a n) (zn b n)) c else f (zn a i) (zn b i)).
  { intros i Hi. unfold r. rewrite zn_upd by (rewrite ?zlen_tab; lia). destruct (Z.eqb_spec i n); [reflexivity|].
    rewrite zn_tab by lia. destruct (Z.leb_spec 0 i); [|lia]. destruct (Z.ltb_spec i n); [reflexivity|lia]. }
  assert (Hr: zlen r = n + 1) by (unfold r; rewrite zlen_upd, zlen_tab; lia).
  split.
  - split; [assumption|]. unfold tok_list. rewrite (Forall_znd _ 0). intros i Hi. change (znd 0 r i) with (zn r i).
    rewrite E by lia. destruct (i =? n); [apply tok_w32|apply Hf].
  - rewrite !lwe_phase_eqm. rewrite E by lia. rewrite Z.eqb_refl, tadd_eqm, Hl.
    rewrite (zsum_eqm n (fun i => zn r i * zn s i) (fun i => ca * (zn a i * zn s i) + cb * (zn b i * zn s i))).
    + rewrite zsum_add, !zsum_mul_l. apply eqm_refl'. ring.
    + intros i Hi. rewrite E by lia. destruct (Z.eqb_spec i n); [lia|]. rewrite Hl. apply eqm_refl'. ring.
Qed.


Section Lin.
Context (n : Z) (Hn : 0 <= n).

Lemma eqm_m29 : two32 - 2 ^ 29 == - 2 ^ 29.
Proof. apply eqm_iff. exists 1. lia. Qed.
Lemma eqm_m30 : two32 - 2 ^ 30 == - 2 ^ 30.
Proof. apply eqm_iff. exists 1. lia. Qed.

Lemma PrepareNAND_spec : lin_spec n (PrepareNAND n) (-1) (-1) (2 ^ 29).
Proof.
  unfold PrepareNAND. rewrite F64ToTorus_eighth. apply prepare_ok; [exact Hn|intros; apply tok_w32|].
  intros. rewrite tneg_eqm, tadd_eqm. apply eqm_refl'. ring.
Qed.
Lemma PrepareAND_spec : lin_spec n (PrepareAND n) 1 1 (- 2 ^ 29).
Proof.
  eapply lin_spec_eqm; [exact eqm_m29|]. unfold PrepareAND. rewrite F64ToTorus_meighth.
  apply prepare_ok; [exact Hn|intros; apply tok_w32|]. intros. rewrite tadd_eqm. apply eqm_refl'. ring.
Qed.
Lemma PrepareOR_spec : lin_spec n (PrepareOR n) 1 1 (2 ^ 29).
Proof.
  unfold PrepareOR. rewrite F64ToTorus_eighth.
  apply prepare_ok; [exact Hn|intros; apply tok_w32|]. intros. rewrite tadd_eqm. apply eqm_refl'. ring.
Qed.
Lemma PrepareXOR_spec : lin_spec n (PrepareXOR n) 1 2 (2 ^ 30).
Proof.
  unfold PrepareXOR. rewrite F64ToTorus_quarter.
  apply prepare_ok; [exact Hn|intros; apply tok_w32|]. intros. rewrite tadd_eqm, tmul_eqm. apply eqm_refl'. ring.
Qed.

Ltac fin s Hr c :=
  match type of Hr with lwe_ok _ ?x =>
    destruct (add_b_ok n s c x Hn Hr) as (rr & -> & ? & Hp); exists rr; split; [reflexivity|]; split; [assumption|];
    rewrite Hp end.

Lemma xnor_spec : lin_spec n (xnor_lin n) 1 (-2) (2 ^ 30).
Proof.
  intros s a b Ha Hb. unfold xnor_lin. destruct (SubMul_ok n s a b 2 Hn Ha Hb) as (r & -> & Hr & Hq). cbn [bind].
  fin s Hr (F64ToTorus f_quarter). rewrite Hq, F64ToTorus_quarter. apply eqm_refl'. ring.
Qed.
Lemma nor_spec : lin_spec n (nor_lin n) (-1) (-1) (- 2 ^ 29).
Proof.
  intros s a b Ha Hb. unfold nor_lin. destruct (Add_ok n s a b Hn Ha Hb) as (r & -> & Hr & Hq). cbn [bind].
  destruct (Neg_phase n s r Hn (proj1 Hr)) as (r2 & -> & Hr2 & Hq2). cbn [bind].
  fin s Hr2 (F64ToTorus f_meighth). rewrite Hq2, Hq, F64ToTorus_meighth, eqm_m29. apply eqm_refl'. ring.
Qed.
Lemma andny_spec : lin_spec n (andny_lin n) (-1) 1 (- 2 ^ 29).
Proof.
  intros s a b Ha Hb. unfold andny_lin. destruct (Neg_phase n s a Hn Ha) as (r & -> & Hr & Hq). cbn [bind].
  destruct (Add_ok n s r b Hn (proj1 Hr) Hb) as (r2 & -> & Hr2 & Hq2). cbn [bind].
  fin s Hr2 (F64ToTorus f_meighth). rewrite Hq2, Hq, F64ToTorus_meighth, eqm_m29. apply eqm_refl'. ring.
Qed.
Lemma andyn_spec : lin_spec n (andyn_lin n) 1 (-1) (- 2 ^ 29).
Proof.
  intros s a b Ha Hb. unfold andyn_lin. destruct (Sub_ok n s a b Hn Ha Hb) as (r2 & -> & Hr2 & Hq2). cbn [bind].
  fin s Hr2 (F64ToTorus f_meighth). rewrite Hq2, F64ToTorus_meighth, eqm_m29. apply eqm_refl'. ring.
Qed.
Lemma orny_spec : lin_spec n (orny_lin n) (-1) 1 (2 ^ 29).
Proof.
  intros s a b Ha Hb. unfold orny_lin. destruct (Neg_phase n s a Hn Ha) as (r & -> & Hr & Hq). cbn [bind].
  destruct (Add_ok n s r b Hn (proj1 Hr) Hb) as (r2 & -> & Hr2 & Hq2). cbn [bind].
  fin s Hr2 (F64ToTorus f_eighth). rewrite Hq2, Hq, F64ToTorus_eighth. apply eqm_refl'. ring.
Qed.
Lemma oryn_spec : lin_spec n (oryn_lin n) 1 (-1) (2 ^ 29).
Proof.
  intros s a b Ha Hb. unfold oryn_lin. destruct (Sub_ok n s a b Hn Ha Hb) as (r2 & -> & Hr2 & Hq2). cbn [bind].
  fin s Hr2 (F64ToTorus f_eighth). rewrite Hq2, F64ToTorus_eighth. apply eqm_refl'. ring.
Qed.

(** ** the batch versions compute exactly the same ciphertexts *)

Lemma add_b_tab c f : add_b n c (tab (n + 1) f) =
  Ok (tab (n + 1) (fun i => if i =? n then tadd (f n) c else f i)).
Proof.
  unfold add_b, tlwe_B, SetB. rewrite get_zn by (rewrite ?zlen_tab; lia). cbn [bind].
  rewrite zn_tab by lia. rewrite set_ok by (rewrite ?zlen_tab; lia). f_equal.
  apply (eq_tab 0); [rewrite zlen_upd, zlen_tab; lia|]. intros i Hi. rewrite znd_upd by (rewrite ?zlen_tab; lia).
  destruct (Z.eqb_spec i n); [reflexivity|]. apply znd_tab. lia.
Qed.

Lemma prepare_tab f c a b : zlen a = n + 1 -> zlen b = n + 1 ->
  prepare n f c a b = Ok (tab (n + 1) (fun i => if i =? n then tadd (f (zn a n) (zn b n)) c else f (zn a i) (zn b i))).
Proof.
  intros Ha Hb. unfold prepare, NewTLWE. rewrite make_ok by lia. cbn [bind].
  assert (Hz: zlen (repeat 0 (Z.to_nat (n + 1))) = n + 1) by (rewrite zlen_repeat; lia).
  rewrite (for_fill 0 0 n (fun i => x <- get a i ;; y <- get b i ;; Ok (f x y)) (fun i => f (zn a i) (zn b i)));
    [|lia|lia|intros i Hi; rewrite !get_zn by lia; reflexivity].
  cbn [bind]. rewrite !get_zn by lia. cbn [bind]. rewrite Hz. rewrite set_ok by (rewrite ?zlen_tab; lia). f_equal.
  apply (eq_tab 0); [rewrite zlen_upd, zlen_tab; lia|]. intros i Hi. rewrite znd_upd by (rewrite ?zlen_tab; lia).
  destruct (Z.eqb_spec i n); [reflexivity|].
  rewrite znd_tab by lia. destruct (Z.leb_spec 0 i); [|lia]. destruct (Z.ltb_spec i n); [reflexivity|lia].
Qed.

Lemma batch_nand_eq a b : zlen a = n + 1 -> zlen b = n + 1 -> batch_nand_lin n a b = PrepareNAND n a b.
Proof.
  intros Ha Hb. unfold batch_nand_lin, PrepareNAND, Add. rewrite tlwe_map2_ok, prepare_tab by lia. cbn [bind].
  rewrite Neg_ok by (rewrite ?zlen_tab; lia). cbn [bind]. rewrite add_b_tab. f_equal. apply tab_ext. intros i Hi.
  rewrite !zn_tab by lia. reflexivity.
Qed.
Lemma batch_and_eq a b : zlen a = n + 1 -> zlen b = n + 1 -> batch_and_lin n a b = PrepareAND n a b.
Proof.
  intros Ha Hb. unfold batch_and_lin, PrepareAND, Add. rewrite tlwe_map2_ok, prepare_tab by lia. cbn [bind].
  rewrite add_b_tab. reflexivity.
Qed.
Lemma batch_or_eq a b : zlen a = n + 1 -> zlen b = n + 1 -> batch_or_lin n a b = PrepareOR n a b.
Proof.
  intros Ha Hb. unfold batch_or_lin, PrepareOR, Add. rewrite tlwe_map2_ok, prepare_tab by lia. cbn [bind].
  rewrite add_b_tab. reflexivity.
Qed.
Lemma batch_xor_eq a b : zlen a = n + 1 -> zlen b = n + 1 -> batch_xor_lin n a b = PrepareXOR n a b.
Proof.
  intros Ha Hb. unfold batch_xor_lin, PrepareXOR, AddMul. rewrite tlwe_map2_ok, prepare_tab by lia. cbn [bind].
  rewrite add_b_tab. f_equal. apply tab_ext. intros i Hi.
  assert (E: forall y, tmul y 2 = tmul 2 y) by (intros; unfold tmul; f_equal; ring).
  rewrite ?E. reflexivity.
Qed.
Lemma batch_nor_eq a b : batch_nor_lin n a b = nor_lin n a b.
Proof. reflexivity. Qed.

(** the batch XNOR has -1/4 instead of +1/4 *)
Lemma batch_xnor_spec : lin_spec n (batch_xnor_lin n) 1 (-2) (- 2 ^ 30).
Proof.
  intros s a b Ha Hb. unfold batch_xnor_lin. destruct (SubMul_ok n s a b 2 Hn Ha Hb) as (r & -> & Hr & Hq). cbn [bind].
  fin s Hr (F64ToTorus f_mquarter). rewrite Hq, F64ToTorus_mquarter, eqm_m30. apply eqm_refl'. ring.
Qed.

(** ** NOT and Constant *)
Lemma not_ok s ct : zlen ct = n + 1 -> zlen s = n ->
  exists r b b', not_val n ct = Ok r /\ lwe_ok n r /\ DecryptBool n ct s = Ok b /\ DecryptBool n r s = Ok b' /\
    (b' = negb b <-> lwe_phase n s ct <> 0 /\ lwe_phase n s ct <> two31).
Proof.
  intros Hc Hs. unfold not_val. destruct (Neg_phase n s ct Hn Hc) as (r & -> & Hr & Hp).
  exists r, (0 <=? centered (lwe_phase n s ct)), (0 <=? centered (lwe_phase n s r)).
  split; [reflexivity|]. split; [assumption|]. split; [apply DecryptBool_ok; lia|].
  split; [apply DecryptBool_ok; destruct Hr; lia|].
  rewrite (centered_eqm _ _ Hp). pose proof (lwe_phase_tok n s ct) as Ht. unfold tok in Ht.
  set (p := lwe_phase n s ct) in *. clearbody p. clear Hp. unfold centered, two31, two32 in *.
  destruct (Z.leb_spec 0 ((p + 2147483648) mod 4294967296 - 2147483648));
  destruct (Z.leb_spec 0 ((- p + 2147483648) mod 4294967296 - 2147483648)); cbn [negb]; split; intro; try discriminate;
    try reflexivity; lia.
Qed.

Lemma constant_ok s v : zlen s = n ->
  exists ct, constant_val n v = Ok ct /\ lwe_ok n ct /\ DecryptBool n ct s = Ok v /\
    lwe_phase n s ct == mu_bit v + (if v then 0 else 1).
Proof.
  intro Hs. unfold constant_val, NewTLWE, SetB. rewrite make_ok by lia. cbn [bind].
  assert (Hz: zlen (repeat 0 (Z.to_nat (n + 1))) = n + 1) by (rewrite zlen_repeat; lia).
  rewrite set_ok by lia. set (mu := if negb v then _ else _).
  assert (Hm: tok mu /\ mu == mu_bit v + (if v then 0 else 1)).
  { unfold mu. rewrite F64ToTorus_eighth. destruct v; cbn [negb].
    - split; [unfold tok, two32; lia|reflexivity].
    - split; [apply tok_w32|]. rewrite tsub_eqm. unfold mu_bit. apply eqm_refl'. lia. }
  destruct Hm as [Hm1 Hm2]. eexists; split; [reflexivity|]. set (ct := upd _ _ _).
  assert (E: forall i, 0 <= i <= n -> zn ct i = if i =? n then mu else 0).
  { intros i Hi. unfold ct. rewrite zn_upd by lia. destruct (i =? n); [reflexivity|]. apply zn_repeat0. }
  assert (Hl: zlen ct = n + 1) by (unfold ct; rewrite zlen_upd; lia).
  assert (Hp: lwe_phase n s ct == mu_bit v + (if v then 0 else 1)).
  { rewrite lwe_phase_eqm, E by lia. rewrite Z.eqb_refl, zsum_zero.
    - rewrite <- Hm2. apply eqm_refl'. ring.
    - intros i Hi. rewrite E by lia. destruct (Z.eqb_spec i n); [lia|ring]. }
  split; [split; [assumption|]|].
  { unfold tok_list. rewrite (Forall_znd _ 0). intros i Hi. change (znd 0 ct i) with (zn ct i).
    rewrite E by lia. destruct (i =? n); [assumption|unfold tok, two32; lia]. }
  split; [|assumption].
  rewrite DecryptBool_ok by lia. f_equal. apply (sign_of_phase _ _ _ Hp).
  unfold bool_noise_ok, centered, two31, two32. destruct v; cbn; lia.
Qed.
End Lin.

(** ** margins: the value a bootstrap will see *)

Definition gate_ideal (ca cb c : Z) (op : bool -> bool -> bool) : Prop :=
  forall a b, exists v, (v = 2 ^ 29 \/ v = 3 * 2 ^ 29) /\
    ca * mu_bit a + cb * mu_bit b + c == if op a b then v else - v.

Lemma side_intro (b : bool) v e d phi : (v = 2 ^ 29 \/ v = 3 * 2 ^ 29) -> phi == (if b then v else - v) + e ->
  0 <= d -> Z.abs e + d < 2 ^ 29 -> side b d phi.
Proof.
  intros Hv Hp Hd He. unfold side. rewrite (centered_eqm _ _ Hp). change (2 ^ 29) with 536870912 in *.
  set (x := (if b then v else - v) + e). assert (Hx: - two31 <= x < two31) by (unfold x, two31; destruct b; lia).
  rewrite (centered_unique x x (eqm_refl' _ _ eq_refl) Hx). unfold x, two31. destruct b; lia.
Qed.

Lemma gate_side ca cb c op a b pa pb ea eb d phi : gate_ideal ca cb c op ->
  pa == mu_bit a + ea -> pb == mu_bit b + eb -> phi == ca * pa + cb * pb + c ->
  0 <= d -> Z.abs ca * Z.abs ea + Z.abs cb * Z.abs eb + d < 2 ^ 29 -> side (op a b) d phi.
Proof.
  intros Hg Ha Hb Hp Hd He. destruct (Hg a b) as (v & Hv & Hi).
  apply (side_intro _ v (ca * ea + cb * eb)); try assumption.
  - rewrite Hp, Ha, Hb, <- Hi. apply eqm_refl'. ring.
  - assert (Z.abs (ca * ea + cb * eb) <= Z.abs ca * Z.abs ea + Z.abs cb * Z.abs eb).
    { rewrite <- !Z.abs_mul. apply Z.abs_triangle. } lia.
Qed.

Ltac ideal :=
  intros [] []; (exists (2 ^ 29); split; [left; reflexivity|vm_compute; reflexivity]) ||
    (exists (3 * 2 ^ 29); split; [right; reflexivity|vm_compute; reflexivity]).

Lemma ideal_nand : gate_ideal (-1) (-1) (2 ^ 29) (fun a b => negb (a && b)).
Proof. ideal. Qed.
Lemma ideal_and : gate_ideal 1 1 (- 2 ^ 29) andb.
Proof. ideal. Qed.
Lemma ideal_or : gate_ideal 1 1 (2 ^ 29) orb.
Proof. ideal. Qed.
Lemma ideal_xor : gate_ideal 1 2 (2 ^ 30) xorb.
Proof. ideal. Qed.
Lemma ideal_xnor : gate_ideal 1 (-2) (2 ^ 30) Bool.eqb.
Proof. ideal. Qed.
Lemma ideal_nor : gate_ideal (-1) (-1) (- 2 ^ 29) (fun a b => negb (a || b)).
Proof. ideal. Qed.
Lemma ideal_andny : gate_ideal (-1) 1 (- 2 ^ 29) (fun a b => negb a && b).
Proof. ideal. Qed.
Lemma ideal_andyn : gate_ideal 1 (-1) (- 2 ^ 29) (fun a b => a && negb b).
Proof. ideal. Qed.
Lemma ideal_orny : gate_ideal (-1) 1 (2 ^ 29) (fun a b => negb a || b).
Proof. ideal. Qed.
Lemma ideal_oryn : gate_ideal 1 (-1) (2 ^ 29) (fun a b => a || negb b).
Proof. ideal. Qed.
(** what BatchXNOR computes *)
Lemma ideal_batch_xnor : gate_ideal 1 (-2) (- 2 ^ 30) xorb.
Proof. ideal. Qed.

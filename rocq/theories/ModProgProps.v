(** * Programs over encrypted messages of several moduli compute what they mean *)
From Coq Require Import Lia ZifyBool Setoid Morphisms List.
From Verif Require Import GoBase GoFacts GoMem F64 Utils Spec Params Key Tlwe TlweMem Poly Fft FftTabErr Trlwe Trgsw Lut Evaluator CloudKey Gates RunSpec LutSpec NibbleAdd LutProg ModProg
  MemFacts TlweFacts PolyFacts NegFacts Laws TrlweFacts MsgFacts TrgswFacts RotFacts EvalFacts HeapFacts CloudKeyFacts BootFacts GateFacts RunProps HistProps RunWorst BasicFacts LutFacts LutProps ReencFacts NibbleProps LutProgProps.
Import ListNotations.
Local Open Scope Z_scope.
Ltac Zify.zify_post_hook ::= idtac.

(** ** arithmetic of positions *)
Lemma eqm_mul Q a b : a == b -> exists t, Q * a = Q * b + t * (Q * 2 ^ 32).
Proof. intro H. apply eqm_iff in H. destruct H as [t Ht]. exists t. rewrite Ht. change two32 with (2 ^ 32). ring. Qed.

Lemma abs_lin u v c A B : Z.abs u <= A -> Z.abs v <= B -> Z.abs (u + c * v) <= A + Z.abs c * B.
Proof.
  intros Hu Hv. pose proof (Z.abs_triangle u (c * v)) as H. rewrite Z.abs_mul in H.
  assert (Z.abs c * Z.abs v <= Z.abs c * B) by (apply Z.mul_le_mono_nonneg_l; lia). lia.
Qed.

(** a combination of two ciphertexts *)
Lemma stands_lin n s Q a b x y A B c r : 0 < Q -> stands n s a Q x A -> stands n s b Q y B ->
  lwe_ok n r -> lwe_phase n s r == lwe_phase n s a + c * lwe_phase n s b ->
  stands n s r Q ((x + c * y) mod (2 * Q)) (A + Z.abs c * B).
Proof.
  intros HQ [_ (ja & Ha)] [_ (jb & Hb)] Hr Hp. split; [exact Hr|]. destruct (eqm_mul Q _ _ Hp) as [t Ht].
  pose proof (Z.div_mod (x + c * y) (2 * Q) ltac:(lia)) as D. set (q := (x + c * y) / (2 * Q)) in *. set (z := (x + c * y) mod (2 * Q)) in *.
  exists (ja + c * jb + t + q). eapply Z.le_trans; [|apply (abs_lin _ _ c _ _ Ha Hb)]. apply Z.eq_le_incl. f_equal. rewrite Ht.
  replace (z * 2 ^ 31) with ((x + c * y) * 2 ^ 31 - q * (Q * 2 ^ 32)) by (rewrite D; change (2 ^ 32) with (2 * 2 ^ 31); ring). ring.
Qed.
Lemma stands_neg n s Q a x A r : 0 < Q -> stands n s a Q x A -> lwe_ok n r -> lwe_phase n s r == - lwe_phase n s a ->
  stands n s r Q ((- x) mod (2 * Q)) A.
Proof.
  intros HQ [_ (ja & Ha)] Hr Hp. split; [exact Hr|]. destruct (eqm_mul Q _ _ Hp) as [t Ht].
  pose proof (Z.div_mod (- x) (2 * Q) ltac:(lia)) as D. set (q := (- x) / (2 * Q)) in *. set (z := (- x) mod (2 * Q)) in *.
  exists (- ja + t + q). rewrite <- Z.abs_opp. eapply Z.le_trans; [|exact Ha]. apply Z.eq_le_incl. f_equal. rewrite Ht.
  replace (z * 2 ^ 31) with (- x * 2 ^ 31 - q * (Q * 2 ^ 32)) by (rewrite D; change (2 ^ 32) with (2 * 2 ^ 31); ring). ring.
Qed.

(** message y of modulus mm, encoded with noise E *)
Lemma encodes_stands n s ct mm c y E : 0 < mm -> 0 < c -> encodes n s ct mm y E -> stands n s ct (c * mm) (y * c) (c * mm * (E + 1)).
Proof.
  intros HM Hc [Hl (d & Hd & Ed)]. split; [exact Hl|]. destruct (eqm_mul (c * mm) _ _ Ed) as [t Ht]. exists t. rewrite Ht.
  pose proof (Z.div_mod (y * 2 ^ 31) mm ltac:(lia)) as D. pose proof (Z.mod_pos_bound (y * 2 ^ 31) mm HM) as B.
  set (f := y * 2 ^ 31 / mm) in *. set (w := (y * 2 ^ 31) mod mm) in *.
  replace (c * mm * (f + d) + t * (c * mm * 2 ^ 32) - y * c * 2 ^ 31 - t * (c * mm * 2 ^ 32)) with (c * (mm * d - w)).
  2: { replace (y * c * 2 ^ 31) with (c * (y * 2 ^ 31)) by ring. rewrite D. ring. }
  rewrite Z.abs_mul, (Z.abs_eq c) by lia. rewrite <- Z.mul_assoc. apply Z.mul_le_mono_nonneg_l; [lia|].
  assert (Z.abs (mm * d) <= mm * E) by (rewrite Z.abs_mul, (Z.abs_eq mm) by lia; apply Z.mul_le_mono_nonneg_l; lia). lia.
Qed.

(** a position of modulus mm decrypts to its message *)
Lemma stands_decrypts n P mm c y key F : 0 <= n -> n < zlen P -> n <= zlen key -> 1 <= mm < 2 ^ 20 -> 0 < c -> 0 <= y < 2 * mm ->
  stands n key P (c * mm) (y * c) F -> F <= c * mm * (2 ^ 31 / mm / 2 - 2 * mm) -> DecryptLWEMessage n P mm key = Ok (y mod mm).
Proof.
  intros Hn HP Hk HM Hc Hy [_ (j & Hj)] HF. rewrite DecryptLWEMessage_ok by lia. f_equal. f_equal.
  set (ph := lwe_phase n key P) in *. set (f := mm * (ph - j * 2 ^ 32) - y * 2 ^ 31).
  assert (Hf: Z.abs f <= mm * (2 ^ 31 / mm / 2 - 2 * mm)).
  { apply (Z.mul_le_mono_pos_l _ _ c Hc). rewrite Z.mul_assoc. eapply Z.le_trans; [|exact HF]. eapply Z.le_trans; [|exact Hj].
    rewrite <- (Z.abs_eq c) at 1 by lia. rewrite <- Z.abs_mul. apply Z.eq_le_incl. f_equal. unfold f. ring. }
  clear Hj HF. set (sc := 2 ^ 31 / mm) in *.
  pose proof (Z.div_mod (2 ^ 31) mm ltac:(lia)) as D. pose proof (Z.mod_pos_bound (2 ^ 31) mm ltac:(lia)) as B. fold sc in D. set (w := 2 ^ 31 mod mm) in *.
  set (h := sc / 2) in *. assert (Hh: 2 * h <= sc <= 2 * h + 1) by (unfold h; lia).
  set (g := ph - j * 2 ^ 32 - y * sc).
  assert (Hg: mm * g = y * w + f) by (unfold g, f; rewrite D; ring).
  assert (W: 0 <= y * w < mm * (2 * mm)) by nia.
  assert (Hg1: - (h - 2 * mm) <= g) by (apply (Z.mul_le_mono_pos_l _ _ mm ltac:(lia)); lia).
  assert (Hg2: g < h) by (apply (Z.mul_lt_mono_pos_l mm); lia).
  assert (Hsc: sc * mm <= 2 ^ 31) by lia. assert (Hy2: y * sc + sc <= 2 ^ 32) by (change (2 ^ 32) with (2 * 2 ^ 31); assert ((y + 1) * sc <= 2 * mm * sc) by (apply Z.mul_le_mono_nonneg_r; lia); lia).
  assert (Hs0: 0 <= y * sc) by (apply Z.mul_nonneg_nonneg; lia).
  assert (Hx: w32 (ph + h) = y * sc + (g + h)).
  { apply eqm_eq; [|apply tok_w32|unfold tok; change two32 with (2 ^ 32); lia].
    rewrite eqm_w32. apply eqm_iff. exists j. unfold g. change two32 with (2 ^ 32). ring. }
  rewrite Hx. symmetry. apply (Z.div_unique_pos _ _ _ (g + h)); lia.
Qed.

(** what a bootstrap leaves *)
Lemma Encode_any mm v : 1 <= mm < 2 ^ 20 -> exists z, Encode (NewEncoder mm) v = Ok z /\ (v mod mm) * 2 ^ 31 - mm <= z * mm <= (v mod mm) * 2 ^ 31.
Proof.
  intro HM. pose proof (Z.mod_pos_bound v mm ltac:(lia)) as B. destruct (Encode_torus (v mod mm) mm HM B) as (z & E & _ & Hz). exists z. split; [|exact Hz].
  rewrite <- E. unfold Encode. cbn [NewEncoder MessageModulus]. rewrite !normalize_ok by lia. rewrite Z.mod_mod by lia. reflexivity.
Qed.

Definition qval (mm : Z) (f : Z -> Z) (y : Z) : Z := if y <? mm then f y mod mm else - (f (y - mm) mod mm).

Lemma boot_stands n s ct mm c f y z T : 1 <= mm < 2 ^ 20 -> 0 < c -> 0 <= y < 2 * mm -> Encode (NewEncoder mm) (f (y mod mm)) = Ok z ->
  lwe_ok n ct -> close T (lwe_phase n s ct) (signed mm y z) -> stands n s ct (c * mm) ((qval mm f y * c) mod (2 * (c * mm))) (c * mm * (T + 1)).
Proof.
  intros HM Hc Hy Ez Hl (d & Hd & Ed). split; [exact Hl|]. destruct (Encode_any mm (f (y mod mm)) HM) as (z' & Ez' & Hz). rewrite Ez in Ez'. injection Ez' as <-.
  assert (HQ: 0 < c * mm) by (apply Z.mul_pos_pos; lia). destruct (eqm_mul (c * mm) _ _ Ed) as [t Ht].
  set (v := qval mm f y). pose proof (Z.div_mod (v * c) (2 * (c * mm)) ltac:(lia)) as D. set (q := v * c / (2 * (c * mm))) in *. set (p := (v * c) mod (2 * (c * mm))) in *.
  assert (HV: exists w, 0 <= w <= mm /\ (mm * signed mm y z = v * 2 ^ 31 - w \/ mm * signed mm y z = v * 2 ^ 31 + w)).
  { unfold v, qval, signed. destruct (Z.ltb_spec y mm) as [L|L].
    - rewrite (Z.mod_small y) in Hz by lia. exists (f y mod mm * 2 ^ 31 - z * mm). split; [lia|left; ring].
    - assert (EY: y mod mm = y - mm) by (symmetry; apply (Z.mod_unique_pos _ _ 1); lia). rewrite EY in Hz.
      exists (f (y - mm) mod mm * 2 ^ 31 - z * mm). split; [lia|right; ring]. }
  exists (t + q). rewrite Ht. replace (p * 2 ^ 31) with (v * c * 2 ^ 31 - q * (c * mm * 2 ^ 32)) by (rewrite D; change (2 ^ 32) with (2 * 2 ^ 31); ring).
  replace (c * mm * (signed mm y z + d) + t * (c * mm * 2 ^ 32) - (v * c * 2 ^ 31 - q * (c * mm * 2 ^ 32)) - (t + q) * (c * mm * 2 ^ 32))
    with (c * (mm * signed mm y z + mm * d - v * 2 ^ 31)) by ring.
  rewrite Z.abs_mul, (Z.abs_eq c) by lia. rewrite <- Z.mul_assoc. apply Z.mul_le_mono_nonneg_l; [lia|].
  assert (Z.abs (mm * d) <= mm * T) by (rewrite Z.abs_mul, (Z.abs_eq mm) by lia; apply Z.mul_le_mono_nonneg_l; lia).
  rewrite (Z.mul_add_distr_l mm T 1), Z.mul_1_r. revert H HV. generalize (mm * d) (mm * signed mm y z) (v * 2 ^ 31) (mm * T). intros a0 b0 c0 d0 H HV. destruct HV as (w & Hw & [-> | ->]); clear - Hw H HM; lia.
Qed.

(** ** which window the rounded phase falls into *)
Lemma stands_window N mm q d c y i F Rd : 0 < mm -> 0 < c -> 0 < q -> N * q = 2 ^ 31 -> Z.abs d <= Rd ->
  Z.abs (c * (mm * (i * q - d) - y * 2 ^ 31)) <= F ->
  F + c * mm * Rd < c * 2 ^ 30 -> (2 * mm | N) \/ F + c * mm * Rd + c * mm * q <= c * 2 ^ 30 -> in_window N mm y i.
Proof.
  intros HM Hc Hq HN Hd Hf HB Hs. unfold in_window. set (u := i * mm - y * N).
  assert (K: u * q = mm * (i * q - d) - y * 2 ^ 31 + mm * d) by (unfold u; rewrite <- HN; ring).
  assert (A: c * Z.abs (u * q) <= F + c * mm * Rd).
  { rewrite <- (Z.abs_eq c) at 1 by lia. rewrite <- Z.abs_mul. rewrite K, Z.mul_add_distr_l. eapply Z.le_trans; [apply Z.abs_triangle|].
    apply Z.add_le_mono; [exact Hf|]. rewrite Z.mul_assoc, Z.abs_mul, (Z.abs_eq (c * mm)) by nia. apply Z.mul_le_mono_nonneg_l; nia. }
  assert (A1: Z.abs (u * q) < 2 ^ 30) by (apply (Z.mul_lt_mono_pos_l c); lia).
  split.
  - apply (Z.mul_le_mono_pos_r _ _ q Hq). replace (2 * u * q) with (2 * (u * q)) by ring. replace (- N * q) with (- (N * q)) by ring. rewrite HN. lia.
  - destruct Hs as [[b Hb]|Hs].
    + assert (Hu: exists v, u = v * mm) by (exists (i - y * (2 * b)); unfold u; rewrite Hb; ring). destruct Hu as [v Hv].
      assert (Hlt: 2 * u < N). { apply (Z.mul_lt_mono_pos_r q); [exact Hq|]. replace (2 * u * q) with (2 * (u * q)) by ring. rewrite HN. lia. }
      rewrite Hv, Hb in *. assert (H: 2 * mm * v < 2 * mm * b) by lia. apply Z.mul_lt_mono_pos_l in H; [|lia]. nia.
    + assert (A2: Z.abs (u * q) + mm * q <= 2 ^ 30) by (apply (Z.mul_le_mono_pos_l _ _ c Hc); rewrite Z.mul_add_distr_l, (Z.mul_assoc c mm q); lia).
      apply (Z.mul_le_mono_pos_r _ _ q Hq). replace (2 * u * q) with (2 * (u * q)) by ring.
      replace ((N - 2 * mm) * q) with (N * q - 2 * (mm * q)) by ring. rewrite HN. lia.
Qed.

Lemma qlut_inv Q mm f x v : 0 < Q -> 0 <= x < 2 * Q -> qlut_at Q mm f x = Ok v ->
  exists c y, 1 <= mm < 2 ^ 20 /\ 0 < c /\ Q = c * mm /\ Q / mm = c /\ x = y * c /\ 0 <= y < 2 * mm /\ v = qval mm f y * c.
Proof.
  intros HQ Hx H. unfold qlut_at in H. destruct ((1 <=? mm) && (mm <? 2 ^ 20) && (Q mod mm =? 0) && (x mod (Q / mm) =? 0))%bool eqn:C; [|discriminate].
  repeat rewrite Bool.andb_true_iff in C. destruct C as [[[C1 C2] C3] C4]. apply Z.leb_le in C1. apply Z.ltb_lt in C2. apply Z.eqb_eq in C3. apply Z.eqb_eq in C4.
  pose proof (Z.div_mod Q mm ltac:(lia)) as D. rewrite C3, Z.add_0_r in D. set (c := Q / mm) in *. assert (Hc: 0 < c) by (apply (Z.mul_pos_cancel_l mm); lia).
  pose proof (Z.div_mod x c ltac:(lia)) as D2. rewrite C4, Z.add_0_r in D2. exists c, (x / c). set (y := x / c) in *.
  cbv zeta in H. injection H as <-. split; [lia|]. split; [exact Hc|]. split; [lia|]. split; [reflexivity|]. split; [lia|]. split; [|reflexivity].
  split; [apply Z.div_pos; lia|]. apply (Z.mul_lt_mono_pos_l c); [exact Hc|]. lia.
Qed.

Section Props.
Context (R : arith) (O : fops) (pr : pset) (sk : SecretKey) (rk : Z -> enc_rand) (rb : Z -> Z -> trlwe_rand) (ck : CloudKey O)
  (S : setup R O pr sk rk rb ck).
Notation n := (lv0_N pr).
Notation s0 := (KeyLv0 sk).
Notation M := (mem (FP O)).
Notation BK := (BootstrappingKey ck). Notation KK := (KeySwitchingKey ck). Notation OFF := (DecompositionOffset ck).
Context (e : evaluator) (Q : Z) (HQ : 0 < Q).

Lemma stands_reads ct mm c y F Rd : 1 <= mm -> 0 < c -> Q = c * mm -> stands n s0 ct Q (y * c) F -> rounding pr s0 ct Rd ->
  qroom Q (g_NBIT pr) Rd mm F = true -> reads pr s0 ct mm y.
Proof.
  intros HM Hc EQ [_ (j & Hj)] (d & Hd & Ed) HB. pose proof S as ([W _] & _). pose proof (pw_nb _ _ W) as Hnb. pose proof (pw_N _ _ W) as HN.
  set (q := 2 ^ (31 - g_NBIT pr)) in *. assert (Hq: 0 < q) by (apply Z.pow_pos_nonneg; lia).
  assert (T: g_N pr * q = 2 ^ 31) by (rewrite HN at 1; unfold q; rewrite <- Z.pow_add_r by lia; f_equal; lia).
  assert (EC: Q / mm = c) by (rewrite EQ; apply Z.div_mul; lia).
  unfold qroom in HB. rewrite EC in HB. fold q in HB. apply Bool.andb_true_iff in HB. destruct HB as [HB1 HB2]. apply Z.ltb_lt in HB1.
  apply eqm_iff in Ed. destruct Ed as [t Et]. change two32 with (2 ^ 32) in Et.
  exists (rotation_index pr s0 ct - (t + j) * (2 * g_N pr)), (t + j). split; [ring|].
  assert (X: (t + j) * (2 * g_N pr) * q = (t + j) * 2 ^ 32) by (change (2 ^ 32) with (2 * 2 ^ 31); rewrite <- T; ring).
  apply (stands_window _ mm q d c y _ F Rd); [lia|exact Hc|exact Hq|exact T|exact Hd| | |].
  - rewrite Z.mul_sub_distr_r, X, Et. eapply Z.le_trans; [|exact Hj]. apply Z.eq_le_incl. f_equal. rewrite EQ. ring.
  - rewrite <- EQ. lia.
  - apply Bool.orb_true_iff in HB2. destruct HB2 as [HB2|HB2].
    + left. apply Z.eqb_eq in HB2. rewrite HN. apply Z.mod_divide; [lia|exact HB2].
    + right. apply Z.leb_le in HB2. rewrite <- EQ. lia.
Qed.

(** ** the invariant *)
Notation wires := (qwires O pr e Q sk).
Notation tables := (qtables O pr e).

Lemma wires_get (m : M) ws xs es a x : wires m ws xs es -> get xs a = Ok x ->
  exists r E, get ws a = Ok r /\ get es a = Ok E /\ In r ws /\ user m e r /\ 0 <= x < 2 * Q /\ stands n s0 (tm m r) Q x E.
Proof.
  intros (L1 & L2 & _ & H) G. destruct (get_inv 0 _ _ _ G) as [Ha ->]. change (znd 0 xs a) with (zn xs a).
  exists (zn ws a), (zn es a). rewrite !get_zn by lia. split; [reflexivity|]. split; [reflexivity|]. split; [apply zn_In; lia|]. apply H. lia.
Qed.

Lemma wires_new (m m' : M) ws xs es r x E : wires m ws xs es -> user_kept e m m' -> user m' e r -> ~ user m e r ->
  0 <= x < 2 * Q -> stands n s0 (tm m' r) Q x E -> wires m' (ws ++ [r]) (xs ++ [x]) (es ++ [E]).
Proof.
  intros (L1 & L2 & ND & H) K U1 U2 Hx He. split; [rewrite !zlen_snoc; lia|]. split; [rewrite !zlen_snoc; lia|]. split.
  - apply nodup_snoc; [exact ND|]. intro X. apply In_zn in X. destruct X as (i & Hi & <-). apply U2. apply H. exact Hi.
  - intros i Hi. rewrite zlen_snoc in Hi. destruct (Z.eq_dec i (zlen ws)) as [->|Hne].
    + rewrite !zn_app2 by lia. auto.
    + rewrite !zn_app1 by lia. destruct (H i ltac:(lia)) as (U & B & C). destruct (K _ U) as [U' ->]. auto.
Qed.

Lemma wires_set (m m' : M) ws xs es o r x E : wires m ws xs es -> get ws o = Ok r ->
  (forall z, user m e z -> z <> r -> user m' e z /\ tm m' z = tm m z) -> user m' e r ->
  0 <= x < 2 * Q -> stands n s0 (tm m' r) Q x E -> wires m' ws (upd xs o x) (upd es o E).
Proof.
  intros (L1 & L2 & ND & H) G K U Hx He. destruct (get_inv 0 _ _ _ G) as [Ho Er]. change (znd 0 ws o) with (zn ws o) in Er.
  split; [rewrite zlen_upd; exact L1|]. split; [rewrite zlen_upd; exact L2|]. split; [exact ND|].
  intros i Hi. destruct (Z.eq_dec i o) as [->|Hne].
  - rewrite !zn_upd, Z.eqb_refl by lia. rewrite <- Er. auto.
  - rewrite !zn_upd by lia. destruct (Z.eqb_spec i o); [contradiction|]. destruct (H i Hi) as (U1 & B & C).
    destruct (K _ U1) as [U' ->]; [rewrite Er; intro X; apply Hne; eapply nodup_zn; eassumption|]. auto.
Qed.

Lemma tables_get (m : M) ws ts fs t f : tables m ws ts fs -> get fs t = Ok f ->
  exists l tv, get ts t = Ok l /\ GenLookUpTable pr (NewGenerator pr (fst f)) (snd f) = Ok tv /\ table O pr m e l tv.
Proof.
  intros H G. destruct (Forall2_get_r _ _ _ _ _ H G) as (l & Gl & (tv & A & B) & _). eauto.
Qed.

Lemma tables_keep (m m' : M) ws ws' ts fs : tables m ws ts fs -> others_kept O e ws m m' ->
  (forall x, In x ws' -> In x ws \/ ~ user m e x) -> tables m' ws' ts fs.
Proof.
  intros H K HI. eapply Forall2_mono; [|exact H]. cbn beta. intros t f ((tv & A & (B1 & B2 & U1 & U2 & B3)) & N1 & N2 & N3).
  destruct (K _ U1 N1) as [V1 E1]. destruct (K _ U2 N2) as [V2 E2]. split; [|split; [|split; [|exact N3]]].
  - exists tv. split; [exact A|]. unfold table. rewrite E1, E2. auto.
  - intro X. apply HI in X. tauto.
  - intro X. apply HI in X. tauto.
Qed.


(** what one call does *)
Definition stepped (i : qcall) (ws : list Z) (ts : list tref) (m : M) (xs' : list Z) (fs' : list (Z * (Z -> Z))) (es' : list Z) : Prop :=
  exists nw ts' m', qexec1 O pr ck e i ws ts m = Ok (ws ++ nw, ts', m') /\ wires m' (ws ++ nw) xs' es' /\ tables m' (ws ++ nw) ts' fs' /\
    kept_but O e (qoutputs1 i) ws m m' /\ (forall x, In x nw -> ~ user m e x) /\ reachable O pr e m'.


Lemma two_pos x : 0 <= x mod (2 * Q) < 2 * Q.
Proof. apply Z.mod_pos_bound. lia. Qed.

(** a new value *)
Lemma step_alloc (m : M) ws ts xs fs es v x E : reachable O pr e m -> wires m ws xs es -> tables m ws ts fs ->
  0 <= x < 2 * Q -> stands n s0 v Q x E ->
  exists r m', alloc m v = (r, m') /\ wires m' (ws ++ [r]) (xs ++ [x]) (es ++ [E]) /\ tables m' (ws ++ [r]) ts fs /\
    user_kept e m m' /\ ~ user m e r /\ reachable O pr e m'.
Proof.
  intros Hr Hw Ht Hx He. pose proof S as S'. open_setup S'. destruct (alloc_keep L pr W HBG e m v Hr) as (R1 & U1 & V1 & K1 & N1).
  exists (tnext m), (snd (alloc m v)). split; [reflexivity|].
  assert (K: user_kept e m (snd (alloc m v))).
  { intros z [Hz1 Hz2]. split; [split; [lia|exact Hz2]|]. apply K1. lia. }
  assert (U2: ~ user m e (tnext m)) by (intros [X _]; lia).
  split; [apply (wires_new m); try assumption; rewrite V1; exact He|]. split; [|split; [exact K|split; assumption]].
  eapply tables_keep; [exact Ht|apply kept_others; exact K|]. intros z Hz. apply in_app_or in Hz. destruct Hz as [Hz|[<-|[]]]; [left; exact Hz|right; exact U2].
Qed.

(** bootstrap results *)
Lemma step_new (m m' : M) ws ts xs fs es r x E : wires m ws xs es -> tables m ws ts fs -> user_kept e m m' -> user m' e r -> ~ user m e r ->
  0 <= x < 2 * Q -> stands n s0 (tm m' r) Q x E ->
  wires m' (ws ++ [r]) (xs ++ [x]) (es ++ [E]) /\ tables m' (ws ++ [r]) ts fs /\ others_kept O e ws m m' /\ (forall x, In x [r] -> ~ user m e x).
Proof.
  intros Hw Ht K U1 U2 Hx He. split; [apply (wires_new m); assumption|]. split; [|split; [apply kept_others; exact K|]].
  - eapply tables_keep; [exact Ht|apply kept_others; exact K|]. intros z Hz. apply in_app_or in Hz. destruct Hz as [Hz|[<-|[]]]; [left; exact Hz|right; exact U2].
  - intros z [<-|[]]. exact U2.
Qed.

Lemma step_set (m m' : M) ws ts xs fs es o r x E : wires m ws xs es -> tables m ws ts fs -> get ws o = Ok r ->
  (forall z, user m e z -> z <> r -> user m' e z /\ tm m' z = tm m z) -> user m' e r ->
  0 <= x < 2 * Q -> stands n s0 (tm m' r) Q x E ->
  wires m' ws (upd xs o x) (upd es o E) /\ tables m' ws ts fs /\ others_kept O e ws m m'.
Proof.
  intros Hw Ht G K U Hx He. destruct (get_inv 0 _ _ _ G) as [Ho Er]. change (znd 0 ws o) with (zn ws o) in Er.
  assert (QQ: others_kept O e ws m m').
  { intros z Hz Hn. apply K; [exact Hz|]. intros ->. apply Hn. rewrite Er. apply zn_In. exact Ho. }
  split; [eapply wires_set; eassumption|]. split; [|exact QQ]. eapply tables_keep; [exact Ht|exact QQ|]. intros z Hz. left. exact Hz.
Qed.
Context (T Rd : Z).

Lemma noise_boot es a mm E : (F <- get es a ;; if qroom Q (g_NBIT pr) Rd mm F then Ok (Q * (T + 1)) else Panic PIndex) = Ok E ->
  exists F, get es a = Ok F /\ qroom Q (g_NBIT pr) Rd mm F = true /\ E = Q * (T + 1).
Proof.
  intro H. apply bind_inv in H. destruct H as (F & G & H). exists F. split; [exact G|]. destruct (qroom Q (g_NBIT pr) Rd mm F); [|discriminate].
  split; [reflexivity|congruence].
Qed.

Lemma wires_loc (m : M) ws xs es o : wires m ws xs es -> 0 <= o < zlen xs -> exists r, get ws o = Ok r /\ user m e r /\ zlen (tm m r) = n + 1.
Proof.
  intros (L1 & L2 & _ & H) Ho. exists (zn ws o). split; [apply get_zn; lia|]. destruct (H o ltac:(lia)) as (U & _ & ((Hl & _) & _)). auto.
Qed.

(** one bootstrap with a function, and with a table *)
Lemma boot_func (m : M) f mm r x v F : qlut_at Q mm f x = Ok v -> stands n s0 (tm m r) Q x F -> user m e r -> 0 <= x < 2 * Q ->
  qroom Q (g_NBIT pr) Rd mm F = true -> rounding pr s0 (tm m r) Rd ->
  exists y, input O pr m e r /\ 0 < mm /\ 0 <= y < 2 * mm /\ reads pr s0 (tm m r) mm y /\
    (forall z, Encode (NewEncoder mm) (f (y mod mm)) = Ok z -> forall ct, lwe_ok n ct -> close T (lwe_phase n s0 ct) (signed mm y z) ->
      stands n s0 ct Q (v mod (2 * Q)) (Q * (T + 1))).
Proof.
  intros Gv C U Hx HF HR. destruct (qlut_inv Q mm f x v HQ Hx Gv) as (c & y & HM & Hc & EQ & EC & Ex & Hy & ->).
  exists y. split; [split; [apply C|left; exact U]|]. split; [lia|]. split; [exact Hy|]. split.
  - rewrite Ex in C. eapply stands_reads; [|exact Hc|exact EQ|exact C|exact HR|exact HF]. lia.
  - intros z Ez ct Hl Hcl. rewrite EQ. eapply boot_stands; eassumption.
Qed.

Lemma boot_lut (m : M) ws ts fs t f r x v F : tables m ws ts fs -> get fs t = Ok f -> qlut_at Q (fst f) (snd f) x = Ok v ->
  stands n s0 (tm m r) Q x F -> user m e r -> 0 <= x < 2 * Q -> qroom Q (g_NBIT pr) Rd (fst f) F = true ->
  rounding pr s0 (tm m r) Rd -> gen_noise O pr sk ck (snd f) (fst f) (tm m r) T ->
  exists l tv y z, get ts t = Ok l /\ table O pr m e l tv /\ plain_table (g_N pr) tv /\ input O pr m e r /\ 0 < fst f /\ 0 <= y < 2 * fst f /\
    entry (g_N pr) (fst f) tv (y mod fst f) z /\ reads pr s0 (tm m r) (fst f) y /\ boot_noise O pr sk ck tv (tm m r) T /\
    (forall ct, lwe_ok n ct -> close T (lwe_phase n s0 ct) (signed (fst f) y z) -> stands n s0 ct Q (v mod (2 * Q)) (Q * (T + 1))).
Proof.
  intros Ht Gf Gv C U Hx HF HR HT. pose proof S as (GP & _).
  destruct (boot_func m (snd f) (fst f) r x v F Gv C U Hx HF HR) as (y & Hi & K2 & Hy & Hrd & Hs).
  destruct (tables_get _ _ _ _ _ _ Ht Gf) as (l & tv & Gl & GT & Tb).
  destruct (t_layout pr (NewGenerator pr (fst f)) (snd f) GP eq_refl K2) as (tv' & G' & Hp & Hent). rewrite GT in G'. injection G' as <-.
  cbn [NewGenerator gEncoder NewEncoder MessageModulus] in Hent.
  destruct (Hent (y mod fst f) ltac:(apply Z.mod_pos_bound; exact K2)) as (z & Ez & Hen).
  exists l, tv, y, z. split; [exact Gl|]. split; [exact Tb|]. split; [exact Hp|]. split; [exact Hi|]. split; [exact K2|]. split; [exact Hy|]. split; [exact Hen|].
  split; [exact Hrd|]. split; [apply HT; exact GT|]. intros ct. apply Hs. exact Ez.
Qed.

Lemma func_assign_user (m m' : M) c f mm r : 0 < mm -> reachable O pr e m -> input O pr m e c -> input O pr m e r ->
  BootstrapFuncAssign O pr m e c f mm BK KK OFF r = Ok m' -> forall z, user m e z -> user m' e z.
Proof.
  intros K2 Hr Hi Ho E z Hz.
  assert (X: exists lut tv m1, new_lut O pr m f mm = Ok (lut, m1) /\ table O pr m1 e lut tv /\ reachable O pr e m1 /\ user_kept e m m1 /\
    (forall x, input O pr m e x -> input O pr m1 e x /\ tm m1 x = tm m x)).
  { pose proof S as S'. open_setup S'. destruct (new_lut_run L pr W HBG e m f mm Hr K2) as (l & tv & m1 & A & _ & B & C & D & F). exists l, tv, m1. auto. }
  destruct X as (l & tv & m1 & E1 & Tb & R1 & KU & I1). unfold BootstrapFuncAssign in E. rewrite E1 in E. cbn [bind] in E.
  eapply assign_user; [exact S|exact R1|apply I1; exact Hi|exact Tb|apply I1; exact Ho|exact E|apply KU; exact Hz].
Qed.

Ltac inv2 H x G := apply bind_inv in H; destruct H as (x & G & H); cbv beta in H.

Lemma step_ok i (m : M) ws ts xs fs es xs' fs' es' : reachable O pr e m -> wires m ws xs es -> tables m ws ts fs ->
  qplain1 Q i xs fs = Ok (xs', fs') -> qnoise1 Q (g_NBIT pr) T Rd i fs es = Ok es' ->
  (forall mm f c, qboots1 O i ws fs m mm f c -> zlen c = n + 1 -> rounding pr s0 c Rd /\ gen_noise O pr sk ck f mm c T) ->
  stepped i ws ts m xs' fs' es'.
Proof.
  intros Hr Hw Ht Hp Hn HB. assert (Hn0: 0 <= n) by (destruct S as ([W _] & _); apply (pw_n _ _ W)).
  unfold stepped. destruct i; cbn [qplain1 qnoise1 qexec1 qboots1] in *; cbv zeta in *.
  - (* Add *)
    inv2 Hp x Gx. inv2 Hp y Gy. injection Hp as <- <-. destruct (wires_get _ _ _ _ _ _ Hw Gx) as (r1 & E1 & G1 & D1 & _ & U1 & X1 & C1).
    destruct (wires_get _ _ _ _ _ _ Hw Gy) as (r2 & E2 & G2 & D2 & _ & U2 & X2 & C2). rewrite D1, D2 in Hn. cbn [bind] in Hn. injection Hn as <-.
    rewrite G1, G2. cbn [bind]. destruct (Add_ok n s0 (tm m r1) (tm m r2) Hn0 ltac:(apply C1) ltac:(apply C2)) as (v & E & Lv & Pv). rewrite E. cbn [bind].
    pose proof (stands_lin n s0 Q _ _ x y E1 E2 1 v HQ C1 C2 Lv ltac:(rewrite Z.mul_1_l; exact Pv)) as C. rewrite Z.mul_1_l in C. change (Z.abs 1) with 1 in C. rewrite Z.mul_1_l in C.
    destruct (step_alloc m ws ts xs fs es v _ _ Hr Hw Ht (two_pos _) C) as (r & m' & A & W1 & T1 & O1 & N1 & R1). rewrite A.
    exists [r], ts, m'. split; [reflexivity|]. split; [exact W1|]. split; [exact T1|]. split; [apply kept_all; exact O1|]. split; [intros z [<-|[]]; exact N1|exact R1].
  - (* Sub *)
    inv2 Hp x Gx. inv2 Hp y Gy. injection Hp as <- <-. destruct (wires_get _ _ _ _ _ _ Hw Gx) as (r1 & E1 & G1 & D1 & _ & U1 & X1 & C1).
    destruct (wires_get _ _ _ _ _ _ Hw Gy) as (r2 & E2 & G2 & D2 & _ & U2 & X2 & C2). rewrite D1, D2 in Hn. cbn [bind] in Hn. injection Hn as <-.
    rewrite G1, G2. cbn [bind]. destruct (Sub_ok n s0 (tm m r1) (tm m r2) Hn0 ltac:(apply C1) ltac:(apply C2)) as (v & E & Lv & Pv). rewrite E. cbn [bind].
    assert (Pv': lwe_phase n s0 v == lwe_phase n s0 (tm m r1) + (-1) * lwe_phase n s0 (tm m r2)) by (rewrite Pv; apply eqm_refl'; ring).
    pose proof (stands_lin n s0 Q _ _ x y E1 E2 (-1) v HQ C1 C2 Lv Pv') as C. replace (x + -1 * y) with (x - y) in C by ring.
    change (Z.abs (-1)) with 1 in C. rewrite Z.mul_1_l in C.
    destruct (step_alloc m ws ts xs fs es v _ _ Hr Hw Ht (two_pos _) C) as (r & m' & A & W1 & T1 & O1 & N1 & R1). rewrite A.
    exists [r], ts, m'. split; [reflexivity|]. split; [exact W1|]. split; [exact T1|]. split; [apply kept_all; exact O1|]. split; [intros z [<-|[]]; exact N1|exact R1].
  - (* Neg *)
    inv2 Hp x Gx. injection Hp as <- <-. destruct (wires_get _ _ _ _ _ _ Hw Gx) as (r1 & E1 & G1 & D1 & _ & U1 & X1 & C1).
    rewrite D1 in Hn. cbn [bind] in Hn. injection Hn as <-.
    rewrite G1. cbn [bind]. destruct (Neg_phase n s0 (tm m r1) Hn0 ltac:(apply C1)) as (v & E & Lv & Pv). rewrite E. cbn [bind].
    pose proof (stands_neg n s0 Q _ x E1 v HQ C1 Lv Pv) as C.
    destruct (step_alloc m ws ts xs fs es v _ _ Hr Hw Ht (two_pos _) C) as (r & m' & A & W1 & T1 & O1 & N1 & R1). rewrite A.
    exists [r], ts, m'. split; [reflexivity|]. split; [exact W1|]. split; [exact T1|]. split; [apply kept_all; exact O1|]. split; [intros z [<-|[]]; exact N1|exact R1].
  - (* AddMul *)
    inv2 Hp x Gx. inv2 Hp y Gy. injection Hp as <- <-. destruct (wires_get _ _ _ _ _ _ Hw Gx) as (r1 & E1 & G1 & D1 & _ & U1 & X1 & C1).
    destruct (wires_get _ _ _ _ _ _ Hw Gy) as (r2 & E2 & G2 & D2 & _ & U2 & X2 & C2). rewrite D1, D2 in Hn. cbn [bind] in Hn. injection Hn as <-.
    rewrite G1, G2. cbn [bind]. destruct (AddMul_ok n s0 (tm m r1) (tm m r2) (w32 c) Hn0 ltac:(apply C1) ltac:(apply C2)) as (v & E & Lv & Pv). rewrite E. cbn [bind].
    assert (Pv': lwe_phase n s0 v == lwe_phase n s0 (tm m r1) + c * lwe_phase n s0 (tm m r2)) by (rewrite Pv, eqm_w32; reflexivity).
    pose proof (stands_lin n s0 Q _ _ x y E1 E2 c v HQ C1 C2 Lv Pv') as C.
    destruct (step_alloc m ws ts xs fs es v _ _ Hr Hw Ht (two_pos _) C) as (r & m' & A & W1 & T1 & O1 & N1 & R1). rewrite A.
    exists [r], ts, m'. split; [reflexivity|]. split; [exact W1|]. split; [exact T1|]. split; [apply kept_all; exact O1|]. split; [intros z [<-|[]]; exact N1|exact R1].
  - (* SubMul *)
    inv2 Hp x Gx. inv2 Hp y Gy. injection Hp as <- <-. destruct (wires_get _ _ _ _ _ _ Hw Gx) as (r1 & E1 & G1 & D1 & _ & U1 & X1 & C1).
    destruct (wires_get _ _ _ _ _ _ Hw Gy) as (r2 & E2 & G2 & D2 & _ & U2 & X2 & C2). rewrite D1, D2 in Hn. cbn [bind] in Hn. injection Hn as <-.
    rewrite G1, G2. cbn [bind]. destruct (SubMul_ok n s0 (tm m r1) (tm m r2) (w32 c) Hn0 ltac:(apply C1) ltac:(apply C2)) as (v & E & Lv & Pv). rewrite E. cbn [bind].
    assert (Pv': lwe_phase n s0 v == lwe_phase n s0 (tm m r1) + (- c) * lwe_phase n s0 (tm m r2)) by (rewrite Pv, eqm_w32; apply eqm_refl'; ring).
    pose proof (stands_lin n s0 Q _ _ x y E1 E2 (- c) v HQ C1 C2 Lv Pv') as C. rewrite Z.abs_opp in C. replace (x + - c * y) with (x - c * y) in C by ring.
    destruct (step_alloc m ws ts xs fs es v _ _ Hr Hw Ht (two_pos _) C) as (r & m' & A & W1 & T1 & O1 & N1 & R1). rewrite A.
    exists [r], ts, m'. split; [reflexivity|]. split; [exact W1|]. split; [exact T1|]. split; [apply kept_all; exact O1|]. split; [intros z [<-|[]]; exact N1|exact R1].
  - (* AddInto *)
    inv2 Hp x Gx. inv2 Hp y Gy. inv2 Hp xs1 Gs. injection Hp as <- <-. destruct (wires_get _ _ _ _ _ _ Hw Gx) as (r1 & E1 & G1 & D1 & _ & U1 & X1 & C1).
    destruct (wires_get _ _ _ _ _ _ Hw Gy) as (r2 & E2 & G2 & D2 & _ & U2 & X2 & C2). rewrite D1, D2 in Hn. cbn [bind] in Hn.
    apply set_inv in Gs. destruct Gs as [Ho ->]. apply set_inv in Hn. destruct Hn as [_ ->].
    destruct (wires_loc _ _ _ _ _ Hw Ho) as (r & Gr & Ur & Lr).
    rewrite G1, G2, Gr. cbn [bind]. pose proof S as S'. open_setup S'.
    destruct (AddAssign_ok m n r1 r2 r Hn0 ltac:(apply C1) ltac:(apply C2) Lr) as (m' & E & V & Fr).
    destruct (AddAssign_phase m n s0 r1 r2 r Hn0 ltac:(apply C1) ltac:(apply C2) Lr) as (m'' & E'' & Lv & Pv & _). rewrite E in E''. injection E'' as <-.
    rewrite E. cbn [bind].
    pose proof (stands_lin n s0 Q _ _ x y E1 E2 1 _ HQ C1 C2 Lv ltac:(rewrite Z.mul_1_l; exact Pv)) as C. rewrite Z.mul_1_l in C. change (Z.abs 1) with 1 in C. rewrite Z.mul_1_l in C.
    destruct (fr_n _ _ _ _ _ Fr) as (T1 & T2 & T3).
    assert (KU: forall z, user m e z -> z <> r -> user m' e z /\ tm m' z = tm m z).
    { intros z [Hz Hnz] Hne. split; [split; [lia|exact Hnz]|]. apply (fr_t _ _ _ _ _ Fr). congruence. }
    assert (Ur': user m' e r) by (destruct Ur as [A B]; split; [lia|exact B]).
    destruct (step_set m m' ws ts xs fs es _ r _ _ Hw Ht Gr KU Ur' (two_pos _) C) as (W1 & TT1 & O1).
    exists [], ts, m'. rewrite app_nil_r. split; [reflexivity|]. split; [exact W1|]. split; [exact TT1|]. split; [eapply kept_one; eassumption|]. split; [intros z []|].
    eapply (reach_other L pr W HBG); [exact Hr| | | |lia|lia|lia].
    + intros z Hz. apply (fr_t _ _ _ _ _ Fr). intros <-. destruct Ur; contradiction.
    + intros z _. apply (fr_f _ _ _ _ _ Fr). intros [].
    + intros z _. apply (fr_i _ _ _ _ _ Fr). intros [].
  - (* Table *)
    destruct ((1 <=? M) && (M <? 2 ^ 20) && (Q mod M =? 0))%bool eqn:C0; [|discriminate]. assert (K2: 0 < M) by lia.
    injection Hp as <- <-. injection Hn as <-. pose proof S as S'. open_setup S'.
    destruct (new_lut_run L pr W HBG e m f M Hr K2) as (l & tv & m' & E & G & Tb & R1 & KU & I1). rewrite E. cbn [bind].
    exists [], (ts ++ [l]), m'. rewrite app_nil_r. split; [reflexivity|].
    assert (NW: ~ In (rA l) ws /\ ~ In (rB l) ws).
    { assert (B: forall z, In z ws -> z < tnext m).
      { intros z Hz. apply In_zn in Hz. destruct Hz as (i & Hi & <-). destruct Hw as (_ & _ & _ & H). apply (H i Hi). }
      unfold new_lut in E. rewrite G in E. cbn [bind alloc] in E. injection E as <- _. cbn [rA rB tnext].
      split; intro X; apply B in X; lia. }
    split; [|split; [|split; [apply kept_all; exact KU|split; [intros z []|exact R1]]]].
    + destruct Hw as (L1 & L2 & ND & H). split; [exact L1|]. split; [exact L2|]. split; [exact ND|]. intros i Hi. destruct (H i Hi) as (U & B & C).
      destruct (KU _ U) as [U' ->]. auto.
    + apply Forall2_app; [eapply tables_keep; [exact Ht|apply kept_others; exact KU|intros z Hz; left; exact Hz]|].
      constructor; [|constructor]. split; [exists tv; split; assumption|]. destruct NW as [NA NB]. split; [exact NA|]. split; [exact NB|cbn [fst]; lia].
  - (* Lut *)
    inv2 Hp f Gf. inv2 Hp x Gx. inv2 Hp v Gv. injection Hp as <- <-. rewrite Gf in Hn. cbn [bind] in Hn. inv2 Hn E Gn. apply noise_boot in Gn. destruct Gn as (F & Ge & HF & ->). injection Hn as <-.
    destruct (wires_get _ _ _ _ _ _ Hw Gx) as (r1 & E1 & G1 & D1 & _ & U1 & X1 & C1). rewrite Ge in D1. injection D1 as <-.
    destruct (HB (fst f) (snd f) (tm m r1)) as [HR HT]; [split; [destruct f; exact Gf|exists r1; auto]|apply C1|].
    destruct (boot_lut m ws ts fs t f r1 x v F Ht Gf Gv C1 U1 X1 HF HR HT) as (l & tv & y & z & Gl & Tb & Hpt & Hi & K2 & Hx & Hen & Hrd & Hbn & Hs).
    rewrite Gl, G1. cbn [bind].
    destruct (t_lut R O pr sk rk rb ck S e m r1 l tv (fst f) y z T Hr Hi Tb Hpt K2 Hx Hen Hrd Hbn) as (r & m' & E & A & B & V1 & V2 & KU & R1).
    rewrite E. cbn [bind]. destruct (step_new m m' ws ts xs fs es r _ (Q * (T + 1)) Hw Ht KU V1 V2 (two_pos _) (Hs _ A B)) as (W1 & T1 & O1 & N1).
    exists [r], ts, m'. split; [reflexivity|]. split; [exact W1|]. split; [exact T1|]. split; [apply kept_all; exact KU|]. split; [exact N1|exact R1].
  - (* LutInto *)
    inv2 Hp f Gf. inv2 Hp x Gx. inv2 Hp v Gv. inv2 Hp xs1 Gs. injection Hp as <- <-. rewrite Gf in Hn. cbn [bind] in Hn. inv2 Hn E Gn. apply noise_boot in Gn. destruct Gn as (F & Ge & HF & ->).
    apply set_inv in Gs. destruct Gs as [Ho ->]. apply set_inv in Hn. destruct Hn as [_ ->].
    destruct (wires_loc _ _ _ _ _ Hw Ho) as (r & Gr & Ur & Lr).
    destruct (wires_get _ _ _ _ _ _ Hw Gx) as (r1 & E1 & G1 & D1 & _ & U1 & X1 & C1). rewrite Ge in D1. injection D1 as <-.
    destruct (HB (fst f) (snd f) (tm m r1)) as [HR HT]; [split; [destruct f; exact Gf|exists r1; auto]|apply C1|].
    destruct (boot_lut m ws ts fs t f r1 x v F Ht Gf Gv C1 U1 X1 HF HR HT) as (l & tv & y & z & Gl & Tb & Hpt & Hi & K2 & Hx & Hen & Hrd & Hbn & Hs).
    rewrite Gl, G1, Gr. cbn [bind].
    destruct (t_lut_assign R O pr sk rk rb ck S e m r1 l tv (fst f) y z T r Hr Hi Tb Hpt (conj Lr (or_introl Ur)) K2 Hx Hen Hrd Hbn) as (m' & E & A & B & KU & R1).
    rewrite E. cbn [bind]. assert (Ur': user m' e r) by (eapply assign_user; [exact S|exact Hr|exact Hi|exact Tb|exact (conj Lr (or_introl Ur))|exact E|exact Ur]).
    destruct (step_set m m' ws ts xs fs es _ r _ (Q * (T + 1)) Hw Ht Gr KU Ur' (two_pos _) (Hs _ A B)) as (W1 & T1 & O1).
    exists [], ts, m'. rewrite app_nil_r. split; [reflexivity|]. split; [exact W1|]. split; [exact T1|]. split; [eapply kept_one; eassumption|]. split; [intros z0 []|exact R1].
  - (* Func *)
    inv2 Hp x Gx. inv2 Hp v Gv. injection Hp as <- <-. inv2 Hn E Gn. apply noise_boot in Gn. destruct Gn as (F & Ge & HF & ->). injection Hn as <-.
    destruct (wires_get _ _ _ _ _ _ Hw Gx) as (r1 & E1 & G1 & D1 & _ & U1 & X1 & C1). rewrite Ge in D1. injection D1 as <-.
    destruct (HB M f (tm m r1)) as [HR HT]; [split; [split; reflexivity|exists r1; auto]|apply C1|].
    destruct (boot_func m f M r1 x v F Gv C1 U1 X1 HF HR) as (y & Hi & K2 & Hx & Hrd & Hs).
    rewrite G1. cbn [bind].
    destruct (t_func R O pr sk rk rb ck S e m r1 f M y T Hr Hi K2 Hx Hrd HT) as (r & m' & z & E & Ey & A & B & V1 & V2 & KU & R1).
    rewrite E. cbn [bind]. destruct (step_new m m' ws ts xs fs es r _ (Q * (T + 1)) Hw Ht KU V1 V2 (two_pos _) (Hs z Ey _ A B)) as (W1 & T1 & O1 & N1).
    exists [r], ts, m'. split; [reflexivity|]. split; [exact W1|]. split; [exact T1|]. split; [apply kept_all; exact KU|]. split; [exact N1|exact R1].
  - (* FuncInto *)
    inv2 Hp x Gx. inv2 Hp v Gv. inv2 Hp xs1 Gs. injection Hp as <- <-. inv2 Hn E Gn. apply noise_boot in Gn. destruct Gn as (F & Ge & HF & ->).
    apply set_inv in Gs. destruct Gs as [Ho ->]. apply set_inv in Hn. destruct Hn as [_ ->].
    destruct (wires_loc _ _ _ _ _ Hw Ho) as (r & Gr & Ur & Lr).
    destruct (wires_get _ _ _ _ _ _ Hw Gx) as (r1 & E1 & G1 & D1 & _ & U1 & X1 & C1). rewrite Ge in D1. injection D1 as <-.
    destruct (HB M f (tm m r1)) as [HR HT]; [split; [split; reflexivity|exists r1; auto]|apply C1|].
    destruct (boot_func m f M r1 x v F Gv C1 U1 X1 HF HR) as (y & Hi & K2 & Hx & Hrd & Hs).
    rewrite G1, Gr. cbn [bind].
    destruct (t_func_assign R O pr sk rk rb ck S e m r1 f M y T r Hr Hi (conj Lr (or_introl Ur)) K2 Hx Hrd HT) as (m' & z & E & Ey & A & B & KU & R1).
    rewrite E. cbn [bind]. assert (Ur': user m' e r) by (eapply func_assign_user; [exact K2|exact Hr|exact Hi|exact (conj Lr (or_introl Ur))|exact E|exact Ur]).
    destruct (step_set m m' ws ts xs fs es _ r _ (Q * (T + 1)) Hw Ht Gr KU Ur' (two_pos _) (Hs z Ey _ A B)) as (W1 & T1 & O1).
    exists [], ts, m'. rewrite app_nil_r. split; [reflexivity|]. split; [exact W1|]. split; [exact T1|]. split; [eapply kept_one; eassumption|]. split; [intros z0 []|exact R1].
Qed.

(** ** whole programs *)
Lemma plain_fs i xs fs xs' fs' : qplain1 Q i xs fs = Ok (xs', fs') -> fs' = qadded i fs.
Proof.
  destruct i; cbn [qplain1 qadded]; cbv zeta; intro H; try (destruct (_ && _)%bool; [|discriminate]);
    repeat (apply bind_inv in H; destruct H as (? & _ & H); cbv beta in H); injection H as _ <-; reflexivity.
Qed.

Lemma prog_ok p : forall (m : M) ws ts xs fs es xs' fs' es', reachable O pr e m -> wires m ws xs es -> tables m ws ts fs ->
  qplain Q p xs fs = Ok (xs', fs') -> qnoise Q (g_NBIT pr) T Rd p fs es = Ok es' ->
  (forall mm f c, qboots O pr ck e p ws ts fs m mm f c -> zlen c = n + 1 -> rounding pr s0 c Rd /\ gen_noise O pr sk ck f mm c T) ->
  exists nw ts' m', qexec O pr ck e p ws ts m = Ok (ws ++ nw, ts', m') /\ wires m' (ws ++ nw) xs' es' /\ tables m' (ws ++ nw) ts' fs' /\
    kept_but O e (qoutputs p) ws m m' /\ (forall x, In x nw -> ~ user m e x) /\ reachable O pr e m'.
Proof.
  induction p as [|i p IH]; intros m ws ts xs fs es xs' fs' es' Hr Hw Ht Hp Hn HB; cbn [qplain qnoise qexec qboots] in *.
  - injection Hp as <- <-. injection Hn as <-. exists [], ts, m. rewrite app_nil_r. split; [reflexivity|]. split; [exact Hw|]. split; [exact Ht|].
    split; [intros x Hx _; auto|]. split; [intros x []|exact Hr].
  - apply bind_inv in Hp. destruct Hp as ([xs1 fs1] & P1 & Hp). apply bind_inv in Hn. destruct Hn as (es1 & N1 & Hn). cbv beta in Hn.
    pose proof (plain_fs _ _ _ _ _ P1) as Efs.
    destruct (step_ok i m ws ts xs fs es xs1 fs1 es1 Hr Hw Ht P1 N1) as (nw1 & ts1 & m1 & E1 & W1 & T1 & O1 & F1 & R1).
    { intros mm f c Hc. apply HB. left. exact Hc. }
    rewrite <- Efs in Hn.
    destruct (IH m1 (ws ++ nw1) ts1 xs1 fs1 es1 xs' fs' es' R1 W1 T1 Hp Hn) as (nw2 & ts2 & m2 & E2 & W2 & T2 & O2 & F2 & R2).
    { intros mm f c Hc. apply HB. right. exists (ws ++ nw1), ts1, m1. split; [exact E1|]. rewrite <- Efs. exact Hc. }
    exists (nw1 ++ nw2), ts2, m2. rewrite E1. cbn [bind]. rewrite app_assoc. split; [exact E2|]. split; [exact W2|]. split; [exact T2|].
    assert (KU: forall x, user m e x -> user m1 e x).
    { intros x Hx. destruct (in_dec Z.eq_dec x ws) as [I|I].
      - apply In_zn in I. destruct I as (j & Hj & <-). destruct W1 as (_ & _ & _ & H). rewrite <- (zn_app1 ws nw1) by exact Hj. apply H.
        unfold zlen in *. rewrite app_length. lia.
      - apply O1; [exact Hx|]. intros o _ G. apply I. destruct (get_inv 0 _ _ _ G) as [Hj ->]. apply (zn_In ws o). exact Hj. }
    split; [|split; [|exact R2]].
    + intros x Hx Hnx. cbn [qoutputs flat_map] in Hnx. destruct (O1 x Hx) as [V1 E1'].
      { intros o Ho. apply Hnx. apply in_or_app. left. exact Ho. }
      destruct (O2 x V1) as [V2 E2'].
      * intros o Ho G. destruct (get_inv 0 _ _ _ G) as [Hj Ex]. destruct (Z_lt_dec o (zlen ws)) as [Hlt|Hge].
        { apply (Hnx o); [apply in_or_app; right; exact Ho|]. rewrite <- G. unfold get. destruct (Z.ltb_spec o 0); [lia|].
          rewrite nth_error_app1 by (unfold zlen in Hlt; lia). reflexivity. }
        { apply (F1 x); [|exact Hx]. rewrite Ex. unfold znd. rewrite app_nth2 by (unfold zlen in Hge; lia). apply nth_In.
          rewrite zlen_app in Hj. unfold zlen in *. lia. }
      * split; [exact V2|congruence].
    + intros x I. apply in_app_or in I. destruct I as [I|I]; [apply F1; exact I|]. intro X. apply (F2 x I). apply KU. exact X.
Qed.

Lemma wires_decrypts (m : M) ws xs es i x F mm : wires m ws xs es -> get xs i = Ok x -> get es i = Ok F ->
  1 <= mm < 2 ^ 20 -> (mm | Q) -> (Q / mm | x) -> F <= Q * (2 ^ 31 / mm / 2 - 2 * mm) ->
  exists r, get ws i = Ok r /\ DecryptLWEMessage n (tm m r) mm s0 = Ok (x / (Q / mm) mod mm).
Proof.
  intros Hw Gx Ge HM [c Hc] [y Hy] HF. destruct (wires_get _ _ _ _ _ _ Hw Gx) as (r & E' & Gr & Ge' & _ & _ & Hx & C). rewrite Ge in Ge'. injection Ge' as <-.
  exists r. split; [exact Gr|]. destruct S as ([W _] & _ & Hsk & _). pose proof (pw_n _ _ W). pose proof C as (Lc & _). destruct Lc as [Lc _]. destruct Hsk as [[LK _] _].
  assert (Hc0: 0 < c) by nia. assert (EC: Q / mm = c) by (rewrite Hc; apply Z.div_mul; lia). rewrite EC in *. subst x. rewrite Z.div_mul by lia.
  rewrite Hc in C, HF, Hx. eapply stands_decrypts; [lia|lia|lia|exact HM|exact Hc0| |exact C|exact HF]. nia.
Qed.
End Props.

(** the statement, and its float64 form *)
Lemma qp_program (R : arith) O pr sk rk rb ck e Q T Rd p (m : mem (FP O)) ws ts xs fs es xs' fs' es' : setup R O pr sk rk rb ck -> 0 < Q ->
  reachable O pr e m -> qwires O pr e Q sk m ws xs es -> qtables O pr e m ws ts fs ->
  qplain Q p xs fs = Ok (xs', fs') -> qnoise Q (g_NBIT pr) T Rd p fs es = Ok es' ->
  (forall mm f c, qboots O pr ck e p ws ts fs m mm f c -> rounding pr (KeyLv0 sk) c Rd /\ gen_noise O pr sk ck f mm c T) ->
  exists nw ts' m', qexec O pr ck e p ws ts m = Ok (ws ++ nw, ts', m') /\
    qwires O pr e Q sk m' (ws ++ nw) xs' es' /\ qtables O pr e m' (ws ++ nw) ts' fs' /\
    (forall i r x F mm, get (ws ++ nw) i = Ok r -> get xs' i = Ok x -> get es' i = Ok F -> 1 <= mm < 2 ^ 20 -> (mm | Q) -> (Q / mm | x) ->
       F <= Q * (2 ^ 31 / mm / 2 - 2 * mm) -> DecryptLWEMessage (lv0_N pr) (tm m' r) mm (KeyLv0 sk) = Ok (x / (Q / mm) mod mm)) /\
    kept_but O e (qoutputs p) ws m m' /\ (forall x, In x nw -> ~ user m e x) /\ reachable O pr e m'.
Proof.
  intros S HQ Hr Hw Ht Hp Hn HB.
  destruct (prog_ok R O pr sk rk rb ck S e Q HQ T Rd p m ws ts xs fs es xs' fs' es' Hr Hw Ht Hp Hn) as (nw & ts' & m' & E & W1 & T1 & O1 & F1 & R1).
  { intros mm f c Hc _. apply HB. exact Hc. }
  exists nw, ts', m'. split; [exact E|]. split; [exact W1|]. split; [exact T1|]. split; [|auto].
  intros i r x F mm Gr Gx Ge HM D1 D2 HE. destruct (wires_decrypts R O pr sk rk rb ck S e Q HQ m' _ _ _ i x F mm W1 Gx Ge HM D1 D2 HE) as (r' & Gr' & D).
  rewrite Gr in Gr'. injection Gr' as <-. exact D.
Qed.

(** every modulus of the program is positive *)
Lemma plain_moduli Q O pr ck e p : forall ws ts fs (m : mem (FP O)) xs xs' fs' mm f c, (forall t g, get fs t = Ok g -> 0 < fst g) ->
  qplain Q p xs fs = Ok (xs', fs') -> qboots O pr ck e p ws ts fs m mm f c -> 0 < mm.
Proof.
  induction p as [|i p IH]; intros ws ts fs m xs xs' fs' mm f c Hfs Hp HB; cbn [qplain qboots] in *; [destruct HB|].
  apply bind_inv in Hp. destruct Hp as ([xs1 fs1] & P1 & Hp). destruct HB as [HB|(ws1 & ts1 & m1 & _ & HB)].
  - assert (X: forall x v, qlut_at Q mm f x = Ok v -> 0 < mm).
    { intros x v H. unfold qlut_at in H. destruct (Z.leb_spec 1 mm); [lia|discriminate]. }
    destruct i; cbn [qboots1 qplain1] in *; try contradiction.
    + destruct HB as [G _]. apply (Hfs _ _ G).
    + destruct HB as [G _]. apply (Hfs _ _ G).
    + destruct HB as [[-> ->] _]. apply bind_inv in P1. destruct P1 as (x & _ & P1). apply bind_inv in P1. destruct P1 as (v & Gv & _). eapply X; exact Gv.
    + destruct HB as [[-> ->] _]. apply bind_inv in P1. destruct P1 as (x & _ & P1). apply bind_inv in P1. destruct P1 as (v & Gv & _). eapply X; exact Gv.
  - pose proof (plain_fs Q _ _ _ _ _ P1) as Ef. rewrite <- Ef in HB. eapply (IH ws1 ts1 fs1 m1 xs1); [|exact Hp|exact HB].
    intros t g G. rewrite Ef in G. destruct i; cbn [qadded] in G; try (eapply Hfs; exact G). cbn [qplain1] in P1.
    destruct ((1 <=? M) && (M <? 2 ^ 20) && (Q mod M =? 0))%bool eqn:C0; [|discriminate].
    destruct (get_inv g _ _ _ G) as [Ht Eg]. rewrite zlen_snoc in Ht. destruct (Z.eq_dec t (zlen fs)) as [->|Hne].
    + rewrite get_last in G by reflexivity. injection G as <-. cbn [fst]. lia.
    + rewrite lget_app1 in G by lia. eapply Hfs; exact G.
Qed.

Lemma tables_moduli O pr e (m : mem (FP O)) ws ts fs : qtables O pr e m ws ts fs -> forall t g, get fs t = Ok g -> 0 < fst g.
Proof. intros H t g G. destruct (Forall2_get_r _ _ _ _ _ H G) as (l & _ & _ & _ & _ & X). lia. Qed.

Lemma qp_float64 mc O pr sk rk rb ck Bb Bk d d' e Q p (m : mem (FP O)) ws ts xs fs es xs' fs' es' : mc_ok mc -> setup (f64_arith mc) O pr sk rk rb ck ->
  fft_error_within pr d d' -> key_noise_within pr rk rb Bb Bk -> 0 <= Bb -> 0 <= Bk -> 0 <= d' -> 0 < Q ->
  reachable O pr e m -> qwires O pr e Q sk m ws xs es -> qtables O pr e m ws ts fs ->
  qplain Q p xs fs = Ok (xs', fs') -> qnoise Q (g_NBIT pr) (worst_noise pr sk Bb Bk d d') (round_err pr sk) p fs es = Ok es' ->
  exists nw ts' m', qexec O pr ck e p ws ts m = Ok (ws ++ nw, ts', m') /\
    qwires O pr e Q sk m' (ws ++ nw) xs' es' /\ qtables O pr e m' (ws ++ nw) ts' fs' /\
    (forall i r x F mm, get (ws ++ nw) i = Ok r -> get xs' i = Ok x -> get es' i = Ok F -> 1 <= mm < 2 ^ 20 -> (mm | Q) -> (Q / mm | x) ->
       F <= Q * (2 ^ 31 / mm / 2 - 2 * mm) -> DecryptLWEMessage (lv0_N pr) (tm m' r) mm (KeyLv0 sk) = Ok (x / (Q / mm) mod mm)) /\
    kept_but O e (qoutputs p) ws m m' /\ (forall x, In x nw -> ~ user m e x) /\ reachable O pr e m'.
Proof.
  intros Hc S H1 H2 H3 H4 H5 HQ Hr Hw Ht Hp Hn.
  destruct (prog_ok _ O pr sk rk rb ck S e Q HQ (worst_noise pr sk Bb Bk d d') (round_err pr sk) p m ws ts xs fs es xs' fs' es' Hr Hw Ht Hp Hn)
    as (nw & ts' & m' & E & W1 & T1 & O1 & F1 & R1).
  { intros mm f c HB Hl. split; [eapply t_rounding; exact S|]. eapply t_worst; try eassumption.
    eapply plain_moduli; [eapply tables_moduli; exact Ht|exact Hp|exact HB]. }
  exists nw, ts', m'. split; [exact E|]. split; [exact W1|]. split; [exact T1|]. split; [|auto].
  intros i r x F mm Gr Gx Ge HM D1 D2 HE. destruct (wires_decrypts _ O pr sk rk rb ck S e Q HQ m' _ _ _ i x F mm W1 Gx Ge HM D1 D2 HE) as (r' & Gr' & D).
  rewrite Gr in Gr'. injection Gr' as <-. exact D.
Qed.

(** ** the adder in base B *)
Lemma qplain_app Q p q : forall xs fs, qplain Q (p ++ q) xs fs = ('(xs, fs) <- qplain Q p xs fs ;; qplain Q q xs fs).
Proof.
  induction p as [|i p IH]; intros xs fs; cbn [app qplain]; [reflexivity|]. destruct (qplain1 Q i xs fs) as [[xs1 fs1]|]; cbn [bind]; [apply IH|reflexivity].
Qed.
Lemma qnoise_app Q nb T Rd p q : forall fs es, qnoise Q nb T Rd (p ++ q) fs es =
  (es <- qnoise Q nb T Rd p fs es ;; qnoise Q nb T Rd q (fold_left (fun g i => qadded i g) p fs) es).
Proof.
  induction p as [|i p IH]; intros fs es; cbn [app qnoise fold_left]; [reflexivity|]. destruct (qnoise1 Q nb T Rd i fs es) as [es1|]; cbn [bind]; [apply IH|reflexivity].
Qed.
Lemma qroom_le Q nb Rd F : 0 < Q -> 0 <= nb <= 31 -> F + Q * Rd + Q * 2 ^ (31 - nb) <= 2 ^ 30 -> qroom Q nb Rd Q F = true.
Proof.
  intros HQ Hnb H. unfold qroom. rewrite Z.div_same, Z.mul_1_l by lia. assert (0 < Q * 2 ^ (31 - nb)) by (apply Z.mul_pos_pos; [lia|apply Z.pow_pos_nonneg; lia]).
  destruct (Z.ltb_spec (F + Q * Rd) (2 ^ 30)); [|lia]. destruct (Z.leb_spec (F + Q * Rd + Q * 2 ^ (31 - nb)) (2 ^ 30)); [|lia]. apply Bool.orb_true_r.
Qed.

Section Radix.
Context (Q B w : Z) (HQ2 : Q < 2 ^ 20) (HB : 1 <= B) (HBk : 2 * B <= Q) (Hw : 0 <= w).
Let fs := [(Q, fun x => x mod B); (Q, fun x => x / B)].

Lemma qlut_self f x : 0 <= x < Q -> qlut_at Q Q f x = Ok (f x mod Q).
Proof.
  intro Hx. unfold qlut_at. rewrite Z.mod_same, Z.div_same, Z.mod_1_r, Z.div_1_r, Z.mul_1_r by lia.
  destruct (Z.leb_spec 1 Q); [|lia]. destruct (Z.ltb_spec Q (2 ^ 20)); [|lia]. cbn [andb Z.eqb]. cbv zeta. destruct (Z.ltb_spec x Q); [reflexivity|lia].
Qed.
Lemma digits_tables j gs : fold_left (fun g i => qadded i g) (qradix_digits w j) gs = gs.
Proof.
  revert gs. induction j as [|j IH]; intro gs; cbn [qradix_digits]; [reflexivity|]. rewrite fold_left_app, IH. reflexivity.
Qed.

Lemma digit_plain xs i a b c : 0 <= i -> zlen xs = 2 * w + 1 + 4 * i -> get xs i = Ok a -> get xs (w + i) = Ok b -> get xs (2 * w + 4 * i) = Ok c ->
  0 <= a < B -> 0 <= b < B -> 0 <= c <= 1 ->
  qplain Q (qdigit_calls w i) xs fs = Ok (xs ++ [a + b; a + b + c; (a + b + c) mod B; (a + b + c) / B], fs).
Proof.
  intros Hi Hz Ga Gb Gc Ha Hb Hc. unfold qdigit_calls. set (p := 2 * w + 1 + 4 * i) in *. cbv zeta. cbn [qplain qplain1].
  assert (Gz: forall l j v, get xs j = Ok v -> get (xs ++ l) j = Ok v).
  { intros l j v G. destruct (get_inv 0 _ _ _ G) as [Hj _]. rewrite lget_app1 by exact Hj. exact G. }
  rewrite Ga, Gb. cbn [bind]. rewrite (Z.mod_small (a + b)) by lia.
  rewrite (get_last xs [] (a + b) p) by lia. rewrite (Gz [a + b] (p - 1) c) by (replace (p - 1) with (2 * w + 4 * i) by lia; exact Gc). cbn [bind].
  rewrite (Z.mod_small (a + b + c)) by lia. rewrite <- (app_assoc xs). cbn [app].
  assert (G1: forall l, get (xs ++ a + b :: a + b + c :: l) (p + 1) = Ok (a + b + c)).
  { intro l. change (xs ++ a + b :: a + b + c :: l) with (xs ++ [a + b] ++ a + b + c :: l). rewrite app_assoc. apply get_last. rewrite zlen_snoc. lia. }
  assert (L: forall f, qlut_at Q Q f (a + b + c) = Ok (f (a + b + c) mod Q)).
  { intro f. apply qlut_self; lia. }
  unfold fs at 1. change (get [(Q, fun x => x mod B); (Q, fun x => x / B)] 0) with (Ok (Q, fun x => x mod B)). cbn [bind fst snd]. rewrite G1. cbn [bind].
  rewrite L. cbn [bind]. pose proof (Z.mod_pos_bound (a + b + c) B ltac:(lia)). rewrite !(Z.mod_small ((a + b + c) mod B)) by (rewrite ?(Z.mod_small ((a + b + c) mod B)) by lia; lia).
  rewrite <- (app_assoc xs). cbn [app].
  unfold fs at 1. change (get [(Q, fun x => x mod B); (Q, fun x => x / B)] 1) with (Ok (Q, fun x => x / B)). cbn [bind fst snd]. rewrite G1. cbn [bind].
  rewrite L. cbn [bind]. assert (0 <= (a + b + c) / B < 2) by (split; [apply Z.div_pos; lia|apply Z.div_lt_upper_bound; lia]).
  rewrite !(Z.mod_small ((a + b + c) / B)) by (rewrite ?(Z.mod_small ((a + b + c) / B)) by lia; lia).
  rewrite <- (app_assoc xs). reflexivity.
Qed.

Context (va vb : Z -> Z) (Ha : forall i, 0 <= i < w -> 0 <= va i < B) (Hb : forall i, 0 <= i < w -> 0 <= vb i < B).

Lemma digits_plain xs0 j : 0 <= j -> j <= w -> zlen xs0 = 2 * w + 1 ->
  (forall i, 0 <= i < w -> get xs0 i = Ok (va i) /\ get xs0 (w + i) = Ok (vb i)) -> get xs0 (2 * w) = Ok 0 ->
  exists rest ds c, qplain Q (qradix_digits w (Z.to_nat j)) xs0 fs = Ok (xs0 ++ rest, fs) /\ zlen rest = 4 * j /\
    (forall i, 0 <= i < j -> get (xs0 ++ rest) (sum_digit w i) = Ok (ds i) /\ 0 <= ds i < B) /\
    get (xs0 ++ rest) (2 * w + 4 * j) = Ok c /\ 0 <= c <= 1 /\
    zsum j (fun i => ds i * B ^ i) + c * B ^ j = zsum j (fun i => va i * B ^ i) + zsum j (fun i => vb i * B ^ i).
Proof.
  intros Hj Hjw Hz Hx H0. revert j Hj Hjw. refine (zsum_ind _ _ _).
  - intros _. exists [], (fun _ => 0), 0. rewrite app_nil_r. split; [reflexivity|]. split; [reflexivity|]. split; [intros; lia|]. rewrite Z.mul_0_r, Z.add_0_r.
    split; [exact H0|]. split; [lia|]. rewrite !zsum_0 by lia. reflexivity.
  - intros j Hj IH Hjw. destruct (IH ltac:(lia)) as (rest & ds & c & E & Hr & Hd & Gc & Hc & Hs).
    replace (Z.to_nat (j + 1)) with (Datatypes.S (Z.to_nat j)) by lia. cbn [qradix_digits]. rewrite qplain_app, E. cbn [bind]. rewrite Z2Nat.id by lia.
    destruct (Hx j ltac:(lia)) as [Ga Gb]. pose proof (Ha j ltac:(lia)). pose proof (Hb j ltac:(lia)).
    assert (ZL: zlen (xs0 ++ rest) = 2 * w + 1 + 4 * j) by (rewrite zlen_app; lia).
    rewrite (digit_plain (xs0 ++ rest) j (va j) (vb j) c) by (try lia; try (rewrite lget_app1 by lia); try assumption).
    set (s := va j + vb j + c) in *. set (t := [va j + vb j; s; s mod B; s / B]).
    exists (rest ++ t), (fun i => if i =? j then s mod B else ds i), (s / B). rewrite <- app_assoc. split; [reflexivity|].
    split; [rewrite zlen_app, Hr; change (zlen t) with 4; lia|]. rewrite app_assoc. pose proof (Z.mod_pos_bound s B ltac:(lia)) as Bd.
    split; [|split; [|split]].
    + intros i Hi. destruct (Z.eqb_spec i j) as [->|Hne].
      * split; [|exact Bd]. change t with ([va j + vb j; s] ++ s mod B :: [s / B]). rewrite app_assoc. apply get_last. rewrite zlen_app. change (zlen [va j + vb j; s]) with 2. unfold sum_digit. lia.
      * destruct (Hd i ltac:(lia)) as [G D]. split; [|exact D]. rewrite lget_app1; [exact G|]. unfold sum_digit. lia.
    + change t with ([va j + vb j; s; s mod B] ++ s / B :: []). rewrite app_assoc. apply get_last. rewrite zlen_app. change (zlen [va j + vb j; s; s mod B]) with 3. lia.
    + split; [apply Z.div_pos; lia|]. assert (s / B < 2) by (apply Z.div_lt_upper_bound; lia). lia.
    + rewrite !zsum_S by lia. rewrite Z.eqb_refl. rewrite (zsum_ext j (fun i => (if i =? j then s mod B else ds i) * B ^ i) (fun i => ds i * B ^ i)).
      2: { intros i Hi. destruct (Z.eqb_spec i j); [lia|reflexivity]. }
      rewrite Z.pow_add_r by lia. change (B ^ 1) with (B * 1). pose proof (Z.div_mod s B ltac:(lia)) as DM.
      assert (K: s mod B * B ^ j + s / B * (B ^ j * (B * 1)) = s * B ^ j) by (rewrite DM at 3; ring). 
      unfold s in K at 3. nia.
Qed.

Context (nb T Rd E : Z) (H1 : qroom Q nb Rd Q (2 * E + Q * (T + 1)) = true) (H2 : qroom Q nb Rd Q (4 * E) = true).
Notation T' := (Q * (T + 1)).

Lemma digit_noise es i c : 0 <= i -> zlen es = 2 * w + 1 + 4 * i -> get es i = Ok E -> get es (w + i) = Ok E -> get es (2 * w + 4 * i) = Ok c ->
  qroom Q nb Rd Q (2 * E + c) = true -> exists u v, qnoise Q nb T Rd (qdigit_calls w i) fs es = Ok (es ++ [u; v; T'; T']).
Proof.
  intros Hi Hz Ga Gb Gc Hc. assert (HR: qroom Q nb Rd Q (E + E + c) = true) by (replace (E + E) with (2 * E) by ring; exact Hc).
  unfold qdigit_calls. set (p := 2 * w + 1 + 4 * i) in *. cbv zeta. cbn [qnoise qnoise1 qadded].
  rewrite Ga, Gb. cbn [bind].
  rewrite (get_last es [] (E + E) p) by lia. destruct (get_inv 0 _ _ _ Gc) as [Hgc _].
  rewrite (lget_app1 es [E + E] (p - 1)) by lia. replace (p - 1) with (2 * w + 4 * i) by lia. rewrite Gc. cbn [bind]. rewrite <- (app_assoc es). cbn [app].
  assert (G1: forall l, get (es ++ E + E :: E + E + c :: l) (p + 1) = Ok (E + E + c)).
  { intro l. change (es ++ E + E :: E + E + c :: l) with (es ++ [E + E] ++ E + E + c :: l). rewrite app_assoc. apply get_last. rewrite zlen_snoc. lia. }
  change (get fs 0) with (Ok (Q, fun x => x mod B)). cbn [bind fst]. rewrite G1. cbn [bind]. rewrite HR. cbn [bind].
  rewrite <- (app_assoc es). cbn [app]. change (get fs 1) with (Ok (Q, fun x => x / B)). cbn [bind fst]. rewrite G1. cbn [bind]. rewrite HR. cbn [bind].
  rewrite <- (app_assoc es). cbn [app]. eauto.
Qed.

Lemma digits_noise es0 j : 0 <= j -> j <= w -> zlen es0 = 2 * w + 1 ->
  (forall i, 0 <= i < w -> get es0 i = Ok E /\ get es0 (w + i) = Ok E) -> get es0 (2 * w) = Ok (2 * E) ->
  exists rest c, qnoise Q nb T Rd (qradix_digits w (Z.to_nat j)) fs es0 = Ok (es0 ++ rest) /\ zlen rest = 4 * j /\
    (forall i, 0 <= i < j -> get (es0 ++ rest) (sum_digit w i) = Ok T') /\
    get (es0 ++ rest) (2 * w + 4 * j) = Ok c /\ (c = T' \/ j = 0 /\ c = 2 * E).
Proof.
  intros Hj Hjw Hz Hx H0. revert j Hj Hjw. refine (zsum_ind _ _ _).
  - intros _. exists [], (2 * E). rewrite app_nil_r. split; [reflexivity|]. split; [reflexivity|]. split; [intros; lia|]. rewrite Z.mul_0_r, Z.add_0_r.
    split; [exact H0|]. right. auto.
  - intros j Hj IH Hjw. destruct (IH ltac:(lia)) as (rest & c & E0 & Hr & Hd & Gc & Hc).
    replace (Z.to_nat (j + 1)) with (Datatypes.S (Z.to_nat j)) by lia. cbn [qradix_digits]. rewrite qnoise_app, E0. cbn [bind]. rewrite Z2Nat.id by lia. rewrite digits_tables.
    destruct (Hx j ltac:(lia)) as [Ga Gb].
    assert (ZL: zlen (es0 ++ rest) = 2 * w + 1 + 4 * j) by (rewrite zlen_app; lia).
    destruct (digit_noise (es0 ++ rest) j c) as (u & v & Ed); [lia|exact ZL|rewrite lget_app1 by lia; exact Ga|rewrite lget_app1 by lia; exact Gb|exact Gc|destruct Hc as [-> | [-> ->]]; [exact H1|replace (2 * E + 2 * E) with (4 * E) by ring; exact H2]|].
    rewrite Ed. set (t := [u; v; T'; T']). exists (rest ++ t), T'. rewrite <- app_assoc. split; [reflexivity|].
    split; [rewrite zlen_app, Hr; change (zlen t) with 4; lia|]. rewrite app_assoc. split; [|split; [|left; reflexivity]].
    + intros i Hi. destruct (Z.eq_dec i j) as [->|Hne].
      * change t with ([u; v] ++ T' :: [T']). rewrite app_assoc. apply get_last. rewrite zlen_app. change (zlen [u; v]) with 2. unfold sum_digit. lia.
      * rewrite lget_app1; [apply Hd; lia|]. unfold sum_digit. lia.
    + change t with ([u; v; T'] ++ T' :: []). rewrite app_assoc. apply get_last. rewrite zlen_app. change (zlen [u; v; T']) with 3. lia.
Qed.
End Radix.

Lemma stands_self n s ct Q y E : 0 < Q -> encodes n s ct Q y E -> stands n s ct Q y (Q * (E + 1)).
Proof. intros HQ H. pose proof (encodes_stands n s ct Q 1 y E HQ ltac:(lia) H) as X. rewrite Z.mul_1_l, Z.mul_1_r in X. exact X. Qed.

Lemma qradix_float64 mc O pr sk rk rb ck Bb Bk d d' e Q B w (m : mem (FP O)) la lb va vb E : mc_ok mc -> setup (f64_arith mc) O pr sk rk rb ck ->
  fft_error_within pr d d' -> key_noise_within pr rk rb Bb Bk -> 0 <= Bb -> 0 <= Bk -> 0 <= d' ->
  1 <= B -> 2 * B <= Q -> Q < 2 ^ 20 -> 1 <= w ->
  Q * (2 * E + worst_noise pr sk Bb Bk d d' + round_err pr sk + 2 ^ (31 - g_NBIT pr) + 3) <= 2 ^ 30 ->
  Q * (4 * E + round_err pr sk + 2 ^ (31 - g_NBIT pr) + 4) <= 2 ^ 30 ->
  worst_noise pr sk Bb Bk d d' + 1 <= 2 ^ 31 / Q / 2 - 2 * Q ->
  reachable O pr e m -> zlen la = w -> zlen lb = w -> NoDup (la ++ lb) ->
  (forall i, 0 <= i < w -> user m e (zn la i) /\ 0 <= va i < B /\ encodes (lv0_N pr) (KeyLv0 sk) (tm m (zn la i)) Q (va i) E) ->
  (forall i, 0 <= i < w -> user m e (zn lb i) /\ 0 <= vb i < B /\ encodes (lv0_N pr) (KeyLv0 sk) (tm m (zn lb i)) Q (vb i) E) ->
  exists ws ts m' ds co, qexec O pr ck e (qradix_adder Q B w) (la ++ lb) [] m = Ok (ws, ts, m') /\
    (forall i, 0 <= i < w -> 0 <= ds i < B /\ exists r, get ws (sum_digit w i) = Ok r /\
       DecryptLWEMessage (lv0_N pr) (tm m' r) Q (KeyLv0 sk) = Ok (ds i)) /\
    (exists r, get ws (sum_carry w) = Ok r /\ DecryptLWEMessage (lv0_N pr) (tm m' r) Q (KeyLv0 sk) = Ok co) /\
    zsum w (fun i => ds i * B ^ i) + co * B ^ w = zsum w (fun i => va i * B ^ i) + zsum w (fun i => vb i * B ^ i) /\
    user_kept e m m' /\ reachable O pr e m'.
Proof.
  intros Hc S H1 H2 H3 H4 H5 HB HBk HQ2 Hw HN1 HN2 HN3 Hr Ha Hb ND HA HBb. assert (P: 0 < Q) by lia. set (F := Q * (E + 1)).
  set (xs := tab (2 * w) (fun i => if i <? w then va i else vb (i - w))). set (es := repeat F (Z.to_nat (2 * w))).
  assert (Zxs: zlen xs = 2 * w) by (apply zlen_tab; lia). assert (Zes: zlen es = 2 * w) by (unfold es; rewrite zlen_repeat; lia).
  assert (Zws: zlen (la ++ lb) = 2 * w) by (rewrite zlen_app; lia).
  assert (Vx: forall i, 0 <= i < w -> get xs i = Ok (va i) /\ get xs (w + i) = Ok (vb i)).
  { intros i Hi. unfold xs. rewrite !get_zn by (rewrite zlen_tab; lia). rewrite !zn_tab by lia.
    destruct (Z.ltb_spec i w); [|lia]. destruct (Z.ltb_spec (w + i) w); [lia|]. replace (w + i - w) with i by ring. auto. }
  assert (Ve: forall i, 0 <= i < 2 * w -> get es i = Ok F).
  { intros i Hi. rewrite get_zn by lia. f_equal. unfold es. apply (znd_repeat 0). lia. }
  assert (Hwi: qwires O pr e Q sk m (la ++ lb) xs es).
  { split; [lia|]. split; [lia|]. split; [exact ND|]. intros i Hi. rewrite Zws in Hi. pose proof (Ve i Hi) as G. rewrite get_zn in G by lia. injection G as ->.
    unfold xs. rewrite zn_tab by lia. destruct (Z.ltb_spec i w).
    - rewrite zn_app1 by lia. destruct (HA i ltac:(lia)) as (U & V & C). split; [exact U|]. split; [lia|apply stands_self; [lia|exact C]].
    - destruct (HBb (i - w) ltac:(lia)) as (U & V & C).
      assert (QQ: zn (la ++ lb) i = zn lb (i - w)).
      { unfold zn, znd. rewrite app_nth2 by (unfold zlen in Ha; lia). f_equal. unfold zlen in Ha. lia. }
      rewrite QQ. split; [exact U|]. split; [lia|apply stands_self; [lia|exact C]]. }
  set (T := worst_noise pr sk Bb Bk d d') in *. set (Rd := round_err pr sk) in *.
  set (fs := [(Q, fun x => x mod B); (Q, fun x => x / B)]).
  assert (Hnb: 0 <= g_NBIT pr <= 31) by (destruct S as ([W _] & _); pose proof (pw_nb _ _ W); lia).
  assert (HR1: qroom Q (g_NBIT pr) Rd Q (2 * F + Q * (T + 1)) = true) by (apply qroom_le; [exact P|exact Hnb|]; unfold F; revert HN1; generalize (2 ^ (31 - g_NBIT pr)); intros; lia).
  assert (HR2: qroom Q (g_NBIT pr) Rd Q (4 * F) = true) by (apply qroom_le; [exact P|exact Hnb|]; unfold F; revert HN2; generalize (2 ^ (31 - g_NBIT pr)); intros; lia).
  destruct (digits_plain Q B w HQ2 HB HBk va vb (fun i Hi => proj1 (proj2 (HA i Hi))) (fun i Hi => proj1 (proj2 (HBb i Hi))) (xs ++ [0]) w ltac:(lia) ltac:(lia))
    as (rest & ds & co & Ep & Zr & Hd & Gc & Hco & Hs).
  { rewrite zlen_snoc. lia. }
  { intros i Hi. rewrite !lget_app1 by lia. apply Vx. exact Hi. }
  { apply get_last. lia. }
  fold fs in Ep.
  destruct (digits_noise Q B w ltac:(lia) va vb (fun i Hi => proj1 (proj2 (HA i Hi))) (fun i Hi => proj1 (proj2 (HBb i Hi))) (g_NBIT pr) T Rd F HR1 HR2 (es ++ [2 * F]) w ltac:(lia) ltac:(lia))
    as (nrest & nc & En & Znr & Hnd & Gnc & Hnc).
  { rewrite zlen_snoc. lia. }
  { intros i Hi. rewrite !lget_app1 by lia. rewrite !Ve by lia. auto. }
  { apply get_last. lia. }
  destruct (qp_float64 mc O pr sk rk rb ck Bb Bk d d' e Q (qradix_adder Q B w) m (la ++ lb) [] xs [] es ((xs ++ [0]) ++ rest) fs ((es ++ [2 * F]) ++ nrest)
    Hc S H1 H2 H3 H4 H5 P Hr Hwi (Forall2_nil _)) as (nw & ts' & m' & E1 & W1 & T1 & D1 & O1 & F1 & R1).
  { unfold qradix_adder. cbn [app qplain qplain1]. cbv zeta. rewrite Z.mod_same by lia. destruct (Z.leb_spec 1 Q); [|lia]. destruct (Z.ltb_spec Q (2 ^ 20)); [|lia]. cbn [andb Z.eqb bind app]. destruct (Vx 0 ltac:(lia)) as [G0 _]. rewrite G0. cbn [bind].
    rewrite Z.sub_diag, Z.mod_0_l by lia. cbn [bind]. exact Ep. }
  { unfold qradix_adder. cbn [app qnoise qnoise1 qadded]. cbv zeta. cbn [bind app]. rewrite (Ve 0) by lia. cbn [bind]. replace (F + F) with (2 * F) by ring. exact En. }
  exists ((la ++ lb) ++ nw), ts', m', ds, co. split; [exact E1|].
  assert (ZW: zlen ((la ++ lb) ++ nw) = 6 * w + 1).
  { destruct W1 as (L1 & _). rewrite <- L1. rewrite !zlen_app. change (zlen [0]) with 1. lia. }
  assert (GW: forall i, 0 <= i < 6 * w + 1 -> exists r, get ((la ++ lb) ++ nw) i = Ok r) by (intros i Hi; eexists; apply get_zn; lia).
  split; [|split; [|split; [exact Hs|split; [|exact R1]]]].
  - intros i Hi. destruct (Hd i Hi) as [Gd Bd]. split; [exact Bd|]. destruct (GW (sum_digit w i)) as [r Gr]; [unfold sum_digit; lia|].
    exists r. split; [exact Gr|]. rewrite (D1 _ r _ _ Q Gr Gd (Hnd i Hi)); [|lia|exists 1; lia|rewrite Z.div_same by lia; apply Z.divide_1_l|apply Z.mul_le_mono_nonneg_l; lia].
    rewrite Z.div_same, Z.div_1_r, Z.mod_small by lia. reflexivity.
  - destruct (GW (sum_carry w)) as [r Gr]; [unfold sum_carry; lia|]. exists r. split; [exact Gr|].
    assert (Ec: sum_carry w = 2 * w + 4 * w) by (unfold sum_carry; lia).
    rewrite (D1 (sum_carry w) r co nc Q Gr); [|rewrite Ec; exact Gc|rewrite Ec; exact Gnc|lia|exists 1; lia|rewrite Z.div_same by lia; apply Z.divide_1_l|destruct Hnc as [-> | [X _]]; [apply Z.mul_le_mono_nonneg_l; lia|lia]].
    rewrite Z.div_same, Z.div_1_r, Z.mod_small by lia. reflexivity.
  - intros z Hz. apply O1; [exact Hz|]. intros o Ho. exfalso. clear - Ho. unfold qradix_adder in Ho. cbn [app qoutputs flat_map qoutputs1] in Ho.
    induction (Z.to_nat w) as [|j IH]; cbn [qradix_digits flat_map] in Ho; [exact Ho|]. rewrite flat_map_app in Ho. apply in_app_or in Ho. destruct Ho as [Ho|Ho]; [auto|exact Ho].
Qed.

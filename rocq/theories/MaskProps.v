(** * Rounding of the mask decides what a bootstrap reads *)
From Coq Require Import Lia ZifyBool Setoid Morphisms List.
From Verif Require Import GoBase GoFacts GoMem F64 Utils Spec Params Key Tlwe TlweMem Poly Fft FftTabErr FftReal FftOps FftProps Trlwe Trgsw Lut Evaluator CloudKey Gates RunSpec LutSpec LutProg MaskSpec
  MemFacts TlweFacts PolyFacts NegFacts Laws TrlweFacts MsgFacts TrgswFacts RotFacts EvalFacts HeapFacts CloudKeyFacts BootFacts GateFacts RunProps HistProps NoiseFacts RunWorst BasicFacts LutFacts LutProps ReencFacts NibbleProps LutProgProps AttackFacts
  MaskCount MaskTail.
Import ListNotations.
Local Open Scope Z_scope.
Ltac Zify.zify_post_hook ::= idtac.

(** ** the position read *)
Lemma index_exact pr s ct : 0 <= lv0_N pr ->
  rotation_index pr s ct * 2 ^ (31 - g_NBIT pr) == lwe_phase (lv0_N pr) s ct + resid pr (zn ct (lv0_N pr)) - drift pr s ct.
Proof.
  intro Hn. unfold rotation_index, lwe_phase, drift, resid. set (n := lv0_N pr) in *. set (G := 2 ^ (31 - g_NBIT pr)).
  rewrite Z.mul_sub_distr_r, <- zsum_mul_r.
  rewrite (zsum_ext n (fun i => zn s i * rounded pr (zn ct i) * G) (fun i => zn ct i * zn s i + zn s i * (rounded pr (zn ct i) * G - zn ct i))) by (intros; ring).
  rewrite zsum_add. set (A := zsum n _). set (B := zsum n _). apply eqm_iff. 
  pose proof (Z.div_mod (zn ct n - A) two32 ltac:(discriminate)) as D. exists ((zn ct n - A) / two32). lia.
Qed.

Section Slip.
Context (R : arith) (O : fops) (pr : pset) (sk : SecretKey) (rk : Z -> enc_rand) (rb : Z -> Z -> trlwe_rand) (ck : CloudKey O)
  (S : setup R O pr sk rk rb ck).
Notation n := (lv0_N pr).
Notation s0 := (KeyLv0 sk).
Notation M := (mem (FP O)).
Notation BK := (BootstrappingKey ck). Notation KK := (KeySwitchingKey ck). Notation OFF := (DecompositionOffset ck).
Context (k : Z) (Hk : 0 <= k < g_NBIT pr).

Lemma read_reads ct x e : lwe_phase n s0 ct == x * 2 ^ (31 - k) + e ->
  reads pr s0 ct (2 ^ k) (read_position pr k s0 ct x e mod (2 * 2 ^ k)).
Proof.
  intro Hp. pose proof S as ([W _] & _). pose proof (pw_nb _ _ W) as Hnb. pose proof (pw_N _ _ W) as HN. pose proof (pw_n _ _ W) as Hn.
  pose proof (index_exact pr s0 ct Hn) as I. rewrite Hp in I. unfold reads, read_position.
  set (r0 := resid pr (zn ct n)) in *. set (dr := drift pr s0 ct) in *. set (d := e + r0 - dr).
  assert (I': rotation_index pr s0 ct * 2 ^ (31 - g_NBIT pr) == x * 2 ^ (31 - k) + d) by (rewrite I; apply eqm_refl'; unfold d; ring).
  clear I. set (G := 2 ^ (31 - g_NBIT pr)) in *. set (b := 2 ^ (g_NBIT pr - 1 - k)).
  assert (HG: 0 < G) by (apply Z.pow_pos_nonneg; lia). assert (Hb: 0 < b) by (apply Z.pow_pos_nonneg; lia).
  assert (HM: 0 < 2 ^ k) by (apply Z.pow_pos_nonneg; lia). set (Mk := 2 ^ k) in *.
  assert (E1: 2 ^ (30 - k) = b * G) by (unfold b, G; rewrite <- Z.pow_add_r by lia; f_equal; lia).
  assert (E2: 2 ^ (31 - k) = 2 * (b * G)) by (rewrite <- E1; replace (31 - k) with (1 + (30 - k)) by lia; rewrite Z.pow_add_r by lia; reflexivity).
  assert (E3: g_N pr = 2 * (b * Mk)).
  { rewrite HN at 1. unfold b, Mk. rewrite <- Z.pow_add_r by lia. change 2 with (2 ^ 1) at 2. rewrite <- Z.pow_add_r by lia. f_equal. lia. }
  assert (E4: two32 = 2 * Mk * (2 * (b * G))).
  { rewrite <- E2. unfold Mk. change two32 with (2 * 2 ^ 31). rewrite <- Z.mul_assoc, <- Z.pow_add_r by lia. do 2 f_equal. lia. }
  rewrite E1, E2 in *. apply eqm_iff in I'. destruct I' as [t Et]. rewrite E4 in Et.
  set (idx := rotation_index pr s0 ct) in *. clearbody idx. clear Hp. clearbody d G b Mk. clear r0 dr.
  pose proof (Z.div_mod (d + b * G) (2 * (b * G)) ltac:(nia)) as D1. pose proof (Z.mod_pos_bound (d + b * G) (2 * (b * G)) ltac:(nia)) as D2.
  set (u := (d + b * G) / (2 * (b * G))) in *. set (w := (d + b * G) mod (2 * (b * G))) in *.
  set (y := x + u). pose proof (Z.div_mod y (2 * Mk) ltac:(lia)) as Y1. set (yq := y / (2 * Mk)) in *. set (yr := y mod (2 * Mk)) in *.
  (* idx * G = y * (2 b G) + (w - b G) + t * 2^32 *)
  assert (Ey: yr = x + u - 2 * Mk * yq) by (clear - Y1; unfold y in Y1; lia). assert (Ed: d = 2 * (b * G) * u + w - b * G) by (clear - D1; lia).
  clearbody yr yq. clear Y1 D1. clearbody u w. subst yr d.
  set (i0 := idx - (x + u - 2 * Mk * yq + 2 * Mk * (yq + t)) * (2 * b)).
  assert (X: i0 * G = w - b * G) by (unfold i0; rewrite Z.mul_sub_distr_r, Et; ring).
  assert (B1: - b <= i0) by (apply (Z.mul_le_mono_pos_r _ _ G HG); rewrite X; lia).
  assert (B2: i0 < b) by (apply (Z.mul_lt_mono_pos_r G _ _ HG); rewrite X; lia).
  exists (i0 + (x + u - 2 * Mk * yq) * (2 * b)), (yq + t). rewrite E3. split; [unfold i0; ring|]. unfold in_window.
  clearbody i0. clear - B1 B2 HM. replace (2 * ((i0 + (x + u - 2 * Mk * yq) * (2 * b)) * Mk - (x + u - 2 * Mk * yq) * (2 * (b * Mk)))) with (2 * (i0 * Mk)) by ring.
  assert (- b * Mk <= i0 * Mk) by (apply Z.mul_le_mono_nonneg_r; lia). assert (i0 * Mk <= (b - 1) * Mk) by (apply Z.mul_le_mono_nonneg_r; lia). lia.
Qed.

Lemma read_boot e (m : M) ct f x e0 T : reachable O pr e m -> input O pr m e ct ->
  lwe_phase n s0 (tm m ct) == x * 2 ^ (31 - k) + e0 -> gen_noise O pr sk ck f (2 ^ k) (tm m ct) T ->
  let z := lut_at k f (read_position pr k s0 (tm m ct) x e0 mod (2 * 2 ^ k)) in
  exists r m', BootstrapFunc O pr m e ct f (2 ^ k) BK KK OFF = Ok (r, m') /\
    encodes n s0 (tm m' r) (2 ^ k) (z mod (2 * 2 ^ k)) T /\
    (T < 2 ^ (30 - k) -> DecryptLWEMessage n (tm m' r) (2 ^ k) s0 = Ok (z mod 2 ^ k)) /\
    user m' e r /\ ~ user m e r /\ user_kept e m m' /\ reachable O pr e m'.
Proof.
  intros Hr Hi Hp HT. pose proof (read_reads _ _ _ Hp) as Rd.
  assert (Hkb: 0 <= k <= 29 /\ 0 < 2 ^ k) by (destruct (kbound R O pr sk rk rb ck S k Hk) as (A & B & _); split; assumption).
  set (y := read_position _ _ _ _ _ _ mod _) in *. assert (Hy: 0 <= y < 2 * 2 ^ k) by (apply Z.mod_pos_bound; lia). cbv zeta.
  destruct (t_func R O pr sk rk rb ck S e m ct f (2 ^ k) y T Hr Hi ltac:(lia) Hy Rd HT) as (r & m' & v & E & Ev & Lk & Cl & U & NU & K & Q).
  exists r, m'. split; [exact E|].
  assert (En: encodes n s0 (tm m' r) (2 ^ k) (lut_at k f y mod (2 * 2 ^ k)) T).
  { split; [exact Lk|]. destruct Cl as (c & Hc & Ec). exists c. split; [exact Hc|]. rewrite Ec.
    rewrite (signed_lut_at R O pr sk rk rb ck S k Hk f y v Hy Ev). reflexivity. }
  split; [exact En|]. split; [|split; [exact U|split; [exact NU|split; [exact K|exact Q]]]].
  intro HT2. pose proof S as ([W _] & _ & [[L0 _] _] & _). pose proof (pw_n _ _ W) as Hn.
  rewrite (position_decrypts n (tm m' r) k (lut_at k f y mod (2 * 2 ^ k)) s0 T); try lia.
  - f_equal. symmetry. apply Znumtheory.Zmod_div_mod; [lia|lia|]. exists 2. reflexivity.
  - destruct Lk as [-> _]. lia.
  - apply En.
Qed.
End Slip.

(** ** counting masks *)
Lemma NoDup_tab n : NoDup (tab n (fun i => i)).
Proof.
  unfold tab. apply FinFun.Injective_map_NoDup; [|apply seq_NoDup]. intros x y E. lia.
Qed.
Lemma wsum_zsum v s a : length s = length a -> wsum v s a = zsum (zlen s) (fun i => zn s i * v (zn a i)).
Proof.
  revert a. induction s as [|b s IH]; intros [|x a] L; try discriminate; [reflexivity|]. cbn [wsum].
  assert (E: zlen (b :: s) = zlen s + 1) by (unfold zlen; cbn [length]; lia).
  rewrite E, zsum_first by (unfold zlen; lia). rewrite (IH a) by (cbn [length] in L; lia). f_equal.
  apply zsum_ext. intros i Hi. unfold zn, znd. replace (Z.to_nat (1 + i)) with (Datatypes.S (Z.to_nat i)) by lia. reflexivity.
Qed.
Lemma ones_weight s : ones s = weight (zlen s) s.
Proof.
  unfold weight. induction s as [|b s IH]; [reflexivity|]. cbn [ones].
  assert (E: zlen (b :: s) = zlen s + 1) by (unfold zlen; cbn [length]; lia).
  rewrite E, zsum_first by (unfold zlen; lia). rewrite IH. f_equal.
  apply zsum_ext. intros i Hi. unfold zn, znd. replace (Z.to_nat (1 + i)) with (Datatypes.S (Z.to_nat i)) by lia. reflexivity.
Qed.

Lemma in_alpha N x : In x (tab N (fun i => i)) <-> 0 <= x < N.
Proof. rewrite in_tab. split; [intros (i & Hi & ->); exact Hi|intro H; exists x; split; [exact H|reflexivity]]. Qed.

Lemma slip_arith1 d g : 0 < g -> g <= d \/ d < - g -> (d + g) / (2 * g) <> 0.
Proof.
  intros P H X. pose proof (Z.div_mod (d + g) (2 * g) ltac:(lia)) as D1. pose proof (Z.mod_pos_bound (d + g) (2 * g) ltac:(lia)) as D2. rewrite X in D1. lia.
Qed.
Lemma slip_arith2 d g far : 0 < g -> Z.abs d + g <= far * (2 * g) -> Z.abs ((d + g) / (2 * g)) <= far.
Proof.
  intros P H. assert (A: - far <= (d + g) / (2 * g)) by (apply Z.div_le_lower_bound; lia).
  assert (B: (d + g) / (2 * g) < far + 1) by (apply Z.div_lt_upper_bound; lia). lia.
Qed.

Section Link.
Context (pr : pset) (s : list Z) (Hs : bin_key (lv0_N pr) s) (Hnb : 0 <= g_NBIT pr <= 30).
Notation n := (lv0_N pr).
Notation nb := (g_NBIT pr).
Notation h := (2 ^ (30 - nb)).
Notation q := (2 ^ (nb + 1)).
Notation al := (alphabet h q).
Notation v := (oddres h).
Notation w := (weight n s).

Lemma qG : q * (2 * h) = 2 ^ 32.
Proof. rewrite (Z.mul_comm 2), Z.mul_assoc, <- Z.pow_add_r, Z.mul_comm by lia. change 2 with (2 ^ 1) at 1. rewrite <- Z.pow_add_r by lia. f_equal. lia. Qed.
Lemma resid_residue x : resid pr x = residue h x.
Proof.
  unfold resid, rounded, residue. replace (2 ^ (31 - nb)) with (2 * h); [reflexivity|].
  replace (31 - nb) with (1 + (30 - nb)) by lia. rewrite Z.pow_add_r by lia. reflexivity.
Qed.
Lemma h_pos : 0 < h.
Proof. apply Z.pow_pos_nonneg; lia. Qed.
Lemma resid_bound x : - h < resid pr x <= h.
Proof. rewrite resid_residue. apply residue_bound. exact h_pos. Qed.

Lemma mask_words a : mask n a <-> In a (words al (length s)).
Proof.
  rewrite words_in. destruct Hs as [L _]. unfold mask, tok_list.
  assert (X: forall x, tok x <-> In x al) by (intro x; unfold alphabet; rewrite in_alpha, qG; reflexivity).
  generalize dependent (alphabet h q). intros A X. split; intros [La Ta]; (split; [unfold zlen in *; lia|]); (eapply Forall_impl; [|exact Ta]); intros x Hx; apply X; exact Hx.
Qed.
Lemma wsum_drift a : mask n a -> wsum v s a = 2 * drift pr s a - w.
Proof.
  intros [La _]. destruct Hs as [L _]. rewrite wsum_zsum by (unfold zlen in *; lia). rewrite L. unfold drift, weight, oddres.
  rewrite <- zsum_mul_l, <- zsum_sub. apply zsum_ext. intros i _. rewrite resid_residue. ring.
Qed.
Lemma drift_mask ct a : has_mask n ct a -> drift pr s ct = drift pr s a.
Proof. intro H. apply zsum_ext. intros i Hi. rewrite (H i Hi). reflexivity. Qed.
Lemma drift_abs a : Z.abs (drift pr s a) <= h * w.
Proof.
  unfold drift. eapply Z.le_trans; [apply zsum_abs|]. unfold weight. rewrite <- zsum_mul_l. apply zsum_le. intros i Hi.
  pose proof (resid_bound (zn a i)). rewrite Z.abs_mul. destruct (bin_zn n s i Hs Hi) as [-> | ->]; cbn [Z.abs]; lia.
Qed.
Lemma ones_w : ones s = w.
Proof. rewrite ones_weight. destruct Hs as [-> _]. reflexivity. Qed.
Lemma bits : Forall (fun x => x = 0 \/ x = 1) s.
Proof. apply Hs. Qed.
Lemma w_bound : 0 <= n -> 0 <= w <= n.
Proof.
  intro Hn. unfold weight. split; [apply zsum_nonneg; intros; eapply bin_nonneg; eassumption|].
  replace n with (zsum n (fun _ => 1)) at 2 by (rewrite zsum_const by exact Hn; ring). apply zsum_le. intros i Hi.
  destruct (bin_zn n s i Hs Hi) as [-> | ->]; lia.
Qed.

Lemma many_link t num den (P : list Z -> Prop) : num * (2 ^ 32) ^ n <= den * zlen (filter (large v t s) (words al (length s))) ->
  (forall a, mask n a -> t * t < (2 * drift pr s a - w) * (2 * drift pr s a - w) -> P a) -> many_masks n num den P.
Proof.
  intros HC HP. exists (filter (large v t s) (words al (length s))). split; [|split; [|exact HC]].
  - apply NoDup_filter. apply words_nodup. apply NoDup_tab.
  - intros a Ha. apply filter_In in Ha as [Ha Hl]. apply mask_words in Ha. split; [exact Ha|]. apply HP; [exact Ha|].
    unfold large in Hl. rewrite wsum_drift in Hl by exact Ha. apply Z.ltb_lt. exact Hl.
Qed.
Lemma most_link t num den (P : list Z -> Prop) : den * zlen (filter (large v t s) (words al (length s))) <= num * (2 ^ 32) ^ n ->
  (forall a, mask n a -> (2 * drift pr s a - w) * (2 * drift pr s a - w) <= t * t -> P a) -> most_masks n num den P.
Proof.
  intros HC HP. exists (filter (large v t s) (words al (length s))). split; [|exact HC].
  intros a Ha Hl. apply HP; [exact Ha|]. apply Z.nlt_ge. intro X. apply Hl. apply filter_In. split; [apply mask_words; exact Ha|].
  unfold large. rewrite wsum_drift by exact Ha. apply Z.ltb_lt. exact X.
Qed.

(** ** masks that read another position *)
Lemma wrong_boot k E a far : 0 <= k < nb -> 0 <= E -> mask n a -> h + E + 2 ^ (30 - k) < Z.abs (drift pr s a) ->
  E + h * (1 + w) + 2 ^ (30 - k) <= far * 2 ^ (31 - k) -> bootstraps_wrong pr k s a E far.
Proof.
  intros Hk HE Ha Hd Hf R O sk rk rb ck S Ek e m ct f x T Hr Hi Hm Hx [Lk (e0 & He & Ee)] HT HT2.
  rewrite pow2_div in Ee by lia. rewrite <- Ek in Ee.
  destruct (read_boot R O pr sk rk rb ck S k Hk e m ct f x e0 T Hr Hi Ee HT) as (r & m' & E1 & _ & E2 & U). rewrite Ek in E2.
  exists r, m', (lut_at k f (read_position pr k s (tm m ct) x e0 mod (2 * 2 ^ k)) mod 2 ^ k).
  split; [exact E1|]. split; [apply E2; exact HT2|]. split; [|exact U].
  exists (read_position pr k s (tm m ct) x e0). unfold read_position. rewrite (drift_mask _ _ Hm).
  pose proof (resid_bound (zn (tm m ct) n)) as Br. pose proof (drift_abs a) as Bd. set (rr := resid pr _) in *. set (dr := drift pr _ a) in *.
  assert (P: 0 < 2 ^ (30 - k)) by (apply Z.pow_pos_nonneg; lia).
  assert (D: 2 ^ (31 - k) = 2 * 2 ^ (30 - k)) by (replace (31 - k) with (1 + (30 - k)) by lia; rewrite Z.pow_add_r by lia; reflexivity).
  rewrite D in *. set (g := 2 ^ (30 - k)) in *. clearbody g rr dr. set (d := e0 + rr - dr).
  assert (Bd2: Z.abs d <= E + h * (1 + w)) by (unfold d; rewrite Z.mul_add_distr_l; lia).
  assert (Bd3: g <= d \/ d < - g) by (unfold d; lia). clearbody d.
  split; [|split; [|reflexivity]].
  - intro X. apply (slip_arith1 d g P Bd3). clear - X. lia.
  - replace (x + (d + g) / (2 * g) - x) with ((d + g) / (2 * g)) by ring. apply slip_arith2; [exact P|]. clear - Bd2 Hf. lia.
Qed.

(** ** masks that read the right one *)
Lemma right_boot k E a : 0 <= k < nb -> mask n a -> h + E + Z.abs (drift pr s a) < 2 ^ (30 - k) -> bootstraps_right pr k s a E.
Proof.
  intros Hk Ha Hd R O sk rk rb ck S Ek e m ct f x T Hr Hi Hm Hx [Lk (e0 & He & Ee)] HT HT2.
  rewrite pow2_div in Ee by lia. rewrite <- Ek in Ee.
  destruct (read_boot R O pr sk rk rb ck S k Hk e m ct f x e0 T Hr Hi Ee HT) as (r & m' & E1 & _ & E2 & U). rewrite Ek in E2.
  exists r, m', (lut_at k f (read_position pr k s (tm m ct) x e0 mod (2 * 2 ^ k)) mod 2 ^ k).
  split; [exact E1|]. split; [apply E2; exact HT2|]. split; [|exact U].
  unfold read_position. rewrite (drift_mask _ _ Hm).
  pose proof (resid_bound (zn (tm m ct) n)) as Br. set (rr := resid pr _) in *. set (dr := drift pr _ a) in *.
  assert (D: 2 ^ (31 - k) = 2 * 2 ^ (30 - k)) by (replace (31 - k) with (1 + (30 - k)) by lia; rewrite Z.pow_add_r by lia; reflexivity).
  rewrite D, (Z.div_small (e0 + rr - dr + 2 ^ (30 - k))), Z.add_0_r by lia. rewrite (Z.mod_small x) by lia.
  unfold lut_at. destruct (Z.ltb_spec x (2 ^ k)); [|lia]. apply Z.mod_mod. lia.
Qed.
End Link.

(** ** the levels *)
Lemma sq_le x t : 0 <= t -> x * x <= t * t -> Z.abs x <= t.
Proof. intros Ht H. apply Z.nlt_ge. intro X. assert (t * t < Z.abs x * Z.abs x) by nia. rewrite <- Z.abs_mul in H0. pose proof (Z.square_nonneg x). lia. Qed.
Lemma sq_lt x t : 0 <= t -> t * t < x * x -> t < Z.abs x.
Proof. intros Ht H. apply Z.nle_gt. intro X. assert (Z.abs x * Z.abs x <= t * t) by (apply Z.mul_le_mono_nonneg; lia). rewrite <- Z.abs_mul in H0. lia. Qed.

Definition Q2 : Z := ((2 ^ 20) ^ 2 - 1) / 3.
Definition Q4 : Z := (3 * (2 ^ 20) ^ 4 - 10 * (2 ^ 20) ^ 2 + 7) / 15.
Definition Q6 : Z := (3 * (2 ^ 20) ^ 6 - 21 * (2 ^ 20) ^ 4 + 49 * (2 ^ 20) ^ 2 - 31) / 21.
Lemma powers11 : let al := alphabet (2 ^ 19) (2 ^ 12) in let v := oddres (2 ^ 19) in
  power al v 0 = 2 ^ 32 /\ power al v 1 = 0 /\ power al v 2 = 2 ^ 32 * Q2 /\ power al v 3 = 0 /\ power al v 4 = 2 ^ 32 * Q4 /\
  power al v 5 = 0 /\ power al v 6 = 2 ^ 32 * Q6.
Proof.
  destruct (powers (2 ^ 19) (2 ^ 12) ltac:(lia) ltac:(lia)) as (A0 & A1 & A2 & A3 & A4 & A5 & A6). cbv zeta.
  change (2 * 2 ^ 19) with (2 ^ 20) in *. change (2 ^ 12 * 2 ^ 20) with (2 ^ 32) in *.
  split; [exact A0|]. split; [exact A1|]. split; [apply (Z.mul_reg_l _ _ 3); [discriminate|]; rewrite A2; reflexivity|]. split; [exact A3|].
  split; [apply (Z.mul_reg_l _ _ 15); [discriminate|]; rewrite A4; reflexivity|]. split; [exact A5|].
  apply (Z.mul_reg_l _ _ 21); [discriminate|]. rewrite A6. reflexivity.
Qed.

Definition thr (k E w : Z) : Z := 2 * (2 ^ (30 - k) + 2 ^ 19 + E) + w.
Definition chk8 (w : Z) : bool :=
  let t := thr 8 (2 ^ 16) w in let B := 95 * P2 Q2 w / 10 in
  (t * t <? B) && ((B - t * t) ^ 2 <=? 10 * (4 * ((B + t * t) * P2 Q2 w - P4 Q2 Q4 w - B * (t * t)))).
Definition chk7 (w : Z) : bool :=
  let t := thr 7 (2 ^ 16) w in let B := 12 * P2 Q2 w in
  (t * t <? B) && (B * (B - t * t) ^ 2 <=? 100 * (4 * ((B + t * t) * P4 Q2 Q4 w - P6 Q2 Q4 Q6 w - B * (t * t) * P2 Q2 w))).
Lemma range_check (p : Z -> bool) lo hi w : forallb p (tab (hi - lo + 1) (fun i => lo + i)) = true -> lo <= w <= hi -> p w = true.
Proof.
  intros H Hw. rewrite forallb_forall in H. apply H. apply in_tab. exists (w - lo). split; [lia|ring].
Qed.
Lemma chk8_ok w : 480 <= w <= 1160 -> chk8 w = true.
Proof. apply range_check. vm_compute. reflexivity. Qed.
Lemma chk7_ok w : 450 <= w <= 1160 -> chk7 w = true.
Proof. apply range_check. vm_compute. reflexivity. Qed.

Section N2048.
Context (pr : pset) (Hn : lv0_N pr = 1160) (Hnb : g_NBIT pr = 11) (s : list Z) (Hs : bin_key (lv0_N pr) s).
Notation w := (weight (lv0_N pr) s).
Notation al := (alphabet (2 ^ 19) (2 ^ 12)).
Notation v := (oddres (2 ^ 19)).
Lemma w1160 : w <= 1160.
Proof. pose proof (w_bound pr s Hs ltac:(rewrite Hn; lia)). lia. Qed.
Lemma nb11 : 0 <= g_NBIT pr <= 30.
Proof. lia. Qed.
Lemma slip_fraction num den x bb F CN : 0 <= CN -> 0 < bb -> num * bb <= den * x -> CN * x <= bb * F -> 0 <= den -> num * CN <= den * F.
Proof.
  intros HC Hb H1 H2 Hd. apply (Z.mul_le_mono_pos_l _ _ bb Hb). assert (num * bb * CN <= den * x * CN) by (apply Z.mul_le_mono_nonneg_r; lia).
  assert (den * (CN * x) <= den * (bb * F)) by (apply Z.mul_le_mono_nonneg_l; lia). lia.
Qed.
Lemma slip_masks k num den far (P : list Z -> Prop) : 0 <= k < 11 -> 0 <= thr k (2 ^ 16) w ->
  num * (2 ^ 32) ^ lv0_N pr <= den * zlen (filter (large v (thr k (2 ^ 16) w) s) (words al (length s))) ->
  2 ^ 16 + 2 ^ 19 * (1 + 1160) + 2 ^ (30 - k) <= far * 2 ^ (31 - k) ->
  many_masks (lv0_N pr) num den (fun a => bootstraps_wrong pr k s a (2 ^ 16) far).
Proof.
  intros Hk Ht HC Hf. apply (many_link pr s Hs nb11 (thr k (2 ^ 16) w)).
  - rewrite Hnb. change (30 - 11) with 19. change (11 + 1) with 12. exact HC.
  - intros a Ha Hl. apply sq_lt in Hl; [|exact Ht]. unfold thr in Hl. pose proof w1160. pose proof (w_bound pr s Hs ltac:(rewrite Hn; lia)) as Hw0.
    apply (wrong_boot pr s Hs nb11); try assumption; try lia; rewrite Hnb; change (30 - 11) with 19; [clear - Hl Hw0; lia|].
    assert (2 ^ 19 * (1 + w) <= 2 ^ 19 * (1 + 1160)) by (apply Z.mul_le_mono_nonneg_l; lia). lia.
Qed.
Lemma CN_nonneg : 0 <= (2 ^ 32) ^ lv0_N pr.
Proof. apply Z.pow_nonneg. lia. Qed.
Lemma wrong8 : 480 <= w -> many_masks (lv0_N pr) 1 10 (fun a => bootstraps_wrong pr 8 s a (2 ^ 16) 74).
Proof.
  intros Hw. pose proof w1160 as Hw2. pose proof (chk8_ok w ltac:(lia)) as C. unfold chk8 in C. cbv zeta in C. apply andb_prop in C as [C1 C2].
  apply Z.ltb_lt in C1. apply Z.leb_le in C2. assert (Ht: 0 <= thr 8 (2 ^ 16) w) by (unfold thr; lia).
  apply (slip_masks 8 1 10 74 (fun _ => True)); [lia|exact Ht| |lia].
  set (t := thr 8 (2 ^ 16) w) in *. set (B := 95 * P2 Q2 w / 10) in *.
  destruct powers11 as (A0 & A1 & A2 & A3 & A4 & A5 & A6).
  pose proof (many_2 al v (2 ^ 32) Q2 Q4 Q6 A0 A1 A2 A3 A4 A5 A6 t B s Ht (Z.lt_le_incl _ _ C1) (proj2 Hs)) as X.
  clear A0 A1 A2 A3 A4 A5 A6. rewrite (ones_w pr s Hs) in X. rewrite (proj1 Hs) in X.
  eapply (slip_fraction 1 10 _ _ _ _ CN_nonneg); [| |exact X|lia].
  - apply Z.pow_pos_nonneg; lia.
  - rewrite Z.mul_1_l. exact C2.
Qed.
Lemma wrong7 : 450 <= w -> many_masks (lv0_N pr) 1 100 (fun a => bootstraps_wrong pr 7 s a (2 ^ 16) 37).
Proof.
  intros Hw. pose proof w1160 as Hw2. pose proof (chk7_ok w ltac:(lia)) as C. unfold chk7 in C. cbv zeta in C. apply andb_prop in C as [C1 C2].
  apply Z.ltb_lt in C1. apply Z.leb_le in C2. assert (Ht: 0 <= thr 7 (2 ^ 16) w) by (unfold thr; lia).
  apply (slip_masks 7 1 100 37 (fun _ => True)); [lia|exact Ht| |lia].
  set (t := thr 7 (2 ^ 16) w) in *. set (B := 12 * P2 Q2 w) in *.
  destruct powers11 as (A0 & A1 & A2 & A3 & A4 & A5 & A6).
  pose proof (many_3 al v (2 ^ 32) Q2 Q4 Q6 A0 A1 A2 A3 A4 A5 A6 t B s Ht (Z.lt_le_incl _ _ C1) (proj2 Hs)) as X.
  clear A0 A1 A2 A3 A4 A5 A6. rewrite (ones_w pr s Hs) in X. rewrite (proj1 Hs) in X.
  eapply (slip_fraction 1 100 _ _ _ _ CN_nonneg); [| |exact X|lia].
  - apply Z.mul_pos_pos; [pose proof (Z.square_nonneg t); lia|apply Z.pow_pos_nonneg; lia].
  - rewrite Z.mul_1_l. exact C2.
Qed.
End N2048.

(** the tail bound at a level *)
Lemma tail_mono (kn kd c d : Z) w W : 0 < kd <= kn -> 0 <= c -> 0 <= d -> 0 <= w <= W -> c * kn ^ W <= d * kd ^ W -> c * kn ^ w <= d * kd ^ w.
Proof.
  intros Hk Hc Hd Hw H. assert (P: 0 < kn ^ (W - w)) by (apply Z.pow_pos_nonneg; lia).
  apply (Z.mul_le_mono_pos_r _ _ _ P). replace (c * kn ^ w * kn ^ (W - w)) with (c * kn ^ W) by (rewrite <- Z.mul_assoc, <- Z.pow_add_r by lia; do 2 f_equal; lia).
  eapply Z.le_trans; [exact H|]. replace (d * kd ^ W) with (d * kd ^ w * kd ^ (W - w)) by (rewrite <- Z.mul_assoc, <- Z.pow_add_r by lia; do 2 f_equal; lia).
  apply Z.mul_le_mono_nonneg_l; [apply Z.mul_nonneg_nonneg; [lia|apply Z.pow_nonneg; lia]|]. apply Z.pow_le_mono_l. lia.
Qed.
(** powers bounded with 64-bit mantissas, so that the kernel computes little *)
Definition cut (up : Z) (ue : Z * Z) : Z * Z := let (u, e) := ue in if u <? 2 ^ 64 then (u, e) else (Z.shiftr u 32 + up, e + 32).
Fixpoint powb (up b : Z) (k : nat) : Z * Z := match k with O => (1, 0) | S k => let (u, e) := powb up b k in cut up (u * b, e) end.
Lemma powl_ok b k : 0 <= b -> 0 <= fst (powb 0 b k) /\ 0 <= snd (powb 0 b k) /\ fst (powb 0 b k) * 2 ^ snd (powb 0 b k) <= b ^ Z.of_nat k.
Proof.
  intro Hb. induction k as [|k (I1 & I2 & I3)].
  - cbn. lia.
  - cbn [powb]. destruct (powb 0 b k) as [u e]. cbn [fst snd] in *. replace (Z.of_nat (S k)) with (Z.of_nat k + 1) by lia.
    rewrite Z.pow_add_r, Z.pow_1_r by lia. assert (X: u * b * 2 ^ e <= b ^ Z.of_nat k * b) by (replace (u * b * 2 ^ e) with (u * 2 ^ e * b) by ring; apply Z.mul_le_mono_nonneg_r; assumption).
    assert (U: 0 <= u * b) by (apply Z.mul_nonneg_nonneg; assumption).
    unfold cut. destruct (u * b <? 2 ^ 64); cbn [fst snd]; [lia|].
    rewrite Z.add_0_r, Z.shiftr_div_pow2 by lia. rewrite Z.pow_add_r by lia.
    pose proof (Z.div_pos (u * b) (2 ^ 32) U ltac:(lia)). split; [assumption|]. split; [lia|].
    eapply Z.le_trans; [|exact X]. replace (u * b / 2 ^ 32 * (2 ^ e * 2 ^ 32)) with (2 ^ 32 * (u * b / 2 ^ 32) * 2 ^ e) by ring.
    apply Z.mul_le_mono_nonneg_r; [apply Z.pow_nonneg; lia|]. apply Z.mul_div_le. lia.
Qed.
Lemma powu_ok b k : 0 <= b -> 0 <= fst (powb 1 b k) /\ 0 <= snd (powb 1 b k) /\ b ^ Z.of_nat k <= fst (powb 1 b k) * 2 ^ snd (powb 1 b k).
Proof.
  intro Hb. induction k as [|k (I1 & I2 & I3)].
  - cbn. lia.
  - cbn [powb]. destruct (powb 1 b k) as [u e]. cbn [fst snd] in *. replace (Z.of_nat (S k)) with (Z.of_nat k + 1) by lia.
    rewrite Z.pow_add_r, Z.pow_1_r by lia. assert (X: b ^ Z.of_nat k * b <= u * b * 2 ^ e) by (replace (u * b * 2 ^ e) with (u * 2 ^ e * b) by ring; apply Z.mul_le_mono_nonneg_r; assumption).
    assert (U: 0 <= u * b) by (apply Z.mul_nonneg_nonneg; assumption).
    unfold cut. destruct (u * b <? 2 ^ 64); cbn [fst snd]; [lia|].
    rewrite Z.shiftr_div_pow2 by lia. rewrite Z.pow_add_r by lia.
    pose proof (Z.div_pos (u * b) (2 ^ 32) U ltac:(lia)). split; [lia|]. split; [lia|].
    eapply Z.le_trans; [exact X|]. replace ((u * b / 2 ^ 32 + 1) * (2 ^ e * 2 ^ 32)) with (2 ^ 32 * Z.succ (u * b / 2 ^ 32) * 2 ^ e) by (unfold Z.succ; ring).
    apply Z.mul_le_mono_nonneg_r; [apply Z.pow_nonneg; lia|]. apply Z.lt_le_incl. apply Z.mul_succ_div_gt. lia.
Qed.
Definition pow_check (c b1 m1 b2 m2 b3 m3 b4 m4 : Z) : bool :=
  let (u1, e1) := powb 1 b1 (Z.to_nat m1) in let (u2, e2) := powb 1 b2 (Z.to_nat m2) in
  let (l1, f1) := powb 0 b3 (Z.to_nat m3) in let (l2, f2) := powb 0 b4 (Z.to_nat m4) in
  c * u1 * u2 * 2 ^ Z.max 0 (e1 + e2 - (f1 + f2)) <=? l1 * l2 * 2 ^ Z.max 0 (f1 + f2 - (e1 + e2)).
Lemma pow_check_ok c b1 m1 b2 m2 b3 m3 b4 m4 : 0 <= c -> 0 <= b1 -> 0 <= m1 -> 0 <= b2 -> 0 <= m2 -> 0 <= b3 -> 0 <= m3 -> 0 <= b4 -> 0 <= m4 ->
  pow_check c b1 m1 b2 m2 b3 m3 b4 m4 = true -> c * b1 ^ m1 * b2 ^ m2 <= b3 ^ m3 * b4 ^ m4.
Proof.
  intros Hc B1 M1 B2 M2 B3 M3 B4 M4 H. unfold pow_check in H.
  pose proof (powu_ok b1 (Z.to_nat m1) B1) as P1. pose proof (powu_ok b2 (Z.to_nat m2) B2) as P2. pose proof (powl_ok b3 (Z.to_nat m3) B3) as P3. pose proof (powl_ok b4 (Z.to_nat m4) B4) as P4.
  rewrite !Z2Nat.id in P1, P2, P3, P4 by assumption.
  destruct (powb 1 b1 _) as [u1 e1]. destruct (powb 1 b2 _) as [u2 e2]. destruct (powb 0 b3 _) as [l1 f1]. destruct (powb 0 b4 _) as [l2 f2].
  cbn [fst snd] in *. apply Z.leb_le in H. destruct P1 as (P11 & P12 & P13), P2 as (P21 & P22 & P23), P3 as (P31 & P32 & P33), P4 as (P41 & P42 & P43).
  assert (Q: forall x, 0 <= 2 ^ x) by (intro x; apply Z.pow_nonneg; lia).
  apply Z.le_trans with (c * (u1 * 2 ^ e1) * (u2 * 2 ^ e2)).
  { apply Z.mul_le_mono_nonneg; [apply Z.mul_nonneg_nonneg; [assumption|apply Z.pow_nonneg; assumption]| |apply Z.pow_nonneg; assumption|assumption].
    apply Z.mul_le_mono_nonneg_l; assumption. }
  apply Z.le_trans with ((l1 * 2 ^ f1) * (l2 * 2 ^ f2)).
  2:{ apply Z.mul_le_mono_nonneg; try assumption; apply Z.mul_nonneg_nonneg; auto. }
  set (M := Z.min (e1 + e2) (f1 + f2)).
  replace (c * (u1 * 2 ^ e1) * (u2 * 2 ^ e2)) with (c * u1 * u2 * 2 ^ Z.max 0 (e1 + e2 - (f1 + f2)) * 2 ^ M).
  2:{ rewrite <- Z.mul_assoc, <- Z.pow_add_r by (unfold M; lia). replace (Z.max 0 (e1 + e2 - (f1 + f2)) + M) with (e1 + e2) by (unfold M; lia). rewrite Z.pow_add_r by assumption. ring. }
  replace (l1 * 2 ^ f1 * (l2 * 2 ^ f2)) with (l1 * l2 * 2 ^ Z.max 0 (f1 + f2 - (e1 + e2)) * 2 ^ M).
  2:{ rewrite <- Z.mul_assoc, <- Z.pow_add_r by (unfold M; lia). replace (Z.max 0 (f1 + f2 - (e1 + e2)) + M) with (f1 + f2) by (unfold M; lia). rewrite Z.pow_add_r by assumption. ring. }
  apply Z.mul_le_mono_nonneg_r; [apply Q|exact H].
Qed.
Definition tail_check (n nb k W den a b m : Z) : bool :=
  let h := 2 ^ (30 - nb) in let t := 2 * (2 ^ (30 - k) - h - 2 ^ (24 - k)) - n - 1 in
  let kn := 6 * (b * b) - 2 * (a * a) in let kd := 6 * (b * b) - 3 * (a * a) in
  (0 <? a) && (0 <? b) && (a * a <? 2 * (b * b)) && (0 <=? t) && (0 <=? m) && (m * (b * (2 * h)) <=? 64 * (a * t)) && (0 <? den) && (0 <=? W) &&
  pow_check (den * 2) 64 m kn W 65 m kd W.
Lemma right_level pr s k W den a b m : bin_key (lv0_N pr) s -> 0 <= lv0_N pr -> 0 <= k < g_NBIT pr -> k <= 24 -> g_NBIT pr <= 30 -> weight (lv0_N pr) s <= W ->
  tail_check (lv0_N pr) (g_NBIT pr) k W den a b m = true ->
  most_masks (lv0_N pr) 1 den (fun x => bootstraps_right pr k s x (2 ^ (24 - k))).
Proof.
  intros Hs Hn Hk Hk2 Hnb HW C. assert (Hnb': 0 <= g_NBIT pr <= 30) by lia.
  unfold tail_check in C. cbv zeta in C. rewrite !andb_true_iff in C. destruct C as ((((((((C1 & C2) & C3) & C4) & C5) & C6) & C7) & C9) & C8).
  apply Z.ltb_lt in C1, C2, C3, C7. apply Z.leb_le in C4, C5, C6, C9.
  set (t := 2 * (2 ^ (30 - k) - 2 ^ (30 - g_NBIT pr) - 2 ^ (24 - k)) - lv0_N pr - 1) in *.
  set (kn := 6 * (b * b) - 2 * (a * a)) in *. set (kd := 6 * (b * b) - 3 * (a * a)) in *.
  pose proof (w_bound pr s Hs Hn) as Hw. assert (A2: 0 < a * a) by (apply Z.mul_pos_pos; exact C1).
  assert (HK: 0 < kd <= kn) by (clear - A2 C3; unfold kn, kd; lia). assert (HD: 0 <= den) by (clear - C7; lia).
  apply pow_check_ok in C8; [|clear - C7; lia|discriminate|exact C5|clear - HK; lia|exact C9|discriminate|exact C5|clear - HK; lia|exact C9].
  apply (most_link pr s Hs Hnb' t).
  - pose proof (few_tail (2 ^ (30 - g_NBIT pr)) (2 ^ (g_NBIT pr + 1)) ltac:(apply Z.pow_pos_nonneg; lia) ltac:(apply Z.pow_nonneg; lia)
      a b m t 1 den s (proj2 Hs) C1 C2 C3 C5 C6 HD) as X.
    rewrite qG in X by exact Hnb'. rewrite (proj1 Hs) in X. apply X. rewrite (ones_w pr s Hs). fold kn kd.
    pose proof (tail_mono kn kd (den * 2 * 64 ^ m) (65 ^ m) (weight (lv0_N pr) s) W) as Y.
    assert (Y': den * 2 * 64 ^ m * kn ^ weight (lv0_N pr) s <= 65 ^ m * kd ^ weight (lv0_N pr) s).
    { apply Y; [exact HK| |apply Z.pow_nonneg; discriminate|split; [apply Hw|exact HW]|exact C8]. apply Z.mul_nonneg_nonneg; [clear - HD; lia|apply Z.pow_nonneg; discriminate]. }
    replace (den * 2 * kn ^ weight (lv0_N pr) s * 64 ^ m) with (den * 2 * 64 ^ m * kn ^ weight (lv0_N pr) s) by ring.
    replace (1 * kd ^ weight (lv0_N pr) s * 65 ^ m) with (65 ^ m * kd ^ weight (lv0_N pr) s) by ring. exact Y'.
  - intros x Hx Hl. apply sq_le in Hl; [|exact C4]. apply right_boot; [assumption..|]. unfold t in Hl. clear - Hl Hw.
    set (g := 2 ^ (30 - k)) in *. set (h := 2 ^ (30 - g_NBIT pr)) in *. set (e := 2 ^ (24 - k)) in *. set (ww := weight _ _) in *. set (d := drift _ _ _) in *. clearbody g h e ww d. lia.
Qed.

(** ** worst case in exact arithmetic *)
Lemma real_laws k O : 4 <= k -> fft_evaluator real_arith (2 ^ k) = Ok O ->
  exists L : flaws O (2 ^ k), (forall K D, 0 <= K -> facc L K D 0) /\ (forall D E, facc_mul L D E 0).
Proof.
  intros Hk EO. destruct (pow_half k Hk) as (EN & E2 & Hh).
  destruct (real_tables (k - 1) Hh) as (tw & twi & Et & Htw & Htwi).
  unfold fft_evaluator in EO. rewrite degree_ok in EO by assumption. cbn [bind] in EO. rewrite E2, Et in EO. cbn [bind] in EO. injection EO as <-.
  set (L := fft_laws real_arith (2 ^ (k - 1)) (H_pos (k - 1) Hh) (H_4 (k - 1) Hh) (k - 1) Hh eq_refl tw twi (proj1 Htw) (proj1 Htwi)).
  rewrite EN. exists L. split.
  - intros K D HK d r _ i Hi. exists 0. split; [cbn; lia|]. rewrite Z.add_0_r.
    unfold L. rewrite (real_acc (k - 1) Hh tw twi Htw Htwi K d r HK i Hi). apply eqm_w32.
  - intros D E a b _ _ _ _ i Hi. exists 0. split; [cbn; lia|]. rewrite Z.add_0_r.
    unfold L. rewrite (real_mul (k - 1) Hh tw twi Htw Htwi a b i Hi). apply eqm_w32.
Qed.
Lemma real_worst O pr sk rk rb ck Bb Bk f mm ct : setup real_arith O pr sk rk rb ck ->
  key_noise_within pr rk rb Bb Bk -> 0 <= Bb -> 0 <= Bk -> 0 < mm -> zlen ct = lv0_N pr + 1 ->
  gen_noise O pr sk ck f mm ct (worst_noise pr sk Bb Bk 0 0).
Proof.
  intros S H2 H3 H4 HM Hl tv E. pose proof S as (GP & EO & Hsk & Hck).
  destruct (t_layout pr (NewGenerator pr mm) f GP eq_refl HM) as (tv' & G' & Hp & _). rewrite E in G'. injection G' as <-.
  pose proof Hp as (LA & LB & KB & _). pose proof (good_N pr GP) as HN. assert (KA: tok_list (tA tv)) by (eapply plain_tokA; [|exact Hp]; lia).
  pose proof GP as [W HBG]. destruct (eval_pow2 real_arith (g_N pr) O EO) as (k & Hk & EN).
  assert (X: exists L : flaws O (g_N pr), facc L (2 * g_L pr) (2 ^ (g_BGBIT pr - 1)) 0 /\ facc_mul L two31 1 0).
  { clear - EO EN Hk W. revert EO. pose proof (pw_l _ _ W). rewrite EN. intro EO. destruct (real_laws k O Hk EO) as (L & F1 & F2). exists L. split; [apply F1; lia|apply F2]. }
  destruct X as (L & F1 & F2). destruct H2 as [Hrb Hrk].
  apply (worst_noise_ok L pr W HBG sk rk rb ck Hsk Hck Bb Bk 0 0 H3 H4 ltac:(lia) F1 F2 Hrb Hrk); [split; split; assumption|exact Hl].
Qed.
(** a reachable state that holds an encryption with a given mask *)
Lemma mask_start R O pr sk rk rb ck : setup R O pr sk rk rb ck -> forall k a x, 0 <= k < 20 -> 0 <= x < 2 ^ k -> mask (lv0_N pr) a ->
  exists e (m : mem (FP O)) ct, reachable O pr e m /\ user m e ct /\ has_mask (lv0_N pr) (tm m ct) a /\
    encodes (lv0_N pr) (KeyLv0 sk) (tm m ct) (2 ^ k) x 1.
Proof.
  intros S k a x Hk Hx [La Ta]. assert (Hs: 0 <= lv0_N pr /\ zlen (KeyLv0 sk) = lv0_N pr).
  { pose proof S as S'. open_setup S'. split; [apply (pw_n _ _ W)|apply Hsk]. }
  destruct Hs as [Hn Hs]. assert (HM: 1 <= 2 ^ k < 2 ^ 20) by (split; [pose proof (Z.pow_pos_nonneg 2 k); lia|apply Z.pow_lt_mono_r; lia]).
  set (r := {| er_mask := zn a; er_noise := f_of_Z 0 |}).
  assert (Hl: zlen (repeat 0 (Z.to_nat (lv0_N pr + 1))) = lv0_N pr + 1) by (rewrite zlen_repeat; lia).
  destruct (EncryptF64_ok (lv0_N pr) (repeat 0 (Z.to_nat (lv0_N pr + 1))) (lwe_enc (x mod 2 ^ k) (2 ^ k)) (KeyLv0 sk) r) as (ct & E & _ & Em & _ & _); [lia|lia|lia|].
  rewrite <- EncryptLWEMessage_eq in E by lia.
  pose proof (encodes_enc (lv0_N pr) _ x (2 ^ k) (KeyLv0 sk) r ct 0 Hn Hl ltac:(lia) HM E ltac:(vm_compute; discriminate)) as H.
  rewrite Z.mod_small in H by lia.
  destruct (EncryptLWEMessage_total (lv0_N pr) x (2 ^ k) (KeyLv0 sk) r Hn ltac:(lia) ltac:(lia)) as (ct' & E' & Hok & _).
  unfold NewTLWE in E'. rewrite make_ok in E' by lia. cbn [bind] in E'. rewrite E in E'. injection E' as <-.
  destruct (p_start _ _ _ _ _ _ _ S [ct]) as (e & m & j & w & Hr & _ & F & _). inversion F as [|c ? ? ? [Uc Ec] F1]; subst.
  exists e, m, c. split; [exact Hr|]. split; [exact Uc|]. split.
  - intros i Hi. rewrite Em by exact Hi. cbn [er_mask r]. apply Z.mod_small. apply zn_tok. exact Ta.
  - split; [exact Hok|exact H].
Qed.

(** ** consequences *)
Lemma to_weaken pr k s a E (Q Q' : (Z -> Z) -> Z -> Z -> Prop) : (forall f x v, 0 <= x < 2 ^ k -> Q f x v -> Q' f x v) ->
  bootstraps_to pr k s a E Q -> bootstraps_to pr k s a E Q'.
Proof.
  intros H B R O sk rk rb ck S Ek e m ct f x T Hr Hi Hm Hx He HT HT2.
  destruct (B R O sk rk rb ck S Ek e m ct f x T Hr Hi Hm Hx He HT HT2) as (r & m' & v & E1 & E2 & HQ & X).
  exists r, m', v. split; [exact E1|]. split; [exact E2|]. split; [apply H; assumption|exact X].
Qed.
Lemma many_weaken n num den (P P' : list Z -> Prop) : (forall a, P a -> P' a) -> many_masks n num den P -> many_masks n num den P'.
Proof. intros H (l & N & F & C). exists l. split; [exact N|]. split; [|exact C]. intros a Ha. destruct (F a Ha). split; [assumption|apply H; assumption]. Qed.
Lemma wrong_identity k far f x v : 0 <= k -> (forall y, f y = y) -> far <= x < 2 ^ k - far -> 
  (exists y, y <> x /\ Z.abs (y - x) <= far /\ v = lut_at k f (y mod (2 * 2 ^ k)) mod 2 ^ k) -> v <> x.
Proof.
  intros Hk Hf Hx (y & N & Hy & ->). assert (Hy2: 0 <= y < 2 ^ k) by lia. unfold lut_at. rewrite (Z.mod_small y) by lia.
  destruct (Z.ltb_spec y (2 ^ k)); [|lia]. rewrite Hf, Z.mod_mod, Z.mod_small by lia. exact N.
Qed.
Lemma identity_wrong pr k s n num den E far : 0 <= k -> many_masks n num den (fun a => bootstraps_wrong pr k s a E far) ->
  many_masks n num den (fun a => bootstraps_to pr k s a E (fun f x v => (forall y, f y = y) -> far <= x < 2 ^ k - far -> v <> x)).
Proof.
  intro Hk. apply many_weaken. intro a. apply to_weaken. intros f x v Hx Q Hf Hx2. revert Q. apply wrong_identity; assumption.
Qed.
Lemma many_one n num den (P : list Z -> Prop) : 0 < num -> 0 <= n -> many_masks n num den P -> exists a, mask n a /\ P a.
Proof.
  intros Hn Hn0 ([|a l] & _ & F & C); [|exists a; apply F; left; reflexivity].
  exfalso. assert (0 < (2 ^ 32) ^ n) by (apply Z.pow_pos_nonneg; lia). change (zlen (@nil (list Z))) with 0 in C. nia.
Qed.

(** ** the parameter sets *)
Lemma wrong_uint8 s : bin_key 1160 s -> 480 <= weight 1160 s -> many_masks 1160 1 10 (fun a => bootstraps_wrong paramsUint8 8 s a (2 ^ 16) 74).
Proof. exact (wrong8 paramsUint8 eq_refl eq_refl s). Qed.
Lemma wrong_uint7 s : bin_key 1160 s -> 450 <= weight 1160 s -> many_masks 1160 1 100 (fun a => bootstraps_wrong paramsUint7 7 s a (2 ^ 16) 37).
Proof. exact (wrong7 paramsUint7 eq_refl eq_refl s). Qed.
Lemma wrong_identity8 s : bin_key 1160 s -> 480 <= weight 1160 s ->
  many_masks 1160 1 10 (fun a => bootstraps_to paramsUint8 8 s a (2 ^ 16) (fun f x v => (forall y, f y = y) -> 74 <= x < 182 -> v <> x)).
Proof. intros H1 H2. exact (identity_wrong _ 8 _ _ _ _ _ 74 ltac:(lia) (wrong_uint8 s H1 H2)). Qed.
Lemma wrong_identity7 s : bin_key 1160 s -> 450 <= weight 1160 s ->
  many_masks 1160 1 100 (fun a => bootstraps_to paramsUint7 7 s a (2 ^ 16) (fun f x v => (forall y, f y = y) -> 37 <= x < 91 -> v <> x)).
Proof. intros H1 H2. exact (identity_wrong _ 7 _ _ _ _ _ 37 ltac:(lia) (wrong_uint7 s H1 H2)). Qed.

Lemma right_any pr s k den a b m : bin_key (lv0_N pr) s -> 0 <= lv0_N pr -> 0 <= k < g_NBIT pr -> k <= 24 -> g_NBIT pr <= 30 ->
  tail_check (lv0_N pr) (g_NBIT pr) k (lv0_N pr) den a b m = true -> most_masks (lv0_N pr) 1 den (fun x => bootstraps_right pr k s x (2 ^ (24 - k))).
Proof. intros Hs Hn Hk Hk2 Hnb. apply right_level; try assumption. apply (w_bound pr s Hs Hn). Qed.
Lemma right_uint pr k s : In (pr, k) [(paramsUint1, 1); (paramsUint2, 2); (paramsUint3, 3); (paramsUint4, 4)] -> bin_key (lv0_N pr) s ->
  most_masks (lv0_N pr) 1 (2 ^ 30) (fun a => bootstraps_right pr k s a (2 ^ (24 - k))).
Proof.
  cbn [In]. intros H Hs.
  destruct H as [E|[E|[E|[E|[]]]]]; inversion E; subst pr k;
    [apply (right_any _ s _ _ 1 16 2000)|apply (right_any _ s _ _ 7 16 3499)|apply (right_any _ s _ _ 13 32 3249)|apply (right_any _ s _ _ 13 32 3249)];
    try exact Hs; try (vm_compute; (reflexivity || discriminate)); split; vm_compute; (reflexivity || discriminate).
Qed.
Lemma right_uint5 s : bin_key 1071 s -> weight 1071 s <= 640 -> most_masks 1071 1 2048 (fun a => bootstraps_right paramsUint5 5 s a (2 ^ 19)).
Proof.
  intros Hs Hw. apply (right_level paramsUint5 s 5 640 2048 9 32 1115); try assumption; try (vm_compute; (reflexivity || discriminate)); split; vm_compute; (reflexivity || discriminate).
Qed.

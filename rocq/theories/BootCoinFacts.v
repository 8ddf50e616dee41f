(** * The noise of a bootstrap as a sum over the tosses of its keys *)
From Coq Require Import Lia ZifyBool Setoid Morphisms List Reals Lra.
From Verif Require Import GoBase GoFacts GoMem MemFacts F64 Utils UtilsFacts Params Key Tlwe TlweMem TlweFacts
  Poly PolyFacts NegFacts Laws Fft Trlwe TrlweFacts Trgsw TrgswFacts RotFacts KeySwitchFacts Lut Evaluator EvalFacts
  CloudKey CloudKeyFacts Gates LinFacts RunSpec HeapFacts BootFacts GateFacts NoiseFacts
  ProxyReenc ReencSpec ReencProps MaskCount MaskTail CoinSpec CoinProps BootCoinSpec.
Import ListNotations.
Local Open Scope Z_scope.
Ltac Zify.zify_post_hook ::= idtac.

(** ** sums whose terms depend on the words before *)
Section Mart.
Context (G : list (list Z) -> Z -> Z -> Z).
Fixpoint mtotal (pre : list (list Z)) (lens : list Z) (ws : list (list Z)) : Z :=
  match lens, ws with
  | L :: lens, w :: ws => lett (G pre) L w + mtotal (pre ++ [w]) lens ws
  | _, _ => 0
  end.
Context (q : Z -> Z -> Z).
Fixpoint mspread (i : Z) (lens : list Z) : Z :=
  match lens with [] => 0 | L :: lens => zsum L (q i) + mspread (i + 1) lens end.

Lemma mgf_mart lam lens : (forall pre p, letter_ok lam (G pre p) (q (zlen pre) p)) -> Forall (fun L => 0 <= L) lens ->
  forall pre, (rlsum (fun ws => exp (lam * IZR (mtotal pre lens ws))) (wordss lens) <=
    IZR (4 ^ tosses_in_all lens) * exp (lam * lam * IZR (mspread (zlen pre) lens) / 4))%R.
Proof.
  intros HG. induction lens as [|L lens IH]; intros HL pre.
  - cbn [wordss mtotal mspread tosses_in_all fold_right]. rewrite rlsum_cons. cbn [rlsum fold_right]. rewrite Z.pow_0_r.
    replace (lam * lam * 0 / 4)%R with 0%R by field. rewrite Rmult_0_r, exp_0. lra.
  - inversion HL as [|? ? HL0 HL1]; subst. cbn [wordss mspread]. rewrite rlsum_flat.
    assert (Hp: 0 <= tosses_in_all lens) by (clear -HL1; induction HL1; cbn [tosses_in_all fold_right] in *; unfold tosses_in_all in *; lia).
    set (C := (IZR (4 ^ tosses_in_all lens) * exp (lam * lam * IZR (mspread (zlen pre + 1) lens) / 4))%R).
    assert (C0: (0 <= C)%R) by (apply Rmult_le_pos; [apply IZR_le; apply Z.pow_nonneg; lia|left; apply exp_pos]).
    eapply Rle_trans.
    + apply (rlsum_le _ (fun w => C * exp (lam * IZR (lett (G pre) L w)))%R). intros w _. rewrite rlsum_map.
      cbn [mtotal]. rewrite (rlsum_ext _ (fun ws => exp (lam * IZR (lett (G pre) L w)) * exp (lam * IZR (mtotal (pre ++ [w]) lens ws)))%R).
      2: { intros ws _. rewrite plus_IZR, Rmult_plus_distr_l, exp_plus. reflexivity. }
      rewrite rlsum_mul. rewrite (Rmult_comm C). apply Rmult_le_compat_l; [left; apply exp_pos|].
      eapply Rle_trans; [apply (IH HL1)|]. unfold C. replace (zlen (pre ++ [w])) with (zlen pre + 1) by (rewrite zlen_app; reflexivity). apply Rle_refl.
    + rewrite rlsum_mul. pose proof (mgf_words lam (Z.to_nat L) (G pre) (q (zlen pre)) ltac:(intros; apply HG)) as M.
      rewrite Z2Nat.id in M by exact HL0. cbn [tosses_in_all fold_right]. fold (tosses_in_all lens). rewrite Z.pow_add_r, mult_IZR, plus_IZR by assumption.
      set (A := IZR (zsum L (q (zlen pre)))) in *. set (B := IZR (mspread (zlen pre + 1) lens)) in *.
      replace (lam * lam * (A + B) / 4)%R with (lam * lam * A / 4 + lam * lam * B / 4)%R by field. rewrite exp_plus.
      eapply Rle_trans; [apply Rmult_le_compat_l; [exact C0|exact M]|]. unfold C. fold B. apply Req_le. ring.
Qed.

Lemma mtotal_flat lens : forall pre ws, length ws = length lens ->
  mtotal pre lens ws = zsum (zlen lens) (fun i => lett (G (pre ++ firstn (Z.to_nat i) ws)) (znd 0 lens i) (znd [] ws i)).
Proof.
  induction lens as [|L lens IH]; intros pre ws H; destruct ws as [|w ws]; try discriminate; [symmetry; apply zsum_0; reflexivity|].
  cbn [mtotal]. rewrite IH by (cbn in H; lia). change (zlen (L :: lens)) with (Z.of_nat (S (length lens))).
  rewrite Nat2Z.inj_succ, <- Z.add_1_r. change (Z.of_nat (length lens)) with (zlen lens). rewrite zsum_first by apply zlen_nonneg.
  f_equal; [change (Z.to_nat 0) with 0%nat; cbn [firstn]; rewrite app_nil_r; reflexivity|].
  apply zsum_ext. intros i Hi. replace (Z.to_nat (1 + i)) with (S (Z.to_nat i)) by lia. cbn [firstn]. rewrite <- app_assoc. cbn [app].
  assert (E: forall {A} (d x : A) l, znd d (x :: l) (1 + i) = znd d l i).
  { intros. unfold znd. replace (Z.to_nat (1 + i)) with (S (Z.to_nat i)) by lia. reflexivity. }
  rewrite !E. reflexivity.
Qed.
End Mart.

Lemma letter_more lam g q q' : letter_ok lam g q -> q <= q' -> letter_ok lam g q'.
Proof.
  intros H Hq. unfold letter_ok in *. eapply Rle_trans; [exact H|]. apply Rmult_le_compat_l; [lra|]. apply exp_mono.
  apply Rmult_le_compat_r; [lra|]. apply Rmult_le_compat_l; [apply Rle_0_sqr|]. apply IZR_le. exact Hq.
Qed.

(** ** the exact noise of key switching *)
Lemma ksw_noise n N bb t src ksk s0 s1 (noise : Z -> Z) : 0 <= n -> 0 <= N -> 1 <= bb -> 0 <= t -> bb * t <= 31 ->
  (forall i, 0 <= i < N -> 0 <= zn s1 i) ->
  (forall i j k, 0 <= i < N -> 0 <= j < t -> 1 <= k < 2 ^ bb ->
     lwe_phase n s0 (znd [] ksk (kidx bb t i j k)) == k * zn s1 i * 2 ^ (32 - (j + 1) * bb) + noise (kidx bb t i j k)) ->
  exists u, Z.abs u <= weight N s1 * kprec bb t /\
    lwe_phase n s0 (ksw n N bb t (zn src N) src ksk) == lwe_phase N s1 src + (u - used_noise N bb t src noise).
Proof.
  intros Hn HN Hb Ht Hbt Hs Hk.
  assert (H1: zsum N (fun i => zsum t (fun j => let k := kdig bb t (zn src i) j in
        if k =? 0 then 0 else lwe_phase n s0 (znd [] ksk (kidx bb t i j k)))) ==
    zsum N (fun i => zsum t (fun j => kdig bb t (zn src i) j * zn s1 i * 2 ^ (32 - (j + 1) * bb))) + used_noise N bb t src noise).
  { unfold used_noise. rewrite <- zsum_add. apply zsum_eqm. intros i Hi. rewrite <- zsum_add. apply zsum_eqm. intros j Hj.
    cbv zeta. change (digit bb t (zn src i) j) with (kdig bb t (zn src i) j). destruct (Z.eqb_spec (kdig bb t (zn src i) j) 0) as [->|Hne].
    - reflexivity.
    - rewrite Hk; [reflexivity|assumption|assumption|]. pose proof (kdig_range bb t (zn src i) j ltac:(lia)). lia. }
  assert (H2: close (weight N s1 * kprec bb t)
    (zsum N (fun i => zn src i * zn s1 i))
    (zsum N (fun i => zsum t (fun j => kdig bb t (zn src i) j * zn s1 i * 2 ^ (32 - (j + 1) * bb))))).
  { apply close_sym. unfold weight. rewrite <- zsum_mul_r. apply zsum_close. intros i Hi.
    rewrite (zsum_ext t _ (fun j => zn s1 i * (kdig bb t (zn src i) j * 2 ^ (32 - (j + 1) * bb)))) by (intros; ring).
    rewrite zsum_mul_l. replace (zn src i * zn s1 i) with (zn s1 i * zn src i) by ring.
    rewrite <- (Z.abs_eq (zn s1 i)) at 1 by (apply Hs; assumption).
    apply close_mul. apply kdig_recompose; assumption. }
  destruct H2 as (u & Hu & E). exists u. split; [exact Hu|]. rewrite ksw_phase_exact by assumption. rewrite H1, lwe_phase_eqm, E. apply eqm_refl'. ring.
Qed.

(** ** the coefficients of a product *)
Definition pick (N : Z) (a : Z -> Z) (k q : Z) : Z := if k <=? q then a (q - k) else - a (N + q - k).
Lemma neg_pick N a e q : 0 <= q < N -> negacyclic N a e q = zsum N (fun k => pick N a k q * e k).
Proof.
  intro Hq. rewrite neg_comm by exact Hq. unfold negacyclic. apply zsum_ext. intros k Hk. unfold pick. destruct (k <=? q); ring.
Qed.

Section Run.
Context {O : fops} {N : Z} (L : flaws O N) (pr : pset) (W : pwf pr N).
Notation l := (g_L pr).
Notation bg := (g_BGBIT pr).
Notation n := (lv0_N pr).
Notation nb := (g_NBIT pr).
Notation bb := (g_BASEBIT pr).
Notation t := (g_IKS_T pr).
Notation off := (w32 (doff bg l)).
Notation acc_of bsk ct tv i := (br_acc L bg l off nb n bsk ct tv i).
Notation diff bsk ct tv i := (br_diff L bg l off nb n bsk ct tv i).
Context (sk : SecretKey) (K0 : bin_key n (KeyLv0 sk)) (K1 : bin_key N (KeyLv1 sk)).
Notation s0 := (KeyLv0 sk). Notation s1 := (KeyLv1 sk).
Context (d d' : Z) (Hd' : 0 <= d') (Hfa : facc L (2 * l) (2 ^ (bg - 1)) d) (Hfm : facc_mul L two31 1 d').
Context (ct : list Z) (tv : trlwe) (Hct : zlen ct = n + 1) (Htv : ct_ok N tv).
Notation left i := (turn pr sk ct n - turn pr sk ct (i + 1)).

Definition coef (bsk : list (trgsw_fft O)) (i j k : Z) : Z :=
  mono_mul N (left i) (pick N (@dsig bg l off (diff bsk ct tv i) j) k) 0.
Definition cutp (bsk : list (trgsw_fft O)) (i : Z) : Z :=
  zn s0 i * mono_mul N (left i) (fun k => @trunc bg l (tB (diff bsk ct tv i)) k - negacyclic N (@trunc bg l (tA (diff bsk ct tv i))) (zn s1) k) 0.

Lemma step_err_ep bsk i q : 0 <= i < n -> 0 <= q < N ->
  step_err L pr sk off bsk ct tv i q ==
  cphase N s1 (epp L bg l off (znd [] bsk i) (diff bsk ct tv i)) q - zn s0 i * cphase N s1 (diff bsk ct tv i) q.
Proof.
  intros Hi Hq. unfold step_err, step_sel, br_diff. rewrite br_acc_S by lia. unfold br_step, cmuxp.
  set (acc := acc_of bsk ct tv i). set (rt := crot N (br_a nb (zn ct i)) acc).
  rewrite (cadd_phase N s1 _ acc q Hq), (csub_phase N s1 rt acc q Hq).
  destruct (bin_zn _ _ i K0 Hi) as [-> | ->]; cbn [Z.eqb Pos.eqb]; apply eqm_refl'; ring.
Qed.

Lemma pick_abs a B k q : 0 <= k < N -> 0 <= q < N -> (forall i, 0 <= i < N -> Z.abs (a i) <= B) -> Z.abs (pick N a k q) <= B.
Proof. intros Hk Hq H. unfold pick. destruct (Z.leb_spec k q); [apply H; lia|]. rewrite Z.abs_opp. apply H. lia. Qed.

Lemma coef_abs bsk i j k : 0 <= k < N -> Z.abs (coef bsk i j k) <= 2 ^ (bg - 1).
Proof.
  intro Hk. pose proof (law_N L) as H16. apply mono_abs; [lia|]. intros q Hq. apply pick_abs; [exact Hk|exact Hq|].
  intros x _. pose proof (dsig_range bg l off (pw_bg _ _ W) (diff bsk ct tv i) j x) as R. lia.
Qed.

(** what a step leaves: a linear form in its noise samples *)
Lemma step_lin rb i : 0 <= i < n -> exists u, Z.abs u <= d * (1 + weight N s1) + 2 * l * (N * (2 ^ (bg - 1) * d')) /\
  mono_mul N (left i) (step_err L pr sk off (bskp L pr sk rb) ct tv i) 0 ==
  zsum (2 * l) (fun j => zsum N (fun k => coef (bskp L pr sk rb) i j k * samples (rb i) j k)) + u - cutp (bskp L pr sk rb) i.
Proof.
  intro Hi. pose proof (law_N L) as H16. pose proof (pw_l _ _ W) as Hl. pose proof (pw_bg _ _ W) as Hbg. pose proof (pw_lbg _ _ W) as Hlb.
  assert (Hsb1: sbound N 1 s1) by (intros j Hj; destruct (bin_zn N s1 j K1 Hj) as [-> | ->]; cbn; lia).
  destruct (rowp_enc L pr W (zn s0 i) s1 (rb i) d' (bin_poly N s1 K1) Hsb1 Hfm) as (er & Her & Bnd).
  set (bsk := bskp L pr sk rb). set (df := diff bsk ct tv i).
  assert (Hdf: ct_ok N df) by (unfold df, br_diff; apply csub_ok; lia).
  assert (Hs: forall j, 0 <= j < N -> 0 <= zn s1 j) by (intros; eapply bin_nonneg; eassumption).
  assert (EB: znd [] bsk i = bval L pr sk rb i) by exact (bskp_at L pr sk rb i Hi).
  assert (HP: forall k, 0 <= k < N -> close (d * (1 + weight N s1)) (cphase N s1 (epp L bg l off (znd [] bsk i) df) k)
      (zn s0 i * cphase N s1 df k + @ep_noise N bg l off (zn s0 i) s1 er df k)).
  { intros k Hk. rewrite EB. eapply (epp_phase L bg l off); try eassumption; try reflexivity; try lia. apply gfft_of; [exact W|]. apply K1. }
  destruct (sgn_pick L (left i) 0) as (sg & q & Hsg & Hq & P).
  destruct (HP q Hq) as (e & He & E).
  set (rest := zsum (2 * l) (fun j => zsum N (fun k => pick N (@dsig bg l off df j) k q * (er j k - samples (rb i) j k)))).
  assert (Hrest: Z.abs rest <= 2 * l * (N * (2 ^ (bg - 1) * d'))).
  { unfold rest. eapply Z.le_trans; [apply zsum_abs|]. rewrite <- (zsum_const (2 * l)) by lia. apply zsum_le. intros j Hj.
    eapply Z.le_trans; [apply zsum_abs|]. rewrite <- (zsum_const N) by lia. apply zsum_le. intros k Hk. rewrite Z.abs_mul.
    apply Z.mul_le_mono_nonneg; try apply Z.abs_nonneg.
    - apply pick_abs; [exact Hk|exact Hq|]. intros x _. pose proof (dsig_range bg l off Hbg df j x). lia.
    - apply (Bnd j k Hk). }
  exists (sg * (rest + e)). split; [destruct Hsg as [-> | ->]; lia|].
  rewrite P, step_err_ep by assumption. fold df. rewrite E. unfold ep_noise, cutp. fold df. rewrite P.
  assert (Ec: zsum (2 * l) (fun j => zsum N (fun k => coef bsk i j k * samples (rb i) j k)) =
    sg * zsum (2 * l) (fun j => zsum N (fun k => pick N (@dsig bg l off df j) k q * samples (rb i) j k))).
  { rewrite <- zsum_mul_l. apply zsum_ext. intros j Hj. rewrite <- zsum_mul_l. apply zsum_ext. intros k Hk. unfold coef. fold df. rewrite P. ring. }
  rewrite Ec.
  assert (En: zsum (2 * l) (fun j => negacyclic N (@dsig bg l off df j) (er j) q) =
    zsum (2 * l) (fun j => zsum N (fun k => pick N (@dsig bg l off df j) k q * samples (rb i) j k)) + rest).
  { unfold rest. rewrite <- zsum_add. apply zsum_ext. intros j Hj. rewrite neg_pick by exact Hq. rewrite <- zsum_add. apply zsum_ext. intros k Hk. ring. }
  rewrite En. apply eqm_refl'. ring.
Qed.

(** the extracted ciphertext and its key switching *)
Definition lastp (bsk : list (trgsw_fft O)) : list Z := extp N 0 (tA (acc_of bsk ct tv n)) (tB (acc_of bsk ct tv n)).
Lemma ks_lin bsk rk : exists u, Z.abs u <= weight N s1 * 2 ^ (31 - bb * t) /\
  lwe_phase n s0 (bootp L pr off bsk (kskp pr sk rk) tv ct) ==
  lwe_phase N s1 (lastp bsk) + (u - used_noise N bb t (lastp bsk) (fun x => sample (er_noise (rk x)))).
Proof.
  pose proof (law_N L) as H16. unfold bootp. fold (lastp bsk).
  pose proof (pw_bb _ _ W). pose proof (pw_t _ _ W). pose proof (pw_bbt _ _ W). pose proof (pw_n _ _ W).
  apply (ksw_noise n N bb t (lastp bsk) (kskp pr sk rk) s0 s1); try assumption; try lia.
  - intros; eapply bin_nonneg; eassumption.
  - intros i j k Hi Hj Hk. rewrite <- (pw_gN _ _ W) in Hi. rewrite (kskp_phase pr sk rk); try assumption; try (rewrite (pw_gN _ _ W)); try assumption; try lia; try apply K0; try apply K1.
    unfold sample. rewrite centered_eq. reflexivity.
Qed.

(** ** in the terms of the tosses *)
Context (rk : Z -> enc_rand) (rb : Z -> Z -> trlwe_rand) (HF : fine_noise rk rb).
Notation bskw ws := (bskp L pr sk (drawn_rb pr rb ws)).

Definition flip (x f : Z) : Z := if Z.odd x then - f else f.
Lemma samples_drawn ws i j k : samples (drawn_rb pr rb ws i) j k = flip (zn (znd [] ws i) (N * j + k)) (samples (rb i) j k).
Proof.
  destruct (proj1 HF i j k) as [H1 H2]. unfold samples, drawn_rb. cbn [tr_noise]. rewrite (pw_gN _ _ W), (Z.mul_comm j N).
  exact (signed_sample _ _ H1 H2).
Qed.
Lemma sample_drawn ws x : sample (er_noise (drawn_rk pr rk ws x)) = flip (zn (znd [] ws n) x) (sample (er_noise (rk x))).
Proof. destruct (proj2 HF x) as [H1 H2]. unfold drawn_rk. cbn [er_noise]. exact (signed_sample _ _ H1 H2). Qed.

Definition G (pre : list (list Z)) (p x : Z) : Z :=
  let i := zlen pre in
  if i <? n then flip x (coef (bskw pre) i (p / N) (p mod N) * samples (rb i) (p / N) (p mod N))
  else if used_at bb t (lastp (bskw pre)) p then flip x (- sample (er_noise (rk p))) else 0.
Definition Q (i p : Z) : Z :=
  if i <? n then 2 * (2 ^ (2 * (bg - 1)) * samples (rb i) (p / N) (p mod N) ^ 2) else 2 * sample (er_noise (rk p)) ^ 2.

Lemma G_ok lam pre p : letter_ok lam (G pre p) (Q (zlen pre) p).
Proof.
  pose proof (law_N L) as H16. pose proof (pw_bg _ _ W) as Hbg. unfold G, Q. cbv zeta. destruct (zlen pre <? n).
  - eapply letter_more; [apply letter_sign|]. rewrite Z.pow_mul_l. apply Z.mul_le_mono_nonneg_l; [lia|]. apply Z.mul_le_mono_nonneg_r; [nia|].
    rewrite (Z.mul_comm 2), Z.pow_mul_r by lia. pose proof (coef_abs (bskw pre) (zlen pre) (p / N) (p mod N) ltac:(apply Z.mod_pos_bound; lia)). nia.
  - destruct (used_at _ _ _ _).
    + eapply letter_more; [apply letter_sign|]. nia.
    + eapply letter_more; [apply letter_zero|]. nia.
Qed.

Lemma acc_prefix pre rest i : 0 <= i -> i <= zlen pre -> i <= n -> acc_of (bskw (pre ++ rest)) ct tv i = acc_of (bskw pre) ct tv i.
Proof.
  revert i. apply (zsum_ind (fun i => i <= zlen pre -> i <= n -> acc_of (bskw (pre ++ rest)) ct tv i = acc_of (bskw pre) ct tv i)).
  - intros _ _. reflexivity.
  - intros i Hi IH H1 H2. rewrite !br_acc_S, IH by lia. f_equal. rewrite !(bskp_at L pr sk _ i) by lia. unfold bval. f_equal.
    unfold drawn_rb. replace (znd [] (pre ++ rest) i) with (znd [] pre i); [reflexivity|].
    unfold znd, zlen in *. rewrite app_nth1 by lia. reflexivity.
Qed.
Lemma prefix_split (ws : list (list Z)) i : 0 <= i -> i <= zlen ws -> zlen (firstn (Z.to_nat i) ws) = i /\ ws = firstn (Z.to_nat i) ws ++ skipn (Z.to_nat i) ws.
Proof. intros H1 H2. split; [unfold zlen in *; rewrite firstn_length; lia|]. symmetry. apply firstn_skipn. Qed.
Lemma acc_firstn ws i : 0 <= i -> i <= zlen ws -> i <= n -> acc_of (bskw ws) ct tv i = acc_of (bskw (firstn (Z.to_nat i) ws)) ct tv i.
Proof.
  intros H1 H2 H3. destruct (prefix_split ws i H1 H2) as [E1 E2].
  pose proof (acc_prefix (firstn (Z.to_nat i) ws) (skipn (Z.to_nat i) ws) i H1 ltac:(lia) H3) as A. rewrite <- E2 in A. exact A.
Qed.
Lemma coef_prefix ws i j k : 0 <= i -> i <= zlen ws -> i <= n -> coef (bskw (firstn (Z.to_nat i) ws)) i j k = coef (bskw ws) i j k.
Proof. intros H1 H2 H3. unfold coef, br_diff. rewrite (acc_firstn ws i H1 H2 H3). reflexivity. Qed.
Lemma lastp_prefix ws : n <= zlen ws -> lastp (bskw (firstn (Z.to_nat n) ws)) = lastp (bskw ws).
Proof. intros H2. pose proof (pw_n _ _ W) as Hn. unfold lastp. rewrite (acc_firstn ws n Hn H2 ltac:(lia)). reflexivity. Qed.

Lemma zlen_key_tosses : zlen (key_tosses pr) = n + 1.
Proof. pose proof (pw_n _ _ W). unfold key_tosses. rewrite zlen_app, zlen_repeat. change (zlen [ksk_tosses pr]) with 1. lia. Qed.
Lemma key_tosses_part i : 0 <= i < n -> znd 0 (key_tosses pr) i = N * (2 * l).
Proof.
  intro Hi. unfold key_tosses, znd. rewrite app_nth1 by (rewrite repeat_length; lia). change (znd 0 (repeat (part_tosses pr) (Z.to_nat n)) i = N * (2 * l)). rewrite znd_repeat by lia. unfold part_tosses. rewrite (pw_gN _ _ W). ring.
Qed.
Lemma key_tosses_ksk : znd 0 (key_tosses pr) n = 2 ^ bb * t * N.
Proof.
  pose proof (pw_n _ _ W). unfold key_tosses, znd. rewrite app_nth2 by (rewrite repeat_length; lia). rewrite repeat_length, Nat.sub_diag.
  cbn [nth]. unfold ksk_tosses. rewrite (pw_gN _ _ W). reflexivity.
Qed.

Lemma toss_total ws : length ws = length (key_tosses pr) ->
  mtotal G [] (key_tosses pr) ws =
  zsum n (fun i => zsum (2 * l) (fun j => zsum N (fun k => coef (bskw ws) i j k * samples (drawn_rb pr rb ws i) j k)))
  - used_noise N bb t (lastp (bskw ws)) (fun x => sample (er_noise (drawn_rk pr rk ws x))).
Proof.
  intro Hw. pose proof (law_N L) as H16. pose proof (pw_n _ _ W) as Hn. pose proof (pw_l _ _ W) as Hl. pose proof (pw_bb _ _ W) as Hb. pose proof (pw_t _ _ W) as Ht.
  assert (Hz: zlen ws = n + 1) by (unfold zlen; rewrite Hw; apply zlen_key_tosses).
  rewrite (mtotal_flat G Q) by exact Hw. rewrite zlen_key_tosses, zsum_S by exact Hn. unfold Z.sub. f_equal.
  - apply zsum_ext. intros i Hi. rewrite key_tosses_part by exact Hi. cbn [app]. unfold lett. rewrite zsum_block by lia.
    apply zsum_ext. intros j Hj. apply zsum_ext. intros k Hk. rewrite samples_drawn. destruct (prefix_split ws i ltac:(lia) ltac:(lia)) as [E1 _].
    unfold G. cbv zeta. rewrite E1. replace (i <? n) with true by lia.
    replace ((N * j + k) / N) with j by (apply (Z.div_unique_pos _ _ _ k); lia).
    replace ((N * j + k) mod N) with k by (apply (Z.mod_unique_pos _ _ j); lia).
    rewrite coef_prefix by lia. unfold flip. destruct (Z.odd _); ring.
  - rewrite key_tosses_ksk, used_flat by lia. cbn [app]. unfold lett. rewrite <- zsum_opp. apply zsum_ext. intros p Hp.
    destruct (prefix_split ws n ltac:(lia) ltac:(lia)) as [E1 _]. unfold G. cbv zeta. rewrite E1, Z.ltb_irrefl, lastp_prefix by lia.
    destruct (used_at _ _ _ _); [|reflexivity]. rewrite sample_drawn. unfold flip. destruct (Z.odd _); ring.
Qed.

Lemma mspread_repeat (q : Z -> Z -> Z) L0 m k rest : mspread q k (repeat L0 m ++ rest) = zsum (Z.of_nat m) (fun i => zsum L0 (q (k + i))) + mspread q (k + Z.of_nat m) rest.
Proof.
  revert k. induction m as [|m IH]; intro k; cbn [repeat app mspread].
  - change (Z.of_nat 0) with 0. rewrite zsum_0, Z.add_0_r by lia. reflexivity.
  - rewrite IH, Nat2Z.inj_succ, <- Z.add_1_r, zsum_first by lia. rewrite Z.add_0_r.
    replace (k + 1 + Z.of_nat m) with (k + (Z.of_nat m + 1)) by ring.
    rewrite (zsum_ext (Z.of_nat m) (fun i => zsum L0 (q (k + 1 + i))) (fun i => zsum L0 (q (k + (1 + i))))) by (intros; do 2 f_equal; ring). ring.
Qed.
Lemma spread_total : mspread Q 0 (key_tosses pr) = key_spread pr rk rb.
Proof.
  pose proof (law_N L) as H16. pose proof (pw_n _ _ W) as Hn. pose proof (pw_l _ _ W) as Hl.
  unfold key_tosses. rewrite mspread_repeat, Z2Nat.id by exact Hn. cbn [mspread]. unfold key_spread. rewrite Z.mul_add_distr_l, Z.add_0_r. f_equal.
  - unfold bsk_squares. rewrite <- !zsum_mul_l. apply zsum_ext. intros i Hi. unfold part_tosses. rewrite (pw_gN _ _ W).
    replace (2 * l * N) with (N * (2 * l)) by ring. rewrite zsum_block by lia. rewrite <- !zsum_mul_l. apply zsum_ext. intros j Hj.
    rewrite <- !zsum_mul_l. apply zsum_ext. intros k Hk. unfold Q. replace (0 + i <? n) with true by lia. rewrite Z.add_0_l.
    replace ((N * j + k) / N) with j by (apply (Z.div_unique_pos _ _ _ k); lia).
    replace ((N * j + k) mod N) with k by (apply (Z.mod_unique_pos _ _ j); lia). reflexivity.
  - unfold ksk_squares. rewrite <- zsum_mul_l. apply zsum_ext. intros x Hx. unfold Q. rewrite Z.add_0_l, Z.ltb_irrefl. reflexivity.
Qed.

(** ** the noise of the bootstrap *)
Lemma low_mod a b : (tsub a b) mod 2 ^ (32 - l * bg) = (a - b) mod 2 ^ (32 - l * bg).
Proof.
  pose proof (pw_lbg _ _ W) as Hlb. unfold tsub, w32. change two32 with (2 ^ 32).
  symmetry. apply Znumtheory.Zmod_div_mod; try (apply Z.pow_pos_nonneg; lia).
  exists (2 ^ (l * bg)). rewrite <- Z.pow_add_r; [f_equal; lia| |lia]. pose proof (pw_l _ _ W). pose proof (pw_bg _ _ W). nia.
Qed.
Lemma cut_spec bsk : bsk_ok L pr bsk -> cut_off pr O sk bsk off ct tv (cutp bsk).
Proof.
  intros Hb i Hi. pose proof (law_N L) as H16. rewrite (pw_gN _ _ W).
  assert (Ha: ct_ok N (acc_of bsk ct tv i)) by (apply br_acc_ok; assumption || lia).
  exists (acc_of bsk ct tv i), (crot N (br_a nb (zn ct i)) (acc_of bsk ct tv i)).
  split; [apply (rotation_ok L pr W); assumption || lia|]. split; [apply (rotated_ok L pr W); assumption|]. cbv zeta.
  destruct (still_turn pr W sk ct i Hi) as [q Hq]. rewrite Hq, (mono_turn L). unfold cutp. f_equal.
  destruct (sgn_pick L (left i) 0) as (sg & x & _ & Hx & P). rewrite !P. f_equal.
  assert (E: forall f k, 0 <= k < N -> (f = tA \/ f = tB) ->
    @trunc bg l (f (diff bsk ct tv i)) k = (zn (f (crot N (br_a nb (zn ct i)) (acc_of bsk ct tv i))) k - zn (f (acc_of bsk ct tv i)) k) mod 2 ^ (32 - l * bg)).
  { intros f k Hk Hf. unfold trunc, br_diff, csub. rewrite <- low_mod. destruct Hf as [-> | ->]; cbn [tA tB]; rewrite zn_tab by exact Hk; reflexivity. }
  f_equal; [apply (E tB); auto|]. apply neg_ext_args; [exact Hx| |reflexivity]. intros k Hk. apply (E tA); auto.
Qed.

Lemma boot_drawn ws ck : key_ok pr sk -> g_BG pr = 2 ^ bg -> length ws = length (key_tosses pr) ->
  NewCloudKey O pr sk (drawn_rk pr rk ws) (drawn_rb pr rb ws) = Ok ck ->
  exists x, cut_off pr O sk (BootstrappingKey ck) (DecompositionOffset ck) ct tv x /\
    boot_noise O pr sk ck tv ct (Z.abs (mtotal G [] (key_tosses pr) ws) + Z.abs (zsum n x) + fixed_noise pr sk d d').
Proof.
  intros Hsk HBG Hw Hck. pose proof (law_N L) as H16. pose proof (pw_n _ _ W) as Hn.
  destruct (cloud_facts L pr W HBG _ _ _ _ Hsk Hck) as (Hb & Hks & _ & Hoff).
  assert (Eck := Hck). rewrite (NewCloudKey_ok L pr W sk (drawn_rb pr rb ws) (proj1 K0) (proj1 K1) (drawn_rk pr rk ws) HBG) in Eck. injection Eck as <-.
  cbn [BootstrappingKey KeySwitchingKey DecompositionOffset] in *.
  set (bsk := bskw ws) in *. exists (cutp bsk). split; [apply cut_spec; exact Hb|].
  set (lin := fun i => zsum (2 * l) (fun j => zsum N (fun k => coef bsk i j k * samples (drawn_rb pr rb ws i) j k))).
  set (st := fun i => mono_mul N (left i) (step_err L pr sk off bsk ct tv i) 0).
  set (u := fun i => centered (st i - lin i + cutp bsk i)).
  assert (Hu: forall i, 0 <= i < n -> Z.abs (u i) <= d * (1 + weight N s1) + 2 * l * (N * (2 ^ (bg - 1) * d'))).
  { intros i Hi. destruct (step_lin (drawn_rb pr rb ws) i Hi) as (v & Hv & E). eapply Z.le_trans; [|exact Hv]. apply centered_min.
    unfold st, lin. fold bsk in E. rewrite E. apply eqm_refl'. ring. }
  destruct (ks_lin bsk (drawn_rk pr rk ws)) as (v & Hv & Ek).
  set (un := used_noise N bb t (lastp bsk) (fun x => sample (er_noise (drawn_rk pr rk ws x)))) in *.
  exists (fun i => lin i + u i - cutp bsk i), (v - un). split; [|split]; cbn [BootstrappingKey KeySwitchingKey DecompositionOffset].
  - apply (left_noise_iff L pr W sk); try assumption. intros i Hi. unfold u. rewrite centered_eq. fold (st i). apply eqm_refl'. ring.
  - apply (ks_noise_iff L pr W sk); assumption.
  - rewrite toss_total by exact Hw. fold bsk. fold un. change (fun i => zsum (2 * l) (fun j => zsum N (fun k => coef bsk i j k * samples (drawn_rb pr rb ws i) j k))) with lin.
    rewrite zsum_sub, zsum_add. unfold fixed_noise. cbv zeta. rewrite (pw_gN _ _ W).
    assert (Hs: Z.abs (zsum n u) <= n * (d * (1 + weight N s1) + 2 * l * (N * (2 ^ (bg - 1) * d')))).
    { eapply Z.le_trans; [apply zsum_abs|]. rewrite <- zsum_const by exact Hn. apply zsum_le. exact Hu. }
    lia.
Qed.

(** ** counting *)
Lemma small_total T Q0 : 0 < T -> 0 < Q0 -> key_spread pr rk rb <= Q0 ->
  but_for (key_tosses pr) (2 * exp (- (IZR T * IZR T / IZR Q0))) (fun ws => length ws = length (key_tosses pr) /\ Z.abs (mtotal G [] (key_tosses pr) ws) < T).
Proof.
  intros HT HQ HS. pose proof (law_N L) as H16. pose proof (pw_n _ _ W) as Hn. pose proof (pw_l _ _ W) as Hl. pose proof (pw_bb _ _ W) as Hb. pose proof (pw_t _ _ W) as Ht.
  exists (filter (fun ws => T <=? Z.abs (mtotal G [] (key_tosses pr) ws)) (wordss (key_tosses pr))). split.
  - intros ws Hw Hi. assert (Hin := wordss_in _ _ Hw). split; [apply wordss_len; exact Hin|].
    apply Z.nle_gt. intro Hle. apply Hi. apply filter_In. split; [exact Hin|lia].
  - apply (tail_bound _ (mtotal G [] (key_tosses pr)) _ (mspread Q 0 (key_tosses pr)) Q0 T HT HQ).
    + rewrite spread_total. exact HS.
    + intro lam. apply (mgf_mart G Q lam (key_tosses pr) (G_ok lam)). unfold key_tosses. apply Forall_app. split.
      * apply Forall_forall. intros x Hx. apply repeat_spec in Hx. subst x. unfold part_tosses. rewrite (pw_gN _ _ W). lia.
      * constructor; [|constructor]. unfold ksk_tosses. rewrite (pw_gN _ _ W). assert (0 < 2 ^ bb) by (apply Z.pow_pos_nonneg; lia). nia.
    + apply Z.pow_nonneg. lia.
Qed.
End Run.

(** * Lookup tables, modulus switching and programmable bootstrapping *)
From Coq Require Import Lia ZifyBool Setoid Morphisms List Reals Lra.
From Flocq Require Import Core BinarySingleNaN.
From Verif Require Import GoBase GoFacts GoMem F64 F64Facts Utils UtilsFacts Spec Params Key Tlwe TlweMem Poly Fft FftTabErr Trlwe Trgsw Lut Evaluator CloudKey Gates RunSpec LutSpec
  MemFacts TlweFacts PolyFacts NegFacts Laws TrlweFacts MsgFacts TrgswFacts RotFacts EvalFacts HeapFacts CloudKeyFacts BootFacts GateFacts RunProps RlweProps HistProps LutFacts.
Import ListNotations.
Local Open Scope Z_scope.
Ltac Zify.zify_post_hook ::= idtac.

(** ** tables *)
Definition eval_of (e : Encoder) (f : Z -> Z) (x : Z) : Z := match Encode e (f x) with Ok y => y | _ => 0 end.

Lemma Encode_total e x : 0 < MessageModulus e -> exists y, Encode e x = Ok y /\ tok y.
Proof.
  intro H. unfold Encode. rewrite normalize_ok by assumption. cbn [bind]. eexists; split; [reflexivity|]. apply F64ToTorus_tok.
Qed.
Lemma eval_of_ok e f x : 0 < MessageModulus e -> Encode e (f x) = Ok (eval_of e f x).
Proof. intro H. unfold eval_of. destruct (Encode_total e (f x) H) as (y & -> & _). reflexivity. Qed.

Lemma tneg_tok x : tok (tneg x).
Proof. apply tok_w32. Qed.

Lemma lmsg_range M N u : 0 < M -> 0 < N -> 0 <= u < N -> 0 <= lmsg M N u < M.
Proof.
  intros HM HN Hu. unfold lmsg. pose proof (Z.div_mod M 2 ltac:(lia)). pose proof (Z.mod_pos_bound M 2 ltac:(lia)).
  split; [apply Z.div_pos; nia|apply Z.div_lt_upper_bound; nia].
Qed.

Lemma ltab_plain M N ev : 0 < M -> 0 < N -> (forall x, 0 <= x < M -> tok (ev x)) -> plain_table N (ltab M N ev).
Proof.
  intros HM HN Hev. unfold plain_table, ltab. cbn [tA tB]. split; [rewrite zlen_repeat; lia|]. split; [rewrite zlen_tab; lia|].
  split.
  - apply tok_tab. intros i Hi. unfold lbody, lraw. cbv zeta.
    pose proof (offset_range M N HM HN). destruct (Z.ltb_spec i (N - dround N (2 * M))); [|apply tneg_tok].
    apply Hev. apply lmsg_range; lia.
  - intros i Hi. change (zn (repeat 0 (Z.to_nat N))) with (znd 0 (repeat 0 (Z.to_nat N))). apply znd_repeat. lia.
Qed.

Lemma ltab_entry M N ev x : 0 < M -> 0 < N -> 0 <= x < M -> entry N M (ltab M N ev) x (ev x).
Proof.
  intros HM HN Hx i Hi. cbn [ltab tB]. destruct (lbody_window M N ev x i HM HN Hx Hi) as [[A B]|(A & _ & B)].
  - split; intro; [|lia]. split; [lia|]. rewrite zn_tab by lia. exact B.
  - split; intro; [lia|]. split; [lia|]. rewrite zn_tab by lia. exact B.
Qed.


Lemma new_table pr : good_params pr -> exists t, NewLookUpTable pr = Ok t /\ zlen (tA t) = g_N pr /\ zlen (tB t) = g_N pr.
Proof.
  intros [W _]. unfold NewLookUpTable, NewTRLWELv1. rewrite (pw_trN _ _ W). pose proof (pw_N _ _ W) as HN. pose proof (pw_nb _ _ W).
  assert (0 < g_N pr) by (rewrite HN; apply Z.pow_pos_nonneg; lia). rewrite make_ok by lia. cbn [bind].
  eexists; split; [reflexivity|]. cbn [tA tB]. rewrite zlen_repeat. lia.
Qed.

Lemma good_N pr : good_params pr -> 0 < g_N pr.
Proof. intros [W _]. pose proof (pw_N _ _ W) as HN. pose proof (pw_nb _ _ W). rewrite HN. apply Z.pow_pos_nonneg; lia. Qed.

Lemma gen_full pr g f : good_params pr -> LookUpTableSize g = g_N pr -> 0 < MessageModulus (gEncoder g) ->
  GenLookUpTableFull pr g f = Ok (ltab (MessageModulus (gEncoder g)) (g_N pr) f).
Proof.
  intros Hg HS HM. destruct (new_table pr Hg) as (t & E & LA & LB). unfold GenLookUpTableFull. rewrite E. cbn [bind].
  unfold GenLookUpTableFullAssign. apply gen_lut_ok; auto. apply good_N. exact Hg.
Qed.
Lemma gen_table pr g f : good_params pr -> LookUpTableSize g = g_N pr -> 0 < MessageModulus (gEncoder g) ->
  GenLookUpTable pr g f = Ok (ltab (MessageModulus (gEncoder g)) (g_N pr) (eval_of (gEncoder g) f)).
Proof.
  intros Hg HS HM. destruct (new_table pr Hg) as (t & E & LA & LB). unfold GenLookUpTable. rewrite E. cbn [bind].
  unfold GenLookUpTableAssign. apply gen_lut_ok; auto; [apply good_N; exact Hg|]. intros x _. apply eval_of_ok. exact HM.
Qed.

Lemma t_layout pr g f : good_params pr -> LookUpTableSize g = g_N pr -> 0 < MessageModulus (gEncoder g) ->
  exists tv, GenLookUpTable pr g f = Ok tv /\ plain_table (g_N pr) tv /\
    forall x, 0 <= x < MessageModulus (gEncoder g) -> exists y, Encode (gEncoder g) (f x) = Ok y /\
      entry (g_N pr) (MessageModulus (gEncoder g)) tv x y.
Proof.
  intros Hg HS HM. pose proof (good_N pr Hg). eexists. split; [apply gen_table; assumption|]. split.
  - apply ltab_plain; try assumption. intros x _. destruct (Encode_total (gEncoder g) (f x) HM) as (y & E & T).
    rewrite eval_of_ok in E by assumption. injection E as ->. exact T.
  - intros x Hx. eexists. split; [apply eval_of_ok; exact HM|]. apply ltab_entry; assumption.
Qed.

Lemma t_full pr g f : good_params pr -> LookUpTableSize g = g_N pr -> 0 < MessageModulus (gEncoder g) ->
  (forall x, 0 <= x < MessageModulus (gEncoder g) -> tok (f x)) ->
  exists tv, GenLookUpTableFull pr g f = Ok tv /\ plain_table (g_N pr) tv /\
    forall x, 0 <= x < MessageModulus (gEncoder g) -> entry (g_N pr) (MessageModulus (gEncoder g)) tv x (f x).
Proof.
  intros Hg HS HM Hf. pose proof (good_N pr Hg). eexists. split; [apply gen_full; assumption|]. split.
  - apply ltab_plain; assumption.
  - intros x Hx. apply ltab_entry; assumption.
Qed.

Lemma t_custom pr g f M scale : good_params pr -> LookUpTableSize g = g_N pr -> 0 < M ->
  exists tv, GenLookUpTableCustom pr g f M scale = Ok (tv, g) /\ GenLookUpTable pr (NewGeneratorWithScale pr M scale) f = Ok tv.
Proof.
  intros Hg HS HM. rewrite gen_table; [|assumption|reflexivity|exact HM]. eexists. split; [|reflexivity].
  destruct (new_table pr Hg) as (t & E & LA & LB). unfold GenLookUpTableCustom. rewrite E. cbn [bind].
  unfold GenLookUpTableAssign. erewrite gen_lut_ok; [|reflexivity|exact HS|exact HM|apply good_N; exact Hg| |exact LA|exact LB].
  - cbn [bind NewGeneratorWithScale gEncoder MessageModulus]. destruct g. reflexivity.
  - intros x _. cbn [gEncoder]. apply eval_of_ok. exact HM.
Qed.

(** for 2M | N the window is the plain interval *)
Lemma t_window N M x i : 0 < M -> (2 * M | N) ->
  in_window N M x i <-> - (N / (2 * M)) <= i - x * (N / M) < N / (2 * M).
Proof.
  intros HM [q ->]. unfold in_window. rewrite Z.div_mul by lia. replace (q * (2 * M)) with (2 * q * M) by ring. rewrite Z.div_mul by lia.
  replace (2 * (i * M - x * (2 * q * M))) with (2 * M * (i - x * (2 * q))) by ring.
  replace (2 * q * M - 2 * M) with (2 * M * (q - 1)) by ring. replace (- (2 * q * M)) with (2 * M * (- q)) by ring.
  split; intro H.
  - destruct H as [H1 H2]. apply Z.mul_le_mono_pos_l in H1; [|lia]. apply Z.mul_le_mono_pos_l in H2; [|lia]. lia.
  - split; apply Z.mul_le_mono_nonneg_l; lia.
Qed.

(** ** modulus switching *)
Local Open Scope R_scope.
Lemma fround_pos x : BinarySingleNaN.is_finite x = true -> 0 <= val x < 4503599627370496 ->
  val (fround x) = IZR (Zfloor (val x + / 2)) /\ BinarySingleNaN.is_finite (fround x) = true.
Proof.
  intros Hf Hv. destruct x as [s|s| |s m e Hb]; try discriminate Hf.
  - cbn [fround]. split; [|reflexivity]. simpl. replace (0 + / 2) with (/ 2) by ring. rewrite (Zfloor_imp 0); [reflexivity|simpl; lra].
  - destruct s.
    { exfalso. destruct Hv as [Hv _]. simpl in Hv. assert (F2R (Float radix2 (Z.neg m) e) < 0) by (apply F2R_lt_0; reflexivity).
      simpl in *. lra. }
    cbn [fround]. simpl B2R in *. destruct (Z.leb_spec 0 e) as [He|He].
    + split; [|reflexivity]. simpl B2R.
      assert (E: F2R (Float radix2 (Z.pos m) e) = IZR (Z.pos m * 2 ^ e)).
      { unfold F2R; simpl Fnum; simpl Fexp. rewrite mult_IZR. f_equal. rewrite <- IZR_Zpower by lia. reflexivity. }
      rewrite E. f_equal. symmetry. apply Zfloor_imp. rewrite plus_IZR. lra.
    + rewrite F2R_neg_div in * by assumption. simpl cond_Zopp.
      set (d := (2 ^ (- e))%Z) in *. assert (Hd: (0 < d)%Z) by (apply Z.pow_pos_nonneg; lia).
      assert (Fl: Zfloor (IZR (Z.pos m) / IZR d + / 2) = ((2 * Z.pos m + d) / (2 * d))%Z).
      { rewrite <- Zfloor_div by lia. f_equal. rewrite plus_IZR, !mult_IZR. assert (IZR d <> 0) by (apply not_0_IZR; lia). field. assumption. }
      rewrite Fl. set (q := ((2 * Z.pos m + d) / (2 * d))%Z) in *.
      assert (Hq: (0 <= q <= 4503599627370496)%Z).
      { rewrite <- Fl. split.
        - apply Zfloor_lub. simpl. destruct Hv. lra.
        - apply Z.lt_succ_r. apply lt_IZR. apply Rle_lt_trans with (1 := Zfloor_lb _). rewrite succ_IZR. lra. }
      destruct (normalize_exact q 0 false) as [A B]; [lia..|]. split; [|exact B]. etransitivity; [exact A|]. unfold F2R; simpl. ring.
Qed.
Local Open Scope Z_scope.

Lemma t_modswitch other g x k : 0 <= k <= 31 -> LookUpTableSize g = 2 ^ k -> tok x ->
  ModSwitch_on other g x = Ok ((x * 2 ^ k + 2 ^ 31) / 2 ^ 32 mod 2 ^ k).
Proof.
  intros Hk HS [Hx0 Hx1]. unfold ModSwitch_on. rewrite HS. unfold two32 in Hx1. 
  assert (P: 1 <= 2 ^ k <= 2 ^ 31) by (split; [apply (Z.pow_le_mono_r 2 0); lia|apply Z.pow_le_mono_r; lia]).
  destruct (f_of_Z_exact x) as [Xv Xf]; [lia|]. destruct (f_of_Z_exact (2 ^ k)) as [Kv Kf]; [lia|].
  destruct (f_pow2_exact 32) as [Pv Pf]; [lia|].
  destruct (fdiv_exact (f_of_Z x) (f_pow2 32) (F2R (Float radix2 x (-32)))) as [Dv Df].
  - exact Xf.
  - rewrite Pv. apply Rgt_not_eq. apply bpow_gt_0.
  - rewrite Xv, Pv. unfold F2R; cbn [Fnum Fexp]. unfold Rdiv. rewrite <- bpow_opp. reflexivity.
  - apply fmt_mk; lia.
  - apply F2R_bound; lia.
  - destruct (fmul_exact (fdiv (f_of_Z x) (f_pow2 32)) (f_of_Z (2 ^ k)) (F2R (Float radix2 x (-32 + k)))) as [Mv Mf].
    + exact Df.
    + exact Kf.
    + rewrite Dv, Kv. unfold F2R; cbn [Fnum Fexp]. rewrite (bpow_plus radix2 (-32) k). rewrite <- (IZR_Zpower radix2 k) by lia.
      rewrite Rmult_assoc. reflexivity.
    + apply fmt_mk; lia.
    + apply F2R_bound; lia.
    + set (sc := fmul (fdiv (f_of_Z x) (f_pow2 32)) (f_of_Z (2 ^ k))) in *.
      assert (V: val sc = (IZR (x * 2 ^ k) / IZR (2 ^ 32))%R).
      { rewrite Mv. unfold F2R; cbn [Fnum Fexp]. rewrite (bpow_plus radix2 (-32) k), mult_IZR. change (2 ^ k) with (Zpower radix2 k).
        rewrite IZR_Zpower by lia. unfold Rdiv. change (bpow radix2 (-32)) with (/ IZR (2 ^ 32))%R. ring. }
      assert (B: (0 <= val sc < 4503599627370496)%R).
      { rewrite V. split.
        - apply Rmult_le_pos; [apply IZR_le; nia|]. left. apply Rinv_0_lt_compat. apply IZR_lt. reflexivity.
        - apply Rmult_lt_reg_r with (IZR (2 ^ 32)); [apply IZR_lt; reflexivity|]. unfold Rdiv. rewrite Rmult_assoc, Rinv_l, Rmult_1_r by (apply not_0_IZR; discriminate).
          rewrite <- mult_IZR. apply IZR_lt. nia. }
      destruct (fround_pos sc Mf B) as [Rv Rf].
      assert (Fl: Zfloor (val sc + / 2) = (x * 2 ^ k + 2 ^ 31) / 2 ^ 32).
      { rewrite V. rewrite <- F64Facts.Zfloor_div by reflexivity. f_equal. rewrite plus_IZR.
        change (IZR (2 ^ 32)) with 4294967296%R. change (IZR (2 ^ 31)) with 2147483648%R. field. }
      rewrite Fl in Rv. set (q := (x * 2 ^ k + 2 ^ 31) / 2 ^ 32) in *.
      assert (Hq: 0 <= q <= 2 ^ 31).
      { unfold q. split; [apply Z.div_pos; nia|]. apply Z.div_le_upper_bound; [reflexivity|]. nia. }
      rewrite f_int64_correct; [|exact Rf|rewrite Rv, Ztrunc_IZR; unfold two63; lia]. rewrite Rv, Ztrunc_IZR.
      unfold go_rem. destruct (Z.eqb_spec (2 ^ k) 0); [lia|]. cbn [bind]. rewrite Z.rem_mod_nonneg by lia.
      pose proof (Z.mod_pos_bound q (2 ^ k) ltac:(lia)). destruct (Z.ltb_spec (q mod 2 ^ k) 0); [lia|]. reflexivity.
Qed.

Lemma plain_tokA N tv : 0 <= N -> plain_table N tv -> tok_list (tA tv).
Proof.
  intros HN (LA & _ & _ & ZA). assert (E: tA tv = tab N (fun _ => 0)) by (apply (eq_tab 0); [exact LA|exact ZA]).
  rewrite E. apply tok_tab. intros. unfold tok, two32. lia.
Qed.

(** ** which window the rounded phase falls into *)
Lemma window_of N M q d x i : 0 < M -> 0 < q -> N * q = 2 ^ 31 -> i * q = x * 2 ^ 31 / M + d ->
  M * (Z.abs d + 1) <= 2 ^ 30 -> (2 * M | N) \/ M * (Z.abs d + q) <= 2 ^ 30 -> in_window N M x i.
Proof.
  intros HM Hq HN Hi Hd Hs. unfold in_window.
  pose proof (Z.div_mod (x * 2 ^ 31) M ltac:(lia)) as E. pose proof (Z.mod_pos_bound (x * 2 ^ 31) M HM) as B.
  set (f := x * 2 ^ 31 / M) in *. set (r := (x * 2 ^ 31) mod M) in *.
  assert (K: (i * M - x * N) * q = M * d - r).
  { replace ((i * M - x * N) * q) with (M * (i * q) - x * (N * q)) by ring. rewrite HN, Hi, E. ring. }
  assert (A: M * d <= M * Z.abs d /\ - (M * Z.abs d) <= M * d) by nia.
  set (u := i * M - x * N) in *. split.
  - apply (Z.mul_le_mono_pos_r _ _ q Hq). replace (2 * u * q) with (2 * (u * q)) by ring. rewrite K.
    replace (- N * q) with (- (N * q)) by ring. rewrite HN. lia.
  - destruct Hs as [[c Hc]|Hs].
    + assert (Hu: exists v, u = v * M) by (exists (i - x * (2 * c)); unfold u; rewrite Hc; ring). destruct Hu as [v Hv].
      assert (Hlt: 2 * u < N). { apply (Z.mul_lt_mono_pos_r q); [exact Hq|]. replace (2 * u * q) with (2 * (u * q)) by ring. rewrite K, HN. lia. }
      rewrite Hv, Hc in *. assert (2 * M * v < 2 * M * c) by lia. apply Z.mul_lt_mono_pos_l in H; [|lia]. nia.
    + apply (Z.mul_le_mono_pos_r _ _ q Hq). replace (2 * u * q) with (2 * (u * q)) by ring. rewrite K.
      replace ((N - 2 * M) * q) with (N * q - 2 * (M * q)) by ring. rewrite HN. lia.
Qed.

Lemma t_reads pr s ct M x E R : good_params pr -> 0 < M -> encodes (lv0_N pr) s ct M x E -> rounding pr s ct R ->
  M * (E + R + 1) <= 2 ^ 30 -> (2 * M | g_N pr) \/ M * (E + R + 2 ^ (31 - g_NBIT pr)) <= 2 ^ 30 -> reads pr s ct M x.
Proof.
  intros [W _] HM [_ Hh] Hr HB Hs. pose proof (pw_nb _ _ W) as Hnb. pose proof (pw_N _ _ W) as HN.
  set (q := 2 ^ (31 - g_NBIT pr)) in *. assert (Hq: 0 < q) by (apply Z.pow_pos_nonneg; lia).
  assert (T: g_N pr * q = 2 ^ 31) by (rewrite HN at 1; unfold q; rewrite <- Z.pow_add_r by lia; f_equal; lia).
  unfold rounding in Hr. fold q in Hr.
  destruct (close_trans _ _ _ _ _ Hr Hh) as (d & Hd & Ed). apply eqm_iff in Ed. destruct Ed as [t Et].
  exists (rotation_index pr s ct - t * (2 * g_N pr)), t. split; [ring|].
  apply (window_of _ _ q d); try assumption.
  - rewrite Z.mul_sub_distr_r, Et. replace (t * (2 * g_N pr) * q) with (t * (2 * (g_N pr * q))) by ring. rewrite T.
    change two32 with (2 * 2 ^ 31). ring.
  - nia.
  - destruct Hs as [Hs|Hs]; [left; exact Hs|right; nia].
Qed.

Lemma t_rounding R O pr sk rk rb ck ct : setup R O pr sk rk rb ck -> rounding pr (KeyLv0 sk) ct (round_err pr sk).
Proof. intro S. open_setup S. apply (index_close L pr W). apply Hsk. Qed.

(** ** messages *)
Lemma encodes_enc n P message M key r ct E : 0 <= n -> zlen P = n + 1 -> n <= zlen key -> 1 <= M < 2 ^ 20 ->
  EncryptLWEMessage n P message M key r = Ok ct -> Z.abs (centered (F64ToTorus (er_noise r))) <= E ->
  close (E + 1) (lwe_phase n key ct) ((message mod M) * 2 ^ 31 / M).
Proof.
  intros Hn HP Hk HM HE Hr. destruct (EncryptLWEMessage_phase n P message M key r ct Hn ltac:(lia) Hk HM HE) as (_ & z & Hz & Hp).
  set (c := F64ToTorus (er_noise r)) in *. set (mm := message mod M) in *.
  pose proof (Z.div_mod (mm * 2 ^ 31) M ltac:(lia)) as D. pose proof (Z.mod_pos_bound (mm * 2 ^ 31) M ltac:(lia)) as B.
  set (f := mm * 2 ^ 31 / M) in *. assert (f - 1 <= z <= f) by nia.
  exists (z - f + centered c). split; [lia|]. rewrite Hp. transitivity (z + centered c); [rewrite centered_eq; reflexivity|apply eqm_refl'; ring].
Qed.

Lemma decodes n P M x key E : 0 <= n -> n < zlen P -> n <= zlen key -> 1 <= M < 2 ^ 20 -> 0 <= x < M ->
  close E (lwe_phase n key P) (x * 2 ^ 31 / M) -> E <= 2 ^ 31 / M / 2 - M -> DecryptLWEMessage n P M key = Ok x.
Proof.
  intros Hn HP Hk HM Hx (e & He & Ee) HE. rewrite DecryptLWEMessage_ok by lia. f_equal.
  pose proof (Z.div_mod (x * 2 ^ 31) M ltac:(lia)) as D. pose proof (Z.mod_pos_bound (x * 2 ^ 31) M ltac:(lia)) as B.
  eapply (decode_msg M x (x * 2 ^ 31 / M) e); try assumption; lia.
Qed.
Lemma pow2_div k x : 0 <= k <= 31 -> x * 2 ^ 31 / 2 ^ k = x * 2 ^ (31 - k).
Proof.
  intro Hk. replace (2 ^ 31) with (2 ^ (31 - k) * 2 ^ k) by (rewrite <- Z.pow_add_r by lia; f_equal; lia).
  rewrite Z.mul_assoc, Z.div_mul; [reflexivity|]. apply Z.pow_nonzero; lia.
Qed.
Lemma decodes_pow2 n P k x key E : 0 <= n -> n < zlen P -> n <= zlen key -> 0 <= k <= 30 -> 0 <= x < 2 ^ k ->
  close E (lwe_phase n key P) (x * 2 ^ 31 / 2 ^ k) -> E < 2 ^ (30 - k) -> DecryptLWEMessage n P (2 ^ k) key = Ok x.
Proof.
  intros Hn HP Hk HM Hx (e & He & Ee) HE. 
  assert (PW: 1 <= 2 ^ k <= 2 ^ 31) by (split; [apply (Z.pow_le_mono_r 2 0); lia|apply Z.pow_le_mono_r; lia]).
  rewrite DecryptLWEMessage_ok by lia. f_equal.
  rewrite pow2_div in Ee by lia. rewrite (decode_pow2 k x e) by (lia || exact Ee).
  assert (D: 2 ^ (31 - k) = 2 * 2 ^ (30 - k)) by (replace (31 - k) with (1 + (30 - k)) by lia; rewrite Z.pow_add_r by lia; reflexivity).
  assert (0 < 2 ^ (30 - k)) by (apply Z.pow_pos_nonneg; lia).
  rewrite D. replace (2 * 2 ^ (30 - k) / 2) with (2 ^ (30 - k)) by (rewrite Z.mul_comm, Z.div_mul; lia).
  rewrite (Z.div_small (e + _)) by lia. rewrite Z.add_0_r, Z.mod_small by lia. reflexivity.
Qed.

(** ** the phase after a bootstrap with a table *)
Section Run.
Context {O : fops} {N : Z} (L : flaws O N) (pr : pset) (W : pwf pr N) (HBG : g_BG pr = 2 ^ g_BGBIT pr).
Notation n := (lv0_N pr).
Notation nb := (g_NBIT pr).
Notation M := (mem (FP O)).
Notation ix e m := (im m (bp_i (ev_bp e))).

Lemma ext_period a i q : 0 < N -> ext N a (i + q * (2 * N)) = ext N a i.
Proof.
  intro HN. unfold ext. replace (i + q * (2 * N)) with (i + 2 * q * N) by ring. rewrite Z.div_add, Z.mod_add by lia.
  rewrite Z.even_add, Z.even_mul. cbn [Z.even orb]. destruct (Z.even (i / N)); reflexivity.
Qed.

Lemma entry_ext mm tv x y i : 0 < N -> 0 < mm -> 0 <= x < mm -> entry N mm tv x y -> in_window N mm x i -> ext N (zn (tB tv)) i == y.
Proof.
  intros HN HM Hx He Hi. destruct (He i Hi) as [A B]. unfold in_window in Hi. unfold ext. destruct (Z.le_gt_cases 0 i) as [Hp|Hn].
  - destruct (A Hp) as [Hl E]. rewrite Z.div_small, Z.mod_small by lia. cbn [Z.even]. rewrite E. reflexivity.
  - destruct (B Hn) as [Hl E]. replace (i / N) with (-1) by (apply (Z.div_unique_pos _ _ _ (i + N)); lia).
    replace (i mod N) with (i + N) by (apply (Z.mod_unique_pos _ _ (-1)); lia). cbn [Z.even].
    rewrite E. unfold tneg. rewrite eqm_w32. apply eqm_refl'. lia.
Qed.

Lemma reads_ext mm tv s ct x y : 0 < mm -> 0 <= x < 2 * mm -> entry N mm tv (x mod mm) y -> reads pr s ct mm x ->
  ext N (zn (tB tv)) (lwe_idx nb n s ct) == signed mm x y.
Proof.
  intros HM Hx He (i & q & Hi & Hw). pose proof (law_N L) as H16. rewrite (pw_gN _ _ W) in Hi, Hw.
  destruct (index_rho L pr W s ct) as [q' Q]. rewrite (lwe_idx_rho N), Q, Hi.
  replace (2 * N - (- (i + q * (2 * N)) + 2 * N * q')) with (i + (q + 1 - q') * (2 * N)) by ring. rewrite ext_period by lia.
  unfold signed. destruct (Z.ltb_spec x mm).
  - rewrite Z.mod_small in He by lia. eapply entry_ext; try eassumption; lia.
  - assert (E: x mod mm = x - mm) by (symmetry; apply (Z.mod_unique_pos _ _ 1); lia). rewrite E in He.
    replace i with (i - N + N) by ring. rewrite ext_antiper by lia.
    assert (K: ext N (zn (tB tv)) (i - N) == y).
    { eapply entry_ext; [| | |exact He|]; [lia|lia|lia|]. unfold in_window in *.
      replace ((i - N) * mm - (x - mm) * N) with (i * mm - x * N) by ring. exact Hw. }
    apply eqm_opp. exact K.
Qed.

Section Key.
Context (sk : SecretKey) (rk : Z -> enc_rand) (rb : Z -> Z -> trlwe_rand) (ck : CloudKey O)
  (Hsk : key_ok pr sk) (Hck : NewCloudKey O pr sk rk rb = Ok ck).
Notation s0 := (KeyLv0 sk).
Notation bootv tv c := (bootp L pr (DecompositionOffset ck) (BootstrappingKey ck) (KeySwitchingKey ck) tv c).

Lemma lut_phase mm tv ct x y T : 0 < mm -> 0 <= x < 2 * mm -> zlen ct = n + 1 -> plain_table N tv -> tok_list (tA tv) ->
  entry N mm tv (x mod mm) y -> reads pr s0 ct mm x -> boot_noise O pr sk ck tv ct T ->
  lwe_ok n (bootv tv ct) /\ close T (lwe_phase n s0 (bootv tv ct)) (signed mm x y).
Proof.
  intros HM Hx Hc (LA & LB & KB & ZA) KA He Hr (eta & ek & H1 & H2 & H3).
  destruct (cloud_facts L pr W HBG _ _ _ _ Hsk Hck) as (Hb & Hk & _). destruct (key_ok_N pr W sk Hsk) as [K0 K1].
  rewrite (pw_gN _ _ W) in H3. split; [apply bootp_ok; assumption|].
  pose proof (bootp_phase L pr W sk K0 K1 _ _ _ tv ct eta ek Hb Hk Hc ltac:(split; split; assumption) ZA H1 H2) as P.
  rewrite (reads_ext mm tv s0 ct x y HM Hx He Hr) in P. eapply close_weaken; [exact P|exact H3].
Qed.

(** *** copying the result out of the ring *)
Lemma copy_out e (m : M) s : reachable O pr e m -> 0 <= s < tnext m -> zlen (tm m s) = n + 1 ->
  exists m', ('(c, m) <- new_ct m n ;; let m := mcopy m c s in b <- load m s n ;; m <- store m c n b ;; Ok (c, m)) = Ok (tnext m, m') /\
    tm m' (tnext m) = tm m s /\ reachable O pr e m' /\ user m' e (tnext m) /\ user_kept e m m' /\
    (forall x, x <> tnext m -> tm m' x = tm m x).
Proof.
  intros Hr Hs Hl. pose proof (pw_n _ _ W) as Hn. destruct (reach_ok L pr W HBG e m Hr) as [He Hm].
  unfold new_ct, NewTLWE. rewrite make_ok by lia. cbn [bind]. set (z := repeat 0 (Z.to_nat (n + 1))).
  set (m1 := snd (alloc m z)). change (alloc m z) with (tnext m, m1). cbv beta iota zeta. 
  assert (A1: tm m1 (tnext m) = z) by apply alloc_at.
  assert (A2: forall x, x <> tnext m -> tm m1 x = tm m x).
  { intros x Hx. unfold m1. cbn. destruct (Z.eqb_spec x (tnext m)); [contradiction|reflexivity]. }
  set (m2 := mcopy m1 (tnext m) s).
  assert (T2: tm m2 (tnext m) = tm m s).
  { unfold m2. rewrite mcopy_same; [apply A2; lia|]. rewrite A1, A2 by lia. unfold z. rewrite zlen_repeat, Hl. lia. }
  assert (O2: forall x, x <> tnext m -> tm m2 x = tm m x).
  { intros x Hx. unfold m2, mcopy. rewrite tm_tset_ne by congruence. apply A2. exact Hx. }
  rewrite load_ok by (rewrite O2, Hl; lia). cbn [bind]. rewrite store_ok by (rewrite T2, Hl; lia). cbn [bind].
  rewrite T2, O2 by lia. rewrite upd_same by (rewrite Hl; lia).
  set (m3 := tset m2 (tnext m) (tm m s)). exists m3. split; [reflexivity|].
  assert (O3: forall x, x <> tnext m -> tm m3 x = tm m x).
  { intros x Hx. unfold m3. rewrite tm_tset_ne by congruence. apply O2. exact Hx. }
  assert (NT: tnext m3 = tnext m + 1) by reflexivity.
  assert (NO: ~ own e (tnext m)) by (pose proof (eo_t3 _ _ _ _ He); unfold own; lia).
  split; [apply tm_tset|]. split; [|split; [|split; [|exact O3]]].
  - eapply (reach_other L pr W HBG); [exact Hr| | | |rewrite NT; lia|cbn; lia|cbn; lia]; try (intros; reflexivity).
    intros x Hx. apply O3. intros ->. contradiction.
  - eapply new_user; try eassumption. lia.
  - intros x [Hx Hnx]. split; [split; [lia|exact Hnx]|]. apply O3. lia.
Qed.

Notation BK := (BootstrappingKey ck). Notation KK := (KeySwitchingKey ck). Notation OFF := (DecompositionOffset ck).

Lemma LUT_eq (m : M) e ct lut bsk ksk off : BootstrapLUT O pr m e ct lut bsk ksk off =
  ('(s, m) <- Bootstrap O pr m e ct lut bsk ksk off ;;
   '(c, m) <- new_ct m n ;; let m := mcopy m c s in b <- load m s n ;; m <- store m c n b ;; Ok (c, m)).
Proof.
  unfold BootstrapLUT, Bootstrap. destruct (GetNextResult O m (ev_bp e)) as [[s m1]|]; cbn [bind]; [|reflexivity].
  unfold BootstrapLUTAssign, BootstrapAssign.
  match goal with |- bind ?x _ = bind (bind ?x _) _ => destruct x; reflexivity end.
Qed.
Lemma Assign_eq (m : M) e ct lut bsk ksk off out : BootstrapLUTAssign O pr m e ct lut bsk ksk off out = BootstrapAssign O pr m e ct lut bsk ksk off out.
Proof. reflexivity. Qed.

Lemma uses_kept e (m m' : M) (keep : Z -> Prop) j : ev_ok L pr m e -> mem_ok m -> (forall x, user m e x -> keep x) ->
  uses O pr e keep j m m' -> user_kept e m m'.
Proof.
  intros He Hm Hk U x Hx. destruct (uses_ok L pr W HBG _ _ _ _ _ He Hm U) as (_ & _ & _ & N1 & K).
  split; [destruct Hx as [A B]; split; [lia|exact B]|]. apply K; [apply Hk; exact Hx|left; exact Hx].
Qed.

Lemma lut_run e (m : M) ct lut tv : reachable O pr e m -> input O pr m e ct -> table O pr m e lut tv ->
  exists r m', BootstrapLUT O pr m e ct lut BK KK OFF = Ok (r, m') /\ tm m' r = bootv tv (tm m ct) /\
    reachable O pr e m' /\ user m' e r /\ ~ user m e r /\ user_kept e m m'.
Proof.
  intros Hr Hi Ht. destruct (reach_ok L pr W HBG e m Hr) as [He Hm].
  destruct (boot_run L pr W HBG sk rk rb ck Hsk Hck e m ct lut tv Hr Hi Ht) as (m1 & E & V & I & R1 & U1).
  pose proof (eo_bi _ _ _ _ He) as Hix.
  assert (K1: user_kept e m m1).
  { eapply uses_kept; [exact He|exact Hm| |exact U1]. intros x [_ Hx] ->. apply Hx. apply (slot_own L pr W m); assumption. }
  destruct (uses_ok L pr W HBG _ _ _ _ _ He Hm U1) as (He1 & Hm1 & _ & N1 & _).
  destruct (copy_out e m1 (slot e (ix e m))) as (m2 & E2 & V2 & R2 & U2 & K2 & _).
  - exact R1.
  - pose proof (slot_own L pr W m e (ix e m) He Hix) as S. pose proof (eo_t3 _ _ _ _ He1).
    unfold own in S. pose proof (eo_t0 _ _ _ _ He1). lia.
  - rewrite V. apply (bootp_ok L pr W).
  - exists (tnext m1), m2. split; [rewrite LUT_eq, E; exact E2|]. split; [rewrite V2; exact V|]. split; [exact R2|]. split; [exact U2|].
    split; [intros [A _]; lia|]. eapply keeps_trans; eassumption.
Qed.

(** *** building a table *)
Lemma alloc_keep e (m : M) v : reachable O pr e m -> reachable O pr e (snd (alloc m v)) /\ user (snd (alloc m v)) e (tnext m) /\
  tm (snd (alloc m v)) (tnext m) = v /\ (forall x, x <> tnext m -> tm (snd (alloc m v)) x = tm m x) /\ tnext (snd (alloc m v)) = tnext m + 1.
Proof.
  intro Hr. destruct (fresh_ok L pr W HBG e m v Hr) as (m' & E & V & R1 & U1 & K1 & N1). unfold fresh in E. cbn [bind] in E.
  assert (X: snd (alloc m v) = m') by (injection E as E; exact E). rewrite X. split; [exact R1|]. split; [exact U1|]. split; [exact V|].
  split; [|exact N1]. intros x Hx. rewrite <- X. cbn. destruct (Z.eqb_spec x (tnext m)); [contradiction|reflexivity].
Qed.

Lemma new_lut_run e (m : M) f mm : reachable O pr e m -> 0 < mm ->
  exists lut tv m', new_lut O pr m f mm = Ok (lut, m') /\ GenLookUpTable pr (NewGenerator pr mm) f = Ok tv /\
    table O pr m' e lut tv /\ reachable O pr e m' /\ user_kept e m m' /\
    (forall x, input O pr m e x -> input O pr m' e x /\ tm m' x = tm m x).
Proof.
  intros Hr HM. assert (GP: good_params pr) by (split; [rewrite (pw_gN _ _ W); exact W|exact HBG]). pose proof (law_N L) as H16.
  destruct (t_layout pr (NewGenerator pr mm) f GP eq_refl HM) as (tv & E & Ht & _). pose proof Ht as (LA & LB & KB & _).
  rewrite (pw_gN _ _ W) in Ht. pose proof (plain_tokA N tv ltac:(lia) Ht) as KA.
  destruct (reach_ok L pr W HBG e m Hr) as [He Hm].
  destruct (alloc_keep e m (tA tv) Hr) as (R1 & U1 & V1 & K1 & N1). set (m1 := snd (alloc m (tA tv))) in *.
  destruct (alloc_keep e m1 (tB tv) R1) as (R2 & U2 & V2 & K2 & N2). set (m2 := snd (alloc m1 (tB tv))) in *.
  assert (KU: forall x, x < tnext m -> tm m2 x = tm m x) by (intros x Hx; rewrite K2 by lia; apply K1; lia).
  exists {| rA := tnext m; rB := tnext m1 |}, tv, m2. split; [unfold new_lut; rewrite E; reflexivity|]. split; [exact E|].
  split; [|split; [exact R2|]].
  - unfold table. cbn [rA rB]. split; [rewrite K2 by lia; exact V1|]. split; [exact V2|]. split; [|split; [exact U2|auto 10]].
    destruct U1 as [A B]. split; [lia|exact B].
  - split.
    + intros x [Hx Hnx]. split; [split; [lia|exact Hnx]|]. apply KU. lia.
    + intros x [Hl Hx]. assert (x < tnext m).
      { destruct Hx as [[Hx _]|Hx]; [lia|]. pose proof (eo_t3 _ _ _ _ He). lia. }
      rewrite KU by assumption. split; [|reflexivity]. split; [rewrite KU by assumption; exact Hl|].
      destruct Hx as [[Hx Hnx]|Hx]; [left; split; [lia|exact Hnx]|right; exact Hx].
Qed.
End Key.
End Run.

(** ** the statements *)
Section Props.
Context (R : arith) (O : fops) (pr : pset) (sk : SecretKey) (rk : Z -> enc_rand) (rb : Z -> Z -> trlwe_rand) (ck : CloudKey O)
  (S : setup R O pr sk rk rb ck).
Notation n := (lv0_N pr).
Notation s0 := (KeyLv0 sk).
Notation M := (mem (FP O)).
Notation BK := (BootstrappingKey ck). Notation KK := (KeySwitchingKey ck). Notation OFF := (DecompositionOffset ck).

(** any plain table *)
Lemma t_lut e (m : M) ct lut tv mm x y T : reachable O pr e m -> input O pr m e ct -> table O pr m e lut tv -> plain_table (g_N pr) tv ->
  0 < mm -> 0 <= x < 2 * mm -> entry (g_N pr) mm tv (x mod mm) y -> reads pr s0 (tm m ct) mm x -> boot_noise O pr sk ck tv (tm m ct) T ->
  exists r m', BootstrapLUT O pr m e ct lut BK KK OFF = Ok (r, m') /\
    lwe_ok n (tm m' r) /\ close T (lwe_phase n s0 (tm m' r)) (signed mm x y) /\
    user m' e r /\ ~ user m e r /\ user_kept e m m' /\ reachable O pr e m'.
Proof.
  intros Hr Hi Ht Hp HM Hx He Hw HT. open_setup S.
  destruct (lut_run L pr W HBG sk rk rb ck Hsk Hck e m ct lut tv Hr Hi Ht) as (r & m' & E & V & R1 & U1 & U2 & K1).
  exists r, m'. split; [exact E|]. rewrite V.
  destruct (lut_phase L pr W HBG sk rk rb ck Hsk Hck mm tv (tm m ct) x y T) as [A B]; try assumption; [apply Hi|apply Ht|].
  auto 10.
Qed.

Lemma t_lut_temp e (m : M) ct lut tv mm x y T : reachable O pr e m -> input O pr m e ct -> table O pr m e lut tv -> plain_table (g_N pr) tv ->
  0 < mm -> 0 <= x < 2 * mm -> entry (g_N pr) mm tv (x mod mm) y -> reads pr s0 (tm m ct) mm x -> boot_noise O pr sk ck tv (tm m ct) T ->
  exists r m', BootstrapLUTTemp O pr m e ct lut BK KK OFF = Ok (r, m') /\
    lwe_ok n (tm m' r) /\ close T (lwe_phase n s0 (tm m' r)) (signed mm x y) /\
    ring e r /\ user_kept e m m' /\ reachable O pr e m'.
Proof.
  intros Hr Hi Ht Hp HM Hx He Hw HT. open_setup S.
  destruct (reach_ok L pr W HBG e m Hr) as [Hev Hm]. pose proof (eo_bi _ _ _ _ Hev) as Hix.
  destruct (boot_run L pr W HBG sk rk rb ck Hsk Hck e m ct lut tv Hr Hi Ht) as (m' & E & V & _ & R1 & U1).
  eexists _, m'. split; [exact E|]. rewrite V.
  destruct (lut_phase L pr W HBG sk rk rb ck Hsk Hck mm tv (tm m ct) x y T) as [A B]; try assumption; [apply Hi|apply Ht|].
  split; [exact A|]. split; [exact B|]. split; [unfold ring, slot; lia|]. split; [|exact R1].
  eapply (uses_kept L pr W HBG); [exact Hev|exact Hm| |exact U1]. intros z [_ Hz] ->. apply Hz. apply (slot_own L pr W m); assumption.
Qed.

Lemma t_lut_assign e (m : M) ct lut tv mm x y T out : reachable O pr e m -> input O pr m e ct -> table O pr m e lut tv -> plain_table (g_N pr) tv ->
  input O pr m e out ->
  0 < mm -> 0 <= x < 2 * mm -> entry (g_N pr) mm tv (x mod mm) y -> reads pr s0 (tm m ct) mm x -> boot_noise O pr sk ck tv (tm m ct) T ->
  exists m', BootstrapLUTAssign O pr m e ct lut BK KK OFF out = Ok m' /\
    lwe_ok n (tm m' out) /\ close T (lwe_phase n s0 (tm m' out)) (signed mm x y) /\
    (forall z, user m e z -> z <> out -> user m' e z /\ tm m' z = tm m z) /\ reachable O pr e m'.
Proof.
  intros Hr Hi Ht Hp Ho HM Hx He Hw HT. open_setup S.
  destruct (assign_run L pr W HBG sk rk rb ck Hsk Hck e m ct lut tv out Hr Hi Ht Ho) as (m' & E & V & R1 & U1).
  exists m'. split; [exact E|]. rewrite V.
  destruct (lut_phase L pr W HBG sk rk rb ck Hsk Hck mm tv (tm m ct) x y T) as [A B]; try assumption; [apply Hi|apply Ht|].
  auto 10.
Qed.



Lemma t_func e (m : M) ct f mm x T : reachable O pr e m -> input O pr m e ct ->
  0 < mm -> 0 <= x < 2 * mm -> reads pr s0 (tm m ct) mm x -> gen_noise O pr sk ck f mm (tm m ct) T ->
  exists r m' y, BootstrapFunc O pr m e ct f mm BK KK OFF = Ok (r, m') /\ Encode (NewEncoder mm) (f (x mod mm)) = Ok y /\
    lwe_ok n (tm m' r) /\ close T (lwe_phase n s0 (tm m' r)) (signed mm x y) /\
    user m' e r /\ ~ user m e r /\ user_kept e m m' /\ reachable O pr e m'.
Proof.
  intros Hr Hi HM Hx Hw HT. pose proof S as (GP & _). 
  assert (Q: exists lut tv m1, new_lut O pr m f mm = Ok (lut, m1) /\ GenLookUpTable pr (NewGenerator pr mm) f = Ok tv /\
    table O pr m1 e lut tv /\ reachable O pr e m1 /\ user_kept e m m1 /\
    (forall x, input O pr m e x -> input O pr m1 e x /\ tm m1 x = tm m x)).
  { pose proof S as S'. open_setup S'. apply (new_lut_run L pr W HBG); assumption. }
  destruct Q as (lut & tv & m1 & E1 & G & Ht & R1 & K1 & I1). destruct (I1 ct Hi) as [Hi1 Ec].
  destruct (t_layout pr (NewGenerator pr mm) f GP eq_refl HM) as (tv' & G' & Hp & He). rewrite G in G'. injection G' as <-.
  cbn [NewGenerator gEncoder NewEncoder MessageModulus] in He.
  destruct (He (x mod mm) ltac:(apply Z.mod_pos_bound; exact HM)) as (y & Ey & Hen).
  destruct (t_lut e m1 ct lut tv mm x y T R1 Hi1 Ht Hp HM Hx Hen) as (r & m' & E & A & B & U1 & U2 & K2 & R2).
  - rewrite Ec. exact Hw.
  - rewrite Ec. apply HT. exact G.
  - exists r, m', y. split; [unfold BootstrapFunc; rewrite E1; exact E|]. split; [exact Ey|]. split; [exact A|]. split; [exact B|].
    split; [exact U1|]. split; [intro X; apply U2; apply (K1 r X)|]. split; [|exact R2].
    intros z Hz. destruct (K1 z Hz) as [Z1 Z2]. destruct (K2 z Z1) as [Z3 Z4]. split; [exact Z3|congruence].
Qed.

Lemma t_func_assign e (m : M) ct f mm x T out : reachable O pr e m -> input O pr m e ct -> input O pr m e out ->
  0 < mm -> 0 <= x < 2 * mm -> reads pr s0 (tm m ct) mm x -> gen_noise O pr sk ck f mm (tm m ct) T ->
  exists m' y, BootstrapFuncAssign O pr m e ct f mm BK KK OFF out = Ok m' /\ Encode (NewEncoder mm) (f (x mod mm)) = Ok y /\
    lwe_ok n (tm m' out) /\ close T (lwe_phase n s0 (tm m' out)) (signed mm x y) /\
    (forall z, user m e z -> z <> out -> user m' e z /\ tm m' z = tm m z) /\ reachable O pr e m'.
Proof.
  intros Hr Hi Ho HM Hx Hw HT. pose proof S as (GP & _). 
  assert (Q: exists lut tv m1, new_lut O pr m f mm = Ok (lut, m1) /\ GenLookUpTable pr (NewGenerator pr mm) f = Ok tv /\
    table O pr m1 e lut tv /\ reachable O pr e m1 /\ user_kept e m m1 /\
    (forall x, input O pr m e x -> input O pr m1 e x /\ tm m1 x = tm m x)).
  { pose proof S as S'. open_setup S'. apply (new_lut_run L pr W HBG); assumption. }
  destruct Q as (lut & tv & m1 & E1 & G & Ht & R1 & K1 & I1). destruct (I1 ct Hi) as [Hi1 Ec]. destruct (I1 out Ho) as [Ho1 _].
  destruct (t_layout pr (NewGenerator pr mm) f GP eq_refl HM) as (tv' & G' & Hp & He). rewrite G in G'. injection G' as <-.
  cbn [NewGenerator gEncoder NewEncoder MessageModulus] in He.
  destruct (He (x mod mm) ltac:(apply Z.mod_pos_bound; exact HM)) as (y & Ey & Hen).
  destruct (t_lut_assign e m1 ct lut tv mm x y T out R1 Hi1 Ht Hp Ho1 HM Hx Hen) as (m' & E & A & B & U1 & R2).
  - rewrite Ec. exact Hw.
  - rewrite Ec. apply HT. exact G.
  - exists m', y. split; [unfold BootstrapFuncAssign; rewrite E1; exact E|]. split; [exact Ey|]. split; [exact A|]. split; [exact B|].
    split; [|exact R2]. intros z Hz Hne. destruct (K1 z Hz) as [Z1 Z2]. destruct (U1 z Z1 Hne) as [Z3 Z4]. split; [exact Z3|congruence].
Qed.
End Props.

(** ** messages *)
Lemma encode_near mm v : 1 <= mm < 2 ^ 20 -> exists y, Encode (NewEncoder mm) v = Ok y /\ close 1 y ((v mod mm) * 2 ^ 31 / mm).
Proof.
  intro HM. assert (Hv: 0 <= v mod mm < mm) by (apply Z.mod_pos_bound; lia).
  destruct (Encode_torus (v mod mm) mm HM Hv) as (y & E & _ & B). exists y. split.
  - rewrite <- E. unfold Encode. cbn [NewEncoder MessageModulus]. rewrite !normalize_ok by lia. rewrite Z.mod_mod by lia. reflexivity.
  - pose proof (Z.div_mod (v mod mm * 2 ^ 31) mm ltac:(lia)) as D. pose proof (Z.mod_pos_bound (v mod mm * 2 ^ 31) mm ltac:(lia)) as D'.
    set (q := v mod mm * 2 ^ 31 / mm) in *. exists (y - q). split; [nia|]. apply eqm_refl'. ring.
Qed.

Section Msg.
Context (R : arith) (O : fops) (pr : pset) (sk : SecretKey) (rk : Z -> enc_rand) (rb : Z -> Z -> trlwe_rand) (ck : CloudKey O)
  (S : setup R O pr sk rk rb ck).
Notation n := (lv0_N pr).
Notation s0 := (KeyLv0 sk).
Notation M := (mem (FP O)).
Notation BK := (BootstrappingKey ck). Notation KK := (KeySwitchingKey ck). Notation OFF := (DecompositionOffset ck).

Lemma t_message e (m : M) ct f mm x E Rd T : reachable O pr e m -> input O pr m e ct -> 1 <= mm < 2 ^ 20 -> 0 <= x < mm ->
  encodes n s0 (tm m ct) mm x E -> rounding pr s0 (tm m ct) Rd ->
  mm * (E + Rd + 1) <= 2 ^ 30 -> (2 * mm | g_N pr) \/ mm * (E + Rd + 2 ^ (31 - g_NBIT pr)) <= 2 ^ 30 ->
  gen_noise O pr sk ck f mm (tm m ct) T ->
  exists r m', BootstrapFunc O pr m e ct f mm BK KK OFF = Ok (r, m') /\ encodes n s0 (tm m' r) mm (f x mod mm) (T + 1) /\
    (T + 1 <= 2 ^ 31 / mm / 2 - mm -> DecryptLWEMessage n (tm m' r) mm s0 = Ok (f x mod mm)) /\
    user m' e r /\ ~ user m e r /\ user_kept e m m' /\ reachable O pr e m'.
Proof.
  intros Hr Hi HM Hx He Hd HB Hs HT. pose proof S as (GP & _ & Hsk & _).
  destruct (t_func R O pr sk rk rb ck S e m ct f mm x T Hr Hi ltac:(lia) ltac:(lia)) as (r & m' & y & E1 & Ey & A & B & U1 & U2 & K1 & R1).
  - eapply t_reads; try eassumption. lia.
  - exact HT.
  - rewrite Z.mod_small in Ey by lia. destruct (encode_near mm (f x) HM) as (y' & Ey' & C). rewrite Ey in Ey'. injection Ey' as <-.
    assert (Enc: encodes n s0 (tm m' r) mm (f x mod mm) (T + 1)).
    { split; [exact A|]. unfold signed in B. destruct (Z.ltb_spec x mm); [|lia]. eapply close_trans; eassumption. }
    exists r, m'. split; [exact E1|]. split; [exact Enc|]. split; [|auto].
    intro HE. pose proof (pw_n _ _ (proj1 GP)). destruct A as [LA _]. destruct Hsk as [[LK _] _].
    eapply decodes; [lia|lia|lia|exact HM|apply Z.mod_pos_bound; lia|apply Enc|exact HE].
Qed.

Lemma t_message_pow2 e (m : M) ct f k x E Rd T : reachable O pr e m -> input O pr m e ct -> 0 <= k < g_NBIT pr -> 0 <= x < 2 ^ k ->
  encodes n s0 (tm m ct) (2 ^ k) x E -> rounding pr s0 (tm m ct) Rd -> E + Rd < 2 ^ (30 - k) ->
  gen_noise O pr sk ck f (2 ^ k) (tm m ct) T ->
  exists r m', BootstrapFunc O pr m e ct f (2 ^ k) BK KK OFF = Ok (r, m') /\ encodes n s0 (tm m' r) (2 ^ k) (f x mod 2 ^ k) T /\
    (T < 2 ^ (30 - k) -> DecryptLWEMessage n (tm m' r) (2 ^ k) s0 = Ok (f x mod 2 ^ k)) /\
    user m' e r /\ ~ user m e r /\ user_kept e m m' /\ reachable O pr e m'.
Proof.
  intros Hr Hi Hk Hx He Hd HB HT. pose proof S as (GP & _ & Hsk & _). pose proof (pw_nb _ _ (proj1 GP)) as Hnb. pose proof (pw_N _ _ (proj1 GP)) as HN.
  assert (P: 1 <= 2 ^ k) by (apply (Z.pow_le_mono_r 2 0); lia).
  assert (PP: 2 ^ k * 2 ^ (30 - k) = 2 ^ 30) by (rewrite <- Z.pow_add_r by lia; f_equal; lia).
  destruct (t_func R O pr sk rk rb ck S e m ct f (2 ^ k) x T Hr Hi ltac:(lia) ltac:(lia)) as (r & m' & y & E1 & Ey & A & B & U1 & U2 & K1 & R1).
  - eapply t_reads; try eassumption; [lia|rewrite <- PP; apply Z.mul_le_mono_nonneg_l; lia|]. left. exists (2 ^ (g_NBIT pr - 1 - k)). rewrite HN at 1.
    change 2 with (2 ^ 1) at 3. rewrite <- !Z.pow_add_r by lia. f_equal. lia.
  - exact HT.
  - rewrite Z.mod_small in Ey by lia. rewrite Encode_pow2 in Ey by lia. injection Ey as <-.
    assert (Enc: encodes n s0 (tm m' r) (2 ^ k) (f x mod 2 ^ k) T).
    { split; [exact A|]. unfold signed in B. destruct (Z.ltb_spec x (2 ^ k)); [|lia]. rewrite pow2_div by lia. exact B. }
    exists r, m'. split; [exact E1|]. split; [exact Enc|]. split; [|auto].
    intro HE. pose proof (pw_n _ _ (proj1 GP)). destruct A as [LA _]. destruct Hsk as [[LK _] _].
    eapply decodes_pow2; [lia|lia|lia|lia|apply Z.mod_pos_bound; lia|apply Enc|exact HE].
Qed.
End Msg.

(** ** worst case *)
Lemma t_worst mc O pr sk rk rb ck Bb Bk d d' f mm ct : mc_ok mc -> setup (f64_arith mc) O pr sk rk rb ck ->
  fft_error_within pr d d' -> key_noise_within pr rk rb Bb Bk -> 0 <= Bb -> 0 <= Bk -> 0 <= d' -> 0 < mm -> zlen ct = lv0_N pr + 1 ->
  gen_noise O pr sk ck f mm ct (worst_noise pr sk Bb Bk d d').
Proof.
  intros Hc S H1 H2 H3 H4 H5 HM Hl tv E. pose proof S as (GP & _).
  destruct (t_layout pr (NewGenerator pr mm) f GP eq_refl HM) as (tv' & G' & Hp & _). rewrite E in G'. injection G' as <-.
  pose proof Hp as (LA & LB & KB & _). pose proof (good_N pr GP) as HN. assert (KA: tok_list (tA tv)) by (eapply plain_tokA; [|exact Hp]; lia).
  eapply p_worst; eassumption.
Qed.

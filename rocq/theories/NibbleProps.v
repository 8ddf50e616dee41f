(** * The nibble adder *)
From Coq Require Import Lia ZifyBool Setoid Morphisms List.
From Verif Require Import GoBase GoFacts GoMem F64 Utils Spec Params Key Tlwe TlweMem Poly Fft FftTabErr Trlwe Trgsw Lut Evaluator CloudKey Gates RunSpec LutSpec NibbleAdd
  MemFacts TlweFacts PolyFacts NegFacts Laws TrlweFacts MsgFacts TrgswFacts RotFacts EvalFacts HeapFacts CloudKeyFacts BootFacts GateFacts RunProps HistProps RunWorst BasicFacts LutFacts LutProps ReencFacts.
Import ListNotations.
Local Open Scope Z_scope.
Ltac Zify.zify_post_hook ::= idtac.

(** ** arithmetic *)
Lemma nib_split a : 0 <= a < 256 -> a = low_nibble a + 16 * high_nibble a /\ 0 <= low_nibble a < 16 /\ 0 <= high_nibble a < 16.
Proof.
  intro H. unfold low_nibble, high_nibble. change 15 with (Z.ones 4). rewrite !Z.land_ones by lia. rewrite Z.shiftr_div_pow2 by lia.
  change (2 ^ 4) with 16. pose proof (Z.mod_pos_bound a 16 ltac:(lia)). pose proof (Z.div_mod a 16 ltac:(lia)).
  assert (0 <= a / 16 < 16) by lia. rewrite (Z.mod_small (a / 16) 16) by lia. lia.
Qed.
Lemma nib_combine x y : 0 <= x < 16 -> 0 <= y < 16 -> combine x y = x + 16 * y.
Proof.
  intros Hx Hy. unfold combine. rewrite Z.shiftl_mul_pow2 by lia. change (2 ^ 4) with 16.
  assert (L: Z.land x (y * 16) = 0).
  { apply Z.bits_inj'. intros k Hk. rewrite Z.land_spec, Z.bits_0. change 16 with (2 ^ 4). destruct (Z.lt_ge_cases k 4).
    - rewrite Z.mul_pow2_bits_low by lia. apply andb_false_r.
    - rewrite (Z.bits_above_log2 x k); [reflexivity|lia|]. destruct (Z.eq_dec x 0) as [->|]; [cbn; lia|].
      apply Z.log2_lt_pow2; [lia|]. apply Z.lt_le_trans with (2 ^ 4); [change (2 ^ 4) with 16; lia|apply Z.pow_le_mono_r; lia]. }
  rewrite <- Z.lxor_lor by exact L. rewrite <- Z.add_nocarry_lxor by exact L. rewrite Z.mod_small by lia. ring.
Qed.
Lemma nib_sum a b : 0 <= a < 256 -> 0 <= b < 256 ->
  combine (low4 (low_nibble a + low_nibble b) mod 32) (low4 (high_nibble a + high_nibble b + carry4 (low_nibble a + low_nibble b) mod 32) mod 32) = (a + b) mod 256.
Proof.
  intros Ha Hb. destruct (nib_split a Ha) as (Ea & La & Ga). destruct (nib_split b Hb) as (Eb & Lb & Gb).
  set (x := low_nibble a) in *. set (y := high_nibble a) in *. set (u := low_nibble b) in *. set (v := high_nibble b) in *. clearbody x y u v.
  unfold low4, carry4. rewrite !Z.rem_mod_nonneg; try lia.
  pose proof (Z.mod_pos_bound (x + u) 16 ltac:(lia)) as B1. rewrite (Z.mod_small ((x + u) mod 16) 32) by lia.
  set (c := (if 16 <=? x + u then 1 else 0) mod 32). assert (Hc: c = if 16 <=? x + u then 1 else 0) by (unfold c; destruct (16 <=? x + u); reflexivity).
  pose proof (Z.mod_pos_bound (y + v + c) 16 ltac:(lia)) as B2. rewrite (Z.mod_small ((y + v + c) mod 16) 32) by lia.
  rewrite nib_combine by assumption. rewrite Ea, Eb, Hc. destruct (Z.leb_spec 16 (x + u)) as [H|H].
  - assert (X: (x + u) mod 16 = x + u - 16) by (symmetry; apply (Z.mod_unique_pos _ _ 1); lia). rewrite X.
    destruct (Z.lt_ge_cases (y + v + 1) 16).
    + rewrite (Z.mod_small (y + v + 1)) by lia. apply (Z.mod_unique_pos _ _ 0); lia.
    + assert (Y: (y + v + 1) mod 16 = y + v + 1 - 16) by (symmetry; apply (Z.mod_unique_pos _ _ 1); lia). rewrite Y. apply (Z.mod_unique_pos _ _ 1); lia.
  - rewrite (Z.mod_small (x + u)) by lia. destruct (Z.lt_ge_cases (y + v + 0) 16).
    + rewrite (Z.mod_small (y + v + 0)) by lia. apply (Z.mod_unique_pos _ _ 0); lia.
    + assert (Y: (y + v + 0) mod 16 = y + v + 0 - 16) by (symmetry; apply (Z.mod_unique_pos _ _ 1); lia). rewrite Y. apply (Z.mod_unique_pos _ _ 1); lia.
Qed.

Lemma close_add A B a a' b b' : close A a a' -> close B b b' -> close (A + B) (a + b) (a' + b').
Proof. intros (e & He & E) (f & Hf & F). exists (e + f). split; [lia|]. rewrite E, F. apply eqm_refl'. ring. Qed.
Lemma x32 x : x * 2 ^ 31 / 32 = x * 2 ^ 26.
Proof. change 32 with (2 ^ 5). rewrite pow2_div by lia. reflexivity. Qed.

(** ** sums in memory *)
Section Run.
Context {O : fops} {N : Z} (L : flaws O N) (pr : pset) (W : pwf pr N) (HBG : g_BG pr = 2 ^ g_BGBIT pr).
Notation n := (lv0_N pr).
Notation M := (mem (FP O)).

Lemma fill_new e (m : M) (f : Z -> M -> res Z) (g : Z -> Z) : reachable O pr e m ->
  (forall i m', 0 <= i < n + 1 -> (forall x, x <> tnext m -> tm m' x = tm m x) -> f i m' = Ok (g i)) ->
  exists m', ('(c, m) <- new_ct m n ;; m <- for_range 0 (n + 1) (fun j m => v <- f j m ;; store m c j v) m ;; Ok (c, m)) = Ok (tnext m, m') /\
    tm m' (tnext m) = tab (n + 1) g /\ reachable O pr e m' /\ user m' e (tnext m) /\ user_kept e m m' /\ ~ user m e (tnext m).
Proof.
  intros Hr Hf. pose proof (pw_n _ _ W) as Hn. destruct (reach_ok L pr W HBG e m Hr) as [He Hm].
  unfold new_ct, NewTLWE. rewrite make_ok by lia. cbn [bind]. set (z := repeat 0 (Z.to_nat (n + 1))).
  set (m1 := snd (alloc m z)). change (alloc m z) with (tnext m, m1). cbv beta iota.
  destruct (alloc_keep L pr W HBG e m z Hr) as (R1 & U1 & V1 & K1 & N1). fold m1 in R1, U1, V1, K1, N1.
  destruct (mem_fill_all m1 (tnext m) (n + 1) f g) as (m2 & E2 & V2 & F2).
  - rewrite V1. unfold z. rewrite zlen_repeat. lia.
  - intros i m' Hi Hfr _ _. apply Hf; [exact Hi|]. intros x Hx. rewrite (fr_t _ _ _ _ _ Hfr) by congruence. apply K1. exact Hx.
  - rewrite E2. cbn [bind]. exists m2. split; [reflexivity|]. split; [exact V2|]. destruct (fr_n _ _ _ _ _ F2) as (T1 & T2 & T3).
    destruct U1 as [[U1 U1'] U2].
    assert (KU: forall x, x <> tnext m -> tm m2 x = tm m x) by (intros x Hx; rewrite (fr_t _ _ _ _ _ F2) by congruence; apply K1; exact Hx).
    split; [|split; [split; [lia|exact U2]|split]].
    + eapply (reach_other L pr W HBG); [exact R1| | | |lia|lia|lia].
      * intros x Hx. apply (fr_t _ _ _ _ _ F2). intros <-. contradiction.
      * intros x _. apply (fr_f _ _ _ _ _ F2). intros [].
      * intros x _. apply (fr_i _ _ _ _ _ F2). intros [].
    + intros x [Hx Hnx]. split; [split; [lia|exact Hnx]|]. apply KU. lia.
    + intros [X _]. lia.
Qed.

Lemma add2_run e (m : M) a b : reachable O pr e m -> user m e a -> user m e b -> zlen (tm m a) = n + 1 -> zlen (tm m b) = n + 1 ->
  exists c m', add2 O pr m a b = Ok (c, m') /\ tm m' c = tab (n + 1) (fun j => tadd (zn (tm m a) j) (zn (tm m b) j)) /\
    reachable O pr e m' /\ user m' e c /\ user_kept e m m' /\ ~ user m e c.
Proof.
  intros Hr [Ha _] [Hb _] La Lb. destruct (fill_new e m (fun j m => x <- load m a j ;; y <- load m b j ;; Ok (tadd x y))
    (fun j => tadd (zn (tm m a) j) (zn (tm m b) j)) Hr) as (m' & H).
  - intros i m' Hi K. rewrite !load_ok by (rewrite K by lia; lia). cbn [bind]. rewrite !K by lia. reflexivity.
  - exists (tnext m), m'. exact H.
Qed.
Lemma add3_run e (m : M) a b d : reachable O pr e m -> user m e a -> user m e b -> user m e d ->
  zlen (tm m a) = n + 1 -> zlen (tm m b) = n + 1 -> zlen (tm m d) = n + 1 ->
  exists c m', add3 O pr m a b d = Ok (c, m') /\
    tm m' c = tab (n + 1) (fun j => tadd (tadd (zn (tm m a) j) (zn (tm m b) j)) (zn (tm m d) j)) /\
    reachable O pr e m' /\ user m' e c /\ user_kept e m m' /\ ~ user m e c.
Proof.
  intros Hr [Ha _] [Hb _] [Hd _] La Lb Ld. destruct (fill_new e m (fun j m => x <- load m a j ;; y <- load m b j ;; z <- load m d j ;; Ok (tadd (tadd x y) z))
    (fun j => tadd (tadd (zn (tm m a) j) (zn (tm m b) j)) (zn (tm m d) j)) Hr) as (m' & H).
  - intros i m' Hi K. rewrite !load_ok by (rewrite K by lia; lia). cbn [bind]. rewrite !K by lia. reflexivity.
  - exists (tnext m), m'. exact H.
Qed.
End Run.

Lemma phase2 n s a b : 0 <= n -> zlen a = n + 1 -> zlen b = n + 1 ->
  lwe_phase n s (tab (n + 1) (fun j => tadd (zn a j) (zn b j))) == lwe_phase n s a + lwe_phase n s b.
Proof.
  intros Hn La Lb. rewrite <- (Z.mul_1_l (lwe_phase n s b)). rewrite <- phase_pm by assumption.
  apply eqm_refl'. f_equal. apply tab_ext. intros i Hi. unfold tadd. f_equal. ring.
Qed.
Lemma lok2 n (a b : list Z) : 0 <= n -> lwe_ok n (tab (n + 1) (fun j => tadd (zn a j) (zn b j))).
Proof. intro Hn. split; [apply zlen_tab; lia|]. apply tok_tab. intros. apply tok_w32. Qed.
Lemma tab3 n (a b d : list Z) : 0 <= n -> tab (n + 1) (fun j => tadd (tadd (zn a j) (zn b j)) (zn d j)) =
  tab (n + 1) (fun j => tadd (zn (tab (n + 1) (fun j => tadd (zn a j) (zn b j))) j) (zn d j)).
Proof. intro Hn. apply tab_ext. intros i Hi. rewrite zn_tab by lia. reflexivity. Qed.

Lemma sum2_encodes n s a b x y A B : 0 <= n -> encodes n s a 32 x A -> encodes n s b 32 y B ->
  encodes n s (tab (n + 1) (fun j => tadd (zn a j) (zn b j))) 32 (x + y) (A + B).
Proof.
  intros Hn [[La _] Ha] [[Lb _] Hb]. split; [apply lok2; exact Hn|]. rewrite x32 in *. rewrite phase2 by assumption.
  rewrite Z.mul_add_distr_r. apply close_add; assumption.
Qed.

(** ** the program *)
Section Props.
Context (R : arith) (O : fops) (pr : pset) (sk : SecretKey) (rk : Z -> enc_rand) (rb : Z -> Z -> trlwe_rand) (ck : CloudKey O)
  (S : setup R O pr sk rk rb ck).
Notation n := (lv0_N pr).
Notation s0 := (KeyLv0 sk).
Notation M := (mem (FP O)).
Notation BK := (BootstrappingKey ck). Notation KK := (KeySwitchingKey ck). Notation OFF := (DecompositionOffset ck).
Context (HN : 6 <= g_NBIT pr).

Lemma n_nonneg : 0 <= n.
Proof. destruct S as ([W _] & _). apply (pw_n _ _ W). Qed.

Lemma lut_step e (m : M) ct lut tv f x E Rd T : reachable O pr e m -> user m e ct -> table O pr m e lut tv ->
  GenLookUpTable pr (NewGenerator pr 32) f = Ok tv -> 0 <= x < 32 ->
  encodes n s0 (tm m ct) 32 x E -> rounding pr s0 (tm m ct) Rd -> E + Rd < 2 ^ 25 -> gen_noise O pr sk ck f 32 (tm m ct) T ->
  exists r m', BootstrapLUT O pr m e ct lut BK KK OFF = Ok (r, m') /\ encodes n s0 (tm m' r) 32 (f x mod 32) T /\
    user m' e r /\ user_kept e m m' /\ reachable O pr e m'.
Proof.
  intros Hr Hu Ht G Hx He Hd HB HT. pose proof S as (GP & _). pose proof He as [[Hl _] _].
  pose proof (pw_nb _ _ (proj1 GP)) as Hnb. pose proof (pw_N _ _ (proj1 GP)) as HNN.
  destruct (t_layout pr (NewGenerator pr 32) f GP eq_refl eq_refl) as (tv' & G' & Hp & Hent). rewrite G in G'. injection G' as <-.
  cbn [NewGenerator gEncoder NewEncoder MessageModulus] in Hent. destruct (Hent x Hx) as (y & Ey & Hy).
  destruct (t_lut R O pr sk rk rb ck S e m ct lut tv 32 x y T Hr) as (r & m' & E1 & A & B & U1 & _ & K1 & R1);
    [split; [exact Hl|left; exact Hu]|exact Ht|exact Hp|lia|lia|rewrite Z.mod_small by lia; exact Hy| |apply HT; exact G|].
  - eapply t_reads; [exact GP|lia|exact He|exact Hd|lia|]. left. exists (2 ^ (g_NBIT pr - 6)). rewrite HNN. change (2 * 32) with (2 ^ 6).
    rewrite <- Z.pow_add_r by lia. f_equal. lia.
  - change 32 with (2 ^ 5) in Ey. rewrite Encode_pow2 in Ey by lia. injection Ey as <-. change (2 ^ 5) with 32 in *.
    exists r, m'. split; [exact E1|]. split; [|auto]. split; [exact A|]. unfold signed in B. destruct (Z.ltb_spec x 32); [|lia].
    rewrite x32. exact B.
Qed.

Lemma table_kept e (m m' : M) lut tv : user_kept e m m' -> table O pr m e lut tv -> table O pr m' e lut tv.
Proof.
  intros K (A & B & UA & UB & H). destruct (K _ UA) as [UA' EA]. destruct (K _ UB) as [UB' EB]. unfold table. rewrite EA, EB. auto.
Qed.
Lemma kept_trans e (m1 m2 m3 : M) : user_kept e m1 m2 -> user_kept e m2 m3 -> user_kept e m1 m3.
Proof. intros A B x Hx. destruct (A x Hx) as [U1 E1]. destruct (B x U1) as [U2 E2]. split; [exact U2|congruence]. Qed.

Lemma new_lut_step e (m : M) f : reachable O pr e m ->
  exists lut tv m', new_lut O pr m f 32 = Ok (lut, m') /\ GenLookUpTable pr (NewGenerator pr 32) f = Ok tv /\
    table O pr m' e lut tv /\ reachable O pr e m' /\ user_kept e m m'.
Proof.
  intro Hr. open_setup S. destruct (new_lut_run L pr W HBG e m f 32 Hr eq_refl) as (lut & tv & m' & E & G & T & R1 & K & _).
  exists lut, tv, m'. auto.
Qed.

Lemma nib_core e (m : M) aL aH bL bH a b E Rd T : reachable O pr e m -> 0 <= a < 256 -> 0 <= b < 256 ->
  user m e aL -> user m e aH -> user m e bL -> user m e bH ->
  encodes n s0 (tm m aL) 32 (low_nibble a) E -> encodes n s0 (tm m aH) 32 (high_nibble a) E ->
  encodes n s0 (tm m bL) 32 (low_nibble b) E -> encodes n s0 (tm m bH) 32 (high_nibble b) E ->
  0 <= T -> 2 * E + T + Rd < 2 ^ 25 -> T < 2 ^ 25 ->
  (forall l c m1, nib_low O pr m aL bL = Ok (l, c, m1) -> lwe_ok n (tm m1 c) ->
     rounding pr s0 (tm m1 c) Rd /\ gen_noise O pr sk ck low4 32 (tm m1 c) T /\ gen_noise O pr sk ck carry4 32 (tm m1 c) T) ->
  (forall l s c m1, nib_high O pr ck e m aL aH bL bH = Ok (l, s, c, m1) -> lwe_ok n (tm m1 c) ->
     rounding pr s0 (tm m1 c) Rd /\ gen_noise O pr sk ck low4 32 (tm m1 c) T) ->
  exists lo hi m' x y, nib_add O pr ck e m aL aH bL bH = Ok (lo, hi, m') /\
    DecryptLWEMessage n (tm m' lo) 32 s0 = Ok x /\ DecryptLWEMessage n (tm m' hi) 32 s0 = Ok y /\
    combine x y = (a + b) mod 256 /\ user_kept e m m' /\ reachable O pr e m'.
Proof.
  intros Hr Ha Hb UaL UaH UbL UbH EaL EaH EbL EbH HT0 HB HT H1 H2. pose proof n_nonneg as Hn.
  destruct (nib_split a Ha) as (_ & La & Ga). destruct (nib_split b Hb) as (_ & Lb & Gb).
  unfold nib_add, nib_high in *. unfold nib_low in *.
  destruct (new_lut_step e m low4 Hr) as (l1 & tv1 & m1 & X1 & G1 & T1 & R1 & K1). rewrite X1 in *. cbn [bind] in *.
  destruct (new_lut_step e m1 carry4 R1) as (l2 & tv2 & m2 & X2 & G2 & T2 & R2 & K2). rewrite X2 in *. cbn [bind] in *.
  destruct (new_lut_step e m2 low4 R2) as (l3 & tv3 & m3 & X3 & G3 & T3 & R3 & K3). rewrite X3 in *. cbn [bind] in *.
  assert (K03: user_kept e m m3) by (eapply kept_trans; [exact K1|]; eapply kept_trans; eassumption).
  destruct (K03 _ UaL) as [UaL3 CaL]. destruct (K03 _ UbL) as [UbL3 CbL].
  assert (Q: exists c m4, add2 O pr m3 aL bL = Ok (c, m4) /\ tm m4 c = tab (n + 1) (fun j => tadd (zn (tm m3 aL) j) (zn (tm m3 bL) j)) /\
    reachable O pr e m4 /\ user m4 e c /\ user_kept e m3 m4 /\ ~ user m3 e c).
  { pose proof S as S'. open_setup S'. apply (add2_run L pr W HBG); try assumption; [rewrite CaL; apply EaL|rewrite CbL; apply EbL]. }
  destruct Q as (c & m4 & X4 & V4 & R4 & U4 & K4 & _). rewrite X4 in *. cbn [bind lutSumLow lutCarryLow lutSumHigh] in *. rewrite CaL, CbL in V4.
  assert (Ec: encodes n s0 (tm m4 c) 32 (low_nibble a + low_nibble b) (2 * E)).
  { rewrite V4. replace (2 * E) with (E + E) by ring. apply sum2_encodes; assumption. }
  destruct (H1 _ _ _ eq_refl (proj1 Ec)) as (Rd1 & N1 & N2). clear H1.
  destruct (lut_step e m4 c l1 tv1 low4 (low_nibble a + low_nibble b) (2 * E) Rd T R4 U4) as (lo & m5 & X5 & Elo & U5 & K5 & R5);
    [eapply table_kept; [|exact T1]; eapply kept_trans; [exact K2|]; eapply kept_trans; [exact K3|exact K4]|exact G1|lia|exact Ec|exact Rd1|lia|exact N1|].
  rewrite X5 in *. cbn [bind] in *. destruct (K5 _ U4) as [U5c C5].
  destruct (lut_step e m5 c l2 tv2 carry4 (low_nibble a + low_nibble b) (2 * E) Rd T R5 U5c) as (cy & m6 & X6 & Ecy & U6 & K6 & R6);
    [eapply table_kept; [|exact T2]; eapply kept_trans; [exact K3|]; eapply kept_trans; [exact K4|exact K5]|exact G2|lia|rewrite C5; exact Ec|rewrite C5; exact Rd1|lia|rewrite C5; exact N2|].
  rewrite X6 in *. cbn [bind] in *.
  assert (K06: user_kept e m m6).
  { eapply kept_trans; [exact K03|]. eapply kept_trans; [exact K4|]. eapply kept_trans; [exact K5|exact K6]. }
  destruct (K06 _ UaH) as [UaH6 CaH]. destruct (K06 _ UbH) as [UbH6 CbH].
  assert (Q: exists c m7, add3 O pr m6 aH bH cy = Ok (c, m7) /\
    tm m7 c = tab (n + 1) (fun j => tadd (tadd (zn (tm m6 aH) j) (zn (tm m6 bH) j)) (zn (tm m6 cy) j)) /\
    reachable O pr e m7 /\ user m7 e c /\ user_kept e m6 m7 /\ ~ user m6 e c).
  { pose proof S as S'. open_setup S'. apply (add3_run L pr W HBG); try assumption; [rewrite CaH; apply EaH|rewrite CbH; apply EbH|apply Ecy]. }
  destruct Q as (d & m7 & X7 & V7 & R7 & U7 & K7 & _). rewrite X7 in *. cbn [bind lutSumLow lutCarryLow lutSumHigh] in *. rewrite CaH, CbH in V7.
  set (cb := carry4 (low_nibble a + low_nibble b) mod 32) in *.
  assert (Hcb: 0 <= cb <= 1) by (unfold cb, carry4; destruct (16 <=? _); cbn; lia).
  assert (Ed: encodes n s0 (tm m7 d) 32 (high_nibble a + high_nibble b + cb) (2 * E + T)).
  { rewrite V7, tab3 by exact Hn. replace (2 * E + T) with (E + E + T) by ring. apply sum2_encodes; [exact Hn| |exact Ecy]. apply sum2_encodes; assumption. }
  destruct (H2 _ _ _ _ eq_refl (proj1 Ed)) as (Rd2 & N3). clear H2.
  destruct (lut_step e m7 d l3 tv3 low4 (high_nibble a + high_nibble b + cb) (2 * E + T) Rd T R7 U7) as (hi & m8 & X8 & Ehi & U8 & K8 & R8);
    [eapply table_kept; [|exact T3]; eapply kept_trans; [exact K4|]; eapply kept_trans; [exact K5|]; eapply kept_trans; [exact K6|exact K7]|exact G3|lia|exact Ed|exact Rd2|lia|exact N3|].
  rewrite X8. cbn [bind].
  assert (K58: user_kept e m5 m8) by (eapply kept_trans; [exact K6|]; eapply kept_trans; [exact K7|exact K8]).
  destruct (K58 _ U5) as [_ Clo].
  pose proof S as (_ & _ & [[LK _] _] & _).
  assert (Dec: forall P x, encodes n s0 P 32 x T -> 0 <= x < 32 -> DecryptLWEMessage n P 32 s0 = Ok x).
  { intros P x [[LP _] HP] Hx. change 32 with (2 ^ 5) in *. eapply decodes_pow2; [lia|lia|lia|lia|exact Hx|exact HP|]. exact HT. }
  exists lo, hi, m8, (low4 (low_nibble a + low_nibble b) mod 32), (low4 (high_nibble a + high_nibble b + cb) mod 32).
  split; [reflexivity|]. split; [apply Dec; [rewrite Clo; exact Elo|apply Z.mod_pos_bound; lia]|].
  split; [apply Dec; [exact Ehi|apply Z.mod_pos_bound; lia]|].
  split; [apply nib_sum; assumption|]. split; [|exact R8].
  eapply kept_trans; [exact K06|]. eapply kept_trans; [exact K7|exact K8].
Qed.
Lemma nib_ok e (m : M) aL aH bL bH a b E Rd T : reachable O pr e m -> 0 <= a < 256 -> 0 <= b < 256 ->
  user m e aL -> user m e aH -> user m e bL -> user m e bH ->
  encodes n s0 (tm m aL) 32 (low_nibble a) E -> encodes n s0 (tm m aH) 32 (high_nibble a) E ->
  encodes n s0 (tm m bL) 32 (low_nibble b) E -> encodes n s0 (tm m bH) 32 (high_nibble b) E ->
  0 <= T -> 2 * E + T + Rd < 2 ^ 25 -> T < 2 ^ 25 ->
  (forall l c m1, nib_low O pr m aL bL = Ok (l, c, m1) ->
     rounding pr s0 (tm m1 c) Rd /\ gen_noise O pr sk ck low4 32 (tm m1 c) T /\ gen_noise O pr sk ck carry4 32 (tm m1 c) T) ->
  (forall l s c m1, nib_high O pr ck e m aL aH bL bH = Ok (l, s, c, m1) ->
     rounding pr s0 (tm m1 c) Rd /\ gen_noise O pr sk ck low4 32 (tm m1 c) T) ->
  exists lo hi m' x y, nib_add O pr ck e m aL aH bL bH = Ok (lo, hi, m') /\
    DecryptLWEMessage n (tm m' lo) 32 s0 = Ok x /\ DecryptLWEMessage n (tm m' hi) 32 s0 = Ok y /\
    combine x y = (a + b) mod 256 /\ user_kept e m m' /\ reachable O pr e m'.
Proof.
  intros Hr Ha Hb UaL UaH UbL UbH EaL EaH EbL EbH HT0 HB HT H1 H2.
  apply (nib_core e m aL aH bL bH a b E Rd T); try assumption; [intros l c m1 H _; exact (H1 _ _ _ H)|intros l s c m1 H _; exact (H2 _ _ _ _ H)].
Qed.
End Props.

(** in binary64, at worst *)
Lemma nib_worst mc O pr sk rk rb ck Bb Bk d d' : mc_ok mc -> setup (f64_arith mc) O pr sk rk rb ck ->
  fft_error_within pr d d' -> key_noise_within pr rk rb Bb Bk -> 0 <= Bb -> 0 <= Bk -> 0 <= d' -> 6 <= g_NBIT pr ->
  forall e (m : mem (FP O)) aL aH bL bH a b E, reachable O pr e m -> 0 <= a < 256 -> 0 <= b < 256 ->
  user m e aL -> user m e aH -> user m e bL -> user m e bH ->
  encodes (lv0_N pr) (KeyLv0 sk) (tm m aL) 32 (low_nibble a) E -> encodes (lv0_N pr) (KeyLv0 sk) (tm m aH) 32 (high_nibble a) E ->
  encodes (lv0_N pr) (KeyLv0 sk) (tm m bL) 32 (low_nibble b) E -> encodes (lv0_N pr) (KeyLv0 sk) (tm m bH) 32 (high_nibble b) E ->
  0 <= worst_noise pr sk Bb Bk d d' -> 2 * E + worst_noise pr sk Bb Bk d d' + round_err pr sk < 2 ^ 25 ->
  exists lo hi m' x y, nib_add O pr ck e m aL aH bL bH = Ok (lo, hi, m') /\
    DecryptLWEMessage (lv0_N pr) (tm m' lo) 32 (KeyLv0 sk) = Ok x /\ DecryptLWEMessage (lv0_N pr) (tm m' hi) 32 (KeyLv0 sk) = Ok y /\
    combine x y = (a + b) mod 256 /\ user_kept e m m' /\ reachable O pr e m'.
Proof.
  intros Hc S H1 H2 H3 H4 H5 HN e m aL aH bL bH a b E Hr Ha Hb UaL UaH UbL UbH EaL EaH EbL EbH HT0 HB.
  assert (HT: worst_noise pr sk Bb Bk d d' < 2 ^ 25).
  { assert (0 <= E) by (destruct EaL as [_ (z & Hz & _)]; lia). assert (0 <= round_err pr sk).
    { destruct (t_rounding _ _ _ _ _ _ _ (tm m aL) S) as (z & Hz & _). lia. } lia. }
  assert (Hn: 0 <= lv0_N pr) by (apply (n_nonneg _ _ _ _ _ _ _ S)).
  apply (nib_core _ _ _ _ _ _ _ S HN e m aL aH bL bH a b E (round_err pr sk) (worst_noise pr sk Bb Bk d d')); try assumption.
  - intros l c m1 _ [Hl _]. split; [eapply t_rounding; exact S|]. split; eapply t_worst; try eassumption; lia.
  - intros l s c m1 _ [Hl _]. split; [eapply t_rounding; exact S|]. eapply t_worst; try eassumption; lia.
Qed.

(** programmable bootstrapping in binary64, at worst *)
Lemma t_message_worst mc O pr sk rk rb ck Bb Bk d d' : mc_ok mc -> setup (f64_arith mc) O pr sk rk rb ck ->
  fft_error_within pr d d' -> key_noise_within pr rk rb Bb Bk -> 0 <= Bb -> 0 <= Bk -> 0 <= d' ->
  forall e (m : mem (FP O)) ct f k x E, reachable O pr e m -> input O pr m e ct -> 0 <= k < g_NBIT pr -> 0 <= x < 2 ^ k ->
  encodes (lv0_N pr) (KeyLv0 sk) (tm m ct) (2 ^ k) x E -> E + round_err pr sk < 2 ^ (30 - k) ->
  worst_noise pr sk Bb Bk d d' < 2 ^ (30 - k) ->
  exists r m', BootstrapFunc O pr m e ct f (2 ^ k) (BootstrappingKey ck) (KeySwitchingKey ck) (DecompositionOffset ck) = Ok (r, m') /\
    encodes (lv0_N pr) (KeyLv0 sk) (tm m' r) (2 ^ k) (f x mod 2 ^ k) (worst_noise pr sk Bb Bk d d') /\
    DecryptLWEMessage (lv0_N pr) (tm m' r) (2 ^ k) (KeyLv0 sk) = Ok (f x mod 2 ^ k) /\
    user m' e r /\ ~ user m e r /\ user_kept e m m' /\ reachable O pr e m'.
Proof.
  intros Hc S H1 H2 H3 H4 H5 e m ct f k x E Hr Hi Hk Hx He HB HW.
  destruct (t_message_pow2 _ _ _ _ _ _ _ S e m ct f k x E (round_err pr sk) (worst_noise pr sk Bb Bk d d') Hr Hi Hk Hx He) as (r & m' & A & B & C & D).
  - eapply t_rounding; exact S.
  - exact HB.
  - eapply t_worst; try eassumption; [apply Z.pow_pos_nonneg; lia|apply He].
  - exists r, m'. split; [exact A|]. split; [exact B|]. split; [exact (C HW)|exact D].
Qed.

(** every setup has reachable states holding encryptions of any messages *)
Lemma t_start R O pr sk rk rb ck : setup R O pr sk rk rb ck -> forall mm (xs : list Z) (r : Z -> enc_rand) E, 1 <= mm < 2 ^ 20 ->
  Forall (fun x => 0 <= x < mm) xs -> (forall i, Z.abs (centered (F64ToTorus (er_noise (r i)))) <= E) ->
  exists e (m : mem (FP O)) w, reachable O pr e m /\
    Forall2 (fun a x => user m e a /\ encodes (lv0_N pr) (KeyLv0 sk) (tm m a) mm x (E + 1)) w xs /\ NoDup w.
Proof.
  intros S mm xs r E HM Hx HE. assert (Hs: 0 <= lv0_N pr /\ zlen (KeyLv0 sk) = lv0_N pr).
  { pose proof S as S'. open_setup S'. split; [apply (pw_n _ _ W)|apply Hsk]. }
  destruct Hs as [Hn Hs].
  assert (G: exists bufs, Forall2 (fun v x => encodes (lv0_N pr) (KeyLv0 sk) v mm x (E + 1)) bufs xs).
  { induction Hx as [|x xs Hx _ [bufs IH]]; [exists []; constructor|].
    destruct (EncryptLWEMessage_total (lv0_N pr) x mm (KeyLv0 sk) (r 0) Hn ltac:(lia) ltac:(lia)) as (ct & Ect & Hok & _).
    exists (ct :: bufs). constructor; [|exact IH]. split; [exact Hok|].
    unfold NewTLWE in Ect. rewrite make_ok in Ect by lia. cbn [bind] in Ect.
    pose proof (encodes_enc (lv0_N pr) (repeat 0 (Z.to_nat (lv0_N pr + 1))) x mm (KeyLv0 sk) (r 0) ct E Hn ltac:(rewrite zlen_repeat; lia) ltac:(lia) HM Ect (HE 0)) as H.
    rewrite Z.mod_small in H by lia. exact H. }
  destruct G as [bufs G]. destruct (p_start _ _ _ _ _ _ _ S bufs) as (e & m & k & w & Hr & _ & F & ND).
  exists e, m, w. split; [exact Hr|]. split; [|exact ND]. clear Hx HE ND. revert xs G. induction F as [|x v w bufs [Hu Hv] F IH]; intros xs G.
  - inversion G. constructor.
  - inversion G; subst. constructor; [split; assumption|]. apply IH. assumption.
Qed.

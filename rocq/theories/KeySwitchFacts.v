(** * Key switching and proxy re-encryption: the value computed and its phase *)
From Coq Require Import Lia ZifyBool Setoid Morphisms.
From Verif Require Import GoBase GoFacts GoMem MemFacts F64 Utils UtilsFacts Params Tlwe TlweFacts
  Poly PolyFacts Trlwe Trgsw ProxyReenc.
Local Open Scope Z_scope.
Ltac Zify.zify_post_hook ::= Z.div_mod_to_equations.

(** digit j of the rounded mask coefficient a *)
Definition kprec (bb t : Z) : Z := 2 ^ (31 - bb * t).
Definition kdig (bb t a j : Z) : Z := (tadd a (kprec bb t) / 2 ^ (32 - (j + 1) * bb)) mod 2 ^ bb.
Definition kidx (bb t i j k : Z) : Z := 2 ^ bb * t * i + 2 ^ bb * j + k.

(** what is subtracted at position x for the digit (i, j) *)
Definition kterm (bb t : Z) (src : list Z) (ksk : list (list Z)) (i j x : Z) : Z :=
  let k := kdig bb t (zn src i) j in
  if k =? 0 then 0 else zn (znd [] ksk (kidx bb t i j k)) x.

(** the switched ciphertext *)
Definition ksw (n N bb t b : Z) (src : list Z) (ksk : list (list Z)) : list Z :=
  tab (n + 1) (fun x => w32 ((if x =? n then b else 0) - zsum N (fun i => zsum t (fun j => kterm bb t src ksk i j x)))).

Lemma ks_loops {S} (P : S -> list Z -> Prop) n N t (body : Z -> S -> res S) (step : Z -> Z -> S -> res S) (c : Z -> Z -> Z -> Z) s0 v0 :
  0 <= N -> 0 <= t -> P s0 v0 -> zlen v0 = n + 1 -> tok_list v0 ->
  (forall i s v, 0 <= i < N -> P s v -> body i s = for_range 0 t (step i) s) ->
  (forall i j s v, 0 <= i < N -> 0 <= j < t -> P s v -> zlen v = n + 1 -> tok_list v ->
     exists s', step i j s = Ok s' /\ P s' (tab (n + 1) (fun x => tsub (zn v x) (c i j x)))) ->
  exists s', for_range 0 N body s0 = Ok s' /\
    P s' (tab (n + 1) (fun x => w32 (zn v0 x - zsum N (fun i => zsum t (fun j => c i j x))))).
Proof.
  intros HN Ht HP Hl Hk Hbody Hstep. pose proof (zlen_nonneg v0) as Hn.
  set (Q := fun s (w : Z -> Z) => P s (tab (n + 1) (fun x => w32 (w x)))).
  assert (Qext: forall s w w', (forall x, 0 <= x < n + 1 -> w x == w' x) -> Q s w -> Q s w').
  { intros s w w' Hw H. unfold Q in *. erewrite tab_ext; [exact H|]. intros x Hx. apply w32_eqm. symmetry. apply Hw. assumption. }
  assert (Qstep: forall i j s w, 0 <= i < N -> 0 <= j < t -> Q s w -> exists s', step i j s = Ok s' /\ Q s' (fun x => w x - c i j x)).
  { intros i j s w Hi Hj HQ. destruct (Hstep i j s _ Hi Hj HQ) as (s' & E & H').
    - apply zlen_tab. lia.
    - apply tok_tab. intros; apply tok_w32.
    - exists s'. split; [exact E|]. unfold Q. erewrite tab_ext; [exact H'|]. intros x Hx. cbv beta.
      rewrite zn_tab by assumption. unfold tsub. apply w32_eqm. rewrite eqm_w32. reflexivity. }
  destruct (for_range_inv (fun i s => Q s (fun x => zn v0 x - zsum i (fun i => zsum t (fun j => c i j x))))
              0 N body s0) as (s' & E & H').
  - lia.
  - unfold Q. erewrite <- tab_ext; [rewrite Hl in *; erewrite (eq_tab 0 v0 (n + 1)) in HP; [exact HP|assumption|reflexivity]|].
    intros x Hx. cbv beta. rewrite zsum_0, Z.sub_0_r by lia. symmetry. apply w32_small.
    apply (proj1 (Forall_znd tok 0 v0) Hk). lia.
  - intros i s Hi HQ. rewrite (Hbody i s _ Hi HQ).
    destruct (for_range_inv (fun j s => Q s (fun x => zn v0 x - zsum i (fun i => zsum t (fun j => c i j x)) - zsum j (fun j => c i j x)))
              0 t (step i) s) as (s' & E & H').
    + lia.
    + eapply Qext; [|exact HQ]. intros x Hx. cbv beta. rewrite (zsum_0 _ 0) by lia. apply eqm_refl'; ring.
    + intros j s1 Hj HQ1. destruct (Qstep i j s1 _ Hi Hj HQ1) as (s2 & E2 & HQ2). exists s2. split; [exact E2|].
      eapply Qext; [|exact HQ2]. intros x Hx. cbv beta. rewrite zsum_S by lia. apply eqm_refl'; ring.
    + exists s'. split; [exact E|]. eapply Qext; [|exact H']. intros x Hx. cbv beta. rewrite (zsum_S _ i) by lia.
      apply eqm_refl'; ring.
  - exists s'. split; [exact E|]. exact H'.
Qed.

(** ** the digit as the code computes it *)
Lemma ks_digit_ok bb t a j : 1 <= bb -> 0 <= j < t -> bb * t <= 31 ->
  ks_digit (tadd a (kprec bb t)) j bb = Ok (kdig bb t a j).
Proof.
  intros Hb Hj Hbt. unfold ks_digit, kdig. assert (0 <= (j + 1) * bb <= bb * t) by nia.
  unfold shr32. destruct (Z.ltb_spec (32 - (j + 1) * bb) 0); [lia|]. cbn [bind]. rewrite shl_int_ok by lia. cbn [bind].
  f_equal. rewrite Z.shiftr_div_pow2 by lia. rewrite Z.shiftl_mul_pow2, Z.mul_1_l by lia.
  assert (0 < 2 ^ bb <= 2 ^ 31) by (split; [apply Z.pow_pos_nonneg; lia|apply Z.pow_le_mono_r; nia]).
  change (2 ^ 31) with 2147483648 in *.
  rewrite w32_small by (unfold two32; lia). replace (2 ^ bb - 1) with (Z.ones bb) by (rewrite Z.ones_equiv; lia). apply Z.land_ones. lia.
Qed.

Lemma kdig_range bb t a j : 0 <= bb -> 0 <= kdig bb t a j < 2 ^ bb.
Proof. intro. unfold kdig. apply Z.mod_pos_bound. apply Z.pow_pos_nonneg; lia. Qed.

Lemma kidx_range bb t N i j k : 0 <= bb -> 0 <= i < N -> 0 <= j < t -> 0 <= k < 2 ^ bb ->
  0 <= kidx bb t i j k < 2 ^ bb * t * N.
Proof.
  intros Hb Hi Hj Hk. unfold kidx. assert (0 < 2 ^ bb) by (apply Z.pow_pos_nonneg; lia).
  set (B := 2 ^ bb) in *. clearbody B.
  replace (B * t * i + B * j + k) with (B * (t * i + j) + k) by ring.
  replace (B * t * N) with (B * (t * N)) by ring.
  assert (0 <= t * i + j) by nia. assert (t * i + j + 1 <= t * N) by nia. nia.
Qed.

Definition ksk_shape (n N bb t : Z) (ksk : list (list Z)) : Prop :=
  2 ^ bb * t * N <= zlen ksk /\ forall idx, 0 <= idx < 2 ^ bb * t * N -> zlen (znd [] ksk idx) = n + 1.

(** one subtraction of a row *)
Lemma row_sub_ok n ksk idx v : zlen v = n + 1 -> 0 <= idx < zlen ksk -> zlen (znd [] ksk idx) = n + 1 ->
  for_range 0 (n + 1) (fun x result =>
     v <- (r <- get result x ;; row <- get ksk idx ;; q <- get row x ;; Ok (tsub r q)) ;; set result x v) v
  = Ok (tab (n + 1) (fun x => tsub (zn v x) (zn (znd [] ksk idx) x))).
Proof.
  intros Hv Hidx Hrow. pose proof (zlen_nonneg v).
  for_inv (fun i b => zlen b = n + 1 /\ forall j, 0 <= j < n + 1 -> zn b j =
        if j <? i then tsub (zn v j) (zn (znd [] ksk idx) j) else zn v j) E3 HI.
  - lia.
  - split; [assumption|]. intros j Hj. destruct (Z.ltb_spec j 0); lia || reflexivity.
  - intros i b Hi [Hb Hz]. rewrite get_zn by lia. cbn [bind]. rewrite (get_ok []) by assumption. cbn [bind].
    rewrite get_zn by lia. cbn [bind]. rewrite set_ok by lia.
    eexists; split; [reflexivity|]. split; [rewrite zlen_upd; assumption|].
    intros j Hj. rewrite zn_upd by lia. rewrite !Hz by lia.
    destruct (Z.eqb_spec j i), (Z.ltb_spec j i), (Z.ltb_spec j (i + 1)), (Z.ltb_spec i i); subst; try lia; reflexivity.
  - f_equal. destruct HI as [Hb Hz]. apply (eq_tab 0); [assumption|]. intros j Hj. change (znd 0 st j) with (zn st j).
    rewrite Hz by assumption. destruct (Z.ltb_spec j (n + 1)); [reflexivity|lia].
Qed.

Lemma row_skip n v : zlen v = n + 1 -> tok_list v -> v = tab (n + 1) (fun x => tsub (zn v x) 0).
Proof.
  intros Hl Ht. apply (eq_tab 0); [assumption|]. intros i Hi. unfold tsub. rewrite Z.sub_0_r. symmetry. apply w32_small.
  apply (proj1 (Forall_znd tok 0 v) Ht). lia.
Qed.

Definition lastcell (n b : Z) : list Z := upd (repeat 0 (Z.to_nat (n + 1))) n b.
Lemma zlen_lastcell n b : 0 <= n -> zlen (lastcell n b) = n + 1.
Proof. intro. unfold lastcell. rewrite zlen_upd, zlen_repeat. lia. Qed.
Lemma zn_lastcell n b x : 0 <= n -> 0 <= x -> zn (lastcell n b) x = if x =? n then b else 0.
Proof. intros. unfold lastcell. rewrite zn_upd by (rewrite ?zlen_repeat; lia). rewrite zn_repeat0. reflexivity. Qed.
Lemma tok_lastcell n b : 0 <= n -> tok b -> tok_list (lastcell n b).
Proof.
  intros Hn Hb. apply (Forall_znd tok 0). intros i Hi. change (znd 0 (lastcell n b) i) with (zn (lastcell n b) i).
  rewrite zn_lastcell by lia. destruct (i =? n); [assumption|unfold tok, two32; lia].
Qed.

Lemma prec_ok bb t : 0 <= bb -> 0 <= t -> bb * t <= 31 ->
  (s <- shl_int (32 - (1 + bb * t)) ;; Ok (w32 s)) = Ok (kprec bb t).
Proof.
  intros Hb Ht Hbt. rewrite shl_int_ok by lia. cbn [bind]. rewrite Z.shiftl_mul_pow2, Z.mul_1_l by lia. unfold kprec.
  replace (32 - (1 + bb * t)) with (31 - bb * t) by lia. f_equal. apply w32_small.
  assert (0 < 2 ^ (31 - bb * t) <= 2 ^ 31) by (split; [apply Z.pow_pos_nonneg; nia|apply Z.pow_le_mono_r; nia]).
  change (2 ^ 31) with 2147483648 in *. unfold two32. lia.
Qed.

Lemma IdentityKeySwitching_ok pr src ksk n N bb t :
  lv0_N pr = n -> g_N pr = N -> g_BASEBIT pr = bb -> g_IKS_T pr = t ->
  0 <= n -> 0 <= N -> 1 <= bb -> 0 <= t -> bb * t <= 31 ->
  zlen src = N + 1 -> tok_list src -> ksk_shape n N bb t ksk ->
  IdentityKeySwitching pr src ksk = Ok (ksw n N bb t (zn src N) src ksk).
Proof.
  intros En EN Eb Et Hn HN Hb Ht Hbt Hs Hst [Hkl Hkr]. unfold IdentityKeySwitching. rewrite En, EN, Eb, Et.
  rewrite shl_int_ok by lia. cbn [bind]. unfold NewTLWE. rewrite make_ok by lia. cbn [bind].
  rewrite Hs. replace (N + 1 - 1) with N by lia. rewrite get_zn by lia. cbn [bind].
  rewrite set_ok by (rewrite zlen_repeat; lia). cbn [bind]. rewrite prec_ok by lia. cbn [bind].
  fold (lastcell n (zn src N)). rewrite Z.shiftl_mul_pow2, Z.mul_1_l by lia.
  match goal with |- for_range 0 N ?b _ = _ =>
  destruct (ks_loops (fun (s v : list Z) => s = v) n N t b
     (fun i j result => k <- ks_digit (tadd (zn src i) (kprec bb t)) j bb ;;
       if k =? 0 then Ok result else
        for_range 0 (zlen result) (fun x result =>
          v <- (r <- get result x ;; row <- get ksk (2 ^ bb * t * i + 2 ^ bb * j + k) ;; q <- get row x ;; Ok (tsub r q)) ;;
          set result x v) result)
     (kterm bb t src ksk) (lastcell n (zn src N)) (lastcell n (zn src N))) as (s' & E & H') end.
  - assumption.
  - assumption.
  - reflexivity.
  - apply zlen_lastcell. assumption.
  - apply tok_lastcell; [assumption|]. apply zn_tok. assumption.
  - intros i s v Hi _. rewrite get_zn by lia. reflexivity.
  - intros i j s v Hi Hj -> Hv Htv. rewrite ks_digit_ok by lia. cbn [bind]. unfold kterm. cbv zeta.
    pose proof (kdig_range bb t (zn src i) j ltac:(lia)) as Hk.
    destruct (Z.eqb_spec (kdig bb t (zn src i) j) 0).
    + eexists; split; [reflexivity|]. apply row_skip; assumption.
    + rewrite Hv. pose proof (kidx_range bb t N i j _ ltac:(lia) Hi Hj Hk) as Hx.
      eexists; split; [|reflexivity]. apply row_sub_ok; [assumption| |apply Hkr; assumption].
      change (0 <= kidx bb t i j (kdig bb t (zn src i) j) < zlen ksk). lia.
  - rewrite E. f_equal. subst s'. unfold ksw. apply tab_ext. intros x Hx. rewrite zn_lastcell by lia. reflexivity.
Qed.

Lemma zero_fill {F} (m : mem F) out n : zlen (tm m out) = n ->
  exists m', for_range 0 n (fun i m => store m out i 0) m = Ok m' /\
    tm m' out = repeat 0 (Z.to_nat n) /\ framed (eq out) none none m m'.
Proof.
  intro Hn. destruct (mem_fill_all m out n (fun _ _ => Ok 0) (fun _ => 0) Hn) as (m' & E & Ht & Hfr); [reflexivity|].
  exists m'. split; [exact E|]. split; [|exact Hfr]. rewrite Ht. symmetry. apply repeat_tab.
Qed.

Lemma IdentityKeySwitchingAssign_ok {F} pr (m : mem F) src ksk out n N bb t :
  lv0_N pr = n -> g_N pr = N -> g_BASEBIT pr = bb -> g_IKS_T pr = t ->
  0 <= n -> 0 <= N -> 1 <= bb -> 0 <= t -> bb * t <= 31 ->
  zlen (tm m src) = N + 1 -> tok_list (tm m src) -> zlen (tm m out) = n + 1 -> src <> out -> ksk_shape n N bb t ksk ->
  exists m', IdentityKeySwitchingAssign pr m src ksk out = Ok m' /\
    tm m' out = ksw n N bb t (zn (tm m src) N) (tm m src) ksk /\ framed (eq out) none none m m'.
Proof.
  intros En EN Eb Et Hn HN Hb Ht Hbt Hs Hst Ho Hne [Hkl Hkr]. unfold IdentityKeySwitchingAssign. rewrite En, EN, Eb, Et.
  rewrite shl_int_ok by lia. cbn [bind]. rewrite Ho.
  destruct (zero_fill m out (n + 1) Ho) as (m1 & E1 & Hm1 & Hfr1). rewrite E1. cbn [bind].
  assert (R1: tm m1 src = tm m src) by (apply (fr_t _ _ _ _ _ Hfr1); congruence).
  rewrite R1, Hs. replace (N + 1 - 1) with N by lia. rewrite load_ok by (rewrite R1; lia). rewrite R1. cbn [bind].
  rewrite store_ok by (rewrite Hm1, zlen_repeat; lia). cbn [bind]. rewrite Hm1. fold (lastcell n (zn (tm m src) N)).
  rewrite prec_ok by lia. cbn [bind]. rewrite Z.shiftl_mul_pow2, Z.mul_1_l by lia.
  set (m2 := tset m1 out (lastcell n (zn (tm m src) N))).
  assert (Hfr2: framed (eq out) none none m m2).
  { eapply framed_trans; [exact Hfr1|]. apply framed_tset. reflexivity. }
  set (P := fun (m' : mem F) v => framed (eq out) none none m m' /\ tm m' out = v).
  match goal with |- exists m', for_range 0 N ?b _ = _ /\ _ =>
  destruct (ks_loops P n N t b
     (fun i j m0 => k <- ks_digit (tadd (zn (tm m src) i) (kprec bb t)) j bb ;;
       if k =? 0 then Ok m0 else
        for_range 0 (zlen (tm m0 out)) (fun x m =>
          v <- (r <- load m out x ;; row <- get ksk (2 ^ bb * t * i + 2 ^ bb * j + k) ;; q <- get row x ;; Ok (tsub r q)) ;;
          store m out x v) m0)
     (kterm bb t (tm m src) ksk) m2 (lastcell n (zn (tm m src) N))) as (s' & E & Hfr' & H') end.
  - assumption.
  - assumption.
  - split; [exact Hfr2|]. unfold m2. apply tm_tset.
  - apply zlen_lastcell. assumption.
  - apply tok_lastcell; [assumption|]. apply zn_tok. assumption.
  - intros i s v Hi [Hfr _]. unfold load at 1. rewrite (fr_t _ _ _ _ _ Hfr) by congruence.
    rewrite get_zn by lia. reflexivity.
  - intros i j s v Hi Hj [Hfr Hsv] Hv Htv.
    rewrite ks_digit_ok by lia. cbn [bind]. unfold kterm. cbv zeta.
    pose proof (kdig_range bb t (zn (tm m src) i) j ltac:(lia)) as Hk.
    destruct (Z.eqb_spec (kdig bb t (zn (tm m src) i) j) 0).
    + eexists; split; [reflexivity|]. split; [exact Hfr|]. rewrite Hsv. apply row_skip; assumption.
    + rewrite Hsv, Hv. pose proof (kidx_range bb t N i j _ ltac:(lia) Hi Hj Hk) as Hx.
      set (idx := 2 ^ bb * t * i + 2 ^ bb * j + kdig bb t (zn (tm m src) i) j).
      destruct (mem_fill_all s out (n + 1)
        (fun x m => r <- load m out x ;; row <- get ksk idx ;; q <- get row x ;; Ok (tsub r q))
        (fun x => tsub (zn v x) (zn (znd [] ksk idx) x))) as (s2 & E2 & Hs2 & Hfr3).
      * rewrite Hsv. assumption.
      * intros x m' Hxx Hfrx Hlx Hzx. rewrite load_ok by lia. cbn [bind].
        rewrite (get_ok []) by (change (0 <= kidx bb t i j (kdig bb t (zn (tm m src) i) j) < zlen ksk); lia). cbn [bind].
        rewrite get_zn by (rewrite Hkr by exact Hx; assumption). cbn [bind]. rewrite Hzx, Hsv by lia. reflexivity.
      * exists s2. split; [exact E2|]. split; [eapply framed_trans; eassumption|]. exact Hs2.
  - exists s'. split; [exact E|]. split; [|exact Hfr'].
    rewrite H'. unfold ksw. apply tab_ext. intros x Hx. rewrite zn_lastcell by lia. reflexivity.
Qed.

(** ** phase *)

(** [ksk] encrypts k * s_i * 2^(32 - (j+1) bb) at (i, j, k), up to errors of at most E *)
Definition ksk_enc (n N bb t E : Z) (s0 s1 : list Z) (ksk : list (list Z)) : Prop :=
  forall i j k, 0 <= i < N -> 0 <= j < t -> 1 <= k < 2 ^ bb ->
    close E (lwe_phase n s0 (znd [] ksk (kidx bb t i j k))) (k * zn s1 i * 2 ^ (32 - (j + 1) * bb)).

Lemma ksw_lwe_ok n N bb t b src ksk : 0 <= n -> lwe_ok n (ksw n N bb t b src ksk).
Proof. intro. split; [apply zlen_tab; lia|apply tok_tab; intros; apply tok_w32]. Qed.

Lemma ksw_phase_exact n N bb t b src ksk s0 : 0 <= n ->
  lwe_phase n s0 (ksw n N bb t b src ksk) ==
  b - zsum N (fun i => zsum t (fun j => let k := kdig bb t (zn src i) j in
        if k =? 0 then 0 else lwe_phase n s0 (znd [] ksk (kidx bb t i j k)))).
Proof.
  intro Hn. rewrite lwe_phase_eqm.
  assert (Ez: forall x, 0 <= x < n + 1 -> zn (ksw n N bb t b src ksk) x ==
     (if x =? n then b else 0) - zsum N (fun i => zsum t (fun j => kterm bb t src ksk i j x))).
  { intros x Hx. unfold ksw. rewrite zn_tab by assumption. apply eqm_w32. }
  rewrite Ez by lia. rewrite Z.eqb_refl.
  rewrite (zsum_eqm n (fun i => zn (ksw n N bb t b src ksk) i * zn s0 i)
    (fun x => - zsum N (fun i => zsum t (fun j => kterm bb t src ksk i j x * zn s0 x)))).
  2:{ intros x Hx. rewrite Ez by lia. destruct (Z.eqb_spec x n); [lia|].
      rewrite (zsum_ext N (fun i => zsum t (fun j => kterm bb t src ksk i j x * zn s0 x))
         (fun i => zsum t (fun j => kterm bb t src ksk i j x) * zn s0 x)) by (intros; apply zsum_mul_r).
      rewrite zsum_mul_r. apply eqm_refl'. ring. }
  rewrite zsum_opp, (zsum_swap n N).
  rewrite (zsum_ext N (fun j => zsum n (fun i => zsum t (fun j0 => kterm bb t src ksk j j0 i * zn s0 i)))
     (fun i => zsum t (fun j => zsum n (fun x => kterm bb t src ksk i j x * zn s0 x)))) by (intros; apply zsum_swap).
  match goal with |- b - ?X - - ?Y == b - ?Z => assert (G: X - Y == Z) end.
  { rewrite <- zsum_sub. apply zsum_eqm. intros i Hi. rewrite <- zsum_sub. apply zsum_eqm. intros j Hj.
    cbv zeta. unfold kterm. cbv zeta. destruct (Z.eqb_spec (kdig bb t (zn src i) j) 0).
    - rewrite zsum_zero by reflexivity. reflexivity.
    - rewrite lwe_phase_eqm. reflexivity. }
  rewrite <- G. apply eqm_refl'. ring.
Qed.

(** number of non-zero digits *)
Definition kcount (N bb t : Z) (src : list Z) : Z :=
  zsum N (fun i => zsum t (fun j => if kdig bb t (zn src i) j =? 0 then 0 else 1)).

Lemma kcount_le N bb t src : 0 <= N -> 0 <= t -> 0 <= kcount N bb t src <= N * t.
Proof.
  intros HN Ht. unfold kcount. split.
  - apply zsum_nonneg; intros; apply zsum_nonneg; intros. destruct (_ =? 0); lia.
  - rewrite <- (zsum_const N t) by assumption. apply zsum_le. intros i Hi.
    rewrite <- (Z.mul_1_r t) at 2. rewrite <- (zsum_const t 1) by assumption. apply zsum_le.
    intros. destruct (_ =? 0); lia.
Qed.

(** the digits recompose the mask coefficient up to half a step *)
Lemma kdig_recompose bb t a : 1 <= bb -> 0 <= t -> bb * t <= 31 ->
  close (kprec bb t) (zsum t (fun j => kdig bb t a j * 2 ^ (32 - (j + 1) * bb))) a.
Proof.
  intros Hb Ht Hbt. unfold kdig.
  rewrite digits_telescope by (lia || apply tok_w32).
  assert (H2: 2 ^ (32 - t * bb) = 2 * kprec bb t).
  { unfold kprec. rewrite <- Z.pow_succ_r by lia. f_equal. lia. }
  assert (Hp: 0 < kprec bb t) by (apply Z.pow_pos_nonneg; lia).
  rewrite H2. pose proof (Z.mod_pos_bound (tadd a (kprec bb t)) (2 * kprec bb t) ltac:(lia)).
  exists (kprec bb t - tadd a (kprec bb t) mod (2 * kprec bb t)). split; [lia|].
  rewrite (tadd_eqm a (kprec bb t)) at 1. apply eqm_refl'. ring.
Qed.

Lemma ksw_phase n N bb t E src ksk s0 s1 : 0 <= n -> 0 <= N -> 1 <= bb -> 0 <= t -> bb * t <= 31 -> 0 <= E ->
  (forall i, 0 <= i < N -> 0 <= zn s1 i) ->
  ksk_enc n N bb t E s0 s1 ksk ->
  close (weight N s1 * kprec bb t + kcount N bb t src * E)
    (lwe_phase n s0 (ksw n N bb t (zn src N) src ksk)) (lwe_phase N s1 src).
Proof.
  intros Hn HN Hb Ht Hbt HE Hs Hk. rewrite ksw_phase_exact by assumption. rewrite lwe_phase_eqm.
  assert (H1: close (kcount N bb t src * E)
    (zsum N (fun i => zsum t (fun j => let k := kdig bb t (zn src i) j in
        if k =? 0 then 0 else lwe_phase n s0 (znd [] ksk (kidx bb t i j k)))))
    (zsum N (fun i => zsum t (fun j => kdig bb t (zn src i) j * zn s1 i * 2 ^ (32 - (j + 1) * bb))))).
  { unfold kcount. rewrite <- zsum_mul_r. apply zsum_close. intros i Hi. rewrite <- zsum_mul_r. apply zsum_close. intros j Hj.
    cbv zeta. destruct (Z.eqb_spec (kdig bb t (zn src i) j) 0) as [->|Hne].
    - apply close_refl. lia.
    - rewrite Z.mul_1_l. apply Hk; try assumption. pose proof (kdig_range bb t (zn src i) j ltac:(lia)). lia. }
  assert (H2: close (weight N s1 * kprec bb t)
    (zsum N (fun i => zsum t (fun j => kdig bb t (zn src i) j * zn s1 i * 2 ^ (32 - (j + 1) * bb))))
    (zsum N (fun i => zn src i * zn s1 i))).
  { unfold weight. rewrite <- zsum_mul_r. apply zsum_close. intros i Hi.
    rewrite (zsum_ext t _ (fun j => zn s1 i * (kdig bb t (zn src i) j * 2 ^ (32 - (j + 1) * bb)))) by (intros; ring).
    rewrite zsum_mul_l. replace (zn src i * zn s1 i) with (zn s1 i * zn src i) by ring.
    rewrite <- (Z.abs_eq (zn s1 i)) at 1 by (apply Hs; assumption).
    apply close_mul. apply kdig_recompose; assumption. }
  rewrite Z.add_comm.
  replace (kcount N bb t src * E + weight N s1 * kprec bb t) with (0 + (kcount N bb t src * E + weight N s1 * kprec bb t)) by lia.
  apply close_sub; [apply close_refl; lia|]. eapply close_trans; eassumption.
Qed.

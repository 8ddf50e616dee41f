(** * Bootstrapping: the noise of a run, and what the result encrypts *)
From Coq Require Import Lia ZifyBool Setoid Morphisms.
From Verif Require Import GoBase GoFacts GoMem MemFacts F64 Utils UtilsFacts Params Key Tlwe TlweMem TlweFacts
  Poly PolyFacts NegFacts Laws Trlwe TrlweFacts Trgsw TrgswFacts RotFacts KeySwitchFacts Lut Evaluator EvalFacts
  CloudKey CloudKeyFacts Gates LinFacts RunSpec HeapFacts.
Local Open Scope Z_scope.
Ltac Zify.zify_post_hook ::= idtac.

Lemma bin_zn n s i : bin_key n s -> 0 <= i < n -> zn s i = 0 \/ zn s i = 1.
Proof.
  intros [Hl Hb] Hi. apply (proj1 (Forall_znd (fun x => x = 0 \/ x = 1) 0 s) Hb). lia.
Qed.
Lemma bin_nonneg n s i : bin_key n s -> 0 <= i < n -> 0 <= zn s i.
Proof. intros H Hi. destruct (bin_zn n s i H Hi); lia. Qed.
Lemma bin_poly N s : bin_key N s -> poly_ok N s.
Proof.
  intros [Hl Hb]. split; [exact Hl|]. eapply Forall_impl; [|exact Hb]. intros a [->| ->]; unfold tok, two32; lia.
Qed.

Lemma centered_min x e : x == e -> Z.abs (centered x) <= Z.abs e.
Proof.
  intro H. pose proof (centered_range x) as R. destruct (Z_lt_dec (Z.abs e) two31) as [Hl|Hl]; [|lia].
  rewrite (centered_unique x e H) by lia. lia.
Qed.

Section Boot.
Context {O : fops} {N : Z} (L : flaws O N) (pr : pset) (W : pwf pr N).
Notation l := (g_L pr).
Notation bg := (g_BGBIT pr).
Notation n := (lv0_N pr).
Notation nb := (g_NBIT pr).
Notation acc_of off bsk ct tv i := (br_acc L bg l off nb n bsk ct tv i).

(** ** the pieces of RunSpec compute the pure values *)
Lemma rotate_poly_ok p k : zlen p = N -> rotate_poly O p k = Ok (rot N k p).
Proof.
  intro Hp. pose proof (law_N L) as H16. unfold rotate_poly. cbn [alloc empty_mem tnext fst snd].
  rewrite make_ok by lia. cbn [bind]. set (z := repeat 0 (Z.to_nat (zlen p))).
  assert (Hz: zlen z = N) by (unfold z; rewrite zlen_repeat; lia).
  match goal with |- bind (PolyMulWithXKInPlace ?mm ?a k ?r) _ = _ => set (m := mm) end.
  destruct (PolyMulWithXKInPlace_ok m N 0 k 1) as (m' & E & V & _); try lia.
  - exact Hp.
  - exact Hz.
  - change (0 + 1) with 1. rewrite E. cbn [bind]. rewrite V. reflexivity.
Qed.

Lemma rotate_ct_ok c k : ct_ok N c -> rotate_ct O c k = Ok (crot N k c).
Proof.
  intros [[HA _] [HB _]]. unfold rotate_ct. rewrite !rotate_poly_ok by assumption. reflexivity.
Qed.

Lemma cmux_ct_ok g c0 c1 off : gkey_ok L l g -> ct_ok N c0 -> ct_ok N c1 ->
  cmux_ct O pr g c0 c1 off = Ok (cmuxp L bg l off g c0 c1).
Proof.
  intros Hg H0 H1. pose proof (law_N L) as H16. unfold cmux_ct. rewrite (pw_gN _ _ W).
  destruct (NewEvaluator_ok L pr W (empty_mem (f_nil O))) as (e & m & E & He & G & _ & _ & _ & _).
  { unfold mem_ok. cbn. lia. }
  rewrite E. cbn [bind]. rewrite (NewTRLWELv1_ok L) by apply (pw_trN _ _ W). cbn [bind tA tB].
  set (z := repeat 0 (Z.to_nat N)). assert (Hz: zlen z = N) by (unfold z; rewrite zlen_repeat; lia).
  set (t := tnext m).
  assert (Al: forall (m : mem (FP O)) v, alloc m v = (tnext m, snd (alloc m v))) by reflexivity.
  rewrite Al. set (m1 := snd (alloc m (tA c0))). rewrite Al. set (m2 := snd (alloc m1 (tB c0))).
  rewrite Al. set (m3 := snd (alloc m2 (tA c1))). rewrite Al. set (m4 := snd (alloc m3 (tB c1))).
  rewrite Al. set (m5 := snd (alloc m4 z)). rewrite Al. set (m6 := snd (alloc m5 z)).
  assert (N1: tnext m1 = t + 1) by reflexivity.
  assert (N2: tnext m2 = t + 2) by (cbn; unfold t; lia). assert (N3: tnext m3 = t + 3) by (cbn; unfold t; lia).
  assert (N4: tnext m4 = t + 4) by (cbn; unfold t; lia). assert (N5: tnext m5 = t + 5) by (cbn; unfold t; lia).
  assert (He6: ev_ok L pr m6 e) by (unfold m6, m5, m4, m3, m2, m1; repeat apply (ev_ok_alloc L pr W); exact He).
  assert (K: forall (m : mem (FP O)) v x, x < tnext m -> tm (snd (alloc m v)) x = tm m x).
  { intros mm v x Hx. apply (keep_t L); [apply alloc_grows|exact Hx]. }
  assert (A0: tm m6 t = tA c0).
  { unfold m6, m5, m4, m3, m2. rewrite !K by (cbn [tnext alloc snd]; try unfold t; lia). apply alloc_at. }
  assert (B0: tm m6 (t + 1) = tB c0).
  { unfold m6, m5, m4, m3. rewrite !K by (cbn [tnext alloc snd]; try unfold t; lia). rewrite <- N1. apply alloc_at. }
  assert (A1: tm m6 (t + 2) = tA c1).
  { unfold m6, m5, m4. rewrite !K by (cbn [tnext alloc snd]; try unfold t; lia). rewrite <- N2. apply alloc_at. }
  assert (B1: tm m6 (t + 3) = tB c1).
  { unfold m6, m5. rewrite !K by (cbn [tnext alloc snd]; try unfold t; lia). rewrite <- N3. apply alloc_at. }
  assert (A2: tm m6 (t + 4) = z).
  { unfold m6. rewrite !K by (cbn [tnext alloc snd]; try unfold t; lia). rewrite <- N4. apply alloc_at. }
  assert (B2: tm m6 (t + 5) = z) by (rewrite <- N5; apply alloc_at).
  rewrite N1, N2, N3, N4, N5. fold t.
  assert (NS: forall i, 0 <= i -> ~ scr e 4 (t + i)).
  { intros i Hi A. apply (scr_own L pr W m e) in A; [|exact He|lia]. pose proof (eo_t3 _ _ _ _ He). unfold own in A. unfold t in A. lia. }
  assert (NS0: ~ scr e 4 t) by (replace t with (t + 0) by lia; apply NS; lia).
  destruct (CMuxAssign_ok L pr W m6 e g c0 c1 {| rA := t; rB := t + 1 |} {| rA := t + 2; rB := t + 3 |} off {| rA := t + 4; rB := t + 5 |})
    as (m' & E' & [VA VB] & _); try assumption; unfold at_, outside, apart; cbn [rA rB].
  - split; assumption.
  - split; assumption.
  - split; [exact NS0|apply NS; lia].
  - split; apply NS; lia.
  - split; apply NS; lia.
  - rewrite A2. exact Hz.
  - rewrite B2. exact Hz.
  - lia.
  - right. lia.
  - lia.
  - rewrite E'. cbn [bind]. cbn [rA rB] in VA, VB. rewrite VA, VB. destruct (cmuxp L bg l off g c0 c1). reflexivity.
Qed.

Lemma rotated_ok ct i acc : zlen ct = n + 1 -> 0 <= i < n -> ct_ok N acc ->
  rotated O pr ct i acc = Ok (crot N (br_a nb (zn ct i)) acc).
Proof.
  intros Hc Hi Ha. unfold rotated. rewrite get_zn by lia. cbn [bind]. rewrite aTilda_ok by apply (pw_nb _ _ W). cbn [bind].
  apply rotate_ct_ok. exact Ha.
Qed.

Lemma rotation_ok bsk off ct tv i : bsk_ok L pr bsk -> zlen ct = n + 1 -> ct_ok N tv -> 0 <= i <= n ->
  rotation O pr bsk off ct tv i = Ok (acc_of off bsk ct tv i).
Proof.
  intros [Hb1 Hb2] Hc Htv [Hi1 Hi2]. pose proof (pw_n _ _ W) as Hn. revert i Hi1 Hi2.
  apply (zsum_ind (fun i => i <= n -> rotation O pr bsk off ct tv i = Ok (acc_of off bsk ct tv i))).
  - intros _. unfold rotation. change (Z.to_nat 0) with 0%nat. cbn [rotation_nat]. rewrite get_zn by lia. cbn [bind].
    rewrite (pw_gN _ _ W), bTilda_ok by apply (pw_nb _ _ W). cbn [bind]. rewrite rotate_ct_ok by exact Htv. reflexivity.
  - intros i Hi IH Hin. specialize (IH ltac:(lia)). unfold rotation in *.
    replace (Z.to_nat (i + 1)) with (S (Z.to_nat i)) by lia. cbn [rotation_nat]. rewrite IH. cbn [bind].
    rewrite Z2Nat.id by lia. assert (Hacc: ct_ok N (acc_of off bsk ct tv i)) by (apply br_acc_ok; [exact Htv|lia]).
    rewrite rotated_ok by (assumption || lia). cbn [bind]. rewrite (get_ok (A:=trgsw_fft O) [] bsk) by lia. cbn [bind].
    rewrite cmux_ct_ok; [|apply Hb2; lia|exact Hacc|apply crot_ok; [pose proof (law_N L); lia|exact Hacc]].
    rewrite br_acc_S by lia. reflexivity.
Qed.

(** ** noise of the steps *)
Lemma step_noise_iff s0 s1 off bsk ct tv i eta : 0 <= i -> (zn s0 i = 0 \/ zn s0 i = 1) ->
  br_err L bg l off nb n s1 s0 bsk ct tv i eta <->
  (forall k, 0 <= k < N -> close eta (cphase N s1 (acc_of off bsk ct tv (i + 1)) k)
     (cphase N s1 (if zn s0 i =? 1 then crot N (br_a nb (zn ct i)) (acc_of off bsk ct tv i) else acc_of off bsk ct tv i) k)).
Proof.
  intros Hi Hb. unfold br_err, br_diff. rewrite br_acc_S by exact Hi. unfold br_step, cmuxp.
  set (acc := acc_of off bsk ct tv i). set (rt := crot N (br_a nb (zn ct i)) acc).
  assert (P: forall k, 0 <= k < N -> cphase N s1 (cadd N (epp L bg l off (znd [] bsk i) (csub N rt acc)) acc) k ==
    cphase N s1 (epp L bg l off (znd [] bsk i) (csub N rt acc)) k + cphase N s1 acc k) by (intros; apply cadd_phase; assumption).
  assert (Q: forall k, 0 <= k < N -> cphase N s1 (csub N rt acc) k == cphase N s1 rt k - cphase N s1 acc k) by (intros; apply csub_phase; assumption).
  split; intros H k Hk; destruct (H k Hk) as (e & He & E); exists e; (split; [exact He|]).
  - rewrite P, E, Q by assumption. destruct Hb as [-> | ->]; cbn [Z.eqb Pos.eqb]; apply eqm_refl'; ring.
  - rewrite P in E by assumption. rewrite Q by assumption.
    assert (E': cphase N s1 (epp L bg l off (znd [] bsk i) (csub N rt acc)) k ==
      cphase N s1 (if zn s0 i =? 1 then rt else acc) k + e - cphase N s1 acc k).
    { rewrite <- E. apply eqm_refl'. ring. }
    rewrite E'. destruct Hb as [-> | ->]; cbn [Z.eqb Pos.eqb]; apply eqm_refl'; ring.
Qed.

Context (sk : SecretKey) (K0 : bin_key n (KeyLv0 sk)) (K1 : bin_key N (KeyLv1 sk)).
Notation s0 := (KeyLv0 sk). Notation s1 := (KeyLv1 sk).

Lemma cmux_noise_iff bsk off ct tv eta : bsk_ok L pr bsk -> zlen ct = n + 1 -> ct_ok N tv ->
  cmux_noise O pr sk bsk off ct tv eta <->
  (forall i, 0 <= i < n -> br_err L bg l off nb n s1 s0 bsk ct tv i (eta i)).
Proof.
  intros Hb Hc Htv. unfold cmux_noise. rewrite (pw_gN _ _ W).
  split; intros H i Hi; pose proof (H i Hi) as Hh.
  - destruct Hh as (acc & rt & acc' & E1 & E2 & E3 & Hk).
    rewrite rotation_ok in E1 by (assumption || lia). injection E1 as <-.
    rewrite rotated_ok in E2 by (assumption || (apply br_acc_ok; assumption || lia)). injection E2 as <-.
    rewrite rotation_ok in E3 by (assumption || lia). injection E3 as <-.
    apply step_noise_iff; [lia|eapply bin_zn; eassumption|]. intros k Hkk. specialize (Hk k Hkk). cbv zeta in Hk.
    unfold cphase. exact Hk.
  - assert (Ha: ct_ok N (acc_of off bsk ct tv i)) by (apply br_acc_ok; assumption || lia).
    eexists _, _, _. split; [apply rotation_ok; assumption || lia|]. split; [apply rotated_ok; assumption || lia|].
    split; [apply rotation_ok; assumption || lia|]. intros k Hk. cbv zeta.
    exact (proj1 (step_noise_iff s0 s1 off bsk ct tv i (eta i) ltac:(lia) (bin_zn _ _ _ K0 Hi)) Hh k Hk).
Qed.

(** ** what each step leaves in coefficient k after i steps *)
Definition step_sel off bsk ct tv i : trlwe :=
  if zn s0 i =? 1 then crot N (br_a nb (zn ct i)) (acc_of off bsk ct tv i) else acc_of off bsk ct tv i.
Definition step_err off bsk ct tv i (k : Z) : Z :=
  cphase N s1 (acc_of off bsk ct tv (i + 1)) k - cphase N s1 (step_sel off bsk ct tv i) k.
Definition turn ct (i : Z) : Z := zsum i (fun j => zn s0 j * br_a nb (zn ct j)).

Lemma sgn_pick e j : exists sg q, (sg = 1 \/ sg = -1) /\ 0 <= q < N /\ forall f, mono_mul N e f j = sg * f q.
Proof.
  pose proof (law_N L) as H16. unfold mono_mul. exists (if Z.even ((j - e) / N) then 1 else -1), ((j - e) mod N).
  split; [destruct (Z.even _); auto|]. split; [apply Z.mod_pos_bound; lia|]. intro f. destruct (Z.even _); ring.
Qed.
Lemma mono_zsum e c (f : Z -> Z -> Z) j : mono_mul N e (fun k => zsum c (fun i => f i k)) j = zsum c (fun i => mono_mul N e (f i) j).
Proof.
  destruct (sgn_pick e j) as (sg & q & _ & _ & E). rewrite E. rewrite <- zsum_mul_l. apply zsum_ext. intros i _. rewrite E. reflexivity.
Qed.

Lemma br_path off bsk ct tv i : ct_ok N tv -> 0 <= i <= n -> forall k, 0 <= k < N ->
  exists u, Z.abs u <= (1 + zsum i (zn s0)) * (1 + weight N s1) /\
    cphase N s1 (acc_of off bsk ct tv i) k ==
    mono_mul N (rho N nb n s0 ct i) (cphase N s1 tv) k
    + zsum i (fun j => mono_mul N (turn ct i - turn ct (j + 1)) (step_err off bsk ct tv j) k) + u.
Proof.
  intros Htv [Hi Hin]. pose proof (law_N L) as H16.
  assert (Hs1: forall j, 0 <= j < N -> 0 <= zn s1 j) by (intros; eapply bin_nonneg; eassumption).
  assert (Hw: 0 <= weight N s1) by (apply zsum_nonneg; assumption).
  revert i Hi Hin. apply (zsum_ind (fun i => i <= n -> forall k, 0 <= k < N ->
    exists u, Z.abs u <= (1 + zsum i (zn s0)) * (1 + weight N s1) /\
    cphase N s1 (acc_of off bsk ct tv i) k ==
    mono_mul N (rho N nb n s0 ct i) (cphase N s1 tv) k
    + zsum i (fun j => mono_mul N (turn ct i - turn ct (j + 1)) (step_err off bsk ct tv j) k) + u)).
  - intros _ k Hk. rewrite br_acc_0. unfold rho. rewrite !zsum_0 by lia.
    replace (br_b N nb (zn ct n) + 0) with (br_b N nb (zn ct n)) by ring.
    destruct (crot_phase N ltac:(lia) s1 Hs1 (br_b N nb (zn ct n)) tv k Hk) as (u & Hu & E).
    exists u. split; [lia|]. rewrite E. apply eqm_refl'. ring.
  - intros i Hi IH Hin k Hk. specialize (IH ltac:(lia)).
    set (acc := acc_of off bsk ct tv i) in *. set (a := br_a nb (zn ct i)).
    assert (E1: cphase N s1 (acc_of off bsk ct tv (i + 1)) k = step_err off bsk ct tv i k + cphase N s1 (step_sel off bsk ct tv i) k)
      by (unfold step_err; ring).
    assert (Et: turn ct (i + 1) = turn ct i + zn s0 i * a) by (unfold turn; rewrite zsum_S by assumption; reflexivity).
    assert (Er: rho N nb n s0 ct (i + 1) = zn s0 i * a + rho N nb n s0 ct i).
    { unfold rho. rewrite zsum_S by assumption. fold a. ring. }
    assert (Es: zsum (i + 1) (fun j => mono_mul N (turn ct (i + 1) - turn ct (j + 1)) (step_err off bsk ct tv j) k) =
      zsum i (fun j => mono_mul N (zn s0 i * a) (mono_mul N (turn ct i - turn ct (j + 1)) (step_err off bsk ct tv j)) k) + step_err off bsk ct tv i k).
    { rewrite zsum_S by assumption. f_equal.
      - apply zsum_ext. intros j Hj. rewrite mono_mono by lia. f_equal. rewrite Et. ring.
      - replace (turn ct (i + 1) - turn ct (i + 1)) with 0 by ring. apply mono_0. exact Hk. }
    rewrite Es, Er, E1, <- (mono_mono N (zn s0 i * a)) by lia.
    rewrite <- (mono_zsum (zn s0 i * a) i (fun j => mono_mul N (turn ct i - turn ct (j + 1)) (step_err off bsk ct tv j))).
    unfold step_sel. fold acc a. rewrite (zsum_S (zn s0) i) by assumption.
    destruct (bin_zn _ _ i K0 ltac:(lia)) as [E0|E0]; rewrite E0; cbn [Z.eqb Pos.eqb].
    + destruct (IH k Hk) as (u & Hu & E). exists u. split; [lia|].
      replace (0 * a) with 0 by ring. rewrite !mono_0 by exact Hk. rewrite E. apply eqm_refl'. ring.
    + replace (1 * a) with a by ring.
      destruct (crot_phase N ltac:(lia) s1 Hs1 a acc k Hk) as (v & Hv & E).
      destruct (sgn_pick a k) as (sg & q & Hsg & Hq & P). rewrite !P in *. destruct (IH q Hq) as (u & Hu & E').
      exists (v + sg * u). split.
      * assert (Z.abs (sg * u) = Z.abs u) by (destruct Hsg as [-> | ->]; lia). lia.
      * rewrite E, E'. apply eqm_refl'. ring.
Qed.

(** in the terms of RunSpec *)
Lemma rounded_br x : exists q, br_a nb x = rounded pr x + 2 * N * q.
Proof.
  pose proof (pw_nb _ _ W) as Hnb. unfold br_a, rounded. set (y := x + 2 ^ (30 - nb)). set (c := 2 ^ (31 - nb)).
  assert (Hc: 0 < c) by (apply Z.pow_pos_nonneg; lia).
  assert (H2: two32 = 2 * N * c).
  { rewrite (pw_N _ _ W). unfold c. rewrite <- Z.mul_assoc, <- Z.pow_add_r by lia. replace (nb + (31 - nb)) with 31 by ring. reflexivity. }
  exists (- (y / two32)). pose proof (Z.div_mod y two32 ltac:(discriminate)) as D.
  replace (y mod two32) with (y + (- (y / two32) * (2 * N)) * c) by (rewrite H2 in *; lia). rewrite Z.div_add by lia. ring.
Qed.
Lemma still_turn ct i : 0 <= i < n -> exists q, still_to_rotate pr sk ct i = turn ct n - turn ct (i + 1) + 2 * N * q.
Proof.
  intro Hi. unfold still_to_rotate, turn.
  assert (G: forall j, exists q, (if i <? j then zn s0 j * rounded pr (zn ct j) else 0) = (if i <? j then zn s0 j * br_a nb (zn ct j) else 0) + 2 * N * q).
  { intro j. destruct (rounded_br (zn ct j)) as [q Hq]. destruct (i <? j); [|exists 0; ring]. exists (- (zn s0 j * q)). rewrite Hq. ring. }
  assert (G2: exists q, zsum n (fun j => if i <? j then zn s0 j * rounded pr (zn ct j) else 0) = zsum n (fun j => if i <? j then zn s0 j * br_a nb (zn ct j) else 0) + 2 * N * q).
  { clear Hi. pose proof (pw_n _ _ W) as Hn. revert Hn. generalize n. apply (zsum_ind (fun m => exists q, zsum m _ = zsum m _ + 2 * N * q)).
    - exists 0. rewrite !zsum_0 by lia. ring.
    - intros m Hm [q Hq]. destruct (G m) as [q' Hq']. exists (q + q'). rewrite !zsum_S by assumption. rewrite Hq, Hq'. ring. }
  destruct G2 as [q Hq]. exists q. rewrite Hq. f_equal.
  assert (S: forall f, zsum n f = zsum (i + 1) f + zsum (n - (i + 1)) (fun j => f (i + 1 + j))) by (intro f; rewrite <- zsum_split by lia; f_equal; ring).
  rewrite (S (fun j => if i <? j then _ else 0)), (S (fun j => zn s0 j * br_a nb (zn ct j))).
  rewrite (zsum_zero (i + 1)) by (intros j Hj; destruct (Z.ltb_spec i j); [lia|reflexivity]).
  rewrite (zsum_ext (n - (i + 1)) (fun j => if i <? i + 1 + j then _ else 0) (fun j => zn s0 (i + 1 + j) * br_a nb (zn ct (i + 1 + j))))
    by (intros j Hj; destruct (Z.ltb_spec i (i + 1 + j)); [reflexivity|lia]).
  ring.
Qed.
Lemma mono_turn e q f j : mono_mul N (e + 2 * N * q) f j = mono_mul N e f j.
Proof.
  pose proof (law_N L) as H16. rewrite <- (mono_mod N (e + 2 * N * q)), <- (mono_mod N e) by lia. f_equal.
  replace (e + 2 * N * q) with (e + q * (2 * N)) by ring. apply Z.mod_add. lia.
Qed.

Lemma left_noise_iff bsk off ct tv eta : bsk_ok L pr bsk -> zlen ct = n + 1 -> ct_ok N tv ->
  left_noise O pr sk bsk off ct tv eta <->
  (forall i, 0 <= i < n -> eta i == mono_mul N (turn ct n - turn ct (i + 1)) (step_err off bsk ct tv i) 0).
Proof.
  intros Hb Hc Htv. unfold left_noise. rewrite (pw_gN _ _ W).
  split; intros H i Hi; pose proof (H i Hi) as Hh; destruct (still_turn ct i Hi) as [q Q].
  - destruct Hh as (acc & rt & acc' & E1 & E2 & E3 & Hk).
    rewrite rotation_ok in E1 by (assumption || lia). injection E1 as <-.
    rewrite rotated_ok in E2 by (assumption || (apply br_acc_ok; assumption || lia)). injection E2 as <-.
    rewrite rotation_ok in E3 by (assumption || lia). injection E3 as <-.
    cbv zeta in Hk. rewrite Q, mono_turn in Hk. exact Hk.
  - assert (Ha: ct_ok N (acc_of off bsk ct tv i)) by (apply br_acc_ok; assumption || lia).
    eexists _, _, _. split; [apply rotation_ok; assumption || lia|]. split; [apply rotated_ok; assumption || lia|].
    split; [apply rotation_ok; assumption || lia|]. cbv zeta. rewrite Q, mono_turn. exact Hh.
Qed.

(** a bound for every coefficient of every step bounds what the steps leave *)
Lemma left_of_cmux bsk off ct tv B : bsk_ok L pr bsk -> zlen ct = n + 1 -> ct_ok N tv ->
  cmux_noise O pr sk bsk off ct tv B ->
  exists eta, left_noise O pr sk bsk off ct tv eta /\ Z.abs (zsum n eta) <= zsum n B.
Proof.
  intros Hb Hc Htv H. pose proof (pw_n _ _ W) as Hn.
  exists (fun i => centered (mono_mul N (turn ct n - turn ct (i + 1)) (step_err off bsk ct tv i) 0)). split.
  - apply left_noise_iff; try assumption. intros i Hi. apply centered_eq.
  - eapply Z.le_trans; [apply zsum_abs|]. apply zsum_le. intros i Hi.
    rewrite cmux_noise_iff in H by assumption. specialize (H i Hi).
    pose proof (proj1 (step_noise_iff s0 s1 off bsk ct tv i (B i) ltac:(lia) (bin_zn _ _ _ K0 Hi)) H) as H'. clear H. rename H' into H.
    destruct (sgn_pick (turn ct n - turn ct (i + 1)) 0) as (sg & q & Hsg & Hq & P). rewrite P.
    destruct (H q Hq) as (e & He & E). unfold step_err, step_sel.
    eapply Z.le_trans; [apply (centered_min _ (sg * e))|destruct Hsg as [-> | ->]; lia].
    rewrite E. apply eqm_refl'. ring.
Qed.

(** the extracted, key switched accumulator *)
Lemma ks_noise_iff bsk ksk off ct tv ek : bsk_ok L pr bsk -> @ksk_ok N pr ksk -> zlen ct = n + 1 -> ct_ok N tv ->
  ks_noise O pr sk bsk ksk off ct tv ek <->
  lwe_phase n s0 (bootp L pr off bsk ksk tv ct) ==
    lwe_phase N s1 (extp N 0 (tA (acc_of off bsk ct tv n)) (tB (acc_of off bsk ct tv n))) + ek.
Proof.
  intros Hb Hks Hc Htv. pose proof (law_N L) as H16. pose proof (pw_n _ _ W) as Hn.
  set (acc := acc_of off bsk ct tv n). assert (Ha: ct_ok N acc) by (apply br_acc_ok; assumption).
  destruct Ha as [[HA TA] [HB TB]].
  assert (E1: rotation O pr bsk off ct tv n = Ok acc) by (apply rotation_ok; assumption || lia).
  assert (E2: SampleExtractIndex pr acc 0 = Ok (extp N 0 (tA acc) (tB acc))).
  { apply SampleExtractIndex_ok; try assumption; try lia; apply W. }
  assert (E3: IdentityKeySwitching pr (extp N 0 (tA acc) (tB acc)) ksk = Ok (bootp L pr off bsk ksk tv ct)).
  { destruct (extp_ok N 0 (tA acc) (tB acc) ltac:(lia) TA TB) as [X1 X2].
    rewrite (IdentityKeySwitching_ok pr _ ksk n N (g_BASEBIT pr) (g_IKS_T pr)); try assumption; try reflexivity; try (destruct W; assumption || lia). }
  unfold ks_noise. rewrite (pw_gN _ _ W). split.
  - intros (a & b & c & F1 & F2 & F3 & H). rewrite E1 in F1. injection F1 as <-. rewrite E2 in F2. injection F2 as <-.
    rewrite E3 in F3. injection F3 as <-. exact H.
  - intro H. exists acc, (extp N 0 (tA acc) (tB acc)), (bootp L pr off bsk ksk tv ct). auto.
Qed.

(** ** the phase of the result *)
Lemma ones_above_le k : 0 <= k < N -> 0 <= ones_above N k s1 <= weight N s1.
Proof.
  intro Hk. unfold ones_above, weight. split.
  - apply zsum_nonneg. intros i Hi. eapply bin_nonneg; [exact K1|lia].
  - replace N with ((k + 1) + (N - 1 - k)) at 2 by lia. rewrite zsum_split by lia.
    assert (0 <= zsum (k + 1) (fun i => zn s1 i)) by (apply zsum_nonneg; intros; eapply bin_nonneg; [exact K1|lia]). lia.
Qed.

Lemma br_start (bsk : list (trgsw_fft O)) ct tv : (forall k, 0 <= k < N -> zn (tA tv) k = 0) ->
  mono_mul N (rho N nb n s0 ct n) (cphase N s1 tv) 0 == ext N (zn (tB tv)) (lwe_idx nb n s0 ct).
Proof.
  intro Htv. pose proof (law_N L) as H16. rewrite (lwe_idx_rho N).
  replace (2 * N - rho N nb n s0 ct n) with (0 - rho N nb n s0 ct n + N + N) by ring.
  rewrite !ext_antiper, Z.opp_involutive by lia. rewrite <- mono_ext. apply mono_eqm; [lia|]. intros k Hk. rewrite cphase_eqm.
  rewrite (neg_ext_args N (zn (tA tv)) (fun _ => 0) (zn s1) (zn s1)) by (assumption || reflexivity).
  unfold negacyclic. rewrite zsum_zero; [apply eqm_refl'; ring|]. intros i Hi. destruct (i <=? k); ring.
Qed.

Lemma bootp_phase bsk ksk off tv ct eta ek : bsk_ok L pr bsk -> @ksk_ok N pr ksk -> zlen ct = n + 1 -> ct_ok N tv ->
  (forall k, 0 <= k < N -> zn (tA tv) k = 0) ->
  left_noise O pr sk bsk off ct tv eta -> ks_noise O pr sk bsk ksk off ct tv ek ->
  close (Z.abs (zsum n eta + ek) + (1 + weight n s0) * (1 + weight N s1) + weight N s1)
    (lwe_phase n s0 (bootp L pr off bsk ksk tv ct)) (ext N (zn (tB tv)) (lwe_idx nb n s0 ct)).
Proof.
  intros Hb Hks Hc Htv HA He Hk. pose proof (law_N L) as H16. pose proof (pw_n _ _ W) as Hn.
  rewrite left_noise_iff in He by assumption. rewrite ks_noise_iff in Hk by assumption.
  destruct (br_path off bsk ct tv n Htv ltac:(lia) 0 ltac:(lia)) as (u & Hu & P).
  rewrite (br_start bsk ct tv HA) in P.
  assert (Es: zsum n (fun j => mono_mul N (turn ct n - turn ct (j + 1)) (step_err off bsk ct tv j) 0) == zsum n eta).
  { apply zsum_eqm. intros i Hi. symmetry. apply He. exact Hi. }
  exists (ones_above N 0 s1 + (zsum n eta + u) + ek). split.
  - change (zsum n (zn s0)) with (weight n s0) in Hu. pose proof (ones_above_le 0 ltac:(lia)). lia.
  - rewrite Hk, extp_phase by lia. change (rlwe_phase N s1 (tA (acc_of off bsk ct tv n)) (tB (acc_of off bsk ct tv n)) 0)
      with (cphase N s1 (acc_of off bsk ct tv n) 0). rewrite P, Es. apply eqm_refl'. ring.
Qed.

(** the constant test vector gives the sign *)
Lemma bootp_sign bsk ksk off ct b eta ek : bsk_ok L pr bsk -> @ksk_ok N pr ksk -> zlen ct = n + 1 ->
  left_noise O pr sk bsk off ct (ctv N) eta -> ks_noise O pr sk bsk ksk off ct (ctv N) ek ->
  side b (round_err pr sk) (lwe_phase n s0 ct) ->
  close (Z.abs (zsum n eta + ek) + (1 + weight n s0) * (1 + weight N s1) + weight N s1)
    (lwe_phase n s0 (bootp L pr off bsk ksk (ctv N) ct)) (mu_bit b).
Proof.
  intros Hb Hks Hc He Hk Hs. pose proof (law_N L) as H16. pose proof (pw_n _ _ W) as Hn. pose proof (pw_nb _ _ W) as Hnb.
  assert (Htv: ct_ok N (ctv N)) by (apply ctv_ok; lia).
  pose proof (bootp_phase bsk ksk off (ctv N) ct eta ek Hb Hks Hc Htv) as P.
  assert (E: ext N (zn (tB (ctv N))) (lwe_idx nb n s0 ct) = mu_bit b).
  { assert (EX: ext N (zn (tB (ctv N))) (lwe_idx nb n s0 ct) = ext N (fun _ => 2 ^ 29) (lwe_idx nb n s0 ct)).
    { assert (Hm: 0 <= lwe_idx nb n s0 ct mod N < N) by (apply Z.mod_pos_bound; lia).
      unfold ext. cbn [ctv tB]. change (zn (repeat (2 ^ 29) (Z.to_nat N))) with (znd 0 (repeat (2 ^ 29) (Z.to_nat N))).
      rewrite znd_repeat by lia. reflexivity. }
    rewrite EX, ext_const by lia.
    assert (C: close (round_err pr sk) (lwe_idx nb n s0 ct * 2 ^ (31 - nb)) (lwe_phase n s0 ct)).
    { apply lwe_idx_close; try assumption. intros i Hi. eapply bin_nonneg; eassumption. }
    unfold side in Hs. destruct b; unfold mu_bit.
    - pose proof (sign_pos N nb _ _ _ Hnb (pw_N _ _ W) C Hs). destruct (Z.ltb_spec (lwe_idx nb n s0 ct mod (2 * N)) N); [reflexivity|lia].
    - pose proof (sign_neg N nb _ _ _ Hnb (pw_N _ _ W) C Hs). destruct (Z.ltb_spec (lwe_idx nb n s0 ct mod (2 * N)) N); [lia|reflexivity]. }
  rewrite E in P. apply P; try assumption. intros k Hkk. cbn [ctv tA].
  change (zn (repeat 0 (Z.to_nat N))) with (znd 0 (repeat 0 (Z.to_nat N))). apply znd_repeat. lia.
Qed.
End Boot.

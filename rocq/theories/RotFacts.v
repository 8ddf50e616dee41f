(** * Blind rotation: pure value, phase and rotation amount *)
From Coq Require Import Lia ZifyBool Setoid Morphisms.
From Verif Require Import GoBase GoFacts GoMem MemFacts Params Tlwe TlweFacts
  Poly PolyFacts NegFacts Laws Trlwe TrlweFacts Trgsw TrgswFacts.
Local Open Scope Z_scope.

(** ** the rounded rotation amounts *)
Definition br_b (N nb b : Z) : Z := 2 * N - (b + 2 ^ (30 - nb)) / 2 ^ (31 - nb).
Definition br_a (nb a : Z) : Z := ((a + 2 ^ (30 - nb)) mod two32) / 2 ^ (31 - nb).

Lemma bTilda_ok N nb b : 0 <= nb <= 30 -> bTilda N nb b = Ok (br_b N nb b).
Proof.
  intro H. unfold bTilda, br_b. replace (31 - nb - 1) with (30 - nb) by lia. rewrite shl_int_ok by lia.
  cbn [bind]. replace (32 - nb - 1) with (31 - nb) by lia.
  destruct (Z.ltb_spec (31 - nb) 0); [lia|]. rewrite Z.shiftl_1_l, Z.shiftr_div_pow2 by lia. reflexivity.
Qed.

Lemma aTilda_ok nb a : 0 <= nb <= 30 -> aTilda nb a = Ok (br_a nb a).
Proof.
  intro H. unfold aTilda, br_a, shl32, shr32. replace (31 - nb - 1) with (30 - nb) by lia.
  replace (32 - nb - 1) with (31 - nb) by lia.
  destruct (Z.ltb_spec (30 - nb) 0); [lia|]. cbn [bind]. destruct (Z.ltb_spec (31 - nb) 0); [lia|].
  rewrite Z.shiftr_div_pow2, Z.shiftl_1_l by lia. unfold tadd.
  assert (Hp: 0 < 2 ^ (30 - nb) < two32).
  { split; [apply Z.pow_pos_nonneg; lia|]. change two32 with (2 ^ 32). apply Z.pow_lt_mono_r; lia. }
  rewrite (w32_small (2 ^ (30 - nb))) by (unfold tok; lia). reflexivity.
Qed.

(** ** the exponent *)
Definition rho (N nb n : Z) (s ct : list Z) (i : Z) : Z :=
  br_b N nb (zn ct n) + zsum i (fun j => zn s j * br_a nb (zn ct j)).

(** the table index that ends up at coefficient 0 *)
Definition lwe_idx (nb n : Z) (s ct : list Z) : Z :=
  (zn ct n + 2 ^ (30 - nb)) / 2 ^ (31 - nb) - zsum n (fun j => zn s j * br_a nb (zn ct j)).

Lemma lwe_idx_rho N nb n s ct : lwe_idx nb n s ct = 2 * N - rho N nb n s ct n.
Proof. unfold lwe_idx, rho, br_b. ring. Qed.

Lemma pow_split nb : 0 <= nb <= 30 -> 2 ^ (31 - nb) = 2 * 2 ^ (30 - nb).
Proof. intro. replace (31 - nb) with (Z.succ (30 - nb)) by lia. rewrite Z.pow_succ_r by lia. reflexivity. Qed.

(** the rounded index approximates the phase *)
Lemma lwe_idx_close nb n s ct : 0 <= nb <= 30 -> 0 <= n -> (forall i, 0 <= i < n -> 0 <= zn s i) ->
  close (2 ^ (30 - nb) * (1 + weight n s)) (lwe_idx nb n s ct * 2 ^ (31 - nb)) (lwe_phase n s ct).
Proof.
  intros Hnb Hn Hs. rewrite lwe_phase_eqm. unfold lwe_idx. set (h := 2 ^ (30 - nb)). set (q := 2 ^ (31 - nb)).
  assert (Hh: 0 < h) by (apply Z.pow_pos_nonneg; lia).
  assert (Hq: q = 2 * h) by (apply pow_split; lia).
  rewrite Z.mul_sub_distr_r. replace (h * (1 + weight n s)) with (h + h * weight n s) by ring.
  apply close_sub.
  - exists (q * ((zn ct n + h) / q) - zn ct n). split; [|apply eqm_refl'; ring].
    pose proof (Z.div_mod (zn ct n + h) q ltac:(lia)). pose proof (Z.mod_pos_bound (zn ct n + h) q ltac:(lia)). lia.
  - unfold weight. rewrite <- zsum_mul_r, <- zsum_mul_l. apply zsum_close. intros i Hi.
    pose proof (Hs i Hi) as Hsi. unfold br_a. fold h q. set (a := zn ct i).
    exists (zn s i * (q * (((a + h) mod two32) / q) - (a + h) mod two32 + h)). split.
    + pose proof (Z.div_mod ((a + h) mod two32) q ltac:(lia)).
      pose proof (Z.mod_pos_bound ((a + h) mod two32) q ltac:(lia)).
      rewrite Z.abs_mul, (Z.abs_eq (zn s i)) by assumption. rewrite (Z.mul_comm h). apply Z.mul_le_mono_nonneg_l; lia.
    + assert (E: (a + h) mod two32 == a + h) by (unfold eqm; apply Z.mod_mod; discriminate).
      set (y := (a + h) mod two32) in *. set (z := y / q). clearbody z.
      transitivity (zn s i * (q * z) - zn s i * y + zn s i * (a + h)).
      * rewrite E. apply eqm_refl'. ring.
      * apply eqm_refl'. unfold a. ring.
Qed.

(** ** sign lookup *)
Lemma ext_const N mu k : 0 < N -> ext N (fun _ => mu) k = if k mod (2 * N) <? N then mu else - mu.
Proof.
  intro HN. unfold ext.
  pose proof (Z.div_mod k (2 * N) ltac:(lia)) as E. pose proof (Z.mod_pos_bound k (2 * N) ltac:(lia)) as R.
  set (q := k / (2 * N)) in *. set (r := k mod (2 * N)) in *.
  destruct (Z.ltb_spec r N).
  - replace (k / N) with (2 * q). + rewrite Z.even_mul. reflexivity.
    + apply (Z.div_unique_pos k N (2 * q) r); lia.
  - replace (k / N) with (2 * q + 1). + rewrite Z.even_add, Z.even_mul. reflexivity.
    + apply (Z.div_unique_pos k N (2 * q + 1) (r - N)); lia.
Qed.

(** an index times 2^(31-nb) modulo 2^32, where 2N steps make a full turn *)
Lemma idx_mod N nb idx : 0 <= nb <= 30 -> N = 2 ^ nb ->
  (idx * 2 ^ (31 - nb)) mod two32 = (idx mod (2 * N)) * 2 ^ (31 - nb).
Proof.
  intros H ->. set (q := 2 ^ (31 - nb)).
  assert (0 < q) by (apply Z.pow_pos_nonneg; lia).
  assert (E: two32 = 2 * 2 ^ nb * q).
  { unfold q. rewrite <- Z.mul_assoc, <- Z.pow_add_r by lia. replace (nb + (31 - nb)) with 31 by lia. reflexivity. }
  assert (0 < 2 ^ nb) by (apply Z.pow_pos_nonneg; lia).
  rewrite E. apply Zmult_mod_distr_r.
Qed.

Lemma sign_pos N nb idx phi d : 0 <= nb <= 30 -> N = 2 ^ nb ->
  close d (idx * 2 ^ (31 - nb)) phi -> d <= centered phi < two31 - d -> idx mod (2 * N) < N.
Proof.
  intros Hnb HN (e & He & E) Hphi. pose proof (centered_eq phi) as Hc. pose proof (idx_mod N nb idx Hnb HN) as Hm.
  assert (E2: idx * 2 ^ (31 - nb) == centered phi + e) by (rewrite E, Hc; reflexivity).
  unfold eqm in E2. rewrite Hm in E2. rewrite (Z.mod_small (centered phi + e)) in E2 by (change two32 with (2 * two31); lia).
  clear Hm. set (q := 2 ^ (31 - nb)) in *. set (r := idx mod (2 * N)) in *. clearbody r.
  assert (0 < q) by (apply Z.pow_pos_nonneg; lia).
  assert (N * q = two31). { subst N. unfold q. rewrite <- Z.pow_add_r by lia. replace (nb + (31 - nb)) with 31 by lia. reflexivity. }
  clearbody q. destruct (Z_lt_ge_dec r N); [assumption|]. assert (N * q <= r * q) by (apply Z.mul_le_mono_nonneg_r; lia). lia.
Qed.

Lemma sign_neg N nb idx phi d : 0 <= nb <= 30 -> N = 2 ^ nb ->
  close d (idx * 2 ^ (31 - nb)) phi -> - two31 + d <= centered phi < - d -> N <= idx mod (2 * N).
Proof.
  intros Hnb HN (e & He & E) Hphi. pose proof (centered_eq phi) as Hc. pose proof (idx_mod N nb idx Hnb HN) as Hm.
  assert (E2: idx * 2 ^ (31 - nb) == centered phi + e) by (rewrite E, Hc; reflexivity).
  unfold eqm in E2. rewrite Hm in E2.
  assert (E3: (centered phi + e) mod two32 = centered phi + e + two32).
  { symmetry. apply (Z.mod_unique_pos _ _ (-1)); change two32 with (2 * two31); lia. }
  rewrite E3 in E2.
  clear Hm E3. set (q := 2 ^ (31 - nb)) in *. set (r := idx mod (2 * N)) in *. clearbody r.
  assert (0 < q) by (apply Z.pow_pos_nonneg; lia).
  assert (N * q = two31). { subst N. unfold q. rewrite <- Z.pow_add_r by lia. replace (nb + (31 - nb)) with 31 by lia. reflexivity. }
  change two32 with (2 * two31) in E2. clearbody q. destruct (Z_le_gt_dec N r); [assumption|].
  assert (r * q <= N * q - q) by (replace (N * q - q) with ((N - 1) * q) by ring; apply Z.mul_le_mono_nonneg_r; lia). lia.
Qed.

(** ** the rotated accumulator *)
Lemma close_trans' B1 B2 B a b c : close B1 a b -> close B2 b c -> B1 + B2 <= B -> close B a c.
Proof. intros. eapply close_weaken; [eapply close_trans; eassumption|assumption]. Qed.

Section BR.
Context {O : fops} {N : Z} (L : flaws O N) (bg l off nb n : Z).

(** the two operands of step [g], [at]: the accumulator and its rotation *)
Definition br_step (g : trgsw_fft O) (a : Z) (acc : trlwe) : trlwe :=
  cmuxp L bg l off g acc (crot N a acc).

Fixpoint br_nat (k : nat) (bsk : list (trgsw_fft O)) (ct : list Z) (tv : trlwe) : trlwe :=
  match k with
  | 0%nat => crot N (br_b N nb (zn ct n)) tv
  | S k => br_step (znd [] bsk (Z.of_nat k)) (br_a nb (zn ct (Z.of_nat k))) (br_nat k bsk ct tv)
  end.
(** the accumulator after i steps *)
Definition br_acc (bsk : list (trgsw_fft O)) (ct : list Z) (tv : trlwe) (i : Z) : trlwe := br_nat (Z.to_nat i) bsk ct tv.

Lemma br_acc_0 bsk ct tv : br_acc bsk ct tv 0 = crot N (br_b N nb (zn ct n)) tv.
Proof. reflexivity. Qed.
Lemma br_acc_S bsk ct tv i : 0 <= i ->
  br_acc bsk ct tv (i + 1) = br_step (znd [] bsk i) (br_a nb (zn ct i)) (br_acc bsk ct tv i).
Proof.
  intro H. unfold br_acc. replace (Z.to_nat (i + 1)) with (S (Z.to_nat i)) by lia. cbn [br_nat].
  rewrite Z2Nat.id by lia. reflexivity.
Qed.

Lemma br_acc_ok bsk ct tv i : ct_ok N tv -> 0 <= i -> ct_ok N (br_acc bsk ct tv i).
Proof.
  intros Htv Hi. pose proof (law_N L). destruct (Z.eq_dec i 0) as [->|Hne].
  - rewrite br_acc_0. apply crot_ok; [lia|assumption].
  - replace i with (i - 1 + 1) by lia. rewrite br_acc_S by lia. unfold br_step. exact (cmuxp_ok L bg l off _ _ _).
Qed.

(** the operand of the external product at step i *)
Definition br_diff (bsk : list (trgsw_fft O)) (ct : list Z) (tv : trlwe) (i : Z) : trlwe :=
  csub N (crot N (br_a nb (zn ct i)) (br_acc bsk ct tv i)) (br_acc bsk ct tv i).

(** error of the external product of step i *)
Definition br_err (s1 s0 : list Z) (bsk : list (trgsw_fft O)) (ct : list Z) (tv : trlwe) (i eta : Z) : Prop :=
  forall k, 0 <= k < N ->
    close eta (cphase N s1 (epp L bg l off (znd [] bsk i) (br_diff bsk ct tv i)) k)
              (zn s0 i * cphase N s1 (br_diff bsk ct tv i) k).

Lemma br_phase s1 s0 bsk ct tv (eta : Z -> Z) i : (forall j, 0 <= j < N -> 0 <= zn s1 j) ->
  0 <= i -> (forall j, 0 <= j < i -> zn s0 j = 0 \/ zn s0 j = 1) ->
  (forall j, 0 <= j < i -> br_err s1 s0 bsk ct tv j (eta j)) ->
  forall k, 0 <= k < N ->
  close (zsum i eta + (1 + zsum i (zn s0)) * (1 + weight N s1))
    (cphase N s1 (br_acc bsk ct tv i) k) (mono_mul N (rho N nb n s0 ct i) (cphase N s1 tv) k).
Proof.
  intros Hs1 Hi Hs0 He. pose proof (law_N L) as H16.
  assert (Hw: 0 <= weight N s1) by (apply zsum_nonneg; assumption).
  revert i Hi Hs0 He. apply (zsum_ind (fun i => (forall j, 0 <= j < i -> zn s0 j = 0 \/ zn s0 j = 1) ->
    (forall j, 0 <= j < i -> br_err s1 s0 bsk ct tv j (eta j)) -> forall k, 0 <= k < N ->
    close (zsum i eta + (1 + zsum i (zn s0)) * (1 + weight N s1))
    (cphase N s1 (br_acc bsk ct tv i) k) (mono_mul N (rho N nb n s0 ct i) (cphase N s1 tv) k))).
  - intros _ _ k Hk. rewrite br_acc_0. unfold rho. rewrite !zsum_0 by lia.
    replace (br_b N nb (zn ct n) + 0) with (br_b N nb (zn ct n)) by ring.
    replace (0 + (1 + 0) * (1 + weight N s1)) with (1 + weight N s1) by ring. apply crot_phase; (assumption || lia).
  - intros i Hi IH Hb He k Hk. rewrite br_acc_S by assumption. rewrite !zsum_S by assumption.
    set (acc := br_acc bsk ct tv i) in *. set (a := br_a nb (zn ct i)).
    assert (IH': forall k, 0 <= k < N -> close (zsum i eta + (1 + zsum i (zn s0)) * (1 + weight N s1))
       (cphase N s1 acc k) (mono_mul N (rho N nb n s0 ct i) (cphase N s1 tv) k)).
    { apply IH; intros; [apply Hb|apply He]; lia. }
    pose proof (He i ltac:(lia) k Hk) as H1. unfold br_diff in H1. fold acc a in H1.
    pose proof (cmuxp_phase L bg l off _ acc (crot N a acc) s1 (zn s0 i) (eta i) k Hk H1) as H2.
    unfold br_step. fold a.
    assert (Er: rho N nb n s0 ct (i + 1) = zn s0 i * a + rho N nb n s0 ct i).
    { unfold rho. rewrite zsum_S by assumption. fold a. ring. }
    rewrite Er. destruct (Hb i ltac:(lia)) as [E0|E0]; rewrite E0 in *.
    + replace (0 * a + rho N nb n s0 ct i) with (rho N nb n s0 ct i) by ring.
      eapply close_trans'; [exact H2| |].
      * rewrite Z.mul_0_l, Z.add_0_r. apply IH'. assumption.
      * lia.
    + eapply close_trans'; [exact H2| |].
      * replace (cphase N s1 acc k + 1 * (cphase N s1 (crot N a acc) k - cphase N s1 acc k))
          with (cphase N s1 (crot N a acc) k) by ring.
        eapply close_trans'; [apply crot_phase; (assumption || lia)| |].
        -- rewrite <- (mono_mono N (1 * a) _) by lia. rewrite Z.mul_1_l. apply mono_close; [lia|]. exact IH'.
        -- apply Z.le_refl.
      * lia.
Qed.

(** coefficient 0 at the end: the table entry selected by the index *)
Lemma br_phase0 s1 s0 bsk ct tv (eta : Z -> Z) : (forall j, 0 <= j < N -> 0 <= zn s1 j) ->
  0 <= n -> (forall j, 0 <= j < n -> zn s0 j = 0 \/ zn s0 j = 1) ->
  (forall j, 0 <= j < n -> br_err s1 s0 bsk ct tv j (eta j)) ->
  (forall k, 0 <= k < N -> zn (tA tv) k = 0) ->
  close (zsum n eta + (1 + weight n s0) * (1 + weight N s1))
    (cphase N s1 (br_acc bsk ct tv n) 0) (ext N (zn (tB tv)) (lwe_idx nb n s0 ct)).
Proof.
  intros Hs1 Hn Hb He Htv. pose proof (law_N L) as H16.
  eapply close_trans'; [apply (br_phase s1 s0 bsk ct tv eta n); (assumption || lia)| |].
  - rewrite mono_ext. rewrite (lwe_idx_rho N).
    replace (2 * N - rho N nb n s0 ct n) with (0 - rho N nb n s0 ct n + N + N) by ring.
    rewrite !ext_antiper, Z.opp_involutive by lia.
    apply (close_weaken 0); [|apply (Z.le_refl 0)].
    apply (mono_close N (rho N nb n s0 ct n) _ _ 0 0); [lia|]. intros k Hk.
    exists 0. split; [reflexivity|]. rewrite cphase_eqm. 
    rewrite (neg_ext_args N (zn (tA tv)) (fun _ => 0) (zn s1) (zn s1)) by (assumption || reflexivity).
    unfold negacyclic. rewrite zsum_zero; [apply eqm_refl'; ring|]. intros i Hi. destruct (i <=? k); ring.
  - change (zsum n (zn s0)) with (weight n s0). lia.
Qed.

End BR.

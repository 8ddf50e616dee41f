(** * Twiddle tables

    bitReverseInPlace permutes by bit reversal, and genTwiddleFactors lays
    the factors of the stage with m groups at position m - 1 (forward) and
    H - 2m (inverse). *)
From Coq Require Import Lia ZifyBool.
From Verif Require Import GoBase GoFacts GoMem Poly Fft FftFacts SchedFacts.
Local Open Scope Z_scope.

(** ** bit reversal *)

(** the k low bits of i in reverse order *)
Fixpoint rv (k : nat) (i : Z) : Z :=
  match k with
  | O => 0
  | S k => (i mod 2) * 2 ^ Z.of_nat k + rv k (i / 2)
  end.

Lemma rv_bound k i : 0 <= rv k i < 2 ^ Z.of_nat k.
Proof.
  revert i. induction k as [|k IH]; intro i; cbn [rv].
  - change (2 ^ Z.of_nat 0) with 1. lia.
  - specialize (IH (i / 2)). rewrite Nat2Z.inj_succ, Z.pow_succ_r by lia.
    pose proof (Z.mod_pos_bound i 2 ltac:(lia)). assert (i mod 2 = 0 \/ i mod 2 = 1) as [-> | ->] by lia; lia.
Qed.

Lemma rv_testbit k i j : 0 <= j < Z.of_nat k -> Z.testbit (rv k i) j = Z.testbit i (Z.of_nat k - 1 - j).
Proof.
  revert i j. induction k as [|k IH]; intros i j Hj; [lia|]. cbn [rv].
  pose proof (rv_bound k (i / 2)) as B. set (P := 2 ^ Z.of_nat k) in *.
  destruct (Z.eq_dec j (Z.of_nat k)) as [->|].
  - rewrite Z.testbit_odd, Z.shiftr_div_pow2 by lia. fold P. rewrite Z.div_add_l by lia.
    rewrite (Z.div_small (rv k (i / 2))) by lia. rewrite Z.add_0_r.
    replace (Z.of_nat (S k) - 1 - Z.of_nat k) with 0 by lia.
    rewrite Z.bit0_odd. rewrite Zodd_mod, Zmod_mod, <- Zodd_mod. reflexivity.
  - rewrite <- (Z.mod_pow2_bits_low _ (Z.of_nat k)) by lia. fold P.
    replace ((i mod 2) * P + rv k (i / 2)) with (rv k (i / 2) + (i mod 2) * P) by ring.
    rewrite Z_mod_plus_full, Z.mod_small by lia. rewrite IH by lia.
    rewrite <- Z.div2_div, Z.div2_spec, Z.shiftr_spec by lia. f_equal. lia.
Qed.

Lemma rv_inv k i : 0 <= i < 2 ^ Z.of_nat k -> rv k (rv k i) = i.
Proof.
  intro Hi. apply Z.bits_inj'. intros n Hn. pose proof (rv_bound k (rv k i)).
  destruct (Z_lt_dec n (Z.of_nat k)).
  - rewrite !rv_testbit by lia. f_equal. lia.
  - assert (G: forall x, 0 <= x < 2 ^ Z.of_nat k -> Z.testbit x n = false).
    { intros x Hx. destruct (Z.eq_dec x 0) as [->|]; [apply Z.bits_0|]. apply Z.bits_above_log2; [lia|].
      apply Z.lt_le_trans with (Z.of_nat k); [|lia]. apply Z.log2_lt_pow2; lia. }
    rewrite !G by assumption. reflexivity.
Qed.

Lemma rv_even k i : rv (S k) (2 * i) = rv k i.
Proof.
  cbn [rv]. rewrite (Z.mul_comm 2 i), Z.mod_mul, Z.div_mul by lia. lia.
Qed.
Lemma rv_odd k i : rv (S k) (2 * i + 1) = 2 ^ Z.of_nat k + rv k i.
Proof.
  cbn [rv]. replace (2 * i + 1) with (1 + i * 2) by lia. rewrite Z_mod_plus_full, Z.div_add by lia.
  change (1 mod 2) with 1. change (1 / 2) with 0. rewrite Z.add_0_l. lia.
Qed.

(** more bits than needed only move the result up *)
Lemma rv_more s e i : 0 <= i < 2 ^ Z.of_nat s -> rv (s + e) i = rv s i * 2 ^ Z.of_nat e.
Proof.
  revert i. induction s as [|s IH]; intros i Hi.
  - change (2 ^ Z.of_nat 0) with 1 in Hi. assert (i = 0) by lia. subst. cbn [rv Nat.add].
    assert (G: forall k, rv k 0 = 0) by (induction k as [|k IHk]; cbn [rv]; [reflexivity|change (0 mod 2) with 0; change (0 / 2) with 0; lia]).
    rewrite G. reflexivity.
  - cbn [Nat.add rv]. rewrite IH.
    + rewrite Nat2Z.inj_add, Z.pow_add_r by lia. ring.
    + rewrite Nat2Z.inj_succ, Z.pow_succ_r in Hi by lia. split; [apply Z.div_pos; lia|].
      apply Z.div_lt_upper_bound; lia.
Qed.

Lemma rev_inc_ok k : forall fuel i, (k <= fuel)%nat -> 
  rev_inc fuel (match k with O => 0 | S k' => 2 ^ Z.of_nat k' end) (rv k i) = rv k (i + 1).
Proof.
  induction k as [|k IH]; intros fuel i Hf.
  - destruct fuel; reflexivity.
  - destruct fuel as [|fuel]; [lia|]. pose proof (rv_bound k (i / 2)) as B.
    assert (P: 0 < 2 ^ Z.of_nat k) by (apply Z.pow_pos_nonneg; lia).
    pose proof (Z.div_mod i 2 ltac:(lia)) as D. pose proof (Z.mod_pos_bound i 2 ltac:(lia)).
    cbn [rev_inc].
    assert (i mod 2 = 0 \/ i mod 2 = 1) as [E|E] by lia.
    + assert (E1: rv (S k) i = rv k (i / 2)) by (cbn [rv]; rewrite E; lia).
      assert (E2: rv (S k) (i + 1) = 2 ^ Z.of_nat k + rv k (i / 2)).
      { rewrite <- (rv_odd k). f_equal. lia. }
      rewrite E1, E2. destruct (Z.ltb_spec 0 (2 ^ Z.of_nat k)); [|lia].
      destruct (Z.leb_spec (2 ^ Z.of_nat k) (rv k (i / 2))); [lia|]. cbn [andb]. lia.
    + assert (E1: rv (S k) i = 2 ^ Z.of_nat k + rv k (i / 2)) by (cbn [rv]; rewrite E; lia).
      assert (E2: rv (S k) (i + 1) = rv k (i / 2 + 1)) by (rewrite <- (rv_even k); f_equal; lia).
      rewrite E1, E2. destruct (Z.ltb_spec 0 (2 ^ Z.of_nat k)); [|lia].
      destruct (Z.leb_spec (2 ^ Z.of_nat k) (2 ^ Z.of_nat k + rv k (i / 2))); [|lia]. cbn [andb].
      replace (2 ^ Z.of_nat k + rv k (i / 2) - 2 ^ Z.of_nat k) with (rv k (i / 2)) by lia.
      rewrite <- (IH fuel) by lia. f_equal. rewrite Z.shiftr_div_pow2 by lia. change (2 ^ 1) with 2.
      destruct k as [|k'].
      * reflexivity.
      * rewrite Nat2Z.inj_succ, Z.pow_succ_r by lia. rewrite Z.mul_comm. apply Z.div_mul. lia.
Qed.

(** poly_evaluator.go:146-165 *)
Lemma bitReverse_ok {T} (d : T) k l : zlen l = 2 ^ Z.of_nat k ->
  bitReverseInPlace l = Ok (tab (2 ^ Z.of_nat k) (fun i => znd d l (rv k i))).
Proof.
  intro Hl. unfold bitReverseInPlace. rewrite Hl. set (n := 2 ^ Z.of_nat k) in *.
  assert (Hn: 0 < n) by (apply Z.pow_pos_nonneg; lia).
  destruct (Z.leb_spec n 1) as [G|G].
  - f_equal. apply (eq_tab d); [assumption|]. intros i Hi. f_equal. pose proof (rv_bound k i). fold n in H. lia.
  - set (inv := fun i (s : list T * Z) => zlen (fst s) = n /\ snd s = rv k i /\
       forall p, 0 <= p < n -> znd d (fst s) p = if (p <? i) || (rv k p <? i) then znd d l (rv k p) else znd d l p).
    match goal with |- bind (for_range 0 n ?b ?s) _ = _ =>
      destruct (for_range_inv inv 0 n b s) as ([l' j'] & E & L & J & V) end.
    + lia.
    + repeat split; cbn [fst snd]; [assumption| |].
      * clear. induction k as [|k IH]; cbn [rv]; [reflexivity|]. change (0 mod 2) with 0. change (0 / 2) with 0. lia.
      * intros p Hp. pose proof (rv_bound k p). destruct ((p <? 0) || (rv k p <? 0)) eqn:Q; [lia|reflexivity].
    + intros i [a j] Hi (L & J & V). cbn [fst snd] in L, J, V. subst j. pose proof (rv_bound k i) as Bi. fold n in Bi.
      assert (Er: rev_inc (Z.to_nat n) (Z.shiftr n 1) (rv k i) = rv k (i + 1)).
      { destruct k as [|k]; [unfold n in G; change (2 ^ Z.of_nat 0) with 1 in G; lia|].
        rewrite <- (rev_inc_ok (S k) (Z.to_nat n)).
        - f_equal. rewrite Z.shiftr_div_pow2 by lia. change (2 ^ 1) with 2. unfold n.
          rewrite Nat2Z.inj_succ, Z.pow_succ_r by lia. rewrite Z.mul_comm. apply Z.div_mul. lia.
        - unfold n. assert (Z.of_nat (S k) < 2 ^ Z.of_nat (S k)) by (apply Z.pow_gt_lin_r; lia). lia. }
      rewrite Er.
      destruct (Z.ltb_spec i (rv k i)) as [Gi|Gi].
      * rewrite !(get_ok d) by lia. cbn [bind]. rewrite set_ok by lia. cbn [bind]. rewrite set_ok by (rewrite zlen_upd; lia). cbn [bind].
        eexists; split; [reflexivity|]. split; [|split]; cbn [fst snd]; [rewrite !zlen_upd; assumption|reflexivity|].
        intros p Hp. rewrite !znd_upd by (rewrite ?zlen_upd; lia). rewrite !V by lia.
        pose proof (rv_inv k i ltac:(lia)) as Ii. pose proof (rv_inv k p ltac:(lia)) as Ip.
        assert (Q1: (i <? i) || (rv k i <? i) = false) by lia. rewrite Q1.
        rewrite Ii.
        assert (Q2: (rv k i <? i) || (i <? i) = false) by lia. rewrite Q2.
        destruct (Z.eqb_spec p (rv k i)) as [->|N1].
        -- rewrite Ii. destruct ((rv k i <? i + 1) || (i <? i + 1)) eqn:Q; [reflexivity|lia].
        -- destruct (Z.eqb_spec p i) as [->|N2].
           ++ destruct ((i <? i + 1) || (rv k i <? i + 1)) eqn:Q; [reflexivity|lia].
           ++ assert (N3: rv k p <> i) by congruence.
              destruct ((p <? i) || (rv k p <? i)) eqn:Q; destruct ((p <? i + 1) || (rv k p <? i + 1)) eqn:Q'; try lia; reflexivity.
      * cbn [bind]. eexists; split; [reflexivity|]. split; [|split]; cbn [fst snd]; [assumption|reflexivity|].
        intros p Hp. rewrite V by assumption.
        pose proof (rv_inv k i ltac:(lia)) as Ii. pose proof (rv_inv k p ltac:(lia)) as Ip.
        destruct ((p <? i) || (rv k p <? i)) eqn:Q; destruct ((p <? i + 1) || (rv k p <? i + 1)) eqn:Q'; try lia; try reflexivity.
        assert (p = i \/ rv k p = i) as [->|Hr] by lia.
        -- assert (rv k i = i) by lia. congruence.
        -- assert (rv k i = p) by congruence. assert (p = i) by lia. congruence.
    + rewrite E. cbn [bind fst snd] in *. f_equal. apply (eq_tab d); [assumption|]. intros p Hp. rewrite V by assumption.
      destruct ((p <? n) || (rv k p <? n)) eqn:Q; [reflexivity|lia].
Qed.

(** ** the tables *)
Section Tab.
Context (R : arith).
Notation cplx := (AN R * AN R)%type.
Notation z := (a_zero R, a_zero R).
Context (h : Z) (Hh : 1 <= h).
Let H := 2 ^ h.
Let k := Z.to_nat (h - 1).

(** factor i of the stage with 2^s groups *)
Definition tw_val (s i : Z) : cplx :=
  cxmul R STables (a_cis R (tw_angle R H (rv k i))) (a_cis R (fold_angle R H (2 ^ (h - 1 - s)))).
Definition twi_val (s i : Z) : cplx :=
  cxmul R STables (a_cis R (a_neg R (tw_angle R H (rv k i)))) (a_cis R (fold_angle_inv R H (2 ^ (h - 1 - s)))).

Definition tw_at (p : Z) : cplx := let s := Z.log2 (p + 1) in tw_val s (p + 1 - 2 ^ s).
Definition twi_at (p : Z) : cplx := let s := Z.log2 (H - 1 - p) in twi_val s (p - (H - 2 * 2 ^ s)).

Lemma tab_app {A} a b (f : Z -> A) : 0 <= a -> 0 <= b -> tab a f ++ tab b (fun i => f (a + i)) = tab (a + b) f.
Proof.
  intros Ha Hb. destruct (Z.eq_dec (a + b) 0) as [E|E].
  - assert (a = 0) by lia. assert (b = 0) by lia. subst. reflexivity.
  - set (d := f 0). apply (eq_tab d).
    + rewrite zlen_app, !zlen_tab by assumption. reflexivity.
    + intros i Hi. destruct (Z_lt_dec i a).
      * rewrite znd_app1 by (rewrite zlen_tab; lia). apply znd_tab. lia.
      * rewrite znd_app2 by (rewrite zlen_tab; lia). rewrite zlen_tab by assumption. rewrite znd_tab by lia. f_equal. lia.
Qed.

Lemma append_ok (l : list cplx) (g : Z -> cplx) (F : cplx -> cplx) m acc : 0 <= m <= zlen l ->
  (forall i, 0 <= i < m -> F (znd z l i) = g i) ->
  for_range 0 m (fun i tw => x <- get l i ;; Ok (tw ++ [F x])) acc = Ok (acc ++ tab m g).
Proof.
  intros Hm HF.
  destruct (for_range_inv (fun i a => a = acc ++ tab i g) 0 m (fun i tw => x <- get l i ;; Ok (tw ++ [F x])) acc) as (a & E & ->).
  - lia.
  - rewrite app_nil_r. reflexivity.
  - intros i a Hi ->. rewrite (get_ok z) by lia. cbn [bind]. eexists; split; [reflexivity|]. rewrite HF by lia.
    rewrite <- app_assoc. f_equal. rewrite <- (tab_app i 1) by lia. f_equal. change (tab 1 (fun j => g (i + j))) with [g (i + 0)]. rewrite Z.add_0_r. reflexivity.
  - exact E.
Qed.

Lemma log2_pos_in s i : 0 <= s -> 0 <= i < 2 ^ s -> Z.log2 (2 ^ s - 1 + i + 1) = s.
Proof. intros Hs Hi. apply Z.log2_unique; [lia|]. rewrite Z.pow_succ_r by lia. lia. Qed.

Lemma tw_at_ok s i : 0 <= s -> 0 <= i < 2 ^ s -> tw_at (2 ^ s - 1 + i) = tw_val s i.
Proof. intros Hs Hi. unfold tw_at. rewrite log2_pos_in by assumption. cbv zeta. f_equal. lia. Qed.

Lemma twi_at_ok s i : 0 <= s -> 0 <= i < 2 ^ s -> twi_at (H - 2 * 2 ^ s + i) = twi_val s i.
Proof.
  intros Hs Hi. unfold twi_at.
  replace (Z.log2 (H - 1 - (H - 2 * 2 ^ s + i))) with s; [cbv zeta; f_equal; lia|].
  symmetry. apply Z.log2_unique; [lia|]. rewrite Z.pow_succ_r by lia. lia.
Qed.

Notation twF l := (tab (2 ^ (h - 1)) (fun i => a_cis R (l i))).

Lemma tw_up_ok (F : Z -> cplx) : (forall i, 0 <= i < 2 ^ (h - 1) -> F i = a_cis R (tw_angle R H (rv k i))) ->
  forall n s fuel, h - s = Z.of_nat n -> 0 <= s -> (n < fuel)%nat ->
  tw_up R fuel (tab (2 ^ (h - 1)) F) H (2 ^ s) (if s =? h then 0 else 2 ^ (h - 1 - s)) (tab (2 ^ s - 1) tw_at) = Ok (tab (H - 1) tw_at).
Proof.
  intros HF. induction n as [|n IH]; intros s fuel Hn Hs Hf; (destruct fuel as [|fuel]; [lia|]); cbn [tw_up].
  - assert (s = h) by lia. subst s. fold H.
    assert (H / 2 = 2 ^ (h - 1)) as -> by (unfold H; change 2 with (2 ^ 1) at 2; apply p2div; lia).
    assert (2 ^ (h - 1) < H) by (unfold H; apply Z.pow_lt_mono_r; lia).
    destruct (Z.leb_spec H (2 ^ (h - 1))); [lia|]. reflexivity.
  - assert (H / 2 = 2 ^ (h - 1)) as -> by (unfold H; change 2 with (2 ^ 1) at 2; apply p2div; lia).
    assert (2 ^ s <= 2 ^ (h - 1)) by (apply Z.pow_le_mono_r; lia).
    destruct (Z.leb_spec (2 ^ s) (2 ^ (h - 1))); [|lia].
    destruct (Z.eqb_spec s h); [lia|]. cbv zeta. pose proof (p2 s Hs). pose proof (p2 (h - 1) ltac:(lia)).
    rewrite (append_ok _ (tw_val s) (fun x => cxmul R STables x (a_cis R (fold_angle R H (2 ^ (h - 1 - s)))))).
    + cbn [bind].
      assert (tab (2 ^ s - 1) tw_at ++ tab (2 ^ s) (tw_val s) = tab (2 ^ (s + 1) - 1) tw_at) as ->.
      { rewrite (tab_ext (2 ^ s) (tw_val s) (fun i => tw_at (2 ^ s - 1 + i))) by (intros; symmetry; apply tw_at_ok; assumption).
        rewrite tab_app by lia. f_equal. rewrite p2S by assumption. lia. }
      assert (Z.shiftl (2 ^ s) 1 = 2 ^ (s + 1)) as -> by (rewrite Z.shiftl_mul_pow2 by lia; rewrite p2S by assumption; change (2 ^ 1) with 2; lia).
      assert (Z.shiftr (2 ^ (h - 1 - s)) 1 = if s + 1 =? h then 0 else 2 ^ (h - 1 - (s + 1))) as ->.
      { rewrite Z.shiftr_div_pow2 by lia. destruct (Z.eqb_spec (s + 1) h).
        - replace (h - 1 - s) with 0 by lia. reflexivity.
        - rewrite p2div by lia. f_equal. lia. }
      apply IH; lia.
    + rewrite zlen_tab by lia. lia.
    + intros i Hi. rewrite znd_tab by lia. rewrite HF by lia. reflexivity.
Qed.

Lemma tw_down_ok (F : Z -> cplx) : (forall i, 0 <= i < 2 ^ (h - 1) -> F i = a_cis R (a_neg R (tw_angle R H (rv k i)))) ->
  forall n fuel, Z.of_nat n <= h -> (n < fuel)%nat ->
  tw_down R fuel (tab (2 ^ (h - 1)) F) H (match n with O => 0 | S n => 2 ^ Z.of_nat n end) (2 ^ (h - Z.of_nat n)) (tab (H - 2 ^ Z.of_nat n) twi_at)
  = Ok (tab (H - 1) twi_at).
Proof.
  intros HF. induction n as [|n IH]; intros fuel Hn Hf; (destruct fuel as [|fuel]; [lia|]); cbn [tw_down].
  - reflexivity.
  - set (s := Z.of_nat n) in *. assert (Hs: 0 <= s) by lia. pose proof (p2 s Hs). pose proof (p2 (h - 1) ltac:(lia)).
    destruct (Z.leb_spec 1 (2 ^ s)); [|lia]. cbv zeta.
    assert (2 ^ s <= 2 ^ (h - 1)) by (apply Z.pow_le_mono_r; lia).
    assert (EH: H = 2 * 2 ^ (h - 1)) by (unfold H; rewrite <- p2S by lia; f_equal; lia).
    replace (h - Z.of_nat (S n)) with (h - 1 - s) by lia.
    rewrite (append_ok _ (twi_val s) (fun x => cxmul R STables x (a_cis R (fold_angle_inv R H (2 ^ (h - 1 - s)))))).
    + cbn [bind].
      assert (tab (H - 2 ^ Z.of_nat (S n)) twi_at ++ tab (2 ^ s) (twi_val s) = tab (H - 2 ^ s) twi_at) as ->.
      { replace (Z.of_nat (S n)) with (s + 1) by lia. rewrite p2S by assumption.
        rewrite (tab_ext (2 ^ s) (twi_val s) (fun i => twi_at (H - 2 * 2 ^ s + i))) by (intros; symmetry; apply twi_at_ok; assumption).
        rewrite tab_app by lia. f_equal. lia. }
      assert (Z.shiftr (2 ^ s) 1 = match n with O => 0 | S n' => 2 ^ Z.of_nat n' end) as ->.
      { rewrite Z.shiftr_div_pow2 by lia. unfold s. destruct n as [|n'].
        - reflexivity.
        - rewrite p2div by lia. f_equal. lia. }
      assert (Z.shiftl (2 ^ (h - 1 - s)) 1 = 2 ^ (h - s)) as ->.
      { rewrite Z.shiftl_mul_pow2 by lia. rewrite <- p2split by lia. f_equal. lia. }
      apply IH; lia.
    + rewrite zlen_tab by lia. lia.
    + intros i Hi. rewrite znd_tab by lia. rewrite HF by lia. reflexivity.
Qed.

(** poly_evaluator.go:114-143 *)
Lemma genTwiddleFactors_ok : genTwiddleFactors R H = Ok (tab (H - 1) tw_at, tab (H - 1) twi_at).
Proof.
  unfold genTwiddleFactors.
  assert (H / 2 = 2 ^ (h - 1)) as -> by (unfold H; change 2 with (2 ^ 1) at 2; apply p2div; lia).
  pose proof (p2 (h - 1) ltac:(lia)) as P1.
  rewrite !make_ok by lia. cbn [bind].
  rewrite (for_fill_all z (fun i => Ok (a_cis R (tw_angle R H i))) (fun i => a_cis R (tw_angle R H i)))
    by (try reflexivity; rewrite zlen_repeat; lia). cbn [bind].
  rewrite (for_fill_all z (fun i => Ok (a_cis R (a_neg R (tw_angle R H i)))) (fun i => a_cis R (a_neg R (tw_angle R H i))))
    by (try reflexivity; rewrite zlen_repeat; lia). cbn [bind].
  assert (Ek: 2 ^ (h - 1) = 2 ^ Z.of_nat k) by (unfold k; f_equal; lia).
  rewrite !(bitReverse_ok z k) by (rewrite zlen_tab; lia). cbn [bind]. rewrite <- Ek.
  assert (El: Z.log2 H = h) by (unfold H; apply Z.log2_pow2; lia). rewrite El.
  assert (Hz: (h =? 0) = false) by lia.
  pose proof (tw_up_ok (fun i => znd z (tab (2 ^ (h - 1)) (fun i => a_cis R (tw_angle R H i))) (rv k i))) as U.
  assert (Hr: forall i, 0 <= rv k i < 2 ^ (h - 1)) by (intro i; rewrite Ek; apply rv_bound).
  specialize (U ltac:(intros; cbv beta; rewrite znd_tab by apply Hr; reflexivity) (Z.to_nat h) 0 (Z.to_nat h + 1)%nat ltac:(lia) ltac:(lia) ltac:(lia)).
  replace (0 =? h) with false in U by lia. change (2 ^ 0) with 1 in U. replace (h - 1 - 0) with (h - 1) in U by lia.
  change (tab (1 - 1) tw_at) with (@nil cplx) in U. rewrite U. cbn [bind].
  pose proof (tw_down_ok (fun i => znd z (tab (2 ^ (h - 1)) (fun i => a_cis R (a_neg R (tw_angle R H i)))) (rv k i))
    ltac:(intros; cbv beta; rewrite znd_tab by apply Hr; reflexivity) (S k) (Z.to_nat h + 1)%nat ltac:(unfold k; lia) ltac:(unfold k; lia)) as D.
  cbv beta iota in D. rewrite <- Ek in D. replace (h - Z.of_nat (S k)) with 0 in D by (unfold k; lia).
  replace (H - 2 ^ Z.of_nat (S k)) with 0 in D.
  - change (2 ^ 0) with 1 in D. change (tab 0 twi_at) with (@nil cplx) in D. rewrite D. reflexivity.
  - unfold H. replace (Z.of_nat (S k)) with h by (unfold k; lia). lia.
Qed.
End Tab.

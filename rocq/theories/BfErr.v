(** * Rounding error of the butterflies *)
From Coq Require Import ZArith List Lia Reals Lra Psatz.
From Flocq Require Import Core BinarySingleNaN.
From Coquelicot Require Import Complex.
From Verif Require Import GoBase F64 F64Facts F64Err Fft CErr.
Local Open Scope R_scope.

Definition mu : R := bp (-900).
Lemma mu_pos : 0 < mu. Proof. apply bpow_gt_0. Qed.
Lemma eta_mu : 1000 * eta <= mu.
Proof.
  apply Rle_trans with (bp 10 * bp (-1075)); [apply Rmult_le_compat_r; [apply bpow_ge_0|change (bp 10) with 1024; lra]|].
  rewrite <- bpow_plus. apply bpow_le. lia.
Qed.

Lemma Cmod_tri3 x y z : Cmod (Cminus x z) <= Cmod (Cminus x y) + Cmod (Cminus y z).
Proof. replace (Cminus x z) with (Cplus (Cminus x y) (Cminus y z)) by ring. apply Cmod_triangle. Qed.
Lemma Cmod_near x y : Cmod x <= Cmod y + Cmod (Cminus x y).
Proof. replace x with (Cplus y (Cminus x y)) at 1 by ring. apply Cmod_triangle. Qed.
Lemma Cmod_minus x y : Cmod (Cminus x y) <= Cmod x + Cmod y.
Proof. unfold Cminus. pose proof (Cmod_triangle x (Copp y)) as T. rewrite Cmod_opp in T. exact T. Qed.

Lemma u53_small : u53 <= / 1000000. Proof. rewrite u53_val. lra. Qed.

Section Bf.
Context (mc : machine).
Notation FA := (f64_arith mc).
Context (tau : R) (Ht : 0 <= tau <= / 1000).
Definition kap : R := tau + 5 * u53.

Lemma bp_900 x k : (k <= 890)%Z -> x <= bp k -> 4 * x <= bp 900.
Proof.
  intros Hk Hx. apply Rle_trans with (4 * bp k); [lra|]. change 4 with (bp 2). rewrite <- bpow_plus. apply bpow_le. lia.
Qed.

Lemma mulw_err s v w' w : cfin v -> cfin w' -> Cmod (Cminus (cval w') w) <= tau -> Cmod w <= 1 ->
  Cmod (cval v) <= bp 850 ->
  cfin (cxmul FA s v w') /\
  Cmod (Cminus (cval (cxmul FA s v w')) (Cmult (cval v) w)) <= (tau + 3.1 * u53) * Cmod (cval v) + 8 * eta /\
  Cmod (cval (cxmul FA s v w')) <= 1.1 * Cmod (cval v) + 8 * eta.
Proof.
  intros Fv Fw Hw H1 Hb. pose proof u53_pos as U. pose proof u53_small as Us. pose proof eta_pos as Et.
  set (V := Cmod (cval v)) in *. assert (HV: 0 <= V) by apply Cmod_ge_0.
  assert (Hw': Cmod (cval w') <= 1 + tau) by (pose proof (Cmod_near (cval w') w); lra).
  pose proof (Cmod_ge_0 (cval w')) as Hw0.
  assert (HP: Cmod (cval v) * Cmod (cval w') <= V * (1 + tau)) by (apply Rmult_le_compat_l; assumption).
  assert (Vt: V * tau <= / 1000 * V) by (rewrite (Rmult_comm V); apply Rmult_le_compat_r; lra).
  assert (Vt0: 0 <= V * tau) by (apply Rmult_le_pos; lra).
  destruct (cmul_err mc s v w' Fv Fw) as [F E].
  { pose proof (bp_900 V 850 ltac:(lia) Hb). lra. }
  assert (E1: 3 * u53 * (Cmod (cval v) * Cmod (cval w')) <= 3.1 * u53 * V).
  { apply Rle_trans with (3 * u53 * (V * (1 + tau))); [apply Rmult_le_compat_l; lra|].
    assert (u53 * (V * tau) <= u53 * (/ 1000 * V)) by (apply Rmult_le_compat_l; lra). assert (0 <= u53 * V) by (apply Rmult_le_pos; lra). lra. }
  assert (E2: Cmod (Cminus (Cmult (cval v) (cval w')) (Cmult (cval v) w)) <= V * tau).
  { replace (Cminus (Cmult (cval v) (cval w')) (Cmult (cval v) w)) with (Cmult (cval v) (Cminus (cval w') w)) by ring.
    rewrite Cmod_mult. apply Rmult_le_compat_l; assumption. }
  assert (E3: Cmod (Cminus (cval (cxmul FA s v w')) (Cmult (cval v) w)) <= (tau + 3.1 * u53) * V + 8 * eta).
  { pose proof (Cmod_tri3 (cval (cxmul FA s v w')) (Cmult (cval v) (cval w')) (Cmult (cval v) w)). lra. }
  split; [assumption|]. split; [assumption|].
  pose proof (Cmod_near (cval (cxmul FA s v w')) (Cmult (cval v) w)) as Hn. rewrite Cmod_mult in Hn.
  assert (Cmod (cval v) * Cmod w <= V * 1) by (apply Rmult_le_compat_l; assumption).
  assert (u53 * V <= / 1000000 * V) by (apply Rmult_le_compat_r; assumption). lra.
Qed.

Lemma bfly_err u v w' w : cfin u -> cfin v -> cfin w' -> Cmod (Cminus (cval w') w) <= tau -> Cmod w <= 1 ->
  Cmod (cval u) + Cmod (cval v) <= bp 800 ->
  let r := butterfly FA u v w' in
  let B := kap * (Cmod (cval u) + Cmod (cval v)) + mu in
  (cfin (fst r) /\ Cmod (Cminus (cval (fst r)) (Cplus (cval u) (Cmult (cval v) w))) <= B) /\
  (cfin (snd r) /\ Cmod (Cminus (cval (snd r)) (Cminus (cval u) (Cmult (cval v) w))) <= B).
Proof.
  intros Fu Fv Fw Hw H1 Hb r B. pose proof u53_pos as Up. pose proof u53_small as Us. pose proof eta_pos as Et. pose proof eta_mu as Em.
  pose proof (Cmod_ge_0 (cval u)) as HU. pose proof (Cmod_ge_0 (cval v)) as HV.
  destruct (mulw_err SButterfly v w' w Fv Fw Hw H1) as (Fp & E1 & E2).
  { apply Rle_trans with (bp 800); [lra|apply bpow_le; lia]. }
  unfold butterfly in r. cbv zeta in r. subst r B. cbn [fst snd]. unfold kap. set (p := cxmul FA SButterfly v w') in *.
  set (U := Cmod (cval u)) in *. set (V := Cmod (cval v)) in *. set (P := Cmod (cval p)) in *.
  assert (Eb: 1000 * eta <= bp 800) by (apply Rle_trans with (1 := Em); apply bpow_le; lia). assert (Eb9: 1000 * eta <= bp 900) by (apply Rle_trans with (1 := Em); apply bpow_le; lia).
  assert (Hup: U + P <= bp 900).
  { pose proof (bp_900 (U + V) 800 ltac:(lia) Hb). lra. }
  assert (UP: u53 * (U + P) <= 1.2 * u53 * (U + V) + eta).
  { apply Rle_trans with (u53 * (U + (1.1 * V + 8 * eta))); [apply Rmult_le_compat_l; lra|].
    assert (u53 * (8 * eta) <= / 1000000 * (8 * eta)) by (apply Rmult_le_compat_r; lra).
    assert (0 <= u53 * U) by (apply Rmult_le_pos; lra). assert (0 <= u53 * V) by (apply Rmult_le_pos; lra). lra. }
  assert (0 <= tau * U) by (apply Rmult_le_pos; lra). assert (0 <= u53 * U) by (apply Rmult_le_pos; lra). assert (0 <= u53 * V) by (apply Rmult_le_pos; lra).
  split.
  - destruct (cadd_err mc u p Fu Fp Hup) as [F E]. split; [assumption|].
    pose proof (Cmod_triangle (cval u) (cval p)) as Tr. fold U P in Tr.
    assert (u53 * Cmod (Cplus (cval u) (cval p)) <= u53 * (U + P)) by (apply Rmult_le_compat_l; lra).
    pose proof (Cmod_tri3 (cval (cxadd FA u p)) (Cplus (cval u) (cval p)) (Cplus (cval u) (Cmult (cval v) w))) as T3.
    replace (Cminus (Cplus (cval u) (cval p)) (Cplus (cval u) (Cmult (cval v) w))) with (Cminus (cval p) (Cmult (cval v) w)) in T3 by ring.
    lra.
  - destruct (csub_err mc u p Fu Fp Hup) as [F E]. split; [assumption|].
    pose proof (Cmod_minus (cval u) (cval p)) as Tr. fold U P in Tr.
    assert (u53 * Cmod (Cminus (cval u) (cval p)) <= u53 * (U + P)) by (apply Rmult_le_compat_l; lra).
    pose proof (Cmod_tri3 (cval (cxsub FA u p)) (Cminus (cval u) (cval p)) (Cminus (cval u) (Cmult (cval v) w))) as T3.
    replace (Cminus (Cminus (cval u) (cval p)) (Cminus (cval u) (Cmult (cval v) w))) with (Copp (Cminus (cval p) (Cmult (cval v) w))) in T3 by ring.
    rewrite Cmod_opp in T3. lra.
Qed.

Lemma ibfly_err u v w' w : cfin u -> cfin v -> cfin w' -> Cmod (Cminus (cval w') w) <= tau -> Cmod w <= 1 ->
  Cmod (cval u) + Cmod (cval v) <= bp 800 ->
  let r := invButterfly FA u v w' in
  let B := kap * (Cmod (cval u) + Cmod (cval v)) + mu in
  (cfin (fst r) /\ Cmod (Cminus (cval (fst r)) (Cplus (cval u) (cval v))) <= B) /\
  (cfin (snd r) /\ Cmod (Cminus (cval (snd r)) (Cmult (Cminus (cval u) (cval v)) w)) <= B).
Proof.
  intros Fu Fv Fw Hw H1 Hb r B. pose proof u53_pos as Up. pose proof u53_small as Us. pose proof eta_pos as Et. pose proof eta_mu as Em.
  pose proof (Cmod_ge_0 (cval u)) as HU. pose proof (Cmod_ge_0 (cval v)) as HV.
  unfold invButterfly in r. subst r B. cbn [fst snd]. unfold kap.
  set (U := Cmod (cval u)) in *. set (V := Cmod (cval v)) in *.
  assert (Eb: 1000 * eta <= bp 800) by (apply Rle_trans with (1 := Em); apply bpow_le; lia). assert (Eb9: 1000 * eta <= bp 900) by (apply Rle_trans with (1 := Em); apply bpow_le; lia).
  assert (Huv: U + V <= bp 900) by (pose proof (bp_900 (U + V) 800 ltac:(lia) Hb); lra).
  assert (0 <= tau * (U + V)) by (apply Rmult_le_pos; lra). assert (0 <= u53 * (U + V)) by (apply Rmult_le_pos; lra).
  split.
  - destruct (cadd_err mc u v Fu Fv Huv) as [F E]. split; [assumption|].
    pose proof (Cmod_triangle (cval u) (cval v)) as Tr. fold U V in Tr.
    assert (u53 * Cmod (Cplus (cval u) (cval v)) <= u53 * (U + V)) by (apply Rmult_le_compat_l; lra). lra.
  - destruct (csub_err mc u v Fu Fv Huv) as [Fd Ed]. set (d := cxsub FA u v) in *.
    pose proof (Cmod_minus (cval u) (cval v)) as Tr. fold U V in Tr.
    assert (X1: u53 * Cmod (Cminus (cval u) (cval v)) <= u53 * (U + V)) by (apply Rmult_le_compat_l; lra).
    pose proof (Cmod_near (cval d) (Cminus (cval u) (cval v))) as Hd.
    assert (u53 * (U + V) <= / 1000000 * (U + V)) by (apply Rmult_le_compat_r; lra).
    assert (Hd2: Cmod (cval d) <= (1 + u53) * (U + V) + 2 * eta) by lra.
    destruct (mulw_err SInvButterfly d w' w Fd Fw Hw H1) as (Fp & E1 & _).
    { apply Rle_trans with (4 * bp 800); [lra|]. change 4 with (bp 2). rewrite <- bpow_plus. apply bpow_le. lia. }
    split; [assumption|].
    pose proof (Cmod_tri3 (cval (cxmul FA SInvButterfly d w')) (Cmult (cval d) w) (Cmult (Cminus (cval u) (cval v)) w)) as T3.
    replace (Cminus (Cmult (cval d) w) (Cmult (Cminus (cval u) (cval v)) w)) with (Cmult (Cminus (cval d) (Cminus (cval u) (cval v))) w) in T3 by ring.
    rewrite Cmod_mult in T3.
    assert (T4: Cmod (Cminus (cval d) (Cminus (cval u) (cval v))) * Cmod w <= u53 * (U + V) + 2 * eta).
    { apply Rle_trans with (Cmod (Cminus (cval d) (Cminus (cval u) (cval v))) * 1); [apply Rmult_le_compat_l; [apply Cmod_ge_0|assumption]|]. lra. }
    assert (T5: (tau + 3.1 * u53) * Cmod (cval d) <= (tau + 3.1 * u53) * ((1 + u53) * (U + V) + 2 * eta)) by (apply Rmult_le_compat_l; lra).
    assert (T6: (tau + 3.1 * u53) * (2 * eta) <= / 100 * (2 * eta)) by (apply Rmult_le_compat_r; lra).
    assert (T7: (tau + 3.1 * u53) * (u53 * (U + V)) <= / 100 * (u53 * (U + V))) by (apply Rmult_le_compat_r; lra).
    replace ((tau + 3.1 * u53) * ((1 + u53) * (U + V) + 2 * eta)) with
      ((tau + 3.1 * u53) * (U + V) + (tau + 3.1 * u53) * (u53 * (U + V)) + (tau + 3.1 * u53) * (2 * eta)) in T5 by ring.
    lra.
Qed.
End Bf.

(** * Rounding error of complex float64 operations *)
From Coq Require Import ZArith List Lia Reals Lra Psatz.
From Flocq Require Import Core BinarySingleNaN.
From Coquelicot Require Import Complex.
From Verif Require Import GoBase F64 F64Facts F64Err Fft.
Local Open Scope R_scope.

Definition cval (x : f64 * f64) : C := (val (fst x), val (snd x)).
Definition cfin (x : f64 * f64) : Prop := fin (fst x) /\ fin (snd x).

Lemma Cmod_le_sq z X : 0 <= X -> fst z * fst z + snd z * snd z <= X * X -> Cmod z <= X.
Proof.
  intros HX HS. unfold Cmod. rewrite <- (sqrt_square X) by assumption. apply sqrt_le_1_alt. simpl. lra.
Qed.
Lemma Cmod_sq z : Cmod z * Cmod z = fst z * fst z + snd z * snd z.
Proof. unfold Cmod. rewrite sqrt_sqrt; [simpl; ring|]. simpl. nra. Qed.
Lemma Cmod_mono a b p q : Rabs a <= p -> Rabs b <= q -> Cmod (a, b) <= Cmod (p, q).
Proof.
  intros Ha Hb. unfold Cmod. cbn [fst snd]. apply sqrt_le_1_alt. simpl.
  pose proof (Rabs_pos a). pose proof (Rabs_pos b).
  assert (a * a <= p * p) by (rewrite <- (Rabs_pos_eq (a * a)) by apply Rle_0_sqr; rewrite Rabs_mult; apply Rmult_le_compat; lra).
  assert (b * b <= q * q) by (rewrite <- (Rabs_pos_eq (b * b)) by apply Rle_0_sqr; rewrite Rabs_mult; apply Rmult_le_compat; lra).
  lra.
Qed.
Lemma Cmod_diag e : 0 <= e -> Cmod (e, e) <= 1.4143 * e.
Proof. intro He. apply Cmod_le_sq; [lra|]. cbn [fst snd]. nra. Qed.
Lemma Cmod_comp a b p q e : 0 <= p -> 0 <= q -> 0 <= e -> Rabs a <= p + e -> Rabs b <= q + e -> Cmod (a, b) <= Cmod (p, q) + 2 * e.
Proof.
  intros Hp Hq He Ha Hb. apply Rle_trans with (Cmod (p + e, q + e)); [apply Cmod_mono; assumption|].
  change (p + e, q + e) with (Cplus (p, q) (e, e)). apply Rle_trans with (1 := Cmod_triangle _ _).
  pose proof (Cmod_diag e He). lra.
Qed.
Lemma re_le z : Rabs (fst z) <= Cmod z.
Proof.
  unfold Cmod. rewrite <- sqrt_Rsqr_abs. apply sqrt_le_1_alt. unfold Rsqr. simpl. pose proof (Rle_0_sqr (snd z)) as Hs. unfold Rsqr in Hs. lra.
Qed.
Lemma im_le z : Rabs (snd z) <= Cmod z.
Proof.
  unfold Cmod. rewrite <- sqrt_Rsqr_abs. apply sqrt_le_1_alt. unfold Rsqr. simpl. pose proof (Rle_0_sqr (fst z)) as Hs. unfold Rsqr in Hs. lra.
Qed.
Lemma abs_dot a b c d : Rabs (a * c) + Rabs (b * d) <= Cmod (a, b) * Cmod (c, d).
Proof.
  rewrite !Rabs_mult.
  assert (S: (Rabs a * Rabs c + Rabs b * Rabs d) * (Rabs a * Rabs c + Rabs b * Rabs d) <= (a * a + b * b) * (c * c + d * d)).
  { rewrite <- (Rabs_pos_eq (a * a)), <- (Rabs_pos_eq (b * b)), <- (Rabs_pos_eq (c * c)), <- (Rabs_pos_eq (d * d)) by apply Rle_0_sqr.
    rewrite !Rabs_mult. pose proof (Rle_0_sqr (Rabs a * Rabs d - Rabs b * Rabs c)) as Hs. unfold Rsqr in Hs. nra. }
  pose proof (Cmod_sq (a, b)) as E1. pose proof (Cmod_sq (c, d)) as E2. cbn [fst snd] in E1, E2. rewrite <- E1, <- E2 in S.
  pose proof (Cmod_ge_0 (a, b)). pose proof (Cmod_ge_0 (c, d)).
  pose proof (Rabs_pos a). pose proof (Rabs_pos b). pose proof (Rabs_pos c). pose proof (Rabs_pos d).
  set (L := Rabs a * Rabs c + Rabs b * Rabs d) in *. set (M := Cmod (a, b) * Cmod (c, d)) in *.
  assert (0 <= M) by (apply Rmult_le_pos; assumption).
  destruct (Rle_or_lt L M); [assumption|]. exfalso.
  assert (M * M < L * L) by (apply Rmult_le_0_lt_compat; lra).
  replace (Cmod (a, b) * Cmod (a, b) * (Cmod (c, d) * Cmod (c, d))) with (M * M) in S by (unfold M; ring). lra.
Qed.

Lemma big_trans x : x <= bp 900 -> x <= bp 1000.
Proof. intro. apply Rle_trans with (1 := H). apply bpow_le. lia. Qed.

Section Ops.
Context (mc : machine).
Notation FA := (f64_arith mc).

Lemma cadd_err x y : cfin x -> cfin y -> Cmod (cval x) + Cmod (cval y) <= bp 900 ->
  cfin (cxadd FA x y) /\
  Cmod (Cminus (cval (cxadd FA x y)) (Cplus (cval x) (cval y))) <= u53 * Cmod (Cplus (cval x) (cval y)) + 2 * eta.
Proof.
  intros [Fx1 Fx2] [Fy1 Fy2] Hb.
  pose proof (Cmod_triangle (cval x) (cval y)) as Tr.
  pose proof (re_le (Cplus (cval x) (cval y))) as H1. pose proof (im_le (Cplus (cval x) (cval y))) as H2.
  cbn [cval fst snd Cplus] in H1, H2.
  destruct (fadd_err (fst x) (fst y) Fx1 Fy1) as [G1 E1]; [apply big_trans; cbn in *; lra|].
  destruct (fadd_err (snd x) (snd y) Fx2 Fy2) as [G2 E2]; [apply big_trans; cbn in *; lra|].
  split; [split; assumption|].
  pose proof u53_pos as U. pose proof eta_pos as Et.
  set (z := Cplus (cval x) (cval y)).
  assert (Cm: Cmod (u53 * Rabs (fst z), u53 * Rabs (snd z)) <= u53 * Cmod z).
  { apply Cmod_le_sq; [apply Rmult_le_pos; [lra|apply Cmod_ge_0]|]. cbn [fst snd].
    replace (u53 * Cmod z * (u53 * Cmod z)) with (u53 * u53 * (Cmod z * Cmod z)) by ring. rewrite Cmod_sq.
    replace (fst z * fst z) with (Rabs (fst z) * Rabs (fst z)) by (rewrite <- Rabs_mult; apply Rabs_pos_eq, Rle_0_sqr).
    replace (snd z * snd z) with (Rabs (snd z) * Rabs (snd z)) by (rewrite <- Rabs_mult; apply Rabs_pos_eq, Rle_0_sqr).
    right; ring. }
  apply Rle_trans with (Cmod (u53 * Rabs (fst z), u53 * Rabs (snd z)) + 2 * eta); [|lra].
  apply Cmod_comp; try (apply Rmult_le_pos; [lra|apply Rabs_pos]); [lra|exact E1|exact E2].
Qed.

Lemma csub_err x y : cfin x -> cfin y -> Cmod (cval x) + Cmod (cval y) <= bp 900 ->
  cfin (cxsub FA x y) /\
  Cmod (Cminus (cval (cxsub FA x y)) (Cminus (cval x) (cval y))) <= u53 * Cmod (Cminus (cval x) (cval y)) + 2 * eta.
Proof.
  intros [Fx1 Fx2] [Fy1 Fy2] Hb.
  pose proof (Cmod_triangle (cval x) (Copp (cval y))) as Tr. rewrite Cmod_opp in Tr.
  pose proof (re_le (Cminus (cval x) (cval y))) as H1. pose proof (im_le (Cminus (cval x) (cval y))) as H2.
  unfold Cminus in H1, H2. cbn [cval fst snd Cplus Copp] in H1, H2.
  destruct (fsub_err (fst x) (fst y) Fx1 Fy1) as [G1 E1]; [apply big_trans; unfold Rminus; cbn in *; lra|].
  destruct (fsub_err (snd x) (snd y) Fx2 Fy2) as [G2 E2]; [apply big_trans; unfold Rminus; cbn in *; lra|].
  split; [split; assumption|].
  pose proof u53_pos as U. pose proof eta_pos as Et.
  set (z := Cminus (cval x) (cval y)).
  assert (Cm: Cmod (u53 * Rabs (fst z), u53 * Rabs (snd z)) <= u53 * Cmod z).
  { apply Cmod_le_sq; [apply Rmult_le_pos; [lra|apply Cmod_ge_0]|]. cbn [fst snd].
    replace (u53 * Cmod z * (u53 * Cmod z)) with (u53 * u53 * (Cmod z * Cmod z)) by ring. rewrite Cmod_sq.
    replace (fst z * fst z) with (Rabs (fst z) * Rabs (fst z)) by (rewrite <- Rabs_mult; apply Rabs_pos_eq, Rle_0_sqr).
    replace (snd z * snd z) with (Rabs (snd z) * Rabs (snd z)) by (rewrite <- Rabs_mult; apply Rabs_pos_eq, Rle_0_sqr).
    right; ring. }
  apply Rle_trans with (Cmod (u53 * Rabs (fst z), u53 * Rabs (snd z)) + 2 * eta); [|lra].
  apply Cmod_comp; try (apply Rmult_le_pos; [lra|apply Rabs_pos]); [lra|exact E1|exact E2].
Qed.

(** one component of a complex product: x*y -/+ z*w, each operation rounded *)
Lemma comp_err p1 p2 q1 q2 r P : 0 <= P -> Rabs q1 + Rabs q2 <= P ->
  Rabs (p1 - q1) <= u53 * Rabs q1 + eta -> Rabs (p2 - q2) <= u53 * Rabs q2 + eta ->
  Rabs (r - (p1 - p2)) <= u53 * Rabs (p1 - p2) + eta ->
  Rabs (r - (q1 - q2)) <= u53 * (2 + u53) * P + 4 * eta.
Proof.
  intros HP Hq E1 E2 E3. pose proof u53_pos as U. pose proof eta_pos as Et.
  assert (U1: u53 <= 1) by (rewrite u53_val; lra).
  replace (r - (q1 - q2)) with ((r - (p1 - p2)) + ((p1 - q1) + - (p2 - q2))) by ring.
  pose proof (Rabs_triang (r - (p1 - p2)) ((p1 - q1) + - (p2 - q2))) as T1.
  pose proof (Rabs_triang (p1 - q1) (- (p2 - q2))) as T2. rewrite Rabs_Ropp in T2.
  assert (T3: Rabs (p1 - p2) <= Rabs q1 + Rabs q2 + (u53 * Rabs q1 + eta) + (u53 * Rabs q2 + eta)).
  { replace (p1 - p2) with ((q1 + - q2) + ((p1 - q1) + - (p2 - q2))) by ring.
    pose proof (Rabs_triang (q1 + - q2) ((p1 - q1) + - (p2 - q2))). pose proof (Rabs_triang q1 (- q2)) as Tq. rewrite Rabs_Ropp in Tq. lra. }
  assert (T4: Rabs (p1 - p2) <= (1 + u53) * P + 2 * eta).
  { assert (u53 * (Rabs q1 + Rabs q2) <= u53 * P) by (apply Rmult_le_compat_l; lra). lra. }
  assert (T5: u53 * Rabs (p1 - p2) <= u53 * ((1 + u53) * P + 2 * eta)) by (apply Rmult_le_compat_l; lra).
  assert (T6: u53 * (Rabs q1 + Rabs q2) <= u53 * P) by (apply Rmult_le_compat_l; lra).
  assert (T7: 2 * u53 * eta <= eta) by (rewrite u53_val; lra).
  lra.
Qed.

(** the same, with either product fused into the difference *)
Lemma big_prod p q P : P <= bp 900 -> Rabs q <= P -> Rabs (p - q) <= u53 * Rabs q + eta -> Rabs p <= 2 * bp 900.
Proof.
  intros HP Hq E. pose proof u53_pos as U. pose proof eta_pos as Et. assert (U1: u53 <= / 1000) by (rewrite u53_val; lra).
  replace p with (q + (p - q)) by ring. pose proof (Rabs_triang q (p - q)). pose proof (Rabs_pos q).
  assert (u53 * Rabs q <= / 1000 * P) by (apply Rmult_le_compat; lra).
  assert (eta <= / 1000 * bp 900).
  { apply Rle_trans with (bp (-10) * bp 900); [rewrite <- bpow_plus; apply eta_small; lia|].
    apply Rmult_le_compat_r; [apply bpow_ge_0|]. change (bp (-10)) with (/ 1024). lra. }
  lra.
Qed.
Lemma exact_err q : Rabs (q - q) <= u53 * Rabs q + eta.
Proof.
  rewrite Rminus_diag_eq by reflexivity. rewrite Rabs_R0. pose proof u53_pos. pose proof eta_pos. pose proof (Rabs_pos q).
  assert (0 <= u53 * Rabs q) by (apply Rmult_le_pos; lra). lra.
Qed.
Lemma mms_err f a b c d P : fin a -> fin b -> fin c -> fin d -> P <= bp 900 -> Rabs (val a * val b) + Rabs (val c * val d) <= P ->
  fin (f_mms f a b c d) /\ Rabs (val (f_mms f a b c d) - (val a * val b - val c * val d)) <= u53 * (2 + u53) * P + 4 * eta.
Proof.
  intros Fa Fb Fc Fd HP HQ. pose proof (Rabs_pos (val a * val b)) as P1. pose proof (Rabs_pos (val c * val d)) as P2.
  pose proof (bpow_gt_0 radix2 900) as B0.
  assert (B10: 4 * bp 900 <= bp 1000).
  { replace 1000%Z with (100 + 900)%Z by reflexivity. rewrite bpow_plus. apply Rmult_le_compat_r; [apply bpow_ge_0|].
    change 4 with (bp 2). apply bpow_le. lia. }
  destruct (fmul_err a b Fa Fb) as [G1 E1]; [apply big_trans; lra|].
  destruct (fmul_err c d Fc Fd) as [G2 E2]; [apply big_trans; lra|].
  pose proof (big_prod (val (fmul a b)) (val a * val b) P HP ltac:(lra) E1) as L1. pose proof (big_prod (val (fmul c d)) (val c * val d) P HP ltac:(lra) E2) as L2.
  assert (T: forall u v, Rabs u <= 2 * bp 900 -> Rabs v <= 2 * bp 900 -> Rabs (u - v) <= bp 1000).
  { intros u v Hu Hv. pose proof (Rabs_triang u (- v)) as T. rewrite Rabs_Ropp in T. unfold Rminus. lra. }
  assert (HP0: 0 <= P) by lra.
  destruct f; cbn [f_mms].
  - destruct (fsub_err (fmul a b) (fmul c d) G1 G2) as [G E]; [apply T; assumption|].
    split; [exact G|]. exact (comp_err _ _ _ _ _ P HP0 HQ E1 E2 E).
  - destruct (ffma_err a b (fopp (fmul c d)) Fa Fb (fin_fopp _ G2)) as [G E]; rewrite ?val_fopp in *.
    { apply (T _ (val (fmul c d))); [lra|assumption]. }
    split; [exact G|]. exact (comp_err (val a * val b) _ _ _ _ P HP0 HQ (exact_err _) E2 E).
  - destruct (ffma_err (fopp c) d (fmul a b) (fin_fopp _ Fc) Fd G1) as [G E]; rewrite ?val_fopp in *.
    { replace (- val c * val d + val (fmul a b)) with (val (fmul a b) - val c * val d) by ring. apply T; [assumption|lra]. }
    split; [exact G|]. replace (- val c * val d + val (fmul a b)) with (val (fmul a b) - val c * val d) in E by ring.
    exact (comp_err _ (val c * val d) _ _ _ P HP0 HQ E1 (exact_err _) E).
Qed.
Lemma mma_err f a b c d P : fin a -> fin b -> fin c -> fin d -> P <= bp 900 -> Rabs (val a * val b) + Rabs (val c * val d) <= P ->
  fin (f_mma f a b c d) /\ Rabs (val (f_mma f a b c d) - (val a * val b + val c * val d)) <= u53 * (2 + u53) * P + 4 * eta.
Proof.
  intros Fa Fb Fc Fd HP HQ. pose proof (Rabs_pos (val a * val b)) as P1. pose proof (Rabs_pos (val c * val d)) as P2.
  pose proof (bpow_gt_0 radix2 900) as B0.
  assert (B10: 4 * bp 900 <= bp 1000).
  { replace 1000%Z with (100 + 900)%Z by reflexivity. rewrite bpow_plus. apply Rmult_le_compat_r; [apply bpow_ge_0|].
    change 4 with (bp 2). apply bpow_le. lia. }
  destruct (fmul_err a b Fa Fb) as [G1 E1]; [apply big_trans; lra|].
  destruct (fmul_err c d Fc Fd) as [G2 E2]; [apply big_trans; lra|].
  pose proof (big_prod (val (fmul a b)) (val a * val b) P HP ltac:(lra) E1) as L1. pose proof (big_prod (val (fmul c d)) (val c * val d) P HP ltac:(lra) E2) as L2.
  assert (T: forall u v, Rabs u <= 2 * bp 900 -> Rabs v <= 2 * bp 900 -> Rabs (u + v) <= bp 1000).
  { intros u v Hu Hv. pose proof (Rabs_triang u v) as T. lra. }
  assert (HP0: 0 <= P) by lra.
  assert (N: forall r p1 p2, Rabs (p1 - val a * val b) <= u53 * Rabs (val a * val b) + eta ->
    Rabs (p2 - val c * val d) <= u53 * Rabs (val c * val d) + eta -> Rabs (r - (p1 + p2)) <= u53 * Rabs (p1 + p2) + eta ->
    Rabs (r - (val a * val b + val c * val d)) <= u53 * (2 + u53) * P + 4 * eta).
  { intros r p1 p2 H1 H2 H3. replace (val a * val b + val c * val d) with (val a * val b - - (val c * val d)) by ring.
    apply (comp_err p1 (- p2)); try assumption.
    - rewrite Rabs_Ropp. lra.
    - rewrite Rabs_Ropp. replace (- p2 - - (val c * val d)) with (- (p2 - val c * val d)) by ring. rewrite Rabs_Ropp. assumption.
    - replace (p1 - - p2) with (p1 + p2) by ring. assumption. }
  destruct f; cbn [f_mma].
  - destruct (fadd_err (fmul a b) (fmul c d) G1 G2) as [G E]; [apply T; assumption|].
    split; [exact G|]. exact (N _ _ _ E1 E2 E).
  - destruct (ffma_err a b (fmul c d) Fa Fb G2) as [G E]; [apply T; [lra|assumption]|].
    split; [exact G|]. exact (N _ _ _ (exact_err _) E2 E).
  - destruct (ffma_err c d (fmul a b) Fc Fd G1) as [G E]; [apply T; [lra|assumption]|].
    split; [exact G|]. rewrite (Rplus_comm (val c * val d)) in E. exact (N _ _ _ E1 (exact_err _) E).
Qed.

Lemma cmul_err s x y : cfin x -> cfin y -> Cmod (cval x) * Cmod (cval y) <= bp 900 ->
  cfin (cxmul FA s x y) /\
  Cmod (Cminus (cval (cxmul FA s x y)) (Cmult (cval x) (cval y))) <= 3 * u53 * (Cmod (cval x) * Cmod (cval y)) + 8 * eta.
Proof.
  intros [Fx1 Fx2] [Fy1 Fy2] Hb. set (P := Cmod (cval x) * Cmod (cval y)) in *.
  pose proof u53_pos as U. pose proof eta_pos as Et.
  assert (U1: u53 <= / 1000) by (rewrite u53_val; lra).
  assert (HP: 0 <= P) by (apply Rmult_le_pos; apply Cmod_ge_0).
  destruct x as [a b], y as [c d]. cbn [fst snd] in *. unfold cval in *. cbn [fst snd] in *.
  assert (D1: Rabs (val a * val c) + Rabs (val b * val d) <= P) by apply abs_dot.
  assert (D2: Rabs (val a * val d) + Rabs (val b * val c) <= P).
  { unfold P. replace (Cmod (val c, val d)) with (Cmod (val d, val c)); [apply abs_dot|]. unfold Cmod. f_equal. cbn. ring. }
  destruct (mms_err (m_mms mc s) a c b d P Fx1 Fy1 Fx2 Fy2 Hb D1) as [G1 R1].
  destruct (mma_err (m_mma mc s) a d b c P Fx1 Fy2 Fx2 Fy1 Hb D2) as [G2 R2].
  split; [split; assumption|].
  set (W := u53 * (2 + u53) * P + 4 * eta) in *.
  assert (HW: 0 <= W).
  { unfold W. assert (0 <= u53 * (2 + u53) * P) by (apply Rmult_le_pos; [apply Rmult_le_pos; lra|lra]). lra. }
  apply Rle_trans with (Cmod (W, W)).
  - unfold Cminus, Cmult, Cplus, Copp, cxmul. cbn [fst snd f64_arith a_mms a_mma]. apply Cmod_mono; [exact R1|exact R2].
  - apply Rle_trans with (1 := Cmod_diag W HW). unfold W.
    assert (1.4143 * (u53 * (2 + u53) * P) <= 3 * u53 * P).
    { replace (1.4143 * (u53 * (2 + u53) * P)) with ((1.4143 * (2 + u53)) * (u53 * P)) by ring.
      replace (3 * u53 * P) with (3 * (u53 * P)) by ring. apply Rmult_le_compat_r; [apply Rmult_le_pos; lra|lra]. }
    lra.
Qed.
End Ops.

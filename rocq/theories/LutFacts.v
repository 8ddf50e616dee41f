(** * Lookup tables *)
From Coq Require Import Lia ZifyBool Setoid Morphisms List.
From Verif Require Import GoBase GoFacts F64 Utils UtilsFacts Params PolyFacts NegFacts Trlwe Lut MsgFacts.
Import ListNotations.
Local Open Scope Z_scope.
Ltac Zify.zify_post_hook ::= idtac.

Definition dround (a b : Z) : Z := (a + b / 2) / b.

Lemma divRound_ok a b : 0 <= a -> 0 < b -> divRound a b = Ok (dround a b).
Proof.
  intros Ha Hb. unfold divRound, go_div, dround. cbn [Z.eqb bind].
  destruct (Z.eqb_spec b 0); [lia|]. rewrite Z.quot_div_nonneg by lia.
  assert (0 <= b / 2) by (apply Z.div_pos; lia). rewrite Z.quot_div_nonneg by lia. reflexivity.
Qed.

(** the message stored at index u of the unrotated table *)
Definition lmsg (M N u : Z) : Z := (M * (u + 1) - M / 2 - 1) / N.

Lemma dround_le M N x u : 0 < M -> 0 < N -> (dround (x * N) M <= u <-> x <= lmsg M N u).
Proof.
  intros HM HN. unfold dround, lmsg. pose proof (Z.div_mod M 2 ltac:(lia)). pose proof (Z.mod_pos_bound M 2 ltac:(lia)).
  set (h := M / 2) in *. split; intro H1.
  - apply Z.div_le_lower_bound; [assumption|].
    pose proof (Z.div_mod (x * N + h) M ltac:(lia)) as E. pose proof (Z.mod_pos_bound (x * N + h) M HM) as B. 
    set (q := (x * N + h) / M) in *. assert (M * q <= M * u) by (apply Z.mul_le_mono_nonneg_l; lia). lia.
  - apply Z.lt_succ_r. apply Z.div_lt_upper_bound; [assumption|].
    pose proof (Z.div_mod (M * (u + 1) - h - 1) N ltac:(lia)) as E. pose proof (Z.mod_pos_bound (M * (u + 1) - h - 1) N HN) as B.
    set (q := (M * (u + 1) - h - 1) / N) in *. assert (x * N <= q * N) by (apply Z.mul_le_mono_nonneg_r; lia). lia.
Qed.

Lemma lmsg_iff M N x u : 0 < M -> 0 < N -> (lmsg M N u = x <-> dround (x * N) M <= u < dround ((x + 1) * N) M).
Proof.
  intros HM HN. pose proof (dround_le M N x u HM HN). pose proof (dround_le M N (x + 1) u HM HN). lia.
Qed.

Lemma dround_0 M : 0 < M -> dround 0 M = 0.
Proof.
  intro H. unfold dround. apply Z.div_small. pose proof (Z.div_mod M 2 ltac:(lia)). pose proof (Z.mod_pos_bound M 2 ltac:(lia)). lia.
Qed.
Lemma dround_full M N : 0 < M -> dround (M * N) M = N.
Proof.
  intro H. unfold dround. symmetry. pose proof (Z.div_mod M 2 ltac:(lia)). pose proof (Z.mod_pos_bound M 2 ltac:(lia)).
  apply (Z.div_unique_pos _ _ _ (M / 2)); lia.
Qed.
Lemma dround_mono M a b : 0 < M -> a <= b -> dround a M <= dround b M.
Proof. intros H Hab. unfold dround. apply Z.div_le_mono; lia. Qed.

Lemma offset_range M N : 0 < M -> 0 < N -> 0 <= dround N (2 * M) <= N.
Proof.
  intros HM HN. unfold dround. replace (2 * M / 2) with M by (rewrite Z.mul_comm, Z.div_mul; lia).
  split; [apply Z.div_pos; lia|]. apply Z.lt_succ_r. apply Z.div_lt_upper_bound; nia.
Qed.

(** the table the generator makes *)
Definition lraw (M N : Z) (ev : Z -> Z) (u : Z) : Z := ev (lmsg M N u).
Definition lbody (M N : Z) (ev : Z -> Z) (i : Z) : Z :=
  let off := dround N (2 * M) in
  if i <? N - off then lraw M N ev (i + off) else tneg (lraw M N ev (i + off - N)).
Definition ltab (M N : Z) (ev : Z -> Z) : trlwe := {| tA := repeat 0 (Z.to_nat N); tB := tab N (lbody M N ev) |}.

Lemma gen_lut_ok g enc ev out M N : MessageModulus (gEncoder g) = M -> LookUpTableSize g = N -> 0 < M -> 0 < N ->
  (forall x, 0 <= x < M -> enc x = Ok (ev x)) -> zlen (tA out) = N -> zlen (tB out) = N ->
  gen_lut g enc out = Ok (ltab M N ev).
Proof.
  intros EM EN HM HN Henc HA HB. unfold gen_lut. rewrite EM, EN. rewrite !make_ok by lia. cbn [bind].
  match goal with |- context [for_range 0 M ?b ?z] =>
  destruct (for_range_inv (fun x raw => zlen raw = N /\ forall u, 0 <= u < N -> u < dround (x * N) M -> zn raw u = lraw M N ev u)
     0 M b z) as (raw & E & Hl & Hr) end.
  - lia.
  - split; [rewrite zlen_repeat; lia|]. intros u Hu H0. rewrite Z.mul_0_l, dround_0 in H0 by assumption. lia.
  - intros x raw Hx [Hl Hr]. rewrite divRound_ok by nia. cbn [bind]. rewrite divRound_ok by nia. cbn [bind].
    rewrite Henc by assumption. cbn [bind].
    assert (D0: 0 <= dround (x * N) M) by (rewrite <- (dround_0 M) at 1 by assumption; apply dround_mono; nia).
    assert (D1: dround ((x + 1) * N) M <= N) by (rewrite <- (dround_full M N) at 2 by assumption; apply dround_mono; nia).
    assert (D2: dround (x * N) M <= dround ((x + 1) * N) M) by (apply dround_mono; nia).
    match goal with |- exists q, for_range ?a ?b ?bd raw = _ /\ _ =>
    destruct (for_range_inv (fun v raw => zlen raw = N /\ forall u, 0 <= u < N -> u < v -> zn raw u = lraw M N ev u) a b bd raw)
      as (raw' & E & Hl' & Hr') end.
    + assumption.
    + split; assumption.
    + intros v st Hv [Hsl Hs]. rewrite set_ok by lia. eexists; split; [reflexivity|]. split; [rewrite zlen_upd; assumption|].
      intros u Hu Huv. rewrite zn_upd by lia. destruct (Z.eqb_spec u v) as [->|]; [|apply Hs; lia].
      unfold lraw. f_equal. symmetry. apply lmsg_iff; lia.
    + exists raw'. split; [exact E|]. split; assumption.
  - rewrite E. cbn [bind]. clear E. rewrite dround_full in Hr by assumption.
    rewrite divRound_ok by lia. cbn [bind]. pose proof (offset_range M N HM HN) as Ho. set (off := dround N (2 * M)) in *.
    match goal with |- context [for_range 0 N ?b (repeat 0 (Z.to_nat N))] =>
    destruct (for_range_inv (fun k r => zlen r = N /\ forall i, 0 <= i < k -> zn r i = lraw M N ev ((i + off) mod N))
       0 N b (repeat 0 (Z.to_nat N))) as (r1 & E1 & Hl1 & Hr1) end.
    + lia.
    + split; [rewrite zlen_repeat; lia|]. intros; lia.
    + intros k r Hk [Hrl Hrk]. unfold go_rem. destruct (Z.eqb_spec N 0); [lia|]. cbn [bind]. rewrite Z.rem_mod_nonneg by lia.
      pose proof (Z.mod_pos_bound (k + off) N HN). rewrite get_zn by lia. cbn [bind]. rewrite set_ok by lia.
      eexists; split; [reflexivity|]. split; [rewrite zlen_upd; assumption|]. intros i Hi. rewrite zn_upd by lia.
      destruct (Z.eqb_spec i k) as [->|]; [apply Hr; lia|apply Hrk; lia].
    + rewrite E1. cbn [bind]. clear E1.
      match goal with |- context [for_range (N - off) N ?b r1] =>
      destruct (for_range_inv (fun k r => zlen r = N /\ forall i, 0 <= i < N -> zn r i =
          if (i <? k) && (N - off <=? i) then tneg (lraw M N ev ((i + off) mod N)) else lraw M N ev ((i + off) mod N))
         (N - off) N b r1) as (r2 & E2 & Hl2 & Hr2) end.
      * lia.
      * split; [assumption|]. intros i Hi. rewrite Hr1 by lia.
        destruct (Z.ltb_spec i (N - off)), (Z.leb_spec (N - off) i); reflexivity || lia.
      * intros k r Hk [Hrl Hrk]. rewrite get_zn by lia. cbn [bind]. rewrite set_ok by lia. eexists; split; [reflexivity|].
        split; [rewrite zlen_upd; assumption|]. intros i Hi. rewrite zn_upd by lia.
        destruct (Z.eqb_spec i k) as [->|].
        -- rewrite Hrk by lia. destruct (Z.ltb_spec k k), (Z.ltb_spec k (k + 1)), (Z.leb_spec (N - off) k); reflexivity || lia.
        -- rewrite Hrk by lia. destruct (Z.ltb_spec i k), (Z.ltb_spec i (k + 1)), (Z.leb_spec (N - off) i); reflexivity || lia.
      * rewrite E2. cbn [bind]. clear E2.
        match goal with |- for_range 0 N ?b out = _ =>
        destruct (for_range_inv (fun k o => zlen (tA o) = N /\ zlen (tB o) = N /\ forall i, 0 <= i < k -> zn (tA o) i = 0 /\ zn (tB o) i = zn r2 i)
           0 N b out) as (o & E3 & HoA & HoB & Hov) end.
        -- lia.
        -- split; [assumption|]. split; [assumption|]. intros; lia.
        -- intros k o Hk (HoA & HoB & Hov). rewrite get_zn by lia. cbn [bind]. rewrite !set_ok by lia. cbn [bind]. 
           eexists; split; [reflexivity|]. cbn [tA tB]. split; [rewrite zlen_upd; assumption|]. split; [rewrite zlen_upd; assumption|].
           intros i Hi. rewrite !zn_upd by lia. destruct (Z.eqb_spec i k) as [->|]; [split; reflexivity|apply Hov; lia].
        -- rewrite E3. f_equal. unfold ltab. destruct o as [A B]. cbn [tA tB] in *. f_equal.
           ++ rewrite repeat_tab. apply (eq_tab 0); [assumption|]. intros i Hi. apply Hov. assumption.
           ++ apply (eq_tab 0); [assumption|]. intros i Hi. change (znd 0 B i) with (zn B i). destruct (Hov i Hi) as [_ ->].
              rewrite Hr2 by assumption. unfold lbody. fold off.
              destruct (Z.ltb_spec i N), (Z.ltb_spec i (N - off)), (Z.leb_spec (N - off) i); cbn [andb]; try lia.
              ** rewrite Z.mod_small by lia. reflexivity.
              ** do 2 f_equal. symmetry. apply (Z.mod_unique_pos _ _ 1); lia.
Qed.

(** the window of message x *)
Lemma window M N x i : 0 < M -> 0 < N -> - N <= 2 * (i * M - x * N) <= N - 2 * M -> lmsg M N (i + dround N (2 * M)) = x.
Proof.
  intros HM HN H. apply lmsg_iff; [assumption..|].
  unfold dround. replace (2 * M / 2) with M by (rewrite Z.mul_comm, Z.div_mul; lia).
  pose proof (Z.div_mod M 2 ltac:(lia)) as Hh. pose proof (Z.mod_pos_bound M 2 ltac:(lia)) as Hh'. set (h := M / 2) in *.
  pose proof (Z.div_mod (N + M) (2 * M) ltac:(lia)) as Eo. pose proof (Z.mod_pos_bound (N + M) (2 * M) ltac:(lia)) as Bo.
  set (off := (N + M) / (2 * M)) in *. set (ro := (N + M) mod (2 * M)) in *.
  split.
  - apply Z.lt_succ_r. apply Z.div_lt_upper_bound; [assumption|]. lia.
  - apply Z.lt_le_trans with (i + off + 1); [lia|]. apply Z.div_le_lower_bound; [assumption|]. lia.
Qed.

Lemma lbody_window M N ev x i : 0 < M -> 0 < N -> 0 <= x < M -> - N <= 2 * (i * M - x * N) <= N - 2 * M ->
  (0 <= i < N /\ lbody M N ev i = ev x) \/ (- N < i < 0 /\ x = 0 /\ lbody M N ev (i + N) = tneg (ev x)).
Proof.
  intros HM HN Hx H. pose proof (window M N x i HM HN H) as W. pose proof (offset_range M N HM HN) as Ho.
  assert (Hi: - N < i < N) by (split; nia).
  assert (Hu: 0 <= i + dround N (2 * M) < N).
  { apply lmsg_iff in W; [|assumption..].
    assert (0 <= dround (x * N) M) by (rewrite <- (dround_0 M) at 1 by assumption; apply dround_mono; nia).
    assert (dround ((x + 1) * N) M <= N) by (rewrite <- (dround_full M N) at 2 by assumption; apply dround_mono; nia). lia. }
  unfold lbody. set (off := dround N (2 * M)) in *. destruct (Z.le_gt_cases 0 i) as [Hp|Hn].
  - left. split; [lia|]. destruct (Z.ltb_spec i (N - off)); [|lia]. unfold lraw. rewrite W. reflexivity.
  - right. split; [lia|]. assert (x = 0) by nia. split; [assumption|].
    destruct (Z.ltb_spec (i + N) (N - off)); [lia|]. unfold lraw. replace (i + N + off - N) with (i + off) by lia. rewrite W. reflexivity.
Qed.

Lemma lbody_ext M N ev x i : 0 < M -> 0 < N -> 0 <= x < M -> - N <= 2 * (i * M - x * N) <= N - 2 * M ->
  ext N (zn (tB (ltab M N ev))) i == ev x.
Proof.
  intros HM HN Hx H. unfold ext. cbn [ltab tB].
  destruct (lbody_window M N ev x i HM HN Hx H) as [[Hi E]|(Hi & _ & E)].
  - rewrite Z.div_small, Z.mod_small by lia. cbn [Z.even]. rewrite zn_tab by lia. rewrite E. reflexivity.
  - replace (i / N) with (-1) by (apply (Z.div_unique_pos _ _ _ (i + N)); lia).
    replace (i mod N) with (i + N) by (apply (Z.mod_unique_pos _ _ (-1)); lia). cbn [Z.even]. rewrite zn_tab by lia.
    rewrite E. unfold tneg. rewrite eqm_w32. apply eqm_refl'. lia.
Qed.

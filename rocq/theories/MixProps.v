(** * Gates and programmable bootstraps together *)
From Coq Require Import Lia ZifyBool Setoid Morphisms List.
From Verif Require Import GoBase GoFacts GoMem F64 Utils Spec Params Key Tlwe TlweMem Poly Fft FftTabErr Trlwe Trgsw Lut Evaluator CloudKey Gates RunSpec LutSpec Circuit LutProg MixProg
  MemFacts TlweFacts PolyFacts NegFacts Laws TrlweFacts MsgFacts TrgswFacts RotFacts EvalFacts HeapFacts CloudKeyFacts BootFacts GateFacts RunProps HistProps RunWorst BasicFacts LutFacts LutProps LutProgProps.
Import ListNotations.
Local Open Scope Z_scope.
Ltac Zify.zify_post_hook ::= idtac.

(** ** bits are positions *)
Lemma bit_pos_at k b : 2 <= k <= 30 -> bit_pos k b * 2 ^ 31 / 2 ^ k == mu_bit b.
Proof.
  intro Hk. rewrite pow2_div by lia. unfold bit_pos, mu_bit. destruct b.
  - rewrite <- Z.pow_add_r by lia. replace (k - 2 + (31 - k)) with 29 by lia. reflexivity.
  - rewrite <- Z.mul_assoc, <- Z.pow_add_r by lia. replace (k - 2 + (31 - k)) with 29 by lia. reflexivity.
Qed.
Lemma bit_encodes n s c k b E : 2 <= k <= 30 -> encrypts n s c b E -> encodes n s c (2 ^ k) (bit_pos k b) E.
Proof. intros Hk [H1 H2]. split; [exact H1|]. eapply close_eqm; [reflexivity|apply bit_pos_at; exact Hk|exact H2]. Qed.
Lemma encodes_bit n s c k b E : 2 <= k <= 30 -> encodes n s c (2 ^ k) (bit_pos k b) E -> encrypts n s c b E.
Proof. intros Hk [H1 H2]. split; [exact H1|]. eapply close_eqm; [reflexivity|symmetry; apply bit_pos_at; exact Hk|exact H2]. Qed.
Lemma four_quarters k : 2 <= k -> 2 ^ k = 4 * 2 ^ (k - 2) /\ 0 < 2 ^ (k - 2).
Proof.
  intro Hk. split; [|apply Z.pow_pos_nonneg; lia]. change 4 with (2 ^ 2). rewrite <- Z.pow_add_r by lia. f_equal. lia.
Qed.
Lemma bit_pos_range k b : 2 <= k -> 0 <= bit_pos k b < 2 * 2 ^ k.
Proof. intro Hk. destruct (four_quarters k Hk). unfold bit_pos. destruct b; lia. Qed.
Lemma pos_bit_inv k x b : pos_bit k x = Ok b -> x = bit_pos k b.
Proof.
  unfold pos_bit. destruct (Z.eqb_spec x (bit_pos k true)); [intro H; injection H as <-; assumption|].
  destruct (Z.eqb_spec x (bit_pos k false)); [intro H; injection H as <-; assumption|discriminate].
Qed.
Lemma pos_bit_ok k b : 2 <= k -> pos_bit k (bit_pos k b) = Ok b.
Proof.
  intro Hk. destruct (four_quarters k Hk) as [_ K]. unfold pos_bit. destruct b; [rewrite Z.eqb_refl; reflexivity|]. rewrite Z.eqb_refl.
  destruct (Z.eqb_spec (bit_pos k false) (bit_pos k true)) as [H|_]; [|reflexivity]. exfalso. unfold bit_pos in H. lia.
Qed.

(** ** the conditions on noise *)
Lemma room_inv E Rd {A} (c : res A) r : (_ <- (if E + Rd <? 2 ^ 29 then Ok tt else Panic PIndex) ;; c) = Ok r -> E + Rd < 2 ^ 29 /\ c = Ok r.
Proof. destruct (Z.ltb_spec (E + Rd) (2 ^ 29)); cbn [bind]; [auto|discriminate]. Qed.

Lemma instr_len O pr e k i w m c : boots_instr O pr e k i w m c -> zlen c = lv0_N pr + 1.
Proof. intro H. apply (boots_len O pr e k [i] w m c). left. exact H. Qed.

Section Props.
Context (R : arith) (O : fops) (pr : pset) (sk : SecretKey) (rk : Z -> enc_rand) (rb : Z -> Z -> trlwe_rand) (ck : CloudKey O)
  (S : setup R O pr sk rk rb ck).
Notation n := (lv0_N pr).
Notation s0 := (KeyLv0 sk).
Notation M := (mem (FP O)).
Context (e : evaluator) (gk : gkey O) (k : Z) (Hk : 2 <= k < g_NBIT pr).
Notation wires := (lwires O pr e k sk).
Notation tables := (ltables O pr e k).
Notation tva := (rA (gk_testvec gk)).
Notation tvb := (rB (gk_testvec gk)).
Notation Rd := (round_err pr sk).
Context (T : Z).

Lemma hk0 : 0 <= k < g_NBIT pr. Proof. lia. Qed.
Lemma hk30 : 2 <= k <= 30.
Proof. destruct (kbound R O pr sk rk rb ck S k hk0) as (K & _). lia. Qed.

Lemma bit_get (m : M) ws xs es a b : wires m ws xs es -> (x <- get xs a ;; pos_bit k x) = Ok b ->
  exists r E, get ws a = Ok r /\ get es a = Ok E /\ user m e r /\ encrypts n s0 (tm m r) b E.
Proof.
  intros Hw H. apply bind_inv in H. destruct H as (x & G & H). apply pos_bit_inv in H. subst x.
  destruct (wires_get O pr sk e k hk0 m ws xs es a _ Hw G) as (r & E & G1 & G2 & _ & U & _ & C).
  exists r, E. split; [exact G1|]. split; [exact G2|]. split; [exact U|]. eapply encodes_bit; [apply hk30|exact C].
Qed.

(** the gates' test vector is not one of the ciphertexts *)
Notation apart ws := (~ In tva ws /\ ~ In tvb ws).

(** what one call does *)
Definition mstepped (i : mcall) (ws : list Z) (ts : list tref) (m : M) (xs' : list Z) (fs' : list (Z -> Z)) (es' : list Z) : Prop :=
  exists nw ts' m', mexec1 O pr ck e gk k i ws ts m = Ok (ws ++ nw, ts', m') /\ wires m' (ws ++ nw) xs' es' /\ tables m' (ws ++ nw) ts' fs' /\
    kept_but O e (moutputs [i]) ws m m' /\ (forall x, In x nw -> ~ user m e x) /\ reachable O pr e m' /\ key_at O m' e gk ck.

Lemma gate_step (m : M) i ws ts xs fs es r (m' : M) x E : exec_instr O pr e gk i ws m = Ok (r, m') -> wires m ws xs es -> tables m ws ts fs ->
  encodes n s0 (tm m' r) (2 ^ k) x E -> 0 <= x < 2 * 2 ^ k ->
  user m' e r -> ~ user m e r -> user_kept e m m' -> reachable O pr e m' -> key_at O m' e gk ck ->
  mstepped (MGate i) ws ts m (xs ++ [x]) fs (es ++ [E]).
Proof.
  intros E1 Hw Ht C Hx U1 U2 K R1 Q1. exists [r], ts, m'. cbn [mexec1]. rewrite E1. cbn [bind]. split; [reflexivity|].
  destruct (step_new O pr sk e k hk0 m m' ws ts xs fs es r x E Hw Ht K U1 U2 Hx C) as (W1 & T1 & _ & N1).
  split; [exact W1|]. split; [exact T1|]. split; [apply kept_all; exact K|]. split; [exact N1|]. split; assumption.
Qed.

Lemma mstep_ok i (m : M) ws ts xs fs es xs' fs' es' : reachable O pr e m -> key_at O m e gk ck -> apart ws -> wires m ws xs es -> tables m ws ts fs ->
  mplain1 k i xs fs = Ok (xs', fs') -> mnoise1 k T Rd i es = Ok es' ->
  (forall f c, mboots1 O pr e gk i ws fs m f c -> zlen c = n + 1 -> mix_noise O pr ck k sk f c T) ->
  mstepped i ws ts m xs' fs' es'.
Proof.
  intros Hr Hg [Av Bv] Hw Ht Hp Hn HB. pose proof hk30 as K30. destruct i as [i|i].
  - destruct i as [g a b|a|c|a|a b c]; cbn [mplain1 mnoise1] in *; cbv zeta in *.
    + apply bind_inv in Hp. destruct Hp as (x & Gx & Hp). cbv beta in Hp. apply bind_inv in Hp. destruct Hp as (y & Gy & Hp). injection Hp as <- <-.
      destruct (bit_get m ws xs es a x Hw Gx) as (ra & Ea & Wa & Da & Ua & Ca). destruct (bit_get m ws xs es b y Hw Gy) as (rb' & Eb & Wb & Db & Ub & Cb).
      rewrite Da, Db in Hn. cbn [bind] in Hn. apply room_inv in Hn. destruct Hn as [Hm Hn]. injection Hn as <-.
      destruct (p_gate R O pr sk rk rb ck S g e m gk ra rb' x y Ea Eb T Hr Hg Ca Cb Hm) as (r & m' & E1 & C & _ & U1 & U2 & K1 & R1 & Q1).
      { intros p P. apply (HB None p); [|eapply gate_lin_len; exact P]. exists ra, rb'. auto. }
      eapply gate_step; try eassumption; [|apply bit_encodes; [exact K30|exact C]|apply bit_pos_range; lia]. cbn [exec_instr]. rewrite Wa, Wb. exact E1.
    + apply bind_inv in Hp. destruct Hp as (x & Gx & Hp). injection Hp as <- <-.
      destruct (bit_get m ws xs es a x Hw Gx) as (ra & Ea & Wa & Da & Ua & Ca). rewrite Da in Hn. cbn [bind] in Hn. injection Hn as <-.
      pose proof S as S'. open_setup S'. destruct (not_run L pr W HBG sk e m ra x Ea Hr Ca) as (r & m' & E1 & C & U1 & U2 & K1 & R1).
      eapply gate_step; try eassumption; [|apply bit_encodes; [exact K30|exact C]|apply bit_pos_range; lia|eapply keeps_key; eassumption]. cbn [exec_instr]. rewrite Wa. exact E1.
    + injection Hp as <- <-. injection Hn as <-. pose proof S as S'. open_setup S'.
      destruct (const_run L pr W HBG sk Hsk e m c Hr) as (r & m' & E1 & C & U1 & U2 & K1 & R1).
      eapply gate_step; try eassumption; [apply bit_encodes; [exact K30|exact C]|apply bit_pos_range; lia|eapply keeps_key; eassumption].
    + apply bind_inv in Hp. destruct Hp as (x & Gx & Hp). injection Hp as <- <-.
      destruct (wires_get O pr sk e k hk0 m ws xs es a x Hw Gx) as (ra & Ea & Wa & Da & _ & Ua & Hx & Ca). rewrite Da in Hn. cbn [bind] in Hn. injection Hn as <-.
      assert (C0: encrypts n s0 (tm m ra) true (Z.abs (lwe_phase n s0 (tm m ra) - mu_bit true))).
      { split; [apply Ca|]. eexists. split; [apply Z.le_refl|]. apply eqm_refl'. ring. }
      pose proof S as S'. open_setup S'. destruct (copy_run L pr W HBG sk e m ra true _ Hr Ua C0) as (r & m' & E1 & V & _ & U1 & U2 & K1 & R1).
      apply (gate_step m (ICopy a) ws ts xs fs es r m' x Ea); try assumption; [|rewrite V; exact Ca|eapply keeps_key; eassumption]. cbn [exec_instr]. rewrite Wa. exact E1.
    + apply bind_inv in Hp. destruct Hp as (x & Gx & Hp). cbv beta in Hp. apply bind_inv in Hp. destruct Hp as (y & Gy & Hp).
      cbv beta in Hp. apply bind_inv in Hp. destruct Hp as (z & Gz & Hp). injection Hp as <- <-.
      destruct (bit_get m ws xs es a x Hw Gx) as (ra & Ea & Wa & Da & Ua & Ca). destruct (bit_get m ws xs es b y Hw Gy) as (rb' & Eb & Wb & Db & Ub & Cb).
      destruct (bit_get m ws xs es c z Hw Gz) as (rc & Ec & Wc & Dc & Uc & Cc).
      rewrite Da, Db, Dc in Hn. cbn [bind] in Hn. apply room_inv in Hn. destruct Hn as [M1 Hn]. apply room_inv in Hn. destruct Hn as [M2 Hn].
      apply room_inv in Hn. destruct Hn as [M3 Hn]. injection Hn as <-.
      destruct (p_mux R O pr sk rk rb ck S e m gk ra rb' rc x y z Ea Eb Ec T Hr Hg Ua Uc Ca Cb Cc M1 M2 M3) as (r & m' & E1 & C & _ & U1 & U2 & K1 & R1 & Q1).
      { intros p P. apply (HB None p); [|eapply mux_boots_len; exact P]. exists ra, rb', rc. auto. }
      eapply gate_step; try eassumption; [|apply bit_encodes; [exact K30|exact C]|apply bit_pos_range; lia]. cbn [exec_instr]. rewrite Wa, Wb, Wc. exact E1.
  - cbn [mplain1 mnoise1] in *.
    destruct (step_ok R O pr sk rk rb ck S e k hk0 T Rd i m ws ts xs fs es xs' fs' es' Hr Hw Ht Hp Hn) as (nw & ts' & m' & E1 & W1 & T1 & O1 & F1 & R1).
    { intros f c Hc Hl. split; [eapply t_rounding; exact S|]. apply (HB (Some f) c Hc Hl). }
    exists nw, ts', m'. cbn [mexec1 moutputs flat_map]. rewrite app_nil_r. split; [exact E1|]. split; [exact W1|]. split; [exact T1|]. split; [exact O1|].
    split; [exact F1|]. split; [exact R1|]. destruct Hg as (G1 & G2 & G3 & G4 & G5 & G6 & G7).
    assert (N: forall x, ~ In x ws -> forall o, In o (outputs1 i) -> get ws o <> Ok x).
    { intros x Hx o _ G. apply Hx. destruct (get_inv 0 _ _ _ G) as [Hj ->]. apply (zn_In ws o). exact Hj. }
    destruct (O1 tva G6 (N _ Av)) as [H6 E6]. destruct (O1 tvb G7 (N _ Bv)) as [H7 E7].
    unfold key_at. rewrite E6, E7. auto 10.
Qed.

Lemma mplain_fs i xs fs xs' fs' : mplain1 k i xs fs = Ok (xs', fs') -> fs' = mtables1 i fs.
Proof.
  destruct i as [i|i]; cbn [mplain1 mtables1].
  - destruct i; cbv zeta; intro H;
      repeat (apply bind_inv in H; destruct H as (? & _ & H); cbv beta in H); injection H as _ <-; reflexivity.
  - intro H. pose proof (plain_fs k i xs fs xs' fs' H) as ->. destruct i; reflexivity.
Qed.

Lemma mprog_ok p : forall (m : M) ws ts xs fs es xs' fs' es', reachable O pr e m -> key_at O m e gk ck -> apart ws -> wires m ws xs es -> tables m ws ts fs ->
  mplain k p xs fs = Ok (xs', fs') -> mnoise k T Rd p es = Ok es' ->
  (forall f c, mboots O pr ck e gk k p ws ts fs m f c -> zlen c = n + 1 -> mix_noise O pr ck k sk f c T) ->
  exists nw ts' m', mexec O pr ck e gk k p ws ts m = Ok (ws ++ nw, ts', m') /\ wires m' (ws ++ nw) xs' es' /\ tables m' (ws ++ nw) ts' fs' /\
    kept_but O e (moutputs p) ws m m' /\ (forall x, In x nw -> ~ user m e x) /\ reachable O pr e m' /\ key_at O m' e gk ck.
Proof.
  induction p as [|i p IH]; intros m ws ts xs fs es xs' fs' es' Hr Hg HA Hw Ht Hp Hn HB; cbn [mplain mnoise mexec mboots] in *.
  - injection Hp as <- <-. injection Hn as <-. exists [], ts, m. rewrite app_nil_r. split; [reflexivity|]. split; [exact Hw|]. split; [exact Ht|].
    split; [intros x Hx _; auto|]. split; [intros x []|]. split; assumption.
  - apply bind_inv in Hp. destruct Hp as ([xs1 fs1] & P1 & Hp). apply bind_inv in Hn. destruct Hn as (es1 & N1 & Hn). cbv beta in Hn.
    pose proof (mplain_fs _ _ _ _ _ P1) as Efs.
    destruct (mstep_ok i m ws ts xs fs es xs1 fs1 es1 Hr Hg HA Hw Ht P1 N1) as (nw1 & ts1 & m1 & E1 & W1 & T1 & O1 & F1 & R1 & Q1).
    { intros f c Hc. apply HB. left. exact Hc. }
    assert (HA1: apart (ws ++ nw1)).
    { destruct Hg as (_ & _ & _ & _ & _ & G6 & G7). destruct HA as [A1 A2]. split; intro X; apply in_app_or in X; destruct X as [X|X]; try contradiction;
        apply F1 in X; contradiction. }
    destruct (IH m1 (ws ++ nw1) ts1 xs1 fs1 es1 xs' fs' es' R1 Q1 HA1 W1 T1 Hp Hn) as (nw2 & ts2 & m2 & E2 & W2 & T2 & O2 & F2 & R2 & Q2).
    { intros f c Hc. apply HB. right. exists (ws ++ nw1), ts1, m1. split; [exact E1|]. rewrite <- Efs. exact Hc. }
    exists (nw1 ++ nw2), ts2, m2. rewrite E1. cbn [bind]. rewrite app_assoc. split; [exact E2|]. split; [exact W2|]. split; [exact T2|].
    assert (KU: forall x, user m e x -> user m1 e x).
    { intros x Hx. destruct (in_dec Z.eq_dec x ws) as [I|I].
      - apply In_zn in I. destruct I as (j & Hj & <-). destruct W1 as (_ & _ & _ & H). rewrite <- (zn_app1 ws nw1) by exact Hj. apply H.
        unfold zlen in *. rewrite app_length. lia.
      - apply O1; [exact Hx|]. intros o _ G. apply I. destruct (get_inv 0 _ _ _ G) as [Hj ->]. apply (zn_In ws o). exact Hj. }
    split; [|split; [|split; assumption]].
    + intros x Hx Hnx. cbn [moutputs flat_map] in Hnx, O1. rewrite app_nil_r in O1. destruct (O1 x Hx) as [V1 E1'].
      { intros o Ho. apply Hnx. apply in_or_app. left. exact Ho. }
      destruct (O2 x V1) as [V2 E2'].
      * intros o Ho G. destruct (get_inv 0 _ _ _ G) as [Hj Ex]. destruct (Z_lt_dec o (zlen ws)) as [Hlt|Hge].
        { apply (Hnx o); [apply in_or_app; right; exact Ho|]. rewrite <- G. unfold get. destruct (Z.ltb_spec o 0); [lia|].
          rewrite nth_error_app1 by (unfold zlen in Hlt; lia). reflexivity. }
        { apply (F1 x); [|exact Hx]. rewrite Ex. unfold znd. rewrite app_nth2 by (unfold zlen in Hge; lia). apply nth_In.
          rewrite zlen_app in Hj. unfold zlen in *. lia. }
      * split; [exact V2|congruence].
    + intros x I. apply in_app_or in I. destruct I as [I|I]; [apply F1; exact I|]. intro X. apply (F2 x I). apply KU. exact X.
Qed.

Lemma wires_bool (m : M) ws xs es i r b E : wires m ws xs es -> get ws i = Ok r -> get xs i = Ok (bit_pos k b) -> get es i = Ok E -> E < 2 ^ 29 ->
  DecryptBool n (tm m r) s0 = Ok b.
Proof.
  intros Hw Gr Gx Ge HE. destruct (wires_get O pr sk e k hk0 m ws xs es i _ Hw Gx) as (r' & E' & Gr' & Ge' & _ & _ & _ & C).
  rewrite Gr in Gr'. injection Gr' as <-. rewrite Ge in Ge'. injection Ge' as <-. apply encodes_bit in C; [|apply hk30].
  destruct S as ([W _] & _ & Hsk & _). eapply decrypt_enc; [apply (pw_n _ _ W)| |exact C|exact HE]. destruct Hsk as [[Y _] _]. lia.
Qed.
End Props.

(** ** the statement, and its float64 form *)
Lemma mp_program (R : arith) O pr sk rk rb ck e gk k T p (m : mem (FP O)) ws ts xs fs es xs' fs' es' : setup R O pr sk rk rb ck -> 2 <= k < g_NBIT pr ->
  reachable O pr e m -> key_at O m e gk ck -> ~ In (rA (gk_testvec gk)) ws -> ~ In (rB (gk_testvec gk)) ws ->
  lwires O pr e k sk m ws xs es -> ltables O pr e k m ws ts fs ->
  mplain k p xs fs = Ok (xs', fs') -> mnoise k T (round_err pr sk) p es = Ok es' ->
  (forall f c, mboots O pr ck e gk k p ws ts fs m f c -> zlen c = lv0_N pr + 1 -> mix_noise O pr ck k sk f c T) ->
  exists nw ts' m', mexec O pr ck e gk k p ws ts m = Ok (ws ++ nw, ts', m') /\
    lwires O pr e k sk m' (ws ++ nw) xs' es' /\ ltables O pr e k m' (ws ++ nw) ts' fs' /\
    (forall i r x E, get (ws ++ nw) i = Ok r -> get xs' i = Ok x -> get es' i = Ok E -> E < 2 ^ (30 - k) ->
       DecryptLWEMessage (lv0_N pr) (tm m' r) (2 ^ k) (KeyLv0 sk) = Ok (x mod 2 ^ k)) /\
    (forall i r b E, get (ws ++ nw) i = Ok r -> get xs' i = Ok (bit_pos k b) -> get es' i = Ok E -> E < 2 ^ 29 ->
       DecryptBool (lv0_N pr) (tm m' r) (KeyLv0 sk) = Ok b) /\
    kept_but O e (moutputs p) ws m m' /\ (forall x, In x nw -> ~ user m e x) /\ reachable O pr e m' /\ key_at O m' e gk ck.
Proof.
  intros S Hk Hr Hg A1 A2 Hw Ht Hp Hn HB.
  destruct (mprog_ok R O pr sk rk rb ck S e gk k Hk T p m ws ts xs fs es xs' fs' es' Hr Hg (conj A1 A2) Hw Ht Hp Hn HB) as (nw & ts' & m' & E & W1 & T1 & O1 & F1 & R1 & Q1).
  exists nw, ts', m'. split; [exact E|]. split; [exact W1|]. split; [exact T1|]. split; [|split; [|auto]].
  - intros i r x F Gr Gx Ge HE. destruct (wires_decrypts R O pr sk rk rb ck S e k ltac:(lia) m' _ _ _ i x F W1 Gx Ge HE) as (r' & Gr' & D).
    rewrite Gr in Gr'. injection Gr' as <-. exact D.
  - intros i r b F Gr Gx Ge HE. eapply (wires_bool R O pr sk rk rb ck S e k Hk); eassumption.
Qed.

Lemma mp_float64 mc O pr sk rk rb ck Bb Bk d d' e gk k p (m : mem (FP O)) ws ts xs fs es xs' fs' es' : mc_ok mc -> setup (f64_arith mc) O pr sk rk rb ck ->
  fft_error_within pr d d' -> key_noise_within pr rk rb Bb Bk -> 0 <= Bb -> 0 <= Bk -> 0 <= d' -> 2 <= k < g_NBIT pr ->
  reachable O pr e m -> key_at O m e gk ck -> ~ In (rA (gk_testvec gk)) ws -> ~ In (rB (gk_testvec gk)) ws ->
  lwires O pr e k sk m ws xs es -> ltables O pr e k m ws ts fs ->
  mplain k p xs fs = Ok (xs', fs') -> mnoise k (worst_noise pr sk Bb Bk d d') (round_err pr sk) p es = Ok es' ->
  exists nw ts' m', mexec O pr ck e gk k p ws ts m = Ok (ws ++ nw, ts', m') /\
    lwires O pr e k sk m' (ws ++ nw) xs' es' /\ ltables O pr e k m' (ws ++ nw) ts' fs' /\
    (forall i r x E, get (ws ++ nw) i = Ok r -> get xs' i = Ok x -> get es' i = Ok E -> E < 2 ^ (30 - k) ->
       DecryptLWEMessage (lv0_N pr) (tm m' r) (2 ^ k) (KeyLv0 sk) = Ok (x mod 2 ^ k)) /\
    (forall i r b E, get (ws ++ nw) i = Ok r -> get xs' i = Ok (bit_pos k b) -> get es' i = Ok E -> E < 2 ^ 29 ->
       DecryptBool (lv0_N pr) (tm m' r) (KeyLv0 sk) = Ok b) /\
    kept_but O e (moutputs p) ws m m' /\ (forall x, In x nw -> ~ user m e x) /\ reachable O pr e m' /\ key_at O m' e gk ck.
Proof.
  intros Hc S H1 H2 H3 H4 H5 Hk Hr Hg A1 A2 Hw Ht Hp Hn.
  eapply (mp_program _ O pr sk rk rb ck e gk k _ p m ws ts xs fs es xs' fs' es' S Hk Hr Hg A1 A2 Hw Ht Hp Hn).
  intros f c _ Hl. destruct f as [f|]; cbn [mix_noise].
  - eapply t_worst; try eassumption. apply Z.pow_pos_nonneg; lia.
  - eapply p_worst_tv; eassumption.
Qed.

(** ** the converters *)
Lemma to_message_plain k a xs fs b : 2 <= k -> get xs a = Ok (bit_pos k b) ->
  mplain k (bit_to_message k a) xs fs = Ok (xs ++ [if b then 1 else 0], fs).
Proof.
  intros Hk G. destruct (four_quarters k Hk) as [Q1 Q2]. unfold bit_to_message. cbn [mplain mplain1 lplain1]. rewrite G. cbn [bind]. do 4 f_equal.
  unfold lut_at, bit_pos. destruct b.
  - destruct (Z.ltb_spec (2 ^ (k - 2)) (2 ^ k)); [|lia]. rewrite Z.eqb_refl. rewrite !(Z.mod_small 1) by lia. reflexivity.
  - destruct (Z.ltb_spec (7 * 2 ^ (k - 2)) (2 ^ k)); [lia|]. destruct (Z.eqb_spec (7 * 2 ^ (k - 2) - 2 ^ k) (2 ^ (k - 2))); [lia|].
    rewrite Z.mod_0_l by lia. reflexivity.
Qed.

Lemma to_bit_plain k P a xs fs x : 2 <= k -> get xs a = Ok x -> 0 <= x < 2 ^ k ->
  exists u, zlen u = 3 /\ mplain k (message_to_bit k P a (zlen xs)) xs fs = Ok (xs ++ u ++ [bit_pos k (P x)], fs).
Proof.
  intros Hk G Hx. destruct (four_quarters k Hk) as [Q1 Q2]. unfold message_to_bit. set (v := if P x then 2 ^ (k - 2) else 0).
  assert (Hv: 0 <= v < 2 ^ k) by (unfold v; destruct (P x); lia).
  exists [v; bit_pos k true; v + v]. split; [reflexivity|]. cbn [mplain mplain1 lplain1]. rewrite G. cbn [bind].
  assert (E1: lut_at k (fun x => if P x then 2 ^ (k - 2) else 0) x mod (2 * 2 ^ k) = v).
  { unfold lut_at. destruct (Z.ltb_spec x (2 ^ k)); [|lia]. fold v. rewrite (Z.mod_small v) by lia. apply Z.mod_small. lia. }
  rewrite E1. rewrite <- !app_assoc. cbn [app].
  rewrite (get_last xs [bit_pos k true] v (zlen xs) eq_refl). cbn [bind].
  assert (E2: (v + v) mod (2 * 2 ^ k) = v + v) by (apply Z.mod_small; lia). rewrite E2. rewrite <- !app_assoc. cbn [app].
  assert (G2: get (xs ++ [v; bit_pos k true; v + v]) (zlen xs + 2) = Ok (v + v)).
  { change [v; bit_pos k true; v + v] with ([v; bit_pos k true] ++ [v + v]). rewrite app_assoc. apply get_last. rewrite zlen_app. reflexivity. }
  assert (G1: get (xs ++ [v; bit_pos k true; v + v]) (zlen xs + 1) = Ok (bit_pos k true)).
  { change [v; bit_pos k true; v + v] with ([v] ++ bit_pos k true :: [v + v]). rewrite app_assoc. apply get_last. rewrite zlen_app. reflexivity. }
  rewrite G2, G1. cbn [bind]. rewrite <- !app_assoc. cbn [app].
  assert (E3: (v + v - bit_pos k true) mod (2 * 2 ^ k) = bit_pos k (P x)).
  { unfold v, bit_pos. destruct (P x); symmetry; [apply (Z.mod_unique_pos _ _ 0); lia|apply (Z.mod_unique_pos _ _ (-1)); lia]. }
  rewrite E3. reflexivity.
Qed.

Lemma to_bit_noise k T Rd P a es E : get es a = Ok E -> E + Rd < 2 ^ (30 - k) ->
  mnoise k T Rd (message_to_bit k P a (zlen es)) es = Ok (es ++ [T; 1; T + T; T + T + 1]).
Proof.
  intros G HE. unfold message_to_bit. cbn [mnoise mnoise1 lnoise1]. rewrite G. cbn [bind]. destruct (Z.ltb_spec (E + Rd) (2 ^ (30 - k))); [|lia].
  cbn [bind]. rewrite <- !app_assoc. cbn [app]. rewrite (get_last es [1] T (zlen es) eq_refl). cbn [bind]. rewrite <- !app_assoc. cbn [app].
  assert (G2: get (es ++ [T; 1; T + T]) (zlen es + 2) = Ok (T + T)).
  { change [T; 1; T + T] with ([T; 1] ++ [T + T]). rewrite app_assoc. apply get_last. rewrite zlen_app. reflexivity. }
  assert (G1: get (es ++ [T; 1; T + T]) (zlen es + 1) = Ok 1).
  { change [T; 1; T + T] with ([T] ++ 1 :: [T + T]). rewrite app_assoc. apply get_last. rewrite zlen_app. reflexivity. }
  rewrite G2, G1. cbn [bind]. rewrite <- !app_assoc. reflexivity.
Qed.
Lemma to_message_noise k T Rd a es E : get es a = Ok E -> E + Rd < 2 ^ (30 - k) ->
  mnoise k T Rd (bit_to_message k a) es = Ok (es ++ [T]).
Proof. intros G HE. unfold bit_to_message. cbn [mnoise mnoise1 lnoise1]. rewrite G. cbn [bind]. destruct (Z.ltb_spec (E + Rd) (2 ^ (30 - k))); [reflexivity|lia]. Qed.

Lemma mplain_app k p q : forall xs fs, mplain k (p ++ q) xs fs = ('(xs, fs) <- mplain k p xs fs ;; mplain k q xs fs).
Proof.
  induction p as [|i p IH]; intros xs fs; [reflexivity|]. cbn [app mplain]. destruct (mplain1 k i xs fs) as [[xs1 fs1]|]; [apply IH|reflexivity].
Qed.
Lemma mnoise_app k T Rd p q : forall es, mnoise k T Rd (p ++ q) es = (es <- mnoise k T Rd p es ;; mnoise k T Rd q es).
Proof.
  induction p as [|i p IH]; intro es; [reflexivity|]. cbn [app mnoise]. destruct (mnoise1 k T Rd i es) as [es1|]; [apply IH|reflexivity].
Qed.

Lemma kept_none O e ws (m m' : mem (FP O)) : kept_but O e [] ws m m' -> user_kept e m m'.
Proof. intros H x Hx. apply H; [exact Hx|]. intros o []. Qed.
Lemma snoc_new (ws nw : list Z) j : zlen (ws ++ nw) = zlen ws + Z.of_nat j + 1 -> exists v r, nw = v ++ [r] /\ zlen v = Z.of_nat j.
Proof.
  intro H. rewrite zlen_app in H. destruct (exists_last (l := nw)) as (v & r & ->).
  - intros ->. unfold zlen in H. cbn in H. lia.
  - exists v, r. split; [reflexivity|]. rewrite zlen_snoc in H. lia.
Qed.

(** both converters, run *)
Section Conv.
Context (mc : machine) (O : fops) (pr : pset) (sk : SecretKey) (rk : Z -> enc_rand) (rb : Z -> Z -> trlwe_rand) (ck : CloudKey O) (Bb Bk d d' : Z).
Notation T := (worst_noise pr sk Bb Bk d d').

Lemma to_bit_float64 e gk k P a (m : mem (FP O)) ws ts xs fs es x E : mc_ok mc -> setup (f64_arith mc) O pr sk rk rb ck ->
  fft_error_within pr d d' -> key_noise_within pr rk rb Bb Bk -> 0 <= Bb -> 0 <= Bk -> 0 <= d' -> 2 <= k < g_NBIT pr ->
  reachable O pr e m -> key_at O m e gk ck -> ~ In (rA (gk_testvec gk)) ws -> ~ In (rB (gk_testvec gk)) ws ->
  lwires O pr e k sk m ws xs es -> ltables O pr e k m ws ts fs ->
  get xs a = Ok x -> 0 <= x < 2 ^ k -> get es a = Ok E -> E + round_err pr sk < 2 ^ (30 - k) -> 2 * T + 1 < 2 ^ 29 ->
  exists nw r ts' m', mexec O pr ck e gk k (message_to_bit k P a (zlen ws)) ws ts m = Ok (ws ++ nw ++ [r], ts', m') /\ zlen nw = 3 /\
    encrypts (lv0_N pr) (KeyLv0 sk) (tm m' r) (P x) (2 * T + 1) /\
    DecryptBool (lv0_N pr) (tm m' r) (KeyLv0 sk) = Ok (P x) /\ user_kept e m m' /\ reachable O pr e m' /\ key_at O m' e gk ck.
Proof.
  intros Hc S H1 H2 H3 H4 H5 Hk Hr Hg A1 A2 Hw Ht Gx Hx Ge HE HT. pose proof Hw as (L1 & L2 & _).
  destruct (to_bit_plain k P a xs fs x ltac:(lia) Gx Hx) as (u & Lu & Hp). rewrite L1 in Hp.
  pose proof (to_bit_noise k T (round_err pr sk) P a es E Ge HE) as Hn. rewrite L2 in Hn.
  destruct (mp_float64 mc O pr sk rk rb ck Bb Bk d d' e gk k _ m ws ts xs fs es _ _ _ Hc S H1 H2 H3 H4 H5 Hk Hr Hg A1 A2 Hw Ht Hp Hn)
    as (nw & ts' & m' & E1 & W1 & _ & _ & D & O1 & _ & R1 & Q1).
  pose proof W1 as (L3 & _ & _ & _). destruct (snoc_new ws nw 3) as (v & r & -> & Lv); [rewrite <- L3, !zlen_app, Lu; change (zlen [bit_pos k (P x)]) with 1; lia|].
  assert (Gr: get (ws ++ v ++ [r]) (zlen ws + 3) = Ok r) by (rewrite app_assoc; apply get_last; rewrite zlen_app, Lv; lia).
  assert (Gb: get (xs ++ u ++ [bit_pos k (P x)]) (zlen ws + 3) = Ok (bit_pos k (P x))) by (rewrite app_assoc; apply get_last; rewrite zlen_app, Lu; lia).
  assert (Gn: get (es ++ [T; 1; T + T; T + T + 1]) (zlen ws + 3) = Ok (T + T + 1)).
  { change [T; 1; T + T; T + T + 1] with ([T; 1; T + T] ++ [T + T + 1]). rewrite app_assoc. apply get_last. rewrite zlen_app, L2. reflexivity. }
  exists v, r, ts', m'. split; [exact E1|]. split; [exact Lv|].
  split; [|split; [apply (D _ _ _ _ Gr Gb Gn); lia|split; [eapply kept_none; exact O1|split; assumption]]].
  destruct (wires_get O pr sk e k ltac:(lia) m' _ _ _ _ _ W1 Gb) as (r' & E' & Gr' & Ge' & _ & _ & _ & C). rewrite Gr in Gr'. injection Gr' as <-.
  rewrite Gn in Ge'. injection Ge' as <-. apply encodes_bit in C; [|eapply hk30; eassumption]. replace (2 * T + 1) with (T + T + 1) by ring. exact C.
Qed.

Lemma to_message_float64 e gk k a (m : mem (FP O)) ws ts xs fs es b E : mc_ok mc -> setup (f64_arith mc) O pr sk rk rb ck ->
  fft_error_within pr d d' -> key_noise_within pr rk rb Bb Bk -> 0 <= Bb -> 0 <= Bk -> 0 <= d' -> 2 <= k < g_NBIT pr ->
  reachable O pr e m -> key_at O m e gk ck -> ~ In (rA (gk_testvec gk)) ws -> ~ In (rB (gk_testvec gk)) ws ->
  lwires O pr e k sk m ws xs es -> ltables O pr e k m ws ts fs ->
  get xs a = Ok (bit_pos k b) -> get es a = Ok E -> E + round_err pr sk < 2 ^ (30 - k) -> T < 2 ^ (30 - k) ->
  exists r ts' m', mexec O pr ck e gk k (bit_to_message k a) ws ts m = Ok (ws ++ [r], ts', m') /\
    encodes (lv0_N pr) (KeyLv0 sk) (tm m' r) (2 ^ k) (if b then 1 else 0) T /\
    DecryptLWEMessage (lv0_N pr) (tm m' r) (2 ^ k) (KeyLv0 sk) = Ok (if b then 1 else 0) /\ user_kept e m m' /\ reachable O pr e m' /\ key_at O m' e gk ck.
Proof.
  intros Hc S H1 H2 H3 H4 H5 Hk Hr Hg A1 A2 Hw Ht Gx Ge HE HT. pose proof Hw as (L1 & L2 & _). destruct (four_quarters k ltac:(lia)) as [Q1 Q2].
  pose proof (to_message_plain k a xs fs b ltac:(lia) Gx) as Hp.
  pose proof (to_message_noise k T (round_err pr sk) a es E Ge HE) as Hn.
  destruct (mp_float64 mc O pr sk rk rb ck Bb Bk d d' e gk k _ m ws ts xs fs es _ _ _ Hc S H1 H2 H3 H4 H5 Hk Hr Hg A1 A2 Hw Ht Hp Hn)
    as (nw & ts' & m' & E1 & W1 & _ & D & _ & O1 & _ & R1 & K1).
  pose proof W1 as (L3 & _ & _ & _). destruct (snoc_new ws nw 0) as (v & r & -> & Lv); [rewrite <- L3, zlen_snoc; lia|].
  assert (v = []) as -> by (destruct v; [reflexivity|unfold zlen in Lv; cbn in Lv; lia]). cbn [app] in *.
  assert (Gr: get (ws ++ [r]) (zlen ws) = Ok r) by (apply get_last; reflexivity).
  assert (Gb: get (xs ++ [if b then 1 else 0]) (zlen ws) = Ok (if b then 1 else 0)) by (apply get_last; lia).
  assert (Gn: get (es ++ [T]) (zlen ws) = Ok T) by (apply get_last; lia).
  exists r, ts', m'. split; [exact E1|].
  destruct (wires_get O pr sk e k ltac:(lia) m' _ _ _ _ _ W1 Gb) as (r' & E' & Gr' & Ge' & _ & _ & _ & C). rewrite Gr in Gr'. injection Gr' as <-.
  rewrite Gn in Ge'. injection Ge' as <-. split; [exact C|]. split; [|split; [eapply kept_none; exact O1|split; assumption]].
  rewrite (D _ _ _ _ Gr Gb Gn HT). f_equal. apply Z.mod_small. destruct b; lia.
Qed.
End Conv.

(** ** a start *)
Lemma mix_start R O pr sk rk rb ck : setup R O pr sk rk rb ck -> g_N pr <> lv0_N pr + 1 -> forall k (xs : list Z) (r : Z -> enc_rand) E, 0 <= k < 20 ->
  Forall (fun x => 0 <= x < 2 ^ k) xs -> (forall i, Z.abs (centered (F64ToTorus (er_noise (r i)))) <= E) ->
  exists e (m : mem (FP O)) gk ws, reachable O pr e m /\ key_at O m e gk ck /\ ~ In (rA (gk_testvec gk)) ws /\ ~ In (rB (gk_testvec gk)) ws /\
    lwires O pr e k sk m ws xs (map (fun _ => E + 1) xs).
Proof.
  intros S HN k xs r E Hk Hx HE. assert (Hs: 0 <= lv0_N pr /\ zlen (KeyLv0 sk) = lv0_N pr).
  { pose proof S as S'. open_setup S'. split; [apply (pw_n _ _ W)|apply Hsk]. }
  assert (HM: 1 <= 2 ^ k < 2 ^ 20) by (split; [pose proof (Z.pow_pos_nonneg 2 k); lia|apply Z.pow_lt_mono_r; lia]).
  destruct Hs as [Hn Hs].
  assert (G: exists bufs, Forall2 (fun v x => encodes (lv0_N pr) (KeyLv0 sk) v (2 ^ k) x (E + 1) /\ 0 <= x < 2 ^ k) bufs xs).
  { induction Hx as [|x xs Hx _ [bufs IH]]; [exists []; constructor|].
    destruct (EncryptLWEMessage_total (lv0_N pr) x (2 ^ k) (KeyLv0 sk) (r 0) Hn ltac:(lia) ltac:(lia)) as (ct & Ect & Hok & _).
    exists (ct :: bufs). constructor; [|exact IH]. split; [|exact Hx]. split; [exact Hok|].
    unfold NewTLWE in Ect. rewrite make_ok in Ect by lia. cbn [bind] in Ect.
    pose proof (encodes_enc (lv0_N pr) (repeat 0 (Z.to_nat (lv0_N pr + 1))) x (2 ^ k) (KeyLv0 sk) (r 0) ct E Hn ltac:(rewrite zlen_repeat; lia) ltac:(lia) HM Ect (HE 0)) as H.
    rewrite Z.mod_small in H by lia. exact H. }
  destruct G as [bufs G]. destruct (p_start _ _ _ _ _ _ _ S bufs) as (e & m & gk & ws & Hr & Hg & F & ND).
  assert (F': Forall2 (fun w x => user m e w /\ encodes (lv0_N pr) (KeyLv0 sk) (tm m w) (2 ^ k) x (E + 1) /\ 0 <= x < 2 ^ k) ws xs).
  { clear Hx HE ND. revert xs G. induction F as [|x v w bufs [Hu Hv] F IH]; intros xs G; inversion G; subst; constructor; [|apply IH; assumption].
    split; [exact Hu|]. assumption. }
  assert (LT: forall w, In w ws -> zlen (tm m w) = lv0_N pr + 1).
  { intros w Hw. destruct (Forall2_in_l _ _ _ F' _ Hw) as (x & _ & ((Lw & _) & _) & _). exact Lw. }
  assert (LV: zlen (tm m (rA (gk_testvec gk))) = g_N pr /\ zlen (tm m (rB (gk_testvec gk))) = g_N pr).
  { pose proof Hg as (_ & _ & _ & -> & -> & _). pose proof S as S'. open_setup S'. destruct (cloud_facts L pr W HBG _ _ _ _ Hsk Hck) as (_ & _ & -> & _).
    destruct (ctv_ok (g_N pr)) as [[A _] [B _]]; [pose proof (law_N L); lia|]. auto. }
  exists e, m, gk, ws. split; [exact Hr|]. split; [exact Hg|]. split; [intro X; apply LT in X; lia|]. split; [intro X; apply LT in X; lia|].
  assert (Lx: length ws = length xs) by (clear -F'; induction F'; cbn; congruence).
  split; [unfold zlen; lia|]. split; [unfold zlen; rewrite map_length; lia|]. split; [exact ND|].
  intros i Hi. assert (Gx: get xs i = Ok (zn xs i)) by (apply get_zn; unfold zlen in *; lia).
  destruct (Forall2_get_r _ _ _ _ _ F' Gx) as (w & Gw & U & C & Hxi). rewrite get_zn in Gw by exact Hi. injection Gw as ->.
  split; [exact U|]. split; [lia|]. assert (En: zn (map (fun _ => E + 1) xs) i = E + 1).
  { unfold zn, znd. rewrite (nth_indep (map (fun _ => E + 1) xs) 0 (E + 1)) by (rewrite map_length; unfold zlen in Hi; lia).
    exact (map_nth (fun _ : Z => E + 1) xs 0 (Z.to_nat i)). }
  rewrite En. exact C.
Qed.

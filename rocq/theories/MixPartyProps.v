(** * Several parties, gates and programmable bootstraps *)
From Coq Require Import Lia ZifyBool Setoid Morphisms List.
From Verif Require Import GoBase GoFacts GoMem F64 Utils Spec Params Key Tlwe TlweMem Poly Fft FftTabErr Trlwe Trgsw Lut Evaluator CloudKey Gates RunSpec LutSpec Circuit LutProg MixProg ProxyReenc ReencSpec Party MixParty
  MemFacts TlweFacts PolyFacts NegFacts Laws TrlweFacts MsgFacts TrgswFacts RotFacts EvalFacts HeapFacts CloudKeyFacts BootFacts GateFacts RunProps HistProps RunWorst BasicFacts LutFacts LutProps ReencFacts ReencProps LutProgProps MixProps PartyProps.
Import ListNotations.
Local Open Scope Z_scope.
Ltac Zify.zify_post_hook ::= idtac.

Lemma nth_error_upd {A} (l : list A) v : forall i j, (i < length l)%nat -> nth_error (upd_nat l i v) j = if Nat.eqb j i then Some v else nth_error l j.
Proof.
  induction l as [|x l IH]; intros i j Hi; [cbn in Hi; lia|]. destruct i as [|i], j as [|j]; cbn [upd_nat nth_error Nat.eqb]; try reflexivity.
  apply IH. cbn in Hi. lia.
Qed.
Lemma get_upd {A} (l : list A) i j v : 0 <= i < zlen l -> get (upd l i v) j = if j =? i then Ok v else get l j.
Proof.
  intro H. unfold get, upd, zlen in *. destruct (Z.eqb_spec j i) as [->|Hne].
  - destruct (Z.ltb_spec i 0); [lia|]. rewrite nth_error_upd, Nat.eqb_refl by lia. reflexivity.
  - destruct (Z.ltb_spec j 0); [reflexivity|]. rewrite nth_error_upd by lia. destruct (Nat.eqb_spec (Z.to_nat j) (Z.to_nat i)); [lia|reflexivity].
Qed.
Lemma get_upd_inv {A} (l : list A) i j v x : 0 <= i < zlen l -> get (upd l i v) j = Ok x -> (j = i /\ x = v) \/ (j <> i /\ get l j = Ok x).
Proof. intros H G. rewrite get_upd in G by exact H. destruct (Z.eqb_spec j i); [left|right]; split; congruence. Qed.

Lemma Forall2_and_l {A B} (P : A -> B -> Prop) u v : Forall2 P u v -> Forall2 (fun a b => In a u /\ P a b) u v.
Proof.
  intro F. induction F as [|a b u v H F IH]; [constructor|]. constructor; [split; [left; reflexivity|exact H]|].
  eapply Forall2_mono; [|exact IH]. cbn beta. intros x y [I X]. split; [right; exact I|exact X].
Qed.

Section Props.
Context (R : arith) (O : fops) (pr : pset) (e : evaluator) (ps : list (party O)) (links : list link) (k : Z) (Hk : 2 <= k < g_NBIT pr).
Notation M := (mem (FP O)).
Notation n := (lv0_N pr).
Notation parties := (parties O pr e ps R).
Notation desks_ok := (desks_ok O pr e ps k).
Notation separate := (separate O ps).
Notation wires q := (lwires O pr e k (p_sk q)).
Notation tables := (ltables O pr e k).

Lemma wires_user (m : M) sk ws xs es x : lwires O pr e k sk m ws xs es -> In x ws -> user m e x.
Proof. intros (_ & _ & _ & H) I. apply In_zn in I. destruct I as (i & Hi & <-). apply H. exact Hi. Qed.
Lemma tables_user (m : M) ws ts fs t : tables m ws ts fs -> In t ts -> user m e (rA t) /\ user m e (rB t).
Proof.
  intros F I. induction F as [|t' f ts fs ((tv & _ & (_ & _ & U1 & U2 & _)) & _) F IH]; [destruct I|]. destruct I as [->|I]; [split; assumption|apply IH; exact I].
Qed.
Lemma tables_apart (m : M) ws ts fs t : tables m ws ts fs -> In t ts -> ~ In (rA t) ws /\ ~ In (rB t) ws.
Proof.
  intros F I. induction F as [|t' f ts fs (_ & N1 & N2) F IH]; [destruct I|]. destruct I as [->|I]; [split; assumption|apply IH; exact I].
Qed.
Lemma party_in (m : M) q : parties m -> In q ps -> key_at O m e (p_key q) (p_ck q).
Proof. intros H I. unfold Party.parties in H. rewrite Forall_forall in H. apply (H q I). Qed.

(** the data of one desk *)
Lemma desk_at (m : M) ds v es p q : desks_ok m ds v es -> get ps p = Ok q ->
  exists ws ts xs fs F, get ds p = Ok (ws, ts) /\ get v p = Ok (xs, fs) /\ get es p = Ok F /\ wires q m ws xs F /\ tables m ws ts fs.
Proof.
  intros (L1 & L2 & L3 & H) G. pose proof (get_range _ _ _ G) as Hp.
  destruct (get_some ds p ltac:(lia)) as [[ws ts] G1]. destruct (get_some v p ltac:(lia)) as [[xs fs] G2]. destruct (get_some es p ltac:(lia)) as [F G3].
  exists ws, ts, xs, fs, F. destruct (H p q _ _ _ G G1 G2 G3) as [A B]. auto 10.
Qed.
Lemma desk_party (m : M) ds v es p d : desks_ok m ds v es -> get ds p = Ok d -> exists q, get ps p = Ok q.
Proof. intros (L1 & _) G. apply get_some. apply get_range in G. lia. Qed.
Lemma desk_users (m : M) ds v es p d : desks_ok m ds v es -> get ds p = Ok d ->
  (forall x, In x (fst d) -> user m e x) /\ (forall t, In t (snd d) -> user m e (rA t) /\ user m e (rB t)).
Proof.
  intros H G. destruct (desk_party _ _ _ _ _ _ H G) as [q Gq]. destruct (desk_at _ _ _ _ _ _ H Gq) as (ws & ts & xs & fs & F & G1 & _ & _ & A & B).
  rewrite G in G1. injection G1 as ->. cbn [fst snd]. split; intros; [eapply wires_user|eapply tables_user]; eassumption.
Qed.

(** a party works on its desk *)
Lemma desk_update (m m' : M) ds v es p q ws ts nw nt xs' fs' F' : desks_ok m ds v es -> separate ds -> parties m -> get ps p = Ok q -> get ds p = Ok (ws, ts) ->
  wires q m' (ws ++ nw) xs' F' -> tables m' (ws ++ nw) (ts ++ nt) fs' -> others_kept O e ws m m' -> (forall x, In x nw -> ~ user m e x) ->
  (forall t, In t nt -> ~ user m e (rA t) /\ ~ user m e (rB t)) ->
  desks_ok m' (upd ds p (ws ++ nw, ts ++ nt)) (upd v p (xs', fs')) (upd es p F') /\ separate (upd ds p (ws ++ nw, ts ++ nt)) /\ parties m' /\
  grown O e m ds (upd ds p (ws ++ nw, ts ++ nt)).
Proof.
  intros HD HS HP Gq Gd HW HT K HN HNT. pose proof HD as (L1 & L2 & L3 & H). pose proof (get_range _ _ _ Gq) as Rp.
  destruct (HS p _ Gd) as (S1 & S2 & S3). cbn [fst snd] in *.
  destruct (desk_users _ _ _ _ _ _ HD Gd) as [Uw Ut]. cbn [fst snd] in *.
  split; [|split; [|split]].
  - unfold MixParty.desks_ok. rewrite !zlen_upd. split; [exact L1|]. split; [exact L2|]. split; [exact L3|].
    intros p1 q1 d1 s1 F1 G1 D1 V1 E1.
    apply get_upd_inv in D1; [|lia]. apply get_upd_inv in V1; [|lia]. apply get_upd_inv in E1; [|lia].
    destruct D1 as [[E D1]|[N D1]], V1 as [[? V1]|[? V1]], E1 as [[? E1]|[? E1]]; try contradiction.
    + subst p1. rewrite Gq in G1. injection G1 as <-. subst. split; assumption.
    + destruct (H p1 q1 d1 s1 F1 G1 D1 V1 E1) as [A B]. destruct (desk_users _ _ _ _ _ _ HD D1) as [Uw1 Ut1].
      destruct (HS p1 d1 D1) as (P1 & _ & _). split.
      * destruct A as (A1 & A2 & A3 & A4). split; [exact A1|]. split; [exact A2|]. split; [exact A3|]. intros i Hi. destruct (A4 i Hi) as (B1 & B2 & B3).
        destruct (K _ B1) as [B1' E']; [|rewrite E'; auto]. apply (P1 p (ws, ts)); [exact Gd|congruence|]. apply (zn_In (fst d1) i). exact Hi.
      * eapply Forall2_mono; [|eapply Forall2_and_l; exact B]. cbn beta. intros t f (I & (tv & T1 & (T2 & T3 & T4 & T5 & T6)) & N1 & N2).
        destruct (S2 p1 d1 t D1 I) as [X1 X2]. destruct (K _ T4 X1) as [T4' Q1]. destruct (K _ T5 X2) as [T5' Q2].
        split; [|split; assumption]. exists tv. split; [exact T1|]. unfold table. rewrite Q1, Q2. auto.
  - intros p1 d1 D1. apply get_upd_inv in D1; [|lia]. split; [|split].
    + intros p2 d2 x D2 Hne I1 I2. apply get_upd_inv in D2; [|lia].
      destruct D1 as [[E1 D1]|[N1 D1]], D2 as [[E2 D2]|[N2 D2]]; subst; cbn [fst snd] in *; try congruence.
      * apply in_app_or in I1. destruct I1 as [I1|I1]; [exact (S1 p2 d2 x D2 N2 I1 I2)|]. apply (HN x I1). apply (desk_users _ _ _ _ _ _ HD D2). exact I2.
      * apply in_app_or in I2. destruct I2 as [I2|I2]; [exact (S1 p1 d1 x D1 N1 I2 I1)|]. apply (HN x I2). apply (desk_users _ _ _ _ _ _ HD D1). exact I1.
      * destruct (HS p1 d1 D1) as (P1 & _). exact (P1 p2 d2 x D2 Hne I1 I2).
    + intros p2 d2 t D2 I. apply get_upd_inv in D2; [|lia].
      destruct D1 as [[E1 D1]|[N1 D1]], D2 as [[E2 D2]|[N2 D2]]; subst; cbn [fst snd] in *.
      * eapply tables_apart; eassumption.
      * destruct (desk_users _ _ _ _ _ _ HD D2) as [_ U]. destruct (U t I) as [U1 U2]. destruct (S2 p2 d2 t D2 I) as [X1 X2].
        split; intro X; apply in_app_or in X; destruct X as [X|X]; try contradiction; apply HN in X; contradiction.
      * destruct (desk_users _ _ _ _ _ _ HD D1) as [U _]. destruct (HS p1 d1 D1) as (_ & P2 & _). apply in_app_or in I. destruct I as [I|I].
        { exact (P2 p _ t Gd I). }
        { destruct (HNT t I) as [X1 X2]. split; intro X; apply U in X; contradiction. }
      * destruct (HS p1 d1 D1) as (_ & P2 & _). exact (P2 p2 d2 t D2 I).
    + intros q1 I. destruct D1 as [[E1 D1]|[N1 D1]]; subst; cbn [fst snd] in *.
      * destruct (S3 q1 I) as [X1 X2]. destruct (party_in m q1 HP I) as (_ & _ & _ & _ & _ & U1 & U2).
        split; intro X; apply in_app_or in X; destruct X as [X|X]; try contradiction; apply HN in X; contradiction.
      * destruct (HS p1 d1 D1) as (_ & _ & P3). exact (P3 q1 I).
  - unfold Party.parties in *. rewrite Forall_forall in *. intros q1 I. destruct (HP q1 I) as (A & (A1 & A2 & A3 & A4 & A5 & A6 & A7) & B).
    split; [exact A|]. split; [|exact B]. destruct (S3 q1 I) as [X1 X2]. destruct (K _ A6 X1) as [B6 C6]. destruct (K _ A7 X2) as [B7 C7].
    unfold key_at. rewrite C6, C7. auto 10.
  - intros p1 d1 D1. destruct (Z.eq_dec p1 p) as [->|Hne].
    + rewrite Gd in D1. injection D1 as <-. exists nw, nt. rewrite get_upd, Z.eqb_refl by lia. split; [reflexivity|exact HN].
    + exists [], []. rewrite get_upd by lia. destruct (Z.eqb_spec p1 p); [contradiction|]. rewrite !app_nil_r. rewrite D1. destruct d1. split; [reflexivity|intros x []].
Qed.

Lemma others_of_but os ws (m m' : M) : kept_but O e os ws m m' -> others_kept O e ws m m'.
Proof.
  intros K x Hx N. apply K; [exact Hx|]. intros o _ G. apply N. destruct (get_inv 0 _ _ _ G) as [Hj ->]. apply (zn_In ws o). exact Hj.
Qed.

(** new tables are new buffers *)
Lemma mexec_tables ck gk c ws ts (m : M) ws' ts' m' : mexec1 O pr ck e gk k c ws ts m = Ok (ws', ts', m') ->
  exists nt, ts' = ts ++ nt /\ forall t, In t nt -> ~ user m e (rA t) /\ ~ user m e (rB t).
Proof.
  intro H. assert (Z0: ts' = ts -> exists nt, ts' = ts ++ nt /\ forall t, In t nt -> ~ user m e (rA t) /\ ~ user m e (rB t)).
  { intros ->. exists []. rewrite app_nil_r. split; [reflexivity|intros t []]. }
  destruct c as [i|i]; cbn [mexec1] in H.
  - apply bind_inv in H. destruct H as ([r m1] & _ & H). injection H as _ <- _. apply Z0. reflexivity.
  - destruct i; cbn [lexec1] in H; cbv zeta in H;
      try (repeat (apply bind_inv in H; let a := fresh in destruct H as (a & ? & H); try (destruct a as [? ?]); cbn beta iota in H); injection H as _ <- _; apply Z0; reflexivity).
    apply bind_inv in H. destruct H as ([t m1] & E & H). injection H as _ <- _. unfold new_lut in E. apply bind_inv in E. destruct E as (tv & _ & E).
    cbn [alloc] in E. injection E as <- _. eexists. split; [reflexivity|]. intros t [<-|[]]. cbn [rA rB tnext]. unfold user. split; intro X; lia.
Qed.

(** ** one call *)
Definition xstepped (i : xact) (ds : list desk) (m : M) (v' : list sheet) (es' : list (list Z)) : Prop :=
  exists ds' m', xexec1 O pr e ps links k i ds m = Ok (ds', m') /\ desks_ok m' ds' v' es' /\ separate ds' /\
    xkept O e [i] ds m m' /\ grown O e m ds ds' /\ reachable O pr e m' /\ parties m'.

Lemma put_ok (m : M) ds v es p q (r : res (list Z)) c x E v' es' i : reachable O pr e m -> desks_ok m ds v es -> separate ds -> parties m -> get ps p = Ok q ->
  r = Ok c -> encodes n (KeyLv0 (p_sk q)) c (2 ^ k) x E -> 0 <= x < 2 * 2 ^ k -> give p x v = Ok v' -> give_noise p E es = Ok es' ->
  xexec1 O pr e ps links k i ds m = put O p r ds m -> xstepped i ds m v' es'.
Proof.
  intros Hr HD HS HP Gq -> HC Hx Hv He Hi. destruct (desk_at _ _ _ _ _ _ HD Gq) as (ws & ts & xs & fs & F & G1 & G2 & G3 & A & B).
  unfold give in Hv. rewrite G2 in Hv. cbn [bind] in Hv. apply set_inv in Hv. destruct Hv as [Rv ->].
  unfold give_noise in He. rewrite G3 in He. cbn [bind] in He. apply set_inv in He. destruct He as [Re ->].
  destruct (party_at R O pr e ps m p q HP Gq) as (S & _). pose proof S as S'. open_setup S'.
  destruct (fresh_ok L pr W HBG e m c Hr) as (m1 & E1 & V1 & R1 & U1 & K1 & _).
  assert (NU: ~ user m e (tnext m)) by (unfold user; lia).
  destruct (step_new O pr (p_sk q) e k ltac:(lia) m m1 ws ts xs fs F (tnext m) x E A B K1 U1 NU Hx ltac:(rewrite V1; exact HC)) as (W1 & T1 & O1 & N1).
  pose proof (get_range _ _ _ G1) as Rd. exists (upd ds p (ws ++ [tnext m], ts)), m1.
  split. { rewrite Hi. unfold put. rewrite G1. cbn [bind]. rewrite E1. cbn [bind]. rewrite set_ok by exact Rd. reflexivity. }
  pose proof (desk_update m m1 ds v es p q ws ts [tnext m] [] (xs ++ [x]) fs (F ++ [E]) HD HS HP Gq G1 W1) as X. rewrite app_nil_r in X.
  destruct X as (X1 & X2 & X3 & X4); [exact T1|exact O1|exact N1|intros t []|].
  split; [exact X1|]. split; [exact X2|]. split; [|split; [exact X4|split; [exact R1|exact X3]]]. intros z Hz _. apply K1. exact Hz.
Qed.

Lemma desks_party_give v es p x v' ds (m : M) : desks_ok m ds v es -> give p x v = Ok v' -> exists q, get ps p = Ok q.
Proof.
  intros (L1 & L2 & _) H. unfold give in H. apply bind_inv in H. destruct H as ([xs fs] & G & _). apply get_some. apply get_range in G. lia.
Qed.

Context (T : Z -> Z).

Lemma xstep i (m : M) ds v es v' es' : reachable O pr e m -> parties m -> links_ok O pr ps links -> desks_ok m ds v es -> separate ds ->
  xplain1 links k i v = Ok v' -> xnoise1 pr ps links k T i es = Ok es' ->
  (forall p q f c, get ps p = Ok q -> xboots1 O pr e ps i ds v m p f c -> zlen c = n + 1 -> mix_noise O pr (p_ck q) k (p_sk q) f c (T p)) ->
  (forall h l a c, get links h = Ok l -> get ps (h_from l) = Ok a -> xreenc1 O links i ds m h c -> reenc_noise O pr a l c (h_err l)) ->
  xstepped i ds m v' es'.
Proof.
  intros Hr HP HL HD HS Hv Hn HT HH. destruct i as [p c|p x r|p b r|p b r|h a]; cbn [xplain1 xnoise1] in *.
  - apply bind_inv in Hv. destruct Hv as ([xs fs] & Gv & Hv). apply bind_inv in Hv. destruct Hv as ([xs' fs'] & Hp & Hv).
    apply bind_inv in Hn. destruct Hn as (q & Gq & Hn). apply bind_inv in Hn. destruct Hn as (F & GF & Hn). apply bind_inv in Hn. destruct Hn as (F' & HF & Hn).
    apply set_inv in Hv. destruct Hv as [Rv ->]. apply set_inv in Hn. destruct Hn as [Re ->].
    destruct (desk_at _ _ _ _ _ _ HD Gq) as (ws & ts & xs0 & fs0 & F0 & G1 & G2 & G3 & A & B).
    rewrite Gv in G2. injection G2 as <- <-. rewrite GF in G3. injection G3 as <-.
    destruct (party_at R O pr e ps m p q HP Gq) as (S & Hg & _). destruct (HS p _ G1) as (_ & _ & S3). destruct (S3 q (get_In _ _ _ Gq)) as [N1 N2].
    destruct (mstep_ok R O pr (p_sk q) (p_rk q) (p_rb q) (p_ck q) S e (p_key q) k Hk (T p) c m ws ts xs fs F xs' fs' F' Hr Hg (conj N1 N2) A B Hp HF)
      as (nw & ts' & m' & E1 & W1 & T1 & K1 & F1 & R1 & _).
    { intros f d Hd Hl. apply (HT p q f d Gq); [|exact Hl]. split; [reflexivity|]. exists q, (ws, ts), (xs, fs). auto. }
    destruct (mexec_tables _ _ _ _ _ _ _ _ _ E1) as (nt & -> & HNT).
    destruct (desk_update m m' ds v es p q ws ts nw nt xs' fs' F' HD HS HP Gq G1 W1 T1 (others_of_but _ _ _ _ K1) F1 HNT) as (X1 & X2 & X3 & X4).
    exists (upd ds p (ws ++ nw, ts ++ nt)), m'. split.
    { cbn [xexec1]. rewrite Gq, G1. cbn [bind]. rewrite E1. cbn [bind]. rewrite set_ok by (eapply get_range; exact G1). reflexivity. }
    split; [exact X1|]. split; [exact X2|]. split; [|auto]. intros z Hz Nz. apply K1; [exact Hz|]. intros o Ho G. 
    apply (Nz p o (ws, ts)); [|exact G1|exact G]. cbn [xoutputs flat_map]. rewrite app_nil_r. apply in_map. exact Ho.
  - destruct (desks_party_give v es p _ v' ds m HD Hv) as [q Gq].
    destruct (party_n _ _ _ _ _ m p q HP Gq) as [H0 Hz]. destruct (party_at R O pr e ps m p q HP Gq) as (S & _).
    destruct (kbound R O pr _ _ _ _ S k ltac:(lia)) as (K1 & K2 & _).
    destruct (EncryptLWEMessage_total n x (2 ^ k) (KeyLv0 (p_sk q)) r H0 ltac:(lia) ltac:(lia)) as (ct & Ec & Hok & Hph).
    pose proof (Z.mod_pos_bound x (2 ^ k) K2) as Hx.
    eapply (put_ok m ds v es p q); try eassumption; [|lia|cbn [xexec1]; rewrite Gq; reflexivity].
    split; [exact Hok|]. exists (sample (er_noise r)). split; [lia|]. rewrite Hph, lwe_enc_pow2, sample_eqm, pow2_div by lia. reflexivity.
  - destruct (desks_party_give v es p _ v' ds m HD Hv) as [q Gq].
    destruct (party_n _ _ _ _ _ m p q HP Gq) as [H0 Hz]. destruct (party_at R O pr e ps m p q HP Gq) as (S & _).
    destruct (kbound R O pr _ _ _ _ S k ltac:(lia)) as (K1 & K2 & _).
    destruct (EncryptBool_total n b (KeyLv0 (p_sk q)) r H0 ltac:(lia)) as (ct & Ec & Hok & Hph).
    eapply (put_ok m ds v es p q); try eassumption; [|apply bit_pos_range; lia|cbn [xexec1]; rewrite Gq; reflexivity].
    apply bit_encodes; [lia|]. split; [exact Hok|]. exists (sample (er_noise r)). split; [lia|]. rewrite Hph, sample_eqm. reflexivity.
  - apply bind_inv in Hn. destruct Hn as (q & Gq & Hn).
    destruct (party_n _ _ _ _ _ m p q HP Gq) as [H0 Hz]. destruct (party_at R O pr e ps m p q HP Gq) as (S & _ & Hs & Hpk).
    destruct (kbound R O pr _ _ _ _ S k ltac:(lia)) as (K1 & K2 & _).
    destruct (penc_ok n (p_size q) (KeyLv0 (p_sk q)) (p_zeros q) (fun _ => r) (p_pub q) H0 ltac:(lia) Hs Hpk (if b then f_eighth else f_meighth) r) as (Ec & Hok & Hph).
    eapply (put_ok m ds v es p q); try eassumption; [|apply bit_pos_range; lia|cbn [xexec1]; rewrite Gq; reflexivity].
    apply bit_encodes; [lia|]. split; [exact Hok|]. exists (pk_total (p_size q) (p_zeros q) r). split; [lia|]. rewrite Hph.
    replace (F64ToTorus (if b then f_eighth else f_meighth)) with (w32 (mu_bit b)) by (destruct b; vm_compute; reflexivity). rewrite eqm_w32. reflexivity.
  - apply bind_inv in Hv. destruct Hv as (l & Gl & Hv). apply bind_inv in Hv. destruct Hv as ([xs fs] & Gv & Hv). apply bind_inv in Hv. destruct Hv as (x & Gx & Hv).
    rewrite Gl in Hn. cbn [bind] in Hn. apply bind_inv in Hn. destruct Hn as (F & GF & Hn). apply bind_inv in Hn. destruct Hn as (E & GE & Hn).
    destruct (link_at O pr ps links h l HL Gl) as (qa & qb & Fa & Fb & Hh). destruct (party_n _ _ _ _ _ m _ qa HP Fa) as [H0 _].
    destruct (desk_at _ _ _ _ _ _ HD Fa) as (ws & ts & xs0 & fs0 & F0 & G1 & G2 & G3 & A & B).
    rewrite Gv in G2. injection G2 as <- <-. rewrite GF in G3. injection G3 as <-.
    destruct (wires_get O pr (p_sk qa) e k ltac:(lia) m ws xs F a x A Gx) as (r & E' & Gr & GE' & _ & _ & Hx & (Hok & e1 & He1 & Hcl)).
    rewrite GE in GE'. injection GE' as <-.
    destruct (q_run _ _ _ _ _ _ _ H0 Hh _ Hok) as (ct & Ec & Hok' & d & Hd & Hph).
    specialize (HH h l qa (tm m r) Gl Fa). unfold reenc_noise in HH.
    assert (X: xreenc1 O links (XReencrypt h a) ds m h (tm m r)) by (split; [reflexivity|]; exists l, (ws, ts), r; auto). specialize (HH X). clear X.
    eapply (put_ok m ds v es (h_to l) qb); try eassumption.
    + split; [exact Hok'|]. set (u := used_noise n (h_basebit l) (h_t l) (tm m r) (h_noise l)) in *. exists (e1 + d - u). split; [lia|].
      rewrite Hph, Hcl. apply eqm_refl'. ring.
    + cbn [xexec1]. rewrite Gl. cbn [bind]. rewrite G1. cbn [bind]. rewrite Gr. reflexivity.
Qed.

(** ** programs *)
Lemma grown_tr (m1 m2 : M) d1 d2 d3 : (forall x, user m1 e x -> user m2 e x) -> grown O e m1 d1 d2 -> grown O e m2 d2 d3 -> grown O e m1 d1 d3.
Proof.
  intros U A B p d G. destruct (A p d G) as (nw & nt & G2 & N2). destruct (B p _ G2) as (nw' & nt' & G3 & N3). cbn [fst snd] in G3.
  exists (nw ++ nw'), (nt ++ nt'). rewrite !app_assoc. split; [exact G3|]. intros x I. apply in_app_or in I. destruct I as [I|I]; [apply N2; exact I|].
  intro X. apply (N3 x I). apply U. exact X.
Qed.

Lemma xstep_users i (m m' : M) ds ds' v' es' : desks_ok m' ds' v' es' -> xkept O e [i] ds m m' -> grown O e m ds ds' -> forall x, user m e x -> user m' e x.
Proof.
  intros HD K G x Hx. destruct i as [p c|p x0 r|p b r|p b r|h a]; try (apply K; [exact Hx|intros p' o d []]).
  destruct (get ds p) as [d|] eqn:Gd.
  - destruct (in_dec Z.eq_dec x (fst d)) as [I|I].
    + destruct (G p d Gd) as (nw & nt & G' & _). apply (desk_users _ _ _ _ _ _ HD G'). cbn [fst]. apply in_or_app. left. exact I.
    + apply K; [exact Hx|]. intros p' o d' Ho Gd' G'. cbn [xoutputs flat_map] in Ho. rewrite app_nil_r in Ho. apply in_map_iff in Ho. destruct Ho as (o' & Eo & _).
      injection Eo as <- <-. rewrite Gd in Gd'. injection Gd' as <-. apply I. eapply get_In. exact G'.
  - apply K; [exact Hx|]. intros p' o d' Ho Gd' G'. cbn [xoutputs flat_map] in Ho. rewrite app_nil_r in Ho. apply in_map_iff in Ho. destruct Ho as (o' & Eo & _).
    injection Eo as <- <-. rewrite Gd in Gd'. discriminate.
Qed.

Lemma xprog cs : forall (m : M) ds v es v' es', reachable O pr e m -> parties m -> links_ok O pr ps links -> desks_ok m ds v es -> separate ds ->
  xplain links k cs v = Ok v' -> xnoise pr ps links k T cs es = Ok es' ->
  (forall p q f c, get ps p = Ok q -> xboots O pr e ps links k cs ds v m p f c -> zlen c = n + 1 -> mix_noise O pr (p_ck q) k (p_sk q) f c (T p)) ->
  (forall h l a c, get links h = Ok l -> get ps (h_from l) = Ok a -> xreencs O pr e ps links k cs ds m h c -> reenc_noise O pr a l c (h_err l)) ->
  exists ds' m', xexec O pr e ps links k cs ds m = Ok (ds', m') /\ desks_ok m' ds' v' es' /\ separate ds' /\
    xkept O e cs ds m m' /\ grown O e m ds ds' /\ reachable O pr e m' /\ parties m'.
Proof.
  induction cs as [|i cs IH]; intros m ds v es v' es' Hr HP HL HD HS Hv Hn HT HH; cbn [xplain xnoise xexec xboots xreencs] in *.
  - injection Hv as <-. injection Hn as <-. exists ds, m. split; [reflexivity|]. split; [exact HD|]. split; [exact HS|].
    split; [intros x Hx _; auto|]. split; [|auto]. intros p d G. exists [], []. rewrite !app_nil_r. destruct d. split; [exact G|intros x []].
  - apply bind_inv in Hv. destruct Hv as (v1 & Hv1 & Hv). apply bind_inv in Hn. destruct Hn as (es1 & He1 & Hn).
    destruct (xstep i m ds v es v1 es1 Hr HP HL HD HS Hv1 He1) as (ds1 & m1 & E1 & D1 & S1 & K1 & G1 & R1 & P1).
    { intros p q f c G X. apply (HT p q f c G). left. exact X. }
    { intros h l a c A B X. apply (HH h l a c A B). left. exact X. }
    destruct (IH m1 ds1 v1 es1 v' es' R1 P1 HL D1 S1 Hv Hn) as (ds2 & m2 & E2 & D2 & S2 & K2 & G2 & R2 & P2).
    { intros p q f c G X. apply (HT p q f c G). right. exists ds1, v1, m1. auto. }
    { intros h l a c A B X. apply (HH h l a c A B). right. exists ds1, m1. auto. }
    exists ds2, m2. rewrite E1. cbn [bind]. split; [exact E2|]. split; [exact D2|]. split; [exact S2|].
    pose proof (xstep_users _ _ _ _ _ _ _ D1 K1 G1) as U. split; [|split; [eapply grown_tr; eassumption|auto]].
    intros x Hx N. cbn [xoutputs flat_map] in N. destruct (K1 x Hx) as [V1 Q1].
    { intros p o d Ho. apply N. cbn [xoutputs flat_map] in Ho. rewrite app_nil_r in Ho. apply in_or_app. left. exact Ho. }
    destruct (K2 x V1) as [V2 Q2]; [|split; [exact V2|congruence]].
    intros p o d Ho Gd Go. destruct D1 as (L1 & _). pose proof HD as (L0 & _). destruct (get_some ds p) as [d0 Gd0]; [apply get_range in Gd; lia|].
    destruct (G1 p d0 Gd0) as (nw & nt & Gd1 & Nw). rewrite Gd in Gd1. injection Gd1 as ->. cbn [fst] in Go. pose proof (get_range _ _ _ Go) as Ro.
    destruct (Z_lt_dec o (zlen (fst d0))) as [Hlt|Hge].
    + apply (N p o d0); [apply in_or_app; right; exact Ho|exact Gd0|]. rewrite (get_app1 pr) in Go by lia. exact Go.
    + apply (Nw x); [|exact Hx]. destruct (get_inv 0 _ _ _ Go) as [_ ->]. unfold znd. rewrite app_nth2 by (unfold zlen in Hge; lia). apply nth_In.
      rewrite zlen_app in Ro. unfold zlen in *. lia.
Qed.

Lemma desks_message (m : M) ds v es p q d xs fs F i r x E : parties m -> desks_ok m ds v es -> get ps p = Ok q -> get ds p = Ok d -> get v p = Ok (xs, fs) -> get es p = Ok F ->
  get (fst d) i = Ok r -> get xs i = Ok x -> get F i = Ok E -> E < 2 ^ (30 - k) -> DecryptLWEMessage n (tm m r) (2 ^ k) (KeyLv0 (p_sk q)) = Ok (x mod 2 ^ k).
Proof.
  intros HP (_ & _ & _ & H) Gq Gd Gv Ge Gr Gx GE HE. destruct (H _ _ _ _ _ Gq Gd Gv Ge) as [A _]. destruct (party_at R O pr e ps m p q HP Gq) as (S & _).
  destruct (wires_decrypts R O pr (p_sk q) _ _ _ S e k ltac:(lia) m _ _ _ i x E A Gx GE HE) as (r' & Gr' & D). rewrite Gr in Gr'. injection Gr' as <-. exact D.
Qed.
Lemma desks_bit (m : M) ds v es p q d xs fs F i r b E : parties m -> desks_ok m ds v es -> get ps p = Ok q -> get ds p = Ok d -> get v p = Ok (xs, fs) -> get es p = Ok F ->
  get (fst d) i = Ok r -> get xs i = Ok (bit_pos k b) -> get F i = Ok E -> E < 2 ^ 29 -> DecryptBool n (tm m r) (KeyLv0 (p_sk q)) = Ok b.
Proof.
  intros HP (_ & _ & _ & H) Gq Gd Gv Ge Gr Gx GE HE. destruct (H _ _ _ _ _ Gq Gd Gv Ge) as [A _]. destruct (party_at R O pr e ps m p q HP Gq) as (S & _).
  eapply (wires_bool R O pr (p_sk q) _ _ _ S e k Hk m); eassumption.
Qed.
End Props.

(** ** the statements *)
Lemma xp_parties R O pr e ps links k T cs (m : mem (FP O)) ds v es v' es' : 2 <= k < g_NBIT pr ->
  reachable O pr e m -> parties O pr e ps R m -> links_ok O pr ps links -> desks_ok O pr e ps k m ds v es -> separate O ps ds ->
  xplain links k cs v = Ok v' -> xnoise pr ps links k T cs es = Ok es' ->
  (forall p q f c, get ps p = Ok q -> xboots O pr e ps links k cs ds v m p f c -> zlen c = lv0_N pr + 1 -> mix_noise O pr (p_ck q) k (p_sk q) f c (T p)) ->
  (forall h l a c, get links h = Ok l -> get ps (h_from l) = Ok a -> xreencs O pr e ps links k cs ds m h c -> reenc_noise O pr a l c (h_err l)) ->
  exists ds' m', xexec O pr e ps links k cs ds m = Ok (ds', m') /\ desks_ok O pr e ps k m' ds' v' es' /\ separate O ps ds' /\
    (forall p q d xs fs F i r x E, get ps p = Ok q -> get ds' p = Ok d -> get v' p = Ok (xs, fs) -> get es' p = Ok F ->
       get (fst d) i = Ok r -> get xs i = Ok x -> get F i = Ok E -> E < 2 ^ (30 - k) ->
       DecryptLWEMessage (lv0_N pr) (tm m' r) (2 ^ k) (KeyLv0 (p_sk q)) = Ok (x mod 2 ^ k)) /\
    (forall p q d xs fs F i r b E, get ps p = Ok q -> get ds' p = Ok d -> get v' p = Ok (xs, fs) -> get es' p = Ok F ->
       get (fst d) i = Ok r -> get xs i = Ok (bit_pos k b) -> get F i = Ok E -> E < 2 ^ 29 ->
       DecryptBool (lv0_N pr) (tm m' r) (KeyLv0 (p_sk q)) = Ok b) /\
    xkept O e cs ds m m' /\ grown O e m ds ds' /\ reachable O pr e m' /\ parties O pr e ps R m'.
Proof.
  intros Hk Hr HP HL HD HS Hv Hn HT HH.
  destruct (xprog R O pr e ps links k Hk T cs m ds v es v' es' Hr HP HL HD HS Hv Hn HT HH) as (ds' & m' & E & D & S1 & K & G & R1 & P).
  exists ds', m'. split; [exact E|]. split; [exact D|]. split; [exact S1|]. split; [|split; [|auto]]; intros.
  - eapply desks_message; eassumption.
  - eapply desks_bit; eassumption.
Qed.

Lemma mix_noise_le O pr ck k sk f c T T' : T <= T' -> mix_noise O pr ck k sk f c T -> mix_noise O pr ck k sk f c T'.
Proof.
  intros H. assert (B: forall tv, boot_noise O pr sk ck tv c T -> boot_noise O pr sk ck tv c T').
  { intros tv (eta & ek & A & C & D). exists eta, ek. split; [exact A|]. split; [exact C|]. lia. }
  destruct f as [f|]; cbn [mix_noise]; [|apply B]. intros G tv Hg. apply B. apply G. exact Hg.
Qed.

Lemma xp_parties_worst mc O pr e ps links k T Bb Bk d d' cs (m : mem (FP O)) ds v es v' es' : mc_ok mc -> 2 <= k < g_NBIT pr ->
  fft_error_within pr d d' -> 0 <= Bb -> 0 <= Bk -> 0 <= d' ->
  (forall p q, get ps p = Ok q -> key_noise_within pr (p_rk q) (p_rb q) Bb Bk /\ worst_noise pr (p_sk q) Bb Bk d d' <= T p) ->
  (forall h l a, get links h = Ok l -> get ps (h_from l) = Ok a -> exists E, (forall i, Z.abs (h_noise l i) <= E) /\
     reenc_error (lv0_N pr) (h_basebit l) (h_t l) (KeyLv0 (p_sk a)) E <= h_err l) ->
  reachable O pr e m -> parties O pr e ps (f64_arith mc) m -> links_ok O pr ps links -> desks_ok O pr e ps k m ds v es -> separate O ps ds ->
  xplain links k cs v = Ok v' -> xnoise pr ps links k T cs es = Ok es' ->
  exists ds' m', xexec O pr e ps links k cs ds m = Ok (ds', m') /\ desks_ok O pr e ps k m' ds' v' es' /\ separate O ps ds' /\
    (forall p q d xs fs F i r x E, get ps p = Ok q -> get ds' p = Ok d -> get v' p = Ok (xs, fs) -> get es' p = Ok F ->
       get (fst d) i = Ok r -> get xs i = Ok x -> get F i = Ok E -> E < 2 ^ (30 - k) ->
       DecryptLWEMessage (lv0_N pr) (tm m' r) (2 ^ k) (KeyLv0 (p_sk q)) = Ok (x mod 2 ^ k)) /\
    (forall p q d xs fs F i r b E, get ps p = Ok q -> get ds' p = Ok d -> get v' p = Ok (xs, fs) -> get es' p = Ok F ->
       get (fst d) i = Ok r -> get xs i = Ok (bit_pos k b) -> get F i = Ok E -> E < 2 ^ 29 ->
       DecryptBool (lv0_N pr) (tm m' r) (KeyLv0 (p_sk q)) = Ok b) /\
    xkept O e cs ds m m' /\ grown O e m ds ds' /\ reachable O pr e m' /\ parties O pr e ps (f64_arith mc) m'.
Proof.
  intros Hc Hk Hf HBb HBk Hd HT HH Hr HP HL HD HS Hv Hn.
  apply (xp_parties (f64_arith mc) O pr e ps links k T cs m ds v es v' es'); try assumption.
  - intros p q f c G _ Hl. destruct (HT p q G) as [N W]. destruct (party_at _ _ _ _ _ m p q HP G) as (S & _).
    eapply mix_noise_le; [exact W|]. destruct f as [f|]; cbn [mix_noise].
    + eapply t_worst; try eassumption. apply Z.pow_pos_nonneg; lia.
    + eapply p_worst_tv; eassumption.
  - intros h l a c G1 G2 _. destruct (HH h l a G1 G2) as (E & HE & HB). unfold reenc_noise, reenc_error in *.
    destruct (link_at O pr ps links h l HL G1) as (a' & b & F1 & _ & Hh). rewrite G2 in F1. injection F1 as <-. destruct (rkey_len _ _ _ _ _ _ _ Hh) as (_ & _ & B1 & B2 & _).
    destruct (party_n _ _ _ _ _ m _ a HP G2) as [H0 _].
    pose proof (used_noise_le (lv0_N pr) (h_basebit l) (h_t l) c (h_noise l) E H0 ltac:(lia) HE). lia.
Qed.

(** empty desks to start with *)
Lemma get_repeat {A} (x : A) m i y : get (repeat x m) i = Ok y -> y = x.
Proof. intro G. apply get_In in G. apply repeat_spec in G. exact G. Qed.
Lemma empty_desks O pr e ps k (m : mem (FP O)) :
  desks_ok O pr e ps k m (repeat ([], []) (length ps)) (repeat ([], []) (length ps)) (repeat [] (length ps)) /\ separate O ps (repeat ([], []) (length ps)).
Proof.
  split.
  - unfold desks_ok. rewrite !zlen_repeat. unfold zlen. split; [reflexivity|]. split; [reflexivity|]. split; [reflexivity|].
    intros p q d s F _ G1 G2 G3. apply get_repeat in G1. apply get_repeat in G2. apply get_repeat in G3. subst. split; [|constructor].
    split; [reflexivity|]. split; [reflexivity|]. split; [constructor|]. cbn [fst]. intros i Hi. unfold zlen in Hi. cbn [length] in Hi. lia.
  - intros p d G. apply get_repeat in G. subst d. cbn [fst snd]. split; [intros p' d' x _ _ []|]. split; [intros; split; intros []|]. intros; split; intros [].
Qed.

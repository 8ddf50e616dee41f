(** * The polynomial API over the real numbers, and that calls always return *)
From Coq Require Import ZArith List Lia ZifyBool Reals Lra.
From Flocq Require Import Core.
From Coquelicot Require Import Complex.
From Verif Require Import GoBase Spec GoFacts GoMem MemFacts TlweFacts Poly PolyFacts Fft FftFacts FftOps FftTab CSum NegFacts Laws FftReal
  HeapFacts FftProps FourierApi FourierSpec FourierFacts FourierRel.
Local Open Scope Z_scope.
Ltac Zify.zify_post_hook ::= idtac.

(** ** from a fresh evaluator *)
Section Fresh.
Context (R : arith) (k : Z) (Hk : 4 <= k).

Lemma fresh_evaluator tw twi m0 : genTwiddleFactors R (2 ^ k / 2) = Ok (tw, twi) ->
  exists e m, NewPolyEvaluator (fft_ops R tw twi) m0 (2 ^ k) = Ok (e, m) /\ pe_deg e = 2 * 2 ^ (k - 1) /\
    2 ^ (k - 1) - 1 <= zlen tw /\ 2 ^ (k - 1) - 1 <= zlen twi /\
    zlen (fm m (pe_fpInv e)) = 2 * 2 ^ (k - 1) /\ pe_fpInv e < fnext m.
Proof.
  intro T. destruct (pow_half k Hk) as (P1 & P2 & P3).
  destruct (tables_len R k Hk) as (tw' & twi' & T' & Lt & Li). rewrite T in T'. injection T' as <- <-.
  pose (L := pow_laws R k Hk tw twi Lt Li).
  destruct (NewPolyEvaluator_ok L m0) as (m & E & (G & T1 & F1 & I1) & Z1 & Z2 & Z3).
  rewrite <- P1 in E. eexists. exists m. split; [exact E|]. cbn [pe_deg]. split; [exact P1|]. split; [exact Lt|]. split; [exact Li|].
  split.
  - apply (Z2 (fnext m0 + 1)). unfold blk. lia.
  - unfold pe_fpInv. cbn [pe_f]. rewrite F1. lia.
Qed.

Definition rel0 C frel good e m (Ze : zlen (fm m (pe_fpInv e)) = 2 * 2 ^ (k - 1)) (He : pe_fpInv e < fnext m) :
  rel R e (k - 1) C frel good ([], []) ([], []) (m, [], []).
Proof.
  split; cbn [fst snd]; try (split; reflexivity); try assumption; intros; exfalso; match goal with H : 0 <= _ < zlen _ |- _ => unfold zlen in H; cbn [length Z.of_nat] in H; lia end.
Qed.
Lemma rel_agrees C frel (good : Prop) e V Bs w : good -> rel R e (k - 1) C frel good V Bs w -> agrees (2 ^ k) V w.
Proof.
  intros g Rl. destruct (pow_half k Hk) as (P1 & _). destruct w as [[m fs] ps]. cbn [agrees].
  pose proof (r_lf _ _ _ _ _ _ _ _ _ Rl) as [L1 _]. pose proof (r_lp _ _ _ _ _ _ _ _ _ Rl) as [L2 _]. cbn [fst snd] in L1, L2.
  split; [exact L2|]. split; [exact L1|]. intros j P E. apply (get_inv None) in E. destruct E as [Hj E].
  destruct (r_p _ _ _ _ _ _ _ _ _ Rl j Hj) as [_ ([L T] & _ & W)]. cbn [fst snd] in *. rewrite <- E in W.
  exists (znd 0 ps j). split; [apply get_ok; lia|]. split; [congruence|]. rewrite P1. intros i Hi.
  rewrite (get_ok 0) by lia. f_equal. apply W; assumption.
Qed.
End Fresh.

(** ** costs that never run out *)
Definition unit_costs : costs := {| CB := unit; c_zero := tt; c_of := fun _ => Some tt; c_add := fun _ _ => Some tt; c_mul := fun _ _ => Some tt;
  c_ma := fun _ _ _ => Some tt; c_scale := fun _ _ => Some tt; c_scadd := fun _ _ _ => Some tt; c_read := fun _ => true; c_prod := fun _ _ => true |}.
Lemma unit_bo1 f a : (forall x, f x = Some tt) -> exists c, bo1 unit_costs f a = Ok c.
Proof. intro Hf. destruct a as [a|]; cbn [bo1]; [rewrite Hf|]; eexists; reflexivity. Qed.
Lemma unit_bo2 f a b : (forall x y, f x y = Some tt) -> exists c, bo2 unit_costs f a b = Ok c.
Proof. intro Hf. destruct a as [a|]; [destruct b as [b|]|]; cbn [bo2]; [rewrite Hf| |]; eexists; reflexivity. Qed.
Lemma unit_bo3 f a b g : (forall x y z, f x y z = Some tt) -> exists c, bo3 unit_costs f a b g = Ok c.
Proof. intro Hf. destruct a as [a|]; [destruct b as [b|]; [destruct g as [g|]|]|]; cbn [bo3]; [rewrite Hf| | |]; eexists; reflexivity. Qed.
Lemma unit_bread a : bread unit_costs a = Ok tt.
Proof. destruct a; reflexivity. Qed.

Lemma unit_step N c F P (BF : list (option (CB unit_costs))) BP V' : zlen BF = zlen F -> zlen BP = zlen P -> mean1 N c (F, P) = Ok V' ->
  exists BF' BP', budget1 unit_costs c (BF, BP) = Ok (BF', BP') /\ zlen BF' = zlen (fst V') /\ zlen BP' = zlen (snd V').
Proof.
  intros LF LP Hm.
  assert (GF: forall a x, get F a = Ok x -> 0 <= a < zlen F) by (intros a x E; apply (get_inv None) in E; tauto).
  assert (GP: forall a x, get P a = Ok x -> 0 <= a < zlen P) by (intros a x E; apply (get_inv None) in E; tauto).
  assert (SF': forall o (b : option poly) L, set F o b = Ok L -> L = upd F o b) by (intros o b L E; apply set_inv in E; tauto).
  assert (SP': forall o (b : option poly) L, set P o b = Ok L -> L = upd P o b) by (intros o b L E; apply set_inv in E; tauto).
  destruct c; cbn [mean1] in Hm;
  try (match goal with Hm : (if ?b then _ else _) = Ok _ |- _ => destruct b; [|discriminate] end);
  repeat match goal with
  | E : (x <- get F ?a ;; _) = Ok _ |- _ => let G := fresh "G" in apply bind_inv in E; destruct E as (? & G & E); apply GF in G
  | E : (x <- get P ?a ;; _) = Ok _ |- _ => let G := fresh "G" in apply bind_inv in E; destruct E as (? & G & E); apply GP in G
  | E : (x <- set F _ _ ;; _) = Ok _ |- _ => let G := fresh "G" in let L := fresh "L" in apply bind_inv in E; destruct E as (L & G & E); apply SF' in G; subst L
  | E : (x <- set P _ _ ;; _) = Ok _ |- _ => let G := fresh "G" in let L := fresh "L" in apply bind_inv in E; destruct E as (L & G & E); apply SP' in G; subst L
  | E : Ok _ = Ok _ |- _ => injection E as <-
  end; cbn [budget1 fst snd]; rewrite ?zlen_app, ?zlen_upd;
  repeat match goal with
  | |- context [get BF ?a] => rewrite (get_ok None BF a) by lia; cbn [bind]
  | |- context [get BP ?a] => rewrite (get_ok 0 BP a) by lia; cbn [bind]
  | |- context [bo1 unit_costs ?f ?a] => let E := fresh in destruct (unit_bo1 f a (fun _ => eq_refl)) as [? E]; rewrite E; clear E; cbn [bind]
  | |- context [bo2 unit_costs ?f ?a ?b] => let E := fresh in destruct (unit_bo2 f a b (fun _ _ => eq_refl)) as [? E]; rewrite E; clear E; cbn [bind]
  | |- context [bo3 unit_costs ?f ?a ?b ?c] => let E := fresh in destruct (unit_bo3 f a b c (fun _ _ _ => eq_refl)) as [? E]; rewrite E; clear E; cbn [bind]
  | |- context [bread unit_costs ?a] => rewrite (unit_bread a); cbn [bind]
  | |- context [bprod unit_costs ?a ?b] => change (bprod unit_costs a b) with (@Ok unit tt); cbn [bind]
  | |- context [pay unit_costs (c_of unit_costs ?a)] => change (pay unit_costs (c_of unit_costs a)) with (Ok (Some tt)); cbn [bind]
  | |- context [set BF ?a ?x] => rewrite (set_ok BF a x) by lia; cbn [bind]
  | |- context [set BP ?a ?x] => rewrite (set_ok BP a x) by lia; cbn [bind]
  end.
  all: eexists; eexists; split; [reflexivity|]; rewrite ?zlen_app, ?zlen_upd; split; try assumption; try (rewrite LF; reflexivity); rewrite LP; reflexivity.
Qed.
Lemma unit_steps N cs : forall F P (BF : list (option (CB unit_costs))) BP V', zlen BF = zlen F -> zlen BP = zlen P -> mean N cs (F, P) = Ok V' ->
  exists Bs', budget unit_costs cs (BF, BP) = Ok Bs'.
Proof.
  induction cs as [|c cs IH]; intros F P BF BP V' LF LP Hm; cbn [mean budget] in *; [eexists; reflexivity|].
  apply bind_inv in Hm. destruct Hm as ([F1 P1] & E & Hm).
  destruct (unit_step N c F P BF BP _ LF LP E) as (BF' & BP' & E2 & L1 & L2). rewrite E2. cbn [bind]. apply (IH F1 P1 _ _ V'); assumption.
Qed.

(** ** every call returns, in every arithmetic *)
Lemma api_returns (R : arith) k tw twi m0 : 4 <= k -> genTwiddleFactors R (2 ^ k / 2) = Ok (tw, twi) ->
  exists e m, NewPolyEvaluator (fft_ops R tw twi) m0 (2 ^ k) = Ok (e, m) /\
    forall prog V, mean (2 ^ k) prog ([], []) = Ok V -> exists w, exec R tw twi e prog (m, [], []) = Ok w.
Proof.
  intros Hk T. destruct (pow_half k Hk) as (P1 & P2 & P3).
  destruct (fresh_evaluator R k Hk tw twi m0 T) as (e & m & E & Hd & Lt & Li & Ze & He). exists e, m. split; [exact E|].
  intros prog V Hm. destruct (unit_steps _ _ [] [] [] [] _ eq_refl eq_refl Hm) as (Bs' & Hb).
  destruct (steps R tw twi e (k - 1) P3 (H_pos _ P3) (H_4 _ P3) Lt Li Hd unit_costs (fun _ _ _ => True) False (fun f => match f with end)
    (2 ^ k) prog P1 ([], []) ([], []) (m, [], []) V Bs' (rel0 R k _ _ _ e m Ze He) Hm Hb) as (w' & Ew & _).
  exists w'. exact Ew.
Qed.

(** ** exact arithmetic *)
Section Exact.
Notation RA := real_arith.
Context (h : Z) (Hh : 3 <= h) (tw twi : list (R * R)) (Htw : exact_tw h tw) (Htwi : exact_twi h twi).
Notation HF := (2 ^ h).
Notation NF := (2 * 2 ^ h).
Notation ev P := (fun c => evalc HF (zpt h c) (fphi h P)).

Lemma HP : 0 < HF. Proof. apply (H_pos h Hh). Qed.
Lemma ev_pt P c z : 0 <= c < HF -> (evalc HF z (fphi h P) = csum HF (fun q => Cmult (IZR (P q), IZR (P (q + HF))) (cpow z q))).
Proof.
  intros _. pose proof HP. unfold evalc. apply csum_ext. intros q Hq. unfold fphi. rewrite !ext_small by lia. reflexivity.
Qed.
Lemma ev_ext P Q z : (forall i, 0 <= i < NF -> P i = Q i) -> evalc HF z (fphi h P) = evalc HF z (fphi h Q).
Proof.
  intro E. pose proof HP. unfold evalc. apply csum_ext. intros q Hq. unfold fphi. rewrite !ext_small, !E by lia. reflexivity.
Qed.
Lemma ev_add P Q z : evalc HF z (fphi h (padd P Q)) = Cplus (evalc HF z (fphi h P)) (evalc HF z (fphi h Q)).
Proof.
  pose proof HP. unfold evalc. rewrite <- csum_add. apply csum_ext. intros q Hq. unfold fphi, padd. rewrite !ext_small, !plus_IZR by lia.
  rewrite <- Cmult_plus_distr_r. reflexivity.
Qed.
Lemma ev_scale c P z : evalc HF z (fphi h (pscale c P)) = Cmult (RtoC (IZR c)) (evalc HF z (fphi h P)).
Proof.
  pose proof HP. unfold evalc. rewrite <- csum_mul_l. apply csum_ext. intros q Hq. unfold fphi, pscale. rewrite !ext_small, !mult_IZR by lia.
  rewrite Cmult_assoc. f_equal. unfold Cmult, RtoC. cbn [fst snd]. f_equal; ring.
Qed.
Lemma ev_sub P Q z : evalc HF z (fphi h (psub P Q)) = Cminus (evalc HF z (fphi h P)) (evalc HF z (fphi h Q)).
Proof.
  transitivity (evalc HF z (fphi h (padd P (pscale (-1) Q)))).
  - apply ev_ext. intros i _. unfold psub, padd, pscale. lia.
  - rewrite ev_add, ev_scale. unfold Cminus. f_equal. unfold Cmult, Copp, RtoC. cbn [fst snd]. f_equal; ring.
Qed.
Lemma ev_zero z : evalc HF z (fphi h pzero) = RtoC 0.
Proof.
  pose proof HP. unfold evalc. transitivity (csum HF (fun _ => RtoC 0)); [|apply csum_zero]. apply csum_ext. intros q Hq.
  unfold fphi, pzero. rewrite !ext_small by lia. unfold Cmult, RtoC. cbn [fst snd]. f_equal; ring.
Qed.

Definition frel_R (b : unit) (P : poly) (x : list R) : Prop := forall c, 0 <= c < HF -> cxr x c = ev P c.

Lemma cxr_elw f x y o c : 0 <= c < HF -> cxr (elw RA HF f x y o) c = f (cxr x c) (cxr y c) (cxr o c).
Proof. intro Hc. unfold elw. rewrite (cxr_lay h Hh) by assumption. reflexivity. Qed.
Lemma cxr_zero c : 0 <= c < HF -> cxr (repeat 0%R (Z.to_nat NF)) c = RtoC 0.
Proof.
  intro Hc. pose proof (pos_range HF (H_4 h Hh) c Hc). unfold cxr, cx. rewrite !znd_repeat by lia. reflexivity.
Qed.

Lemma real_sound : sound RA tw twi h unit_costs frel_R.
Proof.
  assert (Rd: forall P x, (forall c, 0 <= c < HF -> cxr x c = ev P c) -> forall i, 0 <= i < NF -> zn (Fto_list RA HF h twi x) i = P i mod two32)
    by (intros P x V i Hi; apply (Fto_phi h Hh tw twi Htw Htwi x P V i Hi)).
  split; unfold frel_R.
  - intros b P Q x E V c Hc. rewrite V by assumption. apply ev_ext. assumption.
  - intros c Hc. rewrite ev_zero. apply cxr_zero. assumption.
  - intros D b p _ _ _ c Hc. rewrite (fft_phi h Hh tw Htw) by assumption. apply ev_ext. intros i Hi. reflexivity.
  - intros a b c P Q x y o _ V W i Hi. rewrite cxr_elw, V, W, ev_add by assumption. reflexivity.
  - intros a b c P Q x y o _ V W i Hi. rewrite cxr_elw, V, W, ev_sub by assumption. reflexivity.
  - intros a b c P Q x y o _ V W i Hi. rewrite cxr_elw, V, W by assumption. rewrite (eval_mul h Hh) by (apply (zpt_root h Hh); assumption). reflexivity.
  - intros a b g c P Q T x y o _ V W U i Hi. rewrite cxr_elw, V, W, U, ev_add by assumption. rewrite (eval_mul h Hh) by (apply (zpt_root h Hh); assumption). reflexivity.
  - intros a b g c P Q T x y o _ V W U i Hi. rewrite cxr_elw, V, W, U, ev_sub by assumption. rewrite (eval_mul h Hh) by (apply (zpt_root h Hh); assumption). reflexivity.
  - intros k a c P x y o _ V i Hi. rewrite cxr_elw, V, ev_scale by assumption. destruct (evalc HF (zpt h i) (fphi h P)) as [u v]. apply injective_projections; cbn; ring.
  - intros k a g c P T x y o _ V W i Hi. rewrite cxr_elw, V, W, ev_add, ev_scale by assumption. destruct (evalc HF (zpt h i) (fphi h P)) as [u v]. destruct (evalc HF (zpt h i) (fphi h T)) as [u' v']. apply injective_projections; cbn; ring.
  - intros b P x _ V i Hi. apply Rd; assumption.
  - intros D1 D2 p q _ _ _ _ _ i Hi. apply Rd; [|assumption]. intros c Hc. unfold prodl. rewrite cxr_elw by assumption.
    rewrite !(fft_phi h Hh tw Htw) by assumption. rewrite (eval_mul h Hh) by (apply (zpt_root h Hh); assumption). reflexivity.
Qed.
End Exact.

Lemma api_exact k (m0 : mem (list R)) : 4 <= k -> exists tw twi e m,
  genTwiddleFactors real_arith (2 ^ k / 2) = Ok (tw, twi) /\
  NewPolyEvaluator (fft_ops real_arith tw twi) m0 (2 ^ k) = Ok (e, m) /\
  forall prog V, mean (2 ^ k) prog ([], []) = Ok V ->
    exists w, exec real_arith tw twi e prog (m, [], []) = Ok w /\ agrees (2 ^ k) V w.
Proof.
  intros Hk. destruct (pow_half k Hk) as (P1 & P2 & P3). destruct (real_tables (k - 1) P3) as (tw & twi & T & Ht & Hi). rewrite <- P2 in T.
  destruct (fresh_evaluator real_arith k Hk tw twi m0 T) as (e & m & E & Hd & Lt & Li & Ze & He).
  exists tw, twi, e, m. split; [exact T|]. split; [exact E|]. intros prog V Hm.
  destruct (unit_steps _ _ [] [] [] [] _ eq_refl eq_refl Hm) as (Bs' & Hb).
  destruct (steps real_arith tw twi e (k - 1) P3 (H_pos _ P3) (H_4 _ P3) Lt Li Hd unit_costs (frel_R (k - 1)) True
    (fun _ => real_sound (k - 1) P3 tw twi Ht Hi)
    (2 ^ k) prog P1 ([], []) ([], []) (m, [], []) V Bs' (rel0 real_arith k _ _ _ e m Ze He) Hm Hb) as (w' & Ew & Rl).
  exists w'. split; [exact Ew|]. exact (rel_agrees real_arith k Hk _ _ _ e V Bs' w' I Rl).
Qed.
Lemma api_returns_all (R : arith) k (m0 : mem (list (AN R))) : 4 <= k -> exists tw twi e m,
  genTwiddleFactors R (2 ^ k / 2) = Ok (tw, twi) /\
  NewPolyEvaluator (fft_ops R tw twi) m0 (2 ^ k) = Ok (e, m) /\
  forall prog V, mean (2 ^ k) prog ([], []) = Ok V -> exists w, exec R tw twi e prog (m, [], []) = Ok w.
Proof.
  intro Hk. destruct (tables_len R k Hk) as (tw & twi & T & _). destruct (api_returns R k tw twi m0 Hk T) as (e & m & E & H).
  exists tw, twi, e, m. split; [exact T|]. split; [exact E|exact H].
Qed.

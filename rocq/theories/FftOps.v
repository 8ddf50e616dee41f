(** * The operations of the evaluator, for any arithmetic

    Conversions, reduction modulo Q and elementwise products as total
    functions, and the [flaws] instance of the transform: for every degree
    2^(h+1) >= 16 and tables of N/2 - 1 entries nothing panics and no unsafe
    access leaves its slice. *)
From Coq Require Import Lia ZifyBool.
From Verif Require Import GoBase GoFacts GoMem Poly Laws Fft FftFacts.
Local Open Scope Z_scope.

Section Ops.
Context (R : arith).
Notation A := (AN R).
Notation cplx := (A * A)%type.
Notation d := (a_zero R).
Notation z := (a_zero R, a_zero R).
Notation cx := (cx R).
Context (H : Z) (HH : 0 < H) (H4 : H mod 4 = 0).
Notation lay := (lay R H).

Lemma q_of j hi : 0 <= j -> j + 8 <= hi -> (j - 0) mod 8 = 0 -> exists q, 0 <= q /\ j = 8 * q /\ j / 2 = 4 * q.
Proof.
  intros Hj _ Hm. pose proof (Z.div_mod (j - 0) 8 ltac:(lia)) as Dj. rewrite Hm in Dj. exists (j / 8).
  replace (j - 0) with j in Dj by lia. repeat split; [apply Z.div_pos; lia|lia|].
  rewrite Dj at 1. replace (8 * (j / 8) + 0) with (4 * (j / 8) * 2) by lia. apply Z.div_mul. lia.
Qed.
Lemma mod8_2H : (2 * H - 0) mod 8 = 0.
Proof.
  pose proof (Z.div_mod H 4 ltac:(lia)) as DH. rewrite H4 in DH. replace (2 * H - 0) with ((H / 4) * 8) by lia. apply Z.mod_mul. lia.
Qed.

Lemma znd_lay_re f q k : 0 <= q -> 0 <= k < 4 -> 4 * q + k < H -> znd d (lay f) (8 * q + k) = fst (f (4 * q + k)).
Proof.
  intros. rewrite <- (pos_block q k) by assumption.
  change (znd d (lay f) (pos (4 * q + k))) with (fst (cx (lay f) (4 * q + k))). rewrite cx_lay by (try assumption; lia). reflexivity.
Qed.
Lemma znd_lay_im f q k : 0 <= q -> 0 <= k < 4 -> 4 * q + k < H -> znd d (lay f) (8 * q + 4 + k) = snd (f (4 * q + k)).
Proof.
  intros. replace (8 * q + 4 + k) with (pos (4 * q + k) + 4) by (rewrite pos_block by (try assumption; lia); lia).
  change (znd d (lay f) (pos (4 * q + k) + 4)) with (snd (cx (lay f) (4 * q + k))). rewrite cx_lay by (try assumption; lia). reflexivity.
Qed.

(** ** folding a polynomial *)
Definition cvt (p : list Z) : list A := lay (fun c => (a_of R (int32 (zn p c)), a_of R (int32 (zn p (c + H))))).

Lemma convertPoly_ok p out : zlen p = 2 * H -> zlen out = 2 * H ->
  convertPolyToFourierPolyAssign R p out = Ok (cvt p).
Proof.
  intros Hp Ho. unfold convertPolyToFourierPolyAssign. rewrite Hp.
  assert (E2: 2 * H / 2 = H) by (rewrite Z.mul_comm, Z.div_mul by lia; reflexivity). rewrite E2.
  set (inv := fun P (o : list A) => zlen o = 2 * H /\ forall i, 0 <= i < P -> znd d o i = znd d (cvt p) i).
  assert (Hset: forall P o x, inv P o -> 0 <= P < 2 * H -> x = znd d (cvt p) P -> exists o', set o P x = Ok o' /\ inv (P + 1) o').
  { intros P o x [L V] HP ->. rewrite set_ok by lia. eexists; split; [reflexivity|]. split; [rewrite zlen_upd; assumption|].
    intros i Hi. rewrite znd_upd by lia. destruct (Z.eqb_spec i P) as [->|]; [reflexivity|]. apply V. lia. }
  match goal with |- for_step 0 (2 * H) 8 ?b out = _ => destruct (for_step_inv inv 0 (2 * H) 8 b out) as (o & E & L & V) end.
  - lia. - lia. - apply mod8_2H.
  - split; [assumption|]. intros; lia.
  - intros j o Hj1 Hj2 Hj I0. destruct (q_of j _ Hj1 Hj2 Hj) as (q & Hq & -> & ->).
    pose proof (Z.div_mod H 4 ltac:(lia)) as DH. rewrite H4 in DH.
    destruct I0 as [L0 V0]. rewrite !ptr_ok by lia. cbn [bind].
    for_inv (fun k o => inv (8 * q + k) o) E1 I1; [lia|split; [assumption|intros; apply V0; lia]| |].
    + intros k o1 Hk I1. rewrite get_zn by lia. cbn [bind].
      destruct (Hset (8 * q + k) o1 (a_of R (int32 (zn p (4 * q + k)))) I1 ltac:(lia)) as (o' & E' & I').
      * unfold cvt. rewrite znd_lay_re by lia. reflexivity.
      * exists o'. split; [exact E'|]. replace (8 * q + (k + 1)) with (8 * q + k + 1) by lia. exact I'.
    + match goal with |- exists s', for_range 0 4 ?b ?s = _ /\ _ =>
        destruct (for_range_inv (fun k o => inv (8 * q + 4 + k) o) 0 4 b s) as (o2 & E2' & I2) end.
      * lia. * replace (8 * q + 4 + 0) with (8 * q + 4) by lia. exact I1.
      * intros k o1 Hk I1'. rewrite get_zn by lia. cbn [bind].
        destruct (Hset (8 * q + 4 + k) o1 (a_of R (int32 (zn p (4 * q + H + k)))) I1' ltac:(lia)) as (o' & E' & I').
        -- unfold cvt. rewrite znd_lay_im by lia. cbn [snd]. do 3 f_equal. lia.
        -- exists o'. split; [exact E'|]. replace (8 * q + 4 + (k + 1)) with (8 * q + 4 + k + 1) by lia. exact I'.
      * exists o2. split; [exact E2'|]. replace (8 * q + 8) with (8 * q + 4 + 4) by lia. exact I2.
  - rewrite E. f_equal. apply (list_ext d); [rewrite L; symmetry; apply zlen_lay; assumption|].
    intros i Hi. apply V. lia.
Qed.

(** ** reduction modulo Q *)
Lemma floatModQ_ok q l : zlen l = 2 * H -> floatModQInPlace R l q = Ok (map (modQ R q) l).
Proof.
  intro Hl. unfold floatModQInPlace. rewrite Hl.
  set (inv := fun P (o : list A) => zlen o = 2 * H /\ forall i, 0 <= i < 2 * H -> znd d o i = if i <? P then modQ R q (znd d l i) else znd d l i).
  destruct (for_step_inv inv 0 (2 * H) 8 (fun i c => ptr c i 8 ;;;
    for_range 0 8 (fun k c => x <- get c (i + k) ;; set c (i + k) (modQ R q x)) c) l) as (o & E & L & V).
  - lia. - lia. - apply mod8_2H.
  - split; [assumption|]. intros i Hi. destruct (Z.ltb_spec i 0); [lia|reflexivity].
  - intros j o Hj1 Hj2 Hj [L0 V0]. rewrite ptr_ok by lia. cbn [bind].
    apply (for_range_inv (fun k o => inv (j + k) o)); [lia|replace (j + 0) with j by lia; split; assumption|].
    intros k o1 Hk [L1 V1]. rewrite (get_ok d) by lia. cbn [bind]. rewrite set_ok by lia. eexists; split; [reflexivity|].
    split; [rewrite zlen_upd; assumption|]. intros i Hi. rewrite znd_upd by lia. rewrite !V1 by lia.
    destruct (Z.eqb_spec i (j + k)) as [->|].
    + destruct (Z.ltb_spec (j + k) (j + k)); [lia|]. destruct (Z.ltb_spec (j + k) (j + (k + 1))); [reflexivity|lia].
    + destruct (Z.ltb_spec i (j + k)); destruct (Z.ltb_spec i (j + (k + 1))); try lia; reflexivity.
  - rewrite E. f_equal. apply (list_ext d); [rewrite zlen_map; congruence|].
    intros i Hi. rewrite V by lia. rewrite (znd_map _ d) by lia. destruct (Z.ltb_spec i (2 * H)); [reflexivity|lia].
Qed.

(** ** unfolding *)
Definition ucoef (fp : list A) (i : Z) : A := if i <? H then fst (cx fp i) else snd (cx fp (i - H)).

Lemma convertBack_ok op fp p : zlen fp = 2 * H -> zlen p = 2 * H ->
  convertFourierPolyToPoly R op fp p = Ok (tab (2 * H) (fun i => op (zn p i) (w32 (a_int64 R (ucoef fp i))))).
Proof.
  intros Hf Hp. unfold convertFourierPolyToPoly. rewrite Hf.
  assert (E2: 2 * H / 2 = H) by (rewrite Z.mul_comm, Z.div_mul by lia; reflexivity). rewrite E2.
  set (tg := fun i => op (zn p i) (w32 (a_int64 R (ucoef fp i)))).
  set (inv := fun a b (o : list Z) => zlen o = 2 * H /\
     forall i, 0 <= i < 2 * H -> zn o i = if (i <? a) || ((H <=? i) && (i <? H + b)) then tg i else zn p i).
  match goal with |- for_step 0 (2 * H) 8 ?b p = _ => destruct (for_step_inv (fun j o => inv (j / 2) (j / 2) o) 0 (2 * H) 8 b p) as (o & E & L & V) end.
  - lia. - lia. - apply mod8_2H.
  - change (0 / 2) with 0. split; [assumption|]. intros i Hi. destruct ((i <? 0) || _) eqn:G; [lia|reflexivity].
  - intros j o Hj1 Hj2 Hj I0.
    assert (Ej8: (j + 8) / 2 = j / 2 + 4) by (replace (j + 8) with (j + 4 * 2) by lia; apply Z.div_add; lia).
    rewrite Ej8. destruct (q_of j _ Hj1 Hj2 Hj) as (q & Hq & -> & Eq). rewrite Eq in *.
    pose proof (Z.div_mod H 4 ltac:(lia)) as DH. rewrite H4 in DH.
    destruct I0 as [L0 V0]. rewrite !ptr_ok by lia. cbn [bind].
    for_inv (fun k o => inv (4 * q + k) (4 * q) o) E1 I1; [lia|replace (4 * q + 0) with (4 * q) by lia; split; assumption| |].
    + intros k o1 Hk [L1 V1]. rewrite (get_ok d) by lia. rewrite get_zn by lia. cbn [bind]. rewrite set_ok by lia.
      eexists; split; [reflexivity|]. split; [rewrite zlen_upd; assumption|]. intros i Hi. rewrite zn_upd by lia.
      destruct (Z.eqb_spec i (4 * q + k)) as [->|].
      * rewrite V1 by lia. destruct ((4 * q + k <? 4 * q + k) || _) eqn:G1; [lia|].
        destruct ((4 * q + k <? 4 * q + (k + 1)) || _) eqn:G2; [|lia].
        unfold tg, ucoef. destruct (Z.ltb_spec (4 * q + k) H); [|lia]. unfold FftFacts.cx. cbn [fst]. rewrite pos_block by lia. reflexivity.
      * rewrite V1 by lia. destruct ((i <? 4 * q + k) || _) eqn:G1; destruct ((i <? 4 * q + (k + 1)) || _) eqn:G2; try lia; reflexivity.
    + match goal with |- exists s', for_range 0 4 ?b ?s = _ /\ _ =>
        destruct (for_range_inv (fun k o => inv (4 * q + 4) (4 * q + k) o) 0 4 b s) as (o2 & E2' & I2) end.
      * lia. * replace (4 * q + 0) with (4 * q) by lia. exact I1.
      * intros k o1 Hk [L1 V1]. rewrite (get_ok d) by lia. rewrite get_zn by lia. cbn [bind]. rewrite set_ok by lia.
        eexists; split; [reflexivity|]. split; [rewrite zlen_upd; assumption|]. intros i Hi. rewrite zn_upd by lia.
        destruct (Z.eqb_spec i (4 * q + H + k)) as [->|].
        -- rewrite V1 by lia. destruct ((4 * q + H + k <? 4 * q + 4) || _) eqn:G1; [lia|].
           destruct ((4 * q + H + k <? 4 * q + 4) || ((H <=? 4 * q + H + k) && (4 * q + H + k <? H + (4 * q + (k + 1))))) eqn:G2; [|lia].
           unfold tg, ucoef. destruct (Z.ltb_spec (4 * q + H + k) H); [lia|]. unfold FftFacts.cx. cbn [snd].
           replace (4 * q + H + k - H) with (4 * q + k) by lia. rewrite pos_block by lia. do 4 f_equal. lia.
        -- rewrite V1 by lia. destruct ((i <? 4 * q + 4) || ((H <=? i) && (i <? H + (4 * q + k)))) eqn:G1;
             destruct ((i <? 4 * q + 4) || ((H <=? i) && (i <? H + (4 * q + (k + 1))))) eqn:G2; try lia; reflexivity.
      * exists o2. split; [exact E2'|]. exact I2.
  - rewrite E. f_equal. apply (eq_tab 0); [assumption|]. intros i Hi.
    change (znd 0 o i) with (zn o i). rewrite V by assumption. rewrite E2.
    destruct ((i <? H) || _) eqn:G; [reflexivity|lia].
Qed.

(** ** elementwise operations *)
Definition elw (f : cplx -> cplx -> cplx -> cplx) (v0 v1 v : list A) : list A := lay (fun c => f (cx v0 c) (cx v1 c) (cx v c)).

Lemma elementwise_ok f v0 v1 v : zlen v0 = 2 * H -> zlen v1 = 2 * H -> zlen v = 2 * H ->
  elementwise R f v0 v1 v = Ok (elw f v0 v1 v).
Proof.
  intros H0 H1 Hv. unfold elementwise. rewrite Hv.
  set (g := fun c => f (cx v0 c) (cx v1 c) (cx v c)).
  set (inv := fun P (o : list A) => zlen o = 2 * H /\ forall c, 0 <= c < H -> cx o c = if c <? P then g c else cx v c).
  match goal with |- for_step 0 (2 * H) 8 ?b v = _ => destruct (for_step_inv (fun j o => inv (j / 2) o) 0 (2 * H) 8 b v) as (o & E & L & V) end.
  - lia. - lia. - apply mod8_2H.
  - change (0 / 2) with 0. split; [assumption|]. intros c Hc. destruct (Z.ltb_spec c 0); [lia|reflexivity].
  - intros j o Hj1 Hj2 Hj I0.
    assert (Ej8: (j + 8) / 2 = j / 2 + 4) by (replace (j + 8) with (j + 4 * 2) by lia; apply Z.div_add; lia).
    rewrite Ej8. destruct (q_of j _ Hj1 Hj2 Hj) as (q & Hq & -> & Eq). rewrite Eq in *.
    destruct I0 as [L0 V0]. rewrite !ptr_ok by lia. cbn [bind].
    apply (for_range_inv (fun k o => inv (4 * q + k) o)); [lia|replace (4 * q + 0) with (4 * q) by lia; split; assumption|].
    intros k o1 Hk [L1 V1].
    assert (Hc: 0 <= 4 * q + k < H).
    { pose proof (Z.div_mod H 4 ltac:(lia)) as DH. rewrite H4 in DH. lia. }
    assert (P1: 8 * q + k = pos (4 * q + k)) by (rewrite pos_block by (try assumption; lia); reflexivity).
    assert (P2: 8 * q + 4 + k = pos (4 * q + k) + 4) by (rewrite pos_block by (try assumption; lia); lia).
    rewrite P1, P2.
    destruct (get_cx R H H4 v0 _ H0 Hc) as [-> ->]. destruct (get_cx R H H4 v1 _ H1 Hc) as [-> ->].
    destruct (get_cx R H H4 o1 _ L1 Hc) as [-> ->]. cbn [bind]. rewrite <- !surjective_pairing.
    assert (Eo: cx o1 (4 * q + k) = cx v (4 * q + k)).
    { rewrite V1 by assumption. destruct (Z.ltb_spec (4 * q + k) (4 * q + k)); [lia|reflexivity]. }
    rewrite Eo. change (f (cx v0 (4 * q + k)) (cx v1 (4 * q + k)) (cx v (4 * q + k))) with (g (4 * q + k)).
    destruct (g (4 * q + k)) as [r im] eqn:Eg.
    destruct (set_cx R H H4 o1 (4 * q + k) r im L1 Hc) as (o2 & E2 & L2 & V2).
    exists o2. split; [exact E2|]. split; [exact L2|]. intros c Hc'. rewrite V2 by assumption.
    destruct (Z.eqb_spec c (4 * q + k)) as [->|].
    + destruct (Z.ltb_spec (4 * q + k) (4 * q + (k + 1))); [|lia]. congruence.
    + rewrite V1 by assumption. destruct (Z.ltb_spec c (4 * q + k)); destruct (Z.ltb_spec c (4 * q + (k + 1))); try lia; reflexivity.
  - rewrite E. f_equal. apply lay_eq; try assumption. intros c Hc. rewrite V by assumption.
    replace (2 * H / 2) with H by (rewrite Z.mul_comm, Z.div_mul by lia; reflexivity).
    destruct (Z.ltb_spec c H); [reflexivity|lia].
Qed.

Lemma Clear_ok x : zlen x = 2 * H -> FourierPoly_Clear R x = Ok (repeat d (Z.to_nat (2 * H))).
Proof.
  intro Hx. unfold FourierPoly_Clear. rewrite Hx. rewrite repeat_tab.
  apply (for_fill_all d (fun _ => Ok d) (fun _ => d)); [assumption|reflexivity].
Qed.

Context (h : Z) (Hh : 3 <= h) (EH : H = 2 ^ h).

Lemma pow2_land k : 0 <= k -> Z.land (2 ^ k) (2 ^ k - 1) = 0.
Proof.
  intro Hk. replace (2 ^ k - 1) with (Z.ones k) by (rewrite Z.ones_equiv; lia).
  rewrite Z.land_ones by assumption. apply Z.mod_same. pose proof (p2 k Hk). lia.
Qed.

Lemma check_degree_pow2 : check_degree (2 * H) = Ok tt.
Proof.
  unfold check_degree, isPowerOfTwo, MinDegree. rewrite EH. rewrite <- p2S by lia.
  rewrite pow2_land by lia. pose proof (p2 (h + 1) ltac:(lia)).
  destruct (Z.ltb_spec 0 (2 ^ (h + 1))); [|lia]. cbn [andb negb Z.eqb].
  destruct (Z.ltb_spec (2 ^ (h + 1)) 16) as [G|G]; [|reflexivity].
  exfalso. change 16 with (2 ^ 4) in G. apply (Z.pow_lt_mono_r_iff 2) in G; lia.
Qed.

Definition Fto_list (tw : list cplx) (x : list A) : list Z :=
  tab (2 * H) (fun i => w32 (a_int64 R (ucoef (map (modQ R (Q32 R)) (ifft R H h tw x)) i))).

Definition fft_laws (tw twInv : list cplx) (Ht : H - 1 <= zlen tw) (Hi : H - 1 <= zlen twInv) : flaws (fft_ops R tw twInv) (2 * H).
Proof.
  refine {|
    fok := fun x : FP (fft_ops R tw twInv) => zlen x = 2 * H;
    Fzero := (repeat d (Z.to_nat (2 * H)) : FP (fft_ops R tw twInv));
    Fof := (fun p => fft R H h tw (cvt p)) : list Z -> FP (fft_ops R tw twInv);
    Fmul := (fun a b => elw (fun x y _ => cxmul R SMul x y) a b a) : FP (fft_ops R tw twInv) -> FP (fft_ops R tw twInv) -> FP (fft_ops R tw twInv);
    Fma := (fun a b o => elw (fun x y o => cxadd R o (cxmul R SMulAdd x y)) a b o) :
       FP (fft_ops R tw twInv) -> FP (fft_ops R tw twInv) -> FP (fft_ops R tw twInv) -> FP (fft_ops R tw twInv);
    Fto := (fun x => Fto_list twInv x) : FP (fft_ops R tw twInv) -> list Z
  |}; cbn [fft_ops f_new f_clear f_of_poly f_mul f_muladd f_to_poly FP].
  - exact check_degree_pow2.
  - unfold NewFourierPoly. rewrite check_degree_pow2. cbn [bind]. apply make_ok. lia.
  - rewrite zlen_repeat. lia.
  - intros x Hx. apply Clear_ok. assumption.
  - intros p o Hp Ho. unfold toFourier. rewrite convertPoly_ok by assumption. cbn [bind].
    apply fftInPlace_ok; try assumption. apply zlen_lay; assumption.
  - intros p Hp. apply zlen_fwd; try assumption. apply zlen_lay; assumption.
  - intros a b o Ha Hb Ho. unfold elementWiseMulCmplxAssign. rewrite elementwise_ok by assumption. reflexivity.
  - intros a b Ha Hb. apply zlen_lay; assumption.
  - intros a b o Ha Hb Ho. unfold elementWiseMulAddCmplxAssign. rewrite elementwise_ok by assumption. reflexivity.
  - intros a b o Ha Hb Ho. apply zlen_lay; assumption.
  - intros x p Hx Hp. unfold toPoly. rewrite (ifftInPlace_ok R H HH H4 h Hh EH) by assumption. cbn [bind].
    assert (L1: zlen (ifft R H h twInv x) = 2 * H) by (apply zlen_stl; assumption).
    rewrite floatModQ_ok by assumption. cbn [bind]. unfold convertFourierPolyToPolyAssign.
    rewrite convertBack_ok by (rewrite ?zlen_map; assumption). cbn [bind].
    eexists; split; [reflexivity|]. rewrite zlen_map. assumption.
  - intros x Hx. apply zlen_tab. lia.
  - intros x Hx. apply Forall_tab. intros i Hi'. apply w32_range.
Defined.
End Ops.

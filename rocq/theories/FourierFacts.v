(** * The polynomial API: every call on memory

    For every arithmetic, whatever the aliasing between arguments, each call
    returns and changes only its output (and scratch) buffers. *)
From Coq Require Import Lia ZifyBool.
From Verif Require Import GoBase GoFacts GoMem MemFacts Spec Poly PolyFacts Laws Fft FftFacts FftOps FourierApi.
Local Open Scope Z_scope.
Ltac Zify.zify_post_hook ::= idtac.

Section Loops.
Context (R : arith).
Notation A := (AN R).
Notation cplx := (A * A)%type.
Notation d := (a_zero R).
Notation cx := (cx R).
Notation M := (mem (list A)).
Context (H : Z) (HH : 0 < H) (H4 : H mod 4 = 0).
Notation lay := (lay R H).
Notation elw := (elw R H).

Definition lane (f : A -> A -> A -> A) (x y o : cplx) : cplx := (f (fst x) (fst y) (fst o), f (snd x) (snd y) (snd o)).

Lemma fload_ok (m : M) v i : 0 <= i < zlen (fm m v) -> fload R m v i = Ok (znd d (fm m v) i).
Proof. intro Hi. unfold fload. apply get_ok. assumption. Qed.
Lemma fstore_ok (m : M) v i x : 0 <= i < zlen (fm m v) -> fstore R m v i x = Ok (fset m v (upd (fm m v) i x)).
Proof. intro Hi. unfold fstore. rewrite set_ok by assumption. reflexivity. Qed.

Lemma lanes_ok f v0 v1 vo (m : M) : zlen (fm m v0) = 2 * H -> zlen (fm m v1) = 2 * H -> zlen (fm m vo) = 2 * H ->
  exists m', lanes R f v0 v1 vo m = Ok m' /\ framed none (eq vo) none m m' /\
    fm m' vo = elw (lane f) (fm m v0) (fm m v1) (fm m vo).
Proof.
  intros H0 H1 Ho. unfold lanes. rewrite Ho.
  set (tg := fun i => f (znd d (fm m v0) i) (znd d (fm m v1) i) (znd d (fm m vo) i)).
  set (inv := fun P (m' : M) => framed none (eq vo) none m m' /\ zlen (fm m' vo) = 2 * H /\
     forall i, 0 <= i < 2 * H -> znd d (fm m' vo) i = if i <? P then tg i else znd d (fm m vo) i).
  assert (Rd: forall P m' v i, inv P m' -> P <= i < 2 * H -> 0 <= i -> zlen (fm m v) = 2 * H ->
     zlen (fm m' v) = 2 * H /\ znd d (fm m' v) i = znd d (fm m v) i).
  { intros P m' v i (Fr & L & V) HP Hi Hv. destruct (Z.eq_dec vo v) as [<-|Ne].
    - split; [assumption|]. rewrite V by lia. destruct (Z.ltb_spec i P); [lia|reflexivity].
    - rewrite (fr_f _ _ _ _ _ Fr) by assumption. split; [assumption|reflexivity]. }
  match goal with |- exists m', for_step 0 (2 * H) 8 ?b m = _ /\ _ => destruct (for_step_inv inv 0 (2 * H) 8 b m) as (m' & E & Fr & L & V) end.
  - lia. - lia. - apply mod8_2H; assumption.
  - split; [apply framed_refl|]. split; [assumption|]. intros i Hi. destruct (Z.ltb_spec i 0); [lia|reflexivity].
  - intros j m1 Hj1 Hj2 Hj I0.
    pose proof (proj1 (Rd j m1 v0 j I0 ltac:(lia) ltac:(lia) H0)). pose proof (proj1 (Rd j m1 v1 j I0 ltac:(lia) ltac:(lia) H1)).
    pose proof (proj1 (Rd j m1 vo j I0 ltac:(lia) ltac:(lia) Ho)).
    rewrite !ptr_ok by lia. cbn [bind].
    destruct (for_range_inv (fun k m => inv (j + k) m) 0 8 (fun k m => x <- fload R m v0 (j + k) ;; y <- fload R m v1 (j + k) ;;
      o <- fload R m vo (j + k) ;; fstore R m vo (j + k) (f x y o)) m1) as (m2 & E2 & I2); [lia| | |].
    + replace (j + 0) with j by lia. exact I0.
    + intros k m2 Hk I1.
      destruct (Rd (j + k) m2 v0 (j + k) I1 ltac:(lia) ltac:(lia) H0) as [L0 V0]. destruct (Rd (j + k) m2 v1 (j + k) I1 ltac:(lia) ltac:(lia) H1) as [L1 V1].
      destruct (Rd (j + k) m2 vo (j + k) I1 ltac:(lia) ltac:(lia) Ho) as [Lo Vo].
      rewrite !fload_ok by lia. cbn [bind]. rewrite fstore_ok by lia. rewrite V0, V1, Vo. fold (tg (j + k)).
      eexists; split; [reflexivity|]. destruct I1 as (Fr & L & V). split; [|split].
      * eapply framed_trans; [exact Fr|]. apply framed_fset. reflexivity.
      * rewrite fm_fset, zlen_upd. assumption.
      * intros i Hi. rewrite fm_fset. rewrite znd_upd by lia. rewrite V by assumption.
        destruct (Z.eqb_spec i (j + k)) as [->|].
        -- destruct (Z.ltb_spec (j + k) (j + (k + 1))); [reflexivity|lia].
        -- destruct (Z.ltb_spec i (j + k)); destruct (Z.ltb_spec i (j + (k + 1))); try lia; reflexivity.
    + exists m2. split; [exact E2|exact I2].
  - exists m'. split; [exact E|]. split; [exact Fr|]. apply lay_eq; try assumption.
    intros c Hc. pose proof (pos_range H H4 c Hc) as Hp. unfold FftFacts.cx, lane. cbn [fst snd]. rewrite !V by lia.
    destruct (Z.ltb_spec (pos c) (2 * H)); [|lia]. destruct (Z.ltb_spec (pos c + 4) (2 * H)); [|lia]. reflexivity.
Qed.

Lemma pairs_ok f v0 v1 vo (m : M) : zlen (fm m v0) = 2 * H -> zlen (fm m v1) = 2 * H -> zlen (fm m vo) = 2 * H ->
  exists m', pairs R f v0 v1 vo m = Ok m' /\ framed none (eq vo) none m m' /\
    fm m' vo = elw f (fm m v0) (fm m v1) (fm m vo).
Proof.
  intros H0 H1 Ho. unfold pairs. rewrite Ho.
  set (tg := fun c => f (cx (fm m v0) c) (cx (fm m v1) c) (cx (fm m vo) c)).
  set (inv := fun P (m' : M) => framed none (eq vo) none m m' /\ zlen (fm m' vo) = 2 * H /\
     forall c, 0 <= c < H -> cx (fm m' vo) c = if c <? P then tg c else cx (fm m vo) c).
  assert (Rd: forall P m' v c, inv P m' -> P <= c < H -> 0 <= c -> zlen (fm m v) = 2 * H ->
     zlen (fm m' v) = 2 * H /\ cx (fm m' v) c = cx (fm m v) c).
  { intros P m' v c (Fr & L & V) HP Hi Hv. destruct (Z.eq_dec vo v) as [<-|Ne].
    - split; [assumption|]. rewrite V by lia. destruct (Z.ltb_spec c P); [lia|reflexivity].
    - rewrite (fr_f _ _ _ _ _ Fr) by assumption. split; [assumption|reflexivity]. }
  match goal with |- exists m', for_step 0 (2 * H) 8 ?b m = _ /\ _ => destruct (for_step_inv (fun j m => inv (j / 2) m) 0 (2 * H) 8 b m) as (m' & E & Fr & L & V) end.
  - lia. - lia. - apply mod8_2H; assumption.
  - change (0 / 2) with 0. split; [apply framed_refl|]. split; [assumption|]. intros c Hc. destruct (Z.ltb_spec c 0); [lia|reflexivity].
  - intros j m1 Hj1 Hj2 Hj I0.
    assert (Ej8: (j + 8) / 2 = j / 2 + 4) by (replace (j + 8) with (j + 4 * 2) by lia; apply Z.div_add; lia).
    rewrite Ej8. destruct (q_of H j _ Hj1 Hj2 Hj) as (q & Hq & -> & Eq). rewrite Eq in *.
    pose proof (Z.div_mod H 4 ltac:(lia)) as DH. rewrite H4 in DH.
    pose proof (proj1 (Rd _ m1 v0 (4 * q) I0 ltac:(lia) ltac:(lia) H0)). pose proof (proj1 (Rd _ m1 v1 (4 * q) I0 ltac:(lia) ltac:(lia) H1)).
    pose proof (proj1 (Rd _ m1 vo (4 * q) I0 ltac:(lia) ltac:(lia) Ho)).
    rewrite !ptr_ok by lia. cbn [bind].
    apply (for_range_inv (fun k m => inv (4 * q + k) m)); [lia|replace (4 * q + 0) with (4 * q) by lia; exact I0|].
    intros k m2 Hk I1.
    assert (Hc: 0 <= 4 * q + k < H) by lia.
    destruct (Rd _ m2 v0 (4 * q + k) I1 ltac:(lia) ltac:(lia) H0) as [L0 V0]. destruct (Rd _ m2 v1 (4 * q + k) I1 ltac:(lia) ltac:(lia) H1) as [L1 V1].
    destruct (Rd _ m2 vo (4 * q + k) I1 ltac:(lia) ltac:(lia) Ho) as [Lo Vo].
    assert (P1: 8 * q + k = pos (4 * q + k)) by (rewrite pos_block by (try assumption; lia); reflexivity).
    assert (P2: 8 * q + 4 + k = pos (4 * q + k) + 4) by (rewrite pos_block by (try assumption; lia); lia).
    rewrite P1, P2. pose proof (pos_range H H4 _ Hc) as Hp.
    unfold fload. destruct (get_cx R H H4 (fm m2 v0) _ L0 Hc) as [-> ->]. destruct (get_cx R H H4 (fm m2 v1) _ L1 Hc) as [-> ->].
    destruct (get_cx R H H4 (fm m2 vo) _ Lo Hc) as [-> ->]. cbn [bind]. cbv zeta. rewrite <- !surjective_pairing, V0, V1, Vo. fold (tg (4 * q + k)).
    rewrite fstore_ok by lia. cbn [bind]. rewrite fstore_ok by (rewrite fm_fset, zlen_upd; lia). rewrite fm_fset.
    eexists; split; [reflexivity|]. destruct I1 as (Fr & L & V).
    destruct (set_cx R H H4 (fm m2 vo) (4 * q + k) (fst (tg (4 * q + k))) (snd (tg (4 * q + k))) Lo Hc) as (o2 & E2 & L2 & V2).
    rewrite set_ok in E2 by lia. cbn [bind] in E2. rewrite set_ok in E2 by (rewrite zlen_upd; lia). injection E2 as <-.
    split; [|split].
    + eapply framed_trans; [exact Fr|]. eapply framed_trans; apply framed_fset; reflexivity.
    + rewrite fm_fset. exact L2.
    + intros c Hc'. rewrite fm_fset. rewrite V2, V by assumption.
      destruct (Z.eqb_spec c (4 * q + k)) as [->|].
      * destruct (Z.ltb_spec (4 * q + k) (4 * q + (k + 1))); [|lia]. symmetry; apply surjective_pairing.
      * destruct (Z.ltb_spec c (4 * q + k)); destruct (Z.ltb_spec c (4 * q + (k + 1))); try lia; reflexivity.
  - exists m'. split; [exact E|]. split; [exact Fr|]. apply lay_eq; try assumption. intros c Hc. rewrite V by assumption.
    replace (2 * H / 2) with H by (rewrite Z.mul_comm, Z.div_mul by lia; reflexivity).
    destruct (Z.ltb_spec c H); [reflexivity|lia].
Qed.
End Loops.

(** ** calls *)
Section Calls.
Context (R : arith) (tw twi : list (AN R * AN R)) (e : peval).
Notation A := (AN R).
Notation d := (a_zero R).
Notation M := (mem (list A)).
Context (h : Z) (Hh : 3 <= h).
Notation HF := (2 ^ h).
Notation NF := (2 * 2 ^ h).
Context (HH : 0 < HF) (H4 : HF mod 4 = 0) (Lt : HF - 1 <= zlen tw) (Li : HF - 1 <= zlen twi) (Hd : pe_deg e = NF).
Notation elw := (elw R HF).
Notation fpInv := (pe_fpInv e).

(** [m'] keeps every buffer of [m] outside X and Y, apart from fpInv *)
Record kept (X Y : Z -> Prop) (m m' : M) : Prop := {
  k_f : forall l, l < fnext m -> l <> fpInv -> ~ X l -> fm m' l = fm m l;
  k_t : forall l, l < tnext m -> ~ Y l -> tm m' l = tm m l;
  k_fn : fnext m <= fnext m';
  k_tn : tnext m <= tnext m';
  k_inv : zlen (fm m fpInv) = NF -> zlen (fm m' fpInv) = NF
}.
Lemma kept_trans X Y X' Y' (X2 Y2 : Z -> Prop) m1 m2 m3 : kept X Y m1 m2 -> kept X' Y' m2 m3 ->
  (forall l, l < fnext m1 -> X l \/ X' l -> X2 l) -> (forall l, l < tnext m1 -> Y l \/ Y' l -> Y2 l) -> kept X2 Y2 m1 m3.
Proof.
  intros [a b c d0 f] [a' b' c' d' f'] HX HY. split; try lia; try tauto.
  - intros l Hl Hi Hx. transitivity (fm m2 l); [apply a'|apply a]; try assumption; try lia; intro; apply Hx; apply HX; auto.
  - intros l Hl Hy. transitivity (tm m2 l); [apply b'|apply b]; try assumption; try lia; intro; apply Hy; apply HY; auto.
Qed.
Lemma kept_framed X Y m m' : framed Y X none m m' -> (X fpInv -> zlen (fm m' fpInv) = NF) ->
  (X fpInv \/ ~ X fpInv) -> kept X Y m m'.
Proof.
  intros [a b c (d1 & d2 & d3)] HX Dec. split; try lia.
  - intros; apply b; assumption.
  - intros; apply a; assumption.
  - intro L. destruct Dec as [D|D]; [apply HX; assumption|rewrite b by assumption; assumption].
Qed.

Lemma zlen_elw f a b o : zlen (elw f a b o) = NF.
Proof. apply zlen_lay; assumption. Qed.

Lemma kept_out m m' o : framed none (eq o) none m m' -> zlen (fm m' o) = NF -> kept (eq o) none m m'.
Proof.
  intros Fr L. apply kept_framed; [exact Fr|intros <-; exact L|].
  destruct (Z.eq_dec o fpInv) as [->|Ne]; [left; reflexivity|right; intros E; apply Ne; exact E].
Qed.

(** a call combining two Fourier buffers into a third *)
Definition combines (g : list A -> list A -> list A -> list A) (act : Z -> Z -> Z -> M -> res M) : Prop :=
  forall a b o m, zlen (fm m a) = NF -> zlen (fm m b) = NF -> zlen (fm m o) = NF ->
  exists m', act a b o m = Ok m' /\ kept (eq o) none m m' /\ fm m' o = g (fm m a) (fm m b) (fm m o) /\ zlen (fm m' o) = NF.

Lemma lanes_combine f : combines (elw (lane R f)) (lanes R f).
Proof.
  intros a b o m La Lb Lo. destruct (lanes_ok R HF HH H4 f a b o m La Lb Lo) as (m' & E & Fr & V). exists m'. split; [exact E|].
  assert (L: zlen (fm m' o) = NF) by (rewrite V; apply zlen_elw). split; [apply kept_out; assumption|]. split; assumption.
Qed.
Lemma pairs_combine f : combines (elw f) (pairs R f).
Proof.
  intros a b o m La Lb Lo. destruct (pairs_ok R HF HH H4 f a b o m La Lb Lo) as (m' & E & Fr & V). exists m'. split; [exact E|].
  assert (L: zlen (fm m' o) = NF) by (rewrite V; apply zlen_elw). split; [apply kept_out; assumption|]. split; assumption.
Qed.

(** allocation *)
Lemma deg_ok : check_degree (pe_deg e) = Ok tt.
Proof. rewrite Hd. apply (check_degree_pow2 HF h); [assumption|reflexivity]. Qed.
Lemma alloc_kept (m : M) v : kept none none m (snd (alloc m v)).
Proof.
  split; cbn; try lia; try tauto.
  intros l Hl _. destruct (Z.eqb_spec l (tnext m)); [lia|reflexivity].
Qed.
Lemma alloc_fs_kept (m : M) v : fpInv < fnext m -> kept none none m (snd (alloc_fs m 1 v)).
Proof.
  intro HI. split; cbn; try lia; try tauto.
  - intros l Hl _ _. destruct (fnext m <=? l) eqn:E; [lia|reflexivity].
  - intro L. destruct (fnext m <=? fpInv) eqn:E; [lia|exact L].
Qed.

Definition fresh_f (m : M) (r : res (Z * M)) (v : list A) : Prop := exists l m', r = Ok (l, m') /\
  fnext m <= l < fnext m' /\ kept none none m m' /\ fm m' l = v.
Definition fresh_t (m : M) (r : res (Z * M)) (v : list Z) : Prop := exists l m', r = Ok (l, m') /\
  tnext m <= l < tnext m' /\ kept none none m m' /\ tm m' l = v.

Lemma newfs (m : M) v : fpInv < fnext m -> fresh_f m (Ok (alloc_fs m 1 v)) v.
Proof.
  intro HI. exists (fnext m), (snd (alloc_fs m 1 v)). split; [reflexivity|]. split; [cbn; lia|]. split; [apply alloc_fs_kept; assumption|].
  cbn. destruct ((fnext m <=? fnext m) && (fnext m <? fnext m + 1)) eqn:E; [reflexivity|lia].
Qed.
Lemma newts (m : M) v : fresh_t m (Ok (alloc m v)) v.
Proof.
  exists (tnext m), (snd (alloc m v)). split; [reflexivity|]. split; [cbn; lia|]. split; [apply alloc_kept|].
  cbn. rewrite Z.eqb_refl. reflexivity.
Qed.
Lemma NewPoly_fresh m : fresh_t m (E_NewPoly R e m) (repeat 0 (Z.to_nat NF)).
Proof.
  unfold E_NewPoly, NewPoly. rewrite deg_ok. cbn [bind]. rewrite Hd, make_ok by lia. cbn [bind]. apply newts.
Qed.
Lemma NewFourier_fresh m : fpInv < fnext m -> fresh_f m (E_NewFourierPoly R e m) (repeat d (Z.to_nat NF)).
Proof.
  intro HI. unfold E_NewFourierPoly, NewFourierPoly. rewrite deg_ok. cbn [bind]. rewrite Hd, make_ok by lia. cbn [bind]. apply newfs. assumption.
Qed.

(** new buffer, then the Assign form *)
Lemma then_assign g act a b m : combines g act -> fpInv < fnext m -> a < fnext m -> b < fnext m -> a <> fpInv -> b <> fpInv ->
  zlen (fm m a) = NF -> zlen (fm m b) = NF ->
  fresh_f m ('(o, m) <- E_NewFourierPoly R e m ;; m <- act a b o m ;; Ok (o, m)) (g (fm m a) (fm m b) (repeat d (Z.to_nat NF))).
Proof.
  intros G HI Ha Hb Na Nb La Lb. destruct (NewFourier_fresh m HI) as (l & m1 & E & Hl & K & V). rewrite E. cbn [bind].
  assert (Ea: fm m1 a = fm m a) by (apply (k_f _ _ _ _ K); auto). assert (Eb: fm m1 b = fm m b) by (apply (k_f _ _ _ _ K); auto).
  destruct (G a b l m1) as (m2 & E2 & K2 & V2 & L2); [congruence|congruence|rewrite V, zlen_repeat; lia|].
  rewrite E2. cbn [bind]. exists l, m2. split; [reflexivity|]. pose proof (k_fn _ _ _ _ K2). split; [lia|]. split.
  - eapply kept_trans; [exact K|exact K2| |]; intros x Hx [[]|X]; try (unfold none in *; tauto). lia.
  - rewrite V2, Ea, Eb, V. reflexivity.
Qed.

(** transforms *)
Notation ofl := (fun p : list Z => fft R HF h tw (cvt R HF p)).
Lemma zlen_of p : zlen (fft R HF h tw (cvt R HF p)) = NF.
Proof. apply zlen_fwd; try assumption. apply zlen_lay; assumption. Qed.
Lemma toFourier_ok p o : zlen p = NF -> zlen o = NF -> toFourier R tw p o = Ok (ofl p).
Proof.
  intros Hp Ho. unfold toFourier. rewrite (convertPoly_ok R HF HH H4) by assumption. cbn [bind].
  apply fftInPlace_ok; try assumption; try reflexivity. apply zlen_lay; assumption.
Qed.

Lemma ToFourierAssign_ok p o m : zlen (tm m p) = NF -> zlen (fm m o) = NF ->
  exists m', ToFourierPolyAssign_at R tw p o m = Ok m' /\ kept (eq o) none m m' /\ fm m' o = ofl (tm m p) /\ zlen (fm m' o) = NF.
Proof.
  intros Hp Ho. unfold ToFourierPolyAssign_at. rewrite toFourier_ok by assumption. cbn [bind]. eexists. split; [reflexivity|].
  assert (L: zlen (fm (fset m o (ofl (tm m p))) o) = NF) by (rewrite fm_fset; apply zlen_of).
  split; [apply kept_out; [apply framed_fset; reflexivity|exact L]|]. split; [apply fm_fset|exact L].
Qed.
Lemma ToFourier_ok p m : fpInv < fnext m -> p < tnext m -> zlen (tm m p) = NF -> fresh_f m (ToFourierPoly_at R tw e p m) (ofl (tm m p)).
Proof.
  intros HI Hp Lp. unfold ToFourierPoly_at. destruct (NewFourier_fresh m HI) as (l & m1 & E & Hl & K & V). rewrite E. cbn [bind].
  assert (Ep: tm m1 p = tm m p) by (apply (k_t _ _ _ _ K); auto).
  destruct (ToFourierAssign_ok p l m1) as (m2 & E2 & K2 & V2 & L2); [congruence|rewrite V, zlen_repeat; lia|].
  rewrite E2. cbn [bind]. exists l, m2. split; [reflexivity|]. pose proof (k_fn _ _ _ _ K2). split; [lia|]. split.
  - eapply kept_trans; [exact K|exact K2| |]; intros x Hx [[]|X]; try (unfold none in *; tauto). lia.
  - rewrite V2, Ep. reflexivity.
Qed.

(** reading back *)
Definition readl (op : Z -> Z -> Z) (x : list A) (p : list Z) : list Z :=
  tab NF (fun i => op (zn p i) (zn (Fto_list R HF h twi x) i)).
Definition reads (op : Z -> Z -> Z) (f : list A -> list Z -> res (list A * list Z)) : Prop :=
  forall x p, zlen x = NF -> zlen p = NF -> exists x', f x p = Ok (x', readl op x p) /\ zlen x' = NF.
Lemma reads_ok op : reads op (fun x p => fp <- ifftInPlace R x twi ;; fp <- floatModQInPlace R fp (Q32 R) ;;
  pOut <- convertFourierPolyToPoly R op fp p ;; Ok (fp, pOut)).
Proof.
  intros x p Hx Hp. rewrite (ifftInPlace_ok R HF HH H4 h Hh eq_refl) by assumption. cbn [bind].
  assert (L1: zlen (ifft R HF h twi x) = NF) by (apply zlen_stl; assumption).
  rewrite (floatModQ_ok R HF HH H4) by assumption. cbn [bind].
  rewrite (convertBack_ok R HF HH H4) by (try (rewrite zlen_map; exact L1); assumption). cbn [bind].
  exists (map (modQ R (Q32 R)) (ifft R HF h twi x)). split; [|rewrite zlen_map; exact L1]. do 2 f_equal. apply tab_ext. intros i Hi. unfold Fto_list. rewrite zn_tab by assumption. reflexivity.
Qed.

Lemma inPlace_ok op f a p m : reads op f -> zlen (fm m a) = NF -> zlen (tm m p) = NF ->
  exists m', inPlace R f a p m = Ok m' /\ kept (eq a) (eq p) m m' /\ zlen (fm m' a) = NF /\ tm m' p = readl op (fm m a) (tm m p).
Proof.
  intros G La Lp. unfold inPlace. destruct (G _ _ La Lp) as (x' & E & L'). rewrite E. cbn [bind].
  eexists. split; [reflexivity|].
  assert (Ea: fm (tset (fset m a x') p (readl op (fm m a) (tm m p))) a = x') by (change (fm (fset m a x') a = x'); apply fm_fset).
  split; [|split; [rewrite Ea; exact L'|apply tm_tset]].
  apply kept_framed.
  - eapply framed_trans; [apply framed_fset; reflexivity|apply framed_tset; reflexivity].
  - intros <-. rewrite Ea. exact L'.
  - destruct (Z.eq_dec a fpInv) as [->|Ne]; [left; reflexivity|right; intros E'; apply Ne; exact E'].
Qed.
Lemma readl_tok (op : Z -> Z -> Z) x p : (forall a b, tok b -> tok (op a b)) -> poly_ok NF (readl op x p).
Proof.
  intro Ht. split; [apply zlen_tab; lia|]. apply Forall_tab. intros i Hi. apply Ht. unfold Fto_list. rewrite zn_tab by assumption. apply tok_w32.
Qed.

Definition op_set (_ x : Z) : Z := x.
Lemma toPoly_reads : reads op_set (toPoly R twi). Proof. apply (reads_ok op_set). Qed.
Lemma toPolyAdd_reads : reads tadd (toPolyAdd R twi). Proof. apply (reads_ok tadd). Qed.
Lemma toPolySub_reads : reads tsub (toPolySub R twi). Proof. apply (reads_ok tsub). Qed.

Lemma CopyFrom_ok a b m : zlen (fm m a) = NF -> zlen (fm m b) = NF ->
  exists m', FourierPoly_CopyFrom R a b m = Ok m' /\ kept (eq a) none m m' /\ fm m' a = fm m b.
Proof.
  intros La Lb. unfold FourierPoly_CopyFrom. eexists. split; [reflexivity|].
  rewrite copy_slice_same_len by congruence. split; [apply kept_out; [apply framed_fset; reflexivity|rewrite fm_fset; exact Lb]|apply fm_fset].
Qed.
Lemma ToPolyAssign_ok a p m : zlen (fm m fpInv) = NF -> zlen (fm m a) = NF -> zlen (tm m p) = NF ->
  exists m', ToPolyAssign_at R twi e a p m = Ok m' /\ kept none (eq p) m m' /\ tm m' p = readl op_set (fm m a) (tm m p).
Proof.
  intros LI La Lp. unfold ToPolyAssign_at. unfold FourierPoly_CopyFrom. rewrite copy_slice_same_len by congruence. cbn [bind].
  set (m1 := fset m fpInv (fm m a)).
  destruct (inPlace_ok op_set (toPoly R twi) fpInv p m1 toPoly_reads) as (m2 & E2 & K2 & L2 & V2);
    [unfold m1; rewrite fm_fset; exact La|exact Lp|].
  exists m2. split; [exact E2|]. split; [|rewrite V2; unfold m1; rewrite fm_fset; reflexivity].
  destruct K2 as [a2 b2 c2 d2 f2]. split.
  - intros l Hl Ni _. rewrite a2 by (try exact Hl; try exact Ni; intro; apply Ni; congruence). unfold m1. apply fm_fset_ne. assumption.
  - intros l Hl Ny. rewrite b2 by assumption. reflexivity.
  - exact c2.
  - exact d2.
  - intros _. exact L2.
Qed.
Lemma ToPoly_ok a m : a < fnext m -> a <> fpInv -> zlen (fm m fpInv) = NF -> zlen (fm m a) = NF ->
  fresh_t m (ToPoly_at R twi e a m) (readl op_set (fm m a) []).
Proof.
  intros Ha Na LI La. unfold ToPoly_at. destruct (NewPoly_fresh m) as (l & m1 & E & Hl & K & V). rewrite E. cbn [bind].
  assert (Ea: fm m1 a = fm m a) by (apply (k_f _ _ _ _ K); auto).
  destruct (ToPolyAssign_ok a l m1) as (m2 & E2 & K2 & V2); [apply (k_inv _ _ _ _ K); exact LI|congruence|rewrite V, zlen_repeat; lia|].
  rewrite E2. cbn [bind]. exists l, m2. split; [reflexivity|]. pose proof (k_tn _ _ _ _ K2). split; [lia|]. split.
  - eapply kept_trans; [exact K|exact K2| |]; intros x Hx [[]|X]; try (unfold none in *; tauto). lia.
  - rewrite V2, Ea. reflexivity.
Qed.

(** products *)
Definition prodl (p q : list Z) : list A := elw (fun x y _ => cxmul R SMul x y) (ofl p) (ofl q) (ofl p).
Lemma mulPolyWith_ok op f p q o m : reads op f -> fpInv < fnext m -> p < tnext m -> q < tnext m -> o < tnext m ->
  zlen (tm m p) = NF -> zlen (tm m q) = NF -> zlen (tm m o) = NF ->
  exists m', mulPolyWith R tw e (inPlace R f) p q o m = Ok m' /\ kept none (eq o) m m' /\
    tm m' o = readl op (prodl (tm m p) (tm m q)) (tm m o).
Proof.
  intros G HI Hp Hq Ho Lp Lq Lo. unfold mulPolyWith.
  destruct (ToFourier_ok p m HI Hp Lp) as (l1 & m1 & E1 & H1 & K1 & V1). rewrite E1. cbn [bind].
  pose proof (k_fn _ _ _ _ K1). pose proof (k_tn _ _ _ _ K1).
  assert (Eq1: tm m1 q = tm m q) by (apply (k_t _ _ _ _ K1); auto). assert (Eo1: tm m1 o = tm m o) by (apply (k_t _ _ _ _ K1); auto).
  destruct (ToFourier_ok q m1) as (l2 & m2 & E2 & H2 & K2 & V2); [lia|lia|congruence|]. rewrite E2. cbn [bind].
  pose proof (k_fn _ _ _ _ K2). pose proof (k_tn _ _ _ _ K2).
  assert (Eo2: tm m2 o = tm m o) by (rewrite (k_t _ _ _ _ K2) by (auto; lia); exact Eo1).
  assert (V12: fm m2 l1 = ofl (tm m p)) by (rewrite (k_f _ _ _ _ K2) by (auto; lia); exact V1).
  destruct (pairs_combine (fun x y _ => cxmul R SMul x y) l1 l2 l1 m2) as (m3 & E3 & K3 & V3 & L3);
    [rewrite V12; apply zlen_of|rewrite V2; apply zlen_of|rewrite V12; apply zlen_of|].
  unfold MulFourierPolyAssign. rewrite E3. cbn [bind].
  pose proof (k_fn _ _ _ _ K3). pose proof (k_tn _ _ _ _ K3).
  assert (Eo3: tm m3 o = tm m o) by (rewrite (k_t _ _ _ _ K3) by (auto; lia); exact Eo2).
  destruct (inPlace_ok op f l1 o m3 G L3) as (m4 & E4 & K4 & L4 & V4); [congruence|].
  exists m4. split; [exact E4|]. split.
  - assert (K12: kept none none m m2).
    { eapply kept_trans; [exact K1|exact K2| |]; intros x Hx [[]|[]]. }
    assert (K13: kept none none m m3).
    { eapply kept_trans; [exact K12|exact K3| |]; intros x Hx [[]|X]; try (unfold none in *; tauto). lia. }
    eapply kept_trans; [exact K13|exact K4| |]; intros x Hx [[]|X]; [lia|exact X].
  - rewrite V4, V3, V12, V2, Eq1, Eo3. reflexivity.
Qed.
End Calls.

(** * The polynomial API: programs follow their meaning

    Generic in the arithmetic.  [frel b P x]: the Fourier buffer x stands for
    the integer polynomial P, with the error bound b. *)
From Coq Require Import Lia ZifyBool.
From Verif Require Import GoBase GoFacts GoMem MemFacts Spec TlweFacts Poly PolyFacts NegFacts Laws Fft FftFacts FftOps FourierApi FourierSpec FourierFacts.
Local Open Scope Z_scope.
Ltac Zify.zify_post_hook ::= idtac.

Section Rel.
Context (R : arith) (tw twi : list (AN R * AN R)) (e : peval).
Notation A := (AN R).
Notation d := (a_zero R).
Notation M := (mem (list A)).
Context (h : Z) (Hh : 3 <= h).
Notation HF := (2 ^ h).
Notation NF := (2 * 2 ^ h).
Context (HH : 0 < HF) (H4 : HF mod 4 = 0) (Lt : HF - 1 <= zlen tw) (Li : HF - 1 <= zlen twi) (Hd : pe_deg e = NF).
Notation elw := (elw R HF).
Notation lane := (lane R).
Notation fpInv := (pe_fpInv e).
Notation kept := (kept R e h).
Notation ofl := (fun p : list Z => fft R HF h tw (cvt R HF p)).
Notation Fto := (Fto_list R HF h twi).

Context (C : costs) (frel : CB C -> poly -> list A -> Prop).
Notation B := (option (CB C)).

Record sound : Prop := {
  s_ext : forall b P Q x, (forall i, 0 <= i < NF -> P i = Q i) -> frel b P x -> frel b Q x;
  s_zero : frel (c_zero C) pzero (repeat d (Z.to_nat NF));
  s_of : forall D b p, c_of C D = Some b -> poly_ok NF p -> (forall i, 0 <= i < NF -> Z.abs (centered (zn p i)) <= D) ->
    frel b (psigned (zn p)) (ofl p);
  s_add : forall a b c P Q x y o, c_add C a b = Some c -> frel a P x -> frel b Q y ->
    frel c (padd P Q) (elw (lane (fun x y _ => a_add R x y)) x y o);
  s_sub : forall a b c P Q x y o, c_add C a b = Some c -> frel a P x -> frel b Q y ->
    frel c (psub P Q) (elw (lane (fun x y _ => a_sub R x y)) x y o);
  s_mul : forall a b c P Q x y o, c_mul C a b = Some c -> frel a P x -> frel b Q y ->
    frel c (negacyclic NF P Q) (elw (fun x y _ => cxmul R SMul x y) x y o);
  s_ma : forall a b g c P Q T x y o, c_ma C a b g = Some c -> frel a P x -> frel b Q y -> frel g T o ->
    frel c (padd T (negacyclic NF P Q)) (elw (fun x y o => cxadd R o (cxmul R SMulAdd x y)) x y o);
  s_ms : forall a b g c P Q T x y o, c_ma C a b g = Some c -> frel a P x -> frel b Q y -> frel g T o ->
    frel c (psub T (negacyclic NF P Q)) (elw (fun x y o => cxsub R o (cxmul R SMulSub x y)) x y o);
  s_scale : forall k a c P x y o, c_scale C k a = Some c -> frel a P x ->
    frel c (pscale k P) (elw (lane (fun x _ _ => a_mul R (a_of R k) x)) x y o);
  s_scadd : forall k a g c P T x y o, c_scadd C k a g = Some c -> frel a P x -> frel g T o ->
    frel c (padd T (pscale k P)) (elw (lane (fun x _ o => a_acc R o (a_of R k) x)) x y o);
  s_read : forall b P x, c_read C b = true -> frel b P x -> forall i, 0 <= i < NF -> zn (Fto x) i = P i mod two32;
  s_prod : forall D1 D2 p q, c_prod C D1 D2 = true -> poly_ok NF p -> poly_ok NF q ->
    (forall i, 0 <= i < NF -> Z.abs (centered (zn p i)) <= D1) -> (forall i, 0 <= i < NF -> Z.abs (centered (zn q i)) <= D2) ->
    forall i, 0 <= i < NF -> zn (Fto (prodl R tw h p q)) i = negacyclic NF (psigned (zn p)) (psigned (zn q)) i mod two32
}.

(** [good]: whether values are claimed, or only that calls return *)
Context (good : Prop) (Snd : good -> sound).

Definition fvar (b : B) (P : option poly) (x : list A) : Prop := zlen x = NF /\
  match P with None => True | Some P => good -> exists b', b = Some b' /\ frel b' P x end.
Definition pvar (D : Z) (P : option poly) (l : list Z) : Prop := poly_ok NF l /\
  (forall i, 0 <= i < NF -> Z.abs (centered (zn l i)) <= D) /\
  match P with None => True | Some P => good -> forall i, 0 <= i < NF -> zn l i = P i end.

Record rel (V : values) (Bs : list B * list Z) (w : world R) : Prop := {
  r_lf : zlen (snd (fst w)) = zlen (fst V) /\ zlen (fst Bs) = zlen (fst V);
  r_lp : zlen (snd w) = zlen (snd V) /\ zlen (snd Bs) = zlen (snd V);
  r_f : forall j, 0 <= j < zlen (fst V) -> fpInv < znd 0 (snd (fst w)) j < fnext (fst (fst w)) /\
    fvar (znd None (fst Bs) j) (znd None (fst V) j) (fm (fst (fst w)) (znd 0 (snd (fst w)) j));
  r_p : forall j, 0 <= j < zlen (snd V) -> znd 0 (snd w) j < tnext (fst (fst w)) /\
    pvar (znd 0 (snd Bs) j) (znd None (snd V) j) (tm (fst (fst w)) (znd 0 (snd w) j));
  r_fi : forall i j, 0 <= i < zlen (fst V) -> 0 <= j < zlen (fst V) -> znd 0 (snd (fst w)) i = znd 0 (snd (fst w)) j -> i = j;
  r_pi : forall i j, 0 <= i < zlen (snd V) -> 0 <= j < zlen (snd V) -> znd 0 (snd w) i = znd 0 (snd w) j -> i = j;
  r_inv : zlen (fm (fst (fst w)) fpInv) = NF;
  r_nx : fpInv < fnext (fst (fst w))
}.

Lemma set_f F P BF BP m fs ps o m' Q b : rel (F, P) (BF, BP) (m, fs, ps) -> 0 <= o < zlen F ->
  kept (eq (znd 0 fs o)) none m m' -> fvar b Q (fm m' (znd 0 fs o)) -> rel (upd F o Q, P) (upd BF o b, BP) (m', fs, ps).
Proof.
  intros [[l1 l2] [l3 l4] rf rp fi pi ri rn] Ho [kf kt kfn ktn ki] V. cbn [fst snd] in *.
  split; cbn [fst snd]; rewrite ?zlen_upd; [split; assumption|split; assumption| | |assumption|assumption|apply ki; assumption|lia].
  - intros j Hj. destruct (rf j Hj) as [L W]. split; [lia|]. rewrite !znd_upd by lia. destruct (Z.eqb_spec j o) as [->|Ne]; [exact V|].
    rewrite kf; [exact W|lia|lia|]. intro E. apply Ne. symmetry. apply fi; assumption.
  - intros j Hj. destruct (rp j Hj) as [L W]. split; [lia|]. rewrite kt; [exact W|lia|tauto].
Qed.
Lemma set_p F P BF BP m fs ps o m' Q D : rel (F, P) (BF, BP) (m, fs, ps) -> 0 <= o < zlen P ->
  kept none (eq (znd 0 ps o)) m m' -> pvar D Q (tm m' (znd 0 ps o)) -> rel (F, upd P o Q) (BF, upd BP o D) (m', fs, ps).
Proof.
  intros [[l1 l2] [l3 l4] rf rp fi pi ri rn] Ho [kf kt kfn ktn ki] V. cbn [fst snd] in *.
  split; cbn [fst snd]; rewrite ?zlen_upd; [split; assumption|split; assumption| | |assumption|assumption|apply ki; assumption|lia].
  - intros j Hj. destruct (rf j Hj) as [L W]. split; [lia|]. rewrite kf; [exact W|lia|lia|tauto].
  - intros j Hj. destruct (rp j Hj) as [L W]. split; [lia|]. rewrite !znd_upd by lia. destruct (Z.eqb_spec j o) as [->|Ne]; [exact V|].
    rewrite kt; [exact W|lia|]. intro E. apply Ne. symmetry. apply pi; assumption.
Qed.
Lemma take_fp F P BF BP m fs ps a o m' Q D : rel (F, P) (BF, BP) (m, fs, ps) -> 0 <= a < zlen F -> 0 <= o < zlen P ->
  kept (eq (znd 0 fs a)) (eq (znd 0 ps o)) m m' -> zlen (fm m' (znd 0 fs a)) = NF -> pvar D Q (tm m' (znd 0 ps o)) ->
  rel (upd F a None, upd P o Q) (upd BF a None, upd BP o D) (m', fs, ps).
Proof.
  intros [[l1 l2] [l3 l4] rf rp fi pi ri rn] Ha Ho [kf kt kfn ktn ki] L' V. cbn [fst snd] in *.
  split; cbn [fst snd]; rewrite ?zlen_upd; [split; assumption|split; assumption| | |assumption|assumption|apply ki; assumption|lia].
  - intros j Hj. destruct (rf j Hj) as [L W]. split; [lia|]. rewrite !znd_upd by lia. destruct (Z.eqb_spec j a) as [->|Ne].
    + split; [exact L'|exact I].
    + rewrite kf; [exact W|lia|lia|]. intro E. apply Ne. symmetry. apply fi; assumption.
  - intros j Hj. destruct (rp j Hj) as [L W]. split; [lia|]. rewrite !znd_upd by lia. destruct (Z.eqb_spec j o) as [->|Ne]; [exact V|].
    rewrite kt; [exact W|lia|]. intro E. apply Ne. symmetry. apply pi; assumption.
Qed.
Lemma new_f F P BF BP m fs ps r x Q b : rel (F, P) (BF, BP) (m, fs, ps) -> fresh_f R e h m r x -> fvar b Q x ->
  exists w', newF R fs ps r = Ok w' /\ rel (F ++ [Q], P) (BF ++ [b], BP) w'.
Proof.
  intros [[l1 l2] [l3 l4] rf rp fi pi ri rn] (l & m' & -> & Hl & [kf kt kfn ktn ki] & Ex) V. cbn [fst snd] in *.
  unfold newF. cbn [bind]. eexists; split; [reflexivity|].
  assert (Cs: forall j, 0 <= j < zlen F + 1 -> 0 <= j < zlen F \/ j = zlen F) by lia.
  assert (Old: forall j, 0 <= j < zlen F -> znd 0 (fs ++ [l]) j = znd 0 fs j) by (intros; apply znd_app1; lia).
  assert (New: znd 0 (fs ++ [l]) (zlen F) = l) by (rewrite znd_app2 by lia; rewrite l1, Z.sub_diag; reflexivity).
  split; cbn [fst snd]; rewrite ?zlen_app; change (@zlen Z [l]) with 1; change (zlen [Q]) with 1; change (zlen [b]) with 1;
    [rewrite l1, l2; split; reflexivity|split; assumption| | | | |apply ki; assumption|exact (Z.lt_le_trans _ _ _ rn kfn)].
  - intros j Hj. destruct (Cs j Hj) as [Hj'| ->].
    + rewrite Old, !znd_app1 by lia. destruct (rf j Hj') as [L W]. split; [lia|]. rewrite kf; [exact W|lia|lia|tauto].
    + rewrite New, !znd_app2 by lia. rewrite l2, Z.sub_diag. cbn [znd nth Z.to_nat]. split; [lia|]. rewrite Ex. exact V.
  - intros j Hj. destruct (rp j Hj) as [L W]. split; [lia|]. rewrite kt; [exact W|lia|tauto].
  - intros i j Hi Hj. destruct (Cs i Hi) as [Hi'| ->]; destruct (Cs j Hj) as [Hj'| ->]; rewrite ?New, ?Old by assumption.
    + apply fi; assumption.
    + destruct (rf i Hi'). lia.
    + destruct (rf j Hj'). lia.
    + reflexivity.
  - assumption.
Qed.
Lemma new_p F P BF BP m fs ps r x Q D : rel (F, P) (BF, BP) (m, fs, ps) -> fresh_t R e h m r x -> pvar D Q x ->
  exists w', newP R fs ps r = Ok w' /\ rel (F, P ++ [Q]) (BF, BP ++ [D]) w'.
Proof.
  intros [[l1 l2] [l3 l4] rf rp fi pi ri rn] (l & m' & -> & Hl & [kf kt kfn ktn ki] & Ex) V. cbn [fst snd] in *.
  unfold newP. cbn [bind]. eexists; split; [reflexivity|].
  assert (Cs: forall j, 0 <= j < zlen P + 1 -> 0 <= j < zlen P \/ j = zlen P) by lia.
  assert (Old: forall j, 0 <= j < zlen P -> znd 0 (ps ++ [l]) j = znd 0 ps j) by (intros; apply znd_app1; lia).
  assert (New: znd 0 (ps ++ [l]) (zlen P) = l) by (rewrite znd_app2 by lia; rewrite l3, Z.sub_diag; reflexivity).
  split; cbn [fst snd]; rewrite ?zlen_app; change (@zlen Z [l]) with 1; change (zlen [Q]) with 1; change (@zlen Z [D]) with 1;
    [split; assumption|rewrite l3, l4; split; reflexivity| | | | |apply ki; assumption|exact (Z.lt_le_trans _ _ _ rn kfn)].
  - intros j Hj. destruct (rf j Hj) as [L W]. split; [lia|]. rewrite kf; [exact W|lia|lia|tauto].
  - intros j Hj. destruct (Cs j Hj) as [Hj'| ->].
    + rewrite Old, !znd_app1 by lia. destruct (rp j Hj') as [L W]. split; [lia|]. rewrite kt; [exact W|lia|tauto].
    + rewrite New, !znd_app2 by lia. rewrite l4, Z.sub_diag. cbn [znd nth Z.to_nat]. split; [lia|]. rewrite Ex. exact V.
  - assumption.
  - intros i j Hi Hj. destruct (Cs i Hi) as [Hi'| ->]; destruct (Cs j Hj) as [Hj'| ->]; rewrite ?New, ?Old by assumption.
    + apply pi; assumption.
    + destruct (rp i Hi'). lia.
    + destruct (rp j Hj'). lia.
    + reflexivity.
Qed.

(** what a read of a Fourier buffer gives *)
Lemma zn_readl op x p i : 0 <= i < NF -> zn (readl R twi h op x p) i = op (zn p i) (zn (Fto x) i).
Proof. intro Hi. unfold readl. rewrite zn_tab by exact Hi. reflexivity. Qed.
Lemma cent_31 x : Z.abs (centered x) <= two31.
Proof. pose proof (centered_range x). unfold two31 in *. lia. Qed.
Lemma pvar_read op x p Q : (forall a b, tok b -> tok (op a b)) ->
  match Q with None => True | Some Q => good -> forall i, 0 <= i < NF -> op (zn p i) (zn (Fto x) i) = Q i end ->
  pvar two31 Q (readl R twi h op x p).
Proof.
  intros Ho V. split; [apply readl_tok; assumption|]. split; [intros; apply cent_31|].
  destruct Q as [Q|]; [|exact I]. intros g i Hi. rewrite zn_readl by assumption. apply V; assumption.
Qed.
Lemma read_ok b P x : fvar b (Some P) x -> bread C b = Ok tt -> good -> forall i, 0 <= i < NF -> zn (Fto x) i = P i mod two32.
Proof.
  intros [L V] Hb g i Hi. destruct (V g) as (b' & -> & Fr). cbn [bread] in Hb. destruct (c_read C b') eqn:E; [|discriminate].
  apply (s_read (Snd g) b'); assumption.
Qed.
Lemma tok_set a b : tok b -> tok (op_set a b). Proof. intro; assumption. Qed.
Lemma tok_add' a b : tok b -> tok (tadd a b). Proof. intros _. apply tok_w32. Qed.
Lemma tok_sub' a b : tok b -> tok (tsub a b). Proof. intros _. apply tok_w32. Qed.
(** reading the buffer gives the polynomial *)
Definition readable (X : option poly) (x : list A) : Prop :=
  match X with None => True | Some P => good -> forall i, 0 <= i < NF -> zn (Fto x) i = P i mod two32 end.
Lemma fvar_readable b X x : fvar b X x -> bread C b = Ok tt -> readable X x.
Proof. intros V Hb. destruct X as [P|]; [|exact I]. intro g. exact (read_ok b P x V Hb g). Qed.
Lemma pset_read X x p : readable X x -> pvar two31 (om1 preduce X) (readl R twi h op_set x p).
Proof.
  intros V. apply pvar_read; [exact tok_set|]. destruct X as [P|]; [|exact I]. intros g i Hi. apply (V g i Hi).
Qed.
Lemma padd_read D X Y x p : readable X x -> pvar D Y p -> pvar two31 (om2 (fun x y => preduce (padd y x)) X Y) (readl R twi h tadd x p).
Proof.
  intros V (_ & _ & W). apply pvar_read; [exact tok_add'|]. destruct X as [P|]; [|exact I]. destruct Y as [Q|]; [|exact I].
  intros g i Hi. rewrite (V g i Hi), (W g i Hi). unfold tadd, preduce, padd, w32. apply Zplus_mod_idemp_r.
Qed.
Lemma psub_read D X Y x p : readable X x -> pvar D Y p -> pvar two31 (om2 (fun x y => preduce (psub y x)) X Y) (readl R twi h tsub x p).
Proof.
  intros V (_ & _ & W). apply pvar_read; [exact tok_sub'|]. destruct X as [P|]; [|exact I]. destruct Y as [Q|]; [|exact I].
  intros g i Hi. rewrite (V g i Hi), (W g i Hi). unfold tsub, preduce, psub, w32. apply Zminus_mod_idemp_r.
Qed.

(** a Poly put in Fourier form *)
Lemma fvar_of D X p b : pvar D X p -> pay C (c_of C D) = Ok b -> fvar b (om1 psigned X) (ofl p).
Proof.
  intros (Hp & Hb & W) E. split; [apply zlen_of; assumption|]. destruct X as [P|]; [|exact I]. intro g. unfold pay in E.
  destruct (c_of C D) as [b'|] eqn:Eb; [|discriminate]. injection E as <-. exists b'. split; [reflexivity|].
  apply (s_ext (Snd g) b' (psigned (zn p))); [intros i Hi; unfold psigned; rewrite (W g i Hi); reflexivity|].
  apply (s_of (Snd g) D); assumption.
Qed.
(** the product of two Poly *)
Lemma prod_readable D1 D2 X Y p q : pvar D1 X p -> pvar D2 Y q -> bprod C D1 D2 = Ok tt ->
  readable (om2 (fun a b => negacyclic NF (psigned a) (psigned b)) X Y) (prodl R tw h p q).
Proof.
  intros (Hp & Bp & V1) (Hq & Bq & V2) E. unfold bprod in E. destruct (c_prod C D1 D2) eqn:Ec; [|discriminate].
  destruct X as [P|]; [|exact I]. destruct Y as [Q|]; [|exact I]. intros g i Hi.
  rewrite (s_prod (Snd g) D1 D2 p q Ec Hp Hq Bp Bq i Hi). f_equal. apply neg_ext_args; [assumption| |]; intros j Hj; unfold psigned; [rewrite (V1 g j Hj)|rewrite (V2 g j Hj)]; reflexivity.
Qed.

(** operations on Fourier variables *)
Lemma pay_inv x b : pay C x = Ok b -> exists b', x = Some b' /\ b = Some b'.
Proof. unfold pay. destruct x as [b'|]; [|discriminate]. intros [= <-]. exists b'. split; reflexivity. Qed.
Lemma fvar_1 (f : CB C -> option (CB C)) (pf : poly -> poly) (g : list A -> list A -> list A -> list A) a c X x y o :
  (good -> forall a b P, f a = Some b -> frel a P x -> frel b (pf P) (g x y o)) -> zlen (g x y o) = NF ->
  fvar a X x -> bo1 C f a = Ok c -> fvar c (om1 pf X) (g x y o).
Proof.
  intros G L [_ V] E. split; [exact L|]. destruct X as [P|]; [|exact I]. intro gd. destruct (V gd) as (a' & -> & Fr).
  cbn [bo1] in E. apply pay_inv in E. destruct E as (c' & E & ->). exists c'. split; [reflexivity|]. apply (G gd a'); assumption.
Qed.
Lemma fvar_2 (f : CB C -> CB C -> option (CB C)) (pf : poly -> poly -> poly) (z : list A) a b c X Y x y :
  (good -> forall a b c P Q, f a b = Some c -> frel a P x -> frel b Q y -> frel c (pf P Q) z) -> zlen z = NF ->
  fvar a X x -> fvar b Y y -> bo2 C f a b = Ok c -> fvar c (om2 pf X Y) z.
Proof.
  intros G L [_ V] [_ W] E. split; [exact L|]. destruct X as [P|]; [|exact I]. destruct Y as [Q|]; [|exact I]. intro gd.
  destruct (V gd) as (a' & -> & Fr). destruct (W gd) as (b' & -> & Fr').
  cbn [bo2] in E. apply pay_inv in E. destruct E as (c' & E & ->). exists c'. split; [reflexivity|]. apply (G gd a' b'); assumption.
Qed.
Lemma fvar_3 (f : CB C -> CB C -> CB C -> option (CB C)) (pf : poly -> poly -> poly -> poly) (z : list A) a b g c X Y T x y o :
  (good -> forall a b g c P Q T, f a b g = Some c -> frel a P x -> frel b Q y -> frel g T o -> frel c (pf P Q T) z) -> zlen z = NF ->
  fvar a X x -> fvar b Y y -> fvar g T o -> bo3 C f a b g = Ok c -> fvar c (om3 pf X Y T) z.
Proof.
  intros G L [_ V] [_ W] [_ U] E. split; [exact L|]. destruct X as [P|]; [|exact I]. destruct Y as [Q|]; [|exact I]. destruct T as [T|]; [|exact I]. intro gd.
  destruct (V gd) as (a' & -> & Fr). destruct (W gd) as (b' & -> & Fr'). destruct (U gd) as (g' & -> & Fr'').
  cbn [bo3] in E. apply pay_inv in E. destruct E as (c' & E & ->). exists c'. split; [reflexivity|]. apply (G gd a' b' g'); assumption.
Qed.

(** one call *)
Ltac inv1 H := apply bind_inv in H; destruct H as (? & ? & H).
Ltac gF Rl a E := apply (get_inv None) in E; destruct E as [? ->];
  rewrite (get_ok 0 _ a) by (destruct (r_lf _ _ _ Rl); cbn [fst snd] in *; lia); cbn [bind].
Ltac gP Rl a E := apply (get_inv None) in E; destruct E as [? ->];
  rewrite (get_ok 0 _ a) by (destruct (r_lp _ _ _ Rl); cbn [fst snd] in *; lia); cbn [bind].
Ltac bF Rl E := apply (get_inv None) in E; destruct E as [_ ->].
Ltac bP Rl E := apply (get_inv 0) in E; destruct E as [_ ->].
Lemma rf' F P BF BP m fs ps j : rel (F, P) (BF, BP) (m, fs, ps) -> 0 <= j < zlen F ->
  fpInv < znd 0 fs j < fnext m /\ fvar (znd None BF j) (znd None F j) (fm m (znd 0 fs j)) /\ zlen (fm m (znd 0 fs j)) = NF.
Proof. intros Rl Hj. destruct (r_f _ _ _ Rl j Hj) as [L V]. split; [exact L|]. split; [exact V|exact (proj1 V)]. Qed.
Lemma rp' F P BF BP m fs ps j : rel (F, P) (BF, BP) (m, fs, ps) -> 0 <= j < zlen P ->
  znd 0 ps j < tnext m /\ pvar (znd 0 BP j) (znd None P j) (tm m (znd 0 ps j)) /\ zlen (tm m (znd 0 ps j)) = NF.
Proof. intros Rl Hj. destruct (r_p _ _ _ Rl j Hj) as [L V]. split; [exact L|]. split; [exact V|exact (proj1 (proj1 V))]. Qed.
Lemma assign_f F P BF BP m fs ps o r z Q b : rel (F, P) (BF, BP) (m, fs, ps) -> 0 <= o < zlen F ->
  (exists m', r = Ok m' /\ kept (eq (znd 0 fs o)) none m m' /\ fm m' (znd 0 fs o) = z) -> fvar b Q z ->
  exists w', keep R fs ps r = Ok w' /\ rel (upd F o Q, P) (upd BF o b, BP) w'.
Proof.
  intros Rl Ho (m' & -> & K & E) V. unfold keep. cbn [bind]. eexists; split; [reflexivity|].
  apply (set_f _ _ _ _ m); try assumption. rewrite E. exact V.
Qed.
Lemma assign_p F P BF BP m fs ps o r z Q D : rel (F, P) (BF, BP) (m, fs, ps) -> 0 <= o < zlen P ->
  (exists m', r = Ok m' /\ kept none (eq (znd 0 ps o)) m m' /\ tm m' (znd 0 ps o) = z) -> pvar D Q z ->
  exists w', keep R fs ps r = Ok w' /\ rel (F, upd P o Q) (BF, upd BP o D) w'.
Proof.
  intros Rl Ho (m' & -> & K & E) V. unfold keep. cbn [bind]. eexists; split; [reflexivity|].
  apply (set_p _ _ _ _ m); try assumption. rewrite E. exact V.
Qed.
Lemma drop_len g act a b o m : combines R e h g act -> zlen (fm m a) = NF -> zlen (fm m b) = NF -> zlen (fm m o) = NF ->
  exists m', act a b o m = Ok m' /\ kept (eq o) none m m' /\ fm m' o = g (fm m a) (fm m b) (fm m o).
Proof. intros G La Lb Lo. destruct (G a b o m La Lb Lo) as (m' & E & K & V & _). exists m'. split; [|split]; assumption. Qed.

Lemma kept_tset m p v : kept none (eq p) m (tset m p v).
Proof. apply kept_framed; try assumption; [apply framed_tset; reflexivity|intros []|right; intros []]. Qed.
Lemma pvar_zero : pvar 0 (Some pzero) (repeat 0 (Z.to_nat NF)).
Proof.
  assert (Z0: forall i, 0 <= i < NF -> zn (repeat 0 (Z.to_nat NF)) i = 0) by (intros i Hi; apply znd_repeat; lia).
  split; [split; [rewrite zlen_repeat; lia|]|split].
  - unfold tok_list. apply Forall_forall. intros x Hx. apply repeat_spec in Hx. subst x. unfold tok, two32. lia.
  - intros i Hi. rewrite Z0 by assumption. cbn. lia.
  - intros _ i Hi. apply Z0. assumption.
Qed.
Lemma fvar_zero : fvar (Some (c_zero C)) (Some pzero) (repeat d (Z.to_nat NF)).
Proof. split; [rewrite zlen_repeat; lia|]. intro g. exists (c_zero C). split; [reflexivity|]. apply (s_zero (Snd g)). Qed.
Lemma Poly_Clear_ok p : zlen p = NF -> Poly_Clear p = Ok (repeat 0 (Z.to_nat NF)).
Proof.
  intro Hp. unfold Poly_Clear. rewrite Hp.
  destruct (for_range_inv (fun j q => zlen q = NF /\ forall i, 0 <= i < j -> znd 0 q i = 0) 0 NF (fun i p => set p i 0) p) as (q & E & L & V).
  - lia. - split; [assumption|intros; lia].
  - intros j q Hj [L V]. rewrite set_ok by lia. eexists; split; [reflexivity|]. split; [rewrite zlen_upd; assumption|].
    intros i Hi. rewrite znd_upd by lia. destruct (Z.eqb_spec i j); [reflexivity|apply V; lia].
  - rewrite E. f_equal. rewrite repeat_tab by lia. apply (eq_tab 0); [assumption|]. intros i Hi. apply V. lia.
Qed.

Theorem step N c V Bs w V' Bs' : N = NF -> rel V Bs w -> mean1 N c V = Ok V' -> budget1 C c Bs = Ok Bs' ->
  exists w', exec1 R tw twi e c w = Ok w' /\ rel V' Bs' w'.
Proof.
  destruct V as [F P], Bs as [BF BP], w as [[m fs] ps]. intros EN Rl Hm Hb.
  pose proof (r_inv _ _ _ Rl) as RI. pose proof (r_nx _ _ _ Rl) as RN. cbn [fst snd] in RI, RN.
  pose proof (r_lf _ _ _ Rl) as [LF1 LF2]. pose proof (r_lp _ _ _ Rl) as [LP1 LP2]. cbn [fst snd] in LF1, LF2, LP1, LP2.
  assert (GF: forall a x, get F a = Ok x -> 0 <= a < zlen F /\ x = znd None F a /\ get fs a = Ok (znd 0 fs a) /\ get BF a = Ok (znd None BF a)).
  { intros a x E. apply (get_inv None) in E. destruct E as [Ha ->]. split; [assumption|]. split; [reflexivity|]. split; apply get_ok; lia. }
  assert (GP: forall a x, get P a = Ok x -> 0 <= a < zlen P /\ x = znd None P a /\ get ps a = Ok (znd 0 ps a) /\ get BP a = Ok (znd 0 BP a)).
  { intros a x E. apply (get_inv None) in E. destruct E as [Ha ->]. split; [assumption|]. split; [reflexivity|]. split; apply get_ok; lia. }
  assert (SF: forall o (b : B) L, set BF o b = Ok L -> L = upd BF o b) by (intros o b L E; apply set_inv in E; tauto).
  assert (SP: forall o (D : Z) L, set BP o D = Ok L -> L = upd BP o D) by (intros o b L E; apply set_inv in E; tauto).
  assert (SF': forall o (b : option poly) L, set F o b = Ok L -> L = upd F o b) by (intros o b L E; apply set_inv in E; tauto).
  assert (SP': forall o (b : option poly) L, set P o b = Ok L -> L = upd P o b) by (intros o b L E; apply set_inv in E; tauto).
  assert (Rf: forall j, 0 <= j < zlen F -> fpInv < znd 0 fs j < fnext m /\ fvar (znd None BF j) (znd None F j) (fm m (znd 0 fs j)) /\ zlen (fm m (znd 0 fs j)) = NF)
    by (intros; eapply rf'; eassumption).
  assert (Rp: forall j, 0 <= j < zlen P -> znd 0 ps j < tnext m /\ pvar (znd 0 BP j) (znd None P j) (tm m (znd 0 ps j)) /\ zlen (tm m (znd 0 ps j)) = NF)
    by (intros; eapply rp'; eassumption).
  destruct c; cbn [mean1 budget1 exec1] in Hm, Hb |- *;
  repeat match goal with
  | E : (x <- get F ?a ;; _) = Ok _ |- _ => let G := fresh "G" in let Ha := fresh "Ha" in
      apply bind_inv in E; destruct E as (? & G & E); apply GF in G; destruct G as (Ha & -> & ? & ?); destruct (Rf _ Ha) as (? & ? & ?)
  | E : (x <- get P ?a ;; _) = Ok _ |- _ => let G := fresh "G" in let Ha := fresh "Ha" in
      apply bind_inv in E; destruct E as (? & G & E); apply GP in G; destruct G as (Ha & -> & ? & ?); destruct (Rp _ Ha) as (? & ? & ?)
  | E : (x <- set F _ _ ;; _) = Ok _ |- _ => let G := fresh "G" in let L := fresh "L" in apply bind_inv in E; destruct E as (L & G & E); apply SF' in G; subst L
  | E : (x <- set P _ _ ;; _) = Ok _ |- _ => let G := fresh "G" in let L := fresh "L" in apply bind_inv in E; destruct E as (L & G & E); apply SP' in G; subst L
  | E : (x <- set BF _ _ ;; _) = Ok _ |- _ => let G := fresh "G" in let L := fresh "L" in apply bind_inv in E; destruct E as (L & G & E); apply SF in G; subst L
  | E : (x <- set BP _ _ ;; _) = Ok _ |- _ => let G := fresh "G" in let L := fresh "L" in apply bind_inv in E; destruct E as (L & G & E); apply SP in G; subst L
  | E : Ok _ = Ok _ |- _ => injection E as <-
  | E : get ?l ?a = Ok _, E' : (x <- get ?l ?a ;; _) = Ok _ |- _ => rewrite E in E'; cbn [bind] in E'
  | E : get ?l ?a = Ok _ |- context [get ?l ?a] => rewrite E; cbn [bind]
  | E : (bread _ ?b ;;; _) = Ok _ |- _ => let G := fresh "Br" in apply bind_inv in E; destruct E as ([] & G & E)
  | E : (bprod _ _ _ ;;; _) = Ok _ |- _ => let G := fresh "Bp" in apply bind_inv in E; destruct E as ([] & G & E)
  | E : (x <- pay _ _ ;; _) = Ok _ |- _ => let G := fresh "Pay" in apply bind_inv in E; destruct E as (? & G & E)
  | E : (x <- bo1 _ _ _ ;; _) = Ok _ |- _ => let G := fresh "Pay" in apply bind_inv in E; destruct E as (? & G & E)
  | E : (x <- bo2 _ _ _ _ ;; _) = Ok _ |- _ => let G := fresh "Pay" in apply bind_inv in E; destruct E as (? & G & E)
  | E : (x <- bo3 _ _ _ _ _ ;; _) = Ok _ |- _ => let G := fresh "Pay" in apply bind_inv in E; destruct E as (? & G & E)
  end.
  all: try subst N.
  - eapply new_p; [eassumption|apply NewPoly_fresh; assumption|apply pvar_zero].
  - eapply new_f; [eassumption|apply NewFourier_fresh; assumption|apply fvar_zero].
  - destruct ((0 <=? i) && (i <? NF) && (0 <=? v) && (v <? two32)) eqn:Rg; [|discriminate].
    apply bind_inv in Hm. destruct Hm as (x & G & E). apply GP in G. destruct G as (Ha & -> & G1 & G2). destruct (Rp _ Ha) as (Lp & Vp & Zp).
    apply bind_inv in E. destruct E as (L & G & E). apply SP' in G. subst L. injection E as <-.
    rewrite G2 in Hb. cbn [bind] in Hb. apply bind_inv in Hb. destruct Hb as (L & G & E). apply SP in G. subst L. injection E as <-.
    rewrite G1. cbn [bind].
    eapply assign_p; [eassumption|exact Ha| |].
    + rewrite store_ok by lia. eexists. split; [reflexivity|]. split; [apply kept_tset|apply tm_tset].
    + destruct Vp as ([L1 L2] & Bd & W).
      assert (Vi: forall j, 0 <= j < NF -> zn (upd (tm m (znd 0 ps p)) i v) j = if j =? i then v else zn (tm m (znd 0 ps p)) j).
      { intros j Hj. apply (znd_upd 0); lia. }
      split; [split; [rewrite zlen_upd; exact L1|]|split].
      * unfold tok_list in *. rewrite (Forall_znd _ 0) in *. intros j Hj. rewrite zlen_upd in Hj. rewrite znd_upd by lia.
        destruct (j =? i); [unfold tok; lia|apply L2; lia].
      * intros j Hj. rewrite Vi by assumption. destruct (j =? i); [lia|]. specialize (Bd j Hj). lia.
      * destruct (znd None P p) as [Q|]; [|exact I]. cbn [om1]. intros g j Hj. rewrite Vi by assumption. unfold pwrite.
        destruct (j =? i); [reflexivity|]. apply W; assumption.
  - eapply new_p; [eassumption| |eassumption]. unfold Poly_Copy_at, Poly_Copy. rewrite make_ok by lia. cbn [bind].
    rewrite copy_slice_same_len by (rewrite zlen_repeat; lia). apply newts; assumption.
  - eapply assign_p; [eassumption|assumption| |apply pvar_zero]. unfold Poly_Clear_at. rewrite Poly_Clear_ok by assumption. cbn [bind].
    eexists. split; [reflexivity|]. split; [apply kept_tset|apply tm_tset].
  - eapply new_f; [eassumption| |eassumption]. unfold FourierPoly_Copy. rewrite make_ok by lia. cbn [bind].
    rewrite copy_slice_same_len by (rewrite zlen_repeat; lia). apply newfs; assumption.
  - eapply assign_f; [eassumption|assumption| |eassumption]. apply CopyFrom_ok; assumption.
  - eapply assign_f; [eassumption|assumption| |apply fvar_zero]. unfold FourierPoly_Clear_at. rewrite (Clear_ok R HF) by assumption. cbn [bind].
    eexists. split; [reflexivity|]. split; [|apply fm_fset]. apply kept_out; try assumption; [apply framed_fset; reflexivity|].
    rewrite fm_fset, zlen_repeat. lia.
  - eapply new_f; [eassumption|apply ToFourier_ok; assumption|]. eapply fvar_of; eassumption.
  - eapply assign_f; [eassumption|assumption| |eapply fvar_of; eassumption].
    match goal with |- exists m', ToFourierPolyAssign_at R tw ?a ?b m = _ /\ _ => destruct (ToFourierAssign_ok R tw e h Hh HH H4 Lt a b m) as (m' & E1 & K & V1 & _); try assumption end.
    exists m'. split; [exact E1|]. split; [exact K|exact V1].
  - eapply new_p; [eassumption|apply ToPoly_ok; try assumption; lia|]. eapply pset_read; eapply fvar_readable; eassumption.
  - eapply assign_p; [eassumption|assumption|apply ToPolyAssign_ok; assumption|]. eapply pset_read; eapply fvar_readable; eassumption.
  - destruct (inPlace_ok R twi e h Hh op_set (toPoly R twi) (znd 0 fs a) (znd 0 ps p) m) as (m' & E1 & K & L1 & V1);
      [apply toPoly_reads; assumption|assumption|assumption|].
    unfold ToPolyAssignUnsafe_at. rewrite E1. unfold keep. cbn [bind]. eexists. split; [reflexivity|].
    eapply take_fp; try eassumption. rewrite V1. eapply pset_read; eapply fvar_readable; eassumption.
  - destruct (inPlace_ok R twi e h Hh tadd (toPolyAdd R twi) (znd 0 fs a) (znd 0 ps p) m) as (m' & E1 & K & L1 & V1);
      [apply toPolyAdd_reads; assumption|assumption|assumption|].
    unfold ToPolyAddAssignUnsafe_at. rewrite E1. unfold keep. cbn [bind]. eexists. split; [reflexivity|].
    eapply take_fp; try eassumption. rewrite V1. eapply padd_read; [eapply fvar_readable; eassumption|eassumption].
  - destruct (inPlace_ok R twi e h Hh tsub (toPolySub R twi) (znd 0 fs a) (znd 0 ps p) m) as (m' & E1 & K & L1 & V1);
      [apply toPolySub_reads; assumption|assumption|assumption|].
    unfold ToPolySubAssignUnsafe_at. rewrite E1. unfold keep. cbn [bind]. eexists. split; [reflexivity|].
    eapply take_fp; try eassumption. rewrite V1. eapply psub_read; [eapply fvar_readable; eassumption|eassumption].
  - eapply new_f; [eassumption|unfold AddFourierPoly; apply then_assign; try assumption; try lia; apply lanes_combine; assumption|].
    eapply fvar_2; [|apply zlen_elw; assumption|eassumption|eassumption|eassumption]. intro g. intros. eapply (s_add (Snd g)); eassumption.
  - eapply assign_f; [eassumption|assumption|apply drop_len; try assumption; apply lanes_combine; assumption|].
    eapply fvar_2; [|apply zlen_elw; assumption|eassumption|eassumption|eassumption]. intro g. intros. eapply (s_add (Snd g)); eassumption.
  - eapply new_f; [eassumption|unfold SubFourierPoly; apply then_assign; try assumption; try lia; apply lanes_combine; assumption|].
    eapply fvar_2; [|apply zlen_elw; assumption|eassumption|eassumption|eassumption]. intro g. intros. eapply (s_sub (Snd g)); eassumption.
  - eapply assign_f; [eassumption|assumption|apply drop_len; try assumption; apply lanes_combine; assumption|].
    eapply fvar_2; [|apply zlen_elw; assumption|eassumption|eassumption|eassumption]. intro g. intros. eapply (s_sub (Snd g)); eassumption.
  - eapply new_f; [eassumption|unfold MulFourierPoly; apply then_assign; try assumption; try lia; apply pairs_combine; assumption|].
    eapply fvar_2; [|apply zlen_elw; assumption|eassumption|eassumption|eassumption]. intro g. intros. eapply (s_mul (Snd g)); eassumption.
  - eapply assign_f; [eassumption|assumption|apply drop_len; try assumption; apply pairs_combine; assumption|].
    eapply fvar_2; [|apply zlen_elw; assumption|eassumption|eassumption|eassumption]. intro g. intros. eapply (s_mul (Snd g)); eassumption.
  - eapply assign_f; [eassumption|assumption|apply drop_len; try assumption; apply pairs_combine; assumption|].
    eapply fvar_3; [|apply zlen_elw; assumption|eassumption|eassumption|eassumption|eassumption]. intro g. intros. eapply (s_ma (Snd g)); eassumption.
  - eapply assign_f; [eassumption|assumption|apply drop_len; try assumption; apply pairs_combine; assumption|].
    eapply fvar_3; [|apply zlen_elw; assumption|eassumption|eassumption|eassumption|eassumption]. intro g. intros. eapply (s_ms (Snd g)); eassumption.
  - eapply assign_f; [eassumption|assumption|unfold FloatMulFourierPolyAssign; apply drop_len; try assumption; apply lanes_combine; assumption|].
    eapply fvar_1; [|apply zlen_elw; assumption|eassumption|eassumption]. intro g. intros. eapply (s_scale (Snd g)); eassumption.
  - eapply assign_f; [eassumption|assumption|unfold FloatMulAddFourierPolyAssign; apply drop_len; try assumption; apply lanes_combine; assumption|].
    eapply (fvar_2 (c_scadd C c)); [|apply zlen_elw; assumption|eassumption|eassumption|eassumption]. intro g. intros. eapply (s_scadd (Snd g)); eassumption.
  - match goal with Bp : bprod _ ?D1 ?D2 = _, V1 : pvar ?D1 _ ?l1, V2 : pvar ?D2 _ ?l2 |- _ => pose proof (prod_readable D1 D2 _ _ l1 l2 V1 V2 Bp) as Vb end.
    pose proof (NewPoly_fresh R e h Hh H4 Hd m) as (l & m1 & E1 & Hl & K1 & V1).
    eapply (new_p F P BF BP m fs ps _ (readl R twi h op_set (prodl R tw h (tm m (znd 0 ps p)) (tm m (znd 0 ps q))) (repeat 0 (Z.to_nat NF)))); [eassumption| |].
    + unfold MulPoly_at. rewrite E1. cbn [bind]. unfold MulPolyAssign, ToPolyAssignUnsafe_at.
      pose proof (k_fn _ _ _ _ _ _ _ K1). pose proof (k_tn _ _ _ _ _ _ _ K1).
      assert (Tp: tm m1 (znd 0 ps p) = tm m (znd 0 ps p)) by (apply (k_t _ _ _ _ _ _ _ K1); [assumption|intros []]).
      assert (Tq: tm m1 (znd 0 ps q) = tm m (znd 0 ps q)) by (apply (k_t _ _ _ _ _ _ _ K1); [assumption|intros []]).
      destruct (mulPolyWith_ok R tw twi e h Hh HH H4 Lt Hd op_set (toPoly R twi) (znd 0 ps p) (znd 0 ps q) l m1) as (m2 & E2 & K2 & V2);
        [apply toPoly_reads; assumption|lia|lia|lia|lia|congruence|congruence|rewrite V1, zlen_repeat; lia|].
      rewrite E2. cbn [bind]. exists l, m2. split; [reflexivity|]. pose proof (k_tn _ _ _ _ _ _ _ K2). split; [lia|]. split.
      * eapply kept_trans; [exact Hh|exact K1|exact K2| |]; intros y Hy [[]|X]; [destruct X|lia].
      * rewrite V2, Tp, Tq, V1. reflexivity.
    + replace (om2 (fun x y => preduce (negacyclic NF (psigned x) (psigned y))) (znd None P p) (znd None P q))
        with (om1 preduce (om2 (fun a b => negacyclic NF (psigned a) (psigned b)) (znd None P p) (znd None P q)))
        by (destruct (znd None P p); [destruct (znd None P q)|]; reflexivity).
      eapply pset_read; eassumption.
  - match goal with Bp : bprod _ ?D1 ?D2 = _, V1 : pvar ?D1 _ ?l1, V2 : pvar ?D2 _ ?l2 |- _ => pose proof (prod_readable D1 D2 _ _ l1 l2 V1 V2 Bp) as Vb end.
    eapply assign_p; [eassumption|assumption|unfold MulPolyAssign, ToPolyAssignUnsafe_at; apply mulPolyWith_ok; try assumption; apply toPoly_reads; assumption|].
    replace (om2 (fun x y => preduce (negacyclic NF (psigned x) (psigned y))) (znd None P p) (znd None P q))
        with (om1 preduce (om2 (fun a b => negacyclic NF (psigned a) (psigned b)) (znd None P p) (znd None P q)))
        by (destruct (znd None P p); [destruct (znd None P q)|]; reflexivity).
    eapply pset_read; eassumption.
  - match goal with Bp : bprod _ (znd 0 BP p) (znd 0 BP q) = _, V1 : pvar (znd 0 BP p) _ ?l1, V2 : pvar (znd 0 BP q) _ ?l2 |- _ => pose proof (prod_readable _ _ _ _ l1 l2 V1 V2 Bp) as Vb end.
    eapply assign_p; [eassumption|assumption|unfold MulAddPolyAssign, ToPolyAddAssignUnsafe_at; apply mulPolyWith_ok; try assumption; apply toPolyAdd_reads; assumption|].
    replace (om3 (fun x y z => preduce (padd z (negacyclic NF (psigned x) (psigned y)))) (znd None P p) (znd None P q) (znd None P o))
        with (om2 (fun x y => preduce (padd y x)) (om2 (fun a b => negacyclic NF (psigned a) (psigned b)) (znd None P p) (znd None P q)) (znd None P o))
        by (destruct (znd None P p); [destruct (znd None P q); [destruct (znd None P o)|]|]; reflexivity).
    eapply padd_read; eassumption.
  - match goal with Bp : bprod _ (znd 0 BP p) (znd 0 BP q) = _, V1 : pvar (znd 0 BP p) _ ?l1, V2 : pvar (znd 0 BP q) _ ?l2 |- _ => pose proof (prod_readable _ _ _ _ l1 l2 V1 V2 Bp) as Vb end.
    eapply assign_p; [eassumption|assumption|unfold MulSubPolyAssign, ToPolySubAssignUnsafe_at; apply mulPolyWith_ok; try assumption; apply toPolySub_reads; assumption|].
    replace (om3 (fun x y z => preduce (psub z (negacyclic NF (psigned x) (psigned y)))) (znd None P p) (znd None P q) (znd None P o))
        with (om2 (fun x y => preduce (psub y x)) (om2 (fun a b => negacyclic NF (psigned a) (psigned b)) (znd None P p) (znd None P q)) (znd None P o))
        by (destruct (znd None P p); [destruct (znd None P q); [destruct (znd None P o)|]|]; reflexivity).
    eapply psub_read; eassumption.
Qed.

Theorem steps N cs : N = NF -> forall V Bs w V' Bs', rel V Bs w -> mean N cs V = Ok V' -> budget C cs Bs = Ok Bs' ->
  exists w', exec R tw twi e cs w = Ok w' /\ rel V' Bs' w'.
Proof.
  intro EN. induction cs as [|c cs IH]; intros V Bs w V' Bs' Rl Hm Hb; cbn [mean budget exec] in *.
  - injection Hm as <-. injection Hb as <-. exists w. split; [reflexivity|exact Rl].
  - apply bind_inv in Hm. destruct Hm as (V1 & E1 & Hm). apply bind_inv in Hb. destruct Hb as (B1 & E2 & Hb).
    destruct (step N c V Bs w V1 B1 EN Rl E1 E2) as (w1 & E3 & R1). rewrite E3. cbn [bind]. eapply IH; eassumption.
Qed.
End Rel.

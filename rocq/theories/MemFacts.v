(** * Lemmas about the memory and loops that write it *)
From Coq Require Import Lia ZifyBool Setoid Morphisms.
From Verif Require Import GoBase GoFacts GoMem Tlwe TlweMem TlweFacts.
Local Open Scope Z_scope.
Ltac Zify.zify_post_hook ::= Z.div_mod_to_equations.

Section Mem.
Context {F : Type}.
Implicit Types m : mem F.

(** [m'] differs from [m] at most at the torus locations in [T], the Fourier
    locations in [P] and the ints in [I]; the allocation frontier is the same *)
Record framed (T P I : Z -> Prop) (m m' : mem F) : Prop := {
  fr_t : forall l, ~ T l -> tm m' l = tm m l;
  fr_f : forall l, ~ P l -> fm m' l = fm m l;
  fr_i : forall l, ~ I l -> im m' l = im m l;
  fr_n : tnext m' = tnext m /\ fnext m' = fnext m /\ inext m' = inext m
}.

Definition none : Z -> Prop := fun _ => False.

Lemma framed_refl T P I m : framed T P I m m.
Proof. split; auto. Qed.
Lemma framed_trans T P I m1 m2 m3 : framed T P I m1 m2 -> framed T P I m2 m3 -> framed T P I m1 m3.
Proof.
  intros [a b c (d1 & d2 & d3)] [a' b' c' (d1' & d2' & d3')]. split.
  - intros; rewrite a', a; auto. - intros; rewrite b', b; auto. - intros; rewrite c', c; auto.
  - repeat split; congruence.
Qed.
Lemma framed_weaken (T P I T' P' I' : Z -> Prop) m m' : framed T P I m m' ->
  (forall l, T l -> T' l) -> (forall l, P l -> P' l) -> (forall l, I l -> I' l) -> framed T' P' I' m m'.
Proof. intros [a b c d] HT HP HI. split; auto; intros. Qed.

Lemma framed_tset (T P I : Z -> Prop) m l v : T l -> framed T P I m (tset m l v).
Proof.
  intro H. split; auto. intros x Hx. cbn [tset tm]. destruct (Z.eqb_spec x l); [subst; tauto|reflexivity].
Qed.
Lemma framed_fset (T P I : Z -> Prop) m l v : P l -> framed T P I m (fset m l v).
Proof.
  intro H. split; auto. intros x Hx. cbn [fset fm]. destruct (Z.eqb_spec x l); [subst; tauto|reflexivity].
Qed.
Lemma framed_iset (T P I : Z -> Prop) m l v : I l -> framed T P I m (iset m l v).
Proof.
  intro H. split; auto. intros x Hx. cbn [iset im]. destruct (Z.eqb_spec x l); [subst; tauto|reflexivity].
Qed.

Lemma tm_tset m l v : tm (tset m l v) l = v.
Proof. cbn. rewrite Z.eqb_refl. reflexivity. Qed.
Lemma tm_tset_ne m l v x : x <> l -> tm (tset m l v) x = tm m x.
Proof. intro. cbn. destruct (Z.eqb_spec x l); [contradiction|reflexivity]. Qed.
Lemma fm_fset m l v : fm (fset m l v) l = v.
Proof. cbn. rewrite Z.eqb_refl. reflexivity. Qed.
Lemma fm_fset_ne m l v x : x <> l -> fm (fset m l v) x = fm m x.
Proof. intro. cbn. destruct (Z.eqb_spec x l); [contradiction|reflexivity]. Qed.
Lemma im_iset m l v : im (iset m l v) l = v.
Proof. cbn. rewrite Z.eqb_refl. reflexivity. Qed.
Lemma im_iset_ne m l v x : x <> l -> im (iset m l v) x = im m x.
Proof. intro. cbn. destruct (Z.eqb_spec x l); [contradiction|reflexivity]. Qed.

Lemma load_ok m l i : 0 <= i < zlen (tm m l) -> load m l i = Ok (zn (tm m l) i).
Proof. intro. unfold load. apply get_zn. assumption. Qed.

Lemma store_ok m l i v : 0 <= i < zlen (tm m l) -> store m l i v = Ok (tset m l (upd (tm m l) i v)).
Proof. intro. unfold store. rewrite set_ok by assumption. reflexivity. Qed.

Lemma mcopy_same m dst src : zlen (tm m dst) = zlen (tm m src) ->
  tm (mcopy m dst src) dst = tm m src.
Proof. intro. unfold mcopy. rewrite tm_tset. apply copy_slice_same_len. assumption. Qed.
Lemma mcopy_frame m dst src (T P I : Z -> Prop) : T dst -> framed T P I m (mcopy m dst src).
Proof. intro. unfold mcopy. apply framed_tset. assumption. Qed.

(** [for i in lo..hi { out[idx i] = f i }], where [f] may read anything,
    including positions of [out] not written yet *)
Lemma mem_fill m out lo hi (f : Z -> mem F -> res Z) (g : Z -> Z) :
  0 <= lo <= hi -> hi <= zlen (tm m out) ->
  (forall i m', lo <= i < hi -> framed (eq out) none none m m' ->
     zlen (tm m' out) = zlen (tm m out) ->
     (forall j, i <= j < zlen (tm m out) -> zn (tm m' out) j = zn (tm m out) j) ->
     f i m' = Ok (g i)) ->
  exists m', for_range lo hi (fun i m => v <- f i m ;; store m out i v) m = Ok m' /\
    tm m' out = tab (zlen (tm m out)) (fun j => if (lo <=? j) && (j <? hi) then g j else zn (tm m out) j) /\
    framed (eq out) none none m m'.
Proof.
  intros Hlo Hhi Hf.
  destruct (for_range_inv (fun i m' => framed (eq out) none none m m' /\ zlen (tm m' out) = zlen (tm m out) /\
      forall j, 0 <= j < zlen (tm m out) ->
        zn (tm m' out) j = if (lo <=? j) && (j <? i) then g j else zn (tm m out) j)
    lo hi (fun i m => v <- f i m ;; store m out i v) m) as (m' & E & Hfr & Hl & Hz).
  - lia.
  - split; [apply framed_refl|]. split; [reflexivity|]. intros j Hj.
    destruct (Z.leb_spec lo j), (Z.ltb_spec j lo); cbn [andb]; lia || reflexivity.
  - intros i m1 Hi (Hfr & Hl & Hz). rewrite Hf; [cbn [bind]|assumption|assumption|assumption|].
    + rewrite store_ok by lia. eexists; split; [reflexivity|]. split; [|split].
      * eapply framed_trans; [exact Hfr|]. apply framed_tset. reflexivity.
      * rewrite tm_tset, zlen_upd. assumption.
      * intros j Hj. rewrite tm_tset, zn_upd by lia. rewrite Hz by assumption.
        destruct (Z.eqb_spec j i), (Z.leb_spec lo j), (Z.ltb_spec j i), (Z.ltb_spec j (i+1)); cbn [andb];
          subst; try lia; reflexivity.
    + intros j Hj. rewrite Hz by lia. destruct (Z.ltb_spec j i); [lia|]. rewrite andb_false_r. reflexivity.
  - exists m'. split; [exact E|]. split; [|exact Hfr]. apply (eq_tab 0); [assumption|exact Hz].
Qed.

Lemma mem_fill_all m out n (f : Z -> mem F -> res Z) (g : Z -> Z) :
  zlen (tm m out) = n ->
  (forall i m', 0 <= i < n -> framed (eq out) none none m m' ->
     zlen (tm m' out) = n ->
     (forall j, i <= j < n -> zn (tm m' out) j = zn (tm m out) j) ->
     f i m' = Ok (g i)) ->
  exists m', for_range 0 n (fun i m => v <- f i m ;; store m out i v) m = Ok m' /\
    tm m' out = tab n g /\ framed (eq out) none none m m'.
Proof.
  intros Hn Hf. pose proof (zlen_nonneg (tm m out)).
  destruct (mem_fill m out 0 n f g) as (m' & E & Ht & Hfr); [lia|lia|rewrite Hn; assumption|].
  exists m'. split; [exact E|]. split; [|exact Hfr]. rewrite Ht, Hn. apply tab_ext. intros i Hi.
  destruct (Z.leb_spec 0 i), (Z.ltb_spec i n); cbn [andb]; lia || reflexivity.
Qed.

(** ** allocation *)
Lemma alloc_spec m v : let '(l, m') := alloc m v in
  l = tnext m /\ tm m' l = v /\ (forall x, x <> l -> tm m' x = tm m x) /\
  (forall x, fm m' x = fm m x) /\ (forall x, im m' x = im m x) /\
  tnext m' = tnext m + 1 /\ fnext m' = fnext m /\ inext m' = inext m.
Proof.
  cbn. rewrite Z.eqb_refl. repeat split. intros x Hx. destruct (Z.eqb_spec x (tnext m)); [contradiction|reflexivity].
Qed.

(** ** AddAssign, any aliasing *)
Lemma AddAssign_ok m n t u out : 0 <= n ->
  zlen (tm m t) = n + 1 -> zlen (tm m u) = n + 1 -> zlen (tm m out) = n + 1 ->
  exists m', AddAssign m t u out = Ok m' /\
    tm m' out = tab (n + 1) (fun i => tadd (zn (tm m t) i) (zn (tm m u) i)) /\
    framed (eq out) none none m m'.
Proof.
  intros Hn Ht Hu Ho. unfold AddAssign. rewrite Ho.
  apply (mem_fill_all m out (n + 1) (fun i m => x <- load m t i ;; y <- load m u i ;; Ok (tadd x y))); [assumption|].
  intros i m' Hi Hfr Hl Hz.
  assert (R: forall x, zlen (tm m x) = n + 1 -> load m' x i = Ok (zn (tm m x) i)).
  { intros x Hx. destruct (Z.eq_dec out x) as [->|Hne].
    - rewrite load_ok by lia. rewrite Hz by lia. reflexivity.
    - unfold load. rewrite (fr_t _ _ _ _ _ Hfr) by assumption. apply get_zn. lia. }
  rewrite !R by assumption. reflexivity.
Qed.

Lemma AddAssign_phase m n s t u out : 0 <= n ->
  zlen (tm m t) = n + 1 -> zlen (tm m u) = n + 1 -> zlen (tm m out) = n + 1 ->
  exists m', AddAssign m t u out = Ok m' /\ lwe_ok n (tm m' out) /\
    lwe_phase n s (tm m' out) == lwe_phase n s (tm m t) + lwe_phase n s (tm m u) /\
    (forall l, l <> out -> tm m' l = tm m l).
Proof.
  intros Hn Ht Hu Ho. destruct (AddAssign_ok m n t u out Hn Ht Hu Ho) as (m' & E & Hv & Hfr).
  exists m'. split; [exact E|]. rewrite Hv.
  split; [split; [apply zlen_tab; lia|apply tok_tab; intros; apply tok_w32]|]. split.
  - rewrite (lwe_phase_lin n s (tm m t) (tm m u) _ 1 1)
      by (assumption || (intros; rewrite zn_tab by lia; rewrite tadd_eqm; apply eqm_refl'; ring)).
    apply eqm_refl'; ring.
  - intros l Hl. apply (fr_t _ _ _ _ _ Hfr). congruence.
Qed.

End Mem.

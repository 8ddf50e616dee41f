(** * Goroutines with separate buffers do not disturb each other

    [prel]: two copies of a program that use the same buffers up to a renaming
    of those they allocate. *)
From Coq Require Import Lia ZifyBool.
From Verif Require Import GoBase GoFacts GoMem Poly Conc ConcFacts.
Import ListNotations.
Local Open Scope Z_scope.
Ltac Zify.zify_post_hook ::= idtac.

Definition rel := Z -> Z -> Prop.
Definition sub (W W' : rel) : Prop := forall x y, W x y -> W' x y.
Lemma sub_refl W : sub W W. Proof. intros x y H. exact H. Qed.
Lemma sub_trans W1 W2 W3 : sub W1 W2 -> sub W2 W3 -> sub W1 W3. Proof. intros A B x y H. apply B, A, H. Qed.

Section Rel.
Context {O : fops} (Rd : rel) (Wf Wi : Z -> Prop).
Notation M := (mem (FP O)).
Definition acc (W : rel) : rel := fun x y => Rd x y \/ W x y.
Lemma acc_sub W W' x y : sub W W' -> acc W x y -> acc W' x y.
Proof. intros S [H|H]; [left; exact H|right; apply S, H]. Qed.

Inductive prel {A} (Q : rel -> A -> A -> Prop) : rel -> prog O A -> prog O A -> Prop :=
| pl_ret (W : rel) a b : Q W a b -> prel Q W (Ret a) (Ret b)
| pl_fail (W : rel) e : prel Q W (Fail e) (Fail e)
| pl_read (W : rel) x y k k' : acc W x y -> (forall l, prel Q W (k l) (k' l)) -> prel Q W (Read x k) (Read y k')
| pl_store (W : rel) x y i v k k' : W x y -> prel Q W k k' -> prel Q W (Store x i v k) (Store y i v k')
| pl_copy (W : rel) d d' s s' k k' : W d d' -> acc W s s' -> prel Q W k k' -> prel Q W (CopyTo d s k) (CopyTo d' s' k')
| pl_new (W : rel) v k k' : (forall x y W', sub W W' -> W' x y -> prel Q W' (k x) (k' y)) -> prel Q W (New v k) (New v k')
| pl_readi (W : rel) x k k' : Wi x -> (forall v, prel Q W (k v) (k' v)) -> prel Q W (ReadInt x k) (ReadInt x k')
| pl_seti (W : rel) x v k k' : Wi x -> prel Q W k k' -> prel Q W (SetInt x v k) (SetInt x v k')
| pl_clear (W : rel) f k k' : Wf f -> prel Q W k k' -> prel Q W (ClearF f k) (ClearF f k')
| pl_tof (W : rel) x y f k k' : acc W x y -> Wf f -> prel Q W k k' -> prel Q W (ToF x f k) (ToF y f k')
| pl_top (W : rel) f x y k k' : Wf f -> W x y -> prel Q W k k' -> prel Q W (ToP f x k) (ToP f y k')
| pl_muladd (W : rel) f v g k k' : Wf f -> Wf g -> prel Q W k k' -> prel Q W (MulAddF f v g k) (MulAddF f v g k').

Lemma prel_bind {A B} (Q : rel -> A -> A -> Prop) (Q' : rel -> B -> B -> Prop) W p q f g : prel Q W p q ->
  (forall W' a b, sub W W' -> Q W' a b -> prel Q' W' (f a) (g b)) -> prel Q' W (pbind p f) (pbind q g).
Proof.
  induction 1 as [W a b Hq|W e|W x y k k' Ha H IH|W x y i v k k' Hw H IH|W d d' s s' k k' Hd Hs H IH|W v k k' H IH|W x k k' Hx H IH|W x v k k' Hx H IH
    |W u k k' Hf H IH|W x y u k k' Ha Hf H IH|W u x y k k' Hf Hw H IH|W u v z k k' Hf Hg H IH]; intro HQ; cbn [pbind].
  - apply HQ; [apply sub_refl|exact Hq].
  - constructor.
  - constructor; [exact Ha|]. intro l. apply IH. exact HQ.
  - constructor; [exact Hw|]. apply IH. exact HQ.
  - constructor; [exact Hd|exact Hs|]. apply IH. exact HQ.
  - constructor. intros x y W' S Hxy. apply IH; [exact S|exact Hxy|]. intros W2 a b S2. apply HQ. eapply sub_trans; eassumption.
  - constructor; [exact Hx|]. intro v. apply IH. exact HQ.
  - constructor; [exact Hx|]. apply IH. exact HQ.
  - constructor; [exact Hf|]. apply IH. exact HQ.
  - constructor; [exact Ha|exact Hf|]. apply IH. exact HQ.
  - constructor; [exact Hf|exact Hw|]. apply IH. exact HQ.
  - constructor; [exact Hf|exact Hg|]. apply IH. exact HQ.
Qed.

Definition any {A} : rel -> A -> A -> Prop := fun _ _ _ => True.
Lemma prel_lift {A B} (Q' : rel -> B -> B -> Prop) W (r : res A) f g : (forall a, r = Ok a -> prel Q' W (f a) (g a)) -> prel Q' W (pbind (lift r) f) (pbind (lift r) g).
Proof. intro H. destruct r as [a|e]; cbn [lift pbind]; [apply H; reflexivity|constructor]. Qed.
Lemma prel_elem {B} (Q' : rel -> B -> B -> Prop) W x y i f g : acc W x y -> (forall v, prel Q' W (f v) (g v)) -> prel Q' W (pbind (elem x i) f) (pbind (elem y i) g).
Proof. intros Ha H. unfold elem. cbn [pbind]. constructor; [exact Ha|]. intro l. apply prel_lift. intros v _. apply H. Qed.
Lemma prel_seq {A B} (Q : rel -> A -> A -> Prop) (Q' : rel -> B -> B -> Prop) W p q f g : prel Q W p q ->
  (forall W', sub W W' -> prel Q' W' f g) -> prel Q' W (pbind p (fun _ => f)) (pbind q (fun _ => g)).
Proof. intros H H2. eapply prel_bind; [exact H|]. intros W' a b S _. apply H2. exact S. Qed.
Lemma prel_loop n : forall i W b b', (forall j W', i <= j < i + Z.of_nat n -> sub W W' -> prel any W' (b j) (b' j)) -> prel any W (ploop n i b) (ploop n i b').
Proof.
  induction n as [|n IH]; intros i W b b' H; cbn [ploop]; [constructor; exact I|].
  apply (prel_seq any); [apply H; [lia|apply sub_refl]|]. intros W' S. apply IH. intros j W2 Hj S2. apply H; [lia|eapply sub_trans; eassumption].
Qed.
Lemma prel_for lo hi W b b' : (forall j W', lo <= j < hi -> sub W W' -> prel any W' (b j) (b' j)) -> prel any W (pfor lo hi b) (pfor lo hi b').
Proof. intro H. apply prel_loop. intros j W' Hj S. apply H; [lia|exact S]. Qed.

(** ** one access *)
Record wf (W : rel) (m1 m2 : M) : Prop := {
  w_bij : forall x y x' y', acc W x y -> acc W x' y' -> (x = x' <-> y = y');
  w_lt : forall x y, acc W x y -> x < tnext m1 /\ y < tnext m2;
  w_t : forall x y, acc W x y -> tm m1 x = tm m2 y;
  w_f : forall f, Wf f -> fm m1 f = fm m2 f;
  w_i : forall i, Wi i -> im m1 i = im m2 i;
  w_n : tnext m1 <= tnext m2 /\ fnext m1 <= fnext m2 /\ inext m1 <= inext m2
}.
Record moved (W W' : rel) (m m' : M) : Prop := {
  mv_t : forall y, y < tnext m -> (forall x, ~ W x y) -> tm m' y = tm m y;
  mv_f : forall f, ~ Wf f -> fm m' f = fm m f;
  mv_i : forall i, ~ Wi i -> im m' i = im m i;
  mv_n : tnext m <= tnext m' /\ fnext m <= fnext m' /\ inext m <= inext m';
  mv_new : forall x y, W' x y -> W x y \/ tnext m <= y
}.

Lemma wf_tset W m1 m2 x y v : wf W m1 m2 -> W x y -> wf W (tset m1 x v) (tset m2 y v) /\ moved W W m2 (tset m2 y v).
Proof.
  intros [A B C D E N0] Hxy. split; constructor; cbn [tset tm fm im tnext fnext inext]; auto; try lia.
  - intros x' y' H. destruct (Z.eqb_spec x' x) as [->|N1]; destruct (Z.eqb_spec y' y) as [->|N2]; auto.
    + exfalso. apply N2. symmetry. apply (A x y x y'); [right; exact Hxy|exact H|reflexivity].
    + exfalso. apply N1. symmetry. apply (A x y x' y); [right; exact Hxy|exact H|reflexivity].
  - intros z _ Hz. destruct (Z.eqb_spec z y) as [->|]; [|reflexivity]. exfalso. exact (Hz x Hxy).
Qed.
Lemma wf_fset W m1 m2 f v : wf W m1 m2 -> Wf f -> wf W (fset m1 f v) (fset m2 f v) /\ moved W W m2 (fset m2 f v).
Proof.
  intros [A B C D E N0] Hf. split; constructor; cbn [fset tm fm im tnext fnext inext]; auto; try lia.
  - intros g Hg. destruct (g =? f); auto.
  - intros g Hg. destruct (Z.eqb_spec g f) as [->|]; [contradiction|reflexivity].
Qed.
Lemma wf_iset W m1 m2 f v : wf W m1 m2 -> Wi f -> wf W (iset m1 f v) (iset m2 f v) /\ moved W W m2 (iset m2 f v).
Proof.
  intros [A B C D E N0] Hf. split; constructor; cbn [iset tm fm im tnext fnext inext]; auto; try lia.
  - intros g Hg. destruct (g =? f); auto.
  - intros g Hg. destruct (Z.eqb_spec g f) as [->|]; [contradiction|reflexivity].
Qed.
Lemma moved_refl W m : moved W W m m.
Proof. constructor; auto; lia. Qed.
Lemma moved_trans W m m1 m2 : moved W W m m1 -> moved W W m1 m2 -> moved W W m m2.
Proof.
  intros [A B C D E] [A' B' C' D' E']. constructor; [| | |lia|].
  - intros y Hy Hn. rewrite A' by (lia || assumption). apply A; assumption.
  - intros f Hf. rewrite B', B by assumption. reflexivity.
  - intros f Hf. rewrite C', C by assumption. reflexivity.
  - intros x y H. left. exact H.
Qed.

Definition both {A} (Q : rel -> A -> A -> Prop) (W : rel) (m2 : M) (r1 r2 : option (res (prog O A * M))) : Prop :=
  match r1, r2 with
  | None, None => True
  | Some (Panic _), Some (Panic _) => True
  | Some (Ok (p', m1')), Some (Ok (q', m2')) => exists W', sub W W' /\ prel Q W' p' q' /\ wf W' m1' m2' /\ moved W W' m2 m2'
  | _, _ => False
  end.
Lemma both_ok {A} (Q : rel -> A -> A -> Prop) W p q m1' m2 m2' : prel Q W p q -> wf W m1' m2' -> moved W W m2 m2' -> both Q W m2 (Some (Ok (p, m1'))) (Some (Ok (q, m2'))).
Proof. intros H1 H2 H3. exists W. split; [apply sub_refl|]. split; [exact H1|]. split; assumption. Qed.

Lemma prel_access {A} (Q : rel -> A -> A -> Prop) W p q m1 m2 : prel Q W p q -> wf W m1 m2 -> both Q W m2 (access p m1) (access q m2).
Proof.
  intros H Hw. pose proof Hw as [A1 A2 A3 A4 A5 A6].
  destruct H as [W a b Hq|W e|W x y k k' Ha H|W x y i v k k' Hs H|W d d' s s' k k' Hd Hs H|W v k k' H|W x k k' Hx H|W x v k k' Hx H
    |W u k k' Hf H|W x y u k k' Ha Hf H|W u x y k k' Hf Hs H|W u v z k k' Hf Hg H]; cbn [access].
  - exact I.
  - exact I.
  - rewrite (A3 x y Ha). apply both_ok; [apply H|exact Hw|apply moved_refl].
  - unfold store. rewrite (A3 x y (or_intror Hs)). destruct (set (tm m2 y) i v) as [b|]; cbn [bind]; [|exact I].
    destruct (wf_tset W m1 m2 x y b Hw Hs). apply both_ok; assumption.
  - unfold mcopy. rewrite (A3 d d' (or_intror Hd)), (A3 s s' Hs). destruct (wf_tset W m1 m2 d d' (copy_slice (tm m2 d') (tm m2 s')) Hw Hd). apply both_ok; assumption.
  - unfold alloc. cbn [both]. set (W' := fun x y => W x y \/ (x = tnext m1 /\ y = tnext m2)). exists W'.
    assert (S: sub W W') by (intros x y Hxy; left; exact Hxy). split; [exact S|]. split; [apply H; [exact S|right; split; reflexivity]|].
    assert (AC: forall x y, acc W' x y -> acc W x y \/ (x = tnext m1 /\ y = tnext m2)) by (intros x y [Q1|[Q1|Q1]]; [left; left; exact Q1|left; right; exact Q1|right; exact Q1]).
    split; constructor; cbn [tm fm im tnext fnext inext]; auto.
    + intros x y x' y' H1 H2. apply AC in H1, H2. destruct H1 as [H1|[-> ->]], H2 as [H2|[-> ->]].
      * exact (A1 _ _ _ _ H1 H2).
      * apply A2 in H1. lia.
      * apply A2 in H2. lia.
      * tauto.
    + intros x y H1. apply AC in H1. destruct H1 as [H1|[-> ->]]; [apply A2 in H1|]; lia.
    + intros x y H1. apply AC in H1. destruct H1 as [H1|[-> ->]].
      * pose proof (A2 _ _ H1) as [N1 N2]. destruct (Z.eqb_spec x (tnext m1)); [lia|]. destruct (Z.eqb_spec y (tnext m2)); [lia|]. apply A3, H1.
      * rewrite !Z.eqb_refl. reflexivity.
    + lia.
    + intros y Hy _. destruct (Z.eqb_spec y (tnext m2)); [lia|reflexivity].
    + lia.
    + intros x y [Hxy|[-> ->]]; [left; exact Hxy|right; lia].
  - rewrite (A5 x Hx). apply both_ok; [apply H|exact Hw|apply moved_refl].
  - destruct (wf_iset W m1 m2 x v Hw Hx). apply both_ok; assumption.
  - unfold ClearBuffer. rewrite (A4 u Hf). destruct (f_clear O (fm m2 u)) as [b|]; cbn [bind]; [|exact I].
    destruct (wf_fset W m1 m2 u b Hw Hf). apply both_ok; assumption.
  - unfold ToFourierPolyAssign. rewrite (A3 x y Ha), (A4 u Hf). destruct (f_of_poly O (tm m2 y) (fm m2 u)) as [b|]; cbn [bind]; [|exact I].
    destruct (wf_fset W m1 m2 u b Hw Hf). apply both_ok; assumption.
  - unfold ToPolyAssignUnsafe. rewrite (A3 x y (or_intror Hs)), (A4 u Hf). destruct (f_to_poly O (fm m2 u) (tm m2 y)) as [[f b]|]; cbn [bind]; [|exact I].
    destruct (wf_fset W m1 m2 u f Hw Hf) as [W1 M1]. destruct (wf_tset W _ _ x y b W1 Hs) as [W2 M2]. apply both_ok; [exact H|exact W2|eapply moved_trans; eassumption].
  - unfold MulAddFourierPolyAssign. rewrite (A4 u Hf), (A4 z Hg). destruct (f_muladd O (fm m2 u) v (fm m2 z)) as [b|]; cbn [bind]; [|exact I].
    destruct (wf_fset W m1 m2 z b Hw Hg). apply both_ok; assumption.
Qed.
End Rel.

Lemma access_run {O A} (p : prog O A) m :
  match access p m with
  | None => exists a, p = Ret a
  | Some (Panic e) => run p m = Panic e
  | Some (Ok (p', m')) => run p m = run p' m'
  end.
Proof.
  destruct p; cbn [access run]; try reflexivity.
  - eexists. reflexivity.
  - destruct (store m x i v); reflexivity.
  - destruct (ClearBuffer O m f); reflexivity.
  - destruct (ToFourierPolyAssign O m x f); reflexivity.
  - destruct (ToPolyAssignUnsafe O m f x); reflexivity.
  - destruct (MulAddFourierPolyAssign O m f v g); reflexivity.
Qed.

Lemma access_cost {O A} (p : prog O A) m :
  match access p m with
  | None => cost p m = 0
  | Some (Panic e) => cost p m = 1
  | Some (Ok (p', m')) => cost p m = 1 + cost p' m'
  end.
Proof.
  destruct p; cbn [access cost]; try reflexivity.
  - destruct (store m x i v); reflexivity.
  - destruct (ClearBuffer O m f); reflexivity.
  - destruct (ToFourierPolyAssign O m x f); reflexivity.
  - destruct (ToPolyAssignUnsafe O m f x); reflexivity.
  - destruct (MulAddFourierPolyAssign O m f v g); reflexivity.
Qed.

(** ** all goroutines *)
Section Together.
Context {O : fops} {A : Type} (n : Z) (Rd : Z -> rel) (Wf Wi : Z -> Z -> Prop) (W0 : Z -> rel) (m0 : mem (FP O))
  (Q : Z -> rel -> A -> A -> Prop) (sol : Z -> A * mem (FP O)).
Notation M := (mem (FP O)).
Context (HWf : forall i j f, 0 <= i < n -> 0 <= j < n -> i <> j -> Wf i f -> Wf j f -> False)
        (HWi : forall i j f, 0 <= i < n -> 0 <= j < n -> i <> j -> Wi i f -> Wi j f -> False).

Record inv (ps : list (prog O A)) (m : M) (W : Z -> rel) (c : Z -> Z) : Prop := {
  iv_len : zlen ps = n;
  iv_thread : forall i, 0 <= i < n -> exists p ms, prel (Rd i) (Wf i) (Wi i) (Q i) (W i) p (znd (Fail PNil) ps i) /\ wf (Rd i) (Wf i) (Wi i) (W i) ms m /\ run p ms = Ok (sol i) /\ cost p ms = c i;
  iv_cross : forall i j x x' y, 0 <= i < n -> 0 <= j < n -> i <> j -> W i x y -> acc (Rd j) (W j) x' y -> False;
  iv_W : forall i, 0 <= i < n -> sub (W0 i) (W i);
  iv_W0 : forall i x y, 0 <= i < n -> W i x y -> W0 i x y \/ tnext m0 <= y;
  iv_t : forall y, y < tnext m0 -> (forall i x, 0 <= i < n -> ~ W0 i x y) -> tm m y = tm m0 y;
  iv_f : forall f, (forall i, 0 <= i < n -> ~ Wf i f) -> fm m f = fm m0 f;
  iv_i : forall f, (forall i, 0 <= i < n -> ~ Wi i f) -> im m f = im m0 f;
  iv_n : tnext m0 <= tnext m /\ fnext m0 <= fnext m /\ inext m0 <= inext m
}.

Lemma cost_nonneg (p : prog O A) : forall m : M, 0 <= cost p m.
Proof.
  induction p as [a|e|x k IH|x i v k IH|d s k IH|v k IH|x k IH|x v k IH|g k IH|x g k IH|g x k IH|g v h k IH]; intro m; cbn [cost alloc].
  - lia.
  - lia.
  - pose proof (IH (tm m x) m). lia.
  - destruct (store m x i v) as [m'|]; [pose proof (IH m')|]; lia.
  - pose proof (IH (mcopy m d s)). lia.
  - match goal with |- context [cost _ ?m'] => pose proof (IH (tnext m) m') end. lia.
  - pose proof (IH (im m x) m). lia.
  - pose proof (IH (iset m x v)). lia.
  - destruct (ClearBuffer O m g) as [m'|]; [pose proof (IH m')|]; lia.
  - destruct (ToFourierPolyAssign O m x g) as [m'|]; [pose proof (IH m')|]; lia.
  - destruct (ToPolyAssignUnsafe O m g x) as [m'|]; [pose proof (IH m')|]; lia.
  - destruct (MulAddFourierPolyAssign O m g v h) as [m'|]; [pose proof (IH m')|]; lia.
Qed.

Definition spend (c : Z -> Z) (i : Z) : Z -> Z := fun j => if j =? i then c j - 1 else c j.

Lemma inv_step ps m W c i : inv ps m W c ->
  match cstep i {| cs_progs := ps; cs_mem := m |} with
  | None => 0 <= i < n -> c i = 0
  | Some (Panic _) => False
  | Some (Ok s) => 0 <= i < n /\ exists W', inv (cs_progs s) (cs_mem s) W' (spend c i)
  end.
Proof.
  intros [L T C S0 S1 Kt Kf Ki Kn]. unfold cstep. cbn [cs_progs cs_mem]. destruct (get ps i) as [q|] eqn:Eq; [|intro Hi; rewrite <- L in Hi; rewrite (get_ok (Fail PNil)) in Eq by assumption; discriminate].
  apply (get_inv (Fail PNil)) in Eq. destruct Eq as [Hi ->]. rewrite L in Hi.
  destruct (T i Hi) as (p & ms & H1 & H2 & H3 & H6). pose proof (prel_access _ _ _ _ _ _ _ _ _ H1 H2) as B.
  pose proof (access_run p ms) as R. pose proof (access_cost p ms) as RC. unfold both in B. destruct (access p ms) as [[[p' ms']|e1]|]; destruct (access (znd (Fail PNil) ps i) m) as [[[q' m']|e2]|]; try contradiction; try congruence.
  split; [exact Hi|]. destruct B as (Wn & SW & P' & W' & [Vt Vf Vi Vn Vnew]). cbn [cs_progs cs_mem].
  set (WW := fun j => if j =? i then Wn else W j). exists WW.
  assert (Ei: WW i = Wn) by (unfold WW; rewrite Z.eqb_refl; reflexivity).
  assert (Ej: forall j, j <> i -> WW j = W j) by (intros j Hj; unfold WW; destruct (Z.eqb_spec j i); [contradiction|reflexivity]).
  constructor.
  - rewrite zlen_upd. exact L.
  - intros j Hj. destruct (Z.eq_dec j i) as [->|Hji].
    + exists p', ms'. rewrite Ei. rewrite znd_upd by lia. rewrite Z.eqb_refl. split; [exact P'|]. split; [exact W'|]. split; [congruence|]. unfold spend. rewrite Z.eqb_refl. lia.
    + destruct (T j Hj) as (pj & mj & J1 & J2 & J3 & J4). exists pj, mj. rewrite Ej by assumption. rewrite znd_upd by lia. destruct (Z.eqb_spec j i); [contradiction|].
      split; [exact J1|]. split; [|split; [exact J3|unfold spend; destruct (Z.eqb_spec j i); [contradiction|exact J4]]]. destruct J2 as [B1 B2 B3 B4 B5 B6]. constructor; auto.
      * intros x y Hxy. destruct (B2 x y Hxy). split; lia.
      * intros x y Hxy. rewrite (B3 x y Hxy). symmetry. apply Vt; [destruct (B2 x y Hxy); assumption|]. intros z Hz. exact (C i j z x y Hi Hj ltac:(congruence) Hz Hxy).
      * intros f Hf. rewrite (B4 f Hf). symmetry. apply Vf. intro Hf'. exact (HWf i j f Hi Hj ltac:(congruence) Hf' Hf).
      * intros f Hf. rewrite (B5 f Hf). symmetry. apply Vi. intro Hf'. exact (HWi i j f Hi Hj ltac:(congruence) Hf' Hf).
      * lia.
  - intros a b x x' y Ha Hb Hab H4 H5. destruct (Z.eq_dec a i) as [->|Na].
    + rewrite Ei in H4. rewrite Ej in H5 by congruence. apply Vnew in H4. destruct H4 as [H4|H4]; [exact (C i b x x' y Ha Hb Hab H4 H5)|].
      destruct (T b Hb) as (pb & mb & _ & [_ B2 _ _ _ _] & _ & _). apply B2 in H5. lia.
    + rewrite Ej in H4 by assumption. destruct (Z.eq_dec b i) as [->|Nb].
      * rewrite Ei in H5. destruct H5 as [H5|H5]; [exact (C a i x x' y Ha Hb Hab H4 (or_introl H5))|]. apply Vnew in H5.
        destruct H5 as [H5|H5]; [exact (C a i x x' y Ha Hb Hab H4 (or_intror H5))|].
        destruct (T a Ha) as (pa & ma & _ & [_ B2 _ _ _ _] & _ & _). pose proof (B2 x y (or_intror H4)). lia.
      * rewrite Ej in H5 by assumption. exact (C a b x x' y Ha Hb Hab H4 H5).
  - intros j Hj. destruct (Z.eq_dec j i) as [->|]; [rewrite Ei; eapply sub_trans; [apply S0; assumption|exact SW]|rewrite Ej by assumption; apply S0; assumption].
  - intros j x y Hj H4. destruct (Z.eq_dec j i) as [->|].
    + rewrite Ei in H4. apply Vnew in H4. destruct H4 as [H4|H4]; [apply S1; assumption|right; lia].
    + rewrite Ej in H4 by assumption. apply S1; assumption.
  - intros y Hy Hn. rewrite Vt.
    + apply Kt; assumption.
    + lia.
    + intros x Hx. apply S1 in Hx; [|assumption]. destruct Hx as [Hx|Hx]; [exact (Hn i x Hi Hx)|lia].
  - intros f Hf. rewrite Vf by (apply Hf; exact Hi). apply Kf. exact Hf.
  - intros f Hf. rewrite Vi by (apply Hf; exact Hi). apply Ki. exact Hf.
  - lia.
Qed.

Lemma inv_sched sched : forall ps m W c, inv ps m W c ->
  match csched sched {| cs_progs := ps; cs_mem := m |} with
  | None => True
  | Some (Panic _) => False
  | Some (Ok s) => exists W' c', inv (cs_progs s) (cs_mem s) W' c'
  end.
Proof.
  induction sched as [|i sched IH]; intros ps m W c H; cbn [csched]; [exists W, c; exact H|].
  pose proof (inv_step ps m W c i H) as B. destruct (cstep i {| cs_progs := ps; cs_mem := m |}) as [[[ps' m']|e]|]; [|exact B|exact I].
  cbn [cs_progs cs_mem] in B. destruct B as [_ [W' B]]. exact (IH ps' m' W' _ B).
Qed.

Lemma inv_turns sched : forall ps m W c, inv ps m W c -> (forall i, In i sched -> 0 <= i < n) ->
  (forall i, 0 <= i < n -> Z.of_nat (count_occ Z.eq_dec sched i) = c i) ->
  exists ps' m' W', csched sched {| cs_progs := ps; cs_mem := m |} = Some (Ok {| cs_progs := ps'; cs_mem := m' |}) /\ inv ps' m' W' (fun _ => 0).
Proof.
  induction sched as [|i sched IH]; intros ps m W c H Hin Hc; cbn [csched].
  - exists ps, m, W. split; [reflexivity|]. destruct H as [A1 A2 A3 A4 A5 A6 A7 A8 A9]. constructor; try assumption.
    intros j Hj. destruct (A2 j Hj) as (p & ms & X1 & X2 & X3 & X4). exists p, ms. rewrite <- (Hc j Hj) in X4. cbn [count_occ] in X4. auto.
  - pose proof (inv_step ps m W c i H) as B. pose proof (Hin i (or_introl eq_refl)) as Hi. pose proof (Hc i Hi) as Ci. cbn [count_occ] in Ci.
    destruct (Z.eq_dec i i) as [_|]; [|congruence].
    destruct (cstep i {| cs_progs := ps; cs_mem := m |}) as [[[ps' m']|e]|]; [|contradiction|exfalso; specialize (B Hi); lia].
    cbn [cs_progs cs_mem] in B. destruct B as [_ [W' B]]. apply (IH ps' m' W' _ B); [intros j Hj; apply Hin; right; exact Hj|].
    intros j Hj. pose proof (Hc j Hj) as Cj. cbn [count_occ] in Cj. unfold spend. destruct (Z.eq_dec i j) as [Hn|Hn]; destruct (Z.eqb_spec j i) as [H1|H1]; try congruence; lia.
Qed.

Lemma cost_ret (p : prog O A) (m : M) a : cost p m = 0 -> run p m = Ok a -> exists v, p = Ret v.
Proof.
  intros Hc _. pose proof (access_cost p m) as X. pose proof (access_run p m) as Y. destruct (access p m) as [[[p' m']|]|]; [|lia|exact Y].
  pose proof (cost_nonneg p' m'). lia.
Qed.

Lemma ret_ended (ps : list (prog O A)) : (forall i, 0 <= i < zlen ps -> exists a, znd (Fail PNil) ps i = Ret a) -> exists l, all_ended ps = Some l.
Proof.
  induction ps as [|p ps IH]; intro H; [exists []; reflexivity|].
  assert (Z1: zlen (p :: ps) = zlen ps + 1) by (unfold zlen; cbn [length]; lia). assert (Z0: 0 <= zlen ps) by (unfold zlen; lia).
  destruct (H 0 ltac:(lia)) as [a Ha]. change (p = Ret a) in Ha. subst p. destruct IH as [l Hl].
  - intros i Hi. destruct (H (i + 1) ltac:(lia)) as [b Hb]. exists b. rewrite <- Hb. change (Ret a :: ps) with ([Ret a] ++ ps).
    rewrite znd_app2 by (unfold zlen; cbn [length]; lia). change (zlen [Ret a]) with 1. f_equal. lia.
  - exists (a :: l). cbn [all_ended]. rewrite Hl. reflexivity.
Qed.

Lemma inv_ends sched ps W c : inv ps m0 W c -> (forall i, In i sched -> 0 <= i < n) ->
  (forall i, 0 <= i < n -> Z.of_nat (count_occ Z.eq_dec sched i) = c i) -> exists r, together ps m0 sched = Some r.
Proof.
  intros H H1 H2. destruct (inv_turns sched ps m0 W c H H1 H2) as (ps' & m' & W' & E & I'). unfold together. rewrite E. cbn [cs_progs cs_mem].
  destruct (ret_ended ps') as [l ->]; [|eexists; reflexivity]. intros i Hi. rewrite (iv_len _ _ _ _ I') in Hi.
  destruct (iv_thread _ _ _ _ I' i Hi) as (p & ms & X1 & X2 & X3 & X4). destruct (cost_ret p ms _ X4 X3) as [v ->]. remember (Ret v) as q eqn:Eq. destruct X1; try discriminate. eexists. reflexivity.
Qed.

Lemma ended_znd (ps : list (prog O A)) : forall l, all_ended ps = Some l -> zlen l = zlen ps /\ forall i d, 0 <= i < zlen ps -> znd (Fail PNil) ps i = Ret (znd d l i).
Proof.
  induction ps as [|p ps IH]; intros l H; cbn [all_ended] in H; [injection H as <-; split; [reflexivity|unfold zlen; cbn; lia]|].
  destruct p as [a| | | | | | | | | | |]; try discriminate. destruct (all_ended ps) as [l'|]; [|discriminate]. injection H as <-. destruct (IH l' eq_refl) as [L1 L2].
  split; [unfold zlen in *; cbn [length]; lia|]. intros i d Hi. destruct (Z.eq_dec i 0) as [->|Hn]; [reflexivity|].
  assert (Z1: zlen (Ret a :: ps) = zlen ps + 1) by (unfold zlen; cbn [length]; lia).
  change (Ret a :: ps) with ([Ret a] ++ ps). change (a :: l') with ([a] ++ l'). rewrite !znd_app2 by (unfold zlen; cbn [length]; lia).
  change (zlen [Ret a]) with 1. change (zlen [a]) with 1. apply L2. lia.
Qed.

Lemma inv_together sched ps W c r : inv ps m0 W c -> together ps m0 sched = Some r ->
  exists l m W', r = Ok (l, m) /\ zlen l = n /\ (exists c', inv (map Ret l) m W' c') /\
    forall i d, 0 <= i < n -> Q i (W' i) (fst (sol i)) (znd d l i) /\ wf (Rd i) (Wf i) (Wi i) (W' i) (snd (sol i)) m.
Proof.
  intros H E. unfold together in E. pose proof (inv_sched sched ps m0 W c H) as B.
  destruct (csched sched {| cs_progs := ps; cs_mem := m0 |}) as [[[ps' m']|e]|]; [|contradiction|discriminate]. cbn [cs_progs cs_mem] in *.
  destruct (all_ended ps') as [l|] eqn:El; [|discriminate]. injection E as <-. destruct B as (W' & c' & B). exists l, m', W'.
  destruct (ended_znd ps' l El) as [L1 L2]. pose proof (iv_len _ _ _ _ B) as L. split; [reflexivity|]. split; [lia|].
  assert (EP: ps' = map Ret l).
  { clear - El. revert l El. induction ps' as [|p ps' IH]; intros l H; cbn [all_ended] in H; [injection H as <-; reflexivity|].
    destruct p as [a| | | | | | | | | | |]; try discriminate. destruct (all_ended ps') as [l'|]; [|discriminate]. injection H as <-. cbn [map]. f_equal. apply IH. reflexivity. }
  split; [exists c'; rewrite <- EP; exact B|]. intros i d Hi. destruct (iv_thread _ _ _ _ B i Hi) as (p & ms & P & Wfm & R & _).
  rewrite (L2 i d) in P by lia. remember (Ret (znd d l i)) as q eqn:Eq. destruct P; try discriminate. injection Eq as ->. cbn [run] in R. injection R as R. rewrite <- R. cbn [fst snd]. split; assumption.
Qed.
End Together.

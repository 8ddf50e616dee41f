(** * What the transform code computes, for any arithmetic

    Every loop of Fft.v is reduced to a total function on lists: no access
    leaves its slice and no table lookup fails when the length is a power of
    two >= 16 and the tables have N/2 - 1 entries. *)
From Coq Require Import Lia ZifyBool.
From Verif Require Import GoBase GoFacts GoMem Poly Fft.
Local Open Scope Z_scope.

Lemma for_step_inv {S} (P : Z -> S -> Prop) lo hi step body s :
  0 < step -> lo <= hi -> (hi - lo) mod step = 0 -> P lo s ->
  (forall i s, lo <= i -> i + step <= hi -> (i - lo) mod step = 0 -> P i s -> exists s', body i s = Ok s' /\ P (i + step) s') ->
  exists s', for_step lo hi step body s = Ok s' /\ P hi s'.
Proof.
  intros Hst Hle Hm H0 Hb. unfold for_step.
  assert (Hn: (hi - lo + step - 1) / step = (hi - lo) / step).
  { pose proof (Z.div_mod (hi - lo) step ltac:(lia)) as E. symmetry. apply (Z.div_unique_pos _ _ _ (step - 1)); [lia|].
    rewrite Hm in E. lia. }
  rewrite Hn. set (n := (hi - lo) / step).
  assert (E: hi = lo + n * step).
  { pose proof (Z.div_mod (hi - lo) step ltac:(lia)) as E. fold n in E. lia. }
  assert (Hn0: 0 <= n) by (apply Z.div_pos; lia).
  destruct (loop_inv P step body (Z.to_nat n) lo s H0) as (s' & E1 & H1).
  - intros k s' Hk Hp. apply Hb; [|nia| |assumption].
    + nia.
    + replace (lo + Z.of_nat k * step - lo) with (Z.of_nat k * step) by lia. apply Z.mod_mul. lia.
  - exists s'. split; [exact E1|]. replace hi with (lo + Z.of_nat (Z.to_nat n) * step) by lia. exact H1.
Qed.

Lemma ptr_ok {A} (l : list A) j w : 0 <= j -> 0 < w -> j + w <= zlen l -> ptr l j w = Ok tt.
Proof.
  intros. unfold ptr. destruct (Z.ltb_spec j 0); [lia|]. destruct (Z.leb_spec (zlen l) j); [lia|].
  destruct (Z.ltb_spec (zlen l) (j + w)); [lia|]. reflexivity.
Qed.

(** ** The layout: complex number c is at pos c and pos c + 4 *)
Definition pos (c : Z) : Z := 8 * (c / 4) + c mod 4.

Lemma pos_block q k : 0 <= k < 4 -> pos (4 * q + k) = 8 * q + k.
Proof.
  intro H. unfold pos. rewrite (Z.mul_comm 4 q), Z.div_add_l, Z.div_small by lia.
  rewrite (Z.add_comm (q * 4)), Z.mod_add, Z.mod_small by lia. lia.
Qed.
Lemma c_block c : exists q k, c = 4 * q + k /\ 0 <= k < 4.
Proof. exists (c / 4), (c mod 4). split; [apply Z.div_mod; lia|apply Z.mod_pos_bound; lia]. Qed.
Lemma pos_inj a b : pos a = pos b -> a = b.
Proof.
  destruct (c_block a) as (q & k & -> & Hk), (c_block b) as (q' & k' & -> & Hk'). rewrite !pos_block by assumption. lia.
Qed.
Lemma pos_ne4 a b : pos a <> pos b + 4.
Proof.
  destruct (c_block a) as (q & k & -> & Hk), (c_block b) as (q' & k' & -> & Hk'). rewrite !pos_block by assumption. lia.
Qed.

Lemma tab_len_ext {A} (d : A) l l' : zlen l = zlen l' -> (forall i, 0 <= i < zlen l -> znd d l i = znd d l' i) -> l = l'.
Proof. apply list_ext. Qed.

(** powers of two *)
Lemma p2 a : 0 <= a -> 0 < 2 ^ a.
Proof. intro. apply Z.pow_pos_nonneg; lia. Qed.
Lemma p2S a : 0 <= a -> 2 ^ (a + 1) = 2 * 2 ^ a.
Proof. intro. rewrite Z.pow_add_r by lia. change (2 ^ 1) with 2. ring. Qed.
Lemma p2split a b : 0 <= a -> 0 <= b -> 2 ^ (a + b) = 2 ^ a * 2 ^ b.
Proof. intros. apply Z.pow_add_r; lia. Qed.
Lemma p2mul4 a : 2 <= a -> 2 ^ a mod 4 = 0.
Proof. intro. replace a with (a - 2 + 2) by lia. rewrite p2split by lia. change (2 ^ 2) with 4. apply Z.mod_mul. lia. Qed.
Lemma p2div a b : 0 <= b <= a -> 2 ^ a / 2 ^ b = 2 ^ (a - b).
Proof. intro. symmetry. apply Z.pow_sub_r; lia. Qed.

Section Facts.
Context (R : arith).
Notation A := (AN R).
Notation cplx := (A * A)%type.
Notation d := (a_zero R).
Notation z := (a_zero R, a_zero R).

Definition cx (l : list A) (c : Z) : cplx := (znd d l (pos c), znd d l (pos c + 4)).

Definition lay (H : Z) (f : Z -> cplx) : list A :=
  tab (2 * H) (fun p => if p mod 8 <? 4 then fst (f (4 * (p / 8) + p mod 4)) else snd (f (4 * (p / 8) + p mod 4))).

Context (H : Z) (HH : 0 < H) (H4 : H mod 4 = 0).

Lemma pos_range c : 0 <= c < H -> 0 <= pos c /\ pos c + 4 < 2 * H.
Proof.
  intro Hc. destruct (c_block c) as (q & k & -> & Hk). rewrite pos_block by assumption.
  pose proof (Z.div_mod H 4 ltac:(lia)). lia.
Qed.

Lemma zlen_lay f : zlen (lay H f) = 2 * H.
Proof. apply zlen_tab. lia. Qed.

Lemma cx_lay f c : 0 <= c < H -> cx (lay H f) c = f c.
Proof.
  intro Hc. pose proof (pos_range c Hc) as Hp. unfold cx, lay. rewrite !znd_tab by lia.
  destruct (c_block c) as (q & k & -> & Hk). rewrite pos_block by assumption.
  assert (E1: (8 * q + k) mod 8 = k).
  { rewrite (Z.mul_comm 8), Z.add_comm, Z.mod_add, Z.mod_small by lia. reflexivity. }
  assert (E2: (8 * q + k) / 8 = q).
  { rewrite (Z.mul_comm 8), Z.div_add_l, Z.div_small by lia. lia. }
  assert (E3: (8 * q + k) mod 4 = k).
  { replace (8 * q + k) with (k + (2 * q) * 4) by lia. rewrite Z.mod_add, Z.mod_small by lia. reflexivity. }
  assert (E4: (8 * q + k + 4) mod 8 = k + 4).
  { replace (8 * q + k + 4) with (k + 4 + q * 8) by lia. rewrite Z.mod_add, Z.mod_small by lia. reflexivity. }
  assert (E5: (8 * q + k + 4) / 8 = q).
  { replace (8 * q + k + 4) with (q * 8 + (k + 4)) by lia. rewrite Z.div_add_l, Z.div_small by lia. lia. }
  assert (E6: (8 * q + k + 4) mod 4 = k).
  { replace (8 * q + k + 4) with (k + (2 * q + 1) * 4) by lia. rewrite Z.mod_add, Z.mod_small by lia. reflexivity. }
  rewrite E1, E2, E3, E4, E5, E6.
  destruct (Z.ltb_spec k 4); [|lia]. destruct (Z.ltb_spec (k + 4) 4); [lia|]. destruct (f (4 * q + k)); reflexivity.
Qed.

(** every position is the real or imaginary part of one complex number *)
Lemma pos_cases p : 0 <= p < 2 * H -> exists c, 0 <= c < H /\ (p = pos c \/ p = pos c + 4).
Proof.
  intro Hp. exists (4 * (p / 8) + p mod 4). pose proof (Z.div_mod p 8 ltac:(lia)). pose proof (Z.mod_pos_bound p 8 ltac:(lia)).
  pose proof (Z.mod_pos_bound p 4 ltac:(lia)). pose proof (Z.div_mod H 4 ltac:(lia)).
  assert (E: p mod 4 = if p mod 8 <? 4 then p mod 8 else p mod 8 - 4).
  { symmetry. destruct (Z.ltb_spec (p mod 8) 4).
    - apply (Z.mod_unique_pos _ _ (2 * (p / 8))); lia.
    - apply (Z.mod_unique_pos _ _ (2 * (p / 8) + 1)); lia. }
  rewrite pos_block by lia. rewrite E. destruct (Z.ltb_spec (p mod 8) 4); lia.
Qed.

Lemma cx_ext l l' : zlen l = 2 * H -> zlen l' = 2 * H -> (forall c, 0 <= c < H -> cx l c = cx l' c) -> l = l'.
Proof.
  intros Hl Hl' E. apply (list_ext d); [congruence|]. intros p Hp. rewrite Hl in Hp.
  destruct (pos_cases p Hp) as (c & Hc & [->| ->]); pose proof (E c Hc) as G; unfold cx in G; congruence.
Qed.
Lemma lay_eq l f : zlen l = 2 * H -> (forall c, 0 <= c < H -> cx l c = f c) -> l = lay H f.
Proof.
  intros Hl E. apply cx_ext; [assumption|apply zlen_lay|]. intros c Hc. rewrite cx_lay by assumption. apply E. assumption.
Qed.
Lemma lay_ext f g : (forall c, 0 <= c < H -> f c = g c) -> lay H f = lay H g.
Proof. intro E. apply cx_ext; try apply zlen_lay. intros c Hc. rewrite !cx_lay by assumption. apply E. assumption. Qed.

(** ** writes of one complex number *)
Lemma cx_upd2 l c x y : zlen l = 2 * H -> 0 <= c < H ->
  zlen (upd (upd l (pos c) x) (pos c + 4) y) = 2 * H /\
  forall b, 0 <= b < H -> cx (upd (upd l (pos c) x) (pos c + 4) y) b = if b =? c then (x, y) else cx l b.
Proof.
  intros Hl Hc. pose proof (pos_range c Hc). split; [rewrite !zlen_upd; assumption|].
  intros b Hb. pose proof (pos_range b Hb). unfold cx.
  rewrite !znd_upd by (rewrite ?zlen_upd; lia).
  destruct (Z.eqb_spec b c) as [->|Hne].
  - rewrite !Z.eqb_refl. destruct (Z.eqb_spec (pos c) (pos c + 4)); [lia|]. reflexivity.
  - assert (pos b <> pos c) by (intro G; apply pos_inj in G; contradiction).
    pose proof (pos_ne4 b c). pose proof (pos_ne4 c b).
    destruct (Z.eqb_spec (pos b) (pos c + 4)); [contradiction|]. destruct (Z.eqb_spec (pos b) (pos c)); [contradiction|].
    destruct (Z.eqb_spec (pos b + 4) (pos c + 4)); [lia|]. destruct (Z.eqb_spec (pos b + 4) (pos c)); [lia|]. reflexivity.
Qed.

Lemma get_cx l c : zlen l = 2 * H -> 0 <= c < H ->
  get l (pos c) = Ok (fst (cx l c)) /\ get l (pos c + 4) = Ok (snd (cx l c)).
Proof. intros Hl Hc. pose proof (pos_range c Hc). split; apply get_ok; lia. Qed.

Lemma set_cx l c x y : zlen l = 2 * H -> 0 <= c < H ->
  exists l', (l1 <- set l (pos c) x ;; set l1 (pos c + 4) y) = Ok l' /\ zlen l' = 2 * H /\
    forall b, 0 <= b < H -> cx l' b = if b =? c then (x, y) else cx l b.
Proof.
  intros Hl Hc. pose proof (pos_range c Hc). destruct (cx_upd2 l c x y Hl Hc) as [E1 E2].
  exists (upd (upd l (pos c) x) (pos c + 4) y). split; [|split; assumption].
  rewrite set_ok by lia. cbn [bind]. rewrite set_ok by (rewrite zlen_upd; lia). reflexivity.
Qed.

Section Stage.

Lemma apply_bf_ok (bf : cplx -> cplx -> cplx -> cplx * cplx) l w b v : zlen l = 2 * H -> 0 <= b < H -> 0 <= v < H -> b <> v ->
  exists l', apply_bf R bf w l (pos b) (pos b + 4) (pos v) (pos v + 4) = Ok l' /\ zlen l' = 2 * H /\
    forall c, 0 <= c < H -> cx l' c = if c =? b then fst (bf (cx l b) (cx l v) w)
                                      else if c =? v then snd (bf (cx l b) (cx l v) w) else cx l c.
Proof.
  intros Hl Hb Hv Hne. unfold apply_bf.
  destruct (get_cx l b Hl Hb) as [G1 G2]. destruct (get_cx l v Hl Hv) as [G3 G4].
  rewrite G1, G2, G3, G4. cbn [bind]. rewrite <- !surjective_pairing.
  destruct (bf (cx l b) (cx l v) w) as [u x].
  destruct (set_cx l b (fst u) (snd u) Hl Hb) as (l1 & E1 & L1 & V1).
  destruct (set_cx l1 v (fst x) (snd x) L1 Hv) as (l2 & E2 & L2 & V2).
  exists l2. split; [|split; [exact L2|]].
  - destruct (set l (pos b) (fst u)) as [la|e] eqn:Ea; cbn [bind] in E1 |- *; [|discriminate E1].
    rewrite E1. cbn [bind]. exact E2.
  - intros c Hc. rewrite V2 by assumption. rewrite <- !surjective_pairing.
    destruct (Z.eqb_spec c v) as [->|].
    + destruct (Z.eqb_spec v b); [congruence|]. reflexivity.
    + rewrite V1 by assumption. rewrite <- surjective_pairing. reflexivity.
Qed.

(** ** one stage: butterflies between c and c+T in groups of 2T *)
Context (T : Z) (HT : 0 < T) (H2T : H mod (2 * T) = 0).

Definition lowb (c : Z) : bool := c mod (2 * T) <? T.
Definition base (c : Z) : Z := if lowb c then c else c - T.
Lemma low_hi c : lowb c = true -> lowb (c + T) = false /\ (c + T) / (2 * T) = c / (2 * T).
Proof using HH H4 HT H2T.
  unfold lowb. intro E. pose proof (Z.mod_pos_bound c (2 * T) ltac:(lia)). pose proof (Z.div_mod c (2 * T) ltac:(lia)) as D.
  set (q := c / (2 * T)) in *. set (r := c mod (2 * T)) in *.
  assert (E1: (c + T) mod (2 * T) = r + T) by (symmetry; apply (Z.mod_unique_pos _ _ q); lia).
  assert (E2: (c + T) / (2 * T) = q) by (symmetry; apply (Z.div_unique_pos _ _ _ (r + T)); lia).
  split; [|exact E2]. rewrite E1. lia.
Qed.
Lemma hi_low c : lowb c = false -> lowb (c - T) = true /\ (c - T) / (2 * T) = c / (2 * T).
Proof using HH H4 HT H2T.
  unfold lowb. intro E. pose proof (Z.mod_pos_bound c (2 * T) ltac:(lia)). pose proof (Z.div_mod c (2 * T) ltac:(lia)) as D.
  set (q := c / (2 * T)) in *. set (r := c mod (2 * T)) in *.
  assert (E1: (c - T) mod (2 * T) = r - T) by (symmetry; apply (Z.mod_unique_pos _ _ q); lia).
  assert (E2: (c - T) / (2 * T) = q) by (symmetry; apply (Z.div_unique_pos _ _ _ (r - T)); lia).
  split; [|exact E2]. rewrite E1. lia.
Qed.
Lemma low_range c : 0 <= c < H -> lowb c = true -> c + T < H.
Proof using HH H4 HT H2T.
  unfold lowb. intros Hc E. pose proof (Z.mod_pos_bound c (2 * T) ltac:(lia)). pose proof (Z.div_mod c (2 * T) ltac:(lia)).
  pose proof (Z.div_mod H (2 * T) ltac:(lia)) as DH. rewrite H2T in DH.
  assert (c / (2 * T) < H / (2 * T)) by nia. nia.
Qed.
Lemma hi_range c : 0 <= c -> lowb c = false -> 0 <= c - T.
Proof using HH H4 HT H2T.
  unfold lowb. intros Hc E. pose proof (Z.mod_pos_bound c (2 * T) ltac:(lia)). pose proof (Z.mod_le c (2 * T) Hc ltac:(lia)). lia.
Qed.

(** a group: the T pairs starting at 2iT *)
Lemma low_in i b : 2 * i * T <= b < 2 * i * T + T -> lowb b = true /\ b / (2 * T) = i.
Proof using HH H4 HT H2T.
  intro Hb. unfold lowb.
  assert (E: b mod (2 * T) = b - 2 * i * T) by (symmetry; apply (Z.mod_unique_pos _ _ i); lia).
  assert (E2: b / (2 * T) = i) by (symmetry; apply (Z.div_unique_pos _ _ _ (b - 2 * i * T)); lia).
  rewrite E. split; [lia|exact E2].
Qed.
Lemma hi_in i b : 2 * i * T + T <= b < 2 * (i + 1) * T -> lowb b = false.
Proof using HH H4 HT H2T.
  intro Hb. unfold lowb.
  assert (E: b mod (2 * T) = b - 2 * i * T) by (symmetry; apply (Z.mod_unique_pos _ _ i); lia).
  rewrite E. lia.
Qed.

Context (bf : cplx -> cplx -> cplx -> cplx * cplx) (wf : Z -> cplx).

Definition st (f : Z -> cplx) (c : Z) : cplx :=
  if lowb c then fst (bf (f c) (f (c + T)) (wf (c / (2 * T)))) else snd (bf (f (c - T)) (f c) (wf (c / (2 * T)))).

Definition inr (lo hi c : Z) : bool := (lo <=? base c) && (base c <? hi).
Definition seg (lo hi : Z) (l l' : list A) : Prop :=
  zlen l' = 2 * H /\ forall c, 0 <= c < H -> cx l' c = if inr lo hi c then st (cx l) c else cx l c.

Lemma seg_refl lo hi l : zlen l = 2 * H -> (forall b, lo <= b < hi -> lowb b = false) -> seg lo hi l l.
Proof.
  intros Hl E. split; [assumption|]. intros c Hc. destruct (inr lo hi c) eqn:G; [|reflexivity]. exfalso.
  unfold inr in G. assert (Hb: lo <= base c < hi) by lia. specialize (E _ Hb). unfold base in E.
  destruct (lowb c) eqn:El; [congruence|]. apply hi_low in El. destruct El. congruence.
Qed.

Lemma seg_trans lo mid hi l1 l2 l3 : lo <= mid <= hi -> seg lo mid l1 l2 -> seg mid hi l2 l3 -> seg lo hi l1 l3.
Proof.
  intros Hle [_ S1] [L3 S2]. split; [assumption|]. intros c Hc. rewrite S2 by assumption.
  destruct (inr mid hi c) eqn:G.
  - assert (E: inr lo hi c = true) by (unfold inr in *; lia). rewrite E.
    assert (Hsame: forall x, 0 <= x < H -> base x = base c -> cx l2 x = cx l1 x).
    { intros x Hx Eb. rewrite S1 by assumption. assert (F: inr lo mid x = false) by (unfold inr in *; rewrite Eb; lia).
      rewrite F. reflexivity. }
    unfold st. destruct (lowb c) eqn:El.
    + pose proof (low_range c Hc El). destruct (low_hi c El) as [Eh _].
      rewrite (Hsame c), (Hsame (c + T)); try lia; try reflexivity.
      unfold base. rewrite El, Eh. lia.
    + pose proof (hi_range c ltac:(lia) El). destruct (hi_low c El) as [Eh _].
      rewrite (Hsame c), (Hsame (c - T)); try lia; try reflexivity.
      unfold base. rewrite El, Eh. lia.
  - rewrite S1 by assumption. assert (E: inr lo hi c = inr lo mid c) by (unfold inr in *; lia). rewrite E. reflexivity.
Qed.

Lemma seg_one l w b : zlen l = 2 * H -> 0 <= b < H -> lowb b = true -> w = wf (b / (2 * T)) ->
  exists l', apply_bf R bf w l (pos b) (pos b + 4) (pos (b + T)) (pos (b + T) + 4) = Ok l' /\ seg b (b + 1) l l'.
Proof.
  intros Hl Hb El ->. pose proof (low_range b Hb El). destruct (low_hi b El) as [Eh Ei].
  destruct (apply_bf_ok bf l (wf (b / (2 * T))) b (b + T) Hl Hb ltac:(lia) ltac:(lia)) as (l' & E & L' & V).
  exists l'. split; [exact E|]. split; [exact L'|]. intros c Hc. rewrite V by assumption.
  destruct (Z.eqb_spec c b) as [->|Hne].
  - assert (G: inr b (b + 1) b = true) by (unfold inr, base; rewrite El; lia). rewrite G. unfold st. rewrite El. reflexivity.
  - destruct (Z.eqb_spec c (b + T)) as [->|Hne2].
    + assert (G: inr b (b + 1) (b + T) = true) by (unfold inr, base; rewrite Eh; lia). rewrite G. unfold st. rewrite Eh.
      rewrite Ei. replace (b + T - T) with b by lia. reflexivity.
    + assert (G: inr b (b + 1) c = false) by (unfold inr, base; destruct (lowb c); lia). rewrite G. reflexivity.
Qed.

Lemma seg_full l l' : seg 0 H l l' -> l' = lay H (st (cx l)).
Proof.
  intros [L S]. apply lay_eq; [assumption|]. intros c Hc. rewrite S by assumption.
  assert (G: inr 0 H c = true).
  { unfold inr, base. destruct (lowb c) eqn:El; [lia|]. pose proof (hi_range c ltac:(lia) El). lia. }
  rewrite G. reflexivity.
Qed.

(** an eight-element block of the stage: T and j/2 multiples of 4 *)
Lemma bf_block_ok l w q i : zlen l = 2 * H -> T mod 4 = 0 -> 0 <= q -> 4 * q + 4 + T <= H ->
  2 * i * T <= 4 * q -> 4 * q + 4 <= 2 * i * T + T -> w = wf i ->
  exists l', bf_block R bf w (2 * T) (8 * q) l = Ok l' /\ seg (4 * q) (4 * q + 4) l l'.
Proof.
  intros Hl HT4 Hq Hr Hi1 Hi2 Hw. unfold bf_block. rewrite !ptr_ok by lia. cbn [bind].
  apply (for_range_inv (fun k l' => seg (4 * q) (4 * q + k) l l')); [lia| |].
  - apply seg_refl; [assumption|]. intros; lia.
  - intros k l1 Hk S1. destruct (low_in i (4 * q + k) ltac:(lia)) as [El Ei].
    destruct (seg_one l1 w (4 * q + k)) as (l2 & E & S2).
    + apply S1. + lia. + exact El. + congruence.
    + exists l2. split.
      * pose proof (Z.div_mod T 4 ltac:(lia)) as DT. rewrite HT4 in DT.
        rewrite <- E. f_equal; rewrite ?pos_block by lia.
        -- lia. -- lia.
        -- replace (4 * q + k + T) with (4 * (q + T / 4) + k) by lia. rewrite pos_block by lia. lia.
        -- replace (4 * q + k + T) with (4 * (q + T / 4) + k) by lia. rewrite pos_block by lia. lia.
      * replace (4 * q + (k + 1)) with (4 * q + k + 1) by lia. eapply seg_trans; [|exact S1|exact S2]. lia.
Qed.

Lemma bf_group_ok l w i : zlen l = 2 * H -> T mod 4 = 0 -> 0 <= i -> 2 * (i + 1) * T <= H -> w = wf i ->
  exists l', for_step (2 * i * (2 * T)) (2 * i * (2 * T) + 2 * T) 8 (bf_block R bf w (2 * T)) l = Ok l' /\
    seg (2 * i * T) (2 * (i + 1) * T) l l'.
Proof.
  intros Hl HT4 Hi Hr Hw. pose proof (Z.div_mod T 4 ltac:(lia)) as DT. rewrite HT4 in DT. set (t := T / 4) in *.
  destruct (for_step_inv (fun j l' => seg (2 * i * T) (j / 2) l l') (2 * i * (2 * T)) (2 * i * (2 * T) + 2 * T) 8
    (bf_block R bf w (2 * T)) l) as (l' & E & S).
  - lia. - lia.
  - replace (2 * i * (2 * T) + 2 * T - 2 * i * (2 * T)) with (t * 8) by lia. apply Z.mod_mul. lia.
  - replace (2 * i * (2 * T) / 2) with (2 * i * T).
    + apply seg_refl; [assumption|]. intros; lia.
    + replace (2 * i * (2 * T)) with ((2 * i * T) * 2) by lia. rewrite Z.div_mul by lia. reflexivity.
  - intros j l1 Hj1 Hj2 Hj S1.
    pose proof (Z.div_mod (j - 2 * i * (2 * T)) 8 ltac:(lia)) as Dj. rewrite Hj in Dj.
    set (a := (j - 2 * i * (2 * T)) / 8) in *.
    assert (EiT: i * T = 4 * (i * t)) by (rewrite DT; ring).
    assert (Ej: j = 8 * (2 * i * t + a)) by lia.
    assert (0 <= i * t) by (apply Z.mul_nonneg_nonneg; lia). assert (0 <= a) by lia.
    destruct (bf_block_ok l1 w (2 * i * t + a) i) as (l2 & E2 & S2); try assumption; try lia.
    + apply S1.
    + exists l2. rewrite Ej. split; [exact E2|].
      replace ((8 * (2 * i * t + a) + 8) / 2) with (4 * (2 * i * t + a) + 4).
      * rewrite Ej in S1. replace (8 * (2 * i * t + a) / 2) with (4 * (2 * i * t + a)) in S1.
        -- eapply seg_trans; [|exact S1|exact S2]. lia.
        -- replace (8 * (2 * i * t + a)) with (4 * (2 * i * t + a) * 2) by lia. rewrite Z.div_mul by lia. reflexivity.
      * replace (8 * (2 * i * t + a) + 8) with ((4 * (2 * i * t + a) + 4) * 2) by lia. rewrite Z.div_mul by lia. reflexivity.
  - exists l'. split; [exact E|].
    replace ((2 * i * (2 * T) + 2 * T) / 2) with (2 * i * T + T) in S.
    + eapply seg_trans; [|exact S|]; [lia|]. apply seg_refl; [apply S|]. intros b Hb. apply (hi_in i). exact Hb.
    + replace (2 * i * (2 * T) + 2 * T) with ((2 * i * T + T) * 2) by lia. rewrite Z.div_mul by lia. reflexivity.
Qed.
End Stage.

(** ** whole stages *)
Definition stl (bf : cplx -> cplx -> cplx -> cplx * cplx) (T : Z) (wf : Z -> cplx) (l : list A) : list A :=
  lay H (st T bf wf (cx l)).
Lemma zlen_stl bf T wf l : zlen (stl bf T wf l) = 2 * H.
Proof. apply zlen_lay. Qed.

Lemma st_ext bf T wf wf' f f' c : 0 < T -> H mod (2 * T) = 0 -> 0 <= c < H ->
  (forall x, 0 <= x < H -> f x = f' x) -> (forall i, 0 <= i < H / (2 * T) -> wf i = wf' i) ->
  st T bf wf f c = st T bf wf' f' c.
Proof.
  intros HT H2T Hc Ef Ew. unfold st.
  assert (Hi: 0 <= c / (2 * T) < H / (2 * T)).
  { split; [apply Z.div_pos; lia|]. apply Z.div_lt_upper_bound; [lia|].
    pose proof (Z.div_mod H (2 * T) ltac:(lia)). lia. }
  rewrite Ew by assumption. destruct (lowb T c) eqn:El.
  - pose proof (low_range T HT H2T c Hc El). rewrite !Ef by lia. reflexivity.
  - pose proof (hi_range T HT H2T c ltac:(lia) El). rewrite !Ef by lia. reflexivity.
Qed.

Definition twz (tw : list cplx) (i : Z) : cplx := znd z tw i.

Lemma mid_stage_ok bf tw m T off l : 0 < T -> T mod 4 = 0 -> H = 2 * m * T -> 0 < m -> 0 <= off -> off + m <= zlen tw ->
  zlen l = 2 * H ->
  mid_stage R bf tw m (2 * T) (l, off) = Ok (stl bf T (fun i => twz tw (off + i)) l, off + m).
Proof.
  intros HT HT4 EH Hm Hoff Htw Hl.
  assert (H2T: H mod (2 * T) = 0) by (rewrite EH; replace (2 * m * T) with (m * (2 * T)) by lia; apply Z.mod_mul; lia).
  unfold mid_stage.
  for_inv (fun i s => snd s = off + i /\ seg T bf (fun i => twz tw (off + i)) 0 (2 * i * T) l (fst s)) E Hinv.
  - lia.
  - cbn [fst snd]. split; [lia|]. apply seg_refl; try assumption. intros; lia.
  - intros i [c w] Hi [Ew S]. cbn [fst snd] in Ew, S. subst w.
    rewrite (get_ok z) by lia. cbn [bind]. destruct S as [Lc S].
    destruct (bf_group_ok T HT H2T bf (fun i => twz tw (off + i)) c (znd z tw (off + i)) i Lc HT4 ltac:(lia) ltac:(nia) eq_refl)
      as (c' & E & S').
    cbv zeta. rewrite E. cbn [bind]. eexists; split; [reflexivity|]. cbn [fst snd]. split; [lia|].
    eapply seg_trans; try eassumption; [nia|]. split; assumption.
  - match goal with |- Ok ?s' = _ => destruct s' as [c w] end. cbn [fst snd] in Hinv. destruct Hinv as [-> S]. f_equal. f_equal.
    unfold stl. eapply seg_full; try eassumption. replace H with (2 * m * T) by lia. exact S.
Qed.

(** ** the forward transform *)
Notation bfly := (butterfly R).
Definition fstage (tw : list cplx) (m T : Z) (l : list A) : list A := stl bfly T (fun i => twz tw (m - 1 + i)) l.
(** k stages from m groups at distance T on *)
Fixpoint fwd (tw : list cplx) (k : nat) (m T : Z) (l : list A) : list A :=
  match k with
  | O => l
  | S k => fwd tw k (2 * m) (T / 2) (fstage tw m T l)
  end.

Lemma zlen_fwd tw k m T l : zlen l = 2 * H -> zlen (fwd tw k m T l) = 2 * H.
Proof. revert m T l. induction k as [|k IH]; intros m T l Hl; cbn [fwd]; [assumption|]. apply IH. apply zlen_stl. Qed.

Lemma fwd_snoc tw k m T l : fwd tw (S k) m T l = fstage tw (m * 2 ^ Z.of_nat k) (T / 2 ^ Z.of_nat k) (fwd tw k m T l).
Proof.
  revert m T l. induction k as [|k IH]; intros m T l.
  - cbn [fwd]. change (2 ^ Z.of_nat 0) with 1. rewrite Z.mul_1_r, Z.div_1_r. reflexivity.
  - change (fwd tw (S (S k)) m T l) with (fwd tw (S k) (2 * m) (T / 2) (fstage tw m T l)). rewrite IH.
    change (fwd tw (S k) m T l) with (fwd tw k (2 * m) (T / 2) (fstage tw m T l)).
    rewrite Nat2Z.inj_succ, Z.pow_succ_r by lia.
    assert (0 < 2 ^ Z.of_nat k) by (apply Z.pow_pos_nonneg; lia).
    rewrite Z.div_div by lia. f_equal. ring.
Qed.

(** second-to-last stage: T = 2, a block per twiddle *)
Lemma pair2_ok bf tw off l : zlen l = 2 * H -> 0 <= off -> off + H / 4 <= zlen tw ->
  for_step 0 (2 * H) 8 (fun j '(c, wIdx) =>
     w <- get tw wIdx ;; c <- bf_pair2 R bf w j c ;; Ok (c, wIdx + 1)) (l, off)
  = Ok (stl bf 2 (fun i => twz tw (off + i)) l, off + H / 4).
Proof.
  intros Hl Hoff Htw. pose proof (Z.div_mod H 4 ltac:(lia)) as DH. rewrite H4 in DH.
  set (wf := fun i => twz tw (off + i)).
  destruct (for_step_inv (fun j s => snd s = off + j / 8 /\ seg 2 bf wf 0 (j / 2) l (fst s)) 0 (2 * H) 8
    (fun j '(c, wIdx) => w <- get tw wIdx ;; c <- bf_pair2 R bf w j c ;; Ok (c, wIdx + 1)) (l, off)) as ([c w] & E & Ew & S).
  - lia. - lia.
  - replace (2 * H - 0) with ((H / 4) * 8) by lia. apply Z.mod_mul. lia.
  - cbn [fst snd]. split; [rewrite Z.div_0_l; lia|]. apply seg_refl; try assumption; change (0 / 2) with 0; intros; lia.
  - intros j [c w] Hj1 Hj2 Hj [Ew S]. cbn [fst snd] in Ew, S.
    pose proof (Z.div_mod (j - 0) 8 ltac:(lia)) as Dj. rewrite Hj in Dj. replace (j - 0) with j in Dj by lia.
    set (q := j / 8) in *. assert (Ej: j = 8 * q) by lia. clear Dj Hj. subst w.
    assert (E2: j / 2 = 4 * q) by (rewrite Ej; replace (8 * q) with (4 * q * 2) by lia; apply Z.div_mul; lia).
    rewrite E2 in S. rewrite (get_ok z) by lia. cbn [bind].
    unfold bf_pair2. destruct S as [Lc S]. rewrite !ptr_ok by lia. cbn [bind].
    assert (P0: 4 * q mod (2 * 2) = 0) by (change (2 * 2) with 4; rewrite Z.mul_comm; apply Z.mod_mul; lia).
    assert (P1: (4 * q + 1) mod (2 * 2) = 1) by (change (2 * 2) with 4; rewrite Z.mul_comm, Z.add_comm, Z.mod_add by lia; reflexivity).
    assert (Q0: 4 * q / (2 * 2) = q) by (change (2 * 2) with 4; rewrite Z.mul_comm; apply Z.div_mul; lia).
    assert (Q1: (4 * q + 1) / (2 * 2) = q) by (change (2 * 2) with 4; rewrite Z.mul_comm, Z.div_add_l by lia; change (1 / 4) with 0; lia).
    assert (P2: H mod (2 * 2) = 0) by exact H4.
    destruct (seg_one 2 ltac:(lia) P2 bf wf c (znd z tw (off + q)) (4 * q)) as (c1 & E1 & S1); try assumption; try lia.
    { unfold lowb. rewrite P0. reflexivity. }
    { rewrite Q0. reflexivity. }
    destruct (seg_one 2 ltac:(lia) P2 bf wf c1 (znd z tw (off + q)) (4 * q + 1)) as (c2 & E3 & S2).
    { apply S1. } { lia. } { unfold lowb. rewrite P1. reflexivity. } { rewrite Q1. reflexivity. }
    replace (j + 0) with (pos (4 * q)) by (rewrite <- (Z.add_0_r (4 * q)), pos_block by lia; lia).
    replace (j + 4 + 0) with (pos (4 * q) + 4) by (rewrite <- (Z.add_0_r (4 * q)), pos_block by lia; lia).
    replace (j + 2) with (pos (4 * q + 2)) by (rewrite pos_block by lia; lia).
    replace (j + 4 + 2) with (pos (4 * q + 2) + 4) by (rewrite pos_block by lia; lia).
    rewrite E1. cbn [bind].
    replace (j + 1) with (pos (4 * q + 1)) by (rewrite pos_block by lia; lia).
    replace (j + 4 + 1) with (pos (4 * q + 1) + 4) by (rewrite pos_block by lia; lia).
    replace (j + 3) with (pos (4 * q + 1 + 2)) by (replace (4 * q + 1 + 2) with (4 * q + 3) by lia; rewrite pos_block by lia; lia).
    replace (j + 4 + 3) with (pos (4 * q + 1 + 2) + 4) by (replace (4 * q + 1 + 2) with (4 * q + 3) by lia; rewrite pos_block by lia; lia).
    rewrite E3. cbn [bind]. eexists; split; [reflexivity|]. cbn [fst snd].
    assert (E8: (j + 8) / 8 = q + 1) by (rewrite Ej; replace (8 * q + 8) with ((q + 1) * 8) by lia; apply Z.div_mul; lia).
    assert (E9: (j + 8) / 2 = 4 * q + 4) by (rewrite Ej; replace (8 * q + 8) with ((4 * q + 4) * 2) by lia; apply Z.div_mul; lia).
    rewrite E8, E9. split; [lia|].
    assert (G0: seg 2 bf wf 0 (4 * q) l c) by (split; assumption).
    assert (G1: seg 2 bf wf 0 (4 * q + 1) l c1) by (eapply seg_trans; try eassumption; lia).
    assert (G2: seg 2 bf wf 0 (4 * q + 2) l c2).
    { replace (4 * q + 2) with (4 * q + 1 + 1) by lia. eapply seg_trans; try eassumption; lia. }
    apply (seg_trans 2 ltac:(lia) P2 bf wf 0 (4 * q + 2) (4 * q + 4) l c2 c2 ltac:(lia) G2).
    apply seg_refl; try lia; [apply G2|]. intros b Hb. apply (hi_in 2 ltac:(lia) P2 q). lia.
  - cbn [fst snd] in Ew, S. rewrite E. f_equal.
    replace (2 * H / 8) with (H / 4) in Ew by (replace (2 * H) with (H / 4 * 8) by lia; rewrite Z.div_mul by lia; reflexivity).
    replace (2 * H / 2) with H in S by (rewrite Z.mul_comm, Z.div_mul by lia; reflexivity).
    rewrite Ew. f_equal. apply (seg_full 2 ltac:(lia) H4). exact S.
Qed.

(** last stage: T = 1, two twiddles per block *)
Lemma pair1_ok bf tw off l : zlen l = 2 * H -> 0 <= off -> off + H / 2 <= zlen tw ->
  for_step 0 (2 * H) 8 (fun j '(c, wIdx) =>
     w0 <- get tw wIdx ;; w1 <- get tw (wIdx + 1) ;;
     c <- bf_pair1 R bf w0 w1 j c ;; Ok (c, wIdx + 2)) (l, off)
  = Ok (stl bf 1 (fun i => twz tw (off + i)) l, off + H / 2).
Proof.
  intros Hl Hoff Htw. pose proof (Z.div_mod H 4 ltac:(lia)) as DH. rewrite H4 in DH.
  assert (D2: H / 2 = 2 * (H / 4)) by (symmetry; apply (Z.div_unique_pos _ _ _ 0); lia).
  assert (P2: H mod (2 * 1) = 0).
  { change (2 * 1) with 2. symmetry. apply (Z.mod_unique_pos _ _ (2 * (H / 4))); lia. }
  set (wf := fun i => twz tw (off + i)).
  destruct (for_step_inv (fun j s => snd s = off + 2 * (j / 8) /\ seg 1 bf wf 0 (j / 2) l (fst s)) 0 (2 * H) 8
    (fun j '(c, wIdx) => w0 <- get tw wIdx ;; w1 <- get tw (wIdx + 1) ;;
       c <- bf_pair1 R bf w0 w1 j c ;; Ok (c, wIdx + 2)) (l, off)) as ([c w] & E & Ew & S).
  - lia. - lia.
  - replace (2 * H - 0) with ((H / 4) * 8) by lia. apply Z.mod_mul. lia.
  - cbn [fst snd]. split; [rewrite Z.div_0_l; lia|]. apply seg_refl; try assumption; change (0 / 2) with 0; intros; lia.
  - intros j [c w] Hj1 Hj2 Hj [Ew S]. cbn [fst snd] in Ew, S.
    pose proof (Z.div_mod (j - 0) 8 ltac:(lia)) as Dj. rewrite Hj in Dj. replace (j - 0) with j in Dj by lia.
    set (q := j / 8) in *. assert (Ej: j = 8 * q) by lia. clear Dj Hj. subst w.
    assert (E2: j / 2 = 4 * q) by (rewrite Ej; replace (8 * q) with (4 * q * 2) by lia; apply Z.div_mul; lia).
    rewrite E2 in S. rewrite (get_ok z tw (off + 2 * q)), (get_ok z tw (off + 2 * q + 1)) by lia. cbn [bind].
    unfold bf_pair1. destruct S as [Lc S]. rewrite !ptr_ok by lia. cbn [bind].
    assert (Lw: forall b, 0 <= b < 2 -> lowb 1 (4 * q + 2 * b) = true /\ (4 * q + 2 * b) / (2 * 1) = 2 * q + b).
    { intros b Hb. change (2 * 1) with 2. unfold lowb. change (2 * 1) with 2. split.
      - replace (4 * q + 2 * b) with ((2 * q + b) * 2) by lia. rewrite Z.mod_mul by lia. reflexivity.
      - replace (4 * q + 2 * b) with ((2 * q + b) * 2) by lia. apply Z.div_mul. lia. }
    destruct (Lw 0 ltac:(lia)) as [Lo0 Q0]. destruct (Lw 1 ltac:(lia)) as [Lo1 Q1].
    replace (4 * q + 2 * 0) with (4 * q) in * by lia. replace (4 * q + 2 * 1) with (4 * q + 2) in * by lia.
    destruct (seg_one 1 ltac:(lia) P2 bf wf c (znd z tw (off + 2 * q)) (4 * q)) as (c1 & E1 & S1); try assumption; try lia.
    { rewrite Q0. unfold wf, twz. f_equal. lia. }
    destruct (seg_one 1 ltac:(lia) P2 bf wf c1 (znd z tw (off + 2 * q + 1)) (4 * q + 2)) as (c2 & E3 & S2); try assumption; try lia.
    { apply S1. } { rewrite Q1. unfold wf, twz. f_equal. lia. }
    replace (j + 0) with (pos (4 * q)) by (rewrite <- (Z.add_0_r (4 * q)), pos_block by lia; lia).
    replace (j + 4 + 0) with (pos (4 * q) + 4) by (rewrite <- (Z.add_0_r (4 * q)), pos_block by lia; lia).
    replace (j + 1) with (pos (4 * q + 1)) by (rewrite pos_block by lia; lia).
    replace (j + 4 + 1) with (pos (4 * q + 1) + 4) by (rewrite pos_block by lia; lia).
    rewrite E1. cbn [bind].
    replace (j + 2) with (pos (4 * q + 2)) by (rewrite pos_block by lia; lia).
    replace (j + 4 + 2) with (pos (4 * q + 2) + 4) by (rewrite pos_block by lia; lia).
    replace (j + 3) with (pos (4 * q + 2 + 1)) by (replace (4 * q + 2 + 1) with (4 * q + 3) by lia; rewrite pos_block by lia; lia).
    replace (j + 4 + 3) with (pos (4 * q + 2 + 1) + 4) by (replace (4 * q + 2 + 1) with (4 * q + 3) by lia; rewrite pos_block by lia; lia).
    rewrite E3. cbn [bind]. eexists; split; [reflexivity|]. cbn [fst snd].
    assert (E8: (j + 8) / 8 = q + 1) by (rewrite Ej; replace (8 * q + 8) with ((q + 1) * 8) by lia; apply Z.div_mul; lia).
    assert (E9: (j + 8) / 2 = 4 * q + 4) by (rewrite Ej; replace (8 * q + 8) with ((4 * q + 4) * 2) by lia; apply Z.div_mul; lia).
    rewrite E8, E9. split; [lia|].
    assert (G0: seg 1 bf wf 0 (4 * q) l c) by (split; assumption).
    assert (G1: seg 1 bf wf 0 (4 * q + 1) l c1) by (eapply seg_trans; try eassumption; lia).
    assert (G1': seg 1 bf wf 0 (4 * q + 2) l c1).
    { apply (seg_trans 1 ltac:(lia) P2 bf wf 0 (4 * q + 1) (4 * q + 2) l c1 c1 ltac:(lia) G1).
      apply seg_refl; try lia; [apply G1|]. intros b Hb. apply (hi_in 1 ltac:(lia) P2 (2 * q)). lia. }
    assert (G2: seg 1 bf wf 0 (4 * q + 3) l c2).
    { replace (4 * q + 3) with (4 * q + 2 + 1) by lia. eapply seg_trans; try eassumption; lia. }
    apply (seg_trans 1 ltac:(lia) P2 bf wf 0 (4 * q + 3) (4 * q + 4) l c2 c2 ltac:(lia) G2).
    apply seg_refl; try lia; [apply G2|]. intros b Hb. apply (hi_in 1 ltac:(lia) P2 (2 * q + 1)). lia.
  - cbn [fst snd] in Ew, S. rewrite E. f_equal.
    replace (2 * H / 8) with (H / 4) in Ew by (replace (2 * H) with (H / 4 * 8) by lia; rewrite Z.div_mul by lia; reflexivity).
    replace (2 * H / 2) with H in S by (rewrite Z.mul_comm, Z.div_mul by lia; reflexivity).
    rewrite Ew, D2. f_equal. apply (seg_full 1 ltac:(lia) P2). exact S.
Qed.

(** ** the inverse transform *)
Notation ibfly := (invButterfly R).
Definition istage (tw : list cplx) (m T : Z) (l : list A) : list A := stl ibfly T (fun i => twz tw (H - 2 * m + i)) l.
Fixpoint bwd (tw : list cplx) (k : nat) (m T : Z) (l : list A) : list A :=
  match k with
  | O => l
  | S k => bwd tw k (m / 2) (2 * T) (istage tw m T l)
  end.

Lemma zlen_bwd tw k m T l : zlen l = 2 * H -> zlen (bwd tw k m T l) = 2 * H.
Proof. revert m T l. induction k as [|k IH]; intros m T l Hl; cbn [bwd]; [assumption|]. apply IH. apply zlen_stl. Qed.

(** the last stage divides every value *)
Definition cscale (s : A) (x : cplx) : cplx := (a_div R (fst x) s, a_div R (snd x) s).
Definition ibfly_s (s : A) (u v w : cplx) : cplx * cplx := (cscale s (fst (ibfly u v w)), cscale s (snd (ibfly u v w))).

Lemma scale8_ok s q l : zlen l = 2 * H -> 0 <= q -> 4 * q + 4 <= H ->
  exists l', scale8 R s (8 * q) l = Ok l' /\ zlen l' = 2 * H /\
    forall c, 0 <= c < H -> cx l' c = if (4 * q <=? c) && (c <? 4 * q + 4) then cscale s (cx l c) else cx l c.
Proof.
  intros Hl Hq Hr. unfold scale8.
  destruct (for_range_inv (fun k l' => zlen l' = 2 * H /\ forall p, 0 <= p < 2 * H ->
     znd d l' p = if (8 * q <=? p) && (p <? 8 * q + k) then a_div R (znd d l p) s else znd d l p) 0 8
     (fun k c => x <- get c (8 * q + k) ;; set c (8 * q + k) (a_div R x s)) l) as (l' & E & L' & V).
  - lia.
  - split; [assumption|]. intros p Hp. destruct (Z.leb_spec (8 * q) p); destruct (Z.ltb_spec p (8 * q + 0)); try lia; reflexivity.
  - intros k l1 Hk [L1 V1]. rewrite (get_ok d) by lia. cbn [bind]. rewrite set_ok by lia.
    eexists; split; [reflexivity|]. split; [rewrite zlen_upd; assumption|].
    intros p Hp. rewrite znd_upd by lia. destruct (Z.eqb_spec p (8 * q + k)) as [->|Hne].
    + rewrite V1 by lia. destruct (Z.leb_spec (8 * q) (8 * q + k)); [|lia].
      destruct (Z.ltb_spec (8 * q + k) (8 * q + k)); [lia|]. destruct (Z.ltb_spec (8 * q + k) (8 * q + (k + 1))); [|lia]. reflexivity.
    + rewrite V1 by lia. destruct (Z.leb_spec (8 * q) p); cbn [andb]; [|reflexivity].
      destruct (Z.ltb_spec p (8 * q + k)); destruct (Z.ltb_spec p (8 * q + (k + 1))); try lia; reflexivity.
  - exists l'. split; [exact E|]. split; [exact L'|]. intros c Hc. pose proof (pos_range c Hc) as Hp. unfold cx.
    rewrite !V by lia. destruct (c_block c) as (q' & k & -> & Hk). rewrite pos_block in * by assumption.
    destruct (Z.leb_spec (4 * q) (4 * q' + k)), (Z.ltb_spec (4 * q' + k) (4 * q + 4)); cbn [andb];
    destruct (Z.leb_spec (8 * q) (8 * q' + k)); destruct (Z.leb_spec (8 * q) (8 * q' + k + 4));
    destruct (Z.ltb_spec (8 * q' + k) (8 * q + 8)); destruct (Z.ltb_spec (8 * q' + k + 4) (8 * q + 8)); cbn [andb]; try lia; reflexivity.
Qed.

Context (h : Z) (Hh : 3 <= h) (EH : H = 2 ^ h).

Lemma fft_mid_ok tw k : forall fuel a l, a = h - 2 - Z.of_nat k -> 1 <= a -> (k < fuel)%nat -> zlen l = 2 * H -> H - 1 <= zlen tw ->
  fft_mid R fuel tw (2 * H) (2 ^ a) (2 ^ (h + 1 - a)) (l, 2 ^ a - 1)
  = Ok (fwd tw k (2 ^ a) (2 ^ (h - 1 - a)) l, 2 ^ (h - 2) - 1).
Proof.
  assert (E16: 2 * H / 16 = 2 ^ (h - 3)).
  { rewrite EH. replace (2 * 2 ^ h) with (2 ^ (h + 1)) by (rewrite p2S by lia; reflexivity).
    change 16 with (2 ^ 4). rewrite p2div by lia. f_equal; lia. }
  induction k as [|k IH]; intros fuel a l Ea Ha Hf Hl Htw.
  - destruct fuel as [|f]; [lia|]. cbn [fft_mid fwd]. rewrite E16.
    destruct (Z.leb_spec (2 ^ a) (2 ^ (h - 3))) as [G|G].
    + exfalso. apply Z.pow_le_mono_r_iff in G; lia.
    + replace a with (h - 2) by lia. reflexivity.
  - destruct fuel as [|f]; [lia|]. cbn [fft_mid]. rewrite E16.
    destruct (Z.leb_spec (2 ^ a) (2 ^ (h - 3))) as [G|G].
    2:{ exfalso. apply (Z.pow_lt_mono_r_iff 2) in G; lia. }
    rewrite Z.shiftr_div_pow2, Z.shiftl_mul_pow2 by lia. change (2 ^ 1) with 2.
    assert (Et: 2 ^ (h + 1 - a) / 2 = 2 * 2 ^ (h - 1 - a)).
    { replace (h + 1 - a) with (h - 1 - a + 1 + 1) by lia. rewrite !p2S by lia.
      replace (2 * (2 * 2 ^ (h - 1 - a))) with (2 * 2 ^ (h - 1 - a) * 2) by ring. apply Z.div_mul. lia. }
    rewrite Et. pose proof (p2 a ltac:(lia)). pose proof (p2 (h - 1 - a) ltac:(lia)).
    assert (EH': H = 2 * 2 ^ a * 2 ^ (h - 1 - a)).
    { rewrite EH. replace h with (a + (h - 1 - a) + 1) at 1 by lia. rewrite p2S, p2split by lia. ring. }
    rewrite (mid_stage_ok bfly tw (2 ^ a) (2 ^ (h - 1 - a)) (2 ^ a - 1)); try assumption; try lia.
    2:{ apply p2mul4. lia. }
    cbn [bind].
    change (stl bfly (2 ^ (h - 1 - a)) (fun i => twz tw (2 ^ a - 1 + i)) l) with (fstage tw (2 ^ a) (2 ^ (h - 1 - a)) l).
    specialize (IH f (a + 1) (fstage tw (2 ^ a) (2 ^ (h - 1 - a)) l)).
    rewrite p2S in IH by lia.
    replace (2 ^ a * 2) with (2 * 2 ^ a) by ring.
    replace (2 * 2 ^ (h - 1 - a)) with (2 ^ (h + 1 - (a + 1))) by (rewrite <- p2S by lia; f_equal; lia).
    replace (2 ^ a - 1 + 2 ^ a) with (2 * 2 ^ a - 1) by ring.
    rewrite IH; try lia; [|apply zlen_stl].
    cbn [fwd].
    assert (Eh: 2 ^ (h - 1 - a) / 2 = 2 ^ (h - 1 - (a + 1))).
    { replace (h - 1 - a) with (h - 1 - (a + 1) + 1) by lia. rewrite p2S, Z.mul_comm, Z.div_mul by lia. f_equal. }
    rewrite Eh. reflexivity.
Qed.

Lemma log2_2H : Z.log2 (2 * H) = h + 1.
Proof. rewrite EH. rewrite <- p2S by lia. apply Z.log2_pow2. lia. Qed.

Lemma half_H : H / 2 = 2 ^ (h - 1).
Proof. rewrite EH. change 2 with (2 ^ 1) at 2. rewrite p2div by lia. reflexivity. Qed.
Lemma quarter_H : H / 4 = 2 ^ (h - 2).
Proof. rewrite EH. change 4 with (2 ^ 2). rewrite p2div by lia. reflexivity. Qed.

(** fftInPlace is the h stages *)
Definition fft (tw : list cplx) (l : list A) : list A := fwd tw (Z.to_nat h) 1 (H / 2) l.

Lemma fftInPlace_ok tw l : zlen l = 2 * H -> H - 1 <= zlen tw -> fftInPlace R l tw = Ok (fft tw l).
Proof.
  intros Hl Htw. unfold fftInPlace. rewrite Hl. rewrite (get_ok z) by lia. cbn [bind].
  assert (E2: 2 * H / 2 = H) by (rewrite Z.mul_comm, Z.div_mul by lia; reflexivity). rewrite E2.
  pose proof (p2 (h - 1) ltac:(lia)). pose proof (p2 (h - 2) ltac:(lia)).
  assert (EH2: H = 2 * 2 ^ (h - 1)) by (rewrite EH; replace h with (h - 1 + 1) at 1 by lia; apply p2S; lia).
  assert (EH4: H = 4 * 2 ^ (h - 2)).
  { rewrite EH2. replace (h - 1) with (h - 2 + 1) at 1 by lia. rewrite p2S by lia. ring. }
  assert (HT: H mod (2 * 2 ^ (h - 1)) = 0) by (rewrite <- EH2; apply Z.mod_same; lia).
  assert (Hm4: 2 ^ (h - 1) mod 4 = 0) by (apply p2mul4; lia).
  destruct (bf_group_ok (2 ^ (h - 1)) ltac:(lia) HT bfly (fun i => twz tw (0 + i)) l (znd z tw 0) 0 Hl Hm4
     ltac:(lia) ltac:(lia) eq_refl) as (c & Ec & Sc).
  replace (2 * 0 * (2 * 2 ^ (h - 1))) with 0 in Ec by lia. rewrite <- EH2 in Ec. cbn [Z.add] in Ec. rewrite Ec. cbn [bind].
  replace (2 * 0 * 2 ^ (h - 1)) with 0 in Sc by lia. replace (2 * (0 + 1) * 2 ^ (h - 1)) with H in Sc by lia.
  apply seg_full in Sc; try assumption.
  assert (Sc': c = fstage tw 1 (2 ^ (h - 1)) l) by exact Sc. clear Sc Ec.
  assert (Lc: zlen c = 2 * H) by (rewrite Sc'; apply zlen_stl).
  rewrite log2_2H.
  pose proof (fft_mid_ok tw (Z.to_nat (h - 3)) (Z.to_nat (h + 1) + 1) 1 c ltac:(lia) ltac:(lia) ltac:(lia) Lc Htw) as EM.
  change (2 ^ 1) with 2 in EM. replace (h + 1 - 1) with h in EM by lia. rewrite <- EH in EM. change (2 - 1) with 1 in EM.
  rewrite EM. cbn [bind].
  rewrite pair2_ok; [|apply zlen_fwd; assumption|lia|rewrite quarter_H; lia]. cbn [bind].
  rewrite pair1_ok; [|apply zlen_stl|rewrite quarter_H; lia|rewrite half_H, quarter_H; lia]. cbn [bind].
  f_equal. unfold fft. rewrite half_H.
  replace (Z.to_nat h) with (S (S (S (Z.to_nat (h - 3))))) by lia.
  set (k := Z.to_nat (h - 3)). set (T1 := 2 ^ (h - 1)).
  assert (Ek: Z.of_nat k = h - 3) by lia.
  assert (F1: fwd tw k 2 (2 ^ (h - 1 - 1)) c = fwd tw (S k) 1 T1 l).
  { cbn [fwd]. unfold T1. rewrite <- Sc'. f_equal.
    replace (h - 1) with (h - 1 - 1 + 1) at 2 by lia. rewrite p2S by lia. rewrite Z.mul_comm, Z.div_mul by lia. reflexivity. }
  rewrite F1.
  rewrite (fwd_snoc tw (S (S k))), (fwd_snoc tw (S k)).
  set (x := fwd tw (S k) 1 T1 l).
  rewrite !Nat2Z.inj_succ, Ek. rewrite !Z.mul_1_l.
  replace (Z.succ (h - 3)) with (h - 2) by lia. replace (Z.succ (h - 2)) with (h - 1) by lia.
  unfold T1. rewrite !p2div by lia. replace (h - 1 - (h - 2)) with 1 by lia. rewrite Z.sub_diag.
  change (2 ^ 1) with 2. change (2 ^ 0) with 1.
  unfold fstage, stl. apply lay_ext. intros y Hy. apply st_ext; [lia| |assumption| |].
  - change (2 * 1) with 2. rewrite EH2, Z.mul_comm. apply Z.mod_mul. lia.
  - intros w Hw. f_equal.
  - intros i Hi. f_equal. rewrite quarter_H. replace (h - 1) with (h - 2 + 1) by lia. rewrite p2S by lia. lia.
Qed.

Lemma bwd_snoc tw k m T l : bwd tw (S k) m T l = istage tw (m / 2 ^ Z.of_nat k) (T * 2 ^ Z.of_nat k) (bwd tw k m T l).
Proof.
  revert m T l. induction k as [|k IH]; intros m T l.
  - cbn [bwd]. change (2 ^ Z.of_nat 0) with 1. rewrite Z.mul_1_r, Z.div_1_r. reflexivity.
  - change (bwd tw (S (S k)) m T l) with (bwd tw (S k) (m / 2) (2 * T) (istage tw m T l)). rewrite IH.
    change (bwd tw (S k) m T l) with (bwd tw k (m / 2) (2 * T) (istage tw m T l)).
    rewrite Nat2Z.inj_succ, Z.pow_succ_r by lia.
    assert (0 < 2 ^ Z.of_nat k) by (apply Z.pow_pos_nonneg; lia).
    rewrite Z.div_div by lia. f_equal. ring.
Qed.

Lemma ifft_mid_ok tw k : forall fuel a l, a = Z.of_nat k -> a <= h - 3 -> (k < fuel)%nat -> zlen l = 2 * H -> H - 1 <= zlen tw ->
  ifft_mid R fuel tw (2 ^ a) (2 ^ (h - a)) (l, H - 2 * 2 ^ a)
  = Ok (bwd tw k (2 ^ a) (2 ^ (h - 1 - a)) l, H - 2).
Proof.
  induction k as [|k IH]; intros fuel a l Ea Ha Hf Hl Htw.
  - destruct fuel as [|f]; [lia|]. cbn [ifft_mid bwd]. replace a with 0 by lia. change (2 ^ 0) with 1.
    change (2 <=? 1) with false. cbv iota. repeat f_equal.
  - destruct fuel as [|f]; [lia|]. cbn [ifft_mid].
    pose proof (p2 (a - 1) ltac:(lia)). pose proof (p2 (h - 1 - a) ltac:(lia)).
    assert (E2a: 2 ^ a = 2 * 2 ^ (a - 1)) by (replace a with (a - 1 + 1) at 1 by lia; apply p2S; lia).
    destruct (Z.leb_spec 2 (2 ^ a)); [|lia].
    assert (Et: 2 ^ (h - a) = 2 * 2 ^ (h - 1 - a)) by (replace (h - a) with (h - 1 - a + 1) by lia; apply p2S; lia).
    assert (EH': H = 2 * 2 ^ a * 2 ^ (h - 1 - a)).
    { rewrite EH. replace h with (a + (h - 1 - a) + 1) at 1 by lia. rewrite p2S, p2split by lia. ring. }
    rewrite Et. rewrite (mid_stage_ok ibfly tw (2 ^ a) (2 ^ (h - 1 - a)) (H - 2 * 2 ^ a)); try assumption; try lia.
    2:{ apply p2mul4. lia. }
    2:{ nia. }
    cbn [bind]. rewrite Z.shiftr_div_pow2, Z.shiftl_mul_pow2 by lia. change (2 ^ 1) with 2.
    change (stl ibfly (2 ^ (h - 1 - a)) (fun i => twz tw (H - 2 * 2 ^ a + i)) l) with (istage tw (2 ^ a) (2 ^ (h - 1 - a)) l).
    specialize (IH f (a - 1) (istage tw (2 ^ a) (2 ^ (h - 1 - a)) l)).
    replace (H - 2 * 2 ^ a + 2 ^ a) with (H - 2 * 2 ^ (a - 1)) by lia.
    assert (E1: 2 ^ a / 2 = 2 ^ (a - 1)) by (rewrite E2a, Z.mul_comm; apply Z.div_mul; lia). rewrite E1.
    replace (2 * 2 ^ (h - 1 - a) * 2) with (2 ^ (h - (a - 1))).
    2:{ replace (h - (a - 1)) with (h - a + 1) by lia. rewrite p2S, Et by lia. ring. }
    rewrite IH; try lia; [|apply zlen_stl].
    cbn [bwd]. rewrite E1.
    assert (Eh: 2 ^ (h - 1 - (a - 1)) = 2 * 2 ^ (h - 1 - a)).
    { replace (h - 1 - (a - 1)) with (h - 1 - a + 1) by lia. apply p2S. lia. }
    rewrite Eh. reflexivity.
Qed.

(** ifftInPlace: h - 1 stages, then the scaled last one *)
Definition ifft (tw : list cplx) (l : list A) : list A :=
  stl (ibfly_s (a_of R H)) (H / 2) (fun i => twz tw (H - 2 + i)) (bwd tw (Z.to_nat (h - 1)) (H / 2) 1 l).

Lemma ifftInPlace_ok tw l : zlen l = 2 * H -> H - 1 <= zlen tw -> ifftInPlace R l tw = Ok (ifft tw l).
Proof.
  intros Hl Htw. unfold ifftInPlace. rewrite Hl.
  assert (E2: 2 * H / 2 = H) by (rewrite Z.mul_comm, Z.div_mul by lia; reflexivity). rewrite E2.
  pose proof (p2 (h - 1) ltac:(lia)). pose proof (p2 (h - 2) ltac:(lia)). pose proof (p2 (h - 3) ltac:(lia)).
  assert (EH2: H = 2 * 2 ^ (h - 1)) by (rewrite EH; replace h with (h - 1 + 1) at 1 by lia; apply p2S; lia).
  assert (EH3: 2 ^ (h - 1) = 2 * 2 ^ (h - 2)) by (replace (h - 1) with (h - 2 + 1) by lia; apply p2S; lia).
  assert (EH4: 2 ^ (h - 2) = 2 * 2 ^ (h - 3)) by (replace (h - 2) with (h - 3 + 1) by lia; apply p2S; lia).
  rewrite pair1_ok by (rewrite ?half_H; lia). cbn [bind].
  rewrite pair2_ok; [|apply zlen_stl|rewrite half_H; lia|rewrite half_H, quarter_H; lia]. cbn [bind].
  set (l1 := stl ibfly 1 (fun i => twz tw (0 + i)) l).
  set (l2 := stl ibfly 2 _ l1).
  assert (F1: l1 = istage tw (2 ^ (h - 1)) 1 l).
  { unfold l1, istage, stl. apply lay_ext. intros y Hy. apply st_ext; [lia| |assumption|reflexivity|].
    - change (2 * 1) with 2. rewrite EH2, Z.mul_comm. apply Z.mod_mul. lia.
    - intros i Hi. f_equal. lia. }
  assert (F2: l2 = istage tw (2 ^ (h - 2)) 2 l1).
  { unfold l2, istage, stl. apply lay_ext. intros y Hy. apply st_ext; [lia|exact H4|assumption|reflexivity|].
    intros i Hi. f_equal. rewrite half_H. lia. }
  assert (E16: 2 * H / 16 = 2 ^ (h - 3)).
  { rewrite EH. replace (2 * 2 ^ h) with (2 ^ (h + 1)) by (rewrite p2S by lia; reflexivity).
    change 16 with (2 ^ 4). rewrite p2div by lia. f_equal; lia. }
  rewrite E16, log2_2H.
  pose proof (ifft_mid_ok tw (Z.to_nat (h - 3)) (Z.to_nat (h + 1) + 1) (h - 3) l2 ltac:(lia) ltac:(lia) ltac:(lia) (zlen_stl _ _ _ _) Htw) as EM.
  replace (h - (h - 3)) with 3 in EM by lia. change (2 ^ 3) with 8 in EM. replace (h - 1 - (h - 3)) with 2 in EM by lia.
  change (2 ^ 2) with 4 in EM.
  replace (0 + H / 2 + H / 4) with (H - 2 * 2 ^ (h - 3)) by (rewrite half_H, quarter_H; lia).
  rewrite EM. cbn [bind]. rewrite (get_ok z) by lia. cbn [bind].
  assert (F3: bwd tw (Z.to_nat (h - 3)) (2 ^ (h - 3)) 4 l2 = bwd tw (Z.to_nat (h - 1)) (H / 2) 1 l).
  { replace (Z.to_nat (h - 1)) with (S (S (Z.to_nat (h - 3)))) by lia. cbn [bwd]. rewrite half_H.
    replace (2 ^ (h - 1) / 2) with (2 ^ (h - 2)) by (rewrite EH3, Z.mul_comm, Z.div_mul by lia; reflexivity).
    replace (2 ^ (h - 2) / 2) with (2 ^ (h - 3)) by (rewrite EH4, Z.mul_comm, Z.div_mul by lia; reflexivity).
    rewrite F2, F1. reflexivity. }
  rewrite F3. unfold ifft. set (x := bwd tw (Z.to_nat (h - 1)) (H / 2) 1 l).
  assert (Lx: zlen x = 2 * H) by (apply zlen_bwd; assumption).
  rewrite half_H. set (T := 2 ^ (h - 1)) in *. set (sc := a_of R H).
  set (wf := fun i => twz tw (H - 2 + i)).
  assert (HT: H mod (2 * T) = 0) by (rewrite <- EH2; apply Z.mod_same; lia).
  assert (Hm4: T mod 4 = 0) by (apply p2mul4; lia).
  pose proof (Z.div_mod T 4 ltac:(lia)) as DT. rewrite Hm4 in DT. set (t4 := T / 4) in *.
  destruct (for_step_inv (fun j l' => seg T (ibfly_s sc) wf 0 (j / 2) x l') 0 H 8
    (fun j c => c <- bf_block R ibfly (znd z tw (H - 2)) H j c ;; c <- scale8 R sc j c ;; scale8 R sc (j + H) c) x) as (l' & E & S).
  - lia. - lia.
  - replace (H - 0) with (t4 * 8) by lia. apply Z.mod_mul. lia.
  - change (0 / 2) with 0. apply seg_refl; try assumption; try lia; intros; lia.
  - intros j c Hj1 Hj2 Hj Sc.
    pose proof (Z.div_mod (j - 0) 8 ltac:(lia)) as Dj. rewrite Hj in Dj. replace (j - 0) with j in Dj by lia.
    set (q := j / 8) in *. assert (Ej: j = 8 * q) by lia. clear Dj Hj.
    assert (Ej2: j / 2 = 4 * q) by (rewrite Ej; replace (8 * q) with (4 * q * 2) by lia; apply Z.div_mul; lia).
    assert (Ej3: (j + 8) / 2 = 4 * q + 4) by (rewrite Ej; replace (8 * q + 8) with ((4 * q + 4) * 2) by lia; apply Z.div_mul; lia).
    rewrite Ej2 in Sc. rewrite Ej3. rewrite Ej.
    destruct (bf_block_ok T ltac:(lia) HT ibfly wf c (znd z tw (H - 2)) q 0 ltac:(apply Sc) Hm4 ltac:(lia) ltac:(lia) ltac:(lia) ltac:(lia))
      as (c1 & E1 & S1).
    { unfold wf, twz. f_equal. lia. }
    replace (bf_block R ibfly (znd z tw (H - 2)) H (8 * q) c) with (bf_block R ibfly (znd z tw (H - 2)) (2 * T) (8 * q) c) by (rewrite <- EH2; reflexivity).
    rewrite E1. cbn [bind].
    destruct S1 as [L1 V1].
    destruct (scale8_ok sc q c1 L1 ltac:(lia) ltac:(lia)) as (c2 & E3 & L2 & V2). rewrite E3. cbn [bind].
    replace (8 * q + H) with (8 * (q + t4)) by lia.
    destruct (scale8_ok sc (q + t4) c2 L2 ltac:(lia) ltac:(lia)) as (c3 & E4 & L3 & V3). rewrite E4.
    exists c3. split; [reflexivity|].
    eapply seg_trans; try eassumption; try lia. split; [assumption|].
    intros y Hy. rewrite V3, V2, V1 by assumption.
    assert (Hlow: lowb T y = (y <? T)).
    { unfold lowb. rewrite Z.mod_small by lia. reflexivity. }
    unfold inr, base, st, ibfly_s. rewrite Hlow. cbn [fst snd]. destruct (Z.ltb_spec y T) as [Hy'|Hy'].
    + destruct ((4 * q <=? y) && (y <? 4 * q + 4)) eqn:G; destruct ((4 * (q + t4) <=? y) && (y <? 4 * (q + t4) + 4)) eqn:G2; try lia; reflexivity.
    + destruct ((4 * q <=? y - T) && (y - T <? 4 * q + 4)) eqn:G; destruct ((4 * (q + t4) <=? y) && (y <? 4 * (q + t4) + 4)) eqn:G2;
        destruct ((4 * q <=? y) && (y <? 4 * q + 4)) eqn:G3; try lia; reflexivity.
  - rewrite E. f_equal. apply seg_full; try assumption; try lia.
    replace (H / 2) with T in S by (symmetry; apply half_H).
    replace T with (H / 2) in S at 2 by apply half_H.
    (* the last group reaches T = H/2; no bases beyond *)
    apply (seg_trans T ltac:(lia) HT (ibfly_s sc) wf 0 (H / 2) H x l' l'); [rewrite half_H; fold T; lia|exact S|].
    apply seg_refl; try assumption; try lia; [apply S|]. intros b Hb. rewrite half_H in Hb. fold T in Hb.
    apply (hi_in T ltac:(lia) HT 0). lia.
Qed.

End Facts.

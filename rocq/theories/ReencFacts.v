(** * Public key encryption and proxy re-encryption *)
From Coq Require Import Lia ZifyBool Setoid Morphisms List.
From Verif Require Import GoBase GoFacts F64 Utils UtilsFacts Params Tlwe TlweFacts BasicFacts
  Poly PolyFacts Trgsw KeySwitchFacts CloudKey CloudKeyFacts ProxyReenc.
Import ListNotations.
Local Open Scope Z_scope.
Ltac Zify.zify_post_hook ::= idtac.

Lemma for_each_inv {A S} (d : A) (P : Z -> S -> Prop) (l : list A) (body : Z -> A -> S -> res S) (s : S) :
  P 0 s -> (forall i st, 0 <= i < zlen l -> P i st -> exists st', body i (znd d l i) st = Ok st' /\ P (i + 1) st') ->
  exists st, for_each l body s = Ok st /\ P (zlen l) st.
Proof.
  intros H0 Hs. unfold for_each.
  assert (G: forall t k st, 0 <= k -> k + zlen t = zlen l -> (forall i, 0 <= i < zlen t -> znd d t i = znd d l (k + i)) -> P k st ->
     exists st', for_each_nat k t body st = Ok st' /\ P (zlen l) st').
  { induction t as [|x t IH]; intros k st Hk Hl Ht HP.
    - exists st. split; [reflexivity|]. unfold zlen in Hl at 1. cbn [length] in Hl. replace (zlen l) with k by lia. exact HP.
    - rewrite zlen_cons in *. pose proof (zlen_nonneg t). cbn [for_each_nat].
      destruct (Hs k st ltac:(lia) HP) as (st' & E & HP'). rewrite <- (Z.add_0_r k) in E at 2. rewrite <- Ht in E by lia.
      change (znd d (x :: t) 0) with x in E. rewrite E. cbn [bind]. apply IH; [lia|lia| |exact HP'].
      intros i Hi. replace (k + 1 + i) with (k + (i + 1)) by lia. rewrite <- Ht by lia.
      rewrite znd_consS by lia. f_equal. lia. }
  apply G; [lia|lia|reflexivity|exact H0].
Qed.

(** ** public keys *)

(** how entry e enters an encryption *)
Definition pk_sel (r : pk_rand) (e : Z) : Z := if pk_use r e then if pk_add r e then 1 else - 1 else 0.

Lemma F64ToTorus_0 : F64ToTorus (f_of_Z 0) = 0.
Proof. reflexivity. Qed.

Lemma pk_new n sk size rnd : 0 <= n -> n <= zlen sk -> 0 <= size ->
  exists pk, NewPublicKeyLv0WithParams n sk size rnd = Ok pk /\ zlen pk = size /\
    forall i, 0 <= i < size -> lwe_ok n (znd [] pk i) /\ lwe_phase n sk (znd [] pk i) == F64ToTorus (er_noise (rnd i)).
Proof.
  intros Hn Hk Hs. unfold NewPublicKeyLv0WithParams. rewrite make_ok by assumption. cbn [bind].
  assert (Hl: forall i, (ct <- NewTLWE n ;; EncryptF64 n ct (f_of_Z 0) sk (rnd i)) = Ok (lenc n (f_of_Z 0) sk (rnd i))).
  { intro i. apply lenc_ok; assumption. }
  destruct (for_range_inv (fun i (st : list (list Z)) => zlen st = size /\ forall j, 0 <= j < i -> znd [] st j = lenc n (f_of_Z 0) sk (rnd j))
    0 size (fun i encryptions => ct <- (ct <- NewTLWE n ;; EncryptF64 n ct (f_of_Z 0) sk (rnd i)) ;; set encryptions i ct)
    (repeat [] (Z.to_nat size))) as (pk & E & Hz & HI).
  - assumption.
  - split; [rewrite zlen_repeat; lia|]. intros; lia.
  - intros i st Hi [Hst Hv]. rewrite Hl. cbn [bind]. rewrite set_ok by lia. eexists; split; [reflexivity|].
    split; [rewrite zlen_upd; assumption|]. intros j Hj. rewrite znd_upd by lia. destruct (Z.eqb_spec j i) as [->|]; [reflexivity|apply Hv; lia].
  - exists pk. split; [exact E|]. split; [exact Hz|]. intros i Hi. rewrite HI by assumption.
    destruct (lenc_ok n (f_of_Z 0) sk (rnd i) Hn Hk) as (_ & A & B). split; [exact A|]. rewrite B, F64ToTorus_0. reflexivity.
Qed.

Lemma phase_pm n s t u c : 0 <= n -> zlen t = n + 1 -> zlen u = n + 1 ->
  lwe_phase n s (tab (n + 1) (fun x => w32 (zn t x + c * zn u x))) == lwe_phase n s t + c * lwe_phase n s u.
Proof.
  intros Hn Ht Hu. rewrite !lwe_phase_eqm. rewrite zn_tab by lia. rewrite eqm_w32.
  rewrite (zsum_eqm n _ (fun i => zn t i * zn s i + c * (zn u i * zn s i))).
  - rewrite zsum_add, zsum_mul_l. apply eqm_refl'. ring.
  - intros i Hi. rewrite zn_tab by lia. rewrite eqm_w32. apply eqm_refl'. ring.
Qed.

Lemma map_loop n (f : Z -> Z -> Z) (g : Z -> Z -> Z) v (enc : list Z) : zlen v = n -> zlen enc = n -> (forall x y, f x y = g x y) ->
  for_range 0 n (fun i result => w <- (x <- get result i ;; y <- get enc i ;; Ok (f x y)) ;; set result i w) v
  = Ok (tab n (fun x => g (zn v x) (zn enc x))).
Proof.
  intros Hv He Hfg. pose proof (zlen_nonneg v).
  for_inv (fun i b => zlen b = n /\ forall j, 0 <= j < n -> zn b j = if j <? i then g (zn v j) (zn enc j) else zn v j) E3 HI.
  - lia.
  - split; [assumption|]. intros j Hj. destruct (Z.ltb_spec j 0); lia || reflexivity.
  - intros i b Hi [Hb Hz]. rewrite get_zn by lia. cbn [bind]. rewrite get_zn by lia. cbn [bind]. rewrite set_ok by lia.
    eexists; split; [reflexivity|]. split; [rewrite zlen_upd; assumption|].
    intros j Hj. rewrite zn_upd by lia. rewrite !Hz by lia. rewrite Hfg.
    destruct (Z.eqb_spec j i), (Z.ltb_spec j i), (Z.ltb_spec j (i + 1)), (Z.ltb_spec i i); subst; try lia; reflexivity.
  - f_equal. destruct HI as [Hb Hz]. apply (eq_tab 0); [assumption|]. intros j Hj. change (znd 0 st j) with (zn st j).
    rewrite Hz by assumption. destruct (Z.ltb_spec j n); [reflexivity|lia].
Qed.

Lemma pk_enc n pk p r : 0 <= n -> (forall i, 0 <= i < zlen pk -> zlen (znd [] pk i) = n + 1) ->
  exists ct, PkEncryptF64 n pk p r = Ok ct /\ lwe_ok n ct /\
    forall s, lwe_phase n s ct == F64ToTorus p + zsum (zlen pk) (fun e => pk_sel r e * lwe_phase n s (znd [] pk e)) + F64ToTorus (pk_noise r).
Proof.
  intros Hn Hpk. unfold PkEncryptF64, NewTLWE. rewrite make_ok by lia. cbn [bind]. unfold SetB.
  rewrite set_ok by (rewrite zlen_repeat; lia). cbn [bind]. fold (lastcell n (F64ToTorus p)).
  assert (Hlen: zlen (lastcell n (F64ToTorus p)) = n + 1) by (apply zlen_lastcell; assumption).
  assert (Htk: tok_list (lastcell n (F64ToTorus p))) by (apply tok_lastcell; [assumption|apply tok_w32]).
  assert (Hph: forall s, lwe_phase n s (lastcell n (F64ToTorus p)) == F64ToTorus p).
  { intro s. rewrite lwe_phase_eqm. rewrite zn_lastcell, Z.eqb_refl by lia. rewrite zsum_zero; [apply eqm_refl'; ring|].
    intros i Hi. rewrite zn_lastcell by lia. destruct (Z.eqb_spec i n); lia. }
  match goal with |- context [for_each pk ?b _] => set (body := b) end.
  destruct (for_each_inv [] (fun k st => lwe_ok n st /\ forall s, lwe_phase n s st == F64ToTorus p + zsum k (fun e => pk_sel r e * lwe_phase n s (znd [] pk e)))
     pk body (lastcell n (F64ToTorus p))) as (st & E & [Hsl Hst] & HI).
  - split; [split; assumption|]. intro s. rewrite Hph. rewrite zsum_0 by lia. apply eqm_refl'. ring.
  - intros i st Hi [[Hsl Hst] HI]. unfold body. pose proof (Hpk i Hi) as Hlp.
    assert (K: forall c, (forall s, lwe_phase n s (tab (n + 1) (fun x => w32 (zn st x + c * zn (znd [] pk i) x))) ==
       F64ToTorus p + zsum i (fun e => pk_sel r e * lwe_phase n s (znd [] pk e)) + c * lwe_phase n s (znd [] pk i)) /\
       lwe_ok n (tab (n + 1) (fun x => w32 (zn st x + c * zn (znd [] pk i) x)))).
    { intro c. split; [intro s; rewrite phase_pm by assumption; rewrite HI; reflexivity|].
      split; [apply zlen_tab; lia|apply tok_tab; intros; apply tok_w32]. }
    assert (Z1: forall s, zsum (i + 1) (fun e => pk_sel r e * lwe_phase n s (znd [] pk e)) =
       zsum i (fun e => pk_sel r e * lwe_phase n s (znd [] pk e)) + pk_sel r i * lwe_phase n s (znd [] pk i)).
    { intro s. apply (zsum_S (fun e => pk_sel r e * lwe_phase n s (znd [] pk e))). lia. }
    unfold pk_sel in Z1 at 3. destruct (pk_use r i); [destruct (pk_add r i)|].
    + rewrite (map_loop (n + 1) tadd (fun x y => w32 (x + 1 * y))) by (assumption || (intros; unfold tadd; f_equal; ring)).
      eexists; split; [reflexivity|]. destruct (K 1) as [K1 K2]. split; [exact K2|]. intro s. rewrite Z1. rewrite K1. apply eqm_refl'. ring.
    + rewrite (map_loop (n + 1) tsub (fun x y => w32 (x + (-1) * y))) by (assumption || (intros; unfold tsub; f_equal; ring)).
      eexists; split; [reflexivity|]. destruct (K (-1)) as [K1 K2]. split; [exact K2|]. intro s. rewrite Z1. rewrite K1. apply eqm_refl'. ring.
    + eexists; split; [reflexivity|]. split; [split; assumption|]. intro s. rewrite Z1. rewrite HI. apply eqm_refl'. ring.
  - rewrite E. cbn [bind]. unfold tlwe_B. rewrite get_zn by lia. cbn [bind]. rewrite set_ok by lia.
    eexists; split; [reflexivity|]. assert (Gn: GaussianF64 (f_of_Z 0) (pk_noise r) == F64ToTorus (pk_noise r)).
    { unfold GaussianF64, GaussianTorus. rewrite tadd_eqm, F64ToTorus_0. reflexivity. }
    split.
    + split; [rewrite zlen_upd; assumption|]. apply (Forall_znd tok 0). intros i Hi. rewrite zlen_upd in Hi. rewrite znd_upd by lia.
      destruct (i =? n); [apply tok_w32|apply (proj1 (Forall_znd tok 0 st) Hst); lia].
    + intro s. rewrite <- HI. rewrite !lwe_phase_eqm. rewrite zn_upd, Z.eqb_refl by lia. rewrite tadd_eqm, Gn.
      rewrite (zsum_ext n (fun i => zn (upd st n _) i * zn s i) (fun i => zn st i * zn s i)).
      * apply eqm_refl'. ring.
      * intros i Hi. rewrite zn_upd by lia. destruct (Z.eqb_spec i n); [lia|reflexivity].
Qed.

(** decryption of a public key encryption *)
Lemma lwe_sum_eqm m (f g : Z -> Z) c : (forall i, 0 <= i < m -> f i == g i) -> zsum m (fun e => c e * f e) == zsum m (fun e => c e * g e).
Proof. intro H. apply zsum_eqm. intros i Hi. rewrite (H i Hi). reflexivity. Qed.

Lemma pk_roundtrip n sk size rnd b r : 0 <= n -> zlen sk = n -> 0 <= size ->
  exists pk ct b', NewPublicKeyLv0WithParams n sk size rnd = Ok pk /\ PkEncryptBool n pk b r = Ok ct /\ lwe_ok n ct /\
    DecryptBool n ct sk = Ok b' /\
    (b' = b <-> bool_noise_ok b (centered (zsum size (fun e => pk_sel r e * F64ToTorus (er_noise (rnd e))) + F64ToTorus (pk_noise r)))).
Proof.
  intros Hn Hk Hs. destruct (pk_new n sk size rnd Hn ltac:(lia) Hs) as (pk & E & Hz & Hp).
  destruct (pk_enc n pk (if b then f_eighth else f_meighth) r Hn) as (ct & E2 & Hok & Hph).
  { intros i Hi. apply Hp. lia. }
  exists pk, ct, (0 <=? centered (lwe_phase n sk ct)). split; [exact E|]. split; [exact E2|]. split; [exact Hok|].
  split; [apply DecryptBool_ok; [assumption|destruct Hok; lia|lia]|]. apply sign_of_phase. rewrite Hph, Hz.
  rewrite (lwe_sum_eqm size (fun e => lwe_phase n sk (znd [] pk e)) (fun e => F64ToTorus (er_noise (rnd e))) (pk_sel r)) by (intros; apply Hp; assumption).
  replace (F64ToTorus (if b then f_eighth else f_meighth)) with (w32 (mu_bit b)) by (destruct b; vm_compute; reflexivity).
  rewrite eqm_w32. apply eqm_refl'. ring.
Qed.

(** the number of entries an encryption uses *)
Definition pk_count (size : Z) (r : pk_rand) : Z := zsum size (fun e => if pk_use r e then 1 else 0).
Lemma pk_count_le size r : 0 <= size -> 0 <= pk_count size r <= size.
Proof.
  intro Hs. unfold pk_count. split; [apply zsum_nonneg; intros; destruct (pk_use r i); lia|].
  rewrite <- (Z.mul_1_r size) at 2. rewrite <- (zsum_const size 1) by assumption. apply zsum_le. intros. destruct (pk_use r i); lia.
Qed.

Lemma pk_sum_close size r E (f : Z -> Z) : (forall i, 0 <= i < size -> close E (f i) 0) ->
  close (pk_count size r * E) (zsum size (fun e => pk_sel r e * f e)) 0.
Proof.
  intro H. unfold pk_count. rewrite <- zsum_mul_r. rewrite <- (zsum_zero size (fun _ => 0)) at 1 by reflexivity.
  apply zsum_close. intros i Hi. unfold pk_sel. specialize (H i Hi).
  destruct (pk_use r i); [destruct (pk_add r i)|].
  - rewrite !Z.mul_1_l. exact H.
  - destruct H as (e & He & Hc). exists (- e). split; [lia|]. rewrite Hc. apply eqm_refl'. ring.
  - exists 0. split; [lia|]. reflexivity.
Qed.

(** ** re-encryption keys *)
Lemma kidx_decode' bb t i j k : 0 <= j < t -> 0 <= k < 2 ^ bb ->
  kidx bb t i j k mod 2 ^ bb = k /\ kidx bb t i j k / (2 ^ bb * t) = i /\ (kidx bb t i j k / 2 ^ bb) mod t = j.
Proof.
  intros Hj Hk. unfold kidx. set (b := 2 ^ bb) in *. clearbody b.
  assert (E1: (b * t * i + b * j + k) / b = t * i + j).
  { symmetry. apply (Z.div_unique_pos _ _ _ k); [lia|ring]. }
  split; [|split].
  - symmetry. apply (Z.mod_unique_pos _ _ (t * i + j)); [lia|ring].
  - symmetry. apply (Z.div_unique_pos _ _ _ (b * j + k)); [|ring].
    split; [apply Z.add_nonneg_nonneg; [apply Z.mul_nonneg_nonneg|]; lia|].
    assert (b * j + b <= b * t) by (replace (b * j + b) with (b * (j + 1)) by ring; apply Z.mul_le_mono_nonneg_l; lia). lia.
  - rewrite E1. symmetry. apply (Z.mod_unique_pos _ _ i); [lia|ring].
Qed.

Definition rplain (k s sh : Z) : f64 := fdiv (fmul (f_of_Z k) (f_of_Z s)) (f_of_Z (w32 (Z.shiftl 1 sh))).
Lemma reenc_plain_ok k s sh : 0 <= sh -> reenc_plain k s sh = Ok (rplain k s sh).
Proof. intro H. unfold reenc_plain, shl32. destruct (Z.ltb_spec sh 0); [lia|]. reflexivity. Qed.

Lemma rplain_torus k s sh : 0 <= k -> k < 2 ^ sh -> s = 0 \/ s = 1 -> 1 <= sh <= 31 ->
  F64ToTorus (rplain k s sh) = k * s * 2 ^ (32 - sh).
Proof.
  intros Hk Hks Hs Hsh. rewrite <- (ksk_plain_torus k s sh) by assumption. f_equal. unfold rplain, ksk_plain. do 2 f_equal.
  assert (Hp: 0 < 2 ^ sh <= 2 ^ 31) by (split; [apply Z.pow_pos_nonneg; lia|apply Z.pow_le_mono_r; lia]).
  change (2 ^ 31) with 2147483648 in Hp. rewrite Z.shiftl_mul_pow2, Z.mul_1_l by lia.
  rewrite w32_small by (unfold two32; lia). unfold wN. symmetry. apply Z.mod_small. change (2 ^ 64) with 18446744073709551616. lia.
Qed.

Section Keygen.
Context (n bb t : Z) (kf : list Z) (enc : Z -> f64 -> res (list Z)) (cv : Z -> f64 -> list Z).
Context (Hn : 0 <= n) (Hb : 0 <= bb <= 62) (Ht : 0 <= t) (Hk : n <= zlen kf)
  (Henc : forall idx p, enc idx p = Ok (cv idx p)).
Notation B := (2 ^ bb).

Definition rzero : list Z := repeat 0 (Z.to_nat (n + 1)).
Definition rval (x : Z) : list Z := cv x (rplain (x mod B) (zn kf (x / (B * t))) (((x / B) mod t + 1) * bb)).
Definition rfill (u : Z) (ke : list (list Z)) : Prop := zlen ke = B * t * n /\
  forall x, 0 <= x < B * t * n -> znd [] ke x = if (x <? u) && negb (x mod B =? 0) then rval x else rzero.

Lemma rkeygen_ok : exists ke, reenc_keygen n kf bb t enc = Ok {| KeyEncryptions := ke; Base := B; T := t |} /\ rfill (B * t * n) ke.
Proof.
  assert (HB: 0 < B) by (apply Z.pow_pos_nonneg; lia).
  assert (Hsz: 0 <= B * t * n) by (apply Z.mul_nonneg_nonneg; [apply Z.mul_nonneg_nonneg|]; lia).
  unfold reenc_keygen. rewrite shl_int_ok by lia. cbn [bind]. rewrite Z.shiftl_mul_pow2, Z.mul_1_l by lia.
  unfold NewTLWE. rewrite make_ok by lia. cbn [bind]. rewrite make_ok by exact Hsz. cbn [bind].
  assert (H0: rfill 0 (repeat rzero (Z.to_nat (B * t * n)))).
  { split; [rewrite zlen_repeat; lia|]. intros x Hx. rewrite znd_repeat by lia. destruct (Z.ltb_spec x 0); [lia|reflexivity]. }
  assert (Hstep: forall i j k ke, 0 <= i < n -> 0 <= j < t -> 0 <= k < B -> rfill (kidx bb t i j k) ke ->
    exists ke', (if k =? 0 then Ok ke else
          let shiftAmount := (j + 1) * bb in
          s <- get kf i ;;
          p <- reenc_plain k s shiftAmount ;;
          let idx := B * t * i + B * j + k in
          ct <- enc idx p ;;
          set ke idx ct) = Ok ke' /\ rfill (kidx bb t i j (k + 1)) ke').
  { intros i j k ke Hi Hj Hkk [Hl Hf]. pose proof (kidx_range bb t n i j k ltac:(lia) Hi Hj Hkk) as Hr.
    destruct (kidx_decode' bb t i j k Hj Hkk) as (D1 & D2 & D3).
    assert (Hs: kidx bb t i j (k + 1) = kidx bb t i j k + 1) by (unfold kidx; ring).
    destruct (Z.eqb_spec k 0) as [K0|K0].
    - exists ke. split; [reflexivity|]. split; [exact Hl|]. intros x Hx. rewrite Hf by assumption. rewrite Hs.
      destruct (Z.ltb_spec x (kidx bb t i j k)), (Z.ltb_spec x (kidx bb t i j k + 1)); try reflexivity; [lia|].
      replace x with (kidx bb t i j k) by lia. rewrite D1, K0. reflexivity.
    - cbv zeta. rewrite get_zn by lia. cbn [bind]. rewrite reenc_plain_ok by (apply Z.mul_nonneg_nonneg; lia). cbn [bind].
      rewrite Henc. cbn [bind]. fold (kidx bb t i j k). rewrite set_ok by lia. eexists; split; [reflexivity|].
      split; [rewrite zlen_upd; exact Hl|]. intros x Hx. rewrite znd_upd by lia. rewrite Hf by assumption. rewrite Hs.
      destruct (Z.eqb_spec x (kidx bb t i j k)) as [->|].
      + destruct (Z.ltb_spec (kidx bb t i j k) (kidx bb t i j k + 1)); [|lia]. rewrite D1.
        destruct (Z.eqb_spec k 0); [contradiction|]. cbn [andb negb]. unfold rval. rewrite D1, D2, D3. reflexivity.
      + destruct (Z.ltb_spec x (kidx bb t i j k)), (Z.ltb_spec x (kidx bb t i j k + 1)); reflexivity || lia. }
  assert (Hmid: forall i j ke, 0 <= i < n -> 0 <= j < t -> rfill (kidx bb t i j 0) ke ->
    exists ke', for_range 0 B (fun k ke => if k =? 0 then Ok ke else
          let shiftAmount := (j + 1) * bb in
          s <- get kf i ;;
          p <- reenc_plain k s shiftAmount ;;
          let idx := B * t * i + B * j + k in
          ct <- enc idx p ;;
          set ke idx ct) ke = Ok ke' /\ rfill (kidx bb t i (j + 1) 0) ke').
  { intros i j ke Hi Hj Hf.
    match goal with |- exists q, for_range 0 B ?b ke = _ /\ _ =>
      destruct (for_range_inv (fun k ke => rfill (kidx bb t i j k) ke) 0 B b ke) as (ke' & E & H') end.
    - lia.
    - exact Hf.
    - intros k ke1 Hkk Hf1. apply Hstep; assumption.
    - exists ke'. split; [exact E|]. replace (kidx bb t i (j + 1) 0) with (kidx bb t i j B) by (unfold kidx; ring). exact H'. }
  match goal with |- exists q, (x <- for_range 0 n ?b ?z ;; _) = _ /\ _ =>
    destruct (for_range_inv (fun i ke => rfill (kidx bb t i 0 0) ke) 0 n b z) as (ke & E & H') end.
  - assumption.
  - replace (kidx bb t 0 0 0) with 0 by (unfold kidx; ring). exact H0.
  - intros i ke Hi Hf.
    match goal with |- exists q, for_range 0 t ?b ke = _ /\ _ =>
      destruct (for_range_inv (fun j ke => rfill (kidx bb t i j 0) ke) 0 t b ke) as (ke' & E & H') end.
    + assumption.
    + exact Hf.
    + intros j ke1 Hj Hf1. apply Hmid; assumption.
    + exists ke'. split; [exact E|]. replace (kidx bb t (i + 1) 0 0) with (kidx bb t i t 0) by (unfold kidx; ring). exact H'.
  - rewrite E. cbn [bind]. exists ke. split; [reflexivity|]. replace (B * t * n) with (kidx bb t n 0 0) by (unfold kidx; ring). exact H'.
Qed.

Lemma rfill_at ke i j k : rfill (B * t * n) ke -> 0 <= i < n -> 0 <= j < t -> 1 <= k < B ->
  znd [] ke (kidx bb t i j k) = cv (kidx bb t i j k) (rplain k (zn kf i) ((j + 1) * bb)).
Proof.
  clear Henc enc Hn Ht Hk. intros [Hl Hf] Hi Hj Hkk. pose proof (kidx_range bb t n i j k ltac:(lia) Hi Hj ltac:(lia)) as Hr.
  rewrite Hf by assumption. destruct (kidx_decode' bb t i j k Hj ltac:(lia)) as (D1 & D2 & D3).
  destruct (Z.ltb_spec (kidx bb t i j k) (B * t * n)); [|lia]. rewrite D1. destruct (Z.eqb_spec k 0); [lia|].
  cbn [andb negb]. unfold rval. rewrite D1, D2, D3. reflexivity.
Qed.

Lemma rfill_shape ke : rfill (B * t * n) ke -> (forall idx p, zlen (cv idx p) = n + 1) -> ksk_shape n n bb t ke.
Proof.
  clear Henc enc Ht Hk Hb. intros [Hl Hf] Hc. split; [lia|]. intros x Hx. rewrite Hf by assumption.
  destruct (_ && _); [apply Hc|unfold rzero; rewrite zlen_repeat; lia].
Qed.
End Keygen.

(** ** re-encryption *)
Lemma basebit_loop_ok bb : 0 <= bb -> forall fuel b, 0 <= b <= bb -> bb - b <= Z.of_nat fuel -> basebit_loop fuel b (2 ^ bb) = bb.
Proof.
  intros Hb fuel. induction fuel as [|f IH]; intros b Hbb Hf.
  - cbn [basebit_loop]. lia.
  - cbn [basebit_loop]. rewrite Z.shiftl_mul_pow2, Z.mul_1_l by lia.
    destruct (Z.ltb_spec (2 ^ b) (2 ^ bb)) as [H|H].
    + assert (b <> bb) by (intro; subst; lia). apply IH; lia.
    + destruct (Z.eq_dec b bb); [assumption|]. assert (2 ^ b < 2 ^ bb) by (apply Z.pow_lt_mono_r; lia). lia.
Qed.

Lemma Reencrypt_ok n bb t ct rk : 0 <= n -> 1 <= bb -> 0 <= t -> bb * t <= 31 -> bb <= 31 -> zlen ct = n + 1 -> tok_list ct ->
  Base rk = 2 ^ bb -> T rk = t -> ksk_shape n n bb t (KeyEncryptions rk) ->
  ReencryptTLWELv0 n ct rk = Ok (ksw n n bb t (zn ct n) ct (KeyEncryptions rk)).
Proof.
  intros Hn Hb Ht Hbt Hb31 Hl Htk HB HT [Hkl Hkr]. unfold ReencryptTLWELv0. rewrite HB, HT.
  rewrite basebit_loop_ok by lia. cbv zeta. unfold NewTLWE. rewrite make_ok by lia. cbn [bind].
  unfold tlwe_B. rewrite get_zn by lia. cbn [bind]. unfold SetB. rewrite set_ok by (rewrite zlen_repeat; lia). cbn [bind].
  fold (lastcell n (zn ct n)).
  assert (Hprec: shl32 1 (32 - (1 + bb * t)) = Ok (kprec bb t)).
  { unfold shl32. destruct (Z.ltb_spec (32 - (1 + bb * t)) 0); [lia|]. rewrite Z.shiftl_mul_pow2, Z.mul_1_l by lia. unfold kprec.
    replace (32 - (1 + bb * t)) with (31 - bb * t) by lia. f_equal. apply w32_small.
    assert (0 <= bb * t) by (apply Z.mul_nonneg_nonneg; lia).
    assert (0 < 2 ^ (31 - bb * t) <= 2 ^ 31) by (split; [apply Z.pow_pos_nonneg; lia|apply Z.pow_le_mono_r; lia]).
    change (2 ^ 31) with 2147483648 in *. unfold two32. lia. }
  rewrite Hprec. cbn [bind].
  assert (Hdig: forall a j, 0 <= j < t ->
     (mask <- (s <- shl32 1 bb ;; Ok (tsub s 1)) ;; s <- shr32 (tadd a (kprec bb t)) (32 - (j + 1) * bb) ;; Ok (Z.land s mask)) = Ok (kdig bb t a j)).
  { intros a j Hj. unfold shl32. destruct (Z.ltb_spec bb 0); [lia|]. cbn [bind]. unfold shr32, kdig.
    assert ((j + 1) * bb <= bb * t) by (replace (bb * t) with (t * bb) by ring; apply Z.mul_le_mono_nonneg_r; lia).
    destruct (Z.ltb_spec (32 - (j + 1) * bb) 0); [lia|]. cbn [bind]. f_equal.
    rewrite Z.shiftr_div_pow2 by lia. rewrite Z.shiftl_mul_pow2, Z.mul_1_l by lia.
    assert (0 < 2 ^ bb <= 2 ^ 31) by (split; [apply Z.pow_pos_nonneg; lia|apply Z.pow_le_mono_r; lia]).
    change (2 ^ 31) with 2147483648 in *. rewrite (w32_small (2 ^ bb)) by (unfold two32; lia).
    unfold tsub. rewrite w32_small by (unfold two32; lia).
    replace (2 ^ bb - 1) with (Z.ones bb) by (rewrite Z.ones_equiv; lia). apply Z.land_ones. lia. }
  match goal with |- for_range 0 n ?b _ = _ =>
  destruct (ks_loops (fun (s v : list Z) => s = v) n n t b
     (fun i j result => k <- (mask <- (s <- shl32 1 bb ;; Ok (tsub s 1)) ;; s <- shr32 (tadd (zn ct i) (kprec bb t)) (32 - (j + 1) * bb) ;; Ok (Z.land s mask)) ;;
       if k =? 0 then Ok result else
        for_range 0 (n + 1) (fun x result =>
          v <- (r <- get result x ;; row <- get (KeyEncryptions rk) (2 ^ bb * t * i + 2 ^ bb * j + k) ;; q <- get row x ;; Ok (tsub r q)) ;;
          set result x v) result)
     (kterm bb t ct (KeyEncryptions rk)) (lastcell n (zn ct n)) (lastcell n (zn ct n))) as (s' & E & H') end.
  - assumption.
  - assumption.
  - reflexivity.
  - apply zlen_lastcell. assumption.
  - apply tok_lastcell; [assumption|]. apply zn_tok. assumption.
  - intros i s v Hi _. rewrite get_zn by lia. cbn [bind]. apply for_range_ext. intros j r Hj.
    destruct (shl32 1 bb) as [x|]; cbn [bind]; [|reflexivity]. destruct (shr32 _ _) as [y|]; cbn [bind]; reflexivity.
  - intros i j s v Hi Hj -> Hv Htv. rewrite Hdig by assumption. cbn [bind]. unfold kterm. cbv zeta.
    pose proof (kdig_range bb t (zn ct i) j ltac:(lia)) as Hkk.
    destruct (Z.eqb_spec (kdig bb t (zn ct i) j) 0).
    + eexists; split; [reflexivity|]. apply row_skip; assumption.
    + pose proof (kidx_range bb t n i j _ ltac:(lia) Hi Hj Hkk) as Hx.
      eexists; split; [|reflexivity]. apply row_sub_ok; [assumption| |apply Hkr; assumption].
      change (0 <= kidx bb t i j (kdig bb t (zn ct i) j) < zlen (KeyEncryptions rk)). lia.
  - rewrite E. f_equal. subst s'. unfold ksw. apply tab_ext. intros x Hx. rewrite zn_lastcell by lia. reflexivity.
Qed.

Lemma Reencrypt_panics n bb t ct rk : 0 <= n -> 0 <= bb <= 62 -> 32 <= bb * t -> zlen ct = n + 1 ->
  Base rk = 2 ^ bb -> T rk = t -> ReencryptTLWELv0 n ct rk = Panic PShift.
Proof.
  intros Hn Hb Hbt Hl HB HT. unfold ReencryptTLWELv0. rewrite HB, HT.
  rewrite basebit_loop_ok by lia. cbv zeta. unfold NewTLWE. rewrite make_ok by lia. cbn [bind].
  unfold tlwe_B. rewrite get_zn by lia. cbn [bind]. unfold SetB. rewrite set_ok by (rewrite zlen_repeat; lia). cbn [bind].
  unfold shl32. destruct (Z.ltb_spec (32 - (1 + bb * t)) 0); [reflexivity|lia].
Qed.

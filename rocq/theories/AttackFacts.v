(** * The attacker of Attack.v recovers the secret key when the rows carry no noise *)
From Coq Require Import Lia ZifyBool Setoid Morphisms List.
From Verif Require Import GoBase GoFacts GoMem F64 Utils UtilsFacts Spec Params Key Tlwe Poly Fft FftTabErr FftProps Trlwe Trgsw CloudKey RunSpec
  BasicFacts PolyFacts NegFacts Laws TrlweFacts KeySwitchFacts TrgswFacts CloudKeyFacts NoiseFacts RunProps BootFacts RlweProps Attack Neg2Facts.
Import ListNotations.
Local Open Scope Z_scope.
Ltac Zify.zify_post_hook ::= idtac.

Lemma mapr_ok {A B} (f : A -> res B) (g : A -> B) l : (forall x, In x l -> f x = Ok (g x)) -> mapr f l = Ok (map g l).
Proof.
  induction l as [|x l IH]; intro H; cbn [mapr map]; [reflexivity|]. rewrite H by (left; reflexivity). cbn [bind].
  rewrite IH by (intros; apply H; right; assumption). reflexivity.
Qed.

Lemma in_tab {A} n (f : Z -> A) x : In x (tab n f) <-> exists i, 0 <= i < n /\ x = f i.
Proof.
  unfold tab. rewrite in_map_iff. split.
  - intros (k & <- & Hk). apply in_seq in Hk. exists (Z.of_nat k). split; [lia|reflexivity].
  - intros (i & Hi & ->). exists (Z.to_nat i). rewrite Z2Nat.id by lia. split; [reflexivity|]. apply in_seq. lia.
Qed.

Section Steal.
Context {O : fops} {N : Z} (L : flaws O N) (pr : pset) (W : pwf pr N).
Notation n := (lv0_N pr). Notation bg := (g_BGBIT pr). Notation l := (g_L pr).
Context (Hlow : l * bg <= 31).
Context (Hrt : forall p, poly_ok N p -> Fto L (Fof L p) = p) (Hmul : facc_mul L two31 1 0).
Context (sk : SecretKey) (rb : Z -> Z -> trlwe_rand) (H0 : bin_key n (KeyLv0 sk)) (H1 : bin_key N (KeyLv1 sk)).
Context (Hz : forall i j k, 0 <= k < N -> F64ToTorus (tr_noise (rb i j) k) = 0).

Notation row i j := (rowp L pr (zn (KeyLv0 sk) i) (KeyLv1 sk) (rb i) j).

Lemma read_ok A B : poly_ok N A -> poly_ok N B -> read_row O N (Fof L A, Fof L B) = Ok (A, B).
Proof.
  intros HA HB. pose proof (law_N L). unfold read_row. rewrite make_ok by lia. cbn [bind fst snd].
  destruct (law_to L (Fof L A) (repeat 0 (Z.to_nat N))) as (x & E & _); [apply (law_of_ok L); apply HA|rewrite zlen_repeat; lia|].
  rewrite E, Hrt by exact HA. cbn [bind].
  destruct (law_to L (Fof L B) (repeat 0 (Z.to_nat N))) as (y & E2 & _); [apply (law_of_ok L); apply HB|rewrite zlen_repeat; lia|].
  rewrite E2, Hrt by exact HB. reflexivity.
Qed.

(** without noise the rows are exact *)
Lemma row_exact i j k : 0 <= i < n -> 0 <= j < 2 * l -> 0 <= k < N ->
  cphase N (KeyLv1 sk) (row i j) k == @row_target bg l (zn (KeyLv0 sk) i) (KeyLv1 sk) j k.
Proof.
  intros Hi Hj Hk. destruct (rowp_enc L pr W (zn (KeyLv0 sk) i) (KeyLv1 sk) (rb i) 0 (bin_poly _ _ H1) (bin_sbound _ _ H1) Hmul) as (er & E & B).
  rewrite (E j k Hj Hk). specialize (B j k Hk). rewrite Hz in B by exact Hk. change (centered 0) with 0 in B.
  replace (er j k) with 0 by lia. rewrite Z.add_0_r. reflexivity.
Qed.

Lemma pow_even e : 1 <= e -> eq2 (2 ^ e) 0.
Proof. intro. apply (eq2_double _ _ (2 ^ (e - 1))). rewrite Z.add_0_l, <- Z.pow_succ_r by lia. f_equal. lia. Qed.

Lemma row_eq2 i j k : 0 <= i < n -> 0 <= j < 2 * l -> 0 <= k < N ->
  eq2 (zn (tB (row i j)) k) (negacyclic N (zn (tA (row i j))) (zn (KeyLv1 sk)) k).
Proof.
  intros Hi Hj Hk. pose proof (pw_bg _ _ W). pose proof (row_exact i j k Hi Hj Hk) as E. unfold cphase in E. rewrite rlwe_phase_eqm in E.
  apply eqm_eq2 in E.
  assert (T: eq2 (@row_target bg l (zn (KeyLv0 sk) i) (KeyLv1 sk) j k) 0).
  { unfold row_target. destruct (Z.ltb_spec j l).
    - rewrite (pow_even (32 - (j + 1) * bg)) by nia. apply eq2_refl'. ring.
    - destruct (k =? 0); [|reflexivity]. rewrite (pow_even (32 - (j - l + 1) * bg)) by nia. apply eq2_refl'. ring. }
  rewrite T in E. set (b := zn (tB (row i j)) k) in *. set (p := negacyclic _ _ _ _) in *.
  replace b with ((b - p) + p) by ring. rewrite E. reflexivity.
Qed.

(** solving one row *)
Lemma solved i j : 0 <= i < n -> 0 <= j < 2 * l -> Z.odd (total (tA (row i j))) = true ->
  solve2 (Z.to_nat (Z.log2 N)) N (tA (row i j)) (tB (row i j)) = KeyLv1 sk.
Proof.
  intros Hi Hj Ho. pose proof (law_N L) as H16. pose proof (pw_nb _ _ W) as Hnb. pose proof (pw_N _ _ W) as HN.
  destruct (rowp_ok L pr (zn (KeyLv0 sk) i) (KeyLv1 sk) (rb i) j (proj1 H1)) as [[A1 A2] [B1 B2]].
  assert (Hlog: Z.log2 N = g_NBIT pr) by (rewrite HN; apply Z.log2_pow2; lia).
  assert (H4: 0 < g_NBIT pr).
  { destruct (Z.eq_dec (g_NBIT pr) 0) as [E|]; [rewrite E in HN; cbn in HN; lia|lia]. }
  rewrite Hlog. destruct (solve2_range N ltac:(lia) (Z.to_nat (g_NBIT pr)) (tA (row i j)) (tB (row i j)) ltac:(lia)) as [S1 S2].
  assert (S3: forall k, 0 <= k < N -> eq2 (zn (solve2 (Z.to_nat (g_NBIT pr)) N (tA (row i j)) (tB (row i j))) k) (zn (KeyLv1 sk) k)).
  { apply (solve2_ok N ltac:(lia) (zn (KeyLv1 sk)) _ 1); [lia|rewrite Z2Nat.id by lia; lia| | |].
    - intros k Hk Hm. rewrite Z.mod_1_r in Hm. contradiction.
    - rewrite <- (total_zsum N ltac:(lia)) by exact A1. apply odd_eq2. exact Ho.
    - intros k Hk. apply row_eq2; assumption. }
  apply (nth_ext _ _ 0 0).
  - unfold zlen in S1. destruct H1 as [HK _]. unfold zlen in HK. lia.
  - intros k Hk. assert (Hk': 0 <= Z.of_nat k < N) by (unfold zlen in S1; lia).
    specialize (S2 _ Hk'). specialize (S3 _ Hk'). unfold eq2 in S3. rewrite (Z.mod_small (zn (solve2 _ _ _ _) _)) in S3 by lia.
    pose proof (bin_zn _ _ _ H1 Hk') as Hb. rewrite Z.mod_small in S3 by lia. unfold zn in S3. rewrite Nat2Z.id in S3. exact S3.
Qed.

(** reading the level 0 key *)
Lemma bit_read i : 0 <= i < n ->
  (if rlwe_phase N (KeyLv1 sk) (tA (row i l)) (tB (row i l)) 0 =? 0 then 0 else 1) = zn (KeyLv0 sk) i.
Proof.
  intro Hi. pose proof (law_N L) as H16. pose proof (pw_l _ _ W) as Hl. pose proof (pw_bg _ _ W).
  pose proof (row_exact i l 0 Hi ltac:(lia) ltac:(lia)) as E. unfold cphase, row_target in E.
  destruct (Z.ltb_spec l l); [lia|]. cbn [Z.eqb] in E. rewrite Z.sub_diag, Z.add_0_l, Z.mul_1_l in E.
  pose proof (rlwe_phase_tok N (KeyLv1 sk) (tA (row i l)) (tB (row i l)) 0) as T. unfold tok in T.
  set (ph := rlwe_phase _ _ _ _ _) in *. unfold eqm in E. rewrite (Z.mod_small ph) in E by exact T.
  assert (Hg: 0 < 2 ^ (32 - bg) < two32).
  { assert (bg <= 31) by nia. split; [apply Z.pow_pos_nonneg; lia|]. change two32 with (2 ^ 32). apply Z.pow_lt_mono_r; lia. }
  destruct (bin_zn _ _ _ H0 Hi) as [Hb|Hb]; rewrite Hb in *.
  - rewrite Z.mul_0_l, Z.mod_0_l in E by (unfold two32; lia). rewrite E. reflexivity.
  - rewrite Z.mul_1_l, Z.mod_small in E by lia. destruct (Z.eqb_spec ph 0); [lia|reflexivity].
Qed.

Lemma row_total i j : 0 <= i < n -> 0 <= j < 2 * l ->
  Z.odd (total (tA (row i j))) = Z.odd (zsum N (fun k => tr_mask (rb i j) k)).
Proof.
  intros Hi Hj. pose proof (law_N L) as H16. pose proof (pw_bg _ _ W).
  destruct (rowp_ok L pr (zn (KeyLv0 sk) i) (KeyLv1 sk) (rb i) j (proj1 H1)) as [[A1 A2] _].
  rewrite (total_zsum N ltac:(lia)) by exact A1.
  assert (E: eq2 (zsum N (zn (tA (row i j)))) (zsum N (fun k => tr_mask (rb i j) k))).
  { apply zsum_eq2. intros k Hk.
    assert (M: eq2 (zn (tA (tenc L (@zeros N) (KeyLv1 sk) (rb i j))) k) (tr_mask (rb i j) k)).
    { cbn [tenc tA]. unfold tr_a. rewrite zn_tab by exact Hk. apply eqm_eq2. unfold eqm, w32. apply Z.mod_mod. unfold two32; lia. }
    unfold rowp. destruct (Z.ltb_spec j l); cbn [tA]; [|exact M].
    destruct (tenc_shape L (@zeros N) (KeyLv1 sk) (rb i j)) as (S1 & _).
    rewrite zn_upd by lia. destruct (Z.eqb_spec k 0) as [->|]; [|exact M].
    transitivity (zn (tA (tenc L (@zeros N) (KeyLv1 sk) (rb i j))) 0 + zn (KeyLv0 sk) i * gad pr j).
    { apply eqm_eq2. rewrite tadd_eqm, tmul_eqm. reflexivity. }
    rewrite M. unfold gad. rewrite (pow_even (32 - (j + 1) * bg)) by nia. apply eq2_refl'. ring. }
  unfold eq2 in E. rewrite !Zmod_odd in E. destruct (Z.odd (zsum N (zn (tA (row i j))))), (Z.odd (zsum N (fun k => tr_mask (rb i j) k))); lia || reflexivity.
Qed.

Lemma steal_ok : (exists i j, 0 <= i < n /\ 0 <= j < 2 * l /\ Z.odd (zsum N (fun k => tr_mask (rb i j) k)) = true) ->
  steal O N l (bskp L pr sk rb) = Ok sk.
Proof.
  intros (i0 & j0 & Hi0 & Hj0 & Hodd). pose proof (pw_l _ _ W) as Hl. pose proof (pw_n _ _ W) as Hn.
  assert (HR: forall i j, ct_ok N (row i j)) by (intros; apply rowp_ok; apply H1).
  (* the rows, read back *)
  set (Rows := List.concat (tab n (fun i => tab (2 * l) (fun j => (tA (row i j), tB (row i j)))))).
  assert (E1: mapr (read_row O N) (List.concat (bskp L pr sk rb)) = Ok Rows).
  { set (g := fun r : FP O * FP O => (Fto L (fst r), Fto L (snd r))).
    rewrite (mapr_ok _ g).
    - f_equal. rewrite concat_map. unfold Rows, bskp. f_equal. unfold tab. rewrite map_map. apply map_ext. intro x.
      unfold bval, gfft, tab. rewrite map_map. apply map_ext. intro y. unfold g. cbn [fst snd].
      destruct (HR (Z.of_nat x) (Z.of_nat y)) as [HA HB]. rewrite !Hrt by assumption. reflexivity.
    - intros r Hr. apply in_concat in Hr. destruct Hr as (gg & Hg & Hr). unfold bskp in Hg. apply in_tab in Hg. destruct Hg as (i & Hi & ->).
      unfold bval, gfft in Hr. apply in_tab in Hr. destruct Hr as (j & Hj & ->). destruct (HR i j) as [HA HB].
      rewrite read_ok by assumption. unfold g. cbn [fst snd]. rewrite !Hrt by assumption. reflexivity. }
  assert (IN: forall ab, In ab Rows <-> exists i j, 0 <= i < n /\ 0 <= j < 2 * l /\ ab = (tA (row i j), tB (row i j))).
  { intro ab. unfold Rows. rewrite in_concat. split.
    - intros (x & Hx & Hab). apply in_tab in Hx. destruct Hx as (i & Hi & ->). apply in_tab in Hab. destruct Hab as (j & Hj & ->).
      exists i, j. auto.
    - intros (i & j & Hi & Hj & ->). eexists. split; [apply in_tab; exists i; split; [exact Hi|reflexivity]|].
      apply in_tab. exists j. auto. }
  unfold steal. rewrite E1. cbn [bind].
  destruct (find (fun ab => Z.odd (total (fst ab))) Rows) as [[a b]|] eqn:F.
  2:{ exfalso. assert (X: Z.odd (total (fst (tA (row i0 j0), tB (row i0 j0)))) = false).
      { apply (find_none _ _ F). apply IN. exists i0, j0. auto. }
      cbn [fst] in X. rewrite row_total in X by assumption. congruence. }
  apply find_some in F. destruct F as [F1 F2]. apply IN in F1. destruct F1 as (i & j & Hi & Hj & Eab). injection Eab as -> ->. cbn [fst] in F2.
  rewrite solved by assumption. cbv zeta.
  rewrite (mapr_ok _ (fun g => if rlwe_phase N (KeyLv1 sk) (Fto L (fst (znd (Fzero L, Fzero L) g l))) (Fto L (snd (znd (Fzero L, Fzero L) g l))) 0 =? 0 then 0 else 1)).
  - cbn [bind].
    match goal with |- Ok {| KeyLv0 := ?x; KeyLv1 := _ |} = _ => assert (EB: x = KeyLv0 sk) end; [|rewrite EB; destruct sk; reflexivity].
    rewrite (eq_tab 0 (KeyLv0 sk) n (zn (KeyLv0 sk))) by (apply H0 || reflexivity).
    unfold bskp, tab. rewrite map_map. apply map_ext_in. intros x Hx. apply in_seq in Hx. assert (Hxx: 0 <= Z.of_nat x < n) by lia.
    unfold bval, gfft. rewrite znd_tab by lia. cbn [fst snd].
    destruct (HR (Z.of_nat x) l) as [HA HB]. rewrite !Hrt by assumption. apply bit_read. exact Hxx.
  - intros g Hg. unfold bskp in Hg. apply in_tab in Hg. destruct Hg as (x & Hx & ->). unfold bval, gfft.
    rewrite (get_ok (Fzero L, Fzero L)) by (rewrite zlen_tab; lia). cbn [bind]. rewrite znd_tab by lia.
    destruct (HR x l) as [HA HB]. rewrite read_ok by assumption. cbn [bind fst snd]. rewrite !Hrt by assumption. reflexivity.
Qed.
End Steal.

(** * Programs over encrypted messages compute what they mean *)
From Coq Require Import Lia ZifyBool Setoid Morphisms List.
From Verif Require Import GoBase GoFacts GoMem F64 Utils Spec Params Key Tlwe TlweMem Poly Fft FftTabErr Trlwe Trgsw Lut Evaluator CloudKey Gates RunSpec LutSpec NibbleAdd LutProg
  MemFacts TlweFacts PolyFacts NegFacts Laws TrlweFacts MsgFacts TrgswFacts RotFacts EvalFacts HeapFacts CloudKeyFacts BootFacts GateFacts RunProps HistProps RunWorst BasicFacts LutFacts LutProps ReencFacts NibbleProps.
Import ListNotations.
Local Open Scope Z_scope.
Ltac Zify.zify_post_hook ::= idtac.

(** ** lists *)
Lemma zn_app1 (u v : list Z) i : 0 <= i < zlen u -> zn (u ++ v) i = zn u i.
Proof. intro H. unfold zn, znd. apply app_nth1. unfold zlen in H. lia. Qed.
Lemma zn_app2 (u : list Z) x i : i = zlen u -> zn (u ++ [x]) i = x.
Proof. intros ->. unfold zn, znd, zlen. rewrite Nat2Z.id, app_nth2, Nat.sub_diag by lia. reflexivity. Qed.
Lemma zlen_snoc {A} (u : list A) x : zlen (u ++ [x]) = zlen u + 1.
Proof. unfold zlen. rewrite app_length. cbn [length]. lia. Qed.
Lemma nodup_snoc (u : list Z) x : NoDup u -> ~ In x u -> NoDup (u ++ [x]).
Proof.
  intros H Hx. induction u as [|a u IH]; cbn [app].
  - constructor; [intros []|constructor].
  - inversion H as [|a' u' Ha Hu]; subst. constructor.
    + intro X. apply in_app_or in X. destruct X as [X|[->|[]]]; [contradiction|]. apply Hx. left. reflexivity.
    + apply IH; [exact Hu|]. intro X. apply Hx. right. exact X.
Qed.
Lemma zn_In (u : list Z) i : 0 <= i < zlen u -> In (zn u i) u.
Proof. intro H. unfold zn, znd. apply nth_In. unfold zlen in H. lia. Qed.
Lemma In_zn (u : list Z) x : In x u -> exists i, 0 <= i < zlen u /\ zn u i = x.
Proof.
  intro H. destruct (In_nth u x 0 H) as (i & Hi & E). exists (Z.of_nat i). split; [unfold zlen; lia|]. unfold zn, znd. rewrite Nat2Z.id. exact E.
Qed.
Lemma nodup_zn (u : list Z) i j : NoDup u -> 0 <= i < zlen u -> 0 <= j < zlen u -> zn u i = zn u j -> i = j.
Proof.
  intros H Hi Hj E. unfold zlen in *. rewrite (NoDup_nth u 0) in H. apply Z2Nat.inj; [lia|lia|].
  apply H; [lia|lia|exact E].
Qed.

Lemma Forall2_get_r {A B} (P : A -> B -> Prop) u v i b : Forall2 P u v -> get v i = Ok b -> exists a, get u i = Ok a /\ P a b.
Proof.
  intros H G. unfold get in *. destruct (i <? 0); [discriminate|]. revert G. generalize (Z.to_nat i) as j. clear i.
  induction H as [|x y u v Hxy H IH]; intros [|j] G; cbn [nth_error] in *; try discriminate.
  - exists x. split; [reflexivity|]. congruence.
  - apply IH. exact G.
Qed.
Lemma Forall2_mono {A B} (P Q : A -> B -> Prop) u v : (forall a b, P a b -> Q a b) -> Forall2 P u v -> Forall2 Q u v.
Proof. intros H F. induction F; constructor; auto. Qed.

(** ** arithmetic of positions *)
Lemma pos_mod k x : 0 <= k <= 30 -> (x mod (2 * 2 ^ k)) * 2 ^ 31 / 2 ^ k == x * 2 ^ (31 - k).
Proof.
  intro Hk. rewrite pow2_div by lia. assert (P: 0 < 2 ^ k) by (apply Z.pow_pos_nonneg; lia).
  pose proof (Z.div_mod x (2 * 2 ^ k) ltac:(lia)) as D. set (q := x / (2 * 2 ^ k)) in *. set (r := x mod (2 * 2 ^ k)) in *.
  apply eqm_iff. exists (- q). rewrite D.
  assert (E: 2 * 2 ^ k * 2 ^ (31 - k) = two32).
  { change two32 with (2 * 2 ^ 31). rewrite <- Z.mul_assoc, <- Z.pow_add_r by lia. do 2 f_equal. lia. }
  rewrite Z.mul_add_distr_r. replace (2 * 2 ^ k * q * 2 ^ (31 - k)) with (q * (2 * 2 ^ k * 2 ^ (31 - k))) by ring. rewrite E. ring.
Qed.

Lemma close_eqm E a b a' b' : a == a' -> b == b' -> close E a' b' -> close E a b.
Proof. intros Ha Hb (d & Hd & Ed). exists d. split; [exact Hd|]. rewrite Ha, Hb. exact Ed. Qed.
Lemma close_lin A B a a' b b' c : close A a a' -> close B b b' -> close (A + Z.abs c * B) (a + c * b) (a' + c * b').
Proof.
  intros (u & Hu & Eu) (v & Hv & Ev). exists (u + c * v). split.
  - pose proof (Z.abs_triangle u (c * v)). rewrite Z.abs_mul in H. assert (Z.abs c * Z.abs v <= Z.abs c * B) by (apply Z.mul_le_mono_nonneg_l; lia). lia.
  - rewrite Eu, Ev. apply eqm_refl'. ring.
Qed.

(** a combination of two ciphertexts *)
Lemma encodes_lin n s k a b x y A B c r : 0 <= k <= 30 -> encodes n s a (2 ^ k) x A -> encodes n s b (2 ^ k) y B ->
  lwe_ok n r -> lwe_phase n s r == lwe_phase n s a + c * lwe_phase n s b ->
  encodes n s r (2 ^ k) ((x + c * y) mod (2 * 2 ^ k)) (A + Z.abs c * B).
Proof.
  intros Hk [_ Ha] [_ Hb] Hr Hp. split; [exact Hr|]. rewrite pow2_div in Ha, Hb by lia.
  eapply close_eqm; [exact Hp|apply pos_mod; lia|]. replace ((x + c * y) * 2 ^ (31 - k)) with (x * 2 ^ (31 - k) + c * (y * 2 ^ (31 - k))) by ring.
  apply close_lin; assumption.
Qed.
Lemma encodes_neg n s k a x A r : 0 <= k <= 30 -> encodes n s a (2 ^ k) x A -> 
  lwe_ok n r -> lwe_phase n s r == - lwe_phase n s a -> encodes n s r (2 ^ k) ((- x) mod (2 * 2 ^ k)) A.
Proof.
  intros Hk [_ (d & Hd & Ed)] Hr Hp. split; [exact Hr|]. rewrite pow2_div in Ed by lia.
  eapply close_eqm; [exact Hp|apply pos_mod; lia|]. exists (- d). split; [lia|]. rewrite Ed. apply eqm_refl'. ring.
Qed.

(** every position decrypts to its message *)
Lemma position_decrypts n P k x key E : 0 <= n -> n < zlen P -> n <= zlen key -> 0 <= k <= 30 ->
  close E (lwe_phase n key P) (x * 2 ^ 31 / 2 ^ k) -> E < 2 ^ (30 - k) -> DecryptLWEMessage n P (2 ^ k) key = Ok (x mod 2 ^ k).
Proof.
  intros Hn HP Hk HM (e & He & Ee) HE.
  assert (PW: 1 <= 2 ^ k <= 2 ^ 31) by (split; [apply (Z.pow_le_mono_r 2 0); lia|apply Z.pow_le_mono_r; lia]).
  rewrite DecryptLWEMessage_ok by lia. f_equal.
  rewrite pow2_div in Ee by lia. rewrite (decode_pow2 k x e) by (lia || exact Ee).
  assert (D: 2 ^ (31 - k) = 2 * 2 ^ (30 - k)) by (replace (31 - k) with (1 + (30 - k)) by lia; rewrite Z.pow_add_r by lia; reflexivity).
  assert (0 < 2 ^ (30 - k)) by (apply Z.pow_pos_nonneg; lia).
  rewrite D. replace (2 * 2 ^ (30 - k) / 2) with (2 ^ (30 - k)) by (rewrite Z.mul_comm, Z.div_mul; lia).
  rewrite (Z.div_small (e + _)) by lia. rewrite Z.add_0_r. reflexivity.
Qed.

Section Props.
Context (R : arith) (O : fops) (pr : pset) (sk : SecretKey) (rk : Z -> enc_rand) (rb : Z -> Z -> trlwe_rand) (ck : CloudKey O)
  (S : setup R O pr sk rk rb ck).
Notation n := (lv0_N pr).
Notation s0 := (KeyLv0 sk).
Notation M := (mem (FP O)).
Notation BK := (BootstrappingKey ck). Notation KK := (KeySwitchingKey ck). Notation OFF := (DecompositionOffset ck).
Context (e : evaluator) (k : Z) (Hk : 0 <= k < g_NBIT pr).

Lemma kbound : 0 <= k <= 29 /\ 0 < 2 ^ k /\ (2 * 2 ^ k | g_N pr) /\ 2 ^ k * 2 ^ (30 - k) = 2 ^ 30.
Proof.
  destruct S as ([W _] & _). pose proof (pw_nb _ _ W) as Hnb. pose proof (pw_N _ _ W) as HN. split; [lia|].
  split; [apply Z.pow_pos_nonneg; lia|]. split.
  - exists (2 ^ (g_NBIT pr - 1 - k)). rewrite HN at 1. change 2 with (2 ^ 1) at 3. rewrite <- !Z.pow_add_r by lia. f_equal. lia.
  - rewrite <- Z.pow_add_r by lia. f_equal. lia.
Qed.

Lemma signed_lut_at f x y : 0 <= x < 2 * 2 ^ k -> Encode (NewEncoder (2 ^ k)) (f (x mod 2 ^ k)) = Ok y ->
  signed (2 ^ k) x y == lut_at k f x mod (2 * 2 ^ k) * 2 ^ 31 / 2 ^ k.
Proof.
  intros Hx Ey. destruct kbound as (K1 & K2 & _). rewrite Encode_pow2 in Ey by lia.
  assert (E0: y = f (x mod 2 ^ k) mod 2 ^ k * 2 ^ (31 - k)) by congruence. subst y. clear Ey.
  rewrite pos_mod by lia. unfold signed, lut_at. destruct (Z.ltb_spec x (2 ^ k)).
  - rewrite (Z.mod_small x) by lia. reflexivity.
  - assert (E: x mod 2 ^ k = x - 2 ^ k) by (symmetry; apply (Z.mod_unique_pos _ _ 1); lia). rewrite E.
    pose proof (pos_mod k (- (f (x - 2 ^ k) mod 2 ^ k)) ltac:(lia)) as Q. rewrite pow2_div in Q by lia. rewrite Q. apply eqm_refl'. ring.
Qed.

Lemma position_reads c x E Rd : encodes n s0 c (2 ^ k) x E -> rounding pr s0 c Rd -> E + Rd < 2 ^ (30 - k) -> reads pr s0 c (2 ^ k) x.
Proof.
  intros He Hd HB. destruct kbound as (K1 & K2 & K3 & K4). pose proof S as (GP & _).
  eapply t_reads; [exact GP|lia|exact He|exact Hd| |left; exact K3]. rewrite <- K4. apply Z.mul_le_mono_nonneg_l; lia.
Qed.

(** ** the invariant *)
Notation wires := (lwires O pr e k sk).
Notation tables := (ltables O pr e k).

Lemma wires_get (m : M) ws xs es a x : wires m ws xs es -> get xs a = Ok x ->
  exists r E, get ws a = Ok r /\ get es a = Ok E /\ In r ws /\ user m e r /\ 0 <= x < 2 * 2 ^ k /\ encodes n s0 (tm m r) (2 ^ k) x E.
Proof.
  intros (L1 & L2 & _ & H) G. destruct (get_inv 0 _ _ _ G) as [Ha ->]. change (znd 0 xs a) with (zn xs a).
  exists (zn ws a), (zn es a). rewrite !get_zn by lia. split; [reflexivity|]. split; [reflexivity|]. split; [apply zn_In; lia|]. apply H. lia.
Qed.

Lemma wires_new (m m' : M) ws xs es r x E : wires m ws xs es -> user_kept e m m' -> user m' e r -> ~ user m e r ->
  0 <= x < 2 * 2 ^ k -> encodes n s0 (tm m' r) (2 ^ k) x E -> wires m' (ws ++ [r]) (xs ++ [x]) (es ++ [E]).
Proof.
  intros (L1 & L2 & ND & H) K U1 U2 Hx He. split; [rewrite !zlen_snoc; lia|]. split; [rewrite !zlen_snoc; lia|]. split.
  - apply nodup_snoc; [exact ND|]. intro X. apply In_zn in X. destruct X as (i & Hi & <-). apply U2. apply H. exact Hi.
  - intros i Hi. rewrite zlen_snoc in Hi. destruct (Z.eq_dec i (zlen ws)) as [->|Hne].
    + rewrite !zn_app2 by lia. auto.
    + rewrite !zn_app1 by lia. destruct (H i ltac:(lia)) as (U & B & C). destruct (K _ U) as [U' ->]. auto.
Qed.

Lemma wires_set (m m' : M) ws xs es o r x E : wires m ws xs es -> get ws o = Ok r ->
  (forall z, user m e z -> z <> r -> user m' e z /\ tm m' z = tm m z) -> user m' e r ->
  0 <= x < 2 * 2 ^ k -> encodes n s0 (tm m' r) (2 ^ k) x E -> wires m' ws (upd xs o x) (upd es o E).
Proof.
  intros (L1 & L2 & ND & H) G K U Hx He. destruct (get_inv 0 _ _ _ G) as [Ho Er]. change (znd 0 ws o) with (zn ws o) in Er.
  split; [rewrite zlen_upd; exact L1|]. split; [rewrite zlen_upd; exact L2|]. split; [exact ND|].
  intros i Hi. destruct (Z.eq_dec i o) as [->|Hne].
  - rewrite !zn_upd, Z.eqb_refl by lia. rewrite <- Er. auto.
  - rewrite !zn_upd by lia. destruct (Z.eqb_spec i o); [contradiction|]. destruct (H i Hi) as (U1 & B & C).
    destruct (K _ U1) as [U' ->]; [rewrite Er; intro X; apply Hne; eapply nodup_zn; eassumption|]. auto.
Qed.

Lemma tables_get (m : M) ws ts fs t f : tables m ws ts fs -> get fs t = Ok f ->
  exists l tv, get ts t = Ok l /\ GenLookUpTable pr (NewGenerator pr (2 ^ k)) f = Ok tv /\ table O pr m e l tv.
Proof.
  intros H G. destruct (Forall2_get_r _ _ _ _ _ H G) as (l & Gl & (tv & A & B) & _). eauto.
Qed.

Lemma tables_keep (m m' : M) ws ws' ts fs : tables m ws ts fs -> others_kept O e ws m m' ->
  (forall x, In x ws' -> In x ws \/ ~ user m e x) -> tables m' ws' ts fs.
Proof.
  intros H K HI. eapply Forall2_mono; [|exact H]. cbn beta. intros t f ((tv & A & (B1 & B2 & U1 & U2 & B3)) & N1 & N2).
  destruct (K _ U1 N1) as [V1 E1]. destruct (K _ U2 N2) as [V2 E2]. split; [|split].
  - exists tv. split; [exact A|]. unfold table. rewrite E1, E2. auto.
  - intro X. apply HI in X. tauto.
  - intro X. apply HI in X. tauto.
Qed.

Lemma kept_others (m m' : M) ws : user_kept e m m' -> others_kept O e ws m m'.
Proof. intros K x Hx _. apply K. exact Hx. Qed.

(** what one call does *)
Definition stepped (i : lcall) (ws : list Z) (ts : list tref) (m : M) (xs' : list Z) (fs' : list (Z -> Z)) (es' : list Z) : Prop :=
  exists nw ts' m', lexec1 O pr ck e k i ws ts m = Ok (ws ++ nw, ts', m') /\ wires m' (ws ++ nw) xs' es' /\ tables m' (ws ++ nw) ts' fs' /\
    kept_but O e (outputs1 i) ws m m' /\ (forall x, In x nw -> ~ user m e x) /\ reachable O pr e m'.

Lemma kept_all (m m' : M) os ws : user_kept e m m' -> kept_but O e os ws m m'.
Proof. intros K x Hx _. apply K. exact Hx. Qed.
Lemma kept_one (m m' : M) o r ws : (forall z, user m e z -> z <> r -> user m' e z /\ tm m' z = tm m z) -> get ws o = Ok r -> kept_but O e [o] ws m m'.
Proof. intros K G x Hx Hn. apply K; [exact Hx|]. intros ->. apply (Hn o); [left; reflexivity|exact G]. Qed.

Lemma two_pos x : 0 <= x mod (2 * 2 ^ k) < 2 * 2 ^ k.
Proof. destruct kbound as (_ & K & _). apply Z.mod_pos_bound. lia. Qed.

(** a new value *)
Lemma step_alloc (m : M) ws ts xs fs es v x E : reachable O pr e m -> wires m ws xs es -> tables m ws ts fs ->
  0 <= x < 2 * 2 ^ k -> encodes n s0 v (2 ^ k) x E ->
  exists r m', alloc m v = (r, m') /\ wires m' (ws ++ [r]) (xs ++ [x]) (es ++ [E]) /\ tables m' (ws ++ [r]) ts fs /\
    user_kept e m m' /\ ~ user m e r /\ reachable O pr e m'.
Proof.
  intros Hr Hw Ht Hx He. pose proof S as S'. open_setup S'. destruct (alloc_keep L pr W HBG e m v Hr) as (R1 & U1 & V1 & K1 & N1).
  exists (tnext m), (snd (alloc m v)). split; [reflexivity|].
  assert (K: user_kept e m (snd (alloc m v))).
  { intros z [Hz1 Hz2]. split; [split; [lia|exact Hz2]|]. apply K1. lia. }
  assert (U2: ~ user m e (tnext m)) by (intros [X _]; lia).
  split; [apply (wires_new m); try assumption; rewrite V1; exact He|]. split; [|split; [exact K|split; assumption]].
  eapply tables_keep; [exact Ht|apply kept_others; exact K|]. intros z Hz. apply in_app_or in Hz. destruct Hz as [Hz|[<-|[]]]; [left; exact Hz|right; exact U2].
Qed.

(** bootstrap results *)
Lemma step_new (m m' : M) ws ts xs fs es r x E : wires m ws xs es -> tables m ws ts fs -> user_kept e m m' -> user m' e r -> ~ user m e r ->
  0 <= x < 2 * 2 ^ k -> encodes n s0 (tm m' r) (2 ^ k) x E ->
  wires m' (ws ++ [r]) (xs ++ [x]) (es ++ [E]) /\ tables m' (ws ++ [r]) ts fs /\ others_kept O e ws m m' /\ (forall x, In x [r] -> ~ user m e x).
Proof.
  intros Hw Ht K U1 U2 Hx He. split; [apply (wires_new m); assumption|]. split; [|split; [apply kept_others; exact K|]].
  - eapply tables_keep; [exact Ht|apply kept_others; exact K|]. intros z Hz. apply in_app_or in Hz. destruct Hz as [Hz|[<-|[]]]; [left; exact Hz|right; exact U2].
  - intros z [<-|[]]. exact U2.
Qed.

Lemma step_set (m m' : M) ws ts xs fs es o r x E : wires m ws xs es -> tables m ws ts fs -> get ws o = Ok r ->
  (forall z, user m e z -> z <> r -> user m' e z /\ tm m' z = tm m z) -> user m' e r ->
  0 <= x < 2 * 2 ^ k -> encodes n s0 (tm m' r) (2 ^ k) x E ->
  wires m' ws (upd xs o x) (upd es o E) /\ tables m' ws ts fs /\ others_kept O e ws m m'.
Proof.
  intros Hw Ht G K U Hx He. destruct (get_inv 0 _ _ _ G) as [Ho Er]. change (znd 0 ws o) with (zn ws o) in Er.
  assert (Q: others_kept O e ws m m').
  { intros z Hz Hn. apply K; [exact Hz|]. intros ->. apply Hn. rewrite Er. apply zn_In. exact Ho. }
  split; [eapply wires_set; eassumption|]. split; [|exact Q]. eapply tables_keep; [exact Ht|exact Q|]. intros z Hz. left. exact Hz.
Qed.
Context (T Rd : Z).

Lemma noise_boot es a E : (E <- get es a ;; if E + Rd <? 2 ^ (30 - k) then Ok T else Panic PIndex) = Ok E ->
  exists F, get es a = Ok F /\ F + Rd < 2 ^ (30 - k) /\ E = T.
Proof.
  intro H. apply bind_inv in H. destruct H as (F & G & H). exists F. split; [exact G|]. destruct (Z.ltb_spec (F + Rd) (2 ^ (30 - k))); [|discriminate].
  split; [lia|congruence].
Qed.

Lemma set_upd {A} (l : list A) o v l' : set l o v = Ok l' -> 0 <= o < zlen l /\ l' = upd l o v.
Proof. apply set_inv. Qed.

Lemma own_user (m m' : M) r : user m e r -> reachable O pr e m -> reachable O pr e m' -> tnext m <= tnext m' -> user m' e r.
Proof. intros [A B] _ _ H. split; [lia|exact B]. Qed.

Lemma wires_loc (m : M) ws xs es o : wires m ws xs es -> 0 <= o < zlen xs -> exists r, get ws o = Ok r /\ user m e r /\ zlen (tm m r) = n + 1.
Proof.
  intros (L1 & L2 & _ & H) Ho. exists (zn ws o). split; [apply get_zn; lia|]. destruct (H o ltac:(lia)) as (U & _ & ((Hl & _) & _)). auto.
Qed.

(** one bootstrap with a table, and with a function *)
Lemma boot_lut (m : M) ws xs es ts fs t f a r x F : reachable O pr e m -> wires m ws xs es -> tables m ws ts fs ->
  get fs t = Ok f -> get xs a = Ok x -> get ws a = Ok r -> get es a = Ok F -> F + Rd < 2 ^ (30 - k) ->
  rounding pr s0 (tm m r) Rd -> gen_noise O pr sk ck f (2 ^ k) (tm m r) T ->
  exists l tv y, get ts t = Ok l /\ table O pr m e l tv /\ plain_table (g_N pr) tv /\ input O pr m e r /\ 0 <= x < 2 * 2 ^ k /\
    entry (g_N pr) (2 ^ k) tv (x mod 2 ^ k) y /\ reads pr s0 (tm m r) (2 ^ k) x /\ boot_noise O pr sk ck tv (tm m r) T /\
    signed (2 ^ k) x y == lut_at k f x mod (2 * 2 ^ k) * 2 ^ 31 / 2 ^ k.
Proof.
  intros Hr Hw Ht Gf Gx Gr Ge HF HR HT. destruct kbound as (K1 & K2 & _). pose proof S as (GP & _).
  destruct (wires_get _ _ _ _ _ _ Hw Gx) as (r' & F' & Gr' & Ge' & _ & U & Hx & He). rewrite Gr in Gr'. injection Gr' as <-. rewrite Ge in Ge'. injection Ge' as <-.
  destruct (tables_get _ _ _ _ _ _ Ht Gf) as (l & tv & Gl & GT & Tb).
  destruct (t_layout pr (NewGenerator pr (2 ^ k)) f GP eq_refl K2) as (tv' & G' & Hp & Hent). rewrite GT in G'. injection G' as <-.
  cbn [NewGenerator gEncoder NewEncoder MessageModulus] in Hent.
  destruct (Hent (x mod 2 ^ k) ltac:(apply Z.mod_pos_bound; exact K2)) as (y & Ey & Hen).
  exists l, tv, y. split; [exact Gl|]. split; [exact Tb|]. split; [exact Hp|]. split; [split; [apply He|left; exact U]|]. split; [exact Hx|]. split; [exact Hen|].
  split; [eapply position_reads; eassumption|]. split; [apply HT; exact GT|]. apply signed_lut_at; assumption.
Qed.

Lemma boot_func (m : M) ws xs es a r x F : wires m ws xs es ->
  get xs a = Ok x -> get ws a = Ok r -> get es a = Ok F -> F + Rd < 2 ^ (30 - k) ->
  rounding pr s0 (tm m r) Rd -> input O pr m e r /\ 0 <= x < 2 * 2 ^ k /\ reads pr s0 (tm m r) (2 ^ k) x.
Proof.
  intros Hw Gx Gr Ge HF HR. 
  destruct (wires_get _ _ _ _ _ _ Hw Gx) as (r' & F' & Gr' & Ge' & _ & U & Hx & He). rewrite Gr in Gr'. injection Gr' as <-. rewrite Ge in Ge'. injection Ge' as <-.
  split; [split; [apply He|left; exact U]|]. split; [exact Hx|]. eapply position_reads; eassumption.
Qed.

Lemma boot_encodes c x f y : lwe_ok n c -> close T (lwe_phase n s0 c) (signed (2 ^ k) x y) ->
  signed (2 ^ k) x y == lut_at k f x mod (2 * 2 ^ k) * 2 ^ 31 / 2 ^ k -> encodes n s0 c (2 ^ k) (lut_at k f x mod (2 * 2 ^ k)) T.
Proof. intros A B E. split; [exact A|]. eapply close_eqm; [reflexivity|symmetry; exact E|exact B]. Qed.

(** writing to a user buffer leaves it one *)
Lemma assign_user (m m' : M) c l tv r : reachable O pr e m -> input O pr m e c -> table O pr m e l tv -> input O pr m e r ->
  BootstrapLUTAssign O pr m e c l BK KK OFF r = Ok m' -> forall z, user m e z -> user m' e z.
Proof.
  intros Hr Hi Ht Ho E z [Hz1 Hz2]. pose proof S as S'. open_setup S'. destruct (reach_ok L pr W HBG e m Hr) as [He Hm].
  assert (U: uses O pr e no_buffer 0 m m').
  { eapply u_assign; [exact Hsk|exact Hck|exact Hi|exact Ht|exact Ho|intros []|exact E]. }
  destruct (uses_ok L pr W HBG _ _ _ _ _ He Hm U) as (_ & _ & _ & N1 & _). split; [lia|exact Hz2].
Qed.
Lemma func_assign_user (m m' : M) c f r : reachable O pr e m -> input O pr m e c -> input O pr m e r ->
  BootstrapFuncAssign O pr m e c f (2 ^ k) BK KK OFF r = Ok m' -> forall z, user m e z -> user m' e z.
Proof.
  intros Hr Hi Ho E z Hz. destruct kbound as (K1 & K2 & _). 
  assert (Q: exists lut tv m1, new_lut O pr m f (2 ^ k) = Ok (lut, m1) /\ table O pr m1 e lut tv /\ reachable O pr e m1 /\ user_kept e m m1 /\
    (forall x, input O pr m e x -> input O pr m1 e x /\ tm m1 x = tm m x)).
  { pose proof S as S'. open_setup S'. destruct (new_lut_run L pr W HBG e m f (2 ^ k) Hr K2) as (l & tv & m1 & A & _ & B & C & D & F). exists l, tv, m1. auto. }
  destruct Q as (l & tv & m1 & E1 & Tb & R1 & KU & I1). unfold BootstrapFuncAssign in E. rewrite E1 in E. cbn [bind] in E.
  eapply assign_user; [exact R1|apply I1; exact Hi|exact Tb|apply I1; exact Ho|exact E|apply KU; exact Hz].
Qed.

Ltac inv2 H x G := apply bind_inv in H; destruct H as (x & G & H); cbv beta in H.

Lemma step_ok i (m : M) ws ts xs fs es xs' fs' es' : reachable O pr e m -> wires m ws xs es -> tables m ws ts fs ->
  lplain1 k i xs fs = Ok (xs', fs') -> lnoise1 k T Rd i es = Ok es' ->
  (forall f c, lboots1 O i ws fs m f c -> zlen c = n + 1 -> rounding pr s0 c Rd /\ gen_noise O pr sk ck f (2 ^ k) c T) ->
  stepped i ws ts m xs' fs' es'.
Proof.
  intros Hr Hw Ht Hp Hn HB. destruct kbound as (K1 & K2 & _). assert (Hn0: 0 <= n) by (destruct S as ([W _] & _); apply (pw_n _ _ W)).
  unfold stepped. destruct i; cbn [lplain1 lnoise1 lexec1 lboots1] in *; cbv zeta in *.
  - (* Add *)
    inv2 Hp x Gx. inv2 Hp y Gy. injection Hp as <- <-. destruct (wires_get _ _ _ _ _ _ Hw Gx) as (r1 & E1 & G1 & D1 & _ & U1 & X1 & C1).
    destruct (wires_get _ _ _ _ _ _ Hw Gy) as (r2 & E2 & G2 & D2 & _ & U2 & X2 & C2). rewrite D1, D2 in Hn. cbn [bind] in Hn. injection Hn as <-.
    rewrite G1, G2. cbn [bind]. destruct (Add_ok n s0 (tm m r1) (tm m r2) Hn0 ltac:(apply C1) ltac:(apply C2)) as (v & E & Lv & Pv). rewrite E. cbn [bind].
    pose proof (encodes_lin n s0 k _ _ x y E1 E2 1 v ltac:(lia) C1 C2 Lv ltac:(rewrite Z.mul_1_l; exact Pv)) as C. rewrite Z.mul_1_l in C. change (Z.abs 1) with 1 in C. rewrite Z.mul_1_l in C.
    destruct (step_alloc m ws ts xs fs es v _ _ Hr Hw Ht (two_pos _) C) as (r & m' & A & W1 & T1 & O1 & N1 & R1). rewrite A.
    exists [r], ts, m'. split; [reflexivity|]. split; [exact W1|]. split; [exact T1|]. split; [apply kept_all; exact O1|]. split; [intros z [<-|[]]; exact N1|exact R1].
  - (* Sub *)
    inv2 Hp x Gx. inv2 Hp y Gy. injection Hp as <- <-. destruct (wires_get _ _ _ _ _ _ Hw Gx) as (r1 & E1 & G1 & D1 & _ & U1 & X1 & C1).
    destruct (wires_get _ _ _ _ _ _ Hw Gy) as (r2 & E2 & G2 & D2 & _ & U2 & X2 & C2). rewrite D1, D2 in Hn. cbn [bind] in Hn. injection Hn as <-.
    rewrite G1, G2. cbn [bind]. destruct (Sub_ok n s0 (tm m r1) (tm m r2) Hn0 ltac:(apply C1) ltac:(apply C2)) as (v & E & Lv & Pv). rewrite E. cbn [bind].
    assert (Pv': lwe_phase n s0 v == lwe_phase n s0 (tm m r1) + (-1) * lwe_phase n s0 (tm m r2)) by (rewrite Pv; apply eqm_refl'; ring).
    pose proof (encodes_lin n s0 k _ _ x y E1 E2 (-1) v ltac:(lia) C1 C2 Lv Pv') as C. replace (x + -1 * y) with (x - y) in C by ring.
    change (Z.abs (-1)) with 1 in C. rewrite Z.mul_1_l in C.
    destruct (step_alloc m ws ts xs fs es v _ _ Hr Hw Ht (two_pos _) C) as (r & m' & A & W1 & T1 & O1 & N1 & R1). rewrite A.
    exists [r], ts, m'. split; [reflexivity|]. split; [exact W1|]. split; [exact T1|]. split; [apply kept_all; exact O1|]. split; [intros z [<-|[]]; exact N1|exact R1].
  - (* Neg *)
    inv2 Hp x Gx. injection Hp as <- <-. destruct (wires_get _ _ _ _ _ _ Hw Gx) as (r1 & E1 & G1 & D1 & _ & U1 & X1 & C1).
    rewrite D1 in Hn. cbn [bind] in Hn. injection Hn as <-.
    rewrite G1. cbn [bind]. destruct (Neg_phase n s0 (tm m r1) Hn0 ltac:(apply C1)) as (v & E & Lv & Pv). rewrite E. cbn [bind].
    pose proof (encodes_neg n s0 k _ x E1 v ltac:(lia) C1 Lv Pv) as C.
    destruct (step_alloc m ws ts xs fs es v _ _ Hr Hw Ht (two_pos _) C) as (r & m' & A & W1 & T1 & O1 & N1 & R1). rewrite A.
    exists [r], ts, m'. split; [reflexivity|]. split; [exact W1|]. split; [exact T1|]. split; [apply kept_all; exact O1|]. split; [intros z [<-|[]]; exact N1|exact R1].
  - (* AddMul *)
    inv2 Hp x Gx. inv2 Hp y Gy. injection Hp as <- <-. destruct (wires_get _ _ _ _ _ _ Hw Gx) as (r1 & E1 & G1 & D1 & _ & U1 & X1 & C1).
    destruct (wires_get _ _ _ _ _ _ Hw Gy) as (r2 & E2 & G2 & D2 & _ & U2 & X2 & C2). rewrite D1, D2 in Hn. cbn [bind] in Hn. injection Hn as <-.
    rewrite G1, G2. cbn [bind]. destruct (AddMul_ok n s0 (tm m r1) (tm m r2) (w32 c) Hn0 ltac:(apply C1) ltac:(apply C2)) as (v & E & Lv & Pv). rewrite E. cbn [bind].
    assert (Pv': lwe_phase n s0 v == lwe_phase n s0 (tm m r1) + c * lwe_phase n s0 (tm m r2)) by (rewrite Pv, eqm_w32; reflexivity).
    pose proof (encodes_lin n s0 k _ _ x y E1 E2 c v ltac:(lia) C1 C2 Lv Pv') as C.
    destruct (step_alloc m ws ts xs fs es v _ _ Hr Hw Ht (two_pos _) C) as (r & m' & A & W1 & T1 & O1 & N1 & R1). rewrite A.
    exists [r], ts, m'. split; [reflexivity|]. split; [exact W1|]. split; [exact T1|]. split; [apply kept_all; exact O1|]. split; [intros z [<-|[]]; exact N1|exact R1].
  - (* SubMul *)
    inv2 Hp x Gx. inv2 Hp y Gy. injection Hp as <- <-. destruct (wires_get _ _ _ _ _ _ Hw Gx) as (r1 & E1 & G1 & D1 & _ & U1 & X1 & C1).
    destruct (wires_get _ _ _ _ _ _ Hw Gy) as (r2 & E2 & G2 & D2 & _ & U2 & X2 & C2). rewrite D1, D2 in Hn. cbn [bind] in Hn. injection Hn as <-.
    rewrite G1, G2. cbn [bind]. destruct (SubMul_ok n s0 (tm m r1) (tm m r2) (w32 c) Hn0 ltac:(apply C1) ltac:(apply C2)) as (v & E & Lv & Pv). rewrite E. cbn [bind].
    assert (Pv': lwe_phase n s0 v == lwe_phase n s0 (tm m r1) + (- c) * lwe_phase n s0 (tm m r2)) by (rewrite Pv, eqm_w32; apply eqm_refl'; ring).
    pose proof (encodes_lin n s0 k _ _ x y E1 E2 (- c) v ltac:(lia) C1 C2 Lv Pv') as C. rewrite Z.abs_opp in C. replace (x + - c * y) with (x - c * y) in C by ring.
    destruct (step_alloc m ws ts xs fs es v _ _ Hr Hw Ht (two_pos _) C) as (r & m' & A & W1 & T1 & O1 & N1 & R1). rewrite A.
    exists [r], ts, m'. split; [reflexivity|]. split; [exact W1|]. split; [exact T1|]. split; [apply kept_all; exact O1|]. split; [intros z [<-|[]]; exact N1|exact R1].
  - (* AddInto *)
    inv2 Hp x Gx. inv2 Hp y Gy. inv2 Hp xs1 Gs. injection Hp as <- <-. destruct (wires_get _ _ _ _ _ _ Hw Gx) as (r1 & E1 & G1 & D1 & _ & U1 & X1 & C1).
    destruct (wires_get _ _ _ _ _ _ Hw Gy) as (r2 & E2 & G2 & D2 & _ & U2 & X2 & C2). rewrite D1, D2 in Hn. cbn [bind] in Hn.
    apply set_inv in Gs. destruct Gs as [Ho ->]. apply set_inv in Hn. destruct Hn as [_ ->].
    destruct (wires_loc _ _ _ _ _ Hw Ho) as (r & Gr & Ur & Lr).
    rewrite G1, G2, Gr. cbn [bind]. pose proof S as S'. open_setup S'.
    destruct (AddAssign_ok m n r1 r2 r Hn0 ltac:(apply C1) ltac:(apply C2) Lr) as (m' & E & V & Fr).
    destruct (AddAssign_phase m n s0 r1 r2 r Hn0 ltac:(apply C1) ltac:(apply C2) Lr) as (m'' & E'' & Lv & Pv & _). rewrite E in E''. injection E'' as <-.
    rewrite E. cbn [bind].
    pose proof (encodes_lin n s0 k _ _ x y E1 E2 1 _ ltac:(lia) C1 C2 Lv ltac:(rewrite Z.mul_1_l; exact Pv)) as C. rewrite Z.mul_1_l in C. change (Z.abs 1) with 1 in C. rewrite Z.mul_1_l in C.
    destruct (fr_n _ _ _ _ _ Fr) as (T1 & T2 & T3).
    assert (KU: forall z, user m e z -> z <> r -> user m' e z /\ tm m' z = tm m z).
    { intros z [Hz Hnz] Hne. split; [split; [lia|exact Hnz]|]. apply (fr_t _ _ _ _ _ Fr). congruence. }
    assert (Ur': user m' e r) by (destruct Ur as [A B]; split; [lia|exact B]).
    destruct (step_set m m' ws ts xs fs es _ r _ _ Hw Ht Gr KU Ur' (two_pos _) C) as (W1 & TT1 & O1).
    exists [], ts, m'. rewrite app_nil_r. split; [reflexivity|]. split; [exact W1|]. split; [exact TT1|]. split; [eapply kept_one; eassumption|]. split; [intros z []|].
    eapply (reach_other L pr W HBG); [exact Hr| | | |lia|lia|lia].
    + intros z Hz. apply (fr_t _ _ _ _ _ Fr). intros <-. destruct Ur; contradiction.
    + intros z _. apply (fr_f _ _ _ _ _ Fr). intros [].
    + intros z _. apply (fr_i _ _ _ _ _ Fr). intros [].
  - (* Table *)
    injection Hp as <- <-. injection Hn as <-. pose proof S as S'. open_setup S'.
    destruct (new_lut_run L pr W HBG e m f (2 ^ k) Hr K2) as (l & tv & m' & E & G & Tb & R1 & KU & I1). rewrite E. cbn [bind].
    exists [], (ts ++ [l]), m'. rewrite app_nil_r. split; [reflexivity|].
    assert (NW: ~ In (rA l) ws /\ ~ In (rB l) ws).
    { assert (B: forall z, In z ws -> z < tnext m).
      { intros z Hz. apply In_zn in Hz. destruct Hz as (i & Hi & <-). destruct Hw as (_ & _ & _ & H). apply (H i Hi). }
      unfold new_lut in E. rewrite G in E. cbn [bind alloc] in E. injection E as <- _. cbn [rA rB tnext].
      split; intro X; apply B in X; lia. }
    split; [|split; [|split; [apply kept_all; exact KU|split; [intros z []|exact R1]]]].
    + destruct Hw as (L1 & L2 & ND & H). split; [exact L1|]. split; [exact L2|]. split; [exact ND|]. intros i Hi. destruct (H i Hi) as (U & B & C).
      destruct (KU _ U) as [U' ->]. auto.
    + apply Forall2_app; [eapply tables_keep; [exact Ht|apply kept_others; exact KU|intros z Hz; left; exact Hz]|].
      constructor; [|constructor]. split; [exists tv; split; assumption|exact NW].
  - (* Lut *)
    inv2 Hp f Gf. inv2 Hp x Gx. injection Hp as <- <-. inv2 Hn E Gn. apply noise_boot in Gn. destruct Gn as (F & Ge & HF & ->). injection Hn as <-.
    destruct (wires_get _ _ _ _ _ _ Hw Gx) as (r1 & E1 & G1 & D1 & _ & U1 & X1 & C1).
    destruct (HB f (tm m r1)) as [HR HT]; [split; [exact Gf|exists r1; auto]|apply C1|].
    destruct (boot_lut m ws xs es ts fs t f a r1 x F Hr Hw Ht Gf Gx G1 Ge HF HR HT) as (l & tv & y & Gl & Tb & Hpt & Hi & Hx & Hen & Hrd & Hbn & Hs).
    rewrite Gl, G1. cbn [bind].
    destruct (t_lut R O pr sk rk rb ck S e m r1 l tv (2 ^ k) x y T Hr Hi Tb Hpt K2 Hx Hen Hrd Hbn) as (r & m' & E & A & B & V1 & V2 & KU & R1).
    rewrite E. cbn [bind]. destruct (step_new m m' ws ts xs fs es r _ T Hw Ht KU V1 V2 (two_pos _) (boot_encodes _ _ f y A B Hs)) as (W1 & T1 & O1 & N1).
    exists [r], ts, m'. split; [reflexivity|]. split; [exact W1|]. split; [exact T1|]. split; [apply kept_all; exact KU|]. split; [exact N1|exact R1].
  - (* LutInto *)
    inv2 Hp f Gf. inv2 Hp x Gx. inv2 Hp xs1 Gs. injection Hp as <- <-. inv2 Hn E Gn. apply noise_boot in Gn. destruct Gn as (F & Ge & HF & ->).
    apply set_inv in Gs. destruct Gs as [Ho ->]. apply set_inv in Hn. destruct Hn as [_ ->].
    destruct (wires_loc _ _ _ _ _ Hw Ho) as (r & Gr & Ur & Lr).
    destruct (wires_get _ _ _ _ _ _ Hw Gx) as (r1 & E1 & G1 & D1 & _ & U1 & X1 & C1).
    destruct (HB f (tm m r1)) as [HR HT]; [split; [exact Gf|exists r1; auto]|apply C1|].
    destruct (boot_lut m ws xs es ts fs t f a r1 x F Hr Hw Ht Gf Gx G1 Ge HF HR HT) as (l & tv & y & Gl & Tb & Hpt & Hi & Hx & Hen & Hrd & Hbn & Hs).
    rewrite Gl, G1, Gr. cbn [bind].
    destruct (t_lut_assign R O pr sk rk rb ck S e m r1 l tv (2 ^ k) x y T r Hr Hi Tb Hpt (conj Lr (or_introl Ur)) K2 Hx Hen Hrd Hbn) as (m' & E & A & B & KU & R1).
    rewrite E. cbn [bind]. assert (Ur': user m' e r) by (eapply assign_user; [exact Hr|exact Hi|exact Tb|exact (conj Lr (or_introl Ur))|exact E|exact Ur]).
    destruct (step_set m m' ws ts xs fs es _ r _ T Hw Ht Gr KU Ur' (two_pos _) (boot_encodes _ _ f y A B Hs)) as (W1 & T1 & O1).
    exists [], ts, m'. rewrite app_nil_r. split; [reflexivity|]. split; [exact W1|]. split; [exact T1|]. split; [eapply kept_one; eassumption|]. split; [intros z []|exact R1].
  - (* Func *)
    inv2 Hp x Gx. injection Hp as <- <-. inv2 Hn E Gn. apply noise_boot in Gn. destruct Gn as (F & Ge & HF & ->). injection Hn as <-.
    destruct (wires_get _ _ _ _ _ _ Hw Gx) as (r1 & E1 & G1 & D1 & _ & U1 & X1 & C1).
    destruct (HB f (tm m r1)) as [HR HT]; [split; [reflexivity|exists r1; auto]|apply C1|].
    destruct (boot_func m ws xs es a r1 x F Hw Gx G1 Ge HF HR) as (Hi & Hx & Hrd).
    rewrite G1. cbn [bind].
    destruct (t_func R O pr sk rk rb ck S e m r1 f (2 ^ k) x T Hr Hi K2 Hx Hrd HT) as (r & m' & y & E & Ey & A & B & V1 & V2 & KU & R1).
    pose proof (signed_lut_at f x y Hx Ey) as Hs.
    rewrite E. cbn [bind]. destruct (step_new m m' ws ts xs fs es r _ T Hw Ht KU V1 V2 (two_pos _) (boot_encodes _ _ f y A B Hs)) as (W1 & T1 & O1 & N1).
    exists [r], ts, m'. split; [reflexivity|]. split; [exact W1|]. split; [exact T1|]. split; [apply kept_all; exact KU|]. split; [exact N1|exact R1].
  - (* FuncInto *)
    inv2 Hp x Gx. inv2 Hp xs1 Gs. injection Hp as <- <-. inv2 Hn E Gn. apply noise_boot in Gn. destruct Gn as (F & Ge & HF & ->).
    apply set_inv in Gs. destruct Gs as [Ho ->]. apply set_inv in Hn. destruct Hn as [_ ->].
    destruct (wires_loc _ _ _ _ _ Hw Ho) as (r & Gr & Ur & Lr).
    destruct (wires_get _ _ _ _ _ _ Hw Gx) as (r1 & E1 & G1 & D1 & _ & U1 & X1 & C1).
    destruct (HB f (tm m r1)) as [HR HT]; [split; [reflexivity|exists r1; auto]|apply C1|].
    destruct (boot_func m ws xs es a r1 x F Hw Gx G1 Ge HF HR) as (Hi & Hx & Hrd).
    rewrite G1, Gr. cbn [bind].
    destruct (t_func_assign R O pr sk rk rb ck S e m r1 f (2 ^ k) x T r Hr Hi (conj Lr (or_introl Ur)) K2 Hx Hrd HT) as (m' & y & E & Ey & A & B & KU & R1).
    pose proof (signed_lut_at f x y Hx Ey) as Hs.
    rewrite E. cbn [bind]. assert (Ur': user m' e r) by (eapply func_assign_user; [exact Hr|exact Hi|exact (conj Lr (or_introl Ur))|exact E|exact Ur]).
    destruct (step_set m m' ws ts xs fs es _ r _ T Hw Ht Gr KU Ur' (two_pos _) (boot_encodes _ _ f y A B Hs)) as (W1 & T1 & O1).
    exists [], ts, m'. rewrite app_nil_r. split; [reflexivity|]. split; [exact W1|]. split; [exact T1|]. split; [eapply kept_one; eassumption|]. split; [intros z []|exact R1].
Qed.

(** ** whole programs *)
Lemma plain_fs i xs fs xs' fs' : lplain1 k i xs fs = Ok (xs', fs') -> fs' = match i with LTable g => fs ++ [g] | _ => fs end.
Proof.
  destruct i; cbn [lplain1]; cbv zeta; intro H;
    repeat (apply bind_inv in H; destruct H as (? & _ & H); cbv beta in H); injection H as _ <-; reflexivity.
Qed.

Lemma prog_ok p : forall (m : M) ws ts xs fs es xs' fs' es', reachable O pr e m -> wires m ws xs es -> tables m ws ts fs ->
  lplain k p xs fs = Ok (xs', fs') -> lnoise k T Rd p es = Ok es' ->
  (forall f c, lboots O pr ck e k p ws ts fs m f c -> zlen c = n + 1 -> rounding pr s0 c Rd /\ gen_noise O pr sk ck f (2 ^ k) c T) ->
  exists nw ts' m', lexec O pr ck e k p ws ts m = Ok (ws ++ nw, ts', m') /\ wires m' (ws ++ nw) xs' es' /\ tables m' (ws ++ nw) ts' fs' /\
    kept_but O e (outputs p) ws m m' /\ (forall x, In x nw -> ~ user m e x) /\ reachable O pr e m'.
Proof.
  induction p as [|i p IH]; intros m ws ts xs fs es xs' fs' es' Hr Hw Ht Hp Hn HB; cbn [lplain lnoise lexec lboots] in *.
  - injection Hp as <- <-. injection Hn as <-. exists [], ts, m. rewrite app_nil_r. split; [reflexivity|]. split; [exact Hw|]. split; [exact Ht|].
    split; [intros x Hx _; auto|]. split; [intros x []|exact Hr].
  - apply bind_inv in Hp. destruct Hp as ([xs1 fs1] & P1 & Hp). apply bind_inv in Hn. destruct Hn as (es1 & N1 & Hn). cbv beta in Hn.
    pose proof (plain_fs _ _ _ _ _ P1) as Efs.
    destruct (step_ok i m ws ts xs fs es xs1 fs1 es1 Hr Hw Ht P1 N1) as (nw1 & ts1 & m1 & E1 & W1 & T1 & O1 & F1 & R1).
    { intros f c Hc. apply HB. left. exact Hc. }
    destruct (IH m1 (ws ++ nw1) ts1 xs1 fs1 es1 xs' fs' es' R1 W1 T1 Hp Hn) as (nw2 & ts2 & m2 & E2 & W2 & T2 & O2 & F2 & R2).
    { intros f c Hc. apply HB. right. exists (ws ++ nw1), ts1, m1. split; [exact E1|]. rewrite <- Efs. exact Hc. }
    exists (nw1 ++ nw2), ts2, m2. rewrite E1. cbn [bind]. rewrite app_assoc. split; [exact E2|]. split; [exact W2|]. split; [exact T2|].
    assert (KU: forall x, user m e x -> user m1 e x).
    { intros x Hx. destruct (in_dec Z.eq_dec x ws) as [I|I].
      - apply In_zn in I. destruct I as (j & Hj & <-). destruct W1 as (_ & _ & _ & H). rewrite <- (zn_app1 ws nw1) by exact Hj. apply H.
        unfold zlen in *. rewrite app_length. lia.
      - apply O1; [exact Hx|]. intros o _ G. apply I. destruct (get_inv 0 _ _ _ G) as [Hj ->]. apply (zn_In ws o). exact Hj. }
    split; [|split; [|exact R2]].
    + intros x Hx Hnx. cbn [outputs flat_map] in Hnx. destruct (O1 x Hx) as [V1 E1'].
      { intros o Ho. apply Hnx. apply in_or_app. left. exact Ho. }
      destruct (O2 x V1) as [V2 E2'].
      * intros o Ho G. destruct (get_inv 0 _ _ _ G) as [Hj Ex]. destruct (Z_lt_dec o (zlen ws)) as [Hlt|Hge].
        { apply (Hnx o); [apply in_or_app; right; exact Ho|]. rewrite <- G. unfold get. destruct (Z.ltb_spec o 0); [lia|].
          rewrite nth_error_app1 by (unfold zlen in Hlt; lia). reflexivity. }
        { apply (F1 x); [|exact Hx]. rewrite Ex. unfold znd. rewrite app_nth2 by (unfold zlen in Hge; lia). apply nth_In.
          rewrite zlen_app in Hj. unfold zlen in *. lia. }
      * split; [exact V2|congruence].
    + intros x I. apply in_app_or in I. destruct I as [I|I]; [apply F1; exact I|]. intro X. apply (F2 x I). apply KU. exact X.
Qed.

Lemma wires_decrypts (m : M) ws xs es i x E : wires m ws xs es -> get xs i = Ok x -> get es i = Ok E -> E < 2 ^ (30 - k) ->
  exists r, get ws i = Ok r /\ DecryptLWEMessage n (tm m r) (2 ^ k) s0 = Ok (x mod 2 ^ k).
Proof.
  intros Hw Gx Ge HE. destruct (wires_get _ _ _ _ _ _ Hw Gx) as (r & E' & Gr & Ge' & _ & _ & _ & (Lc & C)). rewrite Ge in Ge'. injection Ge' as <-.
  exists r. split; [exact Gr|]. destruct kbound as (K1 & _). destruct S as ([W _] & _ & Hsk & _). pose proof (pw_n _ _ W). destruct Lc as [Lc _]. destruct Hsk as [[LK _] _].
  eapply position_decrypts; [lia|lia|lia|lia|exact C|exact HE].
Qed.
End Props.


(** the statement, and its float64 form *)
Lemma lp_program (R : arith) O pr sk rk rb ck e k T Rd p (m : mem (FP O)) ws ts xs fs es xs' fs' es' : setup R O pr sk rk rb ck -> 0 <= k < g_NBIT pr ->
  reachable O pr e m -> lwires O pr e k sk m ws xs es -> ltables O pr e k m ws ts fs ->
  lplain k p xs fs = Ok (xs', fs') -> lnoise k T Rd p es = Ok es' ->
  (forall f c, lboots O pr ck e k p ws ts fs m f c -> rounding pr (KeyLv0 sk) c Rd /\ gen_noise O pr sk ck f (2 ^ k) c T) ->
  exists nw ts' m', lexec O pr ck e k p ws ts m = Ok (ws ++ nw, ts', m') /\
    lwires O pr e k sk m' (ws ++ nw) xs' es' /\ ltables O pr e k m' (ws ++ nw) ts' fs' /\
    (forall i r x E, get (ws ++ nw) i = Ok r -> get xs' i = Ok x -> get es' i = Ok E -> E < 2 ^ (30 - k) ->
       DecryptLWEMessage (lv0_N pr) (tm m' r) (2 ^ k) (KeyLv0 sk) = Ok (x mod 2 ^ k)) /\
    kept_but O e (outputs p) ws m m' /\ (forall x, In x nw -> ~ user m e x) /\ reachable O pr e m'.
Proof.
  intros S Hk Hr Hw Ht Hp Hn HB.
  destruct (prog_ok R O pr sk rk rb ck S e k Hk T Rd p m ws ts xs fs es xs' fs' es' Hr Hw Ht Hp Hn) as (nw & ts' & m' & E & W1 & T1 & O1 & F1 & R1).
  { intros f c Hc _. apply HB. exact Hc. }
  exists nw, ts', m'. split; [exact E|]. split; [exact W1|]. split; [exact T1|]. split; [|auto].
  intros i r x F Gr Gx Ge HE. destruct (wires_decrypts R O pr sk rk rb ck S e k Hk m' _ _ _ i x F W1 Gx Ge HE) as (r' & Gr' & D).
  rewrite Gr in Gr'. injection Gr' as <-. exact D.
Qed.

Lemma lp_float64 mc O pr sk rk rb ck Bb Bk d d' e k p (m : mem (FP O)) ws ts xs fs es xs' fs' es' : mc_ok mc -> setup (f64_arith mc) O pr sk rk rb ck ->
  fft_error_within pr d d' -> key_noise_within pr rk rb Bb Bk -> 0 <= Bb -> 0 <= Bk -> 0 <= d' -> 0 <= k < g_NBIT pr ->
  reachable O pr e m -> lwires O pr e k sk m ws xs es -> ltables O pr e k m ws ts fs ->
  lplain k p xs fs = Ok (xs', fs') -> lnoise k (worst_noise pr sk Bb Bk d d') (round_err pr sk) p es = Ok es' ->
  exists nw ts' m', lexec O pr ck e k p ws ts m = Ok (ws ++ nw, ts', m') /\
    lwires O pr e k sk m' (ws ++ nw) xs' es' /\ ltables O pr e k m' (ws ++ nw) ts' fs' /\
    (forall i r x E, get (ws ++ nw) i = Ok r -> get xs' i = Ok x -> get es' i = Ok E -> E < 2 ^ (30 - k) ->
       DecryptLWEMessage (lv0_N pr) (tm m' r) (2 ^ k) (KeyLv0 sk) = Ok (x mod 2 ^ k)) /\
    kept_but O e (outputs p) ws m m' /\ (forall x, In x nw -> ~ user m e x) /\ reachable O pr e m'.
Proof.
  intros Hc S H1 H2 H3 H4 H5 Hk Hr Hw Ht Hp Hn.
  destruct (prog_ok _ O pr sk rk rb ck S e k Hk (worst_noise pr sk Bb Bk d d') (round_err pr sk) p m ws ts xs fs es xs' fs' es' Hr Hw Ht Hp Hn)
    as (nw & ts' & m' & E & W1 & T1 & O1 & F1 & R1).
  { intros f c _ Hl. split; [eapply t_rounding; exact S|]. eapply t_worst; try eassumption. apply Z.pow_pos_nonneg; lia. }
  exists nw, ts', m'. split; [exact E|]. split; [exact W1|]. split; [exact T1|]. split; [|auto].
  intros i r x F Gr Gx Ge HE. destruct (wires_decrypts _ O pr sk rk rb ck S e k Hk m' _ _ _ i x F W1 Gx Ge HE) as (r' & Gr' & D).
  rewrite Gr in Gr'. injection Gr' as <-. exact D.
Qed.

(** ** a chain of functions in one buffer *)
Lemma chain_plain k fs : 0 <= k -> forall x, 0 <= x < 2 ^ k ->
  lplain k (in_place fs) [x] [] = Ok ([fold_left (fun x f => f x mod 2 ^ k) fs x], []).
Proof.
  intro Hk. assert (P: 0 < 2 ^ k) by (apply Z.pow_pos_nonneg; lia).
  induction fs as [|f fs IH]; intros x Hx; [reflexivity|]. cbn [in_place map lplain lplain1 fold_left].
  change (get [x] 0) with (Ok x). cbn [bind].
  assert (E: lut_at k f x mod (2 * 2 ^ k) = f x mod 2 ^ k).
  { unfold lut_at. destruct (Z.ltb_spec x (2 ^ k)); [|lia]. apply Z.mod_small. pose proof (Z.mod_pos_bound (f x) (2 ^ k) P). lia. }
  rewrite E. change (set [x] 0 (f x mod 2 ^ k)) with (Ok [f x mod 2 ^ k]). cbn [bind]. apply IH. apply Z.mod_pos_bound. exact P.
Qed.
Lemma chain_noise k T Rd fs : T + Rd < 2 ^ (30 - k) -> forall E, E + Rd < 2 ^ (30 - k) -> exists F, lnoise k T Rd (in_place fs) [E] = Ok [F] /\ (fs = [] /\ F = E \/ F = T).
Proof.
  intro HT. induction fs as [|f fs IH]; intros E HE; [exists E; auto|]. cbn [in_place map lnoise lnoise1].
  change (get [E] 0) with (Ok E). cbn [bind]. destruct (Z.ltb_spec (E + Rd) (2 ^ (30 - k))); [|lia]. cbn [bind].
  change (set [E] 0 T) with (Ok [T]). cbn [bind]. fold (in_place fs). destruct (IH T HT) as (F & -> & [[_ ->]| ->]); exists T; auto.
Qed.

Lemma chain_float64 mc O pr sk rk rb ck Bb Bk d d' e k fs (m : mem (FP O)) c x E : mc_ok mc -> setup (f64_arith mc) O pr sk rk rb ck ->
  fft_error_within pr d d' -> key_noise_within pr rk rb Bb Bk -> 0 <= Bb -> 0 <= Bk -> 0 <= d' -> 0 <= k < g_NBIT pr ->
  worst_noise pr sk Bb Bk d d' + round_err pr sk < 2 ^ (30 - k) -> E + round_err pr sk < 2 ^ (30 - k) ->
  reachable O pr e m -> user m e c -> 0 <= x < 2 ^ k -> encodes (lv0_N pr) (KeyLv0 sk) (tm m c) (2 ^ k) x E ->
  exists m', lexec O pr ck e k (in_place fs) [c] [] m = Ok ([c], [], m') /\
    DecryptLWEMessage (lv0_N pr) (tm m' c) (2 ^ k) (KeyLv0 sk) = Ok (fold_left (fun x f => f x mod 2 ^ k) fs x) /\
    (forall z, user m e z -> z <> c -> user m' e z /\ tm m' z = tm m z) /\ reachable O pr e m'.
Proof.
  intros Hc S H1 H2 H3 H4 H5 Hk HT HE Hr Hu Hx Henc. assert (P: 0 < 2 ^ k) by (apply Z.pow_pos_nonneg; lia).
  destruct (chain_noise k _ (round_err pr sk) fs HT E HE) as (F & Hn & HF).
  assert (HR: 0 <= round_err pr sk) by (destruct S as ([W _] & _ & Hsk & _); apply (round_err_nonneg pr W sk Hsk)).
  pose proof (chain_plain k fs ltac:(lia) x Hx) as Hp.
  assert (Hw: lwires O pr e k sk m [c] [x] [E]).
  { split; [reflexivity|]. split; [reflexivity|]. split; [constructor; [intros []|constructor]|]. intros i Hi. change (zlen [c]) with 1 in Hi.
    assert (i = 0) by lia. subst i. change (zn [c] 0) with c. change (zn [x] 0) with x. change (zn [E] 0) with E. split; [exact Hu|]. split; [lia|exact Henc]. }
  destruct (lp_float64 mc O pr sk rk rb ck Bb Bk d d' e k (in_place fs) m [c] [] [x] [] [E] _ _ _ Hc S H1 H2 H3 H4 H5 Hk Hr Hw (Forall2_nil _) Hp Hn)
    as (nw & ts' & m' & E1 & W1 & T1 & D1 & O1 & F1 & R1).
  inversion T1; subst ts'. destruct W1 as (L1 & _). assert (nw = []).
  { destruct nw; [reflexivity|]. unfold zlen in L1. cbn [app length] in L1. lia. }
  subst nw. cbn [app] in *. exists m'. split; [exact E1|]. split; [|split; [|exact R1]].
  - rewrite (D1 0 c _ F eq_refl eq_refl eq_refl); [|destruct HF as [[_ ->]| ->]; lia]. f_equal. apply Z.mod_small.
    clear - Hx P. revert x Hx. induction fs as [|f fs IH]; intros x Hx; [exact Hx|]. cbn [fold_left]. apply IH. apply Z.mod_pos_bound. exact P.
  - intros z Hz Hne. apply O1; [exact Hz|]. intros o Ho G. apply Hne. assert (o = 0).
    { clear - Ho. induction fs as [|f fs IH]; [destruct Ho|]. cbn [in_place map outputs flat_map outputs1 app] in Ho. destruct Ho as [Ho|Ho]; [auto|apply IH; exact Ho]. }
    subst o. change (get [c] 0) with (Ok c) in G. congruence.
Qed.

(** ** the adder in base B *)
Lemma lplain_app k p q : forall xs fs, lplain k (p ++ q) xs fs = ('(xs, fs) <- lplain k p xs fs ;; lplain k q xs fs).
Proof.
  induction p as [|i p IH]; intros xs fs; cbn [app lplain]; [reflexivity|]. destruct (lplain1 k i xs fs) as [[xs1 fs1]|]; cbn [bind]; [apply IH|reflexivity].
Qed.
Lemma lnoise_app k T Rd p q : forall es, lnoise k T Rd (p ++ q) es = (es <- lnoise k T Rd p es ;; lnoise k T Rd q es).
Proof.
  induction p as [|i p IH]; intros es; cbn [app lnoise]; [reflexivity|]. destruct (lnoise1 k T Rd i es) as [es1|]; cbn [bind]; [apply IH|reflexivity].
Qed.
Lemma lget_app1 {A} (u v : list A) i : 0 <= i < zlen u -> get (u ++ v) i = get u i.
Proof.
  intro H. unfold get. destruct (Z.ltb_spec i 0); [reflexivity|]. rewrite nth_error_app1; [reflexivity|]. unfold zlen in H. lia.
Qed.
Lemma get_last {A} (u v : list A) x i : i = zlen u -> get (u ++ x :: v) i = Ok x.
Proof.
  intros ->. unfold get, zlen. destruct (Z.ltb_spec (Z.of_nat (length u)) 0); [lia|].
  rewrite Nat2Z.id, nth_error_app2, Nat.sub_diag by lia. reflexivity.
Qed.

Section Radix.
Context (k B w : Z) (Hk : 0 <= k) (HB : 1 <= B) (HBk : 2 * B <= 2 ^ k) (Hw : 0 <= w).
Let fs := [(fun x => x mod B); (fun x => x / B)].

Lemma digit_plain xs i a b c : 0 <= i -> zlen xs = 2 * w + 1 + 4 * i -> get xs i = Ok a -> get xs (w + i) = Ok b -> get xs (2 * w + 4 * i) = Ok c ->
  0 <= a < B -> 0 <= b < B -> 0 <= c <= 1 ->
  lplain k (digit_calls w i) xs fs = Ok (xs ++ [a + b; a + b + c; (a + b + c) mod B; (a + b + c) / B], fs).
Proof.
  intros Hi Hz Ga Gb Gc Ha Hb Hc. unfold digit_calls. set (p := 2 * w + 1 + 4 * i) in *. cbv zeta. cbn [lplain lplain1].
  assert (Gz: forall l j v, get xs j = Ok v -> get (xs ++ l) j = Ok v).
  { intros l j v G. destruct (get_inv 0 _ _ _ G) as [Hj _]. rewrite lget_app1 by exact Hj. exact G. }
  rewrite Ga, Gb. cbn [bind]. rewrite (Z.mod_small (a + b)) by lia.
  rewrite (get_last xs [] (a + b) p) by lia. rewrite (Gz [a + b] (p - 1) c) by (replace (p - 1) with (2 * w + 4 * i) by lia; exact Gc). cbn [bind].
  rewrite (Z.mod_small (a + b + c)) by lia. rewrite <- (app_assoc xs). cbn [app].
  assert (G1: forall l, get (xs ++ a + b :: a + b + c :: l) (p + 1) = Ok (a + b + c)).
  { intro l. change (xs ++ a + b :: a + b + c :: l) with (xs ++ [a + b] ++ a + b + c :: l). rewrite app_assoc. apply get_last. rewrite zlen_snoc. lia. }
  assert (L: forall f, lut_at k f (a + b + c) = f (a + b + c) mod 2 ^ k).
  { intro f. unfold lut_at. destruct (Z.ltb_spec (a + b + c) (2 ^ k)); [reflexivity|lia]. }
  unfold fs at 1. change (get [(fun x => x mod B); (fun x => x / B)] 0) with (Ok (fun x => x mod B)). cbn [bind]. rewrite G1. cbn [bind].
  rewrite L. pose proof (Z.mod_pos_bound (a + b + c) B ltac:(lia)). rewrite !(Z.mod_small ((a + b + c) mod B)) by (rewrite ?(Z.mod_small ((a + b + c) mod B)) by lia; lia).
  rewrite <- (app_assoc xs). cbn [app].
  unfold fs at 1. change (get [(fun x => x mod B); (fun x => x / B)] 1) with (Ok (fun x => x / B)). cbn [bind]. rewrite G1. cbn [bind].
  rewrite L. assert (0 <= (a + b + c) / B < 2) by (split; [apply Z.div_pos; lia|apply Z.div_lt_upper_bound; lia]).
  rewrite !(Z.mod_small ((a + b + c) / B)) by (rewrite ?(Z.mod_small ((a + b + c) / B)) by lia; lia).
  rewrite <- (app_assoc xs). reflexivity.
Qed.

Context (va vb : Z -> Z) (Ha : forall i, 0 <= i < w -> 0 <= va i < B) (Hb : forall i, 0 <= i < w -> 0 <= vb i < B).

Lemma digits_plain xs0 j : 0 <= j -> j <= w -> zlen xs0 = 2 * w + 1 ->
  (forall i, 0 <= i < w -> get xs0 i = Ok (va i) /\ get xs0 (w + i) = Ok (vb i)) -> get xs0 (2 * w) = Ok 0 ->
  exists rest ds c, lplain k (radix_digits w (Z.to_nat j)) xs0 fs = Ok (xs0 ++ rest, fs) /\ zlen rest = 4 * j /\
    (forall i, 0 <= i < j -> get (xs0 ++ rest) (sum_digit w i) = Ok (ds i) /\ 0 <= ds i < B) /\
    get (xs0 ++ rest) (2 * w + 4 * j) = Ok c /\ 0 <= c <= 1 /\
    zsum j (fun i => ds i * B ^ i) + c * B ^ j = zsum j (fun i => va i * B ^ i) + zsum j (fun i => vb i * B ^ i).
Proof.
  intros Hj Hjw Hz Hx H0. revert j Hj Hjw. refine (zsum_ind _ _ _).
  - intros _. exists [], (fun _ => 0), 0. rewrite app_nil_r. split; [reflexivity|]. split; [reflexivity|]. split; [intros; lia|]. rewrite Z.mul_0_r, Z.add_0_r.
    split; [exact H0|]. split; [lia|]. rewrite !zsum_0 by lia. reflexivity.
  - intros j Hj IH Hjw. destruct (IH ltac:(lia)) as (rest & ds & c & E & Hr & Hd & Gc & Hc & Hs).
    replace (Z.to_nat (j + 1)) with (Datatypes.S (Z.to_nat j)) by lia. cbn [radix_digits]. rewrite lplain_app, E. cbn [bind]. rewrite Z2Nat.id by lia.
    destruct (Hx j ltac:(lia)) as [Ga Gb]. pose proof (Ha j ltac:(lia)). pose proof (Hb j ltac:(lia)).
    assert (ZL: zlen (xs0 ++ rest) = 2 * w + 1 + 4 * j) by (rewrite zlen_app; lia).
    rewrite (digit_plain (xs0 ++ rest) j (va j) (vb j) c) by (try lia; try (rewrite lget_app1 by lia); try assumption).
    set (s := va j + vb j + c) in *. set (t := [va j + vb j; s; s mod B; s / B]).
    exists (rest ++ t), (fun i => if i =? j then s mod B else ds i), (s / B). rewrite <- app_assoc. split; [reflexivity|].
    split; [rewrite zlen_app, Hr; change (zlen t) with 4; lia|]. rewrite app_assoc. pose proof (Z.mod_pos_bound s B ltac:(lia)) as Bd.
    split; [|split; [|split]].
    + intros i Hi. destruct (Z.eqb_spec i j) as [->|Hne].
      * split; [|exact Bd]. change t with ([va j + vb j; s] ++ s mod B :: [s / B]). rewrite app_assoc. apply get_last. rewrite zlen_app. change (zlen [va j + vb j; s]) with 2. unfold sum_digit. lia.
      * destruct (Hd i ltac:(lia)) as [G D]. split; [|exact D]. rewrite lget_app1; [exact G|]. unfold sum_digit. lia.
    + change t with ([va j + vb j; s; s mod B] ++ s / B :: []). rewrite app_assoc. apply get_last. rewrite zlen_app. change (zlen [va j + vb j; s; s mod B]) with 3. lia.
    + split; [apply Z.div_pos; lia|]. assert (s / B < 2) by (apply Z.div_lt_upper_bound; lia). lia.
    + rewrite !zsum_S by lia. rewrite Z.eqb_refl. rewrite (zsum_ext j (fun i => (if i =? j then s mod B else ds i) * B ^ i) (fun i => ds i * B ^ i)).
      2: { intros i Hi. destruct (Z.eqb_spec i j); [lia|reflexivity]. }
      rewrite Z.pow_add_r by lia. change (B ^ 1) with (B * 1). pose proof (Z.div_mod s B ltac:(lia)) as DM.
      assert (K: s mod B * B ^ j + s / B * (B ^ j * (B * 1)) = s * B ^ j) by (rewrite DM at 3; ring). 
      unfold s in K at 3. nia.
Qed.

Context (T Rd E : Z) (H1 : 2 * E + T + Rd < 2 ^ (30 - k)) (H2 : 4 * E + Rd < 2 ^ (30 - k)).

Lemma digit_noise es i c : 0 <= i -> zlen es = 2 * w + 1 + 4 * i -> get es i = Ok E -> get es (w + i) = Ok E -> get es (2 * w + 4 * i) = Ok c ->
  2 * E + c + Rd < 2 ^ (30 - k) -> exists u v, lnoise k T Rd (digit_calls w i) es = Ok (es ++ [u; v; T; T]).
Proof.
  intros Hi Hz Ga Gb Gc Hc. unfold digit_calls. set (p := 2 * w + 1 + 4 * i) in *. cbv zeta. cbn [lnoise lnoise1].
  rewrite Ga, Gb. cbn [bind].
  rewrite (get_last es [] (E + E) p) by lia. destruct (get_inv 0 _ _ _ Gc) as [Hgc _].
  rewrite (lget_app1 es [E + E] (p - 1)) by lia. replace (p - 1) with (2 * w + 4 * i) by lia. rewrite Gc. cbn [bind]. rewrite <- (app_assoc es). cbn [app].
  assert (G1: forall l, get (es ++ E + E :: E + E + c :: l) (p + 1) = Ok (E + E + c)).
  { intro l. change (es ++ E + E :: E + E + c :: l) with (es ++ [E + E] ++ E + E + c :: l). rewrite app_assoc. apply get_last. rewrite zlen_snoc. lia. }
  rewrite G1. cbn [bind]. destruct (Z.ltb_spec (E + E + c + Rd) (2 ^ (30 - k))); [|lia]. cbn [bind].
  rewrite <- (app_assoc es). cbn [app]. rewrite G1. cbn [bind]. destruct (Z.ltb_spec (E + E + c + Rd) (2 ^ (30 - k))); [|lia]. cbn [bind].
  rewrite <- (app_assoc es). cbn [app]. eauto.
Qed.

Lemma digits_noise es0 j : 0 <= j -> j <= w -> zlen es0 = 2 * w + 1 ->
  (forall i, 0 <= i < w -> get es0 i = Ok E /\ get es0 (w + i) = Ok E) -> get es0 (2 * w) = Ok (2 * E) ->
  exists rest c, lnoise k T Rd (radix_digits w (Z.to_nat j)) es0 = Ok (es0 ++ rest) /\ zlen rest = 4 * j /\
    (forall i, 0 <= i < j -> get (es0 ++ rest) (sum_digit w i) = Ok T) /\
    get (es0 ++ rest) (2 * w + 4 * j) = Ok c /\ (c = T \/ j = 0 /\ c = 2 * E).
Proof.
  intros Hj Hjw Hz Hx H0. revert j Hj Hjw. refine (zsum_ind _ _ _).
  - intros _. exists [], (2 * E). rewrite app_nil_r. split; [reflexivity|]. split; [reflexivity|]. split; [intros; lia|]. rewrite Z.mul_0_r, Z.add_0_r.
    split; [exact H0|]. right. auto.
  - intros j Hj IH Hjw. destruct (IH ltac:(lia)) as (rest & c & E0 & Hr & Hd & Gc & Hc).
    replace (Z.to_nat (j + 1)) with (Datatypes.S (Z.to_nat j)) by lia. cbn [radix_digits]. rewrite lnoise_app, E0. cbn [bind]. rewrite Z2Nat.id by lia.
    destruct (Hx j ltac:(lia)) as [Ga Gb].
    assert (ZL: zlen (es0 ++ rest) = 2 * w + 1 + 4 * j) by (rewrite zlen_app; lia).
    destruct (digit_noise (es0 ++ rest) j c) as (u & v & Ed); [lia|exact ZL|rewrite lget_app1 by lia; exact Ga|rewrite lget_app1 by lia; exact Gb|exact Gc|lia|].
    rewrite Ed. set (t := [u; v; T; T]). exists (rest ++ t), T. rewrite <- app_assoc. split; [reflexivity|].
    split; [rewrite zlen_app, Hr; change (zlen t) with 4; lia|]. rewrite app_assoc. split; [|split; [|left; reflexivity]].
    + intros i Hi. destruct (Z.eq_dec i j) as [->|Hne].
      * change t with ([u; v] ++ T :: [T]). rewrite app_assoc. apply get_last. rewrite zlen_app. change (zlen [u; v]) with 2. unfold sum_digit. lia.
      * rewrite lget_app1; [apply Hd; lia|]. unfold sum_digit. lia.
    + change t with ([u; v; T] ++ T :: []). rewrite app_assoc. apply get_last. rewrite zlen_app. change (zlen [u; v; T]) with 3. lia.
Qed.
End Radix.

Lemma radix_float64 mc O pr sk rk rb ck Bb Bk d d' e k B w (m : mem (FP O)) la lb va vb E : mc_ok mc -> setup (f64_arith mc) O pr sk rk rb ck ->
  fft_error_within pr d d' -> key_noise_within pr rk rb Bb Bk -> 0 <= Bb -> 0 <= Bk -> 0 <= d' -> 0 <= k < g_NBIT pr ->
  1 <= B -> 2 * B <= 2 ^ k -> 1 <= w ->
  2 * E + worst_noise pr sk Bb Bk d d' + round_err pr sk < 2 ^ (30 - k) -> 4 * E + round_err pr sk < 2 ^ (30 - k) ->
  worst_noise pr sk Bb Bk d d' < 2 ^ (30 - k) ->
  reachable O pr e m -> zlen la = w -> zlen lb = w -> NoDup (la ++ lb) ->
  (forall i, 0 <= i < w -> user m e (zn la i) /\ 0 <= va i < B /\ encodes (lv0_N pr) (KeyLv0 sk) (tm m (zn la i)) (2 ^ k) (va i) E) ->
  (forall i, 0 <= i < w -> user m e (zn lb i) /\ 0 <= vb i < B /\ encodes (lv0_N pr) (KeyLv0 sk) (tm m (zn lb i)) (2 ^ k) (vb i) E) ->
  exists ws ts m' ds co, lexec O pr ck e k (radix_adder B w) (la ++ lb) [] m = Ok (ws, ts, m') /\
    (forall i, 0 <= i < w -> 0 <= ds i < B /\ exists r, get ws (sum_digit w i) = Ok r /\
       DecryptLWEMessage (lv0_N pr) (tm m' r) (2 ^ k) (KeyLv0 sk) = Ok (ds i)) /\
    (exists r, get ws (sum_carry w) = Ok r /\ DecryptLWEMessage (lv0_N pr) (tm m' r) (2 ^ k) (KeyLv0 sk) = Ok co) /\
    zsum w (fun i => ds i * B ^ i) + co * B ^ w = zsum w (fun i => va i * B ^ i) + zsum w (fun i => vb i * B ^ i) /\
    user_kept e m m' /\ reachable O pr e m'.
Proof.
  intros Hc S H1 H2 H3 H4 H5 Hk HB HBk Hw HN1 HN2 HN3 Hr Ha Hb ND HA HBb. assert (P: 0 < 2 ^ k) by (apply Z.pow_pos_nonneg; lia).
  set (xs := tab (2 * w) (fun i => if i <? w then va i else vb (i - w))). set (es := repeat E (Z.to_nat (2 * w))).
  assert (Zxs: zlen xs = 2 * w) by (apply zlen_tab; lia). assert (Zes: zlen es = 2 * w) by (unfold es; rewrite zlen_repeat; lia).
  assert (Zws: zlen (la ++ lb) = 2 * w) by (rewrite zlen_app; lia).
  assert (Vx: forall i, 0 <= i < w -> get xs i = Ok (va i) /\ get xs (w + i) = Ok (vb i)).
  { intros i Hi. unfold xs. rewrite !get_zn by (rewrite zlen_tab; lia). rewrite !zn_tab by lia.
    destruct (Z.ltb_spec i w); [|lia]. destruct (Z.ltb_spec (w + i) w); [lia|]. replace (w + i - w) with i by ring. auto. }
  assert (Ve: forall i, 0 <= i < 2 * w -> get es i = Ok E).
  { intros i Hi. rewrite get_zn by lia. f_equal. unfold es. apply (znd_repeat 0). lia. }
  assert (Hwi: lwires O pr e k sk m (la ++ lb) xs es).
  { split; [lia|]. split; [lia|]. split; [exact ND|]. intros i Hi. rewrite Zws in Hi. pose proof (Ve i Hi) as G. rewrite get_zn in G by lia. injection G as ->.
    unfold xs. rewrite zn_tab by lia. destruct (Z.ltb_spec i w).
    - rewrite zn_app1 by lia. destruct (HA i ltac:(lia)) as (U & V & C). split; [exact U|]. split; [lia|exact C].
    - destruct (HBb (i - w) ltac:(lia)) as (U & V & C).
      assert (Q: zn (la ++ lb) i = zn lb (i - w)).
      { unfold zn, znd. rewrite app_nth2 by (unfold zlen in Ha; lia). f_equal. unfold zlen in Ha. lia. }
      rewrite Q. split; [exact U|]. split; [lia|exact C]. }
  set (T := worst_noise pr sk Bb Bk d d') in *. set (Rd := round_err pr sk) in *.
  set (fs := [(fun x => x mod B); (fun x => x / B)]).
  destruct (digits_plain k B w ltac:(lia) HB HBk va vb (fun i Hi => proj1 (proj2 (HA i Hi))) (fun i Hi => proj1 (proj2 (HBb i Hi))) (xs ++ [0]) w ltac:(lia) ltac:(lia))
    as (rest & ds & co & Ep & Zr & Hd & Gc & Hco & Hs).
  { rewrite zlen_snoc. lia. }
  { intros i Hi. rewrite !lget_app1 by lia. apply Vx. exact Hi. }
  { apply get_last. lia. }
  fold fs in Ep.
  destruct (digits_noise k B w ltac:(lia) ltac:(lia) va vb (fun i Hi => proj1 (proj2 (HA i Hi))) (fun i Hi => proj1 (proj2 (HBb i Hi))) T Rd E HN1 HN2 (es ++ [2 * E]) w ltac:(lia) ltac:(lia))
    as (nrest & nc & En & Znr & Hnd & Gnc & Hnc).
  { rewrite zlen_snoc. lia. }
  { intros i Hi. rewrite !lget_app1 by lia. rewrite !Ve by lia. auto. }
  { apply get_last. lia. }
  destruct (lp_float64 mc O pr sk rk rb ck Bb Bk d d' e k (radix_adder B w) m (la ++ lb) [] xs [] es ((xs ++ [0]) ++ rest) fs ((es ++ [2 * E]) ++ nrest)
    Hc S H1 H2 H3 H4 H5 Hk Hr Hwi (Forall2_nil _)) as (nw & ts' & m' & E1 & W1 & T1 & D1 & O1 & F1 & R1).
  { unfold radix_adder. cbn [app lplain lplain1]. cbv zeta. cbn [bind app]. destruct (Vx 0 ltac:(lia)) as [G0 _]. rewrite G0. cbn [bind].
    rewrite Z.sub_diag, Z.mod_0_l by lia. cbn [bind]. exact Ep. }
  { unfold radix_adder. cbn [app lnoise lnoise1]. cbv zeta. cbn [bind app]. rewrite (Ve 0) by lia. cbn [bind]. replace (E + E) with (2 * E) by ring. exact En. }
  exists ((la ++ lb) ++ nw), ts', m', ds, co. split; [exact E1|].
  assert (ZW: zlen ((la ++ lb) ++ nw) = 6 * w + 1).
  { destruct W1 as (L1 & _). rewrite <- L1. rewrite !zlen_app. change (zlen [0]) with 1. lia. }
  assert (GW: forall i, 0 <= i < 6 * w + 1 -> exists r, get ((la ++ lb) ++ nw) i = Ok r) by (intros i Hi; eexists; apply get_zn; lia).
  split; [|split; [|split; [exact Hs|split; [|exact R1]]]].
  - intros i Hi. destruct (Hd i Hi) as [Gd Bd]. split; [exact Bd|]. destruct (GW (sum_digit w i)) as [r Gr]; [unfold sum_digit; lia|].
    exists r. split; [exact Gr|]. rewrite (D1 _ r _ _ Gr Gd (Hnd i Hi) HN3). rewrite Z.mod_small by lia. reflexivity.
  - destruct (GW (sum_carry w)) as [r Gr]; [unfold sum_carry; lia|]. exists r. split; [exact Gr|].
    assert (Ec: sum_carry w = 2 * w + 4 * w) by (unfold sum_carry; lia).
    rewrite (D1 (sum_carry w) r co nc Gr); [|rewrite Ec; exact Gc|rewrite Ec; exact Gnc|destruct Hnc as [-> | [X _]]; lia].
    rewrite Z.mod_small by lia. reflexivity.
  - intros z Hz. apply O1; [exact Hz|]. intros o Ho. exfalso. clear - Ho. unfold radix_adder in Ho. cbn [app outputs flat_map outputs1] in Ho.
    induction (Z.to_nat w) as [|j IH]; cbn [radix_digits flat_map] in Ho; [exact Ho|]. rewrite flat_map_app in Ho. apply in_app_or in Ho. destruct Ho as [Ho|Ho]; [auto|exact Ho].
Qed.

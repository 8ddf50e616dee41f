(** * The example programs give the right answers *)
From Coq Require Import Lia ZifyBool Setoid Morphisms List.
From Verif Require Import GoBase GoFacts GoMem MemFacts F64 Utils UtilsFacts Params Key Spec Tlwe TlweMem TlweFacts BasicFacts
  Poly PolyFacts NegFacts Laws Fft FftTabErr Trlwe TrlweFacts Trgsw TrgswFacts RotFacts KeySwitchFacts Lut LutFacts Evaluator EvalFacts OldRotFacts
  CloudKey CloudKeyFacts Gates LinFacts RunSpec HeapFacts CallFacts BootFacts Circuit GateFacts NoiseFacts RunProps MsgFacts RunWorst
  LutSpec LutProps LutProg LutProgProps NibbleAdd NibbleProps ProxyReenc ReencSpec ReencFacts ReencProps Examples ExampleSpec.
Import ListNotations.
Local Open Scope Z_scope.
Ltac Zify.zify_post_hook ::= idtac.

Lemma for_each_cons {A S} (x : A) l (body : Z -> A -> S -> res S) s :
  for_each (x :: l) body s = (s' <- body 0 x s ;; for_each_nat 1 l body s').
Proof. reflexivity. Qed.

Section Ex.
Context (R : arith) (O : fops) (pr : pset) (d : key_draws) (GP : good_params pr) (EO : fft_evaluator R (g_N pr) = Ok O).
Notation M := (mem (FP O)).
Notation n := (lv0_N pr).

Lemma make_keys_ok : exists sk ck, make_keys O pr d = Ok (sk, ck) /\ setup R O pr sk (kd_ks d) (kd_bs d) ck.
Proof.
  destruct GP as [W HBG]. destruct (laws_of _ _ _ EO) as [L _]. pose proof (pw_n _ _ W) as Hn. pose proof (law_N L) as H16.
  pose proof (pw_lv1N _ _ W) as H1.
  destruct (NewSecretKey_bin pr (kd_bit0 d) (kd_bit1 d) Hn ltac:(lia)) as (sk & Es & K0 & K1 & _).
  assert (Hk: key_ok pr sk) by (split; assumption). destruct (key_ok_N pr W sk Hk) as [[A0 _] [A1 _]].
  pose proof (NewCloudKey_ok L pr W sk (kd_bs d) A0 A1 (kd_ks d) HBG) as Ec.
  eexists sk, _. split; [unfold make_keys; rewrite Es; cbn [bind]; rewrite Ec; reflexivity|].
  split; [exact GP|]. split; [exact EO|]. split; [exact Hk|exact Ec].
Qed.

Context (sk : SecretKey) (ck : CloudKey O) (MK : make_keys O pr d = Ok (sk, ck)) (S : setup R O pr sk (kd_ks d) (kd_bs d) ck).
Notation s0 := (KeyLv0 sk).

Lemma sizes : 0 <= n /\ zlen s0 = n.
Proof. pose proof S as S'. open_setup S'. split; [apply (pw_n _ _ W)|apply Hsk]. Qed.

Lemma place_key_ok e (m : M) : reachable O pr e m -> exists k m', place_key O m ck = (k, m') /\ key_at O m' e k ck /\ reachable O pr e m'.
Proof.
  intro Hr. pose proof S as S'. open_setup S'.
  destruct (fresh_ok L pr W HBG e m (tA (BlindRotateTestvec ck)) Hr) as (m1 & E1 & V1 & R1 & U1 & K1 & T1).
  destruct (fresh_ok L pr W HBG e m1 (tB (BlindRotateTestvec ck)) R1) as (m2 & E2 & V2 & R2 & U2 & K2 & T2).
  unfold fresh in E1, E2. cbn [bind] in E1, E2. injection E1 as E1. injection E2 as E2. subst m1 m2.
  eexists _, _. split; [reflexivity|]. split; [|exact R2].
  destruct (K2 _ U1) as [U1' V1']. unfold key_at. cbn [gk_offset gk_testvec gk_ksk gk_bsk rA rB]. rewrite V1'. auto 10.
Qed.

Context (enc : Z -> enc_rand) (E : Z) (HE : small_enc enc E).

Lemma encrypt_ok e (m : M) b i : reachable O pr e m -> exists ct m' v, encrypt O pr m b sk (enc i) = Ok (ct, m') /\
  new_bit n s0 (enc i) b v /\ tm m' ct = v /\ encrypts n s0 v b E /\ user m' e ct /\ user_kept e m m' /\ reachable O pr e m'.
Proof.
  intro Hr. destruct sizes as [Hn Hs]. destruct (EncryptBool_total n b s0 (enc i) Hn ltac:(lia)) as (v & Ev & Hok & Hp).
  pose proof S as S'. open_setup S'. destruct (fresh_ok L pr W HBG e m v Hr) as (m1 & E1 & V1 & R1 & U1 & K1 & T1).
  exists (tnext m), m1, v. unfold encrypt. rewrite Ev. split; [exact E1|]. split; [exact Ev|]. split; [exact V1|].
  split; [|split; [exact U1|split; assumption]]. split; [exact Hok|]. exists (sample (er_noise (enc i))). split; [apply HE|].
  unfold sample. rewrite Hp, centered_eq. reflexivity.
Qed.

Context (T : Z) (HT : T < 2 ^ 29) (HE3 : 3 * E + round_err pr sk < 2 ^ 29).
Lemma E_pos : 0 <= E.
Proof. pose proof (HE 0). lia. Qed.

Lemma testGate_ok g e k (m : M) x y va vb a b : reachable O pr e m -> key_at O m e k ck -> user m e x -> user m e y ->
  tm m x = a -> tm m y = b -> encrypts n s0 a va E -> encrypts n s0 b vb E ->
  (forall c, gate_lin g n a b = Ok c -> boot_noise O pr sk ck (BlindRotateTestvec ck) c T) ->
  exists m', testGate O pr sk e k x y m (gate_fun g O pr) (truth g va vb) = Ok (truth g va vb, truth g va vb, m') /\
    reachable O pr e m' /\ key_at O m' e k ck /\ user m' e x /\ user m' e y /\ tm m' x = a /\ tm m' y = b.
Proof.
  intros Hr Hk Ux Uy Vx Vy Ha Hb HN. pose proof E_pos as H0. rewrite <- Vx, <- Vy in *.
  destruct (p_gate R O pr sk (kd_ks d) (kd_bs d) ck S g e m k x y va vb E E T Hr Hk Ha Hb) as (r & m' & E1 & E2 & E3 & U1 & U2 & K & R' & K').
  { destruct g; cbn [mult]; lia. }
  { exact HN. }
  exists m'. unfold testGate. rewrite E1. cbn [bind]. unfold decrypt. rewrite (E3 HT). cbn [bind]. split; [reflexivity|].
  destruct (K _ Ux) as [A1 A2]. destruct (K _ Uy) as [B1 B2]. auto 10.
Qed.

Lemma testCase_ok e k (m : M) i va vb : reachable O pr e m -> key_at O m e k ck -> 0 <= i < 4 -> gates_noise O pr sk ck enc T ->
  exists m', testCase O pr sk e k enc i va vb m = Ok (map (fun g => (truth g va vb, truth g va vb)) [Gand; Gor; Gnand; Gnor; Gxor; Gxnor], m') /\
    reachable O pr e m' /\ key_at O m' e k ck.
Proof.
  intros Hr Hk Hi HN. unfold testCase.
  destruct (encrypt_ok e m va (2 * i) Hr) as (x & m1 & a & E1 & N1 & V1 & C1 & U1 & K1 & R1). rewrite E1. cbn [bind].
  destruct (encrypt_ok e m1 vb (2 * i + 1) R1) as (y & m2 & b & E2 & N2 & V2 & C2 & U2 & K2 & R2). rewrite E2. cbn [bind].
  pose proof (keeps_key _ _ _ _ _ K2 (keeps_key _ _ _ _ _ K1 Hk)) as Q2. destruct (K2 _ U1) as [X2 Y2]. rewrite V1 in Y2.
  assert (G: forall g c, gate_lin g n a b = Ok c -> boot_noise O pr sk ck (BlindRotateTestvec ck) c T) by (intros g c; apply (HN i g va vb a b c Hi N1 N2)).
  destruct (testGate_ok Gand e k m2 x y va vb a b R2 Q2 X2 U2 Y2 V2 C1 C2 (G Gand)) as (m3 & E3 & R3 & Q3 & X3 & U3 & Y3 & V3).
  change (testGate O pr sk e k x y m2 (AND O pr) (va && vb)) with (testGate O pr sk e k x y m2 (gate_fun Gand O pr) (truth Gand va vb)). rewrite E3. cbn [bind].
  destruct (testGate_ok Gor e k m3 x y va vb a b R3 Q3 X3 U3 Y3 V3 C1 C2 (G Gor)) as (m4 & E4 & R4 & Q4 & X4 & U4 & Y4 & V4).
  change (testGate O pr sk e k x y m3 (OR O pr) (va || vb)) with (testGate O pr sk e k x y m3 (gate_fun Gor O pr) (truth Gor va vb)). rewrite E4. cbn [bind].
  destruct (testGate_ok Gnand e k m4 x y va vb a b R4 Q4 X4 U4 Y4 V4 C1 C2 (G Gnand)) as (m5 & E5 & R5 & Q5 & X5 & U5 & Y5 & V5).
  change (testGate O pr sk e k x y m4 (NAND O pr) (negb (va && vb))) with (testGate O pr sk e k x y m4 (gate_fun Gnand O pr) (truth Gnand va vb)). rewrite E5. cbn [bind].
  destruct (testGate_ok Gnor e k m5 x y va vb a b R5 Q5 X5 U5 Y5 V5 C1 C2 (G Gnor)) as (m6 & E6 & R6 & Q6 & X6 & U6 & Y6 & V6).
  change (testGate O pr sk e k x y m5 (NOR O pr) (negb (va || vb))) with (testGate O pr sk e k x y m5 (gate_fun Gnor O pr) (truth Gnor va vb)). rewrite E6. cbn [bind].
  destruct (testGate_ok Gxor e k m6 x y va vb a b R6 Q6 X6 U6 Y6 V6 C1 C2 (G Gxor)) as (m7 & E7 & R7 & Q7 & X7 & U7 & Y7 & V7).
  replace (negb (Bool.eqb va vb)) with (truth Gxor va vb) by (destruct va, vb; reflexivity).
  change (XOR O pr) with (gate_fun Gxor O pr). rewrite E7. cbn [bind].
  destruct (testGate_ok Gxnor e k m7 x y va vb a b R7 Q7 X7 U7 Y7 V7 C1 C2 (G Gxnor)) as (m8 & E8 & R8 & Q8 & X8 & U8 & Y8 & V8).
  replace (Bool.eqb va vb) with (truth Gxnor va vb) by (destruct va, vb; reflexivity).
  change (XNOR O pr) with (gate_fun Gxnor O pr). rewrite E8. cbn [bind].
  exists m8. split; [reflexivity|]. split; assumption.
Qed.

Lemma testNot_ok e (m : M) v i : reachable O pr e m ->
  exists m', testNot O pr sk v (enc i) m = Ok (negb v, negb v, m') /\ reachable O pr e m'.
Proof.
  intro Hr. unfold testNot. destruct (encrypt_ok e m v i Hr) as (x & m1 & a & E1 & N1 & V1 & C1 & U1 & K1 & R1). rewrite E1. cbn [bind].
  rewrite <- V1 in C1. destruct sizes as [Hn Hs]. pose proof E_pos as H0.
  assert (Q: exists r m', NOT O pr m1 x = Ok (r, m') /\ encrypts n s0 (tm m' r) (negb v) E /\ reachable O pr e m').
  { pose proof S as S'. open_setup S'. destruct (not_run L pr W HBG sk e m1 x v E R1 C1) as (r & m' & A & B & _ & _ & _ & C). exists r, m'. auto. }
  destruct Q as (r & m2 & E2 & C2 & R2). rewrite E2. cbn [bind]. unfold decrypt.
  assert (W0: 0 <= round_err pr sk).
  { unfold round_err. destruct GP as [W _]. pose proof (pw_nb _ _ W). apply Z.mul_nonneg_nonneg; [apply Z.pow_nonneg; lia|].
    assert (0 <= weight n s0); [|lia]. apply zsum_nonneg. intros i0 Hi0. destruct S as (_ & _ & [K0 _] & _). eapply bin_nonneg; eassumption. }
  rewrite (decrypt_enc n s0 _ (negb v) E Hn ltac:(lia) C2 ltac:(lia)). cbn [bind]. exists m2. auto.
Qed.

Lemma x_simple_gates : serves params128Bit pr -> gates_noise O pr sk ck enc T ->
  simple_gates O pr d enc = Ok (map (fun b => (b, b)) gates_expected).
Proof.
  intros HS HN. unfold simple_gates, init.
  assert (Q: exists e m0, NewEvaluator O params128Bit (empty_mem (f_nil O)) (g_N params128Bit) = Ok (e, m0) /\ reachable O pr e m0).
  { destruct GP as [W HBG]. destruct (laws_of _ _ _ EO) as [L _].
    destruct (NewEvaluator_ok' L pr W params128Bit (empty_mem (f_nil O)) HS (empty_ok O)) as (e & m' & X & _).
    exists e, m'. pose proof HS as (S1 & _). rewrite S1. split; [exact X|]. eapply r_new with (pr0 := params128Bit); [apply (empty_ok O)|exact HS|]. rewrite S1. exact X. }
  destruct Q as (e & m0 & E0 & R0). rewrite E0. cbn [bind]. rewrite MK. cbn [bind].
  destruct (place_key_ok e m0 R0) as (k & m1 & E1 & Q1 & R1). rewrite E1. rewrite for_each_cons. cbn [for_each_nat bind].
  destruct (testCase_ok e k m1 0 false false R1 Q1 ltac:(lia) HN) as (m2 & E2 & R2 & Q2). rewrite E2. cbn [bind].
  destruct (testCase_ok e k m2 1 false true R2 Q2 ltac:(lia) HN) as (m3 & E3 & R3 & Q3). rewrite E3. cbn [bind].
  destruct (testCase_ok e k m3 2 true false R3 Q3 ltac:(lia) HN) as (m4 & E4 & R4 & Q4). change (1 + 1) with 2. rewrite E4. cbn [bind].
  destruct (testCase_ok e k m4 3 true true R4 Q4 ltac:(lia) HN) as (m5 & E5 & R5 & Q5). change (2 + 1) with 3. rewrite E5. cbn [bind].
  rewrite for_each_cons. cbn [for_each_nat bind].
  destruct (testNot_ok e m5 false (8 + 0) R5) as (m6 & E6 & R6). rewrite E6. cbn [bind].
  destruct (testNot_ok e m6 true (8 + 1) R6) as (m7 & E7 & R7). rewrite E7. cbn [bind]. reflexivity.
Qed.
End Ex.

Section Pbs.
Context (R : arith) (O : fops) (pr : pset) (sk : SecretKey) (rk : Z -> enc_rand) (rb : Z -> Z -> trlwe_rand) (ck : CloudKey O)
  (S : setup R O pr sk rk rb ck).
Notation M := (mem (FP O)).
Notation n := (lv0_N pr).
Notation s0 := (KeyLv0 sk).

Lemma start_ok : exists e (m : M), NewEvaluator O pr (empty_mem (f_nil O)) (g_N pr) = Ok (e, m) /\ reachable O pr e m.
Proof.
  open_setup S. destruct (NewEvaluator_ok L pr W (empty_mem (f_nil O)) (empty_ok O)) as (e & m0 & E0 & _).
  exists e, m0. split; [exact E0|]. eapply r_new with (pr0 := pr); [apply (empty_ok O)|unfold serves; lia|exact E0].
Qed.

Lemma sizes' : 0 <= n /\ zlen s0 = n /\ 0 <= g_NBIT pr <= 30.
Proof. pose proof S as S'. open_setup S'. split; [apply (pw_n _ _ W)|]. split; [apply Hsk|apply (pw_nb _ _ W)]. Qed.

Context (enc : Z -> enc_rand) (E : Z) (HE : small_enc enc E).

Lemma message_ok e (m : M) mm x i : reachable O pr e m -> 1 <= mm < 2 ^ 20 -> 0 <= x < mm ->
  exists ct m' v, fresh O m (t <- NewTLWE n ;; EncryptLWEMessage n t x mm s0 (enc i)) = Ok (ct, m') /\
    new_message n s0 (enc i) mm x v /\ tm m' ct = v /\ encodes n s0 v mm x (E + 1) /\ user m' e ct /\ user_kept e m m' /\ reachable O pr e m'.
Proof.
  intros Hr Hm Hx. destruct sizes' as (Hn & Hs & _). destruct (EncryptLWEMessage_total n x mm s0 (enc i) Hn ltac:(lia) ltac:(lia)) as (v & Ev & Hok & _).
  pose proof S as S'. open_setup S'. destruct (fresh_ok L pr W HBG e m v Hr) as (m1 & E1 & V1 & R1 & U1 & K1 & T1).
  exists (tnext m), m1, v. rewrite Ev. split; [exact E1|]. split; [exact Ev|]. split; [exact V1|]. split; [|split; [exact U1|split; assumption]].
  split; [exact Hok|]. unfold NewTLWE in Ev. rewrite make_ok in Ev by lia. cbn [bind] in Ev.
  pose proof (encodes_enc n (repeat 0 (Z.to_nat (n + 1))) x mm s0 (enc i) v E Hn ltac:(rewrite zlen_repeat; lia) ltac:(lia) Hm Ev (HE i)) as H.
  rewrite Z.mod_small in H by lia. exact H.
Qed.

Context (Rd T : Z).

Lemma demo_ok e k f i0 inputs : 0 <= k < g_NBIT pr -> k <= 19 -> E + 1 + Rd < 2 ^ (30 - k) -> T < 2 ^ (30 - k) ->
  (forall i x c, new_message n s0 (enc i) (2 ^ k) x c -> rounding pr s0 c Rd /\ gen_noise O pr sk ck f (2 ^ k) c T) ->
  Forall (fun x => 0 <= x < 2 ^ k) inputs -> forall (m : M), reachable O pr e m ->
  exists m', demoFunction O pr e sk ck enc i0 f (2 ^ k) inputs m = Ok (map (fun x => (x, f x mod 2 ^ k)) inputs, m') /\ reachable O pr e m'.
Proof.
  intros Hk Hk2 HB HT HN F m Hr. unfold demoFunction, for_each. destruct sizes' as (Hn & Hs & Hb).
  assert (P: 1 <= 2 ^ k < 2 ^ 20) by (split; [apply (Z.pow_le_mono_r 2 0); lia|apply Z.pow_lt_mono_r; lia]).
  assert (G: forall j out (m : M), reachable O pr e m -> exists m', for_each_nat j inputs (fun i input '(out, m) =>
    '(ct, m) <- fresh O m (t <- NewTLWE n ;; EncryptLWEMessage n t input (2 ^ k) s0 (enc (i0 + i))) ;;
    '(result, m) <- BootstrapFunc O pr m e ct f (2 ^ k) (BootstrappingKey ck) (KeySwitchingKey ck) (DecompositionOffset ck) ;;
    output <- DecryptLWEMessage n (tm m result) (2 ^ k) s0 ;;
    Ok (out ++ [(input, output)], m)) (out, m) = Ok (out ++ map (fun x => (x, f x mod 2 ^ k)) inputs, m') /\ reachable O pr e m').
  { induction F as [|x l Hx F IH]; intros j out m1 R1; cbn [for_each_nat map].
    - exists m1. rewrite app_nil_r. auto.
    - destruct (message_ok e m1 (2 ^ k) x (i0 + j) R1 P Hx) as (ct & m2 & v & E2 & N2 & V2 & C2 & U2 & K2 & R2). rewrite E2. cbn [bind].
      destruct (HN _ _ _ N2) as [A B]. rewrite <- V2 in A, B, C2.
      destruct (t_message_pow2 R O pr sk rk rb ck S e m2 ct f k x (E + 1) Rd T R2) as (r & m3 & E3 & C3 & D3 & _ & _ & _ & R3); try assumption.
      { split; [rewrite V2; rewrite V2 in C2; apply C2|left; exact U2]. }
      rewrite E3. cbn [bind]. rewrite (D3 HT). cbn [bind].
      destruct (IH (j + 1) (out ++ [(x, f x mod 2 ^ k)]) m3 R3) as (m4 & E4 & R4). exists m4. split; [|exact R4].
      rewrite E4. rewrite <- app_assoc. reflexivity. }
  destruct (G 0 [] m Hr) as (m' & X & Y). exists m'. split; [exact X|exact Y].
Qed.

Lemma lut_ok e f i0 inputs : 2 <= g_NBIT pr -> E + 1 + Rd < 2 ^ 29 -> T < 2 ^ 29 ->
  (forall i x c, new_message n s0 (enc i) 2 x c -> rounding pr s0 c Rd /\ gen_noise O pr sk ck f 2 c T) ->
  Forall (fun x => 0 <= x < 2) inputs -> forall (m : M), reachable O pr e m ->
  exists m', demoLUTReuse O pr e sk ck enc i0 f inputs m = Ok (map (fun x => (x, f x mod 2)) inputs, m') /\ reachable O pr e m'.
Proof.
  intros Hb2 HB HT HN F m Hr. unfold demoLUTReuse, for_each. destruct sizes' as (Hn & Hs & Hb).
  assert (P: 1 <= 2 < 2 ^ 20) by lia.
  assert (Q: exists lut tv m', new_lut O pr m f 2 = Ok (lut, m') /\ GenLookUpTable pr (NewGenerator pr 2) f = Ok tv /\ table O pr m' e lut tv /\ reachable O pr e m').
  { pose proof S as S'. open_setup S'. destruct (new_lut_run L pr W HBG e m f 2 Hr ltac:(lia)) as (lut & tv & m' & A & B & C & D & _). eauto 10. }
  destruct Q as (lut & tv & m0 & E0 & EG & T0 & R0). rewrite E0. cbn [bind].
  pose proof S as (GP & _). destruct (t_layout pr (NewGenerator pr 2) f GP eq_refl eq_refl) as (tv' & EG' & PT & EN).
  rewrite EG in EG'. injection EG' as <-.
  assert (G: forall j out (m : M), reachable O pr e m -> table O pr m e lut tv -> exists m', for_each_nat j inputs (fun i input '(out, m) =>
    '(ct, m) <- fresh O m (t <- NewTLWE n ;; EncryptLWEMessage n t input 2 s0 (enc (i0 + i))) ;;
    '(result, m) <- BootstrapLUT O pr m e ct lut (BootstrappingKey ck) (KeySwitchingKey ck) (DecompositionOffset ck) ;;
    output <- DecryptLWEMessage n (tm m result) 2 s0 ;;
    Ok (out ++ [(input, output)], m)) (out, m) = Ok (out ++ map (fun x => (x, f x mod 2)) inputs, m') /\ reachable O pr e m').
  { clear m0 E0 T0 R0. induction F as [|x l Hx F IH]; intros j out m1 R1 T1; cbn [for_each_nat map].
    - exists m1. rewrite app_nil_r. auto.
    - destruct (message_ok e m1 2 x (i0 + j) R1 P Hx) as (ct & m2 & v & E2 & N2 & V2 & C2 & U2 & K2 & R2). rewrite E2. cbn [bind].
      destruct (HN _ _ _ N2) as [A B]. specialize (B tv EG). rewrite <- V2 in A, B, C2.
      assert (T2: table O pr m2 e lut tv).
      { destruct T1 as (X1 & X2 & X3 & X4 & X5). destruct (K2 _ X3) as [Y3 Z3]. destruct (K2 _ X4) as [Y4 Z4]. unfold table. rewrite Z3, Z4. auto. }
      cbn [MessageModulus gEncoder NewGenerator NewGeneratorWithScale] in EN. destruct (EN x Hx) as (y & EY & HY).
      destruct (t_lut R O pr sk rk rb ck S e m2 ct lut tv 2 x y T R2) as (r & m3 & E3 & L3 & C3 & U3 & _ & K3 & R3); try assumption; try lia.
      { split; [apply C2|left; exact U2]. }
      { rewrite Z.mod_small by lia. exact HY. }
      { change 2 with (2 ^ 1). apply (position_reads R O pr sk rk rb ck S 1 ltac:(lia) (tm m2 ct) x (E + 1) Rd); [exact C2|exact A|exact HB]. }
      rewrite E3. cbn [bind]. destruct L3 as [L3 _].
      assert (D: DecryptLWEMessage n (tm m3 r) 2 s0 = Ok (f x mod 2)).
      { change 2 with (2 ^ 1). eapply decodes_pow2; [lia|lia|lia|lia|apply Z.mod_pos_bound; lia| |exact HT].
        unfold signed in C3. destruct (Z.ltb_spec x 2); [|lia]. change (NewEncoder 2) with (NewEncoder (2 ^ 1)) in EY.
        pose proof (Encode_pow2 (f x) 1 ltac:(lia)) as EP. 
        assert (Ey: y = f x mod 2 ^ 1 * 2 ^ (31 - 1)) by (rewrite EP in EY; congruence). rewrite Ey in C3. rewrite pow2_div by lia. exact C3. }
      rewrite D. cbn [bind].
      assert (T3: table O pr m3 e lut tv).
      { destruct T2 as (X1 & X2 & X3 & X4 & X5). destruct (K3 _ X3) as [Y3 Z3]. destruct (K3 _ X4) as [Y4 Z4]. unfold table. rewrite Z3, Z4. auto. }
      destruct (IH (j + 1) (out ++ [(x, f x mod 2)]) m3 R3 T3) as (m4 & E4 & R4). exists m4. split; [|exact R4].
      rewrite E4. rewrite <- app_assoc. reflexivity. }
  destruct (G 0 [] m0 R0 T0) as (m' & X & Y). exists m'. split; [exact X|exact Y].
Qed.
End Pbs.

Lemma x_programmable R O pr d enc sk ck E Rd T : good_params pr -> 3 <= g_NBIT pr -> fft_evaluator R (g_N pr) = Ok O ->
  make_keys O pr d = Ok (sk, ck) -> setup R O pr sk (kd_ks d) (kd_bs d) ck ->
  small_enc enc E -> E + 1 + Rd < 2 ^ 28 -> T < 2 ^ 28 -> demos_noise O pr sk ck enc Rd T ->
  programmable_bootstrap O pr d enc = Ok [(0, 0); (1, 1); (0, 1); (1, 0); (0, 1); (1, 1); (0, 0); (1, 0);
    (0, 1); (1, 0); (0, 1); (1, 0); (0, 1); (0, 1); (1, 2); (2, 3); (3, 0)].
Proof.
  intros GP H3 EO MK S HE HB HT HN. unfold programmable_bootstrap. rewrite MK. cbn [bind].
  destruct (start_ok R O pr sk _ _ ck S) as (e & m & E0 & R0). rewrite E0. cbn [bind].
  assert (F2: Forall (fun x => 0 <= x < 2) [0; 1]) by (repeat (constructor; [lia|]); constructor).
  assert (B29: 2 ^ 29 = 2 * 2 ^ 28) by reflexivity. change (2 ^ 28) with 268435456 in *.
  destruct (demo_ok R O pr sk _ _ ck S enc E HE Rd T e 1 (fun x => x) 0 [0; 1] ltac:(lia) ltac:(lia) ltac:(change (2 ^ (30 - 1)) with 536870912; lia) ltac:(change (2 ^ (30 - 1)) with 536870912; lia)
    (fun i x c => HN i (fun x => x) 1 x c ltac:(cbn [demos In]; tauto)) F2 m R0) as (m1 & E1 & R1).
  change (2 ^ 1) with 2 in *. rewrite E1. cbn [bind].
  destruct (demo_ok R O pr sk _ _ ck S enc E HE Rd T e 1 (fun x => 1 - x) 2 [0; 1] ltac:(lia) ltac:(lia) ltac:(change (2 ^ (30 - 1)) with 536870912; lia) ltac:(change (2 ^ (30 - 1)) with 536870912; lia)
    (fun i x c => HN i (fun x => 1 - x) 1 x c ltac:(cbn [demos In]; tauto)) F2 m1 R1) as (m2 & E2 & R2).
  change (2 ^ 1) with 2 in *. rewrite E2. cbn [bind].
  destruct (demo_ok R O pr sk _ _ ck S enc E HE Rd T e 1 (fun x => 1) 4 [0; 1] ltac:(lia) ltac:(lia) ltac:(change (2 ^ (30 - 1)) with 536870912; lia) ltac:(change (2 ^ (30 - 1)) with 536870912; lia)
    (fun i x c => HN i (fun x => 1) 1 x c ltac:(cbn [demos In]; tauto)) F2 m2 R2) as (m3 & E3 & R3).
  change (2 ^ 1) with 2 in *. rewrite E3. cbn [bind].
  destruct (demo_ok R O pr sk _ _ ck S enc E HE Rd T e 1 (fun x => 0) 6 [0; 1] ltac:(lia) ltac:(lia) ltac:(change (2 ^ (30 - 1)) with 536870912; lia) ltac:(change (2 ^ (30 - 1)) with 536870912; lia)
    (fun i x c => HN i (fun x => 0) 1 x c ltac:(cbn [demos In]; tauto)) F2 m3 R3) as (m4 & E4 & R4).
  change (2 ^ 1) with 2 in *. rewrite E4. cbn [bind].
  destruct (lut_ok R O pr sk _ _ ck S enc E HE Rd T e (fun x => 1 - x) 8 [0; 1; 0; 1; 0] ltac:(lia) ltac:(lia) ltac:(lia)
    (fun i x c => HN i (fun x => 1 - x) 1 x c ltac:(cbn [demos In]; tauto)) ltac:(repeat (constructor; [lia|]); constructor) m4 R4) as (m5 & E5 & R5).
  rewrite E5. cbn [bind].
  destruct (demo_ok R O pr sk _ _ ck S enc E HE Rd T e 2 (fun x => Z.rem (x + 1) 4) 13 [0; 1; 2; 3] ltac:(lia) ltac:(lia) ltac:(change (2 ^ (30 - 2)) with 268435456; lia) ltac:(change (2 ^ (30 - 2)) with 268435456; lia)
    (fun i x c => HN i (fun x => Z.rem (x + 1) 4) 2 x c ltac:(cbn [demos In]; tauto)) ltac:(repeat (constructor; [lia|]); constructor) m5 R5) as (m6 & E6 & R6).
  change (2 ^ 2) with 4 in *. rewrite E6. cbn [bind]. reflexivity.
Qed.

(** ** add_two_numbers *)
Section Add.
Context (R : arith) (O : fops) (pr : pset) (d : key_draws) (enc : Z -> enc_rand) (sk : SecretKey) (ck : CloudKey O)
  (MK : make_keys O pr d = Ok (sk, ck)) (S : setup R O pr sk (kd_ks d) (kd_bs d) ck) (E : Z) (HE : small_enc enc E).
Notation M := (mem (FP O)).
Notation n := (lv0_N pr).
Notation s0 := (KeyLv0 sk).

Lemma add_start_ok a b : 0 <= a < 256 -> 0 <= b < 256 ->
  exists e aL aH bL bH (m : M), add_start O pr d enc a b = Ok (sk, ck, e, (aL, aH, bL, bH), m) /\ reachable O pr e m /\
    user m e aL /\ user m e aH /\ user m e bL /\ user m e bH /\
    encodes n s0 (tm m aL) 32 (low_nibble a) (E + 1) /\ encodes n s0 (tm m aH) 32 (high_nibble a) (E + 1) /\
    encodes n s0 (tm m bL) 32 (low_nibble b) (E + 1) /\ encodes n s0 (tm m bH) 32 (high_nibble b) (E + 1).
Proof.
  intros Ha Hb. destruct (nib_split a Ha) as (_ & La & Ga). destruct (nib_split b Hb) as (_ & Lb & Gb).
  destruct (start_ok R O pr sk _ _ ck S) as (e & m0 & E0 & R0). unfold add_start. rewrite MK. cbn [bind]. rewrite E0. cbn [bind].
  destruct (message_ok R O pr sk _ _ ck S enc E HE e m0 32 (low_nibble a) 0 R0 ltac:(lia) ltac:(lia)) as (aL & m1 & v1 & E1 & _ & V1 & C1 & U1 & K1 & R1).
  rewrite E1. cbn [bind].
  destruct (message_ok R O pr sk _ _ ck S enc E HE e m1 32 (high_nibble a) 1 R1 ltac:(lia) ltac:(lia)) as (aH & m2 & v2 & E2 & _ & V2 & C2 & U2 & K2 & R2).
  rewrite E2. cbn [bind].
  destruct (message_ok R O pr sk _ _ ck S enc E HE e m2 32 (low_nibble b) 2 R2 ltac:(lia) ltac:(lia)) as (bL & m3 & v3 & E3 & _ & V3 & C3 & U3 & K3 & R3).
  rewrite E3. cbn [bind].
  destruct (message_ok R O pr sk _ _ ck S enc E HE e m3 32 (high_nibble b) 3 R3 ltac:(lia) ltac:(lia)) as (bH & m4 & v4 & E4 & _ & V4 & C4 & U4 & K4 & R4).
  rewrite E4. cbn [bind]. exists e, aL, aH, bL, bH, m4. split; [reflexivity|]. split; [exact R4|].
  destruct (K2 _ U1) as [A2 B2]. destruct (K3 _ A2) as [A3 B3]. destruct (K4 _ A3) as [A4 B4].
  destruct (K3 _ U2) as [A3' B3']. destruct (K4 _ A3') as [A4' B4']. destruct (K4 _ U3) as [A4'' B4''].
  do 4 (split; [assumption|]). rewrite B4, B3, B2, B4', B3', B4'', V1, V2, V3, V4. auto.
Qed.

Lemma x_add a b Rd T : 0 <= a < 256 -> 0 <= b < 256 -> 6 <= g_NBIT pr -> 0 <= T -> 2 * (E + 1) + T + Rd < 2 ^ 25 -> T < 2 ^ 25 ->
  add_noise O pr d enc a b Rd T -> add_two_numbers O pr d enc a b = Ok ((a + b) mod 256).
Proof.
  intros Ha Hb H6 HT0 HB HT HN. destruct (add_start_ok a b Ha Hb) as (e & aL & aH & bL & bH & m & E0 & R0 & U1 & U2 & U3 & U4 & C1 & C2 & C3 & C4).
  destruct (HN _ _ _ _ _ _ _ _ E0) as [N1 N2]. unfold add_two_numbers. rewrite E0. cbn [bind].
  destruct (nib_ok R O pr sk _ _ ck S H6 e m aL aH bL bH a b (E + 1) Rd T R0 Ha Hb U1 U2 U3 U4 C1 C2 C3 C4 HT0 HB HT N1 N2) as (lo & hi & m' & x & y & A & B & C & D & _).
  rewrite A. cbn [bind]. rewrite B, C. cbn [bind]. rewrite D. reflexivity.
Qed.
End Add.

(** ** proxy_reencryption *)
Section Reenc.
Context (pr : pset) (d : reenc_draws) (H0 : 0 <= lv0_N pr) (H1 : 0 <= lv1_N pr) (HB : 1 <= g_BASEBIT pr) (HTt : 1 <= g_IKS_T pr)
  (HBT : g_BASEBIT pr * g_IKS_T pr <= 31).
Notation n := (lv0_N pr).
Notation bb := (g_BASEBIT pr).
Notation t := (g_IKS_T pr).

Lemma link_ok a b zeros rnd : bin_key n a -> zlen b = n -> exists pk rk, NewPublicKeyLv0 pr b zeros = Ok pk /\
  NewProxyReencryptionKeyAsymmetric pr a pk rnd = Ok rk /\ rkey n a b rk bb t (pk_noises pr zeros rnd).
Proof.
  intros Ha Hb. pose proof (bbt_le bb t HB HTt HBT) as Hb31.
  destruct (q_limits_asym n bb t (n * 2) a b zeros rnd H0 Ha Hb ltac:(lia) ltac:(lia) HTt) as (pk & rk & E1 & E2 & _).
  exists pk, rk. split; [exact E1|]. split; [exact E2|]. apply (rkey_asymmetric n a b bb t (n * 2) zeros rnd pk rk); assumption || lia.
Qed.

Lemma dec_ok s c v e : zlen s = n -> lwe_ok n c -> lwe_phase n s c == mu_bit v + e -> Z.abs e < 2 ^ 29 -> DecryptBool n c s = Ok v.
Proof.
  intros Hs [Hl Hk] Hp He. rewrite DecryptBool_ok by lia. f_equal. apply (sign_of_phase v e); [exact Hp|].
  change (2 ^ 29) with 536870912 in *. rewrite (centered_unique _ e) by (reflexivity || (unfold two31; lia)).
  unfold bool_noise_ok. change (2 ^ 29) with 536870912. destruct v; lia.
Qed.

Lemma new_bit_ok s r v : zlen s = n -> exists c, new_bit n s r v c /\ lwe_ok n c /\ lwe_phase n s c == mu_bit v + sample (er_noise r).
Proof.
  intro Hs. destruct (EncryptBool_total n v s r H0 ltac:(lia)) as (c & E & Ho & Hp). exists c. split; [exact E|]. split; [exact Ho|].
  unfold sample. rewrite Hp, centered_eq. reflexivity.
Qed.

Lemma x_reenc : reenc_fits pr d -> proxy_reencryption pr d = Ok ([true; false; true; true; false], 5, true, true).
Proof.
  intro HF. unfold proxy_reencryption.
  destruct (NewSecretKey_bin pr (rd_alice d) (rd_level1 d) H0 H1) as (ak & EA & KA & _). rewrite EA. cbn [bind].
  destruct (NewSecretKey_bin pr (rd_bob d) (rd_level1 d) H0 H1) as (bk & EB & KB & _). rewrite EB. cbn [bind].
  destruct (NewSecretKey_bin pr (rd_carol d) (rd_level1 d) H0 H1) as (ck & EC & KC & _).
  destruct (link_ok (KeyLv0 ak) (KeyLv0 bk) (rd_zerosB d) (rd_ab d) KA (proj1 KB)) as (pkB & rkAB & P1 & P2 & P3). rewrite P1. cbn [bind].
  destruct (link_ok (KeyLv0 bk) (KeyLv0 ck) (rd_zerosC d) (rd_bc d) KB (proj1 KC)) as (pkC & rkBC & Q1 & Q2 & Q3).
  destruct (HF ak bk pkB rkAB EA EB P1 P2) as [F1 F2].
  assert (G: forall i v, 0 <= i < 6 -> exists c c' dd, new_bit n (KeyLv0 ak) (rd_enc d i) v c /\ ReencryptTLWELv0 n c rkAB = Ok c' /\
    DecryptBool n c' (KeyLv0 bk) = Ok v /\ lwe_ok n c' /\ Z.abs dd <= hop_round pr (KeyLv0 ak) /\
    lwe_phase n (KeyLv0 bk) c' == mu_bit v + (sample (er_noise (rd_enc d i)) - hop_used pr c (pk_noises pr (rd_zerosB d) (rd_ab d)) + dd)).
  { intros i v Hi. destruct (new_bit_ok (KeyLv0 ak) (rd_enc d i) v (proj1 KA)) as (c & N & Ho & Hp).
    destruct (q_run n _ _ rkAB bb t _ H0 P3 c Ho) as (c' & E' & Ho' & dd & Hd & Hp'). specialize (F1 i v c Hi N).
    exists c, c', dd. split; [exact N|]. split; [exact E'|].
    assert (X: lwe_phase n (KeyLv0 bk) c' == mu_bit v + (sample (er_noise (rd_enc d i)) - hop_used pr c (pk_noises pr (rd_zerosB d) (rd_ab d)) + dd)).
    { rewrite Hp', Hp. apply eqm_refl'. unfold hop_used. ring. }
    fold (hop_round pr (KeyLv0 ak)) in Hd.
    split; [apply (dec_ok _ _ v _ (proj1 KB) Ho' X); lia|]. auto. }
  destruct (G 0 true ltac:(lia)) as (c0 & d0 & x0 & N0 & R0 & D0 & _).
  destruct (G 1 false ltac:(lia)) as (c1 & d1 & x1 & N1 & R1 & D1 & _).
  destruct (G 2 true ltac:(lia)) as (c2 & d2 & x2 & N2 & R2 & D2 & _).
  destruct (G 3 true ltac:(lia)) as (c3 & d3 & x3 & N3 & R3 & D3 & _).
  destruct (G 4 false ltac:(lia)) as (c4 & d4 & x4 & N4 & R4 & D4 & _).
  destruct (G 5 true ltac:(lia)) as (c5 & d5 & x5 & N5 & R5 & D5 & O5 & B5 & P5). clear G.
  unfold new_bit in *. rewrite for_each_cons. cbn [for_each_nat]. change (1 + 1) with 2. change (2 + 1) with 3. change (3 + 1) with 4.
  rewrite N0, N1, N2, N3, N4. cbn [bind app]. rewrite P2. cbn [bind].
  rewrite for_each_cons. cbn [for_each_nat]. rewrite R0, R1, R2, R3, R4. cbn [bind app].
  rewrite for_each_cons. cbn [for_each_nat]. rewrite D0, D1, D2, D3, D4. cbn [bind app].
  rewrite for_each_cons. cbn [for_each_nat]. change (1 + 1) with 2. change (2 + 1) with 3. change (3 + 1) with 4.
  match goal with |- context [bind (bind (get ?l 0) _)] => change (get l 0) with (Ok true); change (get l 1) with (Ok false); change (get l 2) with (Ok true);
    change (get l 3) with (Ok true); change (get l 4) with (Ok false) end. cbn [bind Bool.eqb].
  rewrite EC. cbn [bind]. rewrite Q1. cbn [bind]. rewrite Q2. cbn [bind]. rewrite N5. cbn [bind]. rewrite R5. cbn [bind]. rewrite D5. cbn [bind].
  destruct (q_run n _ _ rkBC bb t _ H0 Q3 d5 O5) as (c6 & E6 & O6 & dd & Hd & Hp6). rewrite E6. cbn [bind].
  specialize (F2 c5 d5 N5 R5). fold (hop_round pr (KeyLv0 bk)) in Hd.
  assert (X: lwe_phase n (KeyLv0 ck) c6 == mu_bit true + (sample (er_noise (rd_enc d 5)) - hop_used pr c5 (pk_noises pr (rd_zerosB d) (rd_ab d)) + x5 + dd
    - hop_used pr d5 (pk_noises pr (rd_zerosC d) (rd_bc d)))).
  { rewrite Hp6, P5. apply eqm_refl'. unfold hop_used. ring. }
  rewrite (dec_ok _ _ true _ (proj1 KC) O6 X) by lia. reflexivity.
Qed.

(** when every noise is small *)
Lemma x_reenc_small Ef Eb Ec : (forall i, Z.abs (sample (er_noise (rd_enc d i))) <= Ef) ->
  (forall i, Z.abs (pk_noises pr (rd_zerosB d) (rd_ab d) i) <= Eb) -> (forall i, Z.abs (pk_noises pr (rd_zerosC d) (rd_bc d) i) <= Ec) ->
  (forall ak bk, NewSecretKey pr (rd_alice d) (rd_level1 d) = Ok ak -> NewSecretKey pr (rd_bob d) (rd_level1 d) = Ok bk ->
     Ef + reenc_error n bb t (KeyLv0 ak) Eb + reenc_error n bb t (KeyLv0 bk) Ec < 2 ^ 29) ->
  reenc_fits pr d.
Proof.
  intros H2 H3 H4 H5 ak bk pkB rkAB EA EB P1 P2. specialize (H5 ak bk EA EB). unfold reenc_error in H5.
  assert (K: forall f l s, NewSecretKey pr f l = Ok s -> 0 <= hop_round pr (KeyLv0 s)).
  { intros f l s Es. destruct (NewSecretKey_bin pr f l H0 H1) as (s' & Es' & Ks & _). rewrite Es in Es'. injection Es' as <-.
    unfold hop_round. apply Z.mul_nonneg_nonneg; [|apply Z.pow_nonneg; lia]. apply zsum_nonneg. intros j Hj. eapply bin_nonneg; eassumption. }
  pose proof (K _ _ _ EA) as K1. pose proof (K _ _ _ EB) as K2.
  fold (hop_round pr (KeyLv0 ak)) (hop_round pr (KeyLv0 bk)) in H5.
  assert (P: 0 <= Ec /\ 0 <= n * t * Ec).
  { assert (0 <= Ec) by (pose proof (H4 0); lia). split; [assumption|]. apply Z.mul_nonneg_nonneg; [apply Z.mul_nonneg_nonneg; lia|assumption]. }
  assert (U: forall c, Z.abs (hop_used pr c (pk_noises pr (rd_zerosB d) (rd_ab d))) <= n * t * Eb) by (intro c; apply used_noise_le; lia || assumption).
  assert (V: forall c, Z.abs (hop_used pr c (pk_noises pr (rd_zerosC d) (rd_bc d))) <= n * t * Ec) by (intro c; apply used_noise_le; lia || assumption).
  split.
  - intros i v c Hi _. specialize (U c). specialize (H2 i). lia.
  - intros c c' _ _. specialize (U c). specialize (V c'). specialize (H2 5). lia.
Qed.
End Reenc.

(** ** the statements, from the keys that the program makes *)
Lemma x_keys R O pr d : good_params pr -> fft_evaluator R (g_N pr) = Ok O -> exists sk ck, make_keys O pr d = Ok (sk, ck).
Proof. intros GP EO. destruct (make_keys_ok R O pr d GP EO) as (sk & ck & E & _). eauto. Qed.

Lemma keys_setup R O pr d sk ck : good_params pr -> fft_evaluator R (g_N pr) = Ok O -> make_keys O pr d = Ok (sk, ck) ->
  setup R O pr sk (kd_ks d) (kd_bs d) ck.
Proof. intros GP EO E. destruct (make_keys_ok R O pr d GP EO) as (sk' & ck' & E' & S). rewrite E in E'. injection E' as <- <-. exact S. Qed.

Lemma x_gates R O pr d enc sk ck E T : good_params pr -> serves params128Bit pr -> fft_evaluator R (g_N pr) = Ok O ->
  make_keys O pr d = Ok (sk, ck) -> small_enc enc E -> 3 * E + round_err pr sk < 2 ^ 29 -> T < 2 ^ 29 -> gates_noise O pr sk ck enc T ->
  simple_gates O pr d enc = Ok (map (fun b => (b, b)) gates_expected).
Proof.
  intros GP HS EO MK HE H3 HT HN.
  exact (x_simple_gates R O pr d GP EO sk ck MK (keys_setup R O pr d sk ck GP EO MK) enc E HE T HT H3 HS HN).
Qed.

Lemma new_bit_len n s r b c : 0 <= n -> n <= zlen s -> new_bit n s r b c -> zlen c = n + 1.
Proof. intros Hn Hs H. destruct (EncryptBool_total n b s r Hn Hs) as (c' & E & [Hl _] & _). unfold new_bit in H. rewrite H in E. injection E as <-. exact Hl. Qed.
Lemma new_message_len n s r mm x c : 0 <= n -> n <= zlen s -> 0 < mm -> new_message n s r mm x c -> zlen c = n + 1.
Proof.
  intros Hn Hs Hm H. destruct (EncryptLWEMessage_total n x mm s r Hn Hs ltac:(lia)) as (c' & E & [Hl _] & _).
  unfold new_message in H. rewrite H in E. injection E as <-. exact Hl.
Qed.

Lemma x_gates_worst mc O pr d enc sk ck E Bb Bk e e' : mc_ok mc -> good_params pr -> serves params128Bit pr ->
  fft_evaluator (f64_arith mc) (g_N pr) = Ok O -> make_keys O pr d = Ok (sk, ck) -> fft_error_within pr e e' ->
  key_noise_within pr (kd_ks d) (kd_bs d) Bb Bk -> 0 <= Bb -> 0 <= Bk -> 0 <= e' ->
  small_enc enc E -> 3 * E + round_err pr sk < 2 ^ 29 -> worst_noise pr sk Bb Bk e e' < 2 ^ 29 ->
  simple_gates O pr d enc = Ok (map (fun b => (b, b)) gates_expected).
Proof.
  intros Hc GP HS EO MK Hf Hn HBb HBk He HE H3 HT. pose proof (keys_setup _ O pr d sk ck GP EO MK) as S.
  apply (x_gates (f64_arith mc) O pr d enc sk ck E (worst_noise pr sk Bb Bk e e') GP HS EO MK HE H3 HT).
  intros i g va vb a b c _ _ _ G. apply (p_worst_tv mc O pr _ _ _ _ Hc S Bb Bk e e' Hf Hn HBb HBk He). exact (gate_lin_len _ _ _ _ _ G).
Qed.

Lemma x_pbs R O pr d enc sk ck E Rd T : good_params pr -> 3 <= g_NBIT pr -> fft_evaluator R (g_N pr) = Ok O ->
  make_keys O pr d = Ok (sk, ck) -> small_enc enc E -> E + 1 + Rd < 2 ^ 28 -> T < 2 ^ 28 -> demos_noise O pr sk ck enc Rd T ->
  programmable_bootstrap O pr d enc = Ok [(0, 0); (1, 1); (0, 1); (1, 0); (0, 1); (1, 1); (0, 0); (1, 0);
    (0, 1); (1, 0); (0, 1); (1, 0); (0, 1); (0, 1); (1, 2); (2, 3); (3, 0)].
Proof.
  intros GP H3 EO MK HE HB HT HN. pose proof (keys_setup R O pr d sk ck GP EO MK) as S.
  eapply x_programmable; eassumption.
Qed.

Lemma x_pbs_worst mc O pr d enc sk ck E Bb Bk e e' : mc_ok mc -> good_params pr -> 3 <= g_NBIT pr ->
  fft_evaluator (f64_arith mc) (g_N pr) = Ok O -> make_keys O pr d = Ok (sk, ck) -> fft_error_within pr e e' ->
  key_noise_within pr (kd_ks d) (kd_bs d) Bb Bk -> 0 <= Bb -> 0 <= Bk -> 0 <= e' ->
  small_enc enc E -> E + 1 + round_err pr sk < 2 ^ 28 -> worst_noise pr sk Bb Bk e e' < 2 ^ 28 ->
  programmable_bootstrap O pr d enc = Ok [(0, 0); (1, 1); (0, 1); (1, 0); (0, 1); (1, 1); (0, 0); (1, 0);
    (0, 1); (1, 0); (0, 1); (1, 0); (0, 1); (0, 1); (1, 2); (2, 3); (3, 0)].
Proof.
  intros Hc GP H3 EO MK Hf Hn HBb HBk He HE HB HT. pose proof (keys_setup _ O pr d sk ck GP EO MK) as S.
  apply (x_pbs (f64_arith mc) O pr d enc sk ck E (round_err pr sk) (worst_noise pr sk Bb Bk e e')); try assumption.
  intros i f k x c Hin Hm. assert (Hk: 0 < 2 ^ k).
  { apply Z.pow_pos_nonneg; [lia|]. cbn [demos In] in Hin. destruct Hin as [H|[H|[H|[H|[H|[]]]]]]; injection H as _ <-; lia. }
  destruct (sizes' _ _ _ _ _ _ _ S) as (N0 & N1 & _).
  split; [eapply t_rounding; exact S|]. eapply t_worst; try eassumption. eapply new_message_len; try eassumption. lia.
Qed.

Lemma x_sum R O pr d enc sk ck E a b Rd T : good_params pr -> 6 <= g_NBIT pr -> fft_evaluator R (g_N pr) = Ok O ->
  make_keys O pr d = Ok (sk, ck) -> small_enc enc E -> 0 <= a < 256 -> 0 <= b < 256 -> 0 <= T -> 2 * (E + 1) + T + Rd < 2 ^ 25 -> T < 2 ^ 25 ->
  add_noise O pr d enc a b Rd T -> add_two_numbers O pr d enc a b = Ok ((a + b) mod 256).
Proof.
  intros GP H6 EO MK HE Ha Hb HT0 HB HT HN. pose proof (keys_setup R O pr d sk ck GP EO MK) as S.
  exact (x_add R O pr d enc sk ck MK S E HE a b Rd T Ha Hb H6 HT0 HB HT HN).
Qed.

Lemma x_sum_worst mc O pr d enc sk ck E Bb Bk e e' : mc_ok mc -> good_params pr -> 6 <= g_NBIT pr ->
  fft_evaluator (f64_arith mc) (g_N pr) = Ok O -> make_keys O pr d = Ok (sk, ck) -> fft_error_within pr e e' ->
  key_noise_within pr (kd_ks d) (kd_bs d) Bb Bk -> 0 <= Bb -> 0 <= Bk -> 0 <= e' ->
  small_enc enc E -> 0 <= worst_noise pr sk Bb Bk e e' -> 2 * (E + 1) + worst_noise pr sk Bb Bk e e' + round_err pr sk < 2 ^ 25 ->
  forall a b, 0 <= a < 256 -> 0 <= b < 256 -> add_two_numbers O pr d enc a b = Ok ((a + b) mod 256).
Proof.
  intros Hc GP H6 EO MK Hf Hn HBb HBk He HE HT0 HB a b Ha Hb. pose proof (keys_setup _ O pr d sk ck GP EO MK) as S.
  destruct (add_start_ok _ O pr d enc sk ck MK S E HE a b Ha Hb) as (ev & aL & aH & bL & bH & m & E0 & R0 & U1 & U2 & U3 & U4 & C1 & C2 & C3 & C4).
  unfold add_two_numbers. rewrite E0. cbn [bind].
  destruct (nib_worst mc O pr sk _ _ ck Bb Bk e e' Hc S Hf Hn HBb HBk He H6 ev m aL aH bL bH a b (E + 1) R0 Ha Hb U1 U2 U3 U4 C1 C2 C3 C4 HT0 HB) as (lo & hi & m' & x & y & A & B & C & D & _).
  rewrite A. cbn [bind]. rewrite B, C. cbn [bind]. rewrite D. reflexivity.
Qed.

(** the weights of the keys are the numbers of ones drawn *)
Lemma keys_weight O pr d sk ck : 0 <= lv0_N pr -> 0 <= lv1_N pr -> make_keys O pr d = Ok (sk, ck) ->
  weight (lv0_N pr) (KeyLv0 sk) = zsum (lv0_N pr) (fun i => Z.b2z (kd_bit0 d i)) /\
  weight (lv1_N pr) (KeyLv1 sk) = zsum (lv1_N pr) (fun i => Z.b2z (kd_bit1 d i)).
Proof.
  intros H0 H1 E. destruct (NewSecretKey_bin pr (kd_bit0 d) (kd_bit1 d) H0 H1) as (s & Es & _ & _ & A & B).
  unfold make_keys in E. rewrite Es in E. cbn [bind] in E. apply bind_inv in E. destruct E as (ck' & _ & E). injection E as <- _.
  unfold weight. split; apply zsum_ext; assumption.
Qed.
Lemma bin_weight_le n s : 0 <= n -> bin_key n s -> weight n s <= n.
Proof.
  intros Hn Hs. unfold weight. assert (G: forall m, 0 <= m -> m <= n -> zsum m (fun i => zn s i) <= m).
  { refine (natlike_ind (fun m => m <= n -> zsum m (fun i => zn s i) <= m) _ _).
    - intros _. rewrite zsum_0 by lia. lia.
    - intros m Hm IH Hmn. rewrite <- Z.add_1_r in *. rewrite zsum_S by lia. pose proof (bin_zn n s m Hs ltac:(lia)). lia. }
  apply G; lia.
Qed.

(** a line of simple_gates *)
Lemma x_line : forall O pr sk ge ck ctA ctB (m : mem (FP O)) gate expected d x m',
  testGate O pr sk ge ck ctA ctB m gate expected = Ok (d, x, m') <->
  x = expected /\ exists r, gate m ge ctA ctB ck = Ok (r, m') /\ DecryptBool (lv0_N pr) (tm m' r) (KeyLv0 sk) = Ok d.
Proof.
  intros. unfold testGate, decrypt. split.
  - intro E. apply bind_inv in E. destruct E as ([r m1] & G & E). apply bind_inv in E. destruct E as (b & D & E). injection E as <- <- <-. eauto.
  - intros (-> & r & G & D). rewrite G. cbn [bind]. rewrite D. reflexivity.
Qed.

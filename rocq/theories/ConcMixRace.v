(** * A gate and a programmable bootstrap on one evaluator *)
From Coq Require Import Lia ZifyBool Setoid Morphisms List.
From Verif Require Import GoBase GoFacts GoMem MemFacts F64 Utils UtilsFacts Params Key Tlwe TlweMem TlweFacts BasicFacts
  Poly PolyFacts NegFacts Laws Fft FftTabErr Trlwe TrlweFacts Trgsw TrgswFacts RotFacts KeySwitchFacts Lut Evaluator EvalFacts
  CloudKey CloudKeyFacts Gates LinFacts Spec RunSpec HeapFacts BootFacts Circuit GateFacts NoiseFacts RunProps RunWorst LutSpec LutProg LutProps LutProgProps MixProg MixProps
  Conc ConcLut ConcSpec ConcLutSpec ConcMixSpec ConcFacts ConcLutFacts ConcLutProps.
From Verif Require ConcRace ConcLutRace HistProps.
Import ListNotations.
Local Open Scope Z_scope.
Ltac Zify.zify_post_hook ::= idtac.

Section Race.
Context (R : arith) (O : fops) (pr : pset) (sk : SecretKey) (rk : Z -> enc_rand) (rb : Z -> Z -> trlwe_rand) (ck : CloudKey O)
  (S : setup R O pr sk rk rb ck) (k : Z) (Hk : 0 <= k < g_NBIT pr).
Notation M := (mem (FP O)).
Notation n := (lv0_N pr).
Notation tv := (BlindRotateTestvec ck).
Notation BK := (BootstrappingKey ck). Notation KK := (KeySwitchingKey ck). Notation OFF := (DecompositionOffset ck).

(** Goroutine 0 reads the index of the next result buffer; goroutine 1, a gate,
    bootstraps into that buffer; then goroutine 0 does, with its table; then
    both copy it. *)
Lemma mrace h gk e (m : M) a c d la tva q : reachable O pr e m -> key_at O m e gk ck -> user m e a -> user m e c -> user m e d -> zlen (tm m a) = n + 1 ->
  gate_lin h n (tm m c) (tm m d) = Ok q -> zlen q = n + 1 -> table O pr m e la tva ->
  exists sched x y m', together [mwork pr ck gk k (mix_lut e a la); mwork pr ck gk k (mix_gate h e c d)] m sched = Some (Ok ([([a; x], [la]); ([c; d; y], [])], m')) /\
    exists m0 r, malone pr ck gk k (mix_lut e a la) m = Ok ([a; r], [la], m0) /\ tm m' x = tm m0 r /\ tm m' y = tm m0 r.
Proof.
  intros Hr Hkey Ua Uc Ud La Eq Lq Ta. pose proof S as S'. open_setup S'. pose proof (pw_n _ _ W) as Hn.
  destruct (reach_ok L pr W HBG e m Hr) as [He Hm].
  destruct (cloud_facts L pr W HBG _ _ _ _ Hsk Hck) as (Hb & Hks & Ht & _).
  set (z := repeat 0 (Z.to_nat (n + 1))). assert (Ez: NewTLWE n = Ok z) by (unfold NewTLWE; rewrite make_ok by lia; reflexivity).
  assert (Lz: zlen z = n + 1) by (unfold z; rewrite zlen_repeat; lia).
  (* the gate's linear part *)
  set (m1 := snd (alloc m q)). set (m2 := snd (alloc m1 z)).
  destruct (ConcRace.alloc_reach R O pr sk rk rb ck S e m q Hr) as (R1 & U1 & K1). fold m1 in R1, U1, K1.
  destruct (ConcRace.alloc_reach R O pr sk rk rb ck S e m1 z R1) as (R2 & U2 & K2). fold m2 in R2, U2, K2.
  pose proof (keeps_key _ _ _ _ _ K1 Hkey) as Hk1. pose proof (keeps_key _ _ _ _ _ K2 Hk1) as Hk2.
  assert (T1: tm m1 (tnext m) = q) by apply alloc_at. assert (T2: tm m2 (tnext m1) = z) by apply alloc_at.
  set (pB := tnext m) in *. set (xB := tnext m1) in *.
  assert (NB: xB = pB + 1 /\ tnext m2 = pB + 2) by (unfold xB, m2, m1, pB; cbn [alloc snd tnext]; lia).
  destruct (K2 pB U1) as [UB2 TB2]. rewrite T1 in TB2.
  destruct (reach_ok L pr W HBG e m2 R2) as [He2 Hm2].
  destruct (key_at_gk L pr W HBG sk rk rb ck Hsk Hck m2 e gk Hk2) as (Hg & G1 & G2 & G3).
  pose proof (table_tvp L pr W _ _ _ _ He2 (key_at_table L pr W HBG sk rk rb ck Hsk Hck m2 e gk Hk2)) as Htv.
  set (idx := bp_i (ev_bp e)). set (i := im m idx). assert (Ei2: im m2 idx = i) by reflexivity. pose proof (eo_bi _ _ _ _ He2) as Hi. fold idx in Hi. rewrite Ei2 in Hi.
  destruct (Bootstrap_ok L pr W m2 e pB (gk_testvec gk) tv BK KK OFF He2 Hb Hks) as (m3 & E3 & V3 & I3 & He3 & S3); [|exact Htv|].
  { split; [rewrite TB2; exact Lq|]. intro A. apply (proj2 UB2). eapply scr_own; [exact W|exact He2| |exact A]; lia. }
  fold idx in E3, V3, I3, S3. rewrite Ei2 in E3, V3, I3, S3. set (s := slot e i) in *.
  assert (Os: own e s) by (apply (slot_own L pr W m2); assumption).
  assert (Y3: forall x, ~ own e x -> tm m3 x = tm m2 x).
  { intros x Hx. apply (step_t _ _ _ _ _ _ _ S3). intros [A|A]; apply Hx; [eapply scr_own; [exact W|exact He2| |exact A]; lia|rewrite A; exact Os]. }
  assert (Y2: forall x, user m e x -> tm m2 x = tm m x).
  { intros x Hx. destruct (K1 x Hx) as [A1 A2]. destruct (K2 x A1) as [_ B2]. congruence. }
  (* goroutine 0 bootstraps *)
  set (m4 := iset m3 idx (Z.rem (i + 1) 4)).
  assert (B4: 0 <= Z.rem (i + 1) 4 < 4) by (rewrite Z.rem_mod_nonneg by lia; apply Z.mod_pos_bound; lia).
  assert (S4: step L none none (eq idx) m3 m4) by (apply step_iset; reflexivity).
  assert (He4: ev_ok L pr m4 e). { eapply ev_ok_step; [exact S4|exact He3|]. intros x <- _. unfold m4. rewrite im_iset. exact B4. }
  assert (X4: forall x, user m e x -> tm m4 x = tm m x) by (intros x Hx; change (tm m3 x = tm m x); rewrite Y3 by apply Hx; apply Y2, Hx).
  assert (NS: forall x, user m e x -> forall j, 0 <= j <= 11 -> ~ scr e j x).
  { intros x Hx j Hj A. apply (proj2 Hx). eapply scr_own; [exact W|exact He| |exact A]; lia. }
  pose proof (table_tvp L pr W _ _ _ _ He Ta) as (_ & Cta & _). pose proof Ta as Ta0. destruct Ta as (TA1 & TA2 & TA3 & TA4 & _).
  destruct (BootstrapAssign_ok L pr W m4 e a la tva BK KK OFF s) as (m5 & E5 & V5 & S5); try assumption.
  { rewrite X4 by exact Ua. exact La. }
  { split; rewrite X4; assumption. }
  1, 2, 3: apply NS; try assumption; lia.
  { apply (eo_b11 _ _ _ _ He4). unfold blk, s, slot. lia. }
  { unfold s, slot. lia. }
  rewrite X4 in V5 by exact Ua. set (val := bootp L pr OFF BK KK tva (tm m a)) in *.
  assert (Lv: zlen val = n + 1) by (apply (bootp_ok L pr W)).
  assert (He5: ev_ok L pr m5 e). { eapply ev_ok_step; [exact S5|exact He4|intros x []]. }
  assert (Y5: forall x, ~ own e x -> tm m5 x = tm m2 x).
  { intros x Hx. rewrite <- Y3 by exact Hx. change (tm m3 x) with (tm m4 x). apply (step_t _ _ _ _ _ _ _ S5). intros [A|A]; apply Hx; [eapply scr_own; [exact W|exact He| |exact A]; lia|rewrite A; exact Os]. }
  assert (NX5: tnext m5 = pB + 2).
  { pose proof (proj1 (fr_n _ _ _ _ _ (proj1 S3))) as N3. pose proof (proj1 (fr_n _ _ _ _ _ (proj1 S5))) as N5. change (tnext m4) with (tnext m3) in N5. lia. }
  assert (Ns: s < tnext m). { unfold own in Os. pose proof (eo_t3 _ _ _ _ He). lia. }
  set (m6 := snd (alloc m5 z)). set (xA := tnext m5) in *. assert (T6: tm m6 xA = z) by apply alloc_at.
  fold pB in Ns.
  assert (T6s: tm m6 s = val) by (unfold m6; rewrite ConcLutRace.alloc_ne by (fold xA; lia); exact V5).
  destruct (ConcRace.copy_out O pr m6 xA s val T6s Lv Hn) as (m7 & E7 & G7 & V7 & Y7 & Q7); [rewrite T6; exact Lz|lia|].
  assert (T7s: tm m7 s = val) by (rewrite Y7 by lia; exact T6s).
  assert (T7B: tm m7 xB = z). { rewrite Y7 by lia. unfold m6. rewrite ConcLutRace.alloc_ne by (fold xA; lia). rewrite Y5 by apply U2. exact T2. }
  destruct (ConcRace.copy_out O pr m7 xB s val T7s Lv Hn) as (m8 & E8 & G8 & V8 & Y8 & Q8); [rewrite T7B; exact Lz|lia|].
  (* the call alone *)
  assert (Ealone: exists r m0, malone pr ck gk k (mix_lut e a la) m = Ok ([a; r], [la], m0) /\ tm m0 r = val).
  { destruct (lut_run L pr W HBG sk rk rb ck Hsk Hck e m a la tva Hr) as (r & m0 & E0 & V0 & _).
    - split; [exact La|left; exact Ua].
    - exact Ta0.
    - exists r, m0. split; [|exact V0]. unfold malone, mix_lut. cbn [mw_ev mw_calls mw_cts mw_tabs mexec mexec1 lexec1]. change (get [la] 0) with (Ok la). change (get [a] 0) with (Ok a). cbn [bind].
      rewrite E0. reflexivity. }
  (* the programs *)
  set (finA := fun s : Z => pbind (p_new_ct O pr) (fun c => CopyTo c s (pbind (elem s n) (fun b => Store c n b (Ret c)))) : prog O Z).
  set (finB := fun x bs : Z => CopyTo x bs (pbind (elem bs n) (fun v => Store x n v (Ret x))) : prog O Z).
  set (KA := fun r : list Z * list tref => Ret (fst r, snd r) : prog O (list Z * list tref)).
  set (NA := fun (r : Z) => Ret ([a] ++ [r], [la]) : prog O (list Z * list tref)).
  set (NB' := fun (r : Z) => Ret ([c; d] ++ [r], []) : prog O (list Z * list tref)).
  set (asg := fun s => p_BootstrapLUTAssign O pr e a la BK KK OFF s).
  set (kont := fun j : Z => if (j <? 0) || (4 <=? j) then Fail PIndex else SetInt idx (Z.rem (j + 1) 4) (Ret (bp_Buffers (ev_bp e) j)) : prog O Z).
  assert (PG: p_GetNextResult O e = ReadInt idx kont) by reflexivity.
  set (C1 := fun (p : prog O Z) => pbind (pbind (pbind p (fun s => pbind (asg s) (fun _ => finA s))) NA) KA).
  set (C2 := fun s (p : prog O unit) => pbind (pbind (pbind p (fun _ => finA s)) NA) KA).
  assert (PW: mwork pr ck gk k (mix_lut e a la) = C1 (p_GetNextResult O e)) by reflexivity.
  assert (H1: ConcRace.hole C1).
  { apply (ConcRace.hole_bind (fun p => pbind (pbind p NA) KA)). apply (ConcRace.hole_bind (fun p => pbind p KA)). apply (ConcRace.hole_bind (fun p => p)). apply ConcRace.hole_id. }
  assert (H2: forall s, ConcRace.hole (C2 s)).
  { intros s'. apply (ConcRace.hole_bind (fun p => pbind (pbind p NA) KA)). apply (ConcRace.hole_bind (fun p => pbind p KA)). apply (ConcRace.hole_bind (fun p => p)). apply ConcRace.hole_id. }
  assert (C12: forall s, C1 (Ret s) = C2 s (asg s)) by reflexivity.
  assert (RK: run (kont i) m3 = Ok (s, m4)).
  { unfold kont. destruct (Z.ltb_spec i 0); [lia|]. destruct (Z.leb_spec 4 i); [lia|]. reflexivity. }
  assert (RA: run (asg s) m4 = Ok (tt, m5)).
  { unfold asg. rewrite (does_LUTAssign O pr e a la BK KK OFF s m4). rewrite Assign_eq, E5. reflexivity. }
  set (boot := fun x => p_Bootstrap O pr e x (gk_testvec gk) (gk_bsk gk) (gk_ksk gk) (gk_offset gk)).
  assert (PB: forall x, p_bootstrap O pr e x gk = New z (fun r => pbind (boot x) (finB r))).
  { intro x. unfold p_bootstrap, p_new_ct. rewrite Ez. reflexivity. }
  assert (RB: run (boot pB) m2 = Ok (s, m3)).
  { unfold boot. rewrite run_Bootstrap, G1, G2, G3. exact E3. }
  set (CB := fun (p : prog O Z) => pbind (pbind (pbind p (finB xB)) NB') KA).
  assert (HCB: ConcRace.hole CB).
  { apply (ConcRace.hole_bind (fun p => pbind (pbind p NB') KA)). apply (ConcRace.hole_bind (fun p => pbind p KA)). apply (ConcRace.hole_bind (fun p => p)). apply ConcRace.hole_id. }
  destruct (ConcRace.drive1 (C1 (kont i)) CB HCB _ _ _ _ RB) as [n1 D1].
  destruct (ConcRace.drive0 C1 (CB (Ret s)) H1 _ _ _ _ RK) as [n3 D3].
  destruct (ConcRace.drive0 (C2 s) (CB (Ret s)) (H2 s) _ _ _ _ RA) as [n4 D4].
  exists ([0; 1; 1; 1; 1] ++ repeat 1 n1 ++ repeat 0 n3 ++ repeat 0 n4 ++ [0; 0; 0; 0; 1; 1; 1]), xA, xB, m8. split.
  2:{ destruct Ealone as (r & m0 & X1 & X2). exists m0, r. split; [exact X1|]. rewrite X2. split; [rewrite Y8 by lia; exact V7|exact V8]. }
  unfold together. rewrite PW. set (B0 := mwork pr ck gk k (mix_gate h e c d)). cbn [app].
  rewrite (ConcRace.go0 _ B0 (C1 (kont i)) m m) by (apply (H1 (p_GetNextResult O e)); rewrite PG; reflexivity).
  set (A1 := C1 (kont i)) in *.
  rewrite (ConcRace.go1 A1 B0 (pbind (pbind (Read d (fun vb => pbind (lift (gate_lin h n (tm m c) vb)) (fun v => New v (fun x => p_bootstrap O pr e x gk)))) NB') KA) m m) by reflexivity.
  rewrite (ConcRace.go1 A1 _ (pbind (pbind (New q (fun x => p_bootstrap O pr e x gk)) NB') KA) m m) by (cbn [pbind access]; rewrite Eq; reflexivity).
  rewrite (ConcRace.go1 A1 _ (pbind (pbind (New z (fun r => pbind (boot pB) (finB r))) NB') KA) m m1) by (cbn [pbind access]; change (alloc m q) with (pB, m1); cbv iota; rewrite PB; reflexivity).
  rewrite (ConcRace.go1 A1 _ (CB (boot pB)) m1 m2) by reflexivity.
  rewrite D1. unfold A1. rewrite D3, C12, D4.
  set (B1 := CB (Ret s)).
  set (tail := fun c => pbind (pbind (pbind (elem s n) (fun b => Store c n b (Ret c))) NA) KA).
  assert (PF: C2 s (Ret tt) = New z (fun c => CopyTo c s (tail c))) by (unfold C2, finA, p_new_ct; rewrite Ez; reflexivity).
  rewrite PF.
  rewrite (ConcRace.go0 _ B1 (CopyTo xA s (tail xA)) m5 m6) by reflexivity.
  rewrite (ConcRace.go0 _ B1 (tail xA) m6 (mcopy m6 xA s)) by reflexivity.
  rewrite (ConcRace.go0 _ B1 (pbind (pbind (Store xA n (zn val n) (Ret xA)) NA) KA) (mcopy m6 xA s) (mcopy m6 xA s)) by (unfold tail; cbn [pbind elem access]; rewrite G7; reflexivity).
  rewrite (ConcRace.go0 _ B1 (Ret ([a; xA], [la])) (mcopy m6 xA s) m7) by (cbn [pbind access]; rewrite E7; reflexivity).
  unfold B1.
  rewrite (ConcRace.go1 _ _ (pbind (pbind (pbind (elem s n) (fun v => Store xB n v (Ret xB))) NB') KA) m7 (mcopy m7 xB s)) by reflexivity.
  rewrite (ConcRace.go1 _ _ (pbind (pbind (Store xB n (zn val n) (Ret xB)) NB') KA) (mcopy m7 xB s) (mcopy m7 xB s)) by (cbn [pbind elem access]; rewrite G8; reflexivity).
  rewrite (ConcRace.go1 _ _ (Ret ([c; d; xB], [])) (mcopy m7 xB s) m8) by (cbn [pbind access]; rewrite E8; reflexivity).
  reflexivity.
Qed.

Lemma mrace_decrypts (Hk2 : 2 <= k) T h gk e (m : M) a c d la va vc vd f E F G : reachable O pr e m ->
  mholds O pr sk ck gk k m e [a] [la] ([va], [f], [E]) -> mholds O pr sk ck gk k m e [c; d] [] ([vc; vd], [], [F; G]) -> 0 <= va < 2 ^ k ->
  E + round_err pr sk < 2 ^ (30 - k) -> T < 2 ^ (30 - k) -> gen_noise O pr sk ck f (2 ^ k) (tm m a) T ->
  exists sched x y m', together [mwork pr ck gk k (mix_lut e a la); mwork pr ck gk k (mix_gate h e c d)] m sched = Some (Ok ([([a; x], [la]); ([c; d; y], [])], m')) /\
    DecryptLWEMessage n (tm m' x) (2 ^ k) (KeyLv0 sk) = Ok (f va mod 2 ^ k) /\ DecryptLWEMessage n (tm m' y) (2 ^ k) (KeyLv0 sk) = Ok (f va mod 2 ^ k) /\
    (f va mod 2 ^ k = 2 ^ (k - 2) -> DecryptBool n (tm m' y) (KeyLv0 sk) = Ok true).
Proof.
  intros Hr ([Wa Ta] & Hkey & Na) ([Wc _] & _ & _) Hv HE HT Hgn. pose proof Wa as (_ & _ & _ & Wa0). pose proof Wc as (_ & _ & _ & Wc0).
  destruct (Wa0 0 ltac:(change (zlen [a]) with 1; lia)) as (Ua & _ & Ea).
  destruct (Wc0 0 ltac:(change (zlen [c; d]) with 2; lia)) as (Uc & _ & Ec). destruct (Wc0 1 ltac:(change (zlen [c; d]) with 2; lia)) as (Ud & _ & Ed).
  change (zn [a] 0) with a in *. change (zn [c; d] 0) with c in *. change (zn [c; d] 1) with d in *.
  inversion Ta as [|? ? ? ? [(tva & _ & Ta1) _] _]; subst.
  destruct Ea as [[La _] _]. destruct Ec as [[Lc _] _]. destruct Ed as [[Ld _] _].
  pose proof S as ((W & _) & _).
  destruct (HistProps.gate_lin_tot pr W h (tm m c) (tm m d) Lc Ld) as (q & Eq & Lq).
  destruct (mrace h gk e m a c d la tva q Hr Hkey Ua Uc Ud La Eq Lq Ta1) as (sched & x & y & m' & H & m0 & r & Ha & Hx & Hy).
  exists sched, x, y, m'. split; [exact H|]. rewrite Hx, Hy.
  assert (P: mplain k [MMsg (LLut 0 0)] [va] [f] = Ok ([va; f va mod 2 ^ k], [f])).
  { cbn [mplain mplain1 lplain1]. change (get [f] 0) with (Ok f). change (get [va] 0) with (Ok va). cbn [bind app]. unfold lut_at. destruct (Z.ltb_spec va (2 ^ k)); [|lia].
    rewrite (Z.mod_small (f va mod 2 ^ k)); [reflexivity|]. pose proof (Z.mod_pos_bound (f va) (2 ^ k)). lia. }
  assert (NO: mnoise k T (round_err pr sk) [MMsg (LLut 0 0)] [E] = Ok [E; T]).
  { cbn [mnoise mnoise1 lnoise1]. change (get [E] 0) with (Ok E). cbn [bind]. destruct (Z.ltb_spec (E + round_err pr sk) (2 ^ (30 - k))); [reflexivity|lia]. }
  assert (NT1: ~ In (rA (gk_testvec gk)) [a]) by (apply Na; left; reflexivity). assert (NT2: ~ In (rB (gk_testvec gk)) [a]) by (apply Na; right; reflexivity).
  destruct (mp_program R O pr sk rk rb ck e gk k T [MMsg (LLut 0 0)] m [a] [la] [va] [f] [E] _ _ _ S ltac:(lia) Hr Hkey NT1 NT2 Wa Ta P NO) as (nw & ts' & m0' & E0 & _ & _ & D & DB & _).
  { intros f' c' [B|(ws' & ts' & m1 & _ & [])] _. destruct f' as [f'|]; [|destruct B]. destruct B as [Gf (x' & Gx & <-)].
    change (get [f] 0) with (Ok f) in Gf. change (get [a] 0) with (Ok a) in Gx. injection Gf as <-. injection Gx as <-. exact Hgn. }
  assert (Q: [a] ++ nw = [a; r] /\ m0' = m0). { unfold malone, mix_lut in Ha. cbn [mw_ev mw_calls mw_cts mw_tabs] in Ha. rewrite E0 in Ha. injection Ha as Q1 _ Q3. cbn [app]. rewrite Q1. auto. }
  destruct Q as [Q ->]. rewrite Q in D, DB. pose proof (D 1 r (f va mod 2 ^ k) T eq_refl eq_refl eq_refl HT) as D1. rewrite Z.mod_mod in D1 by (pose proof (Z.pow_pos_nonneg 2 k); lia).
  split; [exact D1|]. split; [exact D1|]. intro Hf. apply (DB 1 r true T eq_refl); [cbn [bit_pos]; rewrite <- Hf; reflexivity|reflexivity|].
  assert (2 ^ (30 - k) <= 2 ^ 29) by (apply Z.pow_le_mono_r; lia). lia.
Qed.
End Race.

Lemma mrace_float64 mc O pr sk rk rb ck : mc_ok mc -> setup (f64_arith mc) O pr sk rk rb ck ->
  forall Bb Bk d d', fft_error_within pr d d' -> key_noise_within pr rk rb Bb Bk -> 0 <= Bb -> 0 <= Bk -> 0 <= d' ->
  forall gk k, 2 <= k < g_NBIT pr -> forall h e (m : mem (FP O)) a b c t va vb vc f E F G, reachable O pr e m ->
  mholds O pr sk ck gk k m e [a] [t] ([va], [f], [E]) -> mholds O pr sk ck gk k m e [b; c] [] ([vb; vc], [], [F; G]) -> 0 <= va < 2 ^ k ->
  E + round_err pr sk < 2 ^ (30 - k) -> worst_noise pr sk Bb Bk d d' < 2 ^ (30 - k) ->
  exists sched x y m', together [mwork pr ck gk k (mix_lut e a t); mwork pr ck gk k (mix_gate h e b c)] m sched = Some (Ok ([([a; x], [t]); ([b; c; y], [])], m')) /\
    DecryptLWEMessage (lv0_N pr) (tm m' x) (2 ^ k) (KeyLv0 sk) = Ok (f va mod 2 ^ k) /\ DecryptLWEMessage (lv0_N pr) (tm m' y) (2 ^ k) (KeyLv0 sk) = Ok (f va mod 2 ^ k) /\
    (f va mod 2 ^ k = 2 ^ (k - 2) -> DecryptBool (lv0_N pr) (tm m' y) (KeyLv0 sk) = Ok true).
Proof.
  intros Hc S Bb Bk d d' H1 H2 H3 H4 H5 gk k Hk h e m a b c t va vb vc f E F G Hr Ha Hb Hv HE HT.
  assert (La: zlen (tm m a) = lv0_N pr + 1).
  { destruct Ha as [[(_ & _ & _ & W) _] _]. destruct (W 0 ltac:(change (zlen [a]) with 1; lia)) as (_ & _ & [[X _] _]). exact X. }
  eapply (mrace_decrypts _ O pr sk rk rb ck S k ltac:(lia) ltac:(lia) (worst_noise pr sk Bb Bk d d')); try eassumption.
  eapply t_worst; try eassumption. apply Z.pow_pos_nonneg; lia.
Qed.

(** * Two programmable bootstraps on one evaluator *)
From Coq Require Import Lia ZifyBool Setoid Morphisms List.
From Verif Require Import GoBase GoFacts GoMem MemFacts F64 Utils UtilsFacts Params Key Tlwe TlweMem TlweFacts BasicFacts
  Poly PolyFacts NegFacts Laws Fft FftTabErr Trlwe TrlweFacts Trgsw TrgswFacts RotFacts KeySwitchFacts Lut Evaluator EvalFacts
  CloudKey CloudKeyFacts Gates LinFacts Spec RunSpec HeapFacts BootFacts Circuit GateFacts NoiseFacts RunProps RunWorst LutSpec LutProg LutProps LutProgProps
  Conc ConcLut ConcSpec ConcLutSpec ConcFacts ConcLutFacts ConcLutProps.
From Verif Require ConcRace.
Import ListNotations.
Local Open Scope Z_scope.
Ltac Zify.zify_post_hook ::= idtac.

Lemma alloc_ne {F} (m : mem F) v x : x <> tnext m -> tm (snd (alloc m v)) x = tm m x.
Proof. intro H. pose proof (alloc_spec m v) as A. destruct (alloc m v) as [l m']. destruct A as (-> & _ & A & _). apply A, H. Qed.
Lemma store_next {F} (m m' : mem F) l i v : store m l i v = Ok m' -> tnext m' = tnext m.
Proof. unfold store. destruct (set (tm m l) i v) as [w|]; cbn [bind]; [|discriminate]. intro H. injection H as <-. reflexivity. Qed.

Section Race.
Context (R : arith) (O : fops) (pr : pset) (sk : SecretKey) (rk : Z -> enc_rand) (rb : Z -> Z -> trlwe_rand) (ck : CloudKey O)
  (S : setup R O pr sk rk rb ck) (k : Z) (Hk : 0 <= k < g_NBIT pr).
Notation M := (mem (FP O)).
Notation n := (lv0_N pr).
Notation BK := (BootstrappingKey ck). Notation KK := (KeySwitchingKey ck). Notation OFF := (DecompositionOffset ck).

(** Goroutine 0 reads the index of the next result buffer; goroutine 1
    bootstraps into that buffer; then goroutine 0 does; then both copy it. *)
Lemma lrace e (m : M) a c la lc tva tvc : reachable O pr e m -> user m e a -> user m e c -> zlen (tm m a) = n + 1 -> zlen (tm m c) = n + 1 ->
  table O pr m e la tva -> table O pr m e lc tvc ->
  exists sched x y m', together [lwork pr ck k (one_lut e a la); lwork pr ck k (one_lut e c lc)] m sched = Some (Ok ([([a; x], [la]); ([c; y], [lc])], m')) /\
    exists m0 r, lalone pr ck k (one_lut e a la) m = Ok ([a; r], [la], m0) /\ tm m' x = tm m0 r /\ tm m' y = tm m0 r.
Proof.
  intros Hr Ua Uc La Lc Ta Tc. pose proof S as S'. open_setup S'. pose proof (pw_n _ _ W) as Hn.
  destruct (reach_ok L pr W HBG e m Hr) as [He Hm].
  destruct (cloud_facts L pr W HBG _ _ _ _ Hsk Hck) as (Hb & Hks & _).
  set (z := repeat 0 (Z.to_nat (n + 1))). assert (Ez: NewTLWE n = Ok z) by (unfold NewTLWE; rewrite make_ok by lia; reflexivity).
  assert (Lz: zlen z = n + 1) by (unfold z; rewrite zlen_repeat; lia).
  set (idx := bp_i (ev_bp e)). set (i := im m idx). pose proof (eo_bi _ _ _ _ He) as Hi. fold idx i in Hi.
  assert (B4: 0 <= Z.rem (i + 1) 4 < 4) by (rewrite Z.rem_mod_nonneg by lia; apply Z.mod_pos_bound; lia).
  set (s := slot e i). assert (Os: own e s) by (apply (slot_own L pr W m); assumption).
  (* goroutine 1 bootstraps *)
  set (m1 := iset m idx (Z.rem (i + 1) 4)).
  assert (S1: step L none none (eq idx) m m1) by (apply step_iset; reflexivity).
  assert (He1: ev_ok L pr m1 e). { eapply ev_ok_step; [exact S1|exact He|]. intros x <- _. unfold m1. rewrite im_iset. exact B4. }
  assert (NS: forall x, user m e x -> forall j, 0 <= j <= 11 -> ~ scr e j x).
  { intros x Hx j Hj A. apply (proj2 Hx). eapply scr_own; [exact W|exact He| |exact A]; lia. }
  pose proof (table_tvp L pr W _ _ _ _ He Ta) as (_ & Cta & _). pose proof (table_tvp L pr W _ _ _ _ He Tc) as (_ & Ctc & _).
  pose proof Ta as Ta0. destruct Ta as (TA1 & TA2 & TA3 & TA4 & _). destruct Tc as (TC1 & TC2 & TC3 & TC4 & _).
  destruct (BootstrapAssign_ok L pr W m1 e c lc tvc BK KK OFF s) as (m2 & E2 & V2 & S2); try assumption.
  { split; [exact TC1|exact TC2]. }
  1, 2, 3: apply NS; try assumption; lia.
  { apply (eo_b11 _ _ _ _ He1). unfold blk, s, slot. lia. }
  { unfold s, slot. lia. }
  assert (He2: ev_ok L pr m2 e). { eapply ev_ok_step; [exact S2|exact He1|intros x []]. }
  assert (Y2: forall x, ~ own e x -> tm m2 x = tm m x).
  { intros x Hx. change (tm m x) with (tm m1 x). apply (step_t _ _ _ _ _ _ _ S2). intros [A|A]; apply Hx; [eapply scr_own; [exact W|exact He| |exact A]; lia|rewrite A; exact Os]. }
  (* goroutine 0 bootstraps *)
  set (m3 := iset m2 idx (Z.rem (i + 1) 4)).
  assert (S3: step L none none (eq idx) m2 m3) by (apply step_iset; reflexivity).
  assert (He3: ev_ok L pr m3 e). { eapply ev_ok_step; [exact S3|exact He2|]. intros x <- _. unfold m3. rewrite im_iset. exact B4. }
  assert (Ea3: tm m3 a = tm m a) by (change (tm m2 a = tm m a); apply Y2, Ua).
  destruct (BootstrapAssign_ok L pr W m3 e a la tva BK KK OFF s) as (m4 & E4 & V4 & S4); try assumption.
  { rewrite Ea3. exact La. }
  { split; [change (tm m2 (rA la) = tA tva)|change (tm m2 (rB la) = tB tva)]; rewrite Y2; try assumption; [apply TA3|apply TA4]. }
  1, 2, 3: apply NS; try assumption; lia.
  { apply (eo_b11 _ _ _ _ He3). unfold blk, s, slot. lia. }
  { unfold s, slot. lia. }
  rewrite Ea3 in V4. set (val := bootp L pr OFF BK KK tva (tm m a)) in *.
  assert (Lv: zlen val = n + 1) by (apply (bootp_ok L pr W)).
  assert (He4: ev_ok L pr m4 e). { eapply ev_ok_step; [exact S4|exact He3|intros x []]. }
  assert (Ns: s < tnext m4). { unfold own in Os. pose proof (eo_t3 _ _ _ _ He4). lia. }
  set (m5 := snd (alloc m4 z)). set (xA := tnext m4) in *. assert (T5: tm m5 xA = z) by apply alloc_at.
  assert (T5s: tm m5 s = val) by (unfold m5; rewrite alloc_ne by lia; exact V4).
  destruct (ConcRace.copy_out O pr m5 xA s val T5s Lv Hn) as (m6 & E6 & G6 & V6 & Y6 & Q6); [rewrite T5; exact Lz|lia|].
  set (m7 := snd (alloc m6 z)). set (xB := tnext m6) in *.
  assert (Nx: xB = xA + 1). { unfold xB. rewrite (store_next _ _ _ _ _ E6). reflexivity. }
  assert (T7: tm m7 xB = z) by apply alloc_at.
  assert (T7s: tm m7 s = val) by (unfold m7; rewrite alloc_ne by (fold xB; lia); rewrite Y6 by lia; exact T5s).
  destruct (ConcRace.copy_out O pr m7 xB s val T7s Lv Hn) as (m8 & E8 & G8 & V8 & Y8 & Q8); [rewrite T7; exact Lz|lia|].
  (* the call alone *)
  assert (Ealone: exists r m0, lalone pr ck k (one_lut e a la) m = Ok ([a; r], [la], m0) /\ tm m0 r = val).
  { destruct (lut_run L pr W HBG sk rk rb ck Hsk Hck e m a la tva Hr) as (r & m0 & E0 & V0 & _).
    - split; [exact La|left; exact Ua].
    - exact Ta0.
    - exists r, m0. split; [|exact V0]. unfold lalone, one_lut. cbn [lw_ev lw_calls lw_cts lw_tabs lexec lexec1]. change (get [la] 0) with (Ok la). change (get [a] 0) with (Ok a). cbn [bind].
      rewrite E0. reflexivity. }
  (* the programs *)
  set (fin := fun s : Z => pbind (p_new_ct O pr) (fun c => CopyTo c s (pbind (elem s n) (fun b => Store c n b (Ret c)))) : prog O Z).
  set (KA := fun r : list Z * list tref => Ret (fst r, snd r) : prog O (list Z * list tref)).
  set (NA := fun (x : Z) (t : tref) (r : Z) => Ret ([x] ++ [r], [t]) : prog O (list Z * list tref)).
  set (asg := fun x t s => p_BootstrapLUTAssign O pr e x t BK KK OFF s).
  set (kont := fun j : Z => if (j <? 0) || (4 <=? j) then Fail PIndex else SetInt idx (Z.rem (j + 1) 4) (Ret (bp_Buffers (ev_bp e) j)) : prog O Z).
  assert (PG: p_GetNextResult O e = ReadInt idx kont) by reflexivity.
  set (C1 := fun x t (p : prog O Z) => pbind (pbind (pbind p (fun s => pbind (asg x t s) (fun _ => fin s))) (NA x t)) KA).
  set (C2 := fun x t s (p : prog O unit) => pbind (pbind (pbind p (fun _ => fin s)) (NA x t)) KA).
  assert (PW: forall x t, lwork pr ck k (one_lut e x t) = C1 x t (p_GetNextResult O e)) by reflexivity.
  assert (H1: forall x t, ConcRace.hole (C1 x t)).
  { intros x t. apply (ConcRace.hole_bind (fun p => pbind (pbind p (NA x t)) KA)). apply (ConcRace.hole_bind (fun p => pbind p KA)). apply (ConcRace.hole_bind (fun p => p)). apply ConcRace.hole_id. }
  assert (H2: forall x t s, ConcRace.hole (C2 x t s)).
  { intros x t s'. apply (ConcRace.hole_bind (fun p => pbind (pbind p (NA x t)) KA)). apply (ConcRace.hole_bind (fun p => pbind p KA)). apply (ConcRace.hole_bind (fun p => p)). apply ConcRace.hole_id. }
  assert (C12: forall x t s, C1 x t (Ret s) = C2 x t s (asg x t s)) by reflexivity.
  assert (RK: forall m' : M, run (kont i) m' = Ok (s, iset m' idx (Z.rem (i + 1) 4))).
  { intro m'. unfold kont. destruct (Z.ltb_spec i 0); [lia|]. destruct (Z.leb_spec 4 i); [lia|]. reflexivity. }
  assert (RG: run (p_GetNextResult O e) m = Ok (s, m1)) by (rewrite PG; cbn [run]; apply RK).
  assert (RA: forall x t (m' m'' : M), BootstrapAssign O pr m' e x t BK KK OFF s = Ok m'' -> run (asg x t s) m' = Ok (tt, m'')).
  { intros x t m' m'' E. unfold asg. rewrite (does_LUTAssign O pr e x t BK KK OFF s m'). rewrite Assign_eq, E. reflexivity. }
  destruct (ConcRace.drive1 (C1 a la (kont i)) (C1 c lc) (H1 c lc) _ _ _ _ RG) as [n1 D1].
  destruct (ConcRace.drive1 (C1 a la (kont i)) (C2 c lc s) (H2 c lc s) _ _ _ _ (RA c lc _ _ E2)) as [n2 D2].
  destruct (ConcRace.drive0 (C1 a la) (C2 c lc s (Ret tt)) (H1 a la) _ _ _ _ (RK m2)) as [n3 D3].
  destruct (ConcRace.drive0 (C2 a la s) (C2 c lc s (Ret tt)) (H2 a la s) _ _ _ _ (RA a la _ _ E4)) as [n4 D4].
  exists ([0] ++ repeat 1 n1 ++ repeat 1 n2 ++ repeat 0 n3 ++ repeat 0 n4 ++ [0; 0; 0; 0; 1; 1; 1; 1]), xA, xB, m8. split.
  2:{ destruct Ealone as (r & m0 & X1 & X2). exists m0, r. split; [exact X1|]. rewrite X2. split; [rewrite Y8 by lia; unfold m7; rewrite alloc_ne by (fold xB; lia); exact V6|exact V8]. }
  unfold together. rewrite !PW. cbn [app].
  rewrite (ConcRace.go0 _ (C1 c lc (p_GetNextResult O e)) (C1 a la (kont i)) m m) by (apply (H1 a la (p_GetNextResult O e)); rewrite PG; reflexivity).
  rewrite D1, C12, D2, D3, C12, D4.
  set (B1 := C2 c lc s (Ret tt)).
  set (tail := fun x t c => pbind (pbind (pbind (elem s n) (fun b => Store c n b (Ret c))) (NA x t)) KA).
  assert (PF: forall x t, C2 x t s (Ret tt) = New z (fun c => CopyTo c s (tail x t c))) by (intros; unfold C2, fin, p_new_ct; rewrite Ez; reflexivity).
  rewrite PF. unfold B1. rewrite PF.
  rewrite (ConcRace.go0 _ _ (CopyTo xA s (tail a la xA)) m4 m5) by reflexivity.
  rewrite (ConcRace.go0 _ _ (tail a la xA) m5 (mcopy m5 xA s)) by reflexivity.
  rewrite (ConcRace.go0 _ _ (pbind (pbind (Store xA n (zn val n) (Ret xA)) (NA a la)) KA) (mcopy m5 xA s) (mcopy m5 xA s)) by (unfold tail; cbn [pbind elem access]; rewrite G6; reflexivity).
  rewrite (ConcRace.go0 _ _ (Ret ([a; xA], [la])) (mcopy m5 xA s) m6) by (cbn [pbind access]; rewrite E6; reflexivity).
  rewrite (ConcRace.go1 _ _ (CopyTo xB s (tail c lc xB)) m6 m7) by reflexivity.
  rewrite (ConcRace.go1 _ _ (tail c lc xB) m7 (mcopy m7 xB s)) by reflexivity.
  rewrite (ConcRace.go1 _ _ (pbind (pbind (Store xB n (zn val n) (Ret xB)) (NA c lc)) KA) (mcopy m7 xB s) (mcopy m7 xB s)) by (unfold tail; cbn [pbind elem access]; rewrite G8; reflexivity).
  rewrite (ConcRace.go1 _ _ (Ret ([c; xB], [lc])) (mcopy m7 xB s) m8) by (cbn [pbind access]; rewrite E8; reflexivity).
  reflexivity.
Qed.

Lemma lrace_decrypts T Rd e (m : M) a c la lc va vc f g E F : reachable O pr e m ->
  lholds O pr sk k m e [a] [la] ([va], [f], [E]) -> lholds O pr sk k m e [c] [lc] ([vc], [g], [F]) -> 0 <= va < 2 ^ k ->
  E + Rd < 2 ^ (30 - k) -> T < 2 ^ (30 - k) -> rounding pr (KeyLv0 sk) (tm m a) Rd -> gen_noise O pr sk ck f (2 ^ k) (tm m a) T ->
  exists sched x y m', together [lwork pr ck k (one_lut e a la); lwork pr ck k (one_lut e c lc)] m sched = Some (Ok ([([a; x], [la]); ([c; y], [lc])], m')) /\
    DecryptLWEMessage n (tm m' x) (2 ^ k) (KeyLv0 sk) = Ok (f va mod 2 ^ k) /\ DecryptLWEMessage n (tm m' y) (2 ^ k) (KeyLv0 sk) = Ok (f va mod 2 ^ k).
Proof.
  intros Hr [Wa Ta] [Wc Tc] Hv HE HT Hrd Hgn. pose proof Wa as (_ & _ & _ & Wa0). pose proof Wc as (_ & _ & _ & Wc0).
  destruct (Wa0 0 ltac:(change (zlen [a]) with 1; lia)) as (Ua & _ & Ea). destruct (Wc0 0 ltac:(change (zlen [c]) with 1; lia)) as (Uc & _ & Ec).
  change (zn [a] 0) with a in *. change (zn [c] 0) with c in *.
  inversion Ta as [|? ? ? ? [(tva & _ & Ta1) _] _]; subst. inversion Tc as [|? ? ? ? [(tvc & _ & Tc1) _] _]; subst.
  destruct Ea as [[La _] _]. destruct Ec as [[Lc _] _].
  destruct (lrace e m a c la lc tva tvc Hr Ua Uc La Lc Ta1 Tc1) as (sched & x & y & m' & H & m0 & r & Ha & Hx & Hy).
  exists sched, x, y, m'. split; [exact H|]. rewrite Hx, Hy.
  assert (P: lplain k [LLut 0 0] [va] [f] = Ok ([va; f va mod 2 ^ k], [f])).
  { cbn [lplain lplain1]. change (get [f] 0) with (Ok f). change (get [va] 0) with (Ok va). cbn [bind app]. unfold lut_at. destruct (Z.ltb_spec va (2 ^ k)); [|lia].
    rewrite (Z.mod_small (f va mod 2 ^ k)); [reflexivity|]. pose proof (Z.mod_pos_bound (f va) (2 ^ k)). lia. }
  assert (NO: lnoise k T Rd [LLut 0 0] [E] = Ok [E; T]).
  { cbn [lnoise lnoise1]. change (get [E] 0) with (Ok E). cbn [bind]. destruct (Z.ltb_spec (E + Rd) (2 ^ (30 - k))); [reflexivity|lia]. }
  destruct (lp_program R O pr sk rk rb ck e k T Rd [LLut 0 0] m [a] [la] [va] [f] [E] _ _ _ S Hk Hr Wa Ta P NO) as (nw & ts' & m0' & E0 & _ & _ & D & _).
  { intros f' c' [[Gf (x' & Gx & <-)]|(ws' & ts' & m1 & _ & [])]. change (get [f] 0) with (Ok f) in Gf. change (get [a] 0) with (Ok a) in Gx. injection Gf as <-. injection Gx as <-. auto. }
  assert (Q: [a] ++ nw = [a; r] /\ m0' = m0). { unfold lalone, one_lut in Ha. cbn [lw_ev lw_calls lw_cts lw_tabs] in Ha. rewrite E0 in Ha. injection Ha as Q1 _ Q3. cbn [app]. rewrite Q1. auto. }
  destruct Q as [Q ->]. rewrite Q in D. pose proof (D 1 r (f va mod 2 ^ k) T eq_refl eq_refl eq_refl HT) as D1. rewrite Z.mod_mod in D1 by (pose proof (Z.pow_pos_nonneg 2 k); lia). auto.
Qed.
End Race.

Lemma lrace_float64 mc O pr sk rk rb ck Bb Bk d d' k e (m : mem (FP O)) a c la lc va vc f g E F : mc_ok mc -> setup (f64_arith mc) O pr sk rk rb ck ->
  fft_error_within pr d d' -> key_noise_within pr rk rb Bb Bk -> 0 <= Bb -> 0 <= Bk -> 0 <= d' -> 0 <= k < g_NBIT pr ->
  reachable O pr e m -> lholds O pr sk k m e [a] [la] ([va], [f], [E]) -> lholds O pr sk k m e [c] [lc] ([vc], [g], [F]) -> 0 <= va < 2 ^ k ->
  E + round_err pr sk < 2 ^ (30 - k) -> worst_noise pr sk Bb Bk d d' < 2 ^ (30 - k) ->
  exists sched x y m', together [lwork pr ck k (one_lut e a la); lwork pr ck k (one_lut e c lc)] m sched = Some (Ok ([([a; x], [la]); ([c; y], [lc])], m')) /\
    DecryptLWEMessage (lv0_N pr) (tm m' x) (2 ^ k) (KeyLv0 sk) = Ok (f va mod 2 ^ k) /\ DecryptLWEMessage (lv0_N pr) (tm m' y) (2 ^ k) (KeyLv0 sk) = Ok (f va mod 2 ^ k).
Proof.
  intros Hc S H1 H2 H3 H4 H5 Hk Hr Ha Hc' Hv HE HT.
  assert (La: zlen (tm m a) = lv0_N pr + 1).
  { destruct Ha as [(_ & _ & _ & W) _]. destruct (W 0 ltac:(change (zlen [a]) with 1; lia)) as (_ & _ & [[X _] _]). exact X. }
  eapply (lrace_decrypts _ O pr sk rk rb ck S k Hk (worst_noise pr sk Bb Bk d d') (round_err pr sk)); try eassumption.
  - eapply t_rounding; exact S.
  - eapply t_worst; try eassumption. apply Z.pow_pos_nonneg; lia.
Qed.

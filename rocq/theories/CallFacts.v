(** * The calls of package trgsw on a polynomial evaluator in any state *)
From Coq Require Import Lia ZifyBool Setoid Morphisms.
From Verif Require Import GoBase GoFacts GoMem MemFacts F64 Utils UtilsFacts Params Key Tlwe TlweMem TlweFacts
  Poly PolyFacts NegFacts Laws Trlwe TrlweFacts Trgsw TrgswFacts RotFacts KeySwitchFacts Lut Evaluator EvalFacts OldRotFacts
  CloudKey CloudKeyFacts Gates RunSpec HeapFacts.
Local Open Scope Z_scope.
Ltac Zify.zify_post_hook ::= idtac.

Section Call.
Context {O : fops} {N : Z} (L : flaws O N) (pr : pset) (W : pwf pr N) (HBG : g_BG pr = 2 ^ g_BGBIT pr).
Notation l := (g_L pr).
Notation bg := (g_BGBIT pr).
Notation n := (lv0_N pr).
Notation M := (mem (FP O)).

(** a transformed TRGSW encryption *)
Lemma trgsw_gfft key p rs g : zlen key = g_N pr -> trgsw_of O pr key p rs g -> g = gfft L pr p key rs.
Proof.
  intros Hk (z & t & E1 & E2 & E3). rewrite (pw_gN _ _ W) in *. pose proof (law_N L) as H16. pose proof (pw_l _ _ W) as Hl.
  unfold NewTRGSWLv1 in E1. rewrite (NewTRLWELv1_ok L) in E1 by apply (pw_trN _ _ W). cbn [bind] in E1.
  rewrite make_ok in E1 by lia. injection E1 as <-.
  rewrite (TrgswEncryptTorus_ok L pr W) in E2 by (rewrite ?zlen_repeat; lia || assumption). injection E2 as <-.
  assert (Hn: 0 <= 2 * l) by lia.
  rewrite (NewTRGSWLv1FFT_ok L) in E3.
  - rewrite (zlen_tab _ _ Hn) in E3. injection E3 as <-. unfold gfft. apply tab_ext. intros i Hi. rewrite znd_tab by exact Hi. reflexivity.
  - intros i Hi. rewrite (zlen_tab _ _ Hn) in Hi. rewrite znd_tab by exact Hi.
    destruct (rowp_ok L pr p key rs i Hk) as [[A _] [B _]]. split; assumption.
Qed.
Lemma trgsw_exists key p rs : zlen key = g_N pr -> exists g, trgsw_of O pr key p rs g.
Proof.
  intro Hk. pose proof (law_N L) as H16. pose proof (pw_l _ _ W) as Hl. exists (gfft L pr p key rs). unfold trgsw_of. rewrite (pw_gN _ _ W) in *.
  exists (repeat {| tA := repeat 0 (Z.to_nat N); tB := repeat 0 (Z.to_nat N) |} (Z.to_nat (l * 2))), (tab (2 * l) (rowp L pr p key rs)).
  split; [|split].
  - unfold NewTRGSWLv1. rewrite (NewTRLWELv1_ok L) by apply (pw_trN _ _ W). cbn [bind]. rewrite make_ok by lia. reflexivity.
  - apply (TrgswEncryptTorus_ok L pr W); [rewrite zlen_repeat; lia|exact Hk].
  - assert (Hn: 0 <= 2 * l) by lia. rewrite (NewTRGSWLv1FFT_ok L).
    + rewrite (zlen_tab _ _ Hn). unfold gfft. f_equal. apply tab_ext. intros i Hi. rewrite znd_tab by exact Hi. reflexivity.
    + intros i Hi. rewrite (zlen_tab _ _ Hn) in Hi. rewrite znd_tab by exact Hi.
      destruct (rowp_ok L pr p key rs i Hk) as [[A _] [B _]]. split; assumption.
Qed.
Lemma trgsw_gkey key p rs g : zlen key = g_N pr -> trgsw_of O pr key p rs g -> gkey_of L l g (rowp L pr p key rs).
Proof. intros Hk H. rewrite (trgsw_gfft _ _ _ _ Hk H). apply gfft_of; [exact W|]. rewrite (pw_gN _ _ W) in Hk. exact Hk. Qed.
Lemma trgsw_ok key p rs g : zlen key = g_N pr -> trgsw_of O pr key p rs g -> gkey_ok L l g.
Proof. intros Hk H. eapply gkey_of_ok. eapply trgsw_gkey; eassumption. Qed.

Lemma cloud_bsk sk rk rb ck : key_ok pr sk -> NewCloudKey O pr sk rk rb = Ok ck -> bsk_ok L pr (BootstrappingKey ck).
Proof.
  intros [[H0 _] [H1 _]] E. rewrite (pw_lv1N _ _ W) in H1.
  rewrite (NewCloudKey_ok L pr W sk rb H0 H1 rk HBG) in E. injection E as <-. cbn. apply bskp_ok; assumption.
Qed.

(** tables *)
Lemma ptable_at m p r c : ptable O pr m p r c -> at_ m r c /\ ct_ok N c /\ ~ pscr p (rA r) /\ ~ pscr p (rB r).
Proof.
  intros (A & B & [_ UA] & [_ UB] & LA & LB & KA & KB). rewrite (pw_gN _ _ W) in LA, LB.
  split; [split; assumption|]. split; [split; split; assumption|]. split; assumption.
Qed.
Lemma pscr_8 p x : ~ pscr p x -> ~ blk (pe_t p) 8 x.
Proof. unfold pscr, blk. lia. Qed.
Lemma pscr_slot p r t : 0 <= t < 4 -> ~ pscr p (rA r) -> ~ pscr p (rB r) -> apart r (slotr p t).
Proof.
  intros Ht HA HB. destruct (slot_blk p t Ht) as (S1 & S2 & _). unfold pscr in *. unfold apart, slotr. cbn [rA rB].
  repeat split; intro E; first [apply HA; rewrite E; assumption|apply HB; rewrite E; assumption].
Qed.

Lemma tscr_pscr p t x : 0 <= t < 4 -> tscr p t x -> pscr p x.
Proof.
  intros Ht [H|[-> | ->]]; destruct (slot_blk p t Ht) as (S1 & S2 & _); [|exact S1|exact S2]. unfold pscr, blk in *. lia.
Qed.

Lemma pcall_step m m' p : pe_ok L m p -> pcall O pr p m m' ->
  step L (pscr p) (blk (pe_f p) 15) (blk (pe_i p) 2) m m' /\ pe_ok L m' p.
Proof.
  intros He H. destruct H as [m m' key msg rs g r c off out Hk Hg Ht E
    |m m' key msg rs g r0 c0 r1 c1 off out Hk Hg Ht0 Ht1 E
    |m m' sk rk rb ck src tvr tv out Hsk Hck Hl Hu Ht E].
  - destruct (ptable_at _ _ _ _ Ht) as (A & K & NA & NB). pose proof (po_i1 _ _ _ He) as Hi.
    destruct (ExternalProductWithFFT_ok L pr W m p g c r off He (trgsw_ok _ _ _ _ Hk Hg) A K (pscr_8 _ _ NA) (pscr_8 _ _ NB))
      as (m1 & E1 & _ & I1 & S1).
    rewrite E1 in E. injection E as _ <-. destruct (next4_range _ Hi) as (Hn & _).
    assert (S2: step L (pscr p) (blk (pe_f p) 15) (blk (pe_i p) 2) m m1).
    { eapply step_weaken; [exact S1| | |].
      - intros x Hx. exact (tscr_pscr p _ x Hi Hx).
      - auto.
      - intros x <-. unfold blk. lia. }
    split; [exact S2|]. eapply pe_ok_step; [exact S1|exact He| |].
    + rewrite (step_i _ _ _ _ _ _ _ S1) by lia. apply (po_i0 _ _ _ He).
    + rewrite I1. exact Hn.
  - destruct (ptable_at _ _ _ _ Ht0) as (A0 & K0 & NA0 & NB0). destruct (ptable_at _ _ _ _ Ht1) as (A1 & K1 & NA1 & NB1).
    pose proof (po_i1 _ _ _ He) as Hi. destruct (next4_range _ Hi) as (Hn & _). destruct (next4_range _ Hn) as (Hnn & _).
    destruct (CMUX_ok L pr W m p g c0 c1 r0 r1 off He (trgsw_ok _ _ _ _ Hk Hg) A0 A1 K0 K1) as (m1 & E1 & _ & I1 & S1).
    + split; apply pscr_8; assumption.
    + apply pscr_slot; assumption.
    + apply pscr_slot; assumption.
    + apply pscr_slot; assumption.
    + rewrite E1 in E. injection E as _ <-.
      assert (S2: step L (pscr p) (blk (pe_f p) 15) (blk (pe_i p) 2) m m1).
      { eapply step_weaken; [exact S1| | |].
        - intros x [Hx|Hx]; [exact (tscr_pscr p _ x Hi Hx)|exact (tscr_pscr p _ x Hn Hx)].
        - auto.
        - intros x <-. unfold blk. lia. }
      split; [exact S2|]. eapply pe_ok_step; [exact S1|exact He| |].
      * rewrite (step_i _ _ _ _ _ _ _ S1) by lia. apply (po_i0 _ _ _ He).
      * rewrite I1. exact Hnn.
  - destruct (ptable_at _ _ _ _ Ht) as (A & K & NA & NB). destruct Hu as [_ Hu].
    destruct (BlindRotate_ok L pr W m p src tvr tv _ (DecompositionOffset ck) He (cloud_bsk _ _ _ _ Hsk Hck) Hl A K Hu NA NB)
      as (r & m1 & E1 & _ & _ & _ & S1 & He1).
    rewrite E1 in E. injection E as _ <-. split; assumption.
Qed.

Lemma pe_ok_same m m' p : pe_ok L m p ->
  (forall x, pown p x -> tm m' x = tm m x) -> (forall x, pe_f p <= x < pe_f p + 15 -> fm m' x = fm m x) ->
  (forall x, pe_i p <= x < pe_i p + 2 -> im m' x = im m x) -> pe_ok L m' p.
Proof.
  intros [A B C D] HT HF HI. constructor.
  - intros x Hx. rewrite HT by exact Hx. apply A. exact Hx.
  - intros x Hx. rewrite HF by exact Hx. apply B. exact Hx.
  - rewrite HI by lia. exact C.
  - rewrite HI by lia. exact D.
Qed.

Lemma preach_ok p m : preachable O pr p m -> pe_ok L m p /\ mem_ok m.
Proof.
  induction 1 as [m m' Hm E|m m' _ [He Hm] Hc|m m' _ [He Hm] HT HF HI NT NF NI].
  - rewrite (pw_gN _ _ W) in E. destruct (NewPolyEvaluator_ok L m) as (m1 & E1 & (G & T1 & F1 & I1) & Z1 & Z2 & Z3).
    rewrite E1 in E. injection E as <- <-. split.
    + constructor; cbn [pe_t pe_f pe_i].
      * exact Z1.
      * exact Z2.
      * rewrite Z3 by (unfold blk; lia). lia.
      * rewrite Z3 by (unfold blk; lia). lia.
    + eapply grows_mem_ok; eassumption.
  - destruct (pcall_step _ _ _ He Hc) as [S1 He1]. split; [exact He1|].
    destruct (fr_n _ _ _ _ _ (proj1 S1)) as (a & b & c). unfold mem_ok in *. lia.
  - split; [eapply pe_ok_same; eassumption|]. unfold mem_ok in *. lia.
Qed.
End Call.

(** * Bootstrapping with a table of custom scale *)
From Coq Require Import Lia ZifyBool Reals Lra.
From Flocq Require Import Core BinarySingleNaN.
From Verif Require Import GoBase GoFacts GoMem F64 F64Facts Utils Spec Params Key Tlwe TlweMem Poly Fft Trlwe Trgsw Lut Evaluator CloudKey
  RunSpec LutSpec LutProps MsgFacts EncoderProps.
Local Open Scope Z_scope.
Ltac Zify.zify_post_hook ::= idtac.

Lemma custom_boot (R : arith) O pr sk rk rb ck : setup R O pr sk rk rb ck ->
  forall e (m : mem (FP O)) ct lut tv g f M s q x T, reachable O pr e m -> input O pr m e ct -> table O pr m e lut tv ->
  LookUpTableSize g = g_N pr -> GenLookUpTableCustom pr g f M s = Ok (tv, g) ->
  fits M s -> 0 < q -> (M | q) -> (Rabs (IZR q * val s - 1) <= / 8589934592)%R ->
  0 <= x < M -> reads pr (KeyLv0 sk) (tm m ct) M x -> boot_noise O pr sk ck tv (tm m ct) T ->
  (IZR T + 2 <= val s * 2147481600)%R ->
  exists r m', BootstrapLUT O pr m e ct lut (BootstrappingKey ck) (KeySwitchingKey ck) (DecompositionOffset ck) = Ok (r, m') /\
    Decode (NewEncoderWithScale M s) (lwe_phase (lv0_N pr) (KeyLv0 sk) (tm m' r)) = Ok (f x mod M) /\
    user m' e r /\ ~ user m e r /\ user_kept e m m' /\ reachable O pr e m'.
Proof.
  intros HS e m ct lut tv g f M s q x T HR Hin HT Hg Hc HF Hq Hd Hqs Hx Hr HB HTs.
  assert (HM: 1 <= M) by (destruct HF; assumption).
  assert (GP: good_params pr) by (destruct HS; assumption).
  destruct (t_custom pr g f M s GP Hg ltac:(lia)) as (tv' & Hc' & Hl). rewrite Hc in Hc'. injection Hc' as <-.
  destruct (t_layout pr (NewGeneratorWithScale pr M s) f GP eq_refl ltac:(cbn [NewGeneratorWithScale gEncoder NewEncoderWithScale MessageModulus]; lia))
    as (tv' & Hl' & Hp & Hent). rewrite Hl in Hl'. injection Hl' as <-.
  cbn [NewGeneratorWithScale gEncoder] in Hent. destruct (Hent x) as (y & Hy & He); [cbn [NewEncoderWithScale MessageModulus]; lia|].
  cbn [NewEncoderWithScale MessageModulus] in He.
  destruct (t_lut R O pr sk rk rb ck HS e m ct lut tv M x y T HR Hin HT Hp ltac:(lia) ltac:(lia)) as (r & m' & E & _ & C & U); try assumption.
  { rewrite Z.mod_small by lia. exact He. }
  exists r, m'. split; [exact E|]. split; [|exact U].
  unfold signed in C. destruct (Z.ltb_spec x M); [|lia].
  destruct (custom_wrap M s q (f x) HF Hq Hd Hqs) as (z & Ez & _ & N).
  assert (z = y) by congruence. subst z. destruct C as (d & Hd' & Q).
  assert (W: lwe_phase (lv0_N pr) (KeyLv0 sk) (tm m' r) = w32 (y + d)).
  { unfold w32. rewrite <- Q. unfold lwe_phase. rewrite Z.mod_mod by discriminate. reflexivity. }
  rewrite W.
  apply N. apply Rle_trans with (2 := HTs). apply Rplus_le_compat_r. apply IZR_le. exact Hd'.
Qed.

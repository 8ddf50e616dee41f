(** * Facts about package utils *)
From Coq Require Import Lia ZifyBool Reals Lra.
From Flocq Require Import Core BinarySingleNaN.
From Verif Require Import GoBase GoFacts F64 F64Facts Utils.
Local Open Scope Z_scope.

Lemma F64ToTorus_real_on other d : is_finite d = true ->
  F64ToTorus_on other d = Ztrunc ((val d - IZR (Ztrunc (val d))) * 4294967296) mod two32.
Proof.
  intro Hd. destruct (fmod1_correct d Hd) as [Hv Hf].
  destruct (f_pow2_exact 32) as [Hp Hpf]; [lia|].
  assert (Hlt: (Rabs (val (fmod1 d) * bp 32) < 4294967296)%R).
  { rewrite Hv. rewrite Rabs_mult. rewrite (Rabs_pos_eq (bp 32)) by apply bpow_ge_0.
    change (bp 32) with 4294967296%R. pose proof (Ztrunc_bound_lt1 (val d)). lra. }
  destruct (fmul_exact (fmod1 d) (f_pow2 32) (val (fmod1 d) * bp 32)) as [Hm Hmf]; auto.
  - rewrite Hp; reflexivity.
  - apply fmt_scale; [lia|]. apply val_fmt.
  - apply Rlt_trans with (1 := Hlt). change 4294967296%R with (bp 32). apply bpow_lt. reflexivity.
  - unfold F64ToTorus_on. rewrite f_int64_correct.
    + rewrite Hm, Hv. unfold w32. reflexivity.
    + exact Hmf.
    + rewrite Hm. destruct (Ztrunc_abs_bound _ 4294967296 Hlt) as [H|[H _]]; unfold two63; lia.
Qed.

Lemma F64ToTorus_real d : is_finite d = true ->
  F64ToTorus d = Ztrunc ((val d - IZR (Ztrunc (val d))) * 4294967296) mod two32.
Proof. apply F64ToTorus_real_on. Qed.

Lemma F64ToTorus_tok d : tok (F64ToTorus d).
Proof. apply tok_w32. Qed.

Lemma F64ToTorus_opp d : is_finite d = true -> F64ToTorus (fopp d) = tneg (F64ToTorus d).
Proof.
  intro Hd. rewrite !F64ToTorus_real; [|assumption|unfold fopp; rewrite is_finite_Bopp; assumption].
  unfold fopp. rewrite B2R_Bopp. rewrite Ztrunc_opp, opp_IZR.
  replace ((- val d - - IZR (Ztrunc (val d))) * 4294967296)%R
    with (- ((val d - IZR (Ztrunc (val d))) * 4294967296))%R by ring.
  rewrite Ztrunc_opp. unfold tneg. apply w32_eqm.
  change ((- Ztrunc ((val d - IZR (Ztrunc (val d))) * 4294967296))
    == (- w32 (Ztrunc ((val d - IZR (Ztrunc (val d))) * 4294967296)))).
  rewrite eqm_w32. reflexivity.
Qed.

(** a double that is a dyadic z/2^32 with |z| <= 2^53 converts exactly *)
Lemma F64ToTorus_dyadic d z : is_finite d = true -> val d = (IZR z / 4294967296)%R ->
  F64ToTorus d = z mod two32.
Proof.
  intros Hd Hv. rewrite F64ToTorus_real by assumption.
  replace ((val d - IZR (Ztrunc (val d))) * 4294967296)%R with (IZR (z - Ztrunc (val d) * two32)).
  - rewrite Ztrunc_IZR. rewrite Zminus_mod, Z_mod_mult, Z.sub_0_r, Z.mod_mod by (unfold two32; lia).
    reflexivity.
  - rewrite minus_IZR, mult_IZR. change (IZR two32) with 4294967296%R. rewrite Hv at 2. field.
Qed.

Lemma TorusToF64_val t : tok t ->
  val (TorusToF64 t) = (IZR t / 4294967296)%R /\ is_finite (TorusToF64 t) = true.
Proof.
  intro Ht. unfold tok, two32 in Ht.
  destruct (f_of_Z_exact t) as [H1 H2]; [lia|].
  destruct (f_pow2_exact 32) as [Hp Hpf]; [lia|].
  assert (E: (IZR t / 4294967296 = F2R (Float radix2 t (-32)))%R).
  { rewrite F2R_neg_div by lia. reflexivity. }
  rewrite E. apply fdiv_exact.
  - exact H2.
  - rewrite Hp. change (bp 32) with 4294967296%R. lra.
  - rewrite H1, Hp, <- E. reflexivity.
  - apply fmt_mk; lia.
  - apply F2R_bound; lia.
Qed.

Lemma F64ToTorus_TorusToF64 t : tok t -> F64ToTorus (TorusToF64 t) = t.
Proof.
  intro Ht. destruct (TorusToF64_val t Ht) as [H1 H2].
  rewrite (F64ToTorus_dyadic _ t H2 H1). apply Z.mod_small. exact Ht.
Qed.

Lemma TorusToF64_range t : tok t -> (0 <= val (TorusToF64 t) < 1)%R.
Proof.
  intro Ht. rewrite (proj1 (TorusToF64_val t Ht)). destruct Ht as [H0 H1].
  apply IZR_le in H0. apply IZR_lt in H1. change (IZR two32) with 4294967296%R in H1. lra.
Qed.

(** * Property C19 in full: the bootstrap without key switching

    PropLwe.v has SampleExtractIndex2 itself. *)
From Coq Require Import Lia List.
From Verif Require Import GoBase GoFacts GoMem F64 Utils Spec Params Key Tlwe Poly Fft FftTabErr Trlwe Trgsw Evaluator CloudKey Gates
  RunSpec Circuit RunProps RunWorst NoKsProps Tiny TinyRun.
Import ListNotations.
Local Open Scope Z_scope.

(** In every state it returns exactly if both dimensions are equal... *)
Theorem C19_bootstrap_iff : forall (R : arith) O pr sk rk rb ck, setup R O pr sk rk rb ck -> forall e (m : mem (FP O)) gk c,
  reachable O pr e m -> key_at O m e gk ck -> user m e c -> zlen (tm m c) = lv0_N pr + 1 ->
  (exists r, bootstrapWithoutKeySwitch O pr m e c gk = Ok r) <-> lv0_N pr = g_N pr.
Proof. exact noks_iff. Qed.
Print Assumptions C19_bootstrap_iff.

(** ... and so panics at every security level. *)
Theorem C19_bootstrap_refuted : forall (R : arith) O level sk rk rb ck, setup R O (get_params level) sk rk rb ck -> forall e (m : mem (FP O)) gk c,
  reachable O (get_params level) e m -> key_at O m e gk ck -> user m e c -> zlen (tm m c) = lv0_N (get_params level) + 1 ->
  is_panic (bootstrapWithoutKeySwitch O (get_params level) m e c gk) = true.
Proof. exact noks_shipped. Qed.
Print Assumptions C19_bootstrap_refuted.

Example C19_full : exists mc O ck, mc_ok mc /\ exists e (m : mem (FP O)) gk c,
  reachable O (get_params 128) e m /\ key_at O m e gk ck /\ user m e c /\ zlen (tm m c) = lv0_N (get_params 128) + 1 /\
  is_panic (bootstrapWithoutKeySwitch O (get_params 128) m e c gk) = true.
Proof.
  set (sk := {| KeyLv0 := repeat 1 700; KeyLv1 := repeat 1 1024 |}).
  assert (K: key_ok (get_params 128) sk).
  { split; (split; [vm_compute; reflexivity|]); apply Forall_forall; intros x Hx; apply repeat_spec in Hx; lia. }
  destruct (setup_exists (f64_arith mc0) (get_params 128) sk tiny_rk tiny_rb (shipped_params 128) ltac:(vm_compute; discriminate) K) as (O & ck & S).
  exists mc0, O, ck. split; [exact mc0_ok|].
  destruct (p_start _ O (get_params 128) sk tiny_rk tiny_rb ck S [repeat 0 701]) as (e & m & gk & w & Hr & Hk & Hw & _).
  inversion Hw as [|c ? ? ? [Hu Hc] _]; subst. exists e, m, gk, c. repeat (split; [assumption|]).
  assert (Lc: zlen (tm m c) = lv0_N (get_params 128) + 1) by (rewrite Hc; reflexivity).
  split; [exact Lc|]. eapply C19_bootstrap_refuted; eassumption.
Qed.

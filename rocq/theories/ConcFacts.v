(** * Programs of accesses: what they compute alone, and together *)
From Coq Require Import Lia ZifyBool.
From Verif Require Import GoBase GoFacts GoMem F64 Utils Params Tlwe TlweMem Poly Trlwe Trgsw Evaluator Gates RunSpec Circuit GateFacts Conc ConcSpec.
Import ListNotations.
Local Open Scope Z_scope.
Ltac Zify.zify_post_hook ::= idtac.

Section Alone.
Context {O : fops}.
Notation M := (mem (FP O)).

Lemma bind_bind {A B C} (r : res A) (f : A -> res B) (g : B -> res C) : bind (bind r f) g = bind r (fun a => bind (f a) g).
Proof. destruct r; reflexivity. Qed.
Lemma bind_ext {A B} (r : res A) (f g : A -> res B) : (forall a, f a = g a) -> bind r f = bind r g.
Proof. intro H. destruct r; [apply H|reflexivity]. Qed.

Lemma run_bind {A B} (p : prog O A) (f : A -> prog O B) (m : M) : run (pbind p f) m = bind (run p m) (fun '(a, m') => run (f a) m').
Proof.
  revert m. induction p as [a|e|x k IH|x i v k IH|d s k IH|v k IH|x k IH|x v k IH|f0 k IH|x f0 k IH|f0 x k IH|f0 v g k IH]; intro m; cbn [pbind run bind]; auto.
  - destruct (store m x i v); cbn [bind]; auto.
  - unfold alloc. apply IH.
  - destruct (ClearBuffer O m f0); cbn [bind]; auto.
  - destruct (ToFourierPolyAssign O m x f0); cbn [bind]; auto.
  - destruct (ToPolyAssignUnsafe O m f0 x); cbn [bind]; auto.
  - destruct (MulAddFourierPolyAssign O m f0 v g); cbn [bind]; auto.
Qed.
Lemma run_lift {A B} (r : res A) (f : A -> prog O B) m : run (pbind (lift r) f) m = bind r (fun a => run (f a) m).
Proof. destruct r; reflexivity. Qed.
Lemma run_elem {B} x i (f : Z -> prog O B) m : run (pbind (elem x i) f) m = bind (load m x i) (fun a => run (f a) m).
Proof. unfold elem, load. cbn [pbind run]. apply run_lift. Qed.

(** a program that returns nothing, and the function on memories it is *)
Definition does (p : prog O unit) (f : M -> res M) : Prop := forall m, run p m = bind (f m) (fun m' => Ok (tt, m')).
Lemma does_ret : does (Ret tt) (fun m => Ok m).
Proof. intro m. reflexivity. Qed.
Lemma run_does {A} (p : prog O unit) f (q : unit -> prog O A) m : does p f -> run (pbind p q) m = bind (f m) (fun m' => run (q tt) m').
Proof. intro H. rewrite run_bind, (H m), ?bind_bind. apply bind_ext. reflexivity. Qed.
Lemma does_seq p f q g : does p f -> does q g -> does (pbind p (fun _ => q)) (fun m => bind (f m) g).
Proof. intros Hp Hq m. rewrite (run_does _ _ _ _ Hp), ?bind_bind. apply bind_ext. intro m'. apply Hq. Qed.
Lemma does_loop n : forall i body B, (forall j, does (body j) (B j)) -> does (ploop n i body) (loop n i 1 B).
Proof.
  induction n as [|n IH]; intros i body B H m; [reflexivity|]. cbn [ploop loop]. rewrite (run_does _ _ _ _ (H i)), ?bind_bind.
  apply bind_ext. intro m'. apply IH. exact H.
Qed.
Lemma does_for lo hi body B : (forall j, does (body j) (B j)) -> does (pfor lo hi body) (for_range lo hi B).
Proof. apply does_loop. Qed.
Lemma run_for {A} B lo hi body (q : unit -> prog O A) m : (forall j, does (body j) (B j)) ->
  run (pbind (pfor lo hi body) q) m = bind (for_range lo hi B m) (fun m' => run (q tt) m').
Proof. intro H. apply run_does, does_for, H. Qed.
Lemma does_eq p f g : does p f -> (forall m, f m = g m) -> does p g.
Proof. intros H E m. rewrite (H m), E. reflexivity. Qed.
End Alone.

Ltac alone := repeat first
  [ rewrite run_lift | rewrite run_elem | rewrite bind_bind
  | match goal with |- bind ?r _ = bind ?r _ => apply bind_ext; intro end
  | progress cbn [run bind] | reflexivity ].

Section Ops.
Context (O : fops) (pr : pset).
Notation M := (mem (FP O)).

Lemma does_mul a k result : does (p_PolyMulWithXKInPlace O a k result) (fun m : M => PolyMulWithXKInPlace m a k result).
Proof.
  intro m. unfold p_PolyMulWithXKInPlace, PolyMulWithXKInPlace. cbn [run]. cbv zeta. rewrite run_lift, ?bind_bind. apply bind_ext. intro k'.
  destruct (k' =? 0); [reflexivity|]. destruct (_ <? zlen (tm m a)).
  - apply does_seq with (g := fun m => for_range _ _ _ m); apply does_for; intros j m'; alone.
  - apply does_seq with (g := fun m => for_range _ _ _ m); apply does_for; intros j m'; alone.
Qed.
Lemma does_decompose p bgbit level offset out :
  does (p_DecomposePolyAssign O p bgbit level offset out) (fun m : M => DecomposePolyAssign m p bgbit level offset out).
Proof.
  intro m. unfold p_DecomposePolyAssign, DecomposePolyAssign. cbn [run]. cbv zeta. rewrite run_lift, !bind_bind. apply bind_ext. intro mask.
  cbn [bind]. rewrite run_lift, !bind_bind. apply bind_ext. intro half. cbn [bind]. apply does_for. intros j m'. rewrite run_elem, !bind_bind. apply bind_ext. intro x.
  cbn [bind]. apply does_for. intros i m2. alone.
Qed.
Lemma does_tof x f : does (ToF x f (Ret tt)) (fun m : M => ToFourierPolyAssign O m x f).
Proof. intro m. reflexivity. Qed.

Lemma does_product e g ctIn offset ctOut :
  does (p_ExternalProductAssign O pr e g ctIn offset ctOut) (fun m : M => ExternalProductAssign O pr m e g ctIn offset ctOut).
Proof.
  intro m. unfold p_ExternalProductAssign, ExternalProductAssign. cbv zeta. rewrite run_lift, ?bind_bind. apply bind_ext. intro pd.
  rewrite run_lift, ?bind_bind. apply bind_ext. intro pf.
  rewrite (run_does _ _ _ _ (does_decompose _ _ _ _ _)), ?bind_bind. apply bind_ext. intro m1.
  rewrite (run_does _ _ _ _ (does_decompose _ _ _ _ _)), ?bind_bind. apply bind_ext. intro m2.
  rewrite (run_does _ _ _ _ (does_for _ _ _ _ (fun j => does_tof _ _))), ?bind_bind. apply bind_ext. intro m3.
  cbn [run]. rewrite ?bind_bind. apply bind_ext. intro m4. rewrite ?bind_bind. apply bind_ext. intro m5.
  rewrite (run_does _ (for_range 0 (g_L pr * 2) (fun i m => row <- get g i ;;
         m <- MulAddFourierPolyAssign O m (pf + i) (fst row) (bp_FourierA (ev_bp e)) ;;
         MulAddFourierPolyAssign O m (pf + i) (snd row) (bp_FourierB (ev_bp e))))).
  - rewrite ?bind_bind. apply bind_ext. intro m6. cbn [run]. rewrite !bind_bind. apply bind_ext. intro m7. cbn [run]. reflexivity.
  - apply does_for. intros j m'. alone.
Qed.

Lemma does_cmux e cond c0 c1 offset out : does (p_CMuxAssign O pr e cond c0 c1 offset out) (fun m : M => CMuxAssign O pr m e cond c0 c1 offset out).
Proof.
  intro m. unfold p_CMuxAssign, CMuxAssign. cbv zeta. cbn [run].
  rewrite (run_for (fun i m =>
         m <- (x <- load m (rA c1) i ;; y <- load m (rA c0) i ;; store m (rA (bp_Temp (ev_bp e))) i (tsub x y)) ;;
         x <- load m (rB c1) i ;; y <- load m (rB c0) i ;; store m (rB (bp_Temp (ev_bp e))) i (tsub x y))).
  2:{ intros j m'. alone. }
  rewrite ?bind_bind. apply bind_ext. intro m1. rewrite (run_does _ _ _ _ (does_product _ _ _ _ _)), ?bind_bind. apply bind_ext. intro m2.
  apply does_for. intros j m'. alone.
Qed.

Lemma does_rotate e ctIn tv bsk offset out :
  does (p_BlindRotateAssign O pr e ctIn tv bsk offset out) (fun m : M => BlindRotateAssign O pr m e ctIn tv bsk offset out).
Proof.
  intro m. unfold p_BlindRotateAssign, BlindRotateAssign. cbv zeta. rewrite run_elem, !bind_bind. apply bind_ext. intro b.
  rewrite run_lift, ?bind_bind. apply bind_ext. intro bT.
  rewrite (run_does _ _ _ _ (does_mul _ _ _)), ?bind_bind. apply bind_ext. intro m1.
  rewrite (run_does _ _ _ _ (does_mul _ _ _)), ?bind_bind. apply bind_ext. intro m2.
  rewrite (run_for (fun i m =>
         aT <- (a <- load m ctIn i ;; aTilda (g_NBIT pr) a) ;;
         m <- PolyMulWithXKInPlace m (rA (bp_Acc1 (ev_bp e))) aT (rA (bp_Acc2 (ev_bp e))) ;;
         m <- PolyMulWithXKInPlace m (rB (bp_Acc1 (ev_bp e))) aT (rB (bp_Acc2 (ev_bp e))) ;;
         key <- get bsk i ;;
         CMuxAssign O pr m e key (bp_Acc1 (ev_bp e)) (bp_Acc2 (ev_bp e)) offset (bp_Acc1 (ev_bp e)))).
  - rewrite ?bind_bind. apply bind_ext. intro m3. reflexivity.
  - intros j m'. rewrite run_elem, !bind_bind. apply bind_ext. intro a. rewrite run_lift. rewrite ?bind_bind. apply bind_ext. intro aT.
    rewrite (run_does _ _ _ _ (does_mul _ _ _)), ?bind_bind. apply bind_ext. intro m3.
    rewrite (run_does _ _ _ _ (does_mul _ _ _)), ?bind_bind. apply bind_ext. intro m4.
    rewrite run_lift, ?bind_bind. apply bind_ext. intro key. apply does_cmux.
Qed.

Lemma does_extract t k out : does (p_SampleExtractIndexAssign O pr t k out) (fun m : M => SampleExtractIndexAssign pr m t k out).
Proof.
  intro m. unfold p_SampleExtractIndexAssign, SampleExtractIndexAssign. cbv zeta.
  rewrite (run_for (fun i m => v <- extract_coeff (tm m (rA t)) (trlwe_N pr) k i ;; store m out i v)).
  2:{ intros j m'. alone. }
  rewrite ?bind_bind. apply bind_ext. intro m1. alone.
Qed.

Lemma does_switch src ksk out : does (p_IdentityKeySwitchingAssign O pr src ksk out) (fun m : M => IdentityKeySwitchingAssign pr m src ksk out).
Proof.
  intro m. unfold p_IdentityKeySwitchingAssign, IdentityKeySwitchingAssign. cbv zeta. rewrite run_lift, ?bind_bind. apply bind_ext. intro base.
  cbn [run]. rewrite (run_for (fun i m => store m out i 0)).
  2:{ intros j m'. alone. }
  rewrite ?bind_bind. apply bind_ext. intro m1. cbn [run]. rewrite run_lift. unfold load at 1. rewrite ?bind_bind. apply bind_ext. intro b.
  cbn [run]. rewrite ?bind_bind. apply bind_ext. intro m2. rewrite run_lift, !bind_bind. apply bind_ext. intro po. cbn [bind].
  apply does_for. intros i m3. rewrite run_elem, !bind_bind. apply bind_ext. intro x. cbn [bind]. apply does_for. intros j m4.
  rewrite run_lift, ?bind_bind. apply bind_ext. intro d. destruct (d =? 0); [reflexivity|]. cbn [run]. apply does_for. intros y m5. alone.
Qed.

Lemma run_Bootstrap e ct tv bsk ksk off (m : M) : run (p_Bootstrap O pr e ct tv bsk ksk off) m = Bootstrap O pr m e ct tv bsk ksk off.
Proof.
  unfold p_Bootstrap, Bootstrap, GetNextResult. cbn [run]. cbv zeta. destruct (_ || _); [reflexivity|]. cbn [run bind]. unfold BootstrapAssign.
  rewrite (run_does _ _ _ _ (does_rotate _ _ _ _ _ _)), !bind_bind. apply bind_ext. intro m1.
  rewrite (run_does _ _ _ _ (does_extract _ _ _)), !bind_bind. apply bind_ext. intro m2.
  rewrite (run_does _ _ _ _ (does_switch _ _ _)). reflexivity.
Qed.
Lemma run_new_ct (m : M) : run (p_new_ct O pr) m = new_ct m (lv0_N pr).
Proof. unfold p_new_ct, new_ct. rewrite run_lift. reflexivity. Qed.
Lemma run_bootstrap e ct k (m : M) : run (p_bootstrap O pr e ct k) m = bootstrap O pr m e ct k.
Proof.
  unfold p_bootstrap, bootstrap. rewrite run_bind, run_new_ct. apply bind_ext. intros [r m1]. rewrite run_bind, run_Bootstrap. apply bind_ext. intros [b m2].
  cbn [run]. rewrite run_elem. cbv zeta. apply bind_ext. intro v. reflexivity.
Qed.
Lemma run_gate2 lin e a b k (m : M) : run (p_gate2 O pr lin e a b k) m = gate2 O pr lin m e a b k.
Proof.
  unfold p_gate2, gate2, fresh. cbn [run]. rewrite run_lift, ?bind_bind. apply bind_ext. intro v. cbn [run bind]. destruct (alloc m v) as [x m1]. apply run_bootstrap.
Qed.
Lemma run_NOT a (m : M) : run (p_NOT O pr a) m = NOT O pr m a.
Proof. unfold p_NOT, NOT, fresh. cbn [run]. rewrite run_lift. reflexivity. Qed.
Lemma run_Constant v (m : M) : run (p_Constant O pr v) m = Constant O pr m v.
Proof. unfold p_Constant, Constant, fresh. rewrite run_lift. reflexivity. Qed.
Lemma run_Copy a (m : M) : run (p_Copy O pr a) m = Copy O pr m a.
Proof. unfold p_Copy, Copy. rewrite run_bind, run_new_ct. apply bind_ext. intros [r m1]. reflexivity. Qed.
Lemma run_MUX e a b c k (m : M) : run (p_MUX O pr e a b c k) m = MUX O pr m e a b c k.
Proof.
  unfold p_MUX, MUX. rewrite run_bind, run_gate2. apply bind_ext. intros [x m1]. rewrite run_bind, run_NOT. apply bind_ext. intros [y m2].
  rewrite run_bind, run_gate2. apply bind_ext. intros [z m3]. apply run_gate2.
Qed.
Lemma run_instr e k i w (m : M) : run (p_instr O pr e k i w) m = exec_instr O pr e k i w m.
Proof.
  destruct i as [g x y|x|b|x|x y z]; cbn [p_instr exec_instr].
  - rewrite run_lift. apply bind_ext. intro a. rewrite run_lift. apply bind_ext. intro b. rewrite run_gate2, gate_fun_eq. reflexivity.
  - rewrite run_lift. apply bind_ext. intro a. apply run_NOT.
  - apply run_Constant.
  - rewrite run_lift. apply bind_ext. intro a. apply run_Copy.
  - rewrite run_lift. apply bind_ext. intro a. rewrite run_lift. apply bind_ext. intro b. rewrite run_lift. apply bind_ext. intro c. apply run_MUX.
Qed.
Lemma run_exec e k p : forall w (m : M), run (p_exec O pr e k p w) m = exec O pr e k p w m.
Proof.
  induction p as [|i p IH]; intros w m; [reflexivity|]. cbn [p_exec exec]. rewrite run_bind, run_instr. apply bind_ext. intros [r m1]. apply IH.
Qed.
End Ops.

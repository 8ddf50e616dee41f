(** * Ciphertexts of a wrong length (C68) *)
From Coq Require Import Lia ZifyBool List.
From Verif Require Import GoBase GoFacts GoMem F64 Utils Params Tlwe TlweMem Poly Fft Trlwe Trgsw Lut Evaluator Gates ProxyReenc RunSpec LevelSpec LenFacts LevelProps WrongLenSpec.
Import ListNotations.
Local Open Scope Z_scope.
Ltac Zify.zify_post_hook ::= idtac.

(** ** too short *)
Lemma loop_short {S} n hi (P : list Z) (body : Z -> S -> res S) s : too_short n P -> n < hi ->
  (forall i s, panics (get P i) -> panics (body i s)) -> panics (for_range 0 hi body s).
Proof.
  unfold too_short. intros H Hh B. pose proof (zlen_nonneg P). apply (range_panics (fun _ => True) body 0 hi (zlen P)); auto; [lia|].
  intros s0 _. apply B, get_panics. lia.
Qed.
Lemma make_len n (d : Z) l : 0 <= n -> make d n = Ok l -> zlen l = n.
Proof. intros Hn H. unfold make in H. destruct (n <? 0) eqn:E; [lia|]. injection H as <-. unfold zlen. rewrite repeat_length. lia. Qed.

Section Values.
Context (n : Z) (Hn : 0 <= n).

Lemma map2_short f a b : too_short n a \/ too_short n b -> panics (tlwe_map2 n f a b).
Proof.
  intro H. unfold tlwe_map2. apply bind_panics2. intros l E. apply make_len in E; [|lia]. rewrite E. destruct H as [H|H]; eapply (loop_short n); try exact H; try lia; intros i s G.
  - apply bind_panics1, bind_panics1, G.
  - apply bind_panics1, bind_panics2. intros x _. apply bind_panics1, G.
Qed.
Lemma neg_short a : too_short n a -> panics (Neg n a).
Proof.
  intro H. unfold Neg. apply bind_panics2. intros l E. apply make_len in E; [|lia]. rewrite E. eapply (loop_short n); [exact H|lia|]. intros i s G. apply bind_panics1, bind_panics1, G.
Qed.
Lemma get_short (a : list Z) : too_short n a -> panics (get a n).
Proof. unfold too_short. intro H. apply get_panics. lia. Qed.
Lemma prepare_short f c a b : too_short n a \/ too_short n b -> panics (prepare n f c a b).
Proof.
  intro H. unfold prepare. apply bind_panics2. intros l _. apply bind_panics2. intros l' _. apply bind_panics1. destruct H as [H|H].
  - apply bind_panics1, get_short, H.
  - apply bind_panics2. intros x _. apply bind_panics1, get_short, H.
Qed.
Lemma lin_short g a b : too_short n a \/ too_short n b -> panics (gate_lin g n a b).
Proof.
  intro H. destruct g; cbn [gate_lin]; try (apply prepare_short, H); unfold xnor_lin, nor_lin, andny_lin, andyn_lin, orny_lin, oryn_lin, SubMul, Add, Sub; apply bind_panics1;
    try (apply map2_short, H); try (apply bind_panics1, map2_short, H).
  - destruct H as [H|H]; [apply bind_panics1, neg_short, H|apply bind_panics2; intros; apply map2_short; auto].
  - destruct H as [H|H]; [apply bind_panics1, neg_short, H|apply bind_panics2; intros; apply map2_short; auto].
Qed.

Lemma wl_values a b M k key rk : too_short n a ->
  panics (Add n a b) /\ panics (Add n b a) /\ panics (Sub n a b) /\ panics (Sub n b a) /\ panics (Mul n a b) /\ panics (Mul n b a) /\
  panics (AddMul n a b k) /\ panics (AddMul n b a k) /\ panics (SubMul n a b k) /\ panics (SubMul n b a k) /\ panics (Neg n a) /\
  panics (DecryptBool n a key) /\ panics (DecryptLWEMessage n a M key) /\ panics (ReencryptTLWELv0 n a rk).
Proof.
  intro H. do 10 (split; [apply map2_short; auto|]). split; [apply neg_short, H|]. split; [|split].
  - apply bind_panics2. intros x _. apply bind_panics1, get_short, H.
  - apply bind_panics2. intros s _. apply bind_panics2. intros x _. apply bind_panics1, get_short, H.
  - unfold ReencryptTLWELv0. apply bind_panics2. intros l _. apply bind_panics1, get_short, H.
Qed.
End Values.

Section Calls.
Context (R : arith) (tw twi : list (AN R * AN R)) (pr : pset) (Hn : 0 <= lv0_N pr).
Notation O := (fft_ops R tw twi).
Notation M := (mem (FP O)).
Notation n := (lv0_N pr).

Lemma gate_short g k (m : M) e a b : too_short n (tm m a) \/ too_short n (tm m b) -> panics (gate_fun g O pr m e a b k).
Proof. intro H. rewrite GateFacts.gate_fun_eq. unfold gate2, fresh. apply bind_panics1, bind_panics1. apply lin_short; assumption. Qed.
Lemma not_short (m : M) a : too_short n (tm m a) -> panics (NOT O pr m a).
Proof. intro H. unfold NOT, fresh. apply bind_panics1. apply neg_short; assumption. Qed.
Lemma kept_short (m m' : M) x : sizes_kept m m' -> x < tnext m -> too_short n (tm m x) -> too_short n (tm m' x).
Proof. unfold too_short. intros S Hx H. exact (Z.le_trans _ _ _ (Z.eq_le_incl _ _ (sk_t m m' x S Hx)) H). Qed.

Lemma wl_gates k (m : M) e a b c g : a < tnext m -> b < tnext m -> c < tnext m ->
  (too_short n (tm m a) \/ too_short n (tm m b) -> panics (gate_fun g O pr m e a b k)) /\
  (too_short n (tm m a) -> panics (NOT O pr m a)) /\
  (too_short n (tm m a) \/ too_short n (tm m b) \/ too_short n (tm m c) -> panics (MUX O pr m e a b c k)).
Proof.
  intros Ha Hb Hc. split; [apply gate_short|]. split; [apply not_short|]. intro H. unfold MUX.
  assert (C: (too_short n (tm m a) \/ too_short n (tm m b)) \/ too_short n (tm m c)) by tauto. destruct C as [C|C].
  - apply bind_panics1. exact (gate_short Gand k m e a b C).
  - apply bind_panics2. intros [x m1] E1. pose proof (sk_gate R tw twi pr Gand k m e a b x m1 E1) as S1.
    apply bind_panics2. intros [y m2] E2. unfold NOT, fresh in E2. destruct (not_val n (tm m1 a)) as [v|]; [|discriminate E2]. cbn [bind] in E2. injection E2 as <- <-.
    apply bind_panics1. apply (gate_short Gand). right. 
    eapply (kept_short m1); [apply sk_alloc| |]; [exact (Z.lt_le_trans _ _ _ Hc (proj1 S1))|]. apply (kept_short m); assumption.
Qed.

Lemma rotate_short (m : M) e ct tv bsk off out : too_short n (tm m ct) -> panics (BlindRotateAssign O pr m e ct tv bsk off out).
Proof. intro H. unfold BlindRotateAssign. apply bind_panics1, bind_panics1. unfold load. apply get_short; assumption. Qed.
Lemma next_keeps (m : M) b r m' x : GetNextResult O m b = Ok (r, m') -> tm m' x = tm m x.
Proof. unfold GetNextResult. intro H. destruct (_ || _); [discriminate H|]. injection H as _ <-. reflexivity. Qed.
Lemma new_lut_keeps (m : M) f mm t m' x : x < tnext m -> new_lut O pr m f mm = Ok (t, m') -> tm m' x = tm m x.
Proof.
  intros Hx H. unfold new_lut in H. destruct (GenLookUpTable _ _ _) as [v|]; [|discriminate H]. cbn [bind] in H.
  unfold alloc in H. injection H as _ <-.
  change ((if x =? tnext m + 1 then tB v else if x =? tnext m then tA v else tm m x) = tm m x).
  rewrite (proj2 (Z.eqb_neq x (tnext m + 1))), (proj2 (Z.eqb_neq x (tnext m))) by lia. reflexivity.
Qed.

Lemma wl_bootstraps (m : M) e ct t f mm bsk ksk off out outr : ct < tnext m -> too_short n (tm m ct) ->
  panics (BlindRotateAssign O pr m e ct t bsk off outr) /\ panics (BootstrapAssign O pr m e ct t bsk ksk off out) /\ panics (Bootstrap O pr m e ct t bsk ksk off) /\
  panics (BootstrapLUTAssign O pr m e ct t bsk ksk off out) /\ panics (BootstrapLUT O pr m e ct t bsk ksk off) /\ panics (BootstrapLUTTemp O pr m e ct t bsk ksk off) /\
  panics (BootstrapFunc O pr m e ct f mm bsk ksk off) /\ panics (BootstrapFuncAssign O pr m e ct f mm bsk ksk off out).
Proof.
  intros Hc H.
  assert (RS: forall (m : M) t outr, too_short n (tm m ct) -> panics (BlindRotateAssign O pr m e ct t bsk off outr)) by (intros; apply rotate_short; assumption).
  assert (LA: forall (m : M) t out, too_short n (tm m ct) -> panics (BootstrapLUTAssign O pr m e ct t bsk ksk off out)) by (intros; apply bind_panics1, RS; assumption).
  assert (LU: forall (m : M) t, too_short n (tm m ct) -> panics (BootstrapLUT O pr m e ct t bsk ksk off)).
  { intros m1 t1 H1. apply bind_panics2. intros [r m2] E. apply bind_panics1, LA. rewrite (next_keeps _ _ _ _ ct E). exact H1. }
  split; [apply RS, H|]. split; [apply bind_panics1, RS, H|]. split; [|split; [apply LA, H|split; [apply LU, H|]]].
  - apply bind_panics2. intros [r m2] E. apply bind_panics1, bind_panics1, RS. rewrite (next_keeps _ _ _ _ ct E). exact H.
  - split; [|split].
    + apply bind_panics2. intros [r m2] E. apply bind_panics1, LA. rewrite (next_keeps _ _ _ _ ct E). exact H.
    + apply bind_panics2. intros [r m2] E. apply LU. rewrite (new_lut_keeps _ _ _ _ _ ct Hc E). exact H.
    + apply bind_panics2. intros [r m2] E. apply LA. rewrite (new_lut_keeps _ _ _ _ _ ct Hc E). exact H.
Qed.

(** ** Copy *)
Lemma wl_copy (m : M) a : 0 <= a < tnext m -> too_short n (tm m a) ->
  exists r m', Copy O pr m a = Ok (r, m') /\ tm m' r = tm m a ++ repeat 0 (Z.to_nat (n + 1 - zlen (tm m a))) /\ zlen (tm m' r) = n + 1 /\ get (tm m' r) n = Ok 0.
Proof.
  intros Ha H. unfold too_short in H. unfold Copy, new_ct, NewTLWE, make. destruct (n + 1 <? 0) eqn:E; [lia|]. cbn [bind].
  set (z := repeat 0 (Z.to_nat (n + 1))). exists (tnext m), (mcopy (snd (alloc m z)) (tnext m) a). split; [reflexivity|].
  assert (V: tm (mcopy (snd (alloc m z)) (tnext m) a) (tnext m) = copy_slice z (tm m a)).
  { change ((if tnext m =? tnext m then copy_slice (if tnext m =? tnext m then z else tm m (tnext m)) (if a =? tnext m then z else tm m a) else if tnext m =? tnext m then z else tm m (tnext m)) = copy_slice z (tm m a)).
    rewrite Z.eqb_refl, (proj2 (Z.eqb_neq a (tnext m))) by lia. reflexivity. }
  assert (W: copy_slice z (tm m a) = tm m a ++ repeat 0 (Z.to_nat (n + 1 - zlen (tm m a)))).
  { unfold copy_slice, z, zlen in *. rewrite repeat_length, firstn_all2 by lia. f_equal.
    replace (Z.to_nat (n + 1)) with (length (tm m a) + Z.to_nat (n + 1 - Z.of_nat (length (tm m a))))%nat by lia.
    rewrite repeat_app, skipn_app, skipn_all2 by (rewrite repeat_length; lia). rewrite repeat_length, Nat.sub_diag. reflexivity. }
  rewrite V, W. pose proof (zlen_nonneg (tm m a)).
  assert (L: zlen (tm m a ++ repeat 0 (Z.to_nat (n + 1 - zlen (tm m a)))) = n + 1) by (unfold zlen in *; rewrite app_length, repeat_length; lia).
  split; [reflexivity|]. split; [exact L|]. rewrite (get_ok 0) by lia. f_equal. unfold znd. rewrite app_nth2 by (unfold zlen in *; lia). apply nth_repeat.
Qed.
End Calls.

(** ** too long *)
Section Long.
Context (n : Z) (Hn : 0 <= n).
Notation same := (same_start n).

Lemma map2_same f a a' b b' : same a a' -> same b b' -> tlwe_map2 n f a b = tlwe_map2 n f a' b'.
Proof.
  intros Ha Hb. unfold tlwe_map2. destruct (NewTLWE n) as [l|] eqn:E; [|reflexivity]. apply make_len in E; [|lia]. cbn [bind]. rewrite E.
  apply for_range_ext. intros i s Hi. rewrite Ha, Hb by lia. reflexivity.
Qed.
Lemma neg_same a a' : same a a' -> Neg n a = Neg n a'.
Proof.
  intros Ha. unfold Neg. destruct (NewTLWE n) as [l|] eqn:E; [|reflexivity]. apply make_len in E; [|lia]. cbn [bind]. rewrite E.
  apply for_range_ext. intros i s Hi. rewrite Ha by lia. reflexivity.
Qed.
Lemma prepare_same f c a a' b b' : same a a' -> same b b' -> prepare n f c a b = prepare n f c a' b'.
Proof.
  intros Ha Hb. unfold prepare. rewrite (Ha n), (Hb n) by lia. destruct (NewTLWE n) as [l|]; [|reflexivity]. cbn [bind].
  rewrite (for_range_ext 0 n (fun i result => v <- (x <- get a i ;; y <- get b i ;; Ok (f x y)) ;; set result i v)
    (fun i result => v <- (x <- get a' i ;; y <- get b' i ;; Ok (f x y)) ;; set result i v)); [reflexivity|].
  intros i s Hi. rewrite Ha, Hb by lia. reflexivity.
Qed.
Lemma lin_same g a a' b b' : same a a' -> same b b' -> gate_lin g n a b = gate_lin g n a' b'.
Proof.
  intros Ha Hb. destruct g; cbn [gate_lin]; try (apply prepare_same; assumption); unfold xnor_lin, nor_lin, andny_lin, andyn_lin, orny_lin, oryn_lin, SubMul, Add, Sub;
    try (rewrite (map2_same _ a a' b b') by assumption; reflexivity); rewrite (neg_same a a') by assumption; destruct (Neg n a') as [s|]; try reflexivity; cbn [bind];
    rewrite (map2_same _ s s b b') by (try assumption; intros i _; reflexivity); reflexivity.
Qed.
Lemma ip_same a a' key : same a a' -> inner_product n a key = inner_product n a' key.
Proof. intro Ha. unfold inner_product. apply for_range_ext. intros i s Hi. rewrite Ha by lia. reflexivity. Qed.

Lemma wl_long a a' b b' k M key rk : same a a' -> same b b' ->
  Add n a b = Add n a' b' /\ Sub n a b = Sub n a' b' /\ Mul n a b = Mul n a' b' /\ AddMul n a b k = AddMul n a' b' k /\ SubMul n a b k = SubMul n a' b' k /\ Neg n a = Neg n a' /\
  DecryptBool n a key = DecryptBool n a' key /\ DecryptLWEMessage n a M key = DecryptLWEMessage n a' M key /\ ReencryptTLWELv0 n a rk = ReencryptTLWELv0 n a' rk /\
  forall g, gate_lin g n a b = gate_lin g n a' b'.
Proof.
  intros Ha Hb. do 5 (split; [apply map2_same; assumption|]). split; [apply neg_same, Ha|]. split; [|split; [|split]].
  - unfold DecryptBool. rewrite (ip_same a a' key Ha), (Ha n) by lia. reflexivity.
  - unfold DecryptLWEMessage. rewrite (ip_same a a' key Ha), (Ha n) by lia. reflexivity.
  - unfold ReencryptTLWELv0, tlwe_B. rewrite (Ha n) by lia. destruct (NewTLWE n) as [l|]; [|reflexivity]. cbn [bind]. destruct (get a' n) as [x|]; [|reflexivity]. cbn [bind].
    destruct (SetB n l x) as [l2|]; [|reflexivity]. cbn [bind]. destruct (shl32 1 _) as [p|]; [|reflexivity]. cbn [bind].
    apply for_range_ext. intros i s Hi. rewrite Ha by lia. reflexivity.
  - intro g. apply lin_same; assumption.
Qed.
End Long.

Lemma wl_long_gates (O : fops) pr (m : mem (FP O)) e k g a a' b b' : 0 <= lv0_N pr -> same_start (lv0_N pr) (tm m a) (tm m a') -> same_start (lv0_N pr) (tm m b) (tm m b') ->
  gate_fun g O pr m e a b k = gate_fun g O pr m e a' b' k /\ NOT O pr m a = NOT O pr m a'.
Proof.
  intros Hn Ha Hb. rewrite GateFacts.gate_fun_eq. unfold gate2, NOT, not_val. rewrite (lin_same _ Hn g _ _ _ _ Ha Hb), (neg_same _ Hn _ _ Ha). split; reflexivity.
Qed.

(** encryptions of a larger dimension with the same randomness differ only in the last entry *)
Lemma set_start n n' (Q : list Z) u v c1 c2 : 0 <= n < n' -> set Q n' u = Ok c1 -> set Q n' v = Ok c2 -> same_start n c1 c2.
Proof.
  intros Hn H1 H2 i Hi. unfold set in *. destruct ((n' <? 0) || (zlen Q <=? n')) eqn:E; [discriminate H1|]. injection H1 as <-. injection H2 as <-.
  rewrite !(get_ok 0) by (rewrite zlen_upd; lia). rewrite !znd_upd by lia. destruct (Z.eqb_spec i n'); [lia|reflexivity].
Qed.
Lemma enc_start n n' P p q key r c1 c2 : 0 <= n < n' -> EncryptF64 n' P p key r = Ok c1 -> EncryptF64 n' P q key r = Ok c2 -> same_start n c1 c2.
Proof.
  intros Hn H1 H2. unfold EncryptF64 in *. destruct (for_range 0 n' _ _) as [[ip Q]|]; [|discriminate H1]. cbn [bind] in *.
  eapply set_start; eassumption.
Qed.
Lemma wl_larger n n' P r k1 k2 c1 c2 : 0 <= n < n' -> EncryptBool n' P true k1 r = Ok c1 -> EncryptBool n' P false k1 r = Ok c2 ->
  DecryptBool n c1 k2 = DecryptBool n c2 k2 /\ same_start n c1 c2.
Proof.
  intros Hn H1 H2. assert (S: same_start n c1 c2) by (eapply enc_start; [exact Hn|exact H1|exact H2]).
  split; [|exact S]. unfold DecryptBool. rewrite (ip_same n c1 c2 k2 S), (S n) by lia. reflexivity.
Qed.
Lemma wl_larger_gates (O : fops) pr n' P r key (m : mem (FP O)) e k g a a' b : 0 <= lv0_N pr < n' ->
  EncryptBool n' P true key r = Ok (tm m a) -> EncryptBool n' P false key r = Ok (tm m a') ->
  (forall key', DecryptBool (lv0_N pr) (tm m a) key' = DecryptBool (lv0_N pr) (tm m a') key') /\
  gate_fun g O pr m e a b k = gate_fun g O pr m e a' b k /\ gate_fun g O pr m e b a k = gate_fun g O pr m e b a' k /\ NOT O pr m a = NOT O pr m a'.
Proof.
  intros Hn H1 H2. assert (S: same_start (lv0_N pr) (tm m a) (tm m a')) by (eapply enc_start; [exact Hn|exact H1|exact H2]).
  assert (T: same_start (lv0_N pr) (tm m b) (tm m b)) by (intros i _; reflexivity).
  split; [intro key'; exact (proj1 (wl_larger _ _ _ _ _ key' _ _ Hn H1 H2))|].
  destruct (wl_long_gates O pr m e k g a a' b b ltac:(lia) S T) as (G & N). destruct (wl_long_gates O pr m e k g b b a a' ltac:(lia) T S) as (G' & _). auto.
Qed.

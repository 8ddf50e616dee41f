(** * Goroutines that write slots of one slice: the schedule does not matter *)
From Coq Require Import Lia ZifyBool Permutation.
From Verif Require Import GoBase GoFacts Params Key F64 Utils Tlwe Poly Trlwe Trgsw CloudKey.
Local Open Scope Z_scope.

Lemma tab_S {A} n (f : Z -> A) : 0 <= n -> tab (n + 1) f = tab n f ++ [f n].
Proof.
  intro Hn. unfold tab. rewrite Z2Nat.inj_add by lia. change (Z.to_nat 1) with 1%nat.
  rewrite seq_app, map_app. cbn [seq map Nat.add]. do 3 f_equal. lia.
Qed.

Section Writes.
Context {V : Type}.

Lemma interleaving_perm (gs : list (writes V)) tr : interleaving gs tr -> Permutation tr (concat gs).
Proof.
  induction 1 as [gs H|gs1 w g gs2 tr _ IH].
  - induction H as [|g gs -> _ IH]; [constructor|exact IH].
  - rewrite IH, !concat_app. cbn [concat]. rewrite <- app_comm_cons. apply Permutation_middle.
Qed.

(** there always is an interleaving: one goroutine after the other *)
Lemma interleaving_seq (gs : list (writes V)) : interleaving gs (concat gs).
Proof.
  assert (G: forall n (gs0 : list (writes V)), length (concat gs0) = n -> interleaving gs0 (concat gs0)).
  { induction n as [|n IH]; intros gs0 Hn.
    - destruct (concat gs0) eqn:E; [|discriminate]. apply il_done. clear Hn. revert E.
      induction gs0 as [|g gs0 IH]; intro E; constructor; cbn [concat] in E; apply app_eq_nil in E; destruct E; auto.
    - assert (D: exists gs1 w g gs2, gs0 = gs1 ++ (w :: g) :: gs2 /\ Forall (fun g => g = []) gs1).
      { clear IH. revert n Hn. induction gs0 as [|g gs0 IH]; intros n Hn; [discriminate|].
        destruct g as [|w g].
        - destruct (IH n Hn) as (gs1 & w & g & gs2 & -> & HF). exists ([] :: gs1), w, g, gs2. split; [reflexivity|].
          constructor; [reflexivity|exact HF].
        - exists [], w, g, gs0. split; [reflexivity|constructor]. }
      destruct D as (gs1 & w & g & gs2 & -> & HF).
      assert (E: forall X, concat (gs1 ++ X) = concat X).
      { clear IH Hn. induction HF as [|g1 gs1 -> _ IH2]; [reflexivity|]. exact IH2. }
      rewrite E. cbn [concat]. rewrite <- app_comm_cons. apply il_step.
      specialize (IH (gs1 ++ g :: gs2)). rewrite E in IH. cbn [concat] in IH. apply IH.
      rewrite E in Hn. cbn [concat] in Hn. rewrite <- app_comm_cons in Hn. cbn [length] in Hn. lia. }
  exact (G _ gs eq_refl).
Qed.

Definition written (ws : writes V) (x : Z) : bool := existsb (fun w => fst w =? x) ws.
Definition times (ws : writes V) (x : Z) : Z := zlen (filter (fun w => fst w =? x) ws).

Lemma times_app a b x : times (a ++ b) x = times a x + times b x.
Proof. unfold times. rewrite filter_app. apply zlen_app. Qed.
Lemma times_perm a b x : Permutation a b -> times a x = times b x.
Proof.
  intro H. unfold times, zlen. f_equal. apply Permutation_length.
  induction H as [|w l l' _ IH|w1 w2 l|l1 l2 l3 _ IH1 _ IH2]; cbn [filter].
  - constructor.
  - destruct (fst w =? x); [constructor|]; exact IH.
  - destruct (fst w1 =? x), (fst w2 =? x); try constructor; reflexivity.
  - etransitivity; eassumption.
Qed.
Lemma times_concat n h x : 0 <= n -> times (concat (tab n h)) x = zsum n (fun i => times (h i) x).
Proof.
  revert n. apply zsum_ind.
  - reflexivity.
  - intros n Hn IH. rewrite zsum_S by assumption. rewrite <- IH, <- times_app. f_equal.
    rewrite tab_S, concat_app by assumption. cbn [concat]. rewrite app_nil_r. reflexivity.
Qed.
Lemma written_times ws x : written ws x = (0 <? times ws x).
Proof.
  induction ws as [|w ws IH]; [reflexivity|]. unfold written, times in *. cbn [existsb filter].
  destruct (fst w =? x); cbn [orb]; [|exact IH]. rewrite zlen_cons. symmetry. apply Z.ltb_lt.
  pose proof (zlen_nonneg (filter (fun w0 => fst w0 =? x) ws)). lia.
Qed.

Lemma apply_writes_ok (d : V) (g : Z -> V) ws : forall arr,
  (forall i v, In (i, v) ws -> 0 <= i < zlen arr /\ v = g i) ->
  apply_writes arr ws = Ok (tab (zlen arr) (fun x => if written ws x then g x else znd d arr x)).
Proof.
  induction ws as [|[i v] ws IH]; intros arr H.
  - cbn. f_equal. symmetry. apply tab_znd.
  - cbn [apply_writes]. destruct (H i v) as [Hi ->]; [left; reflexivity|]. rewrite set_ok by assumption. cbn [bind].
    rewrite IH by (intros; rewrite zlen_upd; apply H; right; assumption). rewrite zlen_upd. f_equal. apply tab_ext.
    intros x Hx. unfold written. cbn [existsb fst]. rewrite znd_upd by lia.
    destruct (Z.eqb_spec i x), (Z.eqb_spec x i); subst; try lia; cbn [orb]; destruct (existsb _ ws); reflexivity.
Qed.

(** the effect of any interleaving is that of running the goroutines in order *)
Lemma interleaving_effect (d : V) (g : Z -> V) gs tr arr :
  (forall i v, In (i, v) (concat gs) -> 0 <= i < zlen arr /\ v = g i) ->
  interleaving gs tr -> apply_writes arr tr = apply_writes arr (concat gs).
Proof.
  intros H Ht. apply interleaving_perm in Ht.
  rewrite (apply_writes_ok d g tr) by (intros i v Hi; apply H; eapply Permutation_in; eassumption).
  rewrite (apply_writes_ok d g (concat gs)) by assumption. f_equal. apply tab_ext. intros x Hx.
  rewrite !written_times, (times_perm _ _ x Ht). reflexivity.
Qed.

Lemma in_concat_tab n (h : Z -> writes V) (w : Z * V) : In w (concat (tab n h)) <-> exists i, 0 <= i < n /\ In w (h i).
Proof.
  rewrite in_concat. unfold tab. split.
  - intros (l & Hl & Hw). apply in_map_iff in Hl. destruct Hl as (k & <- & Hk). apply in_seq in Hk.
    exists (Z.of_nat k). split; [lia|assumption].
  - intros (i & Hi & Hw). exists (h i). split; [|assumption]. apply in_map_iff. exists (Z.to_nat i).
    rewrite Z2Nat.id by lia. split; [reflexivity|]. apply in_seq. lia.
Qed.
End Writes.

(** a loop that appends to a list *)
Lemma for_append {A} lo hi body (h : Z -> list A) (ws : list A) : lo <= hi ->
  (forall i ws, lo <= i < hi -> body i ws = Ok (ws ++ h i)) ->
  for_range lo hi body ws = Ok (ws ++ concat (tab (hi - lo) (fun i => h (lo + i)))).
Proof.
  intros Hle Hb.
  destruct (for_range_inv (fun i (s : list A) => s = ws ++ concat (tab (i - lo) (fun i => h (lo + i)))) lo hi body ws) as (st & E & HI).
  - assumption.
  - rewrite Z.sub_diag. cbn. symmetry. apply app_nil_r.
  - intros i s Hi ->. rewrite Hb by assumption. eexists; split; [reflexivity|]. rewrite <- app_assoc. f_equal.
    replace (i + 1 - lo) with (i - lo + 1) by lia. rewrite tab_S, concat_app by lia. cbn [concat]. rewrite app_nil_r. do 2 f_equal. lia.
  - rewrite E, HI. reflexivity.
Qed.

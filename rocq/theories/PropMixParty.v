(** * Several parties with messages, bits and tables

    C63: parties that encrypt messages and bits, run gates, linear operations
    and programmable bootstraps on their own ciphertexts with their own cloud
    keys, and hand ciphertexts to each other by re-encryption obtain, in every
    order of calls, what the program means.  The vocabulary is in MixParty.v. *)
From Coq Require Import Lia List.
From Verif Require Import GoBase GoMem F64 Utils Spec Params Key Tlwe TlweMem Poly Fft FftTabErr Trlwe Trgsw Lut Evaluator CloudKey Gates RunSpec Circuit LutSpec LutProg MixProg ProxyReenc ReencSpec Party MixParty
  Tiny TinyRun RunWorst ReencProps PartyProps MixPartyProps PropReenc PropLut.
Import ListNotations.
Local Open Scope Z_scope.

(** ** C63: with the noise of the bootstraps and re-encryptions of the run *)
Theorem C63_parties : forall (R : arith) O pr e ps links k T cs (m : mem (FP O)) ds v es v' es', 2 <= k < g_NBIT pr ->
  reachable O pr e m -> parties O pr e ps R m -> links_ok O pr ps links -> desks_ok O pr e ps k m ds v es -> separate O ps ds ->
  xplain links k cs v = Ok v' -> xnoise pr ps links k T cs es = Ok es' ->
  (forall p q f c, get ps p = Ok q -> xboots O pr e ps links k cs ds v m p f c -> zlen c = lv0_N pr + 1 -> mix_noise O pr (p_ck q) k (p_sk q) f c (T p)) ->
  (forall h l a c, get links h = Ok l -> get ps (h_from l) = Ok a -> xreencs O pr e ps links k cs ds m h c -> reenc_noise O pr a l c (h_err l)) ->
  exists ds' m', xexec O pr e ps links k cs ds m = Ok (ds', m') /\ desks_ok O pr e ps k m' ds' v' es' /\ separate O ps ds' /\
    (forall p q d xs fs F i r x E, get ps p = Ok q -> get ds' p = Ok d -> get v' p = Ok (xs, fs) -> get es' p = Ok F ->
       get (fst d) i = Ok r -> get xs i = Ok x -> get F i = Ok E -> E < 2 ^ (30 - k) ->
       DecryptLWEMessage (lv0_N pr) (tm m' r) (2 ^ k) (KeyLv0 (p_sk q)) = Ok (x mod 2 ^ k)) /\
    (forall p q d xs fs F i r b E, get ps p = Ok q -> get ds' p = Ok d -> get v' p = Ok (xs, fs) -> get es' p = Ok F ->
       get (fst d) i = Ok r -> get xs i = Ok (bit_pos k b) -> get F i = Ok E -> E < 2 ^ 29 ->
       DecryptBool (lv0_N pr) (tm m' r) (KeyLv0 (p_sk q)) = Ok b) /\
    xkept O e cs ds m m' /\ grown O e m ds ds' /\ reachable O pr e m' /\ parties O pr e ps R m'.
Proof. exact xp_parties. Qed.
Print Assumptions C63_parties.

(** ** C63: in float64, with the worst noise the keys allow *)
Theorem C63_parties_float64 : forall mc O pr e ps links k T Bb Bk d d' cs (m : mem (FP O)) ds v es v' es', mc_ok mc -> 2 <= k < g_NBIT pr ->
  fft_error_within pr d d' -> 0 <= Bb -> 0 <= Bk -> 0 <= d' ->
  (forall p q, get ps p = Ok q -> key_noise_within pr (p_rk q) (p_rb q) Bb Bk /\ worst_noise pr (p_sk q) Bb Bk d d' <= T p) ->
  (forall h l a, get links h = Ok l -> get ps (h_from l) = Ok a -> exists E, (forall i, Z.abs (h_noise l i) <= E) /\
     reenc_error (lv0_N pr) (h_basebit l) (h_t l) (KeyLv0 (p_sk a)) E <= h_err l) ->
  reachable O pr e m -> parties O pr e ps (f64_arith mc) m -> links_ok O pr ps links -> desks_ok O pr e ps k m ds v es -> separate O ps ds ->
  xplain links k cs v = Ok v' -> xnoise pr ps links k T cs es = Ok es' ->
  exists ds' m', xexec O pr e ps links k cs ds m = Ok (ds', m') /\ desks_ok O pr e ps k m' ds' v' es' /\ separate O ps ds' /\
    (forall p q d xs fs F i r x E, get ps p = Ok q -> get ds' p = Ok d -> get v' p = Ok (xs, fs) -> get es' p = Ok F ->
       get (fst d) i = Ok r -> get xs i = Ok x -> get F i = Ok E -> E < 2 ^ (30 - k) ->
       DecryptLWEMessage (lv0_N pr) (tm m' r) (2 ^ k) (KeyLv0 (p_sk q)) = Ok (x mod 2 ^ k)) /\
    (forall p q d xs fs F i r b E, get ps p = Ok q -> get ds' p = Ok d -> get v' p = Ok (xs, fs) -> get es' p = Ok F ->
       get (fst d) i = Ok r -> get xs i = Ok (bit_pos k b) -> get F i = Ok E -> E < 2 ^ 29 ->
       DecryptBool (lv0_N pr) (tm m' r) (KeyLv0 (p_sk q)) = Ok b) /\
    xkept O e cs ds m m' /\ grown O e m ds ds' /\ reachable O pr e m' /\ parties O pr e ps (f64_arith mc) m'.
Proof. exact xp_parties_worst. Qed.
Print Assumptions C63_parties_float64.

(** ** Two parties in float64: Alice's 12 and Bob's 7

    Bob learns, encrypted, whether Alice's number exceeds his by less than 10;
    Alice gets the answer as a bit and adds 3 * answer + 1 to her number. *)
Definition alice : pdata := {| i_sk := mid_key; i_rk := tiny_rk; i_rb := tiny_rb; i_size := 6; i_zeros := ex_zeros |}.
Definition bob : pdata := {|
  i_sk := {| KeyLv0 := [0; 1; 1]; KeyLv1 := [0; 1; 1] ++ repeat 0 252 ++ [1] |};
  i_rk := fun x => tiny_rk (x + 777); i_rb := fun i r => tiny_rb (i + 55) r; i_size := 6; i_zeros := ex_zeros |}.

Definition compare : list xact := [
  XMessage 0 12 (tiny_rk 5);                          (* Alice 0: 12 *)
  XMessage 1 7 (tiny_rk 6);                           (* Bob 0: 7 *)
  XReencrypt 0 0;                                     (* Bob 1: 12 *)
  XCall 1 (MMsg (LSub 1 0)) ] ++                      (* Bob 2: 5 *)
  map (XCall 1) (message_to_bit 5 (fun x => x <? 10) 2 3) ++ [   (* Bob 3..6: the bit 5 < 10 *)
  XPublic 1 false (ex_pick 2);                        (* Bob 7: false *)
  XCall 1 (MGate (IGate Gor 6 7));                    (* Bob 8: true *)
  XReencrypt 1 8;                                     (* Alice 1: true *)
  XCall 0 (MMsg (LTable (fun x => 3 * x + 1))) ] ++
  map (XCall 0) (bit_to_message 5 1) ++ [             (* Alice 2: 1 *)
  XCall 0 (MMsg (LLutInto 0 2 2));                    (* Alice 2: 4 *)
  XCall 0 (MMsg (LAdd 0 2));                          (* Alice 3: 16 *)
  XBit 0 false (tiny_rk 9);                           (* Alice 4: false *)
  XCall 0 (MGate (IMux 1 4 1)) ].                     (* Alice 5: false *)

Definition bounds (p : Z) : Z := Z.max (worst_noise mid (i_sk alice) 16 16 29 0) (worst_noise mid (i_sk bob) 16 16 29 0).
Definition link1 (rk : ProxyReencryptionKey) : link :=
  {| h_from := 0; h_to := 1; h_key := rk; h_basebit := 2; h_t := 12; h_noise := fun i => sample (er_noise (ex_rnd i)); h_err := 5000 |}.
Definition link2 (rk : ProxyReencryptionKey) : link :=
  {| h_from := 1; h_to := 0; h_key := rk; h_basebit := 3; h_t := 8; h_noise := fun i => pk_total 6 ex_zeros (ex_pick i); h_err := 5000 |}.

Example compare_plain : forall rk1 rk2, exists f, xplain [link1 rk1; link2 rk2] 5 compare [([], []); ([], [])] =
  Ok [([12; 8; 4; 16; 56; 56], f); ([7; 12; 5; 8; 8; 16; 8; 56; 8], [])].
Proof. intros. eexists. vm_compute. reflexivity. Qed.

Example C63_compare : exists mc O e (m : mem (FP O)) ps rk1 rk2 ds m' a b,
  let links := [link1 rk1; link2 rk2] in
  mc_ok mc /\ reachable O mid e m /\ parties O mid e ps (f64_arith mc) m /\ links_ok O mid ps links /\
  xexec O mid e ps links 5 compare [([], []); ([], [])] m = Ok (ds, m') /\ map fst ds = [a; b] /\
  (exists r, get a 3 = Ok r /\ DecryptLWEMessage 3 (tm m' r) 32 [1; 0; 1] = Ok 16) /\
  (exists r, get a 5 = Ok r /\ DecryptBool 3 (tm m' r) [1; 0; 1] = Ok false) /\
  (exists r, get b 2 = Ok r /\ DecryptLWEMessage 3 (tm m' r) 32 [0; 1; 1] = Ok 5) /\
  (exists r, get b 8 = Ok r /\ DecryptBool 3 (tm m' r) [0; 1; 1] = Ok true).
Proof.
  assert (KA: key_ok mid (i_sk alice)) by exact mid_key_ok.
  assert (KB: key_ok mid (i_sk bob)).
  { split; (split; [vm_compute; reflexivity|]).
    - repeat (constructor; [lia|]). constructor.
    - apply Forall_forall. intros x Hx. apply in_app_or in Hx. destruct Hx as [Hx|Hx]; [cbn in Hx; intuition lia|].
      apply in_app_or in Hx. destruct Hx as [Hx|Hx]; [apply repeat_spec in Hx; lia|cbn in Hx; intuition lia]. }
  destruct (m_start (f64_arith mc0) mid [alice; bob] mid_params) as (O & e & m & ps & Hr & Hp & F).
  { cbn. lia. }
  { constructor; [split; [exact KA|cbn; lia]|]. constructor; [split; [exact KB|cbn; lia]|]. constructor. }
  inversion F as [|? qa ? ps1 (A1 & A2 & A3 & A4 & A5) F1]; subst. inversion F1 as [|? qb ? ps2 (B1 & B2 & B3 & B4 & B5) F2]; subst. inversion F2; subst. clear F F1 F2.
  assert (Z1: forall i, Z.abs (sample (er_noise (ex_rnd i))) <= 8).
  { intro i. apply (small_sample (mix (i + 9) mod 16 - 8)). pose proof (Z.mod_pos_bound (mix (i + 9)) 16 ltac:(lia)). lia. }
  assert (K0: bin_key 3 [1; 0; 1]) by (split; [reflexivity|repeat constructor; lia]).
  assert (K1: bin_key 3 [0; 1; 1]) by (split; [reflexivity|repeat constructor; lia]).
  destruct (q_symmetric 3 2 12 [1; 0; 1] [0; 1; 1] ex_rnd 8) as (rk1 & E1 & _); try assumption; try reflexivity; try lia.
  destruct (q_limits_asym 3 3 8 6 [0; 1; 1] [1; 0; 1] ex_zeros ex_pick) as (pk & rk2 & Ep & E2 & _); try assumption; try reflexivity; try lia.
  set (links := [link1 rk1; link2 rk2]).
  assert (HL: links_ok O mid [qa; qb] links).
  { constructor; [|constructor; [|constructor]]; cbn [link1 link2 h_from h_to h_key h_basebit h_t h_noise].
    - exists qa, qb. split; [reflexivity|]. split; [reflexivity|]. rewrite A1, B1.
      apply (rkey_symmetric 3 [1; 0; 1] [0; 1; 1] 2 12 ex_rnd); [exact K0|reflexivity|lia|lia|lia|exact E1].
    - exists qb, qa. split; [reflexivity|]. split; [reflexivity|]. rewrite A1, B1.
      apply (rkey_asymmetric 3 [0; 1; 1] [1; 0; 1] 3 8 6 ex_zeros ex_pick pk); [exact K1|reflexivity|lia|lia|lia|lia|exact Ep|exact E2]. }
  destruct (compare_plain rk1 rk2) as (f & HV). fold links in HV.
  assert (HN: exists ea eb, xnoise mid [qa; qb] links 5 bounds compare [[]; []] = Ok [ea; eb] /\
    (exists x y, get ea 3 = Ok x /\ get ea 5 = Ok y /\ x < 2 ^ 25 /\ y < 2 ^ 29) /\ (exists x y, get eb 2 = Ok x /\ get eb 8 = Ok y /\ x < 2 ^ 25 /\ y < 2 ^ 29)).
  { unfold compare, bit_to_message, message_to_bit. cbn [map app xnoise xnoise1].
    change (get links 0) with (Ok (link1 rk1)). change (get links 1) with (Ok (link2 rk2)).
    change (get [qa; qb] 0) with (Ok qa). change (get [qa; qb] 1) with (Ok qb). cbn [bind link1 link2 h_err h_from h_to]. rewrite A1, B1, B4, B5.
    clear. eexists _, _. split; [vm_compute; reflexivity|]. split; eexists _, _; (split; [reflexivity|]); (split; [reflexivity|]); split; reflexivity. }
  destruct HN as (ea & eb & HN & (x1 & y1 & N1 & N2 & N3 & N4) & (x2 & y2 & N5 & N6 & N7 & N8)).
  destruct (empty_desks O mid e [qa; qb] 5 m) as [D0 S0].
  assert (H1: forall p q, get [qa; qb] p = Ok q -> key_noise_within mid (p_rk q) (p_rb q) 16 16 /\ worst_noise mid (p_sk q) 16 16 29 0 <= bounds p).
  { intros p q G. apply get_In in G. destruct G as [<-|[<-|[]]].
    - rewrite A1, A2, A3. split; [split; intros; apply small_noise_le|]. unfold bounds. apply Z.le_max_l.
    - rewrite B1, B2, B3. split; [split; intros; apply small_noise_le|]. unfold bounds. generalize (worst_noise mid (i_sk alice) 16 16 29 0) (worst_noise mid (i_sk bob) 16 16 29 0). intros x y. apply Z.le_max_r. }
  assert (H2: forall h l a, get links h = Ok l -> get [qa; qb] (h_from l) = Ok a -> exists E, (forall i, Z.abs (h_noise l i) <= E) /\
     reenc_error (lv0_N mid) (h_basebit l) (h_t l) (KeyLv0 (p_sk a)) E <= h_err l).
  { intros h k a G Ga. apply get_In in G. destruct G as [<-|[<-|[]]]; cbn [link1 link2 h_from h_basebit h_t h_noise h_err] in *; injection Ga as <-.
    - exists 8. split; [exact Z1|]. rewrite A1. vm_compute. discriminate.
    - exists (6 * 8 + 8). split; [|rewrite B1; vm_compute; discriminate]. intro i. apply pk_total_le; [lia| |].
      + intros j _. apply (small_sample (mix j mod 16 - 8)). pose proof (Z.mod_pos_bound (mix j) 16 ltac:(lia)). lia.
      + apply (small_sample (mix (i + 3) mod 16 - 8)). pose proof (Z.mod_pos_bound (mix (i + 3)) 16 ltac:(lia)). lia. }
  destruct (C63_parties_float64 mc0 O mid e [qa; qb] links 5 bounds 16 16 29 0 compare m _ _ _ _ _ mc0_ok ltac:(cbn; lia) (proj1 mid_worst) ltac:(lia) ltac:(lia) ltac:(lia)
    H1 H2 Hr Hp HL D0 S0 HV HN) as (ds & m' & X1 & (L1 & _ & _ & X2) & _ & X3 & X4 & _).
  destruct ds as [|da [|db [|? ?]]]; try (exfalso; unfold zlen in L1; cbn in L1; lia).
  exists mc0, O, e, m, [qa; qb], rk1, rk2, [da; db], m', (fst da), (fst db). split; [exact mc0_ok|]. split; [exact Hr|]. split; [exact Hp|]. split; [exact HL|].
  split; [exact X1|]. split; [reflexivity|].
  destruct (X2 0 qa da _ _ eq_refl eq_refl eq_refl eq_refl) as [(La & _) _]. destruct (X2 1 qb db _ _ eq_refl eq_refl eq_refl eq_refl) as [(Lb & _) _].
  cbn [fst] in La, Lb. change (zlen [12; 8; 4; 16; 56; 56]) with 6 in La. change (zlen [7; 12; 5; 8; 8; 16; 8; 56; 8]) with 9 in Lb.
  split; [|split; [|split]].
  - destruct (get_some (fst da) 3 ltac:(lia)) as [r Gr]. exists r. split; [exact Gr|].
    pose proof (X3 0 qa da _ _ _ 3 r 16 x1 eq_refl eq_refl eq_refl eq_refl Gr eq_refl N1 N3) as Y. rewrite A1 in Y. exact Y.
  - destruct (get_some (fst da) 5 ltac:(lia)) as [r Gr]. exists r. split; [exact Gr|].
    pose proof (X4 0 qa da _ _ _ 5 r false y1 eq_refl eq_refl eq_refl eq_refl Gr eq_refl N2 N4) as Y. rewrite A1 in Y. exact Y.
  - destruct (get_some (fst db) 2 ltac:(lia)) as [r Gr]. exists r. split; [exact Gr|].
    pose proof (X3 1 qb db _ _ _ 2 r 5 x2 eq_refl eq_refl eq_refl eq_refl Gr eq_refl N5 N7) as Y. rewrite B1 in Y. exact Y.
  - destruct (get_some (fst db) 8 ltac:(lia)) as [r Gr]. exists r. split; [exact Gr|].
    pose proof (X4 1 qb db _ _ _ 8 r true y2 eq_refl eq_refl eq_refl eq_refl Gr eq_refl N6 N8) as Y. rewrite B1 in Y. exact Y.
Qed.

(** * Several parties

    C52: parties that encrypt (with secret or public keys), hand each other
    ciphertexts through re-encryption keys and compute on them with the owner's
    cloud key obtain, in every order of calls, the bits the program means: each
    ciphertext decrypts with the secret key of the party it belongs to.  The
    vocabulary is in Party.v. *)
From Coq Require Import Lia List.
From Verif Require Import GoBase GoMem F64 Utils Spec Params Key Tlwe TlweMem Poly Fft FftTabErr Trlwe Trgsw Evaluator CloudKey Gates RunSpec Circuit LutSpec ProxyReenc ReencSpec Party
  Tiny TinyRun RunWorst ReencProps PartyProps PropReenc PropLut.
Import ListNotations.
Local Open Scope Z_scope.

(** ** C52: with the noise of the bootstraps and re-encryptions of the run *)
Theorem C52_parties : forall (R : arith) O pr e ps links T Rd cs (m : mem (FP O)) w v es v' es',
  reachable O pr e m -> parties O pr e ps R m -> links_ok O pr ps links -> all_hold O pr e ps m w v es ->
  (forall p q, get ps p = Ok q -> round_err pr (p_sk q) <= Rd p) ->
  (forall p q c, get ps p = Ok q -> pboots O pr e ps links cs w m p c -> boot_noise O pr (p_sk q) (p_ck q) (BlindRotateTestvec (p_ck q)) c (T p)) ->
  (forall h k a c, get links h = Ok k -> get ps (h_from k) = Ok a -> preencs O pr e ps links cs w m h c -> reenc_noise O pr a k c (h_err k)) ->
  pplain ps links cs v = Ok v' -> pnoise ps links T Rd cs es = Ok es' ->
  exists nw m', pexec O pr e ps links cs w m = Ok (w ++ nw, m') /\ all_hold O pr e ps m' (w ++ nw) v' es' /\
    (forall x r p b E q, get (w ++ nw) x = Ok r -> get v' x = Ok (p, b) -> get es' x = Ok E -> E < 2 ^ 29 -> get ps p = Ok q ->
       DecryptBool (lv0_N pr) (tm m' r) (KeyLv0 (p_sk q)) = Ok b) /\
    user_kept e m m' /\ reachable O pr e m' /\ parties O pr e ps R m'.
Proof. exact m_parties. Qed.
Print Assumptions C52_parties.

(** ** C52: in float64, with the worst noise the keys allow *)
Theorem C52_parties_float64 : forall mc O pr e ps links T Rd Bb Bk d d' cs (m : mem (FP O)) w v es v' es',
  mc_ok mc -> fft_error_within pr d d' -> 0 <= Bb -> 0 <= Bk -> 0 <= d' ->
  (forall p q, get ps p = Ok q -> key_noise_within pr (p_rk q) (p_rb q) Bb Bk /\
     worst_noise pr (p_sk q) Bb Bk d d' <= T p /\ round_err pr (p_sk q) <= Rd p) ->
  (forall h k a, get links h = Ok k -> get ps (h_from k) = Ok a -> exists E, (forall i, Z.abs (h_noise k i) <= E) /\
     reenc_error (lv0_N pr) (h_basebit k) (h_t k) (KeyLv0 (p_sk a)) E <= h_err k) ->
  reachable O pr e m -> parties O pr e ps (f64_arith mc) m -> links_ok O pr ps links -> all_hold O pr e ps m w v es ->
  pplain ps links cs v = Ok v' -> pnoise ps links T Rd cs es = Ok es' ->
  exists nw m', pexec O pr e ps links cs w m = Ok (w ++ nw, m') /\ all_hold O pr e ps m' (w ++ nw) v' es' /\
    (forall x r p b E q, get (w ++ nw) x = Ok r -> get v' x = Ok (p, b) -> get es' x = Ok E -> E < 2 ^ 29 -> get ps p = Ok q ->
       DecryptBool (lv0_N pr) (tm m' r) (KeyLv0 (p_sk q)) = Ok b) /\
    user_kept e m m' /\ reachable O pr e m' /\ parties O pr e ps (f64_arith mc) m'.
Proof. exact m_parties_worst. Qed.
Print Assumptions C52_parties_float64.

(** ** C52: a message crosses a chain of parties; the last computes on it *)
Theorem C52_message_float64 : forall mc O pr sk rk rb ck Bb Bk d d' D a rks, mc_ok mc -> setup (f64_arith mc) O pr sk rk rb ck ->
  fft_error_within pr d d' -> key_noise_within pr rk rb Bb Bk -> 0 <= Bb -> 0 <= Bk -> 0 <= d' ->
  chain (lv0_N pr) D a rks (KeyLv0 sk) ->
  forall e (m : mem (FP O)) c f k x E, reachable O pr e m -> 0 <= k < g_NBIT pr -> 0 <= x < 2 ^ k ->
  encodes (lv0_N pr) a (tm m c) (2 ^ k) x E -> E + zlen rks * D + round_err pr sk < 2 ^ (30 - k) ->
  worst_noise pr sk Bb Bk d d' < 2 ^ (30 - k) ->
  exists c' m1 r m', fresh O m (reencrypt_all (lv0_N pr) (tm m c) rks) = Ok (c', m1) /\
    BootstrapFunc O pr m1 e c' f (2 ^ k) (BootstrappingKey ck) (KeySwitchingKey ck) (DecompositionOffset ck) = Ok (r, m') /\
    encodes (lv0_N pr) (KeyLv0 sk) (tm m' r) (2 ^ k) (f x mod 2 ^ k) (worst_noise pr sk Bb Bk d d') /\
    DecryptLWEMessage (lv0_N pr) (tm m' r) (2 ^ k) (KeyLv0 sk) = Ok (f x mod 2 ^ k) /\
    user m' e r /\ ~ user m e r /\ user_kept e m m' /\ reachable O pr e m'.
Proof. exact m_message. Qed.
Print Assumptions C52_message_float64.

(** ** Two parties in float64

    Alice and Bob, with a symmetric link from Alice to Bob and an asymmetric one
    back. *)
Definition alice : pdata := {| i_sk := tiny_key; i_rk := tiny_rk; i_rb := tiny_rb; i_size := 6; i_zeros := ex_zeros |}.
Definition bob : pdata := {|
  i_sk := {| KeyLv0 := [0; 1; 1]; KeyLv1 := [0; 1; 1; 1; 0; 0; 1; 0; 1; 1; 0; 1; 0; 0; 1; 0] |};
  i_rk := fun x => tiny_rk (x + 777); i_rb := fun i r => tiny_rb (i + 55) r; i_size := 6; i_zeros := ex_zeros |}.

Definition two_party : list act := [
  PEncrypt 0 true (tiny_rk 5);       (* 0: Alice 1 *)
  PPublic 0 false (ex_pick 1);       (* 1: Alice 0 *)
  PGate 0 Gnand 0 1;                 (* 2: Alice 1 *)
  PReencrypt 0 2;                    (* 3: Bob 1 *)
  PReencrypt 0 1;                    (* 4: Bob 0 *)
  PPublic 1 true (ex_pick 2);        (* 5: Bob 1 *)
  PGate 1 Gxor 3 5;                  (* 6: Bob 0 *)
  PNot 6;                            (* 7: Bob 1 *)
  PMux 1 7 4 3;                      (* 8: Bob 0 *)
  PReencrypt 1 8;                    (* 9: Alice 0 *)
  PConst 0 true;                     (* 10: Alice 1 *)
  PGate 0 Gor 9 10 ].                (* 11: Alice 1 *)

Definition bounds (p : Z) : Z := Z.max (worst_noise tiny (i_sk alice) 16 16 1 0) (worst_noise tiny (i_sk bob) 16 16 1 0).
Definition rounds (p : Z) : Z := Z.max (round_err tiny (i_sk alice)) (round_err tiny (i_sk bob)).
Definition owners : list (Z * bool) := [(0, true); (0, false); (0, true); (1, true); (1, false); (1, true); (1, false); (1, true); (1, false);
  (0, false); (0, true); (0, true)].

Definition link1 (rk : ProxyReencryptionKey) : link :=
  {| h_from := 0; h_to := 1; h_key := rk; h_basebit := 2; h_t := 5; h_noise := fun i => sample (er_noise (ex_rnd i)); h_err := 5000000 |}.
Definition link2 (rk : ProxyReencryptionKey) : link :=
  {| h_from := 1; h_to := 0; h_key := rk; h_basebit := 3; h_t := 4; h_noise := fun i => pk_total 6 ex_zeros (ex_pick i); h_err := 5000000 |}.

Example C52_two : exists mc O e (m : mem (FP O)) ps rk1 rk2 nw m',
  let links := [link1 rk1; link2 rk2] in
  mc_ok mc /\ reachable O tiny e m /\ parties O tiny e ps (f64_arith mc) m /\ links_ok O tiny ps links /\
  pexec O tiny e ps links two_party [] m = Ok (nw, m') /\ pplain ps links two_party [] = Ok owners /\
  (forall x r p b q, get nw x = Ok r -> get owners x = Ok (p, b) -> get ps p = Ok q -> DecryptBool 3 (tm m' r) (KeyLv0 (p_sk q)) = Ok b).
Proof.
  assert (GP: good_params tiny) by exact tiny_params.
  assert (KA: key_ok tiny (i_sk alice)) by (split; (split; [reflexivity|]); cbn [i_sk alice tiny_key KeyLv0 KeyLv1]; repeat (constructor; [lia|]); constructor).
  assert (KB: key_ok tiny (i_sk bob)) by (split; (split; [reflexivity|]); cbn [i_sk bob KeyLv0 KeyLv1]; repeat (constructor; [lia|]); constructor).
  destruct (m_start (f64_arith mc0) tiny [alice; bob] GP) as (O & e & m & ps & Hr & Hp & F).
  { cbn. lia. }
  { constructor; [split; [exact KA|cbn; lia]|]. constructor; [split; [exact KB|cbn; lia]|]. constructor. }
  inversion F as [|? qa ? ps1 (A1 & A2 & A3 & A4 & A5) F1]; subst. inversion F1 as [|? qb ? ps2 (B1 & B2 & B3 & B4 & B5) F2]; subst. inversion F2; subst. clear F F1 F2.
  assert (Z1: forall i, Z.abs (sample (er_noise (ex_rnd i))) <= 8).
  { intro i. apply (small_sample (mix (i + 9) mod 16 - 8)). pose proof (Z.mod_pos_bound (mix (i + 9)) 16 ltac:(lia)). lia. }
  destruct (q_symmetric 3 2 5 [1; 0; 1] [0; 1; 1] ex_rnd 8) as (rk1 & E1 & _); try assumption; try reflexivity; try lia.
  { apply KA. }
  destruct (q_limits_asym 3 3 4 6 [0; 1; 1] [1; 0; 1] ex_zeros ex_pick) as (pk & rk2 & Ep & E2 & _); try reflexivity; try lia.
  { apply KB. }
  set (links := [link1 rk1; link2 rk2]).
  assert (HL: links_ok O tiny [qa; qb] links).
  { constructor; [|constructor; [|constructor]]; cbn [link1 link2 h_from h_to h_key h_basebit h_t h_noise].
    - exists qa, qb. split; [reflexivity|]. split; [reflexivity|]. rewrite A1, B1.
      apply (rkey_symmetric 3 [1; 0; 1] [0; 1; 1] 2 5 ex_rnd); [apply KA|reflexivity|lia|lia|lia|exact E1].
    - exists qb, qa. split; [reflexivity|]. split; [reflexivity|]. rewrite A1, B1.
      apply (rkey_asymmetric 3 [0; 1; 1] [1; 0; 1] 3 4 6 ex_zeros ex_pick pk); [apply KB|reflexivity|lia|lia|lia|lia|exact Ep|exact E2]. }
  assert (HV: pplain [qa; qb] links two_party [] = Ok owners) by reflexivity.
  assert (HN: exists es, pnoise [qa; qb] links bounds rounds two_party [] = Ok es /\ Forall (fun E => E < 2 ^ 29) es /\ zlen es = 12).
  { unfold two_party. cbn [pnoise pnoise1].
    change (get links 0) with (Ok (link1 rk1)). change (get links 1) with (Ok (link2 rk2)).
    change (get [qa; qb] 0) with (Ok qa). change (get [qa; qb] 1) with (Ok qb). cbn [bind link1 link2 h_err]. rewrite A4, A5, B4, B5.
    clear - A1. eexists. split; [vm_compute; reflexivity|]. split; [repeat (constructor; [vm_compute; reflexivity|]); constructor|reflexivity]. }
  destruct HN as (es & HN & HE & HLes).
  destruct (C52_parties_float64 mc0 O tiny e [qa; qb] links bounds rounds 16 16 1 0 two_party m [] [] [] owners es) as (nw & m' & X1 & X2 & X3 & _); try assumption; try lia.
  - exact mc0_ok.
  - split; reflexivity.
  - intros p q G. apply get_In in G. destruct G as [<-|[<-|[]]].
    + rewrite A1, A2, A3. split; [split; intros; apply small_noise_le|]. split; [apply Z.le_max_l|apply Z.le_max_l].
    + rewrite B1, B2, B3. split; [split; intros; apply small_noise_le|]. split; [apply Z.le_max_r|apply Z.le_max_r].
  - intros h k a G Ga. apply get_In in G. destruct G as [<-|[<-|[]]]; cbn [link1 link2 h_from h_basebit h_t h_noise h_err] in *; injection Ga as <-.
    + exists 8. split; [exact Z1|]. rewrite A1. vm_compute. discriminate.
    + exists (6 * 8 + 8). split; [|rewrite B1; vm_compute; discriminate]. intro i. apply pk_total_le; [lia| |].
      * intros j _. apply (small_sample (mix j mod 16 - 8)). pose proof (Z.mod_pos_bound (mix j) 16 ltac:(lia)). lia.
      * apply (small_sample (mix (i + 3) mod 16 - 8)). pose proof (Z.mod_pos_bound (mix (i + 3)) 16 ltac:(lia)). lia.
  - split; [reflexivity|]. split; [reflexivity|]. intros x r b E G. apply get_range in G. unfold zlen in G. cbn in G. lia.
  - exists mc0, O, e, m, [qa; qb], rk1, rk2, nw, m'. split; [exact mc0_ok|]. split; [exact Hr|]. split; [exact Hp|]. split; [exact HL|].
    split; [exact X1|]. split; [exact HV|]. intros x r p b q G1 G2 Gq.
    destruct (get_some es x) as [E GE]. { apply get_range in G2. rewrite HLes. unfold zlen in G2. cbn in G2. lia. }
    apply (X3 x r p b E q); try assumption. rewrite Forall_forall in HE. apply HE. eapply get_In. exact GE.
Qed.

(** a message of five bits crosses a link; the receiver squares it *)
Example C52_square : exists mc O ck rk1, mc_ok mc /\ setup (f64_arith mc) O mid mid_key tiny_rk tiny_rb ck /\
  chain 3 2000 [0; 1; 1] [rk1] [1; 0; 1] /\
  exists e (m : mem (FP O)) c, reachable O mid e m /\ encodes 3 [0; 1; 1] (tm m c) 32 5 16 /\
  exists c' m1 r m', fresh O m (reencrypt_all 3 (tm m c) [rk1]) = Ok (c', m1) /\
    BootstrapFunc O mid m1 e c' (fun x => x * x) 32 (BootstrappingKey ck) (KeySwitchingKey ck) (DecompositionOffset ck) = Ok (r, m') /\
    DecryptLWEMessage 3 (tm m' r) 32 [1; 0; 1] = Ok 25.
Proof.
  destruct (setup_exists (f64_arith mc0) mid mid_key tiny_rk tiny_rb mid_params ltac:(cbn; lia) mid_key_ok) as (O & ck & S).
  assert (KB: bin_key 3 [0; 1; 1]) by (split; [reflexivity|repeat constructor; lia]).
  assert (Z1: forall i, Z.abs (sample (er_noise (ex_rnd i))) <= 8).
  { intro i. apply (small_sample (mix (i + 9) mod 16 - 8)). pose proof (Z.mod_pos_bound (mix (i + 9)) 16 ltac:(lia)). lia. }
  destruct (q_symmetric 3 2 12 [0; 1; 1] [1; 0; 1] ex_rnd 8) as (rk1 & E1 & _); try assumption; try reflexivity; try lia.
  assert (HC: chain 3 2000 [0; 1; 1] [rk1] [1; 0; 1]).
  { eapply chain_hop; [|apply chain_here].
    apply (hop_symmetric 3 _ [0; 1; 1] [1; 0; 1] 2 12 8 ex_rnd); [exact KB|reflexivity|lia|lia|lia|exact Z1|vm_compute; discriminate|exact E1]. }
  exists mc0, O, ck, rk1. split; [exact mc0_ok|]. split; [exact S|]. split; [exact HC|].
  destruct (p_start _ O mid mid_key tiny_rk tiny_rb ck S [[0; 0; 0; 5 * 2 ^ 26 + 16]]) as (e & m & k & w & Hr & _ & F & _).
  inversion F as [|c v w' l [Uc Ec] F1]; subst. exists e, m, c. split; [exact Hr|].
  assert (En: encodes 3 [0; 1; 1] (tm m c) 32 5 16).
  { rewrite Ec. split; [split; [reflexivity|repeat (constructor; [unfold tok, two32; cbn; lia|]); constructor]|].
    exists 16. split; [lia|]. vm_compute. reflexivity. }
  split; [exact En|]. destruct mid_worst as (W1 & W2 & W3).
  destruct (C52_message_float64 mc0 O mid mid_key tiny_rk tiny_rb ck 16 16 29 0 2000 [0; 1; 1] [rk1] mc0_ok S W1 mid_key_noise ltac:(lia) ltac:(lia) ltac:(lia) HC
    e m c (fun x => x * x) 5 5 16 Hr) as (c' & m1 & r & m' & H1 & H2 & _ & H4 & _).
  - cbn. lia.
  - cbn. lia.
  - exact En.
  - vm_compute. reflexivity.
  - vm_compute. reflexivity.
  - exists c', m1, r, m'. split; [exact H1|]. split; [exact H2|]. exact H4.
Qed.

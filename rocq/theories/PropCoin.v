(** * How often a re-encryption goes wrong

    C56: the noise of a re-encryption key made from a public key is a sum with
    random signs, far below its worst case.  Over all coin tosses its average
    is zero and its average square is known exactly; the message is lost for at
    most the fraction 2 exp(-T^2/Q) of the tosses.  The vocabulary is in
    CoinSpec.v. *)
From Coq Require Import Lia ZArith List Reals.
From Verif Require Import GoBase GoFacts F64 Utils Spec Params Tlwe ProxyReenc ReencSpec ReencProps CoinSpec CoinProps Tiny PropReenc.
Import ListNotations.
Local Open Scope Z_scope.

(** ** C56: the noise for given tosses *)
Theorem C56_noise : forall n basebit t F a h w ct, 0 <= n -> 1 <= basebit -> 1 <= t -> basebit * t <= 31 ->
  bin_key n a -> hop_good n F h -> lwe_ok n ct ->
  exists rk ct', hop_key n basebit t a h w = Ok rk /\ ReencryptTLWELv0 n ct rk = Ok ct' /\ lwe_ok n ct' /\
    exists d, Z.abs d <= weight n a * 2 ^ (31 - basebit * t) /\
      eqm (lwe_phase n (to_key h) ct') (lwe_phase n a ct + d - used_noise n basebit t ct (hop_noise h w)).
Proof. intros n bb t F a h w ct H1 H2 H3 H4. exact (hop_step n bb t F H1 H2 H3 H4 a h w ct). Qed.
Print Assumptions C56_noise.

(** ** C56: its average and average square over all tosses *)
Theorem C56_mean_square : forall n basebit t F h ct, 0 <= n -> 0 <= basebit -> 0 <= t -> F < 2 ^ 31 -> hop_good n F h ->
  exists l, NoDup l /\ (forall w, In w l <-> tosses (toss_count n basebit t h) w) /\ zlen l = 4 ^ toss_count n basebit t h /\
    sum_over (fun w => used_noise n basebit t ct (hop_noise h w)) l = 0 /\
    2 * sum_over (fun w => used_noise n basebit t ct (hop_noise h w) ^ 2) l =
    zlen l * (digits_used n basebit t ct * to_squares h + 2 * used_noise n basebit t ct (fun idx => sample (to_noise h idx) ^ 2)).
Proof. exact mean_square. Qed.
Print Assumptions C56_mean_square.

(** ** C56: how often the message is lost *)

(** in one hop *)
Theorem C56_one_hop : forall n basebit t F a h v ct e T Q, 0 <= n -> 1 <= basebit -> 1 <= t -> basebit * t <= 31 -> F < 2 ^ 31 ->
  bin_key n a -> hop_good n F h -> lwe_ok n ct -> eqm (lwe_phase n a ct) (mu_bit v + e) ->
  Z.abs e + weight n a * 2 ^ (31 - basebit * t) + T <= 2 ^ 29 -> 0 < T -> 0 < Q ->
  digits_used n basebit t ct * to_squares h + 2 * used_noise n basebit t ct (fun idx => sample (to_noise h idx) ^ 2) <= Q ->
  but_for [toss_count n basebit t h] (2 * exp (- (IZR T * IZR T / IZR Q)))
    (fun ws => exists w, ws = [w] /\ exists rk ct', hop_key n basebit t a h w = Ok rk /\
       ReencryptTLWELv0 n ct rk = Ok ct' /\ DecryptBool n ct' (to_key h) = Ok v).
Proof. exact one_tail. Qed.
Print Assumptions C56_one_hop.

(** along a chain of any length and any kinds of keys *)
Theorem C56_chain : forall n basebit t F a hs v ct e T Q, 0 <= n -> 1 <= basebit -> 1 <= t -> basebit * t <= 31 -> F < 2 ^ 31 ->
  bin_key n a -> Forall (hop_good n F) hs -> lwe_ok n ct -> eqm (lwe_phase n a ct) (mu_bit v + e) ->
  Z.abs e + rounding n basebit t a hs + T <= 2 ^ 29 -> 0 < T -> 0 < Q -> spread n t F hs <= Q ->
  but_for (map (toss_count n basebit t) hs) (2 * exp (- (IZR T * IZR T / IZR Q)))
    (fun ws => exists ct', relay n basebit t a hs ws ct = Ok ct' /\ DecryptBool n ct' (last_key a hs) = Ok v).
Proof. intros n bb t F a hs v ct e T Q H1 H2 H3 H4 H5. exact (relay_tail n bb t F H1 H2 H3 H4 H5 a hs v ct e T Q). Qed.
Print Assumptions C56_chain.

(** in a public key encryption *)
Theorem C56_public_key : forall n sk size zeros b d T Q, 0 <= n -> zlen sk = n -> 0 <= size -> is_fin d = true -> Z.abs (sample d) < 2 ^ 31 ->
  zsum size (fun e => sample (er_noise (zeros e)) ^ 2) + 2 * sample d ^ 2 <= Q -> 0 < Q -> T = 2 ^ 29 ->
  but_for [size + 1] (2 * exp (- (IZR T * IZR T / IZR Q)))
    (fun ws => exists w, ws = [w] /\ exists pk ct, NewPublicKeyLv0WithParams n sk size zeros = Ok pk /\
      PkEncryptBool n pk b (pk_draw w size 0 d) = Ok ct /\ DecryptBool n ct sk = Ok b).
Proof. exact pk_tail. Qed.
Print Assumptions C56_public_key.

(** ** C56: at the 128-bit level

    The standard deviation of a noise is 2.0e-5, or 85899 on the torus: the
    expected sum of 1400 squares is 10.3 * 10^12, and 2^19 is more than six
    standard deviations. *)
Theorem C56_public_key_128 : forall sk zeros b d, zlen sk = 700 -> is_fin d = true -> Z.abs (sample d) <= 2 ^ 19 ->
  zsum 1400 (fun e => sample (er_noise (zeros e)) ^ 2) <= 12 * 10 ^ 12 ->
  but_for [1401] (/ IZR (2 ^ 1000))
    (fun ws => exists w, ws = [w] /\ exists pk ct, NewPublicKeyLv0 params128Bit sk zeros = Ok pk /\
      PkEncryptBool 700 pk b (pk_draw w 1400 0 d) = Ok ct /\ DecryptBool 700 ct sk = Ok b).
Proof. exact public_128. Qed.
Print Assumptions C56_public_key_128.

(** one hop with an asymmetric key: wrong for at most one in 16, or one in 50
    if no more than 4800 of the 6300 digits are not 0 (three in four on average) *)
Theorem C56_asymmetric_128 : forall a b zeros noise ct v e, bin_key 700 a -> hop_good 700 (2 ^ 19) (Asymmetric b 1400 zeros noise) ->
  to_squares (Asymmetric b 1400 zeros noise) <= 12 * 10 ^ 12 -> lwe_ok 700 ct -> eqm (lwe_phase 700 a ct) (mu_bit v + e) -> Z.abs e <= 2 ^ 19 ->
  but_for [toss_count 700 2 9 (Asymmetric b 1400 zeros noise)] (if digits_used 700 2 9 ct <=? 4800 then / 50 else / 16)
    (fun ws => exists w, ws = [w] /\ exists rk ct', hop_key 700 2 9 a (Asymmetric b 1400 zeros noise) w = Ok rk /\
       ReencryptTLWELv0 700 ct rk = Ok ct' /\ DecryptBool 700 ct' b = Ok v).
Proof. exact asym_128. Qed.
Print Assumptions C56_asymmetric_128.

(** up to five hops with symmetric keys: wrong for at most one in a million *)
Theorem C56_symmetric_128 : forall a hs ct v e, bin_key 700 a -> Forall (hop_good 700 (2 ^ 19)) hs ->
  Forall (fun h => exists b mask noise, h = Symmetric b mask noise) hs -> zlen hs <= 5 ->
  lwe_ok 700 ct -> eqm (lwe_phase 700 a ct) (mu_bit v + e) -> Z.abs e <= 2 ^ 19 ->
  but_for (map (toss_count 700 2 9) hs) (/ 1000000)
    (fun ws => exists ct', relay 700 2 9 a hs ws ct = Ok ct' /\ DecryptBool 700 ct' (last_key a hs) = Ok v).
Proof. exact sym_128. Qed.
Print Assumptions C56_symmetric_128.

(** ** Cases *)

(** tosses matter: with a public key of four zero encryptions with noise 1/16
    each, the message is lost for some tosses and not for others *)
Definition big_zeros (i : Z) : enc_rand := {| er_mask := fun j => mix (i + j); er_noise := flit 1 (-4) |}.
Definition big_hop : hop_to := Asymmetric [1] 4 big_zeros (fun _ => f_of_Z 0).
Example C56_tosses :
  (ct <- relay 1 1 1 [0] [big_hop] [repeat 0 10] [2 ^ 31; 2 ^ 29] ;; DecryptBool 1 ct [1]) = Ok true /\
  (ct <- relay 1 1 1 [0] [big_hop] [[0; 3; 0; 2; 1; 3; 2; 3; 0; 0]] [2 ^ 31; 2 ^ 29] ;; DecryptBool 1 ct [1]) = Ok true /\
  (ct <- relay 1 1 1 [0] [big_hop] [repeat 3 10] [2 ^ 31; 2 ^ 29] ;; DecryptBool 1 ct [1]) = Ok false.
Proof. vm_compute. auto. Qed.

(** an asymmetric hop followed by a symmetric one *)
Definition ex_hops : list hop_to :=
  [Asymmetric [0; 1; 1] 6 ex_zeros (fun i => flit (mix i mod 16 - 8) (-32)); Symmetric [1; 1; 0] (fun i j => mix (3 * i + j)) (fun i => flit (mix (i + 9) mod 16 - 8) (-32))].
Definition ex_tosses : list (list Z) := [tab 420 (fun i => mix i / 16 mod 4); tab 60 (fun i => mix (i + 77) / 16 mod 4)].
Example C56_hops_good : Forall (hop_good 3 8) ex_hops /\ Forall2 tosses (map (toss_count 3 2 5) ex_hops) ex_tosses.
Proof.
  assert (B2: bin_key 3 [0; 1; 1]) by (split; [reflexivity|repeat constructor; lia]).
  assert (B3: bin_key 3 [1; 1; 0]) by (split; [reflexivity|repeat constructor; lia]).
  assert (N: forall m, 0 <= m < 16 -> is_fin (flit (m - 8) (-32)) = true /\ Z.abs (sample (flit (m - 8) (-32))) <= 8).
  { intros m Hm. pose proof (small_sample (m - 8) ltac:(lia)) as S. split; [|lia].
    assert (C: In m (tab 16 (fun i => i))) by (apply in_map_iff; exists (Z.to_nat m); split; [lia|apply in_seq; lia]).
    clear S Hm. revert m C. apply (proj1 (Forall_forall (fun m => is_fin (flit (m - 8) (-32)) = true) (tab 16 (fun i => i)))). repeat constructor. }
  split.
  - repeat constructor; cbn [to_key to_size to_noise]; try lia; try assumption; apply N; apply Z.mod_pos_bound; lia.
  - assert (T: forall n f, 0 <= n -> tosses n (tab n (fun i => f i mod 4))).
    { intros n f Hn. split; [unfold zlen, tab; rewrite map_length, seq_length; lia|]. apply Forall_forall. intros x Hx. apply in_map_iff in Hx.
      destruct Hx as (k & <- & _). apply Z.mod_pos_bound. lia. }
    unfold ex_hops, ex_tosses. cbn [map]. constructor; [exact (T 420 (fun i => mix i / 16) ltac:(lia))|].
    constructor; [exact (T 60 (fun i => mix (i + 77) / 16) ltac:(lia))|constructor].
Qed.
Example C56_relay : (z <- NewTLWE 3 ;; ct <- EncryptBool 3 z true [1; 0; 1] (ex_rnd 99) ;; ct <- relay 3 2 5 [1; 0; 1] ex_hops ex_tosses ct ;; DecryptBool 3 ct [1; 1; 0]) = Ok true /\
  spread 3 5 8 ex_hops = 6450.
Proof. split; vm_compute; reflexivity. Qed.

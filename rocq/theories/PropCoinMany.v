(** * How often re-encryption keys go wrong on several ciphertexts

    C56, continued: the same keys serve many ciphertexts, and messages of any
    modulus as well as bits.  For all but the fraction L * 2 exp(-T^2/Q) of the
    tosses, the keys work for every one of L given ciphertexts.  The vocabulary
    is in CoinSpec.v; [encodes] is in LutSpec.v. *)
From Coq Require Import Lia ZArith List Reals.
From Verif Require Import GoBase GoFacts F64 Utils Spec Params Tlwe ProxyReenc ReencSpec ReencProps LutSpec CoinSpec CoinProps Tiny PropReenc PropCoin CoinMany.
Import ListNotations.
Local Open Scope Z_scope.
Notation rounding := CoinSpec.rounding.

(** ** C56: by how much the phases move, for all of the given ciphertexts *)
Theorem C56_many : forall n basebit t F, 0 <= n -> 1 <= basebit -> 1 <= t -> basebit * t <= 31 -> F < 2 ^ 31 ->
  forall a hs T Q, bin_key n a -> Forall (hop_good n F) hs -> 0 < T -> 0 < Q -> spread n t F hs <= Q ->
  forall cts, Forall (lwe_ok n) cts ->
  but_for (map (toss_count n basebit t) hs) (IZR (zlen cts) * (2 * exp (- (IZR T * IZR T / IZR Q)))) (fun ws =>
    Forall (fun ct => exists ct', relay n basebit t a hs ws ct = Ok ct' /\ lwe_ok n ct' /\
      close (rounding n basebit t a hs + T - 1) (lwe_phase n (last_key a hs) ct') (lwe_phase n a ct)) cts).
Proof. exact relay_many. Qed.
Print Assumptions C56_many.

(** ** C56: bits *)
Theorem C56_many_bits : forall n basebit t F, 0 <= n -> 1 <= basebit -> 1 <= t -> basebit * t <= 31 -> F < 2 ^ 31 ->
  forall a hs T Q, bin_key n a -> Forall (hop_good n F) hs -> 0 < T -> 0 < Q -> spread n t F hs <= Q ->
  forall E cts, Forall (fun c => lwe_ok n (fst c) /\ close E (lwe_phase n a (fst c)) (mu_bit (snd c))) cts ->
  E + rounding n basebit t a hs + T <= 2 ^ 29 ->
  but_for (map (toss_count n basebit t) hs) (IZR (zlen cts) * (2 * exp (- (IZR T * IZR T / IZR Q)))) (fun ws =>
    Forall (fun c => exists ct', relay n basebit t a hs ws (fst c) = Ok ct' /\ DecryptBool n ct' (last_key a hs) = Ok (snd c)) cts).
Proof. exact relay_bits. Qed.
Print Assumptions C56_many_bits.

(** ** C56: messages, each with a modulus of its own *)
Theorem C56_many_messages : forall n basebit t F, 0 <= n -> 1 <= basebit -> 1 <= t -> basebit * t <= 31 -> F < 2 ^ 31 ->
  forall a hs T Q, bin_key n a -> Forall (hop_good n F) hs -> 0 < T -> 0 < Q -> spread n t F hs <= Q ->
  forall E cts, Forall (fun '(ct, M, x) => 1 <= M < 2 ^ 20 /\ 0 <= x < M /\ encodes n a ct M x E /\
    E + rounding n basebit t a hs + T - 1 <= 2 ^ 31 / M / 2 - M) cts ->
  but_for (map (toss_count n basebit t) hs) (IZR (zlen cts) * (2 * exp (- (IZR T * IZR T / IZR Q)))) (fun ws =>
    Forall (fun '(ct, M, x) => exists ct', relay n basebit t a hs ws ct = Ok ct' /\ DecryptLWEMessage n ct' M (last_key a hs) = Ok x) cts).
Proof. exact relay_messages. Qed.
Print Assumptions C56_many_messages.

(** ** C56: at the 128-bit level

    L bits through up to five symmetric keys: some bit is wrong for at most L
    in a million of the tosses. *)
Theorem C56_many_symmetric_128 : forall a hs cts, bin_key 700 a -> Forall (hop_good 700 (2 ^ 19)) hs ->
  Forall (fun h => exists b mask noise, h = Symmetric b mask noise) hs -> zlen hs <= 5 ->
  Forall (fun c => lwe_ok 700 (fst c) /\ close (2 ^ 19) (lwe_phase 700 a (fst c)) (mu_bit (snd c))) cts ->
  but_for (map (toss_count 700 2 9) hs) (IZR (zlen cts) / 1000000) (fun ws =>
    Forall (fun c => exists ct', relay 700 2 9 a hs ws (fst c) = Ok ct' /\ DecryptBool 700 ct' (last_key a hs) = Ok (snd c)) cts).
Proof. exact sym_many_128. Qed.
Print Assumptions C56_many_symmetric_128.

(** ** Cases: messages 5 of 8 and 11 of 16 through the two hops of C56_relay *)
Definition cm_ct (M x i : Z) : list Z := match (z <- NewTLWE 3 ;; EncryptLWEMessage 3 z x M [1; 0; 1] (ex_rnd i)) with Ok ct => ct | Panic _ => [] end.
Definition cm_cts : list (list Z * Z * Z) := [(cm_ct 8 5 1, 8, 5); (cm_ct 16 11 2, 16, 11)].
Example C56_many_case :
  Forall (fun '(ct, M, x) => 1 <= M < 2 ^ 20 /\ 0 <= x < M /\ encodes 3 [1; 0; 1] ct M x (2 ^ 20) /\
    2 ^ 20 + rounding 3 2 5 [1; 0; 1] ex_hops + 2 ^ 20 - 1 <= 2 ^ 31 / M / 2 - M) cm_cts /\
  map (fun '(ct, M, _) => ct' <- relay 3 2 5 [1; 0; 1] ex_hops ex_tosses ct ;; DecryptLWEMessage 3 ct' M [1; 1; 0]) cm_cts = [Ok 5; Ok 11].
Proof.
  split; [|vm_compute; reflexivity].
  assert (K: forall ct, (zlen ct =? 4) && forallb (fun y => (0 <=? y) && (y <? two32)) ct = true -> lwe_ok 3 ct).
  { intros ct Hc. apply andb_prop in Hc. destruct Hc as [Hl Hc]. split; [apply Z.eqb_eq, Hl|]. apply Forall_forall. intros y Hy.
    rewrite forallb_forall in Hc. specialize (Hc y Hy). apply andb_prop in Hc. destruct Hc as [H1 H2]. split; [apply Z.leb_le, H1|apply Z.ltb_lt, H2]. }
  assert (H: forall M x i, lwe_ok 3 (cm_ct M x i) -> Z.abs (centered (lwe_phase 3 [1; 0; 1] (cm_ct M x i) - x * 2 ^ 31 / M)) <= 2 ^ 20 -> encodes 3 [1; 0; 1] (cm_ct M x i) M x (2 ^ 20)).
  { intros M x i Hok Hc. split; [exact Hok|]. exists (centered (lwe_phase 3 [1; 0; 1] (cm_ct M x i) - x * 2 ^ 31 / M)). split; [exact Hc|]. rewrite TlweFacts.centered_eq. apply eqm_refl'. ring. }
  constructor; [|constructor; [|constructor]]; (split; [lia|]); (split; [lia|]); (split; [apply H; [apply K|]; vm_compute; (reflexivity || discriminate)|vm_compute; discriminate]).
Qed.

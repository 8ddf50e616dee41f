(** * Properties C05 (in place), C08-C12, C18, C19, C24, C25 (key switching key) *)
From Coq Require Import Lia.
From Verif Require Import GoBase GoFacts GoMem Spec F64 Utils Params Key Tlwe TlweMem TlweFacts MemFacts
  Poly PolyFacts Trlwe TrlweFacts Trgsw KeySwitchFacts SchedFacts CloudKey CloudKeyFacts LinFacts Gates LweProps Tiny.
Local Open Scope Z_scope.

(** a memory holding the given buffers at locations 0, 1, 2, ... *)
Definition mem_of (bufs : list (list Z)) : mem unit :=
  Mem (fun l => znd [] bufs l) (fun _ => tt) (fun _ => 0) (zlen bufs) 0 0.

(** ** C05: AddAssign, whatever the aliasing of its three arguments *)
Theorem C05_add_assign : forall F (m : mem F) n s t u out, 0 <= n ->
  zlen (tm m t) = n + 1 -> zlen (tm m u) = n + 1 -> zlen (tm m out) = n + 1 ->
  exists m', AddAssign m t u out = Ok m' /\ lwe_ok n (tm m' out) /\
    lwe_phase n s (tm m' out) == lwe_phase n s (tm m t) + lwe_phase n s (tm m u) /\
    (forall l, l <> out -> tm m' l = tm m l).
Proof. exact @AddAssign_phase. Qed.
Print Assumptions C05_add_assign.

Example C05_ex_alias : exists m', AddAssign (mem_of [[1; 2; 4294967290]; [5; 6; 7]]) 0 1 0 = Ok m' /\ tm m' 0 = [6; 8; 1].
Proof. eexists; split; [reflexivity|]. vm_compute. reflexivity. Qed.

(** ** C08: NOT *)
Theorem C08_not : forall n s ct, 0 <= n -> zlen ct = n + 1 -> zlen s = n ->
  exists r b b', not_val n ct = Ok r /\ lwe_ok n r /\ DecryptBool n ct s = Ok b /\ DecryptBool n r s = Ok b' /\
    (b' = negb b <-> lwe_phase n s ct <> 0 /\ lwe_phase n s ct <> two31).
Proof. intros n s ct Hn. exact (not_ok n Hn s ct). Qed.
Print Assumptions C08_not.

(** the unconditional claim is false *)
Theorem C08_not_refuted : exists n s ct r b, 0 <= n /\ lwe_ok n ct /\ bin_key n s /\
  not_val n ct = Ok r /\ DecryptBool n ct s = Ok b /\ DecryptBool n r s = Ok b.
Proof.
  exists 2, [1; 0], [5; 7; 5], [4294967291; 4294967289; 4294967291], true.
  split; [lia|]. split; [split; [reflexivity|repeat constructor; unfold tok, two32; lia]|].
  split; [split; [reflexivity|repeat constructor; lia]|]. repeat split; vm_compute; reflexivity.
Qed.
Print Assumptions C08_not_refuted.

(** NOT as called by the user allocates its result and changes nothing else *)
Theorem C08_not_gate : forall O pr (m : mem (FP O)) a s, 0 <= lv0_N pr -> zlen (tm m a) = lv0_N pr + 1 ->
  zlen s = lv0_N pr -> a < tnext m ->
  exists r m' b b', NOT O pr m a = Ok (r, m') /\ tnext m <= r < tnext m' /\
    (forall l, l < tnext m -> tm m' l = tm m l) /\
    DecryptBool (lv0_N pr) (tm m a) s = Ok b /\ DecryptBool (lv0_N pr) (tm m' r) s = Ok b' /\
    (b' = negb b <-> lwe_phase (lv0_N pr) s (tm m a) <> 0 /\ lwe_phase (lv0_N pr) s (tm m a) <> two31).
Proof. exact not_gate_ok. Qed.
Print Assumptions C08_not_gate.

Example C08_ex : exists r, not_val 2 [3; 9; 536870912] = Ok r /\
  DecryptBool 2 [3; 9; 536870912] [1; 1] = Ok true /\ DecryptBool 2 r [1; 1] = Ok false.
Proof. eexists; split; [reflexivity|]. split; vm_compute; reflexivity. Qed.

(** ** C09: constants *)
Theorem C09_constant : forall n s v, 0 <= n -> zlen s = n ->
  exists ct, constant_val n v = Ok ct /\ lwe_ok n ct /\ DecryptBool n ct s = Ok v /\
    lwe_phase n s ct == mu_bit v + (if v then 0 else 1).
Proof. intros n s v Hn. exact (constant_ok n Hn s v). Qed.
Print Assumptions C09_constant.

Example C09_ex : constant_val 2 false = Ok [0; 0; 3758096385] /\ constant_val 2 true = Ok [0; 0; 536870912].
Proof. split; vm_compute; reflexivity. Qed.

(** ** C10: multiplication by X^k *)
Theorem C10_rotate : forall F (m : mem F) N a k out, 0 < N -> zlen (tm m a) = N -> zlen (tm m out) = N -> a <> out ->
  exists m', PolyMulWithXKInPlace m a k out = Ok m' /\ zlen (tm m' out) = N /\
    (forall j, 0 <= j < N -> zn (tm m' out) j ==
       mono_mul N k (zn (tm m a)) j - (if Z.even ((j - k) / N) then 0 else 1)) /\
    (forall l, l <> out -> tm m' l = tm m l).
Proof. exact @rotate_ok. Qed.
Print Assumptions C10_rotate.

(** rotations compose exactly *)
Theorem C10_compose : forall F (m : mem F) N a b c d k1 k2, 0 < N -> tok_list (tm m a) ->
  zlen (tm m a) = N -> zlen (tm m b) = N -> zlen (tm m c) = N -> zlen (tm m d) = N ->
  a <> b -> b <> c -> a <> d ->
  exists m1 m2 m3, PolyMulWithXKInPlace m a k1 b = Ok m1 /\ PolyMulWithXKInPlace m1 b k2 c = Ok m2 /\
    PolyMulWithXKInPlace m a (k1 + k2) d = Ok m3 /\ tm m2 c = tm m3 d.
Proof. exact @rotate_compose. Qed.
Print Assumptions C10_compose.

Theorem C10_period : forall F (m : mem F) N a k out, 0 < N -> zlen (tm m a) = N -> zlen (tm m out) = N -> a <> out ->
  exists m', PolyMulWithXKInPlace m a (2 * N * k) out = Ok m' /\ tm m' out = tm m a.
Proof. exact @rotate_period. Qed.
Print Assumptions C10_period.

(** the result is not the exact product *)
Theorem C10_exact_refuted : exists (m : mem unit) N a k out m', 0 < N /\ zlen (tm m a) = N /\ zlen (tm m out) = N /\
  a <> out /\ PolyMulWithXKInPlace m a k out = Ok m' /\
  exists j, 0 <= j < N /\ ~ zn (tm m' out) j == mono_mul N k (zn (tm m a)) j.
Proof.
  exists (mem_of [[1; 2; 3; 4]; [0; 0; 0; 0]]), 4, 0, 1, 1. eexists.
  split; [lia|]. split; [reflexivity|]. split; [reflexivity|]. split; [lia|].
  split; [reflexivity|]. exists 0. split; [lia|]. vm_compute. discriminate.
Qed.
Print Assumptions C10_exact_refuted.

Example C10_ex : exists m', PolyMulWithXKInPlace (mem_of [[1; 2; 3; 4]; [0; 0; 0; 0]]) 0 (-3) 1 = Ok m' /\
  tm m' 1 = [4; 4294967294; 4294967293; 4294967292].
Proof. eexists; split; [reflexivity|]. vm_compute. reflexivity. Qed.

(** ** C11: in place use of the same buffer *)
Theorem C11_alias_refuted : exists (m : mem unit) N a k m', 0 < N /\ zlen (tm m a) = N /\ tok_list (tm m a) /\
  PolyMulWithXKInPlace m a k a = Ok m' /\
  exists j, 0 <= j < N /\ ~ close 1 (zn (tm m' a) j) (mono_mul N k (zn (tm m a)) j).
Proof.
  exists (mem_of [[1; 2; 3; 40]]), 4, 0, 1. eexists.
  split; [lia|]. split; [reflexivity|]. split; [repeat constructor; unfold tok, two32; lia|].
  split; [reflexivity|]. exists 3. split; [lia|]. intros (e & He & Hq).
  assert (E1: zn (tm (mem_of [[1; 2; 3; 40]]) 0) 2 = 3) by reflexivity.
  revert Hq. unfold eqm, two32.
  match goal with |- ?a mod _ = (?b + e) mod _ -> _ => change a with 1; change b with 3 end.
  intro Hq. assert (e = -1 \/ e = 0 \/ e = 1) as [-> | [-> | ->]] by lia; vm_compute in Hq; discriminate.
Qed.
Print Assumptions C11_alias_refuted.

(** distinct buffers are fine, and rotation by 0 is fine even in place *)
Theorem C11_distinct : forall F (m : mem F) N a k out, 0 < N -> zlen (tm m a) = N -> zlen (tm m out) = N -> a <> out ->
  exists m', PolyMulWithXKInPlace m a k out = Ok m' /\ zlen (tm m' out) = N /\
    (forall j, 0 <= j < N -> zn (tm m' out) j ==
       mono_mul N k (zn (tm m a)) j - (if Z.even ((j - k) / N) then 0 else 1)) /\
    (forall l, l <> out -> tm m' l = tm m l).
Proof. exact @rotate_ok. Qed.
Print Assumptions C11_distinct.

(** ** C12: gadget decomposition *)
Theorem C12_decompose : forall F (m : mem F) N p bg level out, 1 <= bg -> 0 <= level -> level * bg <= 32 ->
  zlen (tm m p) = N -> tok_list (tm m p) -> ~ (out <= p < out + level) ->
  (forall i, 0 <= i < level -> zlen (tm m (out + i)) = N) ->
  let off := zsum level (fun i => 2 ^ (bg - 1) * 2 ^ (32 - (i + 1) * bg)) mod two32 in
  exists m', DecomposePolyAssign m p bg level off out = Ok m' /\
    (forall i j, 0 <= i < level -> 0 <= j < N -> - 2 ^ (bg - 1) <= centered (zn (tm m' (out + i)) j) < 2 ^ (bg - 1)) /\
    (forall j, 0 <= j < N ->
       zsum level (fun i => centered (zn (tm m' (out + i)) j) * 2 ^ (32 - (i + 1) * bg)) ==
       zn (tm m p) j - zn (tm m p) j mod 2 ^ (32 - level * bg)) /\
    (forall l, ~ (out <= l < out + level) -> tm m' l = tm m l).
Proof. exact @decompose_ok. Qed.
Print Assumptions C12_decompose.

Example C12_ex : exists m', DecomposePolyAssign (mem_of [[3735928559; 17]; [0; 0]; [0; 0]; [0; 0]]) 0 6 3
    (zsum 3 (fun i => 2 ^ 5 * 2 ^ (32 - (i + 1) * 6)) mod two32) 1 = Ok m' /\
  map (map centered) [tm m' 1; tm m' 2; tm m' 3] = [[-8; 0]; [-21; 0]; [-10; 0]].
Proof. eexists; split; [reflexivity|]. vm_compute. reflexivity. Qed.

(** ** C18: sample extraction *)
Theorem C18_extract : forall pr t k N s, trlwe_N pr = N -> lv1_N pr = N -> 0 <= k < N ->
  zlen (tA t) = N -> zlen (tB t) = N -> tok_list (tA t) -> tok_list (tB t) ->
  exists ct, SampleExtractIndex pr t k = Ok ct /\ lwe_ok N ct /\
    lwe_phase N s ct == rlwe_phase N s (tA t) (tB t) k + zsum (N - 1 - k) (fun i => zn s (k + 1 + i)).
Proof. exact extract_ok. Qed.
Print Assumptions C18_extract.

Theorem C18_assign_same : forall F pr (m : mem F) t k out N, trlwe_N pr = N -> lv1_N pr = N -> 0 <= k < N ->
  zlen (tm m (rA t)) = N -> zlen (tm m (rB t)) = N -> zlen (tm m out) = N + 1 -> out <> rA t -> out <> rB t ->
  exists m' ct, SampleExtractIndexAssign pr m t k out = Ok m' /\
    SampleExtractIndex pr {| tA := tm m (rA t); tB := tm m (rB t) |} k = Ok ct /\ tm m' out = ct /\
    (forall l, l <> out -> tm m' l = tm m l).
Proof. exact @extract_assign_same. Qed.
Print Assumptions C18_assign_same.

Example C18_ex : let t := {| tA := map mix (map Z.of_nat (seq 0 16)); tB := map mix (map Z.of_nat (seq 50 16)) |} in
  exists ct, SampleExtractIndex tiny t 5 = Ok ct /\
    lwe_phase 16 (KeyLv1 tiny_key) ct = rlwe_phase 16 (KeyLv1 tiny_key) (tA t) (tB t) 5 + 5.
Proof. cbv zeta. eexists; split; [vm_compute; reflexivity|]. vm_compute. reflexivity. Qed.

(** ** C19: extraction to level 0 *)
Theorem C19_extract2_refuted : forall level t k, zlen (tA t) = trlwe_N (get_params level) ->
  is_panic (SampleExtractIndex2 (get_params level) t k) = true.
Proof. exact SampleExtractIndex2_shipped. Qed.
Print Assumptions C19_extract2_refuted.

(** it would need equal dimensions *)
Theorem C19_works_iff : forall pr t k N, 0 <= k < N -> zlen (tA t) = N -> zlen (tB t) = N ->
  (exists ct, SampleExtractIndex2 pr t k = Ok ct) <-> lv0_N pr = N.
Proof. exact extract2_works_iff. Qed.
Print Assumptions C19_works_iff.

Example C19_ex : zlen (tA {| tA := repeat 0 1024; tB := repeat 0 1024 |}) = trlwe_N (get_params 128).
Proof. vm_compute. reflexivity. Qed.

(** ** C24: key switching *)
Theorem C24_keyswitch : forall pr src ksk s0 s1 n N bb t E,
  lv0_N pr = n -> g_N pr = N -> g_BASEBIT pr = bb -> g_IKS_T pr = t ->
  0 <= n -> 0 <= N -> 1 <= bb -> 0 <= t -> bb * t <= 31 -> 0 <= E ->
  lwe_ok N src -> bin_key N s1 ->
  zlen ksk = 2 ^ bb * t * N -> (forall x, 0 <= x < 2 ^ bb * t * N -> zlen (znd [] ksk x) = n + 1) ->
  (forall i j k, 0 <= i < N -> 0 <= j < t -> 1 <= k < 2 ^ bb ->
     close E (lwe_phase n s0 (znd [] ksk (2 ^ bb * t * i + 2 ^ bb * j + k))) (k * zn s1 i * 2 ^ (32 - (j + 1) * bb))) ->
  exists ct, IdentityKeySwitching pr src ksk = Ok ct /\ lwe_ok n ct /\
    close (weight N s1 * 2 ^ (31 - bb * t) + N * t * E) (lwe_phase n s0 ct) (lwe_phase N s1 src).
Proof. exact keyswitch_ok. Qed.
Print Assumptions C24_keyswitch.

Theorem C24_assign_same : forall F pr (m : mem F) src ksk out n N bb t,
  lv0_N pr = n -> g_N pr = N -> g_BASEBIT pr = bb -> g_IKS_T pr = t ->
  0 <= n -> 0 <= N -> 1 <= bb -> 0 <= t -> bb * t <= 31 ->
  lwe_ok N (tm m src) -> zlen (tm m out) = n + 1 -> src <> out ->
  zlen ksk = 2 ^ bb * t * N -> (forall x, 0 <= x < 2 ^ bb * t * N -> zlen (znd [] ksk x) = n + 1) ->
  exists m' ct, IdentityKeySwitchingAssign pr m src ksk out = Ok m' /\
    IdentityKeySwitching pr (tm m src) ksk = Ok ct /\ tm m' out = ct /\
    (forall l, l <> out -> tm m' l = tm m l).
Proof. exact @keyswitch_assign_same. Qed.
Print Assumptions C24_assign_same.

(** keys generated by the code satisfy the hypotheses of C24_keyswitch *)
Theorem C24_generated_keys : forall pr sk rnd E, 0 <= lv0_N pr -> 0 <= g_N pr -> 1 <= g_BASEBIT pr -> 0 <= g_IKS_T pr ->
  g_BASEBIT pr * g_IKS_T pr <= 31 -> zlen (KeyLv0 sk) = lv0_N pr -> bin_key (g_N pr) (KeyLv1 sk) ->
  (forall x, Z.abs (centered (F64ToTorus (er_noise (rnd x)))) <= E) ->
  let bb := g_BASEBIT pr in let t := g_IKS_T pr in
  exists ksk, genKeySwitchingKey pr sk rnd = Ok ksk /\ zlen ksk = 2 ^ bb * t * g_N pr /\
    (forall x, 0 <= x < 2 ^ bb * t * g_N pr -> zlen (znd [] ksk x) = lv0_N pr + 1) /\
    (forall i j k, 0 <= i < g_N pr -> 0 <= j < t -> 1 <= k < 2 ^ bb ->
       close E (lwe_phase (lv0_N pr) (KeyLv0 sk) (znd [] ksk (2 ^ bb * t * i + 2 ^ bb * j + k)))
         (k * zn (KeyLv1 sk) i * 2 ^ (32 - (j + 1) * bb))).
Proof. exact ksk_generated. Qed.
Print Assumptions C24_generated_keys.

Example C24_ex : let src := map mix (map Z.of_nat (seq 0 17)) in
  (ksk <- genKeySwitchingKey tiny tiny_key tiny_rk ;;
   ct <- IdentityKeySwitching tiny src ksk ;;
   Ok (Z.abs (centered (lwe_phase 3 (KeyLv0 tiny_key) ct - lwe_phase 16 (KeyLv1 tiny_key) src)) <=? 1000)) = Ok true.
Proof. vm_compute. reflexivity. Qed.

(** ** C25: goroutine schedules of the key switching key *)
Theorem C25_ksk_schedules : forall pr sk rnd, 0 <= lv0_N pr -> 0 <= g_N pr -> 1 <= g_BASEBIT pr -> 0 <= g_IKS_T pr ->
  zlen (KeyLv0 sk) = lv0_N pr -> zlen (KeyLv1 sk) = g_N pr ->
  exists gs arr ksk, ksk_goroutines pr sk rnd = Ok gs /\ ksk_init pr = Ok arr /\
    zlen ksk = 2 ^ g_BASEBIT pr * g_IKS_T pr * g_N pr /\
    genKeySwitchingKey pr sk rnd = Ok ksk /\
    (forall tr, interleaving gs tr -> apply_writes arr tr = Ok ksk /\
       forall x, 0 <= x < zlen ksk ->
         zlen (filter (fun w => fst w =? x) tr) = if x mod 2 ^ g_BASEBIT pr =? 0 then 0 else 1).
Proof. exact ksk_schedule. Qed.
Print Assumptions C25_ksk_schedules.

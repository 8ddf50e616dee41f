(** * How much a message may hold

    C51: what a programmable bootstrap reads is decided by how the mask of the
    ciphertext rounds.  At Uint1 to Uint4 the right message is read for all
    masks but one in 2^30, at Uint5 but one in 2048; at Uint8 at least a tenth
    of the masks, and at Uint7 at least a hundredth, read another message
    whatever the noise.  The vocabulary is in MaskSpec.v. *)
From Coq Require Import Lia List.
From Verif Require Import GoBase GoMem F64 Utils Spec Params Key Tlwe TlweMem Poly Fft FftReal Trlwe Trgsw Lut Evaluator CloudKey RunSpec LutSpec LutProg MaskSpec
  RunWorst LutProps MaskProps.
Import ListNotations.
Local Open Scope Z_scope.

(** ** C51: the position read, for every ciphertext *)
Theorem C51_position : forall (R : arith) O pr sk rk rb ck k e (m : mem (FP O)) ct f x e0 T,
  setup R O pr sk rk rb ck -> 0 <= k < g_NBIT pr -> reachable O pr e m -> input O pr m e ct ->
  eqm (lwe_phase (lv0_N pr) (KeyLv0 sk) (tm m ct)) (x * 2 ^ (31 - k) + e0) -> gen_noise O pr sk ck f (2 ^ k) (tm m ct) T ->
  exists r m', BootstrapFunc O pr m e ct f (2 ^ k) (BootstrappingKey ck) (KeySwitchingKey ck) (DecompositionOffset ck) = Ok (r, m') /\
    encodes (lv0_N pr) (KeyLv0 sk) (tm m' r) (2 ^ k) (lut_at k f (read_position pr k (KeyLv0 sk) (tm m ct) x e0 mod (2 * 2 ^ k)) mod (2 * 2 ^ k)) T /\
    (T < 2 ^ (30 - k) -> DecryptLWEMessage (lv0_N pr) (tm m' r) (2 ^ k) (KeyLv0 sk) =
       Ok (lut_at k f (read_position pr k (KeyLv0 sk) (tm m ct) x e0 mod (2 * 2 ^ k)) mod 2 ^ k)) /\
    user m' e r /\ ~ user m e r /\ user_kept e m m' /\ reachable O pr e m'.
Proof. intros R O pr sk rk rb ck k e m ct f x e0 T S Hk. exact (read_boot R O pr sk rk rb ck S k Hk e m ct f x e0 T). Qed.
Print Assumptions C51_position.

(** ** C51: levels that work *)
Theorem C51_capacity : forall pr k s, In (pr, k) [(paramsUint1, 1); (paramsUint2, 2); (paramsUint3, 3); (paramsUint4, 4)] ->
  bin_key (lv0_N pr) s -> most_masks (lv0_N pr) 1 (2 ^ 30) (fun a => bootstraps_right pr k s a (2 ^ (24 - k))).
Proof. exact right_uint. Qed.
Print Assumptions C51_capacity.

Theorem C51_capacity_uint5 : forall s, bin_key 1071 s -> weight 1071 s <= 640 ->
  most_masks 1071 1 2048 (fun a => bootstraps_right paramsUint5 5 s a (2 ^ 19)).
Proof. exact right_uint5. Qed.
Print Assumptions C51_capacity_uint5.

(** ** C51: levels that do not *)
Theorem C51_uint8_refuted : forall s, bin_key 1160 s -> 480 <= weight 1160 s ->
  many_masks 1160 1 10 (fun a => bootstraps_wrong paramsUint8 8 s a (2 ^ 16) 74).
Proof. exact wrong_uint8. Qed.
Print Assumptions C51_uint8_refuted.

Theorem C51_uint7_refuted : forall s, bin_key 1160 s -> 450 <= weight 1160 s ->
  many_masks 1160 1 100 (fun a => bootstraps_wrong paramsUint7 7 s a (2 ^ 16) 37).
Proof. exact wrong_uint7. Qed.
Print Assumptions C51_uint7_refuted.

(** Refreshing a message, that is, bootstrapping with the identity, changes
    it. *)
Theorem C51_refresh_uint8_refuted : forall s, bin_key 1160 s -> 480 <= weight 1160 s ->
  many_masks 1160 1 10 (fun a => bootstraps_to paramsUint8 8 s a (2 ^ 16) (fun f x v => (forall y, f y = y) -> 74 <= x < 182 -> v <> x)).
Proof. exact wrong_identity8. Qed.
Print Assumptions C51_refresh_uint8_refuted.

Theorem C51_refresh_uint7_refuted : forall s, bin_key 1160 s -> 450 <= weight 1160 s ->
  many_masks 1160 1 100 (fun a => bootstraps_to paramsUint7 7 s a (2 ^ 16) (fun f x v => (forall y, f y = y) -> 37 <= x < 91 -> v <> x)).
Proof. exact wrong_identity7. Qed.
Print Assumptions C51_refresh_uint7_refuted.

(** ** Cases *)

(** half the key bits are one; key generation draws no noise *)
Definition half_key : SecretKey := {| KeyLv0 := repeat 1 580 ++ repeat 0 580; KeyLv1 := 1 :: repeat 0 (Z.to_nat 2047) |}.
Definition no_noise_rk (x : Z) : enc_rand := {| er_mask := fun i => x + i; er_noise := f_of_Z 0 |}.
Definition no_noise_rb (i r : Z) : trlwe_rand := {| tr_mask := fun j => i * r + j; tr_noise := fun _ => f_of_Z 0 |}.
Lemma rep_bits a n : a = 0 \/ a = 1 -> Forall (fun x => x = 0 \/ x = 1) (repeat a n).
Proof. intro H. apply Forall_forall. intros x Hx. apply repeat_spec in Hx. subst x. exact H. Qed.
Example half_key_ok : key_ok paramsUint8 half_key.
Proof.
  split; (split; [vm_compute; reflexivity|]).
  - apply Forall_app. split; apply rep_bits; lia.
  - constructor; [lia|apply rep_bits; lia].
Qed.
Example half_key_weight : bin_key 1160 (KeyLv0 half_key) /\ weight 1160 (KeyLv0 half_key) = 580.
Proof. split; [exact (proj1 half_key_ok)|vm_compute; reflexivity]. Qed.
Example uint8_params : good_params paramsUint8.
Proof. split; [constructor; cbn; lia|reflexivity]. Qed.
Example no_noise : key_noise_within paramsUint8 no_noise_rk no_noise_rb 0 0 /\ worst_noise paramsUint8 half_key 0 0 0 0 = 2375547 /\ 2375547 < 2 ^ (30 - 8).
Proof. split; [split; intros; vm_compute; discriminate|]. split; vm_compute; reflexivity. Qed.

(** All hypotheses at once, at Uint8 in exact arithmetic: an encryption of 100
    whose refreshed ciphertext decrypts to something else. *)
Example C51_uint8_full : exists O ck, setup real_arith O paramsUint8 half_key no_noise_rk no_noise_rb ck /\
  exists e (m : mem (FP O)) ct, reachable O paramsUint8 e m /\ user m e ct /\
    encodes 1160 (KeyLv0 half_key) (tm m ct) 256 100 1 /\
    DecryptLWEMessage 1160 (tm m ct) 256 (KeyLv0 half_key) = Ok 100 /\
  exists r m' v, BootstrapFunc O paramsUint8 m e ct (fun x => x) 256 (BootstrappingKey ck) (KeySwitchingKey ck) (DecompositionOffset ck) = Ok (r, m') /\
    DecryptLWEMessage 1160 (tm m' r) 256 (KeyLv0 half_key) = Ok v /\ v <> 100.
Proof.
  destruct (setup_exists real_arith paramsUint8 half_key no_noise_rk no_noise_rb uint8_params ltac:(cbn; lia) half_key_ok) as (O & ck & S).
  exists O, ck. split; [exact S|]. destruct half_key_weight as [HB HW]. destruct no_noise as (N1 & N2 & N3).
  destruct (many_one 1160 1 10 _ ltac:(lia) ltac:(lia) (C51_refresh_uint8_refuted (KeyLv0 half_key) HB ltac:(rewrite HW; lia))) as (a & Ha & B).
  destruct (mask_start real_arith O paramsUint8 half_key no_noise_rk no_noise_rb ck S 8 a 100 ltac:(lia) ltac:(lia) Ha) as (e & m & ct & Hr & Hu & Hm & He).
  exists e, m, ct. split; [exact Hr|]. split; [exact Hu|]. split; [exact He|].
  assert (L: zlen (tm m ct) = 1160 + 1) by (apply He).
  split. { apply (decodes_pow2 1160 _ 8 100 _ 1); [lia|lia|rewrite (proj1 HB); lia|lia|lia|apply He|lia]. }
  destruct (B real_arith O half_key no_noise_rk no_noise_rb ck S eq_refl e m ct (fun x => x) 100 (worst_noise paramsUint8 half_key 0 0 0 0) Hr) as (r & m' & v & E1 & E2 & Q & _).
  - split; [apply He|left; exact Hu].
  - exact Hm.
  - lia.
  - destruct He as [He1 (e0 & He2 & He3)]. split; [exact He1|]. exists e0. split; [clear - He2; lia|exact He3].
  - apply (real_worst O paramsUint8 half_key no_noise_rk no_noise_rb ck 0 0 _ _ _ S N1); [lia|lia|lia|exact L].
  - rewrite N2. exact N3.
  - exists r, m', v. split; [exact E1|]. split; [exact E2|]. apply Q; [reflexivity|lia].
Qed.

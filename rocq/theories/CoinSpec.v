(** * Coin tosses of re-encryption keys

    Vocabulary for statements about how often a re-encryption goes wrong.  A
    public key encryption tosses two coins for every zero encryption in the key
    (use it or not, add or subtract it), and the sign of a noise sample is one
    more toss: the normal distribution is symmetric.  Everything else that is
    drawn is fixed, and the tosses are counted.  No proofs. *)
From Coq Require Import Reals.
From Verif Require Import GoBase F64 Utils Spec Tlwe ProxyReenc ReencSpec.
Local Open Scope Z_scope.

(** [len] tosses of two coins each *)
Definition tosses (len : Z) (w : list Z) : Prop := zlen w = len /\ Forall (fun x => 0 <= x < 4) w.

Definition tosses_in_all (lens : list Z) : Z := fold_right Z.add 0 lens.

(** Of all sequences of toss lists with the lengths [lens], [P] holds for all
    but at most the fraction [eps]. *)
Definition but_for (lens : list Z) (eps : R) (P : list (list Z) -> Prop) : Prop :=
  exists l, (forall ws, Forall2 tosses lens ws -> ~ In ws l -> P ws) /\
    (IZR (zlen l) <= eps * IZR (4 ^ tosses_in_all lens))%R.

(** the noise sample [d] or its opposite *)
Definition signed (c : Z) (d : f64) : f64 := if Z.odd c then fopp d else d.

(** What public key encryption number [idx] draws, by the tosses [w]: there
    are [size] + 1 tosses for each encryption, one for each zero encryption in
    the key and one for the sign of the noise [d]. *)
Definition toss (w : list Z) (size idx e : Z) : Z := zn w (idx * (size + 1) + e).
Definition pk_draw (w : list Z) (size idx : Z) (d : f64) : pk_rand :=
  {| pk_use := fun e => 2 <=? toss w size idx e; pk_add := fun e => Z.odd (toss w size idx e); pk_noise := signed (toss w size idx size) d |}.

(** One hop of a chain: to whom, and by which kind of key.  An asymmetric key
    is made from a public key with [size] zero encryptions. *)
Variant hop_to : Type :=
  | Asymmetric (b : list Z) (size : Z) (zeros : Z -> enc_rand) (noise : Z -> f64)
  | Symmetric (b : list Z) (mask : Z -> Z -> Z) (noise : Z -> f64).
Definition to_key (h : hop_to) : list Z := match h with Asymmetric b _ _ _ => b | Symmetric b _ _ => b end.
Definition to_noise (h : hop_to) : Z -> f64 := match h with Asymmetric _ _ _ d => d | Symmetric _ _ d => d end.
Definition to_size (h : hop_to) : Z := match h with Asymmetric _ size _ _ => size | Symmetric _ _ _ => 0 end.
(** the sum of the squares of the noises in the public key *)
Definition to_squares (h : hop_to) : Z :=
  match h with Asymmetric _ size zeros _ => zsum size (fun e => sample (er_noise (zeros e)) ^ 2) | Symmetric _ _ _ => 0 end.

Section Relay.
Context (n basebit t : Z).

(** how many tosses the key of one hop takes *)
Definition toss_count (h : hop_to) : Z := 2 ^ basebit * t * n * (to_size h + 1).

(** the key of one hop, from the key [a] *)
Definition hop_key (a : list Z) (h : hop_to) (w : list Z) : res ProxyReencryptionKey :=
  match h with
  | Asymmetric b size zeros noise =>
      pk <- NewPublicKeyLv0WithParams n b size zeros ;;
      NewProxyReencryptionKeyAsymmetricWithParams n a pk basebit t (fun idx => pk_draw w size idx (noise idx))
  | Symmetric b mask noise =>
      NewProxyReencryptionKeySymmetricWithParams n a b basebit t (fun idx => {| er_mask := mask idx; er_noise := signed (toss w 0 idx 0) (noise idx) |})
  end.

(** the noise of entry [idx] of that key *)
Definition hop_noise (h : hop_to) (w : list Z) (idx : Z) : Z :=
  match h with
  | Asymmetric _ size zeros noise => pk_total size zeros (pk_draw w size idx (noise idx))
  | Symmetric _ _ noise => sample (signed (toss w 0 idx 0) (noise idx))
  end.

(** the keys are made, and the ciphertext goes from hand to hand *)
Fixpoint relay (a : list Z) (hs : list hop_to) (ws : list (list Z)) (ct : list Z) : res (list Z) :=
  match hs, ws with
  | h :: hs, w :: ws => rk <- hop_key a h w ;; ct <- ReencryptTLWELv0 n ct rk ;; relay (to_key h) hs ws ct
  | _, _ => Ok ct
  end.
Fixpoint last_key (a : list Z) (hs : list hop_to) : list Z :=
  match hs with [] => a | h :: hs => last_key (to_key h) hs end.

(** the receivers' keys are binary, and the noises at most F *)
Definition hop_good (F : Z) (h : hop_to) : Prop :=
  bin_key n (to_key h) /\ 0 <= to_size h /\ forall idx, is_fin (to_noise h idx) = true /\ Z.abs (sample (to_noise h idx)) <= F.

(** what rounding to digits can move: half a digit step for each key bit *)
Fixpoint rounding (a : list Z) (hs : list hop_to) : Z :=
  match hs with [] => 0 | h :: hs => weight n a * 2 ^ (31 - basebit * t) + rounding (to_key h) hs end.

(** the spread of the noise: for each digit of each hop, the squares of the
    public key's noises and twice the square of the largest fresh noise *)
Fixpoint spread (F : Z) (hs : list hop_to) : Z :=
  match hs with [] => 0 | h :: hs => n * t * (to_squares h + 2 * F ^ 2) + spread F hs end.
End Relay.

(** the number of digits of the mask of [ct] that are not 0: for each of them a
    re-encryption subtracts an entry of the key *)
Definition digits_used (n basebit t : Z) (ct : list Z) : Z :=
  zsum n (fun i => zsum t (fun j => if digit basebit t (zn ct i) j =? 0 then 0 else 1)).

(** the sum over a list *)
Definition sum_over {A} (f : A -> Z) (l : list A) : Z := fold_right (fun x a => f x + a) 0 l.

(** * What somebody who may have ciphertexts converted or decrypted can compute

    Specification file for property C53: an attacker, not part of the code in
    /repo. *)
From Coq Require Import List.
From Verif Require Import GoBase Attack.
Import ListNotations.
Local Open Scope Z_scope.

(** The ciphertext with 1/4 at position [i] of the mask, 0 elsewhere, and 1/8
    as its last component: its phase is 1/8 or -1/8 as the key's bit is 0 or 1. *)
Definition probe (n i : Z) : list Z := map (fun k => if Z.of_nat k =? i then 2 ^ 30 else if Z.of_nat k =? n then 2 ^ 29 else 0) (seq 0 (Z.to_nat (n + 1))).

(** [ask] tells the bit a ciphertext decrypts to; n questions *)
Definition spy (n : Z) (ask : list Z -> res bool) : res (list Z) :=
  mapr (fun k => b <- ask (probe n (Z.of_nat k)) ;; Ok (if b : bool then 0 else 1)) (seq 0 (Z.to_nat n)).

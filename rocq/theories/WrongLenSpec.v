(** * Vocabulary for C68: ciphertexts of a wrong length

    Vocabulary for statements.  No proofs. *)
From Verif Require Import GoBase.
Local Open Scope Z_scope.

(** fewer than the n+1 entries of a ciphertext of dimension n *)
Definition too_short (n : Z) (P : list Z) : Prop := zlen P <= n.
(** the same first n+1 entries; either may have more *)
Definition same_start (n : Z) (P Q : list Z) : Prop := forall i, 0 <= i <= n -> get P i = get Q i.
(** keys: fewer than n entries, and the same first n entries *)
Definition key_short {A} (n : Z) (k : list A) : Prop := zlen k < n.
Definition key_start {A} (n : Z) (k k' : list A) : Prop := forall i, 0 <= i < n -> get k i = get k' i.

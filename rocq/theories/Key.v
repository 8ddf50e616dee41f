(** * Package key (key/key.go) *)
From Verif Require Import GoBase Params.
Local Open Scope Z_scope.

Record SecretKey : Type := { KeyLv0 : list Z; KeyLv1 : list Z }.

(** key/key.go:16-45 NewSecretKey.  [bit0 i], [bit1 i] are the successive
    results of [rng.Intn(2) == 1], arbitrary booleans. *)
Definition NewSecretKey (pr : pset) (bit0 bit1 : Z -> bool) : res SecretKey :=
  let lv0N := lv0_N pr in
  let lv1N := lv1_N pr in
  keyLv0 <- make 0 lv0N ;;
  keyLv1 <- make 0 lv1N ;;
  keyLv0 <- for_range 0 lv0N (fun i k => if bit0 i then set k i 1 else set k i 0) keyLv0 ;;
  keyLv1 <- for_range 0 lv1N (fun i k => if bit1 i then set k i 1 else set k i 0) keyLv1 ;;
  Ok {| KeyLv0 := keyLv0; KeyLv1 := keyLv1 |}.

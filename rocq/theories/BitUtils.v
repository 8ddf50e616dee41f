(** * Package bitutils (bitutils/bitutils.go) *)
From Verif Require Import GoBase F64 Tlwe.
Local Open Scope Z_scope.

(** bitutils/bitutils.go:10-19, 21-30, 32-41, 43-52: ConvertU8, ConvertU16,
    ConvertU32, ConvertU64 are the same loop at width 8, 16, 32, 64. *)
Definition ConvertU (width : Z) (bits : list bool) : res Z :=
  for_down 0 (zlen bits) (fun i result =>
    let result := wN width (Z.shiftl result 1) in
    b <- get bits i ;;
    Ok (if b : bool then Z.lor result 1 else result)) 0.
Definition ConvertU8 := ConvertU 8.
Definition ConvertU16 := ConvertU 16.
Definition ConvertU32 := ConvertU 32.
Definition ConvertU64 := ConvertU 64.

(** bitutils/bitutils.go:56-62 ToBits; [val] is an uint64, [size] an int *)
Definition ToBits (val size : Z) : res (list bool) :=
  vec <- make false size ;;
  for_range 0 size (fun i vec => v <- Ok (negb (Z.land (Z.shiftr val i) 1 =? 0)) ;; set vec i v) vec.

(** bitutils/bitutils.go:65-82 *)
Definition U8ToBits (val : Z) := ToBits val 8.
Definition U16ToBits (val : Z) := ToBits val 16.
Definition U32ToBits (val : Z) := ToBits val 32.
Definition U64ToBits (val : Z) := ToBits val 64.

(** bitutils/bitutils.go:85-91 EncryptBits; [r i] is the randomness of the
    i-th encryption.  A nil ciphertext pointer is the empty slice here. *)
Definition EncryptBits (n : Z) (bits : list bool) (key : list Z) (r : Z -> enc_rand) : res (list (list Z)) :=
  result <- make [] (zlen bits) ;;
  for_each bits (fun i bit result =>
    ct <- (t <- NewTLWE n ;; EncryptBool n t bit key (r i)) ;;
    set result i ct) result.

(** bitutils/bitutils.go:94-100 DecryptBits *)
Definition DecryptBits (n : Z) (ctxts : list (list Z)) (key : list Z) : res (list bool) :=
  result <- make false (zlen ctxts) ;;
  for_each ctxts (fun i ctxt result =>
    b <- DecryptBool n ctxt key ;;
    set result i b) result.

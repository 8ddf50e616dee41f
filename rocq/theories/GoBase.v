(** * Go semantics used by the model

    Machine words, panics, slices and [for] loops.  No proofs here. *)
From Coq Require Import String.
From Coq Require Export ZArith Bool List.
Export ListNotations.
Local Open Scope Z_scope.

(** ** Panics *)

(** The run-time panics the modelled code can raise.  [PUnsafe] is not a Go
    panic: it marks an access through [unsafe.Pointer] that leaves its slice,
    which in Go is undefined behaviour. *)
Inductive perr : Type :=
| PIndex                 (* index out of range *)
| PDiv0                  (* integer division by zero *)
| PShift                 (* negative shift amount *)
| PMake                  (* make: negative length *)
| PUnsafe                (* unsafe access outside a slice *)
| PNil                   (* nil dereference *)
| PMsg (s : string).     (* explicit panic(...) *)

Inductive res (A : Type) : Type :=
| Ok (a : A)
| Panic (e : perr).
Arguments Ok {A} a.
Arguments Panic {A} e.

Definition bind {A B} (r : res A) (f : A -> res B) : res B :=
  match r with Ok a => f a | Panic e => Panic e end.

Declare Scope go_scope.
Delimit Scope go_scope with go.
Notation "x <- e ;; k" := (bind e (fun x => k))
  (at level 61, e at next level, right associativity) : go_scope.
Notation "' p <- e ;; k" := (bind e (fun p => k))
  (at level 61, p strict pattern, e at next level, right associativity) : go_scope.
Notation "e ;;; k" := (bind e (fun _ => k))
  (at level 61, right associativity) : go_scope.
Global Open Scope go_scope.

Definition is_ok {A} (r : res A) : bool := match r with Ok _ => true | _ => false end.
Definition is_panic {A} (r : res A) : bool := match r with Ok _ => false | _ => true end.

(** ** Words *)

Definition two32 : Z := 4294967296.
Definition two31 : Z := 2147483648.
Definition two64 : Z := 18446744073709551616.
Definition two63 : Z := 9223372036854775808.

(** uint32 wrap-around: every arithmetic result of type [params.Torus]. *)
Definition w32 (z : Z) : Z := z mod two32.
(** uint64 / uint16 / uint8 wrap-around *)
Definition wN (bits z : Z) : Z := z mod 2 ^ bits.
(** int32(x) for x an uint32 *)
Definition int32 (z : Z) : Z := (z + two31) mod two32 - two31.
(** int64 wrap-around *)
Definition int64 (z : Z) : Z := (z + two63) mod two64 - two63.

Definition tadd (a b : Z) : Z := w32 (a + b).
Definition tsub (a b : Z) : Z := w32 (a - b).
Definition tmul (a b : Z) : Z := w32 (a * b).
Definition tneg (a : Z) : Z := w32 (- a).
(** [^Torus(0) - a]: all ones minus [a], which is [-a-1] modulo 2^32. *)
Definition tnot (a : Z) : Z := tsub (two32 - 1) a.

(** Go [x << s], [x >> s] on uint32 with a signed shift count: a negative
    count panics, a count >= 32 gives 0. *)
Definition shl32 (x s : Z) : res Z :=
  if s <? 0 then Panic PShift else Ok (w32 (Z.shiftl x s)).
Definition shr32 (x s : Z) : res Z :=
  if s <? 0 then Panic PShift else Ok (Z.shiftr x s).

(** Go integer division and remainder truncate toward zero. *)
Definition go_div (a b : Z) : res Z := if b =? 0 then Panic PDiv0 else Ok (Z.quot a b).
Definition go_rem (a b : Z) : res Z := if b =? 0 then Panic PDiv0 else Ok (Z.rem a b).

(** ** Slices *)

Definition zlen {A} (l : list A) : Z := Z.of_nat (length l).

Definition get {A} (l : list A) (i : Z) : res A :=
  if i <? 0 then Panic PIndex
  else match nth_error l (Z.to_nat i) with Some a => Ok a | None => Panic PIndex end.

Fixpoint upd_nat {A} (l : list A) (i : nat) (v : A) : list A :=
  match l, i with
  | [], _ => []
  | _ :: t, O => v :: t
  | x :: t, S i' => x :: upd_nat t i' v
  end.

Definition upd {A} (l : list A) (i : Z) (v : A) : list A := upd_nat l (Z.to_nat i) v.

Definition set {A} (l : list A) (i : Z) (v : A) : res (list A) :=
  if (i <? 0) || (zlen l <=? i) then Panic PIndex else Ok (upd l i v).

(** [make([]T, n)] *)
Definition make {A} (zero : A) (n : Z) : res (list A) :=
  if n <? 0 then Panic PMake else Ok (repeat zero (Z.to_nat n)).

(** [copy(dst, src)]: copies min(len dst, len src) elements, never panics. *)
Definition copy_slice {A} (dst src : list A) : list A :=
  firstn (length dst) src ++ skipn (length src) dst.

(** [s[:n]] for n within the capacity; the model keeps cap = len. *)
Definition slice_to {A} (l : list A) (n : Z) : res (list A) :=
  if (n <? 0) || (zlen l <? n) then Panic PIndex else Ok (firstn (Z.to_nat n) l).

(** ** Loops *)

(** [for i := start; ...; i += step] with [n] iterations. *)
Fixpoint loop {S} (n : nat) (i step : Z) (body : Z -> S -> res S) (s : S) : res S :=
  match n with
  | O => Ok s
  | S n' => s' <- body i s ;; loop n' (i + step) step body s'
  end.

(** [for i := lo; i < hi; i++] *)
Definition for_range {S} (lo hi : Z) (body : Z -> S -> res S) (s : S) : res S :=
  loop (Z.to_nat (hi - lo)) lo 1 body s.

(** [for i := lo; i < hi; i += step], step > 0 *)
Definition for_step {S} (lo hi step : Z) (body : Z -> S -> res S) (s : S) : res S :=
  loop (Z.to_nat ((hi - lo + step - 1) / step)) lo step body s.

(** [for i := hi - 1; i >= lo; i--] *)
Definition for_down {S} (lo hi : Z) (body : Z -> S -> res S) (s : S) : res S :=
  loop (Z.to_nat (hi - lo)) (hi - 1) (-1) body s.

(** [for i, x := range l] *)
Fixpoint for_each_nat {A S} (i : Z) (l : list A) (body : Z -> A -> S -> res S) (s : S) : res S :=
  match l with
  | [] => Ok s
  | x :: t => s' <- body i x s ;; for_each_nat (i + 1) t body s'
  end.
Definition for_each {A S} (l : list A) (body : Z -> A -> S -> res S) (s : S) : res S :=
  for_each_nat 0 l body s.

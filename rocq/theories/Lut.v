(** * Package lut (lut/encoder.go, lut/generator.go, lut/lut.go) *)
From Verif Require Import GoBase F64 Utils Params Trlwe.
Local Open Scope Z_scope.

(** lut/encoder.go:9-12 *)
Record Encoder : Type := { MessageModulus : Z; Scale : f64 }.

(** lut/encoder.go:17-29 NewEncoder *)
Definition NewEncoder (messageModulus : Z) : Encoder :=
  {| MessageModulus := messageModulus;
     Scale := fdiv (f_of_Z 1) (f_of_Z (2 * messageModulus)) |}.

(** lut/encoder.go:32-37 NewEncoderWithScale *)
Definition NewEncoderWithScale (messageModulus : Z) (scale : f64) : Encoder :=
  {| MessageModulus := messageModulus; Scale := scale |}.

(** [message % m; if message < 0 { message += m }] (encoder.go:49-52, 79-82, 96-99) *)
Definition normalize (message m : Z) : res Z :=
  r <- go_rem message m ;; Ok (if r <? 0 then r + m else r).

(** lut/encoder.go:47-75 Encode *)
Definition Encode (e : Encoder) (message : Z) : res Z :=
  message <- normalize message (MessageModulus e) ;;
  Ok (F64ToTorus (fmul (f_of_Z message) (Scale e))).

(** lut/encoder.go:78-85 EncodeWithCustomScale *)
Definition EncodeWithCustomScale (e : Encoder) (message : Z) (scale : f64) : res Z :=
  message <- normalize message (MessageModulus e) ;;
  Ok (F64ToTorus (fmul (f_of_Z message) scale)).

(** the constant 0.5 *)
Definition f_half : f64 := flit 1 (-1).

(** lut/encoder.go:88-102 Decode; int64(x) of a float out of range is [other x] *)
Definition Decode_on (other : f64 -> Z) (e : Encoder) (value : Z) : res Z :=
  let f := TorusToF64 value in
  let message := f_int64 other (fadd (fdiv f (Scale e)) f_half) in
  normalize message (MessageModulus e).
Definition Decode : Encoder -> Z -> res Z := Decode_on amd64_int64.

(** lut/encoder.go:105-107 DecodeBool *)
Definition DecodeBool (e : Encoder) (value : Z) : res bool :=
  m <- Decode e value ;; Ok (negb (m =? 0)).

(** ** Lookup tables (lut/lut.go) and their generator (lut/generator.go) *)

(** lut/generator.go:10-14 *)
Record Generator : Type := { gEncoder : Encoder; PolyDegree : Z; LookUpTableSize : Z }.

(** lut/generator.go:17-28 NewGenerator *)
Definition NewGenerator (pr : pset) (messageModulus : Z) : Generator :=
  {| gEncoder := NewEncoder messageModulus; PolyDegree := g_N pr; LookUpTableSize := g_N pr |}.

(** lut/generator.go:31-38 NewGeneratorWithScale *)
Definition NewGeneratorWithScale (pr : pset) (messageModulus : Z) (scale : f64) : Generator :=
  {| gEncoder := NewEncoderWithScale messageModulus scale; PolyDegree := g_N pr; LookUpTableSize := g_N pr |}.

(** lut/generator.go:171-173 divRound *)
Definition divRound (a b : Z) : res Z :=
  h <- go_div b 2 ;; go_div (a + h) b.

(** lut/lut.go:20-24 NewLookUpTable: a TRLWE ciphertext *)
Definition NewLookUpTable (pr : pset) : res trlwe := NewTRLWELv1 pr.

(** the common body of GenLookUpTableAssign (lut/generator.go:56-100) and
    GenLookUpTableFullAssign (110-141); [enc x] is the torus value stored for
    message x, computed inside the loop over x *)
Definition gen_lut (g : Generator) (enc : Z -> res Z) (lutOut : trlwe) : res trlwe :=
  let messageModulus := MessageModulus (gEncoder g) in
  let size := LookUpTableSize g in
  lutRaw <- make 0 size ;;
  lutRaw <- for_range 0 messageModulus (fun x lutRaw =>
      start <- divRound (x * size) messageModulus ;;
      end_ <- divRound ((x + 1) * size) messageModulus ;;
      y <- enc x ;;
      for_range start end_ (fun xx lutRaw => set lutRaw xx y) lutRaw) lutRaw ;;
  offset <- divRound size (2 * messageModulus) ;;
  rotated <- make 0 size ;;
  rotated <- for_range 0 size (fun i rotated =>
      v <- (srcIdx <- go_rem (i + offset) size ;; get lutRaw srcIdx) ;;
      set rotated i v) rotated ;;
  rotated <- for_range (size - offset) size (fun i rotated =>
      v <- get rotated i ;; set rotated i (tneg v)) rotated ;;
  for_range 0 size (fun i out =>
      v <- get rotated i ;;
      b <- set (tB out) i v ;;
      a <- set (tA out) i 0 ;;
      Ok {| tA := a; tB := b |}) lutOut.

(** lut/generator.go:56-100 GenLookUpTableAssign *)
Definition GenLookUpTableAssign (g : Generator) (f : Z -> Z) (lutOut : trlwe) : res trlwe :=
  gen_lut g (fun x => Encode (gEncoder g) (f x)) lutOut.

(** lut/generator.go:41-45 GenLookUpTable *)
Definition GenLookUpTable (pr : pset) (g : Generator) (f : Z -> Z) : res trlwe :=
  lut <- NewLookUpTable pr ;; GenLookUpTableAssign g f lut.

(** lut/generator.go:110-141 GenLookUpTableFullAssign *)
Definition GenLookUpTableFullAssign (g : Generator) (f : Z -> Z) (lutOut : trlwe) : res trlwe :=
  gen_lut g (fun x => Ok (f x)) lutOut.

(** lut/generator.go:103-107 GenLookUpTableFull *)
Definition GenLookUpTableFull (pr : pset) (g : Generator) (f : Z -> Z) : res trlwe :=
  lut <- NewLookUpTable pr ;; GenLookUpTableFullAssign g f lut.

(** lut/generator.go:144-155 GenLookUpTableCustom: returns the table and the
    generator after the call *)
Definition GenLookUpTableCustom (pr : pset) (g : Generator) (f : Z -> Z) (messageModulus : Z) (scale : f64)
    : res (trlwe * Generator) :=
  lut <- NewLookUpTable pr ;;
  let oldEncoder := gEncoder g in
  let g := {| gEncoder := NewEncoderWithScale messageModulus scale;
              PolyDegree := PolyDegree g; LookUpTableSize := LookUpTableSize g |} in
  lut <- GenLookUpTableAssign g f lut ;;
  let g := {| gEncoder := oldEncoder;
              PolyDegree := PolyDegree g; LookUpTableSize := LookUpTableSize g |} in
  Ok (lut, g).

(** lut/generator.go:159-168 ModSwitch; int64(x) of a float out of range is
    [other x] *)
Definition ModSwitch_on (other : f64 -> Z) (g : Generator) (x : Z) : res Z :=
  let scaled := fmul (fdiv (f_of_Z x) (f_pow2 32)) (f_of_Z (LookUpTableSize g)) in
  result <- go_rem (f_int64 other (fround scaled)) (LookUpTableSize g) ;;
  Ok (if result <? 0 then result + LookUpTableSize g else result).
Definition ModSwitch : Generator -> Z -> res Z := ModSwitch_on amd64_int64.

(** lut/lut.go:27-32 Copy *)
Definition Lut_Copy (pr : pset) (lut : trlwe) : res trlwe :=
  r <- NewLookUpTable pr ;;
  Ok {| tA := copy_slice (tA r) (tA lut); tB := copy_slice (tB r) (tB lut) |}.

(** lut/lut.go:35-38 CopyFrom *)
Definition Lut_CopyFrom (lut other : trlwe) : trlwe :=
  {| tA := copy_slice (tA lut) (tA other); tB := copy_slice (tB lut) (tB other) |}.

(** lut/lut.go:41-47 Clear *)
Definition Lut_Clear (pr : pset) (lut : trlwe) : res trlwe :=
  for_range 0 (g_N pr) (fun i lut =>
    a <- set (tA lut) i 0 ;; b <- set (tB lut) i 0 ;; Ok {| tA := a; tB := b |}) lut.

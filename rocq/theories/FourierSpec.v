(** * What a program over the polynomial API means

    Independent of the Fourier transform: a FourierPoly variable stands for an
    integer polynomial modulo X^N + 1, a Poly variable for a polynomial with
    coefficients modulo 2^32.  [None] is "unspecified": ToPolyAssignUnsafe and
    its Add and Sub forms use their Fourier argument as scratch space, so the
    variable means nothing afterwards, nor does what is computed from it. *)
From Coq Require Import String.
From Verif Require Import GoBase GoMem Spec Poly Fft FourierApi.
Local Open Scope Z_scope.

Definition poly : Type := Z -> Z.
Definition pzero : poly := fun _ => 0.
Definition padd (a b : poly) : poly := fun i => a i + b i.
Definition psub (a b : poly) : poly := fun i => a i - b i.
Definition pscale (c : Z) (a : poly) : poly := fun i => c * a i.
(** p.Coeffs[k] = v *)
Definition pwrite (k v : Z) (a : poly) : poly := fun i => if i =? k then v else a i.
(** torus polynomial to signed integers, and back *)
Definition psigned (a : poly) : poly := fun i => centered (a i).
Definition preduce (a : poly) : poly := fun i => a i mod two32.

Definition om1 (f : poly -> poly) (a : option poly) : option poly :=
  match a with Some a => Some (f a) | None => None end.
Definition om2 (f : poly -> poly -> poly) (a b : option poly) : option poly :=
  match a, b with Some a, Some b => Some (f a b) | _, _ => None end.
Definition om3 (f : poly -> poly -> poly -> poly) (a b c : option poly) : option poly :=
  match a, b, c with Some a, Some b, Some c => Some (f a b c) | _, _, _ => None end.

(** the values of the FourierPoly and of the Poly variables *)
Definition values : Type := list (option poly) * list (option poly).

(** [Panic]: the call names a variable that does not exist, or writes outside
    the polynomial or something that is not a torus element *)
Definition mean1 (N : Z) (c : call) (v : values) : res values :=
  let '(F, P) := v in
  let newF x := Ok (F ++ [x], P) in
  let newP x := Ok (F, P ++ [x]) in
  let setF o x := F' <- set F o x ;; Ok (F', P) in
  let setP o x := P' <- set P o x ;; Ok (F, P') in
  (* the Unsafe forms: the Fourier variable a is used up *)
  let takeF a p x := F' <- set F a None ;; P' <- set P p x ;; Ok (F', P') in
  let prod := fun a b => negacyclic N (psigned a) (psigned b) in
  match c with
  | NewP => newP (Some pzero)
  | NewF => newF (Some pzero)
  | Write p i w =>
      if (0 <=? i) && (i <? N) && (0 <=? w) && (w <? two32)
      then x <- get P p ;; setP p (om1 (pwrite i w) x) else Panic PIndex
  | CopyP p => x <- get P p ;; newP x
  | ClearP p => _ <- get P p ;; setP p (Some pzero)
  | CopyF a => x <- get F a ;; newF x
  | CopyFrom a b => _ <- get F a ;; y <- get F b ;; setF a y
  | ClearF a => _ <- get F a ;; setF a (Some pzero)
  | ToF p => x <- get P p ;; newF (om1 psigned x)
  | ToFAssign p o => x <- get P p ;; _ <- get F o ;; setF o (om1 psigned x)
  | ToP a => x <- get F a ;; newP (om1 preduce x)
  | ToPAssign a p => x <- get F a ;; _ <- get P p ;; setP p (om1 preduce x)
  | ToPUnsafe a p => x <- get F a ;; _ <- get P p ;; takeF a p (om1 preduce x)
  | ToPAdd a p => x <- get F a ;; y <- get P p ;; takeF a p (om2 (fun x y => preduce (padd y x)) x y)
  | ToPSub a p => x <- get F a ;; y <- get P p ;; takeF a p (om2 (fun x y => preduce (psub y x)) x y)
  | AddF a b => x <- get F a ;; y <- get F b ;; newF (om2 padd x y)
  | SubF a b => x <- get F a ;; y <- get F b ;; newF (om2 psub x y)
  | MulF a b => x <- get F a ;; y <- get F b ;; newF (om2 (negacyclic N) x y)
  | AddAssign a b o => x <- get F a ;; y <- get F b ;; _ <- get F o ;; setF o (om2 padd x y)
  | SubAssign a b o => x <- get F a ;; y <- get F b ;; _ <- get F o ;; setF o (om2 psub x y)
  | MulAssign a b o => x <- get F a ;; y <- get F b ;; _ <- get F o ;; setF o (om2 (negacyclic N) x y)
  | MulAddAssign a b o => x <- get F a ;; y <- get F b ;; z <- get F o ;; setF o (om3 (fun x y z => padd z (negacyclic N x y)) x y z)
  | MulSubAssign a b o => x <- get F a ;; y <- get F b ;; z <- get F o ;; setF o (om3 (fun x y z => psub z (negacyclic N x y)) x y z)
  | FloatMul a k o => x <- get F a ;; _ <- get F o ;; setF o (om1 (pscale k) x)
  | FloatMulAdd a k o => x <- get F a ;; z <- get F o ;; setF o (om2 (fun x z => padd z (pscale k x)) x z)
  | MulP p q => x <- get P p ;; y <- get P q ;; newP (om2 (fun x y => preduce (prod x y)) x y)
  | MulPAssign p q o => x <- get P p ;; y <- get P q ;; _ <- get P o ;; setP o (om2 (fun x y => preduce (prod x y)) x y)
  | MulPAdd p q o => x <- get P p ;; y <- get P q ;; z <- get P o ;; setP o (om3 (fun x y z => preduce (padd z (prod x y))) x y z)
  | MulPSub p q o => x <- get P p ;; y <- get P q ;; z <- get P o ;; setP o (om3 (fun x y z => preduce (psub z (prod x y))) x y z)
  end.

Fixpoint mean (N : Z) (cs : list call) (v : values) : res values :=
  match cs with [] => Ok v | c :: cs => v <- mean1 N c v ;; mean N cs v end.

(** ** Error budget for float64

    One run over the program with integers only.  A Fourier variable carries
    (S, e): its 2^h complex values are at most S in modulus, and the computed
    ones are within e * 2^-53 * S of them.  A Poly variable carries a bound on
    its signed coefficients. *)
Record costs : Type := {
  CB : Type;
  c_zero : CB;
  c_of : Z -> option CB;
  c_add : CB -> CB -> option CB;
  c_mul : CB -> CB -> option CB;
  c_ma : CB -> CB -> CB -> option CB;        (* o + a*b: arguments a, b, o *)
  c_scale : Z -> CB -> option CB;
  c_scadd : Z -> CB -> CB -> option CB;      (* o + k*a: arguments k, a, o *)
  c_read : CB -> bool;                       (* the coefficients are read back exactly *)
  c_prod : Z -> Z -> bool                    (* products of two Poly with these bounds are exact *)
}.

Section Budget.
Context (C : costs).
Notation B := (option (CB C)).

Definition pay (x : option (CB C)) : res B := match x with Some b => Ok (Some b) | None => Panic (PMsg "budget") end.
Definition bo1 (f : CB C -> option (CB C)) (a : B) : res B := match a with Some a => pay (f a) | None => Ok None end.
Definition bo2 (f : CB C -> CB C -> option (CB C)) (a b : B) : res B :=
  match a, b with Some a, Some b => pay (f a b) | _, _ => Ok None end.
Definition bo3 (f : CB C -> CB C -> CB C -> option (CB C)) (a b c : B) : res B :=
  match a, b, c with Some a, Some b, Some c => pay (f a b c) | _, _, _ => Ok None end.
Definition bread (a : B) : res unit :=
  match a with Some b => if c_read C b then Ok tt else Panic (PMsg "budget") | None => Ok tt end.
(** the product of two Poly variables *)
Definition bprod (d1 d2 : Z) : res unit :=
  if c_prod C d1 d2 then Ok tt else Panic (PMsg "budget").

Definition budget1 (c : call) (s : list B * list Z) : res (list B * list Z) :=
  let '(F, P) := s in
  let newF x := Ok (F ++ [x], P) in
  let newP x := Ok (F, P ++ [x]) in
  let setF o x := F' <- set F o x ;; Ok (F', P) in
  let setP o x := P' <- set P o x ;; Ok (F, P') in
  let takeF a p := F' <- set F a None ;; P' <- set P p two31 ;; Ok (F', P') in
  match c with
  | NewP => newP 0
  | NewF => newF (Some (c_zero C))
  | Write p i w => d <- get P p ;; setP p (Z.max d (Z.abs (centered w)))
  | CopyP p => d <- get P p ;; newP d
  | ClearP p => setP p 0
  | CopyF a => x <- get F a ;; newF x
  | CopyFrom a b => y <- get F b ;; setF a y
  | ClearF a => setF a (Some (c_zero C))
  | ToF p => d <- get P p ;; x <- pay (c_of C d) ;; newF x
  | ToFAssign p o => d <- get P p ;; x <- pay (c_of C d) ;; setF o x
  | ToP a => x <- get F a ;; bread x ;;; newP two31
  | ToPAssign a p => x <- get F a ;; bread x ;;; setP p two31
  | ToPUnsafe a p | ToPAdd a p | ToPSub a p => x <- get F a ;; bread x ;;; takeF a p
  | AddF a b | SubF a b => x <- get F a ;; y <- get F b ;; z <- bo2 (c_add C) x y ;; newF z
  | MulF a b => x <- get F a ;; y <- get F b ;; z <- bo2 (c_mul C) x y ;; newF z
  | AddAssign a b o | SubAssign a b o => x <- get F a ;; y <- get F b ;; z <- bo2 (c_add C) x y ;; setF o z
  | MulAssign a b o => x <- get F a ;; y <- get F b ;; z <- bo2 (c_mul C) x y ;; setF o z
  | MulAddAssign a b o | MulSubAssign a b o => x <- get F a ;; y <- get F b ;; z <- get F o ;; w <- bo3 (c_ma C) x y z ;; setF o w
  | FloatMul a k o => x <- get F a ;; z <- bo1 (c_scale C k) x ;; setF o z
  | FloatMulAdd a k o => x <- get F a ;; z <- get F o ;; w <- bo2 (c_scadd C k) x z ;; setF o w
  | MulP p q => d1 <- get P p ;; d2 <- get P q ;; bprod d1 d2 ;;; newP two31
  | MulPAssign p q o | MulPAdd p q o | MulPSub p q o => d1 <- get P p ;; d2 <- get P q ;; bprod d1 d2 ;;; setP o two31
  end.

Fixpoint budget (cs : list call) (s : list B * list Z) : res (list B * list Z) :=
  match cs with [] => Ok s | c :: cs => s <- budget1 c s ;; budget cs s end.
End Budget.

(** the rules for float64 and degree N = 2^(h+1) *)
Definition fits (s e : Z) : option (Z * Z) := if (s <=? 2 ^ 400) && (e <=? 2 ^ 25) then Some (s, e) else None.
Definition f64_costs (h : Z) : costs := {|
  CB := Z * Z;
  c_zero := (1, 0);
  c_of := fun D => fits (2 * 2 ^ h * Z.max 1 D) (32 * h);
  c_add := fun '(s, e) '(t, f) => fits (s + t) (Z.max e f + 2);
  c_mul := fun '(s, e) '(t, f) => fits (s * t) (e + f + 4);
  c_ma := fun '(s, e) '(t, f) '(u, g) => fits (u + s * t) (Z.max g (e + f + 4) + 2);
  c_scale := fun k '(s, e) => if Z.abs k <=? 2 ^ 53 then fits (Z.max 1 (Z.abs k) * s) (e + 2) else None;
  c_scadd := fun k '(s, e) '(u, g) => if Z.abs k <=? 2 ^ 53 then fits (u + Z.max 1 (Z.abs k) * s) (Z.max g (e + 2) + 2) else None;
  c_read := fun '(s, e) => s * (e + 24 * h + 3) <? 2 ^ 52;
  c_prod := fun D E => 2 * 2 ^ h * (Z.max 1 D * Z.max 1 E) * (87 * h + 7) <? 2 ^ 52
|}.
(** the program stays within the budget at degree 2^k *)
Definition affordable (k : Z) (cs : list call) : bool :=
  match budget (f64_costs (k - 1)) cs ([], []) with Ok _ => true | Panic _ => false end.

(** the Poly variables hold what the program means *)
Definition agrees {R : arith} (N : Z) (v : values) (w : world R) : Prop :=
  let '(m, fs, ps) := w in
  zlen ps = zlen (snd v) /\ zlen fs = zlen (fst v) /\
  forall j P, get (snd v) j = Ok (Some P) -> exists l,
    get ps j = Ok l /\ zlen (tm m l) = N /\ forall i, 0 <= i < N -> get (tm m l) i = Ok (P i).

(** the call [act] writes the slice [r] into the buffer [o] and changes nothing else *)
Definition computes {A : Type} (act : mem (list A) -> res (mem (list A))) (o : Z) (m : mem (list A)) (r : res (list A)) : Prop :=
  exists v m', r = Ok v /\ act m = Ok m' /\ fm m' o = v /\
    (forall z, tm m' z = tm m z) /\ (forall z, z <> o -> fm m' z = fm m z) /\ (forall z, im m' z = im m z) /\
    tnext m' = tnext m /\ fnext m' = fnext m /\ inext m' = inext m.

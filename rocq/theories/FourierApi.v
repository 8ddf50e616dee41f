(** * The public polynomial functions of poly.Evaluator, on buffers

    poly/fourier_ops.go:6-60, poly/fourier_transform.go:11-60,
    poly/poly_mul.go, poly/poly.go:41-97 and poly/poly_evaluator.go:231-238,
    with every buffer named by its location, so that an output may be one of
    the inputs.  The Fourier loops are written over the memory: each read sees
    the writes made before it.  Two slices are either the same or disjoint;
    slices that overlap in part are not modelled. *)
From Verif Require Import GoBase GoMem Poly Fft.
Local Open Scope Z_scope.

Section Api.
Context (R : arith).
Notation A := (AN R).
Notation cplx := (A * A)%type.
Notation M := (mem (list A)).

(** [v[i]] and [v[i] = x] for a []float64 *)
Definition fload (m : M) (v i : Z) : res A := get (fm m v) i.
Definition fstore (m : M) (v i : Z) (x : A) : res M := b <- set (fm m v) i x ;; Ok (fset m v b).

(** the shape of fourier_ops.go:63-79, 82-98, 101-116 and 119-134: eight
    assignments [wOut[k] = f(w0[k], w1[k], wOut[k])] per block, in order *)
Definition lanes (f : A -> A -> A -> A) (v0 v1 vOut : Z) (m : M) : res M :=
  for_step 0 (zlen (fm m vOut)) 8 (fun i m =>
    ptr (fm m v0) i 8 ;;; ptr (fm m v1) i 8 ;;; ptr (fm m vOut) i 8 ;;;
    for_range 0 8 (fun k m =>
      x <- fload m v0 (i + k) ;; y <- fload m v1 (i + k) ;; o <- fload m vOut (i + k) ;;
      fstore m vOut (i + k) (f x y o)) m) m.

(** the shape of fourier_ops.go:138-164, 167-191 and 194-218: four times per
    block, vOutR and vOutI are computed from the pairs (k, 4+k), then stored *)
Definition pairs (f : cplx -> cplx -> cplx -> cplx) (v0 v1 vOut : Z) (m : M) : res M :=
  for_step 0 (zlen (fm m vOut)) 8 (fun i m =>
    ptr (fm m v0) i 8 ;;; ptr (fm m v1) i 8 ;;; ptr (fm m vOut) i 8 ;;;
    for_range 0 4 (fun k m =>
      x0 <- fload m v0 (i + k) ;; y0 <- fload m v0 (i + 4 + k) ;;
      x1 <- fload m v1 (i + k) ;; y1 <- fload m v1 (i + 4 + k) ;;
      x2 <- fload m vOut (i + k) ;; y2 <- fload m vOut (i + 4 + k) ;;
      let r := f (x0, y0) (x1, y1) (x2, y2) in
      m <- fstore m vOut (i + k) (fst r) ;; fstore m vOut (i + 4 + k) (snd r)) m) m.

(** the evaluator: its tables, and its buffers in memory *)
Context (tw twi : list cplx) (e : peval).

(** poly/poly_evaluator.go:48 *)
Definition pe_fpInv : Z := pe_f e + 1.

(** poly/poly_evaluator.go:231-233 NewPoly, 236-238 NewFourierPoly *)
Definition E_NewPoly (m : M) : res (Z * M) := p <- NewPoly (pe_deg e) ;; Ok (alloc m p).
Definition E_NewFourierPoly (m : M) : res (Z * M) := f <- NewFourierPoly R (pe_deg e) ;; Ok (alloc_fs m 1 f).

(** fourier_ops.go:13-15, 25-27, 38-40, 43-45, 48-50 *)
Definition AddFourierPolyAssign (fp0 fp1 fpOut : Z) (m : M) : res M := lanes (fun x y _ => a_add R x y) fp0 fp1 fpOut m.
Definition SubFourierPolyAssign (fp0 fp1 fpOut : Z) (m : M) : res M := lanes (fun x y _ => a_sub R x y) fp0 fp1 fpOut m.
Definition MulFourierPolyAssign (fp0 fp1 fpOut : Z) (m : M) : res M := pairs (fun x y _ => cxmul R SMul x y) fp0 fp1 fpOut m.
Definition MulAddFourierPolyAssign (fp0 fp1 fpOut : Z) (m : M) : res M := pairs (fun x y o => cxadd R o (cxmul R SMulAdd x y)) fp0 fp1 fpOut m.
Definition MulSubFourierPolyAssign (fp0 fp1 fpOut : Z) (m : M) : res M := pairs (fun x y o => cxsub R o (cxmul R SMulSub x y)) fp0 fp1 fpOut m.
(** fourier_ops.go:53-55, 58-60; there is no second input vector *)
Definition FloatMulFourierPolyAssign (fp0 : Z) (c : A) (fpOut : Z) (m : M) : res M :=
  lanes (fun x _ _ => a_mul R c x) fp0 fp0 fpOut m.
Definition FloatMulAddFourierPolyAssign (fp0 : Z) (c : A) (fpOut : Z) (m : M) : res M :=
  lanes (fun x _ o => a_acc R o c x) fp0 fp0 fpOut m.

(** fourier_ops.go:6-10, 18-22, 30-34: a new buffer, then the Assign form *)
Definition AddFourierPoly (fp0 fp1 : Z) (m : M) : res (Z * M) :=
  '(o, m) <- E_NewFourierPoly m ;; m <- AddFourierPolyAssign fp0 fp1 o m ;; Ok (o, m).
Definition SubFourierPoly (fp0 fp1 : Z) (m : M) : res (Z * M) :=
  '(o, m) <- E_NewFourierPoly m ;; m <- SubFourierPolyAssign fp0 fp1 o m ;; Ok (o, m).
Definition MulFourierPoly (fp0 fp1 : Z) (m : M) : res (Z * M) :=
  '(o, m) <- E_NewFourierPoly m ;; m <- MulFourierPolyAssign fp0 fp1 o m ;; Ok (o, m).

(** poly/poly.go:81-85 Copy, 88-90 CopyFrom, 93-97 Clear of a FourierPoly *)
Definition FourierPoly_Copy (fp : Z) (m : M) : res (Z * M) :=
  c <- make (a_zero R) (zlen (fm m fp)) ;; Ok (alloc_fs m 1 (copy_slice c (fm m fp))).
Definition FourierPoly_CopyFrom (p p0 : Z) (m : M) : res M := Ok (fset m p (copy_slice (fm m p) (fm m p0))).
Definition FourierPoly_Clear_at (fp : Z) (m : M) : res M := v <- FourierPoly_Clear R (fm m fp) ;; Ok (fset m fp v).
(** poly/poly.go:41-45 Copy, 48-52 Clear of a Poly *)
Definition Poly_Copy_at (p : Z) (m : M) : res (Z * M) := c <- Poly_Copy (tm m p) ;; Ok (alloc m c).
Definition Poly_Clear_at (p : Z) (m : M) : res M := v <- Poly_Clear (tm m p) ;; Ok (tset m p v).

(** fourier_transform.go:18-21 and 11-15 *)
Definition ToFourierPolyAssign_at (p fpOut : Z) (m : M) : res M := v <- toFourier R tw (tm m p) (fm m fpOut) ;; Ok (fset m fpOut v).
Definition ToFourierPoly_at (p : Z) (m : M) : res (Z * M) :=
  '(o, m) <- E_NewFourierPoly m ;; m <- ToFourierPolyAssign_at p o m ;; Ok (o, m).
(** fourier_transform.go:40-44, 48-52, 56-60: the transform is undone in fp itself *)
Definition inPlace (f : list A -> list Z -> res (list A * list Z)) (fp pOut : Z) (m : M) : res M :=
  '(x, p) <- f (fm m fp) (tm m pOut) ;; Ok (tset (fset m fp x) pOut p).
Definition ToPolyAssignUnsafe_at : Z -> Z -> M -> res M := inPlace (toPoly R twi).
Definition ToPolyAddAssignUnsafe_at : Z -> Z -> M -> res M := inPlace (toPolyAdd R twi).
Definition ToPolySubAssignUnsafe_at : Z -> Z -> M -> res M := inPlace (toPolySub R twi).
(** fourier_transform.go:31-36: in the evaluator's buffer fpInv *)
Definition ToPolyAssign_at (fp pOut : Z) (m : M) : res M :=
  m <- FourierPoly_CopyFrom pe_fpInv fp m ;; ToPolyAssignUnsafe_at pe_fpInv pOut m.
(** fourier_transform.go:24-28 *)
Definition ToPoly_at (fp : Z) (m : M) : res (Z * M) :=
  '(p, m) <- E_NewPoly m ;; m <- ToPolyAssign_at fp p m ;; Ok (p, m).

(** poly/poly_mul.go:12-22, 25-30, 33-38; [back] is the last call *)
Definition mulPolyWith (back : Z -> Z -> M -> res M) (p0 p1 pOut : Z) (m : M) : res M :=
  '(fp0, m) <- ToFourierPoly_at p0 m ;;
  '(fp1, m) <- ToFourierPoly_at p1 m ;;
  m <- MulFourierPolyAssign fp0 fp1 fp0 m ;;
  back fp0 pOut m.
Definition MulPolyAssign : Z -> Z -> Z -> M -> res M := mulPolyWith ToPolyAssignUnsafe_at.
Definition MulAddPolyAssign : Z -> Z -> Z -> M -> res M := mulPolyWith ToPolyAddAssignUnsafe_at.
Definition MulSubPolyAssign : Z -> Z -> Z -> M -> res M := mulPolyWith ToPolySubAssignUnsafe_at.
(** poly/poly_mul.go:4-8 *)
Definition MulPoly_at (p0 p1 : Z) (m : M) : res (Z * M) :=
  '(o, m) <- E_NewPoly m ;; m <- MulPolyAssign p0 p1 o m ;; Ok (o, m).
End Api.

(** ** Programs using the API

    Variables of type FourierPoly and Poly are numbered in the order in which
    the program obtains them. *)
Inductive call : Type :=
  | NewP | NewF                                   (* e.NewPoly(), e.NewFourierPoly() *)
  | Write (p i v : Z)                             (* p.Coeffs[i] = v *)
  | CopyP (p : Z) | ClearP (p : Z)                (* p.Copy(), p.Clear() *)
  | CopyF (a : Z) | CopyFrom (a b : Z) | ClearF (a : Z)
  | ToF (p : Z) | ToFAssign (p o : Z)             (* e.ToFourierPoly(p), e.ToFourierPolyAssign(p, o) *)
  | ToP (a : Z) | ToPAssign (a p : Z)             (* e.ToPoly(a), e.ToPolyAssign(a, p) *)
  | ToPUnsafe (a p : Z) | ToPAdd (a p : Z) | ToPSub (a p : Z)
  | AddF (a b : Z) | AddAssign (a b o : Z)
  | SubF (a b : Z) | SubAssign (a b o : Z)
  | MulF (a b : Z) | MulAssign (a b o : Z)
  | MulAddAssign (a b o : Z) | MulSubAssign (a b o : Z)
  | FloatMul (a c o : Z) | FloatMulAdd (a c o : Z) (* with the float64 value of the integer c *)
  | MulP (p q : Z) | MulPAssign (p q o : Z) | MulPAdd (p q o : Z) | MulPSub (p q o : Z).

Section Run.
Context (R : arith) (tw twi : list (AN R * AN R)) (e : peval).
Notation M := (mem (list (AN R))).

(** memory, FourierPoly variables, Poly variables *)
Definition world : Type := M * list Z * list Z.

Definition keep (fs ps : list Z) (r : res M) : res world := m <- r ;; Ok (m, fs, ps).
Definition newF (fs ps : list Z) (r : res (Z * M)) : res world := '(l, m) <- r ;; Ok (m, fs ++ [l], ps).
Definition newP (fs ps : list Z) (r : res (Z * M)) : res world := '(l, m) <- r ;; Ok (m, fs, ps ++ [l]).

Definition exec1 (c : call) (w : world) : res world :=
  let '(m, fs, ps) := w in
  match c with
  | NewP => newP fs ps (E_NewPoly R e m)
  | NewF => newF fs ps (E_NewFourierPoly R e m)
  | Write p i v => p <- get ps p ;; keep fs ps (store m p i v)
  | CopyP p => p <- get ps p ;; newP fs ps (Poly_Copy_at R p m)
  | ClearP p => p <- get ps p ;; keep fs ps (Poly_Clear_at R p m)
  | CopyF a => a <- get fs a ;; newF fs ps (FourierPoly_Copy R a m)
  | CopyFrom a b => a <- get fs a ;; b <- get fs b ;; keep fs ps (FourierPoly_CopyFrom R a b m)
  | ClearF a => a <- get fs a ;; keep fs ps (FourierPoly_Clear_at R a m)
  | ToF p => p <- get ps p ;; newF fs ps (ToFourierPoly_at R tw e p m)
  | ToFAssign p o => p <- get ps p ;; o <- get fs o ;; keep fs ps (ToFourierPolyAssign_at R tw p o m)
  | ToP a => a <- get fs a ;; newP fs ps (ToPoly_at R twi e a m)
  | ToPAssign a p => a <- get fs a ;; p <- get ps p ;; keep fs ps (ToPolyAssign_at R twi e a p m)
  | ToPUnsafe a p => a <- get fs a ;; p <- get ps p ;; keep fs ps (ToPolyAssignUnsafe_at R twi a p m)
  | ToPAdd a p => a <- get fs a ;; p <- get ps p ;; keep fs ps (ToPolyAddAssignUnsafe_at R twi a p m)
  | ToPSub a p => a <- get fs a ;; p <- get ps p ;; keep fs ps (ToPolySubAssignUnsafe_at R twi a p m)
  | AddF a b => a <- get fs a ;; b <- get fs b ;; newF fs ps (AddFourierPoly R e a b m)
  | SubF a b => a <- get fs a ;; b <- get fs b ;; newF fs ps (SubFourierPoly R e a b m)
  | MulF a b => a <- get fs a ;; b <- get fs b ;; newF fs ps (MulFourierPoly R e a b m)
  | AddAssign a b o => a <- get fs a ;; b <- get fs b ;; o <- get fs o ;; keep fs ps (AddFourierPolyAssign R a b o m)
  | SubAssign a b o => a <- get fs a ;; b <- get fs b ;; o <- get fs o ;; keep fs ps (SubFourierPolyAssign R a b o m)
  | MulAssign a b o => a <- get fs a ;; b <- get fs b ;; o <- get fs o ;; keep fs ps (MulFourierPolyAssign R a b o m)
  | MulAddAssign a b o => a <- get fs a ;; b <- get fs b ;; o <- get fs o ;; keep fs ps (MulAddFourierPolyAssign R a b o m)
  | MulSubAssign a b o => a <- get fs a ;; b <- get fs b ;; o <- get fs o ;; keep fs ps (MulSubFourierPolyAssign R a b o m)
  | FloatMul a c o => a <- get fs a ;; o <- get fs o ;; keep fs ps (FloatMulFourierPolyAssign R a (a_of R c) o m)
  | FloatMulAdd a c o => a <- get fs a ;; o <- get fs o ;; keep fs ps (FloatMulAddFourierPolyAssign R a (a_of R c) o m)
  | MulP p q => p <- get ps p ;; q <- get ps q ;; newP fs ps (MulPoly_at R tw twi e p q m)
  | MulPAssign p q o => p <- get ps p ;; q <- get ps q ;; o <- get ps o ;; keep fs ps (MulPolyAssign R tw twi e p q o m)
  | MulPAdd p q o => p <- get ps p ;; q <- get ps q ;; o <- get ps o ;; keep fs ps (MulAddPolyAssign R tw twi e p q o m)
  | MulPSub p q o => p <- get ps p ;; q <- get ps q ;; o <- get ps o ;; keep fs ps (MulSubPolyAssign R tw twi e p q o m)
  end.

Fixpoint exec (cs : list call) (w : world) : res world :=
  match cs with [] => Ok w | c :: cs => w <- exec1 c w ;; exec cs w end.
End Run.

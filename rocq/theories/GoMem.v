(** * Memory: buffers shared by pointer

    Slices that the code mutates through pointers live in a memory and are
    named by locations, so that two names can denote the same buffer.  Torus
    buffers ([[]params.Torus]) and Fourier buffers ([[]float64]) have separate
    address spaces; [im] holds the mutable int fields (pool indices).  No
    proofs here. *)
From Verif Require Import GoBase.
Local Open Scope Z_scope.

Record mem (F : Type) : Type := Mem {
  tm : Z -> list Z;
  fm : Z -> F;
  im : Z -> Z;
  tnext : Z;      (* first free torus location *)
  fnext : Z;      (* first free Fourier location *)
  inext : Z       (* first free int location *)
}.
Arguments Mem {F}. Arguments tm {F}. Arguments fm {F}. Arguments im {F}.
Arguments tnext {F}. Arguments fnext {F}. Arguments inext {F}.

Definition tset {F} (m : mem F) (l : Z) (v : list Z) : mem F :=
  Mem (fun x => if x =? l then v else tm m x) (fm m) (im m) (tnext m) (fnext m) (inext m).
Definition fset {F} (m : mem F) (l : Z) (v : F) : mem F :=
  Mem (tm m) (fun x => if x =? l then v else fm m x) (im m) (tnext m) (fnext m) (inext m).
Definition iset {F} (m : mem F) (l : Z) (v : Z) : mem F :=
  Mem (tm m) (fm m) (fun x => if x =? l then v else im m x) (tnext m) (fnext m) (inext m).

(** [p[i]] and [p[i] = v] *)
Definition load {F} (m : mem F) (l i : Z) : res Z := get (tm m l) i.
Definition store {F} (m : mem F) (l i v : Z) : res (mem F) :=
  b <- set (tm m l) i v ;; Ok (tset m l b).

(** [copy(dst, src)] *)
Definition mcopy {F} (m : mem F) (dst src : Z) : mem F :=
  tset m dst (copy_slice (tm m dst) (tm m src)).

(** allocation of one buffer with given contents *)
Definition alloc {F} (m : mem F) (v : list Z) : Z * mem F :=
  (tnext m,
   Mem (fun x => if x =? tnext m then v else tm m x) (fm m) (im m) (tnext m + 1) (fnext m) (inext m)).

(** allocation of [k] consecutive torus / Fourier buffers / ints *)
Definition alloc_ts {F} (m : mem F) (k : Z) (v : list Z) : Z * mem F :=
  (tnext m,
   Mem (fun x => if (tnext m <=? x) && (x <? tnext m + k) then v else tm m x)
       (fm m) (im m) (tnext m + k) (fnext m) (inext m)).
Definition alloc_fs {F} (m : mem F) (k : Z) (v : F) : Z * mem F :=
  (fnext m,
   Mem (tm m) (fun x => if (fnext m <=? x) && (x <? fnext m + k) then v else fm m x)
       (im m) (tnext m) (fnext m + k) (inext m)).
Definition alloc_is {F} (m : mem F) (k : Z) (v : Z) : Z * mem F :=
  (inext m,
   Mem (tm m) (fm m) (fun x => if (inext m <=? x) && (x <? inext m + k) then v else im m x)
       (tnext m) (fnext m) (inext m + k)).

(** the memory of a program that has allocated nothing *)
Definition empty_mem {F} (f : F) : mem F := Mem (fun _ => []) (fun _ => f) (fun _ => 0) 0 0 0.

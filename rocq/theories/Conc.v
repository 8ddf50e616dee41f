(** * Goroutines that share memory

    The operations behind a gate, written as programs of memory accesses, so
    that two goroutines can be interleaved between any two accesses.  An access
    is one of: reading a torus buffer (the programs use one element, or the
    length, of what they read, except on inputs), writing one element,
    [copy], allocating, reading or writing an int, and the four operations on
    Fourier buffers, which are taken whole.  ConcFacts.v proves that a program
    run alone is the function of Poly.v, Evaluator.v, Trgsw.v or Gates.v of the
    same name.  No proofs here. *)
From Verif Require Import GoBase GoMem F64 Utils Params Tlwe TlweMem Poly Trlwe Trgsw Evaluator Gates.
Import ListNotations.
Local Open Scope Z_scope.

Section Prog.
Context (O : fops).
Notation M := (mem (FP O)).

Inductive prog (A : Type) : Type :=
| Ret (a : A)
| Fail (e : perr)                                (* a panic *)
| Read (x : Z) (k : list Z -> prog A)
| Store (x i v : Z) (k : prog A)                 (* x[i] = v *)
| CopyTo (dst src : Z) (k : prog A)              (* copy(dst, src) *)
| New (v : list Z) (k : Z -> prog A)
| ReadInt (x : Z) (k : Z -> prog A)
| SetInt (x v : Z) (k : prog A)
| ClearF (f : Z) (k : prog A)                    (* ClearBuffer *)
| ToF (x f : Z) (k : prog A)                     (* ToFourierPolyAssign *)
| ToP (f x : Z) (k : prog A)                     (* ToPolyAssignUnsafe *)
| MulAddF (f : Z) (v : FP O) (g : Z) (k : prog A). (* MulAddFourierPolyAssign *)
End Prog.
Arguments Ret {O A}. Arguments Fail {O A}. Arguments Read {O A}. Arguments Store {O A}. Arguments CopyTo {O A}. Arguments New {O A}.
Arguments ReadInt {O A}. Arguments SetInt {O A}. Arguments ClearF {O A}. Arguments ToF {O A}. Arguments ToP {O A}. Arguments MulAddF {O A}.

Section Sem.
Context {O : fops}.
Notation M := (mem (FP O)).

(** one access; [None] if the program has ended *)
Definition access {A} (p : prog O A) (m : M) : option (res (prog O A * M)) :=
  match p with
  | Ret _ => None
  | Fail e => Some (Panic e)
  | Read x k => Some (Ok (k (tm m x), m))
  | Store x i v k => Some (m <- store m x i v ;; Ok (k, m))
  | CopyTo d s k => Some (Ok (k, mcopy m d s))
  | New v k => Some (let '(x, m) := alloc m v in Ok (k x, m))
  | ReadInt x k => Some (Ok (k (im m x), m))
  | SetInt x v k => Some (Ok (k, iset m x v))
  | ClearF f k => Some (m <- ClearBuffer O m f ;; Ok (k, m))
  | ToF x f k => Some (m <- ToFourierPolyAssign O m x f ;; Ok (k, m))
  | ToP f x k => Some (m <- ToPolyAssignUnsafe O m f x ;; Ok (k, m))
  | MulAddF f v g k => Some (m <- MulAddFourierPolyAssign O m f v g ;; Ok (k, m))
  end.

(** the program run alone to its end *)
Fixpoint run {A} (p : prog O A) (m : M) : res (A * M) :=
  match p with
  | Ret a => Ok (a, m)
  | Fail e => Panic e
  | Read x k => run (k (tm m x)) m
  | Store x i v k => m <- store m x i v ;; run k m
  | CopyTo d s k => run k (mcopy m d s)
  | New v k => let '(x, m) := alloc m v in run (k x) m
  | ReadInt x k => run (k (im m x)) m
  | SetInt x v k => run k (iset m x v)
  | ClearF f k => m <- ClearBuffer O m f ;; run k m
  | ToF x f k => m <- ToFourierPolyAssign O m x f ;; run k m
  | ToP f x k => m <- ToPolyAssignUnsafe O m f x ;; run k m
  | MulAddF f v g k => m <- MulAddFourierPolyAssign O m f v g ;; run k m
  end.

(** the number of accesses it makes *)
Fixpoint cost {A} (p : prog O A) (m : M) : Z :=
  let next (r : res M) (k : prog O A) := match r with Ok m => 1 + cost k m | Panic _ => 1 end in
  match p with
  | Ret _ => 0
  | Fail _ => 1
  | Read x k => 1 + cost (k (tm m x)) m
  | Store x i v k => next (store m x i v) k
  | CopyTo d s k => 1 + cost k (mcopy m d s)
  | New v k => let '(x, m) := alloc m v in 1 + cost (k x) m
  | ReadInt x k => 1 + cost (k (im m x)) m
  | SetInt x v k => 1 + cost k (iset m x v)
  | ClearF f k => next (ClearBuffer O m f) k
  | ToF x f k => next (ToFourierPolyAssign O m x f) k
  | ToP f x k => next (ToPolyAssignUnsafe O m f x) k
  | MulAddF f v g k => next (MulAddFourierPolyAssign O m f v g) k
  end.

(** ** Goroutines

    The goroutines of a program, each with what it has left to do, and the
    memory they share.  A schedule is the list of the goroutines that make the
    next access. *)
Record cstate (A : Type) : Type := { cs_progs : list (prog O A); cs_mem : M }.
Arguments cs_progs {A}. Arguments cs_mem {A}.

(** goroutine [i] makes an access; a panic ends the whole Go program;
    [None]: there is no goroutine [i], or it has ended *)
Definition cstep {A} (i : Z) (s : cstate A) : option (res (cstate A)) :=
  match get (cs_progs s) i with
  | Ok p =>
      match access p (cs_mem s) with
      | Some (Ok (p, m)) => Some (Ok {| cs_progs := upd (cs_progs s) i p; cs_mem := m |})
      | Some (Panic e) => Some (Panic e)
      | None => None
      end
  | Panic _ => None
  end.
Fixpoint csched {A} (sched : list Z) (s : cstate A) : option (res (cstate A)) :=
  match sched with
  | [] => Some (Ok s)
  | i :: sched =>
      match cstep i s with
      | Some (Ok s) => csched sched s
      | r => r
      end
  end.

(** the results if every goroutine has ended *)
Fixpoint all_ended {A} (ps : list (prog O A)) : option (list A) :=
  match ps with
  | [] => Some []
  | Ret a :: ps => match all_ended ps with Some l => Some (a :: l) | None => None end
  | _ => None
  end.

(** the goroutines [ps] started in [m], under a schedule: what they return and
    the memory when all have ended; [None] if the schedule is not one of a run
    to the end *)
Definition together {A} (ps : list (prog O A)) (m : M) (sched : list Z) : option (res (list A * M)) :=
  match csched sched {| cs_progs := ps; cs_mem := m |} with
  | Some (Ok s) => match all_ended (cs_progs s) with Some l => Some (Ok (l, cs_mem s)) | None => None end
  | Some (Panic e) => Some (Panic e)
  | None => None
  end.

(** ** Writing programs *)
Fixpoint pbind {A B} (p : prog O A) (f : A -> prog O B) : prog O B :=
  match p with
  | Ret a => f a
  | Fail e => Fail e
  | Read x k => Read x (fun l => pbind (k l) f)
  | Store x i v k => Store x i v (pbind k f)
  | CopyTo d s k => CopyTo d s (pbind k f)
  | New v k => New v (fun x => pbind (k x) f)
  | ReadInt x k => ReadInt x (fun v => pbind (k v) f)
  | SetInt x v k => SetInt x v (pbind k f)
  | ClearF g k => ClearF g (pbind k f)
  | ToF x g k => ToF x g (pbind k f)
  | ToP g x k => ToP g x (pbind k f)
  | MulAddF a v g k => MulAddF a v g (pbind k f)
  end.
(** a computation without memory *)
Definition lift {A} (r : res A) : prog O A := match r with Ok a => Ret a | Panic e => Fail e end.
(** [x[i]] *)
Definition elem (x i : Z) : prog O Z := Read x (fun l => lift (get l i)).
Fixpoint ploop (n : nat) (i : Z) (body : Z -> prog O unit) : prog O unit :=
  match n with
  | 0%nat => Ret tt
  | S n' => pbind (body i) (fun _ => ploop n' (i + 1) body)
  end.
Definition pfor (lo hi : Z) (body : Z -> prog O unit) : prog O unit := ploop (Z.to_nat (hi - lo)) lo body.
End Sem.
Arguments cs_progs {O A}. Arguments cs_mem {O A}.
Declare Scope prog_scope.
Delimit Scope prog_scope with prog.
Notation "x <- p ;; q" := (pbind p (fun x => q)) : prog_scope.
Notation "p ;;; q" := (pbind p (fun _ => q)) : prog_scope.
Local Open Scope prog_scope.

(** ** The operations behind a gate *)
Section Ops.
Context (O : fops) (pr : pset).

(** poly/buffer_methods.go:133-164 PolyMulWithXKInPlace *)
Definition p_PolyMulWithXKInPlace (a k result : Z) : prog O unit :=
  Read a (fun l =>
  let n := zlen l in
  k <- lift (go_rem k (2 * n)) ;;
  if k =? 0 then CopyTo result a (Ret tt)
  else
    let k := if k <? 0 then k + 2 * n else k in
    if k <? n then
      pfor 0 (n - k) (fun i => x <- elem a i ;; Store result (i + k) x (Ret tt)) ;;;
      pfor (n - k) n (fun i => x <- elem a i ;; Store result (i + k - n) (tnot x) (Ret tt))
    else
      let k := k - n in
      pfor 0 (n - k) (fun i => x <- elem a i ;; Store result (i + k) (tnot x) (Ret tt)) ;;;
      pfor (n - k) n (fun i => x <- elem a i ;; Store result (i + k - n) x (Ret tt))).

(** poly/decomposer.go:55-66 DecomposePolyAssign *)
Definition p_DecomposePolyAssign (p bgbit level offset decomposedOut : Z) : prog O unit :=
  Read p (fun l =>
  let n := zlen l in
  mask <- lift (bind (shl_int bgbit) (fun s => Ok (w32 (s - 1)))) ;;
  halfBG <- lift (bind (shl_int (bgbit - 1)) (fun s => Ok (w32 s))) ;;
  pfor 0 n (fun j =>
    x <- elem p j ;;
    pfor 0 level (fun i => Store (decomposedOut + i) j (dec_digit (tadd x offset) i bgbit mask halfBG) (Ret tt)))).

(** evaluator/evaluator.go:50-81 ExternalProductAssign *)
Definition p_ExternalProductAssign (e : evaluator) (g : trgsw_fft O) (ctIn : tref) (offset : Z) (ctOut : tref) : prog O unit :=
  let l := g_L pr in
  let bgbit := g_BGBIT pr in
  polyDecomposed <- lift (GetPolyDecomposedBuffer (ev_dec e) (l * 2)) ;;
  polyFourierDecomposed <- lift (GetPolyFourierDecomposedBuffer (ev_dec e) (l * 2)) ;;
  p_DecomposePolyAssign (rA ctIn) bgbit l offset polyDecomposed ;;;
  p_DecomposePolyAssign (rB ctIn) bgbit l offset (polyDecomposed + l) ;;;
  pfor 0 (l * 2) (fun i => ToF (polyDecomposed + i) (polyFourierDecomposed + i) (Ret tt)) ;;;
  ClearF (bp_FourierA (ev_bp e)) (ClearF (bp_FourierB (ev_bp e)) (
  pfor 0 (l * 2) (fun i =>
    row <- lift (get g i) ;;
    MulAddF (polyFourierDecomposed + i) (fst row) (bp_FourierA (ev_bp e))
    (MulAddF (polyFourierDecomposed + i) (snd row) (bp_FourierB (ev_bp e)) (Ret tt))) ;;;
  ToP (bp_FourierA (ev_bp e)) (rA ctOut) (ToP (bp_FourierB (ev_bp e)) (rB ctOut) (Ret tt)))).

(** evaluator/evaluator.go:85-106 CMuxAssign *)
Definition p_CMuxAssign (e : evaluator) (cond : trgsw_fft O) (ct0 ct1 : tref) (offset : Z) (ctOut : tref) : prog O unit :=
  let n := g_N pr in
  let Temp := bp_Temp (ev_bp e) in
  let Result := bp_Result (ev_bp e) in
  CopyTo (rA ctOut) (rA ct0) (CopyTo (rB ctOut) (rB ct0) (
  pfor 0 n (fun i =>
    x <- elem (rA ct1) i ;; y <- elem (rA ct0) i ;; Store (rA Temp) i (tsub x y) (
    x <- elem (rB ct1) i ;; y <- elem (rB ct0) i ;; Store (rB Temp) i (tsub x y) (Ret tt))) ;;;
  p_ExternalProductAssign e cond Temp offset Result ;;;
  pfor 0 n (fun i =>
    x <- elem (rA ctOut) i ;; y <- elem (rA Result) i ;; Store (rA ctOut) i (tadd x y) (
    x <- elem (rB ctOut) i ;; y <- elem (rB Result) i ;; Store (rB ctOut) i (tadd x y) (Ret tt))))).

(** evaluator/evaluator.go:110-135 BlindRotateAssign *)
Definition p_BlindRotateAssign (e : evaluator) (ctIn : Z) (testvec : tref) (bsk : list (trgsw_fft O))
    (offset : Z) (ctOut : tref) : prog O unit :=
  let n := g_N pr in
  let nBit := g_NBIT pr in
  let Acc1 := bp_Acc1 (ev_bp e) in
  let Acc2 := bp_Acc2 (ev_bp e) in
  b <- elem ctIn (lv0_N pr) ;;
  bT <- lift (bTilda n nBit b) ;;
  p_PolyMulWithXKInPlace (rA testvec) bT (rA Acc1) ;;;
  p_PolyMulWithXKInPlace (rB testvec) bT (rB Acc1) ;;;
  pfor 0 (lv0_N pr) (fun i =>
    a <- elem ctIn i ;;
    aT <- lift (aTilda nBit a) ;;
    p_PolyMulWithXKInPlace (rA Acc1) aT (rA Acc2) ;;;
    p_PolyMulWithXKInPlace (rB Acc1) aT (rB Acc2) ;;;
    key <- lift (get bsk i) ;;
    p_CMuxAssign e key Acc1 Acc2 offset Acc1) ;;;
  CopyTo (rA ctOut) (rA Acc1) (CopyTo (rB ctOut) (rB Acc1) (Ret tt)).

(** trlwe/trlwe_ops.go:10-21 SampleExtractIndexAssign *)
Definition p_SampleExtractIndexAssign (t : tref) (k output : Z) : prog O unit :=
  let n := trlwe_N pr in
  pfor 0 n (fun i => Read (rA t) (fun a => v <- lift (extract_coeff a n k i) ;; Store output i v (Ret tt))) ;;;
  b <- elem (rB t) k ;;
  Store output (lv1_N pr) b (Ret tt).

(** trgsw/keyswitch.go:10-37 IdentityKeySwitchingAssign *)
Definition p_IdentityKeySwitchingAssign (src : Z) (ksk : list (list Z)) (output : Z) : prog O unit :=
  let n := g_N pr in
  let basebit := g_BASEBIT pr in
  base <- lift (shl_int basebit) ;;
  let iksT := g_IKS_T pr in
  Read output (fun o =>
  pfor 0 (zlen o) (fun i => Store output i 0 (Ret tt)) ;;;
  Read src (fun s =>
  b <- lift (get s (zlen s - 1)) ;;
  Store output (lv0_N pr) b (
  precOffset <- lift (bind (shl_int (32 - (1 + basebit * iksT))) (fun s => Ok (w32 s))) ;;
  pfor 0 n (fun i =>
    x <- elem src i ;;
    let aBar := tadd x precOffset in
    pfor 0 iksT (fun j =>
      k <- lift (ks_digit aBar j basebit) ;;
      if k =? 0 then Ret tt
      else
        let idx := base * iksT * i + base * j + k in
        Read output (fun o =>
        pfor 0 (zlen o) (fun x =>
          r <- elem output x ;; row <- lift (get ksk idx) ;; q <- lift (get row x) ;;
          Store output x (tsub r q) (Ret tt)))))))).

(** evaluator/evaluator.go:139-157 BootstrapAssign and Bootstrap,
    evaluator/buffers.go:200-204 GetNextResult *)
Definition p_Bootstrap (e : evaluator) (ctIn : Z) (testvec : tref) (bsk : list (trgsw_fft O))
    (ksk : list (list Z)) (offset : Z) : prog O Z :=
  ReadInt (bp_Index (ev_bp e)) (fun i =>
  if (i <? 0) || (4 <=? i) then Fail PIndex
  else
    let result := bp_Buffers (ev_bp e) i in
    SetInt (bp_Index (ev_bp e)) (Z.rem (i + 1) 4) (
    p_BlindRotateAssign e ctIn testvec bsk offset (bp_Rotated (ev_bp e)) ;;;
    p_SampleExtractIndexAssign (bp_Rotated (ev_bp e)) 0 (bp_ExtractedLWE (ev_bp e)) ;;;
    p_IdentityKeySwitchingAssign (bp_ExtractedLWE (ev_bp e)) ksk result ;;;
    Ret result)).

(** tlwe/tlwe.go:16-21 NewTLWELv0 *)
Definition p_new_ct : prog O Z := v <- lift (NewTLWE (lv0_N pr)) ;; New v (fun x => Ret x).

(** gates/gates.go:136-142 bootstrap; [ge] is the package's evaluator, or the
    goroutine's own *)
Definition p_bootstrap (ge : evaluator) (ctxt : Z) (ck : gkey O) : prog O Z :=
  result <- p_new_ct ;;
  bootstrapped <- p_Bootstrap ge ctxt (gk_testvec ck) (gk_bsk ck) (gk_ksk ck) (gk_offset ck) ;;
  CopyTo result bootstrapped (
  b <- elem bootstrapped (lv0_N pr) ;;
  Store result (lv0_N pr) b (Ret result)).

(** gates/gates.go:26-58, 72-104: the two-input gates.  The inputs are read
    whole: no program here writes to a ciphertext it did not allocate *)
Definition p_gate2 (lin : list Z -> list Z -> res (list Z)) (ge : evaluator) (a b : Z) (ck : gkey O) : prog O Z :=
  Read a (fun va => Read b (fun vb =>
  v <- lift (lin va vb) ;; New v (fun prepared => p_bootstrap ge prepared ck))).

(** gates/gates.go:117-119 NOT *)
Definition p_NOT (a : Z) : prog O Z := Read a (fun va => v <- lift (not_val (lv0_N pr) va) ;; New v (fun x => Ret x)).
(** gates/gates.go:61-69 Constant *)
Definition p_Constant (value : bool) : prog O Z := v <- lift (constant_val (lv0_N pr) value) ;; New v (fun x => Ret x).
(** gates/gates.go:122-126 Copy *)
Definition p_Copy (a : Z) : prog O Z := result <- p_new_ct ;; CopyTo result a (Ret result).
(** gates/gates.go:107-114 MUX *)
Definition p_MUX (ge : evaluator) (a b c : Z) (ck : gkey O) : prog O Z :=
  andAB <- p_gate2 (PrepareAND (lv0_N pr)) ge a b ck ;;
  notA <- p_NOT a ;;
  andNotAC <- p_gate2 (PrepareAND (lv0_N pr)) ge notA c ck ;;
  p_gate2 (PrepareOR (lv0_N pr)) ge andAB andNotAC ck.
End Ops.

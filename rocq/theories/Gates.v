(** * Package gates (gates/gates.go) *)
From Verif Require Import GoBase GoMem F64 Utils Params Tlwe TlweMem Poly Trlwe Trgsw Evaluator.
Local Open Scope Z_scope.

(** What a gate reads from the cloud key: the test vector by location, the
    keys by value (they are never written). *)
Record gkey (O : fops) : Type := {
  gk_offset : Z; gk_testvec : tref; gk_ksk : list (list Z); gk_bsk : list (trgsw_fft O)
}.
Arguments gk_offset {O}. Arguments gk_testvec {O}. Arguments gk_ksk {O}. Arguments gk_bsk {O}.

(** ** Linear parts, on values *)

(** [x.SetB(x.B() + c)] *)
Definition add_b (n c : Z) (x : list Z) : res (list Z) :=
  b <- tlwe_B n x ;; SetB n x (tadd b c).

(** gates/gates.go:52-56 XNOR *)
Definition xnor_lin (n : Z) (a b : list Z) : res (list Z) :=
  t <- SubMul n a b 2 ;; add_b n (F64ToTorus f_quarter) t.
(** gates/gates.go:72-74 NOR *)
Definition nor_lin (n : Z) (a b : list Z) : res (list Z) :=
  t <- (s <- Add n a b ;; Neg n s) ;; add_b n (F64ToTorus f_meighth) t.
(** gates/gates.go:79-81 ANDNY *)
Definition andny_lin (n : Z) (a b : list Z) : res (list Z) :=
  t <- (s <- Neg n a ;; Add n s b) ;; add_b n (F64ToTorus f_meighth) t.
(** gates/gates.go:86-88 ANDYN *)
Definition andyn_lin (n : Z) (a b : list Z) : res (list Z) :=
  t <- Sub n a b ;; add_b n (F64ToTorus f_meighth) t.
(** gates/gates.go:93-95 ORNY *)
Definition orny_lin (n : Z) (a b : list Z) : res (list Z) :=
  t <- (s <- Neg n a ;; Add n s b) ;; add_b n (F64ToTorus f_eighth) t.
(** gates/gates.go:100-102 ORYN *)
Definition oryn_lin (n : Z) (a b : list Z) : res (list Z) :=
  t <- Sub n a b ;; add_b n (F64ToTorus f_eighth) t.

(** the linear parts of the batch gates *)
(** gates/gates.go:159-162 *)
Definition batch_nand_lin (n : Z) (a b : list Z) : res (list Z) :=
  t <- (s <- Add n a b ;; Neg n s) ;; add_b n (F64ToTorus f_eighth) t.
(** gates/gates.go:187-190 *)
Definition batch_and_lin (n : Z) (a b : list Z) : res (list Z) :=
  t <- Add n a b ;; add_b n (F64ToTorus f_meighth) t.
(** gates/gates.go:213-216 *)
Definition batch_or_lin (n : Z) (a b : list Z) : res (list Z) :=
  t <- Add n a b ;; add_b n (F64ToTorus f_eighth) t.
(** gates/gates.go:239-242 *)
Definition batch_xor_lin (n : Z) (a b : list Z) : res (list Z) :=
  t <- AddMul n a b 2 ;; add_b n (F64ToTorus f_quarter) t.
(** gates/gates.go:265-268 *)
Definition batch_nor_lin (n : Z) (a b : list Z) : res (list Z) :=
  t <- (s <- Add n a b ;; Neg n s) ;; add_b n (F64ToTorus f_meighth) t.
(** gates/gates.go:291-294 *)
Definition batch_xnor_lin (n : Z) (a b : list Z) : res (list Z) :=
  t <- SubMul n a b 2 ;; add_b n (F64ToTorus f_mquarter) t.

(** gates/gates.go:117-119 NOT, on values *)
Definition not_val (n : Z) (a : list Z) : res (list Z) := Neg n a.

(** gates/gates.go:61-69 Constant, on values *)
Definition constant_val (n : Z) (value : bool) : res (list Z) :=
  let mu := F64ToTorus f_eighth in
  let mu := if negb value then tsub 1 mu else mu in
  result <- NewTLWE n ;;
  SetB n result mu.

Section Ops.
Context (O : fops) (pr : pset).
Notation M := (mem (FP O)).
Notation n := (lv0_N pr).

(** gates/gates.go:18-23 globalEval and init: the package's evaluator is made
    when the program starts, while the level is the one params starts with
    (params/params.go:47), the 128-bit level *)
Definition init (m : M) : res (evaluator * M) := NewEvaluator O params128Bit m (g_N params128Bit).

(** a new ciphertext computed from ciphertexts in memory *)
Definition fresh (m : M) (r : res (list Z)) : res (Z * M) := v <- r ;; Ok (alloc m v).

(** gates/gates.go:136-142 bootstrap; [ge] is the package's evaluator *)
Definition bootstrap (m : M) (ge : evaluator) (ctxt : Z) (ck : gkey O) : res (Z * M) :=
  '(result, m) <- new_ct m n ;;
  '(bootstrapped, m) <- Bootstrap O pr m ge ctxt (gk_testvec ck) (gk_bsk ck) (gk_ksk ck) (gk_offset ck) ;;
  let m := mcopy m result bootstrapped in
  b <- load m bootstrapped n ;;
  m <- store m result n b ;;
  Ok (result, m).

(** the common shape of the two-input gates: prepare, then bootstrap *)
Definition gate2 (lin : list Z -> list Z -> res (list Z)) (m : M) (ge : evaluator) (a b : Z) (ck : gkey O)
    : res (Z * M) :=
  '(prepared, m) <- fresh m (lin (tm m a) (tm m b)) ;;
  bootstrap m ge prepared ck.

(** gates/gates.go:26-31, 34-37, 40-43, 46-49 *)
Definition NAND := gate2 (PrepareNAND n).
Definition OR := gate2 (PrepareOR n).
Definition AND := gate2 (PrepareAND n).
Definition XOR := gate2 (PrepareXOR n).
(** gates/gates.go:52-58, 72-76, 79-83, 86-90, 93-97, 100-104 *)
Definition XNOR := gate2 (xnor_lin n).
Definition NOR := gate2 (nor_lin n).
Definition ANDNY := gate2 (andny_lin n).
Definition ANDYN := gate2 (andyn_lin n).
Definition ORNY := gate2 (orny_lin n).
Definition ORYN := gate2 (oryn_lin n).

(** gates/gates.go:117-119 NOT *)
Definition NOT (m : M) (a : Z) : res (Z * M) := fresh m (not_val n (tm m a)).

(** gates/gates.go:61-69 Constant *)
Definition Constant (m : M) (value : bool) : res (Z * M) := fresh m (constant_val n value).

(** gates/gates.go:122-126 Copy *)
Definition Copy (m : M) (a : Z) : res (Z * M) :=
  '(result, m) <- new_ct m n ;; Ok (result, mcopy m result a).

(** gates/gates.go:107-114 MUX *)
Definition MUX (m : M) (ge : evaluator) (a b c : Z) (ck : gkey O) : res (Z * M) :=
  '(andAB, m) <- AND m ge a b ck ;;
  '(notA, m) <- NOT m a ;;
  '(andNotAC, m) <- AND m ge notA c ck ;;
  OR m ge andAB andNotAC ck.

(** gates/gates.go:145-149 bootstrapWithoutKeySwitch; the extraction is on the
    values of the new TRLWE *)
Definition bootstrapWithoutKeySwitch (m : M) (ge : evaluator) (ctxt : Z) (ck : gkey O) : res (Z * M) :=
  t <- NewTRLWELv1 pr ;;
  let '(a, m) := alloc m (tA t) in
  let '(b, m) := alloc m (tB t) in
  m <- BlindRotateAssign O pr m ge ctxt (gk_testvec ck) (gk_bsk ck) (gk_offset ck) {| rA := a; rB := b |} ;;
  fresh m (SampleExtractIndex2 pr {| tA := tm m a; tB := tm m b |} 0).

(** ** Batch gates

    trgsw/trgsw.go:234-252 BatchBlindRotate.  One goroutine per input takes an
    evaluator from a pool, runs BlindRotate on it, stores the pointer to the
    result and puts the evaluator back.  A schedule is a list of events; each
    event is atomic: taking an evaluator, one step of BlindRotate (the first
    rotation, then one iteration of its loop at a time), storing the pointer,
    putting the evaluator back.  sync.Pool may return any evaluator it holds or
    make a new one. *)
Inductive gor : Type :=
| GNew                                   (* not started *)
| GHas (e : peval)                       (* line 243 done: has an evaluator *)
| GAcc (e : peval) (k : Z) (r : tref)    (* in BlindRotate: k iterations done, result so far at r *)
| GRet (e : peval)                       (* line 246 done: results[idx] stored *)
| GDone.                                 (* evaluator put back *)

Inductive bevent : Type :=
| BGet (i : Z) (k : option Z)   (* goroutine i: Get; [Some k]: position k of the pool, [None]: New *)
| BStep (i : Z)                 (* goroutine i: next step of results[i] = BlindRotate(...) *)
| BPut (i : Z).                 (* goroutine i: deferred Put *)

Record bstate : Type := {
  bs_mem : M;
  bs_pool : list peval;              (* evaluators in the pool *)
  bs_gor : list gor;
  bs_results : list (option tref)    (* results[i] *)
}.

Definition remove_at {A} (k : Z) (l : list A) : list A :=
  firstn (Z.to_nat k) l ++ skipn (Z.to_nat k + 1) l.

(** [None]: the event is not enabled in this state *)
Definition bstep (srcs : list Z) (testvec : tref) (bsk : list (trgsw_fft O)) (offset : Z)
    (ev : bevent) (s : bstate) : option (res bstate) :=
  let go i g m := {| bs_mem := m; bs_pool := bs_pool s; bs_gor := upd (bs_gor s) i g; bs_results := bs_results s |} in
  match ev with
  | BGet i k =>
      match get (bs_gor s) i, k with
      | Ok GNew, None => Some ('(e, m) <- NewPolyEvaluator O (bs_mem s) (g_N pr) ;; Ok (go i (GHas e) m))
      | Ok GNew, Some k =>
          match get (bs_pool s) k with
          | Ok e => Some (Ok {| bs_mem := bs_mem s; bs_pool := remove_at k (bs_pool s);
                                bs_gor := upd (bs_gor s) i (GHas e); bs_results := bs_results s |})
          | _ => None
          end
      | _, _ => None
      end
  | BStep i =>
      match get (bs_gor s) i, get srcs i with
      | Ok (GHas e), Ok src => Some ('(r, m) <- br_first O pr (bs_mem s) src testvec e ;; Ok (go i (GAcc e 0 r) m))
      | Ok (GAcc e k r), Ok src =>
          if k <? n then Some ('(r, m) <- br_next O pr src bsk offset e k (r, bs_mem s) ;; Ok (go i (GAcc e (k + 1) r) m))
          else Some (Ok {| bs_mem := bs_mem s; bs_pool := bs_pool s; bs_gor := upd (bs_gor s) i (GRet e);
                           bs_results := upd (bs_results s) i (Some r) |})
      | _, _ => None
      end
  | BPut i =>
      match get (bs_gor s) i with
      | Ok (GRet e) => Some (Ok {| bs_mem := bs_mem s; bs_pool := e :: bs_pool s; bs_gor := upd (bs_gor s) i GDone;
                                   bs_results := bs_results s |})
      | _ => None
      end
  end.

Fixpoint bsched (srcs : list Z) (testvec : tref) (bsk : list (trgsw_fft O)) (offset : Z)
    (evs : list bevent) (s : bstate) : option (res bstate) :=
  match evs with
  | [] => Some (Ok s)
  | ev :: t =>
      match bstep srcs testvec bsk offset ev s with
      | Some (Ok s') => bsched srcs testvec bsk offset t s'
      | r => r
      end
  end.

(** the state when BatchBlindRotate starts *)
Definition binit (m : M) (pool : list peval) (srcs : list Z) : bstate :=
  {| bs_mem := m; bs_pool := pool; bs_gor := repeat GNew (length srcs); bs_results := repeat None (length srcs) |}.

(** [wg.Wait()] returns when every goroutine has finished *)
Definition ball_done (s : bstate) : bool := forallb (fun g => match g with GDone => true | _ => false end) (bs_gor s).

(** BatchBlindRotate under the schedule [evs]: the results and the memory when
    it returns; [None] if the schedule is not one of this program or does not
    finish *)
Definition BatchBlindRotate (m : M) (pool : list peval) (srcs : list Z) (testvec : tref)
    (bsk : list (trgsw_fft O)) (offset : Z) (evs : list bevent) : option (res (list (option tref) * M)) :=
  match bsched srcs testvec bsk offset evs (binit m pool srcs) with
  | Some (Ok s) => if ball_done s then Some (Ok (bs_results s, bs_mem s)) else None
  | Some (Panic e) => Some (Panic e)
  | None => None
  end.

(** step 1 of the batch gates: the prepared inputs, in fresh buffers *)
Definition batch_prepare (lin : list Z -> list Z -> res (list Z)) (m : M) (inputs : list (Z * Z))
    : res (list Z * M) :=
  for_each inputs (fun _ '(a, b) '(prepared, m) =>
    '(p, m) <- fresh m (lin (tm m a) (tm m b)) ;; Ok (prepared ++ [p], m)) ([], m).

(** step 3: sample extraction and key switching of each result, on values *)
Definition batch_post (m : M) (ksk : list (list Z)) (trlwes : list (option tref)) : res (list (list Z)) :=
  results <- make [] (zlen trlwes) ;;
  for_each trlwes (fun i t results =>
    match t with
    | None => Panic PNil
    | Some t =>
        v <- (lv1 <- SampleExtractIndex pr {| tA := tm m (rA t); tB := tm m (rB t) |} 0 ;;
              IdentityKeySwitching pr lv1 ksk) ;;
        set results i v
    end) results.

(** gates/gates.go:156-182 and its five copies (185-312) *)
Definition batch_gate (lin : list Z -> list Z -> res (list Z)) (m : M) (pool : list peval)
    (inputs : list (Z * Z)) (ck : gkey O) (evs : list bevent) : option (res (list (list Z))) :=
  match batch_prepare lin m inputs with
  | Panic e => Some (Panic e)
  | Ok (prepared, m) =>
      match BatchBlindRotate m pool prepared (gk_testvec ck) (gk_bsk ck) (gk_offset ck) evs with
      | None => None
      | Some (Panic e) => Some (Panic e)
      | Some (Ok (trlwes, m)) => Some (batch_post m (gk_ksk ck) trlwes)
      end
  end.

Definition BatchNAND := batch_gate (batch_nand_lin n).
Definition BatchAND := batch_gate (batch_and_lin n).
Definition BatchOR := batch_gate (batch_or_lin n).
Definition BatchXOR := batch_gate (batch_xor_lin n).
Definition BatchNOR := batch_gate (batch_nor_lin n).
Definition BatchXNOR := batch_gate (batch_xnor_lin n).

End Ops.

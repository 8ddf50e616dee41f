(** * Vocabulary for the batch operations

    The pool of evaluators of package trgsw and the histories it can have.  No
    proofs. *)
From Verif Require Import GoBase GoMem F64 Utils Spec Params Key Tlwe TlweMem Poly Fft Trlwe Trgsw Evaluator CloudKey Gates RunSpec.
Local Open Scope Z_scope.

Section Batch.
Context (O : fops) (pr : pset).
Notation M := (mem (FP O)).
Notation n := (lv0_N pr).
Notation N := (g_N pr).

(** [x] is a buffer outside the evaluators of the pool *)
Definition outside_pool (m : M) (pool : list peval) (x : Z) : Prop :=
  0 <= x < tnext m /\ forall p, In p pool -> ~ pown p x.

(** the arguments of a batch: ciphertexts of the right length and a test vector *)
Definition batch_args (m : M) (pool : list peval) (srcs : list Z) (tvr : tref) (tv : trlwe) : Prop :=
  Forall (fun x => outside_pool m pool x /\ zlen (tm m x) = n + 1) srcs /\
  outside_pool m pool (rA tvr) /\ outside_pool m pool (rB tvr) /\
  tm m (rA tvr) = tA tv /\ tm m (rB tvr) = tB tv /\
  zlen (tA tv) = N /\ zlen (tB tv) = N /\ tok_list (tA tv) /\ tok_list (tB tv).

(** the evaluators the pool hands out under a schedule, in order *)
Fixpoint handed_out (srcs : list Z) (tvr : tref) bsk off (evs : list bevent) (s : bstate O) : list peval :=
  match evs with
  | [] => []
  | ev :: t =>
      match bstep O pr srcs tvr bsk off ev s with
      | Some (Ok s') =>
          match ev with
          | BGet i _ => match get (bs_gor O s') i with Ok (GHas e) => [e] | _ => [] end
          | _ => []
          end ++ handed_out srcs tvr bsk off t s'
      | _ => []
      end
  end.

(** the pool hands out no evaluator twice *)
Definition no_reuse (m : M) pool (srcs : list Z) (tvr : tref) bsk off (evs : list bevent) : Prop :=
  NoDup (handed_out srcs tvr bsk off evs (binit O m pool srcs)).

(** the inputs and the key of a batch gate *)
Definition batch_inputs (m : M) (pool : list peval) (inputs : list (Z * Z)) : Prop :=
  Forall (fun ab => (outside_pool m pool (fst ab) /\ zlen (tm m (fst ab)) = n + 1) /\
                    (outside_pool m pool (snd ab) /\ zlen (tm m (snd ab)) = n + 1)) inputs.
Definition batch_key (m : M) (pool : list peval) (k : gkey O) (ck : CloudKey O) : Prop :=
  gk_offset k = DecompositionOffset ck /\ gk_ksk k = KeySwitchingKey ck /\ gk_bsk k = BootstrappingKey ck /\
  tm m (rA (gk_testvec k)) = tA (BlindRotateTestvec ck) /\ tm m (rB (gk_testvec k)) = tB (BlindRotateTestvec ck) /\
  outside_pool m pool (rA (gk_testvec k)) /\ outside_pool m pool (rB (gk_testvec k)).

(** the pool hands out no evaluator twice during a batch gate with linear part
    [lin] *)
Definition gate_no_reuse (lin : list Z -> list Z -> res (list Z)) (m : M) pool (inputs : list (Z * Z)) (k : gkey O) evs : Prop :=
  forall prepared m1, batch_prepare O lin m inputs = Ok (prepared, m1) ->
    no_reuse m1 pool prepared (gk_testvec k) (gk_bsk k) (gk_offset k) evs.

(** the schedule of two goroutines one after the other: the first creates an
    evaluator, the second gets the one the first has put back *)
Definition serial : list bevent :=
  (BGet 0 None :: repeat (BStep 0) (Z.to_nat n + 2) ++ [BPut 0]) ++
  (BGet 1 (Some 0) :: repeat (BStep 1) (Z.to_nat n + 2) ++ [BPut 1]).

(** the schedule in which every goroutine creates an evaluator of its own, one
    goroutine after the other *)
Definition own_block (i : Z) : list bevent := BGet i None :: repeat (BStep i) (Z.to_nat n + 2) ++ [BPut i].
Fixpoint own_blocks (q : nat) (i : Z) : list bevent :=
  match q with 0%nat => [] | S q' => own_block i ++ own_blocks q' (i + 1) end.

(** the batch gates and the single gates they stand for *)
Inductive batchg : Type := Bnand | Band | Bor | Bxor | Bnor.
Definition batch_fun (g : batchg) :=
  match g with
  | Bnand => BatchNAND O pr | Band => BatchAND O pr | Bor => BatchOR O pr | Bxor => BatchXOR O pr | Bnor => BatchNOR O pr
  end.
Definition batch_lin (g : batchg) :=
  match g with
  | Bnand => batch_nand_lin n | Band => batch_and_lin n | Bor => batch_or_lin n | Bxor => batch_xor_lin n | Bnor => batch_nor_lin n
  end.
Definition single (g : batchg) : bgate :=
  match g with Bnand => Gnand | Band => Gand | Bor => Gor | Bxor => Gxor | Bnor => Gnor end.
End Batch.

(** the states of memory and pool after any sequence of batches, under any
    schedules, with anything happening outside the pool's evaluators in between.
    The pool may lose evaluators at any time.  The security level may change
    between batches, among levels [pr'] with the ring size of [pr]. *)
Inductive pool_reachable (O : fops) (pr : pset) : mem (FP O) -> list peval -> Prop :=
| pl_empty m : mem_ok m -> pool_reachable O pr m []
| pl_other m m' pool : pool_reachable O pr m pool ->
    (forall p, In p pool ->
      (forall x, pown p x -> tm m' x = tm m x) /\ (forall x, pe_f p <= x < pe_f p + 15 -> fm m' x = fm m x) /\
      (forall x, pe_i p <= x < pe_i p + 2 -> im m' x = im m x)) ->
    tnext m <= tnext m' -> fnext m <= fnext m' -> inext m <= inext m' -> pool_reachable O pr m' pool
| pl_drop m pool1 p pool2 : pool_reachable O pr m (pool1 ++ p :: pool2) -> pool_reachable O pr m (pool1 ++ pool2)
| pl_batch m pool pr' sk rk rb ck srcs tvr tv evs s : pool_reachable O pr m pool ->
    good_params pr' -> g_N pr' = g_N pr ->
    key_ok pr' sk -> NewCloudKey O pr' sk rk rb = Ok ck -> batch_args O pr' m pool srcs tvr tv ->
    bsched O pr' srcs tvr (BootstrappingKey ck) (DecompositionOffset ck) evs (binit O m pool srcs) = Some (Ok s) ->
    ball_done O s = true -> pool_reachable O pr (bs_mem O s) (bs_pool O s).

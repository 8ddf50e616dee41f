(** * Vocabulary for batches in flight while other code runs

    No proofs. *)
From Verif Require Import GoBase GoMem F64 Utils Spec Params Key Tlwe TlweMem Poly Fft Trlwe Trgsw Evaluator CloudKey Gates RunSpec BatchSpec Flight FlightSpec.
Local Open Scope Z_scope.

Section Others.
Context (O : fops) (pr : pset).
Notation M := (mem (FP O)).

(** a goroutine that has been started, with what its ciphertext and test vector
    held when the batch was called *)
Record fcall : Type := { fc_job : fjob O; fc_src : list Z; fc_tv : trlwe }.

(** the blind rotation it was started for *)
Definition call_rotation (c : fcall) : res trlwe :=
  rotation O pr (fj_bsk O (fc_job c)) (fj_offset O (fc_job c)) (fc_src c) (fc_tv c) (lv0_N pr).

(** buffer [x] is one a goroutine still reads: its ciphertext or half of its test
    vector, and the goroutine has not stored its result *)
Definition still_read (calls : list fcall) (s : bstate O) (x : Z) : Prop :=
  exists i c, get calls i = Ok c /\ In x [fj_src O (fc_job c); rA (fj_testvec O (fc_job c)); rB (fj_testvec O (fc_job c))] /\
    match get (bs_gor O s) i with Ok (GRet _) | Ok GDone => False | _ => True end.

(** evaluator [p] is in [m'] as it was in [m] *)
Definition untouched (m m' : M) (p : peval) : Prop :=
  (forall x, pown p x -> tm m' x = tm m x) /\ (forall x, pe_f p <= x < pe_f p + 15 -> fm m' x = fm m x) /\
  (forall x, pe_i p <= x < pe_i p + 2 -> im m' x = im m x).

(** the evaluator an event hands out *)
Definition got (ev : bevent) (s' : bstate O) : list peval :=
  match ev with
  | BGet i _ => match get (bs_gor O s') i with Ok (GHas e) => [e] | _ => [] end
  | _ => []
  end.

(** [in_flight m pool calls hs s]: [s] is a state reached from memory [m] and pool
    [pool] while batches run among other code; [calls] are the goroutines started
    so far and [hs] the evaluators handed out so far, the last one first.  A step is
    - the start of a goroutine of some batch, whose arguments may have been
      computed since the beginning, for example from the results of batches that
      have returned;
    - an event of one of the goroutines;
    - anything other code does, as long as it stays off the evaluators of the
      pool and those handed out (no other code has references to them) and does
      not write to what a goroutine still reads;
    - the loss of an evaluator from the pool, which sync.Pool allows at any time. *)
Inductive in_flight (m : M) (pool : list peval) : list fcall -> list peval -> bstate O -> Prop :=
| if_start : in_flight m pool [] [] (finit O m pool [])
| if_call calls hs s j tv : in_flight m pool calls hs s -> flight_job O pr (bs_mem O s) (hs ++ bs_pool O s) j tv ->
    in_flight m pool (calls ++ [{| fc_job := j; fc_src := tm (bs_mem O s) (fj_src O j); fc_tv := tv |}]) hs
      {| bs_mem := bs_mem O s; bs_pool := bs_pool O s; bs_gor := bs_gor O s ++ [GNew]; bs_results := bs_results O s ++ [None] |}
| if_event calls hs s ev s' : in_flight m pool calls hs s -> fstep O pr (map fc_job calls) ev s = Some (Ok s') ->
    in_flight m pool calls (got ev s' ++ hs) s'
| if_other calls hs s m' : in_flight m pool calls hs s ->
    (forall p, In p hs \/ In p (bs_pool O s) -> untouched (bs_mem O s) m' p) ->
    (forall x, still_read calls s x -> tm m' x = tm (bs_mem O s) x) ->
    tnext (bs_mem O s) <= tnext m' -> fnext (bs_mem O s) <= fnext m' -> inext (bs_mem O s) <= inext m' ->
    in_flight m pool calls hs {| bs_mem := m'; bs_pool := bs_pool O s; bs_gor := bs_gor O s; bs_results := bs_results O s |}
| if_drop calls hs s pool1 p pool2 : in_flight m pool calls hs s -> bs_pool O s = pool1 ++ p :: pool2 ->
    in_flight m pool calls hs {| bs_mem := bs_mem O s; bs_pool := pool1 ++ pool2; bs_gor := bs_gor O s; bs_results := bs_results O s |}.

(** the goroutines [batch] belong to one call of a batch gate by the user of
    [ck], and have finished *)
Definition call_of (calls : list fcall) (s : bstate O) (ck : CloudKey O) (batch : list Z) : Prop :=
  forall i, In i batch -> fdone O s i /\
    exists c, get calls i = Ok c /\ fc_tv c = BlindRotateTestvec ck /\
      fj_bsk O (fc_job c) = BootstrappingKey ck /\ fj_offset O (fc_job c) = DecompositionOffset ck.
End Others.

(** the states of memory and pool after any such flights, each left at any moment,
    at any levels with the ring size of [pr] *)
Inductive others_reachable (O : fops) (pr : pset) : mem (FP O) -> list peval -> Prop :=
| or_empty m : mem_ok m -> others_reachable O pr m []
| or_flight m pool pr' calls hs s : others_reachable O pr m pool ->
    good_params pr' -> g_N pr' = g_N pr -> in_flight O pr' m pool calls hs s ->
    others_reachable O pr (bs_mem O s) (bs_pool O s).

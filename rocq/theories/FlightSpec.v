(** * Vocabulary for several batches in flight

    No proofs. *)
From Verif Require Import GoBase GoMem F64 Utils Spec Params Key Tlwe TlweMem Poly Fft Trlwe Trgsw Evaluator CloudKey Gates RunSpec BatchSpec Flight.
Local Open Scope Z_scope.

Section Flight.
Context (O : fops) (pr : pset).
Notation M := (mem (FP O)).

(** goroutine [j] belongs to a batch called with the cloud key of some user,
    any test vector [tv], and a ciphertext of the right length *)
Definition flight_job (m : M) (pool : list peval) (j : fjob O) (tv : trlwe) : Prop :=
  batch_args O pr m pool [fj_src O j] (fj_testvec O j) tv /\
  exists sk rk rb ck, key_ok pr sk /\ NewCloudKey O pr sk rk rb = Ok ck /\
    fj_bsk O j = BootstrappingKey ck /\ fj_offset O j = DecompositionOffset ck.

Definition flight_args (m : M) (pool : list peval) (jobs : list (fjob O)) (tvs : Z -> trlwe) : Prop :=
  forall i j, get jobs i = Ok j -> flight_job m pool j (tvs i).

(** the evaluators the pool hands out, to whichever batch, in order *)
Fixpoint fhanded (jobs : list (fjob O)) (evs : list bevent) (s : bstate O) : list peval :=
  match evs with
  | [] => []
  | ev :: t =>
      match fstep O pr jobs ev s with
      | Some (Ok s') =>
          match ev with
          | BGet i _ => match get (bs_gor O s') i with Ok (GHas e) => [e] | _ => [] end
          | _ => []
          end ++ fhanded jobs t s'
      | _ => []
      end
  end.

(** no evaluator is handed out twice over all batches in flight *)
Definition fno_reuse (m : M) (pool : list peval) (jobs : list (fjob O)) (evs : list bevent) : Prop :=
  NoDup (fhanded jobs evs (finit O m pool jobs)).

(** goroutine [i] has finished *)
Definition fdone (s : bstate O) (i : Z) : Prop := get (bs_gor O s) i = Ok GDone.

(** the blind rotation the goroutine was started for *)
Definition own_rotation (m : M) (j : fjob O) (tv : trlwe) : res trlwe :=
  rotation O pr (fj_bsk O j) (fj_offset O j) (tm m (fj_src O j)) tv (lv0_N pr).
End Flight.

(** the goroutines [batch] belong to one call of a batch gate by the user of
    [ck]: they have finished, and what the call then reads are their results *)
Definition batch_of (O : fops) (jobs : list (fjob O)) (tvs : Z -> trlwe) (s : bstate O) (ck : CloudKey O) (batch : list Z) : Prop :=
  forall i, In i batch -> fdone O s i /\ tvs i = BlindRotateTestvec ck /\
    exists j, get jobs i = Ok j /\ fj_bsk O j = BootstrappingKey ck /\ fj_offset O j = DecompositionOffset ck.
Definition results_of (O : fops) (s : bstate O) (batch : list Z) : list (option tref) :=
  map (fun i => match get (bs_results O s) i with Ok r => r | Panic _ => None end) batch.

(** the states of memory and pool after any flights, under any schedules, each
    left at any moment (goroutines that still hold an evaluator then never put it
    back), with anything happening outside the pool's evaluators in between; as
    in BatchSpec.v the pool may lose evaluators at any time and the level may
    change among those with the ring size of [pr] *)
Inductive flight_reachable (O : fops) (pr : pset) : mem (FP O) -> list peval -> Prop :=
| fr_empty m : mem_ok m -> flight_reachable O pr m []
| fr_other m m' pool : flight_reachable O pr m pool ->
    (forall p, In p pool ->
      (forall x, pown p x -> tm m' x = tm m x) /\ (forall x, pe_f p <= x < pe_f p + 15 -> fm m' x = fm m x) /\
      (forall x, pe_i p <= x < pe_i p + 2 -> im m' x = im m x)) ->
    tnext m <= tnext m' -> fnext m <= fnext m' -> inext m <= inext m' -> flight_reachable O pr m' pool
| fr_drop m pool1 p pool2 : flight_reachable O pr m (pool1 ++ p :: pool2) -> flight_reachable O pr m (pool1 ++ pool2)
| fr_flight m pool pr' jobs tvs evs s : flight_reachable O pr m pool ->
    good_params pr' -> g_N pr' = g_N pr -> flight_args O pr' m pool jobs tvs ->
    fsched O pr' jobs evs (finit O m pool jobs) = Some (Ok s) -> flight_reachable O pr (bs_mem O s) (bs_pool O s).

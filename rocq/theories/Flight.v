(** * Several batches in flight

    trgsw/trgsw.go:227-231: the pool of evaluators is one global variable of the
    package, so the goroutines of all calls of BatchBlindRotate (lines 234-252)
    that are running at a time take their evaluators from it.  [fjob] is one
    goroutine with the arguments of the call that started it.  A call starts its
    goroutines in a loop; starting is not an event here, a goroutine that has not
    taken an evaluator may not exist yet.  Simplification: the arguments of all
    calls exist from the start, and nothing else runs meanwhile; FlightOtherSpec.v
    is without it. *)
From Verif Require Import GoBase GoMem F64 Utils Spec Params Key Tlwe TlweMem Poly Fft Trlwe Trgsw Evaluator CloudKey Gates.
Local Open Scope Z_scope.

Section Flight.
Context (O : fops) (pr : pset).

(** trgsw/trgsw.go:240-247: what the goroutine captures *)
Record fjob : Type := {
  fj_src : Z;                        (* srcs[idx] *)
  fj_testvec : tref;
  fj_bsk : list (trgsw_fft O);
  fj_offset : Z
}.

(** the goroutine an event belongs to *)
Definition event_of (ev : bevent) : Z := match ev with BGet i _ => i | BStep i => i | BPut i => i end.

(** trgsw/trgsw.go:240-247: one event of one goroutine, with its own arguments *)
Definition fstep (jobs : list fjob) (ev : bevent) (s : bstate O) : option (res (bstate O)) :=
  match get jobs (event_of ev) with
  | Ok j => bstep O pr (map fj_src jobs) (fj_testvec j) (fj_bsk j) (fj_offset j) ev s
  | Panic _ => None
  end.

(** trgsw/trgsw.go:234-252: the events of all calls, in the order they happen *)
Fixpoint fsched (jobs : list fjob) (evs : list bevent) (s : bstate O) : option (res (bstate O)) :=
  match evs with
  | [] => Some (Ok s)
  | ev :: t =>
      match fstep jobs ev s with
      | Some (Ok s') => fsched jobs t s'
      | r => r
      end
  end.

(** trgsw/trgsw.go:235-236: before any of them has taken an evaluator *)
Definition finit (m : mem (FP O)) (pool : list peval) (jobs : list fjob) : bstate O := binit O m pool (map fj_src jobs).
End Flight.

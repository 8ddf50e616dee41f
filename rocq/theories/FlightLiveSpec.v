(** * Vocabulary for the end of batches in flight

    No proofs. *)
From Verif Require Import GoBase GoMem F64 Utils Spec Params Key Tlwe TlweMem Poly Fft Trlwe Trgsw Evaluator CloudKey Gates RunSpec BatchSpec Flight FlightSpec FlightOtherSpec.
Local Open Scope Z_scope.

(** the events a goroutine has before it: it takes an evaluator, sets up its
    accumulator, takes one step for each coefficient of the mask, stores the
    result and puts the evaluator back *)
Definition events_left (pr : pset) (g : gor) : Z :=
  match g with
  | GNew => lv0_N pr + 4
  | GHas _ => lv0_N pr + 3
  | GAcc _ k _ => lv0_N pr + 2 - k
  | GRet _ => 1
  | GDone => 0
  end.
Definition all_left (O : fops) (pr : pset) (s : bstate O) : Z := fold_right (fun g a => events_left pr g + a) 0 (bs_gor O s).

(** every goroutine has finished: every [wg.Wait()] has returned *)
Definition all_done (O : fops) (s : bstate O) : Prop := Forall (fun g => g = GDone) (bs_gor O s).

(** how often goroutine [i] runs under a schedule *)
Definition turns_of (i : Z) (evs : list bevent) : Z := zlen (filter (fun ev => event_of ev =? i) evs).

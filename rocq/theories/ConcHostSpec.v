(** * Vocabulary for C67: a goroutine for each client, some clients hostile

    Vocabulary for statements.  No proofs.

    The server runs a goroutine for each client, each with an evaluator of its
    own.  Each client has its own cloud key, number of message bits, program
    and ciphertexts; see HostileSpec.v for what is known of them. *)
From Coq Require Import List.
From Verif Require Import GoBase GoMem F64 Utils Params Key Tlwe TlweMem Poly Fft Trlwe Trgsw Lut Evaluator CloudKey Gates Spec RunSpec LutSpec Circuit LutProg MixProg
  Conc ConcLut ConcSpec ConcLutSpec ConcMixSpec HostileSpec.
Import ListNotations.
Local Open Scope Z_scope.

Section Clients.
Context {R : arith} {tw twi : list (AN R * AN R)} (pr : pset).
Notation O := (fft_ops R tw twi).
Notation M := (mem (FP O)).

(** a client: the cloud key as LUT programs use it, the cloud key as the gates
    use it (the test vector in memory), the message bits, and its goroutine *)
Record client : Type := { cl_key : CloudKey O; cl_gates : gkey O; cl_bits : Z; cl_work : mworker }.
Definition cl_ev (c : client) : evaluator := mw_ev (cl_work c).
Definition serve (c : client) : prog O (list Z * list tref) := mwork pr (cl_key c) (cl_gates c) (cl_bits c) (cl_work c).
(** its calls with nothing else running *)
Definition served (c : client) (m : M) : res (list Z * list tref * M) := malone pr (cl_key c) (cl_gates c) (cl_bits c) (cl_work c) m.

(** the buffers it is given, and those its program writes to *)
Definition cl_given (c : client) (x : Z) : Prop := mgiven (cl_gates c) (cl_work c) x.
Definition cl_target (c : client) (x : Z) : Prop := mtarget (cl_work c) x.
(** an allocated buffer of no evaluator *)
Definition free_of (cs : list client) (m : M) (x : Z) : Prop := 0 <= x < tnext m /\ forall c, In c cs -> ~ own (cl_ev c) x.

(** no evaluator in common, and what one writes to the other is not given *)
Definition strangers (c d : client) : Prop :=
  apart (cl_ev c) (cl_ev d) /\ forall x, ~ (cl_target c x /\ cl_given d x) /\ ~ (cl_target d x /\ cl_given c x).
Definition crowd (cs : list client) (m : M) : Prop :=
  Forall (fun c => any_history R tw twi pr (cl_ev c) m) cs /\
  ForallOrdPairs strangers cs /\
  Forall (fun c => forall x, cl_given c x -> free_of cs m x) cs.

(** what is known of a client: the keys have the right lengths (the two need
    not belong together), the ciphertexts too, and the program refers to
    ciphertexts and tables that exist *)
Definition client_shape (m : M) (c : client) : Prop :=
  key_shape R tw twi pr (cl_key c) /\ (exists ck, key_shape R tw twi pr ck /\ key_at O m (cl_ev c) (cl_gates c) ck) /\ 0 <= cl_bits c /\
  received R tw twi pr (cl_ev c) m (cl_gates c) (mw_cts (cl_work c)) (mw_tabs (cl_work c)) /\
  asks_all (mw_calls (cl_work c)) (zlen (mw_cts (cl_work c))) (zlen (mw_tabs (cl_work c))).

(** a schedule that gives each goroutine as many turns as it makes accesses
    when alone *)
Definition cl_turns (cs : list client) (m : M) (sched : list Z) : Prop :=
  (forall i, In i sched -> 0 <= i < zlen cs) /\
  forall i c, get cs i = Ok c -> Z.of_nat (count_occ Z.eq_dec sched i) = cost (serve c) m.

(** what a client may send: key, message bits, program, contents of the ciphertexts *)
Record request : Type := { rq_key : CloudKey O; rq_bits : Z; rq_calls : list mcall; rq_cts : list (list Z) }.
Definition request_ok (q : request) : Prop :=
  key_shape R tw twi pr (rq_key q) /\ 0 <= rq_bits q /\ Forall (fun v => zlen v = lv0_N pr + 1) (rq_cts q) /\
  asks_all (rq_calls q) (zlen (rq_cts q)) 0.
(** the client [c] sent [q] *)
Definition sent (m : M) (c : client) (q : request) : Prop :=
  cl_key c = rq_key q /\ key_at O m (cl_ev c) (cl_gates c) (rq_key q) /\ cl_bits c = rq_bits q /\ mw_calls (cl_work c) = rq_calls q /\
  map (tm m) (mw_cts (cl_work c)) = rq_cts q /\ mw_tabs (cl_work c) = [].
End Clients.
Arguments client R tw twi : clear implicits.
Arguments request R tw twi : clear implicits.

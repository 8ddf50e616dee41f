(** * Vocabulary for C62: goroutines that mix gates and programmable bootstraps *)
From Coq Require Import List.
From Verif Require Import GoBase GoMem F64 Utils Params Key Tlwe TlweMem Poly Fft Trlwe Trgsw Lut Evaluator CloudKey Gates Spec RunSpec LutSpec Circuit LutProg MixProg
  Conc ConcLut ConcSpec ConcLutSpec.
Import ListNotations.
Local Open Scope Z_scope.
Local Open Scope prog_scope.

(** the calls of MixProg.v as programs of accesses *)
Section Calls.
Context (O : fops) (pr : pset) (ck : CloudKey O) (e : evaluator) (gk : gkey O) (k : Z).

Definition p_mcall (i : mcall) (ws : list Z) (ts : list tref) : prog O (list Z * list tref) :=
  match i with
  | MGate i => r <- p_instr O pr e gk i ws ;; Ret (ws ++ [r], ts)
  | MMsg i => p_lcall O pr ck e k i ws ts
  end.
Fixpoint p_mexec (p : list mcall) (ws : list Z) (ts : list tref) : prog O (list Z * list tref) :=
  match p with
  | [] => Ret (ws, ts)
  | i :: p => r <- p_mcall i ws ts ;; p_mexec p (fst r) (snd r)
  end.
End Calls.

(** a goroutine: its evaluator, its calls, and the ciphertexts and tables it is
    given; the cloud key is the same for all *)
Record mworker : Type := { mw_ev : evaluator; mw_calls : list mcall; mw_cts : list Z; mw_tabs : list tref }.

Section Workers.
Context {O : fops} (pr : pset) (ck : CloudKey O) (gk : gkey O) (k : Z).
Notation M := (mem (FP O)).

Definition mwork (t : mworker) : prog O (list Z * list tref) := p_mexec O pr ck (mw_ev t) gk k (mw_calls t) (mw_cts t) (mw_tabs t).
(** its calls with nothing else running *)
Definition malone (t : mworker) (m : M) : res (list Z * list tref * M) := mexec O pr ck (mw_ev t) gk k (mw_calls t) (mw_cts t) (mw_tabs t) m.

(** the buffers it is given, the gates' test vector among them, and those of
    them its Into calls write to *)
Definition mgiven (t : mworker) (x : Z) : Prop := In x (mw_cts t) \/ Exists (in_table x) (mw_tabs t) \/ in_table x (gk_testvec gk).
Definition mtarget (t : mworker) (x : Z) : Prop := exists o, In o (moutputs (mw_calls t)) /\ get (mw_cts t) o = Ok x.

(** an allocated buffer of no evaluator *)
Definition moutside (ts : list mworker) (m : M) (x : Z) : Prop := 0 <= x < tnext m /\ forall t, In t ts -> ~ own (mw_ev t) x.

(** no buffer of an evaluator in common, and what one writes to the other is
    not given *)
Definition mapart (t u : mworker) : Prop :=
  apart (mw_ev t) (mw_ev u) /\ forall x, ~ (mtarget t x /\ mgiven u x) /\ ~ (mtarget u x /\ mgiven t x).

(** each goroutine has an evaluator to itself, and so are the ciphertexts it
    writes to; all else may be shared *)
Definition mseparate (ts : list mworker) (m : M) : Prop :=
  Forall (fun t => reachable O pr (mw_ev t) m) ts /\
  ForallOrdPairs mapart ts /\
  Forall (fun t => forall x, mgiven t x -> moutside ts m x) ts.

(** a schedule that gives each goroutine as many turns as it makes accesses
    when alone *)
Definition mturns (ts : list mworker) (m : M) (sched : list Z) : Prop :=
  (forall i, In i sched -> 0 <= i < zlen ts) /\
  forall i t, get ts i = Ok t -> Z.of_nat (count_occ Z.eq_dec sched i) = cost (mwork t) m.
End Workers.

(** a single BootstrapLUT, and a single gate *)
Definition mix_lut (e : evaluator) (a : Z) (t : tref) : mworker :=
  {| mw_ev := e; mw_calls := [MMsg (LLut 0 0)]; mw_cts := [a]; mw_tabs := [t] |}.
Definition mix_gate (g : bgate) (e : evaluator) (a b : Z) : mworker :=
  {| mw_ev := e; mw_calls := [MGate (IGate g 0 1)]; mw_cts := [a; b]; mw_tabs := [] |}.

(** ** Messages and bits: what the calls make of them *)
Definition mmeans (k T Rd : Z) (p : list mcall) (v : lvals) : res lvals :=
  let '(xs, fs, es) := v in
  bind (mplain k p xs fs) (fun r => bind (mnoise k T Rd p es) (fun es' => Ok (fst r, snd r, es'))).

Section Holds.
Context (O : fops) (pr : pset) (sk : SecretKey) (ck : CloudKey O) (gk : gkey O) (k : Z).
Notation M := (mem (FP O)).
(** the goroutine holds the cloud key, and ciphertexts and tables for [v]; none
    of the ciphertexts is the gates' test vector *)
Definition mholds (m : M) (e : evaluator) (ws : list Z) (ts : list tref) (v : lvals) : Prop :=
  lholds O pr sk k m e ws ts v /\ key_at O m e gk ck /\ forall x, in_table x (gk_testvec gk) -> ~ In x ws.
(** every ciphertext whose noise leaves room decrypts to its message or bit *)
Definition mdecrypts (m : M) (ws : list Z) (v : lvals) : Prop :=
  let '(xs, _, es) := v in
  ldecrypts O pr sk k m ws v /\
  forall i r b E, get ws i = Ok r -> get xs i = Ok (bit_pos k b) -> get es i = Ok E -> E < 2 ^ 29 ->
    DecryptBool (lv0_N pr) (tm m r) (KeyLv0 sk) = Ok b.
End Holds.

(** ** What goroutines may be started with

    Positions in a pool of ciphertexts and in a pool of tables; what one writes
    to is given to no other. *)
Record mjob : Type := { mj_calls : list mcall; mj_cts : list Z; mj_tabs : list Z }.
Definition mj_writes (j : mjob) (p : Z) : Prop := exists o, In o (moutputs (mj_calls j)) /\ get (mj_cts j) o = Ok p.
Definition mjobs_ok (nc nt : Z) (js : list mjob) : Prop :=
  Forall (fun j => NoDup (mj_cts j) /\ Forall (fun p => 0 <= p < nc) (mj_cts j) /\ Forall (fun p => 0 <= p < nt) (mj_tabs j)) js /\
  ForallOrdPairs (fun j j' => forall p, ~ (mj_writes j p /\ In p (mj_cts j')) /\ ~ (mj_writes j' p /\ In p (mj_cts j))) js.
(** the messages, functions and noise bounds a job starts from *)
Definition mj_vals (xs : list Z) (fs : list (Z -> Z)) (E : Z) (j : mjob) : lvals :=
  (map (zn xs) (mj_cts j), map (znd (fun x => x) fs) (mj_tabs j), map (fun _ => E) (mj_cts j)).

(** * Vocabulary for C59: goroutines that run programs over encrypted messages *)
From Coq Require Import List.
From Verif Require Import GoBase GoMem F64 Utils Params Key Tlwe TlweMem Poly Fft Trlwe Trgsw Lut Evaluator CloudKey Gates Spec RunSpec LutSpec LutProg
  Conc ConcLut ConcSpec.
Import ListNotations.
Local Open Scope Z_scope.
Local Open Scope prog_scope.

(** the calls of LutProg.v as programs of accesses *)
Section Calls.
Context (O : fops) (pr : pset) (ck : CloudKey O) (e : evaluator) (k : Z).
Notation n := (lv0_N pr).
Notation BK := (BootstrappingKey ck).
Notation KK := (KeySwitchingKey ck).
Notation OFF := (DecompositionOffset ck).

Definition p_lcall (i : lcall) (ws : list Z) (ts : list tref) : prog O (list Z * list tref) :=
  let new p := r <- p ;; Ret (ws ++ [r], ts) in
  let done p := p ;;; Ret (ws, ts) in
  match i with
  | LAdd a b => x <- lift (get ws a) ;; y <- lift (get ws b) ;; new (p_op2 O (Add n) x y)
  | LSub a b => x <- lift (get ws a) ;; y <- lift (get ws b) ;; new (p_op2 O (Sub n) x y)
  | LNeg a => x <- lift (get ws a) ;; new (p_op1 O (Neg n) x)
  | LAddMul a b c => x <- lift (get ws a) ;; y <- lift (get ws b) ;; new (p_op2 O (fun u v => AddMul n u v (w32 c)) x y)
  | LSubMul a b c => x <- lift (get ws a) ;; y <- lift (get ws b) ;; new (p_op2 O (fun u v => SubMul n u v (w32 c)) x y)
  | LAddInto a b o => x <- lift (get ws a) ;; y <- lift (get ws b) ;; r <- lift (get ws o) ;; done (p_AddAssign O x y r)
  | LTable f => t <- p_new_lut O pr f (2 ^ k) ;; Ret (ws, ts ++ [t])
  | LLut t a => l <- lift (get ts t) ;; x <- lift (get ws a) ;; new (p_BootstrapLUT O pr e x l BK KK OFF)
  | LLutInto t a o => l <- lift (get ts t) ;; x <- lift (get ws a) ;; r <- lift (get ws o) ;;
      done (p_BootstrapLUTAssign O pr e x l BK KK OFF r)
  | LFunc f a => x <- lift (get ws a) ;; new (p_BootstrapFunc O pr e x f (2 ^ k) BK KK OFF)
  | LFuncInto f a o => x <- lift (get ws a) ;; r <- lift (get ws o) ;; done (p_BootstrapFuncAssign O pr e x f (2 ^ k) BK KK OFF r)
  end.
Fixpoint p_lexec (p : list lcall) (ws : list Z) (ts : list tref) : prog O (list Z * list tref) :=
  match p with
  | [] => Ret (ws, ts)
  | i :: p => r <- p_lcall i ws ts ;; p_lexec p (fst r) (snd r)
  end.
End Calls.

(** a goroutine: its evaluator, its calls, and the ciphertexts and tables it is
    given *)
Record lworker : Type := { lw_ev : evaluator; lw_calls : list lcall; lw_cts : list Z; lw_tabs : list tref }.

Section Workers.
Context {O : fops} (pr : pset) (ck : CloudKey O) (k : Z).
Notation M := (mem (FP O)).

Definition lwork (t : lworker) : prog O (list Z * list tref) := p_lexec O pr ck (lw_ev t) k (lw_calls t) (lw_cts t) (lw_tabs t).
(** its calls with nothing else running *)
Definition lalone (t : lworker) (m : M) : res (list Z * list tref * M) := lexec O pr ck (lw_ev t) k (lw_calls t) (lw_cts t) (lw_tabs t) m.

(** the buffers it is given, and those of them its Into calls write to *)
Definition in_table (x : Z) (r : tref) : Prop := x = rA r \/ x = rB r.
Definition lgiven (t : lworker) (x : Z) : Prop := In x (lw_cts t) \/ Exists (in_table x) (lw_tabs t).
Definition ltarget (t : lworker) (x : Z) : Prop := exists o, In o (outputs (lw_calls t)) /\ get (lw_cts t) o = Ok x.

(** an allocated buffer of no evaluator *)
Definition loutside (ts : list lworker) (m : M) (x : Z) : Prop := 0 <= x < tnext m /\ forall t, In t ts -> ~ own (lw_ev t) x.

(** no buffer of an evaluator in common, and what one writes to the other is
    not given *)
Definition lapart (t u : lworker) : Prop :=
  apart (lw_ev t) (lw_ev u) /\ forall x, ~ (ltarget t x /\ lgiven u x) /\ ~ (ltarget u x /\ lgiven t x).

(** each goroutine has an evaluator to itself, and so are the ciphertexts it
    writes to; all else may be shared *)
Definition lseparate (ts : list lworker) (m : M) : Prop :=
  Forall (fun t => reachable O pr (lw_ev t) m) ts /\
  ForallOrdPairs lapart ts /\
  Forall (fun t => forall x, lgiven t x -> loutside ts m x) ts.

(** a schedule that gives each goroutine as many turns as it makes accesses
    when alone *)
Definition lturns (ts : list lworker) (m : M) (sched : list Z) : Prop :=
  (forall i, In i sched -> 0 <= i < zlen ts) /\
  forall i t, get ts i = Ok t -> Z.of_nat (count_occ Z.eq_dec sched i) = cost (lwork t) m.

(** the contents of a result *)
Definition contents (m : M) (r : list Z * list tref) : list (list Z) * list trlwe :=
  (map (tm m) (fst r), map (fun t => {| tA := tm m (rA t); tB := tm m (rB t) |}) (snd r)).
End Workers.

(** ** Messages

    Positions, the functions of the tables, and noise bounds: what the calls of
    a goroutine make of them ([lplain] and [lnoise] of LutProg.v). *)
Definition lvals : Type := (list Z * list (Z -> Z) * list Z)%type.
Definition lmeans (k T Rd : Z) (p : list lcall) (v : lvals) : res lvals :=
  let '(xs, fs, es) := v in
  bind (lplain k p xs fs) (fun r => bind (lnoise k T Rd p es) (fun es' => Ok (fst r, snd r, es'))).

Section Holds.
Context (O : fops) (pr : pset) (sk : SecretKey) (k : Z).
Notation M := (mem (FP O)).
(** the ciphertexts [ws] and tables [ts], used by evaluator [e], are [v] *)
Definition lholds (m : M) (e : evaluator) (ws : list Z) (ts : list tref) (v : lvals) : Prop :=
  let '(xs, fs, es) := v in lwires O pr e k sk m ws xs es /\ ltables O pr e k m ws ts fs.
(** every ciphertext whose noise leaves room decrypts to its message *)
Definition ldecrypts (m : M) (ws : list Z) (v : lvals) : Prop :=
  let '(xs, _, es) := v in
  forall i r x E, get ws i = Ok r -> get xs i = Ok x -> get es i = Ok E -> E < 2 ^ (30 - k) ->
    DecryptLWEMessage (lv0_N pr) (tm m r) (2 ^ k) (KeyLv0 sk) = Ok (x mod 2 ^ k).
End Holds.

(** ** What goroutines may be started with

    Positions in a pool of ciphertexts and in a pool of tables; what one writes
    to is given to no other. *)
Record ljob : Type := { lj_calls : list lcall; lj_cts : list Z; lj_tabs : list Z }.
Definition lj_writes (j : ljob) (p : Z) : Prop := exists o, In o (outputs (lj_calls j)) /\ get (lj_cts j) o = Ok p.
Definition ljobs_ok (nc nt : Z) (js : list ljob) : Prop :=
  Forall (fun j => NoDup (lj_cts j) /\ Forall (fun p => 0 <= p < nc) (lj_cts j) /\ Forall (fun p => 0 <= p < nt) (lj_tabs j)) js /\
  ForallOrdPairs (fun j j' => forall p, ~ (lj_writes j p /\ In p (lj_cts j')) /\ ~ (lj_writes j' p /\ In p (lj_cts j))) js.
(** the messages, functions and noise bounds a job starts from *)
Definition lj_vals (xs : list Z) (fs : list (Z -> Z)) (E : Z) (j : ljob) : lvals :=
  (map (zn xs) (lj_cts j), map (znd (fun x => x) fs) (lj_tabs j), map (fun _ => E) (lj_cts j)).

(** one call of BootstrapLUT *)
Definition one_lut (e : evaluator) (c : Z) (t : tref) : lworker := {| lw_ev := e; lw_calls := [LLut 0 0]; lw_cts := [c]; lw_tabs := [t] |}.

(** * Vocabulary for C36: goroutines that evaluate circuits *)
From Verif Require Import GoBase GoMem F64 Utils Params Key Tlwe TlweMem Poly Trlwe Trgsw Evaluator Gates Spec RunSpec Circuit Conc.
Import ListNotations.
Local Open Scope Z_scope.
Local Open Scope prog_scope.

(** the calls of Circuit.v as programs of accesses; [e] is the evaluator the
    calls use *)
Section Calls.
Context (O : fops) (pr : pset) (e : evaluator) (k : gkey O).
Definition p_instr (i : instr) (w : list Z) : prog O Z :=
  match i with
  | IGate g x y => a <- lift (get w x) ;; b <- lift (get w y) ;; p_gate2 O pr (gate_lin g (lv0_N pr)) e a b k
  | INot x => a <- lift (get w x) ;; p_NOT O pr a
  | IConst b => p_Constant O pr b
  | ICopy x => a <- lift (get w x) ;; p_Copy O pr a
  | IMux x y z => a <- lift (get w x) ;; b <- lift (get w y) ;; c <- lift (get w z) ;; p_MUX O pr e a b c k
  end.
Fixpoint p_exec (p : list instr) (w : list Z) : prog O (list Z) :=
  match p with
  | [] => Ret w
  | i :: p => r <- p_instr i w ;; p_exec p (w ++ [r])
  end.
End Calls.

(** a goroutine: the evaluator and key it uses, its calls, and its input wires *)
Record worker (O : fops) : Type := { wk_ev : evaluator; wk_key : gkey O; wk_calls : list instr; wk_in : list Z }.
Arguments wk_ev {O}. Arguments wk_key {O}. Arguments wk_calls {O}. Arguments wk_in {O}.

Section Workers.
Context {O : fops} (pr : pset).
Notation M := (mem (FP O)).

Definition work (t : worker O) : prog O (list Z) := p_exec O pr (wk_ev t) (wk_key t) (wk_calls t) (wk_in t).
(** a single gate call *)
Definition one (g : bgate) (a b : Z) (e : evaluator) (k : gkey O) : worker O :=
  {| wk_ev := e; wk_key := k; wk_calls := [IGate g 0 1]; wk_in := [a; b] |}.
(** its calls with nothing else running *)
Definition alone (t : worker O) (m : M) : res (list Z * M) := exec O pr (wk_ev t) (wk_key t) (wk_calls t) (wk_in t) m.

(** the buffers it is given *)
Definition given (t : worker O) (x : Z) : Prop :=
  In x (wk_in t) \/ x = rA (gk_testvec (wk_key t)) \/ x = rB (gk_testvec (wk_key t)).

(** no buffer in common *)
Definition apart (e e' : evaluator) : Prop :=
  forall x, ~ (own e x /\ own e' x) /\ ~ (fown e x /\ fown e' x) /\ ~ (iown e x /\ iown e' x).

(** an allocated buffer of no evaluator *)
Definition outside (ts : list (worker O)) (m : M) (x : Z) : Prop := 0 <= x < tnext m /\ forall t, In t ts -> ~ own (wk_ev t) x.

(** each goroutine has an evaluator to itself; inputs and keys may be shared *)
Definition separate (ts : list (worker O)) (m : M) : Prop :=
  Forall (fun t => reachable O pr (wk_ev t) m) ts /\
  ForallOrdPairs (fun t u => apart (wk_ev t) (wk_ev u)) ts /\
  Forall (fun t => forall x, given t x -> outside ts m x) ts.

(** a schedule that gives each goroutine as many turns as it makes accesses
    when alone *)
Definition turns (ts : list (worker O)) (m : M) (sched : list Z) : Prop :=
  (forall i, In i sched -> 0 <= i < zlen ts) /\
  forall i t, get ts i = Ok t -> Z.of_nat (count_occ Z.eq_dec sched i) = cost (work t) m.
End Workers.

(** * Circuits: programs that call the gates

    Vocabulary for statements.  No proofs. *)
From Verif Require Import GoBase GoMem F64 Params Key Tlwe TlweMem Poly Trlwe Trgsw Evaluator CloudKey Gates Spec RunSpec.
Local Open Scope Z_scope.

(** One call of package gates.  The arguments are positions in the list of
    wires; the result becomes the last wire. *)
Inductive instr : Type :=
| IGate (g : bgate) (x y : Z)
| INot (x : Z)
| IConst (b : bool)
| ICopy (x : Z)
| IMux (x y z : Z).

(** what the call means on bits *)
Definition plain_instr (i : instr) (w : list bool) : res bool :=
  match i with
  | IGate g x y => a <- get w x ;; b <- get w y ;; Ok (truth g a b)
  | INot x => a <- get w x ;; Ok (negb a)
  | IConst b => Ok b
  | ICopy x => get w x
  | IMux x y z => a <- get w x ;; b <- get w y ;; c <- get w z ;; Ok (if a then b else c)
  end.
Fixpoint plain (p : list instr) (w : list bool) : res (list bool) :=
  match p with
  | [] => Ok w
  | i :: p => r <- plain_instr i w ;; plain p (w ++ [r])
  end.

Section Run.
Context (O : fops) (pr : pset) (e : evaluator) (k : gkey O).
Notation M := (mem (FP O)).
Notation n := (lv0_N pr).

(** the call on ciphertexts; the wires are locations *)
Definition exec_instr (i : instr) (w : list Z) (m : M) : res (Z * M) :=
  match i with
  | IGate g x y => a <- get w x ;; b <- get w y ;; gate_fun g O pr m e a b k
  | INot x => a <- get w x ;; NOT O pr m a
  | IConst b => Constant O pr m b
  | ICopy x => a <- get w x ;; Copy O pr m a
  | IMux x y z => a <- get w x ;; b <- get w y ;; c <- get w z ;; MUX O pr m e a b c k
  end.
Fixpoint exec (p : list instr) (w : list Z) (m : M) : res (list Z * M) :=
  match p with
  | [] => Ok (w, m)
  | i :: p => '(r, m) <- exec_instr i w m ;; exec p (w ++ [r]) m
  end.

(** [c] is one of the ciphertexts MUX bootstraps *)
Definition mux_boots (m : M) (x y z : Z) (c : list Z) : Prop :=
  gate_lin Gand n (tm m x) (tm m y) = Ok c \/
  exists xy m1 nx m2, AND O pr m e x y k = Ok (xy, m1) /\ NOT O pr m1 x = Ok (nx, m2) /\
    (gate_lin Gand n (tm m2 nx) (tm m2 z) = Ok c \/
     exists nz m3, AND O pr m2 e nx z k = Ok (nz, m3) /\ gate_lin Gor n (tm m3 xy) (tm m3 nz) = Ok c).

(** [c] is one of the ciphertexts the call bootstraps *)
Definition boots_instr (i : instr) (w : list Z) (m : M) (c : list Z) : Prop :=
  match i with
  | IGate g x y => exists a b, get w x = Ok a /\ get w y = Ok b /\ gate_lin g n (tm m a) (tm m b) = Ok c
  | IMux x y z => exists a b d, get w x = Ok a /\ get w y = Ok b /\ get w z = Ok d /\ mux_boots m a b d c
  | _ => False
  end.
(** [c] is one of the ciphertexts the program bootstraps *)
Fixpoint boots (p : list instr) (w : list Z) (m : M) (c : list Z) : Prop :=
  match p with
  | [] => False
  | i :: p => boots_instr i w m c \/ exists r m', exec_instr i w m = Ok (r, m') /\ boots p (w ++ [r]) m' c
  end.

(** the wires are user buffers holding encryptions of the bits [v] *)
Definition wires (sk : SecretKey) (m : M) (w : list Z) (v : list bool) (E : Z) : Prop :=
  Forall2 (fun x b => user m e x /\ encrypts n (KeyLv0 sk) (tm m x) b E) w v.

(** ** The README's adder (README.md:78-88, 102-109) *)
Definition FullAdder (m : M) (a b cin : Z) : res (Z * Z * M) :=
  '(aXorB, m) <- XOR O pr m e a b k ;;
  '(aAndB, m) <- AND O pr m e a b k ;;
  '(aXorBAndC, m) <- AND O pr m e aXorB cin k ;;
  '(sum, m) <- XOR O pr m e aXorB cin k ;;
  '(carry, m) <- OR O pr m e aAndB aXorBAndC k ;;
  Ok (sum, carry, m).

(** the loop of main, for operands of any width; the carry is returned too *)
Definition Adder (m : M) (ctA ctB : list Z) : res (list Z * Z * M) :=
  '(carry, m) <- Constant O pr m false ;;
  for_range 0 (zlen ctA) (fun i '(result, carry, m) =>
    a <- get ctA i ;; b <- get ctB i ;;
    '(sum, carry, m) <- FullAdder m a b carry ;;
    Ok (result ++ [sum], carry, m)) ([], carry, m).

(** [c] is one of the ciphertexts the adder bootstraps: the gates of bit i see
    the carry and memory left by the bits before *)
Definition full_adder_boots (m : M) (a b cin : Z) (c : list Z) : Prop :=
  boots [IGate Gxor 0 1; IGate Gand 0 1; IGate Gand 3 2; IGate Gxor 3 2; IGate Gor 4 5] [a; b; cin] m c.
Definition adder_boots (m : M) (ctA ctB : list Z) (c : list Z) : Prop :=
  exists i a b s carry m', 0 <= i < zlen ctA /\ get ctA i = Ok a /\ get ctB i = Ok b /\
    Adder m (firstn (Z.to_nat i) ctA) (firstn (Z.to_nat i) ctB) = Ok (s, carry, m') /\
    full_adder_boots m' a b carry c.
End Run.

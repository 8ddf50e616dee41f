(** * Property C54: the pools of scratch buffers

    The vocabulary is in PoolSpec.v, the code in Buffers.v and Poly.v. *)
From Coq Require Import Lia.
From Verif Require Import GoBase GoFacts GoMem Spec Params Poly Fft Buffers PoolSpec ExactPoly PoolProps.
Local Open Scope Z_scope.

(** ** C54: results of PolyMulWithXK *)

(** Any sequence of calls in which each operand is a polynomial of the caller
    or one of the last three results: the last four results are the caller's
    polynomials times powers of X (up to the -1 of C10, which does not add
    up), and nothing of the caller's changes. *)
Theorem C54_rotations : forall F (e : peval) N (m0 : mem F) ins prog, 0 < N ->
  (forall i, 0 <= i < 4 -> zlen (tm m0 (pe_rot e i)) = N) ->
  (forall i, 0 <= i < zlen ins -> zlen (tm m0 (nth_z 0 ins i)) = N /\ tok_list (tm m0 (nth_z 0 ins i)) /\ ~ eval_buffer e (nth_z 0 ins i)) ->
  within (zlen ins) 3 prog 0 ->
  exists outs m', shifts e ins prog (ResetRotationPool m0 e) [] = Ok (outs, m') /\ zlen outs = zlen prog /\
    (forall d, 1 <= d <= 4 -> d <= zlen prog -> let ik := nth_z (0, 0) (shifts_mean prog []) (d - 1) in
       zlen (tm m' (nth_z 0 outs (d - 1))) = N /\
       forall j, 0 <= j < N -> zn (tm m' (nth_z 0 outs (d - 1))) j ==
         mono_mul N (snd ik) (zn (tm m0 (nth_z 0 ins (fst ik)))) j - (if Z.even ((j - snd ik) / N) then 0 else 1)) /\
    (forall l, ~ eval_buffer e l -> tm m' l = tm m0 l) /\ (forall l, fm m' l = fm m0 l).
Proof. exact @shifts_run. Qed.
Print Assumptions C54_rotations.

(** a new evaluator meets the conditions *)
Theorem C54_new : forall O (m : mem (FP O)) N e m', NewPolyEvaluator O m N = Ok (e, m') ->
  im m' (pe_rotIdx e) = 0 /\ (forall i, 0 <= i < 4 -> zlen (tm m' (pe_rot e i)) = N) /\ (forall l, l < tnext m -> ~ eval_buffer e l).
Proof. exact evaluator_ready. Qed.
Print Assumptions C54_new.

(** Three is exact: the fourth last result is the buffer the next call writes
    to, and multiplying it by X fills it with copies of one coefficient. *)
Theorem C54_fourth_refuted : forall F (e : peval) N (m0 : mem F) ins prog, 0 < N -> 4 <= zlen prog ->
  (forall i, 0 <= i < 4 -> zlen (tm m0 (pe_rot e i)) = N) ->
  (forall i, 0 <= i < zlen ins -> zlen (tm m0 (nth_z 0 ins i)) = N /\ tok_list (tm m0 (nth_z 0 ins i)) /\ ~ eval_buffer e (nth_z 0 ins i)) ->
  within (zlen ins) 3 prog 0 ->
  exists outs m1 r m2, shifts e ins prog (ResetRotationPool m0 e) [] = Ok (outs, m1) /\
    shifts e ins [(Back 4, 1)] m1 outs = Ok (r :: outs, m2) /\
    let x := zn (tm m1 (nth_z 0 outs 3)) 0 in tm m2 r = tab N (fun j => if j =? 0 then tnot x else x).
Proof. exact @fourth_back. Qed.
Print Assumptions C54_fourth_refuted.

(** ** C54: the buffer manager *)

(** Any sequence of calls hands out, from each pool, the four buffers in turn,
    starting again at a reset; the buffers are new, of the right size and all
    different; the calls change no buffer. *)
Theorem C54_manager : forall (R : arith) pr n, check_degree n = Ok tt -> 0 <= g_L pr -> forall (m : mem (list (AN R))) cs,
  exists b m1 m2, NewBufferManager R pr m n = Ok (b, m1) /\ calls b cs m1 = Ok (robin b cs 0 0, m2) /\
    (forall l, tm m2 l = tm m1 l) /\ (forall l, fm m2 l = fm m1 l) /\ (forall l, l < tnext m -> tm m1 l = tm m l) /\
    (forall i, 0 <= i < 4 -> tnext m <= bm_Pool b i < tnext m1 /\ tnext m <= bm_TRLWEA b i < tnext m1 /\ tnext m <= bm_TRLWEB b i < tnext m1 /\
       zlen (tm m1 (bm_Pool b i)) = n /\ zlen (tm m1 (bm_TRLWEA b i)) = n /\ zlen (tm m1 (bm_TRLWEB b i)) = n) /\
    (forall i j, 0 <= i < 4 -> 0 <= j < 4 -> bm_Pool b i <> bm_TRLWEA b j /\ bm_Pool b i <> bm_TRLWEB b j /\ bm_TRLWEA b i <> bm_TRLWEB b j /\
       (i <> j -> bm_Pool b i <> bm_Pool b j /\ bm_TRLWEA b i <> bm_TRLWEA b j /\ bm_TRLWEB b i <> bm_TRLWEB b j)).
Proof. exact manager_calls. Qed.
Print Assumptions C54_manager.

(** ** C54: aligned polynomials are ordinary polynomials *)
Theorem C54_aligned : forall (R : arith) N, NewPolyAligned N = NewPoly N /\ NewFourierPolyAligned R N = NewFourierPoly R N.
Proof. intros R N. exact (conj (aligned_poly N) (aligned_fourier R N)). Qed.
Print Assumptions C54_aligned.

(** ** C54: reported memory *)

(** The manager counts each Fourier buffer twice. *)
Theorem C54_memory_refuted : forall (R : arith) pr n, check_degree n = Ok tt -> 0 <= g_L pr -> forall m : mem (list (AN R)),
  exists b m', NewBufferManager R pr m n = Ok (b, m') /\ BM_MemoryUsage pr b = torus_bytes m m' + 2 * float_bytes m m' /\ 0 < float_bytes m m'.
Proof. exact manager_bytes. Qed.
Print Assumptions C54_memory_refuted.

(** What the evaluator's pool reports is between 6/5 and 3/2 of what it holds,
    at every level. *)
Theorem C54_pool_memory : forall (R : arith) level, let pr := get_params level in forall m : mem (list (AN R)),
  exists b m', NewBufferPool_all R pr m (g_N pr) = Ok (b, m') /\ (forall l, l < tnext m -> tm m' l = tm m l) /\ (forall l, l < fnext m -> fm m' l = fm m l) /\
    let held := torus_bytes m m' + float_bytes m m' in
    6 * held <= 5 * FP_MemoryUsage pr b /\ 2 * FP_MemoryUsage pr b <= 3 * held /\ 180000 <= held.
Proof. exact pool_levels. Qed.
Print Assumptions C54_pool_memory.

(** ** Cases *)

(** N = 16; the caller's polynomial is at location 0 *)
Definition pool_mem : mem (list Z) := snd (alloc (empty_mem []) (tab 16 (fun i => i + 1))).
Example C54_run : (p <- NewPolyEvaluator exact pool_mem 16 ;;
    let '(e, m) := p in
    '(outs, m) <- shifts e [0] [(Given 0, 3); (Back 1, -5); (Given 0, 16); (Back 3, 30); (Back 2, 1)] (ResetRotationPool m e) [] ;;
    Ok (map (tm m) (firstn 4 outs), shifts_mean [(Given 0, 3); (Back 1, -5); (Given 0, 16); (Back 3, 30); (Back 2, 1)] [])) =
  Ok ([tab 16 (fun j => if j =? 0 then 16 else tnot j);
       tab 16 (fun j => if j =? 0 then tnot 16 else j);
       tab 16 (fun j => tnot (j + 1));
       tab 16 (fun j => if j <? 14 then j + 3 else tnot (j - 13))],
      [(0, 17); (0, 33); (0, 16); (0, -2); (0, 3)]).
Proof. vm_compute. reflexivity. Qed.

(** * Gates, programmable bootstraps and re-encryption, by several parties

    Vocabulary for statements.  No proofs.

    Every party of Party.v has a desk: a list of ciphertexts and a list of
    lookup tables.  On its own desk a party runs the calls of MixProg.v with its
    own cloud key; ciphertexts reach a desk by encryption or, over a link, by
    re-encryption of a ciphertext of another desk. *)
From Verif Require Import GoBase GoMem F64 Utils Params Key Tlwe TlweMem Poly Fft Trlwe Trgsw Lut Evaluator CloudKey Gates ProxyReenc Spec RunSpec LutSpec Circuit LutProg MixProg ReencSpec Party.
Local Open Scope Z_scope.

(** One call.  [p] is a party, [h] a link, [a] a position in the list of
    ciphertexts of the party the link leads from. *)
Inductive xact : Type :=
| XCall (p : Z) (c : mcall)                   (* a gate, linear operation, table or programmable bootstrap *)
| XMessage (p x : Z) (r : enc_rand)           (* tlwe EncryptLWEMessage with p's secret key, modulus 2^k *)
| XBit (p : Z) (b : bool) (r : enc_rand)      (* tlwe EncryptBool with p's secret key *)
| XPublic (p : Z) (b : bool) (r : pk_rand)    (* proxyreenc EncryptBool with p's public key *)
| XReencrypt (h a : Z).                       (* proxyreenc ReencryptTLWELv0 *)

(** ** The meaning: the positions and functions on each desk *)
Section Plain.
Context {O : fops} (pr : pset) (ps : list (party O)) (links : list link) (k : Z).

Definition sheet : Type := (list Z * list (Z -> Z))%type.
Definition give (p x : Z) (v : list sheet) : res (list sheet) := '(xs, fs) <- get v p ;; set v p (xs ++ [x], fs).

Definition xplain1 (i : xact) (v : list sheet) : res (list sheet) :=
  match i with
  | XCall p c => '(xs, fs) <- get v p ;; s <- mplain1 k c xs fs ;; set v p s
  | XMessage p x _ => give p (x mod 2 ^ k) v
  | XBit p b _ | XPublic p b _ => give p (bit_pos k b) v
  | XReencrypt h a => l <- get links h ;; '(xs, _) <- get v (h_from l) ;; x <- get xs a ;; give (h_to l) x v
  end.
Fixpoint xplain (cs : list xact) (v : list sheet) : res (list sheet) :=
  match cs with
  | [] => Ok v
  | i :: cs => v <- xplain1 i v ;; xplain cs v
  end.

(** ** Noise bounds: a bootstrap with p's cloud key leaves [T p] *)
Context (T : Z -> Z).

Definition give_noise (p E : Z) (es : list (list Z)) : res (list (list Z)) := F <- get es p ;; set es p (F ++ [E]).
Definition xnoise1 (i : xact) (es : list (list Z)) : res (list (list Z)) :=
  match i with
  | XCall p c => q <- get ps p ;; F <- get es p ;; F <- mnoise1 k (T p) (round_err pr (p_sk q)) c F ;; set es p F
  | XMessage p _ r | XBit p _ r => give_noise p (Z.abs (sample (er_noise r))) es
  | XPublic p _ r => q <- get ps p ;; give_noise p (Z.abs (pk_total (p_size q) (p_zeros q) r)) es
  | XReencrypt h a => l <- get links h ;; F <- get es (h_from l) ;; E <- get F a ;; give_noise (h_to l) (E + h_err l) es
  end.
Fixpoint xnoise (cs : list xact) (es : list (list Z)) : res (list (list Z)) :=
  match cs with
  | [] => Ok es
  | i :: cs => es <- xnoise1 i es ;; xnoise cs es
  end.
End Plain.

(** ** Running it: one process, one evaluator *)
Section Run.
Context (O : fops) (pr : pset) (e : evaluator) (ps : list (party O)) (links : list link) (k : Z).
Notation M := (mem (FP O)).
Notation n := (lv0_N pr).

Definition desk : Type := (list Z * list tref)%type.
Definition put (p : Z) (r : res (list Z)) (ds : list desk) (m : M) : res (list desk * M) :=
  '(ws, ts) <- get ds p ;; '(x, m) <- fresh O m r ;; ds <- set ds p (ws ++ [x], ts) ;; Ok (ds, m).

Definition xexec1 (i : xact) (ds : list desk) (m : M) : res (list desk * M) :=
  match i with
  | XCall p c => q <- get ps p ;; '(ws, ts) <- get ds p ;;
      '(ws, ts, m) <- mexec1 O pr (p_ck q) e (p_key q) k c ws ts m ;; ds <- set ds p (ws, ts) ;; Ok (ds, m)
  | XMessage p x r => q <- get ps p ;; put p (t <- NewTLWE n ;; EncryptLWEMessage n t x (2 ^ k) (KeyLv0 (p_sk q)) r) ds m
  | XBit p b r => q <- get ps p ;; put p (t <- NewTLWE n ;; EncryptBool n t b (KeyLv0 (p_sk q)) r) ds m
  | XPublic p b r => q <- get ps p ;; put p (PkEncryptBool n (p_pub q) b r) ds m
  | XReencrypt h a => l <- get links h ;; '(ws, _) <- get ds (h_from l) ;; x <- get ws a ;;
      put (h_to l) (ReencryptTLWELv0 n (tm m x) (h_key l)) ds m
  end.
Fixpoint xexec (cs : list xact) (ds : list desk) (m : M) : res (list desk * M) :=
  match cs with
  | [] => Ok (ds, m)
  | i :: cs => '(ds, m) <- xexec1 i ds m ;; xexec cs ds m
  end.

(** the call bootstraps [c] with p's cloud key, with the gates' test vector or a
    table for [f] *)
Definition xboots1 (i : xact) (ds : list desk) (v : list sheet) (m : M) (p : Z) (f : option (Z -> Z)) (c : list Z) : Prop :=
  match i with
  | XCall p' i => p = p' /\ exists q d s, get ps p = Ok q /\ get ds p = Ok d /\ get v p = Ok s /\
      mboots1 O pr e (p_key q) i (fst d) (snd s) m f c
  | _ => False
  end.
Fixpoint xboots (cs : list xact) (ds : list desk) (v : list sheet) (m : M) (p : Z) (f : option (Z -> Z)) (c : list Z) : Prop :=
  match cs with
  | [] => False
  | i :: cs => xboots1 i ds v m p f c \/
      exists ds' v' m', xexec1 i ds m = Ok (ds', m') /\ xplain1 links k i v = Ok v' /\ xboots cs ds' v' m' p f c
  end.

(** the call re-encrypts [c] over link [h] *)
Definition xreenc1 (i : xact) (ds : list desk) (m : M) (h : Z) (c : list Z) : Prop :=
  match i with
  | XReencrypt h' a => h = h' /\ exists l d x, get links h = Ok l /\ get ds (h_from l) = Ok d /\ get (fst d) a = Ok x /\ c = tm m x
  | _ => False
  end.
Fixpoint xreencs (cs : list xact) (ds : list desk) (m : M) (h : Z) (c : list Z) : Prop :=
  match cs with
  | [] => False
  | i :: cs => xreenc1 i ds m h c \/ exists ds' m', xexec1 i ds m = Ok (ds', m') /\ xreencs cs ds' m' h c
  end.

(** what a desk holds: the ciphertexts encrypt the positions under the key of
    the desk's party, the tables are those of the functions *)
Definition desk_ok (m : M) (q : party O) (d : desk) (s : sheet) (es : list Z) : Prop :=
  lwires O pr e k (p_sk q) m (fst d) (fst s) es /\ ltables O pr e k m (fst d) (snd d) (snd s).
Definition desks_ok (m : M) (ds : list desk) (v : list sheet) (es : list (list Z)) : Prop :=
  zlen ds = zlen ps /\ zlen v = zlen ps /\ zlen es = zlen ps /\
  forall p q d s F, get ps p = Ok q -> get ds p = Ok d -> get v p = Ok s -> get es p = Ok F -> desk_ok m q d s F.

(** no buffer is on two desks, and no ciphertext is a table or a test vector *)
Definition separate (ds : list desk) : Prop :=
  forall p d, get ds p = Ok d ->
    (forall p' d' x, get ds p' = Ok d' -> p' <> p -> In x (fst d) -> ~ In x (fst d')) /\
    (forall p' d' t, get ds p' = Ok d' -> In t (snd d') -> ~ In (rA t) (fst d) /\ ~ In (rB t) (fst d)) /\
    (forall q, In q ps -> ~ In (rA (gk_testvec (p_key q))) (fst d) /\ ~ In (rB (gk_testvec (p_key q))) (fst d)).

(** the ciphertexts the program is asked to write to *)
Definition xoutputs (cs : list xact) : list (Z * Z) :=
  flat_map (fun i => match i with XCall p c => map (fun o => (p, o)) (moutputs [c]) | _ => [] end) cs.

(** the other user buffers keep their contents *)
Definition xkept (cs : list xact) (ds : list desk) (m m' : M) : Prop :=
  forall x, user m e x -> (forall p o d, In (p, o) (xoutputs cs) -> get ds p = Ok d -> get (fst d) o <> Ok x) ->
    user m' e x /\ tm m' x = tm m x.

(** the desks grow, by ciphertexts in new buffers *)
Definition grown (m : M) (ds ds' : list desk) : Prop :=
  forall p d, get ds p = Ok d -> exists nw nt, get ds' p = Ok (fst d ++ nw, snd d ++ nt) /\ forall x, In x nw -> ~ user m e x.
End Run.

(** * Programs of several parties

    Vocabulary for statements about parties that encrypt, hand ciphertexts to
    each other by re-encryption, and compute on them with the owner's cloud key.
    No proofs. *)
From Verif Require Import GoBase GoMem F64 Utils Params Key Tlwe TlweMem Poly Fft Trlwe Trgsw Evaluator CloudKey Gates ProxyReenc Spec RunSpec Circuit ReencSpec.
Local Open Scope Z_scope.

(** A party: its secret key and cloud key (with the randomness used for it, and
    as the gates receive it), and its public key of [p_size] encryptions of zero. *)
Record party (O : fops) : Type := {
  p_sk : SecretKey; p_rk : Z -> enc_rand; p_rb : Z -> Z -> trlwe_rand; p_ck : CloudKey O; p_key : gkey O;
  p_size : Z; p_zeros : Z -> enc_rand; p_pub : PublicKeyLv0
}.
Arguments p_sk {O}. Arguments p_rk {O}. Arguments p_rb {O}. Arguments p_ck {O}. Arguments p_key {O}.
Arguments p_size {O}. Arguments p_zeros {O}. Arguments p_pub {O}.

(** A re-encryption key, the parties it leads from and to, how it was made (the
    digits, and the noise of its entries), and a bound on the error it adds. *)
Record link : Type := { h_from : Z; h_to : Z; h_key : ProxyReencryptionKey; h_basebit : Z; h_t : Z; h_noise : Z -> Z; h_err : Z }.

(** One call.  [p] is a party, [h] a link, [x], [y], [z] are positions in the
    list of ciphertexts; the result becomes its last element. *)
Inductive act : Type :=
| PEncrypt (p : Z) (b : bool) (r : enc_rand)        (* tlwe EncryptBool with p's secret key *)
| PPublic (p : Z) (b : bool) (r : pk_rand)          (* proxyreenc EncryptBool with p's public key *)
| PReencrypt (h x : Z)                              (* proxyreenc ReencryptTLWELv0 *)
| PGate (p : Z) (g : bgate) (x y : Z)               (* a gate, with p's cloud key *)
| PMux (p x y z : Z)
| PNot (x : Z)
| PCopy (x : Z)
| PConst (p : Z) (b : bool).                        (* gates Constant, counted as p's *)

(** ** The meaning: an owner and a bit for each ciphertext *)
Section Plain.
Context {O : fops} (ps : list (party O)) (links : list link).

(** the bit at [x], which must be [p]'s *)
Definition bit_of (p : Z) (w : list (Z * bool)) (x : Z) : res bool :=
  '(q, b) <- get w x ;; if q =? p then Ok b else Panic PIndex.

Definition pplain1 (i : act) (w : list (Z * bool)) : res (Z * bool) :=
  match i with
  | PEncrypt p b _ | PPublic p b _ | PConst p b => get ps p ;;; Ok (p, b)
  | PReencrypt h x => k <- get links h ;; b <- bit_of (h_from k) w x ;; Ok (h_to k, b)
  | PGate p g x y => a <- bit_of p w x ;; b <- bit_of p w y ;; Ok (p, truth g a b)
  | PMux p x y z => a <- bit_of p w x ;; b <- bit_of p w y ;; c <- bit_of p w z ;; Ok (p, if a : bool then b else c)
  | PNot x => '(p, b) <- get w x ;; Ok (p, negb b)
  | PCopy x => get w x
  end.
Fixpoint pplain (c : list act) (w : list (Z * bool)) : res (list (Z * bool)) :=
  match c with
  | [] => Ok w
  | i :: c => r <- pplain1 i w ;; pplain c (w ++ [r])
  end.

(** ** Noise bounds

    A bootstrap with p's cloud key leaves noise [T p]; it is allowed if the
    noise of its input and the rounding [Rd p] stay below 1/8. *)
Context (T Rd : Z -> Z).

Definition allowed (p E : Z) : res Z := if E + Rd p <? 2 ^ 29 then Ok (T p) else Panic PIndex.

Definition pnoise1 (i : act) (es : list Z) : res Z :=
  match i with
  | PEncrypt p b r => Ok (Z.abs (sample (er_noise r)))
  | PPublic p b r => q <- get ps p ;; Ok (Z.abs (pk_total (p_size q) (p_zeros q) r))
  | PReencrypt h x => k <- get links h ;; E <- get es x ;; Ok (E + h_err k)
  | PGate p g x y => E <- get es x ;; F <- get es y ;; allowed p (E + mult g * F)
  | PMux p x y z => E <- get es x ;; F <- get es y ;; G <- get es z ;;
      allowed p (E + F) ;;; allowed p (E + G) ;;; allowed p (T p + T p)
  | PNot x | PCopy x => get es x
  | PConst _ _ => Ok 1
  end.
Fixpoint pnoise (c : list act) (es : list Z) : res (list Z) :=
  match c with
  | [] => Ok es
  | i :: c => r <- pnoise1 i es ;; pnoise c (es ++ [r])
  end.
End Plain.

(** ** Running it: one process, one evaluator, the parties' keys in its memory *)
Section Run.
Context (O : fops) (pr : pset) (e : evaluator) (ps : list (party O)) (links : list link).
Notation M := (mem (FP O)).
Notation n := (lv0_N pr).

Definition pexec1 (i : act) (w : list Z) (m : M) : res (Z * M) :=
  match i with
  | PEncrypt p b r => q <- get ps p ;; fresh O m (t <- NewTLWE n ;; EncryptBool n t b (KeyLv0 (p_sk q)) r)
  | PPublic p b r => q <- get ps p ;; fresh O m (PkEncryptBool n (p_pub q) b r)
  | PReencrypt h x => k <- get links h ;; a <- get w x ;; fresh O m (ReencryptTLWELv0 n (tm m a) (h_key k))
  | PGate p g x y => q <- get ps p ;; a <- get w x ;; b <- get w y ;; gate_fun g O pr m e a b (p_key q)
  | PMux p x y z => q <- get ps p ;; a <- get w x ;; b <- get w y ;; c <- get w z ;; MUX O pr m e a b c (p_key q)
  | PNot x => a <- get w x ;; NOT O pr m a
  | PCopy x => a <- get w x ;; Copy O pr m a
  | PConst _ b => Constant O pr m b
  end.
Fixpoint pexec (c : list act) (w : list Z) (m : M) : res (list Z * M) :=
  match c with
  | [] => Ok (w, m)
  | i :: c => '(r, m) <- pexec1 i w m ;; pexec c (w ++ [r]) m
  end.

(** [c] is one of the ciphertexts the call bootstraps, with p's cloud key *)
Definition pboots1 (i : act) (w : list Z) (m : M) (p : Z) (c : list Z) : Prop :=
  match i with
  | PGate p' g x y => p = p' /\ exists a b, get w x = Ok a /\ get w y = Ok b /\ gate_lin g n (tm m a) (tm m b) = Ok c
  | PMux p' x y z => p = p' /\ exists q a b d, get ps p' = Ok q /\ get w x = Ok a /\ get w y = Ok b /\ get w z = Ok d /\
      mux_boots O pr e (p_key q) m a b d c
  | _ => False
  end.
(** so does the program, at some point *)
Fixpoint pboots (cs : list act) (w : list Z) (m : M) (p : Z) (c : list Z) : Prop :=
  match cs with
  | [] => False
  | i :: cs => pboots1 i w m p c \/ exists r m', pexec1 i w m = Ok (r, m') /\ pboots cs (w ++ [r]) m' p c
  end.

(** [c] is the ciphertext the call re-encrypts over link [h] *)
Definition preenc1 (i : act) (w : list Z) (m : M) (h : Z) (c : list Z) : Prop :=
  match i with PReencrypt h' x => h = h' /\ exists a, get w x = Ok a /\ c = tm m a | _ => False end.
(** so does the program, at some point *)
Fixpoint preencs (cs : list act) (w : list Z) (m : M) (h : Z) (c : list Z) : Prop :=
  match cs with
  | [] => False
  | i :: cs => preenc1 i w m h c \/ exists r m', pexec1 i w m = Ok (r, m') /\ preencs cs (w ++ [r]) m' h c
  end.
(** re-encrypting [c] over link [k] of the party [a] adds at most [E] *)
Definition reenc_noise (a : party O) (k : link) (c : list Z) (E : Z) : Prop :=
  weight n (KeyLv0 (p_sk a)) * 2 ^ (31 - h_basebit k * h_t k) + Z.abs (used_noise n (h_basebit k) (h_t k) c (h_noise k)) <= E.

(** every party's keys are made by the library and its cloud key is in memory *)
Definition parties (R : arith) (m : M) : Prop :=
  Forall (fun q => setup R O pr (p_sk q) (p_rk q) (p_rb q) (p_ck q) /\ key_at O m e (p_key q) (p_ck q) /\
    0 <= p_size q /\ NewPublicKeyLv0WithParams n (KeyLv0 (p_sk q)) (p_size q) (p_zeros q) = Ok (p_pub q)) ps.

(** every link is a re-encryption key between two of the parties *)
Definition links_ok : Prop :=
  Forall (fun k => exists a b, get ps (h_from k) = Ok a /\ get ps (h_to k) = Ok b /\
    rkey n (KeyLv0 (p_sk a)) (KeyLv0 (p_sk b)) (h_key k) (h_basebit k) (h_t k) (h_noise k)) links.

(** the ciphertext in the user buffer [r] encrypts the bit under the key of its
    owner, with noise at most [E] *)
Definition holds (m : M) (r : Z) (v : Z * bool) (E : Z) : Prop :=
  user m e r /\ exists q, get ps (fst v) = Ok q /\ encrypts n (KeyLv0 (p_sk q)) (tm m r) (snd v) E.

(** ... for every ciphertext of a list *)
Definition all_hold (m : M) (w : list Z) (v : list (Z * bool)) (es : list Z) : Prop :=
  zlen v = zlen w /\ zlen es = zlen w /\
  forall x r b E, get w x = Ok r -> get v x = Ok b -> get es x = Ok E -> holds m r b E.
End Run.

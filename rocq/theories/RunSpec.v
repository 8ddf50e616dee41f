(** * Vocabulary for statements about runs

    What it means for a memory to be reachable with an evaluator in use, for a
    cloud key to be in memory, for a ciphertext to encrypt a bit, and the noise
    that one bootstrap adds.  No proofs. *)
From Verif Require Import GoBase GoMem F64 Utils Params Key Tlwe TlweMem Poly Fft Trlwe Trgsw Lut Evaluator CloudKey Gates Spec.
Local Open Scope Z_scope.

(** [ct] encrypts the bit [b] under [s] with noise at most [E] *)
Definition encrypts (n : Z) (s ct : list Z) (b : bool) (E : Z) : Prop :=
  lwe_ok n ct /\ close E (lwe_phase n s ct) (mu_bit b).

(** true side / false side of the circle, at distance d from both edges *)
Definition side (b : bool) (d phi : Z) : Prop :=
  if b then d <= centered phi < two31 - d else - two31 + d <= centered phi < - d.

(** what the code needs of a parameter set (theorem C02: every
    shipped set has it) *)
Record pwf (pr : pset) (N : Z) : Prop := {
  pw_gN : g_N pr = N; pw_trN : trlwe_N pr = N; pw_lv1N : lv1_N pr = N;
  pw_nb : 0 <= g_NBIT pr <= 30; pw_N : N = 2 ^ g_NBIT pr;
  pw_bg : 1 <= g_BGBIT pr; pw_l : 1 <= g_L pr; pw_lbg : g_L pr * g_BGBIT pr <= 32; pw_2l : 2 * g_L pr <= 8;
  pw_n : 0 <= lv0_N pr;
  pw_bb : 1 <= g_BASEBIT pr; pw_t : 0 <= g_IKS_T pr; pw_bbt : g_BASEBIT pr * g_IKS_T pr <= 31
}.

Definition good_params (pr : pset) : Prop := pwf pr (g_N pr) /\ g_BG pr = 2 ^ g_BGBIT pr.

(** an evaluator made for [pr0] has the buffers needed to work with [pr] *)
Definition serves (pr0 pr : pset) : Prop :=
  g_N pr0 = g_N pr /\ trlwe_N pr0 = trlwe_N pr /\ lv1_N pr0 = lv1_N pr /\ lv0_N pr0 = lv0_N pr /\ g_L pr <= g_L pr0.

(** the secret key fits the parameters *)
Definition key_ok (pr : pset) (sk : SecretKey) : Prop :=
  bin_key (lv0_N pr) (KeyLv0 sk) /\ bin_key (lv1_N pr) (KeyLv1 sk).

(** [O] is the transform of a polynomial evaluator of the right degree, in some
    arithmetic [R] (binary64, or the reals); [ck] is a cloud key for [sk] *)
Definition setup (R : arith) (O : fops) (pr : pset) (sk : SecretKey) (rk : Z -> enc_rand) (rb : Z -> Z -> trlwe_rand)
    (ck : CloudKey O) : Prop :=
  good_params pr /\ fft_evaluator R (g_N pr) = Ok O /\ key_ok pr sk /\ NewCloudKey O pr sk rk rb = Ok ck.

(** the buffers of an evaluator: torus, Fourier, ints *)
Definition own (e : evaluator) (x : Z) : Prop := pe_t (ev_pe e) <= x < bp_t (ev_bp e) + 17.
Definition fown (e : evaluator) (x : Z) : Prop := pe_f (ev_pe e) <= x < bp_f (ev_bp e) + 2.
Definition iown (e : evaluator) (x : Z) : Prop := pe_i (ev_pe e) <= x < bp_i (ev_bp e) + 1.

Definition mem_ok {F} (m : mem F) : Prop := 0 <= tnext m /\ 0 <= fnext m /\ 0 <= inext m.

(** an allocated buffer that is not the evaluator's *)
Definition user {F} (m : mem F) (e : evaluator) (x : Z) : Prop := 0 <= x < tnext m /\ ~ own e x.

(** user buffers keep their contents *)
Definition user_kept {F} (e : evaluator) (m m' : mem F) : Prop :=
  forall x, user m e x -> user m' e x /\ tm m' x = tm m x.

(** ... but for the two output buffers *)
Definition user_kept_but {F} (e : evaluator) (o : tref) (m m' : mem F) : Prop :=
  forall x, user m e x -> x <> rA o -> x <> rB o -> user m' e x /\ tm m' x = tm m x.

(** the ciphertext in a pair of buffers *)
Definition ct_at {F} (m : mem F) (r : tref) : trlwe := {| tA := tm m (rA r); tB := tm m (rB r) |}.

Section Run.
Context (O : fops) (pr : pset).
Notation M := (mem (FP O)).
Notation n := (lv0_N pr).
Notation N := (g_N pr).

(** the gates' key [k] is the cloud key [ck], its test vector in user buffers *)
Definition key_at (m : M) (e : evaluator) (k : gkey O) (ck : CloudKey O) : Prop :=
  gk_offset k = DecompositionOffset ck /\ gk_ksk k = KeySwitchingKey ck /\ gk_bsk k = BootstrappingKey ck /\
  tm m (rA (gk_testvec k)) = tA (BlindRotateTestvec ck) /\ tm m (rB (gk_testvec k)) = tB (BlindRotateTestvec ck) /\
  user m e (rA (gk_testvec k)) /\ user m e (rB (gk_testvec k)).

(** a ciphertext of the right size, in a user buffer or one of the
    evaluator's four result buffers *)
Definition input (m : M) (e : evaluator) (x : Z) : Prop :=
  zlen (tm m x) = n + 1 /\ (user m e x \/ bp_t (ev_bp e) + 13 <= x < bp_t (ev_bp e) + 17).

(** a table of torus elements in user buffers *)
Definition table (m : M) (e : evaluator) (r : tref) (tv : trlwe) : Prop :=
  tm m (rA r) = tA tv /\ tm m (rB r) = tB tv /\ user m e (rA r) /\ user m e (rB r) /\
  zlen (tA tv) = N /\ zlen (tB tv) = N /\ tok_list (tA tv) /\ tok_list (tB tv).

(** two different user buffers of polynomial size *)
Definition room (m : M) (e : evaluator) (r : tref) : Prop :=
  user m e (rA r) /\ user m e (rB r) /\ rA r <> rB r /\ zlen (tm m (rA r)) = N /\ zlen (tm m (rB r)) = N.

(** no buffer in common *)
Definition disjoint (r o : tref) : Prop := rA r <> rA o /\ rA r <> rB o /\ rB r <> rA o /\ rB r <> rB o.

(** [g] is a transformed TRGSW encryption of the integer [p] *)
Definition trgsw_of (key : list Z) (p : Z) (rs : Z -> trlwe_rand) (g : trgsw_fft O) : Prop :=
  exists z t, NewTRGSWLv1 pr = Ok z /\ TrgswEncryptTorus O N pr z p key rs = Ok t /\ NewTRGSWLv1FFT O N t = Ok g.

(** ** Polynomial evaluators (package poly), used by package trgsw *)
Definition pown (p : peval) (x : Z) : Prop := pe_t p <= x < pe_t p + 24.
Definition puser (m : M) (p : peval) (x : Z) : Prop := 0 <= x < tnext m /\ ~ pown p x.
Definition ptable (m : M) (p : peval) (r : tref) (tv : trlwe) : Prop :=
  tm m (rA r) = tA tv /\ tm m (rB r) = tB tv /\ puser m p (rA r) /\ puser m p (rB r) /\
  zlen (tA tv) = N /\ zlen (tB tv) = N /\ tok_list (tA tv) /\ tok_list (tB tv).

(** the calls of package trgsw that use the buffers of [p] *)
Inductive pcall (p : peval) : M -> M -> Prop :=
| pc_product m m' key msg rs g r c off out : zlen key = N -> trgsw_of key msg rs g -> ptable m p r c ->
    ExternalProductWithFFT O pr m g r off p = Ok (out, m') -> pcall p m m'
| pc_cmux m m' key msg rs g r0 c0 r1 c1 off out : zlen key = N -> trgsw_of key msg rs g -> ptable m p r0 c0 -> ptable m p r1 c1 ->
    CMUX O pr m r0 r1 g off p = Ok (out, m') -> pcall p m m'
| pc_rotate m m' sk rk rb ck src tvr tv out : key_ok pr sk -> NewCloudKey O pr sk rk rb = Ok ck ->
    zlen (tm m src) = n + 1 -> puser m p src -> ptable m p tvr tv ->
    BlindRotate O pr m src tvr (BootstrappingKey ck) (DecompositionOffset ck) p = Ok (out, m') -> pcall p m m'.

(** memories reachable while a polynomial evaluator of its own is in use:
    NewEvaluator of package poly, calls, and anything outside its buffers *)
Inductive preachable (p : peval) : M -> Prop :=
| pr_new m m' : mem_ok m -> NewPolyEvaluator O m N = Ok (p, m') -> preachable p m'
| pr_call m m' : preachable p m -> pcall p m m' -> preachable p m'
| pr_other m m' : preachable p m ->
    (forall x, pown p x -> tm m' x = tm m x) -> (forall x, pe_f p <= x < pe_f p + 15 -> fm m' x = fm m x) ->
    (forall x, pe_i p <= x < pe_i p + 2 -> im m' x = im m x) ->
    tnext m <= tnext m' -> fnext m <= fnext m' -> inext m <= inext m' -> preachable p m'.

(** ** Memories reachable while an evaluator is in use

    It starts with NewEvaluator; then anything may happen outside the
    evaluator's buffers (and the result buffers it has handed out may be
    overwritten), and the evaluator may be used, with any keys made by
    NewCloudKey, for any operations, and reset. *)
Definition ring (e : evaluator) (x : Z) : Prop := bp_t (ev_bp e) + 13 <= x < bp_t (ev_bp e) + 17.

Definition elsewhere (e : evaluator) (m m' : M) : Prop :=
  (forall x, own e x -> ~ ring e x -> tm m' x = tm m x) /\
  (forall x, ring e x -> zlen (tm m' x) = zlen (tm m x)) /\
  (forall x, fown e x -> fm m' x = fm m x) /\ (forall x, iown e x -> im m' x = im m x) /\
  tnext m <= tnext m' /\ fnext m <= fnext m' /\ inext m <= inext m'.

(** [uses e keep j m m']: one operation takes [m] to [m']; it draws [j] (0 or
    1) result buffers from the evaluator, and none of the buffers in [keep] is
    one it is asked to write to *)
Inductive uses (e : evaluator) (keep : Z -> Prop) : Z -> M -> M -> Prop :=
| u_other m m' : elsewhere e m m' -> (forall x, keep x -> tm m' x = tm m x) -> uses e keep 0 m m'
| u_boot m m' sk rk rb ck ct tvr tv r :
    key_ok pr sk -> NewCloudKey O pr sk rk rb = Ok ck -> input m e ct -> table m e tvr tv ->
    Bootstrap O pr m e ct tvr (BootstrappingKey ck) (KeySwitchingKey ck) (DecompositionOffset ck) = Ok (r, m') ->
    uses e keep 1 m m'
| u_assign m m' sk rk rb ck ct tvr tv out :
    key_ok pr sk -> NewCloudKey O pr sk rk rb = Ok ck -> input m e ct -> table m e tvr tv -> input m e out -> ~ keep out ->
    BootstrapAssign O pr m e ct tvr (BootstrappingKey ck) (KeySwitchingKey ck) (DecompositionOffset ck) out = Ok m' ->
    uses e keep 0 m m'
| u_rotate m m' sk rk rb ck ct tvr tv out :
    key_ok pr sk -> NewCloudKey O pr sk rk rb = Ok ck -> input m e ct -> table m e tvr tv ->
    room m e out -> ~ keep (rA out) -> ~ keep (rB out) ->
    BlindRotateAssign O pr m e ct tvr (BootstrappingKey ck) (DecompositionOffset ck) out = Ok m' ->
    uses e keep 0 m m'
| u_product m m' key msg rs g r c off out : zlen key = N -> trgsw_of key msg rs g -> table m e r c ->
    room m e out -> ~ keep (rA out) -> ~ keep (rB out) ->
    ExternalProductAssign O pr m e g r off out = Ok m' -> uses e keep 0 m m'
| u_cmux m m' key msg rs g r0 c0 r1 c1 off out : zlen key = N -> trgsw_of key msg rs g -> table m e r0 c0 -> table m e r1 c1 ->
    room m e out -> ~ keep (rA out) -> ~ keep (rB out) -> r0 = out \/ disjoint r0 out -> disjoint r1 out ->
    CMuxAssign O pr m e g r0 r1 off out = Ok m' -> uses e keep 0 m m'
| u_pcall m m' : pcall (ev_pe e) m m' -> uses e keep 0 m m'.

Definition no_buffer (x : Z) : Prop := False.

(** The evaluator may have been made while another parameter set [pr0] was
    selected, if that one has the same dimensions and no fewer levels: this is
    [serves pr0 pr].  In particular [pr] serves itself. *)
Inductive reachable (e : evaluator) : M -> Prop :=
| r_new pr0 m m' : mem_ok m -> serves pr0 pr -> NewEvaluator O pr0 m (g_N pr0) = Ok (e, m') -> reachable e m'
| r_uses m m' j : reachable e m -> uses e no_buffer j m m' -> reachable e m'
| r_reset m : reachable e m -> reachable e (ResetBuffers O m e).

(** [m'] follows [m] by operations that draw [j] result buffers, with no reset *)
Inductive after (e : evaluator) (keep : Z -> Prop) : Z -> M -> M -> Prop :=
| af_refl m : after e keep 0 m m
| af_uses i j m m1 m2 : after e keep i m m1 -> uses e keep j m1 m2 -> after e keep (i + j) m m2.

(** [m'] follows [m] by any operations and resets *)
Inductive runs (e : evaluator) (keep : Z -> Prop) : M -> M -> Prop :=
| rn_refl m : runs e keep m m
| rn_uses j m m1 m2 : runs e keep m m1 -> uses e keep j m1 m2 -> runs e keep m m2
| rn_reset m m1 : runs e keep m m1 -> runs e keep m (ResetBuffers O m1 e).

(** ** The noise of one bootstrap

    The steps of the rotation, each computed by the code in buffers of its
    own. *)

(** X^k times both polynomials (poly/buffer_methods.go PolyMulWithXKInPlace) *)
Definition rotate_poly (p : list Z) (k : Z) : res (list Z) :=
  let '(a, m) := alloc (empty_mem (f_nil O)) p in
  z <- make 0 (zlen p) ;;
  let '(r, m) := alloc m z in
  m <- PolyMulWithXKInPlace m a k r ;; Ok (tm m r).
Definition rotate_ct (c : trlwe) (k : Z) : res trlwe :=
  a <- rotate_poly (tA c) k ;; b <- rotate_poly (tB c) k ;; Ok {| tA := a; tB := b |}.

(** CMuxAssign on a new evaluator: [c1] if [cond] encrypts 1, else [c0] *)
Definition cmux_ct (cond : trgsw_fft O) (c0 c1 : trlwe) (offset : Z) : res trlwe :=
  '(e, m) <- NewEvaluator O pr (empty_mem (f_nil O)) N ;;
  z <- NewTRLWELv1 pr ;;
  let '(a0, m) := alloc m (tA c0) in
  let '(b0, m) := alloc m (tB c0) in
  let '(a1, m) := alloc m (tA c1) in
  let '(b1, m) := alloc m (tB c1) in
  let '(a, m) := alloc m (tA z) in
  let '(b, m) := alloc m (tB z) in
  m <- CMuxAssign O pr m e cond {| rA := a0; rB := b0 |} {| rA := a1; rB := b1 |} offset {| rA := a; rB := b |} ;;
  Ok {| tA := tm m a; tB := tm m b |}.

(** the second operand of step i: the accumulator rotated by round(a_i) *)
Definition rotated (ct : list Z) (i : Z) (acc : trlwe) : res trlwe :=
  a <- get ct i ;; aT <- aTilda (g_NBIT pr) a ;; rotate_ct acc aT.

(** the accumulator after i steps of the blind rotation of [tv] by [ct] *)
Fixpoint rotation_nat (bsk : list (trgsw_fft O)) (offset : Z) (ct : list Z) (tv : trlwe) (i : nat) : res trlwe :=
  match i with
  | 0%nat => b <- get ct n ;; bT <- bTilda N (g_NBIT pr) b ;; rotate_ct tv bT
  | S j =>
      acc <- rotation_nat bsk offset ct tv j ;;
      rot <- rotated ct (Z.of_nat j) acc ;;
      key <- get bsk (Z.of_nat j) ;;
      cmux_ct key acc rot offset
  end.
Definition rotation bsk offset ct tv (i : Z) : res trlwe := rotation_nat bsk offset ct tv (Z.to_nat i).

(** every CMUX of the rotation selects the right operand up to noise [eta i] *)
Definition cmux_noise (sk : SecretKey) bsk offset (ct : list Z) (tv : trlwe) (eta : Z -> Z) : Prop :=
  forall i, 0 <= i < n -> exists acc rot acc',
    rotation bsk offset ct tv i = Ok acc /\ rotated ct i acc = Ok rot /\
    rotation bsk offset ct tv (i + 1) = Ok acc' /\
    forall k, 0 <= k < N ->
      let sel := if zn (KeyLv0 sk) i =? 1 then rot else acc in
      close (eta i) (rlwe_phase N (KeyLv1 sk) (tA acc') (tB acc') k) (rlwe_phase N (KeyLv1 sk) (tA sel) (tB sel) k).

(** key switching the extracted ciphertext adds the noise [ek] *)
Definition ks_noise (sk : SecretKey) bsk ksk offset (ct : list Z) (tv : trlwe) (ek : Z) : Prop :=
  exists acc lv1 out, rotation bsk offset ct tv n = Ok acc /\
    SampleExtractIndex pr acc 0 = Ok lv1 /\ IdentityKeySwitching pr lv1 ksk = Ok out /\
    eqm (lwe_phase n (KeyLv0 sk) out) (lwe_phase N (KeyLv1 sk) lv1 + ek).

(** a torus element in units of 1/(2N), rounded *)
Definition rounded (x : Z) : Z := (x + 2 ^ (30 - g_NBIT pr)) / 2 ^ (31 - g_NBIT pr).

(** by how much the steps after step i rotate *)
Definition still_to_rotate (sk : SecretKey) (ct : list Z) (i : Z) : Z :=
  zsum n (fun j => if i <? j then zn (KeyLv0 sk) j * rounded (zn ct j) else 0).

(** The noise that step i of the rotation leaves in the result: the CMUX's
    output less the operand it should select, rotated by the steps that follow,
    at the constant coefficient (the one that is extracted). *)
Definition left_noise (sk : SecretKey) bsk offset (ct : list Z) (tv : trlwe) (eta : Z -> Z) : Prop :=
  forall i, 0 <= i < n -> exists acc rot acc',
    rotation bsk offset ct tv i = Ok acc /\ rotated ct i acc = Ok rot /\
    rotation bsk offset ct tv (i + 1) = Ok acc' /\
    (let sel := if zn (KeyLv0 sk) i =? 1 then rot else acc in
     eqm (eta i) (mono_mul N (still_to_rotate sk ct i)
       (fun k => rlwe_phase N (KeyLv1 sk) (tA acc') (tB acc') k - rlwe_phase N (KeyLv1 sk) (tA sel) (tB sel) k) 0)).

(** Bootstrapping [ct] adds noise at most [T]: the sum of what the steps leave
    and of the key switching noise, and one unit per negated coefficient (the code
    negates with a complement, off by one). *)
Definition boot_noise (sk : SecretKey) (ck : CloudKey O) (tv : trlwe) (ct : list Z) (T : Z) : Prop :=
  exists eta ek,
    left_noise sk (BootstrappingKey ck) (DecompositionOffset ck) ct tv eta /\
    ks_noise sk (BootstrappingKey ck) (KeySwitchingKey ck) (DecompositionOffset ck) ct tv ek /\
    Z.abs (zsum n eta + ek) + (1 + weight n (KeyLv0 sk)) * (1 + weight N (KeyLv1 sk)) + weight N (KeyLv1 sk) <= T.

(** rounding the mask and body to multiples of 1/(2N) moves the phase by at
    most this much *)
Definition round_err (sk : SecretKey) : Z := 2 ^ (30 - g_NBIT pr) * (1 + weight n (KeyLv0 sk)).

(** Worst-case noise of one CMUX of the rotation, when the noise samples of the
    bootstrapping key are at most [Bb], a sum of 2L products in the Fourier
    domain is off by at most [d] and the product made when encrypting the key
    by at most [d']; and of one bootstrap, when the samples of the key
    switching key are at most [Bk]. *)
Definition cmux_worst (sk : SecretKey) (Bb d d' : Z) : Z :=
  let w1 := weight N (KeyLv1 sk) in
  d * (1 + w1) + 2 * g_L pr * (N * (2 ^ (g_BGBIT pr - 1) * (Bb + d'))) + (1 + w1) * (2 ^ (32 - g_L pr * g_BGBIT pr) - 1).
Definition worst_noise (sk : SecretKey) (Bb Bk d d' : Z) : Z :=
  let w0 := weight n (KeyLv0 sk) in
  let w1 := weight N (KeyLv1 sk) in
  n * cmux_worst sk Bb d d' + (1 + w0) * (1 + w1) + w1
  + (w1 * 2 ^ (31 - g_BASEBIT pr * g_IKS_T pr) + N * g_IKS_T pr * Bk).

(** The noise samples used in key generation, as torus elements, are at most
    [Bb] (bootstrapping key) and [Bk] (key switching key); and the float64
    transform is off by at most [d] on the sum of products of an external
    product and [d'] on the product made when encrypting. *)
Definition key_noise_within (rk : Z -> enc_rand) (rb : Z -> Z -> trlwe_rand) (Bb Bk : Z) : Prop :=
  (forall i j k, 0 <= k < N -> Z.abs (centered (F64ToTorus (tr_noise (rb i j) k))) <= Bb) /\
  (forall x, Z.abs (centered (F64ToTorus (er_noise (rk x)))) <= Bk).
Definition fft_error_within (d d' : Z) : Prop :=
  2 * g_L pr * (N * (2 ^ (g_BGBIT pr - 1) * 2 ^ 31)) * (87 * (g_NBIT pr - 1) + 5 + 2 * (2 * g_L pr)) < (2 * d + 1) * 2 ^ 52 /\
  N * 2 ^ 31 * (87 * (g_NBIT pr - 1) + 7) < (2 * d' + 1) * 2 ^ 52.

(** ** The external product *)

(** the low bits of a coefficient, below its last digit: the decomposition
    drops them *)
Definition dropped (a : list Z) (j : Z) : Z := zn a j mod 2 ^ (32 - g_L pr * g_BGBIT pr).

(** [dg 0 .. dg (L-1)] are signed digits of the first polynomial of [c], most
    significant first, [dg L .. dg (2L-1)] of the second *)
Definition digits (c : trlwe) (dg : Z -> Z -> Z) : Prop :=
  (forall i j, 0 <= i < 2 * g_L pr -> 0 <= j < N -> - 2 ^ (g_BGBIT pr - 1) <= dg i j < 2 ^ (g_BGBIT pr - 1)) /\
  (forall j, 0 <= j < N ->
     zsum (g_L pr) (fun i => dg i j * 2 ^ (32 - (i + 1) * g_BGBIT pr)) == zn (tA c) j - dropped (tA c) j) /\
  (forall j, 0 <= j < N ->
     zsum (g_L pr) (fun i => dg (g_L pr + i) j * 2 ^ (32 - (i + 1) * g_BGBIT pr)) == zn (tB c) j - dropped (tB c) j).

(** the noise samples of a TRGSW encryption, as integers *)
Definition samples (rs : Z -> trlwe_rand) (i k : Z) : Z := centered (F64ToTorus (tr_noise (rs i) k)).

(** Coefficient k of p times the phase of [c], plus the digits times the noise
    [er] of the key's rows, minus p times what was dropped. *)
Definition product_phase (s : list Z) (p : Z) (er dg : Z -> Z -> Z) (c : trlwe) (k : Z) : Z :=
  p * rlwe_phase N s (tA c) (tB c) k
  + zsum (2 * g_L pr) (fun i => negacyclic N (dg i) (er i) k)
  - p * (dropped (tB c) k - negacyclic N (dropped (tA c)) (zn s) k).

(** its distance from p times the phase of [c], at worst, when the samples are
    at most [B] and the transform is off by [d] and [d'] *)
Definition product_worst (s : list Z) (p B d d' : Z) : Z :=
  let w := weight N s in
  d * (1 + w) + 2 * g_L pr * (N * (2 ^ (g_BGBIT pr - 1) * (B + d')))
  + Z.abs p * ((1 + w) * (2 ^ (32 - g_L pr * g_BGBIT pr) - 1)).

(** [c'] is the product of [c] with an encryption of [p] made with randomness
    [rs]: the key's rows have the sampled noise up to [d'], and the transform
    adds at most [d] to each polynomial *)
Definition product_of (s : list Z) (p : Z) (rs : Z -> trlwe_rand) (d d' : Z) (c c' : trlwe) : Prop :=
  exists dg er, digits c dg /\
    (forall i k, 0 <= i < 2 * g_L pr -> 0 <= k < N -> Z.abs (er i k - samples rs i k) <= d') /\
    forall k, 0 <= k < N ->
      close (d * (1 + weight N s)) (rlwe_phase N s (tA c') (tB c') k) (product_phase s p er dg c k).

(** ** Rotation by a ciphertext *)

(** the phase of [ct], its coefficients rounded *)
Definition rotation_index (s ct : list Z) : Z :=
  rounded (zn ct n) - zsum n (fun i => zn s i * rounded (zn ct i)).

End Run.

(** ** Gates and their truth tables *)
Inductive bgate : Type := Gnand | Gor | Gand | Gxor | Gxnor | Gnor | Gandny | Gandyn | Gorny | Goryn.

Definition truth (g : bgate) (a b : bool) : bool :=
  match g with
  | Gnand => negb (a && b) | Gor => a || b | Gand => a && b
  | Gxor => xorb a b | Gxnor => negb (xorb a b) | Gnor => negb (a || b)
  | Gandny => negb a && b | Gandyn => a && negb b
  | Gorny => negb a || b | Goryn => a || negb b
  end.

(** the gates of package gates *)
Definition gate_fun (g : bgate) (O : fops) (pr : pset) :=
  match g with
  | Gnand => NAND O pr | Gor => OR O pr | Gand => AND O pr
  | Gxor => XOR O pr | Gxnor => XNOR O pr | Gnor => NOR O pr
  | Gandny => ANDNY O pr | Gandyn => ANDYN O pr
  | Gorny => ORNY O pr | Goryn => ORYN O pr
  end.

(** the linear combination a gate computes before it bootstraps *)
Definition gate_lin (g : bgate) (n : Z) : list Z -> list Z -> res (list Z) :=
  match g with
  | Gnand => PrepareNAND n | Gor => PrepareOR n | Gand => PrepareAND n
  | Gxor => PrepareXOR n | Gxnor => xnor_lin n | Gnor => nor_lin n
  | Gandny => andny_lin n | Gandyn => andyn_lin n
  | Gorny => orny_lin n | Goryn => oryn_lin n
  end.

(** how often the second input enters: XOR and XNOR double it *)
Definition mult (g : bgate) : Z := match g with Gxor | Gxnor => 2 | _ => 1 end.

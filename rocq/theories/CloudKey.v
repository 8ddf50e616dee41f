(** * Package cloudkey (cloudkey/cloudkey.go) *)
From Verif Require Import GoBase GoMem F64 Utils Params Key Tlwe Poly Trlwe Trgsw.
Local Open Scope Z_scope.

(** cloudkey/cloudkey.go:16-21.  The test vector is held by value here; the
    gates receive it through its locations. *)
Record CloudKey (O : fops) : Type := {
  DecompositionOffset : Z;
  BlindRotateTestvec : trlwe;
  KeySwitchingKey : list (list Z);
  BootstrappingKey : list (trgsw_fft O)
}.
Arguments DecompositionOffset {O}. Arguments BlindRotateTestvec {O}.
Arguments KeySwitchingKey {O}. Arguments BootstrappingKey {O}.

(** cloudkey/cloudkey.go:60-71 genDecompositionOffset; the shift is on a
    constant converted to Torus, its count an int *)
Definition genDecompositionOffset (pr : pset) : res Z :=
  let l := g_L pr in
  let bg := g_BG pr in
  let bgbit := g_BGBIT pr in
  for_range 0 l (fun i offset =>
    half <- go_div bg 2 ;;
    s <- shl32 1 (32 - (i + 1) * bgbit) ;;
    Ok (tadd offset (tmul (w32 half) s))) 0.

(** cloudkey/cloudkey.go:74-85 genTestvec *)
Definition genTestvec (pr : pset) : res trlwe :=
  let n := g_N pr in
  testvec <- NewTRLWELv1 pr ;;
  let bTorus := F64ToTorus f_eighth in
  for_range 0 n (fun i tv =>
    a <- set (tA tv) i 0 ;; b <- set (tB tv) i bTorus ;; Ok {| tA := a; tB := b |}) testvec.

(** ** Goroutines writing slots of a shared slice

    A goroutine is the list of its writes [result[idx] = v], in program order.
    [interleaving gs tr]: the trace [tr] merges the goroutines' writes, each in
    its own order. *)
Definition writes (V : Type) : Type := list (Z * V).

Inductive interleaving {V} : list (writes V) -> writes V -> Prop :=
| il_done gs : Forall (fun g => g = []) gs -> interleaving gs []
| il_step gs1 w g gs2 tr :
    interleaving (gs1 ++ g :: gs2) tr -> interleaving (gs1 ++ (w :: g) :: gs2) (w :: tr).

Fixpoint apply_writes {V} (arr : list V) (ws : writes V) : res (list V) :=
  match ws with
  | [] => Ok arr
  | (i, v) :: t => arr <- set arr i v ;; apply_writes arr t
  end.

(** cloudkey/cloudkey.go:102-115: the goroutine for key bit [iIdx].
    [rnd idx] is the randomness of the encryption stored at [idx]. *)
Definition ksk_plain (k s shift : Z) : f64 :=
  fdiv (fmul (f_of_Z k) (f_of_Z s)) (f_of_Z (wN 64 (Z.shiftl 1 shift))).
Definition ksk_goroutine (pr : pset) (sk : SecretKey) (rnd : Z -> enc_rand) (iIdx : Z) : res (writes (list Z)) :=
  let basebit := g_BASEBIT pr in
  let iksT := g_IKS_T pr in
  base <- shl_int basebit ;;
  for_range 0 iksT (fun j ws =>
    for_range 0 base (fun k ws =>
      if k =? 0 then Ok ws
      else
        let shift := (j + 1) * basebit in
        s <- get (KeyLv1 sk) iIdx ;;
        let p := ksk_plain k s shift in
        let idx := base * iksT * iIdx + base * j + k in
        ct <- (t <- NewTLWE (lv0_N pr) ;; EncryptF64 (lv0_N pr) t p (KeyLv0 sk) (rnd idx)) ;;
        Ok (ws ++ [(idx, ct)])) ws) [].

(** cloudkey/cloudkey.go:94-97: the slice before the goroutines start *)
Definition ksk_init (pr : pset) : res (list (list Z)) :=
  base <- shl_int (g_BASEBIT pr) ;;
  t <- NewTLWE (lv0_N pr) ;;
  make t (base * g_IKS_T pr * g_N pr).

(** the goroutines of genKeySwitchingKey, in spawn order *)
Definition ksk_goroutines (pr : pset) (sk : SecretKey) (rnd : Z -> enc_rand) : res (list (writes (list Z))) :=
  gs <- make [] (g_N pr) ;;
  for_range 0 (g_N pr) (fun i gs => ws <- ksk_goroutine pr sk rnd i ;; set gs i ws) gs.

(** cloudkey/cloudkey.go:88-120 genKeySwitchingKey when the goroutines run one
    after the other; theorem C25 shows that the schedule does not matter *)
Definition genKeySwitchingKey (pr : pset) (sk : SecretKey) (rnd : Z -> enc_rand) : res (list (list Z)) :=
  arr <- ksk_init pr ;;
  gs <- ksk_goroutines pr sk rnd ;;
  apply_writes arr (concat gs).

(** cloudkey/cloudkey.go:130-140: the goroutine for lv0 key bit [idx];
    [rnd idx] is the randomness of the rows of entry idx *)
Definition bsk_goroutine (O : fops) (pr : pset) (sk : SecretKey) (rnd : Z -> Z -> trlwe_rand) (idx : Z)
    : res (writes (trgsw_fft O)) :=
  check_degree (g_N pr) ;;;
  c <- (t <- NewTRGSWLv1 pr ;;
        s <- get (KeyLv0 sk) idx ;;
        TrgswEncryptTorus O (g_N pr) pr t s (KeyLv1 sk) (rnd idx)) ;;
  g <- NewTRGSWLv1FFT O (g_N pr) c ;;
  Ok [(idx, g)].

Definition bsk_goroutines (O : fops) (pr : pset) (sk : SecretKey) (rnd : Z -> Z -> trlwe_rand)
    : res (list (writes (trgsw_fft O))) :=
  gs <- make [] (lv0_N pr) ;;
  for_range 0 (lv0_N pr) (fun i gs => ws <- bsk_goroutine O pr sk rnd i ;; set gs i ws) gs.

(** cloudkey/cloudkey.go:123-145 genBootstrappingKey, goroutines in order; nil
    entries are empty lists *)
Definition genBootstrappingKey (O : fops) (pr : pset) (sk : SecretKey) (rnd : Z -> Z -> trlwe_rand)
    : res (list (trgsw_fft O)) :=
  arr <- make [] (lv0_N pr) ;;
  gs <- bsk_goroutines O pr sk rnd ;;
  apply_writes arr (concat gs).

(** cloudkey/cloudkey.go:24-31 NewCloudKey *)
Definition NewCloudKey (O : fops) (pr : pset) (sk : SecretKey) (rk : Z -> enc_rand) (rb : Z -> Z -> trlwe_rand)
    : res (CloudKey O) :=
  off <- genDecompositionOffset pr ;;
  tv <- genTestvec pr ;;
  ksk <- genKeySwitchingKey pr sk rk ;;
  bsk <- genBootstrappingKey O pr sk rb ;;
  Ok {| DecompositionOffset := off; BlindRotateTestvec := tv; KeySwitchingKey := ksk; BootstrappingKey := bsk |}.

(** cloudkey/cloudkey.go:34-57 NewCloudKeyNoKSK *)
Definition NewCloudKeyNoKSK (O : fops) (pr : pset) : res (CloudKey O) :=
  ksk <- ksk_init pr ;;
  check_degree (g_N pr) ;;;
  bsk <- make [] (lv0_N pr) ;;
  bsk <- for_range 0 (lv0_N pr) (fun i bsk =>
           v <- NewTRGSWLv1FFTDummy O (g_N pr) pr ;; set bsk i v) bsk ;;
  off <- genDecompositionOffset pr ;;
  tv <- genTestvec pr ;;
  Ok {| DecompositionOffset := off; BlindRotateTestvec := tv; KeySwitchingKey := ksk; BootstrappingKey := bsk |}.

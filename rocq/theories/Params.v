(** * Package params (params/params.go)

    One record per parameter set.  [float64] standard deviations are kept as
    the exact decimal literals of the source ([Q]); they only steer the random
    sampler, which the model leaves arbitrary. *)
From Coq Require Import QArith.
From Verif Require Import GoBase.
Local Open Scope Z_scope.

(** params/params.go:50-78: TLWELv0Params, TLWELv1Params, TRLWELv1Params,
    TRGSWLv1Params gathered in one record. *)
Record pset : Type := {
  lv0_N : Z; lv0_ALPHA : Q;           (* TLWELv0Params *)
  lv1_N : Z; lv1_ALPHA : Q;           (* TLWELv1Params *)
  trlwe_N : Z; trlwe_ALPHA : Q;       (* TRLWELv1Params *)
  g_N : Z; g_NBIT : Z; g_BGBIT : Z; g_BG : Z; g_L : Z;
  g_BASEBIT : Z; g_IKS_T : Z; g_ALPHA : Q; g_BlockSize : Z   (* TRGSWLv1Params *)
}.

(** params/params.go:83-112 *)
Definition params80Bit : pset := {|
  lv0_N := 550; lv0_ALPHA := (1 # 20000);
  lv1_N := 1024; lv1_ALPHA := (373 # 10000000000);
  trlwe_N := 1024; trlwe_ALPHA := (373 # 10000000000);
  g_N := 1024; g_NBIT := 10; g_BGBIT := 6; g_BG := Z.shiftl 1 6; g_L := 3;
  g_BASEBIT := 2; g_IKS_T := 7; g_ALPHA := (373 # 10000000000); g_BlockSize := 3
|}.

(** params/params.go:117-146 *)
Definition params110Bit : pset := {|
  lv0_N := 630; lv0_ALPHA := (1 # 32768);
  lv1_N := 1024; lv1_ALPHA := (2980232238769531 # 100000000000000000000000);
  trlwe_N := 1024; trlwe_ALPHA := (2980232238769531 # 100000000000000000000000);
  g_N := 1024; g_NBIT := 10; g_BGBIT := 6; g_BG := Z.shiftl 1 6; g_L := 3;
  g_BASEBIT := 2; g_IKS_T := 8; g_ALPHA := (2980232238769531 # 100000000000000000000000); g_BlockSize := 3
|}.

(** params/params.go:151-180 *)
Definition params128Bit : pset := {|
  lv0_N := 700; lv0_ALPHA := (1 # 50000);
  lv1_N := 1024; lv1_ALPHA := (1 # 50000000);
  trlwe_N := 1024; trlwe_ALPHA := (1 # 50000000);
  g_N := 1024; g_NBIT := 10; g_BGBIT := 6; g_BG := Z.shiftl 1 6; g_L := 3;
  g_BASEBIT := 2; g_IKS_T := 9; g_ALPHA := (1 # 50000000); g_BlockSize := 3
|}.

(** params/params.go:194-223 *)
Definition paramsUint1 : pset := {|
  lv0_N := 700; lv0_ALPHA := (1 # 50000);
  lv1_N := 1024; lv1_ALPHA := (1 # 50000000);
  trlwe_N := 1024; trlwe_ALPHA := (1 # 50000000);
  g_N := 1024; g_NBIT := 10; g_BGBIT := 10; g_BG := Z.shiftl 1 10; g_L := 2;
  g_BASEBIT := 2; g_IKS_T := 8; g_ALPHA := (1 # 50000000); g_BlockSize := 3
|}.

(** params/params.go:236-265 *)
Definition paramsUint2 : pset := {|
  lv0_N := 687; lv0_ALPHA := (1060423446534985936152897107 # 50000000000000000000000000000000);
  lv1_N := 512; lv1_ALPHA := (231841227527049948463 # 100000000000000000000000000000000);
  trlwe_N := 512; trlwe_ALPHA := (231841227527049948463 # 100000000000000000000000000000000);
  g_N := 512; g_NBIT := 9; g_BGBIT := 18; g_BG := Z.shiftl 1 18; g_L := 1;
  g_BASEBIT := 4; g_IKS_T := 3; g_ALPHA := (231841227527049948463 # 100000000000000000000000000000000); g_BlockSize := 3
|}.

(** params/params.go:277-306 *)
Definition paramsUint3 : pset := {|
  lv0_N := 820; lv0_ALPHA := (125838080479897772493542117 # 50000000000000000000000000000000);
  lv1_N := 1024; lv1_ALPHA := (22204460492503131 # 100000000000000000000000000000000);
  trlwe_N := 1024; trlwe_ALPHA := (22204460492503131 # 100000000000000000000000000000000);
  g_N := 1024; g_NBIT := 10; g_BGBIT := 23; g_BG := Z.shiftl 1 23; g_L := 1;
  g_BASEBIT := 6; g_IKS_T := 2; g_ALPHA := (22204460492503131 # 100000000000000000000000000000000); g_BlockSize := 4
|}.

(** params/params.go:318-347 *)
Definition paramsUint4 : pset := {|
  lv0_N := 820; lv0_ALPHA := (125838080479897772493542117 # 50000000000000000000000000000000);
  lv1_N := 2048; lv1_ALPHA := (22204460492503131 # 100000000000000000000000000000000);
  trlwe_N := 2048; trlwe_ALPHA := (22204460492503131 # 100000000000000000000000000000000);
  g_N := 2048; g_NBIT := 11; g_BGBIT := 22; g_BG := Z.shiftl 1 22; g_L := 1;
  g_BASEBIT := 5; g_IKS_T := 3; g_ALPHA := (22204460492503131 # 100000000000000000000000000000000); g_BlockSize := 4
|}.

(** params/params.go:362-391 *)
Definition paramsUint5 : pset := {|
  lv0_N := 1071; lv0_ALPHA := (7088226765410429399593757 # 100000000000000000000000000000000);
  lv1_N := 2048; lv1_ALPHA := (22204460492503131 # 1000000000000000000000000000000000);
  trlwe_N := 2048; trlwe_ALPHA := (22204460492503131 # 1000000000000000000000000000000000);
  g_N := 2048; g_NBIT := 11; g_BGBIT := 22; g_BG := Z.shiftl 1 22; g_L := 1;
  g_BASEBIT := 6; g_IKS_T := 3; g_ALPHA := (22204460492503131 # 1000000000000000000000000000000000); g_BlockSize := 7
|}.

(** params/params.go:403-432 *)
Definition paramsUint6 : pset := {|
  lv0_N := 1071; lv0_ALPHA := (7088226765410429399593757 # 100000000000000000000000000000000);
  lv1_N := 2048; lv1_ALPHA := (22204460492503131 # 1000000000000000000000000000000000);
  trlwe_N := 2048; trlwe_ALPHA := (22204460492503131 # 1000000000000000000000000000000000);
  g_N := 2048; g_NBIT := 11; g_BGBIT := 22; g_BG := Z.shiftl 1 22; g_L := 1;
  g_BASEBIT := 6; g_IKS_T := 3; g_ALPHA := (22204460492503131 # 1000000000000000000000000000000000); g_BlockSize := 7
|}.

(** params/params.go:444-473 *)
Definition paramsUint7 : pset := {|
  lv0_N := 1160; lv0_ALPHA := (491555001874600673802899 # 25000000000000000000000000000000);
  lv1_N := 2048; lv1_ALPHA := (22204460492503131 # 1000000000000000000000000000000000);
  trlwe_N := 2048; trlwe_ALPHA := (22204460492503131 # 1000000000000000000000000000000000);
  g_N := 2048; g_NBIT := 11; g_BGBIT := 22; g_BG := Z.shiftl 1 22; g_L := 1;
  g_BASEBIT := 7; g_IKS_T := 3; g_ALPHA := (22204460492503131 # 1000000000000000000000000000000000); g_BlockSize := 8
|}.

(** params/params.go:485-514 *)
Definition paramsUint8 : pset := {|
  lv0_N := 1160; lv0_ALPHA := (491555001874600673802899 # 25000000000000000000000000000000);
  lv1_N := 2048; lv1_ALPHA := (22204460492503131 # 1000000000000000000000000000000000);
  trlwe_N := 2048; trlwe_ALPHA := (22204460492503131 # 1000000000000000000000000000000000);
  g_N := 2048; g_NBIT := 11; g_BGBIT := 22; g_BG := Z.shiftl 1 22; g_L := 1;
  g_BASEBIT := 7; g_IKS_T := 3; g_ALPHA := (22204460492503131 # 1000000000000000000000000000000000); g_BlockSize := 8
|}.

(** params/params.go:32-44: the named security levels *)
Definition Security80Bit : Z := 80.
Definition Security110Bit : Z := 110.
Definition Security128Bit : Z := 128.
Definition SecurityUint1 : Z := 1.
Definition SecurityUint2 : Z := 2.
Definition SecurityUint3 : Z := 3.
Definition SecurityUint4 : Z := 4.
Definition SecurityUint5 : Z := 5.
Definition SecurityUint6 : Z := 6.
Definition SecurityUint7 : Z := 7.
Definition SecurityUint8 : Z := 8.

(** params/params.go:47: the value of [CurrentSecurityLevel] at start-up *)
Definition initial_level : Z := Security128Bit.

(** params/params.go:517-626: GetTLWELv0, GetTLWELv1, GetTRLWELv1 and
    GetTRGSWLv1 are four copies of this switch on [CurrentSecurityLevel],
    each returning one component of the selected set.  [level] is any int. *)
Definition get_params (level : Z) : pset :=
  if level =? Security80Bit then params80Bit
  else if level =? Security110Bit then params110Bit
  else if level =? SecurityUint1 then paramsUint1
  else if level =? SecurityUint2 then paramsUint2
  else if level =? SecurityUint3 then paramsUint3
  else if level =? SecurityUint4 then paramsUint4
  else if level =? SecurityUint5 then paramsUint5
  else if level =? SecurityUint6 then paramsUint6
  else if level =? SecurityUint7 then paramsUint7
  else if level =? SecurityUint8 then paramsUint8
  else params128Bit.

(** params/params.go:629-636 *)
Definition KSKAlpha (level : Z) : Q := lv0_ALPHA (get_params level).
Definition BSKAlpha (level : Z) : Q := lv1_ALPHA (get_params level).

(** params/params.go:669-676 *)
Definition GetBlockCount (level : Z) : res Z :=
  let lweDim := lv0_N (get_params level) in
  let blockSize := g_BlockSize (get_params level) in
  if blockSize <=? 1 then Ok lweDim
  else go_div (lweDim + blockSize - 1) blockSize.

(** params/params.go:679-681 *)
Definition UseBlockBlindRotation (level : Z) : bool :=
  1 <? g_BlockSize (get_params level).

(** * The description of a security level (params/params.go) *)
From Coq Require Import String.
From Verif Require Import GoBase Params.
Local Open Scope string_scope.
Local Open Scope Z_scope.

(** params/params.go:639-666 SecurityInfo; [level] is the value of
    [CurrentSecurityLevel] *)
Definition SecurityInfo (level : Z) : string :=
  if level =? Security80Bit then "80-bit security (performance-optimized)"
  else if level =? Security110Bit then "110-bit security (balanced, original TFHE)"
  else if level =? SecurityUint1 then "Uint1 parameters (1-bit binary/boolean, messageModulus=2, N=1024)"
  else if level =? SecurityUint2 then "Uint2 parameters (2-bit messages, messageModulus=4, N=512)"
  else if level =? SecurityUint3 then "Uint3 parameters (3-bit messages, messageModulus=8, N=1024)"
  else if level =? SecurityUint4 then "Uint4 parameters (4-bit messages, messageModulus=16, N=2048)"
  else if level =? SecurityUint5 then "Uint5 parameters (5-bit messages, messageModulus=32, N=2048)"
  else if level =? SecurityUint6 then "Uint6 parameters (6-bit messages, messageModulus=64, N=2048)"
  else if level =? SecurityUint7 then "Uint7 parameters (7-bit messages, messageModulus=128, N=2048)"
  else if level =? SecurityUint8 then "Uint8 parameters (8-bit messages, messageModulus=256, N=2048)"
  else "128-bit security (high security, quantum-resistant)".

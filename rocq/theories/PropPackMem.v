(** C56: packed integers in memory. *)
From Coq Require Import List NArith.
From Verif Require Import Base ModelUtils ModelPackMem ProofPackMem.
Import ListNotations.
Open Scope N_scope.

(** What writePackedInteger stores at an address is read back from there, whatever lies behind it. *)
Theorem C56_memory_round_trip : forall v rest, v < 2 ^ 56 -> exists packed bytes l, packInteger v = Ok (packed, bytes) /\ writePackedInteger packed = Ok l /\ length l = bytes /\
  readPackedMem (l ++ rest) = Ok packed /\ unpackInteger packed = Ok v.
Proof. exact readMem_round_trip. Qed.
Print Assumptions C56_memory_round_trip.

Example C56_memory_round_trip_ex : packInteger 1000 = Ok (2024, 2%nat) /\ writePackedInteger 2024 = Ok [232; 7] /\ readPackedMem [232; 7; 255; 3] = Ok 2024 /\ readPackedMem [232] = UB.
Proof. repeat split; vm_compute; reflexivity. Qed.

(** Eight bytes with continuation bits make the reader shift by 64. *)
Theorem C56_overlong : forall rest b0 b1 b2 b3 b4 b5 b6 b7, Forall (fun b => 128 <= b < 256) [b0; b1; b2; b3; b4; b5; b6; b7] ->
  readPackedMem ([b0; b1; b2; b3; b4; b5; b6; b7] ++ rest) = UB.
Proof. exact readMem_long. Qed.
Print Assumptions C56_overlong.

Example C56_overlong_ex : readPackedMem [129; 129; 129; 129; 129; 129; 129; 129; 1] = UB /\ exists p, readPackedMem [129; 129; 129; 129; 129; 129; 129; 1] = Ok p.
Proof. split; [vm_compute; reflexivity|]. eexists. vm_compute. reflexivity. Qed.

(** "The end symbol that the reader returns for the bytes 128 and 0 is written as these bytes": refuted, it is read back as 0. *)
Theorem C56_end_symbol_refuted : forall rest, readPackedMem (128 :: 0 :: rest) = Ok (2 ^ 63) /\ writePackedInteger (2 ^ 63) = Ok [0; 0; 0; 0; 0; 0; 0; 128] /\
  readPackedMem ([0; 0; 0; 0; 0; 0; 0; 128] ++ rest) = Ok 0.
Proof. exact readMem_end. Qed.
Print Assumptions C56_end_symbol_refuted.

Example C56_end_symbol_ex : readPackedMem [128; 0] = Ok 9223372036854775808.
Proof. vm_compute. reflexivity. Qed.

(** Property C13: blocks of the Huffman entropy coder. *)
From Coq Require Import List NArith Arith Bool Lia.
From Verif Require Import Base Arrays ModelUtils SpecRuns ModelStreams ModelHeaders ModelHuffman ModelHuffmanCoder SpecHeaders.
From Verif Require Import ProofHuffCoder4.
Import ListNotations.
Open Scope N_scope.

(** [lf] are the starting points of the inverse transform, [stats] the character counts
    the sections are deduced from.  The encoder appends the block to what is already
    written and returns its size; the decoder gives back starting points and data and
    stops in front of what follows. *)
Theorem C13_block_round_trip : forall written lf stats data following,
  (1 <= length lf <= 256)%nat -> Forall (fun v => v < 2 ^ 31) lf ->
  (length stats <= 256)%nat -> sumN stats = N.of_nat (length data) ->
  data <> [] -> are_bytes data -> N.of_nat (length data) < 2 ^ 31 -> runs_below (2 ^ 29) data ->
  exists block, encodeBlock written lf stats data = Ok (written ++ block, length block) /\ are_bytes block /\
    decodeBlock (bytes_bits (block ++ following)) = Ok (Some (lf, data, N.of_nat (length data)), bytes_bits following).
Proof. exact C13_all. Qed.
Print Assumptions C13_block_round_trip.

Example C13_example :
  let data := repeat 97 20 ++ [98; 97; 98; 99] ++ repeat 100 300 ++ [97; 98; 98; 101; 102; 103; 97] in
  match encodeBlock [104] [3; 77] [20; 311] data with
  | Ok (104 :: block, n) => n = length block /\
      decodeBlock (bytes_bits (block ++ [7; 200])) = Ok (Some ([3; 77], data, 331), bytes_bits [7; 200])
  | _ => False
  end.
Proof. vm_compute. auto. Qed.

(** Runs of 2^29 bytes and more: the gamma code does not fit into the encoder's bit
    buffer and the counter of pending bits becomes negative (undefined behaviour). *)
Theorem C13_long_run_refuted : exists data, N.of_nat (length data) = 2 ^ 29 + 8 /\ are_bytes data /\ data <> [] /\
  forall written lf, (1 <= length lf <= 256)%nat -> Forall (fun v => v < 2 ^ 31) lf ->
    encodeBlock written lf [8; 2 ^ 29] data = UB.
Proof. exact (ex_intro _ longRun (conj (proj1 longRun_length) (conj (proj1 (proj2 longRun_length))
  (conj (proj2 (proj2 longRun_length)) long_run_block)))). Qed.
Print Assumptions C13_long_run_refuted.

(** Properties C24, C28 and C29: headers of BWT blocks, slicing, sections. *)
From Coq Require Import List NArith Arith Bool Lia.
From Verif Require Import Base ModelUtils ModelStreams ModelHeaders SpecHeaders ProofHeaders.
Import ListNotations.
Open Scope N_scope.

(** ** C24 *)
Theorem C24_bwt_header_round_trip : forall lf, (1 <= length lf <= 256)%nat -> Forall (fun v => v < 2 ^ 31) lf ->
  exists out n, writeHeader lf = (out, n) /\ n = length out /\
    n = (1 + (31 * length lf + 7) / 8)%nat /\ are_bytes out /\
    forall following, readHeader (bytes_bits out ++ bytes_bits following) = (lf, bytes_bits following).
Proof. exact C24_all. Qed.
Print Assumptions C24_bwt_header_round_trip.

Example C24_example :
  writeHeader [5; 2 ^ 31 - 1; 77] = ([2; 0; 0; 0; 11; 255; 255; 255; 252; 0; 0; 2; 104], 13%nat) /\
  readHeader (bytes_bits [2; 0; 0; 0; 11; 255; 255; 255; 252; 0; 0; 2; 104; 9]) =
    ([5; 2 ^ 31 - 1; 77], bytes_bits [9]).
Proof. vm_compute. auto. Qed.

(** The number of starting points the header is written for is one of those sizes. *)
Theorem C24_starting_points_count : forall len sp, 1 <= prepareLFpowers len sp <= 256 /\
  (256 < len -> 1 <= sp <= 256 -> prepareLFpowers len sp = sp) /\
  (len <= 256 -> prepareLFpowers len sp = 1).
Proof. exact prepareLF_all. Qed.
Print Assumptions C24_starting_points_count.

(** Without any starting point the count byte is wrong: 256 of them are read back. *)
Theorem C24_no_starting_points_refuted : exists following,
  length (fst (readHeader (bytes_bits (fst (writeHeader [])) ++ bytes_bits following))) <> 0%nat.
Proof. exists []. vm_compute. discriminate. Qed.
Print Assumptions C24_no_starting_points_refuted.

(** ** C28 *)
Theorem C28_slices : forall A (data : list A) reserved blockSize, (length data < reserved)%nat ->
  (0 < blockSize)%nat -> N.of_nat blockSize < 2 ^ 31 - 2 ->
  exists l, sliceIntoBlocks (length data) (length data) reserved blockSize = Ok l /\ cuts data l /\
    Forall (fun p => (1 <= snd p <= blockSize /\ fst p + snd p <= length data)%nat) l.
Proof. exact C28_all. Qed.
Print Assumptions C28_slices.

Example C28_example : sliceIntoBlocks 10 10 11 4 = Ok [(0, 4); (4, 4); (8, 2)]%nat.
Proof. vm_compute. reflexivity. Qed.

(** The block size 2^31 - 2, to which Compressor::compress clamps, fails the assertion. *)
Theorem C28_largest_block_size_refuted :
  sliceIntoBlocks 1 1 2 (N.to_nat 4) <> UB /\
  forall used reserved fuel bs, N.of_nat bs = 2 ^ 31 - 2 -> sliceIntoBlocks fuel used reserved bs = UB.
Proof. exact slice_clamp. Qed.
Print Assumptions C28_largest_block_size_refuted.

(** ** C29 *)
Theorem C29_sections : forall lf stats, (1 <= length lf <= 256)%nat -> Forall (fun v => v < 2 ^ 31) lf ->
  (length stats <= 256)%nat -> 0 < sumN stats < 2 ^ 32 ->
  exists sections out,
    writeBlockHeader lf stats = Ok (sections, out, length out) /\ are_bytes out /\
    sumN sections = sumN stats /\ Forall (fun x => 0 < x) sections /\ (1 <= length sections <= 256)%nat /\
    forall compressed following, compressed < 2 ^ 48 ->
      readBlockHeader (bytes_bits (bytes48 compressed ++ out) ++ bytes_bits following) =
        Ok (compressed, lf, sections, bytes_bits following).
Proof. exact C29_all. Qed.
Print Assumptions C29_sections.

Example C29_example :
  writeBlockHeader [3] [9999; 1; 0; 20000; 5; 0] =
    Ok ([10000; 20005], [0; 0; 0; 0; 6; 2; 144; 78; 165; 156; 1], 11%nat) /\
  writeBlockHeader [3] [7; 0; 5] = Ok ([12], [0; 0; 0; 0; 6; 1; 12], 7%nat).
Proof. vm_compute. auto. Qed.

(** The header of an empty block is not read back: its section count 0 means 256. *)
Theorem C29_empty_block_refuted : exists lf out n,
  writeBlockHeader lf (repeat 0 256) = Ok ([], out, n) /\
  forall following c lf' l s,
    readBlockHeader (bytes_bits (bytes48 0 ++ out) ++ bytes_bits following) = Ok (c, lf', l, s) -> l <> [].
Proof. exact empty_sections. Qed.
Print Assumptions C29_empty_block_refuted.

(** The pair replacer (C34) and the precompressor (C33): property theorems. *)
From Coq Require Import List NArith ZArith Arith Bool.
From Verif Require Import Base Arrays TArray ModelUtils ModelFreq SpecFreq ModelGrammar SpecGrammar ModelPairs SpecPairs ProofFreq2 ProofPairs1 ProofPairs9.
Import ListNotations.
Open Scope N_scope.

(** C34: writing the replaced block in place gives the bytes that writing into a separate array gives, for
    every table, block and buffer.  Condition: the buffer has room for the symbols written as two bytes
    and two more.  If the last symbol of the block is not written as two bytes, both succeed or both fail;
    otherwise writing in place may also fail an assertion (see C34_full_buffer_refuted). *)
Theorem C34_in_place_equals_buffered : forall cap common table room src,
  t_len table = 65536 -> common < 256 -> are_bytes src -> (2 <= length src <= room)%nat ->
  (doubles common table src + 2 <= cap)%nat -> (cap < length src)%nat ->
  (cap + 1 < length src \/ doubles common table src = 0)%nat ->
  (forall l, writeInPlace cap common table room src = Ok l -> writeReplaced common table room src = Ok l) /\
  (writtenTwice common table (nth (length src - 1) src 0) = false ->
   writeInPlace cap common table room src = writeReplaced common table room src).
Proof. exact C34_all. Qed.
Print Assumptions C34_in_place_equals_buffered.

(** A table with two special symbols, a freed symbol and a rule; 7, 8 and 9 are written as two bytes. *)
Example C34_case :
  let src := [3; 4; 3; 4; 7; 3; 4; 8; 3; 4; 9; 3; 4; 3; 4; 1; 3; 4; 7; 3; 4; 3; 4; 3; 4; 3; 4; 2; 4; 3] in
  match constructReplacementTable emptyGrammar 1 (tmake 65536 (pair16 1 1)) [(12, pair16 3 4)] [9] [7; 8] [9] with
  | Ok (g, table) =>
      let n := length src in
      let d := doubles 1 table src in
      (t_len table =? 65536) && ((d =? 4) && (d + 2 <=? 7) && (7 + 1 <? n))%nat && negb (writtenTwice 1 table 3) &&
      match writeInPlace 7 1 table n src, writeReplaced 1 table n src with
      | Ok l, Ok l' => (length l =? 23)%nat && (if list_eq_dec N.eq_dec l l' then true else false)
      | _, _ => false
      end
  | _ => false
  end = true.
Proof. vm_cast_no_check (eq_refl true). Qed.

(** A block with 506 occurrences of a freed symbol at the end. *)
Definition twice : list N := let l := [0; 1; 2; 3; 4] ++ map N.of_nat (seq 6 250) in l ++ l.
Definition fullBlock (k : nat) : list N := twice ++ concat (repeat [97; 98; 99; 100; 101] 1010) ++ repeat 101 k ++ [5].

(** The last symbol of the block is written without looking whether the buffer is full: a block of the
    compressor that fails the assertion, while the other way of writing works. *)
Theorem C34_full_buffer_refuted : exists src g common table l,
  analyseAndDecide sortByFrequency layoutOver emptyGrammar src = Ok (g, common, table) /\
  writeInPlace (bufferCapacity (length src)) common table (S (length src)) src = UB /\
  writeReplaced common table (S (length src)) src = Ok l.
Proof.
  exists (fullBlock 507).
  apply (decided (analyseAndDecide sortByFrequency layoutOver emptyGrammar (fullBlock 507))
    (fun common table => writeInPlace (bufferCapacity (length (fullBlock 507))) common table (S (length (fullBlock 507))) (fullBlock 507))
    (fun common table => writeReplaced common table (S (length (fullBlock 507))) (fullBlock 507))).
  vm_cast_no_check (eq_refl true).
Qed.
Print Assumptions C34_full_buffer_refuted.

(** Blocks of three bytes lose one when they are written in place: the buffer is larger than the block and its last
    contents are taken with a limit of length - 1. *)
Theorem C34_short_block_refuted : exists src g common table,
  analyseAndDecide sortByFrequency layoutOver emptyGrammar src = Ok (g, common, table) /\
  writeReplaced common table (S (length src)) src = Ok [1; 2; 3] /\
  writeInPlace (bufferCapacity (length src)) common table (S (length src)) src = Ok [1; 2].
Proof.
  exists [1; 2; 3].
  apply (decidedShort (analyseAndDecide sortByFrequency layoutOver emptyGrammar [1; 2; 3])
    (fun common table => writeReplaced common table 4 [1; 2; 3])
    (fun common table => writeInPlace (bufferCapacity 3) common table 4 [1; 2; 3]) [1; 2; 3] [1; 2]).
  vm_cast_no_check (eq_refl true).
Qed.
Print Assumptions C34_short_block_refuted.

(** Blocks of one or two bytes fail an assertion. *)
Theorem C34_two_bytes_refuted : exists src, src <> [] /\
  analyseAndDecide sortByFrequency layoutOver emptyGrammar src = UB.
Proof. exists [1; 2]. split; [discriminate|vm_compute; reflexivity]. Qed.
Print Assumptions C34_two_bytes_refuted.

(** C33: whenever the precompressor finishes a block, and every round written in place has room in its buffer (C34),
    the postprocessor gives the block back from the grammar and the precompressed bytes, and the grammar can be
    written (C31).  For every way of sorting equal frequencies, every buffer size and every moment of turning to the
    temporary array. *)
Theorem C33_postprocess_undoes_precompress : forall sortF capacity lowRatio n data g data',
  sorts_by_frequency sortF -> are_bytes data -> N.of_nat (length data) < 2 ^ 31 -> N.of_nat n <= 1000000 ->
  precompress sortF layoutOver capacity lowRatio n data = Ok (g, data') ->
  roundsFit sortF layoutOver capacity lowRatio n (length data) None emptyGrammar data = true ->
  postprocess g data' = Ok data /\ are_bytes data' /\ exists rules, writable g rules.
Proof. exact C33_all. Qed.
Print Assumptions C33_postprocess_undoes_precompress.

(** The same through the header of the block: the header of every precompressed block is written, read back up to its
    last byte, and the grammar that was read restores the block. *)
Theorem C33_through_header : forall sortF capacity lowRatio n data g data' slices following,
  sorts_by_frequency sortF -> are_bytes data -> N.of_nat (length data) < 2 ^ 31 -> N.of_nat n <= 1000000 -> slices < 2 ^ 56 ->
  precompress sortF layoutOver capacity lowRatio n data = Ok (g, data') ->
  roundsFit sortF layoutOver capacity lowRatio n (length data) None emptyGrammar data = true ->
  exists bytes g', writePreHeader (N.of_nat (length data)) slices g = Ok (bytes, length bytes) /\ are_bytes bytes /\
    readPreHeader (bytes_bits (bytes ++ following)) = Ok (Some (N.of_nat (length data), slices, g'), bytes_bits following) /\
    sameGrammar g g' /\ postprocess g' data' = Ok data.
Proof. exact C33_header_all. Qed.
Print Assumptions C33_through_header.

(** All byte values occur, so a pair is replaced by a freed symbol and two special symbols. *)
Definition denseBlock : list N := map N.of_nat (seq 0 256) ++ concat (repeat [97; 98] 1010).
Example C33_case :
  match precompress sortByFrequency layoutOver bufferCapacity (fun _ _ => true) 1 denseBlock with
  | Ok (g, data') =>
      (length data' <? length denseBlock)%nat && nonEmpty (g_specials g) && nonEmpty (g_rules g) &&
      roundsFit sortByFrequency layoutOver bufferCapacity (fun _ _ => true) 1 (length denseBlock) None emptyGrammar denseBlock &&
      match postprocess g data' with Ok l => if list_eq_dec N.eq_dec l denseBlock then true else false | _ => false end
  | _ => false
  end = true.
Proof. vm_cast_no_check (eq_refl true). Qed.

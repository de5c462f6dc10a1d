(** Whole files (C39 - C42): property theorems. *)
From Coq Require Import List NArith ZArith Arith Bool.
From Verif Require Import Base ModelUtils ModelStreams ModelHeaders ModelBWT SpecBWT ProofBWT7 ModelFreq SpecFreq ProofFreq2 ModelGrammar ModelPairs SpecPairs ModelFile SpecFile ProofFile.
Import ListNotations.
Open Scope N_scope.

(** C39, C40 for the Huffman coder ('H' = 72): whenever compress finishes, decompress gives back the input and the
    reported size is the size of the archive.  For every file, correct suffix sorter, number of starting points,
    number of rounds of pair replacement, content of uninitialised memory, and all block sizes below the limits; with
    pair replacement the blocks have to meet the condition of C33 and must not grow. *)
Theorem C39_huffman_round_trip : forall wavelet sorter points behind sortF capacity lowRatio n pbSize0 bwtSize0 quotient input archive size,
  sorts_suffixes sorter -> sorts_by_frequency sortF -> (forall i, behind i < 256) ->
  are_bytes input -> N.of_nat n <= 1000000 ->
  let pbSize := if (n =? 0)%nat then clampSize bwtSize0 else pbSize0 in
  0 < pbSize < 2 ^ 31 -> clampSize bwtSize0 < 2 ^ 29 -> (forall m, clampSize (quotient m) < 2 ^ 29) ->
  (forall k, blockFits sortF layoutOver capacity lowRatio n (firstn (N.to_nat pbSize) (skipn (k * N.to_nat pbSize) input)) = true) ->
  compress huffmanCoder sorter points (precompress sortF layoutOver capacity lowRatio n) pbSize0 bwtSize0 quotient (negb (n =? 0)%nat) 72 input = Ok (archive, size) ->
  decompress behind wavelet archive = Ok (input, length input) /\ size = length archive /\ are_bytes archive.
Proof. exact C39_huffman_round. Qed.
Print Assumptions C39_huffman_round_trip.

(** Without pair replacement compress always finishes. *)
Theorem C39_huffman_no_preprocessing : forall wavelet sorter points behind sortF capacity lowRatio pbSize0 bwtSize quotient input,
  sorts_suffixes sorter -> sorts_by_frequency sortF -> (forall i, behind i < 256) -> are_bytes input -> 0 < bwtSize < 2 ^ 29 ->
  exists archive, compress huffmanCoder sorter points (precompress sortF layoutOver capacity lowRatio 0) pbSize0 bwtSize quotient false 72 input = Ok (archive, length archive) /\
    are_bytes archive /\ decompress behind wavelet archive = Ok (input, length input).
Proof. exact C39_huffman_always. Qed.
Print Assumptions C39_huffman_no_preprocessing.

Definition sorterOf (t : list N) : list nat := sortSuffixes t (seq 0 (length t)).
Definition text : list N := [2; 1; 3; 1; 2; 2; 1; 3; 3; 3; 1; 1; 2].
(** One round, blocks of 7 bytes in slices of 5; the hypothesis on the blocks holds. *)
Example C39_case :
  match compress huffmanCoder sorterOf 8 (precompress sortByFrequency layoutOver bufferCapacity (fun _ _ => false) 1) 7 5 (fun _ => 5) true 72 text with
  | Ok (archive, n) => (n =? length archive)%nat &&
      forallb (fun k => blockFits sortByFrequency layoutOver bufferCapacity (fun _ _ => false) 1 (firstn 7 (skipn (k * 7) text))) [0; 1]%nat &&
      match decompress (fun _ => 7) (fun _ => huffmanCoder) archive with
      | Ok (l, 13%nat) => if list_eq_dec N.eq_dec l text then true else false
      | _ => false
      end
  | _ => false
  end = true.
Proof. vm_cast_no_check (eq_refl true). Qed.

(** The conditions on the blocks are needed: a file of three bytes is compressed with pair replacement to an archive that
    fails the final assertion of the decompressor (C34_short_block_refuted), and two bytes fail one in the compressor. *)
Theorem C39_three_bytes_refuted : exists input archive n,
  compress huffmanCoder sorterOf 8 (precompress sortByFrequency layoutOver bufferCapacity (fun _ _ => false) 1) 740000 185000 (fun _ => 222221) true 72 input = Ok (archive, n) /\
  decompress (fun _ => 0) (fun _ => huffmanCoder) archive = UB.
Proof. exists [1; 2; 3]. apply decidedUB. vm_cast_no_check (eq_refl true). Qed.
Print Assumptions C39_three_bytes_refuted.
Theorem C39_two_bytes_refuted : exists input,
  compress huffmanCoder sorterOf 8 (precompress sortByFrequency layoutOver bufferCapacity (fun _ _ => false) 1) 740000 185000 (fun _ => 222221) true 72 input = UB.
Proof. exists [1; 2]. vm_compute. reflexivity. Qed.
Print Assumptions C39_two_bytes_refuted.

(** C41: reading past the end of the data gives set bits, so an integer of a block header that is read there has no
    last byte and the shift leaves the word (undefined).  This happens for the empty file and for every archive
    without its last byte. *)
Theorem C41_truncated_refuted : forall wavelet sorter points behind sortF capacity lowRatio pbSize0 bwtSize quotient input,
  sorts_suffixes sorter -> sorts_by_frequency sortF -> (forall i, behind i < 256) -> are_bytes input -> 0 < bwtSize < 2 ^ 29 ->
  decompress behind wavelet [] = UB /\
  exists archive n, compress huffmanCoder sorter points (precompress sortF layoutOver capacity lowRatio 0) pbSize0 bwtSize quotient false 72 input = Ok (archive, n) /\
    decompress behind wavelet (removelast archive) = UB.
Proof. exact C41_all. Qed.
Print Assumptions C41_truncated_refuted.

(** C42: with a memory limit whose 0.185-fold is below one byte, every file gives the same archive, that of the empty file. *)
Theorem C42_small_limit_refuted : forall sorter points prec pbSize0 quotient input,
  compress huffmanCoder sorter points prec pbSize0 0 quotient false 72 input = Ok ([72; 0], 2%nat) /\
  forall behind wavelet, decompress behind wavelet [72; 0] = Ok ([], 0%nat).
Proof. exact small_limit. Qed.
Print Assumptions C42_small_limit_refuted.

(** With pair replacement and a quotient of zero the slicing of the block never ends. *)
Theorem C42_no_slices_refuted : forall fuel used, (0 < used)%nat -> sliceIntoBlocks fuel used (S used) (N.to_nat (clampSize 0)) = Fuel.
Proof. exact no_slices. Qed.
Print Assumptions C42_no_slices_refuted.

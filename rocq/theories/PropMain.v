(** The program compress with its options (C48): property theorems. *)
From Coq Require Import List NArith ZArith Arith Bool SpecFloat.
From Verif Require Import Base ModelUtils ModelStreams ModelHeaders ModelBWT SpecBWT ProofBWT7 ModelFreq SpecFreq ProofFreq2 ModelGrammar ModelPairs SpecPairs ModelFile SpecFile ModelWavelet.
From Verif Require Import ModelMain SpecMain ProofMain2 ProofMain4.
Import ListNotations.
Open Scope N_scope.

(** The block sizes are 0.74, 0.185 and 2/9 of the memory, up to one part in 10^15 and rounded down, although they are
    computed with doubles; the conversions to size_t are defined for every limit of 64 bits. *)
Theorem C48_sizes : forall L, L < 2 ^ 64 -> exists pbSize bwtSize, pbSizeOf L = Ok pbSize /\ bwtSizeOf L = Ok bwtSize /\
  100 * 10 ^ 15 * pbSize <= 74 * (10 ^ 15 + 1) * L /\ 74 * (10 ^ 15 - 1) * L < 100 * 10 ^ 15 * (pbSize + 1) /\
  1000 * 10 ^ 15 * bwtSize <= 185 * (10 ^ 15 + 1) * L /\ 185 * (10 ^ 15 - 1) * L < 1000 * 10 ^ 15 * (bwtSize + 1).
Proof. exact sizes_both. Qed.
Print Assumptions C48_sizes.
Theorem C48_quotient : forall L m, (exists q, quotientOf L m = Ok q) /\
  (m <= L < 2 ^ 64 -> exists q, quotientOf L m = Ok q /\ 45 * 10 ^ 15 * q <= 10 * (10 ^ 15 + 1) * (L - m) /\ 10 * (10 ^ 15 - 1) * (L - m) < 45 * 10 ^ 15 * (q + 1)).
Proof. exact quotient_both. Qed.
Print Assumptions C48_quotient.
(** The default of 100 megabytes; a size that is not exact: 9007199254740993 is no double. *)
Example C48_sizes_case : pbSizeOf 100000000 = Ok 74000000 /\ bwtSizeOf 100000000 = Ok 18500000 /\ quotientOf 100000000 74000000 = Ok 5777777 /\
  pbSizeOf 9007199254740993 = Ok 6665327448508334.
Proof. vm_compute. repeat split. Qed.

(** The buffer for writing in place (PairReplacer.cpp 323-326: "of a size of one third should be enough") holds a third of the block
    and two bytes more; its size is defined. *)
Theorem C48_buffer : forall len, N.of_nat len < 2 ^ 31 ->
  exists n, toSize (SFadd 53 1024 (SFmul 53 1024 (literal 333334 1000000) (toDouble (N.of_nat len))) (toDouble 3)) = Ok n /\ capacityOf len = N.to_nat n /\
    N.of_nat len + 6 <= 3 * n /\ 10 ^ 6 * n <= 333334 * N.of_nat len + 3 * 10 ^ 6 + 1.
Proof. exact capacity_third. Qed.
Print Assumptions C48_buffer.
Example C48_buffer_case : capacityOf 0 = 3%nat /\ capacityOf 2 = 3%nat /\ capacityOf 3 = 4%nat /\ N.of_nat (capacityOf (N.to_nat 6068)) = 2025.
Proof. vm_compute. repeat split. Qed.

(** Whenever the program finishes, decompress gives back the file and the size reported is that of the archive.  For all options
    the program accepts (with --bwt s nothing is assumed about a sorter), memory up to 2415 megabytes, or up to 9663 for files of
    less than 2^29 bytes; with --prepr the blocks have to meet the condition of C33 and must not grow. *)
Theorem C48_round_trip : forall sortF sorter worth worth' behind mem starts bwt enc prepr input archive size,
  sorts_by_frequency sortF -> (bwt <> 115 -> sorts_suffixes sorter) -> (forall i, behind i < 256) -> are_bytes input ->
  moderate mem input -> N.of_nat (length prepr) <= 1000000 ->
  (forall pbSize k, prepr <> [] -> pbSizeOf (memLimitOf mem) = Ok pbSize ->
     blockFits sortF layoutOver capacityOf lowRatioOf (length prepr) (firstn (N.to_nat pbSize) (skipn (k * N.to_nat pbSize) input)) = true) ->
  compressMain sortF sorter worth mem starts bwt enc prepr input = Ok (Some (archive, size)) ->
  decompress behind (waveletCoder worth') archive = Ok (input, length input) /\ size = length archive /\ are_bytes archive.
Proof. exact main_round. Qed.
Print Assumptions C48_round_trip.

(** compress -m 1 --prepr p -e H: the program finishes and the condition on the blocks holds. *)
Definition text : list N := [2; 1; 3; 1; 2; 2; 1; 3; 3; 3; 1; 1; 2].
Example C48_case :
  match compressMain sortByFrequency (fun t => sortSuffixes t (seq 0 (length t))) (fun _ _ _ => true) 1 8 97 72 [112] text with
  | Ok (Some (archive, n)) => (n =? length archive)%nat &&
      forallb (fun k => blockFits sortByFrequency layoutOver capacityOf lowRatioOf 1 (firstn (N.to_nat 740000) (skipn (k * N.to_nat 740000) text))) [0; 1]%nat &&
      match decompress (fun _ => 7) (waveletCoder (fun _ _ _ => true)) archive with
      | Ok (l, 13%nat) => if list_eq_dec N.eq_dec l text then true else false
      | _ => false
      end
  | _ => false
  end = true.
Proof. vm_cast_no_check (eq_refl true). Qed.

(** With -e H and without --prepr the program finishes for every file, with memory up to 2902 megabytes, or up to 11608 for files
    of less than 2^29 bytes. *)
Theorem C48_huffman : forall sortF sorter worth worth' behind mem starts bwt input,
  sorts_by_frequency sortF -> (bwt <> 115 -> sorts_suffixes sorter) -> (forall i, behind i < 256) -> are_bytes input ->
  validStarts starts = true -> validBwt bwt = true ->
  megabytes mem <= 2902 \/ (megabytes mem <= 11608 /\ N.of_nat (length input) < 2 ^ 29) ->
  exists archive, compressMain sortF sorter worth mem starts bwt 72 [] input = Ok (Some (archive, length archive)) /\ are_bytes archive /\
    decompress behind (waveletCoder worth') archive = Ok (input, length input).
Proof. exact main_huffman. Qed.
Print Assumptions C48_huffman.
(** The options that are accepted. *)
Example C48_options_case : validStarts 256 = true /\ validStarts 257 = false /\ validStarts 0 = false /\ validBwt 115 = true /\ validBwt 72 = false /\
  compressMain sortByFrequency (fun _ => []) (fun _ _ _ => true) 100 8 115 72 [113] [1] = Ok None.
Proof. vm_compute. repeat split. Qed.

(** Without --prepr the archive does not depend on --bwt, whatever the other options are. *)
Theorem C48_same_archive : forall sortF sorter worth mem starts bwt bwt' enc input,
  sorts_suffixes sorter -> are_bytes input -> validBwt bwt = true -> validBwt bwt' = true ->
  compressMain sortF sorter worth mem starts bwt enc [] input = compressMain sortF sorter worth mem starts bwt' enc [] input.
Proof. exact main_same. Qed.
Print Assumptions C48_same_archive.
Example C48_same_case :
  compressMain sortByFrequency (fun t => sortSuffixes t (seq 0 (length t))) (fun _ _ _ => true) 0 2 115 72 [] [2; 1; 1] =
  Ok (Some ([72; 3; 1; 0; 0; 0; 0; 0; 0; 14; 0; 0; 0; 0; 2; 1; 3; 2; 2; 2; 1; 224; 128; 160; 0], 25%nat)).
Proof. vm_compute. reflexivity. Qed.

(** More memory is no better: from 11609 megabytes on the block size is 2^31 - 2, which fails the assertion of sliceIntoBlocks
    (C28_largest_block_size_refuted).  No file but the empty one is compressed. *)
Theorem C48_much_memory_refuted : forall sortF sorter worth mem starts bwt enc input,
  validStarts starts = true -> validBwt bwt = true -> validEncoding enc = true -> 11609 <= mem <= 18446744073709 -> input <> [] ->
  compressMain sortF sorter worth mem starts bwt enc [] input = UB.
Proof. exact too_much. Qed.
Print Assumptions C48_much_memory_refuted.

(** The limit is computed in 64 bits: --mem 288230376151711744 is a limit of zero bytes, every file gives the archive of the empty
    file, and the program reports success. *)
Theorem C48_wrapped_limit_refuted : forall sortF sorter worth starts bwt enc input,
  validStarts starts = true -> validBwt bwt = true -> validEncoding enc = true ->
  compressMain sortF sorter worth (2 ^ 58) starts bwt enc [] input = Ok (Some ([enc; 0], 2%nat)).
Proof. exact wrapped. Qed.
Print Assumptions C48_wrapped_limit_refuted.
Example C48_refuted_case : validStarts 8 = true /\ validBwt 97 = true /\ validEncoding 66 = true /\ 2 ^ 58 = 288230376151711744.
Proof. vm_compute. repeat split. Qed.

(** C47: how large an archive can get. *)
From Coq Require Import List NArith ZArith Arith Bool.
From Verif Require Import Base ModelUtils ModelStreams ModelHeaders SpecHeaders ModelHuffmanCoder SpecRuns ModelBWT SpecBWT ProofBWT7
  ModelFreq SpecFreq ProofFreq2 ModelGrammar ModelPairs SpecPairs ModelFile SpecFile ModelSaisFile ProofSize1 ProofSize2.
Import ListNotations.
Open Scope N_scope.

(** A section takes at most nine bits per byte and 1677 bytes (code table, number of runs, padding). *)
Theorem C47_section : forall data out n, data <> [] -> are_bytes data -> N.of_nat (length data) < 2 ^ 31 -> runs_below (2 ^ 29) data ->
  encodeSection data = Ok (out, n) -> (8 * length out <= 9 * length data + 8 * 1677)%nat.
Proof. exact section_size. Qed.
Print Assumptions C47_section.

(** Nine bits per byte are needed: 512 bytes without repetitions of which each value is as frequent as the others. *)
Definition allBytes : list N := map N.of_nat (seq 0 256).
Example C47_nine_bits : match encodeSection (allBytes ++ allBytes) with Ok (out, _) => (9 * 512 <=? 8 * length out) && (8 * length out <=? 9 * 512 + 8 * 60) | _ => false end%nat = true.
Proof. vm_cast_no_check (eq_refl true). Qed.

(** Whole archives of the Huffman coder without pair replacement: at most 1.3 bytes per byte of the file, 2697 bytes
    per block and two bytes, whatever the file contains. *)
Theorem C47_archive : forall sorter points sortF capacity lowRatio pbSize0 bwtSize quotient input archive size,
  sorts_suffixes sorter -> sorts_by_frequency sortF -> are_bytes input -> 0 < bwtSize < 2 ^ 29 ->
  compress huffmanCoder sorter points (precompress sortF layoutOver capacity lowRatio 0) pbSize0 bwtSize quotient false 72 input = Ok (archive, size) ->
  10 * N.of_nat (length archive) <= 13 * N.of_nat (length input) + 26970 * ((N.of_nat (length input) + bwtSize - 1) / bwtSize) + 20.
Proof. exact archive_size. Qed.
Print Assumptions C47_archive.

(** The same with option --bwt s, without an assumption about the sorter. *)
Theorem C47_archive_sais : forall points sortF capacity lowRatio pbSize0 bwtSize quotient input archive size,
  sorts_by_frequency sortF -> are_bytes input -> 0 < bwtSize < 2 ^ 29 ->
  compressSais huffmanCoder points (precompress sortF layoutOver capacity lowRatio 0) pbSize0 bwtSize quotient false 72 input = Ok (archive, size) ->
  10 * N.of_nat (length archive) <= 13 * N.of_nat (length input) + 26970 * ((N.of_nat (length input) + bwtSize - 1) / bwtSize) + 20.
Proof. exact archive_size_sais. Qed.
Print Assumptions C47_archive_sais.

(** Two blocks. *)
Example C47_case : match compressSais huffmanCoder 2 (precompress sortByFrequency layoutOver bufferCapacity (fun _ _ => false) 0) 0 5 (fun _ => 0) false 72 [5; 1; 5; 5; 7; 1; 1] with
  | Ok (archive, n) => (length archive =? n)%nat && (n =? 49)%nat
  | _ => false
  end = true.
Proof. vm_cast_no_check (eq_refl true). Qed.

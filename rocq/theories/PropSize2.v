(** C51: how large the archives of the program compress get. *)
From Coq Require Import List NArith ZArith Arith Bool.
From Verif Require Import Base ModelUtils ModelHeaders ModelBWT SpecBWT ProofBWT7 ModelFreq SpecFreq ProofFreq2 ModelGrammar ModelPairs SpecPairs SpecTriple ModelFile SpecFile ModelWavelet ModelMain SpecMain ProofSize3 ProofSize4.
Import ListNotations.
Open Scope N_scope.

(** compress -e H without --prepr: at most 1.3 bytes per byte of the file and 2697 bytes for each 184999 bytes per megabyte of the
    option --mem, whatever the file contains. *)
Theorem C51_plain : forall sortF sorter worth mem starts bwt input archive size,
  sorts_by_frequency sortF -> (bwt <> 115 -> sorts_suffixes sorter) -> are_bytes input -> megabytes mem <= 2902 ->
  compressMain sortF sorter worth mem starts bwt 72 [] input = Ok (Some (archive, size)) ->
  10 * N.of_nat (length archive) <= 13 * N.of_nat (length input) + 26970 * (N.of_nat (length input) / (184999 * megabytes mem) + 1) + 20.
Proof. exact main_size_plain. Qed.
Print Assumptions C51_plain.
Example C51_plain_case :
  match compressMain sortByFrequency (fun t => sortSuffixes t (seq 0 (length t))) (fun _ _ _ => true) 0 2 115 72 [] [2; 1; 1] with
  | Ok (Some (archive, _)) => (length archive =? 25)%nat
  | _ => false
  end = true.
Proof. vm_compute. reflexivity. Qed.

(** With preprocessing, for files with few repetitions (C49): at most 1.3 bytes per byte of the file, and for each 739999 bytes per
    megabyte 35458 bytes and 1792 bytes per round.  The grammars are included. *)
Theorem C51_pairs : forall sortF sorter worth mem starts bwt prepr input archive size,
  sorts_by_frequency sortF -> (bwt <> 115 -> sorts_suffixes sorter) -> are_bytes input -> prepr <> [] -> megabytes mem <= 2415 -> N.of_nat (length prepr) <= 1000000 ->
  (length prepr <= 1 /\ triples input <= 1000)%nat \/ (cubes input <= 1000)%nat ->
  (forall pbSize, pbSizeOf (memLimitOf mem) = Ok pbSize -> N.of_nat (length input) mod pbSize <> 3 /\ N.of_nat (length input) mod pbSize <> 4) ->
  compressMain sortF sorter worth mem starts bwt 72 prepr input = Ok (Some (archive, size)) ->
  10 * N.of_nat (length archive) <= 13 * N.of_nat (length input) + (354580 + 17920 * N.of_nat (length prepr)) * (N.of_nat (length input) / (739999 * megabytes mem) + 1) + 20.
Proof. exact main_size_pairs. Qed.
Print Assumptions C51_pairs.

(** The header of a preprocessed block: at most 540 bytes and seven per rule
    of the grammar, of which each round adds at most 256. *)
Theorem C51_header : forall sortF capacity lowRatio n block g data slices header size,
  sorts_by_frequency sortF -> are_bytes block -> N.of_nat (length block) < 2 ^ 31 -> N.of_nat n <= 1000000 -> slices < 2 ^ 56 ->
  roundsFit sortF layoutOver capacity lowRatio n (length block) None emptyGrammar block = true ->
  precompress sortF layoutOver capacity lowRatio n block = Ok (g, data) ->
  writePreHeader (N.of_nat (length block)) slices g = Ok (header, size) ->
  (length (g_rules g) <= 256 * n)%nat /\ (size <= 540 + 7 * length (g_rules g))%nat /\ length header = size.
Proof. exact block_header. Qed.
Print Assumptions C51_header.
(** A file of one block; two rounds. *)
Definition sample : list N := [2; 1; 3; 1; 2; 2; 1; 3; 3; 3; 1; 1; 2].
Example C51_pairs_case :
  match compressMain sortByFrequency (fun t => sortSuffixes t (seq 0 (length t))) (fun _ _ _ => true) 1 8 97 72 [112; 112] sample, pbSizeOf (memLimitOf 1) with
  | Ok (Some (archive, n)), Ok pbSize => (n =? length archive)%nat && (cubes sample =? 1)%nat && (N.of_nat (length sample) mod pbSize =? 13)
  | _, _ => false
  end = true.
Proof. vm_cast_no_check (eq_refl true). Qed.
(** A block in which all bytes occur, so that symbols are freed and made special. *)
Definition doubled : list N := map N.of_nat (seq 0 256) ++ concat (repeat [97; 98] 1010).
Example C51_header_case :
  match precompress sortByFrequency layoutOver (fun len => len / 2)%nat (fun _ _ => true) 1 doubled with
  | Ok (g, data) =>
    match writePreHeader (N.of_nat (length doubled)) 1 g with
    | Ok (header, n) => (n =? length header)%nat && (1 <=? length (g_rules g))%nat && (1 <=? length (g_specials g))%nat &&
        roundsFit sortByFrequency layoutOver (fun len => len / 2)%nat (fun _ _ => true) 1 (length doubled) None emptyGrammar doubled
    | _ => false
    end
  | _ => false
  end = true.
Proof. vm_cast_no_check (eq_refl true). Qed.

(** Pair replacement finishes (C50): property theorems. *)
From Coq Require Import List NArith ZArith Arith Bool.
From Verif Require Import Base ModelUtils ModelStreams ModelHeaders ModelBWT SpecBWT ProofBWT7 ModelFreq SpecFreq ProofFreq2 ModelGrammar ModelPairs SpecPairs SpecTriple SpecTotal ModelFile SpecFile ModelWavelet.
From Verif Require Import ModelMain SpecMain ProofTotal4 ProofTotal5 ProofTotal6 PropTriple.
Import ListNotations.
Open Scope N_scope.

(** Analysing a block and deciding on the replacements never fails: none of the assertions of the pair replacer and the grammar is
    violated, no array is left, no subtraction wraps, and no loop runs out of pairs.  Blocks of at most two bytes are excepted (C34_two_bytes_refuted). *)
Theorem C50_decides : forall sortF data, sorts_by_frequency sortF -> are_bytes data -> (2 < length data)%nat -> N.of_nat (length data) < 2 ^ 31 ->
  exists g common table, analyseAndDecide sortF layoutOver emptyGrammar data = Ok (g, common, table).
Proof. exact first_total. Qed.
Print Assumptions C50_decides.
(** A block in which every pair occurs at most once, one with a single letter, and one in which all bytes occur and something is replaced. *)
Definition counted : list N := map N.of_nat (seq 0 256) ++ concat (repeat [97; 98] 1010).
Example C50_decides_case :
  match analyseAndDecide sortByFrequency layoutOver emptyGrammar [1; 2; 3], analyseAndDecide sortByFrequency layoutOver emptyGrammar (repeat 5 40),
        analyseAndDecide sortByFrequency layoutOver emptyGrammar counted with
  | Ok (g1, _, _), Ok (g2, _, _), Ok (g3, _, _) => (length (g_rules g1) =? 0)%nat && (length (g_rules g2) =? 0)%nat && (0 <? length (g_rules g3))%nat && (0 <? length (g_specials g3))%nat
  | _, _, _ => false
  end = true.
Proof. vm_cast_no_check (eq_refl true). Qed.

(** The precompressor finishes, for up to 200 rounds, if there are few repetitions (as in C49) and the last byte of the block is not
    written twice in a round in place; then postprocessing restores the block, and it has not become longer.  Without the condition on the
    last byte this is false (C34_full_buffer_refuted). *)
Theorem C50_finishes : forall sortF capacity lowRatio n data, sorts_by_frequency sortF -> third capacity ->
  lowRatio (length data) (length data) = false -> are_bytes data -> (5 <= length data)%nat -> N.of_nat (length data) < 2 ^ 31 -> (n <= 200)%nat ->
  (n <= 1 /\ triples data <= 1000)%nat \/ (cubes data <= 1000)%nat ->
  lastOnce sortF layoutOver lowRatio n (length data) None emptyGrammar data = true ->
  exists g data', precompress sortF layoutOver capacity lowRatio n data = Ok (g, data') /\
    postprocess g data' = Ok data /\ (length data' <= length data)%nat /\ are_bytes data'.
Proof. exact finishes_few. Qed.
Print Assumptions C50_finishes.
Theorem C50_ratio : forall len, N.of_nat len < 2 ^ 64 -> lowRatioOf len len = false.
Proof. exact ratio_self. Qed.
Print Assumptions C50_ratio.

(** Two rounds, of which the second replaces pairs with the symbol of the first (the block of C49_restores, with [pieces_cubes]). *)
Example C50_finishes_case : (5 <=? length pieces)%nat && lastOnce sortByFrequency layoutOver lowRatioOf 2 (length pieces) None emptyGrammar pieces = true.
Proof. vm_cast_no_check (eq_refl true). Qed.

(** The program compress -e H, with any number of preprocessing rounds up to 200: it writes an archive, and decompress gives back the file. *)
Theorem C50_program : forall sortF sorter worth worth' behind mem starts bwt prepr input,
  sorts_by_frequency sortF -> (bwt <> 115 -> sorts_suffixes sorter) -> (forall i, behind i < 256) -> are_bytes input ->
  validStarts starts = true -> validBwt bwt = true -> validPrepr prepr = true -> moderate mem input -> (length prepr <= 200)%nat ->
  (length prepr <= 1 /\ triples input <= 1000)%nat \/ (cubes input <= 1000)%nat ->
  (forall pbSize, prepr <> [] -> pbSizeOf (memLimitOf mem) = Ok pbSize ->
     (N.of_nat (length input) mod pbSize = 0 \/ 5 <= N.of_nat (length input) mod pbSize) /\
     forall k, let block := firstn (N.to_nat pbSize) (skipn (k * N.to_nat pbSize) input) in
       block <> [] -> lastOnce sortF layoutOver lowRatioOf (length prepr) (length block) None emptyGrammar block = true) ->
  exists archive, compressMain sortF sorter worth mem starts bwt 72 prepr input = Ok (Some (archive, length archive)) /\ are_bytes archive /\
    decompress behind (waveletCoder worth') archive = Ok (input, length input).
Proof. exact main_total. Qed.
Print Assumptions C50_program.
(** compress -m 1 --prepr pp -e H of a file of one block. *)
Example C50_program_case :
  validStarts 8 && validBwt 97 && validPrepr [112; 112] && (cubes sample =? 1)%nat &&
  match pbSizeOf (memLimitOf 1) with
  | Ok pbSize => (N.of_nat (length sample) mod pbSize =? 13) && (length sample <=? N.to_nat pbSize)%nat && lastOnce sortByFrequency layoutOver lowRatioOf 2 (length sample) None emptyGrammar sample
  | _ => false
  end = true.
Proof. vm_cast_no_check (eq_refl true). Qed.

(** Pair replacement makes no block longer in which little stands three times in a row (C49): property theorems. *)
From Coq Require Import List NArith ZArith Arith Bool.
From Verif Require Import Base ModelUtils ModelStreams ModelHeaders ModelBWT SpecBWT ProofBWT7 ModelFreq SpecFreq ProofFreq2 ModelGrammar ModelPairs SpecPairs SpecTriple ModelFile SpecFile ModelWavelet.
From Verif Require Import ModelMain SpecMain ProofTriple5 ProofTriple6 ProofTriple7.
Import ListNotations.
Open Scope N_scope.

(** One round on a block: either it replaces nothing, or the block becomes shorter by more than 1000 bytes, except for one byte for each
    place at which the same byte stands three times in a row; to less than half its length it cannot fall; and the symbols written
    twice are less than a third of the block, with two thirds of a byte for each such place. *)
Theorem C49_round : forall sortF data g common table,
  sorts_by_frequency sortF -> are_bytes data -> N.of_nat (length data) < 2 ^ 31 ->
  analyseAndDecide sortF layoutOver emptyGrammar data = Ok (g, common, table) ->
  ((forall room l, writeReplaced common table room data = Ok l -> l = data) /\ doubles common table data = 0%nat) \/
  ((forall room l, writeReplaced common table room data = Ok l ->
      (length l + 1001 <= length data + triples data)%nat /\ (length data <= 2 * length l)%nat) /\
   (3 * doubles common table data + 2002 <= length data + 2 * triples data)%nat).
Proof. exact C49_round_all. Qed.
Print Assumptions C49_round.

(** All byte values occur, so symbols have to be freed and are written twice; 510 places with three equal bytes. *)
Definition letters : list N := map N.of_nat (seq 0 256) ++ concat (repeat [97; 98] 1010) ++ repeat 99 512.
Example C49_round_case :
  match analyseAndDecide sortByFrequency layoutOver emptyGrammar letters with
  | Ok (_, common, table) =>
    match writeReplaced common table (length letters) letters with
    | Ok l => (length l <? length letters)%nat && (0 <? doubles common table letters)%nat && (triples letters =? 510)%nat && (length l + 1001 <=? length letters + 510)%nat
    | _ => false
    end
  | _ => false
  end = true.
Proof. vm_cast_no_check (eq_refl true). Qed.

(** So the condition of C33 and C39 on blocks holds for one round if at most 1000 times the same byte stands three times in a row, and for
    any number of rounds if at most 1000 times anything at all stands three times in a row; whatever the computation of the
    ratio, and for every buffer of one third.  Blocks of three or four bytes are excepted. *)
Theorem C49_blocks : forall sortF capacity lowRatio, sorts_by_frequency sortF -> third capacity -> forall n data,
  are_bytes data -> length data <> 3%nat -> length data <> 4%nat -> N.of_nat (length data) < 2 ^ 31 -> N.of_nat n <= 1000000 ->
  (n <= 1 /\ triples data <= 1000)%nat \/ (cubes data <= 1000)%nat ->
  blockFits sortF layoutOver capacity lowRatio n data = true.
Proof. exact blockFits_few. Qed.
Print Assumptions C49_blocks.
Theorem C49_buffers : third bufferCapacity /\ third capacityOf.
Proof. exact (conj third_exact third_program). Qed.
Print Assumptions C49_buffers.

(** Hence postprocessing restores the block, and the block does not become longer. *)
Theorem C49_restores : forall sortF capacity lowRatio n data g data', sorts_by_frequency sortF -> third capacity ->
  are_bytes data -> length data <> 3%nat -> length data <> 4%nat -> N.of_nat (length data) < 2 ^ 31 -> N.of_nat n <= 1000000 ->
  (n <= 1 /\ triples data <= 1000)%nat \/ (cubes data <= 1000)%nat ->
  precompress sortF layoutOver capacity lowRatio n data = Ok (g, data') ->
  postprocess g data' = Ok data /\ (length data' <= length data)%nat /\ are_bytes data'.
Proof. exact restores_few. Qed.
Print Assumptions C49_restores.

(** Two rounds: after "ab" the pairs with the new symbol are replaced as well. *)
Definition pieces : list N := concat (map (fun i => [97; 98; 99; 97; 98; 99; 97; 98; 99; N.of_nat i * N.of_nat i / 11 mod 251]) (seq 0 340)) ++ [99].
Lemma pieces_cubes : N.of_nat (cubes pieces) <= 1000.
Proof. eapply N.le_trans; [exact (cubes_fast pieces)|]. apply N.leb_le. vm_cast_no_check (eq_refl true). Qed.
Example C49_restores_case :
  match precompress sortByFrequency layoutOver capacityOf (fun _ _ => true) 2 pieces with
  | Ok (g, two) => (length pieces =? 3401)%nat && (length two =? 1361)%nat && (length (g_rules g) =? 2)%nat && forallb (fun x => x <? 256) pieces
  | _ => false
  end = true.
Proof. vm_cast_no_check (eq_refl true). Qed.

(** The program compress with --prepr: whenever it finishes, decompress gives back the file. *)
Theorem C49_program : forall sortF sorter worth worth' behind mem starts bwt enc prepr input archive size,
  sorts_by_frequency sortF -> (bwt <> 115 -> sorts_suffixes sorter) -> (forall i, behind i < 256) -> are_bytes input ->
  moderate mem input -> N.of_nat (length prepr) <= 1000000 ->
  (length prepr <= 1 /\ triples input <= 1000)%nat \/ (cubes input <= 1000)%nat ->
  (forall pbSize, pbSizeOf (memLimitOf mem) = Ok pbSize -> N.of_nat (length input) mod pbSize <> 3 /\ N.of_nat (length input) mod pbSize <> 4) ->
  compressMain sortF sorter worth mem starts bwt enc prepr input = Ok (Some (archive, size)) ->
  decompress behind (waveletCoder worth') archive = Ok (input, length input) /\ size = length archive /\ are_bytes archive.
Proof. exact main_few. Qed.
Print Assumptions C49_program.

(** compress -m 1 --prepr pp -e H. *)
Definition sample : list N := [2; 1; 3; 1; 2; 2; 1; 3; 3; 3; 1; 1; 2].
Example C49_program_case :
  match compressMain sortByFrequency (fun t => sortSuffixes t (seq 0 (length t))) (fun _ _ _ => true) 1 8 97 72 [112; 112] sample, pbSizeOf (memLimitOf 1) with
  | Ok (Some (archive, n)), Ok pbSize => (n =? length archive)%nat && (cubes sample =? 1)%nat && (N.of_nat (length sample) mod pbSize =? 13)
  | _, _ => false
  end = true.
Proof. vm_cast_no_check (eq_refl true). Qed.

(** Files of three or four bytes have to be excepted: the buffer then holds four bytes (PairReplacer.cpp 323-326), the last byte of
    the block is lost, and the archive of [1; 2; 3; 4] cannot be decompressed. *)
Theorem C49_four_bytes_refuted : exists archive, are_bytes [1; 2; 3; 4] /\
  compressMain sortByFrequency (fun t => sortSuffixes t (seq 0 (length t))) (fun _ _ _ => true) 1 8 97 72 [112] [1; 2; 3; 4] = Ok (Some (archive, length archive)) /\
  decompress (fun _ => 7) (waveletCoder (fun _ _ _ => true)) archive = UB.
Proof. exact four_bytes. Qed.
Print Assumptions C49_four_bytes_refuted.

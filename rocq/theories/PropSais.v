(** SA-IS, the sorter of option --bwt s (C45, C46): property theorems. *)
From Coq Require Import List NArith ZArith Arith Bool Permutation.
From Verif Require Import Base ModelUtils ModelStreams ModelHeaders ModelBWT SpecBWT ModelFreq SpecFreq ProofFreq2 ModelGrammar ModelPairs SpecPairs ModelFile SpecFile ModelWavelet.
From Verif Require Import ModelSais ModelSaisFile ProofSais20.
Import ListNotations.
Open Scope N_scope.

(** C45: saisxx computes the suffix array of every text, for every size of the alphabet; no assertion fails and
    nothing outside the arrays is read or written (both would be UB). *)
Theorem C45_suffix_array : forall T k, (0 < k)%nat -> Forall (fun c => c < N.of_nat k) T ->
  exists sa, suffix_array T sa /\ saisxx T k = Ok (Some (map Z.of_nat sa)).
Proof. exact saisxx_sorts. Qed.
Print Assumptions C45_suffix_array.

(** Equal LMS substrings, so the sorter is called for the reduced text; LMSsort2 for 4 characters, LMSsort1 for 200. *)
Definition sample : list N := [2; 1; 3; 1; 3; 1; 2; 1; 3; 1; 3; 1; 2; 1; 3; 1; 3; 1; 2; 0].
Definition sampleArray : list nat := [19; 17; 11; 5; 15; 9; 3; 13; 7; 1; 18; 12; 6; 0; 16; 10; 4; 14; 8; 2]%nat.
Example C45_case : useSort2 0 (length sample) 4 = true /\ useSort2 0 (length sample) 200 = false /\
  saisxx sample 4 = Ok (Some (map Z.of_nat sampleArray)) /\ saisxx sample 200 = Ok (Some (map Z.of_nat sampleArray)).
Proof. vm_compute. repeat split. Qed.

(** C46: what saisxx_bwt computes, read off any suffix array of the text.  The row of suffix q+1 holds the character
    T[q]; the first starting point is the row of the whole text, the others are the rows of the suffixes at distance
    n/nLF, 2(n/nLF), ... from the end. *)
Theorem C46_rows : forall T sa nLF freqs, suffix_array T sa -> are_bytes T -> (0 < nLF <= length T)%nat -> length freqs = 256%nat ->
  exists U lf freqs', saisxx_bwt T nLF freqs = Ok (U, lf, freqs') /\ length U = length T /\ length lf = nLF /\
    (forall r q, nth_error sa r = Some (S q) -> nth_error U r = nth_error T q) /\
    (forall r, nth_error sa r = Some 0%nat -> nth_error lf 0 = Some (N.of_nat r)) /\
    (forall j r, (0 < j < nLF)%nat -> nth_error sa r = Some (length T - j * (length T / nLF))%nat -> nth_error lf j = Some (N.of_nat r)).
Proof. exact saisxx_rows. Qed.
Print Assumptions C46_rows.
(** Three starting points: the rows of the suffixes 0, 14 and 8. *)
Example C46_rows_case : match saisxx_bwt sample 3 (repeat 0 256) with
  | Ok (U, lf, freqs) => U = [2; 3; 3; 3; 3; 3; 3; 2; 2; 2; 1; 1; 1; 1; 1; 1; 1; 1; 1; 1] /\ lf = [13; 17; 18] /\ firstn 5 freqs = [0; 9; 4; 6; 0]
  | _ => False
  end.
Proof. vm_compute. repeat split. Qed.

(** With option --bwt s every block is transformed; the statistics are those of the result, which both inverses take
    back to the block.  Nothing is assumed about a suffix sorter. *)
Theorem C46_inverse : forall x points next, are_bytes x -> x <> [] -> N.of_nat (length x) + 1 < 2 ^ 31 -> next < 256 ->
  exists data lf freqs, saisTransform x points = Ok (data, lf, freqs) /\ length data = length x /\
    Permutation data x /\ counts_of data freqs /\
    inverseWith fastInverse data next lf = Ok x /\ inverseWith mtlInverse data next lf = Ok x.
Proof. exact sais_inverse. Qed.
Print Assumptions C46_inverse.

(** The archives do not depend on the sorter: those of --bwt s and those of a correct sorter are equal, for every entropy
    coder, if the preprocessed blocks are bytes. *)
Theorem C46_same_archive : forall coder sorter, sorts_suffixes sorter -> forall points prec quotient pbSize0 bwtSize0 (anyOptions : bool) c input,
  (forall k g data, let pbSize := if anyOptions then pbSize0 else clampSize bwtSize0 in
     prec (firstn (N.to_nat pbSize) (skipn (k * N.to_nat pbSize) input)) = Ok (g, data) -> are_bytes data) ->
  compressSais coder points prec pbSize0 bwtSize0 quotient anyOptions c input =
  compress coder sorter points prec pbSize0 bwtSize0 quotient anyOptions c input.
Proof. exact compress_same. Qed.
Print Assumptions C46_same_archive.

(** The round trips of C39 with option --bwt s, without the assumption about the sorter. *)
Theorem C46_huffman_round_trip : forall wavelet points behind sortF capacity lowRatio n pbSize0 bwtSize0 quotient input archive size,
  sorts_by_frequency sortF -> (forall i, behind i < 256) ->
  are_bytes input -> N.of_nat n <= 1000000 ->
  let pbSize := if (n =? 0)%nat then clampSize bwtSize0 else pbSize0 in
  0 < pbSize < 2 ^ 31 -> clampSize bwtSize0 < 2 ^ 29 -> (forall m, clampSize (quotient m) < 2 ^ 29) ->
  (forall k, blockFits sortF layoutOver capacity lowRatio n (firstn (N.to_nat pbSize) (skipn (k * N.to_nat pbSize) input)) = true) ->
  compressSais huffmanCoder points (precompress sortF layoutOver capacity lowRatio n) pbSize0 bwtSize0 quotient (negb (n =? 0)%nat) 72 input = Ok (archive, size) ->
  decompress behind wavelet archive = Ok (input, length input) /\ size = length archive /\ are_bytes archive.
Proof. exact sais_huffman. Qed.
Print Assumptions C46_huffman_round_trip.
Theorem C46_huffman_no_preprocessing : forall wavelet points behind sortF capacity lowRatio pbSize0 bwtSize quotient input,
  sorts_by_frequency sortF -> (forall i, behind i < 256) -> are_bytes input -> 0 < bwtSize < 2 ^ 29 ->
  exists archive, compressSais huffmanCoder points (precompress sortF layoutOver capacity lowRatio 0) pbSize0 bwtSize quotient false 72 input = Ok (archive, length archive) /\
    are_bytes archive /\ decompress behind wavelet archive = Ok (input, length input).
Proof. exact sais_huffman_always. Qed.
Print Assumptions C46_huffman_no_preprocessing.
Theorem C46_wavelet_round_trip : forall worth worth' c points behind sortF capacity lowRatio n pbSize0 bwtSize0 quotient input archive size,
  c < 256 -> c <> 72 -> sorts_by_frequency sortF -> (forall i, behind i < 256) ->
  are_bytes input -> N.of_nat n <= 1000000 ->
  let pbSize := if (n =? 0)%nat then clampSize bwtSize0 else pbSize0 in
  0 < pbSize < 2 ^ 31 -> clampSize bwtSize0 < 2 ^ 30 -> (forall m, clampSize (quotient m) < 2 ^ 30) ->
  (forall k, blockFits sortF layoutOver capacity lowRatio n (firstn (N.to_nat pbSize) (skipn (k * N.to_nat pbSize) input)) = true) ->
  compressSais (waveletCoder worth c) points (precompress sortF layoutOver capacity lowRatio n) pbSize0 bwtSize0 quotient (negb (n =? 0)%nat) c input = Ok (archive, size) ->
  decompress behind (waveletCoder worth') archive = Ok (input, length input) /\ size = length archive /\ are_bytes archive.
Proof. exact sais_wavelet. Qed.
Print Assumptions C46_wavelet_round_trip.

(** Blocks of up to 5 bytes, no preprocessing ([blockFits] holds without rounds). *)
Definition text : list N := [2; 1; 3; 1; 2; 1; 3].
Example C46_file_case :
  match compressSais huffmanCoder 8 (precompress sortByFrequency layoutOver bufferCapacity (fun _ _ => false) 0) 7 5 (fun _ => 5) false 72 text with
  | Ok (archive, n) => (n =? length archive)%nat &&
      match decompress (fun _ => 7) (fun _ => huffmanCoder) archive with
      | Ok (l, 7%nat) => if list_eq_dec N.eq_dec l text then true else false
      | _ => false
      end
  | _ => false
  end = true.
Proof. vm_cast_no_check (eq_refl true). Qed.
Example C46_wavelet_case :
  match compressSais (waveletCoder (fun _ _ _ => true) 66) 8 (precompress sortByFrequency layoutOver bufferCapacity (fun _ _ => false) 0) 7 5 (fun _ => 5) false 66 [98; 97; 98; 97] with
  | Ok (archive, n) => (n =? length archive)%nat &&
      match decompress (fun _ => 7) (waveletCoder (fun _ _ _ => false)) archive with
      | Ok (l, 4%nat) => if list_eq_dec N.eq_dec l [98; 97; 98; 97] then true else false
      | _ => false
      end
  | _ => false
  end = true.
Proof. vm_cast_no_check (eq_refl true). Qed.

(** The program compress with the wavelet coders, among them its default (C53), and pairs beginning with the byte 0 (C54): property theorems. *)
From Coq Require Import List NArith ZArith Arith Bool.
From Verif Require Import Base ModelUtils ModelStreams ModelHeaders ModelBWT SpecBWT ProofBWT7 ModelFreq SpecFreq ProofFreq2 ModelGrammar ModelPairs SpecPairs SpecTotal ModelFile SpecFile ModelWavelet.
From Verif Require Import SpecStops ModelMain SpecMain ProofMain5 ProofZero.
Import ListNotations.
Open Scope N_scope.

(** compress -e u, -e b and -e B (the default) without --prepr: either some block stops the coder (C23) and the behaviour is undefined,
    or the archive is written and decompress gives back the file.  For memory up to 5804 megabytes, both sorters (SA-IS makes the same
    archive, C46) and all outcomes of the floating point comparisons. *)
Theorem C53_exactly : forall sortF sorter worth worth' behind mem starts bwt enc input bwtSize,
  sorts_by_frequency sortF -> sorts_suffixes sorter -> (forall i, behind i < 256) -> are_bytes input ->
  validStarts starts = true -> validBwt bwt = true -> In enc [117; 98; 66] -> megabytes mem <= 5804 -> bwtSizeOf (memLimitOf mem) = Ok bwtSize ->
  let result := compressMain sortF sorter worth mem starts bwt enc [] input in
  let block := fun k => firstn (N.to_nat bwtSize) (skipn (k * N.to_nat bwtSize) input) in
  ((exists k, blockStops worth sorter starts (block k)) -> result = UB) /\
  (~ (exists k, blockStops worth sorter starts (block k)) ->
   exists archive, result = Ok (Some (archive, length archive)) /\ decompress behind (waveletCoder worth') archive = Ok (input, length input)).
Proof. exact main_wavelet. Qed.
Print Assumptions C53_exactly.

(** A block that stops the coder has at least six bytes, so the default options compress every file of at most five bytes... *)
Theorem C53_blocks : forall worth sorter points x, sorts_suffixes sorter -> are_bytes x -> N.of_nat (length x) < 2 ^ 30 -> blockStops worth sorter points x -> (6 <= length x)%nat.
Proof. exact stops_six. Qed.
Print Assumptions C53_blocks.
Theorem C53_five_bytes : forall sortF sorter worth worth' behind mem starts bwt enc input,
  sorts_by_frequency sortF -> (bwt <> 115 -> sorts_suffixes sorter) -> (forall i, behind i < 256) -> are_bytes input -> (length input <= 5)%nat ->
  validStarts starts = true -> validBwt bwt = true -> In enc [117; 98; 66] -> megabytes mem <= 5804 ->
  exists archive, compressMain sortF sorter worth mem starts bwt enc [] input = Ok (Some (archive, length archive)) /\ decompress behind (waveletCoder worth') archive = Ok (input, length input).
Proof. exact main_short. Qed.
Print Assumptions C53_five_bytes.
(** The default options for --starts, --bwt and -e, with one megabyte. *)
Example C53_five_case : validStarts 8 = true /\ validBwt 97 = true /\ In 66 [117; 98; 66] /\ bwtSizeOf (memLimitOf 1) = Ok 185000 /\
  compressMain sortByFrequency (fun t => sortSuffixes t (seq 0 (length t))) (fun _ _ _ => true) 1 8 97 66 [] [98; 97; 97] =
  Ok (Some ([66; 3; 1; 0; 0; 0; 0; 0; 0; 21; 0; 0; 0; 0; 2; 1; 3; 2; 98; 2; 128; 135; 160; 32; 64; 56; 0; 82; 255; 255; 255; 0], 32%nat)).
Proof. vm_compute. repeat split; auto. Qed.

(** ... but not the file "bbbaaa", with none of these coders, whatever the other options and the comparisons. *)
Theorem C53_six_bytes_refuted : forall sortF sorter worth mem starts bwt enc,
  sorts_by_frequency sortF -> (bwt <> 115 -> sorts_suffixes sorter) ->
  validStarts starts = true -> validBwt bwt = true -> In enc [117; 98; 66] -> megabytes mem <= 5804 ->
  compressMain sortF sorter worth mem starts bwt enc [] [98; 98; 98; 97; 97; 97] = UB.
Proof. exact main_six. Qed.
Print Assumptions C53_six_bytes_refuted.
(** With the default memory. *)
Example C53_six_case : megabytes 100 = 100 /\ bwtSizeOf (memLimitOf 100) = Ok 18500000.
Proof. vm_compute. split; reflexivity. Qed.

(** C54.  A pair beginning with the byte 0 is never chosen for replacement, whatever the frequencies and the grammar. *)
Theorem C54_never_chosen : forall g t pairs chosen utility specials forFree,
  findReplaceablePairs g t pairs = Ok (chosen, utility, specials, forFree) ->
  Forall (fun x => N.land (N.shiftr (snd x) 8) 255 <> 0) chosen.
Proof. exact chosen_later. Qed.
Print Assumptions C54_never_chosen.
(** The pair 1 2 is replaced if it occurs 1010 times, the pair 0 2 is not. *)
Definition spread (c : N) : list N := flat_map (fun i => [c; 2; 3 + i mod 200]) (map N.of_nat (seq 0 (N.to_nat 1010))).
Theorem C54_zero_refuted : exists c,
  match analyseAndDecide sortByFrequency layoutOver emptyGrammar (spread 1), analyseAndDecide sortByFrequency layoutOver emptyGrammar (spread c) with
  | Ok (g1, _, _), Ok (g2, _, _) => (length (g_rules g1) =? 1)%nat && (length (g_rules g2) =? 0)%nat
  | _, _ => false
  end = true.
Proof. exists 0. vm_cast_no_check (eq_refl true). Qed.
Print Assumptions C54_zero_refuted.

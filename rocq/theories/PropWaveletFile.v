(** Whole files with the wavelet coders (C39 - C41): property theorems. *)
From Coq Require Import List NArith ZArith Arith Bool.
From Verif Require Import Base ModelUtils ModelStreams ModelHeaders ModelBWT SpecBWT ProofBWT7 ModelFreq SpecFreq ProofFreq2 ModelGrammar ModelPairs SpecPairs ModelFile SpecFile.
From Verif Require Import SpecRuns ModelProb SpecProb ModelWavelet SpecChoice SpecStops ProofWav19 ProofWav25.
Import ListNotations.
Open Scope N_scope.

(** C39, C40 for every character [c] that selects a wavelet coder (all but 'H' = 72): whenever compress finishes, decompress gives back the
    input and the reported size is the size of the archive.  For every file, correct suffix sorter, number of starting points, number of rounds
    of pair replacement, content of uninitialised memory, outcome [worth] of the floating point comparisons, and all block sizes below the
    limits; with pair replacement the blocks have to meet the condition of C33 and must not grow.  C41: without its last byte the archive runs
    into undefined behaviour in the decompressor. *)
Theorem C39_wavelet_round_trip : forall worth worth' c sorter points behind sortF capacity lowRatio n pbSize0 bwtSize0 quotient input archive size,
  c < 256 -> c <> 72 -> sorts_suffixes sorter -> sorts_by_frequency sortF -> (forall i, behind i < 256) ->
  are_bytes input -> N.of_nat n <= 1000000 ->
  let pbSize := if (n =? 0)%nat then clampSize bwtSize0 else pbSize0 in
  0 < pbSize < 2 ^ 31 -> clampSize bwtSize0 < 2 ^ 30 -> (forall m, clampSize (quotient m) < 2 ^ 30) ->
  (forall k, blockFits sortF layoutOver capacity lowRatio n (firstn (N.to_nat pbSize) (skipn (k * N.to_nat pbSize) input)) = true) ->
  compress (waveletCoder worth c) sorter points (precompress sortF layoutOver capacity lowRatio n) pbSize0 bwtSize0 quotient (negb (n =? 0)%nat) c input = Ok (archive, size) ->
  decompress behind (waveletCoder worth') archive = Ok (input, length input) /\ size = length archive /\ are_bytes archive /\
  decompress behind (waveletCoder worth') (removelast archive) = UB.
Proof. exact C39_wavelet_round. Qed.
Print Assumptions C39_wavelet_round_trip.

Definition sorterOf (t : list N) : list nat := sortSuffixes t (seq 0 (length t)).
Definition text : list N := [98; 97; 98; 97; 98; 97; 98; 97; 98; 97; 98; 97; 99; 99].
(** One round, blocks of 7 bytes in slices of 5; the hypothesis on the blocks holds. *)
Example C39_wavelet_case :
  match compress (waveletCoder (fun _ _ _ => true) 66) sorterOf 8 (precompress sortByFrequency layoutOver bufferCapacity (fun _ _ => false) 1) 7 5 (fun _ => 5) true 66 text with
  | Ok (archive, n) => (n =? length archive)%nat &&
      forallb (fun k => blockFits sortByFrequency layoutOver bufferCapacity (fun _ _ => false) 1 (firstn 7 (skipn (k * 7) text))) [0; 1]%nat &&
      match decompress (fun _ => 7) (waveletCoder (fun _ _ _ => false)) archive with
      | Ok (l, 14%nat) => if list_eq_dec N.eq_dec l text then true else false
      | _ => false
      end
  | _ => false
  end = true.
Proof. vm_cast_no_check (eq_refl true). Qed.

(** C22, C23: a block is encoded unless one of its sections has run lengths without codes (SpecChoice); then the encoder runs into undefined behaviour.  For every state
    the models can be in after blocks encoded before. *)
Theorem C23_blocks : forall worth c ms written lf stats data sections header n, c <> 109 -> c <> 77 -> proper_block (2 ^ 30) lf stats data -> writeBlockHeader lf stats = Ok (sections, header, n) ->
  (exists hp hg ha, let '(pm, gm, am) := ms in useAll (giveProbabilityModel c) (p_init _) hp = Ok pm /\ useAll modelForIntegerCodes (p_init _) hg = Ok gm /\ useAll modelForGaps (p_init _) ha = Ok am) ->
  ((exists piece runs, In piece (pieces sections data) /\ is_runs_of piece runs /\ cannotChoose worth runs) -> ec_encode (waveletCoder worth c) ms written lf stats data = UB) /\
  (~ (exists piece runs, In piece (pieces sections data) /\ is_runs_of piece runs /\ cannotChoose worth runs) -> exists r, ec_encode (waveletCoder worth c) ms written lf stats data = Ok r).
Proof. exact wavelet_blocks. Qed.
Print Assumptions C23_blocks.
(** Runs of 1, 3 and 2 bytes, and with one byte more. *)
Example C23_blocks_case :
  let outcomeOf := fun a b data =>
    match ec_encode (waveletCoder (fun _ _ _ => true) 66) (ec_init _) [] [1] (repeat 0 97 ++ [a; b] ++ repeat 0 157) data with Ok (_, out, n) => Some n | _ => None end in
  writeBlockHeader [1] (repeat 0 97 ++ [3; 3] ++ repeat 0 157) = Ok ([6], [0; 0; 0; 0; 2; 1; 6], 7%nat) /\
  outcomeOf 3 3 [98; 97; 97; 97; 98; 98] = None /\ outcomeOf 4 3 [98; 97; 97; 97; 98; 98; 97] <> None.
Proof. split; [vm_compute; reflexivity|]. split; [vm_compute; reflexivity|]. vm_compute. discriminate. Qed.

(** Without pair replacement compress finishes exactly when no block stops the coder (SpecStops: the transform of the block has a section with at
    least three lengths of runs, all equally often, ..); otherwise it runs into undefined behaviour.  For all characters but 'H', 'm' and 'M',
    and every outcome of the floating point comparisons. *)
Theorem C39_wavelet_exactly : forall worth c sorter points behind worth' sortF capacity lowRatio pbSize0 bwtSize quotient input,
  c < 256 -> c <> 72 -> c <> 109 -> c <> 77 -> sorts_suffixes sorter -> sorts_by_frequency sortF -> (forall i, behind i < 256) -> are_bytes input -> 0 < bwtSize < 2 ^ 30 ->
  let result := compress (waveletCoder worth c) sorter points (precompress sortF layoutOver capacity lowRatio 0) pbSize0 bwtSize quotient false c input in
  let chunk := fun k => firstn (N.to_nat bwtSize) (skipn (k * N.to_nat bwtSize) input) in
  ((exists k, blockStops worth sorter points (chunk k)) -> result = UB) /\
  (~ (exists k, blockStops worth sorter points (chunk k)) -> exists archive, result = Ok (archive, length archive) /\ decompress behind (waveletCoder worth') archive = Ok (input, length input)).
Proof. exact wavelet_files. Qed.
Print Assumptions C39_wavelet_exactly.

(** The file "bbbaaa" is such a block, whatever the floating point comparisons give: its transform has runs of 1, 2 and 3 bytes. *)
Example C39_wavelet_stops : forall worth, blockStops worth sorterOf 1 [98; 98; 98; 97; 97; 97].
Proof.
  intros worth. split; [discriminate|].
  exists [98; 97; 97; 97; 98; 98], [1], (repeat 0 97 ++ [3; 3] ++ repeat 0 157), [6], [0; 0; 0; 0; 2; 1; 6], 7%nat, [98; 97; 97; 97; 98; 98], [(98, 1%nat); (97, 3%nat); (98, 2%nat)].
  split; [vm_compute; reflexivity|]. split; [vm_compute; reflexivity|]. split; [left; reflexivity|].
  split; [split; [reflexivity|]; split; [cbn; repeat split; discriminate|repeat constructor]|].
  exists 1%nat. split; [repeat constructor|]. split; [|left; repeat constructor]. exists 1%nat, 2%nat, 3%nat. cbn. repeat split; auto; discriminate.
Qed.
(** So this file cannot be compressed with any of these coders. *)
Theorem C39_wavelet_six_bytes_refuted : exists input, are_bytes input /\ forall worth c, c < 256 -> c <> 72 -> c <> 109 -> c <> 77 ->
  compress (waveletCoder worth c) sorterOf 1 (precompress sortByFrequency layoutOver bufferCapacity (fun _ _ => false) 0) 1000 1000 (fun _ => 1000) false c input = UB.
Proof.
  exists [98; 98; 98; 97; 97; 97]. split; [repeat constructor|]. intros worth c H1 H2 H3 H4.
  refine (proj1 (C39_wavelet_exactly worth c sorterOf 1 (fun _ => 7) (fun _ _ _ => true) sortByFrequency bufferCapacity (fun _ _ => false) 1000 1000 (fun _ => 1000) [98; 98; 98; 97; 97; 97]
    H1 H2 H3 H4 suffix_array_exists sortByFrequency_ok ltac:(reflexivity) ltac:(repeat constructor) ltac:(split; reflexivity)) _).
  exists 0%nat. replace (0 * N.to_nat 1000)%nat with 0%nat by reflexivity. replace (N.to_nat 1000) with 1000%nat by reflexivity. exact (C39_wavelet_stops worth).
Qed.
Print Assumptions C39_wavelet_six_bytes_refuted.
(** This one is coded, so none of its blocks stops the coder. *)
Example C39_wavelet_coded : ~ exists k, blockStops (fun _ _ _ => true) sorterOf 8 (firstn 7 (skipn (k * 7) text)).
Proof.
  intros H.
  assert (U := proj1 (C39_wavelet_exactly (fun _ _ _ => true) 66 sorterOf 8 (fun _ => 7) (fun _ _ _ => true) sortByFrequency bufferCapacity (fun _ _ => false) 7 7 (fun _ => 5) text
    ltac:(reflexivity) ltac:(discriminate) ltac:(discriminate) ltac:(discriminate) suffix_array_exists sortByFrequency_ok ltac:(reflexivity) ltac:(repeat constructor) ltac:(split; reflexivity)) H).
  vm_compute in U. discriminate.
Qed.

(** The programs preprocess and postprocess (C44): property theorems. *)
From Coq Require Import List NArith ZArith Arith Bool.
From Verif Require Import Base ModelUtils ModelFreq SpecFreq ProofFreq2 ModelGrammar ModelPairs SpecPairs ModelPrograms ProofPrograms.
Import ListNotations.
Open Scope N_scope.

(** C44: whenever preprocess finishes and every round written in place has room in its buffer (C33), postprocess gives back
    the file, for every number of rounds and every block size. *)
Theorem C44_round_trip : forall sortF capacity lowRatio n blockSize input archive,
  sorts_by_frequency sortF -> are_bytes input -> N.of_nat n <= 1000000 -> 0 < blockSize < 2 ^ 31 ->
  (forall k, let block := firstn (N.to_nat blockSize) (skipn (k * N.to_nat blockSize) input) in
     roundsFit sortF layoutOver capacity lowRatio n (length block) None emptyGrammar block = true) ->
  preprocessFile (precompress sortF layoutOver capacity lowRatio n) blockSize input = Ok archive ->
  postprocessFile archive = Ok input.
Proof. exact C44_all. Qed.
Print Assumptions C44_round_trip.

(** Without options preprocess always finishes. *)
Theorem C44_no_options : forall sortF capacity lowRatio blockSize input, sorts_by_frequency sortF -> are_bytes input -> 0 < blockSize < 2 ^ 31 ->
  exists archive, preprocessFile (precompress sortF layoutOver capacity lowRatio 0) blockSize input = Ok archive /\ postprocessFile archive = Ok input.
Proof. exact C44_always. Qed.
Print Assumptions C44_no_options.

Definition sample : list N := [2; 1; 3; 1; 2; 2; 1; 3; 3; 3; 1; 1; 2].
(** One round, blocks of 7 bytes; the hypothesis on the blocks holds. *)
Example C44_case :
  forallb (fun k => let block := firstn 7 (skipn (k * 7) sample) in
    roundsFit sortByFrequency layoutOver bufferCapacity (fun _ _ => false) 1 (length block) None emptyGrammar block) [0; 1]%nat &&
  match preprocessFile (precompress sortByFrequency layoutOver bufferCapacity (fun _ _ => false) 1) 7 sample with
  | Ok archive => if list_eq_dec N.eq_dec archive [7; 0; 2; 1; 3; 1; 2; 2; 1; 6; 0; 3; 3; 3; 1; 1; 2; 0] then true else false
  | _ => false
  end = true.
Proof. vm_cast_no_check (eq_refl true). Qed.

(** Without the condition it is false: a file of three bytes comes back as its first two bytes, and no assertion fails
    (with the whole compressor one does, C39). *)
Theorem C44_three_bytes_refuted : exists input archive, length input = 3%nat /\
  preprocessFile (precompress sortByFrequency layoutOver bufferCapacity (fun _ _ => false) 1) 1024 input = Ok archive /\
  postprocessFile archive = Ok (firstn 2 input).
Proof.
  exists [1; 2; 3], [2; 0; 1; 2; 0]. split; [reflexivity|]. split; [|vm_compute; reflexivity]. apply sameOutcome. vm_cast_no_check (eq_refl true).
Qed.
Print Assumptions C44_three_bytes_refuted.

(** The block size in kB is multiplied by 1024 modulo 2^64: for 2^54 kB every file becomes the empty one. *)
Theorem C44_block_size_refuted : exists kB, kB < 2 ^ 64 /\ forall prec input,
  preprocessFile prec (blockSizeOf kB) input = Ok [0] /\ postprocessFile [0] = Ok [].
Proof. exists (2 ^ 54). split; [reflexivity|]. intros prec input. split; [|reflexivity]. unfold preprocessFile. change (blockSizeOf (2 ^ 54)) with 0. reflexivity. Qed.
Print Assumptions C44_block_size_refuted.

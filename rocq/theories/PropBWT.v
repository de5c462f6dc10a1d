(** Properties C36-C38: the Burrows-Wheeler transform and its inverses. *)
From Coq Require Import List NArith Arith Bool Permutation.
From Verif Require Import Base Arrays TArray ModelUtils ModelHeaders ModelBWT SpecHeaders SpecBWT.
From Verif Require Import ProofBWT7 ProofBWT8.
Import ListNotations.
Open Scope N_scope.

(** [sa] is what the suffix sorter computes for the reversed block with a zero behind it,
    [points] the number of starting points asked for, [next] the byte that happens to be
    behind the block in memory when it is inverted. *)
Theorem C36_fast_inverse : forall x sa points next,
  are_bytes x -> x <> [] -> N.of_nat (length x) + 1 < 2 ^ 31 -> suffix_array (sortedText x) sa -> next < 256 ->
  exists data lf freqs, doTransform x sa points = Ok (data, lf, freqs) /\ length data = length x /\
    inverseWith fastInverse data next lf = Ok x.
Proof. exact C36_all. Qed.
Print Assumptions C36_fast_inverse.

Theorem C37_mtl_inverse : forall x sa points next,
  are_bytes x -> x <> [] -> N.of_nat (length x) + 1 < 2 ^ 31 -> suffix_array (sortedText x) sa -> next < 256 ->
  exists data lf freqs, doTransform x sa points = Ok (data, lf, freqs) /\ length data = length x /\
    inverseWith mtlInverse data next lf = Ok x.
Proof. exact C37_all. Qed.
Print Assumptions C37_mtl_inverse.

(** A correct suffix sorter has an answer for every block. *)
Theorem C36_every_block : forall t, exists sa, suffix_array t sa.
Proof. exact sorter_exists. Qed.
Print Assumptions C36_every_block.

(** The statistics describe the transformed block, which is a rearrangement of the block;
    they and the starting points are what the entropy coders demand. *)
Theorem C38_statistics : forall x sa points data lf freqs,
  are_bytes x -> x <> [] -> N.of_nat (length x) + 1 < 2 ^ 31 -> suffix_array (sortedText x) sa ->
  doTransform x sa points = Ok (data, lf, freqs) ->
  Permutation data x /\ counts_of data freqs /\ sumN freqs = N.of_nat (length data) /\
  (1 <= length lf <= 256)%nat /\ Forall (fun v => v < 2 ^ 31) lf.
Proof. exact C38_all. Qed.
Print Assumptions C38_statistics.

Definition sample : list N := [97; 98; 114; 97; 99; 97; 100; 97; 98; 114; 97; 0; 255; 0; 97].

Example C36_C38_example :
  let sa := sortSuffixes (sortedText sample) (seq 0 16) in
  match doTransform sample sa 8 with
  | Ok (data, lf, freqs) =>
      data <> sample /\ inverseWith fastInverse data 77 lf = Ok sample /\
      nth_error freqs 97 = Some 6 /\ lf = [4]
  | _ => False
  end.
Proof. vm_compute. repeat split; discriminate. Qed.
(** More than 256 bytes: several starting points, odd block length. *)
Definition longSample : list N := map (fun i => (N.of_nat i * N.of_nat i * 7 + N.of_nat i) mod 101 mod 3 + 97) (seq 0 258).
Example C37_example :
  let sa := sortSuffixes (sortedText longSample) (seq 0 259) in
  match doTransform longSample sa 7 with
  | Ok (data, lf, freqs) =>
      data <> longSample /\ length lf = 7%nat /\
      inverseWith fastInverse data 0 lf = Ok longSample /\ inverseWith mtlInverse data 0 lf = Ok longSample
  | _ => False
  end.
Proof. vm_compute. repeat split; discriminate. Qed.

(** The statements of PropBWT. *)
From Coq Require Import List NArith Arith Bool Permutation.
From Verif Require Import Base Arrays TArray ModelUtils ModelHeaders ModelBWT SpecHeaders SpecBWT.
From Verif Require Import ProofBWT7.
Import ListNotations.
Open Scope N_scope.

Lemma C36_all : forall x sa points next,
  are_bytes x -> x <> [] -> N.of_nat (length x) + 1 < 2 ^ 31 -> suffix_array (sortedText x) sa -> next < 256 ->
  exists data lf freqs, doTransform x sa points = Ok (data, lf, freqs) /\ length data = length x /\
    inverseWith fastInverse data next lf = Ok x.
Proof.
  intros x sa points next Hx Hne Hl Hsa Hn.
  destruct (transform_all x sa points Hx Hne Hl Hsa) as (data & lf & freqs & E & _ & P & _).
  exists data, lf, freqs. split; [exact E|]. split; [apply Permutation_length, P|].
  exact (proj1 (inverse_all x sa points next data lf freqs Hx Hne Hl Hsa Hn E)).
Qed.
Lemma C37_all : forall x sa points next,
  are_bytes x -> x <> [] -> N.of_nat (length x) + 1 < 2 ^ 31 -> suffix_array (sortedText x) sa -> next < 256 ->
  exists data lf freqs, doTransform x sa points = Ok (data, lf, freqs) /\ length data = length x /\
    inverseWith mtlInverse data next lf = Ok x.
Proof.
  intros x sa points next Hx Hne Hl Hsa Hn.
  destruct (transform_all x sa points Hx Hne Hl Hsa) as (data & lf & freqs & E & _ & P & _).
  exists data, lf, freqs. split; [exact E|]. split; [apply Permutation_length, P|].
  exact (proj2 (inverse_all x sa points next data lf freqs Hx Hne Hl Hsa Hn E)).
Qed.
Lemma C38_all : forall x sa points data lf freqs,
  are_bytes x -> x <> [] -> N.of_nat (length x) + 1 < 2 ^ 31 -> suffix_array (sortedText x) sa ->
  doTransform x sa points = Ok (data, lf, freqs) ->
  Permutation data x /\ counts_of data freqs /\ sumN freqs = N.of_nat (length data) /\
  (1 <= length lf <= 256)%nat /\ Forall (fun v => v < 2 ^ 31) lf.
Proof.
  intros x sa points data lf freqs Hx Hne Hl Hsa E.
  destruct (transform_all x sa points Hx Hne Hl Hsa) as (data' & lf' & freqs' & E' & _ & R).
  rewrite E in E'. injection E' as <- <- <-. exact R.
Qed.
Lemma sorter_exists : forall t, exists sa, suffix_array t sa.
Proof. intros t. eexists. apply suffix_array_exists. Qed.

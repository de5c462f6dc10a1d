(** C50 as a whole. *)
From Coq Require Import List NArith ZArith Lia Arith Bool.
From Coq Require Import ZifyBool ZifyNat ZifyN.
From Verif Require Import Base ModelUtils ModelHeaders ModelFreq SpecFreq ModelGrammar SpecGrammar ModelPairs SpecPairs SpecTriple SpecTotal ProofTriple5 ProofTriple6 ProofTriple7 ProofTotal4.
Import ListNotations.
Open Scope N_scope.

Lemma finishes_few : forall sortF capacity lowRatio n data, sorts_by_frequency sortF -> third capacity ->
  lowRatio (length data) (length data) = false -> are_bytes data -> (5 <= length data)%nat -> N.of_nat (length data) < 2 ^ 31 -> (n <= 200)%nat ->
  (n <= 1 /\ triples data <= 1000)%nat \/ (cubes data <= 1000)%nat ->
  lastOnce sortF layoutOver lowRatio n (length data) None emptyGrammar data = true ->
  exists g data', precompress sortF layoutOver capacity lowRatio n data = Ok (g, data') /\
    postprocess g data' = Ok data /\ (length data' <= length data)%nat /\ are_bytes data'.
Proof.
  intros sortF capacity lowRatio n data HS HC HR HB L5 H31 Hn HF LO.
  destruct (precompress_total sortF capacity lowRatio HS HC n data HR HB L5 H31 Hn HF LO) as (g & data' & E & _). exists g, data'. split; [exact E|].
  apply (restores_few sortF capacity lowRatio n data g data'); auto; lia.
Qed.

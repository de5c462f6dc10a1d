(** Few repetitions: the round trip, and the shortest files. *)
From Coq Require Import List NArith ZArith Lia Arith Bool.
From Coq Require Import ZifyBool ZifyNat ZifyN.
From Verif Require Import Base ModelUtils ModelStreams ModelHeaders ModelBWT SpecBWT ProofBWT7 ModelFreq SpecFreq ProofFreq2 ModelGrammar ModelPairs SpecPairs SpecTriple ModelFile SpecFile ModelWavelet.
From Verif Require Import ModelMain SpecMain ProofPairs9 ProofTriple5.
Import ListNotations.
Open Scope N_scope.

Lemma restores_few : forall sortF capacity lowRatio n data g data', sorts_by_frequency sortF -> third capacity ->
  are_bytes data -> length data <> 3%nat -> length data <> 4%nat -> N.of_nat (length data) < 2 ^ 31 -> N.of_nat n <= 1000000 ->
  (n <= 1 /\ triples data <= 1000)%nat \/ (cubes data <= 1000)%nat ->
  precompress sortF layoutOver capacity lowRatio n data = Ok (g, data') ->
  postprocess g data' = Ok data /\ (length data' <= length data)%nat /\ are_bytes data'.
Proof.
  intros sortF capacity lowRatio n data g data' HF HT HB H3 H4 HL HN HR H.
  pose proof (blockFits_few sortF capacity lowRatio HF HT n data HB H3 H4 HL HN HR) as Q. unfold blockFits in Q. rewrite H in Q. apply andb_true_iff in Q. destruct Q as (Q1 & Q2).
  destruct (C33_all sortF capacity lowRatio n data g data' HF HB HL HN H Q1) as (R1 & R2 & _). split; [exact R1|]. split; [apply Nat.leb_le, Q2|exact R2].
Qed.

Definition fourArchive : list N := [72; 4; 1; 0; 0; 0; 0; 0; 0; 14; 0; 0; 0; 0; 6; 1; 3; 3; 3; 3; 2; 244; 24; 224; 0].
Lemma four_bytes : exists archive, are_bytes [1; 2; 3; 4] /\
  compressMain sortByFrequency (fun t => sortSuffixes t (seq 0 (length t))) (fun _ _ _ => true) 1 8 97 72 [112] [1; 2; 3; 4] = Ok (Some (archive, length archive)) /\
  decompress (fun _ => 7) (waveletCoder (fun _ _ _ => true)) archive = UB.
Proof.
  exists fourArchive. split; [repeat constructor|]. split; [vm_cast_no_check (eq_refl (Ok (Some (fourArchive, length fourArchive))))|vm_cast_no_check (eq_refl (@UB (list N * nat)))].
Qed.

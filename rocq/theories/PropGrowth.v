(** Pair replacement that makes a block larger (C33, C39): property theorems. *)
From Coq Require Import List NArith ZArith Arith Bool.
From Verif Require Import Base ModelUtils ModelStreams ModelHeaders ModelBWT SpecBWT ModelFreq SpecFreq ProofFreq2 ModelGrammar ModelPairs SpecPairs ModelFile SpecFile ProofGrowth.
Import ListNotations.
Open Scope N_scope.

Lemma growingBlock_grows : outgrows sortByFrequency [3; 4; 5; 6] 1 growingPieces = true.
Proof. vm_cast_no_check (eq_refl true). Qed.
Lemma growingBlock_bytes : are_bytes growingBlock.
Proof. apply Forall_forall. intros x H. assert (F : forallb (fun x => x <? 256) growingBlock = true) by (vm_cast_no_check (eq_refl true)). rewrite forallb_forall in F. apply N.ltb_lt, F, H. Qed.
Lemma growingBlock_length : N.of_nat (length growingBlock) = 89954.
Proof. vm_cast_no_check (eq_refl 89954). Qed.

(** C33, C39: one round of pair replacement can make a block longer: 89954 bytes become 89958, but there is memory for one more byte
    only (PrecompressorBlock.cpp 37-49).  The analysis counts "aaa" as two pairs "aa" (PairReplacer.hpp 47-67), so symbols are freed for
    more replacements than there are.  Whatever the number of rounds. *)
Theorem C33_growth_refuted : exists block, are_bytes block /\ N.of_nat (length block) = 89954 /\
  forall lowRatio n, (forall len, lowRatio len len = false) -> precompress sortByFrequency layoutOver bufferCapacity lowRatio (S n) block = UB.
Proof.
  exists growingBlock. split; [exact growingBlock_bytes|]. split; [exact growingBlock_length|].
  intros lowRatio n H. apply (outgrows_undefined _ _ _ _ _ _ growingBlock_grows), H.
Qed.
Print Assumptions C33_growth_refuted.

(** So there are files which cannot be compressed with pair replacement, whatever the entropy coder. *)
Theorem C39_growth_refuted : exists input, are_bytes input /\ N.of_nat (length input) = 89954 /\
  forall coder sorter points lowRatio n pbSize bwtSize quotient c, (forall len, lowRatio len len = false) -> 89954 <= pbSize ->
  compress coder sorter points (precompress sortByFrequency layoutOver bufferCapacity lowRatio (S n)) pbSize bwtSize quotient true c input = UB.
Proof.
  exists growingBlock. split; [exact growingBlock_bytes|]. split; [exact growingBlock_length|].
  intros coder sorter points lowRatio n pbSize bwtSize quotient c H HP.
  apply undefined_file; [rewrite growingBlock_length; exact HP|discriminate|]. apply (outgrows_undefined _ _ _ _ _ _ growingBlock_grows), H.
Qed.
Print Assumptions C39_growth_refuted.

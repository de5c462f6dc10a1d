(** C57: the tree of createHuffmanShape. *)
From Coq Require Import List NArith.
From Verif Require Import Base ModelUtils ModelHuffman ModelShape SpecHeaders SpecHuffman ProofShape.
Import ListNotations.
Open Scope N_scope.

(** From two symbols on the tree gives each symbol that occurs one code, no code is the beginning of another one, and no other assignment
    of prefix-free codes needs fewer bits. *)
Theorem C57_optimal : forall freqs, (2 <= length (filter (fun f => (0 <? f)%N) freqs))%nat -> sumN freqs < two64 ->
  exists t, createHuffmanShape freqs = Ok t /\ NoDup (map fst (shapeCodes t [])) /\ (forall s, In s (map fst (shapeCodes t [])) <-> occurs freqs s) /\
    prefix_free (map snd (shapeCodes t [])) /\
    forall assign : N -> list bool, prefix_free (map assign (map fst (shapeCodes t []))) ->
      coded_length freqs (map (fun p => (N.of_nat (length (snd p)), fst p)) (shapeCodes t [])) <=
      coded_length freqs (map (fun s => (N.of_nat (length (assign s)), s)) (map fst (shapeCodes t []))).
Proof. exact shape_optimal. Qed.
Print Assumptions C57_optimal.

Example C57_optimal_ex : exists t, createHuffmanShape [5; 0; 1; 9; 1; 3] = Ok t /\
  shapeCodes t [] = [(5, [false; false; false]); (4, [false; false; true; false]); (2, [false; false; true; true]); (0, [false; true]); (3, [true])].
Proof. eexists. split; vm_compute; reflexivity. Qed.

(** The tree needs as many bits as the lengths that calculateHuffmanLengths computes without a heap. *)
Theorem C57_same : forall freqs lens t, (2 <= length (filter (fun f => (0 <? f)%N) freqs))%nat -> sumN freqs < two64 ->
  calculateHuffmanLengths freqs = Ok lens -> createHuffmanShape freqs = Ok t ->
  coded_length freqs (map (fun p => (N.of_nat (length (snd p)), fst p)) (shapeCodes t [])) = coded_length freqs lens.
Proof. exact shape_same. Qed.
Print Assumptions C57_same.

Example C57_same_ex : exists lens t, calculateHuffmanLengths [3; 2; 2; 1; 1] = Ok lens /\ createHuffmanShape [3; 2; 2; 1; 1] = Ok t /\ coded_length [3; 2; 2; 1; 1] lens = 20 /\
  coded_length [3; 2; 2; 1; 1] (map (fun p => (N.of_nat (length (snd p)), fst p)) (shapeCodes t [])) = 20.
Proof. eexists. eexists. repeat split; vm_compute; reflexivity. Qed.

(** A single symbol gets a code of one bit. *)
Theorem C57_one : forall k f m, 0 < f -> createHuffmanShape (repeat 0 k ++ f :: repeat 0 m) = Ok (SLeft (SLeaf (N.of_nat k))).
Proof. exact shape_one. Qed.
Print Assumptions C57_one.

Example C57_one_ex : exists t, createHuffmanShape [0; 0; 7; 0] = Ok t /\ shapeCodes t [] = [(2, [false])].
Proof. eexists. split; vm_compute; reflexivity. Qed.

(** "The function is defined for every table": without any symbol the minimum of an empty heap is taken. *)
Theorem C57_none_refuted : forall k, createHuffmanShape (repeat 0 k) = UB.
Proof. exact shape_none. Qed.
Print Assumptions C57_none_refuted.

Example C57_none_ex : createHuffmanShape [0; 0; 0] = UB.
Proof. vm_compute. reflexivity. Qed.

(** C55: what calculateHuTuckerLengths computes. *)
From Coq Require Import List NArith Permutation.
From Verif Require Import Base ModelHuTucker SpecHuTucker ProofHuTucker.
Import ListNotations.
Open Scope N_scope.

(** The code lengths returned are those of a complete prefix code, of different symbols among those given. *)
Theorem C55_kraft : forall freqs names l, (2 <= length names)%nat -> NoDup names -> calculateHuTuckerLengths freqs names = Ok l ->
  complete (map fst l) /\ NoDup (map snd l) /\ incl (map snd l) names.
Proof. exact huTucker_complete. Qed.
Print Assumptions C55_kraft.

Example C55_kraft_ex : calculateHuTuckerLengths [3; 1; 1; 1] [10; 11; 12; 13] = Ok [(1, 10); (3, 11); (3, 12); (2, 13)] /\
  calculateHuTuckerLengths [4; 2; 1; 1; 1] [10; 11; 12; 13; 14] = Ok [(1, 10); (3, 11); (3, 12); (3, 13); (3, 14)] /\ complete [1; 3; 3; 2] /\ ~ complete [1; 2].
Proof.
  split; [vm_compute; reflexivity|]. split; [vm_compute; reflexivity|]. split; [exists 3; split; [repeat constructor; discriminate|reflexivity]|]. exact not_complete_12.
Qed.

(** Three symbols: the third of them gets a code exactly if it is less frequent than the first. *)
Theorem C55_three : forall x y z a b c, a <> b -> a <> c -> b <> c ->
  (x <= z -> exists l, calculateHuTuckerLengths [x; y; z] [a; b; c] = Ok l /\ Permutation l [(1, a); (1, b)]) /\
  (z < x -> exists l, calculateHuTuckerLengths [x; y; z] [a; b; c] = Ok l /\ Permutation l [(1, a); (2, b); (2, c)]).
Proof. exact huTucker_three. Qed.
Print Assumptions C55_three.

(** "Every symbol gets a code": refuted by three symbols of the same frequency. *)
Theorem C55_lost_refuted : exists freqs names l, NoDup names /\ calculateHuTuckerLengths freqs names = Ok l /\ exists s, In s names /\ ~ In s (map snd l).
Proof. exact huTucker_lost. Qed.
Print Assumptions C55_lost_refuted.

Example C55_lost_ex : calculateHuTuckerLengths [1; 1; 1] [10; 11; 12] = Ok [(1, 10); (1, 11)] /\ calculateHuTuckerLengths [3; 2; 2] [10; 11; 12] = Ok [(1, 10); (2, 11); (2, 12)] /\
  calculateHuTuckerLengths [1; 1; 1; 1; 1] [10; 11; 12; 13; 14] = Ok [(1, 10); (1, 11)] /\
  calculateHuTuckerLengths [9; 9; 2; 5; 1; 7] [10; 11; 12; 13; 14; 15] = Ok [(1, 10); (1, 11)].
Proof. repeat split; vm_compute; reflexivity. Qed.

(** "The function is defined for every list of frequencies": for four symbols a null pointer is followed whenever the first of them is at
    most as frequent as the third. *)
Theorem C55_null_refuted : forall x y z w a b c d, x <= z -> calculateHuTuckerLengths [x; y; z; w] [a; b; c; d] = UB.
Proof. exact huTucker_four. Qed.
Print Assumptions C55_null_refuted.

Example C55_null_ex : calculateHuTuckerLengths [1; 1; 1; 1] [10; 11; 12; 13] = UB /\ exists l, calculateHuTuckerLengths [2; 1; 1; 1] [10; 11; 12; 13] = Ok l.
Proof. split; [vm_compute; reflexivity|]. eexists. vm_compute. reflexivity. Qed.

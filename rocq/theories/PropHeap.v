(** The minimum heap (C43): property theorems. *)
From Coq Require Import List NArith Arith Bool Permutation Sorted.
From Verif Require Import Base ModelHeap SpecHeap ProofHeap.
Import ListNotations.

(** C43: every sequence of insertions and deletions, starting from an empty heap and never deleting from an empty one, runs without
    undefined behaviour, and each deletion takes out one of the elements of least weight that are in the heap at that moment. *)
Theorem C43_priority_queue : forall (T : Type) (calls : list (heapCall T)), neverEmpty 0 calls ->
  exists results rest, useHeap T [] calls = Ok (results, rest) /\ queue [] calls results rest.
Proof. exact C43_queue. Qed.
Print Assumptions C43_priority_queue.

(** All elements are extracted in order of weight, none is lost. *)
Theorem C43_order : forall (T : Type) (l : list (T * N)), exists results,
  useHeap T [] (map (fun x => Insert T (fst x) (snd x)) l ++ repeat (DeleteMin T) (length l)) = Ok (results, []) /\
  Permutation results l /\ StronglySorted (fun x y => snd x <= snd y)%N results.
Proof. exact C43_sorted. Qed.
Print Assumptions C43_order.

Example C43_example : useHeap nat [] [Insert nat 4 4; Insert nat 20 5; Insert nat 16 1; DeleteMin nat; Insert nat 7 2; Insert nat 9 9; DeleteMin nat; DeleteMin nat] =
  Ok ([(16, 1%N); (7, 2%N); (4, 4%N)], [(20, 5%N); (9, 9%N)]) /\
  neverEmpty 0 [Insert nat 4 4; Insert nat 20 5; Insert nat 16 1; DeleteMin nat; Insert nat 7 2; Insert nat 9 9; DeleteMin nat; DeleteMin nat].
Proof. vm_compute. auto. Qed.

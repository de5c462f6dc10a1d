(** Transcription of WaveletTree::createHuffmanShape (/repo/WaveletTree.hpp 1496-1521) and of collectCodes for it. *)
From Coq Require Import List NArith Arith Bool.
From Verif Require Import Base Arrays ModelUtils ModelHeap.
Import ListNotations.
Open Scope N_scope.

(** TreeNode (WaveletTree.hpp 54-71): a leaf with a symbol, a node whose right child is null (1509-1510) and a node with two children.
    The bit vectors are empty here. *)
Inductive shape := SLeaf (symbol : N) | SLeft (left : shape) | SNode (left right : shape).

(** WaveletTree.hpp 1501-1507: the symbols with a non-zero frequency, from symbol [b] on; [b] does not wrap for the 256 entries of runFreqs. *)
Fixpoint insertLeaves (runFreqs : list N) (b : N) (heap : heapNodes shape) : outcome (heapNodes shape) :=
  match runFreqs with
  | [] => Ok heap
  | f :: r =>
    let! heap := (if f =? 0 then Ok heap else heapInsert shape heap (SLeaf b) f) in
    insertLeaves r (b + 1) heap
  end.
(** WaveletTree.hpp 1513-1519; weights are size_t. *)
Fixpoint mergeShapes (fuel : nat) (heap : heapNodes shape) : outcome (heapNodes shape) :=
  if (1 <? length heap)%nat then
    match fuel with
    | O => Fuel
    | S fuel =>
      let! (p1, heap) := deleteMin shape heap in
      let! (p2, heap) := deleteMin shape heap in
      let! heap := heapInsert shape heap (SNode (fst p2) (fst p1)) ((snd p1 + snd p2) mod two64) in
      mergeShapes fuel heap
    end
  else Ok heap.
(** WaveletTree.hpp 1496-1521. *)
Definition createHuffmanShape (runFreqs : list N) : outcome shape :=
  let! heap := insertLeaves runFreqs 0 [] in
  let! heap := (if (length heap =? 1)%nat then
                  let! (p, heap) := deleteMin shape heap in heapInsert shape heap (SLeft (fst p)) 1
                else Ok heap) in
  let! heap := mergeShapes (length heap) heap in
  let! (p, _) := deleteMin shape heap in
  Ok (fst p).

(** collectCodes (WaveletTree.hpp 1523-1549): the symbols with their codes in the order in which they are stored. *)
Fixpoint shapeCodes (t : shape) (vec : list bool) : list (N * list bool) :=
  match t with
  | SLeaf s => [(s, vec)]
  | SLeft l => shapeCodes l (vec ++ [false])
  | SNode l r => shapeCodes l (vec ++ [false]) ++ shapeCodes r (vec ++ [true])
  end.

(** The minimum heap of WaveletTree.hpp. *)
From Coq Require Import List NArith Arith Bool.
From Verif Require Import Base Arrays.
Import ListNotations.

Section Heap.
Variable T : Type.
(** m_nodes, WaveletTree.hpp 1434-1435: values with their weights (size_t, here unbounded: weights are only compared). *)
Definition heapNodes := list (T * N).

(** WaveletTree.hpp 1430-1432. *)
Definition hparent (n : nat) : nat := (n - 1) / 2.
Definition hleft (n : nat) : nat := 2 * n + 1.
Definition hright (n : nat) : nat := 2 * n + 2.

(** The loop of insert, WaveletTree.hpp 1398-1402.  Reading the new slot before it is written does not happen. *)
Fixpoint siftUp (fuel : nat) (nodes : heapNodes) (index : nat) (x : T * N) : outcome heapNodes :=
  match fuel with
  | O => Fuel
  | S fuel =>
    if (0 <? index)%nat then
      let! p := get nodes (hparent index) in
      if (snd x <? snd p)%N then
        let! nodes := set nodes index p in
        siftUp fuel nodes (hparent index) x
      else set nodes index x
    else set nodes index x
  end.
(** WaveletTree.hpp 1395-1403.  Simplification: the slot resize makes (1397) holds the new element instead of a default one; it is
    written before it is read. *)
Definition heapInsert (nodes : heapNodes) (value : T) (weight : N) : outcome heapNodes :=
  siftUp (S (length nodes)) (nodes ++ [(value, weight)]) (length nodes) (value, weight).

(** std::swap(m_nodes[i], m_nodes[j]). *)
Definition swapNodes (nodes : heapNodes) (i j : nat) : outcome heapNodes :=
  let! a := get nodes i in
  let! b := get nodes j in
  let! nodes := set nodes i b in
  set nodes j a.

(** WaveletTree.hpp 1413-1428. *)
Fixpoint heapify (fuel : nat) (nodes : heapNodes) (index : nat) : outcome heapNodes :=
  match fuel with
  | O => Fuel
  | S fuel =>
    if (hright index <? length nodes)%nat then
      let! l := get nodes (hleft index) in
      let! r := get nodes (hright index) in
      let smaller := if (snd l <? snd r)%N then hleft index else hright index in
      let! s := get nodes smaller in
      let! i := get nodes index in
      if (snd s <? snd i)%N then
        let! nodes := swapNodes nodes index smaller in
        heapify fuel nodes smaller
      else Ok nodes
    else if (length nodes =? hright index)%nat then
      let! l := get nodes (hleft index) in
      let! i := get nodes index in
      if (snd l <? snd i)%N then swapNodes nodes index (hleft index) else Ok nodes
    else Ok nodes
  end.

(** WaveletTree.hpp 1405-1411.  Undefined on the empty heap. *)
Definition deleteMin (nodes : heapNodes) : outcome ((T * N) * heapNodes) :=
  let! min := get nodes 0 in
  let! back := get nodes (length nodes - 1) in
  let! nodes := set nodes 0 back in
  let nodes := firstn (length nodes - 1) nodes in
  let! nodes := heapify (S (length nodes)) nodes 0 in
  Ok (min, nodes).

(** A client: a sequence of calls from an empty heap (1389), with the results of deleteMin. *)
Inductive heapCall := Insert (value : T) (weight : N) | DeleteMin.
Fixpoint useHeap (nodes : heapNodes) (calls : list heapCall) : outcome (list (T * N) * heapNodes) :=
  match calls with
  | [] => Ok ([], nodes)
  | Insert v w :: r => let! nodes := heapInsert nodes v w in useHeap nodes r
  | DeleteMin :: r =>
    let! (x, nodes) := deleteMin nodes in
    let! (l, nodes) := useHeap nodes r in
    Ok (x :: l, nodes)
  end.
End Heap.

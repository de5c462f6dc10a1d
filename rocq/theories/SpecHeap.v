(** A priority queue: the elements in it in any order; taking one out removes one of the least. *)
From Coq Require Import List NArith Arith Bool Permutation.
From Verif Require Import ModelHeap.
Import ListNotations.

(** [queue content calls results rest]: from [content] the calls can give [results] and leave [rest]. *)
Inductive queue {T} : list (T * N) -> list (heapCall T) -> list (T * N) -> list (T * N) -> Prop :=
| queue_end : forall content rest, Permutation content rest -> queue content [] [] rest
| queue_insert : forall content v w calls results rest, queue ((v, w) :: content) calls results rest -> queue content (Insert T v w :: calls) results rest
| queue_delete : forall content x less calls results rest, Permutation content (x :: less) -> Forall (fun y => snd x <= snd y)%N less ->
    queue less calls results rest -> queue content (DeleteMin T :: calls) (x :: results) rest.

(** The calls never take from an empty queue with [n] elements at first. *)
Fixpoint neverEmpty {T} (n : nat) (calls : list (heapCall T)) : Prop :=
  match calls with
  | [] => True
  | Insert _ _ _ :: r => neverEmpty (S n) r
  | DeleteMin _ :: r => match n with O => False | S m => neverEmpty m r end
  end.

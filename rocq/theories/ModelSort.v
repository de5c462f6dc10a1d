(** Merge sort on lists: stands for std::sort where the result is determined by the
    specification of std::sort (all elements different in a total order), and serves as an
    instance where it is not. *)
From Coq Require Import List Arith Bool.
Import ListNotations.

Section Sort.
Variable A : Type.
Variable leb : A -> A -> bool.

Fixpoint merge (l1 : list A) : list A -> list A :=
  match l1 with
  | [] => fun l2 => l2
  | a :: r1 =>
    fix mergeA (l2 : list A) : list A :=
      match l2 with
      | [] => a :: r1
      | b :: r2 => if leb a b then a :: merge r1 l2 else b :: mergeA r2
      end
  end.
Fixpoint mergePairs (ls : list (list A)) : list (list A) :=
  match ls with
  | a :: b :: r => merge a b :: mergePairs r
  | _ => ls
  end.
Fixpoint mergeRounds (fuel : nat) (ls : list (list A)) : list A :=
  match fuel with
  | O => fold_right merge [] ls
  | S fuel => match ls with
              | [] => []
              | [l] => l
              | _ => mergeRounds fuel (mergePairs ls)
              end
  end.
Definition mergeSort (l : list A) : list A := mergeRounds 64 (map (fun x => [x]) l).
End Sort.
Arguments merge {A}. Arguments mergePairs {A}. Arguments mergeRounds {A}. Arguments mergeSort {A}.

(** Transcription of TreeNode::rank and TreeNode::totalBits (/repo/WaveletTree.hpp 78-93). *)
From Coq Require Import List NArith Arith Bool.
From Verif Require Import Base ModelWavelet.
Import ListNotations.

(** WaveletTree.hpp 83: the loop over the indices from [j] on, [todo] being i - j; reading behind the vector is undefined. *)
Fixpoint rankLoop (todo : nat) (bits : list bool) (bit : bool) (sum : nat) : outcome nat :=
  match todo with
  | O => Ok sum
  | S todo =>
    match bits with
    | [] => UB
    | b :: r => rankLoop todo r bit (if negb (xorb b bit) then S sum else sum)
    end
  end.
(** WaveletTree.hpp 78-85. *)
Definition rank (n : node) (bit : bool) (i : nat) : outcome nat :=
  if (length (bitVector n) =? 0)%nat then Ok O
  else rankLoop (Nat.min (length (bitVector n)) i) (bitVector n) bit O.
(** m_bitVector.size(), 0 for a null pointer (WaveletTree.hpp 89-91). *)
Definition nodeBits (t : wtree) : nat := match here t with Some n => length (bitVector n) | None => O end.
(** WaveletTree.hpp 87-93; size_t is unbounded here. *)
Fixpoint totalBits (t : wtree) : nat :=
  match t with
  | Empty => O
  | Branch _ l r => (nodeBits t + totalBits l + totalBits r)%nat
  end.

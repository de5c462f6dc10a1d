(** Places of a text at which something stands three times in a row. *)
From Coq Require Import List NArith Arith Bool.
From Verif Require Import Base.
Import ListNotations.
Open Scope N_scope.

(** Number of places at which the same byte stands three times in a row. *)
Fixpoint triples (l : list N) : nat :=
  match l with
  | [] => O
  | x :: r =>
    ((match r with y :: z :: _ => if ((x =? y) && (y =? z))%N then 1 else 0 | _ => 0 end) + triples r)%nat
  end.

(** Does the text begin with three copies of something? *)
Definition sameText (l m : list N) : bool := if list_eq_dec N.eq_dec l m then true else false.
Definition cubeHead (l : list N) : bool :=
  existsb (fun k => sameText (firstn k l) (firstn k (skipn k l)) && sameText (firstn k l) (firstn k (skipn (k + k) l)) && (3 * k <=? length l)%nat)
    (seq 1 (length l / 3)).

(** Number of places at which something stands three times in a row. *)
Fixpoint cubes (l : list N) : nat :=
  match l with
  | [] => O
  | _ :: r => ((if cubeHead l then 1 else 0) + cubes r)%nat
  end.

(** Buffers of a third of the block and two bytes, but smaller than the block. *)
Definition third (capacity : nat -> nat) : Prop :=
  forall len, (5 <= len)%nat -> N.of_nat len < 2 ^ 31 ->
    (len / 3 + 2 <= capacity len < len)%nat /\ (1001 <= len -> capacity len + 1 < len)%nat.

(** Vocabulary for code lengths. *)
From Coq Require Import List NArith.
Import ListNotations.
Open Scope N_scope.

(** Kraft's equality: the intervals of the code words of these lengths fill the whole interval. *)
Definition complete (lengths : list N) : Prop :=
  exists D, Forall (fun d => d <= D) lengths /\ fold_right (fun d sum => 2 ^ (D - d) + sum) 0 lengths = 2 ^ D.

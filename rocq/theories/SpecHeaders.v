(** Vocabulary for statements about headers and slices. *)
From Coq Require Import List NArith Arith.
Import ListNotations.
Open Scope N_scope.

Definition sumN (l : list N) : N := fold_right N.add 0 l.

(** [pieces] cut the string [data] into consecutive parts. *)
Definition cuts {A} (data : list A) (pieces : list (nat * nat)) : Prop :=
  concat (map (fun p => firstn (snd p) (skipn (fst p) data)) pieces) = data.

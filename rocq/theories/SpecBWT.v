(** Vocabulary for the Burrows-Wheeler transform. *)
From Coq Require Import List NArith Arith Bool Permutation Sorted.
Import ListNotations.

(** Lexicographic order; a proper prefix is smaller. *)
Fixpoint lexlt (a b : list N) : Prop :=
  match a, b with
  | _, [] => False
  | [], _ :: _ => True
  | x :: a', y :: b' => (x < y)%N \/ (x = y /\ lexlt a' b')
  end.

(** [sa] lists the starting positions of all suffixes of [t] in lexicographic order. *)
Definition suffix_array (t : list N) (sa : list nat) : Prop :=
  Permutation sa (seq 0 (length t)) /\
  StronglySorted (fun a b => lexlt (skipn a t) (skipn b t)) sa.

(** A list of occurrence counts, indexed by character. *)
Definition counts_of (data freqs : list N) : Prop :=
  length freqs = 256%nat /\
  forall c, (c < 256)%nat -> nth_error freqs c = Some (N.of_nat (count_occ N.eq_dec data (N.of_nat c))).

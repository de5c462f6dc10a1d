(** Vocabulary for the wavelet coder. *)
From Coq Require Import List NArith Arith Bool.
From Verif Require Import Base.
Import ListNotations.
Open Scope N_scope.

(** ** Integer codes *)

(** The number of leading ones, and what follows the first zero. *)
Fixpoint leadingOnes (s : list bool) : nat * list bool :=
  match s with
  | true :: r => let (k, r) := leadingOnes r in (S k, r)
  | false :: r => (O, r)
  | [] => (O, [])
  end.
(** Reading rule of the codes with parameter [w]: [k] ones, a zero, and a number of [k + w] bits counted from
    1 + 2^w (2^k - 1), the first integer with [k] ones. *)
Definition readFixed (w : nat) (s : list bool) : option (N * list bool) :=
  let (k, r) := leadingOnes s in
  if (length r <? k + w)%nat then None
  else Some (be_val (firstn (k + w) r) + 1 + 2 ^ N.of_nat w * (2 ^ N.of_nat k - 1), skipn (k + w) r).

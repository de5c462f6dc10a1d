(** Prefix codes, Kraft sums, costs: vocabulary for the Huffman properties. *)
From Coq Require Import List NArith Arith.
Import ListNotations.
Open Scope N_scope.

Definition is_prefix (a b : list bool) : Prop := exists c, b = a ++ c.
Definition prefix_free (codes : list (list bool)) : Prop :=
  ForallOrdPairs (fun a b => ~ is_prefix a b /\ ~ is_prefix b a) codes.

(** 2^H times the Kraft sum of the code lengths (all at most H). *)
Definition kraft (H : nat) (lens : list nat) : N :=
  fold_right (fun l a => 2 ^ N.of_nat (H - l) + a) 0 lens.
(** A code tree without unused leaves has Kraft sum 1. *)
Definition complete (lens : list nat) : Prop :=
  forall H, Forall (fun l => (l <= H)%nat) lens -> kraft H lens = 2 ^ N.of_nat H.

Fixpoint fib (n : nat) : N :=
  match n with
  | O => 0
  | S m => match m with O => 1 | S k => fib m + fib k end
  end.

(** Symbols with a non-zero frequency. *)
Definition occurs (freqs : list N) (s : N) : Prop :=
  exists f, nth_error freqs (N.to_nat s) = Some f /\ 0 < f.
(** Total length when each (length, symbol) pair codes a symbol of frequency
    [nth symbol freqs] with that many bits. *)
Definition coded_length (freqs : list N) (lens : list (N * N)) : N :=
  fold_right (fun p a => nth (N.to_nat (snd p)) freqs 0 * fst p + a) 0 lens.

(** Lengths in use in a table where 0 stands for an unused symbol. *)
Definition used (clen : list N) : list nat := map N.to_nat (filter (fun l => 0 <? l) clen).
(** The tables the entropy coder builds codes for: complete ones, or one symbol of length 1. *)
Definition codeTable (clen : list N) : Prop := complete (used clen) \/ used clen = [1%nat].

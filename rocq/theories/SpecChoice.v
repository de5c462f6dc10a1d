(** Vocabulary for the choice of run length codes. *)
From Coq Require Import List NArith Arith Bool.
Import ListNotations.
Open Scope N_scope.

(** Length of the code with parameter [w] of the integer [x]. *)
Definition fixedLength (w x : N) : N := let k := N.log2 (x - 1 + 2 ^ w) - w in 2 * k + w + 1.
(** Number of runs of length [n]. *)
Definition runsOfLength (runs : list (N * nat)) (n : nat) : nat := count_occ Nat.eq_dec (map snd runs) n.
(** There are at least three lengths of runs, all equally frequent ([k] runs each), and either fewer than 10 runs of each length
    or a parameter [w] for which no run length gets a code of its own when the depth of the escape code is taken as 3.  [worth total f bits] is the outcome of
    the floating point comparison for a run length occurring [f] times in [total] runs whose codes would take [bits] bits. *)
Definition cannotChoose (worth : N -> N -> N -> bool) (runs : list (N * nat)) : Prop :=
  exists k, Forall (fun r => runsOfLength runs (snd r) = k) runs /\
    (exists a b c, In a (map snd runs) /\ In b (map snd runs) /\ In c (map snd runs) /\ a <> b /\ a <> c /\ b <> c) /\
    ((k < 10)%nat \/ exists w, w <= 15 /\ Forall (fun r =>
       worth (N.of_nat (length runs)) (N.of_nat k) ((N.of_nat k * (3 + fixedLength w (N.of_nat (snd r)))) mod 2 ^ 64) = false) runs).

(** The consecutive pieces of [data] with the lengths [sections]. *)
Fixpoint pieces (sections data : list N) : list (list N) :=
  match sections with
  | [] => []
  | n :: r => firstn (N.to_nat n) data :: pieces r (skipn (N.to_nat n) data)
  end.

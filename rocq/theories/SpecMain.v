(** Conditions on the option --mem of the program compress. *)
From Coq Require Import List NArith.
Import ListNotations.
Open Scope N_scope.

(** The megabytes used: zero counts as one. *)
Definition megabytes (mem : N) : N := if mem =? 0 then 1 else mem.

(** Blocks of less than 2^29 bytes: little memory, or a file of less than 2^29 bytes and not too much. *)
Definition moderate (mem : N) (input : list N) : Prop :=
  megabytes mem <= 2415 \/ (megabytes mem <= 9663 /\ N.of_nat (length input) < 2 ^ 29).

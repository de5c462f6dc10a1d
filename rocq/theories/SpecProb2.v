(** Vocabulary for C52. *)
From Coq Require Import List NArith Bool.
Import ListNotations.
From Verif Require Import Base ModelProb SpecProb.
Open Scope N_scope.

(** After every history of uses the model predicts a probability the coder accepts. *)
Definition codable (P : predictor) : Prop := forall h, exists p, predict P h = Ok p /\ 0 < p < 4096.

(** The probabilities a model gives while [hist] is coded (most recent bit first). *)
Definition given (P : predictor) (hist : list bool) : N :=
  match predict P (map Coded (rev hist)) with Ok p => p | _ => 0 end.
(** A counter that goes up at ones and down at zeros, but stays between 1 and [M] - 1. *)
Definition counter (M : N) (bits : list bool) : N :=
  fold_left (fun k (b : bool) => if b then N.min (k + 1) (M - 1) else N.max (k - 1) 1) bits (M / 2).

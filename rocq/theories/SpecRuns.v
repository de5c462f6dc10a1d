(** Vocabulary for statements about runs. *)
From Coq Require Import List NArith.
Import ListNotations.

(** The string described by a list of (character, length). *)
Definition expand (runs : list (N * nat)) : list N :=
  flat_map (fun r => repeat (fst r) (snd r)) runs.

(** Neighbouring runs have different characters. *)
Fixpoint neighbours_differ (runs : list (N * nat)) : Prop :=
  match runs with
  | r1 :: ((r2 :: _) as t) => fst r1 <> fst r2 /\ neighbours_differ t
  | _ => True
  end.

(** [runs] is the run-length decomposition of [s]. *)
Definition is_runs_of (s : list N) (runs : list (N * nat)) : Prop :=
  expand runs = s /\ neighbours_differ runs /\ Forall (fun r => (1 <= snd r)%nat) runs.

(** All stretches of equal bytes in [data] are shorter than [bound]. *)
Definition runs_below (bound : N) (data : list N) : Prop :=
  forall a c n b, data = a ++ repeat c n ++ b -> (N.of_nat n < bound)%N.

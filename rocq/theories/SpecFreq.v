(** What a symbol frequency table is. *)
From Coq Require Import List NArith Arith Bool Permutation Sorted.
From Verif Require Import Base ModelFreq.
Import ListNotations.
Open Scope N_scope.

(** The table holds frequency [m c] for every byte [c], and the lookup of locations finds it. *)
Definition tableOf (t : ftable) (m : N -> N) : Prop :=
  length (ft_freqs t) = 256%nat /\ length (ft_loc t) = 256%nat /\
  (forall c, c < 256 -> exists i,
     nth_error (ft_loc t) (N.to_nat c) = Some (N.of_nat i) /\ nth_error (ft_freqs t) i = Some (c, m c)) /\
  (forall i c f, nth_error (ft_freqs t) i = Some (c, f) ->
     c < 256 /\ f = m c /\ nth_error (ft_loc t) (N.to_nat c) = Some (N.of_nat i)).

(** Lower frequencies come first. *)
Definition ordered (t : ftable) : Prop :=
  forall i j p q, (i <= j)%nat -> nth_error (ft_freqs t) i = Some p -> nth_error (ft_freqs t) j = Some q ->
    snd p <= snd q.

(** Symbol [c] has not been removed. *)
Definition active (t : ftable) (c : N) : Prop :=
  exists i, (i < ft_last t)%nat /\ nth_error (ft_loc t) (N.to_nat c) = Some (N.of_nat i).

(** A change of one value. *)
Definition with_value (m : N -> N) (key v : N) (c : N) : N := if c =? key then v else m c.

(** What std::sort promises here. *)
Definition sorts_by_frequency (sortF : list (N * N) -> list (N * N)) : Prop :=
  forall l, Permutation (sortF l) l /\
            StronglySorted (fun p q => snd p <= snd q) (sortF l).

(** ** Sequences of operations *)
Inductive ftOp := Increase (key v : N) | Decrease (key v : N) | Remove (key : N).

(** The operations permitted when the frequencies are [m] and the symbols [removed] have been
    removed.  Increasing is only permitted as long as nothing has been removed. *)
Definition permitted (m : N -> N) (removed : list N) (op : ftOp) : Prop :=
  match op with
  | Increase key v => key < 256 /\ removed = [] /\ m key + v < 2 ^ 40
  | Decrease key v => key < 256 /\ ~ In key removed /\ v <= m key
  | Remove key => key < 256 /\ ~ In key removed
  end.
Definition frequenciesAfter (m : N -> N) (op : ftOp) : N -> N :=
  match op with
  | Increase key v => with_value m key (m key + v)
  | Decrease key v => with_value m key (m key - v)
  | Remove key => m
  end.
Definition removedAfter (removed : list N) (op : ftOp) : list N :=
  match op with Remove key => key :: removed | _ => removed end.
Inductive permittedAll : (N -> N) -> list N -> list ftOp -> (N -> N) -> list N -> Prop :=
| permitted_nil : forall m removed, permittedAll m removed [] m removed
| permitted_cons : forall m removed op ops m' removed', permitted m removed op ->
    permittedAll (frequenciesAfter m op) (removedAfter removed op) ops m' removed' ->
    permittedAll m removed (op :: ops) m' removed'.

(** What can be seen from outside: the symbols not removed, from the lowest frequency to the
    highest. *)
Definition shows (t : ftable) (m : N -> N) (removed : list N) : Prop :=
  (ft_last t + length removed = 256)%nat /\
  (forall c, c < 256 -> ~ In c removed ->
     ftGetFrequencyWithKey t c = Ok (m c mod 2 ^ 32) /\
     exists i, (i < ft_last t)%nat /\ ftGetKey t i = Ok c) /\
  (forall i, (i < ft_last t)%nat -> exists c, c < 256 /\ ~ In c removed /\
     ftGetKey t i = Ok c /\ ftGetFrequency t i = Ok (m c mod 2 ^ 32)) /\
  (forall i j c d, (i < j < ft_last t)%nat -> ftGetKey t i = Ok c -> ftGetKey t j = Ok d ->
     c <> d /\ m c <= m d).

(** Running the operations of the table. *)
Definition ftApply (over : list N -> outcome N) (t : ftable) (op : ftOp) : outcome ftable :=
  match op with
  | Increase key v => ftIncrease over t key v
  | Decrease key v => ftDecrease t key v
  | Remove key => ftRemove over t key
  end.
Fixpoint ftRun (over : list N -> outcome N) (t : ftable) (ops : list ftOp) : outcome ftable :=
  match ops with
  | [] => Ok t
  | op :: ops => let! t := ftApply over t op in ftRun over t ops
  end.

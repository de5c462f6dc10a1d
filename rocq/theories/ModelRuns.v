(** Transcription of the run-splitting functions of /repo/Utils.cpp 116-170. *)
From Coq Require Import List NArith Arith Bool.
From Verif Require Import Base.
Import ListNotations.
Open Scope N_scope.

(** A pointer into [src] is represented by the suffix it points to. *)

(** Utils.cpp 121 / 135 / 158: [while(curr < src + length && *prev == *curr) ++curr].
    [c] is [*prev]; result: number of increments and new [curr]. *)
Fixpoint skipEqual (c : N) (curr : list N) : nat * list N :=
  match curr with
  | [] => (0%nat, [])
  | x :: r => if c =? x then let (n, q) := skipEqual c r in (S n, q) else (0%nat, curr)
  end.

(** Utils.cpp 120-125 / 134-145 / 157-168: the do-while loop and the check for a
    last single character.  The emitted pairs are ([*prev], [curr - prev]) in
    order.  [prev] is dereferenced before any test, so an empty [src] is
    undefined.  After [prev = curr++] the loop goes on iff [curr] is still inside,
    i.e. iff at least two characters are left at [prev]. *)
Fixpoint runLoop (fuel : nat) (prev : list N) : outcome (list (N * nat)) :=
  match prev with
  | [] => UB
  | c :: curr0 =>
    match fuel with
    | O => Fuel
    | S f =>
      let (k, curr) := skipEqual c curr0 in
      let! tail :=
        match curr with
        | [] => Ok []
        | [x] => Ok [(x, 1%nat)]
        | _ :: _ :: _ => runLoop f curr
        end in
      Ok ((c, S k) :: tail)
    end
  end.
Definition emittedRuns (src : list N) : outcome (list (N * nat)) := runLoop (length src) src.

(** Counter arrays and [std::map]s of counters: total functions, entries never
    touched keep their value (0 for a fresh map). *)
Definition counters (K : Type) := K -> N.
Definition bumpN (f : counters N) (k : N) : counters N := fun x => if x =? k then f x + 1 else f x.
Definition bumpNat (f : counters nat) (k : nat) : counters nat :=
  fun x => if (x =? k)%nat then f x + 1 else f x.

(** Utils.cpp 116-126. *)
Definition calculateRunFrequencies (runFreqs : counters N) (src : list N) : outcome (counters N) :=
  let! runs := emittedRuns src in
  Ok (fold_left (fun f (r : N * nat) => bumpN f (fst r)) runs runFreqs).

(** Utils.cpp 128-147: counters of characters, counters of run lengths, number of runs. *)
Definition calculateRunsAndCharacters (runFreqs : counters N) (src : list N) (runsMap : counters nat)
    : outcome (counters N * counters nat * nat) :=
  let! runs := emittedRuns src in
  Ok (fold_left (fun (st : counters N * counters nat * nat) (r : N * nat) =>
        let '(f, g, n) := st in (bumpN f (fst r), bumpNat g (snd r), S n))
      runs (runFreqs, runsMap, 0%nat)).

(** Utils.cpp 150-170: counters, [runseq], [runlen] and the returned number of
    runs.  Run lengths are stored in uint32: blocks are shorter than 2^31. *)
Definition calculateRunFrequenciesAndStoreRuns (runFreqs : counters N) (src : list N)
    : outcome (counters N * list N * list nat * nat) :=
  let! runs := emittedRuns src in
  Ok (fold_left (fun f (r : N * nat) => bumpN f (fst r)) runs runFreqs,
      map fst runs, map snd runs, length runs).

(** Which blocks the wavelet coder cannot code. *)
From Coq Require Import List NArith Arith.
From Verif Require Import Base SpecRuns SpecChoice ModelHeaders ModelBWT.
Import ListNotations.

(** The transform of the block [x] has a section whose run lengths cannot be given codes.  The sections are those of the block header. *)
Definition blockStops (worth : N -> N -> N -> bool) (sorter : list N -> list nat) (points : N) (x : list N) : Prop :=
  x <> [] /\ exists data lf stats sections header n piece runs,
    doTransform x (sorter (sortedText x)) points = Ok (data, lf, stats) /\ writeBlockHeader lf stats = Ok (sections, header, n) /\
    In piece (pieces sections data) /\ is_runs_of piece runs /\ cannotChoose worth runs.

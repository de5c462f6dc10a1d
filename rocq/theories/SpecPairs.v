(** Conditions on the in-place writing of PairReplacer. *)
From Coq Require Import List NArith Arith Bool.
From Verif Require Import Base TArray ModelUtils ModelGrammar ModelPairs.
Import ListNotations.
Open Scope N_scope.

(** Is symbol c written as two bytes, at least in front of one symbol? *)
Definition writtenTwice (common : N) (table : tarray N) (c : N) : bool :=
  existsb (fun j => negb (lo16 (tval table (pair16 c j)) =? common)) (map N.of_nat (seq 0 256)).

(** Number of occurrences of such symbols. *)
Definition doubles (common : N) (table : tarray N) (src : list N) : nat :=
  length (filter (writtenTwice common table) src).

(** Has the buffer room for them? *)
Definition bufferFits (cap : nat) (common : N) (table : tarray N) (src : list N) : bool :=
  let d := doubles common table src in
  ((d + 2 <=? cap) && (cap <? length src) && ((cap + 1 <? length src) || (d =? 0)))%nat%bool.

(** The rounds of Precompressor::precompress (Precompressor.cpp 76-107): does every round that is written in
    place meet this condition? *)
Section Rounds.
Variable sortF : list (N * N) -> list (N * N).
Variable over : list N -> outcome N.
Variable capacity : nat -> nat.
Variable lowRatio : nat -> nat -> bool.

Fixpoint roundsFit (n original : nat) (temp : option (nat * nat)) (g : grammar) (data : list N) : bool :=
  match n with
  | O => true
  | S n =>
    let len := length data in
    let temp := match temp with
                | Some t => Some t
                | None => if lowRatio len original then Some (S original, S len) else None
                end in
    match analyseAndDecide sortF over g data with
    | Ok (g, common, table) =>
      match temp with
      | Some (srcRoom, dstRoom) =>
        match writeReplaced common table dstRoom data with
        | Ok data => roundsFit n original (Some (dstRoom, srcRoom)) g data
        | _ => true
        end
      | None =>
        bufferFits (capacity len) common table data &&
        match writeInPlace (capacity len) common table (S original) data with
        | Ok data => if (length data =? original)%nat then true else roundsFit n original None g data
        | _ => true
        end
      end
    | _ => true
    end
  end.
End Rounds.

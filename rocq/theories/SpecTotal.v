(** Rounds of the precompressor that cannot fail. *)
From Coq Require Import List NArith Arith Bool.
From Verif Require Import Base TArray ModelGrammar ModelPairs SpecPairs.
Import ListNotations.

(** When a block is written in place its last byte is put into the buffer without looking whether the buffer is full (C34); this does no
    harm to a byte that is not written as two.  [lastOnce]: that is so in each of [n] rounds written in place.  Which rounds these are
    and how they begin is as in [precompressRounds] (Precompressor.cpp 76-107). *)
Section Rounds.
Variable sortF : list (N * N) -> list (N * N).
Variable over : list N -> outcome N.
Variable lowRatio : nat -> nat -> bool.

Fixpoint lastOnce (n original : nat) (temp : option (nat * nat)) (g : grammar) (data : list N) : bool :=
  match n with
  | O => true
  | S n =>
    let len := length data in
    let temp := match temp with
                | Some t => Some t
                | None => if lowRatio len original then Some (S original, S len) else None
                end in
    match analyseAndDecide sortF over g data with
    | Ok (g, common, table) =>
      match temp with
      | Some (srcRoom, dstRoom) =>
        match writeReplaced common table dstRoom data with
        | Ok data => lastOnce n original (Some (dstRoom, srcRoom)) g data
        | _ => true
        end
      | None =>
        negb (writtenTwice common table (nth (len - 1) data 0%N)) &&
        match writeReplaced common table (S original) data with
        | Ok data => if (length data =? original)%nat then true else lastOnce n original None g data
        | _ => true
        end
      end
    | _ => true
    end
  end.
End Rounds.

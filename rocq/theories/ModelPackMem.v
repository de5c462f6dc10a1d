(** Transcription of the memory version of readPackedInteger (/repo/Utils.cpp 483-498). *)
From Coq Require Import List NArith Arith Bool.
From Verif Require Import Base ModelUtils.
Import ListNotations.
Open Scope N_scope.

(** Utils.cpp 490-494: [to] points to the given bytes; running past them is undefined, and so is a shift by 64 or more. *)
Fixpoint readPackedMemLoop (to : list N) (i : nat) (packed : N) : outcome N :=
  match to with
  | [] => UB
  | read :: to =>
    if (8 <=? i)%nat then UB
    else
      let packed := N.lor packed (N.shiftl read (N.of_nat (i * 8)) mod two64) in
      if N.land read 128 =? 0 then Ok packed else readPackedMemLoop to (S i) packed
  end.
(** Utils.cpp 483-498. *)
Definition readPackedMem (to : list N) : outcome N :=
  let! packed := readPackedMemLoop to 0 0 in Ok (if packed =? 128 then 2 ^ 63 else packed).

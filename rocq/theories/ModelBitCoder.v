(** Transcription of the binary range coder, /repo/BitCoders.cpp and .hpp.
    Failed assertions are reported as [UB]. *)
From Coq Require Import List NArith Arith Bool.
From Verif Require Import Base ModelUtils.
Import ListNotations.
Open Scope N_scope.

(** globaldefs.hpp 50-54: kLogProbabilityScale = 12. *)
Definition kProbabilityScale : N := 4096.

(** BitCoders.cpp 59-76, arithmetic on uint32. *)
Definition Split (low high probability : N) : outcome N :=
  if (probability <=? kProbabilityScale) && (low <? high) then
    let range_size := high - low - 1 in
    let high_bits := N.shiftr range_size 12 in
    let low_bits := N.land range_size (kProbabilityScale - 1) in
    let half := N.shiftr kProbabilityScale 1 in
    let split := (low + (high_bits * probability) mod two32
                  + N.shiftr ((low_bits * probability + half) mod two32) 12) mod two32 in
    if (low <=? split) && (split <? high) then Ok split else UB
  else UB.

(** The loop condition of BitCoders.cpp 94 and 133. *)
Definition sameTopByte (low high : N) : bool :=
  N.land (N.lxor low high) 4278190080 =? 0.

(** BitCoders.hpp 86-88: the encoder's fields (output stream apart). *)
Record encState := mkEnc { e_low : N; e_high : N; e_counter : N }.

(** BitCoders.cpp 79-80. *)
Definition encInit : encState := mkEnc 0 4294967295 0.

(** BitCoders.cpp 94-98 with emitByte (BitCoders.hpp 91-94): emitted bytes and new
    state.  [e_counter] is a 64-bit counter. *)
Fixpoint encRenorm (fuel : nat) (st : encState) : outcome (encState * list N) :=
  if sameTopByte (e_low st) (e_high st) then
    match fuel with
    | O => Fuel
    | S f =>
      let b := N.shiftr (e_low st) 24 in
      let! (st', bytes) :=
        encRenorm f (mkEnc (N.shiftl (e_low st) 8 mod two32)
                           ((N.shiftl (e_high st) 8 + 255) mod two32)
                           ((e_counter st + 1) mod two64)) in
      Ok (st', b :: bytes)
    end
  else Ok (st, []).

(** BitCoders.cpp 84-100. *)
Definition encode (st : encState) (bit : bool) (p : N) : outcome (encState * list N) :=
  let! split := Split (e_low st) (e_high st) p in
  let st1 := if bit then mkEnc (e_low st) split (e_counter st)
             else mkEnc ((split + 1) mod two32) (e_high st) (e_counter st) in
  let! (st2, bytes) := encRenorm 5 st1 in
  if e_low st2 <? e_high st2 then Ok (st2, bytes) else UB.

(** BitCoders.cpp 102-113 (flushing the output: see ModelStreams). *)
Definition encFinish (st : encState) : encState * list N :=
  (mkEnc 0 4294967295 ((e_counter st + 4) mod two64),
   [N.shiftr (e_low st) 24; 255; 255; 255]).

(** A sequence of [encode] calls with the probabilities as given. *)
Fixpoint encodeTrace (st : encState) (trace : list (bool * N)) : outcome (encState * list N) :=
  match trace with
  | [] => Ok (st, [])
  | (b, p) :: t =>
    let! (st1, bytes1) := encode st b p in
    let! (st2, bytes2) := encodeTrace st1 t in
    Ok (st2, bytes1 ++ bytes2)
  end.

(** BitCoders.hpp 123-125. *)
Record decState := mkDec { d_low : N; d_high : N; d_next : N }.

(** BitCoders.cpp 120-127. *)
Definition decStart (s : list bool) : decState * list bool :=
  let (b0, s) := readByte s in
  let (b1, s) := readByte s in
  let next := (N.shiftl b0 8 + b1) mod two32 in
  let (b2, s) := readByte s in
  let next := (N.shiftl next 8 + b2) mod two32 in
  let (b3, s) := readByte s in
  let next := (N.shiftl next 8 + b3) mod two32 in
  (mkDec 0 4294967295 next, s).

(** BitCoders.cpp 133-137. *)
Fixpoint decRenorm (fuel : nat) (st : decState) (s : list bool) : outcome (decState * list bool) :=
  if sameTopByte (d_low st) (d_high st) then
    match fuel with
    | O => Fuel
    | S f =>
      let (b, s') := readByte s in
      decRenorm f (mkDec (N.shiftl (d_low st) 8 mod two32)
                         ((N.shiftl (d_high st) 8 + 255) mod two32)
                         ((N.shiftl (d_next st) 8 + b) mod two32)) s'
    end
  else Ok (st, s).

(** BitCoders.cpp 129-148. *)
Definition decode (st : decState) (p : N) (s : list bool) : outcome (bool * decState * list bool) :=
  let! split := Split (d_low st) (d_high st) p in
  let bit := d_next st <=? split in
  let st1 := if bit then mkDec (d_low st) split (d_next st)
             else mkDec ((split + 1) mod two32) (d_high st) (d_next st) in
  let! (st2, s') := decRenorm 5 st1 s in
  if (d_low st2 <? d_high st2) && (d_low st2 <=? d_next st2) && (d_next st2 <=? d_high st2)
  then Ok (bit, st2, s') else UB.

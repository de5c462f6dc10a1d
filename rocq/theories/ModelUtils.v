(** Transcription of the integer coders of /repo/Utils.hpp and /repo/Utils.cpp. *)
From Coq Require Import List NArith Arith Bool.
From Verif Require Import Base.
Import ListNotations.
Open Scope N_scope.

Definition two64 : N := 2 ^ 64.
Definition two32 : N := 2 ^ 32.

(** [InStream::readBit] (Streams.hpp 120-126) on the remaining bits of the
    stream.  At the end of the file [fetchByte] returns EOF = -1, which is cast
    to the byte 0xFF: past the end all bits are 1.  Simplification: the bit
    stream is a list; ModelStreams.v relates it to the buffered stream. *)
Definition readBit (s : list bool) : bool * list bool :=
  match s with
  | [] => (true, [])
  | b :: s' => (b, s')
  end.

(** ** logFloor, logCeiling, most significant bit *)

(** Utils.hpp 98-103 (portable branch of both [logFloor]s): number of times [n]
    can be halved until it is at most 1.  [fuel] bounds the halvings (32 for
    [unsigned], 64 for [unsigned long]).  [n] = 0 fails the assertion. *)
Fixpoint logFloorLoop (fuel : nat) (n log : N) : outcome N :=
  if n <=? 1 then Ok log
  else match fuel with
       | O => Fuel
       | S f => logFloorLoop f (N.shiftr n 1) (log + 1)
       end.
Definition logFloorPortable (n : N) : outcome N :=
  if n =? 0 then UB else logFloorLoop 64 n 0.

(** [__builtin_clz]/[__builtin_clzl] on a [w]-bit integer: number of leading
    zero bits, undefined for 0 (GCC manual).  Scans from bit [w-1] downwards. *)
Fixpoint clz (w : nat) (n : N) : N :=
  match w with
  | O => 0
  | S w' => if N.testbit n (N.of_nat w') then 0 else 1 + clz w' n
  end.

(** Utils.hpp 93-96 and 107-110, [w] = 32 or 64: sizeof(n)*8 - clz(n) - 1. *)
Definition logFloorGnu (w : nat) (n : N) : outcome N :=
  if n =? 0 then UB else Ok (N.of_nat w - clz w n - 1).

(** The [unsigned long] version, used by all callers in this model
    (Utils.hpp 107-119, GNU branch). *)
Definition logFloor (n : N) : outcome N := logFloorGnu 64 n.

(** The int expression [1 << k] (Utils.hpp 125, 243, 304, 325): defined for
    k <= 30 only, [int] having 32 bits. *)
Definition intShl1 (k : N) : outcome N := if k <=? 30 then Ok (2 ^ k) else UB.

(** Utils.hpp 122-126. *)
Definition logCeiling (n : N) : outcome N :=
  let! log := logFloor n in
  let! p := intShl1 log in
  Ok (if p <? n then log + 1 else log).

(** Utils.cpp 38-45; the argument must be below 2^16 (assertion).  [~] is the
    32-bit complement. *)
Definition mostSignificantBit16 (n : N) : outcome N :=
  if n <? 2 ^ 16 then
    let n := N.lor n (N.shiftr n 1) in
    let n := N.lor n (N.shiftr n 2) in
    let n := N.lor n (N.shiftr n 4) in
    let n := N.lor n (N.shiftr n 8) in
    Ok (N.land n (N.lxor (N.shiftr n 1) (two32 - 1)))
  else UB.

(** Utils.cpp 47-55. *)
Definition mostSignificantBit (n : N) : N :=
  let n := N.lor n (N.shiftr n 1) in
  let n := N.lor n (N.shiftr n 2) in
  let n := N.lor n (N.shiftr n 4) in
  let n := N.lor n (N.shiftr n 8) in
  let n := N.lor n (N.shiftr n 16) in
  N.land n (N.lxor (N.shiftr n 1) (two32 - 1)).

(** ** Packed integers *)

(** Utils.cpp 89-101, loop.  [assert(i < 8)] and the shift by [i*8 >= 64] both
    make [i >= 8] undefined. *)
Fixpoint packLoop (fuel : nat) (integer result : N) (i : nat) : outcome (N * nat) :=
  if integer =? 0 then Ok (result, i)
  else if (8 <=? i)%nat then UB
  else match fuel with
       | O => Fuel
       | S f =>
         let sh := N.of_nat (i * 8) in
         let result := N.lor result (N.shiftl (N.land integer 127) sh) in
         let integer := N.shiftr integer 7 in
         let result := if integer =? 0 then result
                       else N.lor result (N.shiftl 128 sh) in
         packLoop f integer result (S i)
       end.

(** Utils.cpp 89-101: result and [*bytes_needed]. *)
Definition packInteger (integer : N) : outcome (N * nat) :=
  let! r := packLoop 9 integer 0 0 in
  let (result, i) := r in
  Ok (result, if (i =? 0)%nat then 1%nat else i).

(** Utils.cpp 103-114; the assertion fails (and the shift overflows soon after)
    when [bits_handled] passes 56. *)
Fixpoint unpackLoop (fuel : nat) (packed result bits_handled : N) : outcome N :=
  match fuel with
  | O => Fuel
  | S f =>
    let bits_left := negb (N.land packed 128 =? 0) in
    let result := N.lor result (N.shiftl (N.land packed 127) bits_handled) in
    let packed := N.shiftr packed 8 in
    let bits_handled := bits_handled + 7 in
    if bits_handled <=? 56 then
      if bits_left then unpackLoop f packed result bits_handled else Ok result
    else UB
  end.
Definition unpackInteger (packed : N) : outcome N := unpackLoop 9 packed 0 0.

(** The byte-writing loop of PrecompressorBlock.cpp 81-84, Grammar.cpp 450-454:
    the [k] low bytes, least significant first. *)
Fixpoint lowBytes (k : nat) (packed : N) : list N :=
  match k with
  | O => []
  | S k' => N.land packed 255 :: lowBytes k' (N.shiftr packed 8)
  end.

(** Utils.cpp 475-481 (also HuffmanCoders.cpp 316-322, WaveletCoders.cpp
    writePackedInteger): bytes until the rest is zero, at least one. *)
Fixpoint writePackedLoop (fuel : nat) (packed : N) : outcome (list N) :=
  match fuel with
  | O => Fuel
  | S f =>
    let b := N.land packed 255 in
    let packed := N.shiftr packed 8 in
    if packed =? 0 then Ok [b]
    else let! r := writePackedLoop f packed in Ok (b :: r)
  end.
Definition writePackedInteger (packed : N) : outcome (list N) := writePackedLoop 8 packed.

(** Utils.hpp 170-172: eight bits, most significant first, or-ed into [read]. *)
Fixpoint readByteBits (i : nat) (read : N) (s : list bool) : N * list bool :=
  match i with
  | O => (read, s)
  | S i' =>
    let (b, s') := readBit s in
    readByteBits i' (N.lor read (N.shiftl (N.b2n b) (N.of_nat i'))) s'
  end.

(** Utils.hpp 154-156: eight bits, least significant first. *)
Fixpoint readByteBitsRev (k i : nat) (read : N) (s : list bool) : N * list bool :=
  match k with
  | O => (read, s)
  | S k' =>
    let (b, s') := readBit s in
    readByteBitsRev k' (S i) (N.lor read (N.shiftl (N.b2n b) (N.of_nat i))) s'
  end.

(** Utils.hpp 164-178 and 148-162; [rd] reads the eight bits of the next byte.
    The shift [<< j] is undefined for [j >= 64].  Result: value, bytesRead and
    the remaining stream. *)
Fixpoint readPackedLoop (rd : list bool -> N * list bool) (fuel : nat) (j result : N)
    (bytesRead : nat) (s : list bool) : outcome (N * nat * list bool) :=
  match fuel with
  | O => Fuel
  | S f =>
    let (read, s') := rd s in
    if 64 <=? j then UB
    else
      let result := N.lor result (N.shiftl (N.land read 127) j mod two64) in
      if N.land read 128 =? 0 then Ok (result, S bytesRead, s')
      else readPackedLoop rd f (j + 7) result (S bytesRead) s'
  end.
Definition readPackedInteger (s : list bool) : outcome (N * nat * list bool) :=
  readPackedLoop (readByteBits 8 0) 11 0 0 0 s.
Definition readPackedIntegerRev (s : list bool) : outcome (N * nat * list bool) :=
  readPackedLoop (readByteBitsRev 8 0 0) 11 0 0 0 s.

(** [InStream::readByte] (Streams.hpp 128-133) on the abstract stream. *)
Definition readByte (s : list bool) : N * list bool := readByteBits 8 0 s.

(** HuffmanCoders.cpp 618-632, WaveletCoders.cpp 293-307: packed integer read
    byte by byte, still packed.  [read << i*8] is undefined for [i >= 8]; the
    value 0x80 is turned into the end symbol 2^63. *)
Fixpoint readStillPackedLoop (fuel : nat) (i : nat) (packed : N) (s : list bool)
    : outcome (N * list bool) :=
  match fuel with
  | O => Fuel
  | S f =>
    let (read, s') := readByte s in
    if (8 <=? i)%nat then UB
    else
      let packed := N.lor packed (N.shiftl read (N.of_nat (i * 8))) in
      if N.land read 128 =? 0 then Ok (packed, s')
      else readStillPackedLoop f (S i) packed s'
  end.
Definition readStillPacked (s : list bool) : outcome (N * list bool) :=
  let! r := readStillPackedLoop 9 0 0 s in
  let (p, s') := r in Ok (if p =? 128 then 2 ^ 63 else p, s').

(** Utils.cpp 59-72: the bytes stored at [to], in order. *)
Fixpoint packAndWriteLoop (fuel : nat) (integer : N) : outcome (list N) :=
  if integer =? 0 then Ok []
  else match fuel with
       | O => Fuel
       | S f =>
         let b := N.land integer 127 in
         let integer := N.shiftr integer 7 in
         let b := if integer =? 0 then b else N.lor b 128 in
         let! r := packAndWriteLoop f integer in Ok (b :: r)
       end.
Definition packAndWriteInteger (integer : N) : outcome (list N) := packAndWriteLoop 10 integer.

(** Utils.cpp 75-87: [from] points to the given bytes; running past them is
    undefined, and so is a shift by 64 or more.  Result: value and bytes read. *)
Fixpoint readAndUnpackLoop (from : list N) (bytes_read : nat) (result : N)
    : outcome (N * nat) :=
  match from with
  | [] => UB
  | read :: from' =>
    let sh := N.of_nat (7 * bytes_read) in
    if 64 <=? sh then UB
    else
      let result := N.lor result (N.shiftl (N.land read 127) sh mod two64) in
      if N.land read 128 =? 0 then Ok (result, S bytes_read)
      else readAndUnpackLoop from' (S bytes_read) result
  end.
Definition readAndUnpackInteger (from : list N) : outcome (N * nat) :=
  readAndUnpackLoop from 0 0.

(** ** Bit pushing *)

(** Utils.hpp 223-228 and 382-386: bit vectors are lists, [push_back] appends;
    the list of pushed bits is returned. *)
Definition pushBits (n : N) (bits : nat) : list bool :=
  map (fun i => N.odd (N.shiftr n (N.of_nat (bits - i)))) (seq 1 bits).

(** Utils.hpp 388-394. *)
Fixpoint pushBitsRev (n : N) (bits : nat) : list bool :=
  match bits with
  | O => []
  | S k => N.odd n :: pushBitsRev (N.shiftr n 1) k
  end.

(** ** Unary code *)

(** Utils.hpp 405-409: [while(n-- > 1) push(false); push(true)]. *)
Definition unaryCode (n : nat) : list bool := repeat false (n - 1) ++ [true].

(** Utils.hpp 411-416.  Past the end of the stream bits are 1, so the loop
    always ends. *)
Fixpoint unaryDecodeLoop (n : nat) (s : list bool) : nat * list bool :=
  match s with
  | [] => (n, [])
  | true :: s' => (n, s')
  | false :: s' => unaryDecodeLoop (S n) s'
  end.
Definition unaryDecode (s : list bool) : nat * list bool := unaryDecodeLoop 1 s.

(** ** Binary code of a bounded integer *)

(** Common prefix of Utils.hpp 240-244, 301-305, 322-326: code length, number of
    short codewords and half the number of long ones.  [rangeLen] is 64-bit
    arithmetic; [shortCodewords] is computed from [1 << codeLength] (int). *)
Definition binaryParams (rangeLen : N) : outcome (N * N * N) :=
  let! codeLength := logCeiling rangeLen in
  let! p := intShl1 codeLength in
  let shortCodewords := (p + two64 - rangeLen) mod two64 in
  let longCodewords2 := ((rangeLen + two64 - shortCodewords) mod two64) / 2 in
  Ok (codeLength, shortCodewords, longCodewords2).

(** Utils.hpp 238-252: the bits appended. *)
Definition binaryCode (n lo hi : N) : outcome (list bool) :=
  let rangeLen := (hi + two64 - lo + 1) mod two64 in
  if rangeLen =? 1 then Ok []
  else
    let! (codeLength, short, long2) := binaryParams rangeLen in
    let d := (n + two64 - lo) mod two64 in
    if d <? long2 then Ok (pushBits d (N.to_nat codeLength))
    else if d <? long2 + short then Ok (pushBits d (N.to_nat codeLength - 1))
    else Ok (pushBits ((d + two64 - short) mod two64) (N.to_nat codeLength)).

(** Utils.hpp 307-310: [k] bits shifted into [result]. *)
Fixpoint readInto (k : nat) (result : N) (s : list bool) : N * list bool :=
  match k with
  | O => (result, s)
  | S k' => let (b, s') := readBit s in readInto k' (N.lor (N.shiftl result 1) (N.b2n b)) s'
  end.

(** Utils.hpp 320-341 (299-318 is the same without counting): value, bits read
    (added to [*bitsRead]) and rest of the stream. *)
Definition binaryDecode (s : list bool) (lo hi : N) : outcome (N * nat * list bool) :=
  let rangeLen := (hi + two64 - lo + 1) mod two64 in
  if rangeLen =? 1 then Ok (lo, 0%nat, s)
  else
    let! (codeLength, short, long2) := binaryParams rangeLen in
    let cl := N.to_nat codeLength in
    let (result, s) := readInto (cl - 1) 0 s in
    if long2 <=? result then Ok (result + lo, (cl - 1)%nat, s)
    else
      let (b, s) := readBit s in
      let result := N.lor (N.shiftl result 1) (N.b2n b) in
      if result <? long2 then Ok (result + lo, cl, s)
      else Ok (result + lo + short, cl, s).

(** ** Binary interpolative code *)

(** Utils.hpp 263-280.  Simplification: instead of the whole list and the index
    range [begin, end] the function takes the sublist itself ([list[begin..end]],
    empty when begin > end), so that index arithmetic becomes list splitting;
    [half - begin] is [h], [end - half] is [length - 1 - h].  [fuel] bounds the
    recursion depth. *)
Fixpoint interpCode (fuel : nat) (l : list N) (lo hi : N) : outcome (list bool) :=
  match l with
  | [] => Ok []
  | _ =>
    let n := length l in
    if N.of_nat (n - 1) =? (hi + two64 - lo) mod two64 then Ok []
    else match l with
    | [x] => binaryCode x lo hi
    | _ =>
      match fuel with
      | O => Fuel
      | S f =>
        let h := ((n - 1) / 2)%nat in
        match skipn h l with
        | [] => UB
        | x :: rpart =>
          let! bm := binaryCode x (lo + N.of_nat h) (hi - N.of_nat (n - 1 - h)) in
          let! bl := (if (0 <? h)%nat then interpCode f (firstn h l) lo (x - 1) else Ok []) in
          let! br := interpCode f rpart (x + 1) hi in
          Ok (bm ++ bl ++ br)
        end
      end
    end
  end.

(** Utils.hpp 291-297; the list must not be empty (assertion). *)
Definition binaryInterpolativeCode (l : list N) (lo hi : N) : outcome (list bool) :=
  interpCode (length l) l lo hi.

(** Consecutive integers from [lo], [k] of them (Utils.hpp 349-350). *)
Fixpoint fromTo (lo : N) (k : nat) : list N :=
  match k with
  | O => []
  | S k' => lo :: fromTo (lo + 1) k'
  end.

(** Utils.hpp 343-362: decoded elements, number of bits read, rest. *)
Fixpoint interpDecode (fuel : nat) (s : list bool) (lo hi : N) (elements : nat)
    : outcome (list N * nat * list bool) :=
  if (elements =? 0)%nat then Ok ([], 0%nat, s)
  else if N.of_nat elements =? (hi + two64 - lo + 1) mod two64 then Ok (fromTo lo elements, 0%nat, s)
  else match fuel with
  | O => Fuel
  | S f =>
    let h := ((elements - 1) / 2)%nat in
    let r := (elements / 2 - h)%nat in
    let! (mid, n0, s) := binaryDecode s (lo + N.of_nat h) (hi - N.of_nat h - N.of_nat r) in
    let! (lpart, n1, s) := interpDecode f s lo ((mid + two64 - 1) mod two64) h in
    let! (rpart, n2, s) := interpDecode f s (mid + 1) hi (elements - h - 1) in
    Ok (lpart ++ mid :: rpart, (n0 + n1 + n2)%nat, s)
  end.
Definition binaryInterpolativeDecode (s : list bool) (lo hi : N) (elements : nat)
  : outcome (list N * nat * list bool) := interpDecode elements s lo hi elements.

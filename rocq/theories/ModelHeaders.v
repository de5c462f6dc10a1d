(** Transcription of the BWT block header (/repo/BWTBlock.cpp), of the common part of the
    entropy-coder block headers (/repo/HuffmanCoders.cpp, /repo/WaveletCoders.cpp) and of
    the slicing of precompressor blocks (/repo/PrecompressorBlock.cpp).
    Output functions return the bytes handed to OutStream::writeByte, in order. *)
From Coq Require Import List NArith Arith Bool.
From Verif Require Import Base ModelUtils ModelStreams.
Import ListNotations.
Open Scope N_scope.

(** ** Bits gathered into bytes *)

(** The body of the inner loop of BWTBlock.cpp 72-79: byte [s], [bitsLeft], bytes
    written so far. *)
Definition gatherBit (st : N * nat * list N) (bit : bool) : N * nat * list N :=
  let '(s, bitsLeft, out) := st in
  let s := N.lor (N.shiftl s 1 mod 256) (N.b2n bit) in
  let bitsLeft := (bitsLeft - 1)%nat in
  if (bitsLeft =? 0)%nat then (s, 8%nat, out ++ [s]) else (s, bitsLeft, out).

(** BWTBlock.cpp 61-86: bytes written and the returned number of bytes.  The count
    starts at 1 for the size byte and is incremented with every further byte. *)
Definition writeHeader (lf : list N) : list N * nat :=
  let s := (N.of_nat (length lf) + 255) mod 256 in
  let '(s', bitsLeft, out) :=
    fold_left (fun st v => fold_left (fun st j => gatherBit st (N.testbit v j)) 
                             (map N.of_nat (rev (seq 0 31))) st)
              lf (s, 8%nat, [s]) in
  let out := if (bitsLeft <? 8)%nat then out ++ [N.shiftl s' (N.of_nat bitsLeft) mod 256] else out in
  (out, length out).

(** BWTBlock.cpp 95-100. *)
Fixpoint readPowers (k : nat) (s : list bool) : list N * list bool :=
  match k with
  | O => ([], s)
  | S k' =>
    let (v, s) := readInto 31 0 s in
    let (l, s) := readPowers k' s in (v :: l, s)
  end.
(** BWTBlock.cpp 88-102. *)
Definition readHeader (s : list bool) : list N * list bool :=
  let (n, s) := readByte s in
  let (l, s) := readPowers (N.to_nat (n + 1)) s in
  (l, absFlushBuffer s).

(** BWTBlock.cpp 104-108: the number of starting points. *)
Definition prepareLFpowers (length startingPoints : N) : N :=
  if (length <=? 256) || (startingPoints =? 0) then 1
  else if startingPoints <=? 256 then startingPoints
  else 256.

(** HuffmanCoders.cpp 169-178, WaveletCoders.cpp 127-136: a vector of bits written as
    bytes.  One byte: [b <<= 1; b |= bit] for up to eight bits, then [b <<= 8-j]. *)
Definition shapeByte (bits : list bool) : N :=
  let b := fold_left (fun b (bit : bool) => N.lor (N.shiftl b 1 mod 256) (N.b2n bit)) bits 0 in
  let j := length bits in
  if (j <? 8)%nat then N.shiftl b (N.of_nat (8 - j)) mod 256 else b.
Fixpoint writeShapeLoop (fuel : nat) (shape : list bool) : list N :=
  match shape with
  | [] => []
  | _ =>
    match fuel with
    | O => []
    | S f => shapeByte (firstn 8 shape) :: writeShapeLoop f (skipn 8 shape)
    end
  end.
Definition writeShapeBytes (shape : list bool) : list N := writeShapeLoop (length shape) shape.

(** ** Sections *)

(** HuffmanCoders.cpp 283-290, WaveletCoders.cpp 185-192: [temp] and [sum] after the
    loop over the statistics; entries of [temp] are uint32. *)
Fixpoint sectionLoop (stats : list N) (sum : N) (temp : list N) : N * list N :=
  match stats with
  | [] => (sum, temp)
  | x :: r =>
    let sum := (sum + x) mod two64 in
    if 10000 <=? sum then sectionLoop r 0 (temp ++ [sum mod two32])
    else sectionLoop r sum temp
  end.
(** HuffmanCoders.cpp 283-296, WaveletCoders.cpp 185-198. *)
Definition deduceSections (stats : list N) : list N :=
  let (sum, temp) := sectionLoop stats 0 [] in
  if sum =? 0 then temp
  else match rev temp with
       | [] => [sum mod two32]
       | x :: r => rev r ++ [(x + sum) mod two32]
       end.

(** HuffmanCoders.cpp 307-312, WaveletCoders.cpp 209-214: bytes written and the sum of
    the [bytes] results. *)
Fixpoint writeLengths (stats : list N) : outcome (list N * nat) :=
  match stats with
  | [] => Ok ([], 0%nat)
  | x :: r =>
    let! (packed, bytes) := packInteger x in
    let! w := writePackedInteger packed in
    let! (ws, n) := writeLengths r in
    Ok (w ++ ws, (bytes + n)%nat)
  end.

(** HuffmanCoders.cpp 271-313, WaveletCoders.cpp 173-219 without the six zero bytes:
    the sections, the bytes written and headerLength. *)
Definition writeBlockHeader (lf stats : list N) : outcome (list N * list N * nat) :=
  let (h, hn) := writeHeader lf in
  let sections := deduceSections stats in
  let k := length sections in
  if (k <=? 256)%nat then
    let len := if (k =? 256)%nat then 0 else N.of_nat k mod 256 in
    let! (ls, ln) := writeLengths sections in
    Ok (sections, h ++ len :: ls, (hn + 1 + ln)%nat)
  else UB.

(** HuffmanCoders.cpp 331-334, WaveletCoders.cpp 239-242. *)
Fixpoint readLengths (k : nat) (s : list bool) : outcome (list N * list bool) :=
  match k with
  | O => Ok ([], s)
  | S k' =>
    let! (packed, s) := readStillPacked s in
    let! v := unpackInteger packed in
    let! (l, s) := readLengths k' s in
    Ok (v :: l, s)
  end.

(** HuffmanCoders.cpp 324-336, WaveletCoders.cpp 231-244: compressed length, starting
    points, section lengths, rest of the stream. *)
Definition readBlockHeader (s : list bool) : outcome (N * list N * list N * list bool) :=
  let (compressed, s) := absRead48bits s in
  let (lf, s) := readHeader s in
  let (sections, s) := readByte s in
  let sects := if sections =? 0 then 256 else sections in
  let! (stats, s) := readLengths (N.to_nat sects) s in
  Ok (compressed, lf, stats, s).

(** ** Output stream as a list of bytes *)

(** What OutStream::write48bits does to the bytes written so far, see C25. *)
Definition absWrite48 (written : list N) (v : N) (position : nat) : outcome (list N) :=
  if (v <? 2 ^ 48) && (position + 6 <=? length written)%nat then
    Ok (firstn position written ++ bytes48 v ++ skipn (position + 6) written)
  else UB.

(** ** Slicing *)

(** PrecompressorBlock.cpp 123-134.  The result lists begin and size of each slice.  The
    loop does not end for [blockSize] = 0. *)
Fixpoint sliceLoop (fuel : nat) (blockSize used begin : nat) : outcome (list (nat * nat)) :=
  if (begin <? used)%nat then
    match fuel with
    | O => Fuel
    | S f =>
      let bSize := Nat.min blockSize (used - begin) in
      let! r := sliceLoop f blockSize used (begin + bSize) in
      Ok ((begin, bSize) :: r)
    end
  else Ok [].
Definition sliceIntoBlocks (fuel : nat) (used reserved blockSize : nat) : outcome (list (nat * nat)) :=
  if ((used <? reserved)%nat && (N.of_nat blockSize <? 2 ^ 31 - 2)) then sliceLoop fuel blockSize used 0
  else UB.

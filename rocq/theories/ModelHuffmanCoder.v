(** Transcription of the Huffman entropy coder, /repo/HuffmanCoders.cpp 51-61, 119-261 and
    338-616.  The transformed block is a list of bytes, the starting points of the inverse
    transform a list of integers. *)
From Coq Require Import List NArith Arith Bool.
From Verif Require Import Base Arrays ModelUtils ModelRuns ModelStreams ModelHeaders ModelHuffman.
Import ListNotations.
Open Scope N_scope.

(** ** Encoder *)

(** HuffmanCoders.cpp 196-200, 226-230: [while (bitsInBuffer + len > 64)].  [bitsInBuffer]
    becomes negative when fewer than 8 bits are left, and shifting by it is undefined. *)
Fixpoint drain (bitsInBuffer : nat) (len : nat) (buffer : N) : outcome (nat * list N) :=
  if (64 <? bitsInBuffer + len)%nat then
    match bitsInBuffer with
    | S (S (S (S (S (S (S (S b))))))) =>
      let! (b', out) := drain b len buffer in
      Ok (b', N.land (N.shiftr buffer (N.of_nat b)) 255 :: out)
    | _ => UB
    end
  else Ok (bitsInBuffer, []).
(** HuffmanCoders.cpp 207-211, 235-239. *)
Fixpoint drainAll (bitsInBuffer : nat) (buffer : N) : nat * list N :=
  match bitsInBuffer with
  | S (S (S (S (S (S (S (S b))))))) =>
    let (b', out) := drainAll b buffer in
    (b', N.land (N.shiftr buffer (N.of_nat b)) 255 :: out)
  | _ => (bitsInBuffer, [])
  end.
(** HuffmanCoders.cpp 192-219, 222-244: codes given as (length, value); [<< 64] is
    undefined for a 64-bit value. *)
Fixpoint packCodes (codes : list (nat * N)) (buffer : N) (bitsInBuffer : nat) : outcome (list N) :=
  match codes with
  | [] =>
    let (b, out) := drainAll bitsInBuffer buffer in
    if (0 <? b)%nat then
      let buffer := N.shiftl buffer (N.of_nat (8 - b)) mod two64 in
      Ok (out ++ [N.land buffer 255])
    else Ok out
  | (len, v) :: r =>
    let! (b, out) := drain bitsInBuffer len buffer in
    if (64 <=? len)%nat then UB
    else
      let buffer := N.lor (N.shiftl buffer (N.of_nat len) mod two64) v in
      let! out' := packCodes r buffer (b + len) in
      Ok (out ++ out')
  end.

(** HuffmanCoders.cpp 194-203: the code of every run character. *)
Fixpoint symbolCodes (clen code : list N) (runseq : list N) : outcome (list (nat * N)) :=
  match runseq with
  | [] => Ok []
  | c :: r =>
    let! l := get clen (N.to_nat c) in
    let! v := get code (N.to_nat c) in
    let! t := symbolCodes clen code r in
    Ok ((N.to_nat l, v) :: t)
  end.
(** HuffmanCoders.cpp 224-233: gamma codes of the run lengths. *)
Fixpoint gammaCodes (runlen : list nat) : outcome (list (nat * N)) :=
  match runlen with
  | [] => Ok []
  | n :: r =>
    let! lg := logFloor (N.of_nat n) in
    let! t := gammaCodes r in
    Ok (((N.to_nat lg) * 2 + 1, N.of_nat n)%nat :: t)
  end.

(** The counter array as a list of 256 elements. *)
Definition countersArray (f : counters N) : list N := map f (fromTo 0 256).

(** HuffmanCoders.cpp 133-246 for one section: the bytes written and the amount added to
    m_compressedBlockLength. *)
Definition encodeSection (data : list N) : outcome (list N * nat) :=
  let! (freqs, runseq, runlen, nRuns) := calculateRunFrequenciesAndStoreRuns (fun _ => 0) data in
  let! codeLengths := calculateHuffmanLengths (countersArray freqs) in
  let! clen := fillLengths (repeat 0 256) codeLengths in
  let! (packed, bytes) := packInteger (N.of_nat nRuns) in
  let! w := writePackedInteger packed in
  let! shape := serializeShape clen in
  let shapeBytes := writeShapeBytes shape in
  let! code := computeHuffmanCodes clen in
  let! cs := symbolCodes clen code runseq in
  let! body := packCodes cs 0 0 in
  let! gs := gammaCodes runlen in
  let! lengths := packCodes gs 0 0 in
  Ok (w ++ shapeBytes ++ body ++ lengths,
      (bytes + length shapeBytes + length body + length lengths)%nat).

(** HuffmanCoders.cpp 134-248: the sections, empty ones are skipped. *)
Fixpoint encodeData (sections : list N) (data : list N) : outcome (list N * nat) :=
  match sections with
  | [] => Ok ([], 0%nat)
  | n :: r =>
    if n =? 0 then encodeData r data
    else if (length data <? N.to_nat n)%nat then UB
    else
      let! (out, k) := encodeSection (firstn (N.to_nat n) data) in
      let! (out', k') := encodeData r (skipn (N.to_nat n) data) in
      Ok (out ++ out', (k + k')%nat)
  end.

(** HuffmanCoders.cpp 51-61, 259-261, 271-313 after the transform: appends a block to the
    bytes already written, returns them and the returned size. *)
Definition encodeBlock (written lf stats data : list N) : outcome (list N * nat) :=
  let! (sections, header, headerLength) := writeBlockHeader lf stats in
  let! (body, k) := encodeData sections data in
  let! out := absWrite48 (written ++ repeat 0 6 ++ header ++ body)
                (N.of_nat (headerLength + k)) (length written) in
  Ok (out, (headerLength + k + 6)%nat).

(** ** Decoder *)

(** HuffmanCoders.cpp 385-392: the entry [leadingZeros[p][k]] of the 9 x 256 table. *)
Definition leadingZeros (p : nat) (k : N) : outcome nat :=
  if ((8 <? p)%nat || (256 <=? k))%bool then UB
  else Ok (fold_left (fun a t => if N.testbit k (N.of_nat t) then (p - t - 1)%nat else a) (seq 0 p) p).

(** lookupWhich and lookupLength, 50 x 256. *)
Definition table := list (list (N * nat)).
Definition get2 (t : table) (i : nat) (j : N) : outcome (N * nat) :=
  let! row := get t i in get row (N.to_nat j).
Definition set2 (t : table) (i : nat) (j : N) (v : N * nat) : outcome table :=
  let! row := get t i in let! row := set row (N.to_nat j) v in set t i row.

(** HuffmanCoders.cpp 396-400. *)
Definition maxNonZeroBit (code : N) : nat :=
  S (fold_left (fun a j => if N.testbit code (N.of_nat j) then j else a) (seq 0 16) 0%nat).
(** HuffmanCoders.cpp 403-406. *)
Fixpoint fillEntries (n : nat) (t : table) (lead0 : nat) (from : N) (v : N * nat) : outcome table :=
  match n with
  | O => Ok t
  | S n' => let! t := set2 t lead0 from v in fillEntries n' t lead0 (from + 1) v
  end.
(** HuffmanCoders.cpp 395-407; negative [lead0] and [rest] are undefined. *)
Fixpoint fillTable (clen code : list N) (k : N) (t : table) : outcome table :=
  match clen, code with
  | l :: clen', c :: code' =>
    if ((0 <? l) && (0 <? c))%bool then
      let m := maxNonZeroBit c in
      if ((N.to_nat l <? m)%nat || (8 <? m)%nat)%bool then UB
      else
        let! t := fillEntries (2 ^ (8 - m)) t (N.to_nat l - m) (N.shiftl c (N.of_nat (8 - m))) (k, m) in
        fillTable clen' code' (k + 1) t
    else fillTable clen' code' (k + 1) t
  | _, _ => Ok t
  end.
(** HuffmanCoders.cpp 393-394; lookupLength is not initialised, its entries are only read
    after the test of lookupWhich. *)
Definition emptyTable : table := repeat (repeat (256, 0%nat) 256) 50.
(** HuffmanCoders.cpp 410-417: length and symbol of the code consisting of zeros. *)
Fixpoint zeroCode (clen code : list N) (k : N) (acc : nat * N) : nat * N :=
  match clen, code with
  | l :: clen', c :: code' =>
    zeroCode clen' code' (k + 1) (if ((0 <? l) && (c =? 0))%bool then (N.to_nat l, k) else acc)
  | _, _ => acc
  end.

(** Decoding state: buffer, bitsInBuffer, zeroCount. *)
Definition dstate := (N * nat * nat)%type.

(** HuffmanCoders.cpp 431-434 and copies: code0s while [zeroCount >= len0]; [n] is
    [nRuns - haveDecoded].  Result: symbols, zeroCount, what is left of [n]. *)
Fixpoint extractZeros (len0 : nat) (code0 : N) (n : nat) (zeroCount : nat) : list N * nat * nat :=
  match n with
  | O => ([], zeroCount, O)
  | S n' =>
    if (len0 <=? zeroCount)%nat then
      let '(out, z, m) := extractZeros len0 code0 n' (zeroCount - len0) in (code0 :: out, z, m)
    else ([], zeroCount, n)
  end.

(** HuffmanCoders.cpp 451-459 and copies: try to take one code from the buffer. *)
Definition extractOne (t : table) (st : dstate) : outcome (option N * dstate) :=
  let '(buffer, bitsInBuffer, zeroCount) := st in
  let sbuffer := N.shiftl buffer (N.of_nat (8 - bitsInBuffer)) mod 256 in
  let! (w, l) := get2 t zeroCount sbuffer in
  if ((w <? 256) && (l <=? bitsInBuffer)%nat)%bool then
    let b := (bitsInBuffer - l)%nat in
    let! z := leadingZeros b buffer in
    let b := (b - z)%nat in
    Ok (Some w, (N.land buffer (2 ^ N.of_nat b - 1), b, z))
  else Ok (None, st).

(** HuffmanCoders.cpp 468-484, 505-521, 529-547, 564-583; [n] is [nRuns - haveDecoded].
    An iteration that does not end the loop decodes something. *)
Fixpoint extractLoop (fuel : nat) (t : table) (len0 : nat) (code0 : N) (n : nat) (st : dstate)
    : outcome (list N * nat * dstate) :=
  match n with
  | O => Ok ([], O, st)
  | S n1 =>
    match fuel with
    | O => Fuel
    | S f =>
      let! (one, st) := extractOne t st in
      let n2 := match one with Some _ => n1 | None => n end in
      let '(buffer, b, zeroCount) := st in
      let '(zeros, z, n3) := extractZeros len0 code0 n2 zeroCount in
      let out := match one with Some w => w :: zeros | None => zeros end in
      match out with
      | [] => Ok ([], n, st)
      | _ =>
        let! (out', n4, st) := extractLoop f t len0 code0 n3 (buffer, b, z) in
        Ok (out ++ out', n4, st)
      end
    end
  end.

(** HuffmanCoders.cpp 494-503, 552-561: a code that ends in the byte [b]. *)
Definition crossing (t : table) (st : dstate) (b : N) (mask : bool) : outcome (N * dstate) :=
  let '(buffer, bitsInBuffer, zeroCount) := st in
  let cbuffer := N.lor (N.shiftl buffer (N.of_nat (8 - bitsInBuffer)) mod 256) (N.shiftr b (N.of_nat bitsInBuffer)) in
  let! (w, l) := get2 t zeroCount cbuffer in
  if w <? 256 then
    let bits := (bitsInBuffer + (8 - l))%nat in
    let! z := leadingZeros bits b in
    let bits := (bits - z)%nat in
    Ok (w, (if mask then N.land b (2 ^ N.of_nat bits - 1) else b, bits, z))
  else UB.

(** One iteration of the loop of HuffmanCoders.cpp 423-587; [n] is [nRuns - haveDecoded] > 0. *)
Definition decodeStep (t : table) (len0 : nat) (code0 : N) (n : nat) (st : dstate) (s : list bool)
    : outcome (list N * nat * dstate * list bool) :=
  let '(buffer, bitsInBuffer, zeroCount) := st in
  let (b, s) := readByte s in
  if ((0 <? zeroCount)%nat && (bitsInBuffer =? 0)%nat)%bool then
    let buffer := b in
    if buffer =? 0 then
      let '(out, z, n) := extractZeros len0 code0 n (zeroCount + 8) in
      Ok (out, n, (buffer, bitsInBuffer, z), s)
    else
      let! lz := leadingZeros 8 buffer in
      let bitsInBuffer := (8 - lz)%nat in
      let '(out1, zeroCount, n) := extractZeros len0 code0 n (zeroCount + lz) in
      let st := (buffer, bitsInBuffer, zeroCount) in
      (* code on the boundary of the previous byte and b *)
      let! (out2, n, st) :=
        (if ((8 <? zeroCount + bitsInBuffer) && (0 <? n))%nat%bool then
           let! (one, st) := extractOne t st in
           let '(buffer, bits, z) := st in
           let n := match one with Some _ => (n - 1)%nat | None => n end in
           let '(zeros, z, n) := extractZeros len0 code0 n z in
           Ok (match one with Some w => w :: zeros | None => zeros end, n, (buffer, bits, z))
         else Ok ([], n, st)) in
      let '(_, bits2, z2) := st in
      if ((z2 + bits2 <=? 8) && (0 <? n))%nat%bool then
        let! (out3, n, st) := extractLoop n t len0 code0 n st in
        Ok (out1 ++ out2 ++ out3, n, st, s)
      else if ((8 <? z2 + bits2) && (0 <? n))%nat%bool then
        let (nextb, s) := readByte s in
        let! (w, st) := crossing t st nextb false in
        let! (out3, n, st) := extractLoop n t len0 code0 (n - 1) st in
        Ok (out1 ++ out2 ++ w :: out3, n, st, s)
      else Ok (out1 ++ out2, n, st, s)
  else if ((zeroCount =? 0)%nat && (bitsInBuffer =? 0)%nat)%bool then
    let! z := leadingZeros 8 b in
    let! (out, n, st) := extractLoop n t len0 code0 n (b, (8 - z)%nat, z) in
    Ok (out, n, st, s)
  else
    let! (w, st) := crossing t st b true in
    let! (out, n, st) := extractLoop n t len0 code0 (n - 1) st in
    Ok (w :: out, n, st, s).

(** HuffmanCoders.cpp 420-587. *)
Fixpoint decodeLoop (fuel : nat) (t : table) (len0 : nat) (code0 : N) (n : nat) (st : dstate) (s : list bool)
    : outcome (list N * list bool) :=
  match n with
  | O => Ok ([], s)
  | _ =>
    match fuel with
    | O => Fuel
    | S f =>
      let! (out, n, st, s) := decodeStep t len0 code0 n st s in
      let! (out', s) := decodeLoop f t len0 code0 n st s in
      Ok (out ++ out', s)
    end
  end.

(** HuffmanCoders.cpp 593-594; past the end of the stream the bits are 1. *)
Fixpoint countZeroBits (zeros : nat) (s : list bool) : nat * list bool :=
  match s with
  | [] => (zeros, [])
  | true :: r => (zeros, r)
  | false :: r => countZeroBits (S zeros) r
  end.
(** HuffmanCoders.cpp 596-599: [value << 1] in 64 bits. *)
Fixpoint readValueBits (k : nat) (value : N) (s : list bool) : N * list bool :=
  match k with
  | O => (value, s)
  | S k' =>
    let (bit, s) := readBit s in
    readValueBits k' (N.lor (N.shiftl value 1 mod two64) (if bit then 1 else 0)) s
  end.
(** HuffmanCoders.cpp 591-602; the result is stored in a uint32. *)
Fixpoint readRunLengths (n : nat) (s : list bool) : outcome (list N * list bool) :=
  match n with
  | O => Ok ([], s)
  | S n' =>
    let (zeros, s) := countZeroBits 0 s in
    let (value, s) := readValueBits zeros 0 s in
    let! p := intShl1 (N.of_nat zeros) in
    let! (l, s) := readRunLengths n' s in
    Ok (N.lor value p mod two32 :: l, s)
  end.

(** HuffmanCoders.cpp 606-612. *)
Definition expandRuns (runseq runlen : list N) : list N :=
  flat_map (fun r => repeat (fst r) (N.to_nat (snd r))) (combine runseq runlen).

(** HuffmanCoders.cpp 362-612 for one section.  [blockSize] is the capacity of runseq and
    runlen.  Simplification: writing behind the memory of the block is not detected. *)
Definition decodeSection (blockSize : N) (s : list bool) : outcome (list N * list bool) :=
  let! (packed, s) := readStillPacked s in
  let! nRuns := unpackInteger packed in
  let! (clen, _, s) := deserializeShape s in
  let! code := computeHuffmanCodes clen in
  let! t := fillTable clen code 0 emptyTable in
  let (len0, code0) := zeroCode clen code 0 (0%nat, 0) in
  if blockSize <? nRuns then UB
  else
    let! (runseq, s) := decodeLoop (S (length s)) t len0 code0 (N.to_nat nRuns) (0, 0%nat, 0%nat) s in
    let s := absFlushBuffer s in
    let! (runlen, s) := readRunLengths (N.to_nat nRuns) s in
    Ok (expandRuns runseq runlen, absFlushBuffer s).

Fixpoint decodeSections (blockSize : N) (sections : list N) (s : list bool) : outcome (list N * list bool) :=
  match sections with
  | [] => Ok ([], s)
  | n :: r =>
    if n =? 0 then decodeSections blockSize r s
    else
      let! (data, s) := decodeSection blockSize s in
      let! (data', s) := decodeSections blockSize r s in
      Ok (data ++ data', s)
  end.

(** HuffmanCoders.cpp 338-616: [None] when there is no more data, otherwise the starting
    points, the bytes decoded, the size the block is set to, and the rest. *)
Definition decodeBlock (s : list bool) : outcome (option (list N * list N * N) * list bool) :=
  if absDataEnding s then Ok (None, s)
  else
    let! (_, lf, sections, s) := readBlockHeader s in
    let blockSize := fold_left (fun a x => (a + x) mod two64) sections 0 in
    let! (data, s) := decodeSections blockSize sections s in
    Ok (Some (lf, data, blockSize), s).

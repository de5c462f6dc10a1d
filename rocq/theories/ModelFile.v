(** Transcription of the compression and decompression of a file: /repo/Compressor.cpp,
    /repo/Decompressor.cpp, /repo/EntropyCoders.cpp.
    The input is a list of bytes (RawInStream::readBlock, C26), the output the list of the
    bytes written (RawOutStream, C25). *)
From Coq Require Import List NArith Arith Bool.
From Verif Require Import Base ModelUtils ModelStreams ModelHeaders ModelHuffmanCoder ModelBWT ModelGrammar.
Import ListNotations.
Open Scope N_scope.

(** An entropy coder (EntropyCoders.hpp 41-73).  The state is what encoder and decoder objects keep from
    block to block.  [ec_encode state written lf stats data]: the part of transformAndEncode
    behind the transform; new state, everything written, returned size.  [ec_decode]:
    decodeBlock as in ModelHuffmanCoder. *)
Record entropyCoder := mkCoder {
  ec_state : Type;
  ec_init : ec_state;
  ec_encode : ec_state -> list N -> list N -> list N -> list N -> outcome (ec_state * list N * nat);
  ec_decode : ec_state -> list bool -> outcome (option (list N * list N * N) * ec_state * list bool)
}.

(** HuffmanEncoder and HuffmanDecoder keep nothing between blocks. *)
Definition huffmanCoder : entropyCoder := mkCoder unit tt
  (fun _ written lf stats data => let! (out, n) := encodeBlock written lf stats data in Ok (tt, out, n))
  (fun _ s => let! (r, s) := decodeBlock s in Ok (r, tt, s)).

(** EntropyCoders.cpp 36-64: 'H' is the Huffman coder, every other character the wavelet coder. *)
Definition giveCoder (wavelet : N -> entropyCoder) (c : N) : entropyCoder :=
  if c =? 72 then huffmanCoder else wavelet c.

(** ** Compressor *)

Section Compress.
(** The suffix sorter (ModelBWT), the number of starting points, the precompressor with its
    options (ModelPairs), whether there are options (Compressor.cpp 81), and the results of the
    floating point arithmetic: memLimit*0.74 (77), memLimit*0.185 (78) and
    (memLimit - pb->size())/4.5 (96). *)
Variable coder : entropyCoder.
Variable sorter : list N -> list nat.
Variable points : N.
Variable prec : list N -> outcome (grammar * list N).
Variable pbSize0 bwtSize0 : N.
Variable quotient : N -> N.
Variable anyOptions : bool.

(** Compressor.cpp 78-79 and 97: min(.., 0x7fffffff - 1). *)
Definition clampSize (n : N) : N := N.min n (2 ^ 31 - 2).

(** HuffmanCoders.cpp 51-61, WaveletCoders.cpp 77-87: transform and encode one slice. *)
Definition transformAndEncode (st : ec_state coder) (written slice : list N)
    : outcome (ec_state coder * list N * nat) :=
  let! (data, lf, stats) := doTransform slice (sorter (sortedText slice)) points in
  ec_encode coder st written lf stats data.

(** Compressor.cpp 106-112; the transform changes only the memory of its slice. *)
Fixpoint encodeSlices (st : ec_state coder) (written block : list N) (slices : list (nat * nat)) (size : nat)
    : outcome (ec_state coder * list N * nat) :=
  match slices with
  | [] => Ok (st, written, size)
  | (begin, len) :: r =>
    let! (st, written, n) := transformAndEncode st written (firstn len (skipn begin block)) in
    encodeSlices st written block r (size + n)
  end.

(** Compressor.cpp 85-115.  [fuel] bounds the number of blocks; sizes of zero are handled
    as the code does: no block is read, or slicing does not end (Fuel). *)
Fixpoint compressLoop (fuel : nat) (st : ec_state coder) (written input : list N) (pbSize bwtSize : N) (size : nat)
    : outcome (list N * nat) :=
  match fuel with
  | O => Fuel
  | S fuel =>
    let block := firstn (N.to_nat pbSize) input in
    let input := skipn (N.to_nat pbSize) input in
    match block with
    | [] => Ok (written ++ writeEmptyHeader, (size + 1)%nat)
    | _ =>
      let! (g, data) := prec block in
      let bwtSize := if pbSize =? bwtSize then bwtSize
                     else clampSize (quotient (N.of_nat (length data))) in
      let! slices := sliceIntoBlocks (length data) (length data) (S (length data)) (N.to_nat bwtSize) in
      let! (header, n) := writePreHeader (N.of_nat (length block)) (N.of_nat (length slices)) g in
      let! (st, written, size) := encodeSlices st (written ++ header) data slices (size + n) in
      compressLoop fuel st written input pbSize bwtSize size
    end
  end.

(** Compressor.cpp 65-118 (writeGlobalHeader 55-58): the bytes written and the result. *)
Definition compress (coderChar : N) (input : list N) : outcome (list N * nat) :=
  let bwtSize := clampSize bwtSize0 in
  let pbSize := if anyOptions then pbSize0 else bwtSize in
  compressLoop (S (length input)) (ec_init coder) [coderChar] input pbSize bwtSize 1.
End Compress.

(** ** Decompressor *)

Section Decompress.
(** What the memory behind the decoded bytes of a block contains (malloc). *)
Variable behind : nat -> N.

(** Decompressor.cpp 78-83.  [memory] is the size reserved, PrecompressorBlock.cpp 37-39.  A slice and the
    byte behind it, which InverseBWT.cpp 49 sets, have to be inside.  When no data is left the slice
    stays empty and has no starting points, which the inverse transform reads.
    Simplification: a slice whose size is not the number of bytes decoded is undefined. *)
Fixpoint decodeSlices (coder : entropyCoder) (n : nat) (memory : N) (st : ec_state coder) (used : list N) (s : list bool)
    : outcome (ec_state coder * list N * list bool) :=
  match n with
  | O => Ok (st, used, s)
  | S n =>
    let! (r, st, s) := ec_decode coder st s in
    match r with
    | None => UB
    | Some (lf, data, size) =>
      if (size =? N.of_nat (length data)) && (N.of_nat (length used + length data) <? memory) then
        let! data := inverseWith mtlInverse data (behind (length used + length data)) lf in
        decodeSlices coder n memory st (used ++ data) s
      else UB
    end
  end.

(** Decompressor.cpp 69-93: the bytes written and the result. *)
Fixpoint decompressLoop (coder : entropyCoder) (fuel : nat) (st : ec_state coder) (s : list bool) (out : list N)
    : outcome (list N * nat) :=
  match fuel with
  | O => Fuel
  | S fuel =>
    let! (h, s) := readPreHeader s in
    match h with
    | None => Ok (out, length out)
    | Some (size, slices, g) =>
      let! (st, data, s) := decodeSlices coder (N.to_nat slices) (size + 1) st [] s in
      let! text := postprocess g data in
      if N.of_nat (length text) =? size then decompressLoop coder fuel st s (out ++ text) else UB
    end
  end.

(** Decompressor.cpp 58-94 (readGlobalHeader 51-56). *)
Definition decompress (wavelet : N -> entropyCoder) (archive : list N) : outcome (list N * nat) :=
  let (c, s) := readByte (bytes_bits archive) in
  let coder := giveCoder wavelet c in
  decompressLoop coder (S (length s)) (ec_init coder) s [].
End Decompress.

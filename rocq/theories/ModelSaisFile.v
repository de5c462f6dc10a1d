(** Compression with option --bwt s: the definitions of ModelFile.v with any transform in the
    place of a suffix sorter, and the one with SA-IS. *)
From Coq Require Import List NArith Arith Bool.
From Verif Require Import Base ModelUtils ModelStreams ModelHeaders ModelBWT ModelGrammar ModelFile ModelSais.
Import ListNotations.
Open Scope N_scope.

Section Compress.
(** The transform of a block; the others as in ModelFile.v. *)
Variable coder : entropyCoder.
Variable transform : list N -> outcome (list N * list N * list N).
Variable prec : list N -> outcome (grammar * list N).
Variable pbSize0 bwtSize0 : N.
Variable quotient : N -> N.
Variable anyOptions : bool.

(** HuffmanCoders.cpp 51-61, WaveletCoders.cpp 77-87. *)
Definition transformAndEncodeBy (st : ec_state coder) (written slice : list N)
    : outcome (ec_state coder * list N * nat) :=
  let! (data, lf, stats) := transform slice in
  ec_encode coder st written lf stats data.

(** Compressor.cpp 106-112. *)
Fixpoint encodeSlicesBy (st : ec_state coder) (written block : list N) (slices : list (nat * nat)) (size : nat)
    : outcome (ec_state coder * list N * nat) :=
  match slices with
  | [] => Ok (st, written, size)
  | (begin, len) :: r =>
    let! (st, written, n) := transformAndEncodeBy st written (firstn len (skipn begin block)) in
    encodeSlicesBy st written block r (size + n)
  end.

(** Compressor.cpp 85-115. *)
Fixpoint compressLoopBy (fuel : nat) (st : ec_state coder) (written input : list N) (pbSize bwtSize : N) (size : nat)
    : outcome (list N * nat) :=
  match fuel with
  | O => Fuel
  | S fuel =>
    let block := firstn (N.to_nat pbSize) input in
    let input := skipn (N.to_nat pbSize) input in
    match block with
    | [] => Ok (written ++ writeEmptyHeader, (size + 1)%nat)
    | _ =>
      let! (g, data) := prec block in
      let bwtSize := if pbSize =? bwtSize then bwtSize
                     else clampSize (quotient (N.of_nat (length data))) in
      let! slices := sliceIntoBlocks (length data) (length data) (S (length data)) (N.to_nat bwtSize) in
      let! (header, n) := writePreHeader (N.of_nat (length block)) (N.of_nat (length slices)) g in
      let! (st, written, size) := encodeSlicesBy st (written ++ header) data slices (size + n) in
      compressLoopBy fuel st written input pbSize bwtSize size
    end
  end.

(** Compressor.cpp 65-118. *)
Definition compressBy (coderChar : N) (input : list N) : outcome (list N * nat) :=
  let bwtSize := clampSize bwtSize0 in
  let pbSize := if anyOptions then pbSize0 else bwtSize in
  compressLoopBy (S (length input)) (ec_init coder) [coderChar] input pbSize bwtSize 1.
End Compress.

(** The compressor with option --bwt s (Compressor.cpp 65-118, BWTManager.cpp 74-80). *)
Definition compressSais (coder : entropyCoder) (points : N) (prec : list N -> outcome (grammar * list N))
    (pbSize0 bwtSize0 : N) (quotient : N -> N) (anyOptions : bool) (coderChar : N) (input : list N) : outcome (list N * nat) :=
  compressBy coder (fun slice => saisTransform slice points) prec pbSize0 bwtSize0 quotient anyOptions coderChar input.

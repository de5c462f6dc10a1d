(** Transcription of the programs /repo/preprocess.cpp and /repo/postprocess.cpp without their command line. *)
From Coq Require Import List NArith Arith Bool.
From Verif Require Import Base ModelUtils ModelStreams ModelGrammar.
Import ListNotations.
Open Scope N_scope.

(** preprocess.cpp 76-91.  [prec] is Precompressor::precompress with its options (ModelPairs), [blockSize] the
    block size in bytes; [fuel] bounds the number of blocks.  Verbose output is left out. *)
Fixpoint preprocessLoop (prec : list N -> outcome (grammar * list N)) (fuel : nat) (blockSize : N) (written input : list N)
    : outcome (list N) :=
  match fuel with
  | O => Fuel
  | S fuel =>
    let block := firstn (N.to_nat blockSize) input in
    let input := skipn (N.to_nat blockSize) input in
    match block with
    | [] => Ok (written ++ writeEmptyHeader)
    | _ =>
      let! (g, data) := prec block in
      let! (header, _) := writePreHeaderCompressed (N.of_nat (length data)) g in
      preprocessLoop prec fuel blockSize (written ++ header ++ data) input
    end
  end.

(** preprocess.cpp 57-97: the file written. *)
Definition preprocessFile (prec : list N -> outcome (grammar * list N)) (blockSize : N) (input : list N) : outcome (list N) :=
  preprocessLoop prec (S (length input)) blockSize [] input.

(** preprocess.cpp 175 and 180: the block size from the number on the command line, which is in kB; uint64. *)
Definition blockSizeOf (kB : N) : N := (if kB =? 0 then 1 else kB) * 1024 mod 2 ^ 64.

(** postprocess.cpp 82-95. *)
Fixpoint postprocessLoop (fuel : nat) (s : list bool) (out : list N) : outcome (list N) :=
  match fuel with
  | O => Fuel
  | S fuel =>
    let! (h, s) := readPreHeaderCompressed s in
    match h with
    | None => Ok out
    | Some (g, data) =>
      let! text := postprocess g data in
      postprocessLoop fuel s (out ++ text)
    end
  end.

(** postprocess.cpp 67-100: the file written. *)
Definition postprocessFile (archive : list N) : outcome (list N) :=
  postprocessLoop (S (length archive)) (bytes_bits archive) [].

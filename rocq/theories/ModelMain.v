(** Transcription of the program compress (/repo/compress.cpp) and of the floating point
    arithmetic it reaches.  Doubles are the IEEE 754 binary64 numbers of the standard library
    ([SpecFloat] with 53 bits and largest exponent 1024), every operation rounded to the nearest, as
    on x86-64 with SSE. *)
From Coq Require Import List NArith ZArith Arith Bool SpecFloat.
From Verif Require Import Base ModelUtils ModelStreams ModelHeaders ModelBWT ModelGrammar ModelPairs ModelFreq ModelFile ModelSaisFile ModelWavelet.
Import ListNotations.
Open Scope N_scope.

(** ** Doubles *)

(** Conversion of a size_t to double (conv.fpint). *)
Definition toDouble (n : N) : spec_float := binary_normalize 53 1024 (Z.of_N n) 0 false.

(** A literal of the source: the double nearest to [num]/[den], both exactly representable. *)
Definition literal (num den : N) : spec_float := SFdiv 53 1024 (toDouble num) (toDouble den).

(** Conversion of a double to size_t: the fraction is dropped, a value that does not fit is
    undefined (conv.fpint). *)
Definition toSize (d : spec_float) : outcome N :=
  match d with
  | S754_zero _ => Ok 0
  | S754_finite false m e =>
    let v := Z.to_N (Z.shiftl (Zpos m) e) in
    if v <? 2 ^ 64 then Ok v else UB
  | S754_finite true m e => if (Z.shiftl (Zpos m) e =? 0)%Z then Ok 0 else UB
  | _ => UB
  end.

(** ** Compressor.cpp *)

(** Compressor.cpp 77. *)
Definition pbSizeOf (memLimit : N) : outcome N := toSize (SFmul 53 1024 (toDouble memLimit) (literal 74 100)).

(** Compressor.cpp 78, the first argument of min. *)
Definition bwtSizeOf (memLimit : N) : outcome N := toSize (SFmul 53 1024 (toDouble memLimit) (literal 185 1000)).

(** Compressor.cpp 96: the subtraction is one of size_t, the division one of double. *)
Definition quotientOf (memLimit size : N) : outcome N :=
  toSize (SFdiv 53 1024 (toDouble ((memLimit + 2 ^ 64 - size) mod 2 ^ 64)) (literal 45 10)).

(** The conversion is always defined (PropMain.C48_quotient); [compress] takes a function
    to numbers. *)
Definition quotientFor (memLimit size : N) : N :=
  match quotientOf memLimit size with Ok q => q | _ => 0 end.

(** ** The preprocessor *)

(** PairReplacer.cpp 326; the conversion to size_t is defined for blocks below 2^31 bytes
    (PropMain.C48_buffer). *)
Definition capacityOf (len : nat) : nat :=
  match toSize (SFadd 53 1024 (SFmul 53 1024 (literal 333334 1000000) (toDouble (N.of_nat len))) (toDouble 3)) with
  | Ok n => N.to_nat n
  | _ => O
  end.

(** Precompressor.cpp 78-79. *)
Definition lowRatioOf (len original : nat) : bool :=
  SFltb (SFdiv 53 1024 (toDouble (N.of_nat len)) (toDouble (N.of_nat original))) (literal 666 1000).

(** ** compress.cpp *)

(** compress.cpp 45-56: only 'p' = 112. *)
Definition validPrepr (prepr : list N) : bool := forallb (fun c => c =? 112) prepr.

(** compress.cpp 60. *)
Definition validStarts (starts : N) : bool := (0 <? starts) && (starts <=? 256).

(** compress.cpp 73-75: 'H', 'm', 'M', 'u', 'b', 'B'. *)
Definition validEncoding (c : N) : bool :=
  (c =? 72) || (c =? 109) || (c =? 77) || (c =? 117) || (c =? 98) || (c =? 66).

(** compress.cpp 86-88, BWTManager.cpp 70-72: 'd', 's', 'a'. *)
Definition validBwt (c : N) : bool := (c =? 100) || (c =? 115) || (c =? 97).

Section Program.
(** std::sort of the pair replacer, libdivsufsort, and the floating point comparisons of the
    wavelet coder (WaveletTree.hpp 1579-1583, logarithms). *)
Variable sortF : list (N * N) -> list (N * N).
Variable sorter : list N -> list nat.
Variable worth : N -> N -> N -> bool.

(** compress.cpp 179 and 192-193: --mem is a number of 64 bits, the limit is computed in 64 bits. *)
Definition memLimitOf (mem : N) : N := (if mem =? 0 then 1 else mem) * 1000000 mod 2 ^ 64.

(** compress.cpp 99-203 with the values of the options --mem, --starts, --bwt, --enc, --prepr
    and the content of the input file: the content of the output file and the size reported;
    [None] if the options are rejected (exit code 1).  BWTManager.cpp 74-80: 's' is SA-IS,
    everything else libdivsufsort.  Not modelled: parsing, opening files, --verb, --help, running
    out of memory. *)
Definition compressMain (mem starts bwt enc : N) (prepr input : list N) : outcome (option (list N * nat)) :=
  if validPrepr prepr && validStarts starts && validEncoding enc && validBwt bwt then
    let limit := memLimitOf mem in
    let! pbSize := pbSizeOf limit in
    let! bwtSize := bwtSizeOf limit in
    let n := length prepr in
    let prec := precompress sortF layoutOver capacityOf lowRatioOf n in
    let coder := giveCoder (waveletCoder worth) enc in
    let! r :=
      (if bwt =? 115 then compressSais coder starts prec pbSize bwtSize (quotientFor limit) (negb (n =? 0)%nat) enc input
       else compress coder sorter starts prec pbSize bwtSize (quotientFor limit) (negb (n =? 0)%nat) enc input) in
    Ok (Some r)
  else Ok None.
End Program.

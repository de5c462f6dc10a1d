(** Transcription of the Huffman code construction of /repo/Utils.cpp and of the code
    table serialisation of /repo/HuffmanCoders.cpp. *)
From Coq Require Import List NArith Arith Bool.
From Verif Require Import Base Arrays ModelUtils ModelStreams ModelHeaders.
Import ListNotations.
Open Scope N_scope.

(** ** Code lengths *)

(** std::pair's operator<. *)
Definition pairLt (p q : N * N) : bool :=
  (fst p <? fst q) || ((fst p =? fst q) && (snd p <? snd q)).
(** std::sort (Utils.cpp 434): the sorted permutation, unique because pairs that are
    not ordered by [pairLt] are equal.  Simplification: computed by insertion. *)
Fixpoint insertPair (p : N * N) (l : list (N * N)) : list (N * N) :=
  match l with
  | [] => [p]
  | q :: r => if pairLt q p then q :: insertPair p r else p :: l
  end.
Definition sortPairs (l : list (N * N)) : list (N * N) := fold_right insertPair [] l.

(** The condition of Utils.cpp 442 and 448: is the next node taken from the queue of
    internal nodes? *)
Definition fromQueue (n t : nat) (freqs : list N) (s r : nat) : outcome bool :=
  if (n <=? s)%nat then Ok true
  else if (r <? t)%nat then
    let! a := get freqs r in let! b := get freqs s in Ok (a <? b)
  else Ok false.

(** Utils.cpp 442-447. *)
Definition select1 (n t : nat) (st : list N * nat * nat) : outcome (list N * nat * nat) :=
  let '(freqs, s, r) := st in
  let! c := fromQueue n t freqs s r in
  if c then
    let! w := get freqs r in
    let! freqs := set freqs t w in
    let! freqs := set freqs r (N.of_nat t) in
    Ok (freqs, s, S r)
  else
    let! w := get freqs s in
    let! freqs := set freqs t w in
    Ok (freqs, S s, r).
(** Utils.cpp 448-453. *)
Definition select2 (n t : nat) (st : list N * nat * nat) : outcome (list N * nat * nat) :=
  let '(freqs, s, r) := st in
  let! c := fromQueue n t freqs s r in
  if c then
    let! w := get freqs r in
    let! cur := get freqs t in
    let! freqs := set freqs t ((cur + w) mod two64) in
    let! freqs := set freqs r (N.of_nat t) in
    Ok (freqs, s, S r)
  else
    let! w := get freqs s in
    let! cur := get freqs t in
    let! freqs := set freqs t ((cur + w) mod two64) in
    Ok (freqs, S s, r).
Definition phase1Step (n t : nat) (st : list N * nat * nat) : outcome (list N * nat * nat) :=
  let! st := select1 n t st in select2 n t st.
(** Utils.cpp 441-454. *)
Fixpoint phase1Loop (k n t : nat) (st : list N * nat * nat) : outcome (list N * nat * nat) :=
  match k with
  | O => Ok st
  | S k' => let! st := phase1Step n t st in phase1Loop k' n (S t) st
  end.

(** Utils.cpp 457-459: t = k-1, ..., 0. *)
Fixpoint phase2Loop (k : nat) (freqs : list N) : outcome (list N) :=
  match k with
  | O => Ok freqs
  | S t =>
    let! p := get freqs t in
    let! d := get freqs (N.to_nat p) in
    let! freqs := set freqs t (d + 1) in
    phase2Loop t freqs
  end.

(** Utils.cpp 464: [t1] is t + 1. *)
Fixpoint countInner (t1 : nat) (freqs : list N) (depth : N) (u : nat) : outcome (nat * nat) :=
  match t1 with
  | O => Ok (O, u)
  | S t =>
    let! f := get freqs t in
    if f =? depth then countInner t freqs depth (S u) else Ok (t1, u)
  end.
(** Utils.cpp 465, [k] times: [x1] is x + 1. *)
Fixpoint fillLeaves (k x1 : nat) (freqs : list N) (depth : N) : outcome (nat * list N) :=
  match k with
  | O => Ok (x1, freqs)
  | S k' =>
    match x1 with
    | O => UB
    | S x => let! freqs := set freqs x depth in fillLeaves k' x freqs depth
    end
  end.
(** Utils.cpp 463-469. *)
Fixpoint phase3Loop (fuel a t1 x1 : nat) (freqs : list N) (depth : N) : outcome (list N) :=
  match a with
  | O => Ok freqs
  | _ =>
    match fuel with
    | O => Fuel
    | S f =>
      let! (t1, u) := countInner t1 freqs depth 0 in
      let! (x1, freqs) := fillLeaves (a - u) x1 freqs depth in
      phase3Loop f (2 * u) t1 x1 freqs (depth + 1)
    end
  end.

(** Utils.cpp 422-473 on the pairs (frequency, symbol); the result holds (length, symbol).
    Simplification: the scratch array [freqs] has exactly n elements (the callers pass
    arrays of at least that size). *)
Definition calculateCodeLengths (codeLengths : list (N * N)) : outcome (list (N * N)) :=
  match codeLengths with
  | [] => UB
  | [p] => Ok [(1, snd p)]
  | _ =>
    let sorted := sortPairs codeLengths in
    let n := length sorted in
    let! (freqs, _, _) := phase1Loop (n - 1) n 0 (map fst sorted, O, O) in
    let! freqs := set freqs (n - 2) 0 in
    let! freqs := phase2Loop (n - 2) freqs in
    let! freqs := phase3Loop (S n) 1 (n - 1) n freqs 0 in
    Ok (combine freqs (map snd sorted))
  end.

(** Utils.cpp 411-420: the symbols with non-zero frequency, in increasing order. *)
Definition nonZeroPairs (freqs : list N) : list (N * N) :=
  filter (fun p => negb (fst p =? 0)) (combine freqs (fromTo 0 (length freqs))).
Definition calculateHuffmanLengths (freqs : list N) : outcome (list (N * N)) :=
  calculateCodeLengths (nonZeroPairs freqs).

(** ** Canonical codes *)

(** HuffmanCoders.cpp 127-128, 159-160: [clen] filled from the (length, symbol) pairs. *)
Fixpoint fillLengths (clen : list N) (codeLengths : list (N * N)) : outcome (list N) :=
  match codeLengths with
  | [] => Ok clen
  | (len, sym) :: r => let! clen := set clen (N.to_nat sym) len in fillLengths clen r
  end.

(** Utils.cpp 184-185. *)
Fixpoint countLengths (clen counts : list N) : outcome (list N) :=
  match clen with
  | [] => Ok counts
  | l :: r =>
    let! c := get counts (N.to_nat l) in
    let! counts := set counts (N.to_nat l) (c + 1) in
    countLengths r counts
  end.
(** Utils.cpp 186-188. *)
Definition lastNonZero (counts : list N) : nat :=
  fold_left (fun m p => if 0 <? fst p then snd p else m) (combine counts (seq 0 (length counts))) 0%nat.
(** Utils.cpp 195-198: k = [k1] - 1, ..., 0. *)
Fixpoint startLoop (k1 : nat) (first : N) (counts start : list N) : outcome (list N) :=
  match k1 with
  | O => Ok start
  | S k =>
    let! start := set start k first in
    let! c := get counts k in
    startLoop k (N.shiftr ((first + c) mod two32) 1) counts start
  end.
(** Utils.cpp 200-201. *)
Fixpoint assignCodes (clen start : list N) : outcome (list N) :=
  match clen with
  | [] => Ok []
  | l :: r =>
    if 0 <? l then
      let! c := get start (N.to_nat l) in
      let! start := set start (N.to_nat l) (c + 1) in
      let! codes := assignCodes r start in Ok (c :: codes)
    else let! codes := assignCodes r start in Ok (0 :: codes)
  end.
(** Utils.cpp 180-202; [clen] and the result have 256 elements. *)
Definition computeHuffmanCodes (clen : list N) : outcome (list N) :=
  let! counts := countLengths clen (repeat 0 256) in
  let! start := startLoop (S (lastNonZero counts)) 0 counts (repeat 0 256) in
  assignCodes clen start.

(** ** Code table *)

(** HuffmanCoders.cpp 65-73. *)
Definition usedSymbols (clen : list N) : list N :=
  map snd (filter (fun p => 0 <? fst p) (combine clen (fromTo 0 (length clen)))).
Definition maxLength (clen : list N) : N := fold_left N.max clen 0.

(** HuffmanCoders.cpp 84-85. *)
Fixpoint unaryLengths (clen : list N) (maxLen : N) (symbols : list N) : outcome (list bool) :=
  match symbols with
  | [] => Ok []
  | x :: r =>
    let! len := get clen (N.to_nat x) in
    let! t := unaryLengths clen maxLen r in
    Ok (unaryCode (N.to_nat (maxLen - len + 1)) ++ t)
  end.

(** HuffmanCoders.cpp 63-86; [symbols.back()] of an empty vector is undefined. *)
Definition serializeShape (clen : list N) : outcome (list bool) :=
  let symbols := usedSymbols clen in
  let maxLen := maxLength clen in
  match rev symbols with
  | [] => UB
  | back :: _ =>
    let! (packedInt, bytes) := packInteger maxLen in
    let! interp := binaryInterpolativeCode symbols 0 back in
    let! unary := unaryLengths clen maxLen symbols in
    Ok (pushBits back 8 ++ pushBits (N.of_nat (length symbols)) 8 ++ pushBits packedInt (bytes * 8)
        ++ interp ++ unary)
  end.

(** HuffmanCoders.cpp 98-103: the [while(read & 0x80)] loop; [<< j] is undefined for j >= 64. *)
Fixpoint readMaxLen (fuel : nat) (j maxLen : N) (bitsRead : nat) (s : list bool)
    : outcome (N * nat * list bool) :=
  match fuel with
  | O => Fuel
  | S f =>
    let (read, s) := readByte s in
    if 64 <=? j then UB
    else
      let maxLen := N.lor maxLen (N.shiftl (N.land read 127) j mod two64) in
      if N.land read 128 =? 0 then Ok (maxLen, (bitsRead + 8)%nat, s)
      else readMaxLen f (j + 7) maxLen (bitsRead + 8) s
  end.
(** HuffmanCoders.cpp 109-114: [maxLen - n + 1] is computed modulo 2^64 and stored as uint32. *)
Fixpoint readUnaryLengths (alphabet : list N) (maxLen : N) (clen : list N) (bitsRead : nat) (s : list bool)
    : outcome (list N * nat * list bool) :=
  match alphabet with
  | [] => Ok (clen, bitsRead, s)
  | x :: r =>
    let (n, s) := unaryDecode s in
    let len := (maxLen + two64 - N.of_nat n + 1) mod two32 in
    let! clen := set clen (N.to_nat x) len in
    readUnaryLengths r maxLen clen (bitsRead + n) s
  end.
(** HuffmanCoders.cpp 88-117, called with [clen] all zero: the lengths, the number of
    bytes and the rest. *)
Definition deserializeShape (s : list bool) : outcome (list N * nat * list bool) :=
  let (maxSym, s) := readByte s in
  let (symbols, s) := readByte s in
  let symbols := if symbols =? 0 then 256 else symbols in
  let! (maxLen, bitsRead, s) := readMaxLen 11 0 0 16 s in
  let! (alphabet, n, s) := binaryInterpolativeDecode s 0 maxSym (N.to_nat symbols) in
  let! (clen, bitsRead, s) := readUnaryLengths alphabet maxLen (repeat 0 256) (bitsRead + n) s in
  Ok (clen, ((bitsRead + 7) / 8)%nat, absFlushBuffer s).

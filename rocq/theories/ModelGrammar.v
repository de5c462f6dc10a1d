(** Transcription of Grammar (/repo/preprocessors/Grammar.hpp, Grammar.cpp), of the headers
    of PrecompressorBlock (/repo/PrecompressorBlock.cpp) and of Postprocessor
    (/repo/preprocessors/Postprocessor.cpp). *)
From Coq Require Import List NArith Arith Bool.
From Verif Require Import Base Arrays TArray ModelUtils ModelStreams ModelHeaders.
Import ListNotations.
Open Scope N_scope.

(** ** Grammar *)

(** Grammar::PrRule, Grammar.hpp 50-80. *)
Record prRule := mkRule { r_variable : N; r_begin : nat; r_end : nat; r_large : bool }.

(** Grammar.hpp 190-214.  Left out: m_specialSymbolsAsVariables (only incremented, never
    read), m_updatingRules (only asserted in addSpecialSymbol, which nobody calls).
    m_newRules is a uint16 that the constructor leaves uninitialised; here it is a natural
    number starting at 0.  Every round resets it and adds at most 256 rules. *)
Record grammar := mkG {
  g_freqs : list N;              (* m_frequencies *)
  g_special : list bool;         (* m_isSpecialSymbol *)
  g_variable : list bool;        (* m_isVariable *)
  g_specials : list N;           (* m_specialSymbols *)
  g_pairs : list (bool * N);     (* m_specialPairReplacements *)
  g_rules : list prRule;         (* m_rules *)
  g_rhs : list N;                (* m_rightHandSides *)
  g_new : nat }.                 (* m_newRules *)

(** Grammar.cpp 36-40. *)
Definition emptyGrammar : grammar :=
  mkG (repeat 0 256) (repeat false 256) (repeat false 256) [] [] [] [] 0.

(** [++a[i]], [--a[i]] on the size_t counters m_frequencies (Grammar.cpp 47-49, 118, 122-123, 131-134). *)
Definition incr (l : list N) (i : N) : outcome (list N) :=
  let! v := get l (N.to_nat i) in set l (N.to_nat i) ((v + 1) mod two64).
Definition decr (l : list N) (i : N) : outcome (list N) :=
  let! v := get l (N.to_nat i) in set l (N.to_nat i) ((v + two64 - 1) mod two64).

(** [(a << 8) | b], high and low byte (Grammar.cpp 70, 91, 102, 122-123). *)
Definition pair16 (a b : N) : N := N.lor (N.shiftl a 8) b.
Definition hi16 (p : N) : N := N.shiftr p 8.
Definition lo16 (p : N) : N := N.land p 255.

(** Grammar.hpp 108. *)
Definition isSpecial (g : grammar) (c : N) : outcome bool := get (g_special g) (N.to_nat c).

(** Grammar.hpp 118-121, uint32. *)
Definition specialSymbolPairsLeft (g : grammar) : N :=
  let s := N.of_nat (length (g_specials g)) in
  (s * s + two32 - N.of_nat (length (g_pairs g)) mod two32) mod two32.

(** Grammar.cpp 42-51. *)
Definition addRule (g : grammar) (variable first second : N) : outcome grammar :=
  let s := length (g_rhs g) in
  let! f := incr (g_freqs g) first in
  let! f := incr f second in
  let! f := incr f variable in
  Ok (mkG f (g_special g) (g_variable g) (g_specials g) (g_pairs g)
          (g_rules g ++ [mkRule variable s (s + 2) false]) (g_rhs g ++ [first; second]) (S (g_new g))).

(** Grammar.hpp 139-142, 144-148. *)
Definition beginUpdatingRules (g : grammar) : grammar :=
  mkG (g_freqs g) (g_special g) (g_variable g) (g_specials g) (g_pairs g) (g_rules g) (g_rhs g) 0.
Fixpoint setAll (l : list bool) (is : list N) : outcome (list bool) :=
  match is with
  | [] => Ok l
  | i :: r => let! l := set l (N.to_nat i) true in setAll l r
  end.
Definition endUpdatingRules (g : grammar) (variables : list N) : outcome grammar :=
  let! v := setAll (g_variable g) variables in
  Ok (mkG (g_freqs g) (g_special g) v (g_specials g) (g_pairs g) (g_rules g) (g_rhs g) (g_new g)).

(** [back()] of a vector (Grammar.cpp 91, 102). *)
Fixpoint back {A} (l : list A) : outcome A :=
  match l with
  | [] => UB
  | [x] => Ok x
  | _ :: r => back r
  end.

(** Grammar.cpp 59-109, first loop of expandAlphabet.  State: the grammar, isNewSpecial,
    specialReplaces, nextSpecialPairs.  [freed] are the freed symbols from index i on,
    [news] the new specials from index s on; an index behind them is undefined.
    specialPairsLeft is recomputed instead of counted down, which is the same number. *)
Fixpoint expandLoop (fuel : nat) (freed news : list N)
    (st : grammar * list bool * list N * list N) : outcome (grammar * list bool * list N * list N) :=
  match fuel with
  | O => Fuel
  | S fuel =>
    match freed with
    | [] => Ok st
    | c :: freed' =>
      let '(g, isNew, repl, next) := st in
      let n := N.of_nat (length (g_specials g)) in
      if specialSymbolPairsLeft g =? 0 then
        match news with
        | [] => UB
        | s :: news' =>
          let! special := set (g_special g) (N.to_nat s) true in
          let! isNew := set isNew (N.to_nat s) true in
          let! repl := set repl (N.to_nat s) (pair16 s s) in
          expandLoop fuel freed news'
            (mkG (g_freqs g) special (g_variable g) (g_specials g ++ [s]) (g_pairs g ++ [(false, s)])
                 (g_rules g) (g_rhs g) (g_new g), isNew, repl, next)
        end
      else
        let nextSpecialPair := N.of_nat (length (g_pairs g)) in
        let offset := (n - 1) * (n - 1) + 1 in
        let index := (nextSpecialPair + two32 - offset mod two32) mod two32 in
        let! toVariable := get (g_variable g) (N.to_nat c) in
        let! variable := set (g_variable g) (N.to_nat c) true in
        let! last := back (g_specials g) in
        let! spPair := (if index <? n - 1 then
                          let! a := get (g_specials g) (N.to_nat index) in Ok (pair16 a last)
                        else
                          let! b := get (g_specials g) (N.to_nat (index + 1 - n)) in Ok (pair16 last b)) in
        let! isNew := set isNew (N.to_nat c) true in
        let! repl := set repl (N.to_nat c) spPair in
        expandLoop fuel freed' news
          (mkG (g_freqs g) (g_special g) variable (g_specials g) (g_pairs g ++ [(toVariable, c)])
               (g_rules g) (g_rhs g) (g_new g), isNew, repl, next ++ [spPair])
    end
  end.

(** Grammar.cpp 129-140: one right-hand side. *)
Fixpoint expandSide (isNew : list bool) (repl : list N) (side : list N) (freqs : list N)
    : outcome (list N * list N) :=
  match side with
  | [] => Ok ([], freqs)
  | c :: r =>
    let! b := get isNew (N.to_nat c) in
    if b then
      let! freqs := decr freqs c in
      let! nPair := get repl (N.to_nat c) in
      let! freqs := incr freqs (hi16 nPair) in
      let! freqs := incr freqs (lo16 nPair) in
      let! (l, freqs) := expandSide isNew repl r freqs in
      Ok (hi16 nPair :: lo16 nPair :: l, freqs)
    else
      let! (l, freqs) := expandSide isNew repl r freqs in
      Ok (c :: l, freqs)
  end.

(** Elements begin .. end-1 of a vector (Grammar.cpp 129). *)
Definition range {A} (l : list A) (b e : nat) : outcome (list A) :=
  if ((e <=? length l) || (e <=? b))%nat%bool then Ok (slice l b e) else UB.

(** Grammar.cpp 112-142: the rules from index i on.  [todo]: rules whose left side is to be
    updated. *)
Fixpoint expandRules (isNew : list bool) (repl rhs : list N) (todo : nat) (rules : list prRule)
    (freqs nRightSides : list N) : outcome (list prRule * list N * list N) :=
  match rules with
  | [] => Ok ([], freqs, nRightSides)
  | r :: rest =>
    let! (r', freqs) :=
      (match todo with
       | O => Ok (r, freqs)
       | S _ =>
         if r_large r then Ok (r, freqs)
         else
           let! b := get isNew (N.to_nat (r_variable r)) in
           if b then
             let! freqs := decr freqs (r_variable r) in
             let! nPair := get repl (N.to_nat (r_variable r)) in
             let! freqs := incr freqs (hi16 nPair) in
             let! freqs := incr freqs (lo16 nPair) in
             Ok (mkRule nPair (r_begin r) (r_end r) true, freqs)
           else Ok (r, freqs)
       end) in
    let pos := length nRightSides in
    let! side := range rhs (r_begin r) (r_end r) in
    let! (side, freqs) := expandSide isNew repl side freqs in
    let nRightSides := nRightSides ++ side in
    let! (rules, freqs, nRightSides) := expandRules isNew repl rhs (pred todo) rest freqs nRightSides in
    Ok (mkRule (r_variable r') pos (pos + length side) (r_large r') :: rules, freqs, nRightSides)
  end.

(** Grammar.cpp 53-144: the grammar and nextSpecialPairs. *)
Definition expandAlphabet (g : grammar) (freed news : list N) : outcome (grammar * list N) :=
  let! (g, isNew, repl, next) :=
    expandLoop (S (length freed + length news)) freed news (g, repeat false 256, repeat 0 256, []) in
  let! (rules, freqs, rhs) :=
    expandRules isNew repl (g_rhs g) (length (g_rules g) - g_new g) (g_rules g) (g_freqs g) [] in
  Ok (mkG freqs (g_special g) (g_variable g) (g_specials g) (g_pairs g) rules rhs (g_new g), next).

(** Grammar.cpp 166-174. *)
Definition numberOfSpecialPair (first second : N) : N :=
  if first =? second then (first * second) mod two32
  else if second <? first then (first * (first + 1) + second + 1) mod two32
  else (second * second + first + 1) mod two32.

(** Grammar.cpp 177-188.  The square root of a double is exact enough for numbers below
    2^32, so the integer square root is meant. *)
Definition specialPair (specials : list N) (ord : N) : outcome N :=
  let sqr := N.sqrt ord in
  let base := sqr * sqr in
  if ord =? base then
    let! a := get specials (N.to_nat sqr) in Ok (pair16 a a)
  else
    let offset := ord - base - 1 in
    if offset <? sqr then
      let! a := get specials (N.to_nat offset) in
      let! b := get specials (N.to_nat sqr) in Ok (pair16 a b)
    else
      let! a := get specials (N.to_nat sqr) in
      let! b := get specials (N.to_nat (offset - sqr)) in Ok (pair16 a b).

(** Grammar.cpp 190-200, from index i on. *)
Fixpoint freedSymbolsFrom (specials : list N) (i : N) (pairs : list (bool * N)) : outcome (list (N * N)) :=
  match pairs with
  | [] => Ok []
  | (v, c) :: r =>
    if v then freedSymbolsFrom specials (i + 1) r
    else
      let! p := specialPair specials i in
      let! l := freedSymbolsFrom specials (i + 1) r in
      Ok ((p, c) :: l)
  end.
Definition freedSymbols (g : grammar) : outcome (list (N * N)) :=
  freedSymbolsFrom (g_specials g) 0 (g_pairs g).

(** *** Writing *)

(** Grammar.cpp 448-456, PrecompressorBlock.cpp 79-84. *)
Definition writePacked (v : N) : outcome (list N) :=
  let! (packed, bytes) := packInteger v in Ok (lowBytes bytes packed).

(** Grammar.cpp 322-329. *)
Definition writeSpecialSymbols (g : grammar) : list N :=
  N.of_nat (length (g_specials g)) mod 256 :: g_specials g.

(** Grammar.cpp 425-446.  State: buffer, bitsLeft. *)
Fixpoint writeFlags (rules : list prRule) (buffer : N) (bitsLeft : nat) : list N :=
  match rules with
  | [] => if (bitsLeft =? 8)%nat then [] else [buffer]
  | r :: rest =>
    let bitsLeft := (bitsLeft - 1)%nat in
    let buffer := N.lor buffer (N.shiftl (if r_large r then 1 else 0) (N.of_nat bitsLeft)) in
    if (bitsLeft =? 0)%nat then buffer :: writeFlags rest 0 8
    else writeFlags rest buffer bitsLeft
  end.

(** Grammar.cpp 336-349. *)
Fixpoint writeVariables (rules : list prRule) : list N :=
  match rules with
  | [] => []
  | r :: rest =>
    (if r_large r then [N.land (N.shiftr (r_variable r) 8) 255; N.land (r_variable r) 255]
     else [N.land (r_variable r) 255]) ++ writeVariables rest
  end.

(** numberOfFreedSymbols, Grammar.cpp 351-364, from index i on; sq = curr*curr. *)
Fixpoint countFreed (pairs : list (bool * N)) (i curr : nat) : nat :=
  match pairs with
  | [] => 0
  | (v, _) :: r =>
    if (curr * curr =? i)%nat then countFreed r (S i) (S curr)
    else if v then countFreed r (S i) curr
    else S (countFreed r (S i) curr)
  end.

(** Grammar.cpp 377-388, the loop of writeFreedSymbols. *)
Fixpoint writeFreedLoop (fuel : nat) (pairs : list (bool * N)) (todo curr sqr : nat) : outcome (list N) :=
  match todo with
  | O => Ok []
  | S todo' =>
    match fuel with
    | O => Fuel
    | S fuel =>
      if (sqr * sqr =? curr)%nat then writeFreedLoop fuel pairs todo (S curr) (S sqr)
      else
        let! (v, c) := get pairs curr in
        if v then writeFreedLoop fuel pairs todo (S curr) sqr
        else let! l := writeFreedLoop fuel pairs todo' (S curr) sqr in Ok (c :: l)
    end
  end.

(** Grammar.cpp 366-391. *)
Definition writeFreedSymbols (g : grammar) : outcome (list N) :=
  let freed := countFreed (g_pairs g) 0 0 in
  if (freed <=? 255)%nat then
    let! l := writeFreedLoop (S (length (g_pairs g))) (g_pairs g) freed 2 2 in
    Ok (N.of_nat freed :: l)
  else UB.

(** Grammar.cpp 394-415.  State: buffer, rulesInBuffer. *)
Fixpoint writeLengthsOfRules (rules : list prRule) (buffer : N) (inBuffer : nat) : outcome (list N) :=
  match rules with
  | [] => Ok (if (inBuffer =? 0)%nat then [] else [N.shiftl buffer (8 - 2 * N.of_nat inBuffer) mod 256])
  | r :: rest =>
    let len := (r_end r - r_begin r)%nat in
    if ((2 <=? len) && (len <=? 4))%nat%bool then
      let buffer := N.lor (N.shiftl buffer 2 mod 256) (N.of_nat (len - 2)) in
      if (S inBuffer =? 4)%nat then let! l := writeLengthsOfRules rest 0 0 in Ok (buffer :: l)
      else writeLengthsOfRules rest buffer (S inBuffer)
    else UB
  end.

(** Grammar.cpp 310-320: the bytes written.  The returned number of bytes is computed
    separately by the C++: see [grammarBytes]. *)
Definition writeGrammar (g : grammar) : outcome (list N) :=
  let! n := writePacked (N.of_nat (length (g_rules g))) in
  match g_rules g with
  | [] => Ok n
  | _ =>
    let! freed := writeFreedSymbols g in
    let! lengths := writeLengthsOfRules (g_rules g) 0 0 in
    Ok (n ++ writeSpecialSymbols g ++ writeFlags (g_rules g) 0 8 ++ writeVariables (g_rules g) ++
        freed ++ lengths ++ g_rhs g)
  end.

(** Grammar.cpp 328 (specials), 426-428 (flags), 341-346 (one or two per rule), 370 and 385
    (one and one per freed symbol), 409-411 (lengths), 422 (right sides), 455 (number of
    rules): the number of bytes returned. *)
Definition grammarBytes (g : grammar) : outcome nat :=
  let! (_, n) := packInteger (N.of_nat (length (g_rules g))) in
  let rules := length (g_rules g) in
  if (rules =? 0)%nat then Ok n
  else
    let flags := (rules / 8 + (if (rules mod 8 =? 0) then 0 else 1))%nat in
    let variables := fold_right (fun r k => ((if r_large r then 2 else 1) + k)%nat) O (g_rules g) in
    let freed := (1 + countFreed (g_pairs g) 0 0)%nat in
    let lengths := (rules / 4 + (if (rules mod 4 =? 0) then 0 else 1))%nat in
    Ok (n + (length (g_specials g) + 1) + (flags + variables) + freed + lengths + length (g_rhs g))%nat.

(** *** Reading *)

(** Grammar.cpp 216-222: the special symbols; state: m_specialSymbols, m_isSpecialSymbol,
    specialEnumeration, original. *)
Fixpoint readSpecials (k : nat) (i : nat) (s : list bool) (specials : list N) (special : list bool)
    (enum : list N) (original : list bool)
    : outcome (list N * list bool * list N * list bool * list bool) :=
  match k with
  | O => Ok (specials, special, enum, original, s)
  | S k =>
    let (c, s) := readByte s in
    let! special := set special (N.to_nat c) true in
    let! enum := set enum (N.to_nat c) (N.of_nat i) in
    let! original := set original (i * i) false in
    readSpecials k (S i) s (specials ++ [c]) special enum original
  end.

(** Grammar.cpp 225-228: readBit calls. *)
Fixpoint readFlags (k : nat) (s : list bool) : list bool * list bool :=
  match k with
  | O => ([], s)
  | S k =>
    let (b, s) := readBit s in
    let (l, s) := readFlags k s in
    (b :: l, s)
  end.

(** Grammar.cpp 232-247.  State: frequencies, m_isVariable, original, maxSymbol. *)
Fixpoint readVariables (enum : list N) (flags : list bool) (s : list bool)
    (freqs : list N) (variable original : list bool) (maxSymbol : N)
    : outcome (list prRule * list N * list bool * list bool * N * list bool) :=
  match flags with
  | [] => Ok ([], freqs, variable, original, maxSymbol, s)
  | large :: rest =>
    let (var, s) := readByte s in
    let! freqs := incr freqs var in
    if large then
      let (snd, s) := readByte s in
      let! freqs := incr freqs snd in
      let! a := get enum (N.to_nat var) in
      let! b := get enum (N.to_nat snd) in
      let specEnum := numberOfSpecialPair a b in
      let! original := set original (N.to_nat specEnum) false in
      let maxSymbol := if maxSymbol <? specEnum then specEnum else maxSymbol in
      let! (rules, freqs, variable, original, maxSymbol, s) :=
        readVariables enum rest s freqs variable original maxSymbol in
      Ok (mkRule (pair16 var snd) 0 0 true :: rules, freqs, variable, original, maxSymbol, s)
    else
      let! variable := set variable (N.to_nat var) true in
      let! (rules, freqs, variable, original, maxSymbol, s) :=
        readVariables enum rest s freqs variable original maxSymbol in
      Ok (mkRule var 0 0 false :: rules, freqs, variable, original, maxSymbol, s)
  end.

(** Grammar.cpp 251-275.  Result: m_specialPairReplacements, curr, sqr, rest of the input. *)
Fixpoint readFreed (fuel : nat) (specials : list N) (original : list bool) (todo curr sqr : nat)
    (pairs : list (bool * N)) (s : list bool)
    : outcome (list (bool * N) * nat * nat * list bool) :=
  match todo with
  | O => Ok (pairs, curr, sqr, s)
  | S todo' =>
    match fuel with
    | O => Fuel
    | S fuel =>
      if (curr <? length specials * length specials)%nat then
        if (sqr * sqr =? curr)%nat then
          let! c := get specials sqr in
          readFreed fuel specials original todo (S curr) (S sqr) (pairs ++ [(false, c)]) s
        else
          let! o := get original curr in
          if o then
            let (c, s) := readByte s in
            readFreed fuel specials original todo' (S curr) sqr (pairs ++ [(false, c)]) s
          else readFreed fuel specials original todo (S curr) sqr (pairs ++ [(true, 0)]) s
      else UB
    end
  end.

(** Grammar.cpp 277-286: from [curr] to maxSymbol, [k] steps. *)
Fixpoint fillPairs (k : nat) (specials : list N) (curr sqr : nat) (pairs : list (bool * N))
    : outcome (list (bool * N)) :=
  match k with
  | O => Ok pairs
  | S k =>
    if (sqr * sqr =? curr)%nat then
      let! c := get specials sqr in
      fillPairs k specials (S curr) (S sqr) (pairs ++ [(false, c)])
    else fillPairs k specials (S curr) sqr (pairs ++ [(true, 0)])
  end.

(** Grammar.cpp 290-301: lengths of the next up to four rules per byte.  [lb] is the
    current byte, [j] the position in it. *)
Fixpoint readLengthsOfRules (rules : list prRule) (lb : N) (j : nat) (pos : nat) (s : list bool)
    : list prRule * nat * list bool :=
  match rules with
  | [] => ([], pos, s)
  | r :: rest =>
    let (lb, s) := if (j =? 0)%nat then readByte s else (lb, s) in
    let l := (2 + N.to_nat (N.land (N.shiftr lb (6 - 2 * N.of_nat j)) 3))%nat in
    let '(rules, p, s) := readLengthsOfRules rest lb (if (j =? 3)%nat then 0 else S j)%nat (pos + l) s in
    (mkRule (r_variable r) pos (pos + l) (r_large r) :: rules, p, s)
  end.

(** Grammar.cpp 304-307 (right-hand sides). *)
Fixpoint readSides (k : nat) (s : list bool) (freqs : list N) : outcome (list N * list N * list bool) :=
  match k with
  | O => Ok ([], freqs, s)
  | S k =>
    let (c, s) := readByte s in
    let! freqs := incr freqs c in
    let! (l, freqs, s) := readSides k s freqs in
    Ok (c :: l, freqs, s)
  end.

(** Grammar::readGrammar, Grammar.cpp 202-308, into an empty grammar. *)
Definition readGrammar (s : list bool) : outcome (grammar * list bool) :=
  let! (rules, _, s) := readPackedInteger s in
  let rules := rules mod two32 in
  if rules =? 0 then Ok (emptyGrammar, s)
  else
    let (specials, s) := readByte s in
    let k := N.to_nat specials in
    let! (specials, special, enum, original, s) :=
      readSpecials k 0 s [] (repeat false 256) (repeat 0 256) (repeat true (k * k)) in
    let (flags, s) := readFlags (N.to_nat rules) s in
    let s := absFlushBuffer s in
    let! (rs, freqs, variable, original, maxSymbol, s) :=
      readVariables enum flags s (repeat 0 256) (repeat false 256) original 0 in
    let (freed, s) := readByte s in
    let! (pairs, curr, sqr, s) :=
      readFreed (S (k * k)) specials original (N.to_nat freed) 0 0 [] s in
    let! pairs := (if 0 <? maxSymbol then
                     fillPairs (S (N.to_nat maxSymbol) - curr) specials curr sqr pairs
                   else Ok pairs) in
    let '(rs, pos, s) := readLengthsOfRules rs 0 0 0 s in
    let! (rhs, freqs, s) := readSides pos s freqs in
    Ok (mkG freqs special variable specials pairs rs rhs 0, s).

(** ** PrecompressorBlock headers, PrecompressorBlock.cpp *)

(** writeBlockHeader with PRECOMP_ORIGINAL_SIZE, PrecompressorBlock.cpp 64-90: the bytes and their number. *)
Definition writePreHeader (originalSize slices : N) (g : grammar) : outcome (list N * nat) :=
  let! (a, an) := packInteger originalSize in
  let! (b, bn) := packInteger slices in
  let! w := writeGrammar g in
  let! n := grammarBytes g in
  Ok (lowBytes an a ++ lowBytes bn b ++ w, (an + bn + n)%nat).

(** writeBlockHeader with PRECOMP_COMPRESSED_SIZE, PrecompressorBlock.cpp 64-90. *)
Definition writePreHeaderCompressed (size : N) (g : grammar) : outcome (list N * nat) :=
  let! (a, an) := packInteger size in
  let! w := writeGrammar g in
  let! n := grammarBytes g in
  Ok (lowBytes an a ++ w, (an + n)%nat).

(** writeEmptyHeader, PrecompressorBlock.cpp 92-95. *)
Definition writeEmptyHeader : list N := [0].

(** readBlockHeader with PRECOMP_ORIGINAL_SIZE, PrecompressorBlock.cpp 97-108: original size, number of slices,
    grammar.  A size of 0 ends the file. *)
Definition readPreHeader (s : list bool) : outcome (option (N * N * grammar) * list bool) :=
  let! (originalSize, _, s) := readPackedInteger s in
  if originalSize =? 0 then Ok (None, s)
  else
    let! (blocks, _, s) := readPackedInteger s in
    let! (g, s) := readGrammar s in
    Ok (Some (originalSize, blocks, g), s).

(** Streams.cpp RawInStream::readBlock on a byte-aligned stream. *)
Fixpoint readBytes (k : nat) (s : list bool) : list N * list bool :=
  match k with
  | O => ([], s)
  | S k => match s with
           | [] => ([], [])
           | _ => let (c, s) := readByte s in let (l, s) := readBytes k s in (c :: l, s)
           end
  end.

(** readBlockHeader with PRECOMP_COMPRESSED_SIZE, PrecompressorBlock.cpp 109-120: grammar and data. *)
Definition readPreHeaderCompressed (s : list bool) : outcome (option (grammar * list N) * list bool) :=
  let! (size, _, s) := readPackedInteger s in
  if size =? 0 then Ok (None, s)
  else
    let! (g, s) := readGrammar s in
    let (data, s) := readBytes (N.to_nat size) s in
    if N.of_nat (length data) =? size then Ok (Some (g, data), s) else UB.

(** ** Postprocessor, Postprocessor.cpp *)

(** [1 << 16], Postprocessor.cpp 74, 103, 124. *)
Definition highBit : N := 65536.

(** Postprocessor.cpp 98-110: [uncompress] into a vector.  [mem] is the memory from the first byte on; reading
    behind it is undefined. *)
Fixpoint uncompress (special : list bool) (table : tarray (list N)) (mem : list N) (len : nat)
    : outcome (list N) :=
  match len, mem with
  | O, _ => Ok []
  | S _, [] => UB
  | S k, c :: r =>
    let! b := get special (N.to_nat c) in
    if b then
      match r with
      | [] => UB
      | d :: r =>
        let! e := tget table (N.lor highBit (pair16 c d)) in
        let! l := uncompress special table r (pred k) in
        Ok (e ++ l)
      end
    else
      let! e := tget table c in
      let! l := uncompress special table r k in
      Ok (e ++ l)
  end.

(** Postprocessor.cpp 78-82: the freed symbols, with the assertion. *)
Fixpoint setFreed (freed : list (N * N)) (table : tarray (list N)) : outcome (tarray (list N)) :=
  match freed with
  | [] => Ok table
  | (p, c) :: r =>
    let! old := tget table (N.lor highBit p) in
    match old with
    | [] => let! table := tset table (N.lor highBit p) [c] in setFreed r table
    | _ => UB
    end
  end.

(** Postprocessor.cpp 85-93: the rules. *)
Fixpoint setRules (special : list bool) (rhs : list N) (rules : list prRule) (table : tarray (list N))
    : outcome (tarray (list N)) :=
  match rules with
  | [] => Ok table
  | r :: rest =>
    let! tmp := uncompress special table (skipn (r_begin r) rhs) (r_end r - r_begin r) in
    let! table := tset table (if r_large r then N.lor (r_variable r) highBit else r_variable r) tmp in
    setRules special rhs rest table
  end.

(** Postprocessor.cpp 62-94: the constructor, m_replacements. *)
Definition postTable (g : grammar) : outcome (tarray (list N)) :=
  let table := tfill (tmake 131072 []) 0 (map (fun i => [N.of_nat i]) (seq 0 256)) in
  let! freed := freedSymbols g in
  let! table := setFreed freed table in
  setRules (g_special g) (g_rhs g) (g_rules g) table.

(** Postprocessor.cpp 112-132: [uncompress] to a stream: the bytes written.  Simplification: an undefined pair
    writes nothing (the C++ forms the address of an element of an empty vector). *)
Definition postprocess (g : grammar) (data : list N) : outcome (list N) :=
  let! table := postTable g in
  match g_rules g with
  | [] => Ok data
  | _ => uncompress (g_special g) table data (length data)
  end.

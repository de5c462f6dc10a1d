(** Transcription of PairReplacer (/repo/preprocessors/PairReplacer.hpp, PairReplacer.cpp) and
    of Precompressor::precompress (/repo/preprocessors/Precompressor.cpp). *)
From Coq Require Import List NArith ZArith Arith Bool.
From Verif Require Import Base Arrays TArray ModelUtils ModelStreams ModelSort ModelFreq ModelGrammar.
Import ListNotations.
Open Scope N_scope.

(** ** Analysis *)

(** PairReplacer.hpp 110-125: m_frequencies, m_pairFrequencies, m_prev. *)
Record analysis := mkA { a_freqs : tarray N; a_pairs : tarray N; a_prev : N }.

(** [a[i] += v] on size_t counters (PairReplacer.hpp 53-54, 58, 66; PairReplacer.cpp 75-77). *)
Definition tadd (t : tarray N) (i v : N) : outcome (tarray N) :=
  let! x := tget t i in tset t i ((x + v) mod two64).

(** PairReplacer.hpp 47-55. *)
Definition analyse1 (next : N) (st : analysis) : outcome analysis :=
  let prev := pair16 (a_prev st) next mod 65536 in
  let! pairs := tadd (a_pairs st) prev 1 in
  let! freqs := tadd (a_freqs st) next 1 in
  Ok (mkA freqs pairs prev).

(** PairReplacer.hpp 57-67; [min] there is 0 if the two pairs are the same and 1 otherwise. *)
Definition analyse0 (next : N) (st : analysis) : outcome analysis :=
  let! freqs := tadd (a_freqs st) next 1 in
  let prev := pair16 (a_prev st) next mod 65536 in
  let! pairs := tadd (a_pairs st) prev (if a_prev st =? prev then 0 else 1) in
  Ok (mkA freqs pairs prev).

(** PairReplacer.cpp 67-85 with reset; [first] is the first byte. *)
Fixpoint addFreqs (i : N) (grammarFreq : list N) (freqs : tarray N) : outcome (tarray N) :=
  match grammarFreq with
  | [] => Ok freqs
  | f :: r => let! freqs := tadd freqs i f in addFreqs (i + 1) r freqs
  end.
Definition beginAnalysing (g : grammar) (first : N) : outcome analysis :=
  let! freqs := tadd (tmake 256 0) first 1 in
  let! freqs := addFreqs 0 (g_freqs g) freqs in
  Ok (mkA freqs (tmake 65536 0) first).

(** PairReplacer.cpp 58-61: [k] turns; the data from index i on. *)
Fixpoint analyseLoop (k : nat) (data : list N) (st : analysis) : outcome (list N * analysis) :=
  match k with
  | O => Ok (data, st)
  | S k =>
    match data with
    | a :: b :: r =>
      let! st := analyse0 a st in
      let! st := analyse1 b st in
      analyseLoop k r st
    | _ => UB
    end
  end.

(** PairReplacer.cpp 53-63.  The index i starts at 1 and goes up in steps of two to the even
    number (length-1) & 0xfffffffe. *)
Definition analyseData (g : grammar) (data : list N) : outcome analysis :=
  let len := N.of_nat (length data) in
  if 2 <? len then
    match data with
    | [] => UB
    | first :: r =>
      let! st := beginAnalysing g first in
      let! (r, st) := analyseLoop (N.to_nat (N.land (len - 1) 4294967294 / 2)) r st in
      if N.even len then
        match r with
        | [] => UB
        | c :: _ => analyse0 c st
        end
      else Ok st
    end
  else UB.

(** ** Choosing the pairs *)

(** PairReplacer.cpp 87-94: all pairs with their frequencies (frequency, pair); [k] of them
    from number i on. *)
Fixpoint pairsFrom (t : tarray N) (i : N) (k : nat) : list (N * N) :=
  match k with
  | O => []
  | S k => (tval t i, i) :: pairsFrom t (i + 1) k
  end.
Definition makePairList (st : analysis) : list (N * N) := pairsFrom (a_pairs st) 0 (256 * 256).

(** PairReplacer.cpp 102: std::sort on the reversed vector, that is from the largest
    (frequency, pair) to the smallest.  All elements are different. *)
Definition pairLeb (p q : N * N) : bool :=
  (fst q <? fst p) || ((fst q =? fst p) && (snd q <=? snd p)).
Definition sortPairs (pairs : list (N * N)) : list (N * N) := mergeSort pairLeb pairs.

(** Local variables of findReplaceables, PairReplacer.cpp 132-143.  int64 utility is taken
    as unbounded, uint32 counters of at most 65536 steps as well. *)
Record fstate := mkF {
  f_usedFst : list bool;     (* usedFst *)
  f_usedSnd : list bool;     (* usedSnd *)
  f_symbol : nat;            (* currentSymbol *)
  f_repl : list (N * N);     (* replPairs *)
  f_utility : Z;             (* utility *)
  f_forFree : nat;           (* forFree *)
  f_without : N }.           (* withoutNew *)

(** PairReplacer.cpp 151 and 216: is the pair not usable? *)
Definition unusable (g : grammar) (st : fstate) (fst snd : N) : outcome bool :=
  let! a := get (f_usedFst st) (N.to_nat snd) in
  let! b := get (f_usedSnd st) (N.to_nat fst) in
  let! c := isSpecial g snd in
  let! d := isSpecial g fst in
  Ok (a || b || c || d).

(** PairReplacer.cpp 155, 196, 203, 220. *)
Definition assertNotSpecial (g : grammar) (t : ftable) (i : nat) : outcome unit :=
  let! k := ftGetKey t i in
  let! b := isSpecial g k in
  if b then UB else Ok tt.

Definition nonEmpty {A} (l : list A) : bool := match l with [] => false | _ => true end.

(** PairReplacer.cpp 141. *)
Fixpoint countFree (fuel : nat) (t : ftable) (i : nat) : outcome nat :=
  match fuel with
  | O => Fuel
  | S fuel => let! f := ftGetFrequency t i in
              if f =? 0 then countFree fuel t (S i) else Ok i
  end.

(** PairReplacer.cpp 147-178.  [pairs] are the pairs from currentPair on, behind them
    there is undefined memory. *)
Fixpoint firstPairs (g : grammar) (t : ftable) (pairs : list (N * N)) (st : fstate)
    : outcome (list (N * N) * fstate) :=
  match pairs with
  | [] => UB
  | (p, pr) :: rest =>
    let fst := N.land (N.shiftr pr 8) 255 in
    let snd := N.land pr 255 in
    let! bad := unusable g st fst snd in
    if bad then firstPairs g t rest st
    else
      let! _ := assertNotSpecial g t (f_symbol st) in
      let! fr := ftGetFrequency t (f_symbol st) in
      if (p <=? (fr + 1003) mod two32) || (f_without st =? 0) then Ok (pairs, st)
      else
        let! usedFst := set (f_usedFst st) (N.to_nat fst) true in
        let! usedSnd := set (f_usedSnd st) (N.to_nat snd) true in
        let st := mkF usedFst usedSnd (S (f_symbol st)) (f_repl st ++ [(p, pr)])
                      (f_utility st + Z.of_N p - Z.of_N fr)
                      (if fr =? 0 then S (f_forFree st) else f_forFree st)
                      (f_without st - 1) in
        if nonEmpty rest && (f_symbol st <? ft_last t)%nat then firstPairs g t rest st
        else Ok (rest, st)
  end.

(** PairReplacer.cpp 211-242.  Result: remaining pairs, state (f_utility is here
    utilityAfterNewSpecials), pairsAfterSpecial, hope. *)
Fixpoint specialPairs (g : grammar) (t : ftable) (limit : nat) (pairs : list (N * N)) (st : fstate)
    (count : nat) (hope : bool) : outcome (list (N * N) * fstate * nat * bool) :=
  if (count <? limit)%nat && hope then
    match pairs with
    | [] => UB
    | (p, pr) :: rest =>
      let fst := N.land (N.shiftr pr 8) 255 in
      let snd := N.land pr 255 in
      let! bad := unusable g st fst snd in
      if bad then specialPairs g t limit rest st count hope
      else
        let! _ := assertNotSpecial g t (f_symbol st) in
        let! fr := ftGetFrequency t (f_symbol st) in
        if p <=? (fr + 1003) mod two32 then Ok (pairs, st, count, false)
        else
          let! usedFst := set (f_usedFst st) (N.to_nat fst) true in
          let! usedSnd := set (f_usedSnd st) (N.to_nat snd) true in
          let st := mkF usedFst usedSnd (S (f_symbol st)) (f_repl st ++ [(p, pr)])
                        (f_utility st + Z.of_N p - Z.of_N fr) (f_forFree st) (f_without st) in
          specialPairs g t limit rest st (S count)
                       (nonEmpty rest && (f_symbol st <? ft_last t)%nat)
    end
  else Ok (pairs, st, count, hope).

(** PairReplacer.cpp 185-268.  utilityFromFrees, utilityFromFreesBeg, freeVars and
    freeVarsBeg stay 0 and unusedSpecials with them, so the branch 252-260 is dead and left
    out.  [specs] are the specials taken here, [tSpecials] all of them.
    Result: replPairs, utility, specs. *)
Fixpoint newSpecialsLoop (fuel : nat) (g : grammar) (t : ftable) (pairs : list (N * N)) (st : fstate)
    (specs tSpecials : nat) : outcome (list (N * N) * Z * nat) :=
  match fuel with
  | O => Fuel
  | S fuel =>
    let utility := f_utility st in
    let! fr := ftGetFrequency t (f_symbol st) in
    if fr =? 0 then UB
    else
      let! _ := assertNotSpecial g t (f_symbol st) in
      let! (limit, nSpecials, after, symbol) :=
        (if (tSpecials =? 0)%nat then
           let! fr2 := ftGetFrequency t (S (f_symbol st)) in
           let! _ := assertNotSpecial g t (S (f_symbol st)) in
           Ok (2%nat, 2%nat, (- Z.of_N fr - Z.of_N fr2)%Z, S (S (f_symbol st)))
         else Ok ((2 * tSpecials)%nat, 1%nat, (- Z.of_N fr)%Z, S (f_symbol st))) in
      let! (pairs, st', count, hope) :=
        specialPairs g t limit pairs
          (mkF (f_usedFst st) (f_usedSnd st) symbol (f_repl st) after (f_forFree st) (f_without st))
          0 true in
      let totalUt := f_utility st' in
      if (1000 <? totalUt)%Z && (0 <? count)%nat then
        let st' := mkF (f_usedFst st') (f_usedSnd st') (f_symbol st') (f_repl st')
                       (utility + totalUt) (f_forFree st') (f_without st') in
        if hope then newSpecialsLoop fuel g t pairs st' (specs + nSpecials) (tSpecials + nSpecials)
        else Ok (f_repl st', f_utility st', (specs + nSpecials)%nat)
      else
        if (count <=? length (f_repl st'))%nat then
          Ok (firstn (length (f_repl st') - count) (f_repl st'), utility, specs)
        else UB
  end.

(** PairReplacer.cpp 126-273.  Only usedSnd[0] is initialised with true (133).  Result: the
    pairs, their utility, specials, forFree; [variables] is the number of pairs. *)
Definition findReplaceables (g : grammar) (t : ftable) (start : nat) (pairs : list (N * N))
    : outcome (list (N * N) * Z * nat * nat) :=
  let pairs := skipn start pairs in
  let! free := countFree 257 t 0 in
  let without := (specialSymbolPairsLeft g + N.of_nat free) mod two32 in
  let st := mkF (repeat false 256) (true :: repeat false 255) 0 [] 0%Z 0 without in
  let! (pairs, st) := (if nonEmpty pairs && (0 <? ft_last t)%nat then firstPairs g t pairs st
                       else Ok (pairs, st)) in
  if nonEmpty pairs && (f_symbol st <? ft_last t)%nat && (f_without st =? 0) then
    let! (repl, utility, specs) := newSpecialsLoop 257 g t pairs st 0 (length (g_specials g)) in
    Ok (repl, utility, specs, f_forFree st)
  else Ok (f_repl st, f_utility st, O, f_forFree st).

(** PairReplacer.cpp 104-123: starts i, i+1, ...; the best so far.  The frequency table is
    copied there but never changed.  Result: pairs, utility, specials, forFree. *)
Fixpoint bestStart (g : grammar) (t : ftable) (pairs : list (N * N)) (starts : list nat)
    (best : list (N * N) * Z * nat * nat) : outcome (list (N * N) * Z * nat * nat) :=
  match starts with
  | [] => Ok best
  | i :: r =>
    let! found := findReplaceables g t i pairs in
    let '(_, utility, _, _) := found in
    let '(_, bestUtility, _, _) := best in
    bestStart g t pairs r (if (bestUtility <? utility)%Z then found else best)
  end.

(** PairReplacer.cpp 96-124; s_greedyStarts is 5 (PairReplacer.hpp 147). *)
Definition findReplaceablePairs (g : grammar) (t : ftable) (pairs : list (N * N))
    : outcome (list (N * N) * Z * nat * nat) :=
  bestStart g t (sortPairs pairs) [0; 1; 2; 3; 4]%nat ([], 0%Z, O, O).

(** ** The replacement table *)

(** PairReplacer.cpp 285-295. *)
Fixpoint addRules (news : list N) (common : N) (pairs : list (N * N)) (repl : list N)
    (g : grammar) (table : tarray N) : outcome (grammar * tarray N) :=
  match pairs, repl with
  | [], [] => Ok (g, table)
  | (_, pr) :: pairs, r :: repl =>
    let! special := isSpecial g r in
    if (common =? r) || existsb (N.eqb r) news || special then UB
    else
      let! table := tset table pr (pair16 r common) in
      let! g := addRule g r (N.land (N.shiftr pr 8) 255) (N.land pr 255) in
      addRules news common pairs repl g table
  | _, _ => UB
  end.

(** PairReplacer.cpp 305-308 and 314-317. *)
Definition fillRow (common symbol special : N) (table : tarray N) : outcome (tarray N) :=
  forLoop 256 0 (fun j table =>
    let! v := tget table (pair16 symbol j) in
    if N.shiftr v 8 =? common then tset table (pair16 symbol j) special else Ok table) table.

(** PairReplacer.cpp 300-309. *)
Fixpoint fillFreed (common : N) (freed next : list N) (table : tarray N) : outcome (tarray N) :=
  match freed, next with
  | [], [] => Ok table
  | c :: freed, special :: next =>
    if (common =? c) || (N.shiftr special 8 =? common) then UB
    else let! table := fillRow common c special table in fillFreed common freed next table
  | _, _ => UB
  end.

(** PairReplacer.cpp 310-318. *)
Fixpoint fillSpecials (common : N) (news : list N) (table : tarray N) : outcome (tarray N) :=
  match news with
  | [] => Ok table
  | c :: news =>
    if common =? c then UB
    else let! table := fillRow common c (pair16 c c) table in fillSpecials common news table
  end.

(** PairReplacer.cpp 275-320. *)
Definition constructReplacementTable (g : grammar) (common : N) (table : tarray N)
    (pairs : list (N * N)) (freed news repl : list N) : outcome (grammar * tarray N) :=
  let! (g, table) := addRules news common pairs repl (beginUpdatingRules g) table in
  let! (g, next) := expandAlphabet g freed news in
  if (length freed =? length next)%nat then
    let! table := fillFreed common freed next table in
    let! table := fillSpecials common news table in
    let! g := endUpdatingRules g repl in
    Ok (g, table)
  else UB.

(** PairReplacer.cpp 411-415; the special symbols among i, i+1, ... *)
Fixpoint removeSpecials (over : list N -> outcome N) (i : N) (special : list bool) (t : ftable)
    : outcome ftable :=
  match special with
  | [] => Ok t
  | b :: r =>
    let! t := (if b : bool then ftRemove over t i else Ok t) in
    removeSpecials over (i + 1) r t
  end.

(** PairReplacer.cpp 440-459: [k] keys from index j on; [zero]: with the assertion of line 443. *)
Fixpoint takeKeys (g : grammar) (t : ftable) (zero : bool) (k j : nat) : outcome (list N) :=
  match k with
  | O => Ok []
  | S k =>
    let! c := ftGetKey t j in
    let! b := isSpecial g c in
    let! f := (if zero then ftGetFrequency t j else Ok 0) in
    if b || negb (f =? 0) then UB
    else let! l := takeKeys g t zero k (S j) in Ok (c :: l)
  end.

(** PairReplacer.cpp 402-484: the new grammar, m_commonByte and m_replacements. *)
Definition decideReplacements (sortF : list (N * N) -> list (N * N)) (over : list N -> outcome N)
    (g : grammar) (st : analysis) : outcome (grammar * N * tarray N) :=
  let! t := ftInit sortF (ttake (a_freqs st) 0 256) in
  let! t := removeSpecials over 0 (g_special g) t in
  let! (pairs, _, nSpecials, forFree) := findReplaceablePairs g t (makePairList st) in
  let nVariables := length pairs in
  let nFreed := (nVariables - forFree)%nat in
  if (nVariables + nSpecials <? 256)%nat then
    let nFrees := Nat.min forFree nVariables in
    let! frees := takeKeys g t true nFrees 0 in
    let! news := takeKeys g t false nSpecials nFrees in
    let! freed := takeKeys g t false nFreed (nFrees + nSpecials) in
    let repl := freed ++ frees in
    if (length repl =? nVariables)%nat && (0 <? ft_last t)%nat then
      let! common := ftGetKey t (ft_last t - 1) in
      let table := tmake 65536 (pair16 common common) in
      if (0 <? nVariables)%nat then
        let! (g, table) := constructReplacementTable g common table pairs freed news repl in
        Ok (g, common, table)
      else Ok (g, common, table)
    else UB
  else UB.

(** ** Writing *)

(** PairReplacer.cpp 366-400: the bytes written to dst.  [prev] is the high byte of [pair]
    at the head of the loop (always src[i-1]), [src] the bytes from index i on.  After a
    replacement at index length-2 the loop reads [src[++i]] and goes on to line 387 with
    the last symbol.  Reading behind src is undefined. *)
Fixpoint replaceLoop (common : N) (table : tarray N) (prev : N) (src : list N) : outcome (list N) :=
  let finish (c : N) :=
    let! v := tget table (pair16 c 0) in
    Ok (if lo16 v =? common then [c] else [hi16 v; lo16 v]) in
  match src with
  | [] => UB
  | c :: rest =>
    let! v := tget table (pair16 prev c) in
    if v =? pair16 common common then
      let! l := (match rest with [] => finish c | _ => replaceLoop common table c rest end) in
      Ok (prev :: l)
    else if lo16 v =? common then
      match rest with
      | [] => Ok [hi16 v]
      | [d] => let! l := finish d in Ok (hi16 v :: l)
      | d :: rest' => let! l := replaceLoop common table d rest' in Ok (hi16 v :: l)
      end
    else
      let! l := (match rest with [] => finish c | _ => replaceLoop common table c rest end) in
      Ok (hi16 v :: lo16 v :: l)
  end.

(** The same with the room for [room] bytes at dst. *)
Definition writeReplaced (common : N) (table : tarray N) (room : nat) (src : list N) : outcome (list N) :=
  match src with
  | [] => UB
  | c :: rest =>
    let! l := replaceLoop common table c rest in
    if (length l <=? room)%nat then Ok l else UB
  end.

(** Copying [l] to mem + at. *)
Fixpoint twrite (mem : tarray N) (at_ : N) (l : list N) : outcome (tarray N) :=
  match l with
  | [] => Ok mem
  | x :: r => let! mem := tset mem at_ x in twrite mem (at_ + 1) r
  end.

(** [filled += buffer.consume(src + filled, len)], PairReplacer.cpp 345, 348, 362. *)
Definition consumeTo (buffer : circ N) (mem : tarray N) (filled len : nat)
    : outcome (circ N * tarray N * nat) :=
  let! (buffer, l) := circConsume buffer len in
  let! mem := twrite mem (N.of_nat filled) l in
  Ok (buffer, mem, (filled + length l)%nat).

(** PairReplacer.cpp 345 and 348: consume if full.  If i - filled - 1 wraps it is larger
    than the number of elements. *)
Definition consumeIfFull (buffer : circ N) (mem : tarray N) (filled i : nat)
    : outcome (circ N * tarray N * nat) :=
  if circFull buffer then
    consumeTo buffer mem filled (if (filled + 1 <=? i)%nat then i - filled - 1 else c_count buffer)%nat
  else Ok (buffer, mem, filled).

(** PairReplacer.cpp 334-361; [prev] as above.  Result: buffer, memory, filled. *)
Fixpoint inPlaceLoop (fuel : nat) (common : N) (table : tarray N) (len : nat)
    (buffer : circ N) (mem : tarray N) (filled i : nat) (prev : N)
    : outcome (circ N * tarray N * nat) :=
  match fuel with
  | O => Fuel
  | S fuel =>
    let! c := tget mem (N.of_nat i) in
    let! v := tget table (pair16 prev c) in
    let! (buffer, mem, filled, i, prev, stop) :=
      (if v =? pair16 common common then
         let! b := tget mem (N.of_nat i - 1) in
         let! buffer := circPush buffer b in
         Ok (buffer, mem, filled, i, c, false)
       else if lo16 v =? common then
         let! buffer := circPush buffer (hi16 v) in
         if (i =? len - 1)%nat then Ok (buffer, mem, filled, i, c, true)
         else
           let! d := tget mem (N.of_nat (S i)) in
           Ok (buffer, mem, filled, S i, d, false)
       else
         let! buffer := circPush buffer (hi16 v) in
         let! (buffer, mem, filled) := consumeIfFull buffer mem filled i in
         let! buffer := circPush buffer (lo16 v) in
         Ok (buffer, mem, filled, i, c, false)) in
    if stop : bool then Ok (buffer, mem, filled)
    else
      let! (buffer, mem, filled) := consumeIfFull buffer mem filled i in
      if (i =? len - 1)%nat then
        let! e := tget mem (N.of_nat i) in
        let! w := tget table (pair16 e 0) in
        let! buffer :=
          (if lo16 w =? common then circPush buffer e
           else let! buffer := circPush buffer (hi16 w) in circPush buffer (lo16 w)) in
        Ok (buffer, mem, filled)
      else inPlaceLoop fuel common table len buffer mem filled (S i) prev
  end.

(** PairReplacer.cpp 322-364.  [cap] is the capacity of the buffer, [room] the size of the
    memory at src; the result are the first [filled] bytes of it.  The last consume is
    called with length - 1 whichever way the loop ends. *)
Definition writeInPlace (cap : nat) (common : N) (table : tarray N) (room : nat) (src : list N)
    : outcome (list N) :=
  if (length src <=? room)%nat then
    let len := length src in
    let mem := tfill (tmake (N.of_nat room) 0) 0 src in
    let! first := tget mem 0 in
    let! (buffer, mem, filled) :=
      inPlaceLoop (S len) common table len (circInit cap) mem 0 1 first in
    let! (_, mem, filled) := consumeTo buffer mem filled (len - 1) in
    Ok (ttake mem 0 filled)
  else UB.

(** PairReplacer.cpp 326: the argument of the constructor of the buffer, without the rounding
    of the double arithmetic. *)
Definition bufferCapacity (len : nat) : nat :=
  N.to_nat (333334 * N.of_nat len / 1000000 + 3).

(** ** Precompressor *)

Section Precompress.
Variable sortF : list (N * N) -> list (N * N).   (* std::sort of FrequencyTable *)
Variable over : list N -> outcome N.             (* m_frequencies[256].second *)
Variable capacity : nat -> nat.                  (* of the buffer for in-place writing *)
Variable lowRatio : nat -> nat -> bool.          (* (double)length/originalSize < 0.666 *)

(** Precompressor.cpp 48-60, up to the writing. *)
Definition analyseAndDecide (g : grammar) (data : list N) : outcome (grammar * N * tarray N) :=
  let! st := analyseData g data in
  decideReplacements sortF over g st.

(** Precompressor.cpp 76-107, [n] more turns, all options being 'p' (compress.cpp accepts no
    others).  [temp]: room at src and dst once the temporary array is used.  Simplification:
    if a turn with the temporary array gives the original size again, src holds an old version
    (93-99 comes before the swap): reported as undefined.  The memory of a block has one byte
    more than its size (PrecompressorBlock.cpp 37-49). *)
Fixpoint precompressRounds (n original : nat) (temp : option (nat * nat)) (g : grammar) (data : list N)
    : outcome (grammar * list N * option (nat * nat)) :=
  match n with
  | O => Ok (g, data, temp)
  | S n =>
    let len := length data in
    let temp := match temp with
                | Some t => Some t
                | None => if lowRatio len original then Some (S original, S len) else None
                end in
    let! (g, common, table) := analyseAndDecide g data in
    match temp with
    | Some (srcRoom, dstRoom) =>
      let! data := writeReplaced common table dstRoom data in
      if (length data =? original)%nat then UB
      else precompressRounds n original (Some (dstRoom, srcRoom)) g data
    | None =>
      let! data := writeInPlace (capacity len) common table (S original) data in
      if (length data =? original)%nat then Ok (g, data, None)
      else precompressRounds n original None g data
    end
  end.

(** Precompressor.cpp 62-121: [n] is the number of options.  At the end the data is copied
    into the memory of the block if it is in the temporary array; setSize asserts that it is
    not empty (PrecompressorBlock.cpp 55-62). *)
Definition precompress (n : nat) (data : list N) : outcome (grammar * list N) :=
  let original := length data in
  let! (g, data, _) := precompressRounds n original None emptyGrammar data in
  if ((0 <? length data) && (length data <=? S original))%nat%bool then Ok (g, data) else UB.
End Precompress.

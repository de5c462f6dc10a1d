(** Transcription of the Burrows-Wheeler transform and its two inverses,
    /repo/bwtransforms.  The suffix sorters (divsufsort, sais) are oracles here: functions
    take the suffix array [sa] they would produce.  Sais is transcribed in ModelSais.v. *)
From Coq Require Import List NArith Arith Bool.
From Verif Require Import Base Arrays TArray ModelUtils ModelHeaders.
Import ListNotations.
Open Scope N_scope.

(** ** Forward transform *)

(** Position of [s] in the suffix array. *)
Fixpoint indexOf (s : nat) (sa : list nat) : outcome nat :=
  match sa with
  | [] => UB
  | x :: r => if (x =? s)%nat then Ok O else let! i := indexOf s r in Ok (S i)
  end.

(** divsufsort.c 506-512, sais.hxx 822-829: [U[i]] for the rows from [i] on.  Row [i] gets
    the character before the suffix; the row of the whole text is skipped and, as U is the
    same memory as T, keeps T[i].  The values B[i] are those left by construct_BWT
    (divsufsort.c 328-404) and computeBWT (sais.hxx 290-341): T[SA[i]-1]. *)
Fixpoint bwtRows (T : list N) (i : nat) (sa : list nat) : outcome (list N) :=
  match sa with
  | [] => Ok []
  | s :: r =>
    let! c := match s with O => get T i | S s' => get T s' end in
    let! l := bwtRows T (S i) r in
    Ok (c :: l)
  end.

(** divsufsort.c 350, 381, 390, 497-504, sais.hxx 309, 324, 329, 338: the starting
    points.  The rank of the suffix n - k*x is stored at index k for 0 < k < nLF
    ([s >= y+1] is k < nLF), index 0 gets the rank of the whole text. *)
Fixpoint startingPoints (n x k todo : nat) (sa : list nat) : outcome (list N) :=
  match todo with
  | O => Ok []
  | S t =>
    let! r := indexOf (if (k =? 0)%nat then 0 else n - k * x)%nat sa in
    let! l := startingPoints n x (S k) t sa in
    Ok (N.of_nat r :: l)
  end.

(** divsufsort.c 506-512, sais.hxx 823-828: [++freqs[U[i]]] for i <> pidx, in uint32. *)
Fixpoint countRows (pidx i : nat) (U freqs : list N) : outcome (list N) :=
  match U with
  | [] => Ok freqs
  | c :: r =>
    if (i =? pidx)%nat then countRows pidx (S i) r freqs
    else
      let! f := get freqs (N.to_nat c) in
      let! freqs := set freqs (N.to_nat c) ((f + 1) mod two32) in
      countRows pidx (S i) r freqs
  end.

(** divbwtf (divsufsort.c 480-522) and saisxx_bwt (sais.hxx 803-830) for n >= 2: U,
    LFpowers and the counters.  [x = n/nLFpowers] divides, so nLF > 0. *)
Definition divbwtf (T : list N) (sa : list nat) (nLF : nat) (freqs : list N)
    : outcome (list N * list N * list N) :=
  if (nLF =? 0)%nat then UB
  else
    let! pidx := indexOf 0 sa in
    let! U := bwtRows T 0 sa in
    let! lf := startingPoints (length T) (length T / nLF) 0 nLF sa in
    let! freqs := countRows pidx 0 U freqs in
    Ok (U, lf, freqs).

(** The text handed to the suffix sorter, BWTransform.cpp 53-55: the block reversed with a
    zero byte behind it. *)
Definition sortedText (data : list N) : list N := rev data ++ [0].

(** BWTManager::doTransform (BWTManager.cpp 53-58), BWTransform::doTransform
    (BWTransform.cpp 52-64) with BWTBlock::prepareLFpowers: the transformed block, its
    starting points, the character statistics (starting from zero,
    HuffmanCoders.cpp 53-55).  The byte behind the block is restored by the C++. *)
Definition doTransform (data : list N) (sa : list nat) (points : N) : outcome (list N * list N * list N) :=
  let nLF := N.to_nat (prepareLFpowers (N.of_nat (length data)) points) in
  let! (U, lf, freqs) := divbwtf (sortedText data) sa nLF (repeat 0 256) in
  match lf with
  | [] => UB
  | p :: _ =>
    let! c := get U (length data) in
    let! U := set U (N.to_nat p) c in
    Ok (firstn (length data) U, lf, freqs)
  end.

(** ** Inverse transforms *)

(** InverseBWT.cpp 47-51: the block with the byte behind it ([next] in memory) set. *)
Definition inverseInput (data : list N) (next : N) (lf : list N) : outcome (list N) :=
  match lf with
  | [] => UB
  | p :: _ =>
    let! c := get (data ++ [next]) (N.to_nat p) in
    set (data ++ [next]) (length data) c
  end.

(** std::partial_sum over [k] elements from index [i], [sum] being the sum before; uint32. *)
Definition partialSum (t : tarray N) : outcome (tarray N) :=
  let! (t, _) := forLoop (N.to_nat (t_len t)) 0 (fun i '(t, sum) =>
    let! v := tget t i in
    let sum := (sum + v) mod two32 in
    let! t := tset t i sum in Ok (t, sum)) (t, 0) in
  Ok t.

(** *** FastInverseBWTransform, InverseBWT.cpp 58-115 *)

(** InverseBWT.cpp 79-91: the scan.  State: bwt_rank_low24, the milestones per character
    (vectors with push_back), count. *)
Definition fastScan (bwt : tarray N) (eob position : N)
    (st : tarray N * tarray (list N) * tarray N) : outcome (tarray N * tarray (list N) * tarray N) :=
  let '(ranks, miles, count) := st in
  if position =? eob then Ok st
  else
    let! ch := tget bwt position in
    let! rank := tget count (ch + 1) in
    let low24 := N.land rank 16777215 in
    let! ranks := tset ranks position ((N.shiftl ch 24 + low24) mod two32) in
    let! miles := (if low24 =? 0 then let! m := tget miles ch in tset miles ch (m ++ [position])
                   else Ok miles) in
    let! count := tset count (ch + 1) ((rank + 1) mod two32) in
    Ok (ranks, miles, count).

(** InverseBWT.cpp 108: the loop over the milestones, [m] being those from index 1 on. *)
Fixpoint milestonesPassed (m : list N) (position hi : N) : outcome N :=
  match m with
  | [] => UB
  | p :: r => if p <=? position then milestonesPassed r position (hi + 1) else Ok hi
  end.

(** InverseBWT.cpp 99-110. *)
Fixpoint fastOutput (fuel : nat) (ranks : tarray N) (miles : tarray (list N)) (count : tarray N)
    (eob position : N) (bwt : tarray N) (index : N) : outcome (tarray N) :=
  if position =? eob then Ok bwt
  else
    match fuel with
    | O => Fuel
    | S f =>
      let! br := tget ranks position in
      let ch := N.shiftr br 24 in
      let! bwt := tset bwt index ch in
      let low24 := N.land br 16777215 in
      let! m := tget miles ch in
      let! hi := milestonesPassed (tl m) position 0 in
      let! c := tget count ch in
      fastOutput f ranks miles count eob ((c + N.shiftl hi 24 + low24) mod two32) bwt (index + 1)
    end.

(** InverseBWT.cpp 58-115 on [n] bytes; the result is the memory afterwards. *)
Definition fastInverse (bwt : tarray N) (lf : list N) : outcome (tarray N) :=
  match lf with
  | [] => UB
  | eob :: _ =>
    let n := t_len bwt in
    let! ranks := tset (tmake n 0) eob 0 in
    let! count := tset (tmake 257 0) 0 1 in
    let! (ranks, miles, count) := forLoop (N.to_nat n) 0 (fastScan bwt eob) (ranks, tmake 256 [], count) in
    let! count := partialSum count in
    let! total := tget count 256 in
    if total =? n then
      let! miles := forLoop 256 0 (fun ch miles => let! m := tget miles ch in tset miles ch (m ++ [n])) miles in
      fastOutput (N.to_nat n) ranks miles count eob 0 bwt 0
    else UB
  end.

(** *** MtlSaInverseBWTransform, MtlSaInverseBWT.cpp; little-endian machine *)

(** [data] is the array of uint32; a uint16 pointer into it is the index [h] of the half
    word.  Simplification: memory not yet written reads as zero. *)
Definition getHalf (data : tarray N) (h : N) : outcome N :=
  let! w := tget data (h / 2) in
  Ok (if N.even h then w mod 65536 else w / 65536).
Definition setHalf (data : tarray N) (h v : N) : outcome (tarray N) :=
  let! w := tget data (h / 2) in
  tset data (h / 2) (if N.even h then (w / 65536) * 65536 + v mod 65536
                     else w mod 65536 + (v mod 65536) * 65536).

(** [++a[i]] for uint32 elements. *)
Definition increment (t : tarray N) (i : N) : outcome (tarray N) :=
  let! v := tget t i in tset t i ((v + 1) mod two32).

(** MtlSaInverseBWT.cpp 71-74. *)
Definition mtlCount (bwt : tarray N) (eob position : N) (count : tarray N) : outcome (tarray N) :=
  if position =? eob then Ok count
  else let! ch := tget bwt position in increment count (ch + 1).

(** MtlSaInverseBWT.cpp 121-123, 138-140. *)
Fixpoint advanceFirst (fuel : nat) (count : tarray N) (position first : N) : outcome N :=
  let! c := tget count (first + 1) in
  if c <=? position then
    match fuel with
    | O => Fuel
    | S f => advanceFirst f count position (first + 1)
    end
  else Ok first.

(** State of the scan: data, pairs_ptr, rank, second_eob_pair, first_column_ch, pairs_count. *)
Definition mtlState : Type := tarray N * N * tarray N * N * N * tarray N.

(** The loop bodies of MtlSaInverseBWT.cpp 108-125 and 128-142. *)
Definition mtlScan (bwt count : tarray N) (eob position : N) (st : mtlState) : outcome mtlState :=
  let '(data, pp, rank, second, first, pairs) := st in
  let! cur := tget bwt position in
  let! lf := tget rank cur in
  let! prev := tget bwt lf in
  let! data := setHalf data pp (cur + N.shiftl prev 8) in
  let pp := pp + 1 + N.shiftl (N.land position 1) 2 in
  let! rank := increment rank cur in
  let second := if lf =? eob then position else second in
  let! first := advanceFirst 256 count position first in
  let! pairs := increment pairs (N.shiftl first 8 + cur + 1) in
  Ok (data, pp, rank, second, first, pairs).

(** MtlSaInverseBWT.cpp 143-149. *)
Definition transpose (pairs : tarray N) : outcome (tarray N) :=
  forLoop 256 0 (fun low pairs =>
    forLoop (255 - N.to_nat low) (low + 1) (fun high pairs =>
      let i := N.shiftl low 8 + high + 1 in
      let j := N.shiftl high 8 + low + 1 in
      let! a := tget pairs i in
      let! b := tget pairs j in
      let! pairs := tset pairs i b in
      tset pairs j a) pairs) pairs.

(** MtlSaInverseBWT.cpp 208-215 (also 220-227 and 235-242): one entry LF^2. *)
Definition mtlEntry (eob second lf0 : N) (index dp pp : N) (data pairs : tarray N)
    : outcome (tarray N * tarray N) :=
  if index =? eob then let! data := tset data dp lf0 in Ok (data, pairs)
  else if index =? second then let! data := tset data dp 0 in Ok (data, pairs)
  else
    let! p := getHalf data pp in
    let! v := tget pairs p in
    let! data := tset data dp v in
    let! pairs := increment pairs p in
    Ok (data, pairs).

(** MtlSaInverseBWT.cpp 206-231: one round of the loop.  State: data, pairs_count,
    data_ptr, pairs_ptr, bwt_index. *)
Definition mtlRound (eob second lf0 : N) (st : tarray N * tarray N * N * N * N)
    : outcome (tarray N * tarray N * N * N * N) :=
  let '(data, pairs, dp, pp, index) := st in
  let! (data, pairs) := mtlEntry eob second lf0 index dp pp data pairs in
  let dp := dp + 2 in let pp := pp + 1 in let index := index + 1 in
  let! (data, pairs) := mtlEntry eob second lf0 index dp pp data pairs in
  let dp := dp + 1 in let pp := pp + 5 in let index := index + 1 in
  Ok (data, pairs, dp, pp, index).

(** MtlSaInverseBWT.cpp 41-244: [data] filled. *)
Definition computeData (bwt data : tarray N) (eob : N) : outcome (tarray N) :=
  let n := t_len bwt in
  let! count := tset (tmake 257 0) 0 1 in
  let! count := forLoop (N.to_nat n) 0 (mtlCount bwt eob) count in
  let! count := partialSum count in
  let rank := count in
  let! total := tget count 256 in
  if negb (total =? n) then UB
  else
    (* position 0 *)
    let! cur := tget bwt 0 in
    let! lf0 := tget rank cur in
    let! prev := tget bwt lf0 in
    let! data := setHalf data 2 (cur + N.shiftl prev 8) in
    let! rank := increment rank cur in
    (* the other positions *)
    let! st := forLoop (N.to_nat (eob - 1)) 1 (mtlScan bwt count eob)
                 (data, 3, rank, 0, 0, tmake 65537 0) in
    let '(data, pp, rank, second, first, pairs) := st in
    let! data := setHalf data pp (N.shiftl cur 8) in
    let pp := pp + 1 + N.shiftl (N.land eob 1) 2 in
    let! st := forLoop (N.to_nat (n - (eob + 1))) (eob + 1) (mtlScan bwt count eob)
                 (data, pp, rank, second, first, pairs) in
    let '(data, _, _, second, _, pairs) := st in
    let! pairs := transpose pairs in
    let! pairs := increment pairs 0 in
    let! pairs := increment pairs (N.shiftl cur 8) in
    let! pairs := partialSum pairs in
    let! (data, pairs, dp, pp, index) :=
      forLoop (N.to_nat (n / 2)) 0 (fun _ => mtlRound eob second lf0) (data, pairs, 0, 2, 0) in
    if N.odd n then
      let! (data, _) := mtlEntry eob second lf0 index dp pp data pairs in Ok data
    else Ok data.

(** MtlSaInverseBWT.cpp 295-298: next position and pair for a position. *)
Definition mtlFetch (data : tarray N) (position : N) : outcome (N * N) :=
  let base := (3 * (position / 2)) mod two32 in
  let offset := N.land position 1 in
  let! next := tget data (base + N.shiftl offset 1) in
  let! cp := getHalf data (2 * (base + 1) + offset) in
  Ok (next, cp).

(** State: the memory written to, [positions], [dest_ptr].  Destination pointers are kept
    as offset plus one, because the first one starts before the memory. *)
Definition restState : Type := tarray N * tarray N * tarray N.

(** [*dest_ptr[id]++ = char_pair], little-endian.  Simplification: the alignment of the
    16-bit store is not looked at. *)
Definition storePair (st : restState) (id cp : N) : outcome restState :=
  let '(result, positions, dest) := st in
  let! d := tget dest id in
  if d =? 0 then UB
  else
    let! result := tset result (d - 1) (cp mod 256) in
    let! result := tset result d (cp / 256) in
    let! dest := tset dest id (d + 2) in
    Ok (result, positions, dest).

(** MtlSaInverseBWT.cpp 314-320, 342-348: the next pair of block [id]. *)
Definition nextPair (data : tarray N) (id : N) (st : restState) : outcome restState :=
  let '(result, positions, dest) := st in
  let! position := tget positions id in
  let! (next, cp) := mtlFetch data position in
  let! positions := tset positions id next in
  storePair (result, positions, dest) id cp.

(** MtlSaInverseBWT.cpp 294-307. *)
Definition firstPair (data : tarray N) (id : N) (st : restState) : outcome restState :=
  let '(result, positions, dest) := st in
  let! position := tget positions id in
  let! (next, cp) := mtlFetch data position in
  let! positions := tset positions id next in
  if id =? 0 then
    let! d := tget dest id in
    let! dest := tset dest id (d + 2) in
    let! result := tset result 0 (cp / 256) in
    Ok (result, positions, dest)
  else storePair (result, positions, dest) id cp.

(** MtlSaInverseBWT.cpp 329-334, 354-358: the low byte of the pair of block [id] stored at [index]. *)
Definition lastByte (data : tarray N) (id index : N) (st : restState) : outcome restState :=
  let '(result, positions, dest) := st in
  let! position := tget positions id in
  let! (_, cp) := mtlFetch data position in
  let! result := tset result index (cp mod 256) in
  Ok (result, positions, dest).

(** MtlSaInverseBWT.cpp 341-350; index is uint32. *)
Fixpoint tailLoop (fuel : nat) (data : tarray N) (id toRestore index : N) (st : restState)
    : outcome (restState * N) :=
  if (index + 1) mod two32 <? toRestore then
    match fuel with
    | O => Fuel
    | S f =>
      let! st := nextPair data id st in
      tailLoop f data id toRestore ((index + 2) mod two32) st
    end
  else Ok (st, index).

(** MtlSaInverseBWT.cpp 246-362: the memory afterwards. *)
Definition mtlInverse (bwt : tarray N) (lf : list N) : outcome (tarray N) :=
  let n := t_len bwt in
  match lf with
  | [] => UB
  | eob :: _ =>
    if n <? 2 then UB
    else
      let! data := computeData bwt (tmake (3 * ((n + 1) / 2)) 0) eob in
      let points := N.of_nat (length lf) in
      let small := n / points <=? 1 in
      let sp := if small then 1 else points in
      let bs := if small then n else n / points in
      let toRestore := n - 1 in
      let dest := tofList 0 (map (fun i => N.of_nat i * bs) (seq 0 (N.to_nat sp))) in
      let! st := forLoop (N.to_nat sp) 0 (firstPair data) (bwt, tofList 0 lf, dest) in
      let! st := forLoop (N.to_nat (bs / 2 - 1)) 1 (fun _ st =>
                   forLoop (N.to_nat sp) 0 (nextPair data) st) st in
      let! st := (if N.odd bs then
                    forLoop (N.to_nat (sp - 1)) 0 (fun id => lastByte data id ((id + 1) * bs - 2)) st
                  else Ok st) in
      let index := ((sp - 1) * bs + two32 - 1 + 2 * (bs / 2)) mod two32 in
      let! (st, index) := tailLoop (N.to_nat n) data (sp - 1) toRestore index st in
      let! st := (if index =? toRestore then Ok st
                  else lastByte data (sp - 1) (toRestore - 1) st) in
      let '(result, _, _) := st in
      Ok result
  end.

(** InverseBWTransform::doTransform, InverseBWT.cpp 47-51, with either inverse: the block
    afterwards. *)
Definition inverseWith (inv : tarray N -> list N -> outcome (tarray N)) (data : list N) (next : N) (lf : list N)
    : outcome (list N) :=
  let! bwt := inverseInput data next lf in
  let! r := inv (tofList 0 bwt) lf in
  Ok (ttake r 0 (length data)).

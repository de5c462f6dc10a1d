(** Transcription of the wavelet tree and of the coder built on it: /repo/WaveletTree.hpp,
    /repo/WaveletCoders.cpp.  OPTIMIZED_INTEGER_CODE and SEMI_FIXED_CODE are defined
    (WaveletTree.hpp 48-49); the code for the other settings is not compiled and not modelled.
    [BitVector] is std::vector<bool>, here a list of bool. *)
From Coq Require Import List NArith Arith Bool.
From Verif Require Import Base Arrays ModelUtils ModelRuns ModelStreams ModelHuffman ModelHuffmanCoder ModelHeaders
  ModelBitCoder ModelProb ModelFile.
Import ListNotations.
Open Scope N_scope.

(** ** Tree nodes *)

(** A tree of nodes; [Empty] is the null pointer.  A pointer to a node that is changed through it
    is represented by the path from the root to the node, one to a node that is only read by
    the tree below it. *)
Inductive trie (A : Type) : Type :=
| Empty : trie A
| Branch : option A -> trie A -> trie A -> trie A.
Arguments Empty {A}.
Arguments Branch {A} _ _ _.

Definition child {A} (t : trie A) (b : bool) : trie A :=
  match t with Empty => Empty | Branch _ l r => if b then r else l end.
Definition here {A} (t : trie A) : option A := match t with Empty => None | Branch v _ _ => v end.
Fixpoint look {A} (t : trie A) (p : list bool) : option A :=
  match p with [] => here t | b :: q => look (child t b) q end.
Fixpoint put {A} (t : trie A) (p : list bool) (x : A) : trie A :=
  match p with
  | [] => Branch (Some x) (child t false) (child t true)
  | b :: q => if b then Branch (here t) (child t false) (put (child t true) q x)
              else Branch (here t) (put (child t false) q x) (child t true)
  end.

(** WaveletTree.hpp 54-71: m_bitVector, and m_symbol if m_hasSymbol. *)
Record node := mkNode { bitVector : list bool; symbol : option N }.
Definition wtree := trie node.
Definition inner (l r : wtree) : wtree := Branch (Some (mkNode [] None)) l r.
Definition leaf (s : N) : wtree := Branch (Some (mkNode [] (Some s))) Empty Empty.
(** node->m_hasSymbol and node->m_symbol; a null pointer has none. *)
Definition symbolOf (t : wtree) : option N :=
  match here t with Some n => symbol n | None => None end.

Fixpoint height {A} (t : trie A) : nat :=
  match t with Empty => O | Branch _ l r => S (Nat.max (height l) (height r)) end.
Fixpoint nodes {A} (t : trie A) : nat :=
  match t with Empty => O | Branch _ l r => S (nodes l + nodes r) end.

(** ** Prefix codes *)

(** WaveletTree.hpp 1450-1482.  [lnode] is node->m_left on entry; node->m_right is null on entry to
    every call, so that the assertions of 1465 and 1476 hold.  [rest] are the elements of [lengths]
    from [elem] on; [lengths[elem].first - 1] is computed modulo 2^64.  Result: the node and the
    elements from the returned index on. *)
Fixpoint assignFrom (fuel : nat) (lnode : wtree) (rest : list (N * N)) (bits : N) : outcome (wtree * list (N * N)) :=
  match rest with
  | [] => Ok (inner lnode Empty, [])
  | (len, sym) :: r =>
    match fuel with
    | O => Fuel
    | S f =>
      let len1 := (len + two64 - 1) mod two64 in
      if bits =? len1 then
        match lnode with
        | Empty => assignFrom f (leaf sym) r bits
        | _ => Ok (inner lnode (leaf sym), r)
        end
      else if bits <? len1 then
        let! (lnode, rest) :=
          match lnode with
          | Empty => assignFrom f Empty rest (bits + 1)
          | _ => Ok (lnode, rest)
          end in
        match rest with
        | [] => Ok (inner lnode Empty, [])
        | _ => let! (rnode, rest) := assignFrom f Empty rest (bits + 1) in Ok (inner lnode rnode, rest)
        end
      else UB
    end
  end.
(** Called with elem = bits = 0 for a new node, the returned index is ignored (335-336, 455-456, 1445-1446).  The
    recursion goes no deeper than the longest code and the number of codes together. *)
Definition assignPrefixCodes (lengths : list (N * N)) : outcome wtree :=
  let! (t, _) := assignFrom (length lengths + N.to_nat (maxLength (map fst lengths))) Empty lengths 0 in Ok t.

(** WaveletTree.hpp 1532-1549: the assignments codes[symbol] = vec in order.  The symbol of a
    node without symbol is not initialised. *)
Fixpoint collectFrom (t : wtree) (vec : list bool) : outcome (list (N * list bool)) :=
  match t with
  | Empty => Ok []
  | Branch _ Empty Empty => match symbolOf t with Some s => Ok [(s, vec)] | None => UB end
  | Branch _ l r =>
    let! a := collectFrom l (vec ++ [false]) in
    let! b := collectFrom r (vec ++ [true]) in
    Ok (a ++ b)
  end.
Definition collectCodes (t : wtree) : outcome (list (N * list bool)) := collectFrom t [].

(** [codes[s]] after the assignments; no symbol is assigned to twice (the symbols given to
    assignPrefixCodes are distinct). *)
Definition codeOf (codes : list (N * list bool)) (s : N) : option (list bool) :=
  match find (fun c => fst c =? s) codes with Some c => Some (snd c) | None => None end.

(** ** Codes of integers *)

(** WaveletTree.hpp 535-539 on 64 bits. *)
Definition fixedIntegerCodeTranslation (bits w : N) : N :=
  (1 + N.shiftl (N.shiftl 1 bits mod two64 + two64 - 1) w) mod two64.

(** WaveletTree.hpp 514-526: the bits appended. *)
Definition fixedIntegerCode (x w : N) : outcome (list bool) :=
  if x =? 0 then UB
  else
    let! log := logFloor (x - 1 + 2 ^ w) in
    let B := log - w in
    let y := (x + two64 - fixedIntegerCodeTranslation B w) mod two64 in
    Ok (repeat true (N.to_nat B) ++ [false] ++ pushBits y (N.to_nat (w + B))).

(** WaveletTree.hpp 528-533; x > 0 for all run lengths. *)
Definition lengthOfFixedCode (x w : N) : outcome N :=
  let! log := logFloor ((x + two32 - 1) mod two32 + 2 ^ w) in
  Ok ((2 * (log - w) + w + 1) mod two32).

(** WaveletTree.hpp 541-551. *)
Definition gammaCode (integer : N) : outcome (list bool) :=
  let! log := logFloor integer in
  Ok (repeat true (N.to_nat log) ++ [false] ++ pushBits integer (N.to_nat log)).

(** ** Choice of the integer codes *)

Section Parameters.
(** [worth total f price]: whether [f*log(total/f) + 64 < price] in the floating point
    arithmetic of WaveletTree.hpp 1369-1582. *)
Variable worth : N -> N -> N -> bool.

(** Utils.cpp 422-473 with sorted = true: as [calculateCodeLengths] without line 433. *)
Definition codeLengthsInOrder (codeLengths : list (N * N)) : outcome (list (N * N)) :=
  match codeLengths with
  | [] => UB
  | [p] => Ok [(1, snd p)]
  | _ =>
    let n := length codeLengths in
    let! (freqs, _, _) := phase1Loop (n - 1) n 0 (map fst codeLengths, O, O) in
    let! freqs := set freqs (n - 2) 0 in
    let! freqs := phase2Loop (n - 2) freqs in
    let! freqs := phase3Loop (S n) 1 (n - 1) n freqs 0 in
    Ok (combine freqs (map snd codeLengths))
  end.

(** WaveletTree.hpp 1563-1568. *)
Fixpoint plainBits (w : N) (freqs : list (N * N)) (total : N) : outcome N :=
  match freqs with
  | [] => Ok total
  | (f, x) :: r =>
    let! len := lengthOfFixedCode x w in
    plainBits w r ((total + f * len) mod two64)
  end.

(** std::map<uint64, uint32> notRemoved, in decreasing order of the keys. *)
Fixpoint mapPut (m : list (N * nat)) (k : N) (v : nat) : list (N * nat) :=
  match m with
  | [] => [(k, v)]
  | (k', v') :: r =>
    if k' =? k then (k, v) :: r else if k' <? k then (k, v) :: m else (k', v') :: mapPut r k v
  end.

(** WaveletTree.hpp 1585-1587 and 1599-1601. *)
Definition smaller (minFreq f : N) : N := if (minFreq =? 0) || (f <? minFreq) then f else minFreq.

(** What bitsForIntegers chooses: removed, notRemoved, codeLengths, minFreq. *)
Definition choice := (list bool * list (N * nat) * list (N * N) * N)%type.
(** WaveletTree.hpp 1367-1591, from element number [i] on. *)
Fixpoint guess (w depth totalFreq : N) (freqs : list (N * N)) (i : nat) (st : choice) : outcome choice :=
  match freqs with
  | [] => Ok st
  | (f, x) :: r =>
    let '(removed, notRemoved, codeLengths, minFreq) := st in
    let! len := lengthOfFixedCode x w in
    let price := (f * ((depth + len) mod two32)) mod two64 in
    if worth totalFreq f price && (10 <=? f) then
      guess w depth totalFreq r (S i)
        (upd removed i true, notRemoved, codeLengths ++ [(f, x)], smaller minFreq f)
    else guess w depth totalFreq r (S i) (removed, mapPut notRemoved f i, codeLengths, minFreq)
  end.

(** WaveletTree.hpp 1596-1602: the bound of the loop is computed anew in every round.  Behind the last
    element of the map the iterator must not be dereferenced. *)
Fixpoint force (fuel i depth : nat) (freqs : list (N * N)) (it : list (N * nat))
    (removed : list bool) (codeLengths : list (N * N)) (minFreq : N) : outcome (list bool * list (N * N) * N) :=
  if (i + length codeLengths <? depth)%nat then
    match fuel with
    | O => Fuel
    | S fuel =>
      match it with
      | [] => UB
      | (f, k) :: it =>
        let! p := get freqs k in
        force fuel (S i) depth freqs it (upd removed k true) (codeLengths ++ [p]) (smaller minFreq f)
      end
    end
  else Ok (removed, codeLengths, minFreq).

(** WaveletTree.hpp 1614-1615: from index [j] downwards; below 0 undefined. *)
Fixpoint findFixed (j : nat) (codeLengths : list (N * N)) : outcome nat :=
  let! p := get codeLengths j in
  if snd p =? 0 then Ok j
  else match j with O => UB | S j' => findFixed j' codeLengths end.
(** WaveletTree.hpp 1616-1623. *)
Fixpoint sinkFixed (j : nat) (depth : N) (codeLengths : list (N * N)) : outcome (nat * list (N * N)) :=
  match j with
  | O => Ok (O, codeLengths)
  | S j' =>
    let! p := get codeLengths j' in
    let! q := get codeLengths j in
    if depth <=? fst p then
      sinkFixed j' depth (upd (upd codeLengths j (fst q, snd p)) j' (fst p, snd q))
    else Ok (j, codeLengths)
  end.

(** huffmanLengths[x], WaveletTree.hpp 1627-1629: the last assignment counts, 0 if there is none. *)
Definition lastLength (codeLengths : list (N * N)) (x : N) : N :=
  fold_left (fun a p => if snd p =? x then fst p mod two32 else a) codeLengths 0.
(** WaveletTree.hpp 1631-1640. *)
Fixpoint semiBits (w realDepth : N) (codeLengths freqs : list (N * N)) (removed : list bool) (total : N) : outcome N :=
  match freqs, removed with
  | (f, x) :: r, b :: removed =>
    let! len := if b : bool then Ok (lastLength codeLengths x)
                else let! l := lengthOfFixedCode x w in Ok ((realDepth + l) mod two32) in
    semiBits w realDepth codeLengths r removed ((total + f * len) mod two64)
  | [], _ => Ok total
  | _, [] => UB
  end.

(** WaveletTree.hpp 1553-1641: the result and [codeLengths], which is empty on entry. *)
Definition bitsForIntegers (w depth : N) (freqs : list (N * N)) (totalFreq : N) : outcome (N * list (N * N)) :=
  if N.of_nat (length freqs) <? depth then Ok (0, [])
  else if depth =? 0 then let! total := plainBits w freqs 0 in Ok (total, [])
  else
    let! (removed, notRemoved, codeLengths, minFreq) :=
      guess w depth totalFreq freqs 0 (repeat false (length freqs), [], [], 0) in
    let! (removed, codeLengths) :=
      if N.of_nat (length codeLengths) <? depth then
        let! (removed, codeLengths, minFreq) :=
          force (N.to_nat depth) 0 (N.to_nat depth) freqs notRemoved removed codeLengths minFreq in
        Ok (removed, sortPairs (codeLengths ++ [(minFreq, 0)]))
      else Ok (removed, codeLengths ++ [(minFreq, 0)]) in
    let! codeLengths := codeLengthsInOrder codeLengths in
    let codeLengths := sortPairs codeLengths in
    let! j := findFixed (length codeLengths - 1) codeLengths in
    let! (j, codeLengths) := sinkFixed j depth codeLengths in
    let! p := get codeLengths j in
    let! total := semiBits w (snd p) codeLengths freqs removed 0 in
    Ok (total, codeLengths).

(** WaveletTree.hpp 1657-1663: leastBits is not changed. *)
Fixpoint plainRound (ws : list N) (freqs : list (N * N)) (totalFreq leastBits bestW : N) : outcome N :=
  match ws with
  | [] => Ok bestW
  | w :: r =>
    let! (bits, _) := bitsForIntegers w 0 freqs totalFreq in
    plainRound r freqs totalFreq leastBits (if bits <? leastBits then w else bestW)
  end.
(** WaveletTree.hpp 1666-1676; the state is leastBits, bestW, codeLengths. *)
Fixpoint depthRound (w : N) (depths : list N) (freqs : list (N * N)) (totalFreq : N) (st : N * N * list (N * N))
    : outcome (N * N * list (N * N)) :=
  match depths with
  | [] => Ok st
  | depth :: r =>
    let! (bits, tmp) := bitsForIntegers w depth freqs totalFreq in
    if bits =? 0 then Ok st
    else
      let '(leastBits, _, _) := st in
      depthRound w r freqs totalFreq (if bits <? leastBits then (bits, w, tmp) else st)
  end.
(** WaveletTree.hpp 1665-1677. *)
Fixpoint semiRound (ws : list N) (freqs : list (N * N)) (totalFreq : N) (st : N * N * list (N * N))
    : outcome (N * N * list (N * N)) :=
  match ws with
  | [] => Ok st
  | w :: r => let! st := depthRound w [1; 2; 3] freqs totalFreq st in semiRound r freqs totalFreq st
  end.
(** WaveletTree.hpp 1645-1680: bestW and the code lengths. *)
Definition findParameters (freqs : list (N * N)) (totalFreq : N) : outcome (N * list (N * N)) :=
  match freqs with
  | [] => UB
  | _ =>
    let freqs := sortPairs freqs in
    let! (leastBits, _) := bitsForIntegers 0 0 freqs totalFreq in
    let! bestW := plainRound (fromTo 1 15) freqs totalFreq leastBits 0 in
    let! (_, bestW, codeLengths) := semiRound (fromTo 0 16) freqs totalFreq (leastBits, bestW, []) in
    Ok (bestW, codeLengths)
  end.
End Parameters.

(** ** Storing runs in the tree *)

(** The members of a WaveletTree: m_root, m_codes, m_integerCodeTree, m_integerCodes, m_W. *)
Record wavelet := mkWavelet {
  w_root : wtree;
  w_codes : list (N * list bool);
  w_intTree : wtree;
  w_intCodes : list (N * list bool);
  w_W : N
}.

(** node->m_bitVector.push_back(bit). *)
Definition pushed (n : node) (bit : bool) : node := mkNode (bitVector n ++ [bit]) (symbol n).

(** WaveletTree.hpp 1228-1249 on the node [t].  A missing node is created when it is stepped to, the
    last one with the symbol. *)
Fixpoint pushInteger (t : wtree) (bits : list bool) (sym : N) : outcome wtree :=
  match bits with
  | [] => UB
  | b :: r =>
    match t with
    | Branch (Some n) lnode rnode =>
      let next := if b then rnode else lnode in
      let! next :=
        match r with
        | [] => Ok (match next with Empty => leaf sym | _ => next end)
        | _ => pushInteger (match next with Empty => inner Empty Empty | _ => next end) r sym
        end in
      Ok (if b then Branch (Some (pushed n b)) lnode next else Branch (Some (pushed n b)) next rnode)
    | _ => UB
    end
  end.
(** WaveletTree.hpp 1184-1199 followed by pushBits(node, bits, symbol) on the node reached, which
    has to have a symbol (1255). *)
Fixpoint pushCharacter (t : wtree) (bits integer : list bool) (sym : N) : outcome wtree :=
  match t with
  | Branch (Some n) lnode rnode =>
    match bits with
    | [] => match symbol n with Some _ => pushInteger t integer sym | None => UB end
    | b :: r =>
      let! next := pushCharacter (if b then rnode else lnode) r integer sym in
      Ok (if b then Branch (Some (pushed n b)) lnode next else Branch (Some (pushed n b)) next rnode)
    end
  | _ => UB
  end.

(** WaveletTree.hpp 1263-1269: the code of a run length.  If 0 has no code, m_integerCodes[0] is an
    empty new entry. *)
Definition integerCode (intCodes : list (N * list bool)) (W x : N) : outcome (list bool) :=
  match codeOf intCodes x with
  | Some c => Ok c
  | None =>
    let! c := fixedIntegerCode x W in
    Ok (match codeOf intCodes 0 with Some z => z | None => [] end ++ c)
  end.
(** WaveletTree.hpp 1252-1275.  A byte without code has the empty one. *)
Definition pushRun (codes intCodes : list (N * list bool)) (W : N) (t : wtree) (run : N * nat) : outcome wtree :=
  let! c := integerCode intCodes W (N.of_nat (snd run)) in
  pushCharacter t (match codeOf codes (fst run) with Some z => z | None => [] end) c (N.of_nat (snd run)).
Fixpoint pushRuns (codes intCodes : list (N * list bool)) (W : N) (t : wtree) (runs : list (N * nat)) : outcome wtree :=
  match runs with
  | [] => Ok t
  | r :: rs => let! t := pushRun codes intCodes W t r in pushRuns codes intCodes W t rs
  end.

(** The elements of the map runDistribution as (count, run length), WaveletTree.hpp 321-329.
    Simplification: not in the order of the map; they are sorted next (1649). *)
Definition distribution (lens : counters nat) (runs : list (N * nat)) : list (N * N) :=
  map (fun n => (lens n, N.of_nat n)) (nodup Nat.eq_dec (map snd runs)).

(** WaveletTree.hpp 334-342 and 430-462, 459: the tree and codes of the integers; lengths are in the
    order given. *)
Definition integerTree (lengths : list (N * N)) : outcome (wtree * list (N * list bool)) :=
  match lengths with
  | [] => Ok (leaf 0, [(0, [])])
  | _ =>
    let! t := assignPrefixCodes lengths in
    let! codes := collectCodes t in
    Ok (t, codes)
  end.

(** WaveletTree.hpp 295-360; pushMessage (1485-1494) is the loop of Utils.cpp 120-125. *)
Definition buildTree (worth : N -> N -> N -> bool) (src : list N) : outcome wavelet :=
  let! (runFreqs, lens, totalRuns) := calculateRunsAndCharacters (fun _ => 0) src (fun _ => 0) in
  let! codeLengths := calculateHuffmanLengths (countersArray runFreqs) in
  let! root := assignPrefixCodes (sortPairs codeLengths) in
  let! runs := emittedRuns src in
  let! (W, intLengths) := findParameters worth (distribution lens runs) (N.of_nat totalRuns) in
  let! (intTree, intCodes) := integerTree intLengths in
  let! codes := collectCodes root in
  let! root := pushRuns codes intCodes W root runs in
  Ok (mkWavelet root codes intTree intCodes W).

(** ** Shape *)

(** WaveletTree.hpp 559-560: the sizes of m_codes. *)
Definition codeSizes (codes : list (N * list bool)) : list N :=
  map (fun b => match codeOf codes b with Some c => N.of_nat (length c) | None => 0 end) (fromTo 0 256).

(** WaveletTree.hpp 556-578. *)
Definition characterShape (codes : list (N * list bool)) : outcome (list bool) :=
  let clen := codeSizes codes in
  let symbols := usedSymbols clen in
  let maxLen := maxLength clen in
  match rev symbols with
  | [] => UB
  | back :: _ =>
    let! (packedInt, bytes) := packInteger maxLen in
    let! interp := binaryInterpolativeCode symbols 0 back in
    let! unary := unaryLengths clen maxLen symbols in
    Ok (pushBits back 8 ++ pushBits (N.of_nat (length symbols)) 8 ++ pushBitsRev packedInt (8 * bytes)
        ++ interp ++ unary)
  end.

(** WaveletTree.hpp 608-612 on the sizes of the codes. *)
Fixpoint integerUnary (maxLen : N) (sizes : list N) : outcome (list bool) :=
  match sizes with
  | [] => Ok []
  | len :: r =>
    if len =? 0 then UB
    else let! t := integerUnary maxLen r in Ok (unaryCode (N.to_nat (maxLen - len + 1)) ++ t)
  end.
(** The map m_integerCodes as (integer, size of the code) in increasing order of the integers. *)
Definition integerSizes (intCodes : list (N * list bool)) : list (N * N) :=
  sortPairs (map (fun c => (fst c, N.of_nat (length (snd c)))) intCodes).
(** WaveletTree.hpp 582-613. *)
Definition integerShape (intCodes : list (N * list bool)) : outcome (list bool) :=
  let sizes := integerSizes intCodes in
  let maxLen := maxLength (map snd sizes) in
  match rev sizes with
  | [] => UB
  | (back, _) :: _ =>
    let! (packedInt, bytes) := packInteger back in
    let! more :=
      (if 0 <? packedInt then
         let! (packed1, bytes1) := packInteger (N.of_nat (length sizes)) in
         let! (packed2, bytes2) := packInteger maxLen in
         let! interp := binaryInterpolativeCode (map fst sizes) 0 back in
         let! unary := integerUnary maxLen (map snd sizes) in
         Ok (pushBitsRev packed1 (8 * bytes1) ++ pushBitsRev packed2 (8 * bytes2) ++ interp ++ unary)
       else Ok []) in
    Ok (pushBitsRev packedInt (8 * bytes) ++ more)
  end.
(** WaveletTree.hpp 555-635; the bits of m_W, 614-616. *)
Definition treeShape (w : wavelet) : outcome (list bool) :=
  let! characters := characterShape (w_codes w) in
  let! integers := integerShape (w_intCodes w) in
  Ok (characters ++ integers ++ pushBits (w_W w) 4).

(** WaveletTree.hpp 418-423: (length, symbol) pairs; [maxLengthOfCode - n + 1] modulo 2^64.  The
    alphabet is a vector of bytes. *)
Fixpoint readCharacterLengths (alphabet : list N) (maxLen : N) (s : list bool) : list (N * N) * list bool :=
  match alphabet with
  | [] => ([], s)
  | x :: r =>
    let (n, s) := unaryDecode s in
    let len := (maxLen + two64 - N.of_nat n mod two64 + 1) mod two64 in
    let (l, s) := readCharacterLengths r maxLen s in
    ((len, x mod 256) :: l, s)
  end.
(** WaveletTree.hpp 446-452; the integers are uint32. *)
Fixpoint readIntegerLengths (integers : list N) (maxLen : N) (s : list bool) : outcome (list (N * N) * list bool) :=
  match integers with
  | [] => Ok ([], s)
  | x :: r =>
    let (n, s) := unaryDecode s in
    if N.of_nat n <=? maxLen then
      let! (l, s) := readIntegerLengths r maxLen s in
      Ok ((maxLen + 1 - N.of_nat n, x mod two32) :: l, s)
    else UB
  end.
(** WaveletTree.hpp 403-499 without counting the bits; the tree has no bits yet. *)
Definition readShape (s : list bool) : outcome (wavelet * list bool) :=
  let (maxSym, s) := readByte s in
  let (symbols, s) := readByte s in
  let symbols := if symbols =? 0 then 256 else symbols in
  let! (maxLen, _, s) := readPackedIntegerRev s in
  let! (alphabet, _, s) := binaryInterpolativeDecode s 0 maxSym (N.to_nat symbols) in
  let (codeLengths, s) := readCharacterLengths alphabet maxLen s in
  let! root := assignPrefixCodes (sortPairs codeLengths) in
  let! codes := collectCodes root in
  let! (longestRun, _, s) := readPackedIntegerRev s in
  let! (intTree, intCodes, s) :=
    (if 0 <? longestRun then
       let! (symbols, _, s) := readPackedIntegerRev s in
       let! (maxLen, _, s) := readPackedIntegerRev s in
       let! (integers, _, s) := binaryInterpolativeDecode s 0 longestRun (N.to_nat symbols) in
       let! (lengths, s) := readIntegerLengths integers maxLen s in
       let! t := assignPrefixCodes (sortPairs lengths) in
       let! codes := collectCodes t in
       Ok (t, codes, s)
     else Ok (leaf 0, [(0, [])], s)) in
  let (W, s) := readInto 4 0 s in
  Ok (mkWavelet root codes intTree intCodes W, s).

(** ** Coding the bit vectors *)

(** pm.probabilityOfOne() and pm.update(bit) around enc.encode: the call of [encode] and the new
    state of the model.  Simplification: the calls are collected in a list and carried out behind
    the traversal ([encodeTrace]), which does not depend on the encoder. *)
Definition encodeBit (P : predictor) (st : p_state P) (bit : bool) : outcome ((bool * N) * p_state P) :=
  let! p := p_prob P st in
  let! st := p_update P st bit in
  Ok ((bit, p), st).

(** The decoder: BitDecoder and the stream behind it. *)
Definition source := (decState * list bool)%type.
Definition decodeBit (P : predictor) (st : p_state P) (src : source) : outcome (bool * p_state P * source) :=
  let! p := p_prob P st in
  let! (bit, d, s) := decode (fst src) p (snd src) in
  let! st := p_update P st bit in
  Ok (bit, st, (d, s)).

Section Coding.
(** The models for characters, integer codes and gaps. *)
Variables PM GM AM : predictor.

(** The vectors of the left and the right child after a bit with flag [g]. *)
Definition addGap (bit g : bool) (gaps : list bool * list bool) : list bool * list bool :=
  if bit then (fst gaps, g :: snd gaps) else (g :: fst gaps, snd gaps).

(** WaveletTree.hpp 669-676: calls, gaps of the children, model. *)
Fixpoint encodeRoot (bits : list bool) (prev : bool) (pm : p_state PM)
    : outcome (list (bool * N) * (list bool * list bool) * p_state PM) :=
  match bits with
  | [] => Ok ([], ([], []), pm)
  | bit :: r =>
    let! (c, pm) := encodeBit PM pm bit in
    let! (cs, gaps, pm) := encodeRoot r bit pm in
    Ok (c :: cs, addGap bit (xorb prev bit) gaps, pm)
  end.
(** WaveletTree.hpp 702-709. *)
Fixpoint encodeLeaves (bits gaps : list bool) (am : p_state AM) : outcome (list (bool * N) * p_state AM) :=
  match bits, gaps with
  | bit :: r, g :: gs =>
    if g : bool then
      let! (c, am) := encodeBit AM am bit in
      let! (cs, am) := encodeLeaves r gs am in
      Ok (c :: cs, am)
    else encodeLeaves r gs am
  | [], _ => Ok ([], am)
  | _, [] => UB
  end.
(** WaveletTree.hpp 741-748 and 720-727: one bit with the model of the gap flag. *)
Definition encodeFlagged (g bit : bool) (pm : p_state PM) (am : p_state AM)
    : outcome ((bool * N) * p_state PM * p_state AM) :=
  if g then
    let! (c, am) := encodeBit AM am bit in
    let! pm := p_updateState PM pm bit in
    Ok (c, pm, am)
  else
    let! (c, pm) := encodeBit PM pm bit in
    Ok (c, pm, am).
(** WaveletTree.hpp 716-730: calls, gaps of the right child, models. *)
Fixpoint encodeLeftLeaf (bits gaps : list bool) (prev : bool) (pm : p_state PM) (am : p_state AM)
    : outcome (list (bool * N) * list bool * p_state PM * p_state AM) :=
  match bits, gaps with
  | bit :: r, g :: gs =>
    let! (c, pm, am) :=
      (if (prev || g)%bool then let! (c, pm, am) := encodeFlagged g bit pm am in Ok ([c], pm, am)
       else Ok ([], pm, am)) in
    let! (cs, rnode, pm, am) := encodeLeftLeaf r gs bit pm am in
    Ok (c ++ cs, (if bit then (xorb prev bit || g)%bool :: rnode else rnode), pm, am)
  | [], _ => Ok ([], [], pm, am)
  | _, [] => UB
  end.
(** WaveletTree.hpp 739-752. *)
Fixpoint encodeInner (bits gaps : list bool) (prev : bool) (pm : p_state PM) (am : p_state AM)
    : outcome (list (bool * N) * (list bool * list bool) * p_state PM * p_state AM) :=
  match bits, gaps with
  | bit :: r, g :: gs =>
    let! (c, pm, am) := encodeFlagged g bit pm am in
    let! (cs, children, pm, am) := encodeInner r gs bit pm am in
    Ok (c :: cs, addGap bit (xorb prev bit || g) children, pm, am)
  | [], _ => Ok ([], ([], []), pm, am)
  | _, [] => UB
  end.

(** The queue of nodes with their gaps. *)
Definition queueOf := list (list bool * list bool).

(** WaveletTree.hpp 690-759.  Result: calls, nodes appended to integerCodeNodes, models. *)
Fixpoint encodeQueue (fuel : nat) (t : wtree) (queue : queueOf) (pm : p_state PM) (am : p_state AM)
    : outcome (list (bool * N) * list (list bool) * p_state PM * p_state AM) :=
  match queue with
  | [] => Ok ([], [], pm, am)
  | (p, gaps) :: queue =>
    match fuel with
    | O => Fuel
    | S fuel =>
      let! pm := p_reset PM pm in
      let! am := p_reset AM am in
      let l := p ++ [false] in
      let r := p ++ [true] in
      match look t p, look t l, look t r with
      | Some n, Some lnode, Some rnode =>
        let bits := bitVector n in
        match bits with
        | [] => UB
        | b0 :: _ =>
          match symbol lnode, symbol rnode with
          | Some _, Some _ =>
            let! (cs, am) := encodeLeaves bits gaps am in
            let! (cs', ints, pm, am) := encodeQueue fuel t queue pm am in
            Ok (cs ++ cs', l :: r :: ints, pm, am)
          | Some _, None =>
            let! (cs, rgaps, pm, am) := encodeLeftLeaf bits gaps (negb b0) pm am in
            let! (cs', ints, pm, am) := encodeQueue fuel t (queue ++ [(r, rgaps)]) pm am in
            Ok (cs ++ cs', l :: ints, pm, am)
          | None, Some _ => UB
          | None, None =>
            let! (cs, children, pm, am) := encodeInner bits gaps (negb b0) pm am in
            let! (cs', ints, pm, am) :=
              encodeQueue fuel t (queue ++ [(l, fst children); (r, snd children)]) pm am in
            Ok (cs ++ cs', ints, pm, am)
          end
        end
      | _, _, _ => UB
      end
    end
  end.

(** WaveletTree.hpp 677-685: the children of the root are put into the queue or the list of symbol nodes. *)
Definition enter (t : wtree) (p gaps : list bool) : queueOf * list (list bool) :=
  match look t p with
  | None => ([], [])
  | Some n => match symbol n with Some _ => ([], [p]) | None => ([(p, gaps)], []) end
  end.

(** WaveletTree.hpp 776-779. *)
Fixpoint encodeAll (bits : list bool) (gm : p_state GM) : outcome (list (bool * N) * p_state GM) :=
  match bits with
  | [] => Ok ([], gm)
  | bit :: r =>
    let! (c, gm) := encodeBit GM gm bit in
    let! (cs, gm) := encodeAll r gm in
    Ok (c :: cs, gm)
  end.
(** WaveletTree.hpp 788-795: whether a child is coded in the next round. *)
Definition goesOn (t : wtree) (p : list bool) : list (list bool) :=
  match look t p with
  | None => []
  | Some n => match symbol n with
              | None => [p]
              | Some s => if s =? 0 then [p] else []
              end
  end.
(** WaveletTree.hpp 773-803: calls, left, right, model. *)
Fixpoint encodeLevel (t : wtree) (level : list (list bool)) (gm : p_state GM)
    : outcome (list (bool * N) * list (list bool) * list (list bool) * p_state GM) :=
  match level with
  | [] => Ok ([], [], [], gm)
  | p :: level =>
    match look t p with
    | None => UB
    | Some n =>
      let! (cs, gm) := encodeAll (bitVector n) gm in
      let! (cs', lnode, rnode, gm) := encodeLevel t level gm in
      Ok (cs ++ cs', goesOn t (p ++ [false]) ++ lnode, goesOn t (p ++ [true]) ++ rnode, gm)
    end
  end.
(** WaveletTree.hpp 769-804. *)
Fixpoint encodeLevels (fuel : nat) (t : wtree) (level : list (list bool)) (gm : p_state GM)
    : outcome (list (bool * N) * p_state GM) :=
  match level with
  | [] => Ok ([], gm)
  | _ =>
    match fuel with
    | O => Fuel
    | S fuel =>
      let! gm := p_reset GM gm in
      let! (cs, lnode, rnode, gm) := encodeLevel t level gm in
      let! (cs', gm) := encodeLevels fuel t (lnode ++ rnode) gm in
      Ok (cs ++ cs', gm)
    end
  end.

(** The state of the three models. *)
Definition models := (p_state PM * p_state GM * p_state AM)%type.
(** WaveletTree.hpp 646-809. *)
Definition encodeTreeBF (t : wtree) (ms : models) : outcome (list (bool * N) * models) :=
  let '(pm, gm, am) := ms in
  match look t [] with
  | None => UB
  | Some n =>
    match bitVector n with
    | [] => UB
    | b0 :: _ =>
      let! (cs0, gaps, pm) := encodeRoot (bitVector n) (negb b0) pm in
      let (queue1, ints1) := enter t [false] (fst gaps) in
      let (queue2, ints2) := enter t [true] (snd gaps) in
      let! (cs1, ints, pm, am) := encodeQueue (nodes t) t (queue1 ++ queue2) pm am in
      let! (cs2, gm) := encodeLevels (S (height t)) t (ints1 ++ ints2 ++ ints) gm in
      Ok (cs0 ++ cs1 ++ cs2, (pm, gm, am))
    end
  end.

(** ** Decoding the bit vectors *)

(** WaveletTree.hpp 883-890, [k] times: bits, gaps, model, decoder. *)
Fixpoint decodeRoot (k : nat) (prev : bool) (pm : p_state PM) (src : source)
    : outcome (list bool * (list bool * list bool) * p_state PM * source) :=
  match k with
  | O => Ok ([], ([], []), pm, src)
  | S k =>
    let! (bit, pm, src) := decodeBit PM pm src in
    let! (bits, gaps, pm, src) := decodeRoot k bit pm src in
    Ok (bit :: bits, addGap bit (xorb prev bit) gaps, pm, src)
  end.
(** WaveletTree.hpp 939-950. *)
Fixpoint decodeLeaves (gaps : list bool) (prev : bool) (am : p_state AM) (src : source)
    : outcome (list bool * p_state AM * source) :=
  match gaps with
  | [] => Ok ([], am, src)
  | g :: gs =>
    let! (bit, am, src) := (if g : bool then decodeBit AM am src else Ok (negb prev, am, src)) in
    let! (bits, am, src) := decodeLeaves gs bit am src in
    Ok (bit :: bits, am, src)
  end.
(** WaveletTree.hpp 978-985 and 1008-1015. *)
Definition decodeFlagged (g : bool) (pm : p_state PM) (am : p_state AM) (src : source)
    : outcome (bool * p_state PM * p_state AM * source) :=
  if g then
    let! (bit, am, src) := decodeBit AM am src in
    let! pm := p_updateState PM pm bit in
    Ok (bit, pm, am, src)
  else
    let! (bit, pm, src) := decodeBit PM pm src in
    Ok (bit, pm, am, src).
(** WaveletTree.hpp 973-989: bits, gaps of the right child, models, decoder. *)
Fixpoint decodeLeftLeaf (gaps : list bool) (prev : bool) (pm : p_state PM) (am : p_state AM) (src : source)
    : outcome (list bool * list bool * p_state PM * p_state AM * source) :=
  match gaps with
  | [] => Ok ([], [], pm, am, src)
  | g :: gs =>
    let! (bit, pm, am, src) :=
      (if (negb g && negb prev)%bool then Ok (true, pm, am, src) else decodeFlagged g pm am src) in
    let! (bits, rnode, pm, am, src) := decodeLeftLeaf gs bit pm am src in
    Ok (bit :: bits, (if bit : bool then (xorb prev bit || g)%bool :: rnode else rnode), pm, am, src)
  end.
(** WaveletTree.hpp 1005-1020. *)
Fixpoint decodeInner (gaps : list bool) (prev : bool) (pm : p_state PM) (am : p_state AM) (src : source)
    : outcome (list bool * (list bool * list bool) * p_state PM * p_state AM * source) :=
  match gaps with
  | [] => Ok ([], ([], []), pm, am, src)
  | g :: gs =>
    let! (bit, pm, am, src) := decodeFlagged g pm am src in
    let! (bits, children, pm, am, src) := decodeInner gs bit pm am src in
    Ok (bit :: bits, addGap bit (xorb prev bit || g) children, pm, am, src)
  end.

(** WaveletTree.hpp 839-850: the node, the node of the integer code tree reached (or null), number of
    bits, m_leadingOnes, m_codeStatus. *)
Record integerNode := mkIntegerNode {
  i_path : list bool;
  i_tree : wtree;
  i_bits : nat;
  i_leadingOnes : N;
  i_status : N
}.
Definition ones (bits : list bool) : nat := length (filter (fun b => b) bits).

(** All bits of a node pushed. *)
Definition pushedAll (n : node) (bits : list bool) : node := mkNode (bitVector n ++ bits) (symbol n).

(** WaveletTree.hpp 930-1025: the tree, nodes appended to integerCodeNodes, models, decoder. *)
Fixpoint decodeQueue (fuel : nat) (intTree t : wtree) (queue : queueOf) (pm : p_state PM) (am : p_state AM) (src : source)
    : outcome (wtree * list integerNode * p_state PM * p_state AM * source) :=
  match queue with
  | [] => Ok (t, [], pm, am, src)
  | (p, gaps) :: queue =>
    match fuel with
    | O => Fuel
    | S fuel =>
      let! pm := p_reset PM pm in
      let! am := p_reset AM am in
      let l := p ++ [false] in
      let r := p ++ [true] in
      match look t p, look t l, look t r with
      | Some n, Some lnode, Some rnode =>
        match symbol lnode, symbol rnode with
        | Some _, Some _ =>
          let! (bits, am, src) := decodeLeaves gaps true am src in
          let! (t, ints, pm, am, src) := decodeQueue fuel intTree (put t p (pushedAll n bits)) queue pm am src in
          Ok (t, mkIntegerNode l intTree (length gaps - ones bits) 0 0 :: mkIntegerNode r intTree (ones bits) 0 0 :: ints,
              pm, am, src)
        | Some _, None =>
          let! (bits, rgaps, pm, am, src) := decodeLeftLeaf gaps true pm am src in
          let! (t, ints, pm, am, src) :=
            decodeQueue fuel intTree (put t p (pushedAll n bits)) (queue ++ [(r, rgaps)]) pm am src in
          Ok (t, mkIntegerNode l intTree (length gaps - length rgaps) 0 0 :: ints, pm, am, src)
        | None, Some _ => UB
        | None, None =>
          let! (bits, children, pm, am, src) := decodeInner gaps true pm am src in
          decodeQueue fuel intTree (put t p (pushedAll n bits))
            (queue ++ [(l, fst children); (r, snd children)]) pm am src
        end
      | _, _, _ => UB
      end
    end
  end.

(** WaveletTree.hpp 1057-1062: bits, model, decoder. *)
Fixpoint decodeAll (k : nat) (gm : p_state GM) (src : source) : outcome (list bool * p_state GM * source) :=
  match k with
  | O => Ok ([], gm, src)
  | S k =>
    let! (bit, gm, src) := decodeBit GM gm src in
    let! (bits, gm, src) := decodeAll k gm src in
    Ok (bit :: bits, gm, src)
  end.

(** WaveletTree.hpp 1111-1126 and 1147-1161: the entry for the child [bit] with [k] bits; arithmetic on
    uint32. *)
Definition childEntry (W : N) (n : integerNode) (bit : bool) (k : nat) : integerNode :=
  let next := child (i_tree n) bit in
  let p := i_path n ++ [bit] in
  match next with
  | Branch _ _ _ => mkIntegerNode p next k (i_leadingOnes n) (i_status n)
  | Empty =>
    let ones := i_leadingOnes n in
    let less := (ones + two32 - 1) mod two32 in
    let more := (ones + 1) mod two32 in
    if i_status n =? 0 then
      (if bit then mkIntegerNode p next k more 1 else mkIntegerNode p next k W 2)
    else if i_status n =? 1 then
      (if bit then mkIntegerNode p next k more 1 else mkIntegerNode p next k ((ones + W) mod two32) 2)
    else mkIntegerNode p next k less (i_status n)
  end.
(** WaveletTree.hpp 1099-1133 and 1135-1167: the child is created, its entry kept unless the code ends. *)
Definition descend (W : N) (t : wtree) (n : integerNode) (bit : bool) (k : nat) : wtree * list integerNode :=
  if (0 <? k)%nat then
    let e := childEntry W n bit k in
    let t := match look t (i_path e) with Some _ => t | None => put t (i_path e) (mkNode [] None) end in
    (t, if negb (i_status e =? 2) || (0 <? i_leadingOnes e) then [e] else [])
  else (t, []).

(** WaveletTree.hpp 1034-1169; [several] is m_integerCodes.size() > 1.  A node that has no symbol is
    given m_hasSymbol without a symbol when there is only one code. *)
Fixpoint decodeLevel (several : bool) (W : N) (t : wtree) (level : list integerNode) (gm : p_state GM) (src : source)
    : outcome (wtree * list integerNode * list integerNode * p_state GM * source) :=
  match level with
  | [] => Ok (t, [], [], gm, src)
  | e :: level =>
    match look t (i_path e) with
    | None => UB
    | Some n =>
      let! n :=
        match symbolOf (i_tree e) with
        | None => Ok n
        | Some s => if several : bool then Ok (mkNode (bitVector n) (Some s))
                    else match symbol n with None => UB | Some _ => Ok n end
        end in
      let finished := match symbolOf (i_tree e) with Some s => negb (s =? 0) | None => false end in
      if finished : bool then decodeLevel several W (put t (i_path e) n) level gm src
      else
        let! (bits, gm, src) := decodeAll (i_bits e) gm src in
        let t := put t (i_path e) (pushedAll n bits) in
        let (t, l) := descend W t e false (i_bits e - ones bits) in
        let (t, r) := descend W t e true (ones bits) in
        let! (t, lnode, rnode, gm, src) := decodeLevel several W t level gm src in
        Ok (t, l ++ lnode, r ++ rnode, gm, src)
    end
  end.
(** WaveletTree.hpp 1031-1172. *)
Fixpoint decodeLevels (fuel : nat) (several : bool) (W : N) (t : wtree) (level : list integerNode) (gm : p_state GM)
    (src : source) : outcome (wtree * p_state GM * source) :=
  match level with
  | [] => Ok (t, gm, src)
  | _ =>
    match fuel with
    | O => Fuel
    | S fuel =>
      let! gm := p_reset GM gm in
      let! (t, lnode, rnode, gm, src) := decodeLevel several W t level gm src in
      decodeLevels fuel several W t (lnode ++ rnode) gm src
    end
  end.

(** WaveletTree.hpp 892-906 and 908-925. *)
Definition decodeEnter (intTree t : wtree) (p gaps : list bool) : outcome (queueOf * list integerNode) :=
  match look t p with
  | None => UB
  | Some n => match symbol n with
              | Some _ => Ok ([], [mkIntegerNode p intTree (length gaps) 0 0])
              | None => Ok ([(p, gaps)], [])
              end
  end.

(** WaveletTree.hpp 860-1174.  The first bit of the root is read whatever rootSize is.  The number of
    rounds for the integer codes has no bound in the code: a code of a run length below 2^32 behind the
    code of 0 has at most 80 bits, codes found to be longer end in [Fuel]. *)
Definition decodeTreeBF (rootSize : N) (w : wavelet) (ms : models) (src : source)
    : outcome (wtree * models * source) :=
  let '(pm, gm, am) := ms in
  let t := w_root w in
  match look t [] with
  | None => UB
  | Some n =>
    let! (b0, pm, src) := decodeBit PM pm src in
    let! (bits, gaps, pm, src) := decodeRoot (N.to_nat (rootSize - 1)) b0 pm src in
    let gaps := addGap b0 true gaps in
    let t := put t [] (pushedAll n (b0 :: bits)) in
    let! (queue1, ints1) := decodeEnter (w_intTree w) t [false] (fst gaps) in
    let! (queue2, ints2) :=
      match snd gaps with [] => Ok ([], []) | _ => decodeEnter (w_intTree w) t [true] (snd gaps) end in
    let! (t, ints, pm, am, src) := decodeQueue (nodes t) (w_intTree w) t (queue1 ++ queue2) pm am src in
    let several := (1 <? length (w_intCodes w))%nat in
    let! (t, gm, src) :=
      decodeLevels (height (w_intTree w) + 100) several (w_W w) t (ints1 ++ ints2 ++ ints) gm src in
    Ok (t, (pm, gm, am), src)
  end.

(** ** Reading the runs out of the tree *)

(** bitsSeen, a std::map from nodes to counts. *)
Definition seenMap := trie nat.
Definition seenAt (seen : seenMap) (p : list bool) : nat := match look seen p with Some k => k | None => O end.
(** WaveletTree.hpp 1289-1291 and copies: from the node [p] with index [i] after reading [bit] there.
    Index, path of the child, map; [i - bitsSeen[node]] is undefined here when negative (the index it
    is used for would be outside). *)
Definition advance (seen : seenMap) (p : list bool) (i : nat) (bit : bool) : outcome (nat * list bool * seenMap) :=
  let k := seenAt seen p in
  if bit then Ok (k, p ++ [true], put seen p (S k))
  else if (i <? k)%nat then UB
  else Ok ((i - k)%nat, p ++ [false], seen).
Definition bitAt (t : wtree) (p : list bool) (i : nat) : outcome bool :=
  match look t p with None => UB | Some n => get (bitVector n) i end.

(** WaveletTree.hpp 1286-1292 and 1319-1331: down to the next node with a symbol.  Symbol, index, path, map. *)
Fixpoint walk (fuel : nat) (t : wtree) (seen : seenMap) (p : list bool) (i : nat)
    : outcome (N * nat * list bool * seenMap) :=
  match fuel with
  | O => Fuel
  | S fuel =>
    let! bit := bitAt t p i in
    let! (i, p, seen) := advance seen p i bit in
    match look t p with
    | None => UB
    | Some n => match symbol n with Some s => Ok (s, i, p, seen) | None => walk fuel t seen p i end
    end
  end.
(** WaveletTree.hpp 1336-1342: leadingOnes, index, path, map; the last bit read is 0. *)
Fixpoint leading (fuel : nat) (t : wtree) (seen : seenMap) (p : list bool) (i : nat)
    : outcome (nat * nat * list bool * seenMap) :=
  match fuel with
  | O => Fuel
  | S fuel =>
    let! bit := bitAt t p i in
    if bit : bool then
      let! (i, p, seen) := advance seen p i true in
      let! (k, i, p, seen) := leading fuel t seen p i in
      Ok (S k, i, p, seen)
    else Ok (O, i, p, seen)
  end.
(** WaveletTree.hpp 1344-1351. *)
Fixpoint readValue (k : nat) (t : wtree) (seen : seenMap) (p : list bool) (i : nat) (bit : bool) (runLength : N)
    : outcome (N * seenMap) :=
  match k with
  | O => Ok (runLength, seen)
  | S k =>
    let! (i, p, seen) := advance seen p i bit in
    let! bit := bitAt t p i in
    readValue k t seen p i bit (N.lor (N.shiftl runLength 1 mod two64) (N.b2n bit))
  end.

(** WaveletTree.hpp 1283-1353: the byte, the run length and the map. *)
Definition readRun (w : wavelet) (t : wtree) (seen : seenMap) (j : nat) : outcome (N * N * seenMap) :=
  let! (s, i, p, seen) := walk (height t) t seen [] j in
  let! (runLength, i, p, seen) :=
    match symbolOf (w_intTree w) with
    | None => walk (height t) t seen p i
    | Some _ => Ok (0, i, p, seen)
    end in
  if runLength =? 0 then
    let! (k, i, p, seen) := leading (S (height t)) t seen p i in
    let! (v, seen) := readValue (k + N.to_nat (w_W w)) t seen p i false 0 in
    Ok (s mod 256, (v + fixedIntegerCodeTranslation (N.of_nat k) (w_W w)) mod two64, seen)
  else Ok (s mod 256, runLength, seen).

(** WaveletTree.hpp 1282-1376 from [j] on, [k] times. *)
Fixpoint messageLoop (k : nat) (w : wavelet) (t : wtree) (seen : seenMap) (j : nat) : outcome (list N) :=
  match k with
  | O => Ok []
  | S k =>
    let! (c, runLength, seen) := readRun w t seen j in
    let! out := messageLoop k w t seen (S j) in
    Ok (repeat c (N.to_nat runLength) ++ out)
  end.
(** WaveletTree.hpp 1278-1378: what is written through [out]; the result is its length. *)
Definition message (w : wavelet) (t : wtree) : outcome (list N) :=
  match look t [] with
  | None => UB
  | Some n => messageLoop (length (bitVector n)) w t Empty 0
  end.

(** ** Blocks *)

(** WaveletCoders.cpp 62-68 and 70-75 without finish(). *)
Definition resetModels (ms : models) : outcome models :=
  let '(pm, gm, am) := ms in
  let! pm := p_reset PM pm in
  let! gm := p_reset GM gm in
  let! am := p_reset AM am in
  Ok (pm, gm, am).

Section Encoder.
Variable worth : N -> N -> N -> bool.

(** WaveletCoders.cpp 119-155 for one section: the bytes, what is added to m_compressedBlockLength, the
    models and m_destination.  bitsInRoot is the size of the bit vector of the root (WaveletTree.hpp 136). *)
Definition encodeSection (ms : models) (e : encState) (data : list N)
    : outcome (list N * nat * models * encState) :=
  let! w := buildTree worth data in
  match look (w_root w) [] with
  | None => UB
  | Some n =>
    let! (packed, bytes) := packInteger (N.of_nat (length (bitVector n))) in
    let! packedBytes := writePackedInteger packed in
    let! shape := treeShape w in
    let shapeBytes := writeShapeBytes shape in
    let! (calls, ms) := encodeTreeBF (w_root w) ms in
    let! (e, body) := encodeTrace e calls in
    let! ms := resetModels ms in
    let (e, last) := encFinish e in
    Ok (packedBytes ++ shapeBytes ++ body ++ last, (bytes + length shapeBytes)%nat, ms, e)
  end.

(** WaveletCoders.cpp 112-157. *)
Fixpoint encodeData (sections : list N) (data : list N) (ms : models) (e : encState)
    : outcome (list N * nat * models * encState) :=
  match sections with
  | [] => Ok ([], 0%nat, ms, e)
  | n :: r =>
    if n =? 0 then encodeData r data ms e
    else if (length data <? N.to_nat n)%nat then UB
    else
      let! (out, k, ms, e) := encodeSection ms e (firstn (N.to_nat n) data) in
      let! (out', k', ms, e) := encodeData r (skipn (N.to_nat n) data) ms e in
      Ok (out ++ out', (k + k')%nat, ms, e)
  end.

(** WaveletCoders.cpp 82-86, 159-163.  At the start of a block m_destination is in its initial state: as
    constructed or after finish() (BitCoders.cpp 111-112), the counter is reset (218). *)
Definition encodeBlock (ms : models) (written lf stats data : list N) : outcome (models * list N * nat) :=
  let! (sections, header, headerLength) := writeBlockHeader lf stats in
  let! (body, k, ms, e) := encodeData sections data ms encInit in
  let size := (N.of_nat (headerLength + k) + e_counter e) mod two64 in
  let! out := absWrite48 (written ++ repeat 0 6 ++ header ++ body) size (length written) in
  Ok (ms, out, N.to_nat (size + 6)).
End Encoder.

(** WaveletCoders.cpp 266-287 for one section. *)
Definition decodeSection (ms : models) (s : list bool) : outcome (list N * models * list bool) :=
  let! (packed, s) := readStillPacked s in
  let! rootSize := unpackInteger packed in
  let! (w, s) := readShape s in
  let src := decStart (absFlushBuffer s) in
  let! (t, ms, (_, s)) := decodeTreeBF rootSize w ms src in
  let! data := message w t in
  let! ms := resetModels ms in
  Ok (data, ms, s).

(** WaveletCoders.cpp 265-288. *)
Fixpoint decodeSections (sections : list N) (ms : models) (s : list bool) : outcome (list N * models * list bool) :=
  match sections with
  | [] => Ok ([], ms, s)
  | n :: r =>
    if n =? 0 then decodeSections r ms s
    else
      let! (data, ms, s) := decodeSection ms s in
      let! (data', ms, s) := decodeSections r ms s in
      Ok (data ++ data', ms, s)
  end.

(** WaveletCoders.cpp 246-291.  Simplification: writing behind the memory of the block is not detected. *)
Definition decodeBlock (ms : models) (s : list bool) : outcome (option (list N * list N * N) * models * list bool) :=
  if absDataEnding s then Ok (None, ms, s)
  else
    let! (_, lf, sections, s) := readBlockHeader s in
    let blockSize := fold_left (fun a x => (a + x) mod two64) sections 0 in
    let! (data, ms, s) := decodeSections sections ms s in
    if N.of_nat (length data) =? blockSize then Ok (Some (lf, data, N.of_nat (length data)), ms, s) else UB.
End Coding.

(** ProbabilityModel.cpp 48-75 by the character. *)
Definition giveProbabilityModel (c : N) : predictor :=
  if c =? 109 then model_m
  else if c =? 77 then model_M
  else if c =? 117 then model_u
  else if c =? 98 then model_b
  else model_B.

(** WaveletEncoder and WaveletDecoder (WaveletCoders.cpp 44-54, 315-319).  Between blocks they keep the
    models. *)
Definition waveletCoder (worth : N -> N -> N -> bool) (c : N) : entropyCoder :=
  let PM := giveProbabilityModel c in
  mkCoder (models PM modelForIntegerCodes modelForGaps)
    (p_init PM, p_init modelForIntegerCodes, p_init modelForGaps)
    (fun ms written lf stats data => encodeBlock PM modelForIntegerCodes modelForGaps worth ms written lf stats data)
    (fun ms s => decodeBlock PM modelForIntegerCodes modelForGaps ms s).

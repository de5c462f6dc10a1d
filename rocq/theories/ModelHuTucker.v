(** Transcription of calculateHuTuckerLengths (/repo/Utils.cpp 235-397). *)
From Coq Require Import List NArith Arith Bool.
From Verif Require Import Base Arrays ModelUtils.
Import ListNotations.
Open Scope N_scope.

(** Utils.cpp 237-245.  A node with a left child has a right child as well (315, 328, 343, 379); the nodes are values here, since a
    node that is the child of two others is never reached again (382-383 with minLeft = minRight). *)
Inductive htNode := HLeaf (weight symbol : N) | HNode (left right : htNode) (weight : N).
(** The member [weight] (Utils.cpp 237-245). *)
Definition htWeight (n : htNode) : N := match n with HLeaf w _ => w | HNode _ _ w => w end.
(** The vector [nodes] (Utils.cpp 307): a null pointer is [None]. *)
Definition htNodes := list (option htNode).

(** [nodes[i]->weight] (Utils.cpp 314-377): undefined behind the vector and for a null pointer. *)
Definition nodeAt (v : htNodes) (i : nat) : outcome htNode :=
  let! p := get v i in match p with Some n => Ok n | None => UB end.
(** The same with the weight (Utils.cpp 314-377). *)
Definition weightAt (v : htNodes) (i : nat) : outcome N := let! n := nodeAt v i in Ok (htWeight n).
(** Sums of weights are uint64 (Utils.cpp 238, 365). *)
Definition sum64 (a b : N) : N := (a + b) mod two64.

(** Utils.cpp 247-252, from index [i] on, [rest] being the elements there. *)
Fixpoint terminalFrom (rest : htNodes) (i : nat) : nat :=
  match rest with
  | Some (HLeaf _ _) :: _ => i
  | _ :: rest => terminalFrom rest (S i)
  | [] => i
  end.
(** Utils.cpp 247-252. *)
Definition nextTerminal (v : htNodes) (i : nat) : nat :=
  let i := terminalFrom (skipn i v) i in
  if (i =? length v)%nat then (i - 1)%nat else i.

(** Utils.cpp 254-258. *)
Fixpoint validFrom (rest : htNodes) (i : nat) : nat :=
  match rest with
  | None :: rest => validFrom rest (S i)
  | _ => i
  end.
(** Utils.cpp 254-258. *)
Definition nextValid (v : htNodes) (i : nat) : nat := validFrom (skipn i v) i.

(** Utils.cpp 265-275. *)
Fixpoint minSumLoop (fuel : nat) (v : htNodes) (s begin stop : nat) (mS : N) (lft rgt : nat) : outcome (N * nat * nat) :=
  if (s <=? stop)%nat then
    match fuel with
    | O => Fuel
    | S fuel =>
      let! ws := weightAt v s in
      let! wb := weightAt v begin in
      let sum := sum64 ws wb in
      let '(mS, lft, rgt) := (if sum <? mS then (sum, begin, s) else (mS, lft, rgt)) in
      let begin := (if ws <? wb then s else begin) in
      minSumLoop fuel v (nextValid v (S s)) begin stop mS lft rgt
    end
  else Ok (mS, lft, rgt).
(** Utils.cpp 260-279. *)
Definition findMinSum (v : htNodes) (begin stop : nat) : outcome (N * nat * nat) :=
  let s := nextValid v (S begin) in
  let! ws := weightAt v s in
  let! wb := weightAt v begin in
  minSumLoop (S (length v)) v s begin stop (sum64 ws wb) begin s.

(** [lengths[symbol] = d] (Utils.cpp 284): the map of symbols to lengths, sorted by symbol. *)
Fixpoint mapSet (k v : N) (m : list (N * N)) : list (N * N) :=
  match m with
  | [] => [(k, v)]
  | (k', v') :: r => if k <? k' then (k, v) :: m else if k =? k' then (k, v) :: r else (k', v') :: mapSet k v r
  end.
(** Utils.cpp 281-291. *)
Fixpoint collectLengths (n : htNode) (d : N) (m : list (N * N)) : list (N * N) :=
  match n with
  | HLeaf _ s => mapSet s d m
  | HNode l r _ => collectLengths r (d + 1) (collectLengths l (d + 1) m)
  end.

(** Combining the nodes at [i] and [j] into one at [i]: 315-318, 328-332, 343-347, 379-382. *)
Definition combine (v : htNodes) (i j : nat) (w : N) : outcome htNodes :=
  let! a := get v i in
  let! b := get v j in
  match a, b with
  | Some a, Some b => let! v := set v i (Some (HNode a b w)) in set v j None
  | _, _ => UB
  end.
(** With the sum of the two weights: 315-318, 328-332, 343-347. *)
Definition combineSum (v : htNodes) (i j : nat) : outcome htNodes :=
  let! a := weightAt v i in let! b := weightAt v j in combine v i j (sum64 a b).

(** Utils.cpp 324-340. *)
Fixpoint firstPass (fuel : nat) (v : htNodes) (im1 curr removed : nat) : outcome (htNodes * nat * nat) :=
  if (curr + 2 <? length v)%nat then
    match fuel with
    | O => Fuel
    | S fuel =>
      let! a := weightAt v im1 in
      let! b := weightAt v (curr + 1) in
      let! both := (if b <? a then let! c := weightAt v curr in let! d := weightAt v (curr + 2) in Ok (c <=? d) else Ok false) in
      if both : bool then
        let! v := combineSum v curr (curr + 1) in
        firstPass fuel v curr (curr + 2) (S removed)
      else firstPass fuel v curr (S curr) removed
    end
  else Ok (v, curr, removed).

(** Utils.cpp 367-377. *)
Fixpoint pairLoop (fuel : nat) (v : htNodes) (first second : nat) (minWeight : N) (minLeft minRight : nat) : outcome (N * nat * nat) :=
  if (first + 1 <? length v)%nat then
    match fuel with
    | O => Fuel
    | S fuel =>
      let! (minSum, l, r) := findMinSum v first second in
      let '(minWeight, minLeft, minRight) := (if minSum <? minWeight then (minSum, l, r) else (minWeight, minLeft, minRight)) in
      pairLoop fuel v second (nextTerminal v (S second)) minWeight minLeft minRight
    end
  else Ok (minWeight, minLeft, minRight).

(** Utils.cpp 355-359. *)
Definition present (v : htNodes) : htNodes := filter (fun p => match p with Some _ => true | None => false end) v.
(** Utils.cpp 352-387: [todo] is names.size() - 1 - removed. *)
Fixpoint combineAll (todo : nat) (v : htNodes) (deleted : nat) : outcome htNodes :=
  match todo with
  | O => Ok v
  | S todo =>
    let (v, deleted) := (if (length v / 2 <=? deleted)%nat then (present v, O) else (v, deleted)) in
    let first := nextTerminal v 0 in
    let second := nextTerminal v (S first) in
    let! a := weightAt v first in
    let! b := weightAt v second in
    let! (minWeight, minLeft, minRight) := pairLoop (S (length v)) v first second (sum64 a b) first second in
    let! v := combine v minLeft minRight minWeight in
    combineAll todo v (S deleted)
  end.

(** The nodes of line 308-310: freqs[i] is undefined behind the array. *)
Fixpoint leavesFor (freqs names : list N) : outcome htNodes :=
  match names, freqs with
  | [], _ => Ok []
  | s :: names, w :: freqs => let! v := leavesFor freqs names in Ok (Some (HLeaf w s) :: v)
  | _, [] => UB
  end.

(** Utils.cpp 294-397: what is appended to codeLengths, pairs of length and symbol.  The lengths are also printed (393). *)
Definition calculateHuTuckerLengths (freqs names : list N) : outcome (list (N * N)) :=
  match names with
  | [a] => Ok [(1, a)]
  | [a; b] => Ok [(1, a); (1, b)]
  | _ =>
    let! v := leavesFor freqs names in
    let! w0 := weightAt v 0 in
    let! w2 := weightAt v 2 in
    let! (v, curr, removed) := (if w0 <=? w2 then let! v := combineSum v 0 1 in Ok (v, 2, 1)%nat else Ok (v, 1, 0)%nat) in
    let! (v, curr, removed) := firstPass (length v) v 0 curr removed in
    let! (v, removed) :=
      (if (curr =? length v - 2)%nat then
         let! a := weightAt v (curr + 1) in
         let! b := weightAt v (curr - 1) in
         if a <? b then let! v := combineSum v curr (curr + 1) in Ok (v, S removed) else Ok (v, removed)
       else Ok (v, removed)) in
    let! v := combineAll (length names - 1 - removed) v removed in
    let! root := nodeAt v 0 in
    Ok (map (fun '(s, d) => (d, s)) (collectLengths root 0 []))
  end.

(** Transcription of the suffix sorter of option --bwt s, /repo/bwtransforms/sais.hxx, and
    of its caller /repo/bwtransforms/SA-IS-bwt.cpp.

    Simplifications.  [int] is unbounded: the texts are shorter than 2^31 and every value
    stored is at most twice the length of the text where this fits in an int (flags 16 and
    32, sais.hxx 552-555).  The arrays C (counts), B (bucket bounds) and D are separate from SA;
    in the C++ they are allocated or lie behind the first n elements of the memory of SA
    (520-551), where nothing but their own values is read.  C holds the counts of T wherever
    it is read, because it is either kept or counted again ([recount], flags 4, 8, 64).
    Allocations succeed. *)
From Coq Require Import List NArith ZArith Arith Bool.
From Verif Require Import Base Arrays ModelUtils ModelHeaders ModelBWT.
Import ListNotations.
Open Scope nat_scope.

(** [~j]. *)
Definition inv (j : Z) : Z := (- j - 1)%Z.

(** An assertion. *)
Definition check (b : bool) : outcome unit := if b then Ok tt else UB.

(** getCounts, sais.hxx 49-55. *)
Fixpoint countChars (T : list N) (C : list nat) : outcome (list nat) :=
  match T with
  | [] => Ok C
  | c :: r =>
    let! v := get C (N.to_nat c) in
    let! C := set C (N.to_nat c) (v + 1) in
    countChars r C
  end.
Definition getCounts (T : list N) (k : nat) : outcome (list nat) := countChars T (repeat 0 k).

(** getBuckets, sais.hxx 56-62: the end or the start of each bucket. *)
Fixpoint getBuckets (C : list nat) (sum : nat) (ends : bool) : list nat :=
  match C with
  | [] => []
  | c :: r => (if ends then sum + c else sum) :: getBuckets r (sum + c) ends
  end.

(** The bucket bounds with the cached one: B, c1 and [b - SA]. *)
Definition cursor := (list nat * N * nat)%type.

(** [if(c0 != c1) { B[c1] = b - SA; b = SA + B[c1 = c0]; }], for example sais.hxx 85. *)
Definition switch (cu : cursor) (c0 : N) : outcome cursor :=
  let '(B, c1, b) := cu in
  if (c0 =? c1)%N then Ok cu
  else
    let! B := set B (N.to_nat c1) b in
    let! b := get B (N.to_nat c0) in
    Ok (B, c0, b).

(** The loops that scan SA upwards, sais.hxx 82-93, 174-188, 271-277, 307-316, 357-365.
    [visit i j] is what happens to the element [j = SA[i]]: its new value and the suffix [k]
    to be put into its bucket, if any; [store i k r] is the value put there, [r] being the
    place.  [X] is the rest of the state.  Sais.hxx 89 and 184 assign to SA[i] after the
    assignment to the bucket; the places differ because of the assertion before. *)
Section Up.
Context {X : Type}.
Variable T : list N.
Variable visit : nat -> Z -> X -> outcome (Z * X * option nat).
Variable store : nat -> nat -> nat -> X -> outcome (Z * X).
Fixpoint upLoop (todo i : nat) (SA : list Z) (cu : cursor) (x : X) : outcome (list Z * X) :=
  match todo with
  | O => Ok (SA, x)
  | S todo =>
    let! j := get SA i in
    let! (v, x, place) := visit i j x in
    let! SA := set SA i v in
    match place with
    | None => upLoop todo (S i) SA cu x
    | Some k =>
      let! c0 := get T k in
      let! (B, c1, b) := switch cu c0 in
      let! (v, x) := store i k b x in
      let! SA := set SA b v in
      upLoop todo (S i) SA (B, c1, S b) x
    end
  end.
End Up.

(** The loops that scan SA downwards, sais.hxx 97-106, 202-214, 281-288, 322-339, 369-379;
    [e] is i+1. *)
Section Down.
Context {X : Type}.
Variable T : list N.
Variable visit : nat -> Z -> X -> outcome (Z * X * option nat).
Variable store : nat -> nat -> nat -> X -> outcome (Z * X).
Fixpoint downLoop (e : nat) (SA : list Z) (cu : cursor) (x : X) : outcome (list Z * X) :=
  match e with
  | O => Ok (SA, x)
  | S i =>
    let! j := get SA i in
    let! (v, x, place) := visit i j x in
    let! SA := set SA i v in
    match place with
    | None => downLoop i SA cu x
    | Some k =>
      let! c0 := get T k in
      let! (B, c1, b) := switch cu c0 in
      match b with
      | O => UB
      | S b =>
        let! (v, x) := store i k b x in
        let! SA := set SA b v in
        downLoop i SA (B, c1, b) x
      end
    end
  end.
End Down.

(** [T[j]] for an int. *)
Definition getz {A} (l : list A) (j : Z) : outcome A :=
  if (j <? 0)%Z then UB else get l (Z.to_nat j).

(** ** LMSsort1, sais.hxx 64-107 *)

(** Lines 81 and 88: the value for suffix [k], [T[j] < c1 ? ~j : j] with j = k-1, c1 = T[k]. *)
Definition before1 (T : list N) (k : nat) : outcome Z :=
  let j := (Z.of_nat k - 1)%Z in
  let! c := getz T j in
  let! c1 := get T k in
  Ok (if (c <? c1)%N then inv j else j).
(** Lines 83-84, 89-92. *)
Definition visitL1 (T : list N) (_ : nat) (j : Z) (_ : unit) : outcome (Z * unit * option nat) :=
  if (0 <? j)%Z then
    let! c0 := getz T j in
    let! c1 := getz T (j + 1) in
    let! _ := check (c1 <=? c0)%N in
    Ok (0%Z, tt, Some (Z.to_nat j))
  else if (j <? 0)%Z then Ok (inv j, tt, None)
  else Ok (j, tt, None).
(** Lines 86-88. *)
Definition storeL1 (T : list N) (i k b : nat) (_ : unit) : outcome (Z * unit) :=
  let! _ := check (i <? b) in
  let! v := before1 T k in
  Ok (v, tt).
(** Lines 98-99, 104. *)
Definition visitS1 (T : list N) (_ : nat) (j : Z) (_ : unit) : outcome (Z * unit * option nat) :=
  if (0 <? j)%Z then
    let! c0 := getz T j in
    let! c1 := getz T (j + 1) in
    let! _ := check (c0 <=? c1)%N in
    Ok (0%Z, tt, Some (Z.to_nat j))
  else Ok (j, tt, None).
(** Lines 101-103; [b] is already decremented. *)
Definition storeS1 (T : list N) (i k b : nat) (_ : unit) : outcome (Z * unit) :=
  let! _ := check (S b <=? i) in
  let j := (Z.of_nat k - 1)%Z in
  let! c := getz T j in
  let! c1 := get T k in
  Ok (if (c1 <? c)%N then inv (j + 1) else j, tt).

Definition LMSsort1 (T : list N) (SA : list Z) (C : list nat) : outcome (list Z) :=
  let n := length T in
  let B := getBuckets C 0 false in
  let! c1 := get T (n - 1) in
  let! b := get B (N.to_nat c1) in
  let! v := before1 T (n - 1) in
  let! SA := set SA b v in
  let! (SA, _) := upLoop T (visitL1 T) (storeL1 T) n 0 SA (B, c1, S b) tt in
  let B := getBuckets C 0 true in
  let! b := get B 0 in
  let! (SA, _) := downLoop T (visitS1 T) (storeS1 T) n SA (B, 0%N, b) tt in
  Ok SA.

(** ** The scan for the LMS positions *)

(** [do { c1 = c0; } while((0 <= --i) && ((c0 = T[i]) >= c1));] and the same with [<=], for
    example sais.hxx 132 and 134: i, c0 and c1 afterwards; [None] is i = -1. *)
Fixpoint scan (T : list N) (keep : N -> N -> bool) (i : nat) (c0 : N) : outcome (option nat * N * N) :=
  let c1 := c0 in
  match i with
  | O => Ok (None, c0, c1)
  | S i =>
    let! c0 := get T i in
    if keep c0 c1 then scan T keep i c0 else Ok (Some i, c0, c1)
  end.
Definition geq (c0 c1 : N) : bool := (c1 <=? c0)%N.
Definition leq (c0 c1 : N) : bool := (c0 <=? c1)%N.

(** Sais.hxx 131-139, 396-404, 589-597: [act i c1] is done for every LMS position [i+1] from
    right to left, c1 being its character. *)
Section Scan.
Context {X : Type}.
Variable T : list N.
Variable act : nat -> N -> X -> outcome X.
Fixpoint lmsLoop (fuel i : nat) (c0 : N) (x : X) : outcome X :=
  match fuel with
  | O => Fuel
  | S fuel =>
    let! (oi, c0, c1) := scan T leq i c0 in
    match oi with
    | None => Ok x
    | Some i =>
      let! x := act i c1 x in
      let! (oi, c0, _) := scan T geq i c0 in
      match oi with
      | None => Ok x
      | Some i => lmsLoop fuel i c0 x
      end
    end
  end.
Definition lmsScan (x : X) : outcome X :=
  let n := length T in
  let! c0 := get T (n - 1) in
  let! (oi, c0, _) := scan T geq (n - 1) c0 in
  match oi with
  | None => Ok x
  | Some i => lmsLoop n i c0 x
  end.
End Scan.

(** ** LMSpostproc1, sais.hxx 108-153 *)

(** Lines 118-119: the elements below zero at the start; the result is i. *)
Fixpoint compactHead (n todo i : nat) (SA : list Z) : outcome (list Z * nat) :=
  match todo with
  | O => UB
  | S todo =>
    let! p := get SA i in
    if (p <? 0)%Z then
      let! SA := set SA i (inv p) in
      let! _ := check (S i <? n) in
      compactHead n todo (S i) SA
    else Ok (SA, i)
  end.
(** Lines 120-128. *)
Fixpoint compactTail (n m todo i j : nat) (SA : list Z) : outcome (list Z) :=
  match todo with
  | O => UB
  | S todo =>
    let! _ := check (i <? n) in
    let! p := get SA i in
    if (p <? 0)%Z then
      let! SA := set SA j (inv p) in
      let! SA := set SA i 0%Z in
      if (S j =? m) then Ok SA else compactTail n m todo (S i) (S j) SA
    else compactTail n m todo (S i) j SA
  end.
Definition compact (n m : nat) (SA : list Z) : outcome (list Z) :=
  let! _ := check (0 <? n) in
  let! (SA, i) := compactHead n (S n) 0 SA in
  if (i <? m) then compactTail n m (S n) (S i) i SA else Ok SA.

(** Line 136. *)
Definition storeLength (m i : nat) (_ : N) (st : list Z * nat) : outcome (list Z * nat) :=
  let '(SA, j) := st in
  let! SA := set SA (m + (i + 1) / 2) (Z.of_nat j - Z.of_nat i)%Z in
  Ok (SA, i + 1).

(** Line 145: whether [todo] characters from [p] and [q] on agree. *)
Fixpoint agree (T : list N) (todo p q : nat) : outcome bool :=
  match todo with
  | O => Ok true
  | S todo =>
    let! a := get T p in
    let! b := get T q in
    if (a =? b)%N then agree T todo (S p) (S q) else Ok false
  end.
(** Lines 142-150. *)
Fixpoint nameLoop (T : list N) (m todo i name : nat) (q qlen : Z) (SA : list Z) : outcome (list Z * nat) :=
  match todo with
  | O => Ok (SA, name)
  | S todo =>
    let! p := get SA i in
    let! plen := getz SA (Z.of_nat m + p / 2) in
    let! same := (if ((plen =? qlen) && (q + plen <? Z.of_nat (length T)))%Z
                  then agree T (Z.to_nat plen) (Z.to_nat p) (Z.to_nat q) else Ok false) in
    let '(name, q, qlen) := if same then (name, q, qlen) else (S name, p, plen) in
    let! SA := set SA (m + Z.to_nat (p / 2)) (Z.of_nat name) in
    nameLoop T m todo (S i) name q qlen SA
  end.
Definition LMSpostproc1 (T : list N) (m : nat) (SA : list Z) : outcome (list Z * nat) :=
  let n := length T in
  let! SA := compact n m SA in
  let! (SA, _) := lmsScan T (storeLength m) (SA, n - 1) in
  nameLoop T m m 0 0 (Z.of_nat n) 0%Z SA.

(** ** LMSsort2, sais.hxx 154-215: the state is d and the array D *)
Definition marks := (nat * list nat)%type.

(** Lines 181-182, 209-210: flag bit of the pair, marking of [j]. *)
Definition markFirst (n : nat) (c0 : N) (bit : bool) (j : Z) (x : marks) : outcome (Z * marks) :=
  let '(d, D) := x in
  let t := N.to_nat (2 * c0 + (if bit then 1 else 0))%N in
  let! v := get D t in
  if (v =? d) then Ok (j, (d, D))
  else
    let! D := set D t d in
    Ok ((j + Z.of_nat n)%Z, (d, D)).
(** Lines 176 and 204. *)
Definition unmark (n : nat) (j : Z) (x : marks) : Z * marks :=
  let '(d, D) := x in
  if (Z.of_nat n <=? j)%Z then ((j - Z.of_nat n)%Z, (d + 1, D)) else (j, x).
(** Lines 175-177, 184-187. *)
Definition visitL2 (T : list N) (_ : nat) (j : Z) (x : marks) : outcome (Z * marks * option nat) :=
  if (0 <? j)%Z then
    let '(j, x) := unmark (length T) j x in
    let! c0 := getz T j in
    let! c1 := getz T (j + 1) in
    let! _ := check (c1 <=? c0)%N in
    Ok (0%Z, x, Some (Z.to_nat j))
  else if (j <? 0)%Z then Ok (inv j, x, None)
  else Ok (j, x, None).
(** Lines 179-183. *)
Definition storeL2 (T : list N) (i k b : nat) (x : marks) : outcome (Z * marks) :=
  let! _ := check (i <? b) in
  let j := (Z.of_nat k - 1)%Z in
  let! c := getz T j in
  let! c1 := get T k in
  let bit := (c <? c1)%N in
  let! (j, x) := markFirst (length T) c1 bit j x in
  Ok (if bit then inv j else j, x).
(** Lines 189-198: the mark of every group is moved from its first element to its last.
    [seeking] is the inner loop of line 193; [e] is i+1. *)
Fixpoint moveMarks (n : nat) (seeking : bool) (e : nat) (SA : list Z) : outcome (list Z) :=
  match e with
  | O => if seeking then UB else Ok SA
  | S i =>
    let! v := get SA i in
    if seeking then
      if (v <? Z.of_nat n)%Z then moveMarks n true i SA
      else let! SA := set SA i (v - Z.of_nat n)%Z in moveMarks n false i SA
    else if ((0 <? v) && (v <? Z.of_nat n))%Z then
      let! SA := set SA i (v + Z.of_nat n)%Z in moveMarks n true i SA
    else moveMarks n false i SA
  end.
(** Lines 203-205, 212. *)
Definition visitS2 (T : list N) (_ : nat) (j : Z) (x : marks) : outcome (Z * marks * option nat) :=
  if (0 <? j)%Z then
    let '(j, x) := unmark (length T) j x in
    let! c0 := getz T j in
    let! c1 := getz T (j + 1) in
    let! _ := check (c0 <=? c1)%N in
    Ok (0%Z, x, Some (Z.to_nat j))
  else Ok (j, x, None).
(** Lines 207-211. *)
Definition storeS2 (T : list N) (i k b : nat) (x : marks) : outcome (Z * marks) :=
  let! _ := check (S b <=? i) in
  let j := (Z.of_nat k - 1)%Z in
  let! c := getz T j in
  let! c1 := get T k in
  let bit := (c1 <? c)%N in
  let! (j, x) := markFirst (length T) c1 bit j x in
  Ok (if bit then inv (j + 1) else j, x).

Definition LMSsort2 (T : list N) (SA : list Z) (C : list nat) (D : list nat) : outcome (list Z) :=
  let n := length T in
  let B := getBuckets C 0 false in
  let! c1 := get T (n - 1) in
  let! b := get B (N.to_nat c1) in
  let j := (Z.of_nat n - 2)%Z in
  let! c := getz T j in
  let j := (j + Z.of_nat n)%Z in
  let! SA := set SA b (if (c <? c1)%N then inv j else j) in
  let! (SA, (d, D)) := upLoop T (visitL2 T) (storeL2 T) n 0 SA (B, c1, S b) (0, D) in
  let! SA := moveMarks n false n SA in
  let B := getBuckets C 0 true in
  let! b := get B 0 in
  let! (SA, _) := downLoop T (visitS2 T) (storeS2 T) n SA (B, 0%N, b) (d + 1, D) in
  Ok SA.

(** ** LMSpostproc2, sais.hxx 216-254 *)

(** Lines 222-228. *)
Fixpoint compactHead2 (n todo i name : nat) (SA : list Z) : outcome (list Z * nat * nat) :=
  match todo with
  | O => UB
  | S todo =>
    let! j := get SA i in
    if (j <? 0)%Z then
      let j := inv j in
      let name := if (Z.of_nat n <=? j)%Z then name + 1 else name in
      let! SA := set SA i j in
      let! _ := check (S i <? n) in
      compactHead2 n todo (S i) name SA
    else Ok (SA, i, name)
  end.
(** Lines 229-239. *)
Fixpoint compactTail2 (n m todo i d name : nat) (SA : list Z) : outcome (list Z * nat) :=
  match todo with
  | O => UB
  | S todo =>
    let! _ := check (i <? n) in
    let! j := get SA i in
    if (j <? 0)%Z then
      let j := inv j in
      let name := if (Z.of_nat n <=? j)%Z then name + 1 else name in
      let! SA := set SA d j in
      let! SA := set SA i 0%Z in
      if (S d =? m) then Ok (SA, name) else compactTail2 n m todo (S i) (S d) name SA
    else compactTail2 n m todo (S i) d name SA
  end.
(** Lines 242-245; [e] is i+1. *)
Fixpoint storeNames (n m e d : nat) (SA : list Z) : outcome (list Z) :=
  match e with
  | O => Ok SA
  | S i =>
    let! j := get SA i in
    let '(j, d) := if (Z.of_nat n <=? j)%Z then ((j - Z.of_nat n)%Z, d - 1) else (j, d) in
    let! SA := set SA (m + Z.to_nat (j / 2)) (Z.of_nat d) in
    storeNames n m i d SA
  end.
(** Lines 248-250. *)
Fixpoint unsetFlags (n todo i : nat) (SA : list Z) : outcome (list Z) :=
  match todo with
  | O => Ok SA
  | S todo =>
    let! j := get SA i in
    let! SA := (if (Z.of_nat n <=? j)%Z then set SA i (j - Z.of_nat n)%Z else Ok SA) in
    unsetFlags n todo (S i) SA
  end.
Definition LMSpostproc2 (n m : nat) (SA : list Z) : outcome (list Z * nat) :=
  let! _ := check (0 <? n) in
  let! (SA, i, name) := compactHead2 n (S n) 0 0 SA in
  let! (SA, name) := (if (i <? m) then compactTail2 n m (S n) (S i) i name SA else Ok (SA, name)) in
  if (name <? m) then
    let! SA := storeNames n m m (name + 1) SA in Ok (SA, name)
  else
    let! SA := unsetFlags n m 0 SA in Ok (SA, name).

(** ** induceSA, sais.hxx 256-289 *)

(** Lines 270 and 275: the value for suffix [j]. *)
Definition ahead (T : list N) (j : nat) : outcome Z :=
  let! c1 := get T j in
  if (0 <? j) then
    let! c := get T (j - 1) in
    Ok (if (c <? c1)%N then inv (Z.of_nat j) else Z.of_nat j)
  else Ok (Z.of_nat j).
(** Lines 272-274. *)
Definition visitLI (_ : nat) (j : Z) (_ : unit) : outcome (Z * unit * option nat) :=
  Ok (inv j, tt, if (0 <? j)%Z then Some (Z.to_nat (j - 1)) else None).
Definition storeLI (T : list N) (_ j _ : nat) (_ : unit) : outcome (Z * unit) :=
  let! v := ahead T j in Ok (v, tt).
(** Lines 282-287. *)
Definition visitSI (_ : nat) (j : Z) (_ : unit) : outcome (Z * unit * option nat) :=
  if (0 <? j)%Z then Ok (j, tt, Some (Z.to_nat (j - 1))) else Ok (inv j, tt, None).
Definition storeSI (T : list N) (_ j _ : nat) (_ : unit) : outcome (Z * unit) :=
  let! c1 := get T j in
  if (j =? 0) then Ok (inv 0, tt)
  else
    let! c := get T (j - 1) in
    Ok (if (c1 <? c)%N then inv (Z.of_nat j) else Z.of_nat j, tt).

(** The frame of induceSA and of both versions of computeBWT. *)
Definition induce {X} (T : list N) (SA : list Z) (C : list nat)
    (visitL : nat -> Z -> X -> outcome (Z * X * option nat)) (storeL : nat -> nat -> nat -> X -> outcome (Z * X))
    (visitS : nat -> Z -> X -> outcome (Z * X * option nat)) (storeS : nat -> nat -> nat -> X -> outcome (Z * X))
    (x : X) : outcome (list Z * X) :=
  let n := length T in
  let B := getBuckets C 0 false in
  let! c1 := get T (n - 1) in
  let! b := get B (N.to_nat c1) in
  let! v := ahead T (n - 1) in
  let! SA := set SA b v in
  let! (SA, x) := upLoop T visitL storeL n 0 SA (B, c1, S b) x in
  let B := getBuckets C 0 true in
  let! b := get B 0 in
  downLoop T visitS storeS n SA (B, 0%N, b) x.

Definition induceSA (T : list N) (SA : list Z) (C : list nat) : outcome (list Z) :=
  let! (SA, _) := induce T SA C visitLI (storeLI T) visitSI (storeSI T) tt in
  Ok SA.

(** ** computeBWT without starting points, sais.hxx 343-381: the state is pidx *)
Definition visitLB (T : list N) (_ : nat) (j : Z) (x : option nat) : outcome (Z * option nat * option nat) :=
  if (0 <? j)%Z then
    let! c0 := getz T (j - 1) in
    Ok (inv (Z.of_N c0), x, Some (Z.to_nat (j - 1)))
  else if (j =? 0)%Z then Ok (j, x, None)
  else Ok (inv j, x, None).
Definition storeLB (T : list N) (_ j _ : nat) (x : option nat) : outcome (Z * option nat) :=
  let! v := ahead T j in Ok (v, x).
(** Lines 370-378. *)
Definition visitSB (T : list N) (i : nat) (j : Z) (x : option nat) : outcome (Z * option nat * option nat) :=
  if (0 <? j)%Z then
    let! c0 := getz T (j - 1) in
    Ok (Z.of_N c0, x, Some (Z.to_nat (j - 1)))
  else if (j =? 0)%Z then Ok (j, Some i, None)
  else Ok (inv j, x, None).
(** Line 373. *)
Definition storeSB (T : list N) (_ j _ : nat) (x : option nat) : outcome (Z * option nat) :=
  let! c1 := get T j in
  if (0 <? j) then
    let! c := get T (j - 1) in
    Ok (if (c1 <? c)%N then inv (Z.of_N c) else Z.of_nat j, x)
  else Ok (Z.of_nat j, x).
Definition computeBWT (T : list N) (SA : list Z) (C : list nat) : outcome (list Z * option nat) :=
  induce T SA C (visitLB T) (storeLB T) (visitSB T) (storeSB T) None.

(** ** computeBWT with starting points, sais.hxx 290-341: the state is LFpowers and pidx *)

(** Lines 309, 324, 329: [if((n - j) % x == 0 && j >= y+1) LFpowers[(n-j)/x] = i]. *)
Definition setPower (n x y j i : nat) (lf : list N) : outcome (list N) :=
  if ((n - j) mod x =? 0) && (y + 1 <=? j) then set lf ((n - j) / x) (N.of_nat i) else Ok lf.
Definition powers := (list N * option nat)%type.
(** Lines 308-315. *)
Definition visitLP (T : list N) (xs y : nat) (i : nat) (j : Z) (x : powers) : outcome (Z * powers * option nat) :=
  if (0 <? j)%Z then
    let '(lf, p) := x in
    let! lf := setPower (length T) xs y (Z.to_nat j) i lf in
    let! c0 := getz T (j - 1) in
    Ok (inv (Z.of_N c0), (lf, p), Some (Z.to_nat (j - 1)))
  else if (j =? 0)%Z then Ok (j, x, None)
  else Ok (inv j, x, None).
Definition storeLP (T : list N) (_ j _ : nat) (x : powers) : outcome (Z * powers) :=
  let! v := ahead T j in Ok (v, x).
(** Lines 323-338. *)
Definition visitSP (T : list N) (xs y : nat) (i : nat) (j : Z) (x : powers) : outcome (Z * powers * option nat) :=
  let '(lf, p) := x in
  if (0 <? j)%Z then
    let! lf := setPower (length T) xs y (Z.to_nat j) i lf in
    let! c0 := getz T (j - 1) in
    Ok (Z.of_N c0, (lf, p), Some (Z.to_nat (j - 1)))
  else if (j =? 0)%Z then
    let! lf := set lf 0 (N.of_nat i) in
    Ok (j, (lf, Some i), None)
  else Ok (inv j, x, None).
(** Lines 328-333; [b] is indB, already decremented. *)
Definition storeSP (T : list N) (xs y : nat) (_ j b : nat) (x : powers) : outcome (Z * powers) :=
  let '(lf, p) := x in
  let! c1 := get T j in
  if (0 <? j) then
    let! c := get T (j - 1) in
    if (c1 <? c)%N then
      let! lf := setPower (length T) xs y j b lf in
      Ok (inv (Z.of_N c), (lf, p))
    else Ok (Z.of_nat j, x)
  else Ok (Z.of_nat j, x).
Definition computeBWTPowers (T : list N) (SA : list Z) (C : list nat) (lf : list N) : outcome (list Z * powers) :=
  let n := length T in
  if (length lf =? 0) then UB
  else
    let xs := n / length lf in
    let y := n - xs * length lf in
    if (xs =? 0) then UB
    else induce T SA C (visitLP T xs y) (storeLP T) (visitSP T xs y) (storeSP T xs y) (lf, None).

(** ** stage1sort, sais.hxx 383-443 *)

(** Line 401: the state is SA, B, b, j and m. *)
Definition seeds := (list Z * list nat * nat * nat * nat)%type.
Definition seedOne (n i : nat) (c1 : N) (st : seeds) : outcome seeds :=
  let '(SA, B, b, j, m) := st in
  let! SA := set SA b (Z.of_nat j) in
  let! v := get B (N.to_nat c1) in
  match v with
  | O => UB
  | S v =>
    let! B := set B (N.to_nat c1) v in
    let! _ := check (negb (v =? n - 1)) in
    Ok (SA, B, v, i, S m)
  end.
(** Lines 415-419, 424-428: the first element of every bucket is marked. *)
Fixpoint markSeeds (n : nat) (sum : nat) (C B : list nat) (SA : list Z) : outcome (list Z) :=
  match C, B with
  | [], _ => Ok SA
  | _ :: _, [] => UB
  | c :: C, b :: B =>
    let! SA := (if (b =? sum + c) then Ok SA
                else
                  let! v := get SA b in
                  let! _ := check (negb (v =? 0)%Z) in
                  set SA b (v + Z.of_nat n)%Z) in
    markSeeds n (sum + c) C B SA
  end.
Definition stage1sort (T : list N) (SA : list Z) (k : nat) (sort2 : bool) : outcome (list Z * nat * nat) :=
  let n := length T in
  let! C := getCounts T k in
  let B := getBuckets C 0 true in
  let! _ := check (n <=? length SA) in
  let SA := repeat 0%Z n ++ skipn n SA in
  let! (SA, B, b, j, m) := lmsScan T (seedOne n) (SA, B, n - 1, n, 0) in
  let! SA := set SA (n - 1) 0%Z in
  if (1 <? m) then
    if sort2 then
      let! _ := check (j + 1 <? n) in
      let! c := get T (j + 1) in
      let! v := get B (N.to_nat c) in
      let! B := set B (N.to_nat c) (S v) in
      let! SA := markSeeds n 0 C B SA in
      let! SA := LMSsort2 T SA C (repeat 0 (2 * k)) in
      let! (SA, name) := LMSpostproc2 n m SA in
      Ok (SA, m, name)
    else
      let! SA := LMSsort1 T SA C in
      let! (SA, name) := LMSpostproc1 T m SA in
      Ok (SA, m, name)
  else if (m =? 1) then
    let! SA := set SA b (Z.of_nat j + 1)%Z in
    Ok (SA, m, 1)
  else Ok (SA, m, 0).

(** ** stage3sort, sais.hxx 444-472 and 474-502 *)

(** Lines 455-468, 485-498: the LMS suffixes go to the ends of their buckets.  [e] is i+1,
    the number of suffixes left; [j] the elements not assigned yet; [fill] clears the
    elements from [q] on. *)
Fixpoint fill (count j : nat) (SA : list Z) : outcome (list Z) :=
  match count with
  | O => Ok SA
  | S count =>
    match j with
    | O => UB
    | S j => let! SA := set SA j 0%Z in fill count j SA
    end
  end.
(** One round of the inner loop, [c0] being the current bucket if there is one. *)
Fixpoint placeLMS (T : list N) (B : list nat) (e j : nat) (cur : option N) (SA : list Z) : outcome (list Z) :=
  match e with
  | O => fill j j SA
  | S i =>
    let! p := get SA i in
    let! c1 := getz T p in
    let! (j, SA) :=
      (if (match cur with Some c0 => (c1 =? c0)%N | None => false end) then Ok (j, SA)
       else
         let! q := get B (N.to_nat c1) in
         let! SA := fill (j - q) j SA in
         Ok (min q j, SA)) in
    match j with
    | O => UB
    | S j =>
      let! SA := set SA j p in
      placeLMS T B i j (Some c1) SA
    end
  end.
Definition stage3place (T : list N) (SA : list Z) (C : list nat) (m : nat) : outcome (list Z) :=
  if (1 <? m) then placeLMS T (getBuckets C 0 true) m (length T) None SA else Ok SA.

(** ** suffixsort, sais.hxx 504-622 and 624-744 *)

(** Lines 520-555: whether LMSsort2 is used (flags 16 or 32). *)
Definition useSort2 (fs n k : nat) : bool :=
  (N.of_nat n <=? 1073741823)%N && (2 <=? n / k) &&
  ((k <=? 256) || ((k <=? fs) && (k <=? fs - k) && (2 * k <=? fs - 2 * k))).
(** Lines 579-582: flags 0 and 2, for which C is kept at the end of the memory. *)
Definition keepsC (fs k : nat) : bool :=
  negb (k <=? 256) && (k <=? fs) && ((k <=? fs - k) || (k <=? 1024)).
Definition newSpace (fs n k m name : nat) : nat :=
  let newfs := n + fs - 2 * m in
  if keepsC fs k && (k + name <=? newfs) then newfs - k else newfs.

(** Lines 584-587: the names, moved to the last [m] of the first [m + newfs + m] elements.
    [e] is i+1, [j1] is j+1. *)
Fixpoint moveNames (m base todo e j1 : nat) (SA : list Z) : outcome (list Z) :=
  match todo with
  | O => Ok SA
  | S todo =>
    match e with
    | O => UB
    | S i =>
      let! v := get SA i in
      if (v =? 0)%Z then moveNames m base todo i j1 SA
      else
        match j1 with
        | O => UB
        | S j =>
          let! SA := set SA (base + j) (v - 1)%Z in
          moveNames m base todo i j SA
        end
    end
  end.
(** Line 594. *)
Definition storePosition (base i : nat) (_ : N) (st : list Z * nat) : outcome (list Z * nat) :=
  let '(SA, j1) := st in
  match j1 with
  | O => UB
  | S j => let! SA := set SA (base + j) (Z.of_nat i + 1)%Z in Ok (SA, j)
  end.
(** Line 598. *)
Fixpoint lookupPositions (base todo i : nat) (SA : list Z) : outcome (list Z) :=
  match todo with
  | O => Ok SA
  | S todo =>
    let! r := get SA i in
    let! p := getz SA (Z.of_nat base + r)%Z in
    let! SA := set SA i p in
    lookupPositions base todo (S i) SA
  end.

(** Stages 1 and 2 followed by the first half of stage 3: afterwards the first [n] elements
    are the sorted LMS suffixes at the ends of their buckets and zeros.  [SA] is the memory
    of [n + fs] elements.  The recursive call works on the elements before the names. *)
Fixpoint sortLMS (fuel : nat) (T : list N) (SA : list Z) (fs k : nat) : outcome (list Z * list nat) :=
  match fuel with
  | O => Fuel
  | S fuel =>
    let n := length T in
    let! (SA, m, name) := stage1sort T SA k (useSort2 fs n k) in
    let! C := getCounts T k in
    let! SA :=
      (if (name <? m) then
         let newfs := newSpace fs n k m name in
         let! _ := check (n / 2 <=? newfs + m) in
         let base := m + newfs in
         let! SA := moveNames m base (n / 2) (m + n / 2) m SA in
         let RA := map Z.to_N (firstn m (skipn base SA)) in
         let! (low, C') := sortLMS fuel RA (firstn base SA) newfs name in
         let! low := induceSA RA low C' in
         let SA := low ++ skipn base SA in
         let! (SA, _) := lmsScan T (storePosition base) (SA, m) in
         lookupPositions base m 0 SA
       else Ok SA) in
    let! SA := stage3place T SA C m in
    Ok (SA, C)
  end.

(** ** saisxx_bwt, sais.hxx 803-830; T and U are the same memory.  For n <= 1 lines 814-815 only
    set LFpowers[0] (and U[0] = T[0]), and the call continues like the others; the value is
    written again by lines 816-820. *)

(** Lines 822-829. *)
Fixpoint copyRows (pidx i : nat) (A : list Z) (U freqs : list N) : outcome (list N * list N) :=
  match A with
  | [] => Ok (U, freqs)
  | a :: A =>
    if (i =? pidx) then copyRows pidx (S i) A U freqs
    else
      let c := Z.to_N (a mod 256) in
      let! U := set U i c in
      let! f := get freqs (N.to_nat c) in
      let! freqs := set freqs (N.to_nat c) ((f + 1) mod two32)%N in
      copyRows pidx (S i) A U freqs
  end.
(** SA-IS-bwt.cpp 48-54: A has [n] elements, zero; LFpowers has [nLF], zero
    (BWTBlock::prepareLFpowers). *)
Definition saisxx_bwt (T : list N) (nLF : nat) (freqs : list N) : outcome (list N * list N * list N) :=
  let n := length T in
  if (nLF =? 0) then UB
  else
    let! (A, C) := sortLMS n T (repeat 0%Z n) 0 256 in
    let! (A, lf, pidx) :=
      (if (nLF =? 1) then
         let! (A, p) := computeBWT T A C in
         match p with Some p => Ok (A, [N.of_nat p], p) | None => UB end
       else
         let! (A, (lf, p)) := computeBWTPowers T A C (repeat 0%N nLF) in
         match p with Some p => Ok (A, lf, p) | None => UB end) in
    let! (U, freqs) := copyRows pidx 0 A T freqs in
    Ok (U, lf, freqs).

(** saisxx, sais.hxx 755-766, with suffixsort for isbwt == false (504-622): the suffix array;
    [None] is the result -1. *)
Definition saisxx (T : list N) (k : nat) : outcome (option (list Z)) :=
  if (k =? 0) then Ok None
  else match T with
  | [] => Ok (Some [])
  | [_] => Ok (Some [0%Z])
  | _ =>
    let n := length T in
    let! (SA, C) := sortLMS n T (repeat 0%Z n) 0 k in
    let! SA := induceSA T SA C in
    Ok (Some SA)
  end.

(** BWTransform::doTransform (BWTransform.cpp 52-64) for the transform of option --bwt s
    (BWTManager.cpp 53-58, 74-80): ModelBWT.doTransform with saisxx_bwt in the place of the result of a sorter. *)
Definition saisTransform (data : list N) (points : N) : outcome (list N * list N * list N) :=
  let nLF := N.to_nat (prepareLFpowers (N.of_nat (length data)) points) in
  let! (U, lf, freqs) := saisxx_bwt (sortedText data) nLF (repeat 0%N 256) in
  match lf with
  | [] => UB
  | p :: _ =>
    let! c := get U (length data) in
    let! U := set U (N.to_nat p) c in
    Ok (firstn (length data) U, lf, freqs)
  end.

(** What streams and the circular buffer are supposed to do. *)
From Coq Require Import List NArith Arith Bool.
From Verif Require Import Base ModelUtils ModelStreams.
Import ListNotations.
Open Scope N_scope.

(** ** Output *)
Inductive outOp :=
| OByte (b : N)
| OBlock (l : list N)
| OFlush
| OPos                              (* getPos *)
| OPatch (v : N) (position : nat).  (* write48bits *)

(** Six bytes, big end first. *)
Definition big_endian_6 (v : N) : list N :=
  [v / 2 ^ 40 mod 256; v / 2 ^ 32 mod 256; v / 2 ^ 24 mod 256;
   v / 2 ^ 16 mod 256; v / 2 ^ 8 mod 256; v mod 256].

(** The bytes written so far after one more operation. *)
Definition specOut (written : list N) (op : outOp) : list N :=
  match op with
  | OByte b => written ++ [b]
  | OBlock l => written ++ l
  | OFlush | OPos => written
  | OPatch v p => firstn p written ++ big_endian_6 v ++ skipn (p + 6) written
  end.
(** Patches concern six bytes that are already written. *)
Definition validOut (written : list N) (op : outOp) : Prop :=
  match op with
  | OPatch v p => v < 2 ^ 48 /\ (p + 6 <= length written)%nat
  | _ => True
  end.
Fixpoint specOutAll (written : list N) (ops : list outOp) : list N :=
  match ops with [] => written | op :: t => specOutAll (specOut written op) t end.
Fixpoint validOutAll (written : list N) (ops : list outOp) : Prop :=
  match ops with
  | [] => True
  | op :: t => validOut written op /\ validOutAll (specOut written op) t
  end.
(** The answers getPos should give. *)
Fixpoint specPositions (written : list N) (ops : list outOp) : list nat :=
  match ops with
  | [] => []
  | op :: t =>
    (match op with OPos => [length written] | _ => [] end)
    ++ specPositions (specOut written op) t
  end.

(** The transcribed stream performing the same operations. *)
Definition runOut1 (K : nat) (st : outStream) (op : outOp) : outcome (outStream * list nat) :=
  match op with
  | OByte b => let! st := writeByte K st b in Ok (st, [])
  | OBlock l => Ok (writeBlock K st l, [])
  | OFlush => Ok (outFlush st, [])
  | OPos => let (st, p) := getPos st in Ok (st, [p])
  | OPatch v p => let! st := write48bits st v p in Ok (st, [])
  end.
Fixpoint runOut (K : nat) (st : outStream) (ops : list outOp) : outcome (outStream * list nat) :=
  match ops with
  | [] => Ok (st, [])
  | op :: t =>
    let! (st, r1) := runOut1 K st op in
    let! (st, r2) := runOut K st t in
    Ok (st, r1 ++ r2)
  end.

(** ** Input *)
Inductive inOp := IBit | IByte | IFlush | I48 | IBlock (n : nat).
Inductive inResult := RBit (b : bool) | RNum (v : N) | RUnit | RBlock (l : list N).

(** What the operation returns on the bits that are left, and what it leaves. *)
Definition specIn (s : list bool) (op : inOp) : inResult * list bool :=
  match op with
  | IBit => let (b, s) := readBit s in (RBit b, s)
  | IByte => let (b, s) := readByte s in (RNum b, s)
  | IFlush => (RUnit, absFlushBuffer s)
  | I48 => let (v, s) := absRead48bits s in (RNum v, s)
  | IBlock n => let (l, s) := absReadBlock n s in (RBlock l, s)
  end.
(** Unread bits of the byte a bit was last read from. *)
Definition unread (left : N) (op : inOp) : N :=
  match op with
  | IBit => if left =? 0 then 7 else left - 1
  | IFlush => 0
  | _ => left
  end.
Definition unreadAfter (left : N) (ops : list inOp) : N := fold_left unread ops left.
(** read48bits and readBlock are called at byte boundaries only. *)
Fixpoint validIn (left : N) (ops : list inOp) : Prop :=
  match ops with
  | [] => True
  | op :: t =>
    match op with I48 | IBlock _ => left = 0 | _ => True end /\ validIn (unread left op) t
  end.
Fixpoint specInAll (s : list bool) (ops : list inOp) : list inResult :=
  match ops with
  | [] => []
  | op :: t => let (r, s) := specIn s op in r :: specInAll s t
  end.
Fixpoint leftAfter (s : list bool) (ops : list inOp) : list bool :=
  match ops with [] => s | op :: t => leftAfter (snd (specIn s op)) t end.
Definition runIn1 (K : nat) (st : inStream) (op : inOp) : outcome (inStream * inResult) :=
  match op with
  | IBit => let (st, b) := inReadBit K st in Ok (st, RBit b)
  | IByte => let! (st, b) := inReadByte K st in Ok (st, RNum b)
  | IFlush => Ok (inFlushBuffer st, RUnit)
  | I48 => let (st, v) := inRead48bits K st in Ok (st, RNum v)
  | IBlock n => let! (st, l) := inReadBlock K st n in Ok (st, RBlock l)
  end.
Fixpoint runIn (K : nat) (st : inStream) (ops : list inOp) : outcome (inStream * list inResult) :=
  match ops with
  | [] => Ok (st, [])
  | op :: t =>
    let! (st, r) := runIn1 K st op in
    let! (st, l) := runIn K st t in
    Ok (st, r :: l)
  end.

(** ** Queue *)
Inductive qOp (T : Type) := QPush (v : T) | QConsume (n : nat) | QFull.
Arguments QPush {T}. Arguments QConsume {T}. Arguments QFull {T}.
Inductive qResult (T : Type) := QNone | QGot (l : list T) | QBool (b : bool).
Arguments QNone {T}. Arguments QGot {T}. Arguments QBool {T}.

(** A FIFO queue that may hold [cap] elements. *)
Definition specQ {T} (cap : nat) (q : list T) (op : qOp T) : list T * qResult T :=
  match op with
  | QPush v => (q ++ [v], QNone)
  | QConsume n => (skipn n q, QGot (firstn n q))
  | QFull => (q, QBool (length q =? cap)%nat)
  end.
Fixpoint specQAll {T} (cap : nat) (q : list T) (ops : list (qOp T)) : list (qResult T) :=
  match ops with
  | [] => []
  | op :: t => let (q', r) := specQ cap q op in r :: specQAll cap q' t
  end.
(** Nothing is pushed into a full queue. *)
Fixpoint validQ {T} (cap : nat) (q : list T) (ops : list (qOp T)) : Prop :=
  match ops with
  | [] => True
  | op :: t =>
    (match op with QPush _ => (length q < cap)%nat | _ => True end) /\
    validQ cap (fst (specQ cap q op)) t
  end.
Definition runQ1 {T} (c : circ T) (op : qOp T) : outcome (circ T * qResult T) :=
  match op with
  | QPush v => let! c := circPush c v in Ok (c, QNone)
  | QConsume n => let! (c, l) := circConsume c n in Ok (c, QGot l)
  | QFull => Ok (c, QBool (circFull c))
  end.
Fixpoint runQ {T} (c : circ T) (ops : list (qOp T)) : outcome (list (qResult T)) :=
  match ops with
  | [] => Ok []
  | op :: t =>
    let! (c, r) := runQ1 c op in
    let! l := runQ c t in Ok (r :: l)
  end.

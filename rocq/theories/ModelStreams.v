(** Transcription of /repo/Streams.cpp and /repo/Streams.hpp (RawOutStream and
    RawInStream on regular files) and of CircularBuffer (/repo/Utils.hpp 47-90). *)
From Coq Require Import List NArith Arith Bool.
From Verif Require Import Base ModelUtils.
Import ListNotations.
Open Scope N_scope.

(** ** RawOutStream *)

(** A FILE opened with "w": contents and position; stdio's own buffering is not
    observable and not modelled, nor are write errors.  [o_buf] is
    m_buffer[0..m_filled), Streams.hpp 101-104.  [K] below is kBufferSize
    (Streams.hpp 99), kept as a parameter. *)
Record outStream := mkOut { o_file : list N; o_pos : nat; o_buf : list N }.
Definition outInit : outStream := mkOut [] 0 [].

(** fwrite/fputc at the current position (which is never behind the end here). *)
Definition fwriteAt (st : outStream) (data : list N) : outStream :=
  mkOut (firstn (o_pos st) (o_file st) ++ data ++ skipn (o_pos st + length data) (o_file st))
        (o_pos st + length data) (o_buf st).

(** Streams.cpp 82-88. *)
Definition outFlush (st : outStream) : outStream :=
  match o_buf st with
  | [] => st
  | _ => let st' := fwriteAt st (o_buf st) in mkOut (o_file st') (o_pos st') []
  end.

(** Streams.cpp 74-80; storing at index m_filled >= kBufferSize is undefined. *)
Definition writeByte (K : nat) (st : outStream) (b : N) : outcome outStream :=
  if (length (o_buf st) <? K)%nat then
    let st := mkOut (o_file st) (o_pos st) (o_buf st ++ [b]) in
    if (length (o_buf st) =? K)%nat then
      let st' := fwriteAt st (o_buf st) in Ok (mkOut (o_file st') (o_pos st') [])
    else Ok st
  else UB.

(** Streams.cpp 90-93. *)
Definition getPos (st : outStream) : outStream * nat :=
  let st := outFlush st in (st, o_pos st).

(** Streams.cpp 95-104. *)
Definition writeBlock (K : nat) (st : outStream) (data : list N) : outStream :=
  if (length (o_buf st) + length data <? K)%nat then
    mkOut (o_file st) (o_pos st) (o_buf st ++ data)
  else fwriteAt (outFlush st) data.

(** The bytes put by the loop of Streams.cpp 112-115. *)
Definition bytes48 (v : N) : list N :=
  map (fun i => N.land 255 (N.shiftr v (i * 8))) [5; 4; 3; 2; 1; 0].

(** Streams.cpp 106-117; the assertion demands v < 2^48.  A seek behind the end
    of the file is reported as [UB] (the file would get a hole). *)
Definition write48bits (st : outStream) (v : N) (position : nat) : outcome outStream :=
  if v <? 2 ^ 48 then
    let st := outFlush st in
    let current := o_pos st in
    if (position <=? length (o_file st))%nat then
      let st := fwriteAt (mkOut (o_file st) position (o_buf st)) (bytes48 v) in
      Ok (mkOut (o_file st) current (o_buf st))
    else UB
  else UB.

(** Destructor, Streams.cpp 63-72: what is finally in the file. *)
Definition outClose (st : outStream) : list N := o_file (outFlush st).

(** ** RawInStream *)

(** [i_rest]: bytes of the file not yet fetched by fread; [i_eof]: the EOF
    indicator of the FILE; [i_big]: m_bigbuf[m_bigbuf_pos ..] (m_bigbuf_left
    bytes); m_buffer (16 bits) and m_bitsInBuffer, Streams.hpp 158-164. *)
Record inStream := mkIn {
  i_rest : list N; i_eof : bool; i_big : list N; i_buffer : N; i_bits : N }.
Definition inInit (file : list N) : inStream := mkIn file false [] 0 0.

(** fread of [K] bytes into the big buffer: a short read sets the indicator. *)
Definition refill (K : nat) (st : inStream) : inStream :=
  mkIn (skipn K (i_rest st)) (i_eof st || (length (i_rest st) <? K)%nat)
       (firstn K (i_rest st)) (i_buffer st) (i_bits st).

(** Streams.cpp 167-175; [None] is EOF. *)
Definition fetchByte (K : nat) (st : inStream) : inStream * option N :=
  let st := match i_big st with [] => refill K st | _ => st end in
  match i_big st with
  | [] => (st, None)
  | b :: t => (mkIn (i_rest st) (i_eof st) t (i_buffer st) (i_bits st), Some b)
  end.

(** Streams.cpp 177-184. *)
Definition peekByte (K : nat) (st : inStream) : inStream * option N :=
  let st := match i_big st with [] => refill K st | _ => st end in
  match i_big st with
  | [] => (st, None)
  | b :: _ => (st, Some b)
  end.

(** static_cast<byte>(fetchByte()): EOF = -1 becomes 255. *)
Definition fetchCast (K : nat) (st : inStream) : inStream * N :=
  let (st, r) := fetchByte K st in
  (st, match r with Some b => b | None => 255 end).

(** Streams.hpp 120-126. *)
Definition inReadBit (K : nat) (st : inStream) : inStream * bool :=
  let st := if i_bits st =? 0 then
              let (st, b) := fetchCast K st in
              mkIn (i_rest st) (i_eof st) (i_big st) b 8
            else st in
  let st := mkIn (i_rest st) (i_eof st) (i_big st) (i_buffer st) (i_bits st - 1) in
  (st, N.odd (N.shiftr (i_buffer st) (i_bits st))).

(** Streams.hpp 128-133. *)
Definition inReadByte (K : nat) (st : inStream) : outcome (inStream * N) :=
  if i_bits st <? 8 then
    let (st, nextByte) := fetchCast K st in
    let buffer := N.lor (N.shiftl (i_buffer st) 8 mod 65536) nextByte in
    let st := mkIn (i_rest st) (i_eof st) (i_big st) buffer (i_bits st) in
    Ok (st, N.land (N.shiftr buffer (i_bits st)) 255)
  else UB.

(** Streams.hpp 135-137. *)
Definition inFlushBuffer (st : inStream) : inStream :=
  mkIn (i_rest st) (i_eof st) (i_big st) (i_buffer st) 0.

(** Streams.cpp 119-126; the bit buffer is not looked at. *)
Fixpoint inRead48Loop (K : nat) (n : nat) (st : inStream) (result : N) : inStream * N :=
  match n with
  | O => (st, result)
  | S n' =>
    let (st, b) := fetchCast K st in
    inRead48Loop K n' st (N.lor (N.shiftl result 8 mod two64) b)
  end.
Definition inRead48bits (K : nat) (st : inStream) : inStream * N := inRead48Loop K 6 st 0.

(** Streams.cpp 157-165. *)
Fixpoint inReadBlockLoop (K : nat) (n : nat) (st : inStream) : inStream * list N :=
  match n with
  | O => (st, [])
  | S n' =>
    let (st, r) := fetchByte K st in
    match r with
    | None => (st, [])
    | Some b => let (st, l) := inReadBlockLoop K n' st in (st, b :: l)
    end
  end.
Definition inReadBlock (K : nat) (st : inStream) (n : nat) : outcome (inStream * list N) :=
  if i_bits st =? 0 then Ok (inReadBlockLoop K n st) else UB.

(** Streams.hpp 143-153. *)
Definition inDataEnding (K : nat) (st : inStream) : inStream * bool :=
  match i_big st with
  | _ :: _ :: _ => (st, false)
  | [] => let (st, r) := peekByte K st in (st, match r with None => true | Some _ => false end)
  | [_] => (st, i_eof st)
  end.

(** ** The abstract input stream used by the decoders of this model: the list of
    bits not yet read ([readBit], [readByte] are in ModelUtils.v). *)
Definition absFlushBuffer (s : list bool) : list bool := skipn (length s mod 8) s.
Definition absRead48bits (s : list bool) : N * list bool :=
  let (a, s) := readByte s in let (b, s) := readByte s in let (c, s) := readByte s in
  let (d, s) := readByte s in let (e, s) := readByte s in let (f, s) := readByte s in
  (((((a * 256 + b) * 256 + c) * 256 + d) * 256 + e) * 256 + f, s).
Fixpoint absReadBlock (n : nat) (s : list bool) : list N * list bool :=
  match n with
  | O => ([], s)
  | S n' =>
    match s with
    | [] => ([], [])
    | _ => let (b, s) := readByte s in let (l, s) := absReadBlock n' s in (b :: l, s)
    end
  end.
Definition absDataEnding (s : list bool) : bool := match s with [] => true | _ => false end.

(** ** CircularBuffer, Utils.hpp 47-90 *)

(** Fields of Utils.hpp 85-89; [c_data] has m_length cells, [None] standing for
    uninitialised memory. *)
Record circ (T : Type) := mkCirc {
  c_data : list (option T); c_head : nat; c_start : nat; c_count : nat }.
Arguments mkCirc {T}. Arguments c_data {T}. Arguments c_head {T}. Arguments c_start {T}.
Arguments c_count {T}.
Definition circInit {T} (len : nat) : circ T := mkCirc (repeat None len) 0 0 0.

Definition slice {A} (l : list A) (from upto : nat) : list A := firstn (upto - from) (skipn from l).

(** std::copy of initialised cells. *)
Fixpoint copyCells {T} (l : list (option T)) : outcome (list T) :=
  match l with
  | [] => Ok []
  | None :: _ => UB
  | Some x :: t => let! r := copyCells t in Ok (x :: r)
  end.

(** Utils.hpp 57-72: the copied elements; their number is the result.  In the
    wrapping case [m_start..m_length) is copied entirely before the rest. *)
Definition circConsume {T} (c : circ T) (len : nat) : outcome (circ T * list T) :=
  let m_length := length (c_data c) in
  let len := Nat.min len (c_count c) in
  if (len <=? m_length)%nat then
    if (m_length <=? c_start c + len)%nat then
      let newStart := (len - (m_length - c_start c))%nat in
      let! a := copyCells (slice (c_data c) (c_start c) m_length) in
      let! b := copyCells (slice (c_data c) 0 newStart) in
      Ok (mkCirc (c_data c) (c_head c) newStart (c_count c - len), a ++ b)
    else
      let newStart := (c_start c + len)%nat in
      let! a := copyCells (slice (c_data c) (c_start c) newStart) in
      Ok (mkCirc (c_data c) (c_head c) newStart (c_count c - len), a)
  else UB.

(** Utils.hpp 74-78. *)
Definition circPush {T} (c : circ T) (v : T) : outcome (circ T) :=
  let head := if (length (c_data c) <=? c_head c)%nat then 0%nat else c_head c in
  if (head <? length (c_data c))%nat then
    Ok (mkCirc (firstn head (c_data c) ++ Some v :: skipn (S head) (c_data c)) (S head)
               (c_start c) (S (c_count c)))
  else UB.

(** Utils.hpp 80-82. *)
Definition circFull {T} (c : circ T) : bool := (length (c_data c) <=? c_count c)%nat.

(** Vocabulary for statements about probability models and the bit coder. *)
From Coq Require Import List NArith Bool.
From Verif Require Import Base ModelBitCoder ModelProb.
Import ListNotations.
Open Scope N_scope.

(** A use of a model: a bit is coded, a bit is only noted, or the context changes. *)
Inductive use := Coded (b : bool) | Noted (b : bool) | NewContext.

Definition use1 (P : predictor) (s : p_state P) (u : use) : outcome (p_state P) :=
  match u with
  | Coded b => p_update P s b
  | Noted b => p_updateState P s b
  | NewContext => p_reset P s
  end.
Fixpoint useAll (P : predictor) (s : p_state P) (l : list use) : outcome (p_state P) :=
  match l with
  | [] => Ok s
  | u :: t => let! s' := use1 P s u in useAll P s' t
  end.

(** The prediction after a history of uses, starting from the state [s]. *)
Definition predictFrom (P : predictor) (s : p_state P) (h : list use) : outcome N :=
  let! s := useAll P s h in p_prob P s.
Definition predict (P : predictor) (h : list use) : outcome N := predictFrom P (p_init P) h.

(** Decoding of [n] bits; the probability of each may depend on the bits decoded
    before it ([hist], most recent first). *)
Fixpoint decodeBits (pr : list bool -> N) (hist : list bool) (n : nat) (st : decState) (s : list bool)
  : outcome (list bool * list bool) :=
  match n with
  | O => Ok ([], s)
  | S k =>
    let! (b, st', s') := decode st (pr hist) s in
    let! (bits, s'') := decodeBits pr (b :: hist) k st' s' in
    Ok (b :: bits, s'')
  end.
(** The coder called with those probabilities. *)
Fixpoint encodeBits (pr : list bool -> N) (hist : list bool) (st : encState) (bits : list bool)
  : outcome (encState * list N) :=
  match bits with
  | [] => Ok (st, [])
  | b :: t =>
    let! (st1, o1) := encode st b (pr hist) in
    let! (st2, o2) := encodeBits pr (b :: hist) st1 t in
    Ok (st2, o1 ++ o2)
  end.

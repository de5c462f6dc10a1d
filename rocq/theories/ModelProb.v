(** Transcription of the probability models, /repo/probmodels. *)
From Coq Require Import List NArith ZArith Arith Bool.
From Verif Require Import Base ModelUtils ModelBitCoder.
Import ListNotations.
Open Scope N_scope.

(** The virtual interface of ProbabilityModel.hpp 35-51.  A C++ object is a value
    of [p_state]; operations return [UB] where the C++ has undefined behaviour. *)
Record predictor := mkPredictor {
  p_state : Type;
  p_init : p_state;
  p_update : p_state -> bool -> outcome p_state;
  p_prob : p_state -> outcome N;
  p_reset : p_state -> outcome p_state;
  p_updateState : p_state -> bool -> outcome p_state
}.

(** Conversion of an [int] to the 16-bit type Probability (globaldefs.hpp 62). *)
Definition toProbability (z : Z) : N := Z.to_N (z mod 65536).

(** BitPredictors.hpp 37-65.  The operands are promoted to [int]; [>>] on a
    negative int is the arithmetic shift.  updateState is inherited and empty. *)
Definition UnbiasedPredictor (Min Delay Initial : N) : predictor :=
  mkPredictor N Initial
    (fun p bit =>
       let maximum := (4096 - Z.of_N Min)%Z in
       let p := Z.of_N p in
       Ok (toProbability
            (if bit : bool then p + Z.shiftr (maximum - p) (Z.of_N Delay)
             else p - Z.shiftr (p - Z.of_N Min) (Z.of_N Delay))%Z))
    (fun p => Ok p)
    (fun _ => Ok Initial)
    (fun p _ => Ok p).

(** BitPredictors.hpp 95-124 with M = 4: s_interval = 1024. *)
Definition EvenIntervalPredictor4 : predictor :=
  mkPredictor N 2048
    (fun p bit =>
       if bit : bool then
         let probability := (p + 1024) mod 65536 in
         Ok (if probability <? kProbabilityScale then probability else p)
       else Ok (if 1024 <? p then p - 1024 else p))
    (fun p => Ok p)
    (fun _ => Ok 2048)
    (fun p _ => Ok p).

(** BitPredictors.hpp 299-319; updateState is inherited and empty. *)
Definition InversePredictor (P : predictor) : predictor :=
  mkPredictor (p_state P) (p_init P)
    (fun s bit => p_update P s (negb bit))
    (fun s => let! p := p_prob P s in Ok (toProbability (4096 - Z.of_N p)))
    (p_reset P)
    (fun s _ => Ok s).

(** FSM.hpp 41-52 (primary template). *)
Definition nextStateGeneric (states : nat) (cur : nat) (bit : bool) : nat :=
  if bit then
    if (states / 2 <=? cur)%nat then Nat.min (cur + 1) (states - 1) else (states / 2)%nat
  else
    if (cur <? states / 2)%nat then (cur - 1)%nat else ((states - 1) / 2)%nat.

(** FSM.hpp 59-65. *)
Definition nextState3 (cur : nat) (bit : bool) : nat :=
  if (cur =? 1)%nat then (if bit then 2 else 0)%nat
  else if (cur =? 2)%nat && bit then 2%nat
  else if (cur =? 0)%nat && negb bit then 0%nat
  else 1%nat.

(** Template dispatch of nextState<N>; 2 and 9 are not instantiated by the
    models of ProbabilityModel.cpp. *)
Definition nextState (states cur : nat) (bit : bool) : nat :=
  match states with
  | 3%nat => nextState3 cur bit
  | _ => nextStateGeneric states cur bit
  end.

Fixpoint setNth {A} (l : list A) (i : nat) (x : A) : list A :=
  match l, i with
  | [], _ => []
  | _ :: t, O => x :: t
  | h :: t, S j => h :: setNth t j x
  end.

(** resetModel for a vector of predictors, FSM.hpp 95. *)
Fixpoint resetAll (P : predictor) (l : list (p_state P)) : outcome (list (p_state P)) :=
  match l with
  | [] => Ok []
  | s :: t => let! s' := p_reset P s in let! t' := resetAll P t in Ok (s' :: t')
  end.

(** FSM.hpp 79-106.  An index outside [m_states] is undefined. *)
Definition FSM (n : nat) (P : predictor) : predictor :=
  mkPredictor (nat * list (p_state P)) ((n / 2)%nat, repeat (p_init P) n)
    (fun st bit =>
       let (cur, states) := st in
       match nth_error states cur with
       | None => UB
       | Some s =>
         let! s' := p_update P s bit in
         Ok (nextState n cur bit, setNth states cur s')
       end)
    (fun st => match nth_error (snd st) (fst st) with None => UB | Some s => p_prob P s end)
    (fun st => let! states := resetAll P (snd st) in Ok ((n / 2)%nat, states))
    (fun st bit => Ok (nextState n (fst st) bit, snd st)).

(** FSM.hpp 168-227: state number and the eight component predictors.  The
    switch in [update] has no default, the one in [probabilityOfOne] sends other
    values to the last component.  resetModel leaves m_currentState alone. *)
Section FSM8.
Variables Z4 Z3 Z2 Z1 : predictor.
Record fsm8 := mkFsm8 {
  cur8 : nat;
  z4 : p_state Z4; z3 : p_state Z3; z2 : p_state Z2; z1 : p_state Z1;
  o1 : p_state Z1; o2 : p_state Z2; o3 : p_state Z3; o4 : p_state Z4 }.
Definition FSM8 : predictor :=
  let I1 := InversePredictor Z1 in let I2 := InversePredictor Z2 in
  let I3 := InversePredictor Z3 in let I4 := InversePredictor Z4 in
  mkPredictor fsm8
    (mkFsm8 4 (p_init Z4) (p_init Z3) (p_init Z2) (p_init Z1)
              (p_init Z1) (p_init Z2) (p_init Z3) (p_init Z4))
    (fun '(mkFsm8 c a4 a3 a2 a1 b1 b2 b3 b4) bit =>
       let n := nextState 8 c bit in
       match c with
       | 0%nat => let! x := p_update Z4 a4 bit in Ok (mkFsm8 n x a3 a2 a1 b1 b2 b3 b4)
       | 1%nat => let! x := p_update Z3 a3 bit in Ok (mkFsm8 n a4 x a2 a1 b1 b2 b3 b4)
       | 2%nat => let! x := p_update Z2 a2 bit in Ok (mkFsm8 n a4 a3 x a1 b1 b2 b3 b4)
       | 3%nat => let! x := p_update Z1 a1 bit in Ok (mkFsm8 n a4 a3 a2 x b1 b2 b3 b4)
       | 4%nat => let! x := p_update I1 b1 bit in Ok (mkFsm8 n a4 a3 a2 a1 x b2 b3 b4)
       | 5%nat => let! x := p_update I2 b2 bit in Ok (mkFsm8 n a4 a3 a2 a1 b1 x b3 b4)
       | 6%nat => let! x := p_update I3 b3 bit in Ok (mkFsm8 n a4 a3 a2 a1 b1 b2 x b4)
       | 7%nat => let! x := p_update I4 b4 bit in Ok (mkFsm8 n a4 a3 a2 a1 b1 b2 b3 x)
       | _ => Ok (mkFsm8 n a4 a3 a2 a1 b1 b2 b3 b4)
       end)
    (fun '(mkFsm8 c a4 a3 a2 a1 b1 b2 b3 b4) =>
       match c with
       | 0%nat => p_prob Z4 a4
       | 1%nat => p_prob Z3 a3
       | 2%nat => p_prob Z2 a2
       | 3%nat => p_prob Z1 a1
       | 4%nat => p_prob I1 b1
       | 5%nat => p_prob I2 b2
       | 6%nat => p_prob I3 b3
       | _ => p_prob I4 b4
       end)
    (fun '(mkFsm8 c a4 a3 a2 a1 b1 b2 b3 b4) =>
       let! a4 := p_reset Z4 a4 in let! a3 := p_reset Z3 a3 in
       let! a2 := p_reset Z2 a2 in let! a1 := p_reset Z1 a1 in
       let! b1 := p_reset I1 b1 in let! b2 := p_reset I2 b2 in
       let! b3 := p_reset I3 b3 in let! b4 := p_reset I4 b4 in
       Ok (mkFsm8 c a4 a3 a2 a1 b1 b2 b3 b4))
    (fun '(mkFsm8 c a4 a3 a2 a1 b1 b2 b3 b4) bit =>
       Ok (mkFsm8 (nextState 8 c bit) a4 a3 a2 a1 b1 b2 b3 b4)).
End FSM8.

(** ProbabilityModel.cpp 87-128 for an unsigned integer type of [k] bits.  The
    state is m_prev and the history array of 2^k - 1 chars ([char] signed, values
    kept in -2..2 by the code); an index outside it is undefined, and so is a
    shift by a negative amount (line 119). *)
Definition markovRead (k : N) (prev : N) (hist : N -> Z) : outcome Z :=
  if prev <? 2 ^ k - 1 then Ok (hist prev) else UB.
Definition SimpleMarkov (k : N) : predictor :=
  mkPredictor (N * (N -> Z)) (0, fun _ => 0%Z)
    (fun st bit =>
       let (prev, hist) := st in
       let! h := markovRead k prev hist in
       let h' := if bit : bool then (if (h <? 2)%Z then (h + 1)%Z else h)
                 else (if (-2 <? h)%Z then (h - 1)%Z else h) in
       let hist' := fun i => if i =? prev then h' else hist i in
       Ok (N.lor (N.shiftl prev 1 mod 2 ^ k) (N.b2n bit), hist'))
    (fun st =>
       let (prev, hist) := st in
       let! h := markovRead k prev hist in
       if (0 <? h)%Z then Ok (toProbability (Z.shiftl 64 (2 * h)))
       else if (h <? 0)%Z then UB
       else Ok 64)
    (fun st => Ok (fst st, fun _ => 0%Z))
    (fun st _ => Ok st).

(** ProbabilityModel.cpp 39-46. *)
Definition modelForIntegerCodes : predictor := FSM 3 (UnbiasedPredictor 100 5 2048).
Definition modelForGaps : predictor := FSM 4 (UnbiasedPredictor 2 5 2048).

(** ProbabilityModel.cpp 48-75, by the selecting character. *)
Definition model_m : predictor := SimpleMarkov 8.
Definition model_M : predictor := SimpleMarkov 16.
Definition model_u : predictor := EvenIntervalPredictor4.
Definition model_b : predictor := FSM 6 EvenIntervalPredictor4.
Definition model_B : predictor :=
  FSM8 (UnbiasedPredictor 2 4 2400) (UnbiasedPredictor 2 5 2300)
       (UnbiasedPredictor 2 5 2200) (UnbiasedPredictor 2 5 2100).

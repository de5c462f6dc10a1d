(** Transcription of the probability models of /repo/probmodels that no factory function returns. *)
From Coq Require Import List NArith ZArith Arith Bool.
From Verif Require Import Base Arrays ModelUtils ModelBitCoder ModelProb.
Import ListNotations.
Open Scope N_scope.

(** BitPredictors.hpp 95-124: any number [M] of probabilities; the static assertions (121-122) are left to the statements. *)
Definition EvenIntervalPredictor (M : N) : predictor :=
  mkPredictor N ((4096 / M * (M / 2)) mod 65536)
    (fun p bit =>
       if bit : bool then
         let probability := (p + 4096 / M) mod 65536 in
         Ok (if probability <? kProbabilityScale then probability else p)
       else Ok (if 4096 / M <? p then p - 4096 / M else p))
    (fun p => Ok p)
    (fun _ => Ok ((4096 / M * (M / 2)) mod 65536))
    (fun p _ => Ok p).

(** BitPredictors.hpp 126-148: s_quarter = 1024. *)
Definition EvenIntervalPredictor2 : predictor :=
  mkPredictor N 3072 (fun _ bit => Ok (if bit : bool then 3072 else 1024)) (fun p => Ok p) (fun _ => Ok 3072) (fun p _ => Ok p).

(** BitPredictors.hpp 150-172: s_interval = 1365. *)
Definition EvenIntervalPredictor3 : predictor :=
  mkPredictor N 2730 (fun _ bit => Ok (if bit : bool then 2730 else 1365)) (fun p => Ok p) (fun _ => Ok 2730) (fun p _ => Ok p).

(** BitPredictors.hpp 174-210: s_interval = 1365, s_halfInterval = 682. *)
Definition EvenIntervalPredictor5 : predictor :=
  mkPredictor N 2730
    (fun p bit =>
       Ok (if bit : bool then
             if p <? 1365 then 1365 else if p <? 2730 then 2730 else 2730 + 682
           else
             if 2730 <? p then 2730 else if 1365 <? p then 1365 else 1365 - 682))
    (fun p => Ok p) (fun _ => Ok 2730) (fun p _ => Ok p).

(** BitPredictors.hpp 67-91: m_ones and m_zeros are size_t, the product is converted to 16 bits. *)
Definition FrequencePredictor (A : N) : predictor :=
  mkPredictor (N * N) (0, 0)
    (fun '(ones, zeros) bit => Ok (if bit : bool then ((ones + 1) mod two64, zeros) else (ones, (zeros + 1) mod two64)))
    (fun '(ones, zeros) =>
       let total := ((ones + zeros) mod two64 + 2 * A) mod two64 in
       if total =? 0 then UB
       else Ok (((4096 / total) * ((ones + A) mod two64)) mod two64 mod 65536))
    (fun _ => Ok (0, 0))
    (fun s _ => Ok s).

(** BitPredictors.hpp 224-228: the loop that halves the increase, in 16 bits. *)
Fixpoint reduceIncrease (fuel : nat) (probability increase : N) : outcome N :=
  if kProbabilityScale <=? probability then
    match fuel with
    | O => Fuel
    | S f =>
      let probability := (probability + 65536 - increase) mod 65536 in
      let increase := N.shiftr increase 1 in
      reduceIncrease f ((probability + increase) mod 65536) increase
    end
  else Ok probability.

(** BitPredictors.hpp 213-250. *)
Definition BiasedOnePredictor (M : N) : predictor :=
  let interval := 4096 / M in
  mkPredictor N ((interval * (M / 2)) mod 65536)
    (fun p bit =>
       if bit : bool then reduceIncrease 17 ((p + interval) mod 65536) interval
       else Ok (if (M - 1) * interval <? p then ((M - 1) * interval) mod 65536
                else if interval <? p then p - interval else p))
    (fun p => Ok p)
    (fun _ => Ok ((interval * (M / 2)) mod 65536))
    (fun p _ => Ok p).

(** BitPredictors.hpp 252-296: m_probabilityOfOne and m_step; s_limit = 3840.  resetModel leaves m_step alone. *)
Definition AggressiveOnePredictor : predictor :=
  mkPredictor (N * N) (2048, 2048)
    (fun '(p, step) bit =>
       Ok (if bit : bool then
             if p <? 2048 then (2048, 2048)
             else if 1 <? step then ((p + N.shiftr step 1) mod 65536, N.shiftr step 1) else (p, step)
           else
             if 2048 <? p then
               if 3840 <? p then (3840, 256) else ((p + 65536 - step) mod 65536, N.shiftl step 1 mod 65536)
             else (1024, step)))
    (fun '(p, _) => Ok p)
    (fun '(_, step) => Ok (2048, step))
    (fun s _ => Ok s).

(** FSM.hpp 67-72. *)
Definition oneTransitions : list nat := [5; 5; 5; 4; 5; 6; 7; 8; 8]%nat.
Definition nextState9 (cur : nat) (bit : bool) : outcome nat :=
  if bit then get oneTransitions cur
  else if (8 <? cur)%nat then UB else let! t := get oneTransitions (8 - cur)%nat in Ok (8 - t)%nat.

(** FSM.hpp 41-72: nextState<N> for every N, the specialisations for 2 (54-57), 3 and 9 included. *)
Definition nextStateAny (states cur : nat) (bit : bool) : outcome nat :=
  match states with
  | 2%nat => Ok (if bit then 1 else 0)%nat
  | 3%nat => Ok (nextState3 cur bit)
  | 9%nat => nextState9 cur bit
  | _ => Ok (nextStateGeneric states cur bit)
  end.

(** FSM.hpp 79-106 for every number of states.  An index outside [m_states] is undefined. *)
Definition FSMany (n : nat) (P : predictor) : predictor :=
  mkPredictor (nat * list (p_state P)) ((n / 2)%nat, repeat (p_init P) n)
    (fun st bit =>
       let (cur, states) := st in
       let! s := get states cur in
       let! s := p_update P s bit in
       let! next := nextStateAny n cur bit in
       Ok (next, setNth states cur s))
    (fun st => let! s := get (snd st) (fst st) in p_prob P s)
    (fun st => let! states := resetAll P (snd st) in Ok ((n / 2)%nat, states))
    (fun st bit => let! next := nextStateAny n (fst st) bit in Ok (next, snd st)).

(** FSM.hpp 113-164.  The switch in [update] has no default, the one in [probabilityOfOne] sends other values to the last
    component; resetModel leaves m_currentState alone. *)
Section FSM6.
Variables Z3 Z2 Z1 : predictor.
Record fsm6 := mkFsm6 {
  cur6 : nat;
  x3 : p_state Z3; x2 : p_state Z2; x1 : p_state Z1;
  y1 : p_state Z1; y2 : p_state Z2; y3 : p_state Z3 }.
Definition FSM6 : predictor :=
  let I1 := InversePredictor Z1 in let I2 := InversePredictor Z2 in let I3 := InversePredictor Z3 in
  mkPredictor fsm6
    (mkFsm6 3 (p_init Z3) (p_init Z2) (p_init Z1) (p_init Z1) (p_init Z2) (p_init Z3))
    (fun '(mkFsm6 c a3 a2 a1 b1 b2 b3) bit =>
       let! n := nextStateAny 6 c bit in
       match c with
       | 0%nat => let! x := p_update Z3 a3 bit in Ok (mkFsm6 n x a2 a1 b1 b2 b3)
       | 1%nat => let! x := p_update Z2 a2 bit in Ok (mkFsm6 n a3 x a1 b1 b2 b3)
       | 2%nat => let! x := p_update Z1 a1 bit in Ok (mkFsm6 n a3 a2 x b1 b2 b3)
       | 3%nat => let! x := p_update I1 b1 bit in Ok (mkFsm6 n a3 a2 a1 x b2 b3)
       | 4%nat => let! x := p_update I2 b2 bit in Ok (mkFsm6 n a3 a2 a1 b1 x b3)
       | 5%nat => let! x := p_update I3 b3 bit in Ok (mkFsm6 n a3 a2 a1 b1 b2 x)
       | _ => Ok (mkFsm6 n a3 a2 a1 b1 b2 b3)
       end)
    (fun '(mkFsm6 c a3 a2 a1 b1 b2 b3) =>
       match c with
       | 0%nat => p_prob Z3 a3
       | 1%nat => p_prob Z2 a2
       | 2%nat => p_prob Z1 a1
       | 3%nat => p_prob I1 b1
       | 4%nat => p_prob I2 b2
       | _ => p_prob I3 b3
       end)
    (fun '(mkFsm6 c a3 a2 a1 b1 b2 b3) =>
       let! a3 := p_reset Z3 a3 in let! a2 := p_reset Z2 a2 in let! a1 := p_reset Z1 a1 in
       let! b1 := p_reset I1 b1 in let! b2 := p_reset I2 b2 in let! b3 := p_reset I3 b3 in
       Ok (mkFsm6 c a3 a2 a1 b1 b2 b3))
    (fun '(mkFsm6 c a3 a2 a1 b1 b2 b3) bit =>
       let! n := nextStateAny 6 c bit in Ok (mkFsm6 n a3 a2 a1 b1 b2 b3)).
End FSM6.

(** FSM.hpp 229-291, as FSM6 with nine states. *)
Section FSM9.
Variables Z4 Z3 Z2 Z1 D : predictor.
Record fsm9 := mkFsm9 {
  cur9 : nat;
  w4 : p_state Z4; w3 : p_state Z3; w2 : p_state Z2; w1 : p_state Z1; w0 : p_state D;
  v1 : p_state Z1; v2 : p_state Z2; v3 : p_state Z3; v4 : p_state Z4 }.
Definition FSM9 : predictor :=
  let I1 := InversePredictor Z1 in let I2 := InversePredictor Z2 in
  let I3 := InversePredictor Z3 in let I4 := InversePredictor Z4 in
  mkPredictor fsm9
    (mkFsm9 4 (p_init Z4) (p_init Z3) (p_init Z2) (p_init Z1) (p_init D) (p_init Z1) (p_init Z2) (p_init Z3) (p_init Z4))
    (fun '(mkFsm9 c a4 a3 a2 a1 d b1 b2 b3 b4) bit =>
       let! n := nextStateAny 9 c bit in
       match c with
       | 0%nat => let! x := p_update Z4 a4 bit in Ok (mkFsm9 n x a3 a2 a1 d b1 b2 b3 b4)
       | 1%nat => let! x := p_update Z3 a3 bit in Ok (mkFsm9 n a4 x a2 a1 d b1 b2 b3 b4)
       | 2%nat => let! x := p_update Z2 a2 bit in Ok (mkFsm9 n a4 a3 x a1 d b1 b2 b3 b4)
       | 3%nat => let! x := p_update Z1 a1 bit in Ok (mkFsm9 n a4 a3 a2 x d b1 b2 b3 b4)
       | 4%nat => let! x := p_update D d bit in Ok (mkFsm9 n a4 a3 a2 a1 x b1 b2 b3 b4)
       | 5%nat => let! x := p_update I1 b1 bit in Ok (mkFsm9 n a4 a3 a2 a1 d x b2 b3 b4)
       | 6%nat => let! x := p_update I2 b2 bit in Ok (mkFsm9 n a4 a3 a2 a1 d b1 x b3 b4)
       | 7%nat => let! x := p_update I3 b3 bit in Ok (mkFsm9 n a4 a3 a2 a1 d b1 b2 x b4)
       | 8%nat => let! x := p_update I4 b4 bit in Ok (mkFsm9 n a4 a3 a2 a1 d b1 b2 b3 x)
       | _ => Ok (mkFsm9 n a4 a3 a2 a1 d b1 b2 b3 b4)
       end)
    (fun '(mkFsm9 c a4 a3 a2 a1 d b1 b2 b3 b4) =>
       match c with
       | 0%nat => p_prob Z4 a4
       | 1%nat => p_prob Z3 a3
       | 2%nat => p_prob Z2 a2
       | 3%nat => p_prob Z1 a1
       | 4%nat => p_prob D d
       | 5%nat => p_prob I1 b1
       | 6%nat => p_prob I2 b2
       | 7%nat => p_prob I3 b3
       | _ => p_prob I4 b4
       end)
    (fun '(mkFsm9 c a4 a3 a2 a1 d b1 b2 b3 b4) =>
       let! a4 := p_reset Z4 a4 in let! a3 := p_reset Z3 a3 in
       let! a2 := p_reset Z2 a2 in let! a1 := p_reset Z1 a1 in
       let! d := p_reset D d in
       let! b1 := p_reset I1 b1 in let! b2 := p_reset I2 b2 in
       let! b3 := p_reset I3 b3 in let! b4 := p_reset I4 b4 in
       Ok (mkFsm9 c a4 a3 a2 a1 d b1 b2 b3 b4))
    (fun '(mkFsm9 c a4 a3 a2 a1 d b1 b2 b3 b4) bit =>
       let! n := nextStateAny 9 c bit in Ok (mkFsm9 n a4 a3 a2 a1 d b1 b2 b3 b4)).
End FSM9.

(** FSM.hpp 293-321: m_history and the table of 2^[H] predictors; resetModel is inherited and empty. *)
Definition LimitedHistoryModel (P : predictor) (H : N) : predictor :=
  mkPredictor (N * (N -> p_state P)) (N.land 2863311530 (2 ^ H - 1), fun _ => p_init P)
    (fun st bit =>
       let (history, table) := st in
       if history <? 2 ^ H then
         let! s := p_update P (table history) bit in
         Ok (N.land (N.shiftl history 1 mod two64 + N.b2n bit) (2 ^ H - 1), fun i => if i =? history then s else table i)
       else UB)
    (fun st => if fst st <? 2 ^ H then p_prob P (snd st (fst st)) else UB)
    (fun st => Ok st)
    (fun st bit => Ok (N.land (N.shiftl (fst st) 1 mod two64 + N.b2n bit) (2 ^ H - 1), snd st)).

(** DMC.hpp 39-140. *)
Section DMC.
Variables (SplitLimit : N) (MaxStates : nat) (Delay : N) (BufferSize : nat) (P : predictor).

(** DMC.hpp 60-64. *)
Record dmcState := mkDmc { d_zeros : N; d_ones : N; d_zeroT : nat; d_oneT : nat; d_pred : p_state P }.
(** DMC.hpp 134-136; BitVector is a queue of bits. *)
Record dmc := mkDMC { m_current : nat; m_buffer : list bool; m_states : list dmcState }.

(** DMC.hpp 68-71 and 119-125. *)
Definition dmcFresh : dmc := mkDMC 0 [] [mkDmc 0 0 0 0 (p_init P)].

(** DMC.hpp 75-113.  [state] is a reference: the assignments in lines 85 and 88 copy the next state over the current one.
    The copy constructor (47-51) gives the clone a new predictor.  [fuel] bounds the depth of the recursion of line 98.
    pop_front of an empty queue is undefined. *)
Fixpoint dmcUpdate (fuel : nat) (st : dmc) (bit : bool) : outcome dmc :=
  match fuel with
  | O => Fuel
  | S f =>
    let! buffer := (if (length (m_buffer st) =? BufferSize)%nat then
                      match m_buffer st with [] => UB | _ :: r => Ok (r ++ [bit]) end
                    else Ok (m_buffer st ++ [bit])) in
    let cur := m_current st in
    let! s := get (m_states st) cur in
    let! p := p_update P (d_pred s) bit in
    let states := setNth (m_states st) cur (mkDmc (d_zeros s) (d_ones s) (d_zeroT s) (d_oneT s) p) in
    let next := if bit then d_oneT s else d_zeroT s in
    let! t := get states next in
    let state := if bit then mkDmc (d_zeros t) ((d_ones t + 1) mod two64) (d_zeroT t) (d_oneT t) (d_pred t)
                 else mkDmc ((d_zeros t + 1) mod two64) (d_ones t) (d_zeroT t) (d_oneT t) (d_pred t) in
    if ((SplitLimit <=? d_ones state) && (SplitLimit <=? d_zeros state))%bool then
      let n := length (m_states st) in
      if (n =? MaxStates)%nat then
        (fix replay (bits : list bool) (st : dmc) : outcome dmc :=
           match bits with
           | [] => Ok st
           | b :: r => let! st := dmcUpdate f st b in replay r st
           end) buffer dmcFresh
      else
        let z := d_zeros state / Delay in
        let o := d_ones state / Delay in
        let clone := mkDmc z o (d_zeroT state) (d_oneT state) (p_init P) in
        let state := mkDmc z o (if bit then d_zeroT state else n) (if bit then n else d_oneT state) (d_pred state) in
        Ok (mkDMC n buffer (setNth states cur state ++ [clone]))
    else Ok (mkDMC next buffer (setNth states cur state))
  end.

Definition DMC (fuel : nat) : predictor :=
  mkPredictor dmc dmcFresh (dmcUpdate fuel)
    (fun st => let! s := get (m_states st) (m_current st) in p_prob P (d_pred s))
    (fun _ => Ok dmcFresh)
    (fun st bit => let! s := get (m_states st) (m_current st) in
                   Ok (mkDMC (if bit : bool then d_oneT s else d_zeroT s) (m_buffer st) (m_states st))).
End DMC.

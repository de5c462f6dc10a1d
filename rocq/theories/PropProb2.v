(** C52: the probability models of the library that the program does not use. *)
From Coq Require Import List NArith Arith Bool.
From Verif Require Import Base ModelUtils ModelBitCoder ModelProb ModelProb2 SpecProb SpecProb2 ProofProb2 ProofProb3.
Import ListNotations.
Open Scope N_scope.

(** Every single predictor stays codable, whatever bits are coded and whenever it is reset; [M] as the static assertions demand. *)
Theorem C52_predictors :
  (forall Min Delay Initial, 0 < Min -> Min <= Initial -> Initial + Min <= 4096 -> codable (UnbiasedPredictor Min Delay Initial)) /\
  (forall M, 2 <= M -> 4096 / M * M = 4096 -> codable (EvenIntervalPredictor M) /\ codable (BiasedOnePredictor M)) /\
  codable EvenIntervalPredictor2 /\ codable EvenIntervalPredictor3 /\ codable EvenIntervalPredictor5 /\ codable AggressiveOnePredictor.
Proof. exact predictors_codable. Qed.
Print Assumptions C52_predictors.
(** With 8 probabilities: after five ones the highest; the biased predictor goes on with halved steps. *)
Example C52_predictors_case : 4096 / 8 * 8 = 4096 /\
  predict (EvenIntervalPredictor 8) (map Coded [true; true; true; true; true; false]) = Ok 3072 /\
  predict (BiasedOnePredictor 8) (map Coded [true; true; true; true; true]) = Ok 3968 /\
  predict (BiasedOnePredictor 8) (map Coded (repeat true 40)) = Ok 4095 /\
  predict AggressiveOnePredictor (map Coded (repeat true 40)) = Ok 4095 /\
  predict AggressiveOnePredictor (map Coded [true; true; false; false; false; false]) = Ok 1024 /\
  predict EvenIntervalPredictor5 (map Coded [false; false; false]) = Ok 683.
Proof. vm_compute. repeat split. Qed.

(** EvenIntervalPredictor counts. *)
Theorem C52_even : forall M, 2 <= M -> 4096 / M * M = 4096 -> forall bits, predict (EvenIntervalPredictor M) (map Coded bits) = Ok (4096 / M * counter M bits).
Proof. exact even_counter. Qed.
Print Assumptions C52_even.
Example C52_even_case : counter 8 [true; true; true; true; true; false] = 6 /\ counter 8 [true; false; false; false; false; false; true] = 2.
Proof. vm_compute. split; reflexivity. Qed.

(** Whatever codable model the encoder and the decoder are given, the bits are restored. *)
Theorem C52_round_trip : forall P, codable P -> forall bits c rest, c < 2 ^ 64 ->
  exists fin bytes,
    encodeBits (given P) [] (mkEnc 0 4294967295 c) bits = Ok (fin, bytes) /\
    let (after, tail) := encFinish fin in
    let all := bytes ++ tail in
    Forall (fun b => b < 256) all /\
    let (d, s) := decStart (bytes_bits all ++ rest) in
    decodeBits (given P) [] (length bits) d s = Ok (bits, rest).
Proof. exact given_round_trip. Qed.
Print Assumptions C52_round_trip.
(** With the biased predictor 40 ones take no byte but the four written at the end. *)
Example C52_round_trip_case :
  match encodeBits (given (BiasedOnePredictor 8)) [] (mkEnc 0 4294967295 0) (repeat true 40) with
  | Ok (fin, bytes) => let (after, tail) := encFinish fin in (length bytes, length tail)
  | _ => (0, 0)%nat
  end = (0, 4)%nat.
Proof. vm_compute. reflexivity. Qed.

(** FrequencePredictor can be used exactly as long as the number of bits coded and twice its constant do not exceed 4096; then it predicts 0. *)
Theorem C52_frequence : forall A bits, 0 < A < 65536 -> N.of_nat (length bits) < 2 ^ 63 ->
  exists p, predict (FrequencePredictor A) (map Coded bits) = Ok p /\ p < 4096 /\ (0 < p <-> N.of_nat (length bits) + 2 * A <= 4096).
Proof. exact frequence_exactly. Qed.
Print Assumptions C52_frequence.
Example C52_frequence_case : predict (FrequencePredictor 1) (map Coded [true; false; true]) = Ok 2457 /\
  predict (FrequencePredictor 2040) (map Coded (repeat true 16)) = Ok 2056 /\ predict (FrequencePredictor 2040) (map Coded (repeat true 17)) = Ok 0.
Proof. vm_compute. repeat split. Qed.
Theorem C52_frequence_refuted : ~ codable (FrequencePredictor 2040).
Proof. exact frequence_refuted. Qed.
Print Assumptions C52_frequence_refuted.

(** Automata and tables of codable models are codable: none indexes outside its table, whatever the number of states; 2^[H] must be an int. *)
Theorem C52_composed : forall P, codable P ->
  codable (InversePredictor P) /\ (forall n, (1 <= n)%nat -> codable (FSMany n P)) /\ (forall H, H <= 30 -> codable (LimitedHistoryModel P H)).
Proof. exact composed_codable. Qed.
Print Assumptions C52_composed.
Theorem C52_automata : forall Z4 Z3 Z2 Z1 D, codable Z4 -> codable Z3 -> codable Z2 -> codable Z1 -> codable D ->
  codable (FSM6 Z3 Z2 Z1) /\ codable (FSM8 Z4 Z3 Z2 Z1) /\ codable (FSM9 Z4 Z3 Z2 Z1 D).
Proof. exact automata_codable. Qed.
Print Assumptions C52_automata.
Example C52_automata_case :
  predict (FSMany 9 EvenIntervalPredictor2) (map Coded [true; true; true; true; false; false]) = Ok 3072 /\
  predict (FSM9 EvenIntervalPredictor2 EvenIntervalPredictor3 EvenIntervalPredictor5 (EvenIntervalPredictor 8) AggressiveOnePredictor)
    (map Coded [true; true; true; true; false; false]) = Ok 2730 /\
  predict (LimitedHistoryModel EvenIntervalPredictor2 3) (map Coded [false; true; false; true; false; true]) = Ok 1024.
Proof. vm_compute. repeat split. Qed.

(** A reset makes these predictors as new. *)
Theorem C52_reset : forall P, In P [EvenIntervalPredictor2; EvenIntervalPredictor3; EvenIntervalPredictor5] \/ (exists M, 2 <= M /\ 4096 / M * M = 4096 /\ (P = EvenIntervalPredictor M \/ P = BiasedOnePredictor M)) ->
  forall before after, predict P (before ++ NewContext :: after) = predict P after.
Proof. exact resets_fresh. Qed.
Print Assumptions C52_reset.
Example C52_reset_case : predict (BiasedOnePredictor 8) ([Coded true; Coded true; Coded true] ++ NewContext :: [Coded false]) = Ok 1536.
Proof. vm_compute. reflexivity. Qed.
(** These keep their step, their state or everything. *)
Theorem C52_reset_refuted :
  (exists before after, predict AggressiveOnePredictor (before ++ NewContext :: after) <> predict AggressiveOnePredictor after) /\
  (let P := EvenIntervalPredictor2 in exists before after, predict (FSM6 P P P) (before ++ NewContext :: after) <> predict (FSM6 P P P) after) /\
  (let P := EvenIntervalPredictor2 in exists before after, predict (FSM9 P P P P P) (before ++ NewContext :: after) <> predict (FSM9 P P P P P) after) /\
  (exists before after, predict (LimitedHistoryModel EvenIntervalPredictor2 3) (before ++ NewContext :: after) <> predict (LimitedHistoryModel EvenIntervalPredictor2 3) after).
Proof. exact reset_refuted. Qed.
Print Assumptions C52_reset_refuted.

(** DMC never indexes outside its states and predicts codable probabilities, unless its recursion does not end. *)
Theorem C52_dmc : forall SplitLimit MaxStates Delay BufferSize P fuel h, codable P -> (1 <= MaxStates)%nat -> (1 <= BufferSize)%nat ->
  predict (DMC SplitLimit MaxStates Delay BufferSize P fuel) h = Fuel \/
  exists p, predict (DMC SplitLimit MaxStates Delay BufferSize P fuel) h = Ok p /\ 0 < p < 4096.
Proof. exact dmc_codable. Qed.
Print Assumptions C52_dmc.
(** 24 bits make a second state, without recursion. *)
Definition manyBits : list bool :=
  [false; false; false; true; true; false; false; true; false; true; true; false; true; false; true; false; true; false; true; false; true; true; false; false; true; true; true; true; true].
Example C52_dmc_case :
  match useAll (DMC 6 6 4 29 EvenIntervalPredictor2 1) (dmcFresh EvenIntervalPredictor2) (map Coded (firstn 24 manyBits)) with
  | Ok st => length (m_states _ st)
  | _ => 0%nat
  end = 2%nat /\ predict (DMC 6 6 4 29 EvenIntervalPredictor2 1) (map Coded (firstn 24 manyBits)) = Ok 1024.
Proof. vm_compute. repeat split. Qed.
(** When all states are used the model starts again with the last bits.  The static assertion of DMC.hpp 139 is to prevent these from
    using up the states again, but lines 85 and 88 copy counters: 29 bits do with SplitLimit 6, MaxStates 6, Delay 4 and BufferSize 29,
    and the recursion never ends. *)
Theorem C52_dmc_recursion_refuted : exists SplitLimit MaxStates Delay BufferSize bits,
  1 < Delay /\ N.of_nat BufferSize < SplitLimit * N.of_nat MaxStates - SplitLimit / Delay * N.of_nat MaxStates /\
  forall fuel, predict (DMC SplitLimit MaxStates Delay BufferSize EvenIntervalPredictor2 fuel) (map Coded bits) = Fuel.
Proof. exact dmc_endless. Qed.
Print Assumptions C52_dmc_recursion_refuted.

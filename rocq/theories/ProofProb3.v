(** C52: the statements. *)
From Coq Require Import List NArith ZArith Lia Arith Bool.
From Coq Require Import ZifyBool ZifyNat ZifyN.
From Verif Require Import Base Arrays ModelUtils ModelBitCoder ModelProb ModelProb2 SpecProb ProofBitCoder ProofProb SpecProb2 ProofProb2.
Import ListNotations.
Open Scope N_scope.

Lemma predictors_codable :
  (forall Min Delay Initial, 0 < Min -> Min <= Initial -> Initial + Min <= 4096 -> codable (UnbiasedPredictor Min Delay Initial)) /\
  (forall M, 2 <= M -> 4096 / M * M = 4096 -> codable (EvenIntervalPredictor M) /\ codable (BiasedOnePredictor M)) /\
  codable EvenIntervalPredictor2 /\ codable EvenIntervalPredictor3 /\ codable EvenIntervalPredictor5 /\ codable AggressiveOnePredictor.
Proof.
  split; [intros; eapply good_codable, good_unbiased; assumption|]. split; [intros M H1 H2; split; eapply good_codable; [apply good_even|apply good_biased]; assumption|].
  split; [exact (good_codable _ _ good_even2)|]. split; [exact (good_codable _ _ good_even3)|]. split; [exact (good_codable _ _ good_even5)|exact (good_codable _ _ good_aggressive)].
Qed.

Lemma frequence_refuted : ~ codable (FrequencePredictor 2040).
Proof.
  intros C. destruct (C (map Coded (repeat true 17))) as (p & E & B). assert (X : predict (FrequencePredictor 2040) (map Coded (repeat true 17)) = Ok 0) by (vm_compute; reflexivity).
  rewrite X in E. injection E as <-. lia.
Qed.

Lemma composed_codable : forall P, codable P ->
  codable (InversePredictor P) /\ (forall n, (1 <= n)%nat -> codable (FSMany n P)) /\ (forall H, H <= 30 -> codable (LimitedHistoryModel P H)).
Proof.
  intros P C. apply codable_good in C. split; [exact (good_codable _ _ (good_inverse _ _ C))|].
  split; [intros n Hn; exact (good_codable _ _ (good_fsmAny n P _ Hn C))|]. intros H _. exact (good_codable _ _ (good_limited P _ H C)).
Qed.

Lemma automata_codable : forall Z4 Z3 Z2 Z1 D, codable Z4 -> codable Z3 -> codable Z2 -> codable Z1 -> codable D ->
  codable (FSM6 Z3 Z2 Z1) /\ codable (FSM8 Z4 Z3 Z2 Z1) /\ codable (FSM9 Z4 Z3 Z2 Z1 D).
Proof.
  intros Z4 Z3 Z2 Z1 D C4 C3 C2 C1 C0. apply codable_good in C4, C3, C2, C1, C0.
  split; [exact (good_codable _ _ (good_fsm6 _ _ _ _ _ _ C3 C2 C1))|]. split; [exact (good_codable _ _ (good_fsm8 _ _ _ _ _ _ _ _ C4 C3 C2 C1))|exact (good_codable _ _ (good_fsm9 _ _ _ _ _ _ _ _ _ _ C4 C3 C2 C1 C0))].
Qed.

Lemma resets_fresh : forall P, In P [EvenIntervalPredictor2; EvenIntervalPredictor3; EvenIntervalPredictor5] \/ (exists M, 2 <= M /\ 4096 / M * M = 4096 /\ (P = EvenIntervalPredictor M \/ P = BiasedOnePredictor M)) ->
  forall before after, predict P (before ++ NewContext :: after) = predict P after.
Proof.
  destruct predictors_codable as (_ & CM & C2 & C3 & C5 & _).
  intros P [[<-|[<-|[<-|[]]]]|(M & H1 & H2 & [->| ->])]; apply good_resets_predict; try (intros s; reflexivity); try assumption; apply (CM M H1 H2).
Qed.

Lemma reset_refuted :
  (exists before after, predict AggressiveOnePredictor (before ++ NewContext :: after) <> predict AggressiveOnePredictor after) /\
  (let P := EvenIntervalPredictor2 in exists before after, predict (FSM6 P P P) (before ++ NewContext :: after) <> predict (FSM6 P P P) after) /\
  (let P := EvenIntervalPredictor2 in exists before after, predict (FSM9 P P P P P) (before ++ NewContext :: after) <> predict (FSM9 P P P P P) after) /\
  (exists before after, predict (LimitedHistoryModel EvenIntervalPredictor2 3) (before ++ NewContext :: after) <> predict (LimitedHistoryModel EvenIntervalPredictor2 3) after).
Proof.
  split; [exists [Coded true], [Coded true]; vm_compute; congruence|]. split.
  - intros P. exists [Coded false], []. vm_compute. congruence.
  - split; [intros P; exists [Coded true], []; vm_compute; congruence|]. exists [Coded false], [Coded true; Coded false; Coded true]. vm_compute. congruence.
Qed.

Lemma dmc_codable : forall SplitLimit MaxStates Delay BufferSize P fuel h, codable P -> (1 <= MaxStates)%nat -> (1 <= BufferSize)%nat ->
  predict (DMC SplitLimit MaxStates Delay BufferSize P fuel) h = Fuel \/
  exists p, predict (DMC SplitLimit MaxStates Delay BufferSize P fuel) h = Ok p /\ 0 < p < 4096.
Proof. intros S M D B P fuel h C HM HB. apply codable_good in C. exact (dmc_safe S M D B P _ C HM HB fuel h). Qed.

(** The first 28 bits lead to the state [before], the next one uses up the states. *)
Definition endless : list bool :=
  [false; false; false; true; true; false; false; true; false; true; true; false; true; false; true; false; true; false; true; false; true; true; false; false; true; true; true; true; true].
Notation D := (DMC 6 6 4 29 EvenIntervalPredictor2).
Definition before : dmc EvenIntervalPredictor2 :=
  Eval vm_compute in match useAll (D 1) (dmcFresh _) (map Coded (firstn 28 endless)) with Ok st => st | _ => dmcFresh _ end.
Fixpoint replayAll (f : nat) (bits : list bool) (st : dmc EvenIntervalPredictor2) : outcome (dmc EvenIntervalPredictor2) :=
  match bits with
  | [] => Ok st
  | b :: r => let! st := dmcUpdate 6 6 4 29 EvenIntervalPredictor2 f st b in replayAll f r st
  end.
Lemma replay_app : forall f a b st, replayAll f (a ++ b) st = let! st := replayAll f a st in replayAll f b st.
Proof. intros f. induction a as [|x a IH]; intros b st; [reflexivity|]. cbn [app replayAll]. destruct (dmcUpdate 6 6 4 29 EvenIntervalPredictor2 f st x); [|reflexivity..]. cbn [bind]. apply IH. Qed.
Lemma replay_use : forall f bits st, useAll (D f) st (map Coded bits) = replayAll f bits st.
Proof. intros f. induction bits as [|x bits IH]; intros st; [reflexivity|]. cbn [map useAll use1 replayAll]. change (p_update (D f) st x) with (dmcUpdate 6 6 4 29 EvenIntervalPredictor2 f st x).
  destruct (dmcUpdate 6 6 4 29 EvenIntervalPredictor2 f st x); [|reflexivity..]. cbn [bind]. apply IH. Qed.
Lemma replay_before : forall f, replayAll (S f) (firstn 28 endless) (dmcFresh _) = Ok before.
Proof. intros f. vm_compute. reflexivity. Qed.
Lemma last_step : forall f, dmcUpdate 6 6 4 29 EvenIntervalPredictor2 (S f) before true = replayAll f endless (dmcFresh _).
Proof. intros f. vm_compute. reflexivity. Qed.
Lemma last_fuel : forall f, dmcUpdate 6 6 4 29 EvenIntervalPredictor2 f before true = Fuel.
Proof.
  induction f as [|f IH]; [reflexivity|]. rewrite last_step. change endless with (firstn 28 endless ++ [true]). rewrite replay_app. destruct f as [|f]; [reflexivity|].
  rewrite replay_before. cbn [bind replayAll]. rewrite IH. reflexivity.
Qed.
Lemma dmc_endless : exists SplitLimit MaxStates Delay BufferSize bits,
  1 < Delay /\ N.of_nat BufferSize < SplitLimit * N.of_nat MaxStates - SplitLimit / Delay * N.of_nat MaxStates /\
  forall fuel, predict (DMC SplitLimit MaxStates Delay BufferSize EvenIntervalPredictor2 fuel) (map Coded bits) = Fuel.
Proof.
  exists 6, 6%nat, 4, 29%nat, endless. split; [reflexivity|]. split; [reflexivity|]. intros fuel. unfold predict, predictFrom. rewrite replay_use. change endless with (firstn 28 endless ++ [true]). rewrite replay_app.
  destruct fuel as [|f]; [reflexivity|]. change (p_init (D (S f))) with (dmcFresh EvenIntervalPredictor2). rewrite replay_before. cbn [bind replayAll]. rewrite last_fuel. reflexivity.
Qed.

Lemma even_counter : forall M, 2 <= M -> 4096 / M * M = 4096 -> forall bits, predict (EvenIntervalPredictor M) (map Coded bits) = Ok (4096 / M * counter M bits).
Proof.
  intros M H1 H2 bits. unfold predict, predictFrom, counter. set (I := 4096 / M) in *. assert (HI : 0 < I) by nia. assert (HM : M <= 4096) by nia.
  assert (K0 : 1 <= M / 2 <= M - 1). { pose proof (N.div_mod M 2 ltac:(lia)) as X. pose proof (N.mod_lt M 2 ltac:(lia)). lia. }
  assert (E0 : p_init (EvenIntervalPredictor M) = I * (M / 2)). { cbn [EvenIntervalPredictor p_init]. fold I. rewrite N.mod_small by nia. reflexivity. }
  rewrite E0. clear E0. revert K0. generalize (M / 2). induction bits as [|b bits IH]; intros k K; [reflexivity|].
  cbn [map useAll use1 fold_left].
  set (k' := if b then N.min (k + 1) (M - 1) else N.max (k - 1) 1).
  assert (K' : 1 <= k' <= M - 1) by (unfold k'; destruct b; lia).
  assert (E : p_update (EvenIntervalPredictor M) (I * k) b = Ok (I * k')).
  { cbn [EvenIntervalPredictor p_update]. fold I. unfold k', kProbabilityScale in *. destruct b.
    - rewrite N.mod_small by nia. destruct (N.ltb_spec (I * k + I) 4096) as [L|L]; f_equal; [rewrite N.min_l by nia; ring|rewrite N.min_r by nia]. nia.
    - destruct (N.ltb_spec I (I * k)) as [L|L]; f_equal; [rewrite N.max_l by nia; nia|rewrite N.max_r by nia; nia]. }
  rewrite E. cbn [bind]. apply IH. exact K'.
Qed.

Lemma given_round_trip : forall P, codable P -> forall bits c rest, c < 2 ^ 64 ->
  exists fin bytes,
    encodeBits (given P) [] (mkEnc 0 4294967295 c) bits = Ok (fin, bytes) /\
    let (after, tail) := encFinish fin in
    let all := bytes ++ tail in
    Forall (fun b => b < 256) all /\
    let (d, s) := decStart (bytes_bits all ++ rest) in
    decodeBits (given P) [] (length bits) d s = Ok (bits, rest).
Proof. intros P C. apply C14_all. intros h. unfold given. destruct (C (map Coded (rev h))) as (p & -> & B). lia. Qed.

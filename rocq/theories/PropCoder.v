(** Properties C14-C18: the binary range coder and the probability models. *)
From Coq Require Import List NArith ZArith Bool.
From Verif Require Import Base ModelUtils ModelBitCoder ModelProb SpecProb ProofBitCoder ProofProb.
Import ListNotations.
Open Scope N_scope.

(** ** C14.  [pr] chooses each probability from the bits coded so far. *)
Theorem C14_range_coder_round_trip : forall pr, (forall h, pr h <= 4096) ->
  forall bits c rest, c < 2 ^ 64 ->
  exists fin bytes,
    encodeBits pr [] (mkEnc 0 4294967295 c) bits = Ok (fin, bytes) /\
    let (after, tail) := encFinish fin in
    let all := bytes ++ tail in
    Forall (fun b => b < 256) all /\
    let (d, s) := decStart (bytes_bits all ++ rest) in
    decodeBits pr [] (length bits) d s = Ok (bits, rest).
Proof. exact C14_all. Qed.
Print Assumptions C14_range_coder_round_trip.

(** A concrete adaptive choice: mostly ones are expected after a one. *)
Definition pr_example (h : list bool) : N :=
  match h with true :: _ => 4000 | false :: _ => 30 | [] => 2048 end.
Example C14_hypothesis : forall h, pr_example h <= 4096.
Proof. intros [|[|] h]; vm_compute; congruence. Qed.
Example C14_example :
  match encodeBits pr_example [] encInit [true; true; false; true; false; false] with
  | Ok (fin, bytes) =>
    let (d, s) := decStart (bytes_bits (bytes ++ snd (encFinish fin)) ++ [false; true]) in
    decodeBits pr_example [] 6 d s = Ok ([true; true; false; true; false; false], [false; true]) /\
    length bytes = 2%nat
  | _ => False
  end.
Proof. vm_compute. auto. Qed.

(** ** C15 *)
Theorem C15_range_coder_counter : forall pr, (forall h, pr h <= 4096) -> forall bits c, c < 2 ^ 64 ->
  exists fin bytes,
    encodeBits pr [] (mkEnc 0 4294967295 c) bits = Ok (fin, bytes) /\
    (length bytes <= 4 * length bits)%nat /\
    let (after, tail) := encFinish fin in
    length tail = 4%nat /\
    e_counter after = (c + N.of_nat (length (bytes ++ tail))) mod 2 ^ 64 /\
    e_low after = 0 /\ e_high after = 2 ^ 32 - 1.
Proof. exact C15_all. Qed.
Print Assumptions C15_range_coder_counter.

(** Four bytes for a single bit do occur: an impossible bit is coded. *)
Example C15_example :
  match encode encInit true 0 with
  | Ok (st, bytes) => length bytes = 4%nat /\ e_counter st = 4
  | _ => False
  end.
Proof. vm_compute. auto. Qed.

(** ** C16 *)
Theorem C16_predictions_codable : forall h,
  (exists p, predict modelForIntegerCodes h = Ok p /\ 0 < p < 4096) /\
  (exists p, predict modelForGaps h = Ok p /\ 0 < p < 4096) /\
  (exists p, predict model_u h = Ok p /\ 0 < p < 4096) /\
  (exists p, predict model_b h = Ok p /\ 0 < p < 4096) /\
  (exists p, predict model_B h = Ok p /\ 0 < p < 4096).
Proof. exact C16_all. Qed.
Print Assumptions C16_predictions_codable.

Example C16_example :
  predict model_B [] = Ok 1996 /\
  predict model_B [Coded true; Coded true; NewContext; Coded false; Noted true] = Ok 1996 /\
  predict modelForGaps (repeat (Coded true) 300) = Ok 4063 /\
  predict model_b [Coded false; Coded false] = Ok 2048.
Proof. vm_compute. auto. Qed.

(** ** C17: the models 'm' and 'M' do run into undefined behaviour. *)
Theorem C17_negative_shift_refuted :
  (exists h, predict model_m h = UB) /\ (exists h, predict model_M h = UB).
Proof. split; exists [Coded false]; vm_compute; reflexivity. Qed.
Print Assumptions C17_negative_shift_refuted.

(** The index reaches the length 2^k - 1 of the table after k one bits. *)
Theorem C17_index_refuted :
  (exists h, match useAll model_m (p_init model_m) h with
             | Ok (index, _) => index = 2 ^ 8 - 1 /\ predict model_m h = UB
             | _ => False end) /\
  (exists h, match useAll model_M (p_init model_M) h with
             | Ok (index, _) => index = 2 ^ 16 - 1 /\ predict model_M h = UB
             | _ => False end).
Proof. split; [exists (repeat (Coded true) 8)|exists (repeat (Coded true) 16)]; vm_compute; auto. Qed.
Print Assumptions C17_index_refuted.

(** ** C18 *)
Theorem C18_reset_is_fresh : forall before after,
  predict modelForIntegerCodes (before ++ NewContext :: after) = predict modelForIntegerCodes after /\
  predict modelForGaps (before ++ NewContext :: after) = predict modelForGaps after /\
  predict model_u (before ++ NewContext :: after) = predict model_u after /\
  predict model_b (before ++ NewContext :: after) = predict model_b after.
Proof. exact C18_all. Qed.
Print Assumptions C18_reset_is_fresh.

Example C18_example :
  predict modelForGaps ([Coded true; Coded false] ++ NewContext :: [Coded true]) = Ok 2048 /\
  predict modelForGaps [Coded true; Coded false; Coded true] = Ok 2111.
Proof. vm_compute. auto. Qed.

(** The default model does not return to its fresh state. *)
Theorem C18_default_model_refuted : exists before after,
  predict model_B (before ++ NewContext :: after) <> predict model_B after.
Proof. exists [Coded false], []. vm_compute. congruence. Qed.
Print Assumptions C18_default_model_refuted.

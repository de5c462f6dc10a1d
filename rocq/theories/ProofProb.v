(** Probability models: lemmas. *)
From Coq Require Import List NArith ZArith Lia Arith Bool.
From Coq Require Import ZifyBool ZifyNat ZifyN.
From Verif Require Import Base ModelUtils ProofUtils1 ModelBitCoder ProofBitCoder ModelProb SpecProb.
Import ListNotations.
Open Scope N_scope.
Ltac Zify.zify_post_hook ::= Z.div_mod_to_equations.

(** [I] is preserved by every use and guarantees a codable prediction. *)
Definition good (P : predictor) (I : p_state P -> Prop) : Prop :=
  I (p_init P) /\
  (forall s, I s -> exists p, p_prob P s = Ok p /\ 0 < p < 4096) /\
  (forall s u, I s -> exists s', use1 P s u = Ok s' /\ I s').

Definition resets (P : predictor) (I : p_state P -> Prop) : Prop :=
  forall s, I s -> p_reset P s = Ok (p_init P).

Lemma step_bound : forall x d, (0 <= x -> 1 <= d -> 0 <= x / d <= x)%Z.
Proof.
  intros x d Hx Hd. split; [apply Z.div_pos; lia|].
  apply Z.div_le_upper_bound; nia.
Qed.

Lemma pow2_ge1 : forall d, (1 <= 2 ^ Z.of_N d)%Z.
Proof. intros d. pose proof (Z.pow_pos_nonneg 2 (Z.of_N d)). lia. Qed.

Lemma good_unbiased : forall Min Delay Initial, 0 < Min -> Min <= Initial -> Initial + Min <= 4096 ->
  good (UnbiasedPredictor Min Delay Initial) (fun p => Min <= p /\ p + Min <= 4096).
Proof.
  intros Min Delay Initial H0 H1 H2. repeat split; auto.
  - intros s [A B]. exists s. cbn. split; [reflexivity|lia].
  - intros s u [A B]. destruct u as [[|]|b|]; cbn [use1 UnbiasedPredictor p_update p_updateState p_reset].
    + eexists. split; [reflexivity|]. cbv beta zeta iota. unfold toProbability.
      rewrite Z.shiftr_div_pow2 by lia.
      match goal with |- context [(?a / ?b)%Z] =>
        assert (Q : (0 <= a / b <= a)%Z) by (apply step_bound; [lia|apply pow2_ge1]);
        generalize dependent (a / b)%Z end.
      intros q Q. rewrite Z.mod_small by lia. split; lia.
    + eexists. split; [reflexivity|]. cbv beta zeta iota. unfold toProbability.
      rewrite Z.shiftr_div_pow2 by lia.
      match goal with |- context [(?a / ?b)%Z] =>
        assert (Q : (0 <= a / b <= a)%Z) by (apply step_bound; [lia|apply pow2_ge1]);
        generalize dependent (a / b)%Z end.
      intros q Q. rewrite Z.mod_small by lia. split; lia.
    + eauto.
    + eauto.
Qed.

Lemma resets_unbiased : forall Min Delay Initial I, resets (UnbiasedPredictor Min Delay Initial) I.
Proof. intros Min Delay Initial I s _. reflexivity. Qed.

Lemma good_even4 : good EvenIntervalPredictor4 (fun p => p = 1024 \/ p = 2048 \/ p = 3072).
Proof.
  repeat split.
  - cbn. auto.
  - intros s H. exists s. cbn. split; [reflexivity|]. lia.
  - intros s u H. destruct u as [[|]|b|]; cbn [use1 EvenIntervalPredictor4 p_update p_updateState p_reset].
    + eexists. split; [reflexivity|]. destruct H as [-> | [-> | ->]]; vm_compute; auto.
    + eexists. split; [reflexivity|]. destruct H as [-> | [-> | ->]]; vm_compute; auto.
    + eauto.
    + eexists. split; [reflexivity|]. cbn. auto.
Qed.

Lemma resets_even4 : forall I, resets EvenIntervalPredictor4 I.
Proof. intros I s _. reflexivity. Qed.

Lemma good_inverse : forall P I, good P I -> good (InversePredictor P) I.
Proof.
  intros P I [G1 [G2 G3]]. repeat split.
  - exact G1.
  - intros s H. destruct (G2 s H) as [p [E B]].
    cbn [InversePredictor p_prob]. rewrite E. cbn [bind].
    eexists. split; [reflexivity|]. unfold toProbability. rewrite Z.mod_small by lia. lia.
  - intros s u H. destruct u as [b|b|]; cbn.
    + destruct (G3 s (Coded (negb b)) H) as [s' [E B]]. cbn in E. eauto.
    + eauto.
    + destruct (G3 s NewContext H) as [s' [E B]]. cbn in E. eauto.
Qed.

Lemma setNth_length : forall {A} (l : list A) i x, length (setNth l i x) = length l.
Proof. induction l as [|h t IH]; intros [|i] x; simpl; auto. Qed.

Lemma setNth_Forall : forall {A} (Q : A -> Prop) l i x, Forall Q l -> Q x -> Forall Q (setNth l i x).
Proof.
  induction l as [|h t IH]; intros [|i] x H Hx; simpl; auto; inversion H; subst; constructor; auto.
Qed.

Lemma nextState_lt : forall n cur b, (2 <= n)%nat -> (cur < n)%nat -> (nextState n cur b < n)%nat.
Proof.
  intros n cur b Hn Hc. unfold nextState.
  assert (G : (nextStateGeneric n cur b < n)%nat).
  { unfold nextStateGeneric. assert (2 * (n / 2) <= n)%nat by (apply Nat.mul_div_le; lia).
    assert (2 * ((n - 1) / 2) <= n - 1)%nat by (apply Nat.mul_div_le; lia).
    destruct b.
    - destruct (Nat.leb_spec (n / 2) cur); lia.
    - destruct (Nat.ltb_spec cur (n / 2)); lia. }
  destruct n as [|[|[|[|n]]]]; try exact G.
  unfold nextState3. destruct b; destruct cur as [|[|[|cur]]]; simpl; lia.
Qed.

Lemma good_fsm : forall n P I, (2 <= n)%nat -> good P I ->
  good (FSM n P) (fun st => (fst st < n)%nat /\ length (snd st) = n /\ Forall I (snd st)).
Proof.
  intros n P I Hn [G1 [G2 G3]].
  assert (H2 : (n / 2 < n)%nat) by (apply Nat.div_lt; lia).
  split; [|split].
  - cbn. split; [exact H2|]. split; [apply repeat_length|].
    apply Forall_forall. intros x Hx. apply repeat_spec in Hx. subst. exact G1.
  - intros [cur l] [A [B C]]. cbn in *.
    destruct (nth_error l cur) as [s|] eqn:E.
    + apply G2. rewrite Forall_forall in C. apply C. eapply nth_error_In; eauto.
    + apply nth_error_None in E. lia.
  - intros [cur l] u [A [B C]]. cbn in A, B, C.
    destruct u as [b|b|]; cbn [use1 FSM p_update p_updateState p_reset fst snd].
    + destruct (nth_error l cur) as [s|] eqn:E; [|apply nth_error_None in E; lia].
      assert (Is : I s) by (rewrite Forall_forall in C; apply C; eapply nth_error_In; eauto).
      destruct (G3 s (Coded b) Is) as [s' [E' I']]. cbn in E'. rewrite E'. cbn [bind].
      eexists. split; [reflexivity|]. cbn [fst snd].
      split; [apply nextState_lt; lia|]. rewrite setNth_length. split; auto.
      apply setNth_Forall; auto.
    + eexists. split; [reflexivity|]. cbn [fst snd]. split; [apply nextState_lt; lia|]. auto.
    + assert (R : exists l', resetAll P l = Ok l' /\ length l' = length l /\ Forall I l').
      { clear - C G3. induction C as [|s l Hs Hl IH].
        - exists []. auto.
        - destruct (G3 s NewContext Hs) as [s' [E' I']]. cbn in E'.
          destruct IH as [l' [A [B C]]]. cbn [resetAll]. rewrite E', A. cbn [bind].
          eexists. split; [reflexivity|]. cbn [length]. split; auto. }
      destruct R as [l' [R1 [R2 R3]]]. rewrite R1. cbn [bind].
      eexists. split; [reflexivity|]. cbn [fst snd]. repeat split; auto; lia.
Qed.

Lemma resets_fsm : forall n P I, resets P I ->
  resets (FSM n P) (fun st => (fst st < n)%nat /\ length (snd st) = n /\ Forall I (snd st)).
Proof.
  intros n P I R [cur l] [A [B C]]. cbn in A, B, C. cbn [FSM p_reset snd p_init].
  assert (E : resetAll P l = Ok (repeat (p_init P) (length l))).
  { clear A B. induction C as [|s l Hs Hl IH]; auto.
    cbn [resetAll]. rewrite (R s Hs). cbn [bind]. rewrite IH. reflexivity. }
  rewrite E. cbn [bind]. rewrite B. reflexivity.
Qed.

Lemma good_fsm8 : forall Z4 Z3 Z2 Z1 I4 I3 I2 I1,
  good Z4 I4 -> good Z3 I3 -> good Z2 I2 -> good Z1 I1 ->
  good (FSM8 Z4 Z3 Z2 Z1) (fun '(mkFsm8 _ _ _ _ c a4 a3 a2 a1 b1 b2 b3 b4) =>
    (c < 8)%nat /\ I4 a4 /\ I3 a3 /\ I2 a2 /\ I1 a1 /\ I1 b1 /\ I2 b2 /\ I3 b3 /\ I4 b4).
Proof.
  intros Z4 Z3 Z2 Z1 I4 I3 I2 I1 G4 G3 G2 G1.
  pose proof (good_inverse _ _ G4) as J4. pose proof (good_inverse _ _ G3) as J3.
  pose proof (good_inverse _ _ G2) as J2. pose proof (good_inverse _ _ G1) as J1.
  split; [|split].
  - cbn. destruct G4 as [? _], G3 as [? _], G2 as [? _], G1 as [? _]. repeat split; auto; lia.
  - intros [c a4 a3 a2 a1 b1 b2 b3 b4] (Hc & A4 & A3 & A2 & A1 & B1 & B2 & B3 & B4).
    destruct c as [|[|[|[|[|[|[|[|c]]]]]]]]; [| | | | | | | |exfalso; lia];
      [apply (proj1 (proj2 G4))|apply (proj1 (proj2 G3))|apply (proj1 (proj2 G2))|apply (proj1 (proj2 G1))
      |apply (proj1 (proj2 J1))|apply (proj1 (proj2 J2))|apply (proj1 (proj2 J3))|apply (proj1 (proj2 J4))];
      assumption.
  - intros [c a4 a3 a2 a1 b1 b2 b3 b4] u (Hc & A4 & A3 & A2 & A1 & B1 & B2 & B3 & B4).
    destruct u as [b|b|].
    + assert (Hn : (nextState 8 c b < 8)%nat) by (apply nextState_lt; lia).
      cbn [use1 FSM8 p_update].
      destruct c as [|[|[|[|[|[|[|[|c]]]]]]]]; [| | | | | | | |exfalso; lia].
      * destruct (proj2 (proj2 G4) a4 (Coded b) A4) as [x [E Ix]]. cbn [use1] in E. rewrite E. cbn [bind].
        eexists; split; [reflexivity|]. repeat split; auto.
      * destruct (proj2 (proj2 G3) a3 (Coded b) A3) as [x [E Ix]]. cbn [use1] in E. rewrite E. cbn [bind].
        eexists; split; [reflexivity|]. repeat split; auto.
      * destruct (proj2 (proj2 G2) a2 (Coded b) A2) as [x [E Ix]]. cbn [use1] in E. rewrite E. cbn [bind].
        eexists; split; [reflexivity|]. repeat split; auto.
      * destruct (proj2 (proj2 G1) a1 (Coded b) A1) as [x [E Ix]]. cbn [use1] in E. rewrite E. cbn [bind].
        eexists; split; [reflexivity|]. repeat split; auto.
      * destruct (proj2 (proj2 J1) b1 (Coded b) B1) as [x [E Ix]]. cbn [use1] in E. rewrite E. cbn [bind].
        eexists; split; [reflexivity|]. repeat split; auto.
      * destruct (proj2 (proj2 J2) b2 (Coded b) B2) as [x [E Ix]]. cbn [use1] in E. rewrite E. cbn [bind].
        eexists; split; [reflexivity|]. repeat split; auto.
      * destruct (proj2 (proj2 J3) b3 (Coded b) B3) as [x [E Ix]]. cbn [use1] in E. rewrite E. cbn [bind].
        eexists; split; [reflexivity|]. repeat split; auto.
      * destruct (proj2 (proj2 J4) b4 (Coded b) B4) as [x [E Ix]]. cbn [use1] in E. rewrite E. cbn [bind].
        eexists; split; [reflexivity|]. repeat split; auto.
    + assert (Hn : (nextState 8 c b < 8)%nat) by (apply nextState_lt; lia).
      cbn [use1 FSM8 p_updateState]. eexists; split; [reflexivity|]. repeat split; auto.
    + cbn [use1 FSM8 p_reset].
      destruct (proj2 (proj2 G4) a4 NewContext A4) as [x4 [E4 X4]].
      destruct (proj2 (proj2 G3) a3 NewContext A3) as [x3 [E3 X3]].
      destruct (proj2 (proj2 G2) a2 NewContext A2) as [x2 [E2 X2]].
      destruct (proj2 (proj2 G1) a1 NewContext A1) as [x1 [E1 X1]].
      destruct (proj2 (proj2 J1) b1 NewContext B1) as [y1 [F1 Y1]].
      destruct (proj2 (proj2 J2) b2 NewContext B2) as [y2 [F2 Y2]].
      destruct (proj2 (proj2 J3) b3 NewContext B3) as [y3 [F3 Y3]].
      destruct (proj2 (proj2 J4) b4 NewContext B4) as [y4 [F4 Y4]].
      cbn [use1] in *. rewrite E4; cbn [bind]. rewrite E3; cbn [bind]. rewrite E2; cbn [bind].
      rewrite E1; cbn [bind]. rewrite F1; cbn [bind]. rewrite F2; cbn [bind]. rewrite F3; cbn [bind].
      rewrite F4; cbn [bind]. eexists; split; [reflexivity|]. repeat split; auto.
Qed.

Lemma good_useAll : forall P I, good P I -> forall h s, I s -> exists s', useAll P s h = Ok s' /\ I s'.
Proof.
  intros P I [G1 [G2 G3]]. induction h as [|u h IH]; intros s Hs; cbn [useAll].
  - eauto.
  - destruct (G3 s u Hs) as [s1 [E H1]]. rewrite E. cbn [bind]. apply IH. exact H1.
Qed.

Lemma good_predict : forall P I, good P I ->
  forall h, exists p, predict P h = Ok p /\ 0 < p < 4096.
Proof.
  intros P I G h. unfold predict, predictFrom.
  destruct (good_useAll P I G h _ (proj1 G)) as [s [E H]]. rewrite E. cbn [bind].
  apply (proj1 (proj2 G)). exact H.
Qed.

Lemma useAll_app : forall P h1 h2 s,
  useAll P s (h1 ++ h2) = let! s' := useAll P s h1 in useAll P s' h2.
Proof.
  induction h1 as [|u h1 IH]; intros h2 s; cbn [useAll app bind]; auto.
  destruct (use1 P s u) as [s1| |]; cbn [bind]; auto.
Qed.

Lemma resets_predict : forall P I, good P I -> resets P I ->
  forall before after, predict P (before ++ NewContext :: after) = predict P after.
Proof.
  intros P I G R before after. unfold predict, predictFrom. rewrite useAll_app.
  destruct (good_useAll P I G before _ (proj1 G)) as [s [E H]]. rewrite E. cbn [bind useAll use1].
  rewrite (R s H). reflexivity.
Qed.

Definition inv_intcodes : p_state modelForIntegerCodes -> Prop :=
  fun st => (fst st < 3)%nat /\ length (snd st) = 3%nat /\ Forall (fun p => 100 <= p /\ p + 100 <= 4096) (snd st).
Definition inv_gaps : p_state modelForGaps -> Prop :=
  fun st => (fst st < 4)%nat /\ length (snd st) = 4%nat /\ Forall (fun p => 2 <= p /\ p + 2 <= 4096) (snd st).

Lemma good_intcodes : good modelForIntegerCodes inv_intcodes.
Proof. apply (good_fsm 3 (UnbiasedPredictor 100 5 2048)); [lia|]. apply good_unbiased; lia. Qed.
Lemma good_gaps : good modelForGaps inv_gaps.
Proof. apply (good_fsm 4 (UnbiasedPredictor 2 5 2048)); [lia|]. apply good_unbiased; lia. Qed.
Lemma good_u : good model_u (fun p => p = 1024 \/ p = 2048 \/ p = 3072).
Proof. exact good_even4. Qed.
Definition inv_b : p_state model_b -> Prop :=
  fun st => (fst st < 6)%nat /\ length (snd st) = 6%nat /\ Forall (fun p => p = 1024 \/ p = 2048 \/ p = 3072) (snd st).
Lemma good_b : good model_b inv_b.
Proof. apply (good_fsm 6 EvenIntervalPredictor4); [lia|]. apply good_even4. Qed.
Lemma good_B : exists I, good model_B I.
Proof. eexists. apply good_fsm8; apply good_unbiased; lia. Qed.

Lemma C16_all : forall h,
  (exists p, predict modelForIntegerCodes h = Ok p /\ 0 < p < 4096) /\
  (exists p, predict modelForGaps h = Ok p /\ 0 < p < 4096) /\
  (exists p, predict model_u h = Ok p /\ 0 < p < 4096) /\
  (exists p, predict model_b h = Ok p /\ 0 < p < 4096) /\
  (exists p, predict model_B h = Ok p /\ 0 < p < 4096).
Proof.
  intros h. destruct good_B as [I GB].
  repeat split; eapply good_predict;
    [apply good_intcodes|apply good_gaps|apply good_u|apply good_b|exact GB].
Qed.

Lemma C18_all : forall before after,
  predict modelForIntegerCodes (before ++ NewContext :: after) = predict modelForIntegerCodes after /\
  predict modelForGaps (before ++ NewContext :: after) = predict modelForGaps after /\
  predict model_u (before ++ NewContext :: after) = predict model_u after /\
  predict model_b (before ++ NewContext :: after) = predict model_b after.
Proof.
  intros. repeat split; (eapply resets_predict;
    [first [apply good_intcodes|apply good_gaps|apply good_u|apply good_b]|]).
  - apply (resets_fsm 3 (UnbiasedPredictor 100 5 2048)), resets_unbiased.
  - apply (resets_fsm 4 (UnbiasedPredictor 2 5 2048)), resets_unbiased.
  - apply resets_even4.
  - apply (resets_fsm 6 EvenIntervalPredictor4), resets_even4.
Qed.

(** Adaptive probabilities. *)
Fixpoint annotate (pr : list bool -> N) (hist bits : list bool) : list (bool * N) :=
  match bits with
  | [] => []
  | b :: t => (b, pr hist) :: annotate pr (b :: hist) t
  end.

Lemma annotate_encode : forall pr bits hist st,
  encodeBits pr hist st bits = encodeTrace st (annotate pr hist bits).
Proof.
  induction bits as [|b t IH]; intros hist st; cbn [encodeBits annotate encodeTrace]; auto.
  destruct (encode st b (pr hist)) as [[st1 o1]| |]; cbn [bind]; auto. rewrite IH. reflexivity.
Qed.

Lemma annotate_codable : forall pr, (forall h, pr h <= 4096) -> forall bits hist,
  Forall codable (annotate pr hist bits).
Proof. intros pr H. induction bits; intros; constructor; auto. apply H. Qed.

Lemma annotate_length : forall pr bits hist, length (annotate pr hist bits) = length bits.
Proof. induction bits; intros; simpl; auto. Qed.

Lemma annotate_decode : forall pr rest bits hist D, dec_ready (annotate pr hist bits) rest D ->
  decodeBits pr hist (length bits) (fst D) (snd D) = Ok (bits, rest).
Proof.
  induction bits as [|b t IH]; intros hist D H; cbn [annotate length decodeBits] in *.
  - rewrite (dec_ready_nil _ _ H). reflexivity.
  - destruct (dec_ready_step _ _ _ _ _ H) as [D' [E R]]. rewrite E. cbn [bind].
    rewrite (IH _ _ R). reflexivity.
Qed.

Lemma C14_all : forall pr, (forall h, pr h <= 4096) -> forall bits c rest, c < 2 ^ 64 ->
  exists fin bytes,
    encodeBits pr [] (mkEnc 0 4294967295 c) bits = Ok (fin, bytes) /\
    let (after, tail) := encFinish fin in
    let all := bytes ++ tail in
    Forall (fun b => b < 256) all /\
    let (d, s) := decStart (bytes_bits all ++ rest) in
    decodeBits pr [] (length bits) d s = Ok (bits, rest).
Proof.
  intros pr H bits c rest Hc.
  destruct (dec_ready_start c (annotate pr [] bits) rest Hc (annotate_codable pr H bits []))
    as (fin & bytes & E & O & B & L & C & R).
  exists fin, bytes. rewrite annotate_encode. split; [exact E|].
  pose proof (finish_val fin O) as [FA _].
  destruct (encFinish fin) as [after tail]. cbn [snd] in *. cbn zeta.
  split; [apply Forall_app; auto|].
  destruct (decStart (bytes_bits (bytes ++ tail) ++ rest)) as [d s] eqn:ED.
  exact (annotate_decode pr rest bits [] _ R).
Qed.

Lemma C15_all : forall pr, (forall h, pr h <= 4096) -> forall bits c, c < 2 ^ 64 ->
  exists fin bytes,
    encodeBits pr [] (mkEnc 0 4294967295 c) bits = Ok (fin, bytes) /\
    (length bytes <= 4 * length bits)%nat /\
    let (after, tail) := encFinish fin in
    length tail = 4%nat /\
    e_counter after = (c + N.of_nat (length (bytes ++ tail))) mod 2 ^ 64 /\
    e_low after = 0 /\ e_high after = 2 ^ 32 - 1.
Proof.
  intros pr H bits c Hc.
  destruct (dec_ready_start c (annotate pr [] bits) [] Hc (annotate_codable pr H bits []))
    as (fin & bytes & E & O & B & L & C & R).
  exists fin, bytes. rewrite annotate_encode. split; [exact E|].
  rewrite annotate_length in L. split; [exact L|].
  cbn [encFinish]. split; [reflexivity|]. cbn [e_counter e_low e_high].
  split; [|split; reflexivity].
  rewrite C, app_length, N.add_mod_idemp_l by (unfold two64; lia).
  cbn [length]. f_equal. lia.
Qed.

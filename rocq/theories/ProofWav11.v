(** Coding the bit vectors of the characters: the bits of one node. *)
From Coq Require Import List NArith Arith Bool Lia.
From Coq Require Import ZifyBool ZifyNat ZifyN.
From Verif Require Import Base Arrays ModelUtils ModelBitCoder ModelProb ModelWavelet.
From Verif Require Import ProofBitCoder ProofWav4 ProofWav8.
Import ListNotations.
Open Scope nat_scope.

(** The decoder reads back what the encoder coded with the same model. *)
Lemma decodeBit_spec : forall P st bit c st' trace rest D, encodeBit P st bit = Ok (c, st') -> dec_ready (c :: trace) rest D ->
  exists D', decodeBit P st D = Ok (bit, st', D') /\ dec_ready trace rest D'.
Proof.
  intros P st bit c st' trace rest D E HD. unfold encodeBit in E. apply bind_inv in E. destruct E as (p & E1 & E).
  apply bind_inv in E. destruct E as (st1 & E2 & E). injection E as <- <-.
  destruct (dec_ready_step _ _ _ _ _ HD) as ([d s] & E3 & R). exists (d, s). split; [|exact R].
  unfold decodeBit. rewrite E1. cbn [bind]. rewrite E3. cbn [bind fst snd]. rewrite E2. reflexivity.
Qed.

(** Flags of a node with the remainders [ss]: without a flag the element is known to be related to the one before it. *)
Inductive okg (R : list bool -> list bool -> Prop) : option (list bool) -> list (list bool) -> list bool -> Prop :=
| okg_nil : forall prev, okg R prev [] []
| okg_cons : forall prev s ss (g : bool) gs, (g = false -> exists s0, prev = Some s0 /\ R s0 s) ->
    okg R (Some s) ss gs -> okg R prev (s :: ss) (g :: gs).

Lemma okg_length : forall R prev ss gs, okg R prev ss gs -> length gs = length ss.
Proof. induction 1; cbn; auto. Qed.
Lemma okg_impl : forall (R R' : list bool -> list bool -> Prop), (forall a b, R a b -> R' a b) ->
  forall prev ss gs, okg R prev ss gs -> okg R' prev ss gs.
Proof.
  intros R R' H prev ss gs HK. induction HK as [|prev s ss g gs Hg HK IH]; constructor; auto.
  intros E. destruct (Hg E) as (s0 & E1 & E2). eauto.
Qed.

(** The flags of the children. *)
Fixpoint childGaps (bits gs : list bool) (prev : bool) : list bool * list bool :=
  match bits, gs with
  | bit :: r, g :: gs => addGap bit (xorb prev bit || g) (childGaps r gs bit)
  | _, _ => ([], [])
  end.
Definition side (b : bool) (gaps : list bool * list bool) : list bool := if b then snd gaps else fst gaps.

Definition lastIs (prev : option (list bool)) (pb : bool) : Prop := forall s0, prev = Some s0 -> exists t0, s0 = pb :: t0.

Lemma childGaps_ok : forall R ss gs prev pb prevs, okg R prev ss gs -> proper ss ->
  (forall s0, prev = Some s0 -> exists t0, s0 = pb :: t0 /\ prevs pb = Some t0) ->
  forall b, okg (fun x y => R (b :: x) (b :: y)) (prevs b) (tailsOf b ss) (side b (childGaps (heads ss) gs pb)).
Proof.
  intros R ss gs prev pb prevs H. revert pb prevs. induction H as [prev|prev s ss g gs Hg HK IH]; intros pb prevs HP HL b.
  - cbn. destruct b; constructor.
  - inversion_clear HP as [|? ? P1 P2]. destruct s as [|bit t]; [congruence|].
    change (heads ((bit :: t) :: ss)) with (bit :: heads ss).
    change (tailsOf b ((bit :: t) :: ss)) with ((if Bool.eqb b bit then [t] else []) ++ tailsOf b ss). cbn [childGaps].
    specialize (IH bit (fun x => if Bool.eqb x bit then Some t else prevs x) P2).
    assert (HL' : forall s0, Some (bit :: t) = Some s0 -> exists t0, s0 = bit :: t0 /\ (if Bool.eqb bit bit then Some t else prevs bit) = Some t0).
    { intros s0 E. injection E as <-. exists t. rewrite Bool.eqb_reflx. auto. }
    specialize (IH HL' b). cbv beta in IH.
    destruct (Bool.eqb b bit) eqn:EB.
    + apply Bool.eqb_prop in EB. subst bit. cbn [app].
      assert (ES : side b (addGap b (xorb pb b || g) (childGaps (heads ss) gs b)) = (xorb pb b || g)%bool :: side b (childGaps (heads ss) gs b)).
      { destruct b; reflexivity. }
      rewrite ES. constructor; [|exact IH].
      intros E. apply orb_false_elim in E. destruct E as [E1 E2]. apply Bool.xorb_eq in E1. subst pb.
      destruct (Hg E2) as (s0 & E3 & E4). destruct (HL _ E3) as (t0 & -> & E5). eauto.
    + cbn [app].
      assert (ES : side b (addGap bit (xorb pb bit || g) (childGaps (heads ss) gs bit)) = side b (childGaps (heads ss) gs bit)).
      { destruct b, bit; try discriminate; reflexivity. }
      rewrite ES. exact IH.
Qed.

(** The value the code takes for the bit before the first does not matter. *)
Lemma childGaps_first : forall R ss gs pb pb', okg R None ss gs -> proper ss -> childGaps (heads ss) gs pb = childGaps (heads ss) gs pb'.
Proof.
  intros R ss gs pb pb' H HP. inversion H as [|? s ss' g gs' Hg HK]; subst; [reflexivity|].
  assert (g = true) by (destruct g; [reflexivity|]; destruct (Hg eq_refl) as (s0 & E & _); discriminate). subst g.
  inversion_clear HP as [|? ? P1 P2]. destruct s as [|bit t]; [congruence|]. cbn. rewrite !orb_true_r. reflexivity.
Qed.

Section Node.
Variables PM AM : predictor.

Lemma encodeFlagged_sim : forall g bit pm am c pm' am' trace rest D, encodeFlagged PM AM g bit pm am = Ok (c, pm', am') ->
  dec_ready (c :: trace) rest D ->
  exists D', decodeFlagged PM AM g pm am D = Ok (bit, pm', am', D') /\ dec_ready trace rest D'.
Proof.
  intros g bit pm am c pm' am' trace rest D E HD. unfold encodeFlagged, decodeFlagged in *. destruct g.
  - apply bind_inv in E. destruct E as ([c1 am1] & E1 & E). apply bind_inv in E. destruct E as (pm1 & E2 & E). injection E as -> -> ->.
    destruct (decodeBit_spec _ _ _ _ _ _ _ _ E1 HD) as (D' & -> & R). cbn [bind]. rewrite E2. cbn [bind]. eauto.
  - apply bind_inv in E. destruct E as ([c1 pm1] & E1 & E). injection E as -> -> ->.
    destruct (decodeBit_spec _ _ _ _ _ _ _ _ E1 HD) as (D' & -> & R). cbn [bind]. eauto.
Qed.

Lemma leaves_sim : forall (R : list bool -> list bool -> Prop), (forall b x y, R (b :: x) (b :: y) -> False) ->
  forall ss gs prev pb am cs am' trace rest D, okg R prev ss gs -> proper ss -> lastIs prev pb ->
  encodeLeaves AM (heads ss) gs am = Ok (cs, am') -> dec_ready (cs ++ trace) rest D ->
  exists D', decodeLeaves AM gs pb am D = Ok (heads ss, am', D') /\ dec_ready trace rest D'.
Proof.
  intros R HR ss gs prev pb am cs am' trace rest D H. revert pb am cs am' D.
  induction H as [prev|prev s ss g gs Hg HK IH]; intros pb am cs am' D HP HL E HD.
  - cbn in E. injection E as <- <-. cbn. eauto.
  - inversion_clear HP as [|? ? P1 P2]. destruct s as [|bit t]; [congruence|].
    change (heads ((bit :: t) :: ss)) with (bit :: heads ss) in *. cbn [encodeLeaves decodeLeaves] in *.
    assert (HL' : lastIs (Some (bit :: t)) bit) by (intros s0 E0; injection E0 as <-; eauto).
    destruct g.
    + apply bind_inv in E. destruct E as ([c am1] & E1 & E). apply bind_inv in E. destruct E as ([cs1 am2] & E2 & E). injection E as <- <-.
      cbn [app] in HD. destruct (decodeBit_spec _ _ _ _ _ _ _ _ E1 HD) as (D1 & -> & R1). cbn [bind].
      destruct (IH bit am1 cs1 am2 D1 P2 HL' E2 R1) as (D' & -> & R2). cbn [bind]. eauto.
    + assert (EB : negb pb = bit).
      { destruct (Hg eq_refl) as (s0 & -> & R0). destruct (HL _ eq_refl) as (t0 & ->).
        destruct pb, bit; try reflexivity; exfalso; eapply HR; exact R0. }
      rewrite EB. cbn [bind].
      destruct (IH bit am cs am' D P2 HL' E HD) as (D' & -> & R2). cbn [bind]. eauto.
Qed.

Lemma leftLeaf_sim : forall (R : list bool -> list bool -> Prop), (forall x y, R (false :: x) (false :: y) -> False) ->
  forall ss gs prev pb pm am cs rg pm' am' trace rest (D : source), okg R prev ss gs -> proper ss -> lastIs prev pb ->
  encodeLeftLeaf PM AM (heads ss) gs pb pm am = Ok (cs, rg, pm', am') -> dec_ready (cs ++ trace) rest D ->
  rg = snd (childGaps (heads ss) gs pb) /\
  exists D', decodeLeftLeaf PM AM gs pb pm am D = Ok (heads ss, rg, pm', am', D') /\ dec_ready trace rest D'.
Proof.
  intros R HR ss gs prev pb pm am cs rg pm' am' trace rest D H. revert pb pm am cs rg pm' am' D.
  induction H as [prev|prev s ss g gs Hg HK IH]; intros pb pm am cs rg pm' am' D HP HL E HD.
  - cbn in E. injection E as <- <- <- <-. cbn. eauto.
  - inversion_clear HP as [|? ? P1 P2]. destruct s as [|bit t]; [congruence|].
    change (heads ((bit :: t) :: ss)) with (bit :: heads ss) in *. cbn [encodeLeftLeaf decodeLeftLeaf childGaps] in *.
    assert (HL' : lastIs (Some (bit :: t)) bit) by (intros s0 E0; injection E0 as <-; eauto).
    apply bind_inv in E. destruct E as ([[c pm1] am1] & E1 & E). apply bind_inv in E. destruct E as ([[[cs1 rg1] pm2] am2] & E2 & E). injection E as <- <- <- <-.
    rewrite <- app_assoc in HD.
    assert (S : exists D1 : source, (if (negb g && negb pb)%bool then Ok (true, pm, am, D) else decodeFlagged PM AM g pm am D) = Ok (bit, pm1, am1, D1) /\
      dec_ready (cs1 ++ trace) rest D1).
    { replace (negb g && negb pb)%bool with (negb (pb || g)) by (destruct g, pb; reflexivity).
      destruct (pb || g)%bool eqn:EP; cbn [negb].
      - apply bind_inv in E1. destruct E1 as ([[c1 pm3] am3] & E3 & E1). injection E1 as <- <- <-. cbn [app] in HD.
        eapply encodeFlagged_sim; eassumption.
      - injection E1 as <- <- <-. apply orb_false_elim in EP. destruct EP as [-> ->].
        destruct (Hg eq_refl) as (s0 & -> & R0). destruct (HL _ eq_refl) as (t0 & ->).
        destruct bit; [eauto|]. exfalso. eapply HR. exact R0. }
    destruct S as (D1 & -> & R1). cbn [bind].
    destruct (IH bit pm1 am1 cs1 rg1 pm2 am2 D1 P2 HL' E2 R1) as (-> & D' & -> & R2). cbn [bind].
    split; [destruct bit; reflexivity|]. eauto.
Qed.

Lemma inner_sim : forall bits gs pb pm am cs ch pm' am' trace rest D, length gs = length bits ->
  encodeInner PM AM bits gs pb pm am = Ok (cs, ch, pm', am') -> dec_ready (cs ++ trace) rest D ->
  ch = childGaps bits gs pb /\
  exists D', decodeInner PM AM gs pb pm am D = Ok (bits, ch, pm', am', D') /\ dec_ready trace rest D'.
Proof.
  induction bits as [|bit bits IH]; intros gs pb pm am cs ch pm' am' trace rest D HL E HD.
  - destruct gs; [|discriminate]. cbn in E. injection E as <- <- <- <-. cbn. eauto.
  - destruct gs as [|g gs]; [discriminate|]. cbn [encodeInner decodeInner childGaps] in *. injection HL as HL.
    apply bind_inv in E. destruct E as ([[c pm1] am1] & E1 & E). apply bind_inv in E. destruct E as ([[[cs1 ch1] pm2] am2] & E2 & E). injection E as <- <- <- <-.
    cbn [app] in HD. destruct (encodeFlagged_sim _ _ _ _ _ _ _ _ _ _ E1 HD) as (D1 & -> & R1). cbn [bind].
    destruct (IH gs bit pm1 am1 cs1 ch1 pm2 am2 trace rest D1 HL E2 R1) as (-> & D' & -> & R2). cbn [bind]. eauto.
Qed.

Lemma inner_gaps : forall bits gs pb pm am cs ch pm' am', length gs = length bits ->
  encodeInner PM AM bits gs pb pm am = Ok (cs, ch, pm', am') -> ch = childGaps bits gs pb.
Proof.
  induction bits as [|bit bits IH]; intros gs pb pm am cs ch pm' am' HL E.
  - destruct gs; [|discriminate]. cbn in E. injection E as <- <- <- <-. reflexivity.
  - destruct gs as [|g gs]; [discriminate|]. cbn [encodeInner childGaps] in *. injection HL as HL.
    apply bind_inv in E. destruct E as ([[c pm1] am1] & E1 & E). apply bind_inv in E. destruct E as ([[[cs1 ch1] pm2] am2] & E2 & E). injection E as <- <- <- <-.
    rewrite (IH gs bit pm1 am1 cs1 ch1 pm2 am2 HL E2). reflexivity.
Qed.
Lemma leftLeaf_gaps : forall bits gs pb pm am cs rg pm' am', length gs = length bits ->
  encodeLeftLeaf PM AM bits gs pb pm am = Ok (cs, rg, pm', am') -> rg = snd (childGaps bits gs pb).
Proof.
  induction bits as [|bit bits IH]; intros gs pb pm am cs ch pm' am' HL E.
  - destruct gs; [|discriminate]. cbn in E. injection E as <- <- <- <-. reflexivity.
  - destruct gs as [|g gs]; [discriminate|]. cbn [encodeLeftLeaf childGaps] in *. injection HL as HL.
    apply bind_inv in E. destruct E as ([[c pm1] am1] & E1 & E). apply bind_inv in E. destruct E as ([[[cs1 ch1] pm2] am2] & E2 & E). injection E as <- <- <- <-.
    rewrite (IH gs bit pm1 am1 cs1 ch1 pm2 am2 HL E2). destruct bit; reflexivity.
Qed.
Lemma root_gaps : forall bits pb pm cs ch pm', encodeRoot PM bits pb pm = Ok (cs, ch, pm') -> ch = childGaps bits (repeat false (length bits)) pb.
Proof.
  induction bits as [|bit bits IH]; intros pb pm cs ch pm' E.
  - cbn in E. injection E as <- <- <-. reflexivity.
  - cbn [encodeRoot childGaps length repeat] in *.
    apply bind_inv in E. destruct E as ([c pm1] & E1 & E). apply bind_inv in E. destruct E as ([[cs1 ch1] pm2] & E2 & E). injection E as <- <- <-.
    rewrite (IH bit pm1 cs1 ch1 pm2 E2), orb_false_r. reflexivity.
Qed.

Lemma root_sim : forall bits pb pm cs ch pm' trace rest D,
  encodeRoot PM bits pb pm = Ok (cs, ch, pm') -> dec_ready (cs ++ trace) rest D ->
  ch = childGaps bits (repeat false (length bits)) pb /\
  exists D', decodeRoot PM (length bits) pb pm D = Ok (bits, ch, pm', D') /\ dec_ready trace rest D'.
Proof.
  induction bits as [|bit bits IH]; intros pb pm cs ch pm' trace rest D E HD.
  - cbn in E. injection E as <- <- <-. cbn. eauto.
  - cbn [encodeRoot decodeRoot childGaps length repeat] in *.
    apply bind_inv in E. destruct E as ([c pm1] & E1 & E). apply bind_inv in E. destruct E as ([[cs1 ch1] pm2] & E2 & E). injection E as <- <- <-.
    cbn [app] in HD. destruct (decodeBit_spec _ _ _ _ _ _ _ _ E1 HD) as (D1 & -> & R1). cbn [bind].
    destruct (IH bit pm1 cs1 ch1 pm2 trace rest D1 E2 R1) as (-> & D' & -> & R2). cbn [bind]. rewrite orb_false_r. eauto.
Qed.
End Node.

(** The bits before the first one are different in the encoder and the decoder. *)
Section First.
Variables PM AM : predictor.
Lemma encodeInner_first : forall R ss gs pb pb' pm am, okg R None ss gs -> proper ss ->
  encodeInner PM AM (heads ss) gs pb pm am = encodeInner PM AM (heads ss) gs pb' pm am.
Proof.
  intros R ss gs pb pb' pm am H HP. inversion H as [|? s ss' g gs' Hg HK]; subst; [reflexivity|].
  assert (g = true) by (destruct g; [reflexivity|]; destruct (Hg eq_refl) as (s0 & E & _); discriminate). subst g.
  inversion_clear HP as [|? ? P1 P2]. destruct s as [|bit t]; [congruence|].
  change (heads ((bit :: t) :: ss')) with (bit :: heads ss'). cbn [encodeInner]. rewrite !orb_true_r. reflexivity.
Qed.
Lemma encodeLeftLeaf_first : forall R ss gs pb pb' pm am, okg R None ss gs -> proper ss ->
  encodeLeftLeaf PM AM (heads ss) gs pb pm am = encodeLeftLeaf PM AM (heads ss) gs pb' pm am.
Proof.
  intros R ss gs pb pb' pm am H HP. inversion H as [|? s ss' g gs' Hg HK]; subst; [reflexivity|].
  assert (g = true) by (destruct g; [reflexivity|]; destruct (Hg eq_refl) as (s0 & E & _); discriminate). subst g.
  inversion_clear HP as [|? ? P1 P2]. destruct s as [|bit t]; [congruence|].
  change (heads ((bit :: t) :: ss')) with (bit :: heads ss'). cbn [encodeLeftLeaf]. rewrite !orb_true_r. reflexivity.
Qed.
End First.

(** Sums of frequencies of the pairs that PairReplacer::findReplaceables chooses. *)
From Coq Require Import List NArith ZArith Lia Arith Bool Permutation Sorted.
From Coq Require Import ZifyBool ZifyNat ZifyN.
From Verif Require Import Base Arrays TArray ModelUtils ModelSort ModelFreq ModelGrammar ModelPairs SpecFreq ProofSort ProofFreq ProofFreq2 ProofPairs3 ProofPairs5 ProofPairs6 ProofPairs7.
Import ListNotations.
Open Scope N_scope.

Definition sumP (R : list (N * N)) : Z := fold_right (fun x s => (Z.of_N (fst x) + s)%Z) 0%Z R.
Lemma sumP_app : forall a b, sumP (a ++ b) = (sumP a + sumP b)%Z.
Proof. induction a as [|x a IH]; intros b; [reflexivity|]. unfold sumP in *. cbn [app fold_right]. rewrite IH. lia. Qed.
Lemma sumP_one : forall p pr, sumP [(p, pr)] = Z.of_N p.
Proof. intros. unfold sumP. cbn [fold_right fst]. lia. Qed.

(** Chosen pairs do not overlap, except a pair of two equal symbols with itself. *)
Definition apart (R : list (N * N)) : Prop :=
  forall x y, In x R -> In y R -> loOf (snd x) = hiOf (snd y) -> snd x = snd y.

Lemma nth_upd_true : forall (l : list bool) i j, (i < length l)%nat -> nth_error l j = Some true -> nth_error (upd l i true) j = Some true.
Proof.
  induction l as [|x l IH]; intros i j Hi Hj; [cbn in Hi; lia|]. destruct i as [|i], j as [|j]; cbn [upd nth_error length] in *; auto. apply IH; [lia|exact Hj].
Qed.
Lemma nth_upd_same : forall (l : list bool) i, (i < length l)%nat -> nth_error (upd l i true) i = Some true.
Proof. induction l as [|x l IH]; intros i Hi; [cbn in Hi; lia|]. destruct i as [|i]; cbn [upd nth_error length] in *; [reflexivity|]. apply IH. lia. Qed.

Section Find.
Variables (g : grammar) (t : ftable) (fr : nat -> N).
Hypothesis Hfr : forall i, (i < ft_last t)%nat -> ftGetFrequency t i = Ok (fr i).
Hypothesis Hsmall : forall i, (i < ft_last t)%nat -> fr i < 4294966000.

Fixpoint sumF (k : nat) : Z := match k with O => 0%Z | S k => (Z.of_N (fr k) + sumF k)%Z end.

(** State of the search, [pairs] still to come. *)
Definition searched (st : fstate) (pairs : list (N * N)) : Prop :=
  NoDup (map snd (f_repl st ++ pairs)) /\ apart (f_repl st) /\
  forall x, In x (f_repl st) -> nth_error (f_usedFst st) (N.to_nat (hiOf (snd x))) = Some true /\ nth_error (f_usedSnd st) (N.to_nat (loOf (snd x))) = Some true.

Lemma searched_skip : forall st x pairs, searched st (x :: pairs) -> searched st pairs.
Proof.
  intros st x pairs (S1 & S2 & S3). split; [|split; assumption]. rewrite map_app in *. cbn [map] in S1. apply NoDup_remove_1 in S1. exact S1.
Qed.
Lemma searched_take : forall st p pr rest usedFst usedSnd u ff wo k, searched st ((p, pr) :: rest) ->
  unusable g st (N.land (N.shiftr pr 8) 255) (N.land pr 255) = Ok false ->
  set (f_usedFst st) (N.to_nat (N.land (N.shiftr pr 8) 255)) true = Ok usedFst ->
  set (f_usedSnd st) (N.to_nat (N.land pr 255)) true = Ok usedSnd ->
  searched (mkF usedFst usedSnd k (f_repl st ++ [(p, pr)]) u ff wo) rest.
Proof.
  intros st p pr rest usedFst usedSnd u ff wo k (S1 & S2 & S3) HU H1 H2. fold (hiOf pr) in *. fold (loOf pr) in *.
  apply set_inv in H1, H2. destruct H1 as (L1 & ->). destruct H2 as (L2 & ->).
  unfold unusable in HU. bd HU. bd HU. bd HU. bd HU. injection HU as HU. apply get_inv in E, E0.
  assert (NA : a = false /\ a0 = false) by (destruct a, a0, a1, a2; try discriminate; auto). destruct NA as (-> & ->).
  unfold searched. cbn [f_repl f_usedFst f_usedSnd]. rewrite <- app_assoc. cbn [app]. split; [exact S1|]. split.
  - intros x y Hx Hy HE. apply in_app_iff in Hx, Hy. destruct Hx as [Hx|[<-|[]]], Hy as [Hy|[<-|[]]].
    + apply S2; assumption.
    + exfalso. cbn [snd] in HE. destruct (S3 x Hx) as (_ & X). rewrite HE in X. congruence.
    + exfalso. cbn [snd] in HE. destruct (S3 y Hy) as (X & _). rewrite <- HE in X. congruence.
    + reflexivity.
  - intros x Hx. apply in_app_iff in Hx. destruct Hx as [Hx|[<-|[]]].
    + destruct (S3 x Hx) as (X & Y). split; apply nth_upd_true; assumption.
    + cbn [snd]. split; apply nth_upd_same; assumption.
Qed.

Lemma ftGet_lt2 : forall i f, ftGetFrequency t i = Ok f -> (i < ft_last t)%nat /\ f = fr i.
Proof. intros. eapply ftGet_lt; eauto. Qed.
Lemma noWrap2 : forall k, (k < ft_last t)%nat -> (fr k + 1003) mod two32 = fr k + 1003.
Proof. intros k Hk. specialize (Hsmall k Hk). apply N.mod_small. unfold two32. lia. Qed.

Definition gain (R : list (N * N)) (u : Z) : Prop := (R = [] /\ u = 0%Z) \/ (1000 < u)%Z.

Lemma firstPairs_sum : forall pairs st pairs' st', firstPairs g t pairs st = Ok (pairs', st') ->
  searched st pairs -> f_symbol st = length (f_repl st) -> f_utility st = (sumP (f_repl st) - sumF (f_symbol st))%Z -> gain (f_repl st) (f_utility st) ->
  searched st' pairs' /\ f_symbol st' = length (f_repl st') /\ f_utility st' = (sumP (f_repl st') - sumF (f_symbol st'))%Z /\ gain (f_repl st') (f_utility st').
Proof.
  induction pairs as [|[p pr] rest IH]; intros st pairs' st' H HS HL HU HG; cbn [firstPairs] in H; [discriminate|].
  bd H. destruct a.
  - eapply IH; eauto. eapply searched_skip; eauto.
  - bd H. bd H. apply ftGet_lt2 in E1. destruct E1 as (L & ->). rewrite noWrap2 in H by exact L.
    destruct ((p <=? fr (f_symbol st) + 1003) || (f_without st =? 0)) eqn:EB.
    + injection H as <- <-. auto.
    + apply orb_false_iff in EB. destruct EB as (B1 & B2). bd H. bd H. cbn zeta in H. cbn [f_symbol] in H.
      match type of H with (if _ then firstPairs _ _ _ ?s else _) = _ => set (st1 := s) in H end.
      assert (I : searched st1 rest /\ f_symbol st1 = length (f_repl st1) /\ f_utility st1 = (sumP (f_repl st1) - sumF (f_symbol st1))%Z /\ gain (f_repl st1) (f_utility st1)).
      { unfold st1. split; [eapply searched_take; eauto|]. cbn [f_repl f_symbol f_utility]. rewrite app_length, sumP_app, sumP_one. cbn [length sumF].
        split; [lia|]. split; [lia|]. right. destruct HG as [(_ & ->)|HG]; lia. }
      destruct I as (I1 & I2 & I3 & I4). destruct (nonEmpty rest && (S (f_symbol st) <? ft_last t)%nat) eqn:EN.
      * eapply IH; eauto.
      * injection H as <- <-. auto.
Qed.

Lemma specialPairs_sum : forall limit pairs st count hope pairs' st' count' hope',
  specialPairs g t limit pairs st count hope = Ok (pairs', st', count', hope') -> searched st pairs ->
  searched st' pairs' /\
  exists l, f_repl st' = f_repl st ++ l /\ count' = (count + length l)%nat /\ f_symbol st' = (f_symbol st + length l)%nat /\
    (f_utility st' - f_utility st)%Z = (sumP l - (sumF (f_symbol st') - sumF (f_symbol st)))%Z.
Proof.
  intros limit. induction pairs as [|[p pr] rest IH]; intros st count hope pairs' st' count' hope' H HS; cbn [specialPairs] in H.
  - destruct ((count <? limit)%nat && hope); [discriminate|]. injection H as <- <- <- <-. split; [exact HS|]. exists []. rewrite app_nil_r. cbn. repeat split; lia.
  - destruct ((count <? limit)%nat && hope).
    2:{ injection H as <- <- <- <-. split; [exact HS|]. exists []. rewrite app_nil_r. cbn. repeat split; lia. }
    bd H. destruct a.
    + apply IH in H; [exact H|]. eapply searched_skip; eauto.
    + bd H. bd H. apply ftGet_lt2 in E1. destruct E1 as (L & ->). rewrite noWrap2 in H by exact L. destruct (p <=? fr (f_symbol st) + 1003) eqn:EP.
      * injection H as <- <- <- <-. split; [exact HS|]. exists []. rewrite app_nil_r. cbn. repeat split; lia.
      * bd H. bd H. cbn zeta in H. apply IH in H; [|eapply searched_take; eauto]. destruct H as (H1 & l & H2 & H3 & H4 & H5). cbn [f_repl f_symbol f_utility] in *.
        split; [exact H1|]. exists ((p, pr) :: l). rewrite H2, <- app_assoc. cbn [app length]. split; [reflexivity|]. split; [lia|]. split; [lia|].
        change (sumP ((p, pr) :: l)) with (Z.of_N p + sumP l)%Z. cbn [sumF] in H5. lia.
Qed.

Lemma newSpecialsLoop_sum : forall fuel pairs st specs tSpecials R u specs',
  newSpecialsLoop fuel g t pairs st specs tSpecials = Ok (R, u, specs') ->
  searched st pairs -> f_symbol st = (length (f_repl st) + specs)%nat -> f_utility st = (sumP (f_repl st) - sumF (f_symbol st))%Z -> gain (f_repl st) (f_utility st) ->
  NoDup (map snd R) /\ apart R /\ u = (sumP R - sumF (length R + specs'))%Z /\ gain R u.
Proof.
  induction fuel as [|fuel IH]; intros pairs st specs tSpecials R u specs' H HS HL HU HG; cbn [newSpecialsLoop] in H; [discriminate|].
  bd H. apply ftGet_lt2 in E. destruct E as (L & ->). destruct (fr (f_symbol st) =? 0) eqn:EZ; [discriminate|].
  bd H. clear E. bd H. destruct a0 as [[[limit nS] after] symbol].
  assert (I : (symbol = f_symbol st + nS)%nat /\ after = (sumF (f_symbol st) - sumF symbol)%Z).
  { destruct (Nat.eqb_spec tSpecials 0) as [Z|NZ].
    - bd E. apply ftGet_lt2 in E0. destruct E0 as (L2 & ->). bd E. injection E as <- <- <- <-. cbn [sumF]. lia.
    - injection E as <- <- <- <-. cbn [sumF]. lia. }
  destruct I as (I1 & I2). clear E. bd H. destruct a0 as [[[pairs' st'] count] hope].
  apply specialPairs_sum in E; [|unfold searched in *; cbn [f_repl f_usedFst f_usedSnd]; exact HS].
  destruct E as (F1 & l & F2 & F3 & F4 & F5). cbn [f_repl f_symbol f_utility] in *. cbn zeta in H.
  destruct ((1000 <? f_utility st')%Z && (0 <? count)%nat) eqn:EB.
  - assert (EU : (f_utility st + f_utility st')%Z = (sumP (f_repl st') - sumF (f_symbol st'))%Z) by (rewrite F2, sumP_app; lia).
    assert (LR : f_symbol st' = (length (f_repl st') + (specs + nS))%nat) by (rewrite F2, app_length; lia).
    assert (GN : gain (f_repl st') (f_utility st + f_utility st')) by (right; destruct HG as [(_ & ->)|HG]; lia).
    destruct hope.
    + apply IH in H; auto.
    + injection H as <- <- <-. cbn [f_repl f_utility]. destruct F1 as (N1 & A1 & _). split.
      { rewrite map_app in N1. apply NoDup_app_l in N1. exact N1. }
      split; [exact A1|]. split; [rewrite EU, LR; reflexivity|exact GN].
  - destruct (Nat.leb_spec count (length (f_repl st'))) as [HC|]; [|discriminate]. injection H as <- <- <-.
    assert (LR : length (f_repl st') = (length (f_repl st) + count)%nat) by (rewrite F2, app_length; lia).
    replace (length (f_repl st') - count)%nat with (length (f_repl st)) by lia. rewrite F2, firstn_app, Nat.sub_diag, firstn_all, firstn_O, app_nil_r.
    destruct HS as (N1 & A1 & _). split; [rewrite map_app in N1; apply NoDup_app_l in N1; exact N1|].
    split; [exact A1|]. split; [rewrite HU, HL; reflexivity|exact HG].
Qed.

Definition chosenWell (R : list (N * N)) (u : Z) (specs : nat) : Prop :=
  NoDup (map snd R) /\ apart R /\ u = (sumP R - sumF (length R + specs))%Z /\ gain R u.

Lemma findReplaceables_sum : forall start pairs R u specs forFree,
  findReplaceables g t start pairs = Ok (R, u, specs, forFree) -> NoDup (map snd pairs) -> chosenWell R u specs.
Proof.
  intros start pairs R u specs forFree H ND. unfold findReplaceables in H. cbn zeta in H.
  assert (ND' : NoDup (map snd (skipn start pairs))).
  { rewrite <- (firstn_skipn start pairs), map_app in ND. apply NoDup_app_r in ND. exact ND. }
  set (sp := skipn start pairs) in *. clearbody sp. bd H. bd H. destruct a0 as [pairs1 st].
  assert (I : searched st pairs1 /\ f_symbol st = length (f_repl st) /\ f_utility st = (sumP (f_repl st) - sumF (f_symbol st))%Z /\ gain (f_repl st) (f_utility st)).
  { assert (I0 : gain [] 0) by (left; auto).
    destruct (nonEmpty sp && (0 <? ft_last t)%nat).
    - apply firstPairs_sum in E0; [exact E0|..]; cbn [f_repl f_symbol f_utility length]; auto.
      split; [exact ND'|]. split; [intros x y []|intros x []].
    - injection E0 as <- <-. cbn [f_repl f_symbol f_utility length]. split; [|auto]. split; [exact ND'|]. split; [intros x y []|intros x []]. }
  destruct I as (I1 & I2 & I3 & I4). clear E0.
  destruct (nonEmpty pairs1 && (f_symbol st <? ft_last t)%nat && (f_without st =? 0)).
  - bd H. destruct a0 as [[R' u'] specs']. injection H as <- <- <- <-. apply newSpecialsLoop_sum in E0; auto. lia.
  - injection H as <- <- <- <-. destruct I1 as (N1 & A1 & _). split; [rewrite map_app in N1; apply NoDup_app_l in N1; exact N1|].
    split; [exact A1|]. split; [|exact I4]. rewrite Nat.add_0_r, <- I2. exact I3.
Qed.
Lemma bestStart_sum : forall pairs starts best R u specs forFree,
  bestStart g t pairs starts best = Ok (R, u, specs, forFree) -> NoDup (map snd pairs) ->
  (let '(R, u, specs, _) := best in chosenWell R u specs) -> chosenWell R u specs.
Proof.
  intros pairs. induction starts as [|i starts IH]; intros best R u specs forFree H ND HB; cbn [bestStart] in H.
  - injection H as ->. exact HB.
  - bd H. destruct a as [[[R1 u1] sp1] ff1]. destruct best as [[[R2 u2] sp2] ff2].
    apply IH in H; auto. destruct (u2 <? u1)%Z; [|exact HB]. eapply findReplaceables_sum; eauto.
Qed.
End Find.

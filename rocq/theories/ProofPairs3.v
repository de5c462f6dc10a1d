(** Which pairs PairReplacer::findReplaceables chooses. *)
From Coq Require Import List NArith ZArith Lia Arith Bool Permutation Sorted.
From Coq Require Import ZifyBool ZifyNat ZifyN.
From Verif Require Import Base Arrays TArray ModelUtils ModelSort ModelFreq ModelGrammar ModelPairs SpecFreq ProofSort ProofFreq ProofFreq2.
Import ListNotations.
Open Scope N_scope.

Ltac bd H := match type of H with
  | bind ?m _ = Ok _ => let E := fresh "E" in destruct m eqn:E; cbn [bind] in H; [|discriminate H|discriminate H]
  end.

Definition plain (g : grammar) (pr : N) : Prop :=
  isSpecial g (N.land (N.shiftr pr 8) 255) = Ok false /\ isSpecial g (N.land pr 255) = Ok false.

Lemma unusable_plain : forall g st pr,
  unusable g st (N.land (N.shiftr pr 8) 255) (N.land pr 255) = Ok false -> plain g pr.
Proof.
  intros g st pr H. unfold unusable in H. repeat bd H. injection H as H. unfold plain.
  rewrite E1, E2. destruct a, a0, a1, a2; try discriminate; auto.
Qed.

Definition descending (pairs : list (N * N)) : Prop := StronglySorted (fun p q : N * N => fst q <= fst p) pairs.

Section Find.
Variables (g : grammar) (t : ftable) (fr : nat -> N) (pool : list (N * N)).
Hypothesis Hfr : forall i, (i < ft_last t)%nat -> ftGetFrequency t i = Ok (fr i).
Hypothesis Hmono : forall i j, (i <= j < ft_last t)%nat -> fr i <= fr j.
Hypothesis Hsmall : forall i, (i < ft_last t)%nat -> fr i < 4294966000.

(** The pairs chosen so far, the next symbol being number [k], the pairs still to come. *)
Definition chosen (R : list (N * N)) (k : nat) (pairs : list (N * N)) : Prop :=
  Forall (fun x => In x pool /\ plain g (snd x)) R /\
  (forall x y, In x R -> In y pairs -> fst y <= fst x) /\
  descending pairs /\ (forall x, In x pairs -> In x pool) /\ (k <= ft_last t)%nat.

Definition worth (R : list (N * N)) (k : nat) : Prop :=
  R = [] \/ ((1 <= k)%nat /\ Forall (fun x => fr (k - 1)%nat < fst x) R).

Lemma ftGet_lt : forall i f, ftGetFrequency t i = Ok f -> (i < ft_last t)%nat /\ f = fr i.
Proof.
  intros i f H. assert (L : (i < ft_last t)%nat).
  { unfold ftGetFrequency in H. destruct (Nat.ltb_spec i (ft_last t)); [assumption|discriminate]. }
  rewrite Hfr in H by exact L. injection H as <-. auto.
Qed.

Lemma chosen_skip : forall R k x pairs, chosen R k (x :: pairs) -> chosen R k pairs.
Proof.
  intros R k x pairs (C1 & C2 & C3 & C4 & C5). inversion C3; subst. repeat split; auto.
  - intros a b Ha Hb. apply C2; [exact Ha|right; exact Hb].
  - intros a Ha. apply C4. right. exact Ha.
Qed.

Lemma chosen_take : forall R k p pr pairs, chosen R k ((p, pr) :: pairs) -> plain g pr -> (k < ft_last t)%nat ->
  fr k < p -> chosen (R ++ [(p, pr)]) (S k) pairs /\ worth (R ++ [(p, pr)]) (S k).
Proof.
  intros R k p pr pairs (C1 & C2 & C3 & C4 & C5) HP Hk Hp. inversion C3 as [|? ? S1 S2]; subst. split.
  - repeat split; auto.
    + apply Forall_app. split; [exact C1|]. constructor; [|constructor]. split; [apply C4; left; reflexivity|exact HP].
    + intros a b Ha Hb. apply in_app_iff in Ha. destruct Ha as [Ha|[<-|[]]].
      * apply C2; [exact Ha|right; exact Hb].
      * rewrite Forall_forall in S2. apply S2. exact Hb.
    + intros a Ha. apply C4. right. exact Ha.
  - right. split; [lia|]. replace (S k - 1)%nat with k by lia. apply Forall_forall. intros x Hx. apply in_app_iff in Hx.
    destruct Hx as [Hx|[<-|[]]]; [|exact Hp]. specialize (C2 x (p, pr) Hx (or_introl eq_refl)). cbn in C2. lia.
Qed.

Lemma countFree_ok : forall fuel i n, countFree fuel t i = Ok n -> (forall j, (j < i)%nat -> fr j = 0) ->
  (n < ft_last t)%nat /\ (forall j, (j < ft_last t)%nat -> fr j = 0 <-> (j < n)%nat).
Proof.
  induction fuel as [|fuel IH]; intros i n H HZ; cbn [countFree] in H; [discriminate|].
  destruct (ftGetFrequency t i) as [f| |] eqn:E; cbn [bind] in H; try discriminate.
  apply ftGet_lt in E. destruct E as (L & ->). destruct (N.eqb_spec (fr i) 0) as [Z|NZ].
  - apply IH in H; [exact H|]. intros j Hj. destruct (Nat.eq_dec j i) as [->|]; [exact Z|]. apply HZ. lia.
  - injection H as <-. split; [exact L|]. intros j Hj. split; [|apply HZ]. intros Z.
    destruct (Nat.le_gt_cases i j) as [HH|]; [|lia]. pose proof (Hmono i j ltac:(lia)). lia.
Qed.

Lemma noWrap : forall k, (k < ft_last t)%nat -> (fr k + 1003) mod two32 = fr k + 1003.
Proof. intros k Hk. specialize (Hsmall k Hk). apply N.mod_small. unfold two32. lia. Qed.

Lemma firstPairs_ok : forall W free pairs st pairs' st', firstPairs g t pairs st = Ok (pairs', st') ->
  (forall j, (j < ft_last t)%nat -> fr j = 0 <-> (j < free)%nat) ->
  chosen (f_repl st) (f_symbol st) pairs -> worth (f_repl st) (f_symbol st) ->
  f_symbol st = length (f_repl st) -> f_without st + N.of_nat (length (f_repl st)) = W ->
  f_forFree st = Nat.min (length (f_repl st)) free ->
  chosen (f_repl st') (f_symbol st') pairs' /\ worth (f_repl st') (f_symbol st') /\
  f_symbol st' = length (f_repl st') /\ f_without st' + N.of_nat (length (f_repl st')) = W /\
  f_forFree st' = Nat.min (length (f_repl st')) free.
Proof.
  intros W free. induction pairs as [|[p pr] rest IH]; intros st pairs' st' H HF HC HW HS HT HM; cbn [firstPairs] in H; [discriminate|].
  bd H. destruct a.
  - eapply IH; eauto. eapply chosen_skip; eauto.
  - bd H. bd H. apply ftGet_lt in E1. destruct E1 as (L & ->). apply unusable_plain in E.
    rewrite noWrap in H by exact L.
    destruct ((p <=? fr (f_symbol st) + 1003) || (f_without st =? 0)) eqn:EB.
    + injection H as <- <-. auto.
    + apply orb_false_iff in EB. destruct EB as (B1 & B2).
      bd H. bd H. cbn zeta in H. cbn [f_symbol] in H.
      destruct (chosen_take _ _ _ _ _ HC E L ltac:(lia)) as (HC' & HW').
      match type of H with (if _ then firstPairs _ _ _ ?s else _) = _ => set (st1 := s) in H end.
      assert (I : chosen (f_repl st1) (f_symbol st1) rest /\ worth (f_repl st1) (f_symbol st1) /\
                  f_symbol st1 = length (f_repl st1) /\ f_without st1 + N.of_nat (length (f_repl st1)) = W /\
                  f_forFree st1 = Nat.min (length (f_repl st1)) free).
      { unfold st1. cbn [f_repl f_symbol f_without f_forFree]. rewrite app_length. cbn [length].
        split; [exact HC'|]. split; [exact HW'|]. split; [lia|]. split; [lia|].
        specialize (HF _ L). destruct (N.eqb_spec (fr (f_symbol st)) 0); lia. }
      destruct I as (I1 & I2 & I3 & I4 & I5).
      destruct (nonEmpty rest && (S (f_symbol st) <? ft_last t)%nat) eqn:EN.
      * eapply IH; eauto.
      * injection H as <- <-. auto.
Qed.

(** [base]: symbols used for new special symbols. *)
Lemma specialPairs_ok : forall limit base R0 pairs st count hope pairs' st' count' hope',
  specialPairs g t limit pairs st count hope = Ok (pairs', st', count', hope') ->
  chosen (f_repl st) (f_symbol st) pairs -> (count = O \/ worth (f_repl st) (f_symbol st)) ->
  f_symbol st = (length (f_repl st) + base)%nat -> (exists l, f_repl st = R0 ++ l /\ length l = count) -> (count <= limit)%nat ->
  chosen (f_repl st') (f_symbol st') pairs' /\ (count' = O \/ worth (f_repl st') (f_symbol st')) /\
  f_symbol st' = (length (f_repl st') + base)%nat /\ (exists l, f_repl st' = R0 ++ l /\ length l = count') /\
  (count' <= limit)%nat /\ (hope' = true -> count' = limit) /\ f_forFree st' = f_forFree st.
Proof.
  intros limit base R0. induction pairs as [|[p pr] rest IH]; intros st count hope pairs' st' count' hope' H HC HW HS HL HX; cbn [specialPairs] in H.
  - destruct ((count <? limit)%nat && hope) eqn:EB; [discriminate|]. injection H as <- <- <- <-.
    split; [exact HC|]. split; [exact HW|]. split; [exact HS|]. split; [exact HL|]. split; [exact HX|]. split; [|reflexivity].
    intros ->. rewrite andb_true_r in EB. lia.
  - destruct ((count <? limit)%nat && hope) eqn:EB.
    2:{ injection H as <- <- <- <-.
        split; [exact HC|]. split; [exact HW|]. split; [exact HS|]. split; [exact HL|]. split; [exact HX|]. split; [|reflexivity]. intros ->. rewrite andb_true_r in EB. lia. }
    bd H. destruct a.
    + eapply IH; eauto. eapply chosen_skip; eauto.
    + bd H. bd H. apply ftGet_lt in E1. destruct E1 as (L & ->). apply unusable_plain in E.
      rewrite noWrap in H by exact L. destruct (p <=? fr (f_symbol st) + 1003) eqn:EP.
      * injection H as <- <- <- <-.
        split; [exact HC|]. split; [exact HW|]. split; [exact HS|]. split; [exact HL|]. split; [exact HX|]. split; [discriminate|reflexivity].
      * bd H. bd H. cbn zeta in H. cbn [f_symbol] in H.
        destruct (chosen_take _ _ _ _ _ HC E L ltac:(lia)) as (HC' & HW').
        apply IH in H; [exact H|..]; cbn [f_repl f_symbol]; auto.
        -- rewrite app_length. cbn [length]. lia.
        -- destruct HL as (l & EL & Ll). exists (l ++ [(p, pr)]). rewrite EL, app_assoc, app_length. cbn [length]. split; [reflexivity|lia].
        -- apply andb_true_iff in EB. lia.
Qed.

(** Room in the table of pairs with [s] special symbols of which [q] pairs are used: nothing is left over
    before another special symbol is taken. *)
Definition fits (s q specs nFreed : nat) : Prop :=
  (q + specs + nFreed <= (s + specs) * (s + specs))%nat /\
  (0 < specs -> (s + specs - 1) * (s + specs - 1) < q + (specs - 1) + nFreed)%nat.

Lemma newSpecialsLoop_ok : forall s q fuel pairs st specs R u specs',
  newSpecialsLoop fuel g t pairs st specs (s + specs) = Ok (R, u, specs') ->
  chosen (f_repl st) (f_symbol st) pairs -> worth (f_repl st) (f_symbol st) ->
  f_symbol st = (length (f_repl st) + specs)%nat -> (f_forFree st <= length (f_repl st))%nat ->
  (q + specs + (length (f_repl st) - f_forFree st) = (s + specs) * (s + specs))%nat ->
  fits s q specs (length (f_repl st) - f_forFree st) ->
  Forall (fun x => In x pool /\ plain g (snd x)) R /\ worth R (length R + specs') /\
  (length R + specs' <= ft_last t)%nat /\ (f_forFree st <= length R)%nat /\
  fits s q specs' (length R - f_forFree st) /\ (length (f_repl st) <= length R)%nat.
Proof.
  intros s q. induction fuel as [|fuel IH]; intros pairs st specs R u specs' H HC HW HS HF HX HFit; cbn [newSpecialsLoop] in H; [discriminate|].
  bd H. apply ftGet_lt in E. destruct E as (L & ->). destruct (fr (f_symbol st) =? 0) eqn:EZ; [discriminate|].
  bd H. clear E. bd H. destruct a0 as [[[limit nS] after] symbol].
  assert (I : (symbol = f_symbol st + nS)%nat /\ (symbol <= ft_last t)%nat /\ (1 <= nS)%nat /\
              (limit + nS + (s + specs) * (s + specs) = (s + specs + nS) * (s + specs + nS))%nat /\
              ((s + specs + nS - 1) * (s + specs + nS - 1) <= nS - 1 + (s + specs) * (s + specs))%nat).
  { destruct (Nat.eqb_spec (s + specs) 0) as [Z|NZ].
    - bd E. apply ftGet_lt in E0. destruct E0 as (L2 & ->). bd E. injection E as <- <- <- <-. rewrite !Z. cbn. lia.
    - injection E as <- <- <- <-. replace (s + specs + 1 - 1)%nat with (s + specs)%nat by lia. repeat split; try lia; ring. }
  destruct I as (I1 & I2 & I3 & I4 & I5). clear E. bd H. destruct a0 as [[[pairs' st'] count] hope].
  apply (specialPairs_ok limit (specs + nS) (f_repl st)) in E; cbn [f_repl f_symbol f_forFree] in *.
  2:{ destruct HC as (C1 & C2 & C3 & C4 & C5). repeat split; auto. }
  2:{ auto. }
  2:{ lia. }
  2:{ exists []. rewrite app_nil_r. auto. }
  2:{ lia. }
  destruct E as (F1 & F2 & F3 & (l & F4 & F4') & F5 & F6 & F7). cbn zeta in H.
  destruct ((1000 <? f_utility st')%Z && (0 <? count)%nat) eqn:EB.
  - apply andb_true_iff in EB. destruct EB as (_ & B2). destruct F2 as [F2|F2]; [lia|].
    assert (LR : length (f_repl st') = (length (f_repl st) + count)%nat) by (rewrite F4, app_length; lia).
    assert (FI : fits s q (specs + nS) (length (f_repl st') - f_forFree st')).
    { unfold fits. replace (s + (specs + nS))%nat with (s + specs + nS)%nat by lia. split; [lia|]. intros _. lia. }
    destruct hope.
    + specialize (F6 eq_refl). replace (s + specs + nS)%nat with (s + (specs + nS))%nat in * by lia.
      apply IH in H; cbn [f_repl f_symbol f_forFree f_utility] in *; auto; try lia.
      rewrite F7 in H. destruct H as (H1 & H2 & H3 & H4 & H5 & H6). repeat split; auto; try apply H5. lia.
    + injection H as <- <- <-. cbn [f_repl]. destruct F1 as (C1 & _ & _ & _ & C5). rewrite F7 in FI.
      replace (length (f_repl st') + (specs + nS))%nat with (f_symbol st') by lia.
      split; [exact C1|]. split; [exact F2|]. split; [exact C5|]. split; [lia|]. split; [exact FI|lia].
  - destruct (Nat.leb_spec count (length (f_repl st'))) as [HL|]; [|discriminate]. injection H as <- <- <-.
    assert (LR : length (f_repl st') = (length (f_repl st) + count)%nat) by (rewrite F4, app_length; lia).
    replace (length (f_repl st') - count)%nat with (length (f_repl st)) by lia. rewrite F4, firstn_app, Nat.sub_diag, firstn_all, firstn_O, app_nil_r.
    destruct HC as (C1 & _ & _ & _ & C5). rewrite <- HS. repeat split; auto; apply HFit.
Qed.

Lemma findReplaceables_ok : forall start pairs R u specs forFree,
  findReplaceables g t start pairs = Ok (R, u, specs, forFree) ->
  let s := length (g_specials g) in let q := length (g_pairs g) in
  (q <= s * s)%nat -> (s <= 256)%nat -> (ft_last t <= 256)%nat ->
  descending pairs -> (forall x, In x pairs -> In x pool) ->
  Forall (fun x => In x pool /\ plain g (snd x)) R /\ worth R (length R + specs) /\
  (length R + specs <= ft_last t)%nat /\ (forFree <= length R)%nat /\
  fits s q specs (length R - forFree).
Proof.
  intros start pairs R u specs forFree H s q Hq Hs Hl HD HP. unfold findReplaceables in H. cbn zeta in H.
  assert (HD' : descending (skipn start pairs)).
  { clear -HD. revert start. induction pairs as [|x pairs IH]; intros [|start]; cbn [skipn]; auto. inversion HD; subst. apply IH. assumption. }
  assert (HP' : forall x, In x (skipn start pairs) -> In x pool).
  { intros x Hx. apply HP. rewrite <- (firstn_skipn start). apply in_or_app. right. exact Hx. }
  set (sp := skipn start pairs) in *. clearbody sp.
  bd H. rename a into free. destruct (countFree_ok 257 0 free E) as (F1 & F2); [intros; lia|]. clear E.
  assert (LEFT : specialSymbolPairsLeft g = N.of_nat (s * s - q)).
  { unfold specialSymbolPairsLeft. fold s q. assert ((s * s <= 256 * 256)%nat) by (apply Nat.mul_le_mono; assumption).
    rewrite (N.mod_small (N.of_nat q)) by (unfold two32; lia).
    replace (N.of_nat s * N.of_nat s + two32 - N.of_nat q) with (N.of_nat (s * s - q) + 1 * two32) by (unfold two32; lia).
    rewrite N.mod_add by discriminate. apply N.mod_small. unfold two32. lia. }
  assert (HSS : (s * s <= 256 * 256)%nat) by (apply Nat.mul_le_mono; assumption).
  rewrite LEFT in H. rewrite N.mod_small in H by (unfold two32; lia).
  bd H. destruct a as [pairs1 st].
  assert (I : chosen (f_repl st) (f_symbol st) pairs1 /\ worth (f_repl st) (f_symbol st) /\
              f_symbol st = length (f_repl st) /\ f_without st + N.of_nat (length (f_repl st)) = N.of_nat (s * s - q) + N.of_nat free /\
              f_forFree st = Nat.min (length (f_repl st)) free).
  { assert (I0 : chosen [] 0 sp) by (repeat split; [constructor|intros x y []|exact HD'|exact HP'|lia]).
    destruct (nonEmpty sp && (0 <? ft_last t)%nat).
    - eapply firstPairs_ok in E; [exact E|..]; cbn [f_repl f_symbol f_without f_forFree length]; auto.
      + left. reflexivity.
      + lia.
    - injection E as <- <-. cbn [f_repl f_symbol f_without f_forFree length]. repeat split; auto; try apply I0; try (left; reflexivity). lia. }
  destruct I as (I1 & I2 & I3 & I4 & I5). clear E.
  destruct (nonEmpty pairs1 && (f_symbol st <? ft_last t)%nat && (f_without st =? 0)) eqn:EB.
  - bd H. destruct a as [[R' u'] specs']. injection H as <- <- <- <-.
    apply andb_true_iff in EB. destruct EB as (_ & B).
    replace (length (g_specials g)) with (s + 0)%nat in E by (unfold s; lia).
    apply (newSpecialsLoop_ok s q) in E; auto; try lia.
    + destruct E as (H1 & H2 & H3 & H4 & H5 & H6). repeat split; auto; apply H5.
    + split; lia.
  - injection H as <- <- <- <-. rewrite Nat.add_0_r, <- I3. destruct I1 as (C1 & _ & _ & _ & C5). repeat split; auto; try lia.
Qed.

Lemma bestStart_ok : forall pairs starts best R u specs forFree,
  bestStart g t pairs starts best = Ok (R, u, specs, forFree) ->
  let s := length (g_specials g) in let q := length (g_pairs g) in
  (q <= s * s)%nat -> (s <= 256)%nat -> (ft_last t <= 256)%nat ->
  descending pairs -> (forall x, In x pairs -> In x pool) ->
  (let '(R, _, specs, forFree) := best in
   Forall (fun x => In x pool /\ plain g (snd x)) R /\ worth R (length R + specs) /\
   (length R + specs <= ft_last t)%nat /\ (forFree <= length R)%nat /\ fits s q specs (length R - forFree)) ->
  Forall (fun x => In x pool /\ plain g (snd x)) R /\ worth R (length R + specs) /\
  (length R + specs <= ft_last t)%nat /\ (forFree <= length R)%nat /\
  fits s q specs (length R - forFree).
Proof.
  induction starts as [|i starts IH]; intros best R u specs forFree H s q Hq Hs Hl HD HP HB; cbn [bestStart] in H.
  - injection H as ->. exact HB.
  - bd H. destruct a as [[[R1 u1] sp1] ff1]. destruct best as [[[R2 u2] sp2] ff2].
    apply IH in H; auto. destruct (u2 <? u1)%Z; [|exact HB]. eapply findReplaceables_ok; eauto.
Qed.
End Find.

Lemma sortPairs_facts : forall l, Permutation (sortPairs l) l /\ descending (sortPairs l).
Proof.
  intros l. unfold sortPairs. destruct (mergeSort_facts (N * N) pairLeb) with (l := l) as (P & S).
  - intros a b H. unfold pairLeb in *. lia.
  - intros a b c H1 H2. unfold pairLeb in *. lia.
  - split; [exact P|]. clear P. unfold descending. induction S as [|x l' S IH F]; constructor; [exact IH|].
    eapply Forall_impl; [|exact F]. intros a Ha. cbn beta in Ha. unfold pairLeb in Ha. lia.
Qed.

(** PairReplacer::decideReplacements never fails. *)
From Coq Require Import List NArith ZArith Lia Arith Bool Permutation.
From Coq Require Import ZifyBool ZifyNat ZifyN.
From Verif Require Import Base Arrays TArray ModelUtils ModelStreams ModelHeaders ModelFreq SpecFreq ProofFreq2 ModelGrammar SpecGrammar ProofGrammar2 ProofGrammar3 ModelPairs
  ProofPairs1 ProofPairs2 ProofPairs3 ProofPairs4 ProofPairs5 ProofPairs6 ProofPairs7 ProofTotal1 ProofTotal2.
Import ListNotations.
Open Scope N_scope.

(** ** The table of frequencies *)
Lemma nth_ttake : forall k (t : tarray N) j i d, (i < k)%nat -> nth i (ttake t j k) d = tval t (j + N.of_nat i).
Proof. induction k as [|k IH]; intros t j i d Hi; [lia|]. cbn [ttake]. destruct i as [|i]; cbn [nth]; [f_equal; lia|]. rewrite IH by lia. f_equal. lia. Qed.

Lemma flagged_nth : forall l c, length l = 256%nat -> c < 256 -> flagged l c = true <-> nth_error l (N.to_nat c) = Some true.
Proof.
  intros l c L H. unfold flagged. split; intros Q.
  - destruct (nth_error_lt l (N.to_nat c) ltac:(lia)) as (b & E). rewrite (nth_error_nth _ _ false E) in Q. subst b. exact E.
  - apply (nth_error_nth _ _ false Q).
Qed.

Lemma table_total : forall sortF g st, sorts_by_frequency sortF -> length (g_special g) = 256%nat ->
  (forall c, flagged (g_special g) c = true -> In c (g_specials g)) ->
  t_len (a_freqs st) = 256 -> (forall c, c < 256 -> tval (a_freqs st) c < 4294966000) ->
  exists t0 t (key : nat -> N), ftInit sortF (ttake (a_freqs st) 0 256) = Ok t0 /\ removeSpecials layoutOver 0 (g_special g) t0 = Ok t /\
    (forall i, (i < ft_last t)%nat -> key i < 256 /\ flagged (g_special g) (key i) = false /\ ftGetKey t i = Ok (key i) /\ ftGetFrequency t i = Ok (tval (a_freqs st) (key i))) /\
    (forall i j, (i < ft_last t)%nat -> (j < ft_last t)%nat -> key i = key j -> i = j) /\
    (forall c, c < 256 -> flagged (g_special g) c = false -> exists i, (i < ft_last t)%nat /\ key i = c) /\
    (forall i j, (i <= j < ft_last t)%nat -> tval (a_freqs st) (key i) <= tval (a_freqs st) (key j)) /\
    (256 <= ft_last t + length (g_specials g))%nat /\ (ft_last t <= 256)%nat.
Proof.
  intros sortF g st HS LS HF HL HB. set (F := tval (a_freqs st)) in *.
  destruct (init_good sortF (ttake (a_freqs st) 0 256) HS) as (t0 & E0 & G0).
  { apply ttake_length. }
  { apply Forall_forall. intros x Hx. apply (In_nth _ _ 0) in Hx. destruct Hx as (i & Hi & <-). rewrite ttake_length in Hi.
    rewrite nth_ttake by exact Hi. specialize (HB (0 + N.of_nat i) ltac:(lia)). unfold F in HB. lia. }
  destruct (removeSpecials_ok _ (g_special g) 0 t0 [] G0) as (t & removed & E & G & RS); [intros c []|lia|].
  assert (RS' : forall c, c < 256 -> In c removed <-> flagged (g_special g) c = true).
  { intros c Hc. rewrite RS, flagged_nth by assumption. replace (c - 0) with c by lia. split; [intros [[]|(_ & X)]; exact X|]. intros X. right. split; [lia|exact X]. }
  assert (FM : forall c, c < 256 -> nth (N.to_nat c) (ttake (a_freqs st) 0 256) 0 = F c).
  { intros c Hc. rewrite nth_ttake by lia. unfold F. f_equal. lia. }
  apply good_shows in G. destruct G as (SL & S1 & S2 & S3).
  exists t0, t, (fun i => match ftGetKey t i with Ok c => c | _ => 0 end). split; [exact E0|]. split; [exact E|].
  assert (K : forall i, (i < ft_last t)%nat -> exists c, c < 256 /\ flagged (g_special g) c = false /\ ftGetKey t i = Ok c /\ ftGetFrequency t i = Ok (F c)).
  { intros i Hi. destruct (S2 i Hi) as (c & Hc & Hn & EK & EF). exists c. split; [exact Hc|]. split.
    - destruct (flagged (g_special g) c) eqn:Q; [|reflexivity]. exfalso. apply Hn, RS'; assumption.
    - split; [exact EK|]. rewrite EF, FM by exact Hc. f_equal. apply N.mod_small. specialize (HB c Hc). lia. }
  split. { intros i Hi. destruct (K i Hi) as (c & K1 & K2 & K3 & K4). rewrite K3. auto. }
  split. { intros i j Hi Hj Q. destruct (K i Hi) as (c & _ & _ & K3 & _). destruct (K j Hj) as (d & _ & _ & J3 & _). rewrite K3, J3 in Q. subst d.
    destruct (Nat.lt_trichotomy i j) as [L|[L|L]]; [|exact L|]; exfalso; [destruct (S3 i j c c ltac:(lia) K3 J3)|destruct (S3 j i c c ltac:(lia) J3 K3)]; congruence. }
  assert (SUR : forall c, c < 256 -> flagged (g_special g) c = false -> exists i, (i < ft_last t)%nat /\ ftGetKey t i = Ok c).
  { intros c Hc Q. destruct (S1 c Hc) as (_ & X); [|exact X]. intros Y. apply RS' in Y; [congruence|exact Hc]. }
  split. { intros c Hc Q. destruct (SUR c Hc Q) as (i & Hi & X). exists i. rewrite X. auto. }
  split. { intros i j Hij. destruct (Nat.eq_dec i j) as [->|NE]; [lia|]. destruct (K i ltac:(lia)) as (c & Hc & _ & K3 & _). destruct (K j ltac:(lia)) as (d & Hd & _ & J3 & _).
    rewrite K3, J3. destruct (S3 i j c d ltac:(lia) K3 J3) as (_ & X). rewrite !FM in X by assumption. exact X. }
  split; [|lia].
  assert (IN : incl (map N.of_nat (seq 0 256)) (map (fun i => match ftGetKey t i with Ok c => c | _ => 0 end) (seq 0 (ft_last t)) ++ g_specials g)).
  { intros c Hc. apply in_map_iff in Hc. destruct Hc as (n & <- & Hn). apply in_seq in Hn. apply in_app_iff. destruct (flagged (g_special g) (N.of_nat n)) eqn:Q; [right; apply HF, Q|left].
    destruct (SUR (N.of_nat n)) as (i & Hi & X); [clear -Hn; lia|exact Q|]. apply in_map_iff. exists i. rewrite X. split; [reflexivity|]. apply in_seq. lia. }
  apply NoDup_incl_length in IN; [|apply FinFun.Injective_map_NoDup; [intros a b; lia|apply seq_NoDup]]. rewrite app_length, !map_length, !seq_length in IN. exact IN.
Qed.

(** ** The plan *)
Lemma pairsFrom_nodup : forall t k i, NoDup (map snd (pairsFrom t i k)).
Proof.
  induction k as [|k IH]; intros i; cbn [pairsFrom map]; constructor; [|apply IH]. intros Q. apply in_map_iff in Q. destruct Q as ([p pr] & E & I). apply pairsFrom_in in I. cbn in E. lia.
Qed.
Lemma pairsFrom_all : forall t k i pr, i <= pr < i + N.of_nat k -> In (tval t pr, pr) (pairsFrom t i k).
Proof.
  induction k as [|k IH]; intros i pr H; [lia|]. cbn [pairsFrom]. destruct (N.eq_dec i pr) as [->|NE]; [left; reflexivity|right]. apply IH. lia.
Qed.

Lemma takeKeys_total : forall g t zero (key : nat -> N), length (g_special g) = 256%nat -> forall k j,
  (forall i, (j <= i < j + k)%nat -> key i < 256 /\ flagged (g_special g) (key i) = false /\ ftGetKey t i = Ok (key i) /\ (zero = true -> ftGetFrequency t i = Ok 0)) ->
  exists l, takeKeys g t zero k j = Ok l.
Proof.
  intros g t zero key LS. induction k as [|k IH]; intros j H; cbn [takeKeys]; [eauto|]. destruct (H j ltac:(lia)) as (K1 & K2 & K3 & K4). rewrite K3. cbn [bind]. unfold isSpecial.
  rewrite get_flagged by assumption. cbn [bind]. rewrite K2. destruct (IH (S j)) as (l & E); [intros i Hi; apply H; lia|].
  destruct zero; [rewrite (K4 eq_refl)|]; cbn [bind]; change (false || negb (0 =? 0)) with false; cbn iota; rewrite E; cbn [bind]; eauto.
Qed.

Lemma plan_total : forall sortF g st, sorts_by_frequency sortF -> length (g_special g) = 256%nat ->
  (forall c, flagged (g_special g) c = true -> In c (g_specials g)) ->
  t_len (a_freqs st) = 256 -> (forall c, c < 256 -> tval (a_freqs st) c < 4294966000) ->
  (length (g_pairs g) <= length (g_specials g) * length (g_specials g))%nat -> (length (g_specials g) <= 240)%nat ->
  (forall a b, a < 256 -> b < 256 -> tval (a_pairs st) (pair16 a b) <= tval (a_freqs st) a /\ tval (a_pairs st) (pair16 a b) <= tval (a_freqs st) b) ->
  (exists c, c < 256 /\ flagged (g_special g) c = false /\ tval (a_freqs st) c <> 0) ->
  exists common R frees news freed, decidePlan sortF layoutOver g st = Ok (common, R, frees, news, freed) /\ ~ In common (frees ++ news ++ freed).
Proof.
  intros sortF g st HS LS HF HL HB Hq Hs HP HE.
  destruct (table_total sortF g st HS LS HF HL HB) as (t0 & t & key & E0 & E1 & K & INJ & SUR & MONO & B1 & B2). set (F := tval (a_freqs st)) in *.
  unfold decidePlan. rewrite E0. cbn [bind]. rewrite E1. cbn [bind].
  assert (PO : forall p pr, In (p, pr) (makePairList st) -> pr < 65536 /\ p <= F (hiOf pr) /\ p <= F (loOf pr)).
  { intros p pr I. apply pairsFrom_in in I. destruct I as (-> & I). split; [lia|]. pose proof (HP (hiOf pr) (loOf pr) (hiOf_lt pr) (loOf_lt pr)) as Q. rewrite pair_of in Q by lia. exact Q. }
  assert (PN : NoDup (map snd (makePairList st))) by (unfold makePairList; apply pairsFrom_nodup).
  assert (PA : forall pr, pr < 65536 -> exists p, In (p, pr) (makePairList st)).
  { intros pr Hpr. exists (tval (a_pairs st) pr). unfold makePairList. apply pairsFrom_all. lia. }
  remember (makePairList st) as pl eqn:Epl. clear Epl.
  destruct (sortPairs_facts pl) as (PP & PD).
  assert (EX : exists i, (i < ft_last t)%nat /\ F (key i) <> 0).
  { destruct HE as (c & C1 & C2 & C3). destruct (SUR c C1 C2) as (i & Hi & <-). eauto. }
  destruct (bestStart_total g t key F pl LS K INJ SUR MONO ltac:(intros i Hi; apply HB; apply (K i Hi)) ltac:(lia) PO) with (pairs := sortPairs pl) (starts := [0; 1; 2; 3; 4]%nat) (best := (@nil (N * N), 0%Z, O, O))
    as (R & u & specs & forFree & EB & FREE); try assumption.
  { lia. }
  { intros s Hin. cbn in Hin. lia. }
  { cbn. intros i Hi. lia. }
  unfold findReplaceablePairs. rewrite EB. cbn [bind].
  pose proof EB as ER. apply (bestStart_ok g t (fun i => F (key i)) pl) in ER; auto.
  2:{ intros i Hi. apply K. exact Hi. }
  2:{ intros i Hi. apply HB. apply K. exact Hi. }
  2:{ lia. }
  2:{ intros x Hx. eapply Permutation_in; eauto. }
  2:{ split; [constructor|]. split; [left; reflexivity|]. cbn [length]. split; [lia|]. split; [lia|]. split; [lia|lia]. }
  destruct ER as (R1 & R2 & R3 & R4 & R5).
  assert (LT : (length R + specs < ft_last t)%nat).
  { destruct R as [|[p pr] R].
    - cbn [length] in *. destruct R5 as (_ & R5). destruct specs as [|n]; [lia|]. specialize (R5 ltac:(lia)). exfalso.
      set (s := length (g_specials g)) in *. replace (s + S n - 1)%nat with (s + n)%nat in R5 by lia. replace (S n - 1)%nat with n in R5 by lia.
      assert ((s + n) * (s + n) = s * s + n * (2 * s + n))%nat by ring. assert (n <= n * (2 * s + n) \/ n = 0)%nat by nia. lia.
    - destruct R2 as [R2|(R2 & R2')]; [discriminate|]. inversion_clear R1 as [|? ? (I1 & I2) _]. inversion_clear R2' as [|? ? W _]. cbn [fst snd] in *.
      destruct (PO p pr I1) as (P1 & P2 & P3). destruct I2 as (S1 & _). unfold isSpecial in S1. fold (hiOf pr) in S1. rewrite get_flagged in S1 by (auto; apply hiOf_lt). injection S1 as S1.
      destruct (SUR _ (hiOf_lt pr) S1) as (j & J1 & J2). rewrite <- J2 in P2.
      destruct (Nat.lt_ge_cases j (length ((p, pr) :: R) + specs)) as [L|L]; [|lia]. exfalso.
      pose proof (MONO j (length ((p, pr) :: R) + specs - 1)%nat ltac:(lia)). cbn [length] in *. lia. }
  destruct (Nat.ltb_spec (length R + specs) 256) as [_|Q]; [|lia].
  rewrite (Nat.min_l forFree (length R)) by exact R4.
  destruct (takeKeys_total g t true key LS forFree 0) as (frees & EF).
  { intros i Hi. destruct (K i ltac:(lia)) as (K1 & K2 & K3 & K4). rewrite (FREE i ltac:(lia)) in K4. auto. }
  destruct (takeKeys_total g t false key LS specs forFree) as (news & EN).
  { intros i Hi. destruct (K i ltac:(lia)) as (K1 & K2 & K3 & K4). repeat (split; [assumption|]). discriminate. }
  destruct (takeKeys_total g t false key LS (length R - forFree) (forFree + specs)) as (freed & ED).
  { intros i Hi. destruct (K i ltac:(lia)) as (K1 & K2 & K3 & K4). repeat (split; [assumption|]). discriminate. }
  rewrite EF. cbn [bind]. rewrite EN. cbn [bind]. rewrite ED. cbn [bind].
  apply takeKeys_ok in EF, EN, ED. destruct EF as (L1 & T1). destruct EN as (L2 & T2). destruct ED as (L3 & T3).
  destruct ((length (freed ++ frees) =? length R)%nat && (0 <? ft_last t)%nat) eqn:EQ; [|rewrite app_length in EQ; lia].
  destruct (K (ft_last t - 1)%nat ltac:(lia)) as (_ & _ & KL & _). rewrite KL. cbn [bind]. do 5 eexists. split; [reflexivity|].
  intros I. apply In_nth_error in I. destruct I as (k & X).
  assert (Y : (k < length R + specs)%nat /\ ftGetKey t k = Ok (key (ft_last t - 1)%nat)).
  { apply nth_error_three in X. destruct X as [X|[(Y & X)|(Y & X)]]; pose proof (nth_error_bound _ _ _ X).
    - apply T1 in X. cbn [Nat.add] in X. split; [lia|apply X].
    - apply T2 in X. destruct X as (X1 & _). split; [lia|]. replace (forFree + (k - length frees))%nat with k in X1 by lia. exact X1.
    - apply T3 in X. destruct X as (X1 & _). split; [lia|]. replace (forFree + specs + (k - (length frees + length news)))%nat with k in X1 by lia. exact X1. }
  destruct Y as (Y1 & Y2). destruct (K k ltac:(lia)) as (_ & _ & K3 & _). rewrite Y2 in K3. injection K3 as K3. apply INJ in K3; lia.
Qed.

(** ** decideReplacements *)
Lemma decide_total : forall sortF g rules st, sorts_by_frequency sortF -> gram g rules ->
  t_len (a_freqs st) = 256 -> (forall c, c < 256 -> tval (a_freqs st) c < 4294966000) -> (length (g_specials g) <= 240)%nat ->
  (forall a b, a < 256 -> b < 256 -> tval (a_pairs st) (pair16 a b) <= tval (a_freqs st) a /\ tval (a_pairs st) (pair16 a b) <= tval (a_freqs st) b) ->
  (exists c, c < 256 /\ flagged (g_special g) c = false /\ tval (a_freqs st) c <> 0) ->
  exists r, decideReplacements sortF layoutOver g st = Ok r.
Proof.
  intros sortF g rules st HS G HL HB Hs HP HE.
  assert (Hq : (length (g_pairs g) <= length (g_specials g) * length (g_specials g))%nat) by (destruct (gr_q _ _ G) as [(Q1 & Q2)|Q]; lia).
  destruct (plan_total sortF g st HS (gr_special _ _ G)) as (common & R & frees & news & freed & E & NC); auto.
  { intros c. apply (gr_flag _ _ G). }
  rewrite decide_plan, E. cbn [bind].
  destruct (plan_ok sortF g st common R frees news freed HS (gr_special _ _ G) Hq ltac:(lia) HL HB E) as (D & _).
  destruct (0 <? length R)%nat; [|eauto]. destruct (construct_total g rules _ _ common R frees news freed G D NC) as ([g1 table] & EC). rewrite EC. cbn [bind]. eauto.
Qed.

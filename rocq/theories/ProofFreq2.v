(** Sequences of operations on the frequency table. *)
From Coq Require Import List NArith ZArith Lia Arith Bool Permutation Sorted.
From Coq Require Import ZifyBool ZifyNat ZifyN.
From Verif Require Import Base Arrays ModelUtils ModelSort ModelFreq SpecFreq ProofSort ProofFreq.
Import ListNotations.
Open Scope N_scope.

(** Internal values [mt] (those of removed symbols are arbitrary). *)
Definition good (t : ftable) (m : N -> N) (removed : list N) : Prop :=
  exists mt, tableOf t mt /\ ordered t /\ removed_high t /\ (ft_last t + length removed = 256)%nat /\
    (forall c, c < 256 -> active t c <-> ~ In c removed) /\
    (forall c, c < 256 -> ~ In c removed -> mt c = m c) /\
    (forall c, c < 256 -> ~ In c removed -> m c < 2 ^ 40).

Lemma removed_high_keys : forall t m, tableOf t m ->
  removed_high t <-> (forall c d, c < 256 -> d < 256 -> active t c -> ~ active t d -> m c < m d).
Proof.
  intros t m HT. split.
  - intros H c d Hc Hd (i & Hi & Ei) HN.
    destruct (tableOf_key t m c HT Hc) as (i' & I1 & I2 & I3). rewrite Ei in I2. injection I2 as I2. assert (i' = i) by lia. subst i'.
    destruct (tableOf_key t m d HT Hd) as (j & J1 & J2 & J3).
    apply (H i j c (m c) d (m d)); auto. split; [exact Hi|].
    destruct (Nat.le_gt_cases (ft_last t) j); [assumption|]. exfalso. apply HN. exists j. auto.
  - intros H i j c f d g Hij Ei Ej. pose proof HT as (_ & _ & _ & D2).
    destruct (D2 _ _ _ Ei) as (Hc & -> & Lc). destruct (D2 _ _ _ Ej) as (Hd & -> & Ld).
    apply H; auto.
    + exists i. split; [lia|exact Lc].
    + intros (x & Hx & Ex). rewrite Ld in Ex. injection Ex as Ex. lia.
Qed.

Lemma good_step : forall t m removed op, good t m removed -> permitted m removed op ->
  exists t', ftApply layoutOver t op = Ok t' /\ good t' (frequenciesAfter m op) (removedAfter removed op).
Proof.
  intros t m removed op (mt & HT & HO & HR & HL & HA & HM & HB) HP.
  destruct op as [key v|key v|key]; cbn [permitted frequenciesAfter removedAfter ftApply] in *.
  - destruct HP as (Hk & -> & Hv). cbn [length In] in *.
    assert (EM : mt key = m key) by (apply HM; auto).
    destruct (ftIncrease_all layoutOver (2 ^ 40) t mt key v layoutOver_bound HT HO Hk) as (t' & i' & E & R1 & R2 & R3 & R4 & R5 & R6); auto.
    + lia.
    + apply HA; auto.
    + lia.
    + lia.
    + intros c f Hcf. exfalso. apply nth_error_bound in Hcf. pose proof HT as (L & _). lia.
    + exists t'. split; [exact E|]. exists (with_value mt key (mt key + v)). split; [exact R1|]. split; [exact R2|].
      split. { intros i j c f d g Hij _ Ej. pose proof R1 as (L & _). apply nth_error_bound in Ej. lia. }
      split; [cbn [length]; lia|]. split.
      { intros c Hc. split; [tauto|]. intros _. destruct (tableOf_key t' _ c R1 Hc) as (i & I1 & I2 & I3). exists i. split; [lia|exact I2]. }
      split.
      { intros c Hc _. unfold with_value. destruct (N.eqb_spec c key) as [->|]; [lia|]. apply HM; auto. }
      { intros c Hc _. unfold with_value. destruct (N.eqb_spec c key) as [->|]; [exact Hv|]. apply HB; auto. }
  - destruct HP as (Hk & Hn & Hv). assert (EM : mt key = m key) by (apply HM; auto).
    destruct (ftDecrease_all t mt key v HT HO Hk) as (t' & E & R1 & R2 & R3 & R4); [lia|].
    assert (AK : active t key) by (apply HA; auto).
    exists t'. split; [exact E|]. exists (with_value mt key (mt key - v)). split; [exact R1|]. split; [exact R2|].
    split.
    { apply (removed_high_keys t' _ R1). intros c d Hc Hd HAc HAd. rewrite R4 in HAc by auto. rewrite R4 in HAd by auto.
      pose proof (proj1 (removed_high_keys t mt HT) HR c d Hc Hd HAc HAd).
      unfold with_value. destruct (N.eqb_spec d key) as [->|]; [contradiction|]. destruct (N.eqb_spec c key) as [->|]; lia. }
    split; [lia|]. split; [intros c Hc; rewrite R4 by auto; apply HA; auto|].
    split.
    { intros c Hc Hnc. unfold with_value. destruct (N.eqb_spec c key) as [->|]; [lia|]. apply HM; auto. }
    { intros c Hc Hnc. unfold with_value. destruct (N.eqb_spec c key) as [->|]; [specialize (HB key Hk Hn); lia|]. apply HB; auto. }
  - destruct HP as (Hk & Hn).
    destruct (ftRemove_all layoutOver (2 ^ 40) t mt key layoutOver_bound HT HO HR Hk) as (t' & v & E & R1 & R2 & R3 & R4 & R5 & R6); auto.
    + lia.
    + apply HA; auto.
    + intros c Hc HAc. apply HA in HAc; [|exact Hc]. rewrite HM by auto. apply HB; auto.
    + lia.
    + exists t'. split; [exact E|]. exists (with_value mt key v). split; [exact R1|]. split; [exact R2|]. split; [exact R3|].
      split; [cbn [length]; lia|].
      split. { intros c Hc. rewrite R5 by exact Hc. rewrite HA by exact Hc. cbn [In]. split; [intros (X & Y); intros [Z|Z]; auto|].
               intros X. split; [tauto|]. intros ->. tauto. }
      split.
      { intros c Hc Hnc. cbn [In] in Hnc. unfold with_value. destruct (N.eqb_spec c key) as [->|]; [tauto|]. apply HM; auto. }
      { intros c Hc Hnc. cbn [In] in Hnc. apply HB; auto. }
Qed.

Lemma good_run : forall m removed ops m' removed', permittedAll m removed ops m' removed' ->
  forall t, good t m removed -> exists t', ftRun layoutOver t ops = Ok t' /\ good t' m' removed'.
Proof.
  induction 1 as [m removed|m removed op ops m' removed' HP HA IH]; intros t HG; cbn [ftRun]; [eauto|].
  destruct (good_step t m removed op HG HP) as (t1 & E & HG1). rewrite E. cbn [bind]. apply IH. exact HG1.
Qed.

Lemma good_shows : forall t m removed, good t m removed -> shows t m removed.
Proof.
  intros t m removed (mt & HT & HO & HR & HL & HA & HM & HB). pose proof HT as (L1 & L2 & D1 & D2).
  assert (KEY : forall i, (i < ft_last t)%nat -> exists c, c < 256 /\ ~ In c removed /\ nth_error (ft_freqs t) i = Some (c, m c)).
  { intros i Hi. destruct (tableOf_pos t mt i HT ltac:(lia)) as (c & Hc & E1 & E2). exists c.
    assert (~ In c removed) by (apply HA; [exact Hc|exists i; auto]). rewrite <- HM by auto. auto. }
  split; [exact HL|]. split; [|split].
  - intros c Hc Hn. destruct (D1 c Hc) as (i & E1 & E2). split.
    + unfold ftGetFrequencyWithKey. rewrite (get_ok _ _ _ E1). cbn [bind]. rewrite Nat2N.id, (get_ok _ _ _ E2). cbn [bind snd].
      rewrite HM by auto. reflexivity.
    + apply HA in Hn; [|exact Hc]. destruct Hn as (j & Hj & Ej). rewrite E1 in Ej. injection Ej as Ej. exists i. split; [lia|].
      unfold ftGetKey. destruct (Nat.leb_spec i 255); [|lia]. rewrite (get_ok _ _ _ E2). reflexivity.
  - intros i Hi. destruct (KEY i Hi) as (c & Hc & Hn & E). exists c. split; [exact Hc|]. split; [exact Hn|].
    unfold ftGetKey, ftGetFrequency. destruct (Nat.leb_spec i 255); [|lia]. destruct (Nat.ltb_spec i (ft_last t)); [|lia].
    rewrite (get_ok _ _ _ E). split; reflexivity.
  - intros i j c d Hij. unfold ftGetKey. destruct (Nat.leb_spec i 255); [|lia]. destruct (Nat.leb_spec j 255); [|lia].
    destruct (KEY i ltac:(lia)) as (c' & Hc & Hn & E). destruct (KEY j ltac:(lia)) as (d' & Hd & Hn' & E').
    rewrite (get_ok _ _ _ E), (get_ok _ _ _ E'). cbn [bind fst]. intros X Y. injection X as <-. injection Y as <-. split.
    + intros <-. destruct (D2 _ _ _ E) as (_ & _ & X1). destruct (D2 _ _ _ E') as (_ & _ & X2). rewrite X1 in X2. injection X2 as X2. lia.
    + apply (HO i j (c', m c') (d', m d')); auto. lia.
Qed.

Lemma init_good : forall sortF frequencies, sorts_by_frequency sortF -> length frequencies = 256%nat ->
  Forall (fun f => f < 2 ^ 40) frequencies ->
  exists t, ftInit sortF frequencies = Ok t /\ good t (fun c => nth (N.to_nat c) frequencies 0) [].
Proof.
  intros sortF frequencies HS HL HB. destruct (ftInit_all sortF frequencies HS HL) as (t & E & HT & HO & Hl).
  exists t. split; [exact E|]. eexists. split; [exact HT|]. split; [exact HO|]. split.
  - intros i j c f d g Hij _ Ej. pose proof HT as (L & _). apply nth_error_bound in Ej. lia.
  - split; [rewrite Hl; reflexivity|]. split; [|split].
    + intros c Hc. split; [auto|]. intros _. destruct (tableOf_key t _ c HT Hc) as (i & I1 & I2 & I3). exists i. split; [lia|exact I2].
    + reflexivity.
    + intros c Hc _. rewrite Forall_forall in HB. apply HB. apply nth_In. lia.
Qed.

Lemma C35_all : forall sortF frequencies ops m removed, sorts_by_frequency sortF -> length frequencies = 256%nat ->
  Forall (fun f => f < 2 ^ 40) frequencies ->
  permittedAll (fun c => nth (N.to_nat c) frequencies 0) [] ops m removed ->
  exists t t', ftInit sortF frequencies = Ok t /\ ftRun layoutOver t ops = Ok t' /\ shows t' m removed.
Proof.
  intros sortF frequencies ops m removed HS HL HB HP. destruct (init_good sortF frequencies HS HL HB) as (t & E & HG).
  destruct (good_run _ _ _ _ _ HP t HG) as (t' & E' & HG'). exists t, t'. split; [exact E|]. split; [exact E'|]. apply good_shows. exact HG'.
Qed.

(** Removal from a table nothing has been removed from always reads behind the array. *)
Lemma C35_over_all : forall sortF frequencies key, sorts_by_frequency sortF -> length frequencies = 256%nat ->
  Forall (fun f => f < 2 ^ 40) frequencies -> key < 256 ->
  exists t, ftInit sortF frequencies = Ok t /\ ftRemove strictOver t key = UB.
Proof.
  intros sortF frequencies key HS HL HB Hk. destruct (ftInit_all sortF frequencies HS HL) as (t & E & HT & HO & Hl).
  exists t. split; [exact E|]. eapply ftRemove_strict; eauto.
  intros c Hc. cbn beta. assert (nth (N.to_nat c) frequencies 0 < 2 ^ 40); [|lia].
  rewrite Forall_forall in HB. apply HB. apply nth_In. lia.
Qed.

Definition sortByFrequency (l : list (N * N)) : list (N * N) := mergeSort (fun p q => snd p <=? snd q) l.
Lemma sortByFrequency_ok : sorts_by_frequency sortByFrequency.
Proof.
  intros l. destruct (mergeSort_facts (N * N) (fun p q => snd p <=? snd q)) with (l := l) as (P & S).
  - intros a b H. lia.
  - intros a b c H1 H2. lia.
  - split; [exact P|]. clear P. unfold sortByFrequency. induction S as [|x l' S IH F]; constructor; [exact IH|].
    eapply Forall_impl; [|exact F]. intros a Ha. cbn beta in Ha. apply N.leb_le. exact Ha.
Qed.

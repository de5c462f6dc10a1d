(** What PairReplacer::decideReplacements decides. *)
From Coq Require Import List NArith ZArith Lia Arith Bool Permutation Sorted.
From Coq Require Import ZifyBool ZifyNat ZifyN.
From Verif Require Import Base Arrays TArray ModelUtils ModelSort ModelFreq ModelGrammar ModelPairs SpecFreq ProofSort ProofFreq ProofFreq2
  ProofPairs1 ProofPairs2 ProofPairs3.
Import ListNotations.
Open Scope N_scope.

Lemma pairsFrom_in : forall t k i p pr, In (p, pr) (pairsFrom t i k) -> p = tval t pr /\ i <= pr < i + N.of_nat k.
Proof.
  induction k as [|k IH]; intros i p pr H; cbn [pairsFrom] in H; [destruct H|].
  destruct H as [H|H]; [injection H as <- <-; split; [reflexivity|lia]|]. apply IH in H. destruct H as (-> & H). split; [reflexivity|lia].
Qed.

Lemma removeSpecials_ok : forall m special i t removed, good t m removed -> (forall c, In c removed -> c < i) ->
  i + N.of_nat (length special) <= 256 ->
  exists t' removed', removeSpecials layoutOver i special t = Ok t' /\ good t' m removed' /\
    forall c, In c removed' <-> In c removed \/ (i <= c /\ nth_error special (N.to_nat (c - i)) = Some true).
Proof.
  intros m. induction special as [|b special IH]; intros i t removed HG HR HI; cbn [removeSpecials length] in *.
  - exists t, removed. split; [reflexivity|]. split; [exact HG|]. intros c. destruct (N.to_nat (c - i)); cbn; intuition discriminate.
  - assert (S : exists t1 removed1, (if b then ftRemove layoutOver t i else Ok t) = Ok t1 /\ good t1 m removed1 /\
                 forall c, In c removed1 <-> In c removed \/ (c = i /\ b = true)).
    { destruct b.
      - destruct (good_step t m removed (Remove i) HG) as (t1 & E & G1). { cbn. split; [lia|]. intros X. apply HR in X. lia. }
        exists t1, (i :: removed). cbn in E, G1. split; [exact E|]. split; [exact G1|]. intros c. cbn. intuition.
      - exists t, removed. split; [reflexivity|]. split; [exact HG|]. intros c. intuition discriminate. }
    destruct S as (t1 & removed1 & E1 & G1 & S1). rewrite E1. cbn [bind].
    destruct (IH (i + 1) t1 removed1 G1) as (t' & removed' & E & G & S2).
    + intros c Hc. apply S1 in Hc. destruct Hc as [Hc|(-> & _)]; [apply HR in Hc|]; lia.
    + lia.
    + exists t', removed'. split; [exact E|]. split; [exact G|]. intros c. rewrite S2, S1.
      destruct (N.eq_dec c i) as [->|NE].
      * replace (N.to_nat (i - i)) with 0%nat by lia. cbn [nth_error].
        split; [intros [[X|(_ & ->)]|(X & _)]; [auto|right; split; [lia|reflexivity]|lia]|].
        intros [X|(_ & X)]; [auto|]. injection X as ->. auto.
      * destruct (N.le_gt_cases i c).
        -- replace (N.to_nat (c - i)) with (S (N.to_nat (c - (i + 1)))) by lia. cbn [nth_error].
           split; [intros [[X|(X & _)]|(_ & X)]; [auto|contradiction|right; split; [lia|exact X]]|].
           intros [X|(_ & X)]; [auto|]. right. split; [lia|exact X].
        -- split; [intros [[X|(X & _)]|(X & _)]; [auto|contradiction|lia]|]. intros [X|(X & _)]; [auto|lia].
Qed.

Lemma takeKeys_ok : forall g t zero k j l, takeKeys g t zero k j = Ok l ->
  length l = k /\ (forall i c, nth_error l i = Some c -> ftGetKey t (j + i) = Ok c /\ isSpecial g c = Ok false /\
    (zero = true -> ftGetFrequency t (j + i) = Ok 0)).
Proof.
  intros g t zero. induction k as [|k IH]; intros j l H; cbn [takeKeys] in H.
  - injection H as <-. split; [reflexivity|]. intros [|i] c X; discriminate.
  - bd H. bd H. bd H. destruct (a0 || negb (a1 =? 0)) eqn:EB; [discriminate|]. bd H. injection H as <-.
    apply orb_false_iff in EB. destruct EB as (-> & B2). apply negb_false_iff, N.eqb_eq in B2. subst a1.
    destruct (IH _ _ E2) as (L & F). split; [cbn [length]; lia|]. intros [|i] c X.
    + injection X as <-. rewrite Nat.add_0_r. split; [exact E|]. split; [exact E0|]. intros ->. exact E1.
    + replace (j + S i)%nat with (S j + i)%nat by lia. apply F. exact X.
Qed.

(** The symbols and pairs decided on: [R] with frequencies, variables taken from unused symbols ([frees])
    and from symbols given special pairs ([freed]), new special symbols [news]. *)
Definition decision (g : grammar) (F P : N -> N) (common : N) (R : list (N * N)) (frees news freed : list N) : Prop :=
  common < 256 /\ isSpecial g common = Ok false /\
  NoDup (frees ++ news ++ freed) /\
  (forall c, In c (frees ++ news ++ freed) -> c < 256 /\ isSpecial g c = Ok false) /\
  (forall c, In c frees -> F c = 0) /\
  (forall p pr, In (p, pr) R -> pr < 65536 /\ p = P pr /\ 0 < p /\ plain g pr /\
     forall c, In c (frees ++ news ++ freed) -> F c < p) /\
  length R = (length freed + length frees)%nat /\
  fits (length (g_specials g)) (length (g_pairs g)) (length news) (length freed).

Lemma nth_error_three : forall {A} (a b c : list A) k x, nth_error (a ++ b ++ c) k = Some x ->
  nth_error a k = Some x \/ ((length a <= k)%nat /\ nth_error b (k - length a) = Some x) \/
  ((length a + length b <= k)%nat /\ nth_error c (k - (length a + length b)) = Some x).
Proof.
  intros A a b c k x H. destruct (Nat.lt_ge_cases k (length a)) as [L|L].
  - rewrite nth_error_app1 in H by exact L. auto.
  - rewrite nth_error_app2 in H by exact L. right. destruct (Nat.lt_ge_cases (k - length a) (length b)) as [L2|L2].
    + rewrite nth_error_app1 in H by exact L2. auto.
    + rewrite nth_error_app2 in H by exact L2. right. split; [lia|]. rewrite <- H. f_equal. lia.
Qed.

(** Where they come from: the pairs found for the best start and the least frequent symbols. *)
Definition taken (g : grammar) (st : analysis) (R : list (N * N)) (symbols : list N) : Prop :=
  exists t (key : nat -> N) u specs forFree,
    findReplaceablePairs g t (makePairList st) = Ok (R, u, specs, forFree) /\
    (forall i, (i < ft_last t)%nat -> key i < 256 /\ ftGetFrequency t i = Ok (tval (a_freqs st) (key i))) /\
    length symbols = (length R + specs)%nat /\ (length R + specs <= ft_last t)%nat /\
    forall k c, nth_error symbols k = Some c -> c = key k.

(** The decision without the table. *)
Definition decidePlan (sortF : list (N * N) -> list (N * N)) (over : list N -> outcome N) (g : grammar) (st : analysis)
    : outcome (N * list (N * N) * list N * list N * list N) :=
  let! t := ftInit sortF (ttake (a_freqs st) 0 256) in
  let! t := removeSpecials over 0 (g_special g) t in
  let! (pairs, _, nSpecials, forFree) := findReplaceablePairs g t (makePairList st) in
  if (length pairs + nSpecials <? 256)%nat then
    let! frees := takeKeys g t true (Nat.min forFree (length pairs)) 0 in
    let! news := takeKeys g t false nSpecials (Nat.min forFree (length pairs)) in
    let! freed := takeKeys g t false (length pairs - forFree) (Nat.min forFree (length pairs) + nSpecials) in
    if (length (freed ++ frees) =? length pairs)%nat && (0 <? ft_last t)%nat then
      let! common := ftGetKey t (ft_last t - 1) in
      Ok (common, pairs, frees, news, freed)
    else UB
  else UB.
Lemma decide_plan : forall sortF over g st, decideReplacements sortF over g st =
  let! (common, R, frees, news, freed) := decidePlan sortF over g st in
  if (0 <? length R)%nat then
    let! (g, table) := constructReplacementTable g common (tmake 65536 (pair16 common common)) R freed news (freed ++ frees) in Ok (g, common, table)
  else Ok (g, common, tmake 65536 (pair16 common common)).
Proof.
  intros sortF over g st. unfold decideReplacements, decidePlan. cbv zeta.
  destruct (ftInit sortF (ttake (a_freqs st) 0 256)) as [t0| |]; cbn [bind]; [|reflexivity|reflexivity].
  destruct (removeSpecials over 0 (g_special g) t0) as [t| |]; cbn [bind]; [|reflexivity|reflexivity].
  destruct (findReplaceablePairs g t (makePairList st)) as [[[[R u] specs] forFree]| |]; cbn [bind]; [|reflexivity|reflexivity].
  destruct (length R + specs <? 256)%nat; [|reflexivity].
  destruct (takeKeys g t true (Nat.min forFree (length R)) 0) as [frees| |]; cbn [bind]; [|reflexivity|reflexivity].
  destruct (takeKeys g t false specs (Nat.min forFree (length R))) as [news| |]; cbn [bind]; [|reflexivity|reflexivity].
  destruct (takeKeys g t false (length R - forFree) (Nat.min forFree (length R) + specs)) as [freed| |]; cbn [bind]; [|reflexivity|reflexivity].
  destruct ((length (freed ++ frees) =? length R)%nat && (0 <? ft_last t)%nat); [|reflexivity].
  destruct (ftGetKey t (ft_last t - 1)) as [common| |]; cbn [bind]; reflexivity.
Qed.

Lemma plan_ok : forall sortF g st common R frees news freed,
  sorts_by_frequency sortF -> length (g_special g) = 256%nat ->
  (length (g_pairs g) <= length (g_specials g) * length (g_specials g))%nat -> (length (g_specials g) <= 256)%nat ->
  t_len (a_freqs st) = 256 -> (forall c, c < 256 -> tval (a_freqs st) c < 4294966000) ->
  decidePlan sortF layoutOver g st = Ok (common, R, frees, news, freed) ->
  decision g (tval (a_freqs st)) (tval (a_pairs st)) common R frees news freed /\ taken g st R (frees ++ news ++ freed).
Proof.
  intros sortF g st common0 R0 frees0 news0 freed0 HS LS Hq Hs HL HB H. unfold decidePlan in H.
  set (F := tval (a_freqs st)) in *. set (P := tval (a_pairs st)).
  destruct (init_good sortF (ttake (a_freqs st) 0 256) HS) as (t0 & E0 & G0).
  { apply ttake_length. }
  { apply Forall_forall. intros x Hx. apply (In_nth _ _ 0) in Hx. destruct Hx as (i & Hi & <-). rewrite ttake_length in Hi.
    assert (Y : forall k (t : tarray N) j i d, (i < k)%nat -> nth i (ttake t j k) d = tval t (j + N.of_nat i)).
    { clear. induction k as [|k IH]; intros t j i d Hi; [lia|]. cbn [ttake]. destruct i as [|i]; cbn [nth]; [f_equal; lia|]. rewrite IH by lia. f_equal. lia. }
    rewrite Y by exact Hi. specialize (HB (0 + N.of_nat i) ltac:(lia)). unfold F in HB. lia. }
  rewrite E0 in H. cbn [bind] in H.
  destruct (removeSpecials_ok _ (g_special g) 0 t0 [] G0) as (t & removed & E & G & RS); [intros c []|lia|].
  rewrite E in H. cbn [bind] in H. clear E E0 G0 t0.
  assert (RS' : forall c, In c removed <-> nth_error (g_special g) (N.to_nat c) = Some true).
  { intros c. rewrite RS. replace (c - 0) with c by lia. split; [intros [[]|(_ & X)]; exact X|]. intros X. right. split; [lia|exact X]. }
  assert (FM : forall c, c < 256 -> nth (N.to_nat c) (ttake (a_freqs st) 0 256) 0 = F c).
  { intros c Hc. assert (Y : forall k (t : tarray N) j i d, (i < k)%nat -> nth i (ttake t j k) d = tval t (j + N.of_nat i)).
    { clear. induction k as [|k IH]; intros t j i d Hi; [lia|]. cbn [ttake]. destruct i as [|i]; cbn [nth]; [f_equal; lia|]. rewrite IH by lia. f_equal. lia. }
    rewrite Y by lia. unfold F. f_equal. lia. }
  set (m := fun c => nth (N.to_nat c) (ttake (a_freqs st) 0 256) 0) in *.
  assert (FM' : forall c, c < 256 -> m c = F c) by exact FM. clearbody m. clear FM RS.
  apply good_shows in G. destruct G as (SL & S1 & S2 & S3).
  (* the key and the frequency at every index *)
  assert (K : exists key : nat -> N, forall i, (i < ft_last t)%nat -> key i < 256 /\ ~ In (key i) removed /\ ftGetKey t i = Ok (key i) /\
              ftGetFrequency t i = Ok (F (key i))).
  { exists (fun i => match ftGetKey t i with Ok c => c | _ => 0 end). intros i Hi. destruct (S2 i Hi) as (c & Hc & Hn & EK & EF).
    rewrite EK. split; [exact Hc|]. split; [exact Hn|]. split; [reflexivity|]. rewrite EF, FM' by exact Hc. f_equal. apply N.mod_small.
    specialize (HB c Hc). lia. }
  destruct K as (key & K).
  assert (HMono : forall i j, (i <= j < ft_last t)%nat -> F (key i) <= F (key j)).
  { intros i j Hij. destruct (Nat.eq_dec i j) as [->|NE]; [lia|]. destruct (K i ltac:(lia)) as (A1 & _ & A2 & _). destruct (K j ltac:(lia)) as (B1 & _ & B2 & _).
    destruct (S3 i j (key i) (key j) ltac:(lia) A2 B2) as (_ & X). rewrite !FM' in X by assumption. exact X. }
  bd H. destruct a as [[[R u] specs] forFree]. rename E into ER.
  assert (PL : forall p pr, In (p, pr) (makePairList st) -> p = P pr /\ pr < 65536).
  { intros p pr I. apply pairsFrom_in in I. destruct I as (I1 & I2). split; [exact I1|]. lia. }
  pose proof ER as ER0. unfold findReplaceablePairs in ER. remember (makePairList st) as pl eqn:Epl.
  destruct (sortPairs_facts pl) as (PP & PD).
  apply (bestStart_ok g t (fun i => F (key i)) pl) in ER; auto.
  2:{ intros i Hi. apply K. exact Hi. }
  2:{ intros i Hi. apply HB. apply K. exact Hi. }
  2:{ lia. }
  2:{ intros x Hx. eapply Permutation_in; eauto. }
  2:{ split; [constructor|]. split; [left; reflexivity|]. cbn [length]. split; [lia|]. split; [lia|]. split; [lia|lia]. }
  destruct ER as (R1 & R2 & R3 & R4 & R5).
  destruct (length R + specs <? 256)%nat eqn:EU; [|discriminate].
  bd H. rename a into frees. bd H. rename a into news. bd H. rename a into freed.
  apply takeKeys_ok in E, E0, E1. destruct E as (L1 & T1). destruct E0 as (L2 & T2). destruct E1 as (L3 & T3).
  rewrite (Nat.min_l forFree (length R)) in * by exact R4.
  destruct ((length (freed ++ frees) =? length R)%nat && (0 <? ft_last t)%nat) eqn:EB; [|discriminate].
  apply andb_true_iff in EB. destruct EB as (B1 & B2). bd H. rename a into common. injection H as <- <- <- <- <-.
  assert (IDX : forall k c, nth_error (frees ++ news ++ freed) k = Some c ->
    (k < length R + specs)%nat /\ ftGetKey t k = Ok c /\ isSpecial g c = Ok false /\ (In c frees -> True)).
  { intros k c X. apply nth_error_three in X. destruct X as [X|[(Y & X)|(Y & X)]].
    - pose proof (nth_error_bound _ _ _ X). apply T1 in X. cbn [Nat.add] in X. destruct X as (X1 & X2 & X3). split; [lia|]. auto.
    - pose proof (nth_error_bound _ _ _ X). apply T2 in X. destruct X as (X1 & X2 & _). split; [lia|].
      replace (forFree + (k - length frees))%nat with k in X1 by lia. auto.
    - pose proof (nth_error_bound _ _ _ X). apply T3 in X. destruct X as (X1 & X2 & _). split; [lia|].
      replace (forFree + specs + (k - (length frees + length news)))%nat with k in X1 by lia. auto. }
  assert (KEYS : forall k c, nth_error (frees ++ news ++ freed) k = Some c -> c = key k /\ (k < ft_last t)%nat).
  { intros k c X. apply IDX in X. destruct X as (X0 & X1 & _). destruct (K k ltac:(lia)) as (_ & _ & Y & _). rewrite X1 in Y. injection Y as ->. split; [reflexivity|lia]. }
  assert (COMMON : common < 256 /\ isSpecial g common = Ok false).
  { destruct (K (ft_last t - 1)%nat ltac:(lia)) as (A1 & A2 & A3 & _). rewrite E in A3. injection A3 as ->. split; [exact A1|].
    unfold isSpecial. destruct (nth_error (g_special g) (N.to_nat (key (ft_last t - 1)%nat))) as [b|] eqn:EN.
    - rewrite (get_ok _ _ _ EN). destruct b; [|reflexivity]. exfalso. apply A2. apply RS'. exact EN.
    - exfalso. apply nth_error_None in EN. lia. }
  assert (DEC : decision g F P common R frees news freed).
  { unfold decision. split; [apply COMMON|]. split; [apply COMMON|]. split.
    { apply NoDup_nth_error. intros i j Hi X. destruct (nth_error (frees ++ news ++ freed) i) as [c|] eqn:EI; [|apply nth_error_None in EI; lia].
      symmetry in X. destruct (IDX _ _ EI) as (I1 & I2 & _). destruct (IDX _ _ X) as (J1 & J2 & _).
      destruct (Nat.lt_trichotomy i j) as [Q|[Q|Q]]; [|exact Q|]; exfalso.
      - destruct (S3 i j c c ltac:(lia) I2 J2) as (Z & _). congruence.
      - destruct (S3 j i c c ltac:(lia) J2 I2) as (Z & _). congruence. }
    split. { intros c Hc. apply In_nth_error in Hc. destruct Hc as (k & X). pose proof (IDX _ _ X) as (_ & _ & Y & _). apply KEYS in X. destruct X as (-> & X).
             split; [apply K; exact X|exact Y]. }
    split. { intros c Hc. apply In_nth_error in Hc. destruct Hc as (k & X). pose proof (nth_error_bound _ _ _ X).
             destruct (T1 _ _ X) as (Y1 & _ & Y3). specialize (Y3 eq_refl). cbn [Nat.add] in *. destruct (K k ltac:(lia)) as (_ & _ & Z1 & Z2).
             rewrite Y1 in Z1. rewrite Y3 in Z2. injection Z1 as ->. injection Z2 as <-. reflexivity. }
    split. { intros p pr X. rewrite Forall_forall in R1. destruct (R1 _ X) as (X1 & X2). apply PL in X1.
             destruct X1 as (-> & X1). split; [exact X1|]. split; [reflexivity|].
             destruct R2 as [->|(U1 & U2)]; [destruct X|]. rewrite Forall_forall in U2. specialize (U2 _ X). cbn [fst] in U2.
             split; [lia|]. split; [exact X2|]. intros c Hc. apply In_nth_error in Hc. destruct Hc as (k & Y). pose proof (IDX _ _ Y) as (Y0 & _).
             apply KEYS in Y. destruct Y as (-> & Y). pose proof (HMono k (length R + specs - 1)%nat ltac:(lia)). lia. }
    split. { rewrite app_length in B1. lia. }
    rewrite L2, L3. exact R5. }
  assert (TK : taken g st R (frees ++ news ++ freed)).
  { exists t, key, u, specs, forFree. rewrite <- Epl. split; [exact ER0|]. split; [intros i Hi; split; apply K; exact Hi|].
    split; [rewrite !app_length; lia|]. split; [exact R3|]. intros k c X. apply (KEYS k c X). }
  split; [exact DEC|exact TK].
Qed.

Lemma decide_ok : forall sortF g st g' common table,
  sorts_by_frequency sortF -> length (g_special g) = 256%nat ->
  (length (g_pairs g) <= length (g_specials g) * length (g_specials g))%nat -> (length (g_specials g) <= 256)%nat ->
  t_len (a_freqs st) = 256 -> (forall c, c < 256 -> tval (a_freqs st) c < 4294966000) ->
  decideReplacements sortF layoutOver g st = Ok (g', common, table) ->
  exists R frees news freed, decision g (tval (a_freqs st)) (tval (a_pairs st)) common R frees news freed /\
   taken g st R (frees ++ news ++ freed) /\
   ((R = [] /\ g' = g /\ table = tmake 65536 (pair16 common common)) \/
    (R <> [] /\ constructReplacementTable g common (tmake 65536 (pair16 common common)) R freed news (freed ++ frees) = Ok (g', table))).
Proof.
  intros sortF g st g' common table HS LS Hq Hs HL HB H. rewrite decide_plan in H. bd H. destruct a as [[[[common0 R] frees] news] freed]. cbn beta iota in H.
  destruct (plan_ok _ _ _ _ _ _ _ _ HS LS Hq Hs HL HB E) as (DEC & TK). clear E.
  destruct (0 <? length R)%nat eqn:ER.
  - bd H. destruct a as [g1 table1]. injection H as <- <- <-. exists R, frees, news, freed. split; [exact DEC|]. split; [exact TK|]. right. split; [|exact E].
    intros ->. cbn in ER. discriminate.
  - injection H as <- <- <-. exists R, frees, news, freed. split; [exact DEC|]. split; [exact TK|]. left. split; [|auto]. destruct R; [reflexivity|discriminate].
Qed.

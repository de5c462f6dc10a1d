(** stage3sort: the sorted LMS suffixes are moved to the ends of their buckets. *)
From Coq Require Import List NArith ZArith Arith Bool Lia.
From Coq Require Import ZifyBool ZifyNat ZifyN.
From Verif Require Import Base Arrays ModelSais ProofSais1 ProofSais2 ProofSais3.
Import ListNotations.
Open Scope nat_scope.

Lemma fill_ok : forall count j SA, count <= j -> j <= length SA ->
  exists SA', fill count j SA = Ok SA' /\ length SA' = length SA /\
    forall r, nth_error SA' r = if (j - count <=? r) && (r <? j) then Some 0%Z else nth_error SA r.
Proof.
  induction count as [|count IH]; intros j SA H HL; cbn [fill].
  - exists SA. split; [reflexivity|]. split; [reflexivity|]. intros r.
    destruct ((j - 0 <=? r) && (r <? j)) eqn:E; [lia|reflexivity].
  - destruct j as [|j]; [lia|]. rewrite set_ok by lia. cbn [bind].
    destruct (IH j (upd SA j 0%Z)) as (SA' & E & L & HR); [lia|rewrite upd_length; lia|].
    exists SA'. split; [exact E|]. split; [rewrite L; apply upd_length|].
    intros r. rewrite HR, nth_error_upd by lia.
    destruct (Nat.eqb_spec r j) as [D|D].
    + subst r. replace ((j - count <=? j) && (j <? j)) with false by lia.
      replace ((S j - S count <=? j) && (j <? S j)) with true by lia. reflexivity.
    + replace ((S j - S count <=? r) && (r <? S j)) with ((j - count <=? r) && (r <? j)) by lia. reflexivity.
Qed.

Section Place.
Variable T : list N.
Variable k : nat.
Hypothesis HT : charsBelow T k.
Let n := length T.
Variable lm : nat -> nat.
Variable m : nat.
Hypothesis F1 : forall i, i < m -> lms T (lm i) = true.
Hypothesis F2 : forall q, lms T q = true -> exists i, i < m /\ lm i = q.
Hypothesis F3 : forall i j, i < j -> j < m -> slt T (lm i) (lm j) = true.
Local Notation row := (rowQ T (slt T) (lms T)).

Lemma lm_lt : forall i, i < m -> lm i < n.
Proof. intros i H. apply F1 in H. apply lms_lt in H. unfold n. lia. Qed.

Lemma lm_bucket : forall i, i < m -> startOf T (ch T (lm i)) <= row (lm i) < endOf T (ch T (lm i)).
Proof.
  intros i H. pose proof (F1 i H) as L. rewrite <- row_lms by assumption.
  apply row_bucket; [apply ordered_lms|]. rewrite L. apply orb_true_r.
Qed.

Lemma lm_row_mono : forall i j, i < j -> j < m -> row (lm i) < row (lm j).
Proof.
  intros i j H Hj. pose proof (F1 i ltac:(lia)) as Li. pose proof (F1 j Hj) as Lj.
  rewrite <- !row_lms by assumption. apply row_mono.
  - apply ordered_lms.
  - rewrite Li. apply orb_true_r.
  - rewrite Lj. apply orb_true_r.
  - apply F3; assumption.
Qed.

Lemma lm_row_ge : forall i, i < m -> i <= row (lm i).
Proof.
  induction i as [|i IH]; intros H; [lia|]. specialize (IH ltac:(lia)). pose proof (lm_row_mono i (S i) ltac:(lia) H). lia.
Qed.

Lemma lm_char : forall i j, i < j -> j < m -> (ch T (lm i) <= ch T (lm j))%N.
Proof. intros i j H Hj. apply slt_head_inv; [apply lm_lt; lia|apply lm_lt; assumption|apply F3; assumption]. Qed.

Lemma lm_slt : forall i j, i < m -> j < m -> slt T (lm i) (lm j) = (i <? j).
Proof.
  intros i j Hi Hj. destruct (Nat.ltb_spec i j) as [L|L]; [apply F3; assumption|].
  destruct (Nat.eq_dec i j) as [D|D]; [subst; apply slt_irrefl|]. apply slt_asym. apply F3; [lia|assumption].
Qed.

Lemma row_next : forall e, S e < m -> ch T (lm e) = ch T (lm (S e)) -> S (row (lm e)) = row (lm (S e)).
Proof.
  intros e H C. unfold rowQ. rewrite C. pose proof (lm_row_mono e (S e) ltac:(lia) H) as M.
  rewrite (cnt_add (length T) (fun x => lms T x && (ch T x =? ch T (lm (S e)))%N && slt T (lm (S e)) x)
    (fun x => lms T x && (ch T x =? ch T (lm (S e)))%N && slt T (lm e) x) (lm (S e))).
  - pose proof (lm_bucket e ltac:(lia)) as B. unfold rowQ in M, B. rewrite C in *.
    rewrite (cnt_add (length T) (fun x => lms T x && (ch T x =? ch T (lm (S e)))%N && slt T (lm (S e)) x)
      (fun x => lms T x && (ch T x =? ch T (lm (S e)))%N && slt T (lm e) x) (lm (S e))) in M.
    + lia.
    + apply lm_lt, H.
    + rewrite slt_irrefl. apply andb_false_r.
    + intros x Hx. destruct (lms T x) eqn:L; cbn [andb].
      * destruct (F2 x L) as (i & Hi & E). subst x. rewrite !lm_slt by lia.
        destruct (N.eqb_spec (ch T (lm i)) (ch T (lm (S e)))) as [D|D]; cbn [andb].
        -- destruct (Nat.eqb_spec (lm i) (lm (S e))) as [F|F].
           ++ assert (i = S e) by (destruct (Nat.lt_trichotomy i (S e)) as [G|[G|G]]; auto;
                [pose proof (lm_row_mono i (S e) G H)|pose proof (lm_row_mono (S e) i G Hi)]; rewrite F in *; lia).
              subst. lia.
           ++ assert (i <> S e) by congruence. rewrite orb_false_r. lia.
        -- destruct (Nat.eqb_spec (lm i) (lm (S e))) as [F|F]; [|reflexivity]. rewrite F in D. congruence.
      * destruct (Nat.eqb_spec x (lm (S e))) as [F|F]; [|reflexivity]. subst. rewrite F1 in L by assumption. discriminate.
  - apply lm_lt, H.
  - rewrite slt_irrefl. apply andb_false_r.
  - intros x Hx. destruct (lms T x) eqn:L; cbn [andb].
    + destruct (F2 x L) as (i & Hi & E). subst x. rewrite !lm_slt by lia.
      destruct (N.eqb_spec (ch T (lm i)) (ch T (lm (S e)))) as [D|D]; cbn [andb].
      * destruct (Nat.eqb_spec (lm i) (lm (S e))) as [F|F].
        -- assert (i = S e) by (destruct (Nat.lt_trichotomy i (S e)) as [G|[G|G]]; auto;
             [pose proof (lm_row_mono i (S e) G H)|pose proof (lm_row_mono (S e) i G Hi)]; rewrite F in *; lia).
           subst. lia.
        -- assert (i <> S e) by congruence. rewrite orb_false_r. lia.
      * destruct (Nat.eqb_spec (lm i) (lm (S e))) as [F|F]; [|reflexivity]. rewrite F in D. congruence.
    + destruct (Nat.eqb_spec x (lm (S e))) as [F|F]; [|reflexivity]. subst. rewrite F1 in L by assumption. discriminate.
Qed.

Lemma row_top : forall e, e < m -> (S e < m -> ch T (lm e) <> ch T (lm (S e))) -> S (row (lm e)) = endOf T (ch T (lm e)).
Proof.
  intros e H D. pose proof (lm_bucket e H) as B. unfold rowQ in *.
  rewrite cnt_none in *; [lia| |].
  - intros x Hx. destruct (lms T x) eqn:L; [|reflexivity]. cbn [andb]. destruct (F2 x L) as (i & Hi & E). subst x.
    rewrite lm_slt by assumption. destruct (N.eqb_spec (ch T (lm i)) (ch T (lm e))) as [F|F]; [|reflexivity]. cbn [andb].
    apply Nat.ltb_ge. destruct (le_lt_dec i e) as [G|G]; [assumption|]. exfalso.
    assert (HS : S e < m) by lia. apply (D HS). pose proof (lm_char e (S e) ltac:(lia) HS).
    destruct (Nat.eq_dec i (S e)) as [K|K]; [subst; congruence|]. pose proof (lm_char (S e) i ltac:(lia) Hi). lia.
  - intros x Hx. destruct (lms T x) eqn:L; [|reflexivity]. cbn [andb]. destruct (F2 x L) as (i & Hi & E). subst x.
    rewrite lm_slt by assumption. destruct (N.eqb_spec (ch T (lm i)) (ch T (lm e))) as [F|F]; [|reflexivity]. cbn [andb].
    apply Nat.ltb_ge. destruct (le_lt_dec i e) as [G|G]; [assumption|]. exfalso.
    assert (HS : S e < m) by lia. apply (D HS). pose proof (lm_char e (S e) ltac:(lia) HS).
    destruct (Nat.eq_dec i (S e)) as [K|K]; [subst; congruence|]. pose proof (lm_char (S e) i ltac:(lia) Hi). lia.
Qed.

(** After [m - e] suffixes have been moved. *)
Record placing (e j : nat) (SA : list Z) : Prop := {
  p_len : n <= length SA;
  p_j : e <= j <= n;
  p_low : forall i, i < e -> nth_error SA i = Some (Z.of_nat (lm i));
  p_high : forall i, e <= i < m -> j <= row (lm i) /\ nth_error SA (row (lm i)) = Some (Z.of_nat (lm i));
  p_zero : forall r, j <= r < n -> (forall i, e <= i < m -> row (lm i) <> r) -> nth_error SA r = Some 0%Z
}.

Lemma endOf_room : forall i, i < m -> endOf T (ch T (lm i)) <= n.
Proof. intros. apply endOf_le. Qed.

Lemma placeLMS_ok : forall C, countsOf T k C -> forall e j cur SA, e <= m -> placing e j SA ->
  (match cur with
   | None => e = m /\ j = n
   | Some c => e < m /\ c = ch T (lm e) /\ j = row (lm e)
   end) ->
  exists SA', placeLMS T (getBuckets C 0 true) e j cur SA = Ok SA' /\ seeded T SA' /\ length SA' = length SA /\
    forall r, n <= r -> nth_error SA' r = nth_error SA r.
Proof.
  intros C HC. induction e as [|e IH]; intros j cur SA He I Hcur; cbn [placeLMS].
  - pose proof (p_j _ _ _ I). pose proof (p_len _ _ _ I).
    destruct (fill_ok j j SA) as (SA' & E & L & HR); [lia|lia|].
    exists SA'. split; [exact E|]. split; [|split; [exact L|intros r Hr; rewrite HR; replace ((j - j <=? r) && (r <? j)) with false by lia; reflexivity]].
    split; [rewrite L; exact (p_len _ _ _ I)|]. split.
    + intros q Hq. destruct (F2 q Hq) as (i & Hi & <-). destruct (p_high _ _ _ I i ltac:(lia)) as [B V].
      rewrite HR. replace ((j - j <=? row (lm i)) && (row (lm i) <? j)) with false by lia. exact V.
    + intros r Hr NR. rewrite HR. destruct (Nat.ltb_spec r j) as [K|K].
      * replace (j - j <=? r) with true by lia. reflexivity.
      * rewrite andb_false_r. apply (p_zero _ _ _ I); [fold n in Hr; lia|]. intros i Hi. apply NR, F1. lia.
  - assert (Hm : e < m) by lia.
    rewrite (get_ok _ _ _ (p_low _ _ _ I e ltac:(lia))). cbn [bind].
    assert (G : getz T (Z.of_nat (lm e)) = Ok (ch T (lm e))).
    { unfold getz. replace (Z.of_nat (lm e) <? 0)%Z with false by lia. rewrite Nat2Z.id. apply get_ch, lm_lt, Hm. }
    rewrite G. cbn [bind].
    (* one step: after making room, the suffix goes just below [j'] *)
    assert (Step : forall j' SA', length SA' = length SA -> S (row (lm e)) = j' -> j' <= j ->
      (forall r, nth_error SA' r = if (j' <=? r) && (r <? j) then Some 0%Z else nth_error SA r) ->
      exists SA2, (match j' with O => UB | S j => let! SA := set SA' j (Z.of_nat (lm e)) in placeLMS T (getBuckets C 0 true) e j (Some (ch T (lm e))) SA end) = Ok SA2 /\
        seeded T SA2 /\ length SA2 = length SA /\ forall r, n <= r -> nth_error SA2 r = nth_error SA r).
    { intros j' SA' HL Hj' Hjj HR. subst j'. pose proof (p_j _ _ _ I) as Bj. pose proof (p_len _ _ _ I) as BL.
      rewrite set_ok by lia. cbn [bind].
      destruct (IH (row (lm e)) (Some (ch T (lm e))) (upd SA' (row (lm e)) (Z.of_nat (lm e)))) as (SA2 & E2 & S2 & L2 & T2).
      - lia.
      - constructor.
        + rewrite upd_length, HL. assumption.
        + pose proof (lm_row_ge e Hm). lia.
        + intros i Hi. pose proof (lm_row_ge e Hm). rewrite nth_error_upd_other by lia. rewrite HR.
          replace ((S (row (lm e)) <=? i) && (i <? j)) with false by lia. apply (p_low _ _ _ I). lia.
        + intros i Hi. destruct (Nat.eq_dec i e) as [D|D].
          * subst i. split; [lia|]. apply nth_error_upd_same. lia.
          * destruct (p_high _ _ _ I i ltac:(lia)) as [B V]. split; [pose proof (lm_row_mono e i); lia|].
            rewrite nth_error_upd_other by lia. rewrite HR.
            replace ((S (row (lm e)) <=? row (lm i)) && (row (lm i) <? j)) with false by lia. exact V.
        + intros r Hr NR. pose proof (NR e ltac:(lia)). rewrite nth_error_upd_other by lia. rewrite HR.
          destruct (Nat.ltb_spec r j) as [K|K].
          * replace (S (row (lm e)) <=? r) with true by lia. reflexivity.
          * rewrite andb_false_r. apply (p_zero _ _ _ I); [lia|]. intros i Hi. apply NR. lia.
      - auto.
      - exists SA2. split; [exact E2|]. split; [exact S2|]. split; [rewrite L2, upd_length; exact HL|].
        intros r Hr. rewrite T2 by assumption. rewrite nth_error_upd_other by lia. rewrite HR.
        replace ((S (row (lm e)) <=? r) && (r <? j)) with false by lia. reflexivity. }
    assert (Other : (cur = None \/ exists c, cur = Some c /\ c <> ch T (lm e)) ->
      exists SA2, (let! (j, SA) := (let! q := get (getBuckets C 0 true) (N.to_nat (ch T (lm e))) in
         let! SA := fill (j - q) j SA in Ok (min q j, SA)) in
         match j with O => UB | S j => let! SA := set SA j (Z.of_nat (lm e)) in placeLMS T (getBuckets C 0 true) e j (Some (ch T (lm e))) SA end) = Ok SA2 /\
        seeded T SA2 /\ length SA2 = length SA /\ forall r, n <= r -> nth_error SA2 r = nth_error SA r).
    { intros HD. rewrite (get_ok _ _ _ (getBuckets_ok T k C true HC _ (HT (lm e) (lm_lt e Hm)))). cbn [bind].
      assert (Top : S (row (lm e)) = endOf T (ch T (lm e))).
      { apply row_top; auto. intros HS. destruct HD as [HD|(c & Hc & HD)].
        - subst cur. destruct Hcur as [Hcur _]. lia.
        - subst cur. destruct Hcur as (_ & Hcur & _). congruence. }
      assert (Bq : endOf T (ch T (lm e)) <= j).
      { destruct HD as [HD|(c & Hc & HD)]; subst cur.
        - destruct Hcur as [_ ->]. apply endOf_le.
        - destruct Hcur as (HS & -> & ->). assert (HSm : S e < m) by lia. pose proof (lm_bucket (S e) HSm).
          pose proof (lm_char e (S e) ltac:(lia) HSm).
          pose proof (end_le_start T (ch T (lm e)) (ch T (lm (S e))) ltac:(lia)). lia. }
      pose proof (p_j _ _ _ I). pose proof (p_len _ _ _ I).
      destruct (fill_ok (j - endOf T (ch T (lm e))) j SA) as (SA' & E & L & HR); [lia|lia|].
      rewrite E. cbn [bind]. rewrite Nat.min_l by assumption.
      apply Step; auto. intros r. rewrite HR. replace (j - (j - endOf T (ch T (lm e)))) with (endOf T (ch T (lm e))) by lia. reflexivity. }
    destruct cur as [c|].
    + destruct (N.eqb_spec (ch T (lm e)) c) as [D|D].
      * cbn [bind]. destruct Hcur as (HS & Hc & Hj). apply Step; auto.
        -- rewrite row_next by (try lia; congruence). auto.
        -- intros r. replace ((j <=? r) && (r <? j)) with false by lia. reflexivity.
      * apply Other. right. exists c. auto.
    + apply Other. left. reflexivity.
Qed.

Theorem stage3place_ok : forall SA C, 1 < m -> countsOf T k C -> n <= length SA ->
  (forall i, i < m -> nth_error SA i = Some (Z.of_nat (lm i))) ->
  exists SA', stage3place T SA C m = Ok SA' /\ seeded T SA' /\ length SA' = length SA /\
    forall r, n <= r -> nth_error SA' r = nth_error SA r.
Proof.
  intros SA C Hm HC HL HS. unfold stage3place. replace (1 <? m) with true by lia.
  apply (placeLMS_ok C HC m (length T) None SA).
  - lia.
  - assert (m <= n).
    { pose proof (lm_row_ge (m - 1) ltac:(lia)). pose proof (lm_bucket (m - 1) ltac:(lia)).
      pose proof (endOf_le T (ch T (lm (m - 1)))). unfold n. lia. }
    constructor; auto.
    + intros i Hi. lia.
    + intros r Hr. unfold n in Hr. lia.
  - auto.
Qed.
End Place.

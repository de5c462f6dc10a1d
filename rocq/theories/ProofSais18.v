(** Stage 1: the names after LMSsort2, and stage1sort as a whole. *)
From Coq Require Import List NArith ZArith Arith Bool Lia.
From Coq Require Import ZifyBool ZifyNat ZifyN.
From Verif Require Import Base Arrays ModelSais ProofSais1 ProofSais2 ProofSais3 ProofSais7 ProofSais8 ProofSais9 ProofSais10 ProofSais11 ProofSais12 ProofSais13 ProofSais14 ProofSais15 ProofSais16 ProofSais17.
Import ListNotations.
Open Scope nat_scope.

Lemma firstn_more : forall {A} (l : list A) i x, nth_error l i = Some x -> firstn (S i) l = firstn i l ++ [x].
Proof.
  intros A l. induction l as [|y l IH]; intros [|i] x H; cbn [nth_error] in H; try discriminate.
  - injection H as ->. reflexivity.
  - cbn [firstn app]. f_equal. apply IH, H.
Qed.
Lemma nth_known : forall {A} (l : list A) i x d, nth_error l i = Some x -> nth i l d = x.
Proof. intros. apply nth_error_nth. assumption. Qed.

Section Post2.
Variable T : list N.
Let n := length T.
Variable k : nat.
Hypothesis HT : charsBelow T k.
Variable p0 : nat.
Hypothesis L0 : lms T p0 = true.
Hypothesis F0 : forall q, lms T q = true -> p0 <= q.
Let m := cnt n (lms T).

Definition rowSS (p : nat) : nat := row T (lessS T k) (PL T p0) (QS T p0) p.

Let xOS : ordered T (lessS T k) (PL T p0) (QS T p0).
Proof. eapply orderedS; eauto. Qed.
Let xlQS : forall a, lms T a = true -> QS T p0 a = true.
Proof. eapply lms_QS; eauto. Qed.
Let xelS : forall a, lms T a = true -> (PL T p0 a || QS T p0 a) = true.
Proof. intros a H. rewrite (xlQS a H). apply orb_true_r. Qed.
Let xact : forall a, QS T p0 a = true -> act T p0 a = negb (lms T a).
Proof. intros a H. rewrite (QS_bit T p0 L0 F0 a H). unfold bitS. f_equal. symmetry. eapply lms_iff; eauto. Qed.

Lemma RSinj : forall p q, lms T p = true -> lms T q = true -> rowSS p = rowSS q -> p = q.
Proof. intros p q Hp Hq. apply row_inj; auto. Qed.
Lemma RSlt : forall p, lms T p = true -> S (rowSS p) < n.
Proof.
  intros p Hp. unfold rowSS. rewrite (row_Q T _ _ _ xOS p (xlQS p Hp)).
  pose proof (rowQ_bound T _ _ _ xOS p (xlQS p Hp)) as [_ B].
  pose proof Hp as Hp'. apply lms_lt in Hp'. destruct Hp' as (H0 & H1 & _ & _ & H4).
  assert (endOf T (ch T p) < n).
  { unfold endOf. fold n. assert (E : cnt n (fun _ => true) = n) by (clear; unfold cnt; rewrite <- (seq_length n 0) at 2; f_equal; induction (seq 0 n); cbn [filter]; congruence).
    rewrite <- E at 2. apply (cnt_strict n _ _ (p - 1)); auto; [unfold n; lia|]. apply N.leb_gt. exact H4. }
  lia.
Qed.
Lemma RSord : forall p q, lms T p = true -> lms T q = true -> rowSS p < rowSS q -> lessS T k p q = true.
Proof.
  intros p q Hp Hq H. rewrite <- (row_lt_iff T (lessS T k) (PL T p0) (QS T p0) xOS p q); auto. apply Nat.ltb_lt. exact H.
Qed.

Let L := sorted T rowSS.
Let nm := nm T k rowSS.
Let mk := markS T k p0.
Let xlen : length L = m.
Proof. apply coll_length; [exact RSinj|exact RSlt]. Qed.
Let xlms : forall i p, nth_error L i = Some p -> lms T p = true.
Proof. eapply sorted_lms; eauto using RSinj, RSlt, RSord. Qed.
Let xin : forall p, lms T p = true -> exists i, nth_error L i = Some p.
Proof. eapply sorted_in; eauto using RSinj, RSlt, RSord. Qed.
Let xrows : forall a b p q, a < b -> nth_error L a = Some p -> nth_error L b = Some q -> rowSS p < rowSS q.
Proof. intros a b p q. unfold L, sorted. apply coll_sorted; auto using RSinj, RSlt. Qed.
Let xnm : forall i, 1 <= nm i <= S i.
Proof. eapply nm_low; eauto using RSinj, RSlt, RSord. Qed.
Let xnmS : forall i p q, nth_error L i = Some p -> nth_error L (S i) = Some q -> nm (S i) = if eqk T k p q then nm i else S (nm i).
Proof.
  intros i p q Hp Hq. unfold nm. cbn [ProofSais12.nm]. fold L. rewrite (nth_known _ _ _ _ Hp), (nth_known _ _ _ _ Hq). reflexivity.
Qed.

(** The marked ones are the last of their names. *)
Lemma mark_last : forall i p, nth_error L i = Some p -> S i = m -> mk p = true.
Proof.
  intros i p Hp Hi. destruct (mk p) eqn:E; [reflexivity|]. exfalso. apply (markS_false T k HT p0 L0 F0) in E.
  destruct E as (b & Eb & Rb & Ab & Kb). pose proof (xlms i p Hp) as Lp.
  pose proof (sameS T k HT p0 L0 F0 p b (xlQS p Lp) Eb Kb) as Qb. rewrite (xact b Qb), (xact p (xlQS p Lp)), Lp in Ab.
  assert (Lb : lms T b = true) by (destruct (lms T b); [reflexivity|discriminate]).
  destruct (xin b Lb) as [j Hj]. pose proof (nth_error_bound _ _ _ Hj) as Bj. rewrite xlen in Bj.
  destruct (Nat.lt_trichotomy i j) as [G|[G|G]]; [lia| |].
  - subst j. rewrite Hp in Hj. injection Hj as <-. lia.
  - pose proof (xrows j i b p G Hj Hp) as R. unfold rowSS in R. lia.
Qed.
Lemma mark_next : forall i p q, nth_error L i = Some p -> nth_error L (S i) = Some q -> mk p = negb (eqk T k p q).
Proof.
  intros i p q Hp Hq. pose proof (xlms i p Hp) as Lp. pose proof (xlms _ q Hq) as Lq. pose proof (xrows i (S i) p q ltac:(lia) Hp Hq) as R.
  destruct (mk p) eqn:E.
  - destruct (eqk T k p q) eqn:K; [|reflexivity]. exfalso. apply eqk_spec in K. assert (X : mk p = false); [|congruence].
    apply (markS_false T k HT p0 L0 F0). exists q. split; [apply xelS, Lq|]. split; [exact R|].
    split; [rewrite !xact, Lp, Lq by auto; reflexivity|]. symmetry. exact K.
  - replace (eqk T k p q) with true; [reflexivity|]. symmetry. apply eqk_spec. apply (markS_false T k HT p0 L0 F0) in E.
    destruct E as (b & Eb & Rb & Ab & Kb).
    pose proof (sameS T k HT p0 L0 F0 p b (xlQS p Lp) Eb Kb) as Qb. rewrite (xact b Qb), (xact p (xlQS p Lp)), Lp in Ab.
    assert (Lb : lms T b = true) by (destruct (lms T b); [reflexivity|discriminate]).
    destruct (xin b Lb) as [j Hj].
    destruct (Nat.lt_trichotomy (S i) j) as [G|[G|G]].
    + pose proof (xrows (S i) j q b G Hq Hj) as R2. unfold ck.
      rewrite (betweenS T k HT p0 L0 F0 p q b) by (auto; try (apply xelS; auto); symmetry; exact Kb). symmetry. exact Kb.
    + subst j. rewrite Hq in Hj. injection Hj as <-. symmetry. exact Kb.
    + exfalso. destruct (Nat.eq_dec j i) as [D|D].
      * subst j. rewrite Hp in Hj. injection Hj as <-. lia.
      * pose proof (xrows j i b p ltac:(lia) Hj Hp) as R3. unfold rowSS in R3. lia.
Qed.

Let V := flagged T k p0.
Lemma V_mark : forall p, lms T p = true -> (Z.of_nat n <=? V p)%Z = mk p.
Proof.
  intros p Hp. apply lms_lt in Hp. unfold V, flagged. fold mk. fold n. fold n in Hp. destruct (mk p); lia.
Qed.

Lemma mark_count : forall i, i < m -> S (length (filter (fun q => (Z.of_nat n <=? V q)%Z) (firstn i L))) = nm i.
Proof.
  induction i as [|i IH]; intros H; [reflexivity|].
  destruct (nth_error L i) as [p|] eqn:Ep; [|apply nth_error_None in Ep; lia].
  destruct (nth_error L (S i)) as [q|] eqn:Eq; [|apply nth_error_None in Eq; lia].
  rewrite (firstn_more L i p Ep), filter_app, app_length. cbn [filter].
  rewrite (V_mark p) by (eapply xlms; eauto). rewrite (mark_next i p q Ep Eq). rewrite (xnmS i p q Ep Eq).
  specialize (IH ltac:(lia)). destruct (eqk T k p q); cbn [negb length]; lia.
Qed.
Lemma mark_all : 0 < m -> length (filter (fun q => (Z.of_nat n <=? V q)%Z) L) = nm (m - 1).
Proof.
  intros Hm. destruct (nth_error L (m - 1)) as [p|] eqn:Ep; [|apply nth_error_None in Ep; lia].
  rewrite <- (firstn_all L). rewrite xlen. replace m with (S (m - 1)) at 1 by lia. rewrite (firstn_more L _ p Ep), filter_app, app_length. cbn [filter].
  rewrite (V_mark p) by (eapply xlms; eauto). rewrite (mark_last (m - 1) p Ep) by lia. cbn [length].
  rewrite <- (mark_count (m - 1)) by lia. lia.
Qed.

(** Names from the last to the first. *)
Definition storing (SA0 : list Z) (e : nat) (SA : list Z) : Prop :=
  length SA = length SA0 /\
  (forall r, n <= r -> nth_error SA r = nth_error SA0 r) /\
  (forall a p, nth_error L a = Some p -> nth_error SA a = Some (V p)) /\
  (forall a p, nth_error L a = Some p -> e <= a -> nth_error SA (m + p / 2) = Some (Z.of_nat (nm a))) /\
  (forall r, m <= r < n -> (forall p, lms T p = true -> r <> m + p / 2) -> nth_error SA r = Some 0%Z).

Lemma store_ok : forall SA0, n <= length SA0 -> forall e SA d, e <= m -> (d = if e <? m then nm e else S (nm (m - 1))) -> storing SA0 e SA ->
  exists SA', storeNames n m e d SA = Ok SA' /\ storing SA0 0 SA'.
Proof.
  intros SA0 HL. induction e as [|e IH]; intros SA d He Hd I; cbn [storeNames]; [exists SA; split; [reflexivity|exact I]|].
  destruct I as (I1 & I2 & I3 & I4 & I5).
  destruct (nth_error L e) as [p|] eqn:Ep; [|apply nth_error_None in Ep; lia].
  pose proof (xlms e p Ep) as Lp. pose proof (slot_bound T p Lp) as SB. fold n in SB. fold m in SB.
  rewrite (get_ok _ _ _ (I3 e p Ep)). cbn [bind]. rewrite (V_mark p Lp).
  assert (E : (if mk p then ((V p - Z.of_nat n)%Z, d - 1) else (V p, d)) = (Z.of_nat p, nm e)).
  { unfold V, flagged. fold mk. fold n. destruct (Nat.eq_dec (S e) m) as [D|D].
    - rewrite (mark_last e p Ep D). replace (S e <? m) with false in Hd by lia. replace (m - 1) with e in Hd by lia. f_equal; lia.
    - destruct (nth_error L (S e)) as [q|] eqn:Eq; [|apply nth_error_None in Eq; lia].
      replace (S e <? m) with true in Hd by lia. rewrite (xnmS e p q Ep Eq) in Hd. rewrite (mark_next e p q Ep Eq).
      destruct (eqk T k p q); cbn [negb]; f_equal; lia. }
  rewrite E. replace (Z.to_nat (Z.of_nat p / 2)) with (p / 2) by (change 2%Z with (Z.of_nat 2); rewrite <- Nat2Z.inj_div, Nat2Z.id; reflexivity).
  rewrite set_ok by lia. cbn [bind]. apply IH; [lia|replace (e <? m) with true by lia; reflexivity|].
  split; [rewrite upd_length; exact I1|]. split; [intros r Hr; rewrite nth_error_upd_other by lia; apply I2, Hr|]. split; [|split].
  - intros a q Hq. pose proof (nth_error_bound _ _ _ Hq) as B. rewrite nth_error_upd_other by lia. apply I3, Hq.
  - intros a q Hq Ha. destruct (Nat.eq_dec a e) as [D|D].
    + subst a. rewrite Ep in Hq. injection Hq as <-. apply nth_error_upd_same. lia.
    + rewrite nth_error_upd_other; [apply I4; auto; lia|lia|].
      intros F. assert (q = p) by (apply (lms_apart T); auto; [eapply xlms; eauto|lia]). subst q.
      assert (a = e); [|lia]. destruct (Nat.lt_trichotomy a e) as [G|[G|G]]; auto; [pose proof (xrows a e p p G Hq Ep)|pose proof (xrows e a p p G Ep Hq)]; lia.
  - intros r Hr NR. pose proof (NR p Lp). rewrite nth_error_upd_other by lia. apply I5; auto.
Qed.

Lemma unset_ok : forall SA0, n <= length SA0 -> m <= n -> forall todo i SA, i + todo = m -> length SA = length SA0 ->
  (forall r, n <= r -> nth_error SA r = nth_error SA0 r) ->
  (forall a p, nth_error L a = Some p -> nth_error SA a = Some (if a <? i then Z.of_nat p else V p)) ->
  exists SA', unsetFlags n todo i SA = Ok SA' /\ length SA' = length SA0 /\ (forall r, n <= r -> nth_error SA' r = nth_error SA0 r) /\
    (forall a p, nth_error L a = Some p -> nth_error SA' a = Some (Z.of_nat p)).
Proof.
  intros SA0 HL Hmn. induction todo as [|todo IH]; intros i SA Hi H1 H2 H3; cbn [unsetFlags].
  - exists SA. repeat split; auto. intros a p Hp. rewrite (H3 a p Hp). pose proof (nth_error_bound _ _ _ Hp) as B. rewrite xlen in B.
    replace (a <? i) with true by lia. reflexivity.
  - destruct (nth_error L i) as [p|] eqn:Ep; [|apply nth_error_None in Ep; lia].
    pose proof (xlms i p Ep) as Lp. rewrite (get_ok _ _ _ (H3 i p Ep)). rewrite Nat.ltb_irrefl. cbn [bind]. rewrite (V_mark p Lp).
    assert (E : (if mk p then set SA i (V p - Z.of_nat n)%Z else Ok SA) = Ok (upd SA i (Z.of_nat p))).
    { unfold V, flagged. fold mk. fold n. destruct (mk p) eqn:M.
      - rewrite set_ok by lia. do 2 f_equal. lia.
      - f_equal. apply nth_error_ext. intros j. destruct (Nat.eq_dec j i) as [D|D].
        + subst j. rewrite nth_error_upd_same by lia. rewrite (H3 i p Ep), Nat.ltb_irrefl. unfold V, flagged. fold mk. rewrite M. f_equal. lia.
        + rewrite nth_error_upd_other by lia. reflexivity. }
    rewrite E. cbn [bind]. apply IH; [lia|rewrite upd_length; exact H1| |].
    + intros r Hr. rewrite nth_error_upd_other by lia. apply H2, Hr.
    + intros a q Hq. destruct (Nat.eq_dec a i) as [D|D].
      * subst a. rewrite Ep in Hq. injection Hq as <-. rewrite nth_error_upd_same by lia. replace (i <? S i) with true by lia. reflexivity.
      * rewrite nth_error_upd_other by lia. rewrite (H3 a q Hq). replace (a <? S i) with (a <? i) by lia. reflexivity.
Qed.

Theorem postproc2_ok : forall SA, n <= length SA -> sortedAt T k p0 (fun q => inv (flagged T k p0 q)) SA ->
  exists SA' name, LMSpostproc2 n m SA = Ok (SA', name) /\ stage1At T k rowSS SA name SA'.
Proof.
  intros SA HL (_ & HV & HZ). assert (Hm : 0 < m) by (apply (cnt_pos n _ p0); [apply lms_lt in L0; unfold n; lia|exact L0]).
  pose proof (half_m T) as H2. fold n in H2. fold m in H2. pose proof (lms_lt T p0 L0) as B0. fold n in B0.
  destruct (compact2_ok T rowSS RSinj RSlt V) with (SA := SA) as (SA1 & i & name1 & SA2 & name & E1 & E2 & I); auto.
  { intros q _. unfold V, flagged. destruct (markS T k p0 q); lia. }
  fold n in E1, E2, I. fold m in E2. destruct I as [J1 J2 J3 J4 J5 J6].
  assert (En : name = nm (m - 1)) by (rewrite J6; apply mark_all, Hm).
  unfold LMSpostproc2, check. replace (0 <? n) with true by lia. cbn [bind]. rewrite E1. cbn [bind]. rewrite E2. cbn [bind].
  pose proof (xnm (m - 1)) as XN.
  assert (JZ : forall r, m <= r < n -> nth_error SA2 r = Some 0%Z).
  { intros r Hr. apply J4. change (length L <= r < n). rewrite xlen. exact Hr. }
  destruct (Nat.ltb_spec name m) as [G|G].
  - destruct (store_ok SA HL m SA2 (name + 1)) as (SA3 & E3 & (K1 & K2 & K3 & K4 & K5)); auto.
    + rewrite Nat.ltb_irrefl. lia.
    + split; [exact J1|]. split; [exact J2|]. split; [exact J3|]. split.
      * intros a p Hp Ha. pose proof (nth_error_bound _ _ _ Hp) as B. rewrite xlen in B. lia.
      * intros r Hr _. apply JZ, Hr.
    + rewrite E3. cbn [bind]. exists SA3, name. split; [reflexivity|]. split; [exact En|]. split; [exact K1|]. split; [exact K2|].
      split; [intros _ a p Hp; apply K4; [exact Hp|lia]|]. split; [intros _; exact K5|]. fold n. fold m. lia.
  - destruct (unset_ok SA HL ltac:(lia) m 0 SA2) as (SA3 & E3 & K1 & K2 & K3); auto.
    rewrite E3. cbn [bind]. exists SA3, name. split; [reflexivity|]. split; [exact En|]. split; [exact K1|]. split; [exact K2|].
    fold n. fold m. split; [lia|]. split; [lia|]. intros _. exact K3.
Qed.
End Post2.

(** ** stage1sort *)
Theorem stage1_ok : forall T k s, 0 < length T -> charsBelow T k -> stage1_spec T k s.
Proof.
  intros T k s Hn HT. unfold stage1_spec. set (n := length T). set (m := cnt n (lms T)). intros SA HL.
  unfold stage1sort. fold n. destruct (getCounts_ok T k HT) as (C & EC & HC). rewrite EC. cbn [bind].
  unfold check at 1. replace (n <=? length SA) with true by lia. cbn [bind].
  destruct (seeds_ok T k HT SA C Hn HL HC) as (SA1 & B & b & j & E & L1 & TL & [LB HB] & BJ & D1 & Z1).
  fold n in E, Z1, TL, HB, BJ. fold m in E. rewrite E. cbn [bind]. rewrite set_ok by (unfold n in *; lia). cbn [bind].
  destruct (Nat.ltb_spec 1 m) as [G|G].
  - destruct BJ as [(NF & _)|(p0 & L0 & F0 & Eb & Ej)].
    { exfalso. assert (m = 0); [|lia]. unfold m. apply cnt_none. auto. }
    pose proof (lms_lt T p0 L0) as B0. fold n in B0.
    pose proof (seeds_many T k HT p0 SA1 (upd SA1 (n - 1) 0%Z) L0 F0 ltac:(fold n; lia) D1 Z1 eq_refl) as HS.
    assert (Res : forall SA3 : list Z, length SA3 = length SA -> (forall r, n <= r -> nth_error SA3 r = nth_error SA r) ->
      forall SA4 name, stage1At T k (rowSS T k p0) SA3 name SA4 ->
      length SA4 = length SA /\ (m <= 1 -> name = m /\ seeded T SA4) /\
      (1 < m -> exists row,
       (forall p q, lms T p = true -> lms T q = true -> row p = row q -> p = q) /\
       (forall p, lms T p = true -> S (row p) < n) /\
       (forall p q, lms T p = true -> lms T q = true -> row p < row q -> lessS T k p q = true) /\
       stage1At T k row SA name SA4)).
    { intros SA3 H3 T3 SA4 name (S1 & S2 & S3 & S4 & S5 & S6). split; [congruence|]. split; [lia|]. intros _. exists (rowSS T k p0).
      split; [eapply RSinj; eauto|]. split; [eapply RSlt; eauto|]. split; [eapply RSord; eauto|].
      split; [exact S1|]. split; [congruence|]. split; [intros r Hr; rewrite S3 by exact Hr; apply T3, Hr|]. auto. }
    destruct s.
    + unfold check. replace (j + 1 <? n) with true by lia. cbn [bind]. replace (j + 1) with p0 by lia.
      rewrite (get_ch T p0) by (unfold n in *; lia). cbn [bind]. pose proof (HT p0 ltac:(unfold n in *; lia)) as Kc.
      rewrite (get_ok _ _ _ (HB _ Kc)). cbn [bind]. rewrite set_ok by lia. cbn [bind].
      assert (CQ : cnt n (fun a => lms T a && (ch T a =? ch T p0)%N) = S (inM T p0 (ch T p0))).
      { unfold inM. fold n. apply (cnt_add n _ _ p0); [lia| |].
        - unfold QM. replace (p0 <? p0) with false by lia. rewrite andb_false_r. reflexivity.
        - intros a _. unfold QM. destruct (Nat.eqb_spec a p0) as [D|D]; [subst a; rewrite L0, N.eqb_refl, orb_true_r; reflexivity|].
          rewrite orb_false_r. destruct (lms T a) eqn:La; [|reflexivity]. pose proof (F0 a La). replace (p0 <? a) with true by lia. reflexivity. }
      assert (CB : S (inM T p0 (ch T p0)) <= endOf T (ch T p0)).
      { destruct (place_bound T k HT p0 L0) as [PB _]. fold n in PB. rewrite <- CQ. etransitivity; [|exact PB].
        rewrite (cnt_add n (fun x => lms T x && (ch T x =? ch T p0)%N && (p0 <? x)) _ p0); [lia|lia|rewrite Nat.ltb_irrefl; apply andb_false_r|].
        intros a _. destruct (Nat.eqb_spec a p0) as [D|D]; [subst a; rewrite L0, N.eqb_refl, orb_true_r; reflexivity|].
        rewrite orb_false_r. destruct (lms T a) eqn:La; [|reflexivity]. pose proof (F0 a La). replace (p0 <? a) with true by lia. rewrite andb_true_r. reflexivity. }
      destruct (marked_seeds T k HT p0 L0 F0 (upd SA1 (n - 1) 0%Z) C
        (upd B (N.to_nat (ch T p0)) (S (endOf T (ch T p0) - cnt n (fun a => lms T a && (ch T a =? ch T p0)%N)))) HC) as (SA2 & E2 & H2 & L2 & T2); auto.
      * rewrite upd_length. fold n. lia.
      * rewrite upd_length. exact LB.
      * intros c Hc. destruct (N.eq_dec c (ch T p0)) as [D|D].
        -- subst c. rewrite nth_error_upd_same by lia. f_equal. lia.
        -- rewrite nth_error_upd_other by lia. rewrite HB by exact Hc. do 2 f_equal. unfold inM. fold n. apply cnt_ext. intros a _.
           unfold QM. destruct (N.eqb_spec (ch T a) c) as [Ca|Ca]; [|rewrite !andb_false_r; reflexivity].
           destruct (lms T a) eqn:La; [|reflexivity]. pose proof (F0 a La). replace (p0 <? a) with true; [reflexivity|].
           symmetry. apply Nat.ltb_lt. destruct (Nat.eq_dec a p0); [subst; congruence|lia].
      * fold n in E2, T2. rewrite E2. cbn [bind].
        destruct (LMSsort2_ok T k HT p0 L0 F0 SA2 C (repeat 0 (2 * k)) H2 HC) as (SA3 & E3 & H3 & L3 & T3).
        { apply repeat_length. }
        { intros t v Hv. apply nth_error_In, repeat_spec in Hv. exact Hv. }
        rewrite E3. cbn [bind]. fold n in T3. rewrite upd_length in L2.
        destruct (postproc2_ok T k HT p0 L0 F0 SA3 ltac:(fold n; lia) H3) as (SA4 & name & E4 & H4). fold n in E4. fold m in E4.
        rewrite E4. cbn [bind]. exists SA4, name. split; [reflexivity|]. apply (Res SA3); [lia| |exact H4].
        intros r Hr. rewrite T3, T2 by exact Hr. rewrite nth_error_upd_other by lia. apply TL, Hr.
    + destruct (LMSsort1_ok T k HT p0 L0 F0 (upd SA1 (n - 1) 0%Z) C HS HC) as (SA3 & E3 & (_ & H3 & H3') & L3 & T3).
      rewrite E3. cbn [bind]. fold n in T3. rewrite upd_length in L3.
      destruct (postproc1_ok T k HT p0 L0 F0 (rowSS T k p0)) with (SA := SA3) as (SA4 & name & E4 & H4); auto.
      * eapply RSinj; eauto.
      * eapply RSlt; eauto.
      * eapply RSord; eauto.
      * fold n. lia.
      * fold n in E4. fold m in E4. rewrite E4. cbn [bind]. exists SA4, name. split; [reflexivity|]. apply (Res SA3); [lia| |exact H4].
        intros r Hr. rewrite T3 by exact Hr. rewrite nth_error_upd_other by lia. apply TL, Hr.
  - assert (One : forall p q, lms T p = true -> lms T q = true -> p = q).
    { intros p q Hp Hq. pose proof (ix_lt T p Hp) as A. pose proof (ix_lt T q Hq) as A'. fold n in A, A'. fold m in A, A'.
      apply (ix_inj T); auto. lia. }
    assert (Zero : forall r, r < n -> nth_error (upd SA1 (n - 1) 0%Z) r = Some 0%Z).
    { intros r Hr. destruct (Nat.eq_dec r (n - 1)) as [D|D]; [subst r; apply nth_error_upd_same; lia|].
      rewrite nth_error_upd_other by lia. apply Z1; auto. intros q q' Hq' Hq Hlt. assert (q = q') by auto. lia. }
    destruct (Nat.eqb_spec m 1) as [M|M].
    + destruct BJ as [(NF & _)|(p0 & L0 & F0 & Eb & Ej)].
      { exfalso. assert (m = 0); [|lia]. unfold m. apply cnt_none. auto. }
      destruct (place_bound T k HT p0 L0) as [PB1 PB2]. fold n in PB2.
      rewrite set_ok by (rewrite upd_length; lia). cbn [bind]. rewrite M.
      eexists _, 1. split; [reflexivity|]. split; [rewrite !upd_length; exact L1|]. split; [|lia]. intros _. split; [reflexivity|].
      assert (RP : rowQ T (slt T) (lms T) p0 = place T k p0).
      { rewrite place_eq by exact L0. unfold rowQ. do 2 f_equal. rewrite !cnt_none; [reflexivity| |].
        - intros x _. destruct (lms T x) eqn:Lx; [|reflexivity]. rewrite (One x p0 Lx L0). rewrite Nat.ltb_irrefl, !andb_false_r. reflexivity.
        - intros x _. destruct (lms T x) eqn:Lx; [|reflexivity]. rewrite (One x p0 Lx L0). rewrite slt_irrefl, !andb_false_r. reflexivity. }
      split; [rewrite !upd_length; fold n; lia|]. split.
      * intros q Hq. rewrite (One q p0 Hq L0). rewrite RP, <- Eb. rewrite nth_error_upd_same by (rewrite upd_length; lia). f_equal. lia.
      * intros r Hr NR. pose proof (NR p0 L0) as X. rewrite RP, <- Eb in X. rewrite nth_error_upd_other by (rewrite ?upd_length; lia). apply Zero, Hr.
    + assert (M0 : m = 0) by lia. assert (No : forall q, lms T q = false).
      { intros q. destruct (lms T q) eqn:Lq; [|reflexivity]. pose proof (ix_lt T q Lq) as A. fold n in A. fold m in A. lia. }
      exists (upd SA1 (n - 1) 0%Z), 0. split; [rewrite M0; reflexivity|]. split; [rewrite upd_length; exact L1|]. split; [|lia]. intros _.
      split; [symmetry; exact M0|]. split; [rewrite upd_length; fold n; lia|]. split; [intros q Hq; rewrite No in Hq; discriminate|].
      intros r Hr _. apply Zero, Hr.
Qed.

(** Stage 1 as a whole: the marked seeds, the names after LMSsort2, few LMS suffixes. *)
From Coq Require Import List NArith ZArith Arith Bool Lia.
From Coq Require Import ZifyBool ZifyNat ZifyN.
From Verif Require Import Base Arrays ModelSais ProofSais1 ProofSais2 ProofSais3 ProofSais7 ProofSais8 ProofSais9 ProofSais10 ProofSais11 ProofSais12 ProofSais13 ProofSais14 ProofSais15 ProofSais16.
Import ListNotations.
Open Scope nat_scope.

Lemma first_true : forall n f, 0 < cnt n f -> exists q, q < n /\ f q = true /\ forall b, b < q -> f b = false.
Proof.
  intros n f. induction n as [|n IH]; intros H; [rewrite cnt_0 in H; lia|]. rewrite cnt_S in H.
  destruct (Nat.eq_dec (cnt n f) 0) as [D|D].
  - exists n. destruct (f n) eqn:E; [|lia]. repeat split; auto. intros b Hb. destruct (f b) eqn:F; [|reflexivity].
    pose proof (cnt_pos n f b Hb F). lia.
  - destruct (IH ltac:(lia)) as (q & A & B & C). exists q. auto.
Qed.

Section Marked.
Variable T : list N.
Let n := length T.
Variable k : nat.
Hypothesis HT : charsBelow T k.
Variable p0 : nat.
Hypothesis L0 : lms T p0 = true.
Hypothesis F0 : forall q, lms T q = true -> p0 <= q.
Let m := cnt n (lms T).
Let QM := QM T p0.
Let mk := markL T k p0.

Let xQM : forall a, QM a = true <-> (lms T a = true /\ p0 < a).
Proof. eapply QM_spec; eauto. Qed.
Let xelem_typ : forall q, elem T p0 q = true ->
  (PL T p0 q = true /\ styp T q = false) \/ (QM q = true /\ styp T q = true /\ bitL T q = false).
Proof. eapply elem_typ; eauto. Qed.
Let xelem_lt : forall q, elem T p0 q = true -> p0 < q < n.
Proof. eapply elem_lt; eauto. Qed.

(** A seed is marked when it is the first of its bucket. *)
Lemma mark_seed : forall q, QM q = true -> (mk q = true <-> forall b, QM b = true -> ch T b = ch T q -> q <= b).
Proof.
  intros q Hq. pose proof Hq as Hq'. apply xQM in Hq'. destruct Hq' as [Lq Bq].
  pose proof (lms_lt T q Lq) as LTq.
  assert (RL : forall b, QM b = true -> ch T b = ch T q ->
    (row T (lessL T k) (PL T p0) (ProofSais9.QM T p0) b < row T (lessL T k) (PL T p0) (ProofSais9.QM T p0) q <-> b < q)).
  { intros b Hb Cb. pose proof Hb as Hb'. apply xQM in Hb'. destruct Hb' as [Lb Bb].
    rewrite <- Nat.ltb_lt. rewrite (row_lt_iff T (lessL T k) (PL T p0) (ProofSais9.QM T p0) (orderedL T k HT p0 F0) b q).
    - rewrite less_lms by (auto). apply Nat.ltb_lt.
    - apply orb_true_iff. right. exact Hb.
    - apply orb_true_iff. right. exact Hq. }
  split.
  - intros M b Hb Cb. destruct (Nat.le_gt_cases q b) as [G|G]; [exact G|]. exfalso. assert (X : mk q = false); [|congruence].
    apply (markL_false T k HT p0 L0 F0). exists b. pose proof Hb as Hb'. apply xQM in Hb'. destruct Hb' as [Lb Bb]. apply lms_lt in Lb.
    split; [unfold elem; apply orb_true_iff; right; exact Hb|]. split; [apply RL; auto|]. split.
    + unfold bitL. lia.
    + rewrite !key1_S by tauto. unfold ctag. congruence.
  - intros M. destruct (mk q) eqn:E; [reflexivity|]. exfalso. apply (markL_false T k HT p0 L0 F0) in E.
    destruct E as (b & Eb & Rb & _ & Kb). destruct (xelem_typ b Eb) as [[_ Sb]|(Qb & Sb & _)].
    + revert Kb. apply (key1_LS_neq T (ctag k) (ctag_tag T k HT)); auto; [|tauto].
      pose proof (xelem_lt b Eb). lia.
    + rewrite !key1_S in Kb by tauto. injection Kb as Cb. apply RL in Rb; auto. specialize (M b Qb Cb). lia.
Qed.

Definition halfMarked (c : nat) (SA0 SA : list Z) : Prop :=
  length SA = length SA0 /\
  (forall r, n <= r -> nth_error SA r = nth_error SA0 r) /\
  (forall q, QM q = true -> nth_error SA (place T k q) =
     Some (Z.of_nat q - 1 + (if ((N.to_nat (ch T q) <? c) && mk q)%nat then Z.of_nat n else 0))%Z) /\
  (forall r, r < n -> (forall q, QM q = true -> place T k q <> r) -> nth_error SA r = Some 0%Z).

Definition inM (c : N) : nat := cnt n (fun a => QM a && (ch T a =? c)%N).

Lemma place_first : forall q, QM q = true -> (forall b, b < q -> QM b && (ch T b =? ch T q)%N = false) ->
  place T k q = endOf T (ch T q) - inM (ch T q) /\ 0 < inM (ch T q) <= endOf T (ch T q).
Proof.
  intros q Hq F. pose proof Hq as Hq'. apply xQM in Hq'. destruct Hq' as [Lq Bq]. pose proof (lms_lt T q Lq) as LTq.
  rewrite place_eq by assumption.
  assert (E : inM (ch T q) = S (cnt n (fun x => lms T x && (ch T x =? ch T q)%N && (q <? x)))).
  { unfold inM. apply (cnt_add n _ _ q); [unfold n; lia|rewrite Nat.ltb_irrefl; apply andb_false_r|].
    intros a _. destruct (Nat.eqb_spec a q) as [D|D]; [subst; rewrite Hq, N.eqb_refl, orb_true_r; reflexivity|].
    rewrite orb_false_r. destruct (Nat.lt_ge_cases a q) as [G|G].
    - rewrite F by exact G. replace (q <? a) with false by lia. rewrite andb_false_r. reflexivity.
    - replace (q <? a) with true by lia. rewrite andb_true_r. f_equal. destruct (lms T a) eqn:La.
      + apply xQM. split; [exact La|lia].
      + destruct (QM a) eqn:Qa; [|reflexivity]. apply xQM in Qa. destruct Qa; congruence. }
  rewrite E. destruct (place_bound T k HT q Lq) as [PB _]. fold n in PB |- *. split; [reflexivity|lia].
Qed.

Lemma markSeeds_ok : forall SA0, n <= length SA0 -> forall todo c C B SA, c + todo = k ->
  length C = todo -> length B = todo ->
  (forall i, i < todo -> nth_error C i = Some (charCount T (N.of_nat (c + i)))) ->
  (forall i, i < todo -> nth_error B i = Some (endOf T (N.of_nat (c + i)) - inM (N.of_nat (c + i)))) ->
  halfMarked c SA0 SA ->
  exists SA', markSeeds n (startOf T (N.of_nat c)) C B SA = Ok SA' /\ halfMarked k SA0 SA'.
Proof.
  intros SA0 HL. induction todo as [|todo IH]; intros c C B SA Hc HC HB EC EB I.
  - destruct C; [|discriminate]. cbn [markSeeds]. exists SA. split; [reflexivity|]. replace k with c by lia. exact I.
  - destruct C as [|c0 C]; [discriminate|]. destruct B as [|b0 B]; [discriminate|]. cbn [length] in HC, HB. cbn [markSeeds].
    pose proof (EC 0 ltac:(lia)) as C0. pose proof (EB 0 ltac:(lia)) as B0. cbn [nth_error] in C0, B0. rewrite Nat.add_0_r in C0, B0.
    injection C0 as C0. injection B0 as B0.
    assert (ES : startOf T (N.of_nat c) + c0 = endOf T (N.of_nat c)) by (rewrite endOf_split, C0; reflexivity).
    assert (EN : endOf T (N.of_nat c) = startOf T (N.of_nat (S c))).
    { unfold endOf, startOf. apply cnt_ext. intros a _. lia. }
    rewrite ES.
    assert (NX : forall SA1, halfMarked (S c) SA0 SA1 -> exists SA', markSeeds n (endOf T (N.of_nat c)) C B SA1 = Ok SA' /\ halfMarked k SA0 SA').
    { intros SA1 I1. rewrite EN. apply IH; auto; try lia.
      - intros i Hi. replace (S c + i) with (c + S i) by lia. exact (EC (S i) ltac:(lia)).
      - intros i Hi. replace (S c + i) with (c + S i) by lia. exact (EB (S i) ltac:(lia)). }
    destruct I as (I1 & I2 & I3 & I4).
    destruct (Nat.eq_dec (inM (N.of_nat c)) 0) as [D|D].
    + replace (b0 =? endOf T (N.of_nat c)) with true by lia. cbn [bind]. apply NX. split; [exact I1|]. split; [exact I2|]. split; [|exact I4].
      intros q Hq. rewrite I3 by exact Hq. do 2 f_equal.
      assert (N.to_nat (ch T q) <> c).
      { intros E. assert (0 < inM (N.of_nat c)); [|lia]. apply (cnt_pos n _ q); [apply xQM in Hq; destruct Hq as [Hq _]; apply lms_lt in Hq; unfold n; lia|].
        rewrite Hq. replace (ch T q =? N.of_nat c)%N with true by lia. reflexivity. }
      replace (N.to_nat (ch T q) <? S c) with (N.to_nat (ch T q) <? c) by lia. reflexivity.
    + destruct (first_true n (fun a => QM a && (ch T a =? N.of_nat c)%N)) as (q & Qn & Qq & Qf); [unfold inM in D; lia|].
      cbv beta in Qq. apply andb_prop in Qq. destruct Qq as [Qq Cq]. apply N.eqb_eq in Cq.
      destruct (place_first q Qq) as [P1 P2]; [rewrite Cq; exact Qf|]. rewrite Cq in P1, P2. rewrite <- B0 in P1.
      replace (b0 =? endOf T (N.of_nat c)) with false by lia. rewrite <- P1.
      rewrite (get_ok _ _ _ (I3 q Qq)). cbn [bind]. replace (N.to_nat (ch T q) <? c) with false by lia. cbn [andb].
      pose proof Qq as Qq'. apply xQM in Qq'. destruct Qq' as [Lq Bq]. pose proof (lms_lt T p0 L0) as LP.
      destruct (place_bound T k HT q Lq) as [_ PB]. fold n in PB.
      unfold check. replace (negb (Z.of_nat q - 1 + 0 =? 0)%Z) with true by lia. cbn [bind].
      rewrite set_ok by lia. cbn [bind]. apply NX. split; [rewrite upd_length; exact I1|]. split; [|split].
      * intros r Hr. rewrite nth_error_upd_other by lia. apply I2, Hr.
      * intros r Hr. destruct (Nat.eq_dec r q) as [Dq|Dq].
        -- subst r. rewrite nth_error_upd_same by lia. replace (N.to_nat (ch T q) <? S c) with true by lia.
           assert (M : mk q = true).
           { apply mark_seed; auto. intros b Hb Cb. destruct (Nat.le_gt_cases q b) as [G|G]; [exact G|].
             pose proof (Qf b G) as Q. cbv beta in Q. rewrite Hb in Q. replace (ch T b =? N.of_nat c)%N with true in Q by lia. discriminate. }
           rewrite M. cbn [andb]. f_equal. lia.
        -- pose proof Hr as Hr'. apply xQM in Hr'. destruct Hr' as [Lr Br].
           rewrite nth_error_upd_other; [|lia|intros F; apply (place_inj T k HT) in F; auto].
           rewrite I3 by exact Hr. do 2 f_equal.
           destruct (Nat.eq_dec (N.to_nat (ch T r)) c) as [Dc|Dc].
           ++ assert (M : mk r = false).
              { destruct (mk r) eqn:Mr; [|reflexivity]. exfalso. pose proof (proj1 (mark_seed r Hr) Mr) as Mr1. specialize (Mr1 q Qq ltac:(lia)).
                pose proof (Qf r ltac:(lia)) as Q. cbv beta in Q. rewrite Hr in Q. replace (ch T r =? N.of_nat c)%N with true in Q by lia. discriminate. }
              rewrite M, !andb_false_r. reflexivity.
           ++ replace (N.to_nat (ch T r) <? S c) with (N.to_nat (ch T r) <? c) by lia. reflexivity.
      * intros r Hr NR. rewrite nth_error_upd_other; [|lia|intros F; apply (NR q Qq); congruence]. apply I4; auto.
Qed.

Theorem marked_seeds : forall SA C B, countsOf T k C -> n <= length SA -> seedsAt T k p0 (fun q => Z.of_nat q - 1)%Z SA ->
  length B = k -> (forall c, N.to_nat c < k -> nth_error B (N.to_nat c) = Some (endOf T c - inM c)) ->
  exists SA', markSeeds n 0 C B SA = Ok SA' /\ seedsAt T k p0 (marked n mk) SA' /\ length SA' = length SA /\
    forall r, n <= r -> nth_error SA' r = nth_error SA r.
Proof.
  intros SA C B [LC HC] HL (S1 & S2 & S3) LB HB.
  assert (RP : forall q, QM q = true -> row T (lessL T k) (PL T p0) (ProofSais9.QM T p0) q = place T k q).
  { intros q Hq. apply xQM in Hq. apply rowL_place; tauto. }
  destruct (markSeeds_ok SA HL k 0 C B SA) as (SA' & E & I1 & I2 & I3 & I4); auto.
  - intros i Hi. cbn [Nat.add]. specialize (HC (N.of_nat i)). rewrite Nat2N.id in HC. auto.
  - intros i Hi. cbn [Nat.add]. specialize (HB (N.of_nat i)). rewrite Nat2N.id in HB. auto.
  - split; [reflexivity|]. split; [reflexivity|]. split.
    + intros q Hq. rewrite <- RP by exact Hq. rewrite S2 by exact Hq. cbn [andb]. f_equal. replace (N.to_nat (ch T q) <? 0) with false by lia. cbn [andb]. lia.
    + intros r Hr NR. apply S3; [exact Hr|]. intros q Hq. rewrite RP by exact Hq. apply NR, Hq.
  - assert (Z0 : startOf T (N.of_nat 0) = 0) by (unfold startOf; apply cnt_none; intros; lia).
    rewrite Z0 in E. exists SA'. split; [exact E|]. split; [|auto]. split; [fold n; lia|]. split.
    + intros q Hq. rewrite RP by exact Hq. rewrite I3 by exact Hq. unfold marked. do 2 f_equal.
      pose proof Hq as Hq'. apply xQM in Hq'. destruct Hq' as [Lq _]. apply lms_lt in Lq. pose proof (HT q ltac:(lia)) as Hc.
      replace (N.to_nat (ch T q) <? k) with true by lia. reflexivity.
    + intros r Hr NR. apply I4; [exact Hr|]. intros q Hq. rewrite <- RP by exact Hq. apply NR, Hq.
Qed.
End Marked.

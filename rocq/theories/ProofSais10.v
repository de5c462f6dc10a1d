(** Stage 1: the seeds. *)
From Coq Require Import List NArith ZArith Arith Bool Lia.
From Coq Require Import ZifyBool ZifyNat ZifyN.
From Verif Require Import Base Arrays ModelSais ProofSais1 ProofSais2 ProofSais3 ProofSais7 ProofSais8 ProofSais9.
Import ListNotations.
Open Scope nat_scope.

Section Seeds.
Variable T : list N.
Variable k : nat.
Hypothesis HT : charsBelow T k.
Let n := length T.
Local Notation less := (lessL T k).

Lemma orderedM : ordered T less (ltyp T) (lms T).
Proof.
  apply (ordered_weaken T less (ltyp T) (styp T)).
  - apply ordered1; [intros a b _ H; specialize (HT b H); unfold fine; lia|intros a b _ _ H; unfold fine in H; lia].
  - auto.
  - intros a H. apply lms_lt in H. tauto.
Qed.

(** Where the seed goes: the LMS suffixes with the same first character in the order of
    their positions. *)
Definition place (q : nat) : nat := rowQ T less (lms T) q.

Lemma less_lms : forall a b, lms T a = true -> lms T b = true -> ch T a = ch T b -> less a b = (a <? b).
Proof.
  intros a b Ha Hb E. apply lms_lt in Ha, Hb. unfold lessL, lt1. rewrite !key1_S by tauto. rewrite E, lexltb_cons.
  cbn [lexltb]. unfold fine. rewrite andb_false_r, orb_false_r. lia.
Qed.

Lemma place_eq : forall q, lms T q = true ->
  place q = endOf T (ch T q) - S (cnt n (fun x => lms T x && (ch T x =? ch T q)%N && (q <? x))).
Proof.
  intros q H. unfold place, rowQ. do 2 f_equal. apply cnt_ext. intros x _. destruct (lms T x) eqn:E; [|reflexivity].
  destruct (N.eqb_spec (ch T x) (ch T q)) as [C|C]; [|reflexivity]. cbn [andb]. apply less_lms; auto.
Qed.

Lemma place_row : forall q, lms T q = true -> row T less (ltyp T) (lms T) q = place q.
Proof. intros q H. apply row_Q; auto. exact orderedM. Qed.

Lemma place_inj : forall p q, lms T p = true -> lms T q = true -> place p = place q -> p = q.
Proof.
  intros p q Hp Hq E. rewrite <- !place_row in E by assumption.
  apply (row_inj T less (ltyp T) (lms T) orderedM); auto; rewrite ?Hp, ?Hq; apply orb_true_r.
Qed.

Lemma place_bound : forall q, lms T q = true ->
  S (cnt n (fun x => lms T x && (ch T x =? ch T q)%N && (q <? x))) <= endOf T (ch T q) /\ S (place q) < n.
Proof.
  intros q H. pose proof (rowQ_count T less (ltyp T) (lms T) orderedM q H) as A.
  pose proof (bucket_room T less (ltyp T) (lms T) orderedM (ch T q)) as B.
  rewrite (cnt_ext (length T) _ (fun x => lms T x && (ch T x =? ch T q)%N && (q <? x))) in A.
  2:{ intros x _. destruct (lms T x) eqn:E; [|reflexivity].
      destruct (N.eqb_spec (ch T x) (ch T q)) as [C|C]; [|reflexivity]. cbn [andb]. apply less_lms; auto. }
  fold n in A. split; [unfold n in *; lia|].
  rewrite place_eq by assumption. pose proof H as H'. apply lms_lt in H'. destruct H' as (H0 & H1 & _ & _ & H4).
  assert (endOf T (ch T q) < n).
  { unfold endOf. fold n. assert (E : cnt n (fun _ => true) = n) by (clear; unfold cnt; rewrite <- (seq_length n 0) at 2; f_equal; induction (seq 0 n); cbn [filter]; congruence).
    rewrite <- E at 2. apply (cnt_strict n _ _ (q - 1)); auto; [unfold n; lia|]. apply N.leb_gt. exact H4. }
  unfold n in *. lia.
Qed.

Definition from (e a : nat) : bool := lms T a && (e <=? a).

Record seeding (e : nat) (SA0 : list Z) (st : seeds) : Prop := {
  s_len : length (let '(SA, _, _, _, _) := st in SA) = length SA0;
  s_tail : let '(SA, _, _, _, _) := st in forall r, n <= r -> nth_error SA r = nth_error SA0 r;
  s_B : let '(_, B, _, _, _) := st in length B = k /\ forall c, N.to_nat c < k ->
    nth_error B (N.to_nat c) = Some (endOf T c - cnt n (fun a => from e a && (ch T a =? c)%N));
  s_m : let '(_, _, _, _, m) := st in m = cnt n (from e);
  s_bj : let '(_, _, b, j, _) := st in
    ((forall q, from e q = false) /\ b = n - 1 /\ j = n) \/
    (exists p, from e p = true /\ (forall q, from e q = true -> p <= q) /\ b = place p /\ S j = p);
  s_done : let '(SA, _, _, _, _) := st in forall q q', from e q' = true -> lms T q = true -> q' < q ->
    nth_error SA (place q) = Some (Z.of_nat q - 1)%Z;
  s_zero : let '(SA, _, _, _, _) := st in forall r, r < n -> r <> n - 1 \/ (forall q, from e q = false) ->
    (forall q q', from e q' = true -> lms T q = true -> q' < q -> place q <> r) -> nth_error SA r = Some 0%Z
}.

Lemma from_step : forall e a, lms T e = true -> from e a = from (S e) a || (a =? e).
Proof.
  intros e a H. unfold from. destruct (Nat.eqb_spec a e) as [D|D].
  - subst. rewrite H, Nat.leb_refl. rewrite orb_true_r. reflexivity.
  - rewrite orb_false_r. f_equal. lia.
Qed.
Lemma from_skip : forall e a, lms T e = false -> from e a = from (S e) a.
Proof.
  intros e a H. unfold from. destruct (Nat.eq_dec a e) as [D|D].
  - subst. rewrite H. reflexivity.
  - f_equal. lia.
Qed.
Lemma from_true : forall e a, from e a = true <-> lms T a = true /\ e <= a.
Proof. intros e a. unfold from. rewrite andb_true_iff, Nat.leb_le. tauto. Qed.

Lemma seeding_step : forall e SA0 st, n <= length SA0 -> lms T e = true -> seeding (S e) SA0 st ->
  exists st', seedOne n (e - 1) (ch T e) st = Ok st' /\ seeding e SA0 st'.
Proof.
  intros e SA0 [[[[SA B] b] j] m] HL He [I1 I2 I3 I4 I5 I6 I7]. unfold seedOne.
  pose proof He as He'. apply lms_lt in He'. destruct He' as (H0 & H1 & H2 & H3 & H4). fold n in H1.
  destruct (place_bound e He) as [PB1 PB2].
  assert (Bb : b < n).
  { destruct I5 as [(_ & E & _)|(p & Hp & _ & E & _)]; [lia|]. subst b. apply from_true in Hp.
    destruct (place_bound p (proj1 Hp)). lia. }
  rewrite set_ok by lia. cbn [bind]. destruct I3 as [LB HB].
  assert (Kc : N.to_nat (ch T e) < k) by (apply HT; unfold n in *; lia).
  rewrite (get_ok _ _ _ (HB _ Kc)). cbn [bind].
  assert (CE : cnt n (fun a => from (S e) a && (ch T a =? ch T e)%N) = cnt n (fun x => lms T x && (ch T x =? ch T e)%N && (e <? x))).
  { apply cnt_ext. intros a _. unfold from. change (S e <=? a) with (e <? a). destruct (lms T a); cbn [andb]; [apply andb_comm|reflexivity]. }
  rewrite CE.
  pose proof (place_eq e He) as PE.
  destruct (endOf T (ch T e) - cnt n (fun x => lms T x && (ch T x =? ch T e)%N && (e <? x))) as [|v] eqn:Ev; [lia|].
  assert (Pv : place e = v) by lia.
  rewrite set_ok by lia. cbn [bind]. unfold check. replace (negb (v =? n - 1)) with true by lia. cbn [bind].
  eexists. split; [reflexivity|]. constructor.
  - rewrite upd_length. exact I1.
  - intros r Hr. rewrite nth_error_upd_other by lia. apply I2, Hr.
  - split; [rewrite upd_length; exact LB|]. intros c Hc. destruct (N.eq_dec c (ch T e)) as [D|D].
    + subst c. rewrite nth_error_upd_same by lia. f_equal.
      rewrite (cnt_add n (fun a => from (S e) a && (ch T a =? ch T e)%N) _ e); [rewrite CE; lia|lia| |].
      * unfold from. replace (S e <=? e) with false by lia. rewrite andb_false_r. reflexivity.
      * intros a _. rewrite (from_step e a He). destruct (Nat.eqb_spec a e) as [G|G]; [subst; rewrite N.eqb_refl; rewrite !orb_true_r; reflexivity|].
        rewrite !orb_false_r. reflexivity.
    + rewrite nth_error_upd_other by lia. rewrite HB by assumption. do 2 f_equal. apply cnt_ext. intros a _.
      rewrite (from_step e a He). destruct (Nat.eqb_spec a e) as [G|G]; [|rewrite orb_false_r; reflexivity].
      subst a. replace (ch T e =? c)%N with false by lia. rewrite !andb_false_r. reflexivity.
  - cbn. rewrite I4. symmetry. apply (cnt_add n _ _ e); [lia| |].
    + unfold from. replace (S e <=? e) with false by lia. rewrite andb_false_r. reflexivity.
    + intros a _. apply from_step, He.
  - right. exists e. repeat split.
    + apply from_true. auto.
    + intros q Hq. apply from_true in Hq. tauto.
    + auto.
    + lia.
  - (* stored *)
    intros q q' Hq' Hq Hlt. apply from_true in Hq'. destruct Hq' as [Lq' Eq'].
    destruct I5 as [(NF & Eb & Ej)|(p & Hp & Mp & Eb & Ej)].
    + exfalso. specialize (NF q). unfold from in NF. rewrite Hq in NF. lia.
    + pose proof Hp as Hp'. apply from_true in Hp'. destruct Hp' as [Lp Ep].
      assert (p <= q) by (apply Mp, from_true; split; [assumption|lia]).
      subst b. destruct (Nat.eq_dec q p) as [D|D].
      * subst q. rewrite nth_error_upd_same by lia. f_equal. lia.
      * rewrite nth_error_upd_other; [|lia|intros F; apply place_inj in F; auto].
        apply (I6 q p); auto. lia.
  - (* empty *)
    intros r Hr Hor NR.
    assert (r <> n - 1) by (destruct Hor as [?|A]; auto; specialize (A e); unfold from in A; rewrite He, Nat.leb_refl in A; discriminate).
    destruct I5 as [(NF & Eb & Ej)|(p & Hp & Mp & Eb & Ej)].
    + subst b. rewrite nth_error_upd_other by lia. apply I7; auto.
      intros q q' Hq'. rewrite NF in Hq'. discriminate.
    + pose proof Hp as Hp'. apply from_true in Hp'. destruct Hp' as [Lp Ep].
      assert (place p <> r) by (apply (NR p e); auto; try lia; apply from_true; auto).
      subst b. rewrite nth_error_upd_other by lia. apply I7; auto.
      intros q q' Hq' Hq Hlt. apply from_true in Hq'. apply (NR q q'); auto. apply from_true. split; [tauto|lia].
Qed.

Lemma from_above : forall e a, length T <= e -> from e a = false.
Proof. intros e a H. unfold from. destruct (lms T a) eqn:E; [|reflexivity]. apply lms_lt in E. cbn [andb]. lia. Qed.

Lemma seeding_fold : forall e SA0 st, n <= length SA0 -> seeding e SA0 st ->
  exists st', foldAct T (seedOne n) (lmsBelow T e) st = Ok st' /\ seeding 0 SA0 st'.
Proof.
  induction e as [|e IH]; intros SA0 st HL I; cbn [lmsBelow].
  - exists st. auto.
  - destruct (lms T e) eqn:E.
    + cbn [foldAct]. destruct (seeding_step e SA0 st HL E I) as (st' & E' & I'). rewrite E'. cbn [bind]. apply IH; auto.
    + apply IH; auto. destruct st as [[[[SA B] b] j] m]. destruct I as [I1 I2 I3 I4 I5 I6 I7].
      assert (FE : forall a, from e a = from (S e) a) by (intros; apply from_skip, E).
      constructor; auto.
      * destruct I3 as [LB HB]. split; [exact LB|]. intros c Hc. rewrite HB by assumption. do 2 f_equal. apply cnt_ext. intros a _. rewrite FE. reflexivity.
      * rewrite I4. apply cnt_ext. auto.
      * destruct I5 as [(NF & Eb & Ej)|(p & Hp & Mp & Eb & Ej)]; [left|right].
        -- split; auto. intros q. rewrite FE. auto.
        -- exists p. rewrite FE. repeat split; auto. intros q. rewrite FE. auto.
      * intros q q'. rewrite FE. apply I6.
      * intros r Hr Hor NR. apply I7; auto.
        -- destruct Hor as [?|A]; auto. right. intros q. rewrite <- FE. apply A.
        -- intros q q'. rewrite <- FE. apply NR.
Qed.

Lemma skipn_nth : forall {A} (l : list A) i j, nth_error (skipn i l) j = nth_error l (i + j).
Proof. induction l as [|x l IH]; intros [|i] j; cbn [skipn Nat.add nth_error]; auto. destruct j; reflexivity. Qed.

(** The state when the scan is over. *)
Lemma seeds_ok : forall SA0 C, 0 < n -> n <= length SA0 -> countsOf T k C ->
  exists SA B b j, lmsScan T (seedOne n) (repeat 0%Z n ++ skipn n SA0, getBuckets C 0 true, n - 1, n, 0) =
      Ok (SA, B, b, j, cnt n (lms T)) /\
    length SA = length SA0 /\ (forall r, n <= r -> nth_error SA r = nth_error SA0 r) /\
    (length B = k /\ forall c, N.to_nat c < k ->
      nth_error B (N.to_nat c) = Some (endOf T c - cnt n (fun a => lms T a && (ch T a =? c)%N))) /\
    (((forall q, lms T q = false) /\ b = n - 1 /\ j = n) \/
     (exists p, lms T p = true /\ (forall q, lms T q = true -> p <= q) /\ b = place p /\ S j = p)) /\
    (forall q q', lms T q' = true -> lms T q = true -> q' < q -> nth_error SA (place q) = Some (Z.of_nat q - 1)%Z) /\
    (forall r, r < n -> r <> n - 1 \/ (forall q, lms T q = false) ->
      (forall q q', lms T q' = true -> lms T q = true -> q' < q -> place q <> r) -> nth_error SA r = Some 0%Z).
Proof.
  intros SA0 C Hn HL HC. rewrite lmsScan_ok by exact Hn.
  destruct (seeding_fold (length T) SA0 (repeat 0%Z n ++ skipn n SA0, getBuckets C 0 true, n - 1, n, 0)) as (st & E & I); auto.
  - assert (FA : forall a, from (length T) a = false) by (intros; apply from_above; lia).
    constructor.
    + rewrite app_length, repeat_length, skipn_length. lia.
    + intros r Hr. rewrite nth_error_app2; rewrite repeat_length; [|exact Hr]. rewrite skipn_nth. f_equal. lia.
    + split; [rewrite getBuckets_length; apply HC|]. intros c Hc. rewrite (getBuckets_ok T k C true HC c Hc). f_equal.
      rewrite cnt_none; [lia|]. intros a _. rewrite FA. reflexivity.
    + rewrite cnt_none; auto.
    + left. auto.
    + intros q q' Hq'. rewrite FA in Hq'. discriminate.
    + intros r Hr _ _. rewrite nth_error_app1 by (rewrite repeat_length; exact Hr). apply nth_error_repeat_lt. exact Hr.
  - fold n in E. destruct st as [[[[SA B] b] j] m]. destruct I as [I1 I2 I3 I4 I5 I6 I7].
    assert (FE : forall a, from 0 a = lms T a) by (intros; unfold from; apply andb_true_r).
    exists SA, B, b, j. split.
    { unfold n in E |- *. rewrite E. do 2 f_equal. rewrite I4. apply cnt_ext. auto. }
    split; [exact I1|]. split; [exact I2|]. split.
    { destruct I3 as [LB HB]. split; [exact LB|]. intros c Hc. rewrite HB by assumption. do 2 f_equal. apply cnt_ext. intros a _. rewrite FE. reflexivity. }
    split.
    { destruct I5 as [(NF & Eb & Ej)|(p & Hp & Mp & Eb & Ej)]; [left|right].
      - split; auto. intros q. rewrite <- FE. apply NF.
      - exists p. rewrite <- FE. repeat split; auto. intros q. rewrite <- FE. apply Mp. }
    split.
    + intros q q'. rewrite <- FE. apply I6.
    + intros r Hr Hor NR. apply I7; auto.
      * destruct Hor as [?|A]; auto. right. intros q. rewrite FE. apply A.
      * intros q q'. rewrite FE. apply NR.
Qed.

(** The row of a seed in the first scan. *)
Lemma rowL_place : forall p0 q, lms T p0 = true -> (forall x, lms T x = true -> p0 <= x) -> lms T q = true -> p0 < q ->
  row T less (PL T p0) (QM T p0) q = place q.
Proof.
  intros p0 q L0 F0 Hq B. assert (HQ : QM T p0 q = true) by (apply QM_spec; auto).
  rewrite (row_Q T less (PL T p0) (QM T p0) (orderedL T k HT p0 F0) q HQ), place_eq by assumption.
  unfold rowQ. do 2 f_equal. apply cnt_ext. intros x _. unfold QM.
  destruct (lms T x) eqn:E; [|reflexivity]. cbn [andb].
  destruct (N.eqb_spec (ch T x) (ch T q)) as [C|C]; [|rewrite !andb_false_r; reflexivity]. rewrite !andb_true_r. cbn [andb].
  rewrite less_lms by auto. lia.
Qed.

(** Enough seeds to sort. *)
Lemma seeds_many : forall p0 SA SA1, lms T p0 = true -> (forall x, lms T x = true -> p0 <= x) -> n <= length SA ->
  (forall q q', lms T q' = true -> lms T q = true -> q' < q -> nth_error SA (place q) = Some (Z.of_nat q - 1)%Z) ->
  (forall r, r < n -> r <> n - 1 \/ (forall q, lms T q = false) ->
      (forall q q', lms T q' = true -> lms T q = true -> q' < q -> place q <> r) -> nth_error SA r = Some 0%Z) ->
  SA1 = upd SA (n - 1) 0%Z -> seedsAt T k p0 (fun q => Z.of_nat q - 1)%Z SA1.
Proof.
  intros p0 SA SA1 L0 F0 HL HD HZ ->. pose proof L0 as L0'. apply lms_lt in L0'.
  split; [rewrite upd_length; exact HL|]. split.
  - intros q Hq. apply QM_spec in Hq. destruct Hq as [Hq B]. rewrite rowL_place by assumption.
    destruct (place_bound q Hq). rewrite nth_error_upd_other by lia. apply (HD q p0); auto.
  - intros r Hr NR. destruct (Nat.eq_dec r (n - 1)) as [D|D].
    + subst r. apply nth_error_upd_same. fold n in Hr. lia.
    + rewrite nth_error_upd_other by (fold n in Hr; lia). apply HZ; auto.
      intros q q' Lq' Lq Hlt E. pose proof (F0 q' Lq'). apply (NR q); [apply QM_spec; split; [assumption|lia]|].
      rewrite rowL_place by (auto; lia). exact E.
Qed.
End Seeds.

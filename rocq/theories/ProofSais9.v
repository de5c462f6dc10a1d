(** Stage 1: the two scans with the keys as order; LMSsort1. *)
From Coq Require Import List NArith ZArith Arith Bool Lia.
From Coq Require Import ZifyBool ZifyNat ZifyN.
From Verif Require Import Base Arrays ModelSais ProofSais1 ProofSais2 ProofSais3 ProofSais7 ProofSais8.
Import ListNotations.
Open Scope nat_scope.

Section Sort.
Variable T : list N.
Variable k : nat.
Hypothesis HT : charsBelow T k.
Let n := length T.
(** The leftmost LMS position. *)
Variable p0 : nat.
Hypothesis L0 : lms T p0 = true.
Hypothesis F0 : forall q, lms T q = true -> p0 <= q.

Definition fine (a : nat) : N := N.of_nat (k + a).
Definition PL (a : nat) : bool := ltyp T a && (p0 <? a).
Definition QM (a : nat) : bool := lms T a && (p0 <? a).
Definition QS (a : nat) : bool := styp T a && (p0 <=? a).
Definition lessL := lt1 T fine.
Definition lessS := lt2 T fine.

Lemma Hn : 0 < n.
Proof. apply lms_lt in L0. unfold n. lia. Qed.
Lemma Hp0 : 0 < p0 /\ S p0 < n /\ styp T p0 = true.
Proof. pose proof L0 as H. apply lms_lt in H. unfold n. tauto. Qed.

Lemma fine_tag : forall a b, a < n -> b < n -> (ch T b < fine a)%N.
Proof. intros a b _ H. specialize (HT b H). unfold fine. lia. Qed.
Lemma fine_inj : forall a b, a < n -> b < n -> fine a = fine b -> a = b.
Proof. intros a b _ _ H. unfold fine in H. lia. Qed.

Lemma PL_spec : forall a, PL a = true <-> (ltyp T a = true /\ p0 < a).
Proof. intros a. unfold PL. rewrite andb_true_iff, Nat.ltb_lt. tauto. Qed.
Lemma QM_spec : forall a, QM a = true <-> (lms T a = true /\ p0 < a).
Proof. intros a. unfold QM. rewrite andb_true_iff, Nat.ltb_lt. tauto. Qed.
Lemma QS_spec : forall a, QS a = true <-> (styp T a = true /\ p0 <= a).
Proof. intros a. unfold QS. rewrite andb_true_iff, Nat.leb_le. tauto. Qed.
Lemma lms_QS : forall a, lms T a = true -> QS a = true.
Proof. intros a H. apply QS_spec. split; [apply lms_lt in H; tauto|auto]. Qed.

Lemma orderedL : ordered T lessL PL QM.
Proof.
  apply (ordered_weaken T lessL (ltyp T) (styp T)).
  - apply ordered1; [exact fine_tag|exact fine_inj].
  - intros a H. apply PL_spec in H. tauto.
  - intros a H. apply QM_spec in H. destruct H as [H _]. apply lms_lt in H. tauto.
Qed.
Lemma orderedS : ordered T lessS PL QS.
Proof.
  apply (ordered_weaken T lessS (ltyp T) (styp T)).
  - apply ordered2; [exact fine_tag|exact fine_inj].
  - intros a H. apply PL_spec in H. tauto.
  - intros a H. apply QS_spec in H. tauto.
Qed.

Local Notation rowL := (row T lessL PL QM).
Local Notation rowS := (row T lessS PL QS).

Lemma PL_lt : forall a, PL a = true -> p0 < a < n /\ styp T a = false.
Proof. intros a H. apply PL_spec in H. destruct H as [H B]. apply ltyp_spec in H. unfold n. tauto. Qed.

Lemma PL_next : forall a, PL a = true -> S a = n \/ PL (S a) || QM (S a) = true.
Proof.
  intros a H. apply PL_spec in H. destruct H as [H B]. apply ltyp_next in H. destruct H as [H|H]; [left; exact H|right].
  apply orb_prop in H. apply orb_true_iff. destruct H as [H|H]; [left; apply PL_spec|right; apply QM_spec]; split; auto; lia.
Qed.
Lemma PL_dec : forall a, PL a = true -> S a < n -> lessL (S a) a = true.
Proof. intros a H B. apply PL_spec in H. apply lt1_dec with (d := n - a); first [exact fine_tag|reflexivity|exact B|tauto]. Qed.
Lemma PL_step : forall a b, PL a = true -> PL b = true -> ch T a = ch T b -> S a < n -> S b < n -> lessL a b = lessL (S a) (S b).
Proof. intros a b Ha Hb E _ _. apply PL_spec in Ha, Hb. apply lt1_step; first [exact fine_tag|tauto]. Qed.
Lemma PL_last : forall a b, PL a = true -> PL b = true -> ch T a = ch T b -> S a = n -> a <> b -> lessL a b = true.
Proof. intros a b Ha Hb E. apply PL_spec in Ha, Hb. apply lt1_last; first [exact fine_tag|tauto]. Qed.
Lemma PL_end : PL (n - 1) = true.
Proof.
  pose proof Hp0. apply PL_spec. split; [apply (ltyp_end T); exact Hn|lia].
Qed.

Lemma QS_next : forall a, QS a = true -> PL (S a) || QS (S a) = true.
Proof.
  intros a H. apply QS_spec in H. destruct H as [H B]. apply styp_next in H.
  apply orb_prop in H. apply orb_true_iff. destruct H as [H|H]; [left; apply PL_spec|right; apply QS_spec]; split; auto; lia.
Qed.
Lemma QS_inc : forall a, QS a = true -> lessS a (S a) = true.
Proof. intros a H. apply QS_spec in H. apply lt2_inc with (d := n - a); first [exact fine_tag|reflexivity|tauto]. Qed.
Lemma QS_step : forall a b, QS a = true -> QS b = true -> ch T a = ch T b -> lessS a b = lessS (S a) (S b).
Proof. intros a b Ha Hb. apply QS_spec in Ha, Hb. apply lt2_step; first [exact fine_tag|tauto]. Qed.

(** The suffixes of type L keep their rows. *)
Lemma row_LS : forall a, PL a = true -> rowS a = rowL a.
Proof.
  intros a H. rewrite (row_P T lessS PL QS a H), (row_P T lessL PL QM a H). unfold rowP. f_equal. apply cnt_ext.
  intros x _. destruct (PL x) eqn:E; [|reflexivity]. cbn [andb].
  apply PL_lt in E, H. unfold lessS, lessL, lt2, lt1. rewrite !key2_L by tauto. reflexivity.
Qed.

(** The seeds: the LMS suffixes but the leftmost one. *)
Definition seedsAt (val : nat -> Z) (SA : list Z) : Prop :=
  n <= length SA /\
  (forall q, QM q = true -> nth_error SA (rowL q) = Some (val q)) /\
  (forall r, r < n -> (forall q, QM q = true -> rowL q <> r) -> nth_error SA r = Some 0%Z).

Lemma start_room : startOf T (ch T (n - 1)) < n.
Proof.
  pose proof (first_row T lessL PL QM orderedL Hn PL_last PL_end) as E.
  pose proof (row_lt T lessL PL QM orderedL (n - 1)) as B. rewrite PL_end in B. specialize (B eq_refl).
  fold n in E, B. rewrite E in B. exact B.
Qed.

Section Pass1.
Context {X : Type}.
Variable visit : nat -> Z -> X -> outcome (Z * X * option nat).
Variable store : nat -> nat -> nat -> X -> outcome (Z * X).
Variables val post : nat -> Z.
Variable J : nat -> X -> Prop.
Hypothesis Hvisit : forall i q x, i < n -> PL q || QM q = true -> rowL q = i -> J i x ->
  exists x1, visit i (val q) x = Ok (post q, x1, upTarget PL q) /\
    match upTarget PL q with
    | None => J (S i) x1
    | Some a => exists x2, store i a (rowL a) x1 = Ok (val a, x2) /\ J (S i) x2
    end.
Hypothesis Hempty : forall i x, i < n -> (forall q, PL q || QM q = true -> rowL q <> i) -> J i x ->
  exists x1, visit i 0%Z x = Ok (0%Z, x1, None) /\ J (S i) x1.

Lemma pass1 : forall SA C x, seedsAt val SA -> countsOf T k C -> J 0 x ->
  exists SA' x', upLoop T visit store n 0 (upd SA (startOf T (ch T (n - 1))) (val (n - 1)))
      (getBuckets C 0 false, ch T (n - 1), S (startOf T (ch T (n - 1)))) x = Ok (SA', x') /\
    (forall q, PL q || QM q = true -> nth_error SA' (rowL q) = Some (post q)) /\
    (forall r, r < n -> (forall q, PL q || QM q = true -> rowL q <> r) -> nth_error SA' r = Some 0%Z) /\
    J n x' /\ length SA' = length SA /\ forall r, n <= r -> nth_error SA' r = nth_error SA r.
Proof.
  intros SA C x (HL & HQ & HE) HC HJ. pose proof start_room as B. pose proof Hn as Hn.
  destruct (upLoop_ok (X := X) T k HT lessL PL QM orderedL) with (visit := visit) (store := store)
    (val := val) (post := post) (e0 := 0%Z) (e1 := 0%Z) (J := J) (todo := n) (i := 0)
    (SA := upd SA (startOf T (ch T (n - 1))) (val (n - 1)))
    (cu := (getBuckets C 0 false, ch T (n - 1), S (startOf T (ch T (n - 1))))) (x := x)
    as (SA' & x' & E & I & HJ' & L & TL).
  - exact PL_next.
  - exact PL_dec.
  - exact PL_step.
  - exact PL_last.
  - exact Hvisit.
  - exact Hempty.
  - reflexivity.
  - rewrite upd_length. exact HL.
  - apply up_start; auto.
    + exact orderedL.
    + exact PL_last.
    + exact PL_end.
  - apply up_cursor; auto; first [exact orderedL|exact PL_last|exact PL_end].
  - exact HJ.
  - exists SA', x'. split; [exact E|]. split.
    { intros q Rq. apply (u_done _ _ _ _ _ _ _ _ _ _ I); auto. apply row_lt; auto. exact orderedL. }
    split.
    { intros r Hr NR. apply (u_doneE _ _ _ _ _ _ _ _ _ _ I); auto. }
    split; [exact HJ'|]. split; [rewrite L; apply upd_length|].
    intros r Hr. rewrite TL by exact Hr. apply nth_error_upd_other; lia.
Qed.
End Pass1.

Section Pass2.
Context {X : Type}.
Variable visit : nat -> Z -> X -> outcome (Z * X * option nat).
Variable store : nat -> nat -> nat -> X -> outcome (Z * X).
Variables val post : nat -> Z.
Variable J : nat -> X -> Prop.
Hypothesis Hvisit : forall i q x, i < n -> PL q || QS q = true -> rowS q = i -> J (S i) x ->
  exists x1, visit i (val q) x = Ok (post q, x1, downTarget QS q) /\
    match downTarget QS q with
    | None => J i x1
    | Some a => exists x2, store i a (rowS a) x1 = Ok (val a, x2) /\ J i x2
    end.
Hypothesis Hempty : forall i x, i < n -> (forall q, PL q || QS q = true -> rowS q <> i) -> J (S i) x ->
  exists x1, visit i 0%Z x = Ok (0%Z, x1, None) /\ J i x1.

Lemma pass2 : forall SA C x, n <= length SA -> countsOf T k C ->
  (forall q, PL q = true -> nth_error SA (rowL q) = Some (val q)) ->
  (forall r, r < n -> (forall q, PL q = true -> rowL q <> r) -> nth_error SA r = Some 0%Z) -> J n x ->
  exists SA' x', downLoop T visit store n SA (getBuckets C 0 true, 0%N, endOf T 0) x = Ok (SA', x') /\
    (forall q, PL q || QS q = true -> nth_error SA' (rowS q) = Some (post q)) /\
    (forall r, r < n -> (forall q, PL q || QS q = true -> rowS q <> r) -> nth_error SA' r = Some 0%Z) /\
    J 0 x' /\ length SA' = length SA /\ forall r, n <= r -> nth_error SA' r = nth_error SA r.
Proof.
  intros SA C x HL HC HP HE HJ. pose proof Hn as Hn.
  assert (Hk : 0 < k) by (specialize (HT 0 Hn); lia).
  destruct (downLoop_ok (X := X) T k HT lessS PL QS orderedS) with (visit := visit) (store := store)
    (val := val) (post := post) (e0 := 0%Z) (e1 := 0%Z) (J := J) (e := n)
    (SA := SA) (cu := (getBuckets C 0 true, 0%N, endOf T 0)) (x := x)
    as (SA' & x' & E & I & HJ' & L & TL).
  - exact QS_next.
  - exact QS_inc.
  - exact QS_step.
  - exact Hvisit.
  - exact Hempty.
  - unfold n. lia.
  - exact HL.
  - apply down_start.
    + exact orderedS.
    + exact QS_next.
    + intros q Hq. rewrite row_LS by assumption. apply HP, Hq.
    + intros r Hr NR. apply HE; auto. intros q Hq. rewrite <- row_LS by assumption. apply NR. rewrite Hq. reflexivity.
  - apply down_cursor; auto; [exact orderedS|exact QS_next].
  - exact HJ.
  - exists SA', x'. split; [exact E|]. split.
    { intros q Rq. apply (d_done _ _ _ _ _ _ _ _ _ _ I); auto. lia. }
    split.
    { intros r Hr NR. apply (d_doneE _ _ _ _ _ _ _ _ _ _ I); auto. split; [lia|exact Hr]. }
    auto.
Qed.
End Pass2.

(** *** LMSsort1 *)
Definition valL1 (q : nat) : Z :=
  if (ch T (q - 1) <? ch T q)%N then inv (Z.of_nat q - 1) else (Z.of_nat q - 1)%Z.
Definition postL1 (q : nat) : Z := if (ch T (q - 1) <? ch T q)%N then (Z.of_nat q - 1)%Z else 0%Z.

Lemma getz_nat : forall a, a < n -> getz T (Z.of_nat a) = Ok (ch T a).
Proof. intros a H. unfold getz. replace (Z.of_nat a <? 0)%Z with false by lia. rewrite Nat2Z.id. apply get_ch, H. Qed.
Lemma getz_pred : forall q, 0 < q -> q < n -> getz T (Z.of_nat q - 1) = Ok (ch T (q - 1)).
Proof. intros q H H'. replace (Z.of_nat q - 1)%Z with (Z.of_nat (q - 1)) by lia. apply getz_nat. lia. Qed.

Lemma before1_ok : forall q, 0 < q -> q < n -> before1 T q = Ok (valL1 q).
Proof.
  intros q H H'. unfold before1, valL1. rewrite getz_pred by assumption. cbn [bind].
  rewrite (get_ch T q) by exact H'. reflexivity.
Qed.

(** The suffix before, in the first scan. *)
Lemma upL : forall q, PL q || QM q = true ->
  p0 < q < n /\ upTarget PL q = (if (ch T (q - 1) <? ch T q)%N then None else Some (q - 1)).
Proof.
  intros q H. pose proof Hp0 as B0. apply orb_prop in H. unfold upTarget. destruct H as [H|H].
  - apply PL_lt in H. destruct H as [B S]. split; [exact B|]. replace (0 <? q) with true by lia. cbn [andb].
    pose proof (before_L T q ltac:(lia) ltac:(unfold n in *; lia) S) as E. rewrite <- E.
    destruct (styp T (q - 1)) eqn:F.
    + replace (PL (q - 1)) with false; [reflexivity|]. symmetry. unfold PL, ltyp. rewrite F. cbn [negb]. rewrite andb_false_r. reflexivity.
    + replace (PL (q - 1)) with true; [reflexivity|]. symmetry. apply PL_spec. split; [apply ltyp_spec; split; [unfold n in *; lia|assumption]|].
      destruct (Nat.eq_dec (q - 1) p0) as [D|D]; [rewrite D in F; destruct B0 as (_ & _ & B0); congruence|lia].
  - apply QM_spec in H. destruct H as [H B]. pose proof H as H'. apply lms_lt in H'. destruct H' as (H0 & H1 & H2 & H3 & H4).
    split; [unfold n; lia|]. replace (0 <? q) with true by lia. cbn [andb].
    replace (ch T (q - 1) <? ch T q)%N with false by lia.
    replace (PL (q - 1)) with true; [reflexivity|]. symmetry. apply PL_spec. split; [apply ltyp_spec; split; [lia|assumption]|].
    destruct (Nat.eq_dec (q - 1) p0) as [D|D]; [rewrite D in H3; destruct B0 as (_ & _ & B0); congruence|lia].
Qed.

(** The suffix before, in the second scan. *)
Lemma downL : forall q, PL q = true ->
  downTarget QS q = (if (ch T (q - 1) <? ch T q)%N then Some (q - 1) else None).
Proof.
  intros q H. pose proof Hp0 as B0. apply PL_lt in H. destruct H as [B S]. unfold downTarget.
  replace (0 <? q) with true by lia. cbn [andb].
  pose proof (before_L T q ltac:(lia) ltac:(unfold n in *; lia) S) as E. rewrite <- E.
  unfold QS. replace (p0 <=? q - 1) with true by lia. rewrite andb_true_r. reflexivity.
Qed.
Lemma lms_iff : forall q, QS q = true -> lms T q = (ch T q <? ch T (q - 1))%N.
Proof.
  intros q H. pose proof Hp0 as B0. apply QS_spec in H. destruct H as [S B]. pose proof (styp_lt T q S) as L.
  pose proof (before_S T q ltac:(lia) ltac:(lia) S) as E. unfold lms. rewrite S, E.
  replace (0 <? q) with true by lia. rewrite negb_involutive. reflexivity.
Qed.
Lemma downS : forall q, QS q = true ->
  downTarget QS q = (if (ch T q <? ch T (q - 1))%N then None else Some (q - 1)) /\ 0 < q < n.
Proof.
  intros q H. pose proof Hp0 as B0. pose proof (lms_iff q H) as M. pose proof H as H'. apply QS_spec in H'. destruct H' as [S B].
  pose proof (styp_lt T q S) as L.
  pose proof (before_S T q ltac:(lia) ltac:(lia) S) as E. split; [|unfold n; lia]. unfold downTarget.
  replace (0 <? q) with true by lia. cbn [andb]. unfold QS. rewrite E.
  destruct (N.ltb_spec (ch T q) (ch T (q - 1))) as [G|G]; cbn [negb andb]; [reflexivity|].
  replace (p0 <=? q - 1) with true; [reflexivity|]. symmetry. apply Nat.leb_le.
  destruct (Nat.eq_dec q p0) as [D|D]; [subst q; congruence|lia].
Qed.

Lemma up_above : forall q a, PL q || QM q = true -> upTarget PL q = Some a -> PL a = true /\ q = S a /\ rowL q < rowL a.
Proof.
  intros q a H E. pose proof (upL q H) as [B _]. unfold upTarget in E. destruct ((0 <? q) && PL (q - 1)) eqn:F; [|discriminate].
  injection E as <-. apply andb_prop in F. destruct F as [_ F]. assert (Q : q = S (q - 1)) by lia.
  repeat split; auto. apply row_mono; [exact orderedL|exact H|rewrite F; reflexivity|]. rewrite Q at 1. apply PL_dec; [exact F|lia].
Qed.
Lemma down_below : forall q a, PL q || QS q = true -> downTarget QS q = Some a -> QS a = true /\ q = S a /\ rowS a < rowS q.
Proof.
  intros q a H E. unfold downTarget in E. destruct ((0 <? q) && QS (q - 1)) eqn:F; [|discriminate].
  injection E as <-. apply andb_prop in F. destruct F as [F0' F]. assert (Q : q = S (q - 1)) by lia.
  repeat split; auto. apply row_mono; [exact orderedS|rewrite F; apply orb_true_r|exact H|]. rewrite Q at 2. apply QS_inc; exact F.
Qed.

Definition valS1 (q : nat) : Z :=
  if PL q then postL1 q else if (ch T q <? ch T (q - 1))%N then inv (Z.of_nat q) else (Z.of_nat q - 1)%Z.

(** The sorted LMS substrings, marked by their signs. *)
Definition sortedAt (post : nat -> Z) (SA : list Z) : Prop :=
  n <= length SA /\
  (forall q, lms T q = true -> nth_error SA (rowS q) = Some (post q)) /\
  (forall r, r < n -> (forall q, lms T q = true -> rowS q <> r) -> nth_error SA r = Some 0%Z).

Theorem LMSsort1_ok : forall SA C, seedsAt (fun q => Z.of_nat q - 1)%Z SA -> countsOf T k C ->
  exists SA', LMSsort1 T SA C = Ok SA' /\ sortedAt (fun q => inv (Z.of_nat q)) SA' /\
    length SA' = length SA /\ forall r, n <= r -> nth_error SA' r = nth_error SA r.
Proof.
  intros SA C HS HC. unfold LMSsort1. fold n. pose proof Hn as Hn. pose proof Hp0 as B0. pose proof start_room as SR.
  assert (Hk : 0 < k) by (specialize (HT 0 Hn); lia).
  rewrite (get_ch T (n - 1)) by (unfold n in *; lia). cbn [bind].
  rewrite (get_ok _ _ _ (getBuckets_ok T k C false HC _ (HT (n - 1) ltac:(unfold n in *; lia)))). cbn [bind].
  rewrite before1_ok by lia. cbn [bind].
  rewrite set_ok by (destruct HS; lia). cbn [bind].
  destruct (pass1 (visitL1 T) (storeL1 T) valL1 postL1 (fun _ _ => True)) with (SA := SA) (C := C) (x := tt)
    as (SA1 & x1 & E1 & D1 & Z1 & _ & Len1 & Tail1); auto.
  - intros i q [] Hi Rq Ei _. exists tt. destruct (upL q Rq) as [B U].
    unfold visitL1, valL1, postL1. rewrite U.
    destruct (N.ltb_spec (ch T (q - 1)) (ch T q)) as [G|G].
    + replace (0 <? inv (Z.of_nat q - 1))%Z with false by (unfold inv; lia).
      replace (inv (Z.of_nat q - 1) <? 0)%Z with true by (unfold inv; lia).
      split; [|exact I]. do 3 f_equal. unfold inv. lia.
    + replace (0 <? Z.of_nat q - 1)%Z with true by lia.
      rewrite getz_pred by lia. replace (Z.of_nat q - 1 + 1)%Z with (Z.of_nat q) by lia. rewrite getz_nat by lia. cbn [bind].
      unfold check. replace (ch T q <=? ch T (q - 1))%N with true by lia. cbn [bind].
      replace (Z.to_nat (Z.of_nat q - 1)) with (q - 1) by lia. split; [reflexivity|].
      exists tt. split; [|exact I]. unfold storeL1.
      destruct (up_above q (q - 1) Rq) as (PA & _ & RA).
      { rewrite U. replace (ch T (q - 1) <? ch T q)%N with false by lia. reflexivity. }
      unfold check. replace (i <? rowL (q - 1)) with true by lia. cbn [bind].
      rewrite before1_ok by lia. reflexivity.
  - intros i [] Hi NQ _. exists tt. split; [reflexivity|exact I].
  - destruct HS as (H1 & H2 & H3). repeat split; auto. intros q Hq. rewrite H2 by assumption.
    apply QM_spec in Hq. destruct Hq as [Hq _]. apply lms_lt in Hq. unfold valL1.
    replace (ch T (q - 1) <? ch T q)%N with false by lia. reflexivity.
  - rewrite E1. cbn [bind].
    rewrite (get_ok _ _ _ (getBuckets_ok T k C true HC 0%N ltac:(lia)) : get _ 0 = _). cbn [bind].
    assert (QMpost : forall q, QM q = true -> postL1 q = 0%Z).
    { intros q Hq. apply QM_spec in Hq. destruct Hq as [Hq _]. apply lms_lt in Hq. unfold postL1.
      replace (ch T (q - 1) <? ch T q)%N with false by lia. reflexivity. }
    destruct (pass2 (visitS1 T) (storeS1 T) valS1 (fun q => if lms T q then inv (Z.of_nat q) else 0%Z) (fun _ _ => True))
      with (SA := SA1) (C := C) (x := x1) as (SA2 & x2 & E2 & D2 & Z2 & _ & Len2 & Tail2); auto.
    + intros i q [] Hi Rq Ei _. exists tt.
      assert (Place : forall a, downTarget QS q = Some a -> a = q - 1 -> 0 < q - 1 -> q < n -> (ch T (q - 1) <= ch T q)%N -> valS1 q = (Z.of_nat q - 1)%Z -> lms T q = false ->
        visitS1 T i (valS1 q) tt = Ok ((if lms T q then inv (Z.of_nat q) else 0%Z), tt, downTarget QS q) /\
        match downTarget QS q with
        | Some a => exists x2, storeS1 T i a (rowS a) tt = Ok (valS1 a, x2) /\ True
        | None => True
        end).
      { intros a U Ea Hq Hqn C1 V LM. rewrite LM, V, U. subst a. unfold visitS1.
        replace (0 <? Z.of_nat q - 1)%Z with true by lia.
        rewrite getz_pred by lia. replace (Z.of_nat q - 1 + 1)%Z with (Z.of_nat q) by lia. rewrite getz_nat by lia. cbn [bind].
        unfold check. replace (ch T (q - 1) <=? ch T q)%N with true by lia. cbn [bind].
        replace (Z.to_nat (Z.of_nat q - 1)) with (q - 1) by lia. split; [reflexivity|].
        destruct (down_below q (q - 1) Rq U) as (QA & _ & RA).
        exists tt. split; [|exact I]. unfold storeS1, check. replace (S (rowS (q - 1)) <=? i) with true by lia. cbn [bind].
        destruct (downS (q - 1) QA) as [_ B].
        rewrite (getz_pred (q - 1)) by lia. cbn [bind]. rewrite (get_ch T (q - 1)) by (unfold n in *; lia). cbn [bind].
        unfold valS1. replace (PL (q - 1)) with false.
        - destruct (ch T (q - 1) <? ch T (q - 1 - 1))%N; [do 2 f_equal|reflexivity]. unfold inv. lia.
        - symmetry. apply QS_spec in QA. unfold PL, ltyp. destruct QA as [QA _]. rewrite QA. cbn [negb]. rewrite andb_false_r. reflexivity. }
      apply orb_prop in Rq. destruct Rq as [Pq|Qq].
      * pose proof (downL q Pq) as U. pose proof (PL_lt q Pq) as [B S].
        assert (LM : lms T q = false) by (apply lms_L, S).
        destruct (N.ltb_spec (ch T (q - 1)) (ch T q)) as [G|G].
        -- apply (Place (q - 1)); auto; try lia. unfold valS1, postL1. rewrite Pq. replace (ch T (q - 1) <? ch T q)%N with true by lia. reflexivity.
        -- rewrite U, LM. unfold valS1, postL1. rewrite Pq. replace (ch T (q - 1) <? ch T q)%N with false by lia. split; [reflexivity|exact I].
      * destruct (downS q Qq) as [U B]. pose proof (lms_iff q Qq) as LM.
        assert (NP : PL q = false).
        { apply QS_spec in Qq. unfold PL, ltyp. destruct Qq as [QA _]. rewrite QA. cbn [negb]. rewrite andb_false_r. reflexivity. }
        destruct (N.ltb_spec (ch T q) (ch T (q - 1))) as [G|G].
        -- rewrite U, LM. unfold valS1. rewrite NP. replace (ch T q <? ch T (q - 1))%N with true by lia.
           unfold visitS1. replace (0 <? inv (Z.of_nat q))%Z with false by (unfold inv; lia). split; [reflexivity|exact I].
        -- assert (0 < q - 1).
           { pose proof (down_below q (q - 1) ltac:(rewrite Qq; apply orb_true_r) U) as (QA & _). apply QS_spec in QA. lia. }
           apply (Place (q - 1)); auto; try lia. unfold valS1. rewrite NP. replace (ch T q <? ch T (q - 1))%N with false by lia. reflexivity.
    + intros i [] Hi NQ _. exists tt. split; [reflexivity|exact I].
    + rewrite Len1. exact (proj1 HS).
    + intros q Hq. rewrite D1 by (rewrite Hq; reflexivity). unfold valS1. rewrite Hq. reflexivity.
    + intros r Hr NR. destruct (row_dec T lessL PL QM orderedL r) as [(q & Rq & Eq)|NQ].
      * apply orb_prop in Rq. destruct Rq as [Pq|Qq]; [exfalso; exact (NR q Pq Eq)|].
        rewrite <- Eq, D1, QMpost by (try (rewrite Qq; apply orb_true_r); assumption). reflexivity.
      * apply Z1; auto.
    + destruct x1. rewrite E2. cbn [bind]. exists SA2. split; [reflexivity|]. split.
      { split; [rewrite Len2, Len1; exact (proj1 HS)|]. split.
        - intros q Hq. rewrite D2 by (rewrite (lms_QS q Hq); apply orb_true_r). rewrite Hq. reflexivity.
        - intros r Hr NR. destruct (row_dec T lessS PL QS orderedS r) as [(q & Rq & Eq)|NQ]; [|apply Z2; auto].
          rewrite <- Eq, D2 by assumption. destruct (lms T q) eqn:F; [|reflexivity]. exfalso. exact (NR q F Eq). }
      split; [congruence|]. intros r Hr. rewrite Tail2, Tail1 by exact Hr. reflexivity.
Qed.
End Sort.

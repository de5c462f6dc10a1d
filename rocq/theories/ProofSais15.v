(** Marks at the first elements of the groups, without the array they are kept in. *)
From Coq Require Import List NArith ZArith Arith Bool Lia.
From Coq Require Import ZifyBool ZifyNat ZifyN.
From Verif Require Import Base Arrays ModelSais ProofSais1 ProofSais11.
Import ListNotations.
Open Scope nat_scope.

(** ** Counter and array of a scan *)
Section Marking.
Variables (n k2 : nat) (A : nat -> bool) (tm : nat -> nat) (K : nat -> list N) (M : nat -> bool) (slot : nat -> nat) (d0 : nat).
Hypothesis HA : forall q, A q = true -> q < n.
Hypothesis Htm : forall q r, A q = true -> A r = true -> tm q = tm r -> q = r.
Hypothesis HMt : forall q, A q = true -> M q = true -> forall b, A b = true -> tm b < tm q -> K b <> K q.
Hypothesis HMf : forall q, A q = true -> M q = false -> exists b, A b = true /\ tm b < tm q /\ K b = K q.
Hypothesis HK : forall q x r, A q = true -> A x = true -> A r = true -> tm q < tm x -> tm x < tm r -> K q = K r -> K x = K q.

(** The counter before the element visited at time [i]. *)
Definition dv (i : nat) : nat := d0 + cnt n (fun x => A x && M x && (tm x <? i)).

Lemma dv_mono : forall i j, i <= j -> dv i <= dv j.
Proof. intros i j H. unfold dv. assert (cnt n (fun x => A x && M x && (tm x <? i)) <= cnt n (fun x => A x && M x && (tm x <? j))); [|lia]. apply cnt_mono. intros x _ Hx. cbv beta in *. destruct (A x), (M x); cbn [andb] in *; lia. Qed.
Lemma dv_low : forall i, d0 <= dv i.
Proof. intros. unfold dv. lia. Qed.
Lemma dv_zero : dv 0 = d0.
Proof. unfold dv. rewrite cnt_none; [lia|]. intros a _. lia. Qed.
Lemma dv_step : forall q, A q = true -> dv (S (tm q)) = dv (tm q) + (if M q then 1 else 0).
Proof.
  intros q H. unfold dv. destruct (M q) eqn:E.
  - rewrite (cnt_add n (fun x => A x && M x && (tm x <? tm q)) (fun x => A x && M x && (tm x <? S (tm q))) q); [lia|apply HA, H|lia|].
    intros a Ha. destruct (A a) eqn:Ea; cbn [andb]; [|destruct (Nat.eqb_spec a q); [congruence|reflexivity]].
    destruct (Nat.eqb_spec a q) as [D|D]; [subst; rewrite E; lia|].
    assert (tm a <> tm q) by (intros F; apply D, Htm; assumption). destruct (M a); cbn [andb orb]; lia.
  - rewrite (cnt_ext n _ (fun x => A x && M x && (tm x <? tm q))); [lia|].
    intros a Ha. destruct (A a) eqn:Ea; cbn [andb]; [|reflexivity].
    destruct (Nat.eq_dec a q) as [D|D]; [subst; rewrite E; reflexivity|].
    assert (tm a <> tm q) by (intros F; apply D, Htm; assumption). destruct (M a); cbn [andb orb]; lia.
Qed.
Lemma dv_skip : forall i, (forall q, A q = true -> tm q <> i) -> dv (S i) = dv i.
Proof.
  intros i H. unfold dv. f_equal. apply cnt_ext. intros a Ha. destruct (A a) eqn:Ea; cbn [andb]; [|reflexivity].
  specialize (H a Ea). destruct (M a); cbn [andb]; lia.
Qed.
Lemma dv_lt : forall x i, A x = true -> M x = true -> i <= tm x -> dv i < dv (S (tm x)).
Proof.
  intros x i H E L. rewrite dv_step, E by assumption. pose proof (dv_mono i (tm x) L). lia.
Qed.
Lemma first : forall d q, d = tm q -> A q = true -> exists x, A x = true /\ M x = true /\ K x = K q /\ tm x <= tm q.
Proof.
  induction d as [d IH] using lt_wf_ind. intros q Hd H. destruct (M q) eqn:E; [exists q; auto|].
  destruct (HMf q H E) as (b & Ab & Lb & Kb). destruct (IH (tm b) ltac:(lia) b eq_refl Ab) as (x & X1 & X2 & X3 & X4).
  exists x. repeat split; auto; [congruence|lia].
Qed.
Lemma dv_pos : forall q, A q = true -> d0 < dv (S (tm q)).
Proof.
  intros q H. destruct (first (tm q) q eq_refl H) as (x & X1 & X2 & X3 & X4).
  pose proof (dv_lt x 0 X1 X2 ltac:(lia)) as G. rewrite dv_zero in G. pose proof (dv_mono (S (tm x)) (S (tm q)) ltac:(lia)). lia.
Qed.
Lemma dv_same : forall q r, A q = true -> A r = true -> tm q <= tm r -> (dv (S (tm q)) = dv (S (tm r)) <-> K q = K r).
Proof.
  intros q r Hq Hr L. split.
  - intros E. destruct (first (tm r) r eq_refl Hr) as (x & X1 & X2 & X3 & X4).
    destruct (le_lt_dec (S (tm q)) (tm x)) as [G|G].
    + pose proof (dv_lt x (S (tm q)) X1 X2 G). pose proof (dv_mono (S (tm x)) (S (tm r)) ltac:(lia)). lia.
    + destruct (Nat.eq_dec (tm x) (tm q)) as [D|D]; [apply Htm in D; [subst; assumption|assumption|assumption]|].
      destruct (Nat.eq_dec (tm q) (tm r)) as [D'|D']; [apply Htm in D'; [subst; reflexivity|assumption|assumption]|].
      rewrite <- X3. apply (HK x q r); auto; lia.
  - intros E. unfold dv. f_equal. apply cnt_ext. intros a Ha. destruct (A a) eqn:Ea; cbn [andb]; [|reflexivity].
    destruct (M a) eqn:Em; cbn [andb]; [|reflexivity].
    destruct (le_lt_dec (tm a) (tm q)) as [G|G]; [lia|]. replace (tm a <? S (tm q)) with false by lia.
    destruct (le_lt_dec (S (tm r)) (tm a)) as [G'|G']; [lia|]. exfalso.
    apply (HMt a Ea Em q Hq G). destruct (Nat.eq_dec (tm a) (tm r)) as [D|D]; [apply Htm in D; [subst; exact E|assumption|assumption]|].
    symmetry. apply (HK q a r); auto. lia.
Qed.

(** The array: the counter at the last element stored through every slot. *)
Definition JD (i : nat) (D : list nat) : Prop :=
  length D = k2 /\
  forall t, t < k2 -> exists v, nth_error D t = Some v /\
    ((v <= d0 /\ forall b, A (S b) = true -> tm (S b) < i -> slot b <> t) \/
     (exists b, A (S b) = true /\ tm (S b) < i /\ slot b = t /\ v = dv (S (tm (S b))) /\
        forall c, A (S c) = true -> tm (S c) < i -> slot c = t -> tm (S c) <= tm (S b))).

Lemma JD_start : forall D, length D = k2 -> (forall t v, nth_error D t = Some v -> v <= d0) -> JD 0 D.
Proof.
  intros D HL HV. split; [exact HL|]. intros t Ht. destruct (nth_error D t) as [v|] eqn:E.
  - exists v. split; [reflexivity|]. left. split; [eapply HV, E|]. intros b _ H. lia.
  - apply nth_error_None in E. lia.
Qed.
Lemma JD_top : forall i D, JD i D -> forall t v, nth_error D t = Some v -> v <= dv i.
Proof.
  intros i D [HL HV] t v E. assert (Ht : t < k2) by (apply nth_error_bound in E; lia).
  destruct (HV t Ht) as (v' & E' & H). assert (v' = v) by congruence. subst v'.
  destruct H as [[H _]|(b & Hb & Lb & _ & -> & _)]; [pose proof (dv_low i); lia|]. apply dv_mono. lia.
Qed.
Lemma JD_skip : forall i D, (forall q, A q = true -> tm q <> i) -> JD i D -> JD (S i) D.
Proof.
  intros i D Hno [HL HV]. split; [exact HL|]. intros t Ht. destruct (HV t Ht) as (v & E & H). exists v. split; [exact E|].
  destruct H as [[H1 H2]|(b & H1 & H2 & H3 & H4 & H5)].
  - left. split; [exact H1|]. intros b Hb Lb. apply H2; auto. specialize (Hno _ Hb). lia.
  - right. exists b. repeat split; auto. intros c Hc Lc. apply H5; auto. specialize (Hno _ Hc). lia.
Qed.

Lemma JD_step : forall i D a, JD i D -> A (S a) = true -> tm (S a) = i -> slot a < k2 ->
  exists v, get D (slot a) = Ok v /\ slot a < length D /\
    (v = dv (S i) -> (exists b, A (S b) = true /\ tm (S b) < i /\ slot b = slot a /\ K (S b) = K (S a)) /\ JD (S i) D) /\
    (v <> dv (S i) -> (forall b, A (S b) = true -> tm (S b) < i -> slot b = slot a -> K (S b) <> K (S a)) /\ JD (S i) (upd D (slot a) (dv (S i)))).
Proof.
  intros i D a [HL HV] Ha Hi Hs. destruct (HV (slot a) Hs) as (v & E & H). exists v. split; [apply get_ok, E|]. split; [lia|].
  assert (New : forall D', length D' = k2 -> nth_error D' (slot a) = Some (dv (S i)) -> (forall t, t <> slot a -> nth_error D' t = nth_error D t) -> JD (S i) D').
  { intros D' L' N' O'. split; [exact L'|]. intros t Ht. destruct (Nat.eq_dec t (slot a)) as [D0|D0].
    - subst t. exists (dv (S i)). split; [exact N'|]. right. exists a. rewrite Hi. repeat split; auto. intros; lia.
    - rewrite O' by exact D0. destruct (HV t Ht) as (w & Ew & G). exists w. split; [exact Ew|].
      assert (X : forall b, A (S b) = true -> tm (S b) < S i -> slot b = t -> tm (S b) < i).
      { intros b Hb Lb Sb. destruct (Nat.eq_dec (tm (S b)) i) as [F|F]; [|lia]. exfalso.
        assert (S b = S a) by (apply Htm; auto; congruence). congruence. }
      destruct G as [[G1 G2]|(b & G1 & G2 & G3 & G4 & G5)].
      + left. split; [exact G1|]. intros b Hb Lb Sb. apply (G2 b); auto.
      + right. exists b. repeat split; auto. }
  split.
  - intros Ev. split.
    + destruct H as [[H1 _]|(b & H1 & H2 & H3 & H4 & _)].
      * exfalso. pose proof (dv_pos (S a) Ha) as P. rewrite Hi in P. lia.
      * exists b. repeat split; auto. apply dv_same; auto; [lia|]. rewrite Hi. congruence.
    + apply New; auto. congruence.
  - intros Ev. split.
    + intros b Hb Lb Sb F. destruct H as [[_ H2]|(c & H1 & H2 & H3 & H4 & H5)]; [apply (H2 b Hb Lb Sb)|].
      pose proof (H5 b Hb Lb Sb) as L. apply Ev. rewrite H4, <- Hi.
      assert (X : dv (S (tm (S b))) = dv (S (tm (S a)))) by (apply dv_same; auto; lia).
      pose proof (dv_mono (S (tm (S b))) (S (tm (S c))) ltac:(lia)). pose proof (dv_mono (S (tm (S c))) (S (tm (S a))) ltac:(lia)). lia.
    + apply New; [rewrite upd_length; exact HL|apply nth_error_upd_same; lia|].
      intros t Ht. apply nth_error_upd_other; lia.
Qed.
End Marking.

(** ** The marks go from the first elements of the groups to the last *)
Section Move.
Variables (n : nat) (G : nat -> bool) (rw : nat -> nat) (K : nat -> list N) (F F' : nat -> bool).
Hypothesis HG : forall q, G q = true -> 2 <= q < n /\ rw q < n.
Hypothesis Hrw : forall q r, G q = true -> G r = true -> rw q = rw r -> q = r.
Hypothesis HFt : forall q, G q = true -> F q = true -> forall b, G b = true -> rw b < rw q -> K b <> K q.
Hypothesis HFf : forall q, G q = true -> F q = false -> exists b, G b = true /\ rw b < rw q /\ K b = K q.
Hypothesis HF't : forall q, G q = true -> F' q = true -> forall b, G b = true -> rw q < rw b -> K b <> K q.
Hypothesis HF'f : forall q, G q = true -> F' q = false -> exists b, G b = true /\ rw q < rw b /\ K b = K q.
Hypothesis HK : forall q x r, G q = true -> G x = true -> G r = true -> rw q < rw x -> rw x < rw r -> K q = K r -> K x = K q.

Definition marked (f : nat -> bool) (q : nat) : Z := (Z.of_nat q - 1 + (if f q then Z.of_nat n else 0))%Z.

Variable SA0 : list Z.
Hypothesis HL : n <= length SA0.
Hypothesis H0 : forall q, G q = true -> nth_error SA0 (rw q) = Some (marked F q).
Hypothesis Hz : forall r, r < n -> (forall q, G q = true -> rw q <> r) -> nth_error SA0 r = Some 0%Z.

Lemma firstG : forall d q, d = rw q -> G q = true -> exists x, G x = true /\ F x = true /\ K x = K q /\ rw x <= rw q.
Proof.
  induction d as [d IH] using lt_wf_ind. intros q Hd H. destruct (F q) eqn:E; [exists q; auto|].
  destruct (HFf q H E) as (b & Ab & Lb & Kb). destruct (IH (rw b) ltac:(lia) b eq_refl Ab) as (x & X1 & X2 & X3 & X4).
  exists x. repeat split; auto; [congruence|lia].
Qed.

Definition pending (seeking : bool) (e : nat) : Prop :=
  if seeking then
    exists q x, G q = true /\ G x = true /\ e <= rw q /\ rw x < e /\ F x = true /\ K x = K q /\
      (forall a b, G a = true -> G b = true -> rw a < e -> e <= rw b -> K a = K b -> K b = K q)
  else forall a b, G a = true -> G b = true -> rw a < e -> e <= rw b -> K a <> K b.
Record moving (seeking : bool) (e : nat) (SA : list Z) : Prop := {
  mv_len : length SA = length SA0;
  mv_tail : forall r, n <= r -> nth_error SA r = nth_error SA0 r;
  mv_todo : forall r, r < e -> nth_error SA r = nth_error SA0 r;
  mv_done : forall q, G q = true -> e <= rw q -> nth_error SA (rw q) = Some (marked F' q);
  mv_zero : forall r, e <= r < n -> (forall q, G q = true -> rw q <> r) -> nth_error SA r = Some 0%Z;
  mv_pend : pending seeking e
}.

Definition at_row (i : nat) : option nat := find (fun q => G q && (rw q =? i)) (seq 0 n).
Lemma at_row_some : forall i q, at_row i = Some q -> G q = true /\ rw q = i.
Proof. intros i q E. apply find_some in E. destruct E as [_ E]. apply andb_prop in E. destruct E as [E1 E2]. split; [assumption|lia]. Qed.
Lemma at_row_none : forall i, at_row i = None -> forall q, G q = true -> rw q <> i.
Proof.
  intros i E q H F1. unfold at_row in E. apply find_none with (x := q) in E; [rewrite H, F1, Nat.eqb_refl in E; discriminate|].
  apply in_seq. apply HG in H. lia.
Qed.

(** Row [i] takes the value [v]; the rest is as before. *)
Lemma moving_row : forall s s' i SA v q, moving s (S i) SA -> i < n -> G q = true -> rw q = i -> v = marked F' q -> pending s' i ->
  moving s' i (upd SA i v).
Proof.
  intros s s' i SA v q [M1 M2 M3 M4 M5 M6] Hi Hq Eq -> P. constructor; auto.
  - rewrite upd_length. exact M1.
  - intros r Hr. rewrite nth_error_upd_other by lia. apply M2, Hr.
  - intros r Hr. rewrite nth_error_upd_other by lia. apply M3. lia.
  - intros x Hx Lx. destruct (Nat.eq_dec (rw x) i) as [D|D].
    + assert (x = q) by (apply Hrw; auto; congruence). subst x. rewrite Eq. apply nth_error_upd_same. lia.
    + rewrite nth_error_upd_other by lia. apply M4; auto. lia.
  - intros r Hr Hno. assert (r <> i) by (intros ->; exact (Hno q Hq Eq)).
    rewrite nth_error_upd_other by lia. apply M5; auto. lia.
Qed.
Lemma upd_same : forall {A} (l : list A) i x, nth_error l i = Some x -> upd l i x = l.
Proof.
  intros A l i x H. pose proof (nth_error_bound _ _ _ H) as B. apply nth_error_ext. intros j. destruct (Nat.eq_dec j i) as [D|D].
  - subst j. rewrite nth_error_upd_same by exact B. congruence.
  - apply nth_error_upd_other; auto; lia.
Qed.

Lemma moveMarks_loop : forall e s SA, e <= n -> moving s e SA ->
  exists SA', moveMarks n s e SA = Ok SA' /\ moving false 0 SA'.
Proof.
  induction e as [|i IH]; intros s SA He I; cbn [moveMarks].
  - destruct s; [|exists SA; auto]. exfalso. destruct (mv_pend _ _ _ I) as (q & x & _ & _ & _ & X & _). lia.
  - pose proof I as [M1 M2 M3 M4 M5 M6]. destruct (at_row i) as [q|] eqn:E.
    + apply at_row_some in E. destruct E as [Hq Eq]. pose proof (HG q Hq) as B.
      assert (Ev : nth_error SA i = Some (marked F q)) by (rewrite M3 by lia; rewrite <- Eq; apply H0, Hq).
      rewrite (get_ok _ _ _ Ev). cbn [bind]. destruct s.
      * destruct M6 as (r & x & Gr & Gx & Lr & Lx & Fx & Kx & Cx). destruct (F q) eqn:Fq; unfold marked; rewrite Fq.
        -- (* the first of the group *)
           assert (Xq : x = q).
           { destruct (Nat.eq_dec (rw x) i) as [D|D]; [apply Hrw; auto; congruence|]. exfalso.
             apply (HFt q Hq Fq x Gx); [lia|]. symmetry. apply (HK x q r); auto; lia. }
           subst x. replace (Z.of_nat q - 1 + Z.of_nat n <? Z.of_nat n)%Z with false by lia.
           rewrite set_ok by lia. cbn [bind].
           apply IH; [lia|]. apply (moving_row true false i SA _ q I); auto; try lia.
           ++ unfold marked. replace (F' q) with false; [lia|]. symmetry. apply not_true_iff_false. intros Fq'.
              apply (HF't q Hq Fq' r Gr); [lia|congruence].
           ++ intros a b Ga Gb La Lb Kab. destruct (Nat.eq_dec (rw b) i) as [D|D].
              ** assert (b = q) by (apply Hrw; auto; congruence). subst b. apply (HFt q Hq Fq a Ga); [lia|exact Kab].
              ** assert (Kb : K b = K r) by (apply (Cx a b); auto; lia). apply (HFt q Hq Fq a Ga); [lia|congruence].
        -- replace (Z.of_nat q - 1 + 0 <? Z.of_nat n)%Z with true by lia.
           assert (Xq : rw x < i).
           { destruct (Nat.eq_dec (rw x) i) as [D|D]; [|lia]. assert (x = q) by (apply Hrw; auto; congruence). congruence. }
           assert (Kq : K q = K x) by (apply (HK x q r); auto; lia).
           apply IH; [lia|]. rewrite <- (upd_same SA i _ Ev). apply (moving_row true true i SA _ q I); auto; try lia.
           ++ unfold marked. rewrite Fq. replace (F' q) with false; [reflexivity|]. symmetry. apply not_true_iff_false. intros Fq'.
              apply (HF't q Hq Fq' r Gr); [lia|congruence].
           ++ exists r, x. repeat split; auto; try lia. intros a b Ga Gb La Lb Kab. destruct (Nat.eq_dec (rw b) i) as [D|D].
              ** assert (b = q) by (apply Hrw; auto; congruence). congruence.
              ** apply (Cx a b); auto; lia.
      * assert (Last : F' q = true).
        { destruct (F' q) eqn:Fq'; [reflexivity|]. exfalso. destruct (HF'f q Hq Fq') as (b & Gb & Lb & Kb).
          apply (M6 q b); auto; lia. }
        destruct (F q) eqn:Fq; unfold marked; rewrite Fq.
        -- replace ((0 <? Z.of_nat q - 1 + Z.of_nat n)%Z && (Z.of_nat q - 1 + Z.of_nat n <? Z.of_nat n)%Z) with false by lia.
           apply IH; [lia|]. rewrite <- (upd_same SA i _ Ev). apply (moving_row false false i SA _ q I); auto; try lia.
           ++ unfold marked. rewrite Fq, Last. reflexivity.
           ++ intros a b Ga Gb La Lb Kab. destruct (Nat.eq_dec (rw b) i) as [D|D].
              ** assert (b = q) by (apply Hrw; auto; congruence). subst b. apply (HFt q Hq Fq a Ga); [lia|exact Kab].
              ** apply (M6 a b); auto; lia.
        -- replace ((0 <? Z.of_nat q - 1 + 0)%Z && (Z.of_nat q - 1 + 0 <? Z.of_nat n)%Z) with true by lia.
           rewrite set_ok by lia. cbn [bind]. apply IH; [lia|]. apply (moving_row false true i SA _ q I); auto; try lia.
           ++ unfold marked. rewrite Last. lia.
           ++ destruct (firstG (rw q) q eq_refl Hq) as (x & X1 & X2 & X3 & X4).
              assert (rw x < i) by (destruct (Nat.eq_dec (rw x) i) as [D|D]; [assert (x = q) by (apply Hrw; auto; congruence); congruence|lia]).
              exists q, x. repeat split; auto; try lia. intros a b Ga Gb La Lb Kab. destruct (Nat.eq_dec (rw b) i) as [D|D].
              ** assert (b = q) by (apply Hrw; auto; congruence). congruence.
              ** exfalso. apply (M6 a b); auto; lia.
    + pose proof (at_row_none i E) as No.
      assert (Ev : nth_error SA i = Some 0%Z) by (rewrite M3 by lia; apply Hz; [lia|exact No]).
      rewrite (get_ok _ _ _ Ev). cbn [bind].
      assert (I' : moving s i SA).
      { constructor; auto.
        - intros q Hq Lq. apply M4; auto. specialize (No q Hq). lia.
        - intros r Hr Hno. destruct (Nat.eq_dec r i) as [D|D]; [subst; exact Ev|]. apply M5; auto. lia.
        - destruct s.
          + destruct M6 as (r & x & Gr & Gx & Lr & Lx & Fx & Kx & Cx). pose proof (No x Gx). exists r, x. repeat split; auto; try lia.
            intros a b Ga Gb La Lb. pose proof (No b Gb). apply (Cx a b); auto; lia.
          + intros a b Ga Gb La Lb. pose proof (No b Gb). apply (M6 a b); auto; lia. }
      destruct s.
      * replace (0 <? Z.of_nat n)%Z with true by lia. apply IH; [lia|exact I'].
      * replace ((0 <? 0)%Z && (0 <? Z.of_nat n)%Z) with false by lia. apply IH; [lia|exact I'].
Qed.

Theorem moveMarks_ok : exists SA', moveMarks n false n SA0 = Ok SA' /\ length SA' = length SA0 /\
  (forall r, n <= r -> nth_error SA' r = nth_error SA0 r) /\
  (forall q, G q = true -> nth_error SA' (rw q) = Some (marked F' q)) /\
  (forall r, r < n -> (forall q, G q = true -> rw q <> r) -> nth_error SA' r = Some 0%Z).
Proof.
  destruct (moveMarks_loop n false SA0) as (SA' & E & [M1 M2 M3 M4 M5 M6]); [lia| |].
  - constructor; auto.
    + intros q Hq Lq. apply HG in Hq. lia.
    + intros r Hr. lia.
    + intros a b Ga Gb La Lb. apply HG in Gb. lia.
  - exists SA'. split; [exact E|]. split; [exact M1|]. split; [exact M2|]. split; [intros; apply M4; auto; lia|]. intros; apply M5; auto; lia.
Qed.
End Move.

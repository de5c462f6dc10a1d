(** computeBWT with starting points. *)
From Coq Require Import List NArith ZArith Arith Bool Lia.
From Coq Require Import ZifyBool ZifyNat ZifyN.
From Verif Require Import Base Arrays ModelSais ProofSais1 ProofSais2 ProofSais3 ProofSais4.
Import ListNotations.
Open Scope nat_scope.

Section Powers.
Variable T : list N.
Variable k : nat.
Hypothesis HT : charsBelow T k.
Let n := length T.
Hypothesis Hn : 0 < n.
Variable nLF : nat.
Hypothesis HF : 0 < nLF <= n.
Let xs := n / nLF.
Let y := n - xs * nLF.

Lemma xs_pos : 0 < xs.
Proof. unfold xs. apply Nat.div_str_pos. lia. Qed.
Lemma xs_le : xs * nLF <= n.
Proof. unfold xs. rewrite Nat.mul_comm. apply Nat.mul_div_le. lia. Qed.

Definition valid (s : nat) : Prop := (n - s) mod xs = 0 /\ y + 1 <= s /\ s < n.
Definition pidx (s : nat) : nat := (n - s) / xs.

Lemma valid_eq : forall s, valid s -> n - s = xs * pidx s.
Proof.
  intros s (M & _ & _). unfold pidx. pose proof xs_pos. pose proof (Nat.div_mod (n - s) xs ltac:(lia)). lia.
Qed.
Lemma valid_idx : forall s, valid s -> 0 < pidx s < nLF.
Proof.
  intros s V. pose proof (valid_eq s V) as E. destruct V as (_ & L & H). pose proof xs_le. unfold y in L.
  split; [destruct (pidx s); lia|]. apply (Nat.mul_lt_mono_pos_l xs); [apply xs_pos|]. lia.
Qed.
Lemma valid_inj : forall s t, valid s -> valid t -> pidx s = pidx t -> s = t.
Proof.
  intros s t Vs Vt E. pose proof (valid_eq s Vs). pose proof (valid_eq t Vt). rewrite E in *.
  destruct Vs as (_ & _ & ?), Vt as (_ & _ & ?). lia.
Qed.

Lemma setPower_ok : forall s i lf, s < n -> length lf = nLF ->
  exists lf', setPower n xs y s i lf = Ok lf' /\ length lf' = nLF /\
    (valid s -> nth_error lf' (pidx s) = Some (N.of_nat i)) /\
    (forall t, valid t -> t <> s -> nth_error lf' (pidx t) = nth_error lf (pidx t)) /\
    nth_error lf' 0 = nth_error lf 0.
Proof.
  intros s i lf Hs HL. unfold setPower. destruct (((n - s) mod xs =? 0) && (y + 1 <=? s)) eqn:E.
  - apply andb_prop in E. destruct E as [E1 E2]. assert (V : valid s) by (repeat split; auto; lia).
    pose proof (valid_idx s V) as B. fold (pidx s). rewrite set_ok by lia.
    exists (upd lf (pidx s) (N.of_nat i)). split; [reflexivity|]. split; [rewrite upd_length; assumption|].
    split; [intros _; apply nth_error_upd_same; lia|]. split.
    + intros t Vt D. apply nth_error_upd_other; [lia|]. intros F. apply D. apply valid_inj; assumption.
    + apply nth_error_upd_other; lia.
  - exists lf. split; [reflexivity|]. split; [assumption|]. split.
    + intros (V1 & V2 & _). lia.
    + auto.
Qed.

Local Notation rowU := (row T (slt T) (ltyp T) (lms T)).
Definition J1P (i : nat) (x : powers) : Prop :=
  snd x = None /\ length (fst x) = nLF /\
  forall s, valid s -> ltyp T s = true -> ltyp T (s - 1) = true -> rowU s < i ->
    nth_error (fst x) (pidx s) = Some (N.of_nat (rank T s)).
Definition settled (e s : nat) : Prop :=
  (ltyp T s = true /\ ltyp T (s - 1) = true) \/ (lms T s = false /\ e <= rank T s) \/ (lms T s = true /\ e <= rank T (S s)).
Definition J2P (e : nat) (x : powers) : Prop :=
  snd x = seen0 T e /\ length (fst x) = nLF /\
  (e <= rank T 0 -> nth_error (fst x) 0 = Some (N.of_nat (rank T 0))) /\
  forall s, valid s -> settled e s -> nth_error (fst x) (pidx s) = Some (N.of_nat (rank T s)).

Lemma settled_all : forall s, s < n -> settled 0 s.
Proof.
  intros s Hs. unfold settled. destruct (lms T s); [right; right; split; [reflexivity|lia]|].
  right. left. split; [reflexivity|lia].
Qed.

Lemma visitLP_ok : forall i q x, ltyp T q || lms T q = true -> rowU q = i -> J1P i x ->
  exists x1, visitLP T xs y i (sgn T q) x = Ok (post1B T q, x1, if (0 <? sgn T q)%Z then Some (q - 1) else None) /\ J1P (S i) x1.
Proof.
  intros i q [lf p] Rq Eq (Hp & HL & H). cbn [fst snd] in *. subst p.
  pose proof (R_lt T (slt T) (ltyp T) (lms T) (ordered_lms T) q Rq) as B. fold n in B.
  assert (K : forall s, ltyp T s = true -> rowU s < S i -> rowU s < i \/ s = q).
  { intros s Ls Hr. destruct (Nat.eq_dec (rowU s) i) as [D|D]; [right|left; lia].
    apply (row_inj _ _ _ _ (ordered_lms T)); auto; [rewrite Ls; reflexivity|congruence]. }
  unfold visitLP, post1B. destruct (Z.ltb_spec 0 (sgn T q)) as [G|G].
  - apply sgn_pos_eq in G. destruct G as [G G']. rewrite G.
    replace (Z.to_nat (Z.of_nat q)) with q by lia.
    destruct (setPower_ok q i lf B HL) as (lf' & E & L' & E1 & E2 & E3). fold n. rewrite E. cbn [bind].
    rewrite (getz_before T) by (auto; unfold n in *; lia). cbn [bind]. exists (lf', None). split; [do 3 f_equal; lia|].
    split; [reflexivity|]. split; [assumption|]. cbn [fst]. intros s V Ls Ls' Hr.
    destruct (K s Ls Hr) as [M|M].
    + rewrite E2; auto. intros ->. lia.
    + subst s. rewrite E1 by assumption. rewrite <- Eq, (rank_L T (lms T)) by assumption. reflexivity.
  - exists (lf, None). split.
    + destruct (Z.eqb_spec (sgn T q) 0) as [D|D]; [rewrite D|]; reflexivity.
    + split; [reflexivity|]. split; [assumption|]. cbn [fst]. intros s V Ls Ls' Hr.
      destruct (K s Ls Hr) as [M|M]; [auto|]. subst s. exfalso.
      pose proof (sgn_pos T q Rq) as F. rewrite Ls', andb_true_r in F. destruct V as (_ & V & _). lia.
Qed.

Lemma cond_lms : forall a, a < n -> lms T a = true -> (0 <? a) = true /\ (ch T a <? ch T (a - 1))%N = true.
Proof. intros a Ha H. apply lms_lt in H. split; lia. Qed.

Lemma visitSP_ok : forall q x, q < n -> J2P (S (rank T q)) x ->
  exists x1, visitSP T xs y (rank T q) (valSB T q) x = Ok (bwtChar T q, x1, downTarget (styp T) q) /\
    match downTarget (styp T) q with
    | None => J2P (rank T q) x1
    | Some a => exists x2, storeSP T xs y (rank T q) a (rank T a) x1 = Ok (valSB T a, x2) /\ J2P (rank T q) x2
    end.
Proof.
  intros q [lf p] Hq (Hp & HL & H0 & H). cbn [fst snd] in *. subst p.
  assert (K : forall s, s < n -> settled (rank T q) s ->
    settled (S (rank T q)) s \/ (s = q /\ lms T q = false) \/ (S s = q /\ lms T s = true)).
  { intros s Hs [M|[[M1 M2]|[M1 M2]]].
    - left. left. assumption.
    - destruct (Nat.eq_dec (rank T s) (rank T q)) as [D|D].
      + apply rank_inj in D; auto. subst. right. left. auto.
      + left. right. left. split; [assumption|lia].
    - pose proof (lms_lt T s M1) as B. destruct (Nat.eq_dec (rank T (S s)) (rank T q)) as [D|D].
      + right. right. split; [|assumption]. apply (rank_inj T); tauto.
      + left. right. right. split; [assumption|lia]. }
  unfold visitSP. destruct (visitB_shape T Hn q Hq) as [(D & V & F)|[(D & F & V)|(D & F & V & W)]].
  - subst q. rewrite V, F. cbn [Z.ltb Z.compare Z.eqb].
    rewrite set_ok by lia. cbn [bind]. eexists. split; [reflexivity|].
    split; [unfold seen0; rewrite Nat.leb_refl; reflexivity|]. cbn [fst].
    split; [rewrite upd_length; assumption|]. split; [intros _; apply nth_error_upd_same; lia|].
    intros s Vs Hs. pose proof (valid_idx s Vs). rewrite nth_error_upd_other by lia.
    assert (Hs0 : 0 < s) by (destruct Vs as (_ & ? & _); lia).
    apply H; auto. destruct (K s) as [M|[[M _]|[M _]]]; auto; try lia. apply Vs.
  - rewrite V, F. replace (0 <? Z.of_nat q)%Z with true by lia.
    replace (Z.to_nat (Z.of_nat q)) with q by lia.
    destruct (setPower_ok q (rank T q) lf Hq HL) as (lf1 & E & L1 & E1 & E2 & E3). fold n. rewrite E. cbn [bind].
    rewrite (getz_before T) by auto. cbn [bind].
    exists (lf1, seen0 T (S (rank T q))). split.
    { unfold bwtChar. replace (q =? 0) with false by lia. do 3 f_equal. lia. }
    pose proof (down_target T Hn q _ F Hq) as (Ha & Sa & Eqa). fold n in Ha.
    assert (Hr0 : rank T q <> rank T 0) by (intros X; apply rank_inj in X; auto; lia).
    unfold storeSP, valSB. rewrite Sa, (get_ch T (q - 1)) by assumption. cbn [bind].
    destruct ((0 <? q - 1) && (ch T (q - 1) <? ch T (q - 1 - 1))%N) eqn:G.
    + apply andb_prop in G. destruct G as [G1 G2]. rewrite G1. rewrite (get_ch T (q - 1 - 1)) by (unfold n in *; lia). cbn [bind].
      rewrite G2. destruct (setPower_ok (q - 1) (rank T (q - 1)) lf1 Ha L1) as (lf2 & X & L2 & X1 & X2 & X3).
      fold n. rewrite X. cbn [bind]. eexists. split; [reflexivity|].
      split; [symmetry; apply seen0_other; assumption|]. cbn [fst]. split; [assumption|].
      split; [intros Y; rewrite X3, E3; apply H0; lia|].
      intros s Vs Hs. destruct (Nat.eq_dec s (q - 1)) as [Y|Y]; [subst s; apply X1, Vs|].
      rewrite X2 by assumption. destruct (Nat.eq_dec s q) as [Y'|Y']; [subst s; apply E1, Vs|].
      rewrite E2 by assumption. apply H; auto. destruct (K s) as [M|[[M _]|[M _]]]; auto; try lia. apply Vs.
    + assert (NL : lms T (q - 1) = false).
      { destruct (lms T (q - 1)) eqn:Y; [|reflexivity]. destruct (cond_lms _ Ha Y) as [Y1 Y2]. rewrite Y1, Y2 in G. discriminate. }
      exists (lf1, seen0 T (S (rank T q))). split.
      { destruct (Nat.ltb_spec 0 (q - 1)); [|reflexivity]. cbn [andb] in G.
        rewrite (get_ch T (q - 1 - 1)) by (unfold n in *; lia). cbn [bind]. rewrite G. reflexivity. }
      split; [symmetry; apply seen0_other; assumption|]. cbn [fst]. split; [assumption|].
      split; [intros Y; rewrite E3; apply H0; lia|].
      intros s Vs Hs. destruct (Nat.eq_dec s q) as [Y'|Y']; [subst s; apply E1, Vs|].
      rewrite E2 by assumption. apply H; auto. destruct (K s) as [M|[[M _]|[M M']]]; auto; try lia; [apply Vs|].
      replace (q - 1) with s in NL by lia. congruence.
  - rewrite F. replace (0 <? valSB T q)%Z with false by lia. replace (valSB T q =? 0)%Z with false by lia.
    rewrite V, (inv_inv T Hn). eexists. split; [reflexivity|].
    split; [symmetry; apply seen0_other; assumption|]. cbn [fst]. split; [assumption|].
    assert (Hr0 : rank T q <> rank T 0) by (intros X; apply rank_inj in X; auto; lia).
    split; [intros Y; apply H0; lia|].
    intros s Vs Hs. apply H; auto. destruct (K s) as [M|[[M M']|[M M']]]; auto; [apply Vs| |].
    + subst s. unfold downTarget in F. replace (0 <? q) with true in F by lia. cbn [andb] in F.
      destruct (styp T (q - 1)) eqn:Y; [discriminate|].
      left. assert (Z : styp T q = false).
      { unfold lms in M'. rewrite Y in M'. replace (0 <? q) with true in M' by lia. cbn [andb negb] in M'. rewrite andb_true_r in M'. exact M'. }
      split; apply (ltyp_spec T); split; auto; unfold n in *; lia.
    + exfalso. unfold downTarget in F. replace (q - 1) with s in F by lia.
      apply lms_lt in M'. destruct M' as (_ & _ & M' & _). rewrite M' in F. replace (0 <? q) with true in F by lia. discriminate.
Qed.

Theorem computeBWTPowers_ok : forall SA C lf, length lf = nLF -> seeded T SA -> countsOf T k C ->
  exists SA' lf', computeBWTPowers T SA C lf = Ok (SA', (lf', Some (rank T 0))) /\
    (forall q, q < n -> nth_error SA' (rank T q) = Some (bwtChar T q)) /\
    length SA' = length SA /\ (forall r, n <= r -> nth_error SA' r = nth_error SA r) /\
    length lf' = nLF /\ nth_error lf' 0 = Some (N.of_nat (rank T 0)) /\
    forall j, 0 < j < nLF -> nth_error lf' j = Some (N.of_nat (rank T (n - j * xs))).
Proof.
  intros SA C lf HL HS HC. unfold computeBWTPowers. rewrite HL. fold n. fold xs. fold y.
  pose proof xs_pos as Hx. replace (nLF =? 0) with false by lia. replace (xs =? 0) with false by lia.
  destruct (induce_ok T k HT Hn (visitLP T xs y) (visitSP T xs y) (storeLP T) (storeSP T xs y) (post1B T) 0%Z (valSB T) (bwtChar T)
    J1P J2P) with (SA := SA) (C := C) (x := (lf, None (A := nat))) as (SA' & [lf' p] & E & H & (HJ1 & HJ2 & HJ3 & HJ4) & L & R); auto.
  - intros i q x _. apply visitLP_ok.
  - intros i a b x Ha. unfold storeLP. rewrite (ahead_ok T a) by assumption. reflexivity.
  - intros i [lf1 p] _ NR (J1 & J2 & J3). exists (lf1, p). split; [reflexivity|]. split; [assumption|]. split; [assumption|].
    intros s V Ls Ls' Hr. cbn [fst] in *.
    assert (rowU s <> i) by (apply NR; rewrite Ls; reflexivity). apply J3; auto. lia.
  - intros q Hq. apply (ltyp_spec T) in Hq. unfold valSB. rewrite (proj2 Hq). reflexivity.
  - intros [lf1 p] (J1 & J2 & J3). cbn [fst snd] in *. pose proof (rank_lt T 0 Hn) as B. fold n in B. split; [|split; [|split]]; cbn [fst snd].
    + rewrite J1. unfold seen0. fold n. replace (n <=? rank T 0) with false by lia. reflexivity.
    + assumption.
    + unfold n in *; lia.
    + intros s V [[M1 M2]|[[M1 M2]|[M1 M2]]].
      * apply J3; auto. apply row_lt; [apply ordered_lms|]. rewrite M1. reflexivity.
      * pose proof (rank_lt T s (proj2 (proj2 V))). unfold n in *. lia.
      * apply lms_lt in M1. pose proof (rank_lt T (S s)) as B'. unfold n in *. lia.
  - apply visitSP_ok.
  - split; [reflexivity|]. split; [assumption|]. intros; lia.
  - rewrite E. cbn [fst snd] in *. exists SA', lf'. subst p. split; [reflexivity|]. split; [exact H|]. split; [exact L|]. split; [exact R|].
    split; [assumption|]. split; [apply HJ3; lia|]. intros j Hj.
    pose proof xs_le as XL. assert (XJ : j * xs + xs <= xs * nLF) by nia.
    assert (E1 : n - (n - j * xs) = j * xs) by lia.
    assert (V : valid (n - j * xs)).
    { split; [rewrite E1; apply Nat.mod_mul; lia|]. unfold y. split; nia. }
    replace j with (pidx (n - j * xs)) at 1 by (unfold pidx; rewrite E1; apply Nat.div_mul; lia).
    apply HJ4; auto. apply settled_all. apply V.
Qed.
End Powers.

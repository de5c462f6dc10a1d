(** induceSA gives the suffix array; computeBWT gives the characters before the suffixes,
    the row of the whole text and the starting points. *)
From Coq Require Import List NArith ZArith Arith Bool Lia.
From Coq Require Import ZifyBool ZifyNat ZifyN.
From Verif Require Import Base Arrays ModelSais ProofSais1 ProofSais2 ProofSais3.
Import ListNotations.
Open Scope nat_scope.

Section Induce.
Variable T : list N.
Variable k : nat.
Hypothesis HT : charsBelow T k.
Let n := length T.
Hypothesis Hn : 0 < n.

Lemma start_room : startOf T (ch T (n - 1)) < n.
Proof.
  assert (FR : row T (slt T) (ltyp T) (lms T) (n - 1) = startOf T (ch T (n - 1))).
  { apply first_row; auto; [apply ordered_lms|apply (ltyp_last T)|apply (ltyp_end T), Hn]. }
  rewrite <- FR. apply row_lt; [apply ordered_lms|]. rewrite (ltyp_end T Hn : ltyp T (n - 1) = true). reflexivity.
Qed.

Section Frame.
Context {X : Type}.
Variables visitL visitS : nat -> Z -> X -> outcome (Z * X * option nat).
Variables storeL storeS : nat -> nat -> nat -> X -> outcome (Z * X).
Variable post1 : nat -> Z.
Variable e1 : Z.
Variables val2 post2 : nat -> Z.
Variables J1 J2 : nat -> X -> Prop.
Local Notation rowU := (row T (slt T) (ltyp T) (lms T)).
Hypothesis H1 : forall i q x, i < n -> ltyp T q || lms T q = true -> rowU q = i -> J1 i x ->
  exists x1, visitL i (sgn T q) x = Ok (post1 q, x1, if (0 <? sgn T q)%Z then Some (q - 1) else None) /\ J1 (S i) x1.
Hypothesis H2 : forall i a b x, a < n -> storeL i a b x = Ok (sgn T a, x).
Hypothesis H3 : forall i x, i < n -> (forall q, ltyp T q || lms T q = true -> rowU q <> i) -> J1 i x -> exists x1, visitL i 0%Z x = Ok (e1, x1, None) /\ J1 (S i) x1.
Hypothesis H4 : forall q, ltyp T q = true -> post1 q = val2 q.
Hypothesis H5 : forall x, J1 n x -> J2 n x.
Hypothesis H6 : forall q x, q < n -> J2 (S (rank T q)) x ->
  exists x1, visitS (rank T q) (val2 q) x = Ok (post2 q, x1, downTarget (styp T) q) /\
    match downTarget (styp T) q with
    | None => J2 (rank T q) x1
    | Some a => exists x2, storeS (rank T q) a (rank T a) x1 = Ok (val2 a, x2) /\ J2 (rank T q) x2
    end.

Lemma induce_ok : forall SA C x, seeded T SA -> countsOf T k C -> J1 0 x ->
  exists SA' x', induce T SA C visitL storeL visitS storeS x = Ok (SA', x') /\
    (forall q, q < n -> nth_error SA' (rank T q) = Some (post2 q)) /\ J2 0 x' /\
    length SA' = length SA /\ forall r, n <= r -> nth_error SA' r = nth_error SA r.
Proof.
  intros SA C x HS HC HJ. unfold induce. fold n.
  assert (Hk : 0 < k) by (specialize (HT 0 Hn); lia).
  pose proof start_room as B. pose proof (proj1 HS) as HL. fold n in HL.
  rewrite (get_ch T (n - 1)) by (unfold n in *; lia). cbn [bind].
  rewrite (get_ok _ _ _ (getBuckets_ok T k C false HC _ (HT (n - 1) ltac:(unfold n in *; lia)))). cbn [bind].
  rewrite (ahead_ok T (n - 1)) by (unfold n in *; lia). cbn [bind].
  rewrite set_ok by lia. cbn [bind].
  destruct (scan1 T k HT Hn visitL storeL post1 e1 J1 H1 H2 H3 SA C x HS HC HJ) as (SA1 & x1 & E1 & P1 & HJ1 & L1 & T1).
  fold n in E1. rewrite E1. cbn [bind].
  rewrite (get_ok _ _ _ (getBuckets_ok T k C true HC 0%N ltac:(lia)) : get _ 0 = _). cbn [bind].
  destruct (scan2 T k HT Hn visitS storeS val2 post2 J2 H6 SA1 C x1) as (SA2 & x2 & E2 & P2 & HJ2 & L2 & T2); auto.
  { rewrite L1. exact HL. }
  { intros q Hq. rewrite P1, H4 by assumption. reflexivity. }
  exists SA2, x2. split; [exact E2|]. split; [exact P2|]. split; [exact HJ2|]. split; [congruence|].
  intros r Hr. rewrite T2, T1 by exact Hr. reflexivity.
Qed.
End Frame.

Lemma inv_inv : forall j, inv (inv j) = j.
Proof. intros. unfold inv. lia. Qed.

(** What the second scan does with a suffix, by its type. *)
Lemma down_L : forall q, q < n -> styp T q = false ->
  downTarget (styp T) q = if (0 <? q) && (ch T (q - 1) <? ch T q)%N then Some (q - 1) else None.
Proof.
  intros q H E. unfold downTarget. destruct (Nat.ltb_spec 0 q) as [L|L]; [|reflexivity]. cbn [andb].
  rewrite (before_L T q) by assumption. reflexivity.
Qed.
Lemma down_S : forall q, q < n -> styp T q = true ->
  downTarget (styp T) q = if (0 <? q) && negb (ch T q <? ch T (q - 1))%N then Some (q - 1) else None.
Proof.
  intros q H E. unfold downTarget. destruct (Nat.ltb_spec 0 q) as [L|L]; [|reflexivity]. cbn [andb].
  rewrite (before_S T q) by assumption. reflexivity.
Qed.
Lemma down_target : forall q a, downTarget (styp T) q = Some a -> q < n -> a < n /\ styp T a = true /\ q = S a.
Proof.
  intros q a E H. unfold downTarget in E. destruct ((0 <? q) && styp T (q - 1)) eqn:F; [|discriminate].
  injection E as <-. apply andb_prop in F. destruct F as [F1 F2]. repeat split; auto; lia.
Qed.

(** *** induceSA *)
Definition valSI (q : nat) : Z :=
  if styp T q then (if (q =? 0) || (ch T q <? ch T (q - 1))%N then inv (Z.of_nat q) else Z.of_nat q)
  else inv (sgn T q).

Lemma storeSI_ok : forall i a b, a < n -> styp T a = true -> storeSI T i a b tt = Ok (valSI a, tt).
Proof.
  intros i a b Ha E. unfold storeSI, valSI. rewrite (get_ch T a), E by assumption. cbn [bind].
  destruct (Nat.eqb_spec a 0) as [D|D]; cbn [orb]; [subst; reflexivity|].
  rewrite (get_ch T (a - 1)) by (unfold n in *; lia). reflexivity.
Qed.

Theorem induceSA_ok : forall SA C, seeded T SA -> countsOf T k C ->
  exists SA', induceSA T SA C = Ok SA' /\ (forall q, q < n -> nth_error SA' (rank T q) = Some (Z.of_nat q)) /\
    length SA' = length SA /\ forall r, n <= r -> nth_error SA' r = nth_error SA r.
Proof.
  intros SA C HS HC. unfold induceSA.
  destruct (induce_ok visitLI visitSI (storeLI T) (storeSI T) (fun q => inv (sgn T q)) (inv 0) valSI Z.of_nat
    (fun _ _ => True) (fun _ _ => True)) with (SA := SA) (C := C) (x := tt) as (SA' & x' & E & H & _ & L & R); auto.
  - intros i q x Hi Rq _ _. exists tt. split; [|exact I]. unfold visitLI.
    destruct (Z.ltb_spec 0 (sgn T q)) as [G|G]; [|reflexivity].
    apply sgn_pos_eq in G. destruct G as [G G']. rewrite G. do 3 f_equal. lia.
  - intros i a b [] Ha. unfold storeLI. rewrite (ahead_ok T a) by assumption. reflexivity.
  - intros i [] _ _ _. exists tt. split; [reflexivity|exact I].
  - intros q Hq. apply (ltyp_spec T) in Hq. unfold valSI. rewrite (proj2 Hq). reflexivity.
  - intros q [] Hq _. exists tt. split.
    + unfold visitSI, valSI. destruct (styp T q) eqn:E.
      * rewrite down_S by assumption.
        destruct (Nat.eqb_spec q 0) as [D|D]; cbn [orb].
        -- subst. cbn. reflexivity.
        -- replace (0 <? q) with true by lia. cbn [andb].
           destruct (ch T q <? ch T (q - 1))%N; cbn [negb].
           ++ replace (0 <? inv (Z.of_nat q))%Z with false by (unfold inv; lia). rewrite inv_inv. reflexivity.
           ++ replace (0 <? Z.of_nat q)%Z with true by lia. do 3 f_equal. lia.
      * rewrite down_L by assumption. unfold sgn.
        destruct ((0 <? q) && (ch T (q - 1) <? ch T q)%N) eqn:G.
        -- rewrite inv_inv. replace (0 <? Z.of_nat q)%Z with true by lia. do 3 f_equal. lia.
        -- replace (0 <? inv (Z.of_nat q))%Z with false by (unfold inv; lia). rewrite inv_inv. reflexivity.
    + destruct (downTarget (styp T) q) as [a|] eqn:F; [|exact I]. apply down_target in F; [|assumption].
      exists tt. split; [|exact I]. apply storeSI_ok; tauto.
  - rewrite E. cbn [bind]. exists SA'. auto.
Qed.

(** *** computeBWT *)
Definition post1B (q : nat) : Z :=
  if (0 <? sgn T q)%Z then inv (Z.of_N (ch T (q - 1))) else if (sgn T q =? 0)%Z then 0%Z else inv (sgn T q).
Definition valSB (q : nat) : Z :=
  if styp T q then (if (0 <? q) && (ch T q <? ch T (q - 1))%N then inv (Z.of_N (ch T (q - 1))) else Z.of_nat q)
  else post1B q.
(** The character before the suffix; zero for the whole text. *)
Definition bwtChar (q : nat) : Z := if (q =? 0) then 0%Z else Z.of_N (ch T (q - 1)).

Lemma visitB_shape : forall q, q < n ->
  (q = 0 /\ valSB q = 0%Z /\ downTarget (styp T) q = None) \/
  (0 < q /\ downTarget (styp T) q = Some (q - 1) /\ valSB q = Z.of_nat q) \/
  (0 < q /\ downTarget (styp T) q = None /\ valSB q = inv (bwtChar q) /\ (valSB q < 0)%Z).
Proof.
  intros q Hq. unfold valSB, bwtChar. destruct (styp T q) eqn:E.
  - rewrite down_S by assumption. destruct (Nat.eqb_spec q 0) as [D|D].
    + left. subst. auto.
    + replace (0 <? q) with true by lia. cbn [andb]. destruct (ch T q <? ch T (q - 1))%N; cbn [negb].
      * right. right. repeat split; auto; try lia. unfold inv. lia.
      * right. left. repeat split; auto. lia.
  - rewrite down_L by assumption. unfold post1B, sgn. destruct (Nat.eqb_spec q 0) as [D|D].
    + left. subst. auto.
    + replace (0 <? q) with true by lia. cbn [andb]. destruct (ch T (q - 1) <? ch T q)%N.
      * right. left. replace (0 <? inv (Z.of_nat q))%Z with false by (unfold inv; lia).
        replace (inv (Z.of_nat q) =? 0)%Z with false by (unfold inv; lia). rewrite inv_inv. repeat split; auto. lia.
      * right. right. replace (0 <? Z.of_nat q)%Z with true by lia. repeat split; auto; try lia. unfold inv. lia.
Qed.

Lemma getz_before : forall q, 0 < q -> q < n -> getz T (Z.of_nat q - 1) = Ok (ch T (q - 1)).
Proof.
  intros q H0 H. unfold getz. replace (Z.of_nat q - 1 <? 0)%Z with false by lia.
  replace (Z.to_nat (Z.of_nat q - 1)) with (q - 1) by lia. apply get_ch. unfold n in *. lia.
Qed.

(** The state pidx in the second scan. *)
Definition seen0 (e : nat) : option nat := if e <=? rank T 0 then Some (rank T 0) else None.

Lemma seen0_other : forall q, q < n -> 0 < q -> seen0 (rank T q) = seen0 (S (rank T q)).
Proof.
  intros q Hq H0. unfold seen0.
  assert (rank T q <> rank T 0) by (intros E; apply rank_inj in E; auto; lia).
  replace (S (rank T q) <=? rank T 0) with (rank T q <=? rank T 0) by lia. reflexivity.
Qed.

Lemma visitLB_ok : forall i q, ltyp T q || lms T q = true ->
  visitLB T i (sgn T q) None = Ok (post1B q, None, if (0 <? sgn T q)%Z then Some (q - 1) else None).
Proof.
  intros i q Rq. pose proof (R_lt T (slt T) (ltyp T) (lms T) (ordered_lms T) q Rq) as B.
  unfold visitLB, post1B. destruct (Z.ltb_spec 0 (sgn T q)) as [G|G].
  - apply sgn_pos_eq in G. destruct G as [G G']. rewrite G, getz_before by (unfold n; lia). cbn [bind]. do 3 f_equal. lia.
  - destruct (Z.eqb_spec (sgn T q) 0) as [D|D]; [rewrite D|]; reflexivity.
Qed.

Theorem computeBWT_ok : forall SA C, seeded T SA -> countsOf T k C ->
  exists SA', computeBWT T SA C = Ok (SA', Some (rank T 0)) /\
    (forall q, q < n -> nth_error SA' (rank T q) = Some (bwtChar q)) /\
    length SA' = length SA /\ forall r, n <= r -> nth_error SA' r = nth_error SA r.
Proof.
  intros SA C HS HC. unfold computeBWT.
  destruct (induce_ok (visitLB T) (visitSB T) (storeLB T) (storeSB T) post1B 0%Z valSB bwtChar
    (fun _ x => x = None) (fun e x => x = seen0 e)) with (SA := SA) (C := C) (x := None (A := nat)) as (SA' & x' & E & H & HJ & L & R); auto.
  - intros i q x Hi Rq _ ->. exists None. split; [|reflexivity]. apply visitLB_ok, Rq.
  - intros i a b x Ha. unfold storeLB. rewrite (ahead_ok T a) by assumption. reflexivity.
  - intros i x _ _ ->. exists None. split; reflexivity.
  - intros q Hq. apply (ltyp_spec T) in Hq. unfold valSB. rewrite (proj2 Hq). reflexivity.
  - intros x ->. unfold seen0. pose proof (rank_lt T 0 Hn). replace (n <=? rank T 0) with false by (unfold n in *; lia). reflexivity.
  - intros q x Hq ->. unfold visitSB. destruct (visitB_shape q Hq) as [(D & V & F)|[(D & F & V)|(D & F & V & W)]].
    + rewrite V, F. cbn [Z.ltb Z.compare Z.eqb]. exists (Some (rank T q)). subst q. split; [reflexivity|].
      unfold seen0. rewrite Nat.leb_refl. reflexivity.
    + rewrite V, F. replace (0 <? Z.of_nat q)%Z with true by lia.
      rewrite getz_before by assumption. cbn [bind]. exists (seen0 (S (rank T q))). split.
      * unfold bwtChar. replace (q =? 0) with false by lia. do 3 f_equal. lia.
      * exists (seen0 (S (rank T q))). split; [|symmetry; apply seen0_other; assumption].
        apply down_target in F; [|assumption]. destruct F as (Ha & Sa & _). unfold storeSB, valSB.
        rewrite Sa, (get_ch T (q - 1)) by assumption. cbn [bind].
        destruct (Nat.ltb_spec 0 (q - 1)); cbn [andb]; [|reflexivity].
        rewrite (get_ch T (q - 1 - 1)) by (unfold n in *; lia). reflexivity.
    + rewrite F. replace (0 <? valSB q)%Z with false by lia. replace (valSB q =? 0)%Z with false by lia.
      rewrite V, inv_inv. exists (seen0 (S (rank T q))). split; [reflexivity|]. symmetry. apply seen0_other; assumption.
  - rewrite E. exists SA'. split; [|auto]. rewrite HJ. unfold seen0. cbn [Nat.leb]. reflexivity.
Qed.
End Induce.

(** The sorted LMS substrings are collected at the start of the array. *)
From Coq Require Import List NArith ZArith Arith Bool Lia Permutation.
From Coq Require Import ZifyBool ZifyNat ZifyN.
From Verif Require Import Base Arrays ModelSais ProofSais1 ProofSais2 ProofSais3.
Import ListNotations.
Open Scope nat_scope.

Lemma compactHead_2 : forall n todo i name SA SA' i' name',
  compactHead2 n todo i name SA = Ok (SA', i', name') -> compactHead n todo i SA = Ok (SA', i').
Proof.
  induction todo as [|todo IH]; intros i name SA SA' i' name' E; cbn [compactHead2 compactHead] in *; [discriminate|].
  destruct (get SA i) as [p| |]; cbn [bind] in *; try discriminate.
  destruct (p <? 0)%Z; [|congruence].
  destruct (set SA i (inv p)) as [SA1| |]; cbn [bind] in *; try discriminate.
  destruct (check (S i <? n)) as [[]| |]; cbn [bind] in *; try discriminate. eapply IH, E.
Qed.
Lemma compactTail_2 : forall n m todo i d name SA SA' name',
  compactTail2 n m todo i d name SA = Ok (SA', name') -> compactTail n m todo i d SA = Ok SA'.
Proof.
  induction todo as [|todo IH]; intros i d name SA SA' name' E; cbn [compactTail2 compactTail] in *; [discriminate|].
  destruct (check (i <? n)) as [[]| |]; cbn [bind] in *; try discriminate.
  destruct (get SA i) as [p| |]; cbn [bind] in *; try discriminate.
  destruct (p <? 0)%Z; [|eapply IH, E].
  destruct (set SA d (inv p)) as [SA1| |]; cbn [bind] in *; try discriminate.
  destruct (set SA1 i 0%Z) as [SA2| |]; cbn [bind] in *; try discriminate.
  destruct (S d =? m); [congruence|]. eapply IH, E.
Qed.

Section Collect.
Variable T : list N.
Let n := length T.
Variable row : nat -> nat.
Hypothesis Rinj : forall p q, lms T p = true -> lms T q = true -> row p = row q -> p = q.
Hypothesis Rlt : forall p, lms T p = true -> S (row p) < n.
Let m := cnt n (lms T).

(** The LMS position whose row is [r]. *)
Definition lmsAt (r : nat) : option nat := find (fun q => lms T q && (row q =? r)) (seq 0 n).
Fixpoint coll (i : nat) : list nat :=
  match i with
  | O => []
  | S i => coll i ++ match lmsAt i with Some q => [q] | None => [] end
  end.

Lemma lmsAt_some : forall r q, lmsAt r = Some q <-> lms T q = true /\ row q = r.
Proof.
  intros r q. unfold lmsAt. split.
  - intros E. apply find_some in E. destruct E as [_ E]. apply andb_prop in E. destruct E as [E1 E2].
    split; [assumption|]. apply Nat.eqb_eq, E2.
  - intros [Hq Eq]. destruct (find (fun q => lms T q && (row q =? r)) (seq 0 n)) as [x|] eqn:E.
    + apply find_some in E. destruct E as [_ E]. apply andb_prop in E. destruct E as [E1 E2]. apply Nat.eqb_eq in E2.
      f_equal. apply Rinj; auto. congruence.
    + exfalso. apply find_none with (x := q) in E; [rewrite Hq, Eq, Nat.eqb_refl in E; discriminate|].
      apply in_seq. apply lms_lt in Hq. unfold n. lia.
Qed.
Lemma lmsAt_none : forall r, lmsAt r = None -> forall q, lms T q = true -> row q <> r.
Proof. intros r E q Hq F. assert (G : lmsAt r = Some q) by (apply lmsAt_some; auto). congruence. Qed.

Lemma coll_in : forall i q, In q (coll i) <-> lms T q = true /\ row q < i.
Proof.
  induction i as [|i IH]; intros q; cbn [coll].
  - split; [contradiction|]. lia.
  - rewrite in_app_iff, IH. destruct (lmsAt i) as [x|] eqn:E.
    + apply lmsAt_some in E. destruct E as [Lx Ex]. cbn [In]. split.
      * intros [H|[H|[]]]; [split; [tauto|lia]|subst; split; [assumption|lia]].
      * intros [H H']. destruct (Nat.eq_dec (row q) i) as [D|D]; [right; left; apply Rinj; auto; congruence|left; split; [assumption|lia]].
    + pose proof (lmsAt_none i E q). cbn [In]. split; [intros [H'|[]]; split; [tauto|lia]|].
      intros [H1 H2]. left. split; [assumption|]. specialize (H H1). lia.
Qed.

Lemma coll_prefix : forall j i, i <= j -> exists r, coll j = coll i ++ r.
Proof.
  induction j as [|j IH]; intros i H.
  - replace i with 0 by lia. exists []. reflexivity.
  - destruct (Nat.eq_dec i (S j)) as [D|D]; [subst; exists []; symmetry; apply app_nil_r|].
    destruct (IH i ltac:(lia)) as [r E]. cbn [coll]. rewrite E, <- app_assoc. eexists. reflexivity.
Qed.

Lemma coll_sorted : forall i a b p q, a < b -> nth_error (coll i) a = Some p -> nth_error (coll i) b = Some q -> row p < row q.
Proof.
  induction i as [|i IH]; intros a b p q H Ha Hb; cbn [coll] in *.
  - destruct a; discriminate.
  - destruct (lmsAt i) as [x|] eqn:E.
    + apply lmsAt_some in E. destruct (le_lt_dec (length (coll i)) b) as [L|L].
      * pose proof (nth_error_bound _ _ _ Hb) as B. rewrite app_length in B. cbn [length] in B.
        assert (b = length (coll i)) by lia. subst b. rewrite nth_error_app2, Nat.sub_diag in Hb by lia. cbn in Hb. injection Hb as <-.
        rewrite nth_error_app1 in Ha by lia. apply nth_error_In, coll_in in Ha. lia.
      * rewrite nth_error_app1 in Ha, Hb by lia. exact (IH a b p q H Ha Hb).
    + rewrite app_nil_r in Ha, Hb. exact (IH a b p q H Ha Hb).
Qed.

Lemma coll_NoDup : forall i, NoDup (coll i).
Proof.
  intros i. apply NoDup_nth_error. intros a b Ha E.
  destruct (nth_error (coll i) a) as [p|] eqn:Ea; [|apply nth_error_None in Ea; lia].
  destruct (Nat.lt_trichotomy a b) as [L|[L|L]]; [|assumption|].
  - pose proof (coll_sorted i a b p p L Ea (eq_sym E)). lia.
  - pose proof (coll_sorted i b a p p L (eq_sym E) Ea). lia.
Qed.

Lemma coll_length : length (coll n) = m.
Proof.
  unfold m, cnt. apply Permutation_length. apply NoDup_Permutation.
  - apply coll_NoDup.
  - apply NoDup_filter, seq_NoDup.
  - intros q. rewrite coll_in, filter_In, in_seq. split.
    + intros [H _]. split; [|assumption]. apply lms_lt in H. unfold n. lia.
    + intros [_ H]. split; [assumption|]. pose proof (Rlt q H). lia.
Qed.

Lemma coll_le : forall i, i <= n -> length (coll i) <= m.
Proof. intros i H. destruct (coll_prefix n i H) as [r E]. rewrite <- coll_length, E, app_length. lia. Qed.
Lemma coll_index : forall i, length (coll i) <= i.
Proof.
  induction i as [|i IH]; cbn [coll]; [auto|]. rewrite app_length. destruct (lmsAt i); cbn [length]; lia.
Qed.

Lemma full_no : 0 < m -> m <> n.
Proof.
  intros Hm E.
  assert (G : forall x, S x = n -> length (coll n) <= x).
  { intros x Hx. rewrite <- Hx. cbn [coll]. destruct (lmsAt x) as [q|] eqn:Eq.
    - apply lmsAt_some in Eq. destruct Eq as [Lq Eq]. pose proof (Rlt q Lq). lia.
    - rewrite app_nil_r. apply coll_index. }
  rewrite coll_length in G. specialize (G (m - 1)). lia.
Qed.

Variable V : nat -> Z.
Hypothesis Vpos : forall q, lms T q = true -> (0 <= V q)%Z.

(** Rows below [i] are collected. *)
Record compacting (SA0 : list Z) (i : nat) (SA : list Z) (name : nat) : Prop := {
  c_len : length SA = length SA0;
  c_tail : forall r, n <= r -> nth_error SA r = nth_error SA0 r;
  c_done : forall a q, nth_error (coll i) a = Some q -> nth_error SA a = Some (V q);
  c_zero : forall r, length (coll i) <= r < i -> nth_error SA r = Some 0%Z;
  c_todo : forall r, i <= r < n -> nth_error SA r = Some (match lmsAt r with Some q => inv (V q) | None => 0%Z end);
  c_name : name = length (filter (fun q => (Z.of_nat n <=? V q)%Z) (coll i))
}.

Lemma compacting_some : forall SA0 i SA name q j, n <= length SA0 -> compacting SA0 i SA name -> i < n -> lmsAt i = Some q ->
  j = length (coll i) ->
  nth_error SA i = Some (inv (V q)) /\ (inv (V q) <? 0)%Z = true /\ inv (inv (V q)) = V q /\
  compacting SA0 (S i) (upd (upd SA j (V q)) i (if j =? i then V q else 0%Z))
    (if (Z.of_nat n <=? V q)%Z then name + 1 else name).
Proof.
  intros SA0 i SA name q j HL [I1 I2 I3 I4 I5 I6] Hi E ->. pose proof (coll_index i) as CI.
  assert (Lq : lms T q = true) by (apply lmsAt_some in E; tauto). pose proof (Vpos q Lq) as Vq.
  split; [rewrite I5, E by lia; reflexivity|]. split; [unfold inv; lia|]. split; [unfold inv; lia|].
  assert (CS : coll (S i) = coll i ++ [q]) by (cbn [coll]; rewrite E; reflexivity).
  constructor.
  - rewrite !upd_length. exact I1.
  - intros r Hr. rewrite !nth_error_upd_other by (rewrite ?upd_length; lia). apply I2, Hr.
  - intros a x Ha. rewrite CS in Ha. destruct (le_lt_dec (length (coll i)) a) as [L|L].
    + pose proof (nth_error_bound _ _ _ Ha) as B. rewrite app_length in B. cbn [length] in B.
      assert (a = length (coll i)) by lia. subst a. rewrite nth_error_app2, Nat.sub_diag in Ha by lia. cbn in Ha. injection Ha as <-.
      destruct (Nat.eqb_spec (length (coll i)) i) as [D|D].
      * rewrite D. apply nth_error_upd_same. rewrite upd_length. lia.
      * rewrite nth_error_upd_other by (rewrite ?upd_length; lia). apply nth_error_upd_same. lia.
    + rewrite nth_error_app1 in Ha by lia. rewrite !nth_error_upd_other by (rewrite ?upd_length; lia). apply I3, Ha.
  - intros r Hr. rewrite CS, app_length in Hr. cbn [length] in Hr. destruct (Nat.eq_dec r i) as [D|D].
    + subst r. rewrite nth_error_upd_same by (rewrite upd_length; lia). replace (length (coll i) =? i) with false by lia. reflexivity.
    + rewrite !nth_error_upd_other by (rewrite ?upd_length; lia). apply I4. lia.
  - intros r Hr. rewrite !nth_error_upd_other by (rewrite ?upd_length; lia). apply I5. lia.
  - rewrite CS, filter_app, app_length, <- I6. cbn [filter]. destruct (Z.of_nat n <=? V q)%Z; cbn [length]; lia.
Qed.

Lemma compacting_none : forall SA0 i SA name, compacting SA0 i SA name -> i < n -> lmsAt i = None ->
  nth_error SA i = Some 0%Z /\ compacting SA0 (S i) SA name.
Proof.
  intros SA0 i SA name [I1 I2 I3 I4 I5 I6] Hi E. pose proof (coll_index i) as CI.
  assert (V0 : nth_error SA i = Some 0%Z) by (rewrite I5, E by lia; reflexivity).
  assert (CS : coll (S i) = coll i) by (cbn [coll]; rewrite E; apply app_nil_r).
  split; [exact V0|]. constructor; rewrite ?CS; auto.
  - intros r Hr. destruct (Nat.eq_dec r i); [subst; assumption|]. apply I4. lia.
  - intros r Hr. apply I5. lia.
Qed.

Lemma head_ok : forall SA0, n <= length SA0 -> forall todo i SA name, n < i + todo -> i <= n -> length (coll i) = i -> compacting SA0 i SA name ->
  (0 < m) ->
  exists SA' i' name', compactHead2 n todo i name SA = Ok (SA', i', name') /\ i' < n /\ length (coll i') = i' /\ lmsAt i' = None /\
    compacting SA0 i' SA' name'.
Proof.
  intros SA0 HL. induction todo as [|todo IH]; intros i SA name Ht Hi CI I Hm; [lia|]. cbn [compactHead2].
  assert (Hin : i < n).
  { destruct (Nat.eq_dec i n) as [D|D]; [|lia]. exfalso. subst i. clear IH. rewrite coll_length in CI.
    pose proof full_no. lia. }
  destruct (lmsAt i) as [q|] eqn:E.
  - destruct (compacting_some SA0 i SA name q i HL I Hin E (eq_sym CI)) as (G & Neg & Inv & I').
    rewrite (get_ok _ _ _ G). cbn [bind]. rewrite Neg, Inv.
    pose proof (c_len _ _ _ _ I) as Lc.
    rewrite set_ok by lia. cbn [bind].
    assert (Lq : lms T q = true /\ row q = i) by (apply lmsAt_some, E).
    pose proof (Rlt q (proj1 Lq)) as B. unfold check. replace (S i <? n) with true by lia. cbn [bind].
    rewrite Nat.eqb_refl in I'.
    assert (UU : upd (upd SA i (V q)) i (V q) = upd SA i (V q)).
    { apply nth_error_ext. intros r. destruct (Nat.eq_dec r i) as [D|D].
      - subst r. rewrite !nth_error_upd_same by (rewrite ?upd_length; lia). reflexivity.
      - rewrite nth_error_upd_other by (rewrite ?upd_length; lia). reflexivity. }
    rewrite UU in I'. apply (IH (S i)); auto; try lia.
    cbn [coll]. rewrite E, app_length, CI. cbn [length]. lia.
  - destruct (compacting_none SA0 i SA name I Hin E) as (G & I'). rewrite (get_ok _ _ _ G). cbn [bind].
    replace (0 <? 0)%Z with false by lia. exists SA, i, name. auto 6.
Qed.

Lemma tail_ok : forall SA0, n <= length SA0 -> forall todo i SA name, n < i + todo -> i <= n -> length (coll i) < m -> length (coll i) < i -> compacting SA0 i SA name ->
  exists SA' name', compactTail2 n m todo i (length (coll i)) name SA = Ok (SA', name') /\ compacting SA0 n SA' name'.
Proof.
  intros SA0 HL. induction todo as [|todo IH]; intros i SA name Ht Hi CM CL I; [lia|]. cbn [compactTail2].
  assert (Hin : i < n) by (destruct (Nat.eq_dec i n) as [D|D]; [subst i; rewrite coll_length in CM; lia|lia]).
  unfold check. replace (i <? n) with true by lia. cbn [bind].
  destruct (lmsAt i) as [q|] eqn:E.
  - destruct (compacting_some SA0 i SA name q (length (coll i)) HL I Hin E eq_refl) as (G & Neg & Inv & I').
    rewrite (get_ok _ _ _ G). cbn [bind]. rewrite Neg, Inv. pose proof (c_len _ _ _ _ I) as Lc.
    rewrite set_ok by lia. cbn [bind]. rewrite set_ok by (rewrite upd_length; lia). cbn [bind].
    replace (length (coll i) =? i) with false in I' by lia.
    assert (CS : length (coll (S i)) = S (length (coll i))) by (cbn [coll]; rewrite E, app_length; cbn [length]; lia).
    destruct (Nat.eqb_spec (S (length (coll i))) m) as [D|D].
    + eexists _, _. split; [reflexivity|].
      (* nothing is left *)
      assert (Rest : forall j name' SA', S i <= j <= n -> compacting SA0 (S i) SA' name' -> compacting SA0 j SA' name').
      { induction j as [|j IHj]; intros name' SA' Hj Ic; [lia|]. destruct (Nat.eq_dec j i) as [Dj|Dj]; [subst; assumption|].
        apply compacting_none; [apply IHj; auto; lia|lia|]. destruct (lmsAt j) as [x|] eqn:Ex; [|reflexivity]. exfalso.
        destruct (coll_prefix j (S i) ltac:(lia)) as [r' Er'].
        pose proof (coll_le (S j) ltac:(lia)) as B. cbn [coll] in B. rewrite Ex, app_length in B. cbn [length] in B.
        apply (f_equal (@length nat)) in Er'. rewrite app_length in Er'. lia. }
      apply Rest; [lia|exact I'].
    + rewrite <- CS. apply IH; auto; try lia.
  - destruct (compacting_none SA0 i SA name I Hin E) as (G & I'). rewrite (get_ok _ _ _ G). cbn [bind].
    replace (0 <? 0)%Z with false by lia.
    assert (CS : coll (S i) = coll i) by (cbn [coll]; rewrite E; apply app_nil_r).
    rewrite <- CS. apply IH; rewrite ?CS; auto; lia.
Qed.

Theorem compact2_ok : forall SA, n <= length SA -> 0 < m ->
  (forall q, lms T q = true -> nth_error SA (row q) = Some (inv (V q))) ->
  (forall r, r < n -> (forall q, lms T q = true -> row q <> r) -> nth_error SA r = Some 0%Z) ->
  exists SA1 i name1 SA' name, compactHead2 n (S n) 0 0 SA = Ok (SA1, i, name1) /\
    (if (i <? m) then compactTail2 n m (S n) (S i) i name1 SA1 else Ok (SA1, name1)) = Ok (SA', name) /\
    compacting SA n SA' name.
Proof.
  intros SA HL Hm HV HZ.
  destruct (head_ok SA HL (S n) 0 SA 0) as (SA1 & i & name1 & E1 & Hi & CI & NA & I1); try exact Hm; try reflexivity; try lia.
  - constructor; cbn [coll length filter]; auto.
    + intros a q Ha. destruct a; discriminate.
    + intros r Hr. lia.
    + intros r Hr. destruct (lmsAt r) as [q|] eqn:E.
      * apply lmsAt_some in E. destruct E as [Lq Eq]. rewrite <- Eq. apply HV, Lq.
      * apply HZ; [lia|]. apply lmsAt_none, E.
  - exists SA1, i, name1. destruct (compacting_none SA i SA1 name1 I1 Hi NA) as [_ I1'].
    assert (CS : coll (S i) = coll i) by (cbn [coll]; rewrite NA; apply app_nil_r).
    destruct (Nat.ltb_spec i m) as [L|L].
    + destruct (tail_ok SA HL (S n) (S i) SA1 name1) as (SA' & name & E' & I'); rewrite ?CS; auto; try lia.
      rewrite CS, CI in E'. exists SA', name. auto.
    + exists SA1, name1. split; [exact E1|]. split; [reflexivity|].
      assert (Rest : forall j, i <= j <= n -> compacting SA j SA1 name1 /\ length (coll j) = i).
      { induction j as [|j IHj]; intros Hj; [replace i with 0 in * by lia; auto|].
        destruct (Nat.eq_dec i (S j)) as [Dj|Dj]; [subst i; auto|].
        destruct (IHj ltac:(lia)) as [Ij Lj].
        assert (NJ : lmsAt j = None).
        { destruct (lmsAt j) as [x|] eqn:Ex; [|reflexivity]. exfalso. pose proof (coll_le (S j) ltac:(lia)) as B.
          cbn [coll] in B. rewrite Ex, app_length, Lj in B. cbn [length] in B. lia. }
        split; [apply compacting_none; auto; lia|]. cbn [coll]. rewrite NJ, app_nil_r. exact Lj. }
      apply Rest. lia.
Qed.
End Collect.

(** Naming of the LMS substrings after the first variant of the sort. *)
From Coq Require Import List NArith ZArith Arith Bool Lia.
From Coq Require Import ZifyBool ZifyNat ZifyN.
From Verif Require Import Base Arrays ModelSais ProofSais1 ProofSais2 ProofSais3 ProofSais7 ProofSais8 ProofSais9 ProofSais11.
Import ListNotations.
Ltac Zify.zify_post_hook ::= Z.to_euclidean_division_equations.
Open Scope nat_scope.

Lemma getz_some : forall {A} (l : list A) i x, nth_error l i = Some x -> getz l (Z.of_nat i) = Ok x.
Proof. intros A l i x H. unfold getz. replace (Z.of_nat i <? 0)%Z with false by lia. rewrite Nat2Z.id. apply get_ok, H. Qed.

Section Apart.
Variable T : list N.
Let n := length T.
Let m := cnt n (lms T).

Lemma lms_half : forall e, 2 * cnt e (lms T) <= e /\ (forall x, S x = e -> lms T x = true -> 2 * cnt e (lms T) <= e).
Proof.
  assert (H : forall d e, e <= d -> 2 * cnt e (lms T) <= e).
  { induction d as [|d IH]; intros e He.
    - replace e with 0 by lia. reflexivity.
    - destruct e as [|[|e]].
      + reflexivity.
      + rewrite cnt_S. unfold lms at 2. cbn. lia.
      + rewrite !cnt_S. destruct (lms T (S e)) eqn:E.
        * apply lms_lt in E. destruct (lms T e) eqn:E'.
          -- apply lms_lt in E'. replace (S e - 1) with e in E by lia. destruct E as (_ & _ & _ & E & _). destruct E' as (_ & _ & E' & _). congruence.
          -- specialize (IH e ltac:(lia)). lia.
        * specialize (IH (S e) ltac:(lia)). rewrite cnt_S in IH. lia. }
  intros e. split; [apply (H e); lia|]. intros x _ _. apply (H e). lia.
Qed.
Lemma half_m : 2 * m <= n.
Proof. apply lms_half. Qed.

Lemma lms_apart : forall p q, lms T p = true -> lms T q = true -> p / 2 = q / 2 -> p = q.
Proof.
  assert (H : forall p, lms T p = true -> lms T (S p) = true -> False).
  { intros p A B. apply lms_lt in A, B. replace (S p - 1) with p in B by lia. destruct A as (_ & _ & A & _). destruct B as (_ & _ & _ & B & _). congruence. }
  intros p q Hp Hq E. destruct (Nat.eq_dec p q) as [D|D]; [assumption|]. exfalso.
  destruct (Nat.lt_ge_cases p q) as [L|L].
  - apply (H p Hp). replace (S p) with q by lia. exact Hq.
  - apply (H q Hq). replace (S q) with p by lia. exact Hp.
Qed.
Lemma slot_bound : forall p, lms T p = true -> m + p / 2 < n /\ p / 2 < n / 2.
Proof. intros p H. apply lms_lt in H. pose proof half_m. fold n in H. lia. Qed.

End Apart.

Section Names.
Variable T : list N.
Let n := length T.
Variable k : nat.
Hypothesis HT : charsBelow T k.
Variable p0 : nat.
Hypothesis L0 : lms T p0 = true.
Hypothesis F0 : forall q, lms T q = true -> p0 <= q.
Variable row : nat -> nat.
Hypothesis Rinj : forall p q, lms T p = true -> lms T q = true -> row p = row q -> p = q.
Hypothesis Rlt : forall p, lms T p = true -> S (row p) < n.
Hypothesis Rord : forall p q, lms T p = true -> lms T q = true -> row p < row q -> lessS T k p q = true.
Let m := cnt n (lms T).

Definition ctag (_ : nat) : N := N.of_nat k.
(** The characters of an LMS substring. *)
Definition ck (p : nat) : list N := key2 T ctag p.
Lemma ctag_tag : forall a b, a < n -> b < n -> (ch T b < ctag a)%N.
Proof.
  intros a b _ Hb. specialize (HT b Hb). unfold ctag. clear - HT. lia.
Qed.
Let ftag := fine_tag T k HT p0 F0.

(** ** Lengths *)
Definition plen (p : nat) : nat := if stop2 T p <? n then S (stop2 T p - p) else n - p.

Lemma plen_bound : forall p, lms T p = true -> 0 < plen p /\ p + plen p <= n.
Proof.
  intros p H. destruct (stop2_lms T ctag ctag_tag p H) as (B & Bl & _). fold n in B. unfold plen.
  destruct (Nat.ltb_spec (stop2 T p) n) as [L|L]; [|lia].
  specialize (Bl L). apply lms_lt in Bl. fold n in Bl. lia.
Qed.

Definition lensAt (SA0 : list Z) (e : nat) (SA : list Z) (j : nat) : Prop :=
  length SA = length SA0 /\
  (forall p, lms T p = true -> e <= p -> nth_error SA (m + p / 2) = Some (Z.of_nat (plen p))) /\
  (forall r, (forall p, lms T p = true -> e <= p -> r <> m + p / 2) -> nth_error SA r = nth_error SA0 r) /\
  (forall p, lms T p = true -> e <= p -> lms T j = true /\ e <= j <= p) /\
  ((forall p, e <= p -> lms T p = false) -> j = n - 1).

Lemma lens_fold : forall SA0, n <= length SA0 -> forall e SA j, e <= n -> lensAt SA0 e SA j ->
  exists SA' j', foldAct T (storeLength m) (lmsBelow T e) (SA, j) = Ok (SA', j') /\ lensAt SA0 0 SA' j'.
Proof.
  intros SA0 HL. induction e as [|e IH]; intros SA j He I; [exists SA, j; split; [reflexivity|exact I]|].
  destruct I as (I1 & I2 & I3 & I4 & I5). cbn [lmsBelow]. destruct (lms T e) eqn:E.
  - cbn [foldAct]. unfold storeLength at 1.
    pose proof (lms_lt T e E) as B. fold n in B. pose proof (slot_bound T e E) as SB. fold n in SB. fold m in SB.
    replace (e - 1 + 1) with e by lia. rewrite set_ok by lia. cbn [bind].
    assert (V : (Z.of_nat j - Z.of_nat (e - 1))%Z = Z.of_nat (plen e)).
    { destruct (stop2_lms T ctag ctag_tag e E) as (Bs & Bl & Bn). fold n in Bs, Bl. unfold plen.
      destruct (Nat.ltb_spec (stop2 T e) n) as [L|L].
      - specialize (Bl L). destruct (I4 _ Bl ltac:(lia)) as [Lj Hj].
        assert (~ (e < j < stop2 T e)) by (intros D; rewrite (Bn j D) in Lj; discriminate). lia.
      - rewrite I5; [lia|]. intros p Hp. destruct (lms T p) eqn:Ep; [|reflexivity].
        pose proof (lms_lt T p Ep) as Bp. fold n in Bp. rewrite (Bn p) in Ep by lia. discriminate. }
    rewrite V. apply IH; [lia|]. repeat split.
    + rewrite upd_length. exact I1.
    + intros p Hp Hep. destruct (Nat.eq_dec p e) as [D|D].
      * subst p. apply nth_error_upd_same. lia.
      * rewrite nth_error_upd_other by (rewrite ?I1; pose proof (lms_apart T p e Hp E); lia). apply I2; auto. lia.
    + intros r Hr. pose proof (Hr e E ltac:(lia)). rewrite nth_error_upd_other by lia. apply I3; intros p Hp Hep; apply Hr; auto; lia.
    + exact E.
    + lia.
    + assumption.
    + intros D. rewrite D in E by lia. discriminate.
  - apply IH; [lia|]. repeat split; auto.
    + intros p Hp Hep. apply I2; auto. destruct (Nat.eq_dec p e); [congruence|lia].
    + intros r Hr. apply I3. intros p Hp Hep. apply Hr; auto. lia.
    + assert (S e <= p) by (destruct (Nat.eq_dec p e); [congruence|lia]). destruct (I4 p); auto.
    + assert (S e <= p) by (destruct (Nat.eq_dec p e); [congruence|lia]). destruct (I4 p); auto. lia.
    + assert (S e <= p) by (destruct (Nat.eq_dec p e); [congruence|lia]). destruct (I4 p); auto. lia.
    + intros D. apply I5. intros p Hp. apply D. lia.
Qed.

(** ** Comparison *)
Lemma agree_ok : forall d p q, p + d <= n -> q + d <= n ->
  exists b, agree T d p q = Ok b /\ (b = true <-> firstn d (suf T p) = firstn d (suf T q)).
Proof.
  induction d as [|d IH]; intros p q Hp Hq; cbn [agree].
  - exists true. split; [reflexivity|]. cbn [firstn]. tauto.
  - rewrite (get_ch T p), (get_ch T q) by (fold n; lia). cbn [bind].
    rewrite (suf_cons T p), (suf_cons T q) by (fold n; lia). cbn [firstn].
    destruct (N.eqb_spec (ch T p) (ch T q)) as [E|E].
    + destruct (IH (S p) (S q)) as (b & Eb & Hb); try lia. exists b. split; [exact Eb|]. rewrite Hb, E.
      split; congruence.
    + exists false. split; [reflexivity|]. split; congruence.
Qed.

Lemma firstn_step : forall e p, p + e < n -> firstn (S e) (suf T p) = firstn e (suf T p) ++ [ch T (p + e)].
Proof.
  induction e as [|e IH]; intros p H.
  - rewrite (suf_cons T p) by (fold n; lia). rewrite Nat.add_0_r. reflexivity.
  - rewrite (suf_cons T p) by (fold n; lia). change (firstn (S (S e)) (ch T p :: suf T (S p))) with (ch T p :: firstn (S e) (suf T (S p))).
    rewrite IH by lia. cbn [firstn app]. replace (S p + e) with (p + S e) by lia. reflexivity.
Qed.

Lemma lexltb_prefix : forall a x b, lexltb a (a ++ x :: b) = true.
Proof. induction a as [|y a IH]; intros x b; [reflexivity|]. cbn [app]. rewrite lexltb_cons. apply IH. Qed.

Lemma same_iff : forall p q, lms T p = true -> lms T q = true -> lessS T k q p = true ->
  (plen p = plen q /\ q + plen q < n /\ firstn (plen p) (suf T p) = firstn (plen p) (suf T q)) <-> ck p = ck q.
Proof.
  intros p q Hp Hq HL.
  destruct (stop2_spec T ctag ctag_tag (n - p) p eq_refl) as (Bp & _ & _ & Kp); [apply lms_lt in Hp; fold n in Hp |- *; lia|].
  destruct (stop2_spec T ctag ctag_tag (n - q) q eq_refl) as (Bq & _ & _ & Kq); [apply lms_lt in Hq; fold n in Hq |- *; lia|].
  destruct (stop2_spec T (fine k) ftag (n - p) p eq_refl) as (_ & _ & _ & Fp); [apply lms_lt in Hp; fold n in Hp |- *; lia|].
  destruct (stop2_spec T (fine k) ftag (n - q) q eq_refl) as (_ & _ & _ & Fq); [apply lms_lt in Hq; fold n in Hq |- *; lia|].
  destruct (stop2_lms T ctag ctag_tag p Hp) as (Sp & Mp & _). destruct (stop2_lms T ctag ctag_tag q Hq) as (Sq & Mq & _).
  fold n in Bp, Bq, Kp, Kq, Fp, Fq, Sp, Sq, Mp, Mq.
  assert (Lp : p < n) by (apply lms_lt in Hp; fold n in Hp; lia). assert (Lq : q < n) by (apply lms_lt in Hq; fold n in Hq; lia).
  split.
  - unfold plen. intros (E1 & E2 & E3).
    destruct (Nat.ltb_spec (stop2 T q) n) as [Gq|Gq]; [|lia].
    destruct (Nat.ltb_spec (stop2 T p) n) as [Gp|Gp].
    + assert (Ee : stop2 T p - p = stop2 T q - q) by lia.
      rewrite !firstn_step in E3 by lia.
      apply app_inj_tail in E3. destruct E3 as [E3 E4].
      replace (p + (stop2 T p - p)) with (stop2 T p) in E4 by lia.
      unfold ck. rewrite Kp, Kq. f_equal; [rewrite <- Ee; exact E3|].
      f_equal. rewrite E4. f_equal. lia.
    + exfalso. unfold lessS, lt2 in HL.
      assert (P : key2 T (fine k) q = key2 T (fine k) p ++ [fine k (stop2 T q)]).
      { rewrite Fp, Fq. rewrite app_nil_r. change [ch T (stop2 T q); fine k (stop2 T q)] with ([ch T (stop2 T q)] ++ [fine k (stop2 T q)]).
        rewrite app_assoc. f_equal.
        replace (stop2 T p - p) with (n - p) by lia. rewrite E3, E1, firstn_step by lia. f_equal. f_equal. f_equal. lia. }
      rewrite P in HL. apply lexltb_asym in HL. rewrite lexltb_prefix in HL. discriminate.
  - intros E. unfold ck in E.
    destruct (key2_eq T ctag ctag_tag (n - p) p q eq_refl) as (e & E1 & E2 & E3 & _); try (fold n; lia); [exact E|]. fold n in E3.
    assert (D : p <> q) by (intros D; subst; unfold lessS, lt2 in HL; rewrite lexltb_irrefl in HL; discriminate).
    rewrite Kp, Kq in E. unfold plen.
    destruct (Nat.ltb_spec (stop2 T p) n) as [Gp|Gp]; destruct (Nat.ltb_spec (stop2 T q) n) as [Gq|Gq]; try lia.
    specialize (Mq Gq). apply lms_lt in Mq. fold n in Mq.
    replace (stop2 T p - p) with e in * by lia. replace (stop2 T q - q) with e in * by lia.
    split; [reflexivity|]. split; [lia|]. rewrite !firstn_step by lia. rewrite <- E1, <- E2.
    change [ch T (stop2 T p); ctag (stop2 T p)] with ([ch T (stop2 T p)] ++ [ctag (stop2 T p)]) in E.
    change [ch T (stop2 T q); ctag (stop2 T q)] with ([ch T (stop2 T q)] ++ [ctag (stop2 T q)]) in E.
    rewrite !app_assoc in E. apply app_inj_tail in E. apply E.
Qed.

(** ** Names *)
Definition eqk (p q : nat) : bool := if list_eq_dec N.eq_dec (ck p) (ck q) then true else false.
Lemma eqk_spec : forall p q, eqk p q = true <-> ck p = ck q.
Proof. intros p q. unfold eqk. destruct (list_eq_dec N.eq_dec (ck p) (ck q)); split; congruence. Qed.

Definition sorted := coll T row n.
(** Name of the [i]-th LMS substring: how many different ones there are up to it. *)
Fixpoint nm (i : nat) : nat :=
  match i with
  | O => 1
  | S i => if eqk (nth i sorted 0) (nth (S i) sorted 0) then nm i else S (nm i)
  end.
Definition named (i : nat) : nat := match i with O => 0 | S i => nm i end.

Lemma sorted_length : length sorted = m.
Proof. apply coll_length; assumption. Qed.
Lemma sorted_lms : forall i p, nth_error sorted i = Some p -> lms T p = true.
Proof. intros i p H. apply nth_error_In in H. apply coll_in in H; auto. apply H. Qed.
Lemma sorted_less : forall i j p q, i < j -> nth_error sorted i = Some p -> nth_error sorted j = Some q -> lessS T k p q = true.
Proof.
  intros i j p q H Hp Hq. apply Rord; [eapply sorted_lms, Hp|eapply sorted_lms, Hq|]. eapply coll_sorted; eauto.
Qed.
Lemma sorted_in : forall p, lms T p = true -> exists i, nth_error sorted i = Some p.
Proof. intros p H. apply In_nth_error. apply coll_in; auto. split; [assumption|]. specialize (Rlt p H). lia. Qed.
Lemma sorted_ck : forall i j p q, i < j -> nth_error sorted i = Some p -> nth_error sorted j = Some q -> ck p = ck q \/ lexltb (ck p) (ck q) = true.
Proof.
  intros i j p q H Hp Hq. pose proof (sorted_less i j p q H Hp Hq) as G.
  destruct (list_eq_dec N.eq_dec (ck p) (ck q)) as [D|D]; [auto|]. right.
  destruct (lexltb_total _ _ D) as [X|X]; [assumption|]. exfalso.
  apply sorted_lms, lms_lt in Hp, Hq.
  assert (Y : lessS T k q p = true).
  { apply (coarse2 T (fine k) ctag ftag ctag_tag (fun _ _ => eq_refl) (n - q)); [reflexivity|lia|lia|exact X]. }
  unfold lessS, lt2 in *. apply lexltb_asym in Y. congruence.
Qed.

Definition classAt (i : nat) (q qlen : Z) : Prop :=
  match i with
  | O => q = Z.of_nat n /\ qlen = 0%Z
  | S i => exists b r, b <= i /\ nth_error sorted b = Some r /\ ck r = ck (nth i sorted 0) /\ q = Z.of_nat r /\ qlen = Z.of_nat (plen r)
  end.
Definition naming (SA0 : list Z) (i : nat) (SA : list Z) : Prop :=
  length SA = length SA0 /\
  (forall r, n <= r -> nth_error SA r = nth_error SA0 r) /\
  (forall a p, nth_error sorted a = Some p -> nth_error SA a = Some (Z.of_nat p)) /\
  (forall a p, nth_error sorted a = Some p ->
     nth_error SA (m + p / 2) = Some (Z.of_nat (if a <? i then nm a else plen p))) /\
  (forall r, m <= r < n -> (forall p, lms T p = true -> r <> m + p / 2) -> nth_error SA r = Some 0%Z).

Lemma name_loop : forall SA0, n <= length SA0 -> forall todo i q qlen SA, i + todo = m -> classAt i q qlen -> naming SA0 i SA ->
  exists SA', nameLoop T m todo i (named i) q qlen SA = Ok (SA', named m) /\ naming SA0 m SA'.
Proof.
  intros SA0 HL. induction todo as [|todo IH]; intros i q qlen SA Hi HC I.
  - replace i with m in * by lia. exists SA. split; [reflexivity|exact I].
  - pose proof I as (I1 & I2 & I3 & I4 & I5). cbn [nameLoop].
    destruct (nth_error sorted i) as [p|] eqn:Ep; [|apply nth_error_None in Ep; rewrite sorted_length in Ep; lia].
    pose proof (sorted_lms _ _ Ep) as Lp. pose proof (slot_bound T p Lp) as SB. fold n in SB. fold m in SB. pose proof (plen_bound p Lp) as PB.
    rewrite (get_ok _ _ _ (I3 _ _ Ep)). cbn [bind].
    assert (Eh : (Z.of_nat p / 2)%Z = Z.of_nat (p / 2)) by (rewrite Nat2Z.inj_div; reflexivity).
    rewrite Eh. replace (Z.of_nat m + Z.of_nat (p / 2))%Z with (Z.of_nat (m + p / 2)) by lia.
    pose proof (I4 _ _ Ep) as Gp. rewrite Nat.ltb_irrefl in Gp.
    rewrite (getz_some _ _ _ Gp). cbn [bind]. rewrite !Nat2Z.id.
    assert (Same : exists b, (if ((Z.of_nat (plen p) =? qlen) && (q + Z.of_nat (plen p) <? Z.of_nat (length T)))%Z
                  then agree T (plen p) p (Z.to_nat q) else Ok false) = Ok b /\
                  b = match i with O => false | S i' => eqk (nth i' sorted 0) p end).
    { destruct i as [|i'].
      - destruct HC as [-> ->]. exists false. split; [|reflexivity]. replace (Z.of_nat (plen p) =? 0)%Z with false by lia. reflexivity.
      - destruct HC as (b & r & Hb & Er & Ec & -> & ->). pose proof (sorted_lms _ _ Er) as Lr.
        assert (Lrp : lessS T k r p = true) by (apply (sorted_less b (S i')); auto; lia).
        pose proof (same_iff p r Lp Lr Lrp) as SI. fold n. rewrite Nat2Z.id.
        assert (K : eqk (nth i' sorted 0) p = true <-> ck p = ck r) by (rewrite eqk_spec, <- Ec; split; congruence).
        destruct (Z.eqb_spec (Z.of_nat (plen p)) (Z.of_nat (plen r))) as [A|A]; cbn [andb].
        + apply Nat2Z.inj in A. destruct (Z.ltb_spec (Z.of_nat r + Z.of_nat (plen p)) (Z.of_nat n)) as [A'|A'].
          * destruct (agree_ok (plen p) p r) as (b' & Eb & Hb'); try lia. exists b'. split; [exact Eb|].
            apply eq_true_iff_eq. rewrite Hb', K, <- SI. rewrite A in A' |- *. split; [intros; repeat split; auto; lia|tauto].
          * exists false. split; [reflexivity|]. symmetry. apply not_true_iff_false. rewrite K, <- SI. lia.
        + exists false. split; [reflexivity|]. symmetry. apply not_true_iff_false. rewrite K, <- SI. lia. }
    destruct Same as (b & Eb & Hb). rewrite Eb. cbn [bind].
    assert (Nx : nth i sorted 0 = p) by (apply nth_error_nth with (d := 0) in Ep; exact Ep).
    assert (Step : exists q' qlen', (if b then (named i, q, qlen) else (S (named i), Z.of_nat p, Z.of_nat (plen p))) = (nm i, q', qlen') /\ classAt (S i) q' qlen').
    { destruct i as [|i'].
      - subst b. exists (Z.of_nat p), (Z.of_nat (plen p)). split; [reflexivity|]. exists 0, p. rewrite Nx. auto.
      - cbn [nm named]. rewrite Nx, <- Hb. destruct b.
        + exists q, qlen. split; [reflexivity|]. destruct HC as (b & r & Hb1 & Er & Ec & -> & ->). exists b, r. rewrite Nx.
          symmetry in Hb. apply eqk_spec in Hb. repeat split; auto; congruence.
        + exists (Z.of_nat p), (Z.of_nat (plen p)). split; [reflexivity|]. exists (S i'), p. rewrite Nx. auto. }
    destruct Step as (q' & qlen' & Es & HC'). rewrite Es. rewrite set_ok by lia. cbn [bind].
    change (nm i) with (named (S i)). apply IH; [lia|exact HC'|].
    assert (BA : forall a x, nth_error sorted a = Some x -> a < m) by (intros a x Ha; rewrite <- sorted_length; apply nth_error_bound in Ha; exact Ha).
    repeat split.
    + rewrite upd_length. exact I1.
    + intros r Hr. rewrite nth_error_upd_other by lia. apply I2, Hr.
    + intros a x Ha. specialize (BA _ _ Ha). rewrite nth_error_upd_other by lia. apply I3, Ha.
    + intros a x Ha. destruct (Nat.eq_dec a i) as [D|D].
      * subst a. replace x with p in * by congruence. rewrite nth_error_upd_same by lia. replace (i <? S i) with true by lia. reflexivity.
      * assert (x <> p).
        { intros ->. destruct (Nat.lt_ge_cases a i) as [L|L].
          - pose proof (sorted_less a i p p L Ha Ep) as G. unfold lessS, lt2 in G. rewrite lexltb_irrefl in G. discriminate.
          - pose proof (sorted_less i a p p ltac:(lia) Ep Ha) as G. unfold lessS, lt2 in G. rewrite lexltb_irrefl in G. discriminate. }
        pose proof (lms_apart T x p (sorted_lms _ _ Ha) Lp) as AP.
        rewrite nth_error_upd_other by lia. rewrite (I4 _ _ Ha). replace (a <? S i) with (a <? i) by lia. reflexivity.
    + intros r Hr Hno. rewrite nth_error_upd_other by (specialize (Hno p Lp); lia). apply I5; auto.
Qed.

(** What the first stage leaves for the second. *)
Definition stage1At (SA0 : list Z) (name : nat) (SA : list Z) : Prop :=
  name = nm (m - 1) /\ length SA = length SA0 /\
  (forall r, n <= r -> nth_error SA r = nth_error SA0 r) /\
  (name < m -> forall a p, nth_error sorted a = Some p -> nth_error SA (m + p / 2) = Some (Z.of_nat (nm a))) /\
  (name < m -> forall r, m <= r < n -> (forall p, lms T p = true -> r <> m + p / 2) -> nth_error SA r = Some 0%Z) /\
  (name = m -> forall a p, nth_error sorted a = Some p -> nth_error SA a = Some (Z.of_nat p)).

Lemma m_pos : 0 < m.
Proof. apply (cnt_pos n _ p0); [apply lms_lt in L0; fold n in L0; lia|exact L0]. Qed.

Theorem postproc1_ok : forall SA, n <= length SA ->
  (forall q, lms T q = true -> nth_error SA (row q) = Some (inv (Z.of_nat q))) ->
  (forall r, r < n -> (forall q, lms T q = true -> row q <> r) -> nth_error SA r = Some 0%Z) ->
  exists SA' name, LMSpostproc1 T m SA = Ok (SA', name) /\ stage1At SA name SA'.
Proof.
  intros SA HL HV HZ. pose proof m_pos as Hm. pose proof (half_m T) as H2. fold n in H2. fold m in H2.
  destruct (compact2_ok T row Rinj Rlt (fun q => Z.of_nat q)) with (SA := SA) as (SA1 & i & name1 & SA2 & nm2 & E1 & E2 & I); auto; [lia|].
  fold n in E1, E2, I. fold m in E2.
  unfold LMSpostproc1. fold n. unfold compact. unfold check. replace (0 <? n) with true by lia. cbn [bind].
  rewrite (compactHead_2 _ _ _ _ _ _ _ _ E1). cbn [bind].
  assert (E2' : (if i <? m then compactTail n m (S n) (S i) i SA1 else Ok SA1) = Ok SA2).
  { destruct (i <? m); [eapply compactTail_2, E2|congruence]. }
  rewrite E2'. cbn [bind]. rewrite lmsScan_ok by (fold n; lia). fold n.
  destruct I as [C1 C2 C3 C4 _ _].
  assert (CL : length (coll T row n) = m) by exact sorted_length.
  destruct (lens_fold SA2 ltac:(lia) n SA2 (n - 1)) as (SA3 & j & E3 & (K1 & K2 & K3 & _)); [lia| |].
  { repeat split; auto.
    - intros p Hp Hn. apply lms_lt in Hp. fold n in Hp. lia.
    - apply lms_lt in H. fold n in H. lia.
    - apply lms_lt in H. fold n in H. lia.
    - apply lms_lt in H. fold n in H. lia. }
  rewrite E3. cbn [bind].
  destruct (name_loop SA ltac:(lia) m 0 (Z.of_nat n) 0%Z SA3) as (SA4 & E4 & (M1 & M2 & M3 & M4 & M5)).
  - lia.
  - split; reflexivity.
  - assert (BA : forall a x, nth_error sorted a = Some x -> a < m) by (intros a x Ha; rewrite <- sorted_length; apply nth_error_bound in Ha; exact Ha).
    split; [congruence|]. split; [|split; [|split]].
    + intros r Hr. rewrite K3, C2 by (auto; intros p Hp _; pose proof (slot_bound T p Hp) as SB; fold n in SB; fold m in SB; lia). reflexivity.
    + intros a p Ha. specialize (BA _ _ Ha). rewrite K3 by (intros; lia). apply C3, Ha.
    + intros a p Ha. rewrite K2 by (eauto using sorted_lms; lia). reflexivity.
    + intros r Hr Hno. rewrite K3 by (intros p Hp _; apply Hno, Hp). apply C4. lia.
  - change 0 with (named 0) at 2. exists SA4, (named m). split; [exact E4|].
    assert (Nm : named m = nm (m - 1)) by (destruct m as [|m']; [lia|]; cbn [named]; f_equal; lia).
    split; [exact Nm|]. split; [exact M1|]. split; [exact M2|]. split; [|split]; auto.
    intros _ a p Ha. rewrite (M4 _ _ Ha). replace (a <? m) with true; [reflexivity|].
    apply nth_error_bound in Ha. rewrite sorted_length in Ha. lia.
Qed.
End Names.

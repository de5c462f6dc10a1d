(** LMSsort2: the same places as LMSsort1, and marks on the last substrings of the groups. *)
From Coq Require Import List NArith ZArith Arith Bool Lia.
From Coq Require Import ZifyBool ZifyNat ZifyN.
From Verif Require Import Base Arrays ModelSais ProofSais1 ProofSais2 ProofSais3 ProofSais7 ProofSais8 ProofSais9 ProofSais11 ProofSais12 ProofSais15.
Import ListNotations.
Open Scope nat_scope.

Section Sort2.
Variable T : list N.
Let n := length T.
Variable k : nat.
Hypothesis HT : charsBelow T k.
Variable p0 : nat.
Hypothesis L0 : lms T p0 = true.
Hypothesis F0 : forall q, lms T q = true -> p0 <= q.

Let PL := PL T p0.
Let QM := QM T p0.
Let QS := QS T p0.
Let lessL := lessL T k.
Let lessS := lessS T k.
Let rowL := row T lessL PL QM.
Let rowS := row T lessS PL QS.
Let k1 := key1 T (ctag k).
Let k2 := key2 T (ctag k).
Let ct := ctag_tag T k HT.

(** The lemmas of the section of LMSsort1. *)
Let xHp0 : 0 < p0 /\ S p0 < n /\ styp T p0 = true.
Proof. eapply Hp0; eauto. Qed.
Let xtag : forall a b, a < n -> b < n -> (ch T b < fine k a)%N.
Proof. eapply fine_tag; eauto. Qed.
Let xinj : forall a b, a < n -> b < n -> fine k a = fine k b -> a = b.
Proof. eapply fine_inj; eauto. Qed.
Let xOL : ordered T lessL PL QM.
Proof. eapply orderedL; eauto. Qed.
Let xOS : ordered T lessS PL QS.
Proof. eapply orderedS; eauto. Qed.
Let xPL : forall a, PL a = true -> p0 < a < n /\ styp T a = false.
Proof. eapply PL_lt; eauto. Qed.
Let xPLs : forall a, PL a = true <-> (ltyp T a = true /\ p0 < a).
Proof. eapply PL_spec; eauto. Qed.
Let xQMs : forall a, QM a = true <-> (lms T a = true /\ p0 < a).
Proof. eapply QM_spec; eauto. Qed.
Let xQSs : forall a, QS a = true <-> (styp T a = true /\ p0 <= a).
Proof. eapply QS_spec; eauto. Qed.
Let xlQS : forall a, lms T a = true -> QS a = true.
Proof. eapply lms_QS; eauto. Qed.
Let xPLn : forall a, PL a = true -> S a = n \/ PL (S a) || QM (S a) = true.
Proof. eapply PL_next; eauto. Qed.
Let xPLst : forall a b, PL a = true -> PL b = true -> ch T a = ch T b -> S a < n -> S b < n -> lessL a b = lessL (S a) (S b).
Proof. eapply PL_step; eauto. Qed.
Let xPLe : PL (n - 1) = true.
Proof. eapply PL_end; eauto. Qed.
Let xQSn : forall a, QS a = true -> PL (S a) || QS (S a) = true.
Proof. eapply QS_next; eauto. Qed.
Let xQSst : forall a b, QS a = true -> QS b = true -> ch T a = ch T b -> lessS a b = lessS (S a) (S b).
Proof. eapply QS_step; eauto. Qed.
Let xrow : forall a, PL a = true -> rowS a = rowL a.
Proof. eapply row_LS; eauto. Qed.
Let xstart : startOf T (ch T (n - 1)) < n.
Proof. eapply start_room; eauto. Qed.
Let xgetz : forall a, a < n -> getz T (Z.of_nat a) = Ok (ch T a).
Proof. eapply getz_nat; eauto. Qed.
Let xpred : forall q, 0 < q -> q < n -> getz T (Z.of_nat q - 1) = Ok (ch T (q - 1)).
Proof. eapply getz_pred; eauto. Qed.
Let xupL : forall q, PL q || QM q = true ->
  p0 < q < n /\ upTarget PL q = (if (ch T (q - 1) <? ch T q)%N then None else Some (q - 1)).
Proof. eapply upL; eauto. Qed.
Let xdownL : forall q, PL q = true -> downTarget QS q = (if (ch T (q - 1) <? ch T q)%N then Some (q - 1) else None).
Proof. eapply downL; eauto. Qed.
Let xlms : forall q, QS q = true -> lms T q = (ch T q <? ch T (q - 1))%N.
Proof. eapply lms_iff; eauto. Qed.
Let xdownS : forall q, QS q = true ->
  downTarget QS q = (if (ch T q <? ch T (q - 1))%N then None else Some (q - 1)) /\ 0 < q < n.
Proof. eapply downS; eauto. Qed.
Let xabove : forall q a, PL q || QM q = true -> upTarget PL q = Some a -> PL a = true /\ q = S a /\ rowL q < rowL a.
Proof. eapply up_above; eauto. Qed.
Let xbelow : forall q a, PL q || QS q = true -> downTarget QS q = Some a -> QS a = true /\ q = S a /\ rowS a < rowS q.
Proof. eapply down_below; eauto. Qed.

Definition keq (a b : list N) : bool := if list_eq_dec N.eq_dec a b then true else false.
Lemma keq_spec : forall a b, keq a b = true <-> a = b.
Proof. intros a b. unfold keq. destruct (list_eq_dec N.eq_dec a b); split; congruence. Qed.

Definition elem (q : nat) : bool := PL q || QM q.
Definition elemS (q : nat) : bool := PL q || QS q.
(** The character before is smaller: nothing is placed in the first scan. *)
Definition bitL (q : nat) : bool := (ch T (q - 1) <? ch T q)%N.
Definition bitS (q : nat) : bool := (ch T q <? ch T (q - 1))%N.
Definition act (q : nat) : bool := match downTarget QS q with Some _ => true | None => false end.

(** The first of the elements with the same key and bit. *)
Definition markL (q : nat) : bool :=
  negb (existsb (fun b => elem b && (rowL b <? rowL q) && Bool.eqb (bitL b) (bitL q) && keq (k1 b) (k1 q)) (seq 0 n)).
(** The last of the elements with the same key that are placed or not. *)
Definition markS (q : nat) : bool :=
  negb (existsb (fun b => elemS b && (rowS q <? rowS b) && Bool.eqb (act b) (act q) && keq (k2 b) (k2 q)) (seq 0 n)).

Lemma elem_lt : forall q, elem q = true -> p0 < q < n.
Proof. intros q H. destruct (xupL q H) as [B _]. exact B. Qed.
Lemma elemS_lt : forall q, elemS q = true -> q < n.
Proof. intros q H. unfold elemS in H. apply orb_prop in H. destruct H as [H|H]; [apply xPL in H; lia|apply xdownS in H; lia]. Qed.

Lemma markL_false : forall q, markL q = false <-> exists b, elem b = true /\ rowL b < rowL q /\ bitL b = bitL q /\ k1 b = k1 q.
Proof.
  intros q. unfold markL. rewrite negb_false_iff, existsb_exists. split.
  - intros (b & _ & H). apply andb_prop in H. destruct H as [H H4]. apply andb_prop in H. destruct H as [H H3].
    apply andb_prop in H. destruct H as [H1 H2]. apply keq_spec in H4. apply Bool.eqb_prop in H3. exists b. repeat split; auto; lia.
  - intros (b & H1 & H2 & H3 & H4). exists b. split; [apply in_seq; apply elem_lt in H1; lia|].
    apply keq_spec in H4. rewrite H1, H3, H4, Bool.eqb_reflx. replace (rowL b <? rowL q) with true by lia. reflexivity.
Qed.
Lemma markS_false : forall q, markS q = false <-> exists b, elemS b = true /\ rowS q < rowS b /\ act b = act q /\ k2 b = k2 q.
Proof.
  intros q. unfold markS. rewrite negb_false_iff, existsb_exists. split.
  - intros (b & _ & H). apply andb_prop in H. destruct H as [H H4]. apply andb_prop in H. destruct H as [H H3].
    apply andb_prop in H. destruct H as [H1 H2]. apply keq_spec in H4. apply Bool.eqb_prop in H3. exists b. repeat split; auto; lia.
  - intros (b & H1 & H2 & H3 & H4). exists b. split; [apply in_seq; apply elemS_lt in H1; lia|].
    apply keq_spec in H4. rewrite H1, H3, H4, Bool.eqb_reflx. replace (rowS q <? rowS b) with true by lia. reflexivity.
Qed.

(** Rows follow the keys. *)
Lemma monoL : forall a b, elem a = true -> elem b = true -> rowL a < rowL b -> k1 a = k1 b \/ lexltb (k1 a) (k1 b) = true.
Proof.
  intros a b Ha Hb H. destruct (list_eq_dec N.eq_dec (k1 a) (k1 b)) as [D|D]; [auto|]. right.
  destruct (lexltb_total _ _ D) as [X|X]; [exact X|]. exfalso. pose proof (elem_lt a Ha). pose proof (elem_lt b Hb).
  assert (Y : lessL b a = true).
  { apply (coarse1 T (fine k) (ctag k) xtag ct (fun _ _ => eq_refl) (n - b)); [reflexivity|unfold n in *; lia|unfold n in *; lia|exact X]. }
  pose proof (row_mono T lessL PL QM xOL b a Hb Ha Y). fold rowL in H2. lia.
Qed.
Lemma monoS : forall a b, elemS a = true -> elemS b = true -> rowS a < rowS b -> k2 a = k2 b \/ lexltb (k2 a) (k2 b) = true.
Proof.
  intros a b Ha Hb H. destruct (list_eq_dec N.eq_dec (k2 a) (k2 b)) as [D|D]; [auto|]. right.
  destruct (lexltb_total _ _ D) as [X|X]; [exact X|]. exfalso. pose proof (elemS_lt a Ha). pose proof (elemS_lt b Hb).
  assert (Y : lessS b a = true).
  { apply (coarse2 T (fine k) (ctag k) xtag ct (fun _ _ => eq_refl) (n - b)); [reflexivity|unfold n in *; lia|unfold n in *; lia|exact X]. }
  pose proof (row_mono T lessS PL QS xOS b a Hb Ha Y). fold rowS in H2. lia.
Qed.
Lemma betweenL : forall q x r, elem q = true -> elem x = true -> elem r = true -> rowL q < rowL x -> rowL x < rowL r -> k1 q = k1 r -> k1 x = k1 q.
Proof.
  intros q x r Hq Hx Hr A B E. destruct (monoL q x Hq Hx A) as [G|G]; [auto|].
  destruct (monoL x r Hx Hr B) as [G'|G']; [congruence|]. pose proof (lexltb_trans _ _ _ G G') as F. rewrite E, lexltb_irrefl in F. discriminate.
Qed.
Lemma betweenS : forall q x r, elemS q = true -> elemS x = true -> elemS r = true -> rowS q < rowS x -> rowS x < rowS r -> k2 q = k2 r -> k2 x = k2 r.
Proof.
  intros q x r Hq Hx Hr A B E. destruct (monoS x r Hx Hr B) as [G'|G']; [auto|].
  destruct (monoS q x Hq Hx A) as [G|G]; [congruence|]. pose proof (lexltb_trans _ _ _ G G') as F. rewrite E, lexltb_irrefl in F. discriminate.
Qed.
Lemma rowL_inj : forall q r, elem q = true -> elem r = true -> rowL q = rowL r -> q = r.
Proof. intros q r Hq Hr E. apply (row_inj T lessL PL QM xOL); assumption. Qed.
Lemma rowS_inj : forall q r, elemS q = true -> elemS r = true -> rowS q = rowS r -> q = r.
Proof. intros q r Hq Hr E. apply (row_inj T lessS PL QS xOS); assumption. Qed.
Lemma rowL_lt : forall q, elem q = true -> rowL q < n.
Proof. intros q Hq. apply row_lt; [exact xOL|exact Hq]. Qed.
Lemma rowS_lt : forall q, elemS q = true -> rowS q < n.
Proof. intros q Hq. apply row_lt; [exact xOS|exact Hq]. Qed.
Lemma rowL_less : forall a b, elem a = true -> elem b = true -> (rowL a < rowL b <-> lessL a b = true).
Proof. intros a b Ha Hb. rewrite <- (row_lt_iff T lessL PL QM xOL a b Ha Hb). rewrite Nat.ltb_lt. reflexivity. Qed.
Lemma rowS_less : forall a b, elemS a = true -> elemS b = true -> (rowS a < rowS b <-> lessS a b = true).
Proof. intros a b Ha Hb. rewrite <- (row_lt_iff T lessS PL QS xOS a b Ha Hb). rewrite Nat.ltb_lt. reflexivity. Qed.

Lemma elem_typ : forall q, elem q = true -> (PL q = true /\ styp T q = false) \/ (QM q = true /\ styp T q = true /\ bitL q = false).
Proof.
  intros q H. unfold elem in H. apply orb_prop in H. destruct H as [H|H]; [left; split; [exact H|apply xPL, H]|right].
  split; [exact H|]. apply xQMs in H. destruct H as [H _]. apply lms_lt in H. split; [tauto|]. unfold bitL. lia.
Qed.

(** ** First scan *)
Definition actL (q : nat) : bool := elem q && negb (bitL q).
Definition slotL (a : nat) : nat := N.to_nat (2 * ch T a + (if bitL a then 1 else 0))%N.
Let dvL := dv n actL rowL markL 0.
Let JDL := JD n (2 * k) actL rowL markL slotL 0.

Lemma actL_spec : forall q, actL q = true <-> elem q = true /\ bitL q = false.
Proof. intros q. unfold actL. rewrite andb_true_iff, negb_true_iff. tauto. Qed.
Lemma mL_A : forall q, actL q = true -> q < n.
Proof. intros q H. apply actL_spec in H. destruct H as [H _]. apply elem_lt in H. lia. Qed.
Lemma mL_tm : forall q r, actL q = true -> actL r = true -> rowL q = rowL r -> q = r.
Proof. intros q r Hq Hr. apply actL_spec in Hq, Hr. apply rowL_inj; tauto. Qed.
Lemma mL_t : forall q, actL q = true -> markL q = true -> forall b, actL b = true -> rowL b < rowL q -> k1 b <> k1 q.
Proof.
  intros q Hq M b Hb L E. apply actL_spec in Hq, Hb. assert (markL q = false); [|congruence].
  apply markL_false. exists b. destruct Hq, Hb. repeat split; auto; congruence.
Qed.
Lemma mL_f : forall q, actL q = true -> markL q = false -> exists b, actL b = true /\ rowL b < rowL q /\ k1 b = k1 q.
Proof.
  intros q Hq M. apply actL_spec in Hq. apply markL_false in M. destruct M as (b & B1 & B2 & B3 & B4). exists b.
  split; [apply actL_spec; split; [exact B1|destruct Hq; congruence]|auto].
Qed.
Lemma mL_K : forall q x r, actL q = true -> actL x = true -> actL r = true -> rowL q < rowL x -> rowL x < rowL r -> k1 q = k1 r -> k1 x = k1 q.
Proof. intros q x r Hq Hx Hr. apply actL_spec in Hq, Hx, Hr. apply betweenL; tauto. Qed.

Lemma dvL_skip : forall i, (forall q, actL q = true -> rowL q <> i) -> dvL (S i) = dvL i.
Proof. exact (dv_skip n actL rowL k1 markL slotL 0 mL_A mL_tm mL_t mL_f mL_K). Qed.
Lemma dvL_step : forall q, actL q = true -> dvL (S (rowL q)) = dvL (rowL q) + (if markL q then 1 else 0).
Proof. exact (dv_step n actL rowL k1 markL slotL 0 mL_A mL_tm mL_t mL_f mL_K). Qed.
Lemma JDL_skip : forall i D, (forall q, actL q = true -> rowL q <> i) -> JDL i D -> JDL (S i) D.
Proof. exact (JD_skip n (2 * k) actL rowL k1 markL slotL 0 mL_A mL_tm mL_t mL_f mL_K). Qed.

Lemma slotL_lt : forall a, a < n -> slotL a < 2 * k.
Proof. intros a H. pose proof (HT a H). unfold slotL. destruct (bitL a); lia. Qed.
Lemma slotL_eq : forall a b, slotL a = slotL b <-> ch T a = ch T b /\ bitL a = bitL b.
Proof.
  intros a b. unfold slotL. split.
  - intros E. apply N2Nat.inj in E. destruct (bitL a), (bitL b); split; try reflexivity; lia.
  - intros [-> ->]. reflexivity.
Qed.

Lemma PL_bit : forall a, PL a = true -> S a < n -> actL (S a) = true.
Proof.
  intros a H L. apply actL_spec. destruct (xPLn a H) as [F|F]; [lia|]. split; [exact F|]. unfold bitL. replace (S a - 1) with a by lia.
  apply xPL in H. destruct H as [_ S]. pose proof (ltyp_le T a ltac:(unfold n in *; lia) S). lia.
Qed.
Lemma actL_PL : forall a, actL (S a) = true -> PL a = true /\ S a < n.
Proof.
  intros a H. apply actL_spec in H. destruct H as [H B]. destruct (xupL (S a) H) as [B1 U].
  replace (ch T (S a - 1) <? ch T (S a))%N with false in U by (symmetry; exact B). destruct (xabove (S a) (S a - 1) H U) as (P & _).
  replace (S a - 1) with a in P by lia. split; [exact P|lia].
Qed.
Lemma k1_L : forall a, PL a = true -> k1 a = ch T a :: k1 (S a).
Proof. intros a H. apply xPL in H. apply key1_L; [unfold n in *; lia|tauto]. Qed.

Lemma markL_up : forall a, PL a = true -> S a < n ->
  (markL a = false <-> exists b, actL (S b) = true /\ rowL (S b) < rowL (S a) /\ slotL b = slotL a /\ k1 (S b) = k1 (S a)).
Proof.
  intros a Ha La. pose proof (PL_bit a Ha La) as Aa. pose proof Aa as Aa'. apply actL_spec in Aa'. rewrite markL_false. split.
  - intros (b & Eb & Rb & Bb & Kb). destruct (elem_typ b Eb) as [[Pb _]|(_ & Sb & _)].
    + rewrite (k1_L a Ha), (k1_L b Pb) in Kb. injection Kb as Cb Kb.
      assert (Lb : S b < n).
      { destruct (xPLn b Pb) as [F|F]; [|apply elem_lt in F; lia]. exfalso. unfold k1 in Kb. rewrite key1_end in Kb by (unfold n in *; lia).
        destruct (key1_head T (ctag k) (S a)) as [r Er]; [exact La|congruence]. }
      pose proof (PL_bit b Pb Lb) as Ab. pose proof Ab as Ab'. apply actL_spec in Ab'.
      exists b. split; [exact Ab|]. split; [|split; [apply slotL_eq; auto|exact Kb]].
      apply rowL_less; [tauto|tauto|]. rewrite <- xPLst by auto. apply rowL_less; auto. unfold elem. rewrite Ha. reflexivity.
    + exfalso. assert (S0 : styp T a = false) by (apply xPL in Ha; tauto). symmetry in Kb. revert Kb. apply (key1_LS_neq T (ctag k) ct); auto. unfold n in *; lia.
  - intros (b & Ab & Rb & Sb & Kb). destruct (actL_PL b Ab) as [Pb Lb]. apply actL_spec in Ab. apply slotL_eq in Sb. destruct Sb as [Cb Bb].
    exists b. assert (Eb : elem b = true) by (unfold elem; rewrite Pb; reflexivity). split; [exact Eb|]. split; [|split; [exact Bb|]].
    + apply rowL_less; auto; [unfold elem; rewrite Ha; reflexivity|]. rewrite xPLst by auto. apply rowL_less; [tauto|tauto|exact Rb].
    + rewrite (k1_L a Ha), (k1_L b Pb). congruence.
Qed.
Lemma markL_last : markL (n - 1) = true.
Proof.
  destruct (markL (n - 1)) eqn:E; [reflexivity|]. exfalso. apply markL_false in E. destruct E as (b & Eb & Rb & _ & Kb).
  pose proof (k1_L (n - 1) xPLe) as K1. rewrite K1 in Kb. unfold k1 at 2 in Kb. rewrite key1_end in Kb by (unfold n in *; lia).
  destruct (elem_typ b Eb) as [[Pb _]|(_ & Sb & _)].
  - rewrite (k1_L b Pb) in Kb. injection Kb as _ Kb. destruct (le_lt_dec n (S b)) as [G|G].
    + apply xPL in Pb. replace b with (n - 1) in Rb by lia. lia.
    + destruct (key1_head T (ctag k) (S b) G) as [r Er]. unfold k1 in Kb. congruence.
  - unfold k1 in Kb. rewrite key1_S in Kb by exact Sb. discriminate.
Qed.

Definition valL2 (q : nat) : Z := if bitL q then inv (marked n markL q) else marked n markL q.
Definition postL2 (q : nat) : Z := if bitL q then marked n markL q else 0%Z.
Definition JL (i : nat) (x : marks) : Prop := exists D, x = (dvL i, D) /\ JDL i D.

Lemma marked_pos : forall f q, 2 <= q -> (0 < marked n f q)%Z.
Proof. intros f q H. unfold marked. destruct (f q); lia. Qed.

Lemma unmark_ok : forall f q d D, 2 <= q < n -> unmark n (marked n f q) (d, D) = ((Z.of_nat q - 1)%Z, (d + (if f q then 1 else 0), D)).
Proof.
  intros f q d D H. unfold unmark, marked. destruct (f q).
  - replace (Z.of_nat n <=? Z.of_nat q - 1 + Z.of_nat n)%Z with true by lia. f_equal; try lia.
  - replace (Z.of_nat n <=? Z.of_nat q - 1 + 0)%Z with false by lia. f_equal; [lia|]. f_equal; lia.
Qed.

Lemma upVisit : forall i q x, i < n -> elem q = true -> rowL q = i -> JL i x ->
  exists x1, visitL2 T i (valL2 q) x = Ok (postL2 q, x1, upTarget PL q) /\
    match upTarget PL q with
    | Some a => exists x2, storeL2 T i a (rowL a) x1 = Ok (valL2 a, x2) /\ JL (S i) x2
    | None => JL (S i) x1
    end.
Proof.
  intros i q x Hi Hq Ei (D & -> & HD). pose proof xHp0 as B0. destruct (xupL q Hq) as [B U]. rewrite U. unfold valL2, postL2. fold (bitL q).
  destruct (bitL q) eqn:Bq.
  - assert (No : forall r, actL r = true -> rowL r <> i).
    { intros r Hr Er. apply actL_spec in Hr. assert (r = q) by (apply rowL_inj; [tauto|exact Hq|congruence]). destruct Hr; congruence. }
    exists (dvL i, D). pose proof (marked_pos markL q ltac:(lia)) as P. split.
    + unfold visitL2. replace (0 <? inv (marked n markL q))%Z with false by (unfold inv; lia).
      replace (inv (marked n markL q) <? 0)%Z with true by (unfold inv; lia). do 3 f_equal. unfold inv; lia.
    + exists D. split; [f_equal; symmetry; apply dvL_skip; exact No|apply JDL_skip; auto].
  - assert (Aq : actL q = true) by (apply actL_spec; auto).
    pose proof (marked_pos markL q ltac:(lia)) as P.
    destruct (xabove q (q - 1) Hq) as (PA & Qa & RA).
    { rewrite U. unfold bitL in Bq. rewrite Bq. reflexivity. }
    exists (dvL (S i), D). split.
    + unfold visitL2. replace (0 <? marked n markL q)%Z with true by lia. fold n. rewrite unmark_ok by lia.
      rewrite xpred by lia. replace (Z.of_nat q - 1 + 1)%Z with (Z.of_nat q) by lia. rewrite xgetz by lia. cbn [bind].
      unfold check. unfold bitL in Bq. replace (ch T q <=? ch T (q - 1))%N with true by lia. cbn [bind].
      replace (Z.to_nat (Z.of_nat q - 1)) with (q - 1) by lia. do 4 f_equal. rewrite <- Ei. symmetry.
      apply dvL_step; exact Aq.
    + set (a := q - 1) in *. pose proof (xPL a PA) as Ba.
      assert (Aa : actL (S a) = true) by (rewrite <- Qa; exact Aq).
      assert (Ra : rowL (S a) = i) by (rewrite <- Qa; exact Ei).
      destruct (JD_step n (2 * k) actL rowL k1 markL slotL 0 mL_A mL_tm mL_t mL_f mL_K i D a HD Aa Ra (slotL_lt a ltac:(lia))) as (v & Ev & Lv & V1 & V2).
      unfold storeL2, check. rewrite <- Ei. replace (rowL q <? rowL a) with true by lia. cbn [bind].
      rewrite xpred by lia. cbn [bind]. rewrite (get_ch T a) by (unfold n in *; lia). cbn [bind]. fold (bitL a).
      unfold markFirst. fold (slotL a). rewrite Ei. rewrite Ev. cbn [bind].
      pose proof (markL_up a PA ltac:(lia)) as MU. rewrite Ra in MU.
      destruct (Nat.eqb_spec v (dvL (S i))) as [E|E].
      * destruct (V1 E) as [W1 W2]. apply MU in W1. eexists. split; [|exists D; split; [reflexivity|exact W2]].
        cbn [bind]. unfold valL2, marked. rewrite W1, Z.add_0_r. reflexivity.
      * destruct (V2 E) as [W1 W2]. rewrite set_ok by exact Lv. cbn [bind].
        assert (Ma : markL a = true).
        { destruct (markL a) eqn:F; [reflexivity|]. exfalso. assert (X : false = false) by reflexivity. apply MU in X. destruct X as (b & X1 & X2 & X3 & X4).
          exact (W1 b X1 X2 X3 X4). }
        eexists. split; [|eexists; split; [reflexivity|exact W2]].
        unfold valL2, marked. rewrite Ma. reflexivity.
Qed.
Lemma upEmpty : forall i x, i < n -> (forall q, elem q = true -> rowL q <> i) -> JL i x -> JL (S i) x.
Proof.
  intros i x Hi No (D & -> & HD). exists D.
  assert (No' : forall q, actL q = true -> rowL q <> i) by (intros q Hq; apply actL_spec in Hq; apply No; tauto).
  split; [f_equal; symmetry; apply dvL_skip; exact No'|apply JDL_skip; auto].
Qed.

(** ** Second scan *)
Definition actS (q : nat) : bool := elemS q && act q.
Definition slotS (a : nat) : nat := N.to_nat (2 * ch T a + (if bitS a then 1 else 0))%N.
Definition tmS (q : nat) : nat := n - 1 - rowS q.

Lemma actS_spec : forall q, actS q = true <-> elemS q = true /\ act q = true.
Proof. intros q. unfold actS. rewrite andb_true_iff. tauto. Qed.
Lemma act_target : forall q, elemS q = true -> act q = true -> downTarget QS q = Some (q - 1) /\ QS (q - 1) = true /\ q = S (q - 1).
Proof.
  intros q Hq Ha. unfold act in Ha. destruct (downTarget QS q) as [a|] eqn:E; [|discriminate].
  destruct (xbelow q a Hq E) as (A1 & A2 & _). subst q. replace (S a - 1) with a by lia. auto.
Qed.
Lemma mS_A : forall q, actS q = true -> q < n.
Proof. intros q H. apply actS_spec in H. destruct H as [H _]. apply elemS_lt, H. Qed.
Lemma tm_flip : forall q r, elemS q = true -> elemS r = true -> (tmS q < tmS r <-> rowS r < rowS q).
Proof. intros q r Hq Hr. pose proof (rowS_lt q Hq). pose proof (rowS_lt r Hr). unfold tmS. lia. Qed.
Lemma mS_tm : forall q r, actS q = true -> actS r = true -> tmS q = tmS r -> q = r.
Proof.
  intros q r Hq Hr E. apply actS_spec in Hq, Hr. destruct Hq as [Hq _], Hr as [Hr _]. pose proof (rowS_lt q Hq). pose proof (rowS_lt r Hr).
  apply rowS_inj; auto. unfold tmS in E. lia.
Qed.
Lemma mS_t : forall q, actS q = true -> markS q = true -> forall b, actS b = true -> tmS b < tmS q -> k2 b <> k2 q.
Proof.
  intros q Hq M b Hb L E. apply actS_spec in Hq, Hb. destruct Hq as [Hq Aq], Hb as [Hb Ab]. assert (markS q = false); [|congruence].
  apply markS_false. exists b. apply tm_flip in L; auto. repeat split; auto; congruence.
Qed.
Lemma mS_f : forall q, actS q = true -> markS q = false -> exists b, actS b = true /\ tmS b < tmS q /\ k2 b = k2 q.
Proof.
  intros q Hq M. apply actS_spec in Hq. apply markS_false in M. destruct M as (b & B1 & B2 & B3 & B4). exists b. destruct Hq as [Hq Aq].
  split; [apply actS_spec; split; [exact B1|congruence]|]. split; [apply tm_flip; auto|exact B4].
Qed.
Lemma mS_K : forall q x r, actS q = true -> actS x = true -> actS r = true -> tmS q < tmS x -> tmS x < tmS r -> k2 q = k2 r -> k2 x = k2 q.
Proof.
  intros q x r Hq Hx Hr A B E. apply actS_spec in Hq, Hx, Hr. destruct Hq as [Hq _], Hx as [Hx _], Hr as [Hr _].
  apply tm_flip in A; auto. apply tm_flip in B; auto. apply (betweenS r x q); auto.
Qed.
Lemma slotS_lt : forall a, a < n -> slotS a < 2 * k.
Proof. intros a H. pose proof (HT a H). unfold slotS. destruct (bitS a); lia. Qed.
Lemma slotS_eq : forall a b, slotS a = slotS b <-> ch T a = ch T b /\ bitS a = bitS b.
Proof.
  intros a b. unfold slotS. split.
  - intros E. apply N2Nat.inj in E. destruct (bitS a), (bitS b); split; try reflexivity; lia.
  - intros [-> ->]. reflexivity.
Qed.
Lemma QS_elemS : forall a, QS a = true -> elemS a = true.
Proof. intros a H. unfold elemS. rewrite H. apply orb_true_r. Qed.
Lemma QS_act : forall a, QS a = true -> actS (S a) = true.
Proof.
  intros a H. apply actS_spec. split; [apply xQSn, H|]. unfold act, downTarget. cbn [Nat.ltb Nat.leb andb]. replace (S a - 1) with a by lia.
  rewrite H. reflexivity.
Qed.
Lemma QS_bit : forall a, QS a = true -> act a = negb (bitS a).
Proof. intros a H. unfold act, bitS. destruct (xdownS a H) as [U _]. rewrite U. destruct (ch T a <? ch T (a - 1))%N; reflexivity. Qed.
Lemma PL_act : forall a, PL a = true -> act a = bitL a.
Proof. intros a H. unfold act, bitL. rewrite (xdownL a H). destruct (ch T (a - 1) <? ch T a)%N; reflexivity. Qed.
Lemma k2_S : forall a, QS a = true -> k2 a = ch T a :: k2 (S a).
Proof. intros a H. apply xQSs in H. apply key2_S. tauto. Qed.

Lemma sameS : forall a b, QS a = true -> elemS b = true -> k2 b = k2 a -> QS b = true.
Proof.
  intros a b Ha Hb E. unfold elemS in Hb. apply orb_prop in Hb. destruct Hb as [Hb|Hb]; [|exact Hb]. exfalso.
  apply xPL in Hb. apply xQSs in Ha. revert E. apply (key2_LS_neq T (ctag k) ct); [unfold n in *; lia|tauto|tauto].
Qed.
Lemma sameL : forall a b, PL a = true -> elemS b = true -> k2 b = k2 a -> PL b = true.
Proof.
  intros a b Ha Hb E. unfold elemS in Hb. apply orb_prop in Hb. destruct Hb as [Hb|Hb]; [exact Hb|]. exfalso.
  apply xPL in Ha. apply xQSs in Hb. symmetry in E. revert E. apply (key2_LS_neq T (ctag k) ct); [unfold n in *; lia|tauto|tauto].
Qed.

Lemma markS_down : forall a, QS a = true ->
  (markS a = false <-> exists b, actS (S b) = true /\ tmS (S b) < tmS (S a) /\ slotS b = slotS a /\ k2 (S b) = k2 (S a)).
Proof.
  intros a Ha. pose proof (QS_act a Ha) as Aa. apply actS_spec in Aa. destruct Aa as [Ea Aa]. rewrite markS_false. split.
  - intros (b & Eb & Rb & Bb & Kb). pose proof (sameS a b Ha Eb Kb) as Qb.
    pose proof (QS_act b Qb) as Ab. pose proof Ab as Ab'. apply actS_spec in Ab'. destruct Ab' as [Eb' Ab'].
    rewrite (k2_S a Ha), (k2_S b Qb) in Kb. injection Kb as Cb Kb.
    exists b. split; [exact Ab|]. split; [|split; [|exact Kb]].
    + apply tm_flip; auto. apply rowS_less; auto. rewrite <- xQSst by auto. apply rowS_less; auto using QS_elemS.
    + apply slotS_eq. split; [exact Cb|]. rewrite (QS_bit a Ha), (QS_bit b Qb) in Bb. destruct (bitS a), (bitS b); cbn in Bb; congruence.
  - intros (b & Ab & Rb & Sb & Kb). apply actS_spec in Ab. destruct Ab as [Eb Ab]. destruct (act_target (S b) Eb Ab) as (_ & Qb & _).
    replace (S b - 1) with b in Qb by lia. apply slotS_eq in Sb. destruct Sb as [Cb Bb]. apply tm_flip in Rb; auto.
    exists b. split; [apply QS_elemS, Qb|]. split; [|split].
    + apply rowS_less; auto using QS_elemS. rewrite xQSst by auto. apply rowS_less; auto.
    + rewrite (QS_bit a Ha), (QS_bit b Qb). congruence.
    + rewrite (k2_S a Ha), (k2_S b Qb). congruence.
Qed.

Definition valS2 (q : nat) : Z :=
  if PL q then (if bitL q then marked n markS q else 0%Z)
  else if bitS q then inv (marked n markS q + 1) else marked n markS q.
Definition postS2 (q : nat) : Z := if act q then 0%Z else valS2 q.

Lemma QS_notPL : forall q, QS q = true -> PL q = false.
Proof. intros q H. apply xQSs in H. destruct (PL q) eqn:E; [|reflexivity]. apply xPL in E. destruct H, E; congruence. Qed.
Lemma valS2_act : forall q, elemS q = true -> act q = true -> valS2 q = marked n markS q.
Proof.
  intros q Hq Aq. unfold valS2. destruct (PL q) eqn:P.
  - rewrite (PL_act q P) in Aq. rewrite Aq. reflexivity.
  - unfold elemS in Hq. rewrite P in Hq. cbn [orb] in Hq. rewrite (QS_bit q Hq) in Aq. destruct (bitS q); [discriminate|reflexivity].
Qed.

Section Down.
Variable d0 : nat.
Let dvS := dv n actS tmS markS d0.
Let JDS := JD n (2 * k) actS tmS markS slotS d0.
Lemma dvS_skip : forall i, (forall q, actS q = true -> tmS q <> i) -> dvS (S i) = dvS i.
Proof. exact (dv_skip n actS tmS k2 markS slotS d0 mS_A mS_tm mS_t mS_f mS_K). Qed.
Lemma dvS_step : forall q, actS q = true -> dvS (S (tmS q)) = dvS (tmS q) + (if markS q then 1 else 0).
Proof. exact (dv_step n actS tmS k2 markS slotS d0 mS_A mS_tm mS_t mS_f mS_K). Qed.
Lemma JDS_skip : forall i D, (forall q, actS q = true -> tmS q <> i) -> JDS i D -> JDS (S i) D.
Proof. exact (JD_skip n (2 * k) actS tmS k2 markS slotS d0 mS_A mS_tm mS_t mS_f mS_K). Qed.

Definition JS (e : nat) (x : marks) : Prop := exists D, x = (dvS (n - e), D) /\ JDS (n - e) D.

Lemma downVisit : forall i q x, i < n -> elemS q = true -> rowS q = i -> JS (S i) x ->
  exists x1, visitS2 T i (valS2 q) x = Ok (postS2 q, x1, downTarget QS q) /\
    match downTarget QS q with
    | Some a => exists x2, storeS2 T i a (rowS a) x1 = Ok (valS2 a, x2) /\ JS i x2
    | None => JS i x1
    end.
Proof.
  intros i q x Hi Hq Ei (D & -> & HD). pose proof xHp0 as B0. pose proof (elemS_lt q Hq) as Bq.
  assert (Ti : tmS q = n - S i) by (unfold tmS; lia). assert (Si : n - i = S (n - S i)) by lia.
  destruct (act q) eqn:Aq.
  - assert (AA : actS q = true) by (apply actS_spec; auto).
    destruct (act_target q Hq Aq) as (U & Qa & Eq). destruct (xbelow q (q - 1) Hq U) as (_ & _ & RA).
    rewrite U. unfold postS2. rewrite Aq, (valS2_act q Hq Aq).
    assert (P1 : p0 <= q - 1) by (apply xQSs in Qa; tauto).
    pose proof (marked_pos markS q ltac:(lia)) as P.
    set (a := q - 1) in *. pose proof (xQSs a) as Sa. destruct (xdownS a Qa) as [_ Ba].
    assert (Cq : (ch T a <= ch T q)%N).
    { apply xQSs in Qa. destruct Qa as [Sa' _]. pose proof (styp_le T a Sa') as C. rewrite <- Eq in C. exact C. }
    exists (dvS (n - i), D). split.
    + unfold visitS2. replace (0 <? marked n markS q)%Z with true by lia. fold n. rewrite unmark_ok by lia.
      rewrite xpred by lia. fold a. replace (Z.of_nat q - 1 + 1)%Z with (Z.of_nat q) by lia. rewrite xgetz by lia. cbn [bind].
      unfold check. replace (ch T a <=? ch T q)%N with true by lia. cbn [bind].
      replace (Z.to_nat (Z.of_nat q - 1)) with a by lia. do 4 f_equal. rewrite Si, <- Ti. symmetry.
      apply dvS_step; exact AA.
    + assert (Aa : actS (S a) = true) by (rewrite <- Eq; exact AA).
      assert (Ra : tmS (S a) = n - S i) by (rewrite <- Eq; exact Ti).
      destruct (JD_step n (2 * k) actS tmS k2 markS slotS d0 mS_A mS_tm mS_t mS_f mS_K (n - S i) D a HD Aa Ra (slotS_lt a ltac:(lia))) as (v & Ev & Lv & V1 & V2).
      rewrite <- Si in V1, V2.
      unfold storeS2, check. replace (S (rowS a) <=? i) with true by lia. cbn [bind].
      rewrite xpred by lia. cbn [bind]. rewrite (get_ch T a) by (unfold n in *; lia). cbn [bind]. fold (bitS a).
      unfold markFirst. fold (slotS a). rewrite Ev. cbn [bind].
      pose proof (markS_down a Qa) as MU. rewrite Ra in MU.
      assert (Va : valS2 a = if bitS a then inv (marked n markS a + 1) else marked n markS a) by (unfold valS2; rewrite (QS_notPL a Qa); reflexivity).
      rewrite Va.
      destruct (Nat.eqb_spec v (dvS (n - i))) as [E|E].
      * destruct (V1 E) as [W1 W2]. apply MU in W1. eexists. split; [|exists D; split; [reflexivity|exact W2]].
        cbn [bind]. unfold marked. rewrite W1, Z.add_0_r. reflexivity.
      * destruct (V2 E) as [W1 W2]. rewrite set_ok by exact Lv. cbn [bind].
        assert (Ma : markS a = true).
        { destruct (markS a) eqn:F; [reflexivity|]. exfalso. assert (X : false = false) by reflexivity. apply MU in X. destruct X as (b & X1 & X2 & X3 & X4).
          exact (W1 b X1 X2 X3 X4). }
        eexists. split; [|eexists; split; [reflexivity|exact W2]].
        unfold marked. rewrite Ma. reflexivity.
  - assert (U : downTarget QS q = None) by (unfold act in Aq; destruct (downTarget QS q); congruence).
    rewrite U. exists (dvS (n - S i), D). unfold postS2. rewrite Aq. split.
    + unfold visitS2. replace (0 <? valS2 q)%Z with false; [reflexivity|]. symmetry. unfold valS2. destruct (PL q) eqn:P.
      * rewrite (PL_act q P) in Aq. rewrite Aq. reflexivity.
      * unfold elemS in Hq. rewrite P in Hq. cbn [orb] in Hq. rewrite (QS_bit q Hq) in Aq. destruct (bitS q); [|discriminate].
        unfold inv, marked. destruct (markS q); lia.
    + assert (No : forall r, actS r = true -> tmS r <> n - S i).
      { intros r Hr Er. apply actS_spec in Hr. destruct Hr as [Hr Ar]. pose proof (rowS_lt r Hr).
        assert (r = q) by (apply rowS_inj; auto; unfold tmS in *; lia). congruence. }
      exists D. rewrite Si. split; [f_equal; symmetry; apply dvS_skip; exact No|apply JDS_skip; auto].
Qed.
Lemma downEmpty : forall i x, i < n -> (forall q, elemS q = true -> rowS q <> i) -> JS (S i) x -> JS i x.
Proof.
  intros i x Hi No (D & -> & HD). exists D. assert (Si : n - i = S (n - S i)) by lia. rewrite Si.
  assert (No' : forall q, actS q = true -> tmS q <> n - S i).
  { intros q Hq Eq. apply actS_spec in Hq. destruct Hq as [Hq _]. pose proof (rowS_lt q Hq). apply (No q Hq). unfold tmS in Eq. lia. }
  split; [f_equal; symmetry; apply dvS_skip; exact No'|apply JDS_skip; auto].
Qed.
End Down.

(** The value of a sorted LMS substring: the last of its group is marked. *)
Definition flagged (q : nat) : Z := (Z.of_nat q + (if markS q then Z.of_nat n else 0))%Z.

Theorem LMSsort2_ok : forall SA C D, seedsAt T k p0 (marked n markL) SA -> countsOf T k C ->
  length D = 2 * k -> (forall t v, nth_error D t = Some v -> v = 0) ->
  exists SA', LMSsort2 T SA C D = Ok SA' /\ sortedAt T k p0 (fun q => inv (flagged q)) SA' /\
    length SA' = length SA /\ forall r, n <= r -> nth_error SA' r = nth_error SA r.
Proof.
  intros SA C D HS HC HD HD0. unfold LMSsort2. fold n. pose proof xHp0 as B0. pose proof xstart as SR.
  assert (Hk : 0 < k) by (pose proof (HT 0 ltac:(unfold n in *; lia)); lia).
  rewrite (get_ch T (n - 1)) by (unfold n in *; lia). cbn [bind].
  rewrite (get_ok _ _ _ (getBuckets_ok T k C false HC _ (HT (n - 1) ltac:(unfold n in *; lia)))). cbn [bind].
  replace (Z.of_nat n - 2)%Z with (Z.of_nat (n - 1) - 1)%Z by lia. rewrite xpred by lia. cbn [bind].
  rewrite set_ok by (destruct HS; lia). cbn [bind].
  assert (V0 : (if (ch T (n - 1 - 1) <? ch T (n - 1))%N then inv (Z.of_nat (n - 1) - 1 + Z.of_nat n) else Z.of_nat (n - 1) - 1 + Z.of_nat n)%Z = valL2 (n - 1)).
  { unfold valL2, marked. rewrite markL_last. reflexivity. }
  rewrite V0.
  destruct (pass1 T k HT p0 L0 F0 (visitL2 T) (storeL2 T) valL2 postL2 JL) with (SA := SA) (C := C) (x := (0, D))
    as (SA1 & x1 & E1 & D1 & Z1 & J1 & Len1 & Tail1); auto.
  - exact upVisit.
  - intros i x Hi NQ HJ. exists x. split; [reflexivity|]. apply upEmpty; auto.
  - destruct HS as (H1 & H2 & H3). repeat split; auto. intros q Hq. rewrite H2 by assumption. unfold valL2.
    destruct (elem_typ q) as [[Pq _]|(_ & _ & Bq)]; [unfold elem; fold QM in Hq; rewrite Hq; apply orb_true_r| |rewrite Bq; reflexivity].
    exfalso. apply xPL in Pq. fold QM in Hq. apply xQMs in Hq. destruct Hq as [Hq _]. apply lms_lt in Hq. destruct Pq; intuition congruence.
  - exists D. split.
    + f_equal. symmetry. exact (dv_zero n actL rowL k1 markL slotL 0 mL_A mL_tm mL_t mL_f mL_K).
    + apply (JD_start n (2 * k) actL rowL k1 markL slotL 0 mL_A mL_tm mL_t mL_f mL_K); [exact HD|].
      intros t v Hv. rewrite (HD0 t v Hv). lia.
  - fold n in E1, Z1, J1, Tail1. rewrite E1. cbn [bind]. destruct J1 as (D' & -> & J1).
    pose proof (JD_top n (2 * k) actL rowL k1 markL slotL 0 mL_A mL_tm mL_t mL_f mL_K n D' J1) as Top. fold dvL in Top.
    set (G := fun q => PL q && bitL q).
    assert (GS : forall q, G q = true -> PL q = true /\ bitL q = true /\ elem q = true /\ elemS q = true).
    { intros q Hq. unfold G in Hq. apply andb_prop in Hq. destruct Hq as [P B]. unfold elem, elemS. rewrite P. auto. }
    assert (KK : forall q, PL q = true -> k2 q = k1 q).
    { intros q Hq. apply key2_L. apply xPL in Hq. tauto. }
    destruct (moveMarks_ok n G rowL k1 markL markS) with (SA0 := SA1) as (SA2 & E2 & Len2 & Tail2 & D2 & Z2).
    + intros q Hq. apply GS in Hq. destruct Hq as (P & _ & E & _). split; [apply elem_lt in E; lia|apply rowL_lt, E].
    + intros q r Hq Hr. apply GS in Hq, Hr. apply rowL_inj; tauto.
    + intros q Hq M b Hb L E. apply GS in Hq, Hb. assert (markL q = false); [|congruence].
      apply markL_false. exists b. destruct Hq as (_ & Hq & _), Hb as (_ & Hb1 & Hb2 & _). repeat split; auto; congruence.
    + intros q Hq M. apply GS in Hq. destruct Hq as (_ & Bq & _). apply markL_false in M. destruct M as (b & M1 & M2 & M3 & M4).
      exists b. split; [|auto]. unfold G. destruct (elem_typ b M1) as [[Pb _]|(_ & _ & Bb)]; [rewrite Pb; cbn [andb]; congruence|congruence].
    + intros q Hq M b Hb L E. apply GS in Hq, Hb. assert (markS q = false); [|congruence].
      destruct Hq as (Pq & Bq & _ & Eq), Hb as (Pb & Bb & _ & Eb).
      apply markS_false. exists b. split; [exact Eb|]. split; [rewrite (xrow q Pq), (xrow b Pb); exact L|].
      split; [rewrite (PL_act q Pq), (PL_act b Pb); congruence|]. rewrite (KK q Pq), (KK b Pb). exact E.
    + intros q Hq M. apply GS in Hq. destruct Hq as (Pq & Bq & _). apply markS_false in M. destruct M as (b & M1 & M2 & M3 & M4).
      pose proof (sameL q b Pq M1 M4) as Pb. exists b. rewrite (PL_act q Pq), (PL_act b Pb) in M3. rewrite (KK q Pq), (KK b Pb) in M4.
      rewrite (xrow q Pq), (xrow b Pb) in M2. split; [unfold G; rewrite Pb; cbn [andb]; congruence|auto].
    + intros q x r Hq Hx Hr. apply GS in Hq, Hx, Hr. apply betweenL; tauto.
    + rewrite Len1. exact (proj1 HS).
    + intros q Hq. apply GS in Hq. destruct Hq as (Pq & Bq & Eq & _). etransitivity; [exact (D1 q Eq)|]. unfold postL2. rewrite Bq. reflexivity.
    + intros r Hr NR. destruct (row_dec T lessL PL QM xOL r) as [(q & Rq & Eq)|NQ]; [|apply Z1; auto].
      rewrite <- Eq. etransitivity; [exact (D1 q Rq)|]. unfold postL2. destruct (bitL q) eqn:Bq; [|reflexivity]. exfalso. apply (NR q); [|exact Eq].
      destruct (elem_typ q Rq) as [[Pb _]|(_ & _ & Bb)]; [unfold G; rewrite Pb, Bq; reflexivity|congruence].
    + rewrite E2. cbn [bind].
      rewrite (get_ok _ _ _ (getBuckets_ok T k C true HC 0%N ltac:(lia)) : get _ 0 = _). cbn [bind].
      set (d0 := dvL n + 1).
      destruct (pass2 T k HT p0 L0 F0 (visitS2 T) (storeS2 T) valS2 postS2 (JS d0))
        with (SA := SA2) (C := C) (x := (d0, D')) as (SA3 & x3 & E3 & D3 & Z3 & _ & Len3 & Tail3); auto.
      * apply downVisit.
      * intros i x Hi NQ HJ. exists x. split; [reflexivity|]. apply downEmpty; auto.
      * fold n. rewrite Len2, Len1. exact (proj1 HS).
      * intros q Hq. fold PL in Hq. unfold valS2. rewrite Hq. destruct (bitL q) eqn:Bq.
        -- apply D2. unfold G. rewrite Hq, Bq. reflexivity.
        -- assert (Eq : elem q = true) by (unfold elem; rewrite Hq; reflexivity).
           apply Z2; [apply rowL_lt, Eq|]. intros r Hr Er. apply GS in Hr. destruct Hr as (_ & Br & Er' & _).
           assert (r = q) by (apply rowL_inj; auto). congruence.
      * intros r Hr NR. apply Z2; [exact Hr|]. intros q Hq. apply GS in Hq. apply NR. tauto.
      * exists D'. fold n. rewrite Nat.sub_diag. split.
        -- f_equal. symmetry. exact (dv_zero n actS tmS k2 markS slotS d0 mS_A mS_tm mS_t mS_f mS_K).
        -- apply (JD_start n (2 * k) actS tmS k2 markS slotS d0 mS_A mS_tm mS_t mS_f mS_K); [apply J1|].
           intros t v Hv. apply Top in Hv. unfold d0. lia.
      * fold n in E3, Z3, Tail3. rewrite E3. cbn [bind]. exists SA3. split; [reflexivity|].
        assert (LS : forall q, lms T q = true -> elemS q = true /\ act q = false /\ valS2 q = inv (flagged q)).
        { intros q Hq. pose proof (xlQS q Hq) as Qq. split; [apply QS_elemS, Qq|]. pose proof (xlms q Qq) as Bq. rewrite Hq in Bq. fold (bitS q) in Bq.
          rewrite (QS_bit q Qq), <- Bq. split; [reflexivity|]. unfold valS2. rewrite (QS_notPL q Qq), <- Bq. unfold marked, flagged. f_equal. lia. }
        split.
        { split; [fold n; rewrite Len3, Len2, Len1; exact (proj1 HS)|]. split.
          - intros q Hq. apply LS in Hq. destruct Hq as (Eq & Aq & Vq). etransitivity; [exact (D3 q Eq)|]. unfold postS2. rewrite Aq, Vq. reflexivity.
          - intros r Hr NR. destruct (row_dec T lessS PL QS xOS r) as [(q & Rq & Eq)|NQ]; [|apply Z3; auto].
            rewrite <- Eq. etransitivity; [exact (D3 q Rq)|]. unfold postS2, valS2. destruct (act q) eqn:Aq; [reflexivity|].
            destruct (PL q) eqn:Pq.
            + rewrite (PL_act q Pq) in Aq. rewrite Aq. reflexivity.
            + exfalso. cbn [orb] in Rq. apply (NR q); [|exact Eq]. rewrite (xlms q Rq). fold (bitS q).
              rewrite (QS_bit q Rq) in Aq. destruct (bitS q); [reflexivity|discriminate]. }
        split; [congruence|]. intros r Hr. rewrite Tail3, Tail2, Tail1 by exact Hr. reflexivity.
Qed.
End Sort2.

(** The string of names: its suffixes are ordered like the LMS suffixes. *)
From Coq Require Import List NArith ZArith Arith Bool Lia.
From Coq Require Import ZifyBool ZifyNat ZifyN.
From Verif Require Import Base Arrays ModelSais ProofSais1 ProofSais2 ProofSais3 ProofSais7 ProofSais8 ProofSais9 ProofSais11 ProofSais12.
Import ListNotations.
Open Scope nat_scope.

Lemma cnt_same : forall f p q, p <= q -> (forall x, p <= x < q -> f x = false) -> cnt q f = cnt p f.
Proof.
  intros f p q H. induction q as [|q IH]; intros E.
  - replace p with 0 by lia. reflexivity.
  - destruct (Nat.eq_dec p (S q)) as [D|D]; [subst; reflexivity|].
    rewrite cnt_S, (E q) by lia. rewrite IH by (try lia; intros; apply E; lia). lia.
Qed.
Lemma cnt_grow : forall f p q, p <= q -> cnt p f <= cnt q f.
Proof. intros f p q H. induction H as [|q H IH]; [auto|]. rewrite cnt_S. lia. Qed.
Lemma cnt_less : forall f p q, p < q -> f p = true -> cnt p f < cnt q f.
Proof. intros f p q H E. pose proof (cnt_grow f (S p) q H) as G. rewrite cnt_S, E in G. lia. Qed.

Section Index.
Variable T : list N.
Let n := length T.
Let m := cnt n (lms T).
(** How many LMS positions there are before [p]. *)
Definition ix (p : nat) : nat := cnt p (lms T).
Lemma ix_lt : forall p, lms T p = true -> ix p < m.
Proof. intros p H. unfold ix, m. apply cnt_less; [|assumption]. apply lms_lt in H. fold n in H. lia. Qed.
Lemma ix_inj : forall p q, lms T p = true -> lms T q = true -> ix p = ix q -> p = q.
Proof.
  intros p q Hp Hq E. unfold ix in E. destruct (Nat.lt_trichotomy p q) as [G|[G|G]]; [|assumption|].
  - pose proof (cnt_less (lms T) p q G Hp). lia.
  - pose proof (cnt_less (lms T) q p G Hq). lia.
Qed.
Lemma ix_surj : forall r, r < m -> exists p, lms T p = true /\ ix p = r.
Proof.
  assert (G : forall e r, r < cnt e (lms T) -> exists p, lms T p = true /\ cnt p (lms T) = r).
  { clear. induction e as [|e IH]; intros r H; [rewrite cnt_0 in H; lia|].
    rewrite cnt_S in H. destruct (lms T e) eqn:E; [|apply IH; lia].
    destruct (Nat.eq_dec r (cnt e (lms T))) as [D|D]; [exists e; auto|apply IH; lia]. }
  intros r H. apply (G n), H.
Qed.

End Index.

Section Reduced.
Variable T : list N.
Let n := length T.
Variable k : nat.
Hypothesis HT : charsBelow T k.
Variable p0 : nat.
Hypothesis L0 : lms T p0 = true.
Hypothesis F0 : forall q, lms T q = true -> p0 <= q.
Variable row : nat -> nat.
Hypothesis Rinj : forall p q, lms T p = true -> lms T q = true -> row p = row q -> p = q.
Hypothesis Rlt : forall p, lms T p = true -> S (row p) < n.
Hypothesis Rord : forall p q, lms T p = true -> lms T q = true -> row p < row q -> lessS T k p q = true.
Let m := cnt n (lms T).
Let L := sorted T row.
Let ct := ctag_tag T k HT.
Let ix := ix T.
Let at_ (i : nat) := nth i L 0.
Let nm := nm T k row.
Let ck := ck T k.

Lemma L_length : length L = m.
Proof. apply (sorted_length T row); assumption. Qed.
Lemma L_at : forall i, i < m -> nth_error L i = Some (at_ i).
Proof. intros i H. apply nth_error_nth'. rewrite L_length. exact H. Qed.
Lemma at_lms : forall i, i < m -> lms T (at_ i) = true.
Proof. intros i H. apply (sorted_lms T row Rinj Rlt i). apply L_at, H. Qed.
Lemma at_ck : forall i j, i < j -> j < m -> ck (at_ i) = ck (at_ j) \/ lexltb (ck (at_ i)) (ck (at_ j)) = true.
Proof.
  intros i j H Hj. assert (Hi : nth_error L i = Some (at_ i)) by (apply L_at; lia).
  pose proof (L_at j Hj) as Hj'. revert Hi Hj'. revert H.
  apply (sorted_ck T k HT p0); assumption.
Qed.
Lemma at_surj : forall p, lms T p = true -> exists i, i < m /\ at_ i = p.
Proof.
  intros p H. assert (G : exists i, nth_error L i = Some p) by (eapply sorted_in; eauto). destruct G as [i Hi].
  assert (i < m) by (rewrite <- L_length; apply nth_error_bound in Hi; exact Hi). exists i. split; [assumption|].
  rewrite L_at in Hi by assumption. congruence.
Qed.

Lemma nm_S : forall i, nm (S i) = if eqk T k (at_ i) (at_ (S i)) then nm i else S (nm i).
Proof. reflexivity. Qed.
Lemma nm_low : forall i, 1 <= nm i <= S i.
Proof.
  induction i as [|i IH]; [unfold nm; cbn; lia|]. rewrite nm_S. destruct (eqk T k (at_ i) (at_ (S i))); lia.
Qed.
Lemma nm_mono : forall i j, i <= j -> nm i <= nm j <= nm i + (j - i).
Proof.
  intros i j H. induction H as [|j H IH]; [lia|]. rewrite nm_S. destruct (eqk T k (at_ j) (at_ (S j))); lia.
Qed.
Lemma nm_eq : forall i j, i <= j -> nm i = nm j -> ck (at_ i) = ck (at_ j).
Proof.
  intros i j H. induction H as [|j H IH]; intros E; [reflexivity|].
  pose proof (nm_mono i j H) as M. rewrite nm_S in E. destruct (eqk T k (at_ j) (at_ (S j))) eqn:X; [|lia].
  apply eqk_spec in X. fold ck in X. rewrite IH by assumption. exact X.
Qed.
Lemma ck_nm : forall i j, i <= j -> j < m -> ck (at_ i) = ck (at_ j) -> nm i = nm j.
Proof.
  intros i j H. induction H as [|j H IH]; intros Hj E; [reflexivity|].
  assert (Ej : ck (at_ i) = ck (at_ j)).
  { destruct (Nat.eq_dec i j) as [D|D]; [subst; reflexivity|].
    destruct (at_ck i j) as [A|A]; [lia|lia|assumption|].
    destruct (at_ck j (S j)) as [B|B]; [lia|lia|congruence|].
    pose proof (lexltb_trans _ _ _ A B) as Cc. rewrite E, lexltb_irrefl in Cc. discriminate. }
  rewrite IH by (auto; lia). rewrite nm_S. replace (eqk T k (at_ j) (at_ (S j))) with true; [reflexivity|].
  symmetry. apply eqk_spec. fold ck. congruence.
Qed.
Lemma nm_lt : forall i j, i < m -> j < m -> nm i < nm j -> lexltb (ck (at_ i)) (ck (at_ j)) = true.
Proof.
  intros i j Hi Hj H. assert (i < j) by (destruct (Nat.lt_ge_cases i j) as [G|G]; [assumption|pose proof (nm_mono j i G); lia]).
  destruct (at_ck i j) as [A|A]; auto. apply ck_nm in A; lia.
Qed.
Lemma nm_same : forall i j, i < m -> j < m -> nm i = nm j -> ck (at_ i) = ck (at_ j).
Proof.
  intros i j Hi Hj H. destruct (Nat.le_ge_cases i j) as [G|G]; [apply nm_eq; assumption|symmetry; apply nm_eq; auto].
Qed.

Lemma ck_slt : forall p q, p <= n -> q <= n -> lexltb (ck p) (ck q) = true -> slt T p q = true.
Proof. intros p q Hp Hq H. apply (key2_slt T (ctag k) ct (fun _ _ => eq_refl) (n - p)); auto. Qed.

(** All names differ: the LMS suffixes are sorted. *)
Lemma full_sorted : nm (m - 1) = m -> forall i j, i < j -> j < m -> slt T (at_ i) (at_ j) = true.
Proof.
  intros E i j H Hj.
  assert (G : forall x, x < m -> nm x = S x) by (intros x Hx; pose proof (nm_mono x (m - 1)); pose proof (nm_low x); lia).
  pose proof (at_lms i ltac:(lia)) as Li. pose proof (at_lms j Hj) as Lj. apply lms_lt in Li, Lj. fold n in Li, Lj.
  apply ck_slt; [lia|lia|]. apply nm_lt; [lia|lia|]. rewrite !G by lia. lia.
Qed.

Lemma ix_next : forall p, lms T p = true -> ix (stop2 T p) = S (ix p).
Proof.
  intros p H. destruct (stop2_lms T (ctag k) ct p H) as (B & _ & N). unfold ix, ProofSais13.ix.
  rewrite (cnt_same (lms T) (S p) (stop2 T p)) by (try lia; intros; apply N; lia). rewrite cnt_S, H. lia.
Qed.
Variable RA : list N.
Hypothesis RAlen : length RA = m.
Hypothesis RAat : forall i, i < m -> nth_error RA (ix (at_ i)) = Some (N.of_nat (nm i - 1)).

Lemma ch_RA : forall i, i < m -> ch RA (ix (at_ i)) = N.of_nat (nm i - 1).
Proof. intros i H. unfold ch. apply nth_error_nth. apply RAat, H. Qed.

Lemma RA_below : charsBelow RA (nm (m - 1)).
Proof.
  intros a Ha. rewrite RAlen in Ha. destruct (ix_surj T a Ha) as (p & Lp & <-). destruct (at_surj p Lp) as (i & Hi & <-).
  rewrite ch_RA by assumption. pose proof (nm_low i). pose proof (nm_mono i (m - 1)). lia.
Qed.

Theorem reduced_order : forall d p q, d = n - p -> lms T p = true \/ p = n -> lms T q = true \/ q = n ->
  slt RA (ix p) (ix q) = slt T p q.
Proof.
  induction d as [d IH] using lt_wf_ind. intros p q Hd Hp Hq.
  assert (En : ix n = m) by reflexivity.
  destruct Hq as [Hq|Hq].
  2:{ subst q. rewrite En. rewrite !slt_end_r by (fold n; lia). reflexivity. }
  pose proof (ix_lt T q Hq) as Iq. fold n in Iq. fold m in Iq. fold ix in Iq. pose proof (lms_lt T q Hq) as Bq. fold n in Bq.
  destruct Hp as [Hp|Hp].
  2:{ subst p. rewrite En. rewrite !slt_end by (fold n; lia). reflexivity. }
  pose proof (ix_lt T p Hp) as Ip. fold n in Ip. fold m in Ip. fold ix in Ip. pose proof (lms_lt T p Hp) as Bp. fold n in Bp.
  destruct (at_surj p Hp) as (i & Hi & Ei). destruct (at_surj q Hq) as (j & Hj & Ej).
  assert (Cp : ch RA (ix p) = N.of_nat (nm i - 1)) by (rewrite <- Ei; apply ch_RA, Hi).
  assert (Cq : ch RA (ix q) = N.of_nat (nm j - 1)) by (rewrite <- Ej; apply ch_RA, Hj).
  pose proof (nm_low i) as Li. pose proof (nm_low j) as Lj.
  destruct (Nat.lt_trichotomy (nm i) (nm j)) as [G|[G|G]].
  - rewrite slt_head by lia. symmetry. apply ck_slt; [lia|lia|]. rewrite <- Ei, <- Ej. apply nm_lt; assumption.
  - pose proof (nm_same i j Hi Hj G) as E. rewrite Ei, Ej in E.
    rewrite slt_step by (try congruence; lia).
    destruct (key2_eq T (ctag k) ct (n - p) p q eq_refl) as (e & E1 & E2 & _ & E3); try (fold n; lia); [exact E|].
    rewrite <- (ix_next p), <- (ix_next q) by assumption. rewrite E3, <- E1, <- E2.
    destruct (stop2_lms T (ctag k) ct p Hp) as (S1 & S2 & _). destruct (stop2_lms T (ctag k) ct q Hq) as (S3 & S4 & _).
    fold n in S1, S2, S3, S4.
    apply (IH (n - stop2 T p)); [lia|reflexivity| |].
    + destruct (Nat.eq_dec (stop2 T p) n) as [D|D]; [auto|left; apply S2; lia].
    + destruct (Nat.eq_dec (stop2 T q) n) as [D|D]; [auto|left; apply S4; lia].
  - assert (A : slt RA (ix q) (ix p) = true) by (apply slt_head; lia).
    assert (B : slt T q p = true) by (apply ck_slt; [lia|lia|]; rewrite <- Ei, <- Ej; apply nm_lt; assumption).
    apply slt_asym in A, B. congruence.
Qed.
End Reduced.

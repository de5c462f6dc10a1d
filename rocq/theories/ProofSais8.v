(** The LMS substrings as keys, and the orders in which stage 1 sorts the suffixes. *)
From Coq Require Import List NArith ZArith Arith Bool Lia.
From Coq Require Import ZifyBool ZifyNat ZifyN.
From Verif Require Import Base Arrays ModelSais ProofSais1 ProofSais2 ProofSais3.
Import ListNotations.
Open Scope nat_scope.

Section Keys.
Variable T : list N.
Let n := length T.

Section Tag.
(** [tag] stands after the first character of the LMS suffix that ends the key. *)
Variable tag : nat -> N.

Fixpoint key1d (d a : nat) : list N :=
  match d with
  | O => []
  | S d => if styp T a then [ch T a; tag a] else ch T a :: key1d d (S a)
  end.
(** The key of the first scan: to the end of the run of type L. *)
Definition key1 (a : nat) : list N := key1d (n - a) a.
Fixpoint key2d (d a : nat) : list N :=
  match d with
  | O => []
  | S d => if styp T a then ch T a :: key2d d (S a) else key1 a
  end.
(** The key of the second scan: from an LMS position to the next one. *)
Definition key2 (a : nat) : list N := key2d (n - a) a.

Lemma key1_end : forall a, n <= a -> key1 a = [].
Proof. intros a H. unfold key1. replace (n - a) with 0 by lia. reflexivity. Qed.
Lemma key1_S : forall a, styp T a = true -> key1 a = [ch T a; tag a].
Proof.
  intros a H. pose proof (styp_lt T a H). fold n in H0. unfold key1. replace (n - a) with (S (n - S a)) by lia.
  cbn [key1d]. rewrite H. reflexivity.
Qed.
Lemma key1_L : forall a, a < n -> styp T a = false -> key1 a = ch T a :: key1 (S a).
Proof.
  intros a H E. unfold key1 at 1. replace (n - a) with (S (n - S a)) by lia. cbn [key1d]. rewrite E. reflexivity.
Qed.
Lemma key2_end : forall a, n <= a -> key2 a = [].
Proof. intros a H. unfold key2. replace (n - a) with 0 by lia. reflexivity. Qed.
Lemma key2_S : forall a, styp T a = true -> key2 a = ch T a :: key2 (S a).
Proof.
  intros a H. pose proof (styp_lt T a H). fold n in H0. unfold key2 at 1. replace (n - a) with (S (n - S a)) by lia.
  cbn [key2d]. rewrite H. reflexivity.
Qed.
Lemma key2_L : forall a, styp T a = false -> key2 a = key1 a.
Proof.
  intros a H. destruct (le_lt_dec n a) as [L|L]; [rewrite key2_end, key1_end by assumption; reflexivity|].
  unfold key2. replace (n - a) with (S (n - S a)) by lia. cbn [key2d]. rewrite H. reflexivity.
Qed.

Lemma key1_head : forall a, a < n -> exists r, key1 a = ch T a :: r.
Proof.
  intros a H. destruct (styp T a) eqn:E; [rewrite key1_S by assumption|rewrite key1_L by assumption]; eexists; reflexivity.
Qed.
Lemma key2_head : forall a, a < n -> exists r, key2 a = ch T a :: r.
Proof.
  intros a H. destruct (styp T a) eqn:E; [rewrite key2_S by assumption; eexists; reflexivity|].
  rewrite key2_L by assumption. apply key1_head, H.
Qed.

Definition lt1 (a b : nat) : bool := lexltb (key1 a) (key1 b).
Definition lt2 (a b : nat) : bool := lexltb (key2 a) (key2 b).

Hypothesis Htag : forall a b, a < n -> b < n -> (ch T b < tag a)%N.

Lemma below_tag : forall a b, b < n -> lexltb (key1 a) [tag b] = true.
Proof.
  intros a b H. destruct (le_lt_dec n a) as [L|L].
  - rewrite key1_end by assumption. reflexivity.
  - destruct (key1_head a L) as [r E]. rewrite E. apply lexltb_head. apply Htag; assumption.
Qed.

Lemma lt1_LS : forall a b, ltyp T a = true -> styp T b = true -> ch T a = ch T b -> lt1 a b = true.
Proof.
  intros a b Ha Hb E. apply ltyp_spec in Ha. destruct Ha as [Ha La]. fold n in Ha. unfold lt1.
  rewrite (key1_L a), (key1_S b), E, lexltb_cons by assumption. apply below_tag.
  apply styp_lt in Hb. unfold n. lia.
Qed.

Lemma lt2_LS : forall d a b, d = n - a -> ltyp T a = true -> styp T b = true -> ch T a = ch T b -> lt2 a b = true.
Proof.
  induction d as [|d IH]; intros a b Hd Ha Hb E; pose proof Ha as Ha'; apply ltyp_spec in Ha'; destruct Ha' as [La Sa]; fold n in La; [lia|].
  pose proof (styp_lt T b Hb) as Lb. fold n in Lb. pose proof (styp_le T b Hb) as Cb.
  unfold lt2. rewrite (key2_L a), (key1_L a), (key2_S b), E, lexltb_cons by assumption.
  destruct (le_lt_dec n (S a)) as [L|L].
  - rewrite key1_end by assumption. destruct (key2_head (S b) Lb) as [r Er]. rewrite Er. reflexivity.
  - pose proof (ltyp_le T a L Sa) as Ca.
    destruct (N.eq_dec (ch T (S a)) (ch T (S b))) as [G|G].
    + assert (Sa' : styp T (S a) = false) by (rewrite (styp_eq T a); [assumption|unfold n in *; lia|lia]).
      assert (Sb' : styp T (S b) = true) by (rewrite (styp_eq T b); [assumption|unfold n in *; lia|lia]).
      rewrite <- (key2_L (S a)) by assumption. apply IH; auto; [lia|]. apply ltyp_spec. auto.
    + destruct (key1_head (S a) L) as [r Er]. destruct (key2_head (S b) Lb) as [r' Er']. rewrite Er, Er'.
      apply lexltb_head. lia.
Qed.

Lemma lt1_char : forall a b, a < n -> b < n -> (ch T a < ch T b)%N -> lt1 a b = true.
Proof.
  intros a b Ha Hb H. unfold lt1. destruct (key1_head a Ha) as [r E]. destruct (key1_head b Hb) as [r' E'].
  rewrite E, E'. apply lexltb_head, H.
Qed.
Lemma lt2_char : forall a b, a < n -> b < n -> (ch T a < ch T b)%N -> lt2 a b = true.
Proof.
  intros a b Ha Hb H. unfold lt2. destruct (key2_head a Ha) as [r E]. destruct (key2_head b Hb) as [r' E'].
  rewrite E, E'. apply lexltb_head, H.
Qed.

Lemma lt1_step : forall a b, ltyp T a = true -> ltyp T b = true -> ch T a = ch T b -> lt1 a b = lt1 (S a) (S b).
Proof.
  intros a b Ha Hb E. apply ltyp_spec in Ha, Hb. unfold lt1. rewrite (key1_L a), (key1_L b), E by tauto. apply lexltb_cons.
Qed.
Lemma lt2_step : forall a b, styp T a = true -> styp T b = true -> ch T a = ch T b -> lt2 a b = lt2 (S a) (S b).
Proof.
  intros a b Ha Hb E. unfold lt2. rewrite (key2_S a), (key2_S b), E by assumption. apply lexltb_cons.
Qed.

Lemma lt1_dec : forall d a, d = n - a -> ltyp T a = true -> S a < n -> lt1 (S a) a = true.
Proof.
  induction d as [|d IH]; intros a Hd Ha L; [lia|]. pose proof Ha as Ha'. apply ltyp_spec in Ha'. destruct Ha' as [La Sa]. fold n in La.
  destruct (styp T (S a)) eqn:E.
  - apply lt1_char; auto. apply ltyp_down; auto.
  - pose proof (ltyp_le T a L Sa) as C. destruct (N.eq_dec (ch T (S a)) (ch T a)) as [D|D].
    + assert (HS : ltyp T (S a) = true) by (apply ltyp_spec; auto).
      rewrite lt1_step by auto. destruct (le_lt_dec n (S (S a))) as [G|G].
      * unfold lt1. rewrite (key1_end (S (S a))) by assumption. destruct (key1_head (S a) L) as [r Er]. rewrite Er. reflexivity.
      * apply IH; auto. lia.
    + apply lt1_char; auto. lia.
Qed.

Lemma lt2_inc : forall d a, d = n - a -> styp T a = true -> lt2 a (S a) = true.
Proof.
  induction d as [|d IH]; intros a Hd Ha; pose proof (styp_lt T a Ha) as L; fold n in L; [lia|].
  pose proof (styp_le T a Ha) as C. destruct (N.eq_dec (ch T a) (ch T (S a))) as [D|D].
  - assert (HS : styp T (S a) = true) by (rewrite (styp_eq T a); auto).
    rewrite lt2_step by auto. apply IH; auto. lia.
  - apply lt2_char; auto; lia.
Qed.

Lemma lt1_last : forall a b, ltyp T a = true -> ltyp T b = true -> ch T a = ch T b -> S a = n -> a <> b -> lt1 a b = true.
Proof.
  intros a b Ha Hb E L D. rewrite lt1_step by assumption. apply ltyp_spec in Hb. unfold lt1. rewrite key1_end by lia.
  destruct (key1_head (S b)) as [r Er]; [unfold n in *; lia|]. rewrite Er. reflexivity.
Qed.

Lemma key1_LS_neq : forall a b, a < n -> styp T a = false -> styp T b = true -> key1 a <> key1 b.
Proof.
  intros a b Ha Sa Sb E.
  assert (C : ch T a = ch T b) by (rewrite (key1_L a), (key1_S b) in E by assumption; congruence).
  assert (F : lt1 a b = true) by (apply lt1_LS; auto; apply ltyp_spec; auto).
  unfold lt1 in F. rewrite E, lexltb_irrefl in F. discriminate.
Qed.
Lemma key2_LS_neq : forall a b, a < n -> styp T a = false -> styp T b = true -> key2 a <> key2 b.
Proof.
  intros a b Ha Sa Sb E.
  assert (C : ch T a = ch T b).
  { destruct (key2_head a Ha) as [r Er]. rewrite Er, (key2_S b) in E by assumption. congruence. }
  assert (F : lt2 a b = true) by (apply (lt2_LS (n - a)); auto; apply ltyp_spec; auto).
  unfold lt2 in F. rewrite E, lexltb_irrefl in F. discriminate.
Qed.

(** *** Equal keys *)
Section Inj.
Hypothesis Hinj : forall a b, a < n -> b < n -> tag a = tag b -> a = b.

Lemma key1_inj : forall d a b, d = n - a -> a <= n -> b <= n -> key1 a = key1 b -> a = b.
Proof.
  induction d as [|d IH]; intros a b Hd Ha Hb E.
  - assert (a = n) by lia. subst a. rewrite key1_end in E by lia. destruct (le_lt_dec n b) as [L|L]; [lia|].
    destruct (key1_head b L) as [r Er]. congruence.
  - assert (La : a < n) by lia. destruct (key1_head a La) as [r Er].
    assert (Lb : b < n). { destruct (le_lt_dec n b) as [L|L]; [|assumption]. rewrite (key1_end b) in E by assumption. congruence. }
    destruct (styp T a) eqn:Sa, (styp T b) eqn:Sb.
    + rewrite (key1_S a), (key1_S b) in E by assumption. apply Hinj; auto. congruence.
    + exfalso. exact (key1_LS_neq b a Lb Sb Sa (eq_sym E)).
    + exfalso. exact (key1_LS_neq a b La Sa Sb E).
    + rewrite (key1_L a), (key1_L b) in E by assumption. injection E as _ E.
      assert (S a = S b) by (apply (IH (S a) (S b)); auto; lia). lia.
Qed.

Lemma key2_inj : forall d a b, d = n - a -> a <= n -> b <= n -> key2 a = key2 b -> a = b.
Proof.
  induction d as [|d IH]; intros a b Hd Ha Hb E.
  - assert (a = n) by lia. subst a. rewrite key2_end in E by lia. destruct (le_lt_dec n b) as [L|L]; [lia|].
    destruct (key2_head b L) as [r Er]. congruence.
  - assert (La : a < n) by lia. destruct (key2_head a La) as [r Er].
    assert (Lb : b < n). { destruct (le_lt_dec n b) as [L|L]; [|assumption]. rewrite (key2_end b) in E by assumption. congruence. }
    destruct (styp T a) eqn:Sa, (styp T b) eqn:Sb.
    + rewrite (key2_S a), (key2_S b) in E by assumption. injection E as _ E.
      assert (S a = S b) by (apply (IH (S a) (S b)); auto; lia). lia.
    + exfalso. exact (key2_LS_neq b a Lb Sb Sa (eq_sym E)).
    + exfalso. exact (key2_LS_neq a b La Sa Sb E).
    + rewrite (key2_L a), (key2_L b) in E by assumption. apply (key1_inj (n - a) a b); auto.
Qed.

Lemma ordered1 : ordered T lt1 (ltyp T) (styp T).
Proof.
  assert (B : forall a, ltyp T a || styp T a = true -> a < n).
  { intros a H. apply orb_prop in H. destruct H as [H|H]; [apply ltyp_spec in H; apply H|]. apply styp_lt in H. unfold n. lia. }
  constructor.
  - intros a H. apply ltyp_spec in H. apply H.
  - intros a H. apply B. rewrite H. apply orb_true_r.
  - intros a H. apply ltyp_spec in H. apply H.
  - intros a b Ha Hb. apply lt1_char; apply B; assumption.
  - intros a. apply lexltb_irrefl.
  - intros a b c _ _ _. apply lexltb_trans.
  - intros a b Ha Hb D. apply B in Ha, Hb. apply lexltb_total. intros E. apply D. apply (key1_inj (n - a) a b); auto; lia.
  - intros a b. apply lt1_LS.
Qed.
Lemma ordered2 : ordered T lt2 (ltyp T) (styp T).
Proof.
  assert (B : forall a, ltyp T a || styp T a = true -> a < n).
  { intros a H. apply orb_prop in H. destruct H as [H|H]; [apply ltyp_spec in H; apply H|]. apply styp_lt in H. unfold n. lia. }
  constructor.
  - intros a H. apply ltyp_spec in H. apply H.
  - intros a H. apply B. rewrite H. apply orb_true_r.
  - intros a H. apply ltyp_spec in H. apply H.
  - intros a b Ha Hb. apply lt2_char; apply B; assumption.
  - intros a. apply lexltb_irrefl.
  - intros a b c _ _ _. apply lexltb_trans.
  - intros a b Ha Hb D. apply B in Ha, Hb. apply lexltb_total. intros E. apply D. apply (key2_inj (n - a) a b); auto; lia.
  - intros a b Ha Hb E. apply (lt2_LS (n - a)); auto.
Qed.
End Inj.

(** *** The order of the keys is that of the suffixes *)
Section Const.
Hypothesis Hconst : forall a b, tag a = tag b.

Lemma key1_slt : forall d a b, d = n - a -> a <= n -> b <= n -> lt1 a b = true -> slt T a b = true.
Proof.
  induction d as [|d IH]; intros a b Hd Ha Hb E.
  - assert (a = n) by lia. subst a. destruct (le_lt_dec n b) as [L|L].
    + unfold lt1 in E. rewrite (key1_end b) in E by assumption. destruct (key1 n); discriminate.
    + apply slt_end; auto.
  - assert (La : a < n) by lia. destruct (key1_head a La) as [r Er].
    assert (Lb : b < n).
    { destruct (le_lt_dec n b) as [L|L]; [|assumption]. unfold lt1 in E. rewrite (key1_end b), Er in E by assumption. discriminate. }
    destruct (key1_head b Lb) as [r' Er']. unfold lt1 in E. pose proof E as E'. rewrite Er, Er' in E'. apply lexltb_head_inv in E'.
    destruct (N.eq_dec (ch T a) (ch T b)) as [C|C]; [|apply slt_head; auto; lia].
    destruct (styp T a) eqn:Sa, (styp T b) eqn:Sb.
    + rewrite (key1_S a), (key1_S b), C, (Hconst a b), lexltb_irrefl in E by assumption. discriminate.
    + exfalso. assert (F : lt1 b a = true) by (apply lt1_LS; auto; apply ltyp_spec; auto).
      unfold lt1 in F. apply lexltb_asym in F. congruence.
    + apply (L_before_S T (n - a)); auto.
    + rewrite slt_step by assumption. apply IH; auto; try lia. unfold lt1. rewrite (key1_L a), (key1_L b), C, lexltb_cons in E by assumption. exact E.
Qed.

Lemma key2_slt : forall d a b, d = n - a -> a <= n -> b <= n -> lt2 a b = true -> slt T a b = true.
Proof.
  induction d as [|d IH]; intros a b Hd Ha Hb E.
  - assert (a = n) by lia. subst a. destruct (le_lt_dec n b) as [L|L].
    + unfold lt2 in E. rewrite (key2_end b) in E by assumption. destruct (key2 n); discriminate.
    + apply slt_end; auto.
  - assert (La : a < n) by lia. destruct (key2_head a La) as [r Er].
    assert (Lb : b < n).
    { destruct (le_lt_dec n b) as [L|L]; [|assumption]. unfold lt2 in E. rewrite (key2_end b), Er in E by assumption. discriminate. }
    destruct (key2_head b Lb) as [r' Er']. unfold lt2 in E. pose proof E as E'. rewrite Er, Er' in E'. apply lexltb_head_inv in E'.
    destruct (N.eq_dec (ch T a) (ch T b)) as [C|C]; [|apply slt_head; auto; lia].
    destruct (styp T a) eqn:Sa, (styp T b) eqn:Sb.
    + rewrite slt_step by assumption. apply IH; auto; try lia. unfold lt2. rewrite (key2_S a), (key2_S b), C, lexltb_cons in E by assumption. exact E.
    + exfalso. assert (F : lt2 b a = true) by (apply (lt2_LS (n - b)); auto; apply ltyp_spec; auto).
      unfold lt2 in F. apply lexltb_asym in F. congruence.
    + apply (L_before_S T (n - a)); auto.
    + rewrite (key2_L a), (key2_L b) in E by assumption. apply (key1_slt (n - a)); auto.
Qed.
End Const.

(** *** Where a key ends *)
Fixpoint stop1d (d a : nat) : nat :=
  match d with
  | O => a
  | S d => if styp T a then a else stop1d d (S a)
  end.
Definition stop1 (a : nat) : nat := stop1d (n - a) a.
Fixpoint stop2d (d a : nat) : nat :=
  match d with
  | O => a
  | S d => if styp T a then stop2d d (S a) else stop1 a
  end.
Definition stop2 (a : nat) : nat := stop2d (n - a) a.

Lemma stop1_end : forall a, n <= a -> stop1 a = a.
Proof. intros a H. unfold stop1. replace (n - a) with 0 by lia. reflexivity. Qed.
Lemma stop1_S : forall a, styp T a = true -> stop1 a = a.
Proof.
  intros a H. pose proof (styp_lt T a H). fold n in H0. unfold stop1. replace (n - a) with (S (n - S a)) by lia.
  cbn [stop1d]. rewrite H. reflexivity.
Qed.
Lemma stop1_L : forall a, a < n -> styp T a = false -> stop1 a = stop1 (S a).
Proof.
  intros a H E. unfold stop1 at 1. replace (n - a) with (S (n - S a)) by lia. cbn [stop1d]. rewrite E. reflexivity.
Qed.
Lemma stop2_S : forall a, styp T a = true -> stop2 a = stop2 (S a).
Proof.
  intros a H. pose proof (styp_lt T a H). fold n in H0. unfold stop2 at 1. replace (n - a) with (S (n - S a)) by lia.
  cbn [stop2d]. rewrite H. reflexivity.
Qed.
Lemma stop2_L : forall a, styp T a = false -> stop2 a = stop1 a.
Proof.
  intros a H. destruct (le_lt_dec n a) as [L|L].
  - rewrite stop1_end by assumption. unfold stop2. replace (n - a) with 0 by lia. reflexivity.
  - unfold stop2. replace (n - a) with (S (n - S a)) by lia. cbn [stop2d]. rewrite H. reflexivity.
Qed.

Lemma stop1_spec : forall d a, d = n - a -> a <= n ->
  a <= stop1 a <= n /\ (stop1 a < n -> styp T (stop1 a) = true) /\ (forall x, a <= x < stop1 a -> styp T x = false) /\
  key1 a = firstn (stop1 a - a) (suf T a) ++ (if stop1 a <? n then [ch T (stop1 a); tag (stop1 a)] else []).
Proof.
  induction d as [|d IH]; intros a Hd Ha.
  - assert (a = n) by lia. subst a. rewrite stop1_end, key1_end by lia. rewrite Nat.sub_diag, Nat.ltb_irrefl.
    repeat split; try lia.
  - assert (L : a < n) by lia. destruct (styp T a) eqn:E.
    + rewrite stop1_S, key1_S by assumption. rewrite Nat.sub_diag. replace (a <? n) with true by lia. repeat split; auto; lia.
    + rewrite stop1_L, key1_L by assumption. destruct (IH (S a)) as (B & St & A & K); [lia|lia|].
      repeat split; auto; try lia.
      * intros x Hx. destruct (Nat.eq_dec x a); [subst; assumption|]. apply A. lia.
      * replace (stop1 (S a) - a) with (S (stop1 (S a) - S a)) by lia. rewrite (suf_cons T a) by assumption.
        cbn [firstn app]. f_equal. exact K.
Qed.

Lemma stop2_spec : forall d a, d = n - a -> a <= n ->
  a <= stop2 a <= n /\ (stop2 a < n -> styp T (stop2 a) = true) /\
  (exists y, a <= y <= stop2 a /\ (a < n -> y < stop2 a) /\ (forall x, a <= x < y -> styp T x = true) /\ (forall x, y <= x < stop2 a -> styp T x = false)) /\
  key2 a = firstn (stop2 a - a) (suf T a) ++ (if stop2 a <? n then [ch T (stop2 a); tag (stop2 a)] else []).
Proof.
  induction d as [|d IH]; intros a Hd Ha.
  - assert (a = n) by lia. subst a. unfold stop2. rewrite Nat.sub_diag. cbn [stop2d]. rewrite key2_end by lia. rewrite Nat.sub_diag, Nat.ltb_irrefl.
    repeat split; try lia. exists n. repeat split; intros; lia.
  - assert (L : a < n) by lia. destruct (styp T a) eqn:E.
    + pose proof (styp_lt T a E) as L'. fold n in L'.
      rewrite stop2_S, key2_S by assumption. destruct (IH (S a)) as (B & St & (y & By & Hy & A1 & A2) & K); [lia|lia|].
      repeat split; auto; try lia.
      * exists y. repeat split; auto; try lia. intros x Hx. destruct (Nat.eq_dec x a); [subst; assumption|]. apply A1. lia.
      * replace (stop2 (S a) - a) with (S (stop2 (S a) - S a)) by lia. rewrite (suf_cons T a) by assumption.
        cbn [firstn app]. f_equal. exact K.
    + rewrite stop2_L, key2_L by assumption. destruct (stop1_spec (n - a) a) as (B & St & A & K); auto.
      repeat split; auto; try lia. exists a. repeat split; auto; try lia. intros _.
      rewrite stop1_L by assumption. pose proof (stop1_spec (n - S a) (S a) eq_refl ltac:(lia)). lia.
Qed.

(** For an LMS position the key ends at the next one, or at the end of the text. *)
Lemma stop2_lms : forall p, lms T p = true ->
  p < stop2 p <= n /\ (stop2 p < n -> lms T (stop2 p) = true) /\ (forall x, p < x < stop2 p -> lms T x = false).
Proof.
  intros p H. apply lms_lt in H. destruct H as (H0 & H1 & H2 & H3 & H4). fold n in H1.
  destruct (stop2_spec (n - p) p) as (B & St & (y & By & Hy & A1 & A2) & _); [reflexivity|lia|].
  specialize (Hy ltac:(lia)).
  assert (p < y) by (destruct (Nat.eq_dec y p) as [D|D]; [subst; rewrite A2 in H2 by lia; discriminate|lia]).
  split; [lia|]. split.
  - intros L. pose proof (lms_next T (stop2 p - 1)) as F. replace (S (stop2 p - 1)) with (stop2 p) in F by lia.
    apply F; auto. apply A2. lia.
  - intros x Hx. unfold lms. destruct (le_lt_dec y x) as [L|L].
    + rewrite (A2 x) by lia. rewrite andb_false_r. reflexivity.
    + rewrite (A1 (x - 1)) by lia. apply andb_false_r.
Qed.

(** *** Equal keys *)
Lemma key1_eq : forall d a b, d = n - a -> a <= n -> b <= n -> key1 a = key1 b ->
  exists e, stop1 a = a + e /\ stop1 b = b + e /\ (a + e = n <-> b + e = n) /\ slt T a b = slt T (a + e) (b + e).
Proof.
  induction d as [|d IH]; intros a b Hd Ha Hb E.
  - assert (a = n) by lia. subst a. rewrite key1_end in E by lia. destruct (le_lt_dec n b) as [L|L].
    + exists 0. rewrite !Nat.add_0_r, !stop1_end by lia. repeat split; auto; lia.
    + destruct (key1_head b L) as [r Er]. congruence.
  - assert (La : a < n) by lia. destruct (key1_head a La) as [r Er].
    assert (Lb : b < n). { destruct (le_lt_dec n b) as [L|L]; [|assumption]. rewrite (key1_end b) in E by assumption. congruence. }
    destruct (key1_head b Lb) as [r' Er'].
    assert (C : ch T a = ch T b) by congruence.
    destruct (styp T a) eqn:Sa, (styp T b) eqn:Sb.
    + exists 0. rewrite !Nat.add_0_r, !stop1_S by assumption. repeat split; auto; lia.
    + exfalso. exact (key1_LS_neq b a Lb Sb Sa (eq_sym E)).
    + exfalso. exact (key1_LS_neq a b La Sa Sb E).
    + rewrite (key1_L a), (key1_L b) in E by assumption. injection E as _ E.
      destruct (IH (S a) (S b)) as (e & E1 & E2 & E3 & E4); auto; try lia.
      exists (S e). rewrite (stop1_L a), (stop1_L b), !Nat.add_succ_r by assumption. cbn [Nat.add] in *.
      repeat split; auto; try tauto. rewrite slt_step by assumption. exact E4.
Qed.

Lemma key2_eq : forall d a b, d = n - a -> a <= n -> b <= n -> key2 a = key2 b ->
  exists e, stop2 a = a + e /\ stop2 b = b + e /\ (a + e = n <-> b + e = n) /\ slt T a b = slt T (a + e) (b + e).
Proof.
  induction d as [|d IH]; intros a b Hd Ha Hb E.
  - assert (a = n) by lia. subst a. rewrite key2_end in E by lia. destruct (le_lt_dec n b) as [L|L].
    + assert (b = n) by lia. subst b. exists 0. rewrite !Nat.add_0_r. unfold stop2. rewrite Nat.sub_diag. repeat split; auto; lia.
    + destruct (key2_head b L) as [r Er]. congruence.
  - assert (La : a < n) by lia. destruct (key2_head a La) as [r Er].
    assert (Lb : b < n). { destruct (le_lt_dec n b) as [L|L]; [|assumption]. rewrite (key2_end b) in E by assumption. congruence. }
    destruct (key2_head b Lb) as [r' Er'].
    assert (C : ch T a = ch T b) by congruence.
    destruct (styp T a) eqn:Sa, (styp T b) eqn:Sb.
    + rewrite (key2_S a), (key2_S b) in E by assumption. injection E as _ E.
      destruct (IH (S a) (S b)) as (e & E1 & E2 & E3 & E4); auto; try lia.
      exists (S e). rewrite (stop2_S a), (stop2_S b), !Nat.add_succ_r by assumption. cbn [Nat.add] in *.
      repeat split; auto; try tauto. rewrite slt_step by assumption. exact E4.
    + exfalso. exact (key2_LS_neq b a Lb Sb Sa (eq_sym E)).
    + exfalso. exact (key2_LS_neq a b La Sa Sb E).
    + rewrite (key2_L a), (key2_L b) in E by assumption. rewrite (stop2_L a), (stop2_L b) by assumption.
      apply (key1_eq (n - a)); auto.
Qed.
End Tag.

(** *** Two tags: the finer one sorts the classes of the constant one *)
Section Coarse.
Variables tag ctag : nat -> N.
Hypothesis Htag : forall a b, a < n -> b < n -> (ch T b < tag a)%N.
Hypothesis Hctag : forall a b, a < n -> b < n -> (ch T b < ctag a)%N.
Hypothesis Hconst : forall a b, ctag a = ctag b.

Lemma coarse1 : forall d a b, d = n - a -> a <= n -> b <= n -> lt1 ctag a b = true -> lt1 tag a b = true.
Proof.
  induction d as [|d IH]; intros a b Hd Ha Hb E.
  - assert (a = n) by lia. subst a. unfold lt1 in *. rewrite key1_end in * by lia. destruct (le_lt_dec n b) as [L|L].
    + rewrite (key1_end ctag b) in E by assumption. discriminate.
    + destruct (key1_head tag b L) as [r Er]. rewrite Er. reflexivity.
  - assert (La : a < n) by lia. destruct (key1_head ctag a La) as [r Er].
    assert (Lb : b < n).
    { destruct (le_lt_dec n b) as [L|L]; [|assumption]. unfold lt1 in E. rewrite (key1_end ctag b), Er in E by assumption. discriminate. }
    destruct (key1_head ctag b Lb) as [r' Er']. unfold lt1 in E. pose proof E as E'. rewrite Er, Er' in E'. apply lexltb_head_inv in E'.
    destruct (N.eq_dec (ch T a) (ch T b)) as [C|C]; [|apply lt1_char; auto; lia].
    destruct (styp T a) eqn:Sa, (styp T b) eqn:Sb.
    + rewrite (key1_S ctag a), (key1_S ctag b), C, (Hconst a b), lexltb_irrefl in E by assumption. discriminate.
    + exfalso. assert (F : lt1 ctag b a = true) by (apply lt1_LS; auto; apply ltyp_spec; auto).
      unfold lt1 in F. apply lexltb_asym in F. congruence.
    + apply lt1_LS; auto. apply ltyp_spec; auto.
    + rewrite lt1_step; auto; try (apply ltyp_spec; auto). apply IH; auto; try lia.
      unfold lt1. rewrite (key1_L ctag a), (key1_L ctag b), C, lexltb_cons in E by assumption. exact E.
Qed.

Lemma coarse2 : forall d a b, d = n - a -> a <= n -> b <= n -> lt2 ctag a b = true -> lt2 tag a b = true.
Proof.
  induction d as [|d IH]; intros a b Hd Ha Hb E.
  - assert (a = n) by lia. subst a. unfold lt2 in *. rewrite key2_end in * by lia. destruct (le_lt_dec n b) as [L|L].
    + rewrite (key2_end ctag b) in E by assumption. discriminate.
    + destruct (key2_head tag b L) as [r Er]. rewrite Er. reflexivity.
  - assert (La : a < n) by lia. destruct (key2_head ctag a La) as [r Er].
    assert (Lb : b < n).
    { destruct (le_lt_dec n b) as [L|L]; [|assumption]. unfold lt2 in E. rewrite (key2_end ctag b), Er in E by assumption. discriminate. }
    destruct (key2_head ctag b Lb) as [r' Er']. unfold lt2 in E. pose proof E as E'. rewrite Er, Er' in E'. apply lexltb_head_inv in E'.
    destruct (N.eq_dec (ch T a) (ch T b)) as [C|C]; [|apply lt2_char; auto; lia].
    destruct (styp T a) eqn:Sa, (styp T b) eqn:Sb.
    + rewrite lt2_step; auto. apply IH; auto; try lia.
      unfold lt2. rewrite (key2_S ctag a), (key2_S ctag b), C, lexltb_cons in E by assumption. exact E.
    + exfalso. assert (F : lt2 ctag b a = true) by (apply (lt2_LS ctag) with (d := n - b); auto; apply ltyp_spec; auto).
      unfold lt2 in F. apply lexltb_asym in F. congruence.
    + apply (lt2_LS tag) with (d := n - a); auto. apply ltyp_spec; auto.
    + unfold lt2. rewrite (key2_L tag a), (key2_L tag b) by assumption.
      rewrite (key2_L ctag a), (key2_L ctag b) in E by assumption. apply (coarse1 (n - a)); auto.
Qed.
End Coarse.
End Keys.

Lemma ordered_weaken : forall T lt P Q P' Q', ordered T lt P Q ->
  (forall a, P' a = true -> P a = true) -> (forall a, Q' a = true -> Q a = true) -> ordered T lt P' Q'.
Proof.
  intros T lt P Q P' Q' O HP HQ.
  assert (H : forall a, P' a || Q' a = true -> P a || Q a = true).
  { intros a Ha. apply orb_prop in Ha. destruct Ha as [Ha|Ha]; [rewrite (HP a Ha); reflexivity|rewrite (HQ a Ha); apply orb_true_r]. }
  constructor.
  - intros a Ha. apply (o_P _ _ _ _ O), HP, Ha.
  - intros a Ha. apply (o_Q _ _ _ _ O), HQ, Ha.
  - intros a Ha. destruct (Q' a) eqn:E; [|reflexivity]. apply HQ in E. rewrite (o_disj _ _ _ _ O a) in E; [discriminate|auto].
  - intros a b Ha Hb. apply (o_char _ _ _ _ O); auto.
  - apply (o_irr _ _ _ _ O).
  - intros a b c Ha Hb Hc. apply (o_trans _ _ _ _ O); auto.
  - intros a b Ha Hb. apply (o_total _ _ _ _ O); auto.
  - intros a b Ha Hb. apply (o_PQ _ _ _ _ O); auto.
Qed.

(** Counting positions, lexicographic order, types of suffixes. *)
From Coq Require Import List NArith ZArith Arith Bool Lia.
From Coq Require Import ZifyBool ZifyNat ZifyN.
From Verif Require Import Base Arrays SpecBWT.
Import ListNotations.
Open Scope nat_scope.

(** ** Counting *)
Definition cnt (n : nat) (f : nat -> bool) : nat := length (filter f (seq 0 n)).

Lemma cnt_S : forall n f, cnt (S n) f = cnt n f + (if f n then 1 else 0).
Proof.
  intros n f. unfold cnt. rewrite seq_S, filter_app, app_length. cbn [filter Nat.add].
  destruct (f n); reflexivity.
Qed.

Lemma cnt_0 : forall f, cnt 0 f = 0.
Proof. reflexivity. Qed.

Lemma cnt_ext : forall n f g, (forall a, a < n -> f a = g a) -> cnt n f = cnt n g.
Proof.
  induction n as [|n IH]; intros f g H; [reflexivity|].
  rewrite !cnt_S, (IH f g), (H n) by (intros; auto; apply H; lia). reflexivity.
Qed.

Lemma cnt_mono : forall n f g, (forall a, a < n -> f a = true -> g a = true) -> cnt n f <= cnt n g.
Proof.
  induction n as [|n IH]; intros f g H; [reflexivity|].
  rewrite !cnt_S. specialize (IH f g (fun a Ha => H a (Nat.lt_lt_succ_r _ _ Ha))).
  specialize (H n (Nat.lt_succ_diag_r n)). destruct (f n), (g n); try lia.
  all: discriminate (H eq_refl).
Qed.

Lemma cnt_le : forall n f, cnt n f <= n.
Proof. induction n as [|n IH]; intros f; [reflexivity|]. rewrite cnt_S. specialize (IH f). destruct (f n); lia. Qed.

Lemma cnt_or : forall n f g, (forall a, a < n -> f a = true -> g a = false) ->
  cnt n (fun a => f a || g a) = cnt n f + cnt n g.
Proof.
  induction n as [|n IH]; intros f g H; [reflexivity|].
  rewrite !cnt_S, (IH f g) by (intros; apply H; auto).
  specialize (H n (Nat.lt_succ_diag_r n)). destruct (f n), (g n); cbn [orb]; try lia.
  all: discriminate (H eq_refl).
Qed.

Lemma cnt_one : forall n x, x < n -> cnt n (fun a => a =? x) = 1.
Proof.
  induction n as [|n IH]; intros x H; [lia|]. rewrite cnt_S.
  destruct (Nat.eqb_spec n x).
  - subst. rewrite (cnt_ext x _ (fun _ => false)) by (intros; apply Nat.eqb_neq; lia).
    assert (cnt x (fun _ => false) = 0) by (clear; induction x; [reflexivity|rewrite cnt_S; lia]). lia.
  - rewrite IH by lia. lia.
Qed.

Lemma cnt_none : forall n f, (forall a, a < n -> f a = false) -> cnt n f = 0.
Proof.
  induction n as [|n IH]; intros f H; [reflexivity|].
  rewrite cnt_S, IH, (H n) by (intros; auto; apply H; lia). reflexivity.
Qed.

Lemma cnt_add : forall n f g x, x < n -> f x = false ->
  (forall a, a < n -> g a = f a || (a =? x)) -> cnt n g = S (cnt n f).
Proof.
  intros n f g x Hx Hf Hg.
  rewrite (cnt_ext n g _ Hg), cnt_or, cnt_one by (auto; intros a Ha E; destruct (Nat.eqb_spec a x); congruence).
  lia.
Qed.

Lemma cnt_strict : forall n f g x, x < n -> f x = false -> g x = true ->
  (forall a, a < n -> f a = true -> g a = true) -> cnt n f < cnt n g.
Proof.
  intros n f g x Hx Hf Hg H.
  assert (E : cnt n (fun a => f a || (a =? x)) = S (cnt n f)) by (apply (cnt_add n f _ x); auto).
  assert (cnt n (fun a => f a || (a =? x)) <= cnt n g).
  { apply cnt_mono. intros a Ha Hor. apply orb_prop in Hor. destruct Hor as [Ho|Ho]; auto.
    apply Nat.eqb_eq in Ho. subst. assumption. }
  lia.
Qed.

Lemma cnt_pos : forall n f x, x < n -> f x = true -> 0 < cnt n f.
Proof.
  intros n f x Hx Hf.
  assert (E : cnt n (fun _ => false) < cnt n f) by (apply (cnt_strict n _ _ x); auto; discriminate).
  lia.
Qed.

Lemma cnt_pos_inv : forall n f, 0 < cnt n f -> exists x, x < n /\ f x = true.
Proof.
  induction n as [|n IH]; intros f H; [cbn in H; lia|].
  rewrite cnt_S in H. destruct (f n) eqn:E; [exists n; auto|].
  destruct (IH f) as (x & Hx & Hf); [lia|]. exists x. split; [lia|assumption].
Qed.

(** ** Lexicographic order *)
Fixpoint lexltb (a b : list N) : bool :=
  match a, b with
  | _, [] => false
  | [], _ :: _ => true
  | x :: a', y :: b' => (x <? y)%N || ((x =? y)%N && lexltb a' b')
  end.

Lemma lexltb_spec : forall a b, lexltb a b = true <-> lexlt a b.
Proof.
  induction a as [|x a IH]; intros [|y b]; cbn [lexltb lexlt]; try (split; [discriminate|contradiction]); [tauto|].
  rewrite orb_true_iff, andb_true_iff, IH, N.ltb_lt, N.eqb_eq. tauto.
Qed.

Lemma lexltb_irrefl : forall a, lexltb a a = false.
Proof.
  induction a as [|x a IH]; cbn [lexltb]; [reflexivity|].
  rewrite IH, N.ltb_irrefl, andb_false_r. reflexivity.
Qed.

Lemma lexltb_trans : forall a b c, lexltb a b = true -> lexltb b c = true -> lexltb a c = true.
Proof.
  induction a as [|x a IH]; intros [|y b] [|z c]; cbn [lexltb]; intros H1 H2; try discriminate; auto.
  apply orb_prop in H1, H2. apply orb_true_iff.
  destruct H1 as [H1|H1], H2 as [H2|H2]; try (apply andb_prop in H1; destruct H1 as [E1 L1]);
    try (apply andb_prop in H2; destruct H2 as [E2 L2]).
  - left. lia.
  - left. lia.
  - left. lia.
  - right. apply andb_true_iff. split; [lia|]. eapply IH; eassumption.
Qed.

Lemma lexltb_total : forall a b, a <> b -> lexltb a b = true \/ lexltb b a = true.
Proof.
  induction a as [|x a IH]; intros [|y b] H; cbn [lexltb]; auto.
  destruct (N.lt_trichotomy x y) as [L|[E|L]].
  - left. apply orb_true_iff. left. lia.
  - subst. rewrite !N.ltb_irrefl, !N.eqb_refl. cbn [orb andb]. apply IH. congruence.
  - right. apply orb_true_iff. left. lia.
Qed.

Lemma lexltb_asym : forall a b, lexltb a b = true -> lexltb b a = false.
Proof.
  intros a b H. destruct (lexltb b a) eqn:E; auto.
  pose proof (lexltb_trans _ _ _ H E) as F. rewrite lexltb_irrefl in F. discriminate.
Qed.

Lemma lexltb_cons : forall x a b, lexltb (x :: a) (x :: b) = lexltb a b.
Proof. intros. cbn [lexltb]. rewrite N.ltb_irrefl, N.eqb_refl. reflexivity. Qed.

Lemma lexltb_head : forall x y a b, (x < y)%N -> lexltb (x :: a) (y :: b) = true.
Proof. intros. cbn [lexltb]. apply orb_true_iff. left. lia. Qed.

Lemma lexltb_head_inv : forall x y a b, lexltb (x :: a) (y :: b) = true -> (x <= y)%N.
Proof.
  intros x y a b H. cbn [lexltb] in H. apply orb_prop in H. destruct H as [H|H]; [lia|].
  apply andb_prop in H. lia.
Qed.

(** ** Types *)
Section Types.
Variable T : list N.
Let n := length T.

Definition ch (a : nat) : N := nth a T 0%N.
Definition suf (a : nat) : list N := skipn a T.
Definition slt (a b : nat) : bool := lexltb (suf a) (suf b).
Definition styp (a : nat) : bool := slt a (S a).
Definition lms (a : nat) : bool := (0 <? a) && styp a && negb (styp (a - 1)).

Lemma get_ch : forall a, a < n -> get T a = Ok (ch a).
Proof. intros a H. apply get_ok. apply nth_error_nth'. assumption. Qed.

Lemma suf_cons : forall a, a < n -> suf a = ch a :: suf (S a).
Proof.
  unfold suf, ch, n. induction T as [|c t IH]; intros [|a] H; cbn [length skipn nth] in *; try lia; auto.
  rewrite IH by lia. reflexivity.
Qed.

Lemma suf_end : forall a, n <= a -> suf a = [].
Proof. intros a H. unfold suf. apply skipn_all2. assumption. Qed.

Lemma suf_length : forall a, length (suf a) = n - a.
Proof. intros. unfold suf. apply skipn_length. Qed.

Lemma suf_inj : forall a b, a <= n -> b <= n -> suf a = suf b -> a = b.
Proof. intros a b Ha Hb E. apply (f_equal (@length N)) in E. rewrite !suf_length in E. lia. Qed.

Lemma slt_irrefl : forall a, slt a a = false.
Proof. intros. apply lexltb_irrefl. Qed.
Lemma slt_trans : forall a b c, slt a b = true -> slt b c = true -> slt a c = true.
Proof. intros a b c. apply lexltb_trans. Qed.
Lemma slt_total : forall a b, a <= n -> b <= n -> a <> b -> slt a b = true \/ slt b a = true.
Proof. intros a b Ha Hb H. apply lexltb_total. intros E. apply H. apply suf_inj; assumption. Qed.
Lemma slt_asym : forall a b, slt a b = true -> slt b a = false.
Proof. intros a b. apply lexltb_asym. Qed.

Lemma slt_head : forall a b, a < n -> b < n -> (ch a < ch b)%N -> slt a b = true.
Proof. intros a b Ha Hb H. unfold slt. rewrite (suf_cons a), (suf_cons b) by assumption. apply lexltb_head, H. Qed.

Lemma slt_step : forall a b, a < n -> b < n -> ch a = ch b -> slt a b = slt (S a) (S b).
Proof. intros a b Ha Hb H. unfold slt. rewrite (suf_cons a), (suf_cons b), H by assumption. apply lexltb_cons. Qed.

Lemma slt_head_inv : forall a b, a < n -> b < n -> slt a b = true -> (ch a <= ch b)%N.
Proof. intros a b Ha Hb H. unfold slt in H. rewrite (suf_cons a), (suf_cons b) in H by assumption. apply lexltb_head_inv in H. exact H. Qed.

Lemma slt_end : forall a b, n <= a -> b < n -> slt a b = true.
Proof. intros a b Ha Hb. unfold slt. rewrite suf_end, (suf_cons b) by assumption. reflexivity. Qed.

Lemma slt_end_r : forall a b, n <= b -> slt a b = false.
Proof. intros a b Hb. unfold slt. rewrite (suf_end b) by assumption. destruct (suf a); reflexivity. Qed.

Lemma styp_lt : forall a, styp a = true -> S a < n.
Proof.
  intros a H. destruct (le_lt_dec n (S a)) as [L|L]; [|assumption].
  unfold styp in H. rewrite slt_end_r in H by assumption. discriminate.
Qed.

Lemma styp_rule : forall a, S a < n ->
  styp a = if (ch a <? ch (S a))%N then true else if (ch (S a) <? ch a)%N then false else styp (S a).
Proof.
  intros a H. unfold styp.
  destruct (N.ltb_spec (ch a) (ch (S a))) as [L|L]; [apply slt_head; lia|].
  destruct (N.ltb_spec (ch (S a)) (ch a)) as [M|M].
  - apply slt_asym. apply slt_head; lia.
  - apply slt_step; lia.
Qed.

Lemma styp_le : forall a, styp a = true -> (ch a <= ch (S a))%N.
Proof. intros a H. pose proof (styp_lt a H). rewrite styp_rule in H by assumption. destruct (N.ltb_spec (ch a) (ch (S a))); [lia|]. destruct (N.ltb_spec (ch (S a)) (ch a)); [discriminate|lia]. Qed.

Lemma ltyp_le : forall a, S a < n -> styp a = false -> (ch (S a) <= ch a)%N.
Proof. intros a H E. rewrite styp_rule in E by assumption. destruct (N.ltb_spec (ch a) (ch (S a))); [discriminate|lia]. Qed.

Lemma styp_eq : forall a, S a < n -> ch a = ch (S a) -> styp (S a) = styp a.
Proof. intros a H E. rewrite (styp_rule a), E, N.ltb_irrefl by assumption. reflexivity. Qed.

Lemma styp_up : forall a, styp a = true -> styp (S a) = false -> (ch a < ch (S a))%N.
Proof.
  intros a H E. pose proof (styp_lt a H). pose proof (styp_le a H).
  destruct (N.eq_dec (ch a) (ch (S a))) as [F|F]; [|lia].
  apply styp_eq in F; [congruence|assumption].
Qed.

Lemma ltyp_down : forall a, S a < n -> styp a = false -> styp (S a) = true -> (ch (S a) < ch a)%N.
Proof.
  intros a H E F. pose proof (ltyp_le a H E).
  destruct (N.eq_dec (ch a) (ch (S a))) as [G|G]; [|lia].
  apply styp_eq in G; [congruence|assumption].
Qed.

(** With equal first characters type L comes before type S. *)
Lemma L_before_S : forall d a b, d = n - a -> a < n -> b < n -> ch a = ch b -> styp a = false -> styp b = true -> slt a b = true.
Proof.
  induction d as [|d IH]; intros a b Hd Ha Hb E Fa Fb; [lia|].
  rewrite slt_step by assumption.
  pose proof (styp_lt b Fb) as Hb'. pose proof (styp_le b Fb) as Lb.
  destruct (le_lt_dec n (S a)) as [L|L]; [apply slt_end; lia|].
  pose proof (ltyp_le a L Fa) as La.
  destruct (N.eq_dec (ch (S a)) (ch (S b))) as [G|G]; [|apply slt_head; lia].
  apply IH; try lia.
  - rewrite styp_eq by lia. assumption.
  - rewrite styp_eq by lia. assumption.
Qed.

Lemma lms_lt : forall a, lms a = true -> 0 < a /\ S a < n /\ styp a = true /\ styp (a - 1) = false /\ (ch a < ch (a - 1))%N.
Proof.
  intros a H. unfold lms in H. apply andb_prop in H. destruct H as [H H3]. apply andb_prop in H. destruct H as [H1 H2].
  apply Nat.ltb_lt in H1. apply negb_true_iff in H3. pose proof (styp_lt a H2) as L.
  repeat split; auto.
  assert (F := ltyp_down (a - 1)). replace (S (a - 1)) with a in F by lia. apply F; auto; lia.
Qed.

Lemma lms_next : forall a, S a < n -> styp a = false -> styp (S a) = true -> lms (S a) = true.
Proof. intros a H E F. unfold lms. rewrite F. replace (S a - 1) with a by lia. rewrite E. reflexivity. Qed.
End Types.

(** C arrays as lists with checked access. *)
From Coq Require Import List NArith ZArith Lia Arith Bool.
From Coq Require Import ZifyBool ZifyNat ZifyN.
From Verif Require Import Base.
Import ListNotations.

(** [a[i]]; outside the array undefined. *)
Definition get {A} (l : list A) (i : nat) : outcome A :=
  match nth_error l i with Some x => Ok x | None => UB end.

Fixpoint upd {A} (l : list A) (i : nat) (v : A) : list A :=
  match l, i with
  | [], _ => []
  | _ :: t, O => v :: t
  | x :: t, S i' => x :: upd t i' v
  end.
(** [a[i] = v]; outside the array undefined. *)
Definition set {A} (l : list A) (i : nat) (v : A) : outcome (list A) :=
  if (i <? length l)%nat then Ok (upd l i v) else UB.

Lemma upd_length : forall {A} (l : list A) i v, length (upd l i v) = length l.
Proof. induction l as [|x l IH]; intros [|i] v; cbn [upd length]; auto. Qed.

Lemma nth_error_upd : forall {A} (l : list A) i v j, (i < length l)%nat ->
  nth_error (upd l i v) j = if (j =? i)%nat then Some v else nth_error l j.
Proof.
  induction l as [|x l IH]; intros i v j H; [cbn in H; lia|].
  destruct i as [|i], j as [|j]; cbn [upd nth_error Nat.eqb]; auto.
  apply IH. cbn [length] in H. lia.
Qed.

Lemma nth_error_upd_same : forall {A} (l : list A) i v, (i < length l)%nat ->
  nth_error (upd l i v) i = Some v.
Proof. intros. rewrite nth_error_upd, Nat.eqb_refl by assumption. reflexivity. Qed.

Lemma nth_error_upd_other : forall {A} (l : list A) i v j, (i < length l)%nat -> j <> i ->
  nth_error (upd l i v) j = nth_error l j.
Proof.
  intros. rewrite nth_error_upd by assumption. destruct (Nat.eqb_spec j i); congruence.
Qed.

Lemma get_ok : forall {A} (l : list A) i x, nth_error l i = Some x -> get l i = Ok x.
Proof. intros A l i x H. unfold get. rewrite H. reflexivity. Qed.

Lemma get_inv : forall {A} (l : list A) i x, get l i = Ok x -> nth_error l i = Some x.
Proof. intros A l i x H. unfold get in H. destruct (nth_error l i); congruence. Qed.

Lemma set_ok : forall {A} (l : list A) i v, (i < length l)%nat -> set l i v = Ok (upd l i v).
Proof. intros A l i v H. unfold set. destruct (Nat.ltb_spec i (length l)); [reflexivity|lia]. Qed.

Lemma nth_error_lt : forall {A} (l : list A) i, (i < length l)%nat -> exists x, nth_error l i = Some x.
Proof.
  intros A l i H. destruct (nth_error l i) eqn:E; eauto.
  apply nth_error_None in E. lia.
Qed.

Lemma nth_error_bound : forall {A} (l : list A) i x, nth_error l i = Some x -> (i < length l)%nat.
Proof. intros. apply nth_error_Some. congruence. Qed.

Lemma nth_error_ext : forall {A} (l m : list A), (forall i, nth_error l i = nth_error m i) -> l = m.
Proof.
  induction l as [|x l IH]; intros [|y m] H; auto.
  - specialize (H 0%nat). discriminate.
  - specialize (H 0%nat). discriminate.
  - f_equal; [specialize (H 0%nat); cbn in H; congruence|].
    apply IH. intros i. exact (H (S i)).
Qed.

Lemma nth_error_app_l : forall {A} (l m : list A) i, (i < length l)%nat -> nth_error (l ++ m) i = nth_error l i.
Proof. intros. apply nth_error_app1. assumption. Qed.

Lemma nth_error_app_r : forall {A} (l m : list A) i, nth_error (l ++ m) (length l + i) = nth_error m i.
Proof.
  intros. rewrite nth_error_app2 by lia. f_equal. lia.
Qed.

Lemma nth_error_repeat_lt : forall {A} (x : A) n i, (i < n)%nat -> nth_error (repeat x n) i = Some x.
Proof. induction n as [|n IH]; intros [|i] H; try lia; cbn; auto. apply IH. lia. Qed.

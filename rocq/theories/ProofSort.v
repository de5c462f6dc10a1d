(** Merge sort gives a sorted permutation. *)
From Coq Require Import List Arith Bool Lia Permutation Sorted.
From Verif Require Import ModelSort.
Import ListNotations.

Section Sort.
Variable A : Type.
Variable leb : A -> A -> bool.
Hypothesis total : forall a b, leb a b = false -> leb b a = true.
Hypothesis trans : forall a b c, leb a b = true -> leb b c = true -> leb a c = true.
Let le a b := leb a b = true.

Lemma merge_cons : forall a r1 b r2, merge leb (a :: r1) (b :: r2) =
  if leb a b then a :: merge leb r1 (b :: r2) else b :: merge leb (a :: r1) r2.
Proof. reflexivity. Qed.
Lemma merge_nil_r : forall l, merge leb l [] = l.
Proof. destruct l; reflexivity. Qed.

Lemma merge_perm : forall l1 l2, Permutation (merge leb l1 l2) (l1 ++ l2).
Proof.
  induction l1 as [|a r1 IH1]; intros l2; [reflexivity|].
  induction l2 as [|b r2 IH2].
  - rewrite merge_nil_r, app_nil_r. reflexivity.
  - rewrite merge_cons. destruct (leb a b).
    + cbn [app]. constructor. apply IH1.
    + rewrite IH2. apply (Permutation_middle (a :: r1) r2 b).
Qed.

Lemma merge_forall : forall (P : A -> Prop) l1 l2, Forall P l1 -> Forall P l2 -> Forall P (merge leb l1 l2).
Proof.
  intros P l1 l2 H1 H2. eapply Permutation_Forall; [symmetry; apply merge_perm|]. apply Forall_app. auto.
Qed.

Lemma merge_sorted : forall l1 l2, StronglySorted le l1 -> StronglySorted le l2 -> StronglySorted le (merge leb l1 l2).
Proof.
  induction l1 as [|a r1 IH1]; intros l2 S1 S2; [exact S2|].
  induction l2 as [|b r2 IH2]; [rewrite merge_nil_r; exact S1|].
  rewrite merge_cons. inversion S1 as [|? ? S1' F1]; subst. inversion S2 as [|? ? S2' F2]; subst.
  destruct (leb a b) eqn:E.
  - constructor.
    + apply IH1; auto.
    + apply merge_forall; [exact F1|]. constructor; [exact E|].
      eapply Forall_impl; [|exact F2]. intros c Hc. eapply trans; eauto.
  - constructor.
    + apply IH2. exact S2'.
    + apply merge_forall; [|exact F2]. constructor; [apply total; exact E|].
      eapply Forall_impl; [|exact F1]. intros c Hc. eapply trans; [apply total; exact E|]. exact Hc.
Qed.

Lemma mergePairs_facts : forall n ls, length ls <= n -> Forall (StronglySorted le) ls ->
  Permutation (concat (mergePairs leb ls)) (concat ls) /\ Forall (StronglySorted le) (mergePairs leb ls).
Proof.
  induction n as [|n IH]; intros ls Hn H.
  - destruct ls; [|cbn in Hn; lia]. split; [reflexivity|constructor].
  - destruct ls as [|a [|b r]]; [split; [reflexivity|constructor]|split; [reflexivity|exact H]|].
    inversion H as [|? ? Ha H1]; subst. inversion H1 as [|? ? Hb H2]; subst.
    cbn [mergePairs concat length] in *. destruct (IH r ltac:(lia) H2) as (P & Q). split.
    + rewrite P, merge_perm. rewrite <- app_assoc. reflexivity.
    + constructor; [apply merge_sorted; assumption|exact Q].
Qed.

Lemma mergeRounds_facts : forall fuel ls, Forall (StronglySorted le) ls ->
  Permutation (mergeRounds leb fuel ls) (concat ls) /\ StronglySorted le (mergeRounds leb fuel ls).
Proof.
  induction fuel as [|fuel IH]; intros ls H.
  - cbn [mergeRounds]. induction H as [|l ls Hl H IHl]; cbn [fold_right concat]; [split; constructor|].
    destruct IHl as (P & Q). split; [rewrite merge_perm; apply Permutation_app_head; exact P|].
    apply merge_sorted; assumption.
  - cbn [mergeRounds]. destruct ls as [|a [|b r]]; [split; constructor| |].
    + inversion H; subst. split; [cbn; rewrite app_nil_r; reflexivity|assumption].
    + destruct (mergePairs_facts (length (a :: b :: r)) (a :: b :: r) (le_n _) H) as (P & Q).
      destruct (IH _ Q) as (P' & Q'). split; [rewrite P'; exact P|exact Q'].
Qed.

Lemma mergeSort_facts : forall l, Permutation (mergeSort leb l) l /\ StronglySorted le (mergeSort leb l).
Proof.
  intros l. unfold mergeSort. destruct (mergeRounds_facts 64 (map (fun x => [x]) l)) as (P & Q).
  - apply Forall_forall. intros x Hx. apply in_map_iff in Hx as (y & <- & _). repeat constructor.
  - split; [|exact Q]. rewrite P. clear. induction l; cbn; [reflexivity|]. constructor. exact IHl.
Qed.
End Sort.

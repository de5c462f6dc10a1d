(** calculateHuTuckerLengths (C55). *)
From Coq Require Import List NArith ZArith Lia Arith Bool Permutation.
From Coq Require Import ZifyBool ZifyNat ZifyN.
From Verif Require Import Base Arrays ModelUtils ModelHuTucker SpecHuTucker.
Import ListNotations.
Open Scope N_scope.

Ltac bd H := match type of H with
  | bind ?m _ = Ok _ => let E := fresh "E" in destruct m eqn:E; cbn [bind] in H; [|discriminate H|discriminate H]
  end.

(** ** How often a symbol occurs *)
Fixpoint cnt (s : N) (n : htNode) : nat :=
  match n with HLeaf _ x => if x =? s then 1%nat else 0%nat | HNode l r _ => (cnt s l + cnt s r)%nat end.
Definition cnto (s : N) (p : option htNode) : nat := match p with Some n => cnt s n | None => 0%nat end.
Definition cntAll (s : N) (v : htNodes) : nat := fold_right (fun p n => (cnto s p + n)%nat) 0%nat v.

Lemma cnt_upd : forall s v i p q, nth_error v i = Some p -> (cntAll s (upd v i q) + cnto s p = cntAll s v + cnto s q)%nat.
Proof.
  intros s. induction v as [|x v IH]; intros [|i] p q H; try discriminate; cbn [nth_error upd cntAll fold_right] in *.
  - injection H as ->. fold (cntAll s v). lia.
  - fold (cntAll s v). fold (cntAll s (upd v i q)). specialize (IH i p q H). lia.
Qed.
Lemma cnt_combine : forall v i j w v' s, combine v i j w = Ok v' -> (cntAll s v' <= cntAll s v)%nat.
Proof.
  intros v i j w v' s H. unfold combine in H. bd H. bd H. destruct a as [a|]; [|discriminate]. destruct a0 as [b|]; [|discriminate].
  apply get_inv in E. apply get_inv in E0. bd H. unfold set in E1, H. destruct (Nat.ltb_spec i (length v)); [|discriminate]. injection E1 as <-.
  destruct (Nat.ltb_spec j (length (upd v i (Some (HNode a b w))))); [|discriminate]. injection H as <-.
  pose proof (cnt_upd s v i _ (Some (HNode a b w)) E) as C1. cbn [cnto cnt] in C1.
  destruct (Nat.eq_dec i j) as [->|N].
  - pose proof (cnt_upd s (upd v j (Some (HNode a b w))) j (Some (HNode a b w)) None) as C2. rewrite nth_error_upd_same in C2 by assumption. specialize (C2 eq_refl). cbn [cnto cnt] in C2. lia.
  - pose proof (cnt_upd s (upd v i (Some (HNode a b w))) j (Some b) None) as C2. rewrite nth_error_upd_other in C2 by auto. specialize (C2 E0). cbn [cnto cnt] in C2. lia.
Qed.
Lemma cnt_combineSum : forall v i j v' s, combineSum v i j = Ok v' -> (cntAll s v' <= cntAll s v)%nat.
Proof. intros v i j v' s H. unfold combineSum in H. bd H. bd H. eapply cnt_combine; eauto. Qed.
Lemma cnt_first : forall s fuel v im1 curr removed v' c r, firstPass fuel v im1 curr removed = Ok (v', c, r) -> (cntAll s v' <= cntAll s v)%nat.
Proof.
  intros s. induction fuel as [|fuel IH]; intros v im1 curr removed v' c r H; cbn [firstPass] in H; (destruct (_ <? _)%nat; [|injection H as <- <- <-; lia]); [discriminate|].
  bd H. bd H. bd H. destruct a1; [|eauto]. bd H. apply IH in H. pose proof (cnt_combineSum _ _ _ _ s E2). lia.
Qed.
Lemma cnt_present : forall s v, cntAll s (present v) = cntAll s v.
Proof. intros s. induction v as [|[x|] v IH]; [reflexivity| |exact IH]. cbn [present filter cntAll fold_right]. f_equal. exact IH. Qed.
Lemma cnt_all : forall s todo v deleted v', combineAll todo v deleted = Ok v' -> (cntAll s v' <= cntAll s v)%nat.
Proof.
  intros s. induction todo as [|todo IH]; intros v deleted v' H; cbn [combineAll] in H; [injection H as <-; lia|].
  set (c := if (_ <=? deleted)%nat then _ else _) in H. assert (C : cntAll s (fst c) = cntAll s v) by (unfold c; destruct (_ <=? deleted)%nat; [apply cnt_present|reflexivity]).
  destruct c as [v1 d1]. cbn [fst] in C. bd H. bd H. bd H. destruct a1 as [[m l] r]. bd H. apply IH in H. pose proof (cnt_combine _ _ _ _ _ s E2). lia.
Qed.
Lemma cnt_leaves : forall s names freqs v, leavesFor freqs names = Ok v -> cntAll s v = count_occ N.eq_dec names s.
Proof.
  intros s. induction names as [|x names IH]; intros freqs v H; [destruct freqs; cbn in H; injection H as <-; reflexivity|]. destruct freqs as [|w freqs]; [discriminate|]. cbn [leavesFor] in H. bd H. injection H as <-.
  cbn [cntAll fold_right cnto cnt count_occ]. fold (cntAll s a). rewrite (IH _ _ E). destruct (N.eqb_spec x s); destruct (N.eq_dec x s); congruence || reflexivity.
Qed.
Lemma cnt_node : forall s v i n, nodeAt v i = Ok n -> (cnt s n <= cntAll s v)%nat.
Proof.
  intros s v i n H. unfold nodeAt in H. bd H. destruct a as [a|]; [|discriminate]. injection H as ->. apply get_inv in E. revert i E.
  induction v as [|x v IH]; intros [|i] E; try discriminate; cbn [nth_error cntAll fold_right] in *; fold (cntAll s v).
  - injection E as ->. cbn [cnto]. lia.
  - specialize (IH i E). lia.
Qed.

(** ** The lengths of a tree *)
Fixpoint depths (n : htNode) (d : N) : list (N * N) :=
  match n with HLeaf _ s => [(s, d)] | HNode l r _ => depths l (d + 1) ++ depths r (d + 1) end.
Lemma depths_cnt : forall s n d, count_occ N.eq_dec (map fst (depths n d)) s = cnt s n.
Proof.
  intros s. induction n as [w x|l IHl r IHr w]; intros d; cbn [depths cnt map fst].
  - cbn [count_occ]. destruct (N.eqb_spec x s); destruct (N.eq_dec x s); congruence || reflexivity.
  - rewrite map_app, count_occ_app, IHl, IHr. reflexivity.
Qed.
Lemma mapSet_perm : forall k v m, ~ In k (map fst m) -> Permutation (mapSet k v m) ((k, v) :: m).
Proof.
  intros k v. induction m as [|[k' v'] m IH]; intros H; [reflexivity|]. cbn [mapSet]. destruct (k <? k'); [reflexivity|].
  destruct (N.eqb_spec k k') as [->|N]; [exfalso; apply H; left; reflexivity|]. rewrite IH by (intros X; apply H; right; exact X). apply perm_swap.
Qed.
Lemma NoDup_app_tail : forall (a b : list N), NoDup (a ++ b) -> NoDup b.
Proof. induction a as [|x a IH]; intros b H; [exact H|]. inversion H. auto. Qed.
Lemma collect_perm : forall n d m, NoDup (map fst (depths n d ++ m)) -> Permutation (collectLengths n d m) (depths n d ++ m).
Proof.
  induction n as [w s|l IHl r IHr w]; intros d m H; cbn [collectLengths depths] in *.
  - apply mapSet_perm. inversion H; assumption.
  - assert (P : Permutation ((depths l (d + 1) ++ depths r (d + 1)) ++ m) (depths r (d + 1) ++ depths l (d + 1) ++ m)) by (rewrite <- app_assoc; apply Permutation_app_swap_app).
    assert (H2 : NoDup (map fst (depths r (d + 1) ++ depths l (d + 1) ++ m))) by (eapply Permutation_NoDup; [apply Permutation_map, P|exact H]).
    assert (H1 : NoDup (map fst (depths l (d + 1) ++ m))) by (rewrite map_app in H2; apply NoDup_app_tail in H2; exact H2).
    pose proof (IHl (d + 1) m H1) as Q. rewrite IHr.
    + rewrite Q. symmetry. exact P.
    + eapply Permutation_NoDup; [|exact H2]. apply Permutation_map, Permutation_app_head. symmetry. exact Q.
Qed.

Definition kraft (D : N) (l : list N) : N := fold_right (fun d sum => 2 ^ (D - d) + sum) 0 l.
Lemma kraft_app : forall D a b, kraft D (a ++ b) = kraft D a + kraft D b.
Proof. intros D. induction a as [|x a IH]; intros b; [reflexivity|]. cbn [app kraft fold_right]. fold (kraft D (a ++ b)) (kraft D a). rewrite IH. lia. Qed.
Fixpoint height (n : htNode) : N := match n with HLeaf _ _ => 0 | HNode l r _ => 1 + N.max (height l) (height r) end.
Lemma tree_kraft : forall n d D, d + height n <= D -> Forall (fun x => x <= D) (map snd (depths n d)) /\ kraft D (map snd (depths n d)) = 2 ^ (D - d).
Proof.
  induction n as [w s|l IHl r IHr w]; intros d D H; cbn [height depths map snd] in *.
  - split; [repeat constructor; lia|]. cbn [kraft fold_right]. lia.
  - destruct (IHl (d + 1) D) as [A1 A2]; [lia|]. destruct (IHr (d + 1) D) as [B1 B2]; [lia|]. rewrite map_app. split; [apply Forall_app; auto|]. rewrite kraft_app, A2, B2.
    replace (D - d) with (N.succ (D - (d + 1))) by lia. rewrite N.pow_succ_r'. lia.
Qed.
Lemma kraft_perm : forall D a b, Permutation a b -> kraft D a = kraft D b.
Proof.
  intros D a b P. induction P as [|x a b P IH|x y a|a b c P IH Q IH']; [reflexivity| | |congruence]; cbn [kraft fold_right].
  - fold (kraft D a) (kraft D b). lia.
  - fold (kraft D a). lia.
Qed.

Lemma nodup_cnt : forall l, (forall s, (count_occ N.eq_dec l s <= 1)%nat) -> NoDup l.
Proof. intros l H. apply (NoDup_count_occ N.eq_dec). exact H. Qed.

Lemma huTucker_complete : forall freqs names l, (2 <= length names)%nat -> NoDup names -> calculateHuTuckerLengths freqs names = Ok l ->
  complete (map fst l) /\ NoDup (map snd l) /\ incl (map snd l) names.
Proof.
  intros freqs names l LN ND H. unfold calculateHuTuckerLengths in H.
  destruct names as [|n0 [|n1 [|n2 names]]]; [cbn in LN; lia|cbn in LN; lia| |].
  { injection H as <-. cbn [map fst snd]. split; [exists 1; split; [repeat constructor; lia|reflexivity]|]. split; [exact ND|apply incl_refl]. }
  set (all := n0 :: n1 :: n2 :: names) in *. clearbody all.
  bd H. rename a into v. bd H. bd H. bd H. destruct a1 as [[v1 c1] r1]. bd H. destruct a1 as [[v2 c2] r2]. bd H. destruct a1 as [v3 r3]. bd H. rename a1 into v4. bd H. rename a1 into root. injection H as <-.
  assert (C : forall s, (cnt s root <= count_occ N.eq_dec all s)%nat).
  { intros s. pose proof (cnt_leaves s _ _ _ E) as K0. pose proof (cnt_first s _ _ _ _ _ _ _ _ E3) as K2. pose proof (cnt_all s _ _ _ _ E5) as K4. pose proof (cnt_node s _ _ _ E6) as K5.
    assert (K1 : (cntAll s v1 <= cntAll s v)%nat).
    { destruct (_ <=? _); [bd E2; injection E2 as <- _ _; eapply cnt_combineSum; eauto|injection E2 as <- _ _; lia]. }
    assert (K3 : (cntAll s v3 <= cntAll s v2)%nat).
    { destruct (_ =? _)%nat; [|injection E4 as <- _; lia]. bd E4. bd E4. destruct (_ <? _); [bd E4; injection E4 as <- _; eapply cnt_combineSum; eauto|injection E4 as <- _; lia]. }
    lia. }
  assert (ND1 : NoDup (map fst (depths root 0))).
  { apply nodup_cnt. intros s. rewrite depths_cnt. pose proof (proj1 (NoDup_count_occ N.eq_dec all) ND s). specialize (C s). lia. }
  pose proof (collect_perm root 0 []) as P. rewrite app_nil_r in P. specialize (P ND1).
  set (f := fun '(s, d) => (d, s)). assert (F1 : map fst (map f (collectLengths root 0 [])) = map snd (collectLengths root 0 [])) by (rewrite map_map; apply map_ext; intros [? ?]; reflexivity).
  assert (F2 : map snd (map f (collectLengths root 0 [])) = map fst (collectLengths root 0 [])) by (rewrite map_map; apply map_ext; intros [? ?]; reflexivity).
  rewrite F1, F2. clear F1 F2. destruct (tree_kraft root 0 (height root)) as [T1 T2]; [lia|]. split; [|split].
  - exists (height root). split; [eapply Permutation_Forall; [|exact T1]; apply Permutation_map; symmetry; exact P|].
    change (kraft (height root) (map snd (collectLengths root 0 [])) = 2 ^ height root). rewrite (kraft_perm _ _ _ (Permutation_map snd P)), T2. f_equal. lia.
  - eapply Permutation_NoDup; [|exact ND1]. apply Permutation_map. symmetry. exact P.
  - intros s HS. apply (Permutation_in _ (Permutation_map fst P)) in HS. apply (count_occ_In N.eq_dec) in HS. rewrite depths_cnt in HS. specialize (C s). apply (count_occ_In N.eq_dec). lia.
Qed.

(** ** Three and four symbols *)
Lemma mapSet2 : forall a b, a <> b -> Permutation (mapSet b 1 (mapSet a 1 [])) [(a, 1); (b, 1)].
Proof. intros a b N. rewrite mapSet_perm; [apply perm_swap|]. cbn. intros [X|[]]. auto. Qed.

Lemma mapSet3 : forall a b c, a <> b -> a <> c -> b <> c -> Permutation (mapSet c 2 (mapSet b 2 (mapSet a 1 []))) [(a, 1); (b, 2); (c, 2)].
Proof.
  intros a b c N1 N2 N3. assert (P : Permutation (mapSet b 2 (mapSet a 1 [])) [(a, 1); (b, 2)]) by (rewrite mapSet_perm; [apply perm_swap|cbn; intros [X|[]]; auto]).
  rewrite mapSet_perm.
  - rewrite P. apply (Permutation_cons_append [(a, 1); (b, 2)] (c, 2)).
  - intros X. apply (Permutation_in _ (Permutation_map fst P)) in X. cbn in X. destruct X as [X|[X|[]]]; auto.
Qed.

Lemma huTucker_three : forall x y z a b c, a <> b -> a <> c -> b <> c ->
  (x <= z -> exists l, calculateHuTuckerLengths [x; y; z] [a; b; c] = Ok l /\ Permutation l [(1, a); (1, b)]) /\
  (z < x -> exists l, calculateHuTuckerLengths [x; y; z] [a; b; c] = Ok l /\ Permutation l [(1, a); (2, b); (2, c)]).
Proof.
  intros x y z a b c N1 N2 N3. split; intros H; cbn -[N.leb N.ltb sum64 mapSet].
  - destruct (N.leb_spec x z); [|lia]. cbn -[N.leb N.ltb sum64 mapSet]. eexists. split; [reflexivity|].
    rewrite (Permutation_map _ (mapSet2 a b N1)). reflexivity.
  - destruct (N.leb_spec x z); [lia|]. cbn -[N.leb N.ltb sum64 mapSet]. destruct (N.ltb_spec z x); [|lia]. cbn -[N.leb N.ltb sum64 mapSet].
    destruct (_ <? _); cbn -[N.leb N.ltb sum64 mapSet]; destruct (_ <? _); cbn -[N.leb N.ltb sum64 mapSet]; (eexists; split; [reflexivity|]);
      rewrite (Permutation_map _ (mapSet3 a b c N1 N2 N3)); reflexivity.
Qed.
Lemma huTucker_four : forall x y z w a b c d, x <= z -> calculateHuTuckerLengths [x; y; z; w] [a; b; c; d] = UB.
Proof. intros x y z w a b c d H. cbn -[N.leb N.ltb sum64 mapSet]. destruct (N.leb_spec x z); [|lia]. reflexivity. Qed.
Lemma huTucker_lost : exists freqs names l, NoDup names /\ calculateHuTuckerLengths freqs names = Ok l /\ exists s, In s names /\ ~ In s (map snd l).
Proof.
  exists [1; 1; 1], [10; 11; 12], [(1, 10); (1, 11)]. split; [repeat constructor; cbn; intuition discriminate|]. split; [vm_compute; reflexivity|].
  exists 12. split; [cbn; auto|]. cbn. intuition discriminate.
Qed.
Lemma not_complete_12 : ~ complete [1; 2].
Proof.
  intros (D & H & E). assert (B : 2 <= D) by (inversion H as [|? ? _ H']; inversion H'; assumption). cbn [fold_right] in E.
  replace (D - 1) with (N.succ (D - 2)) in E by lia. replace D with (N.succ (N.succ (D - 2))) in E at 3 by lia. rewrite !N.pow_succ_r' in E.
  pose proof (N.pow_nonzero 2 (D - 2)). lia.
Qed.

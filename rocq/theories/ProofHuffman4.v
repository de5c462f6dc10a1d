(** The code lengths of a frequency table (C09, C10). *)
From Coq Require Import List NArith ZArith Lia Arith Bool Permutation Sorted.
From Coq Require Import ZifyBool ZifyNat ZifyN.
From Verif Require Import Base Arrays ModelUtils ModelStreams ModelHeaders ModelHuffman SpecHuffman SpecHeaders.
From Verif Require Import ProofHuffman1 ProofHuffman2 ProofHuffman3.
Import ListNotations.
Open Scope nat_scope.

(** ** Sorting *)
Lemma insertPair_perm : forall p l, Permutation (insertPair p l) (p :: l).
Proof.
  intros p l. induction l as [|q l IH]; cbn [insertPair]; [reflexivity|].
  destruct (pairLt q p); [|reflexivity]. etransitivity; [apply perm_skip; exact IH|]. apply perm_swap.
Qed.
Lemma sortPairs_perm : forall l, Permutation (sortPairs l) l.
Proof.
  induction l as [|p l IH]; [reflexivity|]. cbn [sortPairs fold_right].
  etransitivity; [apply insertPair_perm|]. apply perm_skip. exact IH.
Qed.
Definition pairLe (p q : N * N) : Prop := (fst p < fst q \/ (fst p = fst q /\ snd p <= snd q))%N.
Lemma insertPair_sorted : forall p l, StronglySorted pairLe l -> StronglySorted pairLe (insertPair p l).
Proof.
  intros p l. induction l as [|q l IH]; intros S; cbn [insertPair]; [repeat constructor|].
  inversion_clear S as [|? ? S1 S2]. destruct (pairLt q p) eqn:E.
  - constructor; [auto|]. eapply Permutation_Forall; [symmetry; apply insertPair_perm|]. constructor; [|exact S2].
    unfold pairLt, pairLe in *. lia.
  - assert (pairLe p q) by (unfold pairLt, pairLe in *; lia).
    constructor; [constructor; auto|]. constructor; [auto|].
    eapply Forall_impl; [|exact S2]. intros r Hr. unfold pairLe in *. lia.
Qed.
Lemma sortPairs_sorted : forall l, StronglySorted pairLe (sortPairs l).
Proof. induction l; cbn [sortPairs fold_right]; [constructor|]. apply insertPair_sorted. exact IHl. Qed.

Lemma leaves_sorted : forall l, StronglySorted pairLe l -> sorted (leaves (map fst l)).
Proof.
  intros l H. induction H as [|p l S IH F]; [constructor|]. cbn [map leaves]. constructor; [exact IH|].
  apply Forall_forall. intros x Hx. unfold leaves in Hx. rewrite map_map in Hx. apply in_map_iff in Hx.
  destruct Hx as (q & <- & Hq). rewrite Forall_forall in F. specialize (F q Hq). unfold pairLe in F. cbn [fst]. lia.
Qed.

(** ** The table *)
Lemma nonZero_from : forall freqs k f s,
  In (f, s) (filter (fun p => negb (fst p =? 0)%N) (combine freqs (fromTo k (length freqs)))) <->
  (k <= s /\ nth_error freqs (N.to_nat (s - k)) = Some f /\ 0 < f)%N.
Proof.
  induction freqs as [|x freqs IH]; intros k f s; cbn [length fromTo combine filter].
  - split; [intros []|]. intros (_ & H & _). destruct (N.to_nat (s - k)); discriminate.
  - assert (R : In (f, s) (filter (fun p => negb (fst p =? 0)%N) (combine freqs (fromTo (k + 1) (length freqs)))) <->
      (k + 1 <= s /\ nth_error (x :: freqs) (N.to_nat (s - k)) = Some f /\ 0 < f)%N).
    { rewrite IH. split; intros (A & B & C); repeat split; auto.
      - replace (N.to_nat (s - k)) with (S (N.to_nat (s - (k + 1)))) by lia. exact B.
      - replace (N.to_nat (s - k)) with (S (N.to_nat (s - (k + 1)))) in B by lia. exact B. }
    cbn [fst]. destruct (N.eqb_spec x 0) as [->|NZ]; cbn [negb].
    + rewrite R. split; intros (A & B & C); repeat split; auto; try lia.
      destruct (N.eq_dec s k) as [->|]; [|lia]. rewrite N.sub_diag in B. cbn in B. injection B as <-. lia.
    + cbn [In]. rewrite R. split.
      * intros [E|(A & B & C)]; [|repeat split; auto; lia]. injection E as <- <-. rewrite N.sub_diag. cbn.
        repeat split; try lia.
      * intros (A & B & C). destruct (N.eq_dec s k) as [->|]; [left|right; repeat split; auto; lia].
        rewrite N.sub_diag in B. cbn in B. injection B as <-. reflexivity.
Qed.
Lemma nonZero_in : forall freqs f s, In (f, s) (nonZeroPairs freqs) <->
  (nth_error freqs (N.to_nat s) = Some f /\ 0 < f)%N.
Proof.
  intros freqs f s. unfold nonZeroPairs. rewrite nonZero_from. rewrite N.sub_0_r. split; [intuition|intuition; lia].
Qed.
Lemma nonZero_nodup_from : forall freqs k,
  NoDup (map snd (filter (fun p : N * N => negb (fst p =? 0)%N) (combine freqs (fromTo k (length freqs))))).
Proof.
  induction freqs as [|x freqs IH]; intros k; cbn [length fromTo combine filter]; [constructor|].
  cbn [fst]. destruct (negb (x =? 0)%N); [|apply IH]. cbn [map snd]. constructor; [|apply IH].
  intros H. apply in_map_iff in H. destruct H as ([f s] & E & H). apply nonZero_from in H. cbn in E. lia.
Qed.
Lemma nonZero_sum_from : forall freqs k,
  fold_right (fun (p : N * N) a => (fst p + a)%N) 0%N
    (filter (fun p => negb (fst p =? 0)%N) (combine freqs (fromTo k (length freqs)))) = sumN freqs.
Proof.
  induction freqs as [|x freqs IH]; intros k; [reflexivity|]. cbn [length fromTo combine filter fst].
  change (sumN (x :: freqs)) with (x + sumN freqs)%N.
  destruct (N.eqb_spec x 0) as [->|NZ]; cbn [negb].
  - rewrite IH. lia.
  - cbn [fold_right fst]. rewrite IH. reflexivity.
Qed.

Lemma sumw_leaves : forall l : list (N * N), sumw (leaves (map fst l)) = fold_right (fun p a => (fst p + a)%N) 0%N l.
Proof. induction l as [|p l IH]; [reflexivity|]. cbn [map leaves fold_right]. rewrite <- IH. reflexivity. Qed.
Lemma sum_perm : forall (a b : list (N * N)), Permutation a b ->
  fold_right (fun p x => (fst p + x)%N) 0%N a = fold_right (fun p x => (fst p + x)%N) 0%N b.
Proof. intros a b P. induction P; cbn [fold_right]; lia. Qed.

Lemma map_fst_combine : forall {A B} (a : list A) (b : list B), length a = length b -> map fst (combine a b) = a.
Proof. induction a as [|x a IH]; intros [|y b] H; try discriminate; cbn; [reflexivity|]. f_equal. apply IH. cbn in H. lia. Qed.
Lemma map_snd_combine : forall {A B} (a : list A) (b : list B), length a = length b -> map snd (combine a b) = b.
Proof. induction a as [|x a IH]; intros [|y b] H; try discriminate; cbn; [reflexivity|]. f_equal. apply IH. cbn in H. lia. Qed.

Lemma wcost_table : forall freqs (l : list (N * N)) dl, length dl = length l ->
  (forall p, In p l -> nth (N.to_nat (snd p)) freqs 0%N = fst p) ->
  wcost (leaves (map fst l)) dl = coded_length freqs (combine (map N.of_nat dl) (map snd l)).
Proof.
  intros freqs l. induction l as [|[w s] l IH]; intros [|d dl] HL HN; try discriminate; [reflexivity|].
  cbn [map leaves wcost combine fst snd]. unfold coded_length. cbn [fold_right fst snd].
  rewrite (HN (w, s) (or_introl eq_refl) : nth (N.to_nat s) freqs 0%N = w).
  fold (coded_length freqs (combine (map N.of_nat dl) (map snd l))). rewrite <- IH.
  - reflexivity.
  - cbn in HL. lia.
  - intros p Hp. apply HN. right. exact Hp.
Qed.

Lemma maxlen_bound : forall (l : list nat), exists H, Forall (fun x => x <= H) l.
Proof.
  induction l as [|x l [H F]]; [exists 0; constructor|]. exists (Nat.max x H). constructor; [lia|].
  eapply Forall_impl; [|exact F]. cbn. intros. lia.
Qed.

Lemma pcost_table : forall freqs (assign : N -> list bool) (l : list (N * N)),
  (forall p, In p l -> nth (N.to_nat (snd p)) freqs 0%N = fst p) ->
  pcost (map (fun p => (fst p, length (assign (snd p)))) l) =
  coded_length freqs (map (fun s => (N.of_nat (length (assign s)), s)) (map snd l)).
Proof.
  intros freqs assign l. induction l as [|[w s] l IH]; intros HN; [reflexivity|].
  cbn [map fst snd]. rewrite pcost_cons, IH by (intros p Hp; apply HN; right; exact Hp).
  unfold coded_length. cbn [fold_right fst snd].
  rewrite (HN (w, s) (or_introl eq_refl) : nth (N.to_nat s) freqs 0%N = w). reflexivity.
Qed.

Lemma nonZero_length_from : forall freqs k,
  length (filter (fun p : N * N => negb (fst p =? 0)%N) (combine freqs (fromTo k (length freqs)))) =
  length (filter (fun f => 0 <? f)%N freqs).
Proof.
  induction freqs as [|x freqs IH]; intros k; [reflexivity|].
  cbn [length fromTo combine filter fst]. destruct (N.eqb_spec x 0) as [->|NZ]; cbn [negb].
  - change (0 <? 0)%N with false. apply IH.
  - replace (0 <? x)%N with true by lia. cbn [length]. f_equal. apply IH.
Qed.

Lemma huffman_all : forall freqs, (2 <= length (filter (fun f => 0 <? f)%N freqs)) ->
  (sumN freqs < two64)%N ->
  exists lens, calculateHuffmanLengths freqs = Ok lens /\
    NoDup (map snd lens) /\ (forall s, In s (map snd lens) <-> occurs freqs s) /\
    complete (map (fun p => N.to_nat (fst p)) lens) /\
    Forall (fun p => 1 <= fst p)%N lens /\
    StronglySorted (fun p q => fst q <= fst p /\
      nth (N.to_nat (snd p)) freqs 0 <= nth (N.to_nat (snd q)) freqs 0)%N lens /\
    Forall (fun p => fib (N.to_nat (fst p) + 2) <= sumN freqs)%N lens /\
    (forall assign : N -> list bool, prefix_free (map assign (map snd lens)) ->
       coded_length freqs lens <=
       coded_length freqs (map (fun s => (N.of_nat (length (assign s)), s)) (map snd lens)))%N.
Proof.
  intros freqs H2 HS.
  set (nz := nonZeroPairs freqs). set (so := sortPairs nz).
  assert (LN : length nz = length (filter (fun f => 0 <? f)%N freqs)).
  { apply nonZero_length_from. }
  pose proof (sortPairs_perm nz) as PS. fold so in PS.
  assert (LS : length so = length nz) by (apply Permutation_length; exact PS).
  assert (SW : sumw (leaves (map fst so)) = sumN freqs).
  { rewrite sumw_leaves. rewrite (sum_perm _ _ PS). apply nonZero_sum_from. }
  destruct (lengths_array (map fst so)) as (dl & E & P & R & C).
  { rewrite map_length. lia. } { lia. }
  cbv zeta in C. rewrite map_length in C.
  destruct (hrun_length _ _ _ _ _ _ R) as (_ & LD & LE & LP).
  unfold leaves in LD, LE. rewrite !map_length in LD, LE. cbn [length] in LE.
  assert (Hnz : exists p q r, nz = p :: q :: r).
  { destruct nz as [|p [|q r]]; cbn in LN; try lia. eauto. }
  exists (combine (map N.of_nat dl) (map snd so)).
  assert (LC : length (map N.of_nat dl) = length (map snd so)) by (rewrite !map_length; exact LD).
  split.
  { unfold calculateHuffmanLengths. fold nz. destruct Hnz as (p & q & r & Hnz).
    unfold calculateCodeLengths. rewrite Hnz. rewrite <- Hnz. fold so.
    cbv zeta. destruct (phase1Loop (length so - 1) (length so) 0 (map fst so, 0, 0)) as [[[f1 s1] r1]| |];
      cbn [bind] in C |- *; try discriminate.
    destruct (set f1 (length so - 2) 0%N) as [f2| |]; cbn [bind] in C |- *; try discriminate.
    destruct (phase2Loop (length so - 2) f2) as [f3| |]; cbn [bind] in C |- *; try discriminate.
    rewrite C. reflexivity. }
  rewrite (map_snd_combine _ _ LC).
  assert (HIN : forall p, In p so <-> In p nz).
  { intros p. split; apply Permutation_in; [exact PS|symmetry; exact PS]. }
  assert (HNT : forall p, In p so -> nth (N.to_nat (snd p)) freqs 0%N = fst p).
  { intros [f s] Hp. apply HIN in Hp. apply nonZero_in in Hp. cbn [fst snd]. apply nth_error_nth. apply Hp. }
  assert (SO : sorted (leaves (map fst so))) by (apply leaves_sorted, sortPairs_sorted).
  assert (IV : inv 0 (leaves (map fst so)) []).
  { split; [exact SO|]. split; [constructor|]. split; [intros; lia|intros y []]. }
  assert (POS : forall p, In p so -> (1 <= fst p)%N).
  { intros [f s] Hp. apply HIN in Hp. apply nonZero_in in Hp. cbn [fst]. lia. }
  split; [|split; [|split; [|split; [|split; [|split]]]]].
  - eapply Permutation_NoDup; [apply Permutation_map; symmetry; exact PS|]. apply nonZero_nodup_from.
  - intros s. unfold occurs. split.
    + intros H. apply in_map_iff in H. destruct H as ([f s'] & <- & H). apply HIN in H. apply nonZero_in in H.
      cbn [snd]. exists f. exact H.
    + intros (f & H). apply in_map_iff. exists (f, s). split; [reflexivity|]. apply HIN. apply nonZero_in. exact H.
  - assert (ED : map (fun p : N * N => N.to_nat (fst p)) (combine (map N.of_nat dl) (map snd so)) = dl).
    { rewrite <- (map_map fst N.to_nat). rewrite (map_fst_combine _ _ LC). rewrite map_map.
      rewrite <- (map_id dl) at 2. apply map_ext. intros; lia. }
    rewrite ED. intros H F. pose proof (hrun_kraft _ _ _ _ _ _ R H F) as K. cbn [length firstn] in K.
    specialize (K (Forall_nil _)). change (kraft H []) with 0%N in K. lia.
  - assert (D1 : Forall (fun d => 1 <= d) dl).
    { clear - R. assert (G : forall t ls q dl E P, hrun t ls q dl E P -> Forall (fun d => 1 <= d) dl).
      { induction 1; [constructor|]. apply Forall_app. split; [|assumption].
        apply Forall_forall. intros x Hx. apply repeat_spec in Hx. lia. }
      eapply G. exact R. }
    apply Forall_forall. intros [l s] Hp. apply in_combine_l in Hp. apply in_map_iff in Hp.
    destruct Hp as (d & <- & Hd). rewrite Forall_forall in D1. specialize (D1 d Hd). cbn [fst]. lia.
  - destruct (hrun_mono _ _ _ _ _ _ R) as (_ & MD & _).
    assert (SP : StronglySorted pairLe so) by apply sortPairs_sorted.
    clear - LD HNT MD SP. revert dl LD MD HNT. induction SP as [|[w s] so S IH F]; intros [|d dl] LD MD HNT; try discriminate; [constructor|].
    cbn [map combine snd]. constructor.
    + apply IH.
      * cbn in LD. lia.
      * intros i j x y Hij Hx Hy. apply (MD (Datatypes.S i) (Datatypes.S j) x y); auto. lia.
      * intros p Hp. apply HNT. right. exact Hp.
    + apply Forall_forall. intros [l s'] Hp. cbn [fst snd].
      pose proof (in_combine_l _ _ _ _ Hp) as Hl. apply in_map_iff in Hl. destruct Hl as (e & <- & He).
      pose proof (in_combine_r _ _ _ _ Hp) as Hr. apply in_map_iff in Hr. destruct Hr as ([w' s''] & E & Hr).
      cbn [snd] in E. subst s''.
      split.
      * destruct (In_nth_error _ _ He) as [i Hi]. specialize (MD 0 (Datatypes.S i) d e ltac:(lia) eq_refl Hi). lia.
      * pose proof (HNT (w, s) (or_introl eq_refl)) as X1. pose proof (HNT (w', s') (or_intror Hr)) as X2.
        cbn [fst snd] in X1, X2. rewrite X1, X2. rewrite Forall_forall in F. specialize (F _ Hr).
        unfold pairLe in F. cbn [fst snd] in F. lia.
  - destruct (hrun_height _ _ _ _ _ _ R 0%N IV) as (HT & F1 & F2 & _).
    { split; [|intros y []]. intros y Hy. unfold leaves in Hy. rewrite map_map in Hy. apply in_map_iff in Hy.
      destruct Hy as (p & <- & Hp). cbn [fst snd]. split; [reflexivity|]. apply POS. exact Hp. }
    rewrite SW in F1. change (sumw []) with 0%N in F1. rewrite N.add_0_r in F1.
    apply Forall_forall. intros [l s] Hp. apply in_combine_l in Hp. apply in_map_iff in Hp.
    destruct Hp as (d & <- & Hd). cbn [fst]. rewrite Nat2N.id.
    assert (d <= HT).
    { clear - F2 Hd. induction F2; [destruct Hd|]. destruct Hd as [<-|Hd]; [lia|auto]. }
    pose proof (fib_mono (d + 2) (HT + 2) ltac:(lia)). lia.
  - intros assign PF. rewrite <- (wcost_table freqs so dl LD HNT).
    rewrite <- (pcost_table freqs assign so HNT).
    destruct (maxlen_bound (map (fun p => length (assign (snd p))) so)) as [H FH].
    pose proof (hrun_optimal _ _ _ _ _ _ R 0%N IV H (map (fun p => (fst p, length (assign (snd p)))) so)) as O.
    cbn [length firstn wcost] in O. rewrite N.add_0_r in O. apply O.
    + rewrite app_nil_r. unfold leaves. rewrite !map_map. reflexivity.
    + rewrite map_map. cbn [snd]. exact FH.
    + rewrite map_map. cbn [snd].
      pose proof (kraft_inequality H (map assign (map snd so)) PF) as K.
      rewrite !map_map in K. apply K. rewrite Forall_map in FH |- *. exact FH.
Qed.

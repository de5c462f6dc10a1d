(** createHuffmanShape builds an optimal code (C57). *)
From Coq Require Import List NArith ZArith Lia Arith Bool Permutation.
From Coq Require Import ZifyBool ZifyNat ZifyN.
From Verif Require Import Base Arrays ModelUtils ModelHeap SpecHeap ProofHeap SpecHeaders SpecHuffman ModelHuffman ProofHuffman1 ProofHuffman2 ProofHuffman3 ProofHuffman4 ModelShape.
Import ListNotations.
Open Scope N_scope.

Section Freqs.
Variable freq : N -> N.

(** Symbols with depths; weight and cost of a tree. *)
Fixpoint symbolDepths (t : shape) (d : nat) : list (N * nat) :=
  match t with
  | SLeaf s => [(s, d)]
  | SLeft l => symbolDepths l (S d)
  | SNode l r => symbolDepths l (S d) ++ symbolDepths r (S d)
  end.
Fixpoint symbols (t : shape) : list N := match t with SLeaf s => [s] | SLeft l => symbols l | SNode l r => symbols l ++ symbols r end.
Definition weight (l : list N) : N := fold_right (fun s a => freq s + a) 0 l.
Definition cost (l : list (N * nat)) : N := fold_right (fun p a => freq (fst p) * N.of_nat (snd p) + a) 0 l.

Lemma weight_app : forall a b, weight (a ++ b) = weight a + weight b.
Proof. induction a as [|x a IH]; intros b; [reflexivity|]. cbn [app weight fold_right]. fold (weight (a ++ b)) (weight a). rewrite IH. lia. Qed.
Lemma weight_perm : forall a b, Permutation a b -> weight a = weight b.
Proof. intros a b P. unfold weight. induction P; cbn [fold_right]; lia. Qed.
Lemma cost_app : forall a b, cost (a ++ b) = cost a + cost b.
Proof. induction a as [|x a IH]; intros b; [reflexivity|]. cbn [app cost fold_right]. fold (cost (a ++ b)) (cost a). rewrite IH. lia. Qed.
Lemma cost_deeper : forall t d, cost (symbolDepths t (S d)) = cost (symbolDepths t d) + weight (symbols t).
Proof.
  induction t as [s|l IHl|l IHl r IHr]; intros d; cbn [symbolDepths symbols].
  - cbn. nia.
  - apply IHl.
  - rewrite !cost_app, weight_app, IHl, IHr. lia.
Qed.
Lemma depths_symbols : forall t d, map fst (symbolDepths t d) = symbols t.
Proof. induction t as [s|l IHl|l IHl r IHr]; intros d; cbn [symbolDepths symbols]; [reflexivity|apply IHl|rewrite map_app, IHl, IHr; reflexivity]. Qed.

(** Every weight in the heap is that of its tree. *)
Definition weighed (heap : list (shape * N)) : Prop := Forall (fun p => snd p = weight (symbols (fst p))) heap.
Definition allSymbols (heap : list (shape * N)) : list N := flat_map (fun p => symbols (fst p)) heap.
Definition allCost (heap : list (shape * N)) : N := fold_right (fun p a => cost (symbolDepths (fst p) 0) + a) 0 heap.
Lemma allCost_perm : forall a b, Permutation a b -> allCost a = allCost b.
Proof. intros a b P. unfold allCost. induction P; cbn [fold_right]; lia. Qed.
Lemma weighed_perm : forall a b, Permutation a b -> weighed a -> weighed b.
Proof. intros a b P W. eapply Permutation_Forall; eauto. Qed.
Lemma weight_all : forall heap, weighed heap -> fold_right (fun p a => snd p + a) 0 heap = weight (allSymbols heap).
Proof. intros heap W. induction W as [|p heap E W IH]; [reflexivity|]. cbn [fold_right allSymbols flat_map]. fold (allSymbols heap). rewrite weight_app, IH, E. reflexivity. Qed.

Lemma merge_shapes : forall n heap fuel, length heap = S n -> (n <= fuel)%nat -> ordered shape heap -> weighed heap -> weight (allSymbols heap) < two64 ->
  exists t w, mergeShapes fuel heap = Ok [(t, w)] /\ Permutation (symbols t) (allSymbols heap) /\
    forall H al, Permutation (map fst al) (map snd heap) -> Forall (fun x => (x <= H)%nat) (map snd al) -> kraft H (map snd al) <= 2 ^ N.of_nat H ->
      cost (symbolDepths t 0) <= allCost heap + pcost al.
Proof.
  induction n as [|n IH]; intros heap fuel LH LF O W B.
  - destruct heap as [|[t w] [|]]; try discriminate. exists t, w. split; [destruct fuel; reflexivity|]. split; [cbn; rewrite app_nil_r; reflexivity|].
    intros H al _ _ _. cbn [allCost fold_right fst]. lia.
  - destruct fuel as [|fuel]; [lia|]. cbn [mergeShapes]. replace (1 <? length heap)%nat with true by (symmetry; apply Nat.ltb_lt; lia).
    destruct (delete_spec _ heap O) as (x1 & h1 & E1 & O1 & P1 & M1); [destruct heap; discriminate|]. rewrite E1. cbn [bind].
    assert (L1 : length heap = S (length h1)) by (rewrite (Permutation_length P1); reflexivity).
    destruct (delete_spec _ h1 O1) as (x2 & h2 & E2 & O2 & P2 & M2); [destruct h1; [cbn in L1; lia|discriminate]|]. rewrite E2. cbn [bind].
    assert (L2 : length h1 = S (length h2)) by (rewrite (Permutation_length P2); reflexivity).
    assert (P : Permutation heap (x1 :: x2 :: h2)) by (rewrite P1, P2; reflexivity).
    assert (W2 : weighed (x1 :: x2 :: h2)) by (eapply weighed_perm; eauto). inversion W2 as [|? ? Wx1 W2']; subst. inversion W2' as [|? ? Wx2 Wh]; subst. clear W2'.
    assert (PS : Permutation (allSymbols heap) (allSymbols (x1 :: x2 :: h2))) by (unfold allSymbols; apply Permutation_flat_map; exact P).
    assert (B2 : snd x1 + snd x2 < two64).
    { rewrite (weight_perm _ _ PS) in B. cbn [allSymbols flat_map] in B. rewrite !weight_app in B. lia. }
    rewrite (N.mod_small (snd x1 + snd x2)) by exact B2.
    set (y := SNode (fst x2) (fst x1)). destruct (insert_spec _ h2 y (snd x1 + snd x2) O2) as (h3 & E3 & O3 & P3). rewrite E3. cbn [bind].
    assert (Wy : weighed ((y, snd x1 + snd x2) :: h2)).
    { constructor; [|exact Wh]. cbn [fst snd y symbols]. rewrite weight_app, <- Wx1, <- Wx2. lia. }
    assert (PY : Permutation (allSymbols ((y, snd x1 + snd x2) :: h2)) (allSymbols heap)).
    { rewrite PS. cbn [allSymbols flat_map fst y symbols]. rewrite <- app_assoc. apply Permutation_app_swap_app. }
    assert (PS3 : Permutation (allSymbols h3) (allSymbols heap)) by (rewrite <- PY; unfold allSymbols; apply Permutation_flat_map; exact P3).
    destruct (IH h3 fuel) as (t & w & R & RS & RC).
    + rewrite (Permutation_length P3). cbn [length]. lia.
    + lia.
    + exact O3.
    + eapply weighed_perm; [symmetry; exact P3|exact Wy].
    + rewrite (weight_perm _ _ PS3). exact B.
    + exists t, w. split; [exact R|]. split; [rewrite RS; exact PS3|]. intros H al PA FA KA.
      assert (PB : Permutation (map fst al) (snd x1 :: snd x2 :: map snd h2)) by (rewrite PA; apply (Permutation_map snd) in P; exact P).
      destruct (Permutation_map_inv fst al (Permutation_sym PB)) as (al2 & A1 & PB2).
      destruct al2 as [|[w1 l1] [|[w2 l2] rest]]; try discriminate. cbn [map fst] in A1. injection A1 as <- <- A1.
      assert (PD : Permutation (map snd al) (l1 :: l2 :: map snd rest)) by (apply (Permutation_map snd) in PB2; exact PB2).
      destruct (merge H (snd x1) l1 (snd x2) l2 rest) as (l & r & Q1 & Q2 & Q3 & Q4).
      * eapply Forall_forall in M1; [|eapply Permutation_in; [symmetry; exact P2|left; reflexivity]]. exact M1.
      * intros p Hp. assert (I : In (fst p) (map snd h2)) by (rewrite A1; apply in_map; exact Hp). apply in_map_iff in I. destruct I as (z & <- & Iz). exact (proj1 (Forall_forall _ _) M2 z Iz).
      * eapply Permutation_Forall; [exact PD|exact FA].
      * rewrite <- (kraft_perm H _ _ PD). exact KA.
      * specialize (RC H ((snd x1 + snd x2, l) :: r)). rewrite (pcost_perm _ _ PB2). rewrite (allCost_perm _ _ P3), (pcost_cons) in RC.
        assert (RC' : cost (symbolDepths t 0) <= allCost ((y, snd x1 + snd x2) :: h2) + ((snd x1 + snd x2) * N.of_nat l + pcost r)).
        { apply RC; [|exact Q2|exact Q3]. cbn [map fst]. rewrite Q1, <- A1. apply (Permutation_map snd) in P3. rewrite P3. reflexivity. }
        rewrite (allCost_perm _ _ P). cbn [allCost fold_right fst y symbolDepths] in *. fold (allCost h2) in *. rewrite cost_app, !cost_deeper in RC'. rewrite <- Wx1, <- Wx2 in RC'. lia.
Qed.
End Freqs.

Lemma insert_leaves : forall freqs b heap, ordered shape heap -> exists heap', insertLeaves freqs b heap = Ok heap' /\ ordered shape heap' /\
  Permutation heap' (map (fun p => (SLeaf (snd p), fst p)) (filter (fun p => negb (fst p =? 0)) (combine freqs (fromTo b (length freqs)))) ++ heap).
Proof.
  induction freqs as [|f freqs IH]; intros b heap O; cbn [insertLeaves length fromTo combine filter fst].
  - exists heap. repeat split; auto.
  - destruct (N.eqb_spec f 0) as [->|NZ]; cbn [bind negb].
    + apply IH. exact O.
    + destruct (insert_spec _ heap (SLeaf b) f O) as (h & E & O' & P). rewrite E. cbn [bind]. destruct (IH (b + 1) h O') as (h' & E' & O'' & P'). exists h'. split; [exact E'|]. split; [exact O''|].
      cbn [map snd fst app]. rewrite P', P. symmetry. apply Permutation_middle.
Qed.

(** ** Codes *)
Lemma codes_symbols : forall t vec, map fst (shapeCodes t vec) = symbols t.
Proof. induction t as [s|l IHl|l IHl r IHr]; intros vec; cbn [shapeCodes symbols]; [reflexivity|apply IHl|rewrite map_app, IHl, IHr; reflexivity]. Qed.
Lemma codes_depths : forall t vec, map (fun p => (fst p, length (snd p))) (shapeCodes t vec) = symbolDepths t (length vec).
Proof.
  induction t as [s|l IHl|l IHl r IHr]; intros vec; cbn [shapeCodes symbolDepths]; [reflexivity| |].
  - rewrite IHl, app_length. cbn [length]. f_equal. lia.
  - rewrite map_app, IHl, IHr, !app_length. cbn [length]. rewrite Nat.add_1_r. reflexivity.
Qed.
Lemma codes_start : forall t vec c, In c (map snd (shapeCodes t vec)) -> is_prefix vec c.
Proof.
  assert (S : forall vec b c, is_prefix (vec ++ [b]) c -> is_prefix vec c) by (intros vec b c [x ->]; exists ([b] ++ x); rewrite app_assoc; reflexivity).
  induction t as [s|l IHl|l IHl r IHr]; intros vec c H; cbn [shapeCodes] in H.
  - destruct H as [<-|[]]. exists []. symmetry. apply app_nil_r.
  - eauto.
  - rewrite map_app in H. apply in_app_or in H. destruct H; eauto.
Qed.
Lemma pairs_app : forall (R : list bool -> list bool -> Prop) a b, ForallOrdPairs R a -> ForallOrdPairs R b -> (forall x y, In x a -> In y b -> R x y) -> ForallOrdPairs R (a ++ b).
Proof.
  intros R a b A B C. induction A as [|x a F A IH]; [exact B|]. cbn [app]. constructor.
  - apply Forall_app. split; [exact F|]. apply Forall_forall. intros y Hy. apply C; [left; reflexivity|exact Hy].
  - apply IH. intros u v Hu Hv. apply C; [right; exact Hu|exact Hv].
Qed.
Lemma codes_free : forall t vec, prefix_free (map snd (shapeCodes t vec)).
Proof.
  induction t as [s|l IHl|l IHl r IHr]; intros vec; cbn [shapeCodes].
  - repeat constructor.
  - apply IHl.
  - rewrite map_app. apply pairs_app; [apply IHl|apply IHr|]. intros x y Hx Hy. apply codes_start in Hx. apply codes_start in Hy. destruct Hx as [u ->]. destruct Hy as [v ->].
    split; intros [z E]; rewrite <- !app_assoc in E; apply app_inv_head in E; discriminate.
Qed.

Lemma free_perm : forall a b, Permutation a b -> prefix_free b -> prefix_free a.
Proof.
  intros a b P. apply Permutation_sym in P. unfold prefix_free.
  induction P as [|x a b P IH|x y a|a b c P IH Q IH']; intros H; [exact H| | |auto].
  - inversion H; subst. constructor; [eapply Permutation_Forall; eauto|auto].
  - inversion H as [|? ? F H1]; subst. inversion H1 as [|? ? F1 H2]; subst. inversion F as [|? ? [U V] F2]; subst. constructor; [constructor; [split; assumption|exact F1]|]. constructor; assumption.
Qed.

Lemma cost_coded : forall freqs t, coded_length freqs (map (fun p => (N.of_nat (length (snd p)), fst p)) (shapeCodes t [])) = cost (fun s => nth (N.to_nat s) freqs 0) (symbolDepths t 0).
Proof.
  intros freqs t. change 0%nat with (length (@nil bool)). rewrite <- codes_depths. generalize (shapeCodes t []). induction l as [|[s c] l IH]; [reflexivity|].
  unfold coded_length, cost in *. cbn [map fold_right fst snd]. rewrite IH. reflexivity.
Qed.
Lemma coded_perm : forall freqs a b, Permutation a b -> coded_length freqs a = coded_length freqs b.
Proof. intros freqs a b P. unfold coded_length. induction P; cbn [fold_right]; lia. Qed.

Lemma shape_core : forall freqs, (2 <= length (filter (fun f => (0 <? f)%N) freqs))%nat -> sumN freqs < two64 ->
  exists t, createHuffmanShape freqs = Ok t /\ NoDup (map fst (shapeCodes t [])) /\ (forall s, In s (map fst (shapeCodes t [])) <-> occurs freqs s) /\
    prefix_free (map snd (shapeCodes t [])) /\
    forall lens H, Permutation (map snd lens) (map fst (shapeCodes t [])) -> Forall (fun x => (x <= H)%nat) (map (fun p => N.to_nat (fst p)) lens) ->
      kraft H (map (fun p => N.to_nat (fst p)) lens) <= 2 ^ N.of_nat H ->
      coded_length freqs (map (fun p => (N.of_nat (length (snd p)), fst p)) (shapeCodes t [])) <= coded_length freqs lens.
Proof.
  intros freqs H2 HS. unfold createHuffmanShape.
  destruct (insert_leaves freqs 0 []) as (heap & E & O & P). { intros i p q. destruct i; discriminate. }
  rewrite E. cbn [bind]. rewrite app_nil_r in P. fold (nonZeroPairs freqs) in P.
  assert (LN : length heap = length (filter (fun f => 0 <? f)%N freqs)) by (rewrite (Permutation_length P), map_length; apply nonZero_length_from).
  destruct (Nat.eqb_spec (length heap) 1); [lia|]. cbn [bind].
  set (fr := fun s => nth (N.to_nat s) freqs 0).
  assert (NZ : forall p, In p (nonZeroPairs freqs) -> fr (snd p) = fst p).
  { intros [f s] Hp. apply nonZero_in in Hp. destruct Hp as [Hp _]. cbn [fst snd]. unfold fr. erewrite nth_error_nth; eauto. }
  assert (W : weighed fr heap).
  { eapply weighed_perm; [symmetry; exact P|]. apply Forall_forall. intros x Hx. apply in_map_iff in Hx. destruct Hx as (p & <- & Hp). cbn [fst snd symbols weight fold_right]. rewrite (NZ p Hp). lia. }
  assert (PS : Permutation (allSymbols heap) (map snd (nonZeroPairs freqs))).
  { etransitivity; [unfold allSymbols; apply Permutation_flat_map; exact P|]. rewrite flat_map_concat_map, map_map. cbn [fst symbols]. rewrite <- flat_map_concat_map. clear. induction (nonZeroPairs freqs); [reflexivity|]. cbn. constructor. assumption. }
  assert (B : weight fr (allSymbols heap) < two64).
  { rewrite (weight_perm _ _ _ PS). rewrite <- (nonZero_sum_from freqs 0) in HS. fold (nonZeroPairs freqs) in HS. eapply N.le_lt_trans; [|exact HS]. clear - NZ. induction (nonZeroPairs freqs) as [|p l IH]; [cbn; lia|].
    cbn [map weight fold_right]. fold (weight fr (map snd l)). rewrite (NZ p (or_introl eq_refl)). assert (weight fr (map snd l) <= fold_right (fun (p : N * N) a => fst p + a) 0 l) by (apply IH; intros q Hq; apply NZ; right; exact Hq). lia. }
  destruct (merge_shapes fr (length heap - 1) heap (length heap)) as (t & w & R & RS & RC); [lia|lia|exact O|exact W|exact B|].
  rewrite R. cbn. exists t. split; [reflexivity|]. rewrite codes_symbols.
  assert (PT : Permutation (symbols t) (map snd (nonZeroPairs freqs))) by (rewrite RS; exact PS).
  split; [eapply Permutation_NoDup; [symmetry; exact PT|apply nonZero_nodup_from]|]. split; [|split; [apply codes_free|]].
  - intros s. unfold occurs. split; intros H.
    + apply (Permutation_in _ PT) in H. apply in_map_iff in H. destruct H as ([f s'] & <- & H). apply nonZero_in in H. exists f. exact H.
    + destruct H as (f & H). apply (Permutation_in _ (Permutation_sym PT)). apply in_map_iff. exists (f, s). split; [reflexivity|]. apply nonZero_in. exact H.
  - intros lens H PL FH KH. rewrite cost_coded. fold fr.
    set (al := map (fun p => (fr (snd p), N.to_nat (fst p))) lens).
    assert (C0 : allCost fr heap = 0).
    { rewrite (allCost_perm _ _ _ P). clear. induction (nonZeroPairs freqs) as [|p l IH]; [reflexivity|]. cbn [map allCost fold_right fst symbolDepths cost snd]. fold (allCost fr (map (fun p0 : N * N => (SLeaf (snd p0), fst p0)) l)). rewrite IH. lia. }
    assert (CA : coded_length freqs lens = pcost al).
    { unfold al. clear. induction lens as [|[d s] l IH]; [reflexivity|]. cbn [map fst snd]. rewrite pcost_cons, <- IH. unfold coded_length. cbn [fold_right fst snd]. fold (fr s). lia. }
    rewrite CA. rewrite <- (N.add_0_l (pcost al)), <- C0. apply (RC H).
    + apply (Permutation_map snd) in P. rewrite P, map_map. cbn [snd]. unfold al. rewrite map_map. cbn [fst]. rewrite <- (map_map snd fr).
      rewrite PL, PT, map_map. erewrite map_ext_in; [reflexivity|]. exact NZ.
    + unfold al. rewrite map_map. exact FH.
    + unfold al. rewrite map_map. exact KH.
Qed.

Lemma shape_optimal : forall freqs, (2 <= length (filter (fun f => (0 <? f)%N) freqs))%nat -> sumN freqs < two64 ->
  exists t, createHuffmanShape freqs = Ok t /\ NoDup (map fst (shapeCodes t [])) /\ (forall s, In s (map fst (shapeCodes t [])) <-> occurs freqs s) /\
    prefix_free (map snd (shapeCodes t [])) /\
    forall assign : N -> list bool, prefix_free (map assign (map fst (shapeCodes t []))) ->
      coded_length freqs (map (fun p => (N.of_nat (length (snd p)), fst p)) (shapeCodes t [])) <=
      coded_length freqs (map (fun s => (N.of_nat (length (assign s)), s)) (map fst (shapeCodes t []))).
Proof.
  intros freqs H2 HS. destruct (shape_core freqs H2 HS) as (t & E & ND & OC & PF & OPT). exists t. repeat split; try assumption; try apply OC.
  intros assign PA. destruct (maxlen_bound (map (@length bool) (map assign (map fst (shapeCodes t []))))) as [H FH].
  pose proof (kraft_inequality H _ PA) as K. rewrite !map_map in *.
  apply (OPT _ H).
  - rewrite !map_map. reflexivity.
  - rewrite !map_map. cbn [fst]. erewrite map_ext; [exact FH|]. intros p. cbn. apply Nat2N.id.
  - rewrite !map_map. cbn [fst]. erewrite map_ext; [apply K|intros p; apply Nat2N.id]. apply Forall_map. apply Forall_map in FH. exact FH.
Qed.

(** The other construction needs as many bits. *)
Lemma shape_same : forall freqs lens t, (2 <= length (filter (fun f => (0 <? f)%N) freqs))%nat -> sumN freqs < two64 ->
  calculateHuffmanLengths freqs = Ok lens -> createHuffmanShape freqs = Ok t ->
  coded_length freqs (map (fun p => (N.of_nat (length (snd p)), fst p)) (shapeCodes t [])) = coded_length freqs lens.
Proof.
  intros freqs lens t H2 HS EL ET. destruct (shape_core freqs H2 HS) as (t' & E & ND & OC & PF & OPT). rewrite ET in E. injection E as <-.
  destruct (huffman_all freqs H2 HS) as (lens' & E & ND' & OC' & CM & _ & _ & _ & LOPT). rewrite EL in E. injection E as <-.
  assert (PP : Permutation (map snd lens) (map fst (shapeCodes t []))).
  { apply NoDup_Permutation; try assumption. intros s. rewrite OC, OC'. reflexivity. }
  apply N.le_antisymm.
  - destruct (maxlen_bound (map (fun p => N.to_nat (fst p)) lens)) as [H FH]. apply (OPT lens H PP FH). rewrite (CM H FH). lia.
  - set (assign := fun s => match find (fun p => fst p =? s) (shapeCodes t []) with Some p => snd p | None => [] end).
    assert (FA : forall p, In p (shapeCodes t []) -> assign (fst p) = snd p).
    { unfold assign. clear - ND. induction (shapeCodes t []) as [|q l IH]; intros p Hp; [destruct Hp|]. cbn [find map] in *. inversion ND as [|? ? NI ND']; subst.
      destruct Hp as [->|Hp]; [rewrite N.eqb_refl; reflexivity|]. destruct (N.eqb_spec (fst q) (fst p)) as [Q|]; [|apply IH; assumption]. exfalso. apply NI. rewrite Q. apply in_map. exact Hp. }
    assert (MA : map assign (map fst (shapeCodes t [])) = map snd (shapeCodes t [])) by (rewrite map_map; apply map_ext_in; exact FA).
    etransitivity; [apply (LOPT assign)|].
    + eapply free_perm; [|rewrite <- MA in PF; exact PF]. apply Permutation_map. exact PP.
    + rewrite (coded_perm freqs _ _ (Permutation_map _ PP)). rewrite map_map. erewrite map_ext_in; [reflexivity|]. intros p Hp. cbn beta. rewrite (FA p Hp). reflexivity.
Qed.

Lemma shape_one : forall k f m, 0 < f -> createHuffmanShape (repeat 0 k ++ f :: repeat 0 m) = Ok (SLeft (SLeaf (N.of_nat k))).
Proof.
  intros k f m Hf. unfold createHuffmanShape.
  assert (Z : forall m b h, insertLeaves (repeat 0 m) b h = Ok h) by (induction m0 as [|m0 IH]; intros b h; [reflexivity|apply IH]).
  assert (E : forall k b, insertLeaves (repeat 0 k ++ f :: repeat 0 m) b [] = Ok [(SLeaf (b + N.of_nat k), f)]).
  { induction k0 as [|k0 IH]; intros b; cbn [repeat app insertLeaves].
    - destruct (N.eqb_spec f 0); [lia|]. cbn. rewrite Z, N.add_0_r. reflexivity.
    - cbn [N.eqb bind]. rewrite IH. do 3 f_equal. f_equal. lia. }
  rewrite E, N.add_0_l. reflexivity.
Qed.
Lemma shape_none : forall k, createHuffmanShape (repeat 0 k) = UB.
Proof.
  intros k. unfold createHuffmanShape. assert (Z : forall m b h, insertLeaves (repeat 0 m) b h = Ok h) by (induction m as [|m IH]; intros b h; [reflexivity|apply IH]).
  rewrite Z. reflexivity.
Qed.

(** Kraft equality, optimality and a bound for the lengths. *)
From Coq Require Import List NArith ZArith Lia Arith Bool Permutation Sorted.
From Coq Require Import ZifyBool ZifyNat ZifyN.
From Verif Require Import Base Arrays ModelUtils ModelStreams ModelHeaders ModelHuffman SpecHuffman.
From Verif Require Import ProofHuffman1 ProofHuffman2.
Import ListNotations.
Open Scope nat_scope.

Lemma kraft_app : forall H a b, kraft H (a ++ b) = (kraft H a + kraft H b)%N.
Proof.
  intros H a b. induction a as [|x a IH]; [reflexivity|]. cbn [app].
  change (kraft H (x :: a ++ b)) with (2 ^ N.of_nat (H - x) + kraft H (a ++ b))%N.
  change (kraft H (x :: a)) with (2 ^ N.of_nat (H - x) + kraft H a)%N. rewrite IH. lia.
Qed.
Lemma kraft_cons : forall H x a, kraft H (x :: a) = (2 ^ N.of_nat (H - x) + kraft H a)%N.
Proof. reflexivity. Qed.
Lemma kraft_perm : forall H a b, Permutation a b -> kraft H a = kraft H b.
Proof. intros H a b P. induction P; rewrite ?kraft_cons in *; lia. Qed.

Lemma half_level : forall H d, S d <= H -> (2 ^ N.of_nat (H - d) = 2 * 2 ^ N.of_nat (H - S d))%N.
Proof.
  intros H d L. replace (N.of_nat (H - d)) with (N.succ (N.of_nat (H - S d))) by lia.
  apply N.pow_succ_r'.
Qed.

Lemma firstn_snoc_nth : forall {A} (E : list A) k d, nth_error E k = Some d ->
  firstn (k + 1) E = firstn k E ++ [d].
Proof.
  intros A E. induction E as [|e E IH]; intros [|k] d H; try discriminate.
  - cbn in *. congruence.
  - cbn [Nat.add firstn app]. f_equal. apply IH. exact H.
Qed.

(** Splitting a step of [hrun] into its four cases. *)
Ltac runcases P1 P2 :=
  destruct P1 as [? ? ? HP1|? ? ? HP1];
  [inversion P2 as [? ? ? HP2|? ? ? HP2]; subst|inversion P2 as [? ? ? HP2|? ? ? HP2]; subst];
  cbn [nat_of Nat.add Nat.sub repeat app length firstn] in *.

Lemma hrun_kraft : forall t ls q dl E P, hrun t ls q dl E P -> forall H,
  Forall (fun l => l <= H) dl -> Forall (fun l => l <= H) (firstn (length q) E) ->
  (kraft H dl + kraft H (firstn (length q) E))%N = (2 ^ N.of_nat H)%N.
Proof.
  induction 1 as [t y|t ls q b1 x1 ls1 q1 b2 x2 ls2 q2 dl E P d k P1 P2 R IH D K]; intros H F1 F2.
  - cbn. rewrite Nat.sub_0_r. lia.
  - specialize (IH H). rewrite app_length in IH. cbn [length] in IH.
    rewrite (firstn_snoc_nth _ _ _ D) in IH. rewrite kraft_app, kraft_cons in IH. cbn in K.
    assert (HD : S d <= H).
    { destruct (pick_length _ _ _ _ _ _ P1), (pick_length _ _ _ _ _ _ P2).
      destruct k as [|k].
      - apply Forall_app in F1. destruct F1 as [F1 _]. inversion F1; auto.
      - destruct (length q) as [|m] eqn:EQ; [destruct b1, b2; cbn in *; lia|]. cbn [repeat app firstn] in F2.
        inversion F2; auto. }
    assert (X1 : Forall (fun l => l <= H) dl) by (apply Forall_app in F1; apply F1).
    specialize (IH X1). change (kraft H []) with 0%N in IH. rewrite N.add_0_r in IH.
    pose proof (half_level H d HD) as HL.
    runcases P1 P2.
    + inversion_clear F2 as [|? ? G1 G2]. inversion_clear G2 as [|? ? G3 G4]. rewrite !kraft_cons.
      rewrite <- IH; [lia|]. apply Forall_app. split; auto. constructor; auto. lia.
    + inversion_clear F2 as [|? ? G1 G2]. rewrite !kraft_cons.
      rewrite <- IH; [lia|]. apply Forall_app. split; auto. constructor; auto. lia.
    + inversion_clear F2 as [|? ? G1 G2]. rewrite !kraft_cons.
      rewrite <- IH; [lia|]. apply Forall_app. split; auto. constructor; auto. lia.
    + rewrite !kraft_cons.
      rewrite <- IH; [lia|]. apply Forall_app. split; auto. constructor; auto. lia.
Qed.

(** ** Order *)
Definition sorted (l : list item) : Prop := StronglySorted (fun x y => (fst x <= fst y)%N) l.
Lemma sorted_tail : forall x l, sorted (x :: l) -> sorted l.
Proof. intros x l H. inversion H; auto. Qed.
Lemma sorted_head : forall x l y, sorted (x :: l) -> In y l -> (fst x <= fst y)%N.
Proof. intros x l y H Hy. inversion_clear H as [|? ? _ F]. rewrite Forall_forall in F. auto. Qed.

Lemma pick_min : forall ls q b x ls' q', pick ls q b x ls' q' -> sorted ls -> sorted q ->
  sorted ls' /\ sorted q' /\ (forall y, In y ls' \/ In y q' -> (fst x <= fst y)%N) /\
  (forall y, In y ls' -> In y ls) /\ (forall y, In y q' -> In y q) /\ (In x ls \/ In x q) /\
  (b = false -> In x ls) /\ (b = true -> In x q).
Proof.
  intros ls q b x ls' q' H SL SQ. destruct H as [ls y q HY|x ls q HX].
  - split; [exact SL|]. split; [eapply sorted_tail; exact SQ|]. split; [|cbn; auto 8].
    intros z [Hz|Hz].
    + destruct ls as [|x ls]; [destruct Hz|]. specialize (HY x eq_refl).
      destruct Hz as [<-|Hz]; [lia|]. pose proof (sorted_head _ _ _ SL Hz). lia.
    + eapply sorted_head; eauto.
    + repeat split; auto. discriminate.
  - split; [eapply sorted_tail; exact SL|]. split; [exact SQ|]. split.
    + intros z [Hz|Hz]; [eapply sorted_head; eauto|].
      destruct q as [|y q]; [destruct Hz|]. specialize (HX y eq_refl).
      destruct Hz as [<-|Hz]; [lia|]. pose proof (sorted_head _ _ _ SQ Hz). lia.
    + cbn. repeat split; auto. discriminate.
Qed.

Lemma sorted_snoc : forall l x, sorted l -> (forall y, In y l -> (fst y <= fst x)%N) -> sorted (l ++ [x]).
Proof.
  induction l as [|y l IH]; intros x S B; cbn [app]; [repeat constructor|].
  inversion_clear S as [|? ? S1 S2]. constructor.
  - apply IH; auto. intros z Hz. apply B. right. exact Hz.
  - apply Forall_app. split; auto. constructor; [|constructor]. apply B. left. reflexivity.
Qed.

(** [m] is the larger weight of the last merge. *)
Definition inv (m : N) (ls q : list item) : Prop :=
  sorted ls /\ sorted q /\ (forall y, In y ls \/ In y q -> (m <= fst y)%N) /\
  (forall y, In y q -> (fst y <= 2 * m)%N).

Lemma inv_step : forall m ls q b1 x1 ls1 q1 b2 x2 ls2 q2,
  pick ls q b1 x1 ls1 q1 -> pick ls1 q1 b2 x2 ls2 q2 -> inv m ls q ->
  inv (fst x2) ls2 (q2 ++ [node x1 x2]) /\ (m <= fst x1 <= fst x2)%N /\
  (forall y, In y ls2 \/ In y q2 -> (fst x2 <= fst y)%N).
Proof.
  intros m ls q b1 x1 ls1 q1 b2 x2 ls2 q2 P1 P2 (S1 & S2 & B & C).
  destruct (pick_min _ _ _ _ _ _ P1 S1 S2) as (S3 & S4 & M1 & I1 & I2 & I3 & _ & _).
  destruct (pick_min _ _ _ _ _ _ P2 S3 S4) as (S5 & S6 & M2 & I4 & I5 & I6 & _ & _).
  assert (m <= fst x1)%N by (apply B; exact I3).
  assert (fst x1 <= fst x2)%N by (apply M1; exact I6).
  assert (QB : forall y, In y q2 -> (fst y <= 2 * m)%N) by (intros y Hy; apply C, I2, I5, Hy).
  split; [|split; [lia|exact M2]].
  split; [exact S5|]. split; [|split].
  - apply sorted_snoc; auto. intros y Hy. cbn [fst node]. specialize (QB y Hy). lia.
  - intros y [Hy|Hy]; [apply M2; auto|]. apply in_app_or in Hy. destruct Hy as [Hy|[<-|[]]]; [apply M2; auto|].
    cbn [fst node]. lia.
  - intros y Hy. apply in_app_or in Hy. destruct Hy as [Hy|[<-|[]]]; [specialize (QB y Hy); lia|].
    cbn [fst node]. lia.
Qed.

(** ** Bound for the depth *)
Lemma fib_SS : forall n, fib (S (S n)) = (fib (S n) + fib n)%N.
Proof. reflexivity. Qed.
Lemma fib_mono1 : forall n, (fib n <= fib (S n))%N.
Proof. destruct n as [|n]; [cbn; lia|]. rewrite fib_SS. lia. Qed.
Lemma fib_mono : forall m n, m <= n -> (fib m <= fib n)%N.
Proof. intros m n H. induction H; [lia|]. pose proof (fib_mono1 m0). lia. Qed.

Definition heights (m : N) (ls q : list item) : Prop :=
  (forall y, In y ls -> snd y = 0 /\ (1 <= fst y)%N) /\
  (forall y, In y q -> (fib (snd y + 2) <= fst y)%N /\ (fib (snd y + 1) <= m)%N).

Lemma heights_step : forall m ls q b1 x1 ls1 q1 b2 x2 ls2 q2,
  pick ls q b1 x1 ls1 q1 -> pick ls1 q1 b2 x2 ls2 q2 -> inv m ls q -> heights m ls q ->
  heights (fst x2) ls2 (q2 ++ [node x1 x2]).
Proof.
  intros m ls q b1 x1 ls1 q1 b2 x2 ls2 q2 P1 P2 IV (A & B).
  destruct (inv_step _ _ _ _ _ _ _ _ _ _ _ P1 P2 IV) as (_ & Hm & _).
  destruct IV as (S1 & S2 & _).
  destruct (pick_min _ _ _ _ _ _ P1 S1 S2) as (S3 & S4 & M1 & I1 & I2 & I3 & _ & _).
  destruct (pick_min _ _ _ _ _ _ P2 S3 S4) as (S5 & S6 & M2 & I4 & I5 & I6 & _ & _).
  assert (W : forall x, In x ls \/ In x q -> (1 <= fst x)%N /\ (fib (snd x + 2) <= fst x)%N /\
              (snd x = 0 \/ (fib (snd x + 1) <= m)%N)).
  { intros x [Hx|Hx].
    - destruct (A x Hx) as [-> ?]. cbn. lia.
    - destruct (B x Hx) as [? ?]. split; [|auto].
      pose proof (fib_mono 2 (snd x + 2) ltac:(lia)). change (fib 2) with 1%N in *. lia. }
  assert (J2 : In x2 ls \/ In x2 q) by (destruct I6; auto).
  destruct (W x1 I3) as (W1 & W2 & W3). destruct (W x2 J2) as (W4 & W5 & W6).
  split.
  - intros y Hy. apply A. auto.
  - intros y Hy. apply in_app_or in Hy. destruct Hy as [Hy|[<-|[]]].
    + destruct (B y) as [? ?]; [auto|]. split; [auto|lia].
    + cbn [fst snd node].
      assert (F : (fib (Nat.max (snd x1) (snd x2) + 2) <= fst x2)%N).
      { destruct (Nat.max_spec (snd x1) (snd x2)) as [[_ ->]|[_ ->]]; lia. }
      assert (G : (fib (Nat.max (snd x1) (snd x2) + 2) + fib (Nat.max (snd x1) (snd x2) + 1) <= fst x1 + fst x2)%N).
      { destruct (Nat.max_spec (snd x1) (snd x2)) as [[L ->]|[L ->]].
        - destruct W6 as [Z|Z]; [lia|]. lia.
        - destruct W3 as [Z|Z]; [rewrite Z in *; cbn in *; lia|]. lia. }
      split.
      * replace (S (Nat.max (snd x1) (snd x2)) + 2) with (S (S (Nat.max (snd x1) (snd x2) + 1))) by lia.
        rewrite fib_SS. replace (S (Nat.max (snd x1) (snd x2) + 1)) with (Nat.max (snd x1) (snd x2) + 2) by lia. exact G.
      * replace (S (Nat.max (snd x1) (snd x2)) + 1) with (Nat.max (snd x1) (snd x2) + 2) by lia. exact F.
Qed.

Lemma hrun_height : forall t ls q dl E P, hrun t ls q dl E P -> forall m, inv m ls q -> heights m ls q ->
  exists HT, (fib (HT + 2) <= sumw ls + sumw q)%N /\
    Forall2 (fun x d => d + snd x <= HT) ls dl /\ Forall2 (fun x d => d + snd x <= HT) q (firstn (length q) E).
Proof.
  induction 1 as [t y|t ls q b1 x1 ls1 q1 b2 x2 ls2 q2 dl E P d k P1 P2 R IH D K]; intros m IV HI.
  - exists (snd y). destruct HI as [_ B]. destruct (B y) as [B1 _]; [left; auto|].
    cbn [sumw fold_right]. split; [lia|]. split; [constructor|]. cbn. repeat constructor.
  - destruct (inv_step _ _ _ _ _ _ _ _ _ _ _ P1 P2 IV) as (IV' & _).
    pose proof (heights_step _ _ _ _ _ _ _ _ _ _ _ P1 P2 IV HI) as HI'.
    destruct (IH _ IV' HI') as (HT & F1 & F2 & F3). exists HT.
    pose proof (pick_sum _ _ _ _ _ _ P1) as S1. pose proof (pick_sum _ _ _ _ _ _ P2) as S2.
    rewrite sumw_app in F1. change (sumw [node x1 x2]) with (fst x1 + fst x2 + 0)%N in F1.
    split; [lia|].
    rewrite app_length in F3. cbn [length] in F3. rewrite (firstn_snoc_nth _ _ _ D) in F3.
    apply Forall2_app_inv_l in F3. destruct F3 as (a & b & G1 & G2 & G3).
    inversion G2 as [|? ? ? b' N1 N2]; subst. inversion N2; subst. apply app_inj_tail in G3. destruct G3 as [<- <-].
    cbn [snd node] in N1.
    assert (X1 : S d + snd x1 <= HT) by lia. assert (X2 : S d + snd x2 <= HT) by lia.
    runcases P1 P2; split; repeat constructor; auto.
Qed.

(** ** Optimality *)
Definition pcost (l : list (N * nat)) : N := fold_right (fun p a => (fst p * N.of_nat (snd p) + a)%N) 0%N l.
Lemma pcost_cons : forall w l r, pcost ((w, l) :: r) = (w * N.of_nat l + pcost r)%N.
Proof. reflexivity. Qed.
Lemma pcost_perm : forall a b, Permutation a b -> pcost a = pcost b.
Proof.
  intros a b P. induction P as [|[w l] a b P IH|[w l] [w' l'] a|a b c P1 IH1 P2 IH2]; rewrite ?pcost_cons in *; lia.
Qed.

Lemma exchange : forall w rest l, (forall p, In p rest -> (w <= fst p)%N) ->
  exists M rest', map fst rest' = map fst rest /\ Permutation (M :: map snd rest') (l :: map snd rest) /\
    l <= M /\ (forall p, In p rest' -> snd p <= M) /\
    (w * N.of_nat M + pcost rest' <= w * N.of_nat l + pcost rest)%N.
Proof.
  intros w. induction rest as [|[w' l'] r IH]; intros l B.
  - exists l, []. cbn. repeat split; auto; try lia; intros p [].
  - assert (W : (w <= w')%N) by (apply (B (w', l')); left; auto).
    assert (B' : forall p, In p r -> (w <= fst p)%N) by (intros p Hp; apply B; right; exact Hp).
    destruct (Nat.le_gt_cases l' l) as [L|L].
    + destruct (IH l B') as (M & r' & A1 & A2 & A3 & A4 & A5).
      exists M, ((w', l') :: r'). cbn [map fst snd]. rewrite A1. split; [reflexivity|].
      split; [|split; [exact A3|split]].
      * etransitivity; [apply perm_swap|]. etransitivity; [apply perm_skip; exact A2|]. apply perm_swap.
      * intros p [<-|Hp]; [cbn; lia|auto].
      * rewrite !pcost_cons. lia.
    + destruct (IH l' B') as (M & r' & A1 & A2 & A3 & A4 & A5).
      exists M, ((w', l) :: r'). cbn [map fst snd]. rewrite A1. split; [reflexivity|].
      split; [|split; [lia|split]].
      * etransitivity; [apply perm_swap|]. apply perm_skip. exact A2.
      * intros p [<-|Hp]; [cbn; lia|auto].
      * rewrite !pcost_cons. nia.
Qed.

Lemma kraft_divides : forall H M l, M <= H -> Forall (fun x => x <= M) l ->
  exists c, kraft H l = (2 ^ N.of_nat (H - M) * c)%N.
Proof.
  intros H M l HM F. induction F as [|x l Hx F [c IH]].
  - exists 0%N. cbn. lia.
  - exists (2 ^ N.of_nat (M - x) + c)%N. rewrite kraft_cons, IH.
    replace (N.of_nat (H - x)) with (N.of_nat (H - M) + N.of_nat (M - x))%N by lia.
    rewrite N.pow_add_r. lia.
Qed.

Lemma merge : forall H w1 l1 w2 l2 rest, (w1 <= w2)%N -> (forall p, In p rest -> (w2 <= fst p)%N) ->
  Forall (fun x => x <= H) (l1 :: l2 :: map snd rest) ->
  (kraft H (l1 :: l2 :: map snd rest) <= 2 ^ N.of_nat H)%N ->
  exists l rest', map fst rest' = map fst rest /\ Forall (fun x => x <= H) (l :: map snd rest') /\
    (kraft H (l :: map snd rest') <= 2 ^ N.of_nat H)%N /\
    ((w1 + w2) * N.of_nat l + pcost rest' + (w1 + w2) <= pcost ((w1, l1) :: (w2, l2) :: rest))%N.
Proof.
  intros H w1 l1 w2 l2 rest W12 B F K.
  destruct (exchange w1 ((w2, l2) :: rest) l1) as (M & r1 & A1 & A2 & A3 & A4 & A5).
  { intros p [<-|Hp]; [exact W12|]. specialize (B p Hp). lia. }
  destruct r1 as [|[w2' l2'] r1]; [discriminate|]. cbn [map fst] in A1. injection A1 as -> A1.
  destruct (exchange w2 r1 l2') as (M2 & r2 & C1 & C2 & C3 & C4 & C5).
  { intros p Hp. assert (In (fst p) (map fst rest)) by (rewrite <- A1; apply in_map; exact Hp).
    apply in_map_iff in H0. destruct H0 as (p' & E & Hp'). rewrite <- E. apply B. exact Hp'. }
  cbn [map snd] in A2.
  assert (PM : Permutation (M :: M2 :: map snd r2) (l1 :: l2 :: map snd rest)).
  { etransitivity; [apply perm_skip; exact C2|exact A2]. }
  assert (F' : Forall (fun x => x <= H) (M :: M2 :: map snd r2)) by (eapply Permutation_Forall; [symmetry; exact PM|exact F]).
  rewrite <- (kraft_perm H _ _ PM) in K.
  inversion_clear F' as [|? ? FM F1]. inversion_clear F1 as [|? ? FM2 F2].
  assert (M2M : M2 <= M).
  { assert (In M2 (l2' :: map snd r1)) by (eapply Permutation_in; [exact C2|left; auto]).
    destruct H0 as [<-|H0]; [apply (A4 (w2, l2')); left; auto|].
    apply in_map_iff in H0. destruct H0 as (p & <- & Hp). apply A4. right. exact Hp. }
  destruct (kraft_divides H M2 (map snd r2) FM2) as [c Hc].
  { apply Forall_forall. intros x Hx. apply in_map_iff in Hx. destruct Hx as (p & <- & Hp). apply C4. exact Hp. }
  rewrite !kraft_cons, Hc in K.
  assert (PH : (2 ^ N.of_nat H = 2 ^ N.of_nat (H - M2) * 2 ^ N.of_nat M2)%N).
  { rewrite <- N.pow_add_r. f_equal. lia. }
  assert (P0 : (0 < 2 ^ N.of_nat (H - M))%N) by (apply N.neq_0_lt_0, N.pow_nonzero; lia).
  assert (Q : (2 + c <= 2 ^ N.of_nat M2)%N).
  { rewrite PH in K. set (u := (2 ^ N.of_nat (H - M2))%N) in *. nia. }
  assert (M2P : 1 <= M2) by (destruct M2; [cbn in Q; lia|lia]).
  exists (M2 - 1), r2. split; [congruence|]. split; [constructor; [lia|exact F2]|]. split.
  - rewrite kraft_cons, Hc, PH.
    assert (E : (2 ^ N.of_nat (H - (M2 - 1)) = 2 * 2 ^ N.of_nat (H - M2))%N).
    { replace (N.of_nat (H - (M2 - 1))) with (N.succ (N.of_nat (H - M2))) by lia. apply N.pow_succ_r'. }
    rewrite E. set (u := (2 ^ N.of_nat (H - M2))%N) in *. nia.
  - rewrite !pcost_cons in *.
    assert (LE : (w1 * N.of_nat M2 <= w1 * N.of_nat M)%N) by nia.
    assert (EQ : ((w1 + w2) * N.of_nat (M2 - 1) + (w1 + w2) = w1 * N.of_nat M2 + w2 * N.of_nat M2)%N).
    { replace (N.of_nat M2) with (N.of_nat (M2 - 1) + 1)%N by lia. lia. }
    lia.
Qed.

Fixpoint wcost (l : list item) (d : list nat) : N :=
  match l, d with
  | x :: l, e :: d => (fst x * N.of_nat e + wcost l d)%N
  | _, _ => 0%N
  end.
Lemma wcost_snoc : forall l d x e, length l = length d ->
  wcost (l ++ [x]) (d ++ [e]) = (wcost l d + fst x * N.of_nat e)%N.
Proof.
  induction l as [|y l IH]; intros [|f d] x e H; try discriminate; cbn [app wcost]; [lia|].
  rewrite IH by (cbn in H; lia). lia.
Qed.

Lemma pick_perm : forall ls q b x ls' q', pick ls q b x ls' q' -> Permutation (ls ++ q) (x :: ls' ++ q').
Proof.
  intros ls q b x ls' q' H. destruct H; [|reflexivity].
  symmetry. apply Permutation_middle.
Qed.

Lemma hrun_optimal : forall t ls q dl E P, hrun t ls q dl E P -> forall m, inv m ls q ->
  forall H al, Permutation (map fst al) (map fst (ls ++ q)) -> Forall (fun x => x <= H) (map snd al) ->
  (kraft H (map snd al) <= 2 ^ N.of_nat H)%N ->
  (wcost ls dl + wcost q (firstn (length q) E) <= pcost al)%N.
Proof.
  induction 1 as [t y|t ls q b1 x1 ls1 q1 b2 x2 ls2 q2 dl E P d k P1 P2 R IH D K]; intros m IV H al PA FA KA.
  - cbn. lia.
  - destruct (inv_step _ _ _ _ _ _ _ _ _ _ _ P1 P2 IV) as (IV' & Hm & Hmin).
    assert (PP : Permutation (ls ++ q) (x1 :: x2 :: ls2 ++ q2)).
    { etransitivity; [eapply pick_perm; exact P1|]. apply perm_skip. eapply pick_perm. exact P2. }
    assert (PB : Permutation (map fst al) (fst x1 :: fst x2 :: map fst (ls2 ++ q2))).
    { etransitivity; [exact PA|]. apply (Permutation_map fst) in PP. exact PP. }
    destruct (Permutation_map_inv fst al (Permutation_sym PB)) as (al2 & E1 & PB2).
    destruct al2 as [|[w1 l1] [|[w2 l2] rest]]; try discriminate. cbn [map fst] in E1.
    injection E1 as <- <- E1.
    rewrite (pcost_perm _ _ PB2).
    assert (PS : Permutation (map snd al) (l1 :: l2 :: map snd rest)) by (apply (Permutation_map snd) in PB2; exact PB2).
    destruct (merge H (fst x1) l1 (fst x2) l2 rest) as (l & r & M1 & M2 & M3 & M4).
    + lia.
    + intros p Hp. assert (In (fst p) (map fst (ls2 ++ q2))) by (rewrite E1; apply in_map; exact Hp).
      apply in_map_iff in H0. destruct H0 as (z & Ez & Hz). rewrite <- Ez. apply Hmin. apply in_app_or. exact Hz.
    + eapply Permutation_Forall; [exact PS|exact FA].
    + rewrite <- (kraft_perm H _ _ PS). exact KA.
    + specialize (IH _ IV' H ((fst x1 + fst x2, l)%N :: r)).
      assert (PI : Permutation (map fst ((fst x1 + fst x2, l)%N :: r)) (map fst (ls2 ++ q2 ++ [node x1 x2]))).
      { cbn [map fst]. rewrite M1, <- E1. rewrite app_assoc, (map_app fst (ls2 ++ q2)). cbn [map fst node].
        apply Permutation_cons_append. }
      specialize (IH PI M2 M3). rewrite pcost_cons in IH.
      rewrite app_length in IH. cbn [length] in IH. rewrite (firstn_snoc_nth _ _ _ D) in IH.
      pose proof (hrun_length _ _ _ _ _ _ R) as (_ & _ & LE & _). rewrite app_length in LE. cbn [length] in LE.
      rewrite wcost_snoc in IH by (rewrite firstn_length; lia). cbn [fst node] in IH.
      runcases P1 P2; cbn [wcost] in *; lia.
Qed.

(** ** Kraft's inequality for prefix-free codes *)
Definition starting (b : bool) (codes : list (list bool)) : list (list bool) :=
  flat_map (fun c => match c with x :: t => if Bool.eqb x b then [t] else [] | [] => [] end) codes.

Lemma starting_in : forall b codes t, In t (starting b codes) <-> In (b :: t) codes.
Proof.
  intros b codes t. unfold starting. rewrite in_flat_map. split.
  - intros ([|x c] & Hc & Ht); [destruct Ht|]. destruct (Bool.eqb_spec x b); [|destruct Ht].
    destruct Ht as [<-|[]]. subst. exact Hc.
  - intros H. exists (b :: t). split; [exact H|]. rewrite Bool.eqb_reflx. left. reflexivity.
Qed.

Lemma starting_free : forall b codes, prefix_free codes -> prefix_free (starting b codes).
Proof.
  intros b codes H. induction H as [|c codes HF H IH]; [constructor|].
  destruct c as [|x t]; [exact IH|].
  change (starting b ((x :: t) :: codes)) with ((if Bool.eqb x b then [t] else []) ++ starting b codes).
  destruct (Bool.eqb_spec x b); [|exact IH]. subst x. cbn [app]. constructor; [|exact IH].
  apply Forall_forall. intros u Hu. apply starting_in in Hu. rewrite Forall_forall in HF.
  destruct (HF _ Hu) as [A B]. split; intros [z E]; [apply A|apply B]; exists z; cbn [app]; congruence.
Qed.

Lemma kraft_split : forall H codes, ~ In [] codes -> Forall (fun c => length c <= S H) codes ->
  kraft (S H) (map (@length bool) codes) =
  (kraft H (map (@length bool) (starting false codes)) + kraft H (map (@length bool) (starting true codes)))%N.
Proof.
  intros H codes. induction codes as [|c codes IH]; intros NI F; [reflexivity|].
  inversion_clear F as [|? ? F1 F2].
  destruct c as [|x t]; [exfalso; apply NI; left; auto|].
  cbn [map]. rewrite kraft_cons. rewrite IH; [|intros HH; apply NI; right; exact HH|exact F2].
  cbn [length Nat.sub]. destruct x.
  - change (starting true ((true :: t) :: codes)) with (t :: starting true codes).
    change (starting false ((true :: t) :: codes)) with (starting false codes).
    cbn [map]. rewrite kraft_cons. lia.
  - change (starting false ((false :: t) :: codes)) with (t :: starting false codes).
    change (starting true ((false :: t) :: codes)) with (starting true codes).
    cbn [map]. rewrite kraft_cons. lia.
Qed.

Lemma free_with_empty : forall codes, prefix_free codes -> In [] codes -> codes = [[]].
Proof.
  intros codes H HI. destruct H as [|c codes HF H]; [destruct HI|].
  destruct HI as [->|HI].
  - destruct codes as [|d codes]; [reflexivity|]. inversion_clear HF as [|? ? [A _] _].
    exfalso. apply A. exists d. reflexivity.
  - exfalso. rewrite Forall_forall in HF. destruct (HF _ HI) as [_ B]. apply B. exists c. reflexivity.
Qed.

Lemma kraft_inequality : forall H codes, prefix_free codes -> Forall (fun c => length c <= H) codes ->
  (kraft H (map (@length bool) codes) <= 2 ^ N.of_nat H)%N.
Proof.
  induction H as [|H IH]; intros codes PF F.
  - destruct (In_dec (list_eq_dec Bool.bool_dec) [] codes) as [HI|HN].
    + rewrite (free_with_empty codes PF HI). cbn. lia.
    + destruct codes as [|[|x c] codes]; [cbn; lia|exfalso; apply HN; left; auto|].
      inversion_clear F as [|? ? F1 F2]. cbn in F1. lia.
  - destruct (In_dec (list_eq_dec Bool.bool_dec) [] codes) as [HI|HN].
    + rewrite (free_with_empty codes PF HI). cbn [map length]. rewrite kraft_cons. rewrite Nat.sub_0_r.
      change (kraft (S H) []) with 0%N. lia.
    + rewrite kraft_split by auto. rewrite Nat2N.inj_succ, N.pow_succ_r'.
      assert (G : forall b, (kraft H (map (@length bool) (starting b codes)) <= 2 ^ N.of_nat H)%N).
      { intros b. apply IH; [apply starting_free; exact PF|].
        apply Forall_forall. intros t Ht. apply starting_in in Ht. rewrite Forall_forall in F.
        specialize (F _ Ht). cbn in F. lia. }
      pose proof (G true). pose proof (G false). lia.
Qed.

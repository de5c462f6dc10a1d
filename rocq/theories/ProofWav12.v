(** Coding the bit vectors of the characters: the queue of nodes. *)
From Coq Require Import List NArith Arith Bool Lia.
From Coq Require Import ZifyBool ZifyNat ZifyN.
From Verif Require Import Base Arrays ModelUtils ModelBitCoder ModelProb ModelWavelet.
From Verif Require Import ProofBitCoder ProofWav2 ProofWav4 ProofWav5 ProofWav8 ProofWav11.
Import ListNotations.
Open Scope nat_scope.

(** ** Paths *)
Fixpoint pre (p q : list bool) : bool :=
  match p, q with
  | [], _ => true
  | a :: p, b :: q => Bool.eqb a b && pre p q
  | _ :: _, [] => false
  end.
Lemma pre_spec : forall p q, pre p q = true <-> exists r, q = p ++ r.
Proof.
  induction p as [|a p IH]; intros q; cbn.
  - split; [intros _; exists q; reflexivity|reflexivity].
  - destruct q as [|b q]; [split; [discriminate|intros (r & E); discriminate]|].
    rewrite andb_true_iff, IH, Bool.eqb_true_iff. split.
    + intros [-> (r & ->)]. exists r. reflexivity.
    + intros (r & E). injection E as <- ->. eauto.
Qed.
Definition below (ps : list (list bool)) (q : list bool) : bool := existsb (fun p => pre p q) ps.
Lemma below_spec : forall ps q, below ps q = true <-> exists p r, In p ps /\ q = p ++ r.
Proof.
  intros ps q. unfold below. rewrite existsb_exists. split.
  - intros (p & H1 & H2). apply pre_spec in H2. destruct H2 as (r & H2). eauto.
  - intros (p & r & H1 & H2). exists p. split; [exact H1|]. apply pre_spec. eauto.
Qed.
Definition apart (p q : list bool) : Prop := pre p q = false /\ pre q p = false.
Lemma apart_sym : forall p q, apart p q -> apart q p.
Proof. intros p q [A B]. split; assumption. Qed.
Lemma apart_app : forall p q r, apart p q -> apart (p ++ r) q.
Proof.
  intros p q r [A B]. split.
  - destruct (pre (p ++ r) q) eqn:E; [|reflexivity]. apply pre_spec in E. destruct E as (s & ->).
    rewrite <- A. symmetry. apply pre_spec. exists (r ++ s). rewrite app_assoc. reflexivity.
  - destruct (pre q (p ++ r)) eqn:E; [|reflexivity]. apply pre_spec in E. destruct E as (s & E). apply common_prefix in E.
    destruct E as [(e & E1 & E2)|(e & E1 & E2)].
    + assert (pre p q = true) by (apply pre_spec; eauto). congruence.
    + assert (pre q p = true) by (apply pre_spec; eauto). congruence.
Qed.
Lemma apart_children : forall p, apart (p ++ [false]) (p ++ [true]).
Proof. induction p as [|b p [A B]]; [split; reflexivity|]. split; cbn; rewrite Bool.eqb_reflx; assumption. Qed.
Lemma apart_neq : forall p, ~ apart p p.
Proof. intros p [A _]. assert (pre p p = true) by (apply pre_spec; exists []; rewrite app_nil_r; reflexivity). congruence. Qed.

Inductive antichain : list (list bool) -> Prop :=
| ac_nil : antichain []
| ac_cons : forall p ps, Forall (apart p) ps -> antichain ps -> antichain (p :: ps).
Lemma antichain_snoc : forall ps p, antichain ps -> Forall (apart p) ps -> antichain (ps ++ [p]).
Proof.
  intros ps p H HF. induction H as [|x ps Hx H IH]; [repeat constructor|]. inversion_clear HF as [|? ? A B]. cbn. constructor; [|auto].
  apply Forall_app. split; [exact Hx|]. constructor; [apply apart_sym; exact A|constructor].
Qed.

Lemma nodup_app : forall {A} (a b : list A), NoDup a -> NoDup b -> (forall x, In x a -> ~ In x b) -> NoDup (a ++ b).
Proof.
  intros A a b Ha Hb H. induction Ha as [|x a Hx Ha IH]; [exact Hb|]. cbn. constructor.
  - intros C. apply in_app_iff in C. destruct C as [C|C]; [contradiction|]. eapply H; [left; reflexivity|exact C].
  - apply IH. intros y Hy. apply H. right. exact Hy.
Qed.

Section Queue.
Variables PM AM : predictor.
Variables (T0 : wtree) (codes : list (N * list bool)).
Hypothesis HC : code_tree T0 codes.
Variable W : list (list bool).
Hypothesis HR : Forall (fun w => exists c cc ic, w = cc ++ ic /\ look T0 cc = Some (mkNode [] (Some c)) /\ ic <> []) W.
Variable T : wtree.
Hypothesis HT : forall q n, look T0 q = Some n -> look T q = Some (mkNode (heads (ends q W)) (symbol n)).
Variable intTree : wtree.

Definition isLeaf (q : list bool) : Prop := exists c, look T0 q = Some (mkNode [] (Some c)).
Definition isInner (q : list bool) : Prop := look T0 q = Some (mkNode [] None).
Lemma node_cases : forall q n, look T0 q = Some n -> n = mkNode [] None \/ exists c, n = mkNode [] (Some c).
Proof.
  intros q n E. pose proof (ct_empty _ _ HC q n E) as EB. destruct n as [v [c|]]; cbn in EB; subst v; [right; eauto|left; reflexivity].
Qed.

(** Words without a common byte. *)
Definition differ (w1 w2 : list bool) : Prop := forall cc r1 r2, isLeaf cc -> w1 = cc ++ r1 -> w2 = cc ++ r2 -> False.
Definition Rel (p a b : list bool) : Prop := differ (p ++ a) (p ++ b).
Lemma Rel_child : forall p b x y, Rel p (b :: x) (b :: y) -> Rel (p ++ [b]) x y.
Proof. intros p b x y H. unfold Rel in *. rewrite <- !app_assoc. exact H. Qed.
Lemma Rel_leaf : forall p b x y, isLeaf (p ++ [b]) -> Rel p (b :: x) (b :: y) -> False.
Proof. intros p b x y HL H. eapply H; [exact HL| |]; rewrite <- app_assoc; reflexivity. Qed.

Lemma proper_node : forall q n, look T0 q = Some n -> proper (ends q W).
Proof.
  intros q n E. unfold proper. apply Forall_forall. intros s Hs C. subst s. apply ends_in in Hs. rewrite app_nil_r in Hs.
  rewrite Forall_forall in HR. destruct (HR _ Hs) as (c & cc & [|b ic] & -> & HL & HN); [congruence|].
  rewrite (ct_beyond _ _ HC _ _ _ _ HL) in E. discriminate.
Qed.

(** The tree of the decoder when the queue is empty. *)
Definition final (q : list bool) : option node :=
  match look T0 q with
  | None => None
  | Some n => Some (mkNode (match symbol n with None => heads (ends q W) | Some _ => [] end) (symbol n))
  end.

Lemma final_other : forall q, ~ isInner q -> final q = look T0 q.
Proof.
  intros q H. unfold final. destruct (look T0 q) as [n|] eqn:E; [|reflexivity].
  destruct (node_cases q n E) as [->|(c & ->)]; [contradiction|reflexivity].
Qed.
Lemma final_inner : forall q, isInner q -> final q = Some (mkNode (heads (ends q W)) None).
Proof. intros q H. unfold final. rewrite H. reflexivity. Qed.
Lemma inner_prefix : forall p b r n, look T0 (p ++ b :: r) = Some n -> r <> [] -> isInner (p ++ [b]).
Proof.
  intros p b [|c r] n E H; [congruence|]. replace (p ++ b :: c :: r) with ((p ++ [b]) ++ c :: r) in E by (rewrite <- app_assoc; reflexivity).
  apply (ct_prefix _ _ HC _ _ _ _ E).
Qed.

Definition entry (p : list bool) : integerNode := mkIntegerNode p intTree (length (ends p W)) 0 0.

(** One step of the queue. *)
Section Step.
Variables (p : list bool) (rest Q' new ints : list (list bool)).
Hypothesis P1 : isInner p.
Hypothesis P2 : antichain (p :: rest).
Hypothesis H1 : forall x, In x rest -> In x Q'.
Hypothesis H2 : forall b, isInner (p ++ [b]) -> In (p ++ [b]) Q'.
Hypothesis H3 : forall x, In x Q' -> In x rest \/ exists b, x = p ++ [b].
Hypothesis H4 : Forall isInner Q'.

Lemma step_above : forall q, below Q' q = true -> below (p :: rest) q = true /\ q <> p.
Proof.
  intros q H. apply below_spec in H. destruct H as (x & r & Hx & ->). apply H3 in Hx. destruct Hx as [Hx|(b & ->)].
  - split; [apply below_spec; exists x, r; split; [right; exact Hx|reflexivity]|].
    intros E. inversion_clear P2 as [|? ? A _]. rewrite Forall_forall in A. apply A in Hx. destruct Hx as [_ Hx].
    assert (pre x p = true) by (apply pre_spec; eauto). congruence.
  - split; [apply below_spec; exists p, (b :: r); split; [left; reflexivity|rewrite <- app_assoc; reflexivity]|].
    rewrite <- app_assoc. intros E. rewrite <- (app_nil_r p) in E at 2. apply app_inv_head in E. discriminate.
Qed.

Lemma step_cases : forall q, below (p :: rest) q = true -> below Q' q = true \/ q = p \/ exists b r, q = p ++ b :: r.
Proof.
  intros q H. apply below_spec in H. destruct H as (x & r & [<-|Hx] & ->).
  - right. destruct r as [|b r]; [left; apply app_nil_r|right; eauto].
  - left. apply below_spec. exists x, r. auto.
Qed.

Lemma step_tree : forall t x, (forall q, below (p :: rest) q = true -> look t q = look T0 q) ->
  forall q, below Q' q = true -> look (put t p x) q = look T0 q.
Proof.
  intros t x Ht q H. destruct (step_above q H) as [A B]. rewrite look_put_other by congruence. apply Ht. exact A.
Qed.
Lemma step_final : forall t t', (forall q, below (p :: rest) q = true -> look t q = look T0 q) ->
  (forall q, below Q' q = true -> look t' q = final q) ->
  (forall q, below Q' q = false -> look t' q = look (put t p (mkNode (heads (ends p W)) None)) q) ->
  (forall q, below (p :: rest) q = true -> look t' q = final q) /\ (forall q, below (p :: rest) q = false -> look t' q = look t q).
Proof.
  intros t t' Ht A B. split; intros q Hq.
  - destruct (below Q' q) eqn:E; [apply A; exact E|]. rewrite (B _ E).
    destruct (step_cases q Hq) as [C|[->|(b & r & ->)]]; [congruence| |].
    + rewrite look_put_same. rewrite final_inner by exact P1. reflexivity.
    + rewrite look_put_other.
      * rewrite (Ht _ Hq). symmetry. apply final_other. intros C.
        assert (D : isInner (p ++ [b])). { destruct r as [|c r]; [exact C|]. eapply inner_prefix; [exact C|discriminate]. }
        apply H2 in D. assert (below Q' (p ++ b :: r) = true); [|congruence]. apply below_spec. exists (p ++ [b]), r.
        split; [exact D|rewrite <- app_assoc; reflexivity].
      * intros C. rewrite <- (app_nil_r p) in C at 1. apply app_inv_head in C. discriminate.
  - assert (E : below Q' q = false). { destruct (below Q' q) eqn:E; [|reflexivity]. apply step_above in E. destruct E; congruence. }
    rewrite (B _ E). apply look_put_other. intros ->.
    assert (below (q :: rest) q = true); [|congruence]. apply below_spec. exists q, []. rewrite app_nil_r. split; [left|]; reflexivity.
Qed.

Hypothesis N1 : forall x, In x new -> isLeaf x /\ exists b, x = p ++ [b].
Hypothesis N2 : NoDup new.
Hypothesis N3 : forall b, isLeaf (p ++ [b]) -> In (p ++ [b]) new.
Hypothesis I1 : Forall isLeaf ints.
Hypothesis I2 : NoDup ints.
Hypothesis I3 : forall q, In q ints -> below Q' q = true.
Hypothesis I4 : forall q, isLeaf q -> below Q' q = true -> In q ints.
Lemma step_ints : Forall isLeaf (new ++ ints) /\ NoDup (new ++ ints) /\ (forall q, In q (new ++ ints) -> below (p :: rest) q = true) /\
  (forall q, isLeaf q -> below (p :: rest) q = true -> In q (new ++ ints)).
Proof.
  split; [|split; [|split]].
  - apply Forall_app. split; [|exact I1]. apply Forall_forall. intros x Hx. apply N1. exact Hx.
  - assert (G : forall x, In x new -> ~ In x ints).
    { intros x Hx Hi. apply I3 in Hi. destruct (N1 _ Hx) as [(c & HL) (b & ->)]. apply below_spec in Hi. destruct Hi as (y & r & Hy & E).
      assert (Hy' := Hy). apply H3 in Hy. rewrite Forall_forall in H4. specialize (H4 _ Hy'). destruct Hy as [Hy|(b' & ->)].
      - inversion_clear P2 as [|? ? A _]. rewrite Forall_forall in A. apply A in Hy.
        apply (apart_app _ _ [b]) in Hy. destruct Hy as [_ Hy]. assert (pre y (p ++ [b]) = true) by (apply pre_spec; eauto). congruence.
      - rewrite <- app_assoc in E. apply app_inv_head in E. injection E as <- <-. unfold isInner in H4. congruence. }
    apply nodup_app; assumption.
  - intros q Hq. apply in_app_iff in Hq. destruct Hq as [Hq|Hq].
    + destruct (N1 _ Hq) as [_ (b & ->)]. apply below_spec. exists p, [b]. split; [left|]; reflexivity.
    + apply I3 in Hq. apply step_above in Hq. apply Hq.
  - intros q HL Hq. apply in_app_iff. destruct (step_cases q Hq) as [C|[->|(b & r & ->)]].
    + right. apply I4; assumption.
    + destruct HL as (c & HL). unfold isInner in P1. congruence.
    + destruct r as [|c r]; [left; apply N3; exact HL|]. right. apply I4; [exact HL|]. apply below_spec. exists (p ++ [b]), (c :: r).
      split; [|rewrite <- app_assoc; reflexivity]. apply H2. destruct HL as (s & HL). eapply inner_prefix; [exact HL|discriminate].
Qed.
End Step.

Definition qpaths (queue : queueOf) : list (list bool) := map fst queue.
Definition queue_ok (queue : queueOf) : Prop :=
  Forall (fun e => isInner (fst e) /\ fst e <> [] /\ okg (Rel (fst e)) None (ends (fst e) W) (snd e)) queue.
Definition size (p : list bool) : nat := nodes (fold_left child p T0).
Fixpoint sizes (ps : list (list bool)) : nat := match ps with [] => O | p :: ps => size p + sizes ps end.
Lemma sizes_app : forall a b, sizes (a ++ b) = sizes a + sizes b.
Proof. induction a as [|p a IH]; intros b; [reflexivity|]. cbn. rewrite IH. lia. Qed.
Lemma size_children : forall p n, look T0 p = Some n -> S (size (p ++ [false]) + size (p ++ [true])) = size p.
Proof.
  intros p n E. unfold size. rewrite !fold_left_app. rewrite <- (app_nil_r p), look_app in E. cbn [fold_left].
  destruct (fold_left child p T0); [discriminate|]. reflexivity.
Qed.

Definition ints_ok (queue : queueOf) (ints : list (list bool)) : Prop :=
  Forall isLeaf ints /\ NoDup ints /\ (forall q, In q ints -> below (qpaths queue) q = true) /\
  (forall q, isLeaf q -> below (qpaths queue) q = true -> In q ints).

Definition queue_decodes (queue : queueOf) (cs : list (bool * N)) (ints : list (list bool)) pm am pm' am' : Prop :=
  forall fuelD t trace rest (D : source), sizes (qpaths queue) <= fuelD ->
    (forall q, below (qpaths queue) q = true -> look t q = look T0 q) -> dec_ready (cs ++ trace) rest D ->
    exists t' D', decodeQueue PM AM fuelD intTree t queue pm am D = Ok (t', map entry ints, pm', am', D') /\ dec_ready trace rest D' /\
      (forall q, below (qpaths queue) q = true -> look t' q = final q) /\ (forall q, below (qpaths queue) q = false -> look t' q = look t q).

Lemma queue_nil : forall pm am, ints_ok [] [] /\ queue_decodes [] [] [] pm am pm am.
Proof.
  intros pm am. split.
  - split; [constructor|]. split; [constructor|]. split; intros q; [intros []|discriminate].
  - intros fuelD t trace rest D _ Ht HD. exists t, D. split; [destruct fuelD; reflexivity|]. split; [exact HD|]. split; [discriminate|reflexivity].
Qed.

Lemma queue_sim : forall fuelE queue pm am cs ints pm' am', encodeQueue PM AM fuelE T queue pm am = Ok (cs, ints, pm', am') ->
  queue_ok queue -> antichain (qpaths queue) -> ints_ok queue ints /\ queue_decodes queue cs ints pm am pm' am'.
Proof.
  induction fuelE as [|fuelE IH]; intros [|[p gs] queue] pm am cs ints pm' am' E HQ HA; cbn [encodeQueue] in E.
  1,3: injection E as <- <- <- <-; apply queue_nil.
  - discriminate.
  - apply bind_inv in E. destruct E as (pm1 & ER1 & E). apply bind_inv in E. destruct E as (am1 & ER2 & E).
    assert (HQ' := Forall_inv_tail HQ). destruct (Forall_inv HQ) as (Q1 & Q2 & Q3). clear HQ. cbn [fst snd] in Q1, Q2, Q3.
    destruct (ct_both _ _ HC p false Q2 Q1) as (nl & El). destruct (ct_both _ _ HC p true Q2 Q1) as (nr & Er).
    pose proof (proper_node p _ Q1) as PP.
    rewrite (HT _ _ Q1), (HT _ _ El), (HT _ _ Er) in E. cbn [bitVector symbol] in E.
    assert (SZ := size_children p _ Q1).
    assert (LG : length gs = length (heads (ends p W))) by (rewrite heads_length by exact PP; eapply okg_length; exact Q3).
    assert (PQ : forall x, Forall (apart p) (qpaths queue) -> Forall (apart (p ++ x)) (qpaths queue)).
    { intros z H. eapply Forall_impl; [|exact H]. intros y Hy. apply apart_app. exact Hy. }
    assert (HA' := HA). inversion_clear HA' as [|? ? A1 A2].
    assert (HI' : Forall isInner (qpaths queue)). { unfold qpaths. rewrite Forall_map. eapply Forall_impl; [|exact HQ']. cbn. intros e H. apply H. }
    assert (CG : forall b pb, okg (Rel (p ++ [b])) None (ends (p ++ [b]) W) (side b (childGaps (heads (ends p W)) gs pb))).
    { intros b pb. rewrite ends_snoc. eapply okg_impl; [|eapply (childGaps_ok (Rel p) (ends p W) gs None pb (fun _ => None)); [exact Q3|exact PP|discriminate]].
      cbv beta. intros x y H. apply Rel_child. exact H. }
    assert (NN : forall b, p ++ [b] <> []) by (intros b C; destruct p; discriminate).
    assert (LN : lastIs None true) by (intros s0 C; discriminate).
    destruct (heads (ends p W)) as [|b0 hs] eqn:EH; [discriminate|]. rewrite <- EH in *. clear EH hs.
    destruct (node_cases _ _ El) as [->|(cl & ->)]; destruct (node_cases _ _ Er) as [->|(cr & ->)]; cbn [symbol] in E.
    + (* two inner nodes *)
      apply bind_inv in E. destruct E as ([[[cs1 ch] pm2] am2] & E1 & E). apply bind_inv in E. destruct E as ([[[cs2 ints2] pm3] am3] & E2 & E).
      injection E as <- <- <- <-.
      rewrite (encodeInner_first PM AM _ _ _ (negb b0) true pm1 am1 Q3 PP) in E1.
      pose proof (inner_gaps PM AM _ _ _ _ _ _ _ _ _ LG E1) as EC. subst ch.
      assert (EP : qpaths (queue ++ [(p ++ [false], fst (childGaps (heads (ends p W)) gs true)); (p ++ [true], snd (childGaps (heads (ends p W)) gs true))]) =
        qpaths queue ++ [p ++ [false]; p ++ [true]]) by (unfold qpaths; rewrite map_app; reflexivity).
      destruct (IH _ _ _ _ _ _ _ E2) as (J & K).
      { apply Forall_app. split; [exact HQ'|]. constructor; [|constructor; [|constructor]]; cbn [fst snd].
        - split; [exact El|]. split; [apply NN|]. apply (CG false true).
        - split; [exact Er|]. split; [apply NN|]. apply (CG true true). }
      { rewrite EP. change [p ++ [false]; p ++ [true]] with ([p ++ [false]] ++ [p ++ [true]]). rewrite app_assoc. apply antichain_snoc.
        - apply antichain_snoc; auto.
        - apply Forall_app. split; [auto|]. constructor; [apply apart_sym, apart_children|constructor]. }
      assert (S1 : forall x, In x (qpaths queue) -> In x (qpaths queue ++ [p ++ [false]; p ++ [true]])) by (intros x Hx; apply in_app_iff; auto).
      assert (S2 : forall b, isInner (p ++ [b]) -> In (p ++ [b]) (qpaths queue ++ [p ++ [false]; p ++ [true]])).
      { intros b _. apply in_app_iff. right. destruct b; [right; left|left]; reflexivity. }
      assert (S3 : forall x, In x (qpaths queue ++ [p ++ [false]; p ++ [true]]) -> In x (qpaths queue) \/ exists b, x = p ++ [b]).
      { intros x Hx. apply in_app_iff in Hx. destruct Hx as [Hx|[<-|[<-|[]]]]; eauto. }
      assert (S4 : Forall isInner (qpaths queue ++ [p ++ [false]; p ++ [true]])).
      { apply Forall_app. split; [exact HI'|]. repeat constructor; assumption. }
      unfold ints_ok, queue_decodes in J, K. rewrite EP in J, K. destruct J as (J1 & J2 & J3 & J4).
      split.
      * apply (step_ints p (qpaths queue) _ [] ints2 Q1 HA S1 S2 S3 S4); auto; [intros x []|constructor|].
        intros b (c & C). destruct b; unfold isInner in *; congruence.
      * intros fuelD t trace rest D HF Ht HD. cbn [qpaths map fst sizes] in HF. destruct fuelD as [|fuelD]; [lia|].
        rewrite <- app_assoc in HD.
        destruct (inner_sim PM AM _ _ _ _ _ _ _ _ _ _ _ _ LG E1 HD) as (_ & D1 & E3 & R1).
        cbn [decodeQueue]. rewrite ER1. cbn [bind]. rewrite ER2. cbn [bind].
        assert (B0 : forall x, below (qpaths ((p, gs) :: queue)) (p ++ x) = true).
        { intros x. apply below_spec. exists p, x. split; [left|]; reflexivity. }
        rewrite (Ht _ (B0 [false])), (Ht _ (B0 [true])). specialize (B0 []). rewrite app_nil_r in B0. rewrite (Ht _ B0).
        rewrite Q1, El, Er. cbn [symbol]. rewrite E3. cbn [bind].
        destruct (K fuelD (put t p (pushedAll (mkNode [] None) (heads (ends p W)))) trace rest D1) as (t' & D' & E4 & R2 & F1 & F2).
        { rewrite sizes_app. fold (qpaths queue) in HF. cbn [sizes]. lia. }
        { apply (step_tree p (qpaths queue) _ HA S3). exact Ht. }
        { exact R1. }
        exists t', D'. split; [exact E4|]. split; [exact R2|].
        apply (step_final p (qpaths queue) _ Q1 HA S1 S2 S3 t t'); auto.
    + discriminate.
    + (* a leaf to the left *)
      apply bind_inv in E. destruct E as ([[[cs1 rg] pm2] am2] & E1 & E). apply bind_inv in E. destruct E as ([[[cs2 ints2] pm3] am3] & E2 & E).
      injection E as <- <- <- <-.
      rewrite (encodeLeftLeaf_first PM AM _ _ _ (negb b0) true pm1 am1 Q3 PP) in E1.
      pose proof (leftLeaf_gaps PM AM _ _ _ _ _ _ _ _ _ LG E1) as EC. subst rg.
      assert (EP : qpaths (queue ++ [(p ++ [true], snd (childGaps (heads (ends p W)) gs true))]) =
        qpaths queue ++ [p ++ [true]]) by (unfold qpaths; rewrite map_app; reflexivity).
      destruct (IH _ _ _ _ _ _ _ E2) as (J & K).
      { apply Forall_app. split; [exact HQ'|]. constructor; [|constructor]; cbn [fst snd].
        split; [exact Er|]. split; [apply NN|]. apply (CG true true). }
      { rewrite EP. apply antichain_snoc; auto. }
      assert (S1 : forall x, In x (qpaths queue) -> In x (qpaths queue ++ [p ++ [true]])) by (intros x Hx; apply in_app_iff; auto).
      assert (S2 : forall b, isInner (p ++ [b]) -> In (p ++ [b]) (qpaths queue ++ [p ++ [true]])).
      { intros b HB. apply in_app_iff. right. destruct b; [left; reflexivity|unfold isInner in HB; congruence]. }
      assert (S3 : forall x, In x (qpaths queue ++ [p ++ [true]]) -> In x (qpaths queue) \/ exists b, x = p ++ [b]).
      { intros x Hx. apply in_app_iff in Hx. destruct Hx as [Hx|[<-|[]]]; eauto. }
      assert (S4 : Forall isInner (qpaths queue ++ [p ++ [true]])).
      { apply Forall_app. split; [exact HI'|]. repeat constructor; assumption. }
      unfold ints_ok, queue_decodes in J, K. rewrite EP in J, K. destruct J as (J1 & J2 & J3 & J4).
      split.
      * apply (step_ints p (qpaths queue) _ [p ++ [false]] ints2 Q1 HA S1 S2 S3 S4); auto.
        -- intros x [<-|[]]. split; [exists cl; exact El|eauto].
        -- repeat constructor. intros [].
        -- intros b (c & C). destruct b; [unfold isInner in *; congruence|left; reflexivity].
      * intros fuelD t trace rest D HF Ht HD. cbn [qpaths map fst sizes] in HF. destruct fuelD as [|fuelD]; [lia|].
        rewrite <- app_assoc in HD.
        assert (RL : forall x y, Rel p (false :: x) (false :: y) -> False) by (intros x y; apply Rel_leaf; exists cl; exact El).
        destruct (leftLeaf_sim PM AM (Rel p) RL _ _ _ _ _ _ _ _ _ _ _ _ _ Q3 PP LN E1 HD) as (_ & D1 & E3 & R1).
        cbn [decodeQueue]. rewrite ER1. cbn [bind]. rewrite ER2. cbn [bind].
        assert (B0 : forall x, below (qpaths ((p, gs) :: queue)) (p ++ x) = true).
        { intros x. apply below_spec. exists p, x. split; [left|]; reflexivity. }
        rewrite (Ht _ (B0 [false])), (Ht _ (B0 [true])). specialize (B0 []). rewrite app_nil_r in B0. rewrite (Ht _ B0).
        rewrite Q1, El, Er. cbn [symbol]. rewrite E3. cbn [bind].
        destruct (K fuelD (put t p (pushedAll (mkNode [] None) (heads (ends p W)))) trace rest D1) as (t' & D' & E4 & R2 & F1 & F2).
        { rewrite sizes_app. fold (qpaths queue) in HF. cbn [sizes]. lia. }
        { apply (step_tree p (qpaths queue) _ HA S3). exact Ht. }
        { exact R1. }
        rewrite E4. cbn [bind].
        assert (EN : mkIntegerNode (p ++ [false]) intTree (length gs - length (snd (childGaps (heads (ends p W)) gs true))) 0 0 = entry (p ++ [false])).
        { unfold entry. f_equal. pose proof (okg_length _ _ _ _ (CG true true)) as E5. cbn [side] in E5. rewrite E5.
          rewrite !ends_snoc, tails_true, (tails_false _ PP), LG, (heads_length _ PP). reflexivity. }
        rewrite EN. exists t', D'. split; [reflexivity|]. split; [exact R2|].
        apply (step_final p (qpaths queue) _ Q1 HA S1 S2 S3 t t'); auto.
    + (* two leaves *)
      apply bind_inv in E. destruct E as ([cs1 am2] & E1 & E). apply bind_inv in E. destruct E as ([[[cs2 ints2] pm3] am3] & E2 & E).
      injection E as <- <- <- <-.
      destruct (IH _ _ _ _ _ _ _ E2 HQ' A2) as (J & K).
      assert (S1 : forall x, In x (qpaths queue) -> In x (qpaths queue)) by auto.
      assert (S2 : forall b, isInner (p ++ [b]) -> In (p ++ [b]) (qpaths queue)).
      { intros b HB. unfold isInner in HB. destruct b; congruence. }
      assert (S3 : forall x, In x (qpaths queue) -> In x (qpaths queue) \/ exists b, x = p ++ [b]) by auto.
      unfold ints_ok, queue_decodes in J, K. destruct J as (J1 & J2 & J3 & J4).
      split.
      * apply (step_ints p (qpaths queue) _ [p ++ [false]; p ++ [true]] ints2 Q1 HA S1 S2 S3 HI'); auto.
        -- intros x [<-|[<-|[]]]; (split; [eexists; eassumption|eauto]).
        -- constructor; [|repeat constructor; intros []]. intros [C|[]]. apply app_inv_head in C. discriminate.
        -- intros b _. destruct b; [right; left|left]; reflexivity.
      * intros fuelD t trace rest D HF Ht HD. cbn [qpaths map fst sizes] in HF. destruct fuelD as [|fuelD]; [lia|].
        rewrite <- app_assoc in HD.
        assert (RL : forall b x y, Rel p (b :: x) (b :: y) -> False) by (intros b x y; apply Rel_leaf; destruct b; eexists; eassumption).
        destruct (leaves_sim AM (Rel p) RL _ _ _ _ _ _ _ _ _ _ Q3 PP LN E1 HD) as (D1 & E3 & R1).
        cbn [decodeQueue]. rewrite ER1. cbn [bind]. rewrite ER2. cbn [bind].
        assert (B0 : forall x, below (qpaths ((p, gs) :: queue)) (p ++ x) = true).
        { intros x. apply below_spec. exists p, x. split; [left|]; reflexivity. }
        rewrite (Ht _ (B0 [false])), (Ht _ (B0 [true])). specialize (B0 []). rewrite app_nil_r in B0. rewrite (Ht _ B0).
        rewrite Q1, El, Er. cbn [symbol]. rewrite E3. cbn [bind].
        destruct (K fuelD (put t p (pushedAll (mkNode [] None) (heads (ends p W)))) trace rest D1) as (t' & D' & E4 & R2 & F1 & F2).
        { fold (qpaths queue) in HF. lia. }
        { apply (step_tree p (qpaths queue) _ HA S3). exact Ht. }
        { exact R1. }
        rewrite E4. cbn [bind].
        assert (EN : mkIntegerNode (p ++ [false]) intTree (length gs - ones (heads (ends p W))) 0 0 = entry (p ++ [false])).
        { unfold entry. f_equal. rewrite ends_snoc, (tails_false _ PP), LG, (heads_length _ PP). reflexivity. }
        assert (EN' : mkIntegerNode (p ++ [true]) intTree (ones (heads (ends p W))) 0 0 = entry (p ++ [true])).
        { unfold entry. f_equal. rewrite ends_snoc, tails_true. reflexivity. }
        rewrite EN, EN'. exists t', D'. split; [reflexivity|]. split; [exact R2|].
        apply (step_final p (qpaths queue) _ Q1 HA S1 S2 S3 t t'); auto.
Qed.
End Queue.

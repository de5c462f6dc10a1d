From Coq Require Import List NArith ZArith Arith Bool Lia Permutation Sorted.
From Coq Require Import ZifyBool ZifyNat ZifyN.
From Verif Require Import Base Arrays ModelHeap SpecHeap.
Import ListNotations.
Ltac Zify.zify_post_hook ::= Z.div_mod_to_equations.

Section Heap.
Variable T : Type.
Notation nodes := (list (T * N)).

Lemma swap_perm : forall (l : nodes) i j a b, nth_error l i = Some a -> nth_error l j = Some b -> Permutation (upd (upd l i b) j a) l.
Proof.
  intros l i j a b Ha Hb. pose proof (nth_error_bound _ _ _ Ha) as Bi. pose proof (nth_error_bound _ _ _ Hb) as Bj.
  symmetry. apply Permutation_nth_error. split; [rewrite !upd_length; reflexivity|].
  exists (fun n => if n =? j then i else if n =? i then j else n). split.
  - intros x y. repeat match goal with |- context [?p =? ?q] => destruct (Nat.eqb_spec p q) end; lia.
  - intros n. rewrite nth_error_upd by (rewrite upd_length; exact Bj). destruct (Nat.eqb_spec n j) as [->|]; [symmetry; exact Ha|].
    rewrite nth_error_upd by exact Bi. destruct (Nat.eqb_spec n i) as [->|]; [symmetry; exact Hb|reflexivity].
Qed.

(** Weights grow away from the root. *)
Definition ordered (l : nodes) : Prop :=
  forall j x y, 0 < j -> nth_error l j = Some x -> nth_error l (hparent j) = Some y -> (snd y <= snd x)%N.

Lemma sift_step : forall (l : nodes) index x p, 0 < index < length l -> nth_error l (hparent index) = Some p ->
  Permutation (upd (upd l index p) (hparent index) x) (upd l index x).
Proof.
  intros l index x p B H. assert (PI : hparent index < index) by (unfold hparent; lia).
  rewrite <- (swap_perm (upd l index x) index (hparent index) x p).
  - replace (upd (upd l index x) index p) with (upd l index p); [reflexivity|].
    apply nth_error_ext. intros i. rewrite !nth_error_upd; rewrite ?upd_length; try lia. destruct (i =? index); reflexivity.
  - apply nth_error_upd_same. lia.
  - rewrite nth_error_upd_other by lia. exact H.
Qed.

Lemma siftUp_spec : forall fuel (l : nodes) index x, index < fuel -> index < length l ->
  (forall j a b, 0 < j -> j <> index -> nth_error (upd l index x) j = Some a -> nth_error (upd l index x) (hparent j) = Some b -> (snd b <= snd a)%N) ->
  (forall j a b, 0 < index -> 0 < j -> hparent j = index -> nth_error l j = Some a -> nth_error l (hparent index) = Some b -> (snd b <= snd a)%N) ->
  exists l', siftUp T fuel l index x = Ok l' /\ ordered l' /\ Permutation l' (upd l index x).
Proof.
  induction fuel as [|fuel IH]; intros l index x F B H1 H2; [lia|]. cbn [siftUp].
  destruct (Nat.ltb_spec 0 index) as [P|P].
  2: { rewrite set_ok by exact B. eexists. split; [reflexivity|]. split; [|reflexivity]. intros j a b Hj. apply H1; lia. }
  assert (PI : hparent index < index) by (unfold hparent; lia).
  destruct (nth_error_lt l (hparent index)) as (p & Ep); [lia|]. rewrite (get_ok _ _ _ Ep). cbn [bind].
  destruct (N.ltb_spec (snd x) (snd p)) as [L|L].
  - rewrite set_ok by exact B. cbn [bind].
    destruct (IH (upd l index p) (hparent index) x) as (l' & E & O & PM).
    + lia. + rewrite upd_length. lia.
    + intros j a b Hj Hn Ha Hb. rewrite nth_error_upd in Ha, Hb by (rewrite upd_length; lia).
      rewrite !nth_error_upd in Ha by exact B. rewrite !nth_error_upd in Hb by exact B.
      destruct (Nat.eqb_spec j (hparent index)); [contradiction|]. destruct (Nat.eqb_spec j index) as [->|N1].
      * rewrite Nat.eqb_refl in Hb. injection Ha as <-. injection Hb as <-. lia.
      * assert (X : forall a b, nth_error l j = Some a -> nth_error (upd l index x) (hparent j) = Some b -> (snd b <= snd a)%N).
        { intros a' b' Ha' Hb'. apply (H1 j); auto. rewrite nth_error_upd_other by assumption. exact Ha'. }
        destruct (Nat.eqb_spec (hparent j) (hparent index)) as [E1|N2].
        { injection Hb as <-. specialize (X a p Ha). rewrite nth_error_upd_other in X by lia. rewrite E1 in X. specialize (X Ep). lia. }
        destruct (Nat.eqb_spec (hparent j) index) as [E2|N3].
        { injection Hb as <-. eapply H2; eauto. }
        apply X; [exact Ha|]. rewrite nth_error_upd_other by assumption. exact Hb.
    + intros j a b Hp Hj Ej Ha Hb.
      assert (PP : hparent (hparent index) < hparent index) by (unfold hparent in *; lia).
      rewrite nth_error_upd in Ha, Hb by exact B. destruct (Nat.eqb_spec (hparent (hparent index)) index); [lia|].
      assert (PB : (snd b <= snd p)%N).
      { apply (H1 (hparent index)); [exact Hp|lia| |]; rewrite nth_error_upd_other by lia; assumption. }
      destruct (Nat.eqb_spec j index) as [->|N1]; [injection Ha as <-; exact PB|].
      assert (PA : (snd p <= snd a)%N). { apply (H1 j); [exact Hj|exact N1| |]; rewrite nth_error_upd_other by lia; [exact Ha|rewrite Ej; exact Ep]. }
      lia.
    + exists l'. split; [exact E|]. split; [exact O|]. rewrite PM. apply sift_step; [lia|exact Ep].
  - rewrite set_ok by exact B. eexists. split; [reflexivity|]. split; [|reflexivity].
    intros j a b Hj Ha Hb. destruct (Nat.eq_dec j index) as [->|N1]; [|eapply (H1 j); eauto].
    rewrite nth_error_upd_same in Ha by exact B. rewrite nth_error_upd_other in Hb by lia. congruence.
Qed.

Lemma insert_spec : forall (l : nodes) v w, ordered l -> exists l', heapInsert T l v w = Ok l' /\ ordered l' /\ Permutation l' ((v, w) :: l).
Proof.
  intros l v w O. unfold heapInsert.
  assert (U : upd (l ++ [(v, w)]) (length l) (v, w) = l ++ [(v, w)]).
  { apply nth_error_ext. intros i. rewrite nth_error_upd by (rewrite app_length; cbn; lia). destruct (Nat.eqb_spec i (length l)) as [->|]; [|reflexivity].
    rewrite nth_error_app2, Nat.sub_diag by lia. reflexivity. }
  destruct (siftUp_spec (S (length l)) (l ++ [(v, w)]) (length l) (v, w)) as (l' & E & O' & P).
  - lia. - rewrite app_length. cbn. lia.
  - rewrite U. intros j a b Hj N1 Ha Hb. assert (J : j < length l).
    { apply nth_error_bound in Ha. rewrite app_length in Ha. cbn in Ha. lia. }
    rewrite nth_error_app1 in Ha by exact J. rewrite nth_error_app1 in Hb by (unfold hparent; lia). eapply O; eauto.
  - intros j a b Hi Hj Ej Ha Hb. apply nth_error_bound in Ha. rewrite app_length in Ha. cbn in Ha. unfold hparent in *. lia.
  - exists l'. split; [exact E|]. split; [exact O'|]. rewrite P, U. symmetry. apply Permutation_cons_append.
Qed.

Lemma swap_spec : forall (l : nodes) i j a b, nth_error l i = Some a -> nth_error l j = Some b -> i <> j ->
  exists l', swapNodes T l i j = Ok l' /\ Permutation l' l /\ length l' = length l /\
    forall n, nth_error l' n = if n =? j then Some a else if n =? i then Some b else nth_error l n.
Proof.
  intros l i j a b Ha Hb NE. pose proof (nth_error_bound _ _ _ Ha). pose proof (nth_error_bound _ _ _ Hb).
  exists (upd (upd l i b) j a). unfold swapNodes. rewrite (get_ok _ _ _ Ha), (get_ok _ _ _ Hb). cbn [bind].
  rewrite set_ok by assumption. cbn [bind]. rewrite set_ok by (rewrite upd_length; assumption).
  split; [reflexivity|]. split; [apply swap_perm; assumption|]. split; [rewrite !upd_length; reflexivity|].
  intros n. rewrite nth_error_upd by (rewrite upd_length; assumption). destruct (n =? j); [reflexivity|]. apply nth_error_upd. assumption.
Qed.

Lemma parent_cases : forall j i, 0 < j -> hparent j = i -> j = hleft i \/ j = hright i.
Proof. unfold hparent, hleft, hright. intros. lia. Qed.

(** Exchanging [index] with its least child. *)
Lemma exchange_ordered : forall (l l' : nodes) index s vi vs, 0 < s -> hparent s = index -> nth_error l index = Some vi -> nth_error l s = Some vs -> (snd vs < snd vi)%N ->
  (forall j a, 0 < j -> hparent j = index -> nth_error l j = Some a -> (snd vs <= snd a)%N) ->
  (forall n, nth_error l' n = if n =? s then Some vi else if n =? index then Some vs else nth_error l n) ->
  (forall j a b, 0 < j -> hparent j <> index -> nth_error l j = Some a -> nth_error l (hparent j) = Some b -> (snd b <= snd a)%N) ->
  (forall j a b, 0 < index -> 0 < j -> hparent j = index -> nth_error l j = Some a -> nth_error l (hparent index) = Some b -> (snd b <= snd a)%N) ->
  (forall j a b, 0 < j -> hparent j <> s -> nth_error l' j = Some a -> nth_error l' (hparent j) = Some b -> (snd b <= snd a)%N) /\
  (forall j a b, 0 < s -> 0 < j -> hparent j = s -> nth_error l' j = Some a -> nth_error l' (hparent s) = Some b -> (snd b <= snd a)%N).
Proof.
  intros l l' index s vi vs S0 SP Ei Es LT MIN NT H1 H2. assert (SI : index < s) by (unfold hparent in SP; lia). split.
  - intros j a b Hj Hn Ha Hb. rewrite NT in Ha, Hb. destruct (Nat.eqb_spec (hparent j) s); [contradiction|].
    destruct (Nat.eqb_spec (hparent j) index) as [E1|N1].
    + injection Hb as <-. destruct (Nat.eqb_spec j s) as [->|N2]; [injection Ha as <-; lia|].
      destruct (Nat.eqb_spec j index) as [->|N3]; [exfalso; unfold hparent in E1; lia|]. eapply MIN; eauto.
    + destruct (Nat.eqb_spec j s) as [->|N2]; [congruence|]. destruct (Nat.eqb_spec j index) as [->|N3].
      * injection Ha as <-. eapply (H2 s); eauto.
      * eapply (H1 j); eauto.
  - intros j a b _ Hj Ej Ha Hb. rewrite SP, NT in Hb. destruct (Nat.eqb_spec index s); [lia|]. rewrite Nat.eqb_refl in Hb. injection Hb as <-.
    assert (JS : s < j) by (unfold hparent in Ej; lia). rewrite NT in Ha. destruct (Nat.eqb_spec j s); [lia|]. destruct (Nat.eqb_spec j index); [lia|].
    apply (H1 j a vs); auto; rewrite Ej; [lia|exact Es].
Qed.

Lemma heapify_spec : forall fuel (l : nodes) index, 0 < fuel -> length l < fuel + index ->
  (forall j a b, 0 < j -> hparent j <> index -> nth_error l j = Some a -> nth_error l (hparent j) = Some b -> (snd b <= snd a)%N) ->
  (forall j a b, 0 < index -> 0 < j -> hparent j = index -> nth_error l j = Some a -> nth_error l (hparent index) = Some b -> (snd b <= snd a)%N) ->
  exists l', heapify T fuel l index = Ok l' /\ ordered l' /\ Permutation l' l.
Proof.
  induction fuel as [|fuel IH]; intros l index F0 F H1 H2; [lia|]. cbn [heapify].
  assert (PL : hparent (hleft index) = index) by (unfold hparent, hleft; lia). assert (PR : hparent (hright index) = index) by (unfold hparent, hright; lia).
  destruct (Nat.ltb_spec (hright index) (length l)) as [C|C].
  - destruct (nth_error_lt l (hleft index)) as (vl & El); [unfold hleft, hright in *; lia|]. destruct (nth_error_lt l (hright index)) as (vr & Er); [exact C|].
    destruct (nth_error_lt l index) as (vi & Ei); [unfold hright in *; lia|].
    rewrite (get_ok _ _ _ El), (get_ok _ _ _ Er). cbn [bind]. cbv zeta.
    destruct (ex_intro (fun s => s = if (snd vl <? snd vr)%N then hleft index else hright index) _ eq_refl) as (s & ES). rewrite <- ES.
    assert (SM : exists vs, nth_error l s = Some vs /\ 0 < s /\ index < s /\ hparent s = index /\ (snd vs <= snd vl)%N /\ (snd vs <= snd vr)%N).
    { destruct (N.ltb_spec (snd vl) (snd vr)); subst s; [exists vl|exists vr]; repeat split; auto; unfold hleft, hright; lia. }
    destruct SM as (vs & Es & S0 & SI & SP & S1 & S2). rewrite (get_ok _ _ _ Es), (get_ok _ _ _ Ei). cbn [bind].
    assert (MIN : forall j a, 0 < j -> hparent j = index -> nth_error l j = Some a -> (snd vs <= snd a)%N).
    { intros j a Hj Ej Ha. destruct (parent_cases j index Hj Ej) as [-> | ->]; congruence. }
    destruct (N.ltb_spec (snd vs) (snd vi)) as [LT|GE].
    + destruct (swap_spec l index s vi vs Ei Es ltac:(lia)) as (l1 & E1 & P1 & L1 & N1). rewrite E1. cbn [bind].
      destruct (exchange_ordered l l1 index s vi vs S0 SP Ei Es LT MIN N1 H1 H2) as [X1 X2]. apply nth_error_bound in Es.
      destruct (IH l1 s ltac:(lia) ltac:(lia) X1 X2) as (l' & E & O & P). exists l'. split; [exact E|]. split; [exact O|]. rewrite P. exact P1.
    + exists l. split; [reflexivity|]. split; [|reflexivity]. intros j a b Hj Ha Hb. destruct (Nat.eq_dec (hparent j) index) as [E|N1]; [|eapply (H1 j); eauto].
      specialize (MIN j a Hj E Ha). rewrite E in Hb. assert (b = vi) by congruence. subst b. lia.
  - destruct (Nat.eqb_spec (length l) (hright index)) as [C2|C2].
    + destruct (nth_error_lt l (hleft index)) as (vl & El); [unfold hleft, hright in *; lia|].
      destruct (nth_error_lt l index) as (vi & Ei); [unfold hright in *; lia|].
      rewrite (get_ok _ _ _ El), (get_ok _ _ _ Ei). cbn [bind].
      assert (ONLY : forall j a, 0 < j -> hparent j = index -> nth_error l j = Some a -> a = vl).
      { intros j a Hj Ej Ha. destruct (parent_cases j index Hj Ej) as [-> | ->]; [congruence|]. apply nth_error_bound in Ha. lia. }
      destruct (N.ltb_spec (snd vl) (snd vi)) as [LT|GE].
      * destruct (swap_spec l index (hleft index) vi vl Ei El ltac:(unfold hleft; lia)) as (l1 & E1 & P1 & L1 & N1). rewrite E1.
        exists l1. split; [reflexivity|]. split; [|exact P1].
        destruct (exchange_ordered l l1 index (hleft index) vi vl ltac:(unfold hleft; lia) PL Ei El LT) as [X1 X2]; auto.
        { intros j a Hj Ej Ha. rewrite (ONLY j a Hj Ej Ha). lia. }
        intros j a b Hj Ha Hb. destruct (Nat.eq_dec (hparent j) (hleft index)) as [E|N2]; [|eapply (X1 j); eauto].
        apply nth_error_bound in Ha. unfold hparent, hleft, hright in *. lia.
      * exists l. split; [reflexivity|]. split; [|reflexivity]. intros j a b Hj Ha Hb. destruct (Nat.eq_dec (hparent j) index) as [E|N1]; [|eapply (H1 j); eauto].
        rewrite (ONLY j a Hj E Ha). rewrite E in Hb. assert (b = vi) by congruence. subst b. lia.
    + exists l. split; [reflexivity|]. split; [|reflexivity]. intros j a b Hj Ha Hb. destruct (Nat.eq_dec (hparent j) index) as [E|N1]; [|eapply (H1 j); eauto].
      apply nth_error_bound in Ha. unfold hparent, hleft, hright in *. lia.
Qed.

Lemma ordered_min : forall (l : nodes) x, ordered l -> nth_error l 0 = Some x -> forall y, In y l -> (snd x <= snd y)%N.
Proof.
  intros l x O E y Hy. apply In_nth_error in Hy. destruct Hy as (n & Hn). revert y Hn.
  induction n as [n IH] using lt_wf_ind. intros y Hn. destruct (Nat.eq_dec n 0) as [->|N0]; [assert (x = y) by congruence; subst; lia|].
  assert (PN : hparent n < n) by (unfold hparent; lia).
  destruct (nth_error_lt l (hparent n)) as (p & Ep); [apply nth_error_bound in Hn; lia|].
  specialize (IH _ PN p Ep). specialize (O n y p ltac:(lia) Hn Ep). lia.
Qed.

Lemma delete_spec : forall (l : nodes), ordered l -> l <> [] ->
  exists x l', deleteMin T l = Ok (x, l') /\ ordered l' /\ Permutation l (x :: l') /\ Forall (fun y => snd x <= snd y)%N l'.
Proof.
  intros l O NE. destruct l as [|x t]; [congruence|]. unfold deleteMin. rewrite (get_ok (x :: t) 0 x) by reflexivity. cbn [bind].
  destruct (exists_last NE) as (front & back & EB).
  assert (LB : length (x :: t) - 1 = length front) by (rewrite EB, app_length; cbn; lia).
  rewrite LB. rewrite (get_ok (x :: t) (length front) back) by (rewrite EB, nth_error_app2, Nat.sub_diag by lia; reflexivity). cbn [bind].
  rewrite set_ok by (cbn; lia). cbn [bind]. cbv zeta.
  assert (FX : exists l1, firstn (length (upd (x :: t) 0 back) - 1) (upd (x :: t) 0 back) = l1 /\ Permutation (x :: l1) (x :: t) /\
    (forall n a, 0 < n -> nth_error l1 n = Some a -> nth_error (x :: t) n = Some a)).
  { eexists. split; [reflexivity|]. rewrite upd_length, LB. destruct front as [|f0 front].
    - cbn [app] in EB. injection EB as -> ->. split; [reflexivity|]. intros [|n] a Hn E; [lia|]. destruct n; discriminate.
    - cbn [app] in EB. injection EB as <- ->. cbn [upd length firstn]. rewrite firstn_app, Nat.sub_diag, firstn_all. cbn [firstn]. rewrite app_nil_r. split.
      + apply perm_skip. apply Permutation_cons_append.
      + intros [|n] a Hn E; [lia|]. cbn [nth_error] in *. rewrite nth_error_app1; [exact E|]. eapply nth_error_bound. exact E. }
  destruct FX as (l1 & -> & P & NT).
  destruct (heapify_spec (S (length l1)) l1 0) as (l' & E & O' & P').
  - lia. - lia.
  - intros j a b Hj Hn Ha Hb. apply (O j); [exact Hj|apply NT; assumption|apply NT; [lia|assumption]].
  - intros; lia.
  - rewrite E. cbn [bind]. exists x, l'. split; [reflexivity|]. split; [exact O'|].
    assert (PX : Permutation (x :: t) (x :: l')) by (rewrite <- P; apply perm_skip; symmetry; exact P'). split; [exact PX|].
    apply Forall_forall. intros y Hy. apply (ordered_min _ x O eq_refl). eapply Permutation_in; [symmetry; exact PX|]. right. exact Hy.
Qed.

Lemma queue_perm : forall c c' calls results rest, Permutation c c' -> @queue T c calls results rest -> queue c' calls results rest.
Proof.
  intros c c' calls results rest P Q. revert c' P. induction Q as [c r P0|c v w calls res r Q IH|c x less calls res r P0 F Q IH]; intros c' P.
  - constructor. rewrite <- P. exact P0.
  - constructor. apply IH. apply perm_skip. exact P.
  - eapply queue_delete; [rewrite <- P; exact P0|exact F|exact Q].
Qed.

Lemma use_spec : forall calls (l : nodes), ordered l -> neverEmpty (length l) calls ->
  exists results rest, useHeap T l calls = Ok (results, rest) /\ queue l calls results rest.
Proof.
  induction calls as [|[v w|] calls IH]; intros l O NE; cbn [useHeap neverEmpty] in *.
  - exists [], l. split; [reflexivity|]. constructor. reflexivity.
  - destruct (insert_spec l v w O) as (l' & E & O' & P). rewrite E. cbn [bind].
    destruct (IH l' O') as (results & rest & E1 & Q); [apply Permutation_length in P; cbn in P; rewrite P; exact NE|].
    exists results, rest. split; [exact E1|]. constructor. eapply queue_perm; [exact P|exact Q].
  - destruct (length l) as [|m] eqn:L; [contradiction|].
    destruct (delete_spec l O) as (x & l' & E & O' & P & F); [intros ->; discriminate|]. rewrite E. cbn [bind].
    destruct (IH l' O') as (results & rest & E1 & Q); [apply Permutation_length in P; cbn in P; replace (length l') with m by lia; exact NE|].
    rewrite E1. cbn [bind]. exists (x :: results), rest. split; [reflexivity|]. eapply queue_delete; [exact P|exact F|exact Q].
Qed.
Lemma C43_queue : forall calls, neverEmpty 0 calls -> exists results rest, useHeap T [] calls = Ok (results, rest) /\ queue [] calls results rest.
Proof. intros calls H. apply use_spec; [|exact H]. intros j x y _ E. destruct j; discriminate. Qed.

Lemma queue_inserts : forall (l : nodes) c calls results rest, @queue T c (map (fun x => Insert T (fst x) (snd x)) l ++ calls) results rest ->
  queue (rev l ++ c) calls results rest.
Proof.
  induction l as [|[v w] l IH]; intros c calls results rest Q; [exact Q|]. cbn [map app fst snd] in Q. inversion_clear Q as [|? ? ? ? ? ? Q'|].
  apply IH in Q'. cbn [rev]. rewrite <- app_assoc. exact Q'.
Qed.
Lemma queue_drain : forall n (c : nodes) results rest, length c = n -> queue c (repeat (DeleteMin T) n) results rest ->
  rest = [] /\ Permutation results c /\ StronglySorted (fun x y => snd x <= snd y)%N results.
Proof.
  induction n as [|n IH]; intros c results rest L Q; cbn [repeat] in Q.
  - destruct c; [|discriminate]. inversion_clear Q as [? ? P| |]. apply Permutation_nil in P. subst rest. repeat split; constructor.
  - inversion_clear Q as [| |? x less ? res ? P F Q']. pose proof (Permutation_length P) as PL. cbn in PL.
    destruct (IH less res rest ltac:(lia) Q') as (-> & P1 & S1). split; [reflexivity|]. split; [rewrite P; apply perm_skip; exact P1|].
    constructor; [exact S1|]. eapply Permutation_Forall; [symmetry; exact P1|exact F].
Qed.
Lemma never_inserts : forall (l : nodes) n calls, neverEmpty (length l + n) calls -> neverEmpty n (map (fun x => Insert T (fst x) (snd x)) l ++ calls).
Proof.
  induction l as [|x l IH]; intros n calls H; [exact H|]. cbn [map app neverEmpty]. apply IH. cbn [length] in H. rewrite Nat.add_succ_r. exact H.
Qed.
Lemma never_deletes : forall n, neverEmpty n (repeat (DeleteMin T) n).
Proof. induction n as [|n IH]; cbn; auto. Qed.
Lemma C43_sorted : forall (l : nodes), exists results,
  useHeap T [] (map (fun x => Insert T (fst x) (snd x)) l ++ repeat (DeleteMin T) (length l)) = Ok (results, []) /\
  Permutation results l /\ StronglySorted (fun x y => snd x <= snd y)%N results.
Proof.
  intros l. destruct (C43_queue (map (fun x => Insert T (fst x) (snd x)) l ++ repeat (DeleteMin T) (length l))) as (results & rest & E & Q).
  { apply never_inserts. rewrite Nat.add_0_r. apply never_deletes. }
  apply queue_inserts in Q. rewrite app_nil_r in Q. apply queue_drain in Q; [|apply rev_length]. destruct Q as (-> & P & S).
  exists results. split; [exact E|]. split; [rewrite P; symmetry; apply Permutation_rev|exact S].
Qed.
End Heap.

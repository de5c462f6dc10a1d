(** The lengths of the codes of the run lengths. *)
From Coq Require Import List NArith Arith Bool Lia Sorted Permutation.
From Coq Require Import ZifyBool ZifyNat ZifyN.
From Verif Require Import Base Arrays ModelUtils ModelHuffman ModelWavelet SpecHuffman.
From Verif Require Import ProofHuffman1 ProofHuffman2 ProofHuffman3 ProofHuffman4 ProofWav2.
Import ListNotations.
Open Scope N_scope.

(** ** Depths *)
Lemma hrun_small : forall t ls q dl E P, hrun t ls q dl E P ->
  (forall x, In x E -> (x < length E)%nat) /\ (forall x, In x dl -> (x <= length E)%nat).
Proof.
  induction 1 as [t y|t ls q b1 x1 ls1 q1 b2 x2 ls2 q2 dl E P d k P1 P2 R [IH1 IH2] D K].
  - split; intros x Hx; [destruct Hx as [<-|[]]; cbn; lia|destruct Hx].
  - apply nth_error_In in D. apply IH1 in D. rewrite app_length, repeat_length.
    split; intros x Hx; apply in_app_iff in Hx; destruct Hx as [Hx|Hx].
    + pose proof (repeat_spec _ _ _ Hx). destruct k; [destruct Hx|lia].
    + apply IH1 in Hx. lia.
    + apply repeat_spec in Hx. lia.
    + apply IH2 in Hx. lia.
Qed.

Lemma hrun_pos : forall t ls q dl E P, hrun t ls q dl E P -> Forall (fun d => (1 <= d)%nat) dl.
Proof.
  induction 1; [constructor|]. apply Forall_app. split; [|assumption].
  apply Forall_forall. intros x Hx. apply repeat_spec in Hx. lia.
Qed.

Definition sumFst (l : list (N * N)) : N := fold_right (fun p a => fst p + a) 0 l.

Lemma inOrder_spec : forall l, (2 <= length l)%nat -> sumFst l < two64 ->
  exists dl, length dl = length l /\ codeLengthsInOrder l = Ok (combine (map N.of_nat dl) (map snd l)) /\
    nonincreasing dl /\ complete dl /\ Forall (fun d => (1 <= d)%nat) dl /\ Forall (fun d => (d < length l)%nat) dl.
Proof.
  intros l H2 HS.
  destruct (lengths_array (map fst l)) as (dl & E & P & R & C).
  { rewrite map_length. lia. } { rewrite sumw_leaves. exact HS. }
  cbv zeta in C. rewrite map_length in C.
  destruct (hrun_length _ _ _ _ _ _ R) as (_ & LD & LE & LP).
  unfold leaves in LD, LE. rewrite !map_length in LD, LE. cbn [length] in LE.
  exists dl. split; [exact LD|].
  split.
  { unfold codeLengthsInOrder. destruct l as [|p [|q r]]; [cbn in H2; lia|cbn in H2; lia|].
    set (l := p :: q :: r) in *. clearbody l. cbv zeta.
    destruct (phase1Loop (length l - 1) (length l) 0 (map fst l, 0%nat, 0%nat)) as [[[f1 s1] r1]| |];
      cbn [bind] in C |- *; try discriminate.
    destruct (set f1 (length l - 2) 0) as [f2| |]; cbn [bind] in C |- *; try discriminate.
    destruct (phase2Loop (length l - 2) f2) as [f3| |]; cbn [bind] in C |- *; try discriminate.
    rewrite C. reflexivity. }
  split; [apply (hrun_mono _ _ _ _ _ _ R)|]. split.
  { intros H F. pose proof (hrun_kraft _ _ _ _ _ _ R H F) as K. cbn [length firstn] in K.
    specialize (K (Forall_nil _)). change (kraft H []) with 0 in K. lia. }
  split; [eapply hrun_pos; exact R|].
  destruct (hrun_small _ _ _ _ _ _ R) as [_ G]. apply Forall_forall. intros x Hx. apply G in Hx. lia.
Qed.

(** ** Sorted pairs *)
Lemma pairLe_antisym : forall p q, pairLe p q -> pairLe q p -> p = q.
Proof. intros [a b] [c d]. unfold pairLe. cbn. intros H1 H2. f_equal; lia. Qed.

Lemma sorted_unique : forall a b, StronglySorted pairLe a -> StronglySorted pairLe b -> Permutation a b -> a = b.
Proof.
  induction a as [|x a IH]; intros b Sa Sb HP; [symmetry; apply Permutation_nil; exact HP|].
  destruct b as [|y b]; [apply Permutation_sym, Permutation_nil in HP; discriminate|].
  inversion Sa as [|? ? Sa1 Sa2]; subst. inversion Sb as [|? ? Sb1 Sb2]; subst. rewrite Forall_forall in *.
  assert (E : x = y).
  { assert (Hx : In x (y :: b)) by (eapply Permutation_in; [exact HP|left; reflexivity]).
    assert (Hy : In y (x :: a)) by (eapply Permutation_in; [symmetry; exact HP|left; reflexivity]).
    destruct Hx as [->|Hx]; [reflexivity|]. destruct Hy as [->|Hy]; [reflexivity|].
    apply pairLe_antisym; auto. }
  subst y. f_equal. apply IH; auto. eapply Permutation_cons_inv; exact HP.
Qed.

Lemma sortPairs_id : forall l, StronglySorted pairLe l -> sortPairs l = l.
Proof. intros l H. apply sorted_unique; [apply sortPairs_sorted|exact H|apply sortPairs_perm]. Qed.
Lemma sortPairs_eq : forall a b, Permutation a b -> sortPairs a = sortPairs b.
Proof.
  intros a b H. apply sorted_unique; try apply sortPairs_sorted.
  rewrite !sortPairs_perm. exact H.
Qed.

Lemma least_first : forall p l, StronglySorted pairLe l -> In p l -> Forall (pairLe p) l -> exists l', l = p :: l'.
Proof.
  intros p [|q l] Hs Hp HF; [destruct Hp|]. exists l. f_equal.
  inversion Hs as [|? ? S1 S2]; subst. inversion HF; subst. destruct Hp as [->|Hp]; [reflexivity|].
  apply pairLe_antisym; [|assumption]. rewrite Forall_forall in S2. auto.
Qed.

Lemma NoDup_snoc : forall {A} (l : list A) x, NoDup l -> ~ In x l -> NoDup (l ++ [x]).
Proof.
  intros A l x H1 H2. apply (Permutation_NoDup (Permutation_cons_append l x)). constructor; assumption.
Qed.

(** ** Choosing the integers *)
Definition below (m : list (N * nat)) : Prop := StronglySorted (fun a b => fst b < fst a) m.

Lemma mapPut_in : forall m k v p, In p (mapPut m k v) -> p = (k, v) \/ (In p m).
Proof.
  induction m as [|[k' v'] m IH]; intros k v p Hp; cbn [mapPut] in Hp.
  - destruct Hp as [<-|[]]. left. reflexivity.
  - destruct (k' =? k); [|destruct (k' <? k)].
    + destruct Hp as [<-|Hp]; [left; reflexivity|right; right; exact Hp].
    + destruct Hp as [<-|Hp]; [left; reflexivity|right; exact Hp].
    + destruct Hp as [<-|Hp]; [right; left; reflexivity|]. apply IH in Hp. destruct Hp; [left|right; right]; assumption.
Qed.
Lemma mapPut_below : forall m k v, below m -> below (mapPut m k v).
Proof.
  induction m as [|[k' v'] m IH]; intros k v Hb; cbn [mapPut]; [repeat constructor|].
  inversion Hb as [|? ? B1 B2]; subst. destruct (N.eqb_spec k' k) as [->|NE]; [|destruct (N.ltb_spec k' k)].
  - constructor; assumption.
  - constructor; [exact Hb|]. constructor; [exact H|]. eapply Forall_impl; [|exact B2]. cbn. intros; lia.
  - constructor; [apply IH; exact B1|]. apply Forall_forall. intros p Hp. apply mapPut_in in Hp.
    destruct Hp as [->|Hp]; [cbn; lia|]. rewrite Forall_forall in B2. auto.
Qed.

(** Everything needed of minFreq. *)
Definition least (B : N) (cl : list (N * N)) (mf : N) : Prop :=
  (cl = [] /\ mf = 0) \/ (0 < mf <= B /\ Forall (fun p => mf <= fst p) cl).
Lemma least_step : forall B cl mf f x, least B cl mf -> 0 < f <= B -> least B (cl ++ [(f, x)]) (smaller mf f).
Proof.
  intros B cl mf f x H Hf. right. unfold smaller. destruct H as [[-> ->]|[H1 H2]].
  - cbn. split; [lia|]. repeat constructor. cbn. lia.
  - destruct ((mf =? 0) || (f <? mf)) eqn:E; (split; [lia|]); apply Forall_app; split; try (repeat constructor; cbn; lia).
    + eapply Forall_impl; [|exact H2]. cbn. intros; lia.
    + exact H2.
Qed.

(** What the first loop leaves. *)
Definition chosen (freqs : list (N * N)) (st : choice) : Prop :=
  let '(removed, notRemoved, cl, mf) := st in
  NoDup cl /\ incl cl freqs /\ below notRemoved /\
  Forall (fun e => exists x, nth_error freqs (snd e) = Some (fst e, x) /\ ~ In (fst e, x) cl) notRemoved /\
  least (sumFst freqs) cl mf.

Lemma sumFst_in : forall l p, In p l -> fst p <= sumFst l.
Proof.
  induction l as [|q l IH]; intros p Hp; [destruct Hp|]. cbn. destruct Hp as [->|Hp]; [lia|].
  apply IH in Hp. unfold sumFst in Hp. lia.
Qed.
Lemma sumFst_app : forall a b, sumFst (a ++ b) = sumFst a + sumFst b.
Proof. induction a as [|p a IH]; intros b; [reflexivity|]. cbn [app sumFst fold_right]. fold (sumFst (a ++ b)). fold (sumFst a). rewrite IH. lia. Qed.
Lemma sumFst_incl : forall a b, NoDup a -> incl a b -> sumFst a <= sumFst b.
Proof.
  induction a as [|p a IH]; intros b Hn Hi; [cbn; lia|].
  inversion Hn as [|? ? N1 N2]; subst.
  destruct (in_split p b) as (b1 & b2 & ->); [apply Hi; left; reflexivity|].
  assert (G : sumFst a <= sumFst (b1 ++ b2)).
  { apply IH; [exact N2|]. intros q Hq. specialize (Hi q (or_intror Hq)). rewrite in_app_iff in Hi |- *.
    destruct Hi as [Hi|[Hi|Hi]]; auto. subst. contradiction. }
  rewrite sumFst_app in G |- *. cbn [sumFst fold_right]. fold (sumFst a). fold (sumFst b2). lia.
Qed.

Section Choice.
Variable worth : N -> N -> N -> bool.

Lemma guess_spec : forall w depth totalFreq r pre st st', NoDup (pre ++ r) -> Forall (fun p => 0 < fst p) (pre ++ r) ->
  guess worth w depth totalFreq r (length pre) st = Ok st' ->
  (let '(removed, notRemoved, cl, mf) := st in
   NoDup cl /\ incl cl pre /\ below notRemoved /\
   Forall (fun e => exists x, nth_error pre (snd e) = Some (fst e, x) /\ ~ In (fst e, x) cl) notRemoved /\
   least (sumFst (pre ++ r)) cl mf) ->
  chosen (pre ++ r) st'.
Proof.
  intros w depth totalFreq r. induction r as [|[f x] r IH]; intros pre st st' HN HP HG Hinv; cbn [guess] in HG.
  - injection HG as <-. rewrite app_nil_r in *. exact Hinv.
  - destruct st as [[[removed notRemoved] cl] mf]. destruct Hinv as (I1 & I2 & I3 & I4 & I5).
    destruct (lengthOfFixedCode x w) as [len| |]; cbn [bind] in HG; try discriminate.
    assert (NI : ~ In (f, x) pre).
    { intros C. apply NoDup_remove_2 in HN. apply HN, in_app_iff. left. exact C. }
    assert (HB : 0 < f <= sumFst (pre ++ (f, x) :: r)).
    { rewrite Forall_forall in HP. split; [apply (HP (f, x)), in_app_iff; right; left; reflexivity|].
      change f with (fst (f, x)) at 1. apply sumFst_in, in_app_iff. right. left. reflexivity. }
    replace (S (length pre)) with (length (pre ++ [(f, x)])) in HG by (rewrite app_length; cbn; lia).
    replace (pre ++ (f, x) :: r) with ((pre ++ [(f, x)]) ++ r) in * by (rewrite <- app_assoc; reflexivity).
    assert (UPD : forall e y, nth_error pre (snd e) = Some (fst e, y) -> nth_error (pre ++ [(f, x)]) (@snd N nat e) = Some (fst e, y)).
    { intros e y He. rewrite nth_error_app1; [exact He|]. apply nth_error_Some. rewrite He. discriminate. }
    destruct (worth totalFreq f _ && (10 <=? f)).
    + refine (IH (pre ++ [(f, x)]) _ _ HN HP HG _).
      split; [|split; [|split; [exact I3|split]]].
      * apply NoDup_snoc; [exact I1|]. intros C. apply NI, I2, C.
      * intros q Hq. apply in_app_iff in Hq. apply in_app_iff. destruct Hq as [Hq|Hq]; [left; auto|right; exact Hq].
      * eapply Forall_impl; [|exact I4]. intros e (y & E1 & E2). exists y. split; [apply UPD; exact E1|].
        intros C. apply in_app_iff in C. destruct C as [C|[C|[]]]; [exact (E2 C)|].
        apply NI. rewrite C. eapply nth_error_In. exact E1.
      * apply least_step; assumption.
    + refine (IH (pre ++ [(f, x)]) _ _ HN HP HG _).
      split; [exact I1|split; [|split; [apply mapPut_below; exact I3|split; [|exact I5]]]].
      * intros q Hq. apply in_app_iff. left. auto.
      * apply Forall_forall. intros e He. apply mapPut_in in He. destruct He as [->|He].
        { exists x. cbn [fst snd]. split; [|intros C; apply NI, I2, C].
          rewrite nth_error_app2, Nat.sub_diag by lia. reflexivity. }
        { rewrite Forall_forall in I4. destruct (I4 _ He) as (y & E1 & E2). exists y. split; [apply UPD; exact E1|exact E2]. }
Qed.

Lemma force_spec : forall fuel freqs i depth it removed cl mf removed' cl' mf', Forall (fun p => 0 < fst p) freqs ->
  NoDup cl -> incl cl freqs -> below it ->
  Forall (fun e => exists x, nth_error freqs (snd e) = Some (fst e, x) /\ ~ In (fst e, x) cl) it ->
  least (sumFst freqs) cl mf -> (length cl <= depth)%nat ->
  force fuel i depth freqs it removed cl mf = Ok (removed', cl', mf') ->
  NoDup cl' /\ incl cl' freqs /\ least (sumFst freqs) cl' mf' /\ (length cl' <= depth)%nat /\ (length cl <= length cl')%nat /\
  ((i + length cl < depth)%nat -> (length cl < length cl')%nat).
Proof.
  induction fuel as [|fuel IH]; intros freqs i depth it removed cl mf removed' cl' mf' HP I1 I2 I3 I4 I5 HL HF;
    cbn [force] in HF; destruct (i + length cl <? depth)%nat eqn:E; try discriminate.
  - injection HF as <- <- <-. repeat split; auto; lia.
  - destruct it as [|[f k] it]; [discriminate|]. unfold get in HF.
    inversion I3 as [|? ? B1 B2]; subst. inversion I4 as [|? ? (x & X1 & X2) J]; subst. cbn [fst snd] in X1, X2.
    rewrite X1 in HF. cbn [bind] in HF.
    pose proof (nth_error_In _ _ X1) as HI.
    apply IH in HF.
    + destruct HF as (F1 & F2 & F3 & F4 & F5 & F6). rewrite app_length in F5. cbn [length] in F5.
      split; [exact F1|]. split; [exact F2|]. split; [exact F3|]. split; [exact F4|]. lia.
    + exact HP.
    + apply NoDup_snoc; assumption.
    + intros q Hq. apply in_app_iff in Hq. destruct Hq as [Hq|[<-|[]]]; auto.
    + exact B1.
    + rewrite Forall_forall in *. intros e He. destruct (J e He) as (y & E1 & E2). exists y. split; [exact E1|].
      intros C. apply in_app_iff in C. destruct C as [C|[C|[]]]; [exact (E2 C)|]. specialize (B2 e He). injection C as C1 C2.
      cbn [fst] in B2. lia.
    + apply least_step; [exact I5|]. rewrite Forall_forall in HP. split; [apply (HP _ HI)|]. apply (sumFst_in _ _ HI).
    + rewrite app_length. cbn [length]. lia.
  - injection HF as <- <- <-. repeat split; auto; lia.
Qed.

Definition lengths_good (L : list (N * N)) : Prop :=
  StronglySorted pairLe L /\ Forall (fun p => 0 < fst p < N.of_nat (length L)) L /\ complete (natLengths L) /\ NoDup (map snd L) /\
  (2 <= length L)%nat.

Lemma findFixed_spec : forall A d B, Forall (fun p => snd p <> 0) B ->
  forall k, (k <= length B)%nat -> findFixed (length A + k) (A ++ (d, 0) :: B) = Ok (length A).
Proof.
  intros A d B HB. induction k as [|k IH]; intros Hk.
  - rewrite Nat.add_0_r. unfold findFixed. destruct (length A) eqn:E; fold findFixed.
    + apply length_zero_iff_nil in E. subst A. reflexivity.
    + unfold get. rewrite nth_error_app2, E, Nat.sub_diag by lia. reflexivity.
  - replace (length A + S k)%nat with (S (length A + k)) by lia. cbn [findFixed]. unfold get.
    rewrite nth_error_app2 by lia. replace (S (length A + k) - length A)%nat with (S k) by lia. cbn [nth_error].
    destruct (nth_error B k) as [p|] eqn:E; [|apply nth_error_None in E; lia]. cbn [bind].
    rewrite Forall_forall in HB. pose proof (HB p (nth_error_In _ _ E)) as NZ.
    destruct (N.eqb_spec (snd p) 0); [contradiction|]. apply IH. lia.
Qed.

Lemma sinkFixed_spec : forall A d B depth, Forall (fun p => fst p < depth) A ->
  sinkFixed (length A) depth (A ++ (d, 0) :: B) = Ok (length A, A ++ (d, 0) :: B).
Proof.
  intros A d B depth HA. destruct (length A) as [|j] eqn:E; [reflexivity|].
  cbn [sinkFixed]. unfold get.
  rewrite nth_error_app1 by lia. destruct (nth_error A j) as [p|] eqn:Ej; [|apply nth_error_None in Ej; lia].
  rewrite nth_error_app2, E, Nat.sub_diag by lia. cbn [nth_error bind].
  rewrite Forall_forall in HA. specialize (HA p (nth_error_In _ _ Ej)). replace (depth <=? fst p) with false by lia. reflexivity.
Qed.

Lemma complete_perm : forall a b, Permutation a b -> complete a -> complete b.
Proof.
  intros a b HP HC H HF. rewrite <- (HC H); [apply kraft_perm; symmetry; exact HP|].
  eapply Permutation_Forall; [symmetry; exact HP|exact HF].
Qed.

Lemma nat_combine : forall dl (xs : list N), length dl = length xs -> natLengths (combine (map N.of_nat dl) xs) = dl.
Proof.
  induction dl as [|d dl IH]; intros [|x xs] E; try discriminate; [reflexivity|].
  cbn [map combine natLengths]. unfold natLengths in IH. cbn [fst]. rewrite Nat2N.id, IH by (cbn in E; lia). reflexivity.
Qed.

(** From the lengths in the order of the integers to the sorted ones. *)
Lemma sorted_lengths : forall (l : list (N * N)) dl, (2 <= length l)%nat -> length dl = length l -> complete dl -> NoDup (map snd l) ->
  Forall (fun d => (1 <= d)%nat) dl -> Forall (fun d => (d < length l)%nat) dl ->
  lengths_good (sortPairs (combine (map N.of_nat dl) (map snd l))).
Proof.
  intros l dl H2 HL HC HN H1 HS. set (c := combine (map N.of_nat dl) (map snd l)).
  pose proof (sortPairs_perm c) as P.
  assert (LC : length c = length l) by (unfold c; rewrite combine_length, !map_length; lia).
  assert (LS : length (sortPairs c) = length l) by (rewrite (Permutation_length P); exact LC).
  split; [apply sortPairs_sorted|]. rewrite LS. split; [|split; [|split; [|exact H2]]].
  - eapply Permutation_Forall; [symmetry; exact P|]. apply Forall_forall. intros [x y] Hp. apply in_combine_l in Hp.
    apply in_map_iff in Hp. destruct Hp as (d & <- & Hd). rewrite Forall_forall in H1, HS. specialize (H1 d Hd). specialize (HS d Hd).
    cbn [fst]. lia.
  - apply (complete_perm dl); [|exact HC]. rewrite <- (nat_combine dl (map snd l)) by (rewrite map_length; exact HL).
    apply Permutation_map. symmetry. exact P.
  - eapply Permutation_NoDup; [apply Permutation_map; symmetry; exact P|].
    unfold c. rewrite map_snd_combine by (rewrite !map_length; exact HL). exact HN.
Qed.

Lemma NoDup_snd_sub : forall cl freqs : list (N * N), NoDup cl -> incl cl freqs -> NoDup (map snd freqs) -> NoDup (map snd cl).
Proof.
  induction cl as [|p cl IH]; intros freqs H1 H2 H3; [constructor|].
  inversion H1 as [|? ? N1 N2]; subst. cbn [map]. constructor.
  - intros C. apply in_map_iff in C. destruct C as (q & E & Hq).
    assert (p = q).
    { clear - H2 H3 E Hq. assert (Hp : In p freqs) by (apply H2; left; reflexivity).
      assert (Hq' : In q freqs) by (apply H2; right; exact Hq). clear H2 Hq cl.
      induction freqs as [|r freqs IH]; [destruct Hp|]. inversion H3 as [|? ? M1 M2]; subst.
      destruct Hp as [->|Hp], Hq' as [->|Hq'].
      - reflexivity.
      - exfalso. apply M1. rewrite <- E. apply in_map. exact Hq'.
      - exfalso. apply M1. rewrite E. apply in_map. exact Hp.
      - auto. }
    subst q. contradiction.
  - eapply IH; [exact N2|intros q Hq; apply H2; right; exact Hq|exact H3].
Qed.

Definition integers_good (freqs L : list (N * N)) : Prop :=
  lengths_good L /\ In 0 (map snd L) /\ (forall x, In x (map snd L) -> x = 0 \/ In x (map snd freqs)).

Lemma noninc_last : forall dl m, nonincreasing (dl ++ [m]) -> Forall (fun d => (m <= d)%nat) dl.
Proof.
  intros dl m H. apply Forall_forall. intros x Hx. destruct (In_nth_error _ _ Hx) as (i & Hi).
  assert (i < length dl)%nat by (apply nth_error_Some; rewrite Hi; discriminate).
  apply (H i (length dl)); [lia|rewrite nth_error_app1 by lia; exact Hi|].
  rewrite nth_error_app2, Nat.sub_diag by lia. reflexivity.
Qed.

Lemma combine_snoc : forall {A B} (a : list A) (b : list B) x y, length a = length b ->
  combine (a ++ [x]) (b ++ [y]) = combine a b ++ [(x, y)].
Proof.
  induction a as [|p a IH]; intros [|q b] x y E; try discriminate; [reflexivity|].
  cbn [app combine]. f_equal. apply IH. cbn in E. lia.
Qed.

(** The last step: symbol 0 stays where it is. *)
Lemma bits_tail : forall freqs L depth, integers_good freqs L ->
  (forall A d B, L = A ++ (d, 0) :: B -> Forall (fun p => fst p < depth) A) ->
  exists j, findFixed (length L - 1) L = Ok j /\ sinkFixed j depth L = Ok (j, L) /\ (j < length L)%nat.
Proof.
  intros freqs L depth ((_ & _ & _ & HN & _) & H0 & _) HA.
  apply in_map_iff in H0. destruct H0 as ([d z] & E & Hz). cbn in E. subst z.
  destruct (in_split _ _ Hz) as (A & B & ->). exists (length A).
  split; [|split; [apply sinkFixed_spec; eapply HA; reflexivity|rewrite app_length; cbn; lia]].
  rewrite app_length. cbn [length]. replace (length A + S (length B) - 1)%nat with (length A + length B)%nat by lia.
  apply findFixed_spec; [|lia]. rewrite map_app in HN. cbn [map snd] in HN. apply NoDup_remove_2 in HN.
  apply Forall_forall. intros p Hp C. apply HN, in_app_iff. right. rewrite <- C. apply in_map. exact Hp.
Qed.

Lemma bitsForIntegers_spec : forall w depth freqs totalFreq bits L,
  NoDup (map snd freqs) -> Forall (fun p => 0 < fst p) freqs -> Forall (fun p => 0 < snd p) freqs ->
  2 * sumFst freqs < two64 ->
  bitsForIntegers worth w depth freqs totalFreq = Ok (bits, L) -> L = [] \/ integers_good freqs L.
Proof.
  intros w depth freqs totalFreq bits L HN HF HX HS HB. unfold bitsForIntegers in HB.
  destruct (N.ltb_spec (N.of_nat (length freqs)) depth). { injection HB as _ <-. left. reflexivity. }
  destruct (N.eqb_spec depth 0) as [->|Hd].
  { destruct (plainBits w freqs 0); cbn [bind] in HB; try discriminate. injection HB as _ <-. left. reflexivity. }
  destruct (guess worth w depth totalFreq freqs 0 (repeat false (length freqs), [], [], 0)) as [[[[rem nrem] cl] mf]| |] eqn:G;
    cbn [bind] in HB; try discriminate.
  assert (HN' : NoDup freqs) by (eapply NoDup_map_inv; exact HN).
  apply (guess_spec w depth totalFreq freqs []) in G; [|exact HN'|exact HF|].
  2: { split; [constructor|]. split; [intros x []|]. split; [constructor|]. split; [constructor|]. left. auto. }
  cbn [app] in G. destruct G as (G1 & G2 & G3 & G4 & G5).
  right.
  (* common: a list of pairs with 0 *)
  assert (BASE : forall cl' mf', NoDup cl' -> incl cl' freqs -> least (sumFst freqs) cl' mf' -> (1 <= length cl')%nat ->
    NoDup (map snd (cl' ++ [(mf', 0)])) /\ sumFst (cl' ++ [(mf', 0)]) < two64 /\ Forall (fun p => 0 < snd p) cl' /\
    Forall (fun p => mf' <= fst p) cl').
  { intros cl' mf' C1 C2 C3 C4.
    assert (C5 : Forall (fun p => 0 < snd p) cl').
    { rewrite Forall_forall in *. intros p Hp. apply HX, C2, Hp. }
    split; [|split; [|split; [exact C5|]]].
    - rewrite map_app. cbn [map snd]. apply NoDup_snoc.
      + eapply NoDup_snd_sub; eassumption.
      + intros C. apply in_map_iff in C. destruct C as (p & E & Hp). rewrite Forall_forall in C5.
        specialize (C5 p Hp). lia.
    - rewrite sumFst_app. cbn [sumFst fold_right fst]. pose proof (sumFst_incl _ _ C1 C2).
      destruct C3 as [[-> _]|[C3 _]]; [cbn in C4; lia|]. lia.
    - destruct C3 as [[-> _]|[_ C3]]; [cbn in C4; lia|exact C3]. }
  assert (SYM : forall cl' mf' dl l, incl cl' freqs -> Permutation l (cl' ++ [(mf', 0)]) -> length dl = length l ->
     In 0 (map snd (sortPairs (combine (map N.of_nat dl) (map snd l)))) /\
     (forall x, In x (map snd (sortPairs (combine (map N.of_nat dl) (map snd l)))) -> x = 0 \/ In x (map snd freqs))).
  { intros cl' mf' dl l C2 P HL.
    assert (Q : Permutation (map snd (sortPairs (combine (map N.of_nat dl) (map snd l)))) (map snd cl' ++ [0])).
    { rewrite sortPairs_perm, map_snd_combine by (rewrite !map_length; exact HL). rewrite P, map_app. reflexivity. }
    split.
    - eapply Permutation_in; [symmetry; exact Q|]. apply in_app_iff. right. left. reflexivity.
    - intros x Hx. apply (Permutation_in _ Q) in Hx. apply in_app_iff in Hx. destruct Hx as [Hx|[<-|[]]]; [|left; reflexivity].
      right. apply in_map_iff in Hx. destruct Hx as (p & <- & Hp). apply in_map. apply C2, Hp. }
  destruct (N.ltb_spec (N.of_nat (length cl)) depth) as [FC|FC].
  - destruct (force (N.to_nat depth) 0 (N.to_nat depth) freqs nrem rem cl mf) as [[[rem' cl'] mf']| |] eqn:FO; cbn [bind] in HB; try discriminate.
    apply force_spec in FO; auto; [|lia]. destruct FO as (F1 & F2 & F3 & F4 & _ & F6).
    assert (F7 : (1 <= length cl')%nat) by lia. clear F6.
    destruct (BASE cl' mf' F1 F2 F3 F7) as (B1 & B2 & B3 & B4).
    set (l := sortPairs (cl' ++ [(mf', 0)])) in *.
    assert (PL : Permutation l (cl' ++ [(mf', 0)])) by apply sortPairs_perm.
    assert (LL : length l = S (length cl')) by (rewrite (Permutation_length PL), app_length; cbn; lia).
    assert (SL : sumFst l < two64) by (unfold sumFst; rewrite (sum_perm _ _ PL); exact B2).
    destruct (inOrder_spec l) as (dl & D1 & D2 & D3 & D4 & D5 & D6); [lia|exact SL|].
    rewrite D2 in HB. cbn [bind] in HB.
    assert (NL : NoDup (map snd l)) by (eapply Permutation_NoDup; [apply Permutation_map; symmetry; exact PL|exact B1]).
    pose proof (sorted_lengths l dl ltac:(lia) D1 D4 NL D5 D6) as LG.
    destruct (SYM cl' mf' dl l F2 PL D1) as (S1 & S2).
    set (L0 := sortPairs (combine (map N.of_nat dl) (map snd l))) in *.
    assert (IG : integers_good freqs L0) by (exact (conj LG (conj S1 S2))).
    destruct (bits_tail freqs L0 depth IG) as (j & J1 & J2 & J3).
    { intros A d B E.
      (* 0 comes first in l *)
      destruct (least_first (mf', 0) l) as (l' & El).
      { apply sortPairs_sorted. }
      { eapply Permutation_in; [symmetry; exact PL|]. apply in_app_iff. right. left. reflexivity. }
      { eapply Permutation_Forall; [symmetry; exact PL|]. apply Forall_app. split; [|repeat constructor; unfold pairLe; cbn; lia].
        rewrite Forall_forall in *. intros p Hp. specialize (B3 p Hp). specialize (B4 p Hp). unfold pairLe. cbn [fst snd]. lia. }
      destruct dl as [|d0 dl]; [rewrite El in D1; discriminate|].
      assert (d = N.of_nat d0).
      { assert (Hd0 : In (N.of_nat d0, 0) L0).
        { unfold L0. eapply Permutation_in; [symmetry; apply sortPairs_perm|]. rewrite El. left. reflexivity. }
        assert (Hd1 : In (d, 0) L0) by (rewrite E; apply in_app_iff; right; left; reflexivity).
        destruct LG as (_ & _ & _ & ND & _). rewrite E in ND, Hd0.
        apply in_app_iff in Hd0. rewrite map_app in ND. cbn [map snd] in ND. apply NoDup_remove_2 in ND.
        destruct Hd0 as [C|[C|C]]; [|congruence|]; exfalso; apply ND, in_app_iff; [left|right];
          change 0 with (snd (N.of_nat d0, 0)); apply in_map; exact C. }
      subst d. apply Forall_forall. intros p Hp.
      destruct LG as (SS & BB & _ & ND & _). rewrite E in SS.
      pose proof (sorted_before _ A ((N.of_nat d0, 0) :: B) p (N.of_nat d0, 0) SS Hp (or_introl eq_refl)) as Hle.
      assert (snd p <> 0).
      { intros C. rewrite E, map_app in ND. cbn [map snd] in ND. apply NoDup_remove_2 in ND. apply ND, in_app_iff. left.
        rewrite <- C. apply in_map. exact Hp. }
      unfold pairLe in Hle. cbn [fst snd] in Hle. inversion D6; subst. lia. }
    rewrite J1 in HB. cbn [bind] in HB. rewrite J2 in HB. cbn [bind] in HB.
    destruct (get L0 j); cbn [bind] in HB; try discriminate.
    destruct (semiBits w _ L0 freqs rem' 0); cbn [bind] in HB; try discriminate.
    injection HB as _ <-. exact IG.
  - cbn [bind] in HB. assert (F7 : (1 <= length cl)%nat) by lia.
    destruct (BASE cl mf G1 G2 G5 F7) as (B1 & B2 & B3 & B4).
    set (l := cl ++ [(mf, 0)]) in *.
    assert (LL : length l = S (length cl)) by (unfold l; rewrite app_length; cbn; lia).
    destruct (inOrder_spec l) as (dl & D1 & D2 & D3 & D4 & D5 & D6); [lia|exact B2|].
    rewrite D2 in HB. cbn [bind] in HB.
    pose proof (sorted_lengths l dl ltac:(lia) D1 D4 B1 D5 D6) as LG.
    destruct (SYM cl mf dl l G2 (Permutation_refl _) D1) as (S1 & S2).
    set (L0 := sortPairs (combine (map N.of_nat dl) (map snd l))) in *.
    assert (IG : integers_good freqs L0) by (exact (conj LG (conj S1 S2))).
    destruct (bits_tail freqs L0 depth IG) as (j & J1 & J2 & J3).
    { intros A d B E.
      destruct (@exists_last _ dl) as (dl' & m & Edl). { intros ->. cbn in D1. lia. }
      assert (LD : length dl' = length cl) by (rewrite Edl, app_length in D1; cbn in D1; lia).
      assert (EC : combine (map N.of_nat dl) (map snd l) = combine (map N.of_nat dl') (map snd cl) ++ [(N.of_nat m, 0)]).
      { rewrite Edl. unfold l. rewrite !map_app. cbn [map snd]. apply combine_snoc. rewrite !map_length. exact LD. }
      destruct (least_first (N.of_nat m, 0) L0) as (l' & El).
      { apply sortPairs_sorted. }
      { eapply Permutation_in; [symmetry; apply sortPairs_perm|]. rewrite EC. apply in_app_iff. right. left. reflexivity. }
      { eapply Permutation_Forall; [symmetry; apply sortPairs_perm|]. rewrite EC. apply Forall_app.
        split; [|repeat constructor; unfold pairLe; cbn; lia].
        apply Forall_forall. intros [a b] Hp. pose proof (in_combine_l _ _ _ _ Hp) as Ha. pose proof (in_combine_r _ _ _ _ Hp) as Hb.
        apply in_map_iff in Ha. destruct Ha as (d1 & <- & Hd1). rewrite Edl in D3. apply noninc_last in D3.
        rewrite Forall_forall in D3. specialize (D3 d1 Hd1). unfold pairLe. cbn [fst snd]. lia. }
      destruct A as [|a A]; [constructor|]. rewrite El in E. injection E as <- E'. exfalso.
      destruct LG as (_ & _ & _ & ND & _). rewrite El, E' in ND. cbn [map snd] in ND. rewrite map_app in ND.
      inversion ND as [|? ? X _]. apply X, in_app_iff. right. left. reflexivity. }
    rewrite J1 in HB. cbn [bind] in HB. rewrite J2 in HB. cbn [bind] in HB.
    destruct (get L0 j); cbn [bind] in HB; try discriminate.
    destruct (semiBits w _ L0 freqs rem 0); cbn [bind] in HB; try discriminate.
    injection HB as _ <-. exact IG.
Qed.

Lemma plainRound_in : forall ws freqs t lb bw r, plainRound worth ws freqs t lb bw = Ok r -> r = bw \/ In r ws.
Proof.
  induction ws as [|w ws IH]; intros freqs t lb bw r H; cbn [plainRound] in H.
  - injection H as <-. left. reflexivity.
  - destruct (bitsForIntegers worth w 0 freqs t) as [[b x]| |]; cbn [bind] in H; try discriminate.
    apply IH in H. destruct H as [->|H]; [|right; right; exact H].
    destruct (b <? lb); [right; left; reflexivity|left; reflexivity].
Qed.

Lemma fromTo_in : forall k n i, In i (fromTo k n) -> k <= i < k + N.of_nat n.
Proof.
  intros k n. revert k. induction n as [|n IH]; intros k i H; [destruct H|]. cbn [fromTo] in H.
  destruct H as [<-|H]; [lia|]. apply IH in H. lia.
Qed.

Lemma findParameters_spec : forall freqs totalFreq W L,
  NoDup (map snd freqs) -> Forall (fun p => 0 < fst p) freqs -> Forall (fun p => 0 < snd p) freqs ->
  2 * sumFst freqs < two64 ->
  findParameters worth freqs totalFreq = Ok (W, L) -> W <= 15 /\ (L = [] \/ integers_good freqs L).
Proof.
  intros freqs t W L HN HF HX HS H. unfold findParameters in H. destruct freqs as [|p0 r]; [discriminate|].
  set (freqs := p0 :: r) in *. clearbody freqs. clear p0 r. cbv zeta in H.
  pose proof (sortPairs_perm freqs) as P. set (fs := sortPairs freqs) in *.
  assert (HN' : NoDup (map snd fs)) by (eapply Permutation_NoDup; [apply Permutation_map; symmetry; exact P|exact HN]).
  assert (HF' : Forall (fun p => 0 < fst p) fs) by (eapply Permutation_Forall; [symmetry; exact P|exact HF]).
  assert (HX' : Forall (fun p => 0 < snd p) fs) by (eapply Permutation_Forall; [symmetry; exact P|exact HX]).
  assert (HS' : 2 * sumFst fs < two64) by (unfold sumFst; rewrite (sum_perm _ _ P); exact HS).
  assert (TR : forall L, integers_good fs L -> integers_good freqs L).
  { intros L0 (A1 & A2 & A3). split; [exact A1|]. split; [exact A2|]. intros x Hx. apply A3 in Hx. destruct Hx as [Hx|Hx]; [left; exact Hx|].
    right. eapply Permutation_in; [apply Permutation_map; exact P|exact Hx]. }
  destruct (bitsForIntegers worth 0 0 fs t) as [[lb x]| |]; cbn [bind] in H; try discriminate.
  destruct (plainRound worth (fromTo 1 15) fs t lb 0) as [bw| |] eqn:PR; cbn [bind] in H; try discriminate.
  apply plainRound_in in PR.
  destruct (semiRound worth (fromTo 0 16) fs t (lb, bw, [])) as [[[lb' bw'] L']| |] eqn:SR; cbn [bind] in H; try discriminate.
  injection H as <- <-.
  set (good := fun st : N * N * list (N * N) => let '(_, b, l) := st in b <= 15 /\ (l = [] \/ integers_good freqs l)).
  assert (DR : forall w depths st st', w <= 15 -> good st -> depthRound worth w depths fs t st = Ok st' -> good st').
  { intros w depths. induction depths as [|d depths IH]; intros st st' Hw Hg HD; cbn [depthRound] in HD.
    - injection HD as <-. exact Hg.
    - destruct (bitsForIntegers worth w d fs t) as [[b tmp]| |] eqn:BI; cbn [bind] in HD; try discriminate.
      destruct (b =? 0); [injection HD as <-; exact Hg|].
      destruct st as [[lb0 bw0] l0].
      apply IH in HD; auto. destruct (b <? lb0); [|exact Hg]. split; [exact Hw|].
      apply bitsForIntegers_spec in BI; auto. destruct BI as [BI|BI]; [left; exact BI|right; apply TR; exact BI]. }
  assert (RR : forall ws st st', Forall (fun w => w <= 15) ws -> good st -> semiRound worth ws fs t st = Ok st' -> good st').
  { induction ws as [|w ws IH]; intros st st' Hw Hg HD; cbn [semiRound] in HD.
    - injection HD as <-. exact Hg.
    - inversion Hw; subst. destruct (depthRound worth w [1; 2; 3] fs t st) as [s1| |] eqn:E; cbn [bind] in HD; try discriminate.
      apply DR in E; auto. eapply IH; eauto. }
  apply RR in SR.
  - exact SR.
  - apply Forall_forall. intros w Hw. apply fromTo_in in Hw. lia.
  - split; [|left; reflexivity]. destruct PR as [->|PR]; [lia|]. apply fromTo_in in PR. lia.
Qed.
End Choice.

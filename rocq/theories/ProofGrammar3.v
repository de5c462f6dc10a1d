(** Reading back a written grammar: special symbols, variables, freed symbols; C31. *)
From Coq Require Import List NArith ZArith Lia Arith Bool.
From Coq Require Import ZifyBool ZifyNat ZifyN.
From Verif Require Import Base Arrays TArray ModelUtils ModelStreams ModelHeaders ProofUtils1 ProofUtils3 ProofHeaders ModelGrammar ProofGrammar1 SpecGrammar ProofGrammar2.
Import ListNotations.
Open Scope N_scope.

(** ** Special symbols *)

Lemma readSpecials_ok : forall K l done s special enum original,
  are_bytes (done ++ l) -> NoDup (done ++ l) -> (length (done ++ l) <= K)%nat ->
  length special = 256%nat -> length enum = 256%nat -> length original = (K * K)%nat ->
  (forall c, c < 256 -> nth_error special (N.to_nat c) = Some true <-> In c done) ->
  (forall i a, nth_error done i = Some a -> nth_error enum (N.to_nat a) = Some (N.of_nat i)) ->
  (forall n, (n < K * K)%nat -> (forall k, n <> (k * k)%nat) -> nth_error original n = Some true) ->
  exists special' enum' original',
    readSpecials (length l) (length done) (bytes_bits l ++ s) done special enum original =
      Ok (done ++ l, special', enum', original', s) /\
    length special' = 256%nat /\ length enum' = 256%nat /\ length original' = (K * K)%nat /\
    (forall c, c < 256 -> nth_error special' (N.to_nat c) = Some true <-> In c (done ++ l)) /\
    (forall i a, nth_error (done ++ l) i = Some a -> nth_error enum' (N.to_nat a) = Some (N.of_nat i)) /\
    (forall n, (n < K * K)%nat -> (forall k, n <> (k * k)%nat) -> nth_error original' n = Some true).
Proof.
  intros K l. induction l as [|c l IH]; intros done s special enum original B ND LK L1 L2 L3 H1 H2 H3.
  - rewrite app_nil_r. exists special, enum, original. cbn. auto 10.
  - assert (Bc : c < 256) by (apply Forall_app in B as (_ & B); inversion B; assumption).
    cbn [length readSpecials]. rewrite bytes_bits_cons, <- app_assoc, readByte_spec by exact Bc.
    rewrite app_length in LK. cbn [length] in LK.
    rewrite !set_ok by (try nia; lia). cbn [bind].
    replace (done ++ c :: l) with ((done ++ [c]) ++ l) in * by (rewrite <- app_assoc; reflexivity).
    replace (S (length done)) with (length (done ++ [c])) by (rewrite app_length; cbn [length]; lia).
    apply IH; auto; rewrite ?upd_length; auto.
    + rewrite !app_length. cbn [length]. lia.
    + intros x Hx. rewrite nth_error_upd by lia. rewrite in_app_iff. cbn [In].
      destruct (Nat.eqb_spec (N.to_nat x) (N.to_nat c)) as [E|NE].
      * assert (c = x) by lia. subst. tauto.
      * rewrite H1 by exact Hx. split; [tauto|]. intros [?|[?|[]]]; [assumption|subst; lia].
    + intros i a Hi. rewrite nth_error_upd by lia.
      destruct (Nat.eq_dec i (length done)) as [->|NE].
      * rewrite nth_error_app2, Nat.sub_diag in Hi by lia. injection Hi as <-. rewrite Nat.eqb_refl. reflexivity.
      * pose proof (nth_error_bound _ _ _ Hi) as Bi. rewrite app_length in Bi. cbn [length] in Bi.
        rewrite nth_error_app_l in Hi by lia.
        destruct (Nat.eqb_spec (N.to_nat a) (N.to_nat c)) as [E|_]; [|apply H2; exact Hi].
        assert (a = c) by lia. subst a. exfalso. apply nth_error_In in Hi.
        rewrite <- app_assoc in ND. apply NoDup_remove_2 in ND. apply ND. apply in_or_app. left. exact Hi.
    + intros n Hn Hsq. rewrite nth_error_upd_other; [apply H3; assumption|nia|]. apply Hsq.
Qed.

(** ** Variables *)

Definition largeIn (specials : list N) (rules : list (sym * list N)) (n : nat) : Prop :=
  exists i j a b side, n = number i j /\ nth_error specials i = Some a /\ nth_error specials j = Some b /\
    In (Two a b, side) rules.

Lemma number_pair : forall i j, N.of_nat (number i j) = pairNumber (N.of_nat i) (N.of_nat j).
Proof.
  intros i j. unfold number, pairNumber.
  destruct (Nat.eqb_spec i j); destruct (N.eqb_spec (N.of_nat i) (N.of_nat j)); try lia.
  destruct (Nat.ltb_spec j i); destruct (N.ltb_spec (N.of_nat j) (N.of_nat i)); lia.
Qed.
Lemma number_inj : forall i j k l, number i j = number k l -> i = k /\ j = l.
Proof.
  intros i j k l E. assert (P : pairNumber (N.of_nat i) (N.of_nat j) = pairNumber (N.of_nat k) (N.of_nat l)) by (rewrite <- !number_pair; congruence).
  pose proof (pairOfNumber_number (N.of_nat i) (N.of_nat j)) as Q. rewrite P, pairOfNumber_number in Q. injection Q. lia.
Qed.
Lemma pair16_eq : forall a b, b < 256 -> pair16 a b = a * 256 + b.
Proof. intros. unfold pair16. rewrite N.lor_comm, lor_add by lia. lia. Qed.

Definition keysOk (specials : list N) (rules : list (sym * list N)) (bound : nat) : Prop :=
  (forall c side, In (One c, side) rules -> c < 256) /\
  (forall a b side, In (Two a b, side) rules -> exists i j,
     nth_error specials i = Some a /\ nth_error specials j = Some b /\ (number i j < bound)%nat).

Lemma writeVariables_eq : forall specials rules bound pos, keysOk specials rules bound -> are_bytes specials ->
  writeVariables (layout pos rules) = concat (map (fun r => symBytes (fst r)) rules).
Proof.
  intros specials rules bound. induction rules as [|(k, side) rules IH]; intros pos (H1 & H2) B; [reflexivity|].
  cbn [layout writeVariables r_large r_variable map concat fst]. f_equal.
  - destruct k as [c|a b]; cbn [isTwo symVariable symBytes].
    + specialize (H1 c side (or_introl eq_refl)). rewrite land_255. f_equal. lia.
    + destruct (H2 a b side (or_introl eq_refl)) as (i & j & Ea & Eb & _).
      apply nth_error_In in Ea, Eb. unfold are_bytes in B. rewrite Forall_forall in B. apply B in Ea, Eb. unfold is_byte in *.
      rewrite !land_255, shiftr_div. change (2 ^ 8) with 256. f_equal; [lia|f_equal; lia].
  - apply IH; [|exact B]. split; [intros c s I; apply (H1 c s)|intros a b s I; apply (H2 a b s)]; right; exact I.
Qed.

Lemma readVariables_ok : forall specials enum bound rules s freqs variable original mx,
  keysOk specials rules bound -> are_bytes specials -> (length specials <= 255)%nat ->
  (forall i a, nth_error specials i = Some a -> nth_error enum (N.to_nat a) = Some (N.of_nat i)) ->
  length freqs = 256%nat -> length variable = 256%nat -> (bound <= length original)%nat ->
  exists freqs' variable' original' mx',
    readVariables enum (map (fun r => isTwo (fst r)) rules)
      (bytes_bits (concat (map (fun r => symBytes (fst r)) rules)) ++ s) freqs variable original mx =
      Ok (map blank rules, freqs', variable', original', mx', s) /\
    length freqs' = 256%nat /\ length original' = length original /\
    (forall n, nth_error original' n = Some true <-> nth_error original n = Some true /\ ~ largeIn specials rules n) /\
    (forall n, largeIn specials rules n -> N.of_nat n <= mx') /\ mx <= mx' /\
    (mx' = mx \/ exists n, largeIn specials rules n /\ mx' = N.of_nat n).
Proof.
  intros specials enum bound rules. induction rules as [|(k, side) rules IH]; intros s freqs variable original mx (H1 & H2) B LS HE L1 L2 L3.
  - exists freqs, variable, original, mx. cbn. split; [reflexivity|]. split; [exact L1|]. split; [reflexivity|].
    split; [|split; [|split; [lia|left; reflexivity]]].
    + intros n. split; [intros E; split; [exact E|]|tauto]. intros (i & j & a & b & sd & _ & _ & _ & []).
    + intros n (i & j & a & b & sd & _ & _ & _ & []).
  - assert (H' : keysOk specials rules bound)
      by (split; [intros c sd I; apply (H1 c sd)|intros a b sd I; apply (H2 a b sd)]; right; exact I).
    cbn [map fst]. destruct k as [c|a b]; cbn [isTwo symBytes readVariables concat].
    + specialize (H1 c side (or_introl eq_refl)). cbn [app]. rewrite bytes_bits_cons, <- app_assoc, readByte_spec by exact H1.
      destruct (incr_ok freqs c L1 H1) as (f1 & E1 & Lf). rewrite E1. cbn [bind]. rewrite set_ok by lia. cbn [bind].
      destruct (IH s f1 (upd variable (N.to_nat c) true) original mx H' B LS HE Lf) as (f' & v' & o' & m' & E & R1 & R2 & R3 & R4 & R5 & R6);
        [rewrite upd_length; exact L2|exact L3|].
      rewrite E. cbn [bind]. exists f', v', o', m'. split; [reflexivity|]. split; [exact R1|]. split; [exact R2|].
      assert (LI : forall n, largeIn specials ((One c, side) :: rules) n <-> largeIn specials rules n).
      { intros n. split; intros (i & j & x & y & sd & ? & ? & ? & I); exists i, j, x, y, sd; repeat split; auto.
        - destruct I as [I|I]; [discriminate|exact I].
        - right. exact I. }
      split; [intros n; rewrite LI; apply R3|]. split; [intros n; rewrite LI; apply R4|]. split; [exact R5|].
      destruct R6 as [R6|(n & R6 & R7)]; [left; exact R6|right; exists n; rewrite LI; auto].
    + destruct (H2 a b side (or_introl eq_refl)) as (i & j & Ea & Eb & Hn).
      assert (Ba : a < 256) by (apply nth_error_In in Ea; unfold are_bytes in B; rewrite Forall_forall in B; apply B; exact Ea).
      assert (Bb : b < 256) by (apply nth_error_In in Eb; unfold are_bytes in B; rewrite Forall_forall in B; apply B; exact Eb).
      cbn [app]. rewrite !bytes_bits_cons, <- !app_assoc, readByte_spec by exact Ba.
      destruct (incr_ok freqs a L1 Ba) as (f1 & E1 & Lf). rewrite E1. cbn [bind]. rewrite readByte_spec by exact Bb.
      destruct (incr_ok f1 b Lf Bb) as (f2 & E2 & Lf2). rewrite E2. cbn [bind].
      rewrite (get_ok _ _ _ (HE _ _ Ea)), (get_ok _ _ _ (HE _ _ Eb)). cbn [bind].
      pose proof (nth_error_bound _ _ _ Ea). pose proof (nth_error_bound _ _ _ Eb).
      rewrite number_eq, <- number_pair by lia. rewrite Nat2N.id. rewrite set_ok by lia. cbn [bind].
      match goal with |- context [readVariables _ _ _ _ _ ?o ?m] =>
        destruct (IH s f2 variable o m H' B LS HE Lf2 L2) as (f' & v' & o' & m' & E & R1 & R2 & R3 & R4 & R5 & R6) end;
        [rewrite upd_length; exact L3|].
      rewrite E. cbn [bind]. exists f', v', o', m'. split; [unfold blank at 2; cbn [fst symVariable isTwo]; rewrite pair16_eq by exact Bb; reflexivity|]. split; [exact R1|].
      split; [rewrite R2; apply upd_length|].
      assert (LI : forall n, largeIn specials ((Two a b, side) :: rules) n <-> n = number i j \/ largeIn specials rules n).
      { intros n. split.
        - intros (i' & j' & x & y & sd & En & Ex & Ey & [I|I]).
          + injection I as -> -> ->. left. pose proof (HE _ _ Ex) as P1. pose proof (HE _ _ Ey) as P2.
            rewrite (HE _ _ Ea) in P1. rewrite (HE _ _ Eb) in P2. injection P1 as P1. injection P2 as P2.
            rewrite En. f_equal; lia.
          + right. exists i', j', x, y, sd. auto.
        - intros [->|(i' & j' & x & y & sd & ? & ? & ? & I)].
          + exists i, j, a, b, side. repeat split; auto. left. reflexivity.
          + exists i', j', x, y, sd. repeat split; auto. right. exact I. }
      set (nn := number i j) in *. clearbody nn.
      split; [|split; [|split]].
      * intros n. rewrite R3, LI, nth_error_upd by lia. destruct (Nat.eqb_spec n nn) as [->|NE].
        -- split; [intros (? & _); discriminate|intros (_ & NO); exfalso; apply NO; auto].
        -- intuition.
      * intros n Hn'. rewrite LI in Hn'. destruct Hn' as [->|Hn']; [|apply R4; exact Hn'].
        destruct (N.ltb_spec mx (N.of_nat nn)); lia.
      * destruct (N.ltb_spec mx (N.of_nat nn)); lia.
      * destruct R6 as [R6|(n & R6 & R7)].
        -- destruct (N.ltb_spec mx (N.of_nat nn)); [right; exists nn; rewrite LI; auto|left; exact R6].
        -- right. exists n. rewrite LI. auto.
Qed.

(** ** Freed symbols *)

Fixpoint freedFrom (pairs : list (bool * N)) (i curr : nat) : list N :=
  match pairs with
  | [] => []
  | (v, c) :: r =>
    if (curr * curr =? i)%nat then freedFrom r (S i) (S curr)
    else if v then freedFrom r (S i) curr else c :: freedFrom r (S i) curr
  end.
Definition sqi (i curr : nat) : Prop := (i <= curr * curr)%nat /\ forall k, (k < curr)%nat -> (k * k < i)%nat.
Lemma sqi_square : forall i curr, sqi i curr -> ((curr * curr =? i)%nat = true <-> exists k, i = (k * k)%nat).
Proof.
  intros i curr (H1 & H2). rewrite Nat.eqb_eq. split; [intros <-; eauto|]. intros (k & E). 
  destruct (lt_dec k curr) as [H|H]; [specialize (H2 k H); lia|nia].
Qed.
Lemma sqi_step : forall i curr, sqi i curr -> sqi (S i) (if (curr * curr =? i)%nat then S curr else curr).
Proof.
  intros i curr (H1 & H2). destruct (Nat.eqb_spec (curr * curr) i) as [E|NE].
  - split; [nia|]. intros k Hk. destruct (Nat.eq_dec k curr) as [->|]; [lia|]. specialize (H2 k ltac:(lia)). lia.
  - split; [lia|]. intros k Hk. specialize (H2 k Hk). lia.
Qed.
Lemma square_ok : forall n, square n = true <-> exists k, n = (k * k)%nat.
Proof.
  intros n. unfold square. rewrite Nat.eqb_eq. split; [intros E; exists (Nat.sqrt n); lia|]. intros (k & ->). rewrite Nat.sqrt_square. reflexivity.
Qed.
Lemma countFreed_len : forall pairs i curr, countFreed pairs i curr = length (freedFrom pairs i curr).
Proof.
  induction pairs as [|(v, c) pairs IH]; intros i curr; [reflexivity|]. cbn [countFreed freedFrom].
  destruct (curr * curr =? i)%nat; [apply IH|]. destruct v; [apply IH|cbn [length]; f_equal; apply IH].
Qed.
Lemma freedCount_len : forall pairs i curr, sqi i curr -> freedCount i pairs = length (freedFrom pairs i curr).
Proof.
  induction pairs as [|(v, c) pairs IH]; intros i curr Q; [reflexivity|]. cbn [freedCount freedFrom].
  pose proof (sqi_square _ _ Q) as S1. pose proof (sqi_step _ _ Q) as S2. pose proof (square_ok i) as S3.
  destruct (curr * curr =? i)%nat.
  - replace (square i) with true by (symmetry; rewrite S3; apply S1; reflexivity). cbn. apply IH. exact S2.
  - replace (square i) with false.
    + cbn [orb]. destruct v; cbn [length Nat.add]; rewrite (IH _ curr); auto.
    + symmetry. apply not_true_is_false. rewrite S3, <- S1. discriminate.
Qed.

Lemma skipn_cons_nth : forall A (l : list A) i, (i < length l)%nat -> exists x, nth_error l i = Some x /\ skipn i l = x :: skipn (S i) l.
Proof.
  induction l as [|a l IH]; intros [|i] H; cbn in H; try lia.
  - exists a. auto.
  - destruct (IH i) as (x & E1 & E2); [lia|]. exists x. cbn [nth_error skipn]. auto.
Qed.
Lemma firstn_snoc : forall A (l : list A) i x, nth_error l i = Some x -> firstn (S i) l = firstn i l ++ [x].
Proof.
  induction l as [|a l IH]; intros [|i] x H; try discriminate.
  - injection H as ->. reflexivity.
  - cbn [nth_error] in H. cbn [firstn app]. f_equal. apply (IH i x H).
Qed.

Lemma writeFreedLoop_ok : forall fuel P todo curr sqr, todo = length (freedFrom (skipn curr P) curr sqr) ->
  (length P - curr < fuel)%nat -> writeFreedLoop fuel P todo curr sqr = Ok (freedFrom (skipn curr P) curr sqr).
Proof.
  induction fuel as [|fuel IH]; intros P todo curr sqr Ht Hf; [lia|].
  destruct todo as [|todo].
  - cbn [writeFreedLoop]. symmetry in Ht. apply length_zero_iff_nil in Ht. rewrite Ht. reflexivity.
  - cbn [writeFreedLoop]. destruct (le_lt_dec (length P) curr) as [H|H].
    { rewrite skipn_all2 in Ht by exact H. discriminate. }
    destruct (skipn_cons_nth _ P curr H) as ((v, c) & E1 & E2). rewrite E2 in Ht |- *. cbn [freedFrom] in Ht |- *.
    destruct (sqr * sqr =? curr)%nat; [apply IH; [exact Ht|lia]|].
    rewrite (get_ok _ _ _ E1). cbn [bind]. destruct v; [apply IH; [exact Ht|lia]|].
    cbn [length] in Ht. rewrite IH by lia. reflexivity.
Qed.

Definition canon (e : bool * N) : bool * N := (fst e, if fst e then 0 else snd e).

Lemma freedFrom_bytes : forall l n curr, (forall i e, nth_error l i = Some e -> snd e < 256) -> are_bytes (freedFrom l n curr).
Proof.
  induction l as [|(v, c) l IH]; intros n curr H; [constructor|]. cbn [freedFrom].
  assert (H' : forall i e, nth_error l i = Some e -> snd e < 256) by (intros i e E; apply (H (S i) e E)).
  destruct (curr * curr =? n)%nat; [apply IH; exact H'|]. destruct v; [apply IH; exact H'|].
  constructor; [apply (H 0%nat (false, c) eq_refl)|apply IH; exact H'].
Qed.

(** Where nothing is freed any more, every entry that is not a square is flagged. *)
Lemma freedFrom_nil : forall l n curr, sqi n curr -> freedFrom l n curr = [] ->
  forall i e, nth_error l i = Some e -> (forall k, (n + i)%nat <> (k * k)%nat) -> fst e = true.
Proof.
  induction l as [|(v, c) l IH]; intros n curr Q EF i e E NS; [destruct i; discriminate|].
  pose proof (sqi_step _ _ Q) as S2. cbn [freedFrom] in EF.
  destruct i as [|i].
  - injection E as <-. cbn [fst]. destruct v; auto.
    destruct (Nat.eqb_spec (curr * curr) n) as [X|X]; [|discriminate]. exfalso. apply (NS curr). lia.
  - cbn [nth_error] in E. assert (NS' : forall k, (S n + i)%nat <> (k * k)%nat) by (intros k; specialize (NS k); lia).
    destruct (curr * curr =? n)%nat; [apply (IH _ _ S2 EF i e E NS')|]. destruct v; [apply (IH _ _ S2 EF i e E NS')|discriminate].
Qed.

Section Freed.
  Variable specials : list N.
  Variable original : list bool.
  Variable P : list (bool * N).
  Hypothesis Hsq : forall k e, nth_error P (k * k) = Some e -> fst e = false /\ nth_error specials k = Some (snd e).
  Hypothesis Hb : forall n e, nth_error P n = Some e -> snd e < 256.
  Hypothesis Hlen : (length P <= length specials * length specials)%nat.

  Lemma readFreed_ok :
    (forall n e, nth_error P n = Some e -> (forall k, n <> (k * k)%nat) -> nth_error original n = Some (negb (fst e))) ->
    forall fuel curr sqr s, sqi curr sqr -> (curr <= length P)%nat ->
    (length P - curr < fuel)%nat ->
    exists curr' sqr', readFreed fuel specials original (length (freedFrom (skipn curr P) curr sqr)) curr sqr (map canon (firstn curr P))
                         (bytes_bits (freedFrom (skipn curr P) curr sqr) ++ s) = Ok (map canon (firstn curr' P), curr', sqr', s) /\
      sqi curr' sqr' /\ (curr <= curr' <= length P)%nat /\ freedFrom (skipn curr' P) curr' sqr' = [].
  Proof.
    intros Hns. induction fuel as [|fuel IH]; intros curr sqr s Q Hc Hf; [lia|].
    destruct (freedFrom (skipn curr P) curr sqr) as [|c0 l0] eqn:EF.
    - exists curr, sqr. cbn [length readFreed bytes_bits flat_map app]. rewrite EF. auto.
    - destruct (Nat.eq_dec (length P) curr) as [H|H].
      { rewrite skipn_all2 in EF by lia. discriminate. }
      destruct (skipn_cons_nth _ P curr ltac:(lia)) as ((v, c) & E1 & E2).
      cbn [length readFreed]. destruct (Nat.ltb_spec curr (length specials * length specials)); [|lia].
      pose proof (sqi_square _ _ Q) as S1. pose proof (sqi_step _ _ Q) as S2.
      rewrite E2 in EF. cbn [freedFrom] in EF.
      assert (SN : firstn (S curr) P = firstn curr P ++ [(v, c)]) by (apply firstn_snoc; exact E1).
      destruct (sqr * sqr =? curr)%nat eqn:ESQ.
      + apply Nat.eqb_eq in ESQ. assert (E1' := E1). rewrite <- ESQ in E1'.
        destruct (Hsq _ _ E1') as (Ev & Es). cbn [fst snd] in Ev, Es. subst v. rewrite (get_ok _ _ _ Es). cbn [bind].
        specialize (IH (S curr) (S sqr) s S2 ltac:(lia) ltac:(lia)). rewrite EF in IH. cbn [length] in IH.
        rewrite SN, map_app in IH. destruct IH as (c' & q' & E & R1 & R2 & R3). exists c', q'. split; [exact E|]. split; [exact R1|]. split; [lia|exact R3].
      + rewrite (get_ok original curr (negb v)).
        2:{ apply (Hns curr (v, c) E1). intros k Ek. assert (X : false = true) by (apply S1; eauto). discriminate. }
        cbn [bind]. destruct v; cbn [negb].
        * specialize (IH (S curr) sqr s S2 ltac:(lia) ltac:(lia)). rewrite EF in IH. cbn [length] in IH.
          rewrite SN, map_app in IH. destruct IH as (c' & q' & E & R1 & R2 & R3). exists c', q'. split; [exact E|]. split; [exact R1|]. split; [lia|exact R3].
        * injection EF as <- EF. assert (Bc : c < 256) by (apply (Hb curr (false, c) E1)).
          rewrite bytes_bits_cons, <- app_assoc, readByte_spec by exact Bc.
          specialize (IH (S curr) sqr s S2 ltac:(lia) ltac:(lia)). change (freedFrom (skipn (S curr) P) (S curr) sqr = l0) in EF. rewrite EF in IH.
          rewrite SN, map_app in IH. destruct IH as (c' & q' & E & R1 & R2 & R3). exists c', q'. split; [exact E|]. split; [exact R1|]. split; [lia|exact R3].
  Qed.

  Lemma fillPairs_ok : forall k curr sqr, sqi curr sqr -> (curr + k)%nat = length P -> freedFrom (skipn curr P) curr sqr = [] ->
    fillPairs k specials curr sqr (map canon (firstn curr P)) = Ok (map canon P).
  Proof.
    induction k as [|k IH]; intros curr sqr Q Hk EF.
    - cbn [fillPairs]. rewrite firstn_all2 by lia. reflexivity.
    - cbn [fillPairs]. destruct (skipn_cons_nth _ P curr ltac:(lia)) as ((v, c) & E1 & E2).
      pose proof (sqi_step _ _ Q) as S2. rewrite E2 in EF. cbn [freedFrom] in EF.
      assert (SN : firstn (S curr) P = firstn curr P ++ [(v, c)]) by (apply firstn_snoc; exact E1).
      destruct (sqr * sqr =? curr)%nat eqn:ESQ.
      + apply Nat.eqb_eq in ESQ. assert (E1' := E1). rewrite <- ESQ in E1'.
        destruct (Hsq _ _ E1') as (Ev & Es). cbn [fst snd] in Ev, Es. subst v. rewrite (get_ok _ _ _ Es). cbn [bind].
        rewrite <- (IH (S curr) (S sqr) S2); [|lia|exact EF]. rewrite SN, map_app. reflexivity.
      + destruct v; [|discriminate]. rewrite <- (IH (S curr) sqr S2); [|lia|exact EF]. rewrite SN, map_app. reflexivity.
  Qed.

End Freed.

Lemma freedSymbols_canon : forall specials P i, freedSymbolsFrom specials i (map canon P) = freedSymbolsFrom specials i P.
Proof.
  intros specials. induction P as [|(v, c) P IH]; intros i; [reflexivity|]. cbn [map canon fst snd freedSymbolsFrom].
  destruct v; [apply IH|]. rewrite IH. reflexivity.
Qed.

Lemma bool_list_ext : forall (l m : list bool), length l = 256%nat -> length m = 256%nat ->
  (forall c, c < 256 -> nth_error l (N.to_nat c) = Some true <-> nth_error m (N.to_nat c) = Some true) -> l = m.
Proof.
  intros l m L1 L2 H. apply nth_error_ext. intros i. destruct (lt_dec i 256) as [Hi|Hi].
  - specialize (H (N.of_nat i) ltac:(lia)). rewrite Nat2N.id in H.
    destruct (nth_error_lt l i) as (x & Ex); [lia|]. destruct (nth_error_lt m i) as (y & Ey); [lia|].
    rewrite Ex, Ey in *. destruct x, y; auto; exfalso; destruct H as (HA & HB);
      [specialize (HA eq_refl)|specialize (HB eq_refl)]; discriminate.
  - rewrite !(proj2 (nth_error_None _ _)) by lia. reflexivity.
Qed.

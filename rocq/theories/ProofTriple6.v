(** Parts of a text, the buffer of the program, and a faster way to count cubes. *)
From Coq Require Import List NArith ZArith Lia Arith Bool.
From Coq Require Import ZifyBool ZifyNat ZifyN.
From Verif Require Import Base Arrays ModelUtils ModelStreams ModelHeaders ModelBWT SpecBWT ModelFreq SpecFreq ModelGrammar ModelPairs SpecPairs SpecTriple ModelFile SpecFile ModelWavelet.
From Verif Require Import ModelMain SpecMain ProofFile ProofMain2 ProofMain4 ProofBWT7 ProofPairs1 ProofTriple5.
Import ListNotations.
Open Scope N_scope.

(** ** Parts *)
Lemma triples_skip : forall k l, (triples (skipn k l) <= triples l)%nat.
Proof. induction k as [|k IH]; intros [|x l]; cbn [skipn]; try lia. specialize (IH l). cbn [triples]. eapply Nat.le_trans; [exact IH|apply Nat.le_add_l]. Qed.
Lemma triples_first : forall l k, (triples (firstn k l) <= triples l)%nat.
Proof.
  induction l as [|x l IH]; intros [|k]; cbn [firstn triples]; try lia. specialize (IH k). destruct l as [|y l]; [cbn; destruct k; cbn; lia|].
  destruct k as [|k]; [cbn; lia|]. cbn [firstn] in *. destruct l as [|z l]; destruct k as [|k]; cbn [firstn triples] in *; try lia; destruct ((x =? y) && (y =? z)); lia.
Qed.
Lemma cubes_skip : forall k l, (cubes (skipn k l) <= cubes l)%nat.
Proof. induction k as [|k IH]; intros [|x l]; cbn [skipn]; try lia. specialize (IH l). change (cubes (x :: l)) with ((if cubeHead (x :: l) then 1 else 0) + cubes l)%nat. lia. Qed.
Lemma sameText_true : forall l m, sameText l m = true <-> l = m.
Proof. intros l m. unfold sameText. destruct (list_eq_dec N.eq_dec l m); split; auto; discriminate. Qed.
Lemma cubeHead_elim : forall l, cubeHead l = true -> exists k, (1 <= k)%nat /\ (3 * k <= length l)%nat /\ firstn k l = firstn k (skipn k l) /\ firstn k l = firstn k (skipn (k + k) l).
Proof.
  intros l H. unfold cubeHead in H. apply existsb_exists in H. destruct H as (k & I & H). apply andb_true_iff in H. destruct H as (H & H3). apply andb_true_iff in H. destruct H as (H1 & H2).
  exists k. apply in_seq in I. split; [lia|]. split; [lia|]. split; apply sameText_true; assumption.
Qed.
Lemma cubeHead_first : forall l k, cubeHead (firstn k l) = true -> cubeHead l = true.
Proof.
  intros l k H. apply cubeHead_elim in H. destruct H as (j & J1 & J2 & J3 & J4).
  assert (E : firstn k l = firstn j l ++ firstn j l ++ firstn j l ++ skipn (3 * j) (firstn k l)).
  { assert (FJ : firstn j (firstn k l) = firstn j l). { rewrite firstn_firstn. f_equal. rewrite firstn_length in J2. lia. }
    rewrite FJ in J3, J4. set (m := firstn k l) in *. rewrite <- (firstn_skipn j m) at 1. rewrite FJ. f_equal. rewrite <- (firstn_skipn j (skipn j m)) at 1. rewrite <- J3. f_equal.
    rewrite skip_skip. rewrite <- (firstn_skipn j (skipn (j + j) m)) at 1. rewrite <- J4. f_equal. rewrite skip_skip. f_equal. lia. }
  rewrite <- (firstn_skipn k l), E, <- !app_assoc. apply cubeHead_intro. intros Z. apply (f_equal (@length N)) in Z. rewrite firstn_length in Z. cbn [length] in Z. rewrite firstn_length in J2. lia.
Qed.
Lemma cubes_first : forall l k, (cubes (firstn k l) <= cubes l)%nat.
Proof.
  induction l as [|x l IH]; intros [|k]; try (cbn; lia). specialize (IH k). pose proof (cubeHead_first (x :: l) (S k)) as Q. cbn [firstn] in *.
  change (cubes (x :: l)) with ((if cubeHead (x :: l) then 1 else 0) + cubes l)%nat. change (cubes (x :: firstn k l)) with ((if cubeHead (x :: firstn k l) then 1 else 0) + cubes (firstn k l))%nat.
  destruct (cubeHead (x :: firstn k l)); [rewrite Q by reflexivity; lia|]. destruct (cubeHead (x :: l)); lia.
Qed.
Lemma triples_cubes : forall l, (triples l <= cubes l)%nat.
Proof.
  induction l as [|x l IH]; [cbn; lia|]. change (cubes (x :: l)) with ((if cubeHead (x :: l) then 1 else 0) + cubes l)%nat. cbn [triples].
  destruct l as [|y [|z l]]; try (cbn [triples] in *; lia). destruct ((x =? y) && (y =? z)) eqn:E; [|lia].
  apply andb_true_iff in E. destruct E as (E1 & E2). apply N.eqb_eq in E1, E2. subst y z. change (x :: x :: x :: l) with ([x] ++ [x] ++ [x] ++ l). rewrite cubeHead_intro by discriminate. lia.
Qed.

(** ** Buffers *)
Lemma third_program : third capacityOf.
Proof.
  intros len L5 L31. destruct (capacity_third len L31) as (n & _ & -> & C1 & C2). change (10 ^ 6) with 1000000 in C2. lia.
Qed.
Lemma third_exact : third bufferCapacity.
Proof. intros len L5 L31. unfold bufferCapacity. lia. Qed.

(** ** The program *)
Lemma main_few : forall sortF sorter worth worth' behind mem starts bwt enc prepr input archive size,
  sorts_by_frequency sortF -> (bwt <> 115 -> sorts_suffixes sorter) -> (forall i, behind i < 256) -> are_bytes input ->
  moderate mem input -> N.of_nat (length prepr) <= 1000000 ->
  (length prepr <= 1 /\ triples input <= 1000)%nat \/ (cubes input <= 1000)%nat ->
  (forall pbSize, pbSizeOf (memLimitOf mem) = Ok pbSize -> N.of_nat (length input) mod pbSize <> 3 /\ N.of_nat (length input) mod pbSize <> 4) ->
  compressMain sortF sorter worth mem starts bwt enc prepr input = Ok (Some (archive, size)) ->
  decompress behind (waveletCoder worth') archive = Ok (input, length input) /\ size = length archive /\ are_bytes archive.
Proof.
  intros sortF sorter worth worth' behind mem starts bwt enc prepr input archive size HF HS HB HI HM HN HT HL H.
  apply (main_round sortF sorter worth worth' behind mem starts bwt enc prepr input archive size HF HS HB HI HM HN); [|exact H].
  intros pbSize k _ EP. specialize (HL pbSize EP).
  unfold moderate in HM. assert (M1 : 1 <= megabytes mem) by (unfold megabytes; destruct (N.eqb_spec mem 0); lia).
  destruct (limit_small mem ltac:(lia)) as [ML ML2].
  destruct (pb_bounds _ ML2) as (pb & EP' & P1 & P2). rewrite EP in EP'. injection EP' as <-. change (10 ^ 15) with 1000000000000000 in *. change (2 ^ 29) with 536870912 in HM.
  assert (PB : 739999 <= pbSize) by lia.
  set (block := firstn (N.to_nat pbSize) (skipn (k * N.to_nat pbSize) input)).
  assert (LB : (length block = Nat.min (N.to_nat pbSize) (length input - k * N.to_nat pbSize))%nat) by (unfold block; rewrite firstn_length, skipn_length; reflexivity).
  assert (LC : length block = O \/ length block = N.to_nat pbSize \/ N.of_nat (length block) = N.of_nat (length input) mod pbSize).
  { rewrite LB. destruct (Nat.le_gt_cases (length input) (k * N.to_nat pbSize)) as [A|A]; [left; lia|]. right.
    destruct (Nat.le_gt_cases (N.to_nat pbSize) (length input - k * N.to_nat pbSize)) as [B|B]; [left; lia|]. right.
    rewrite Nat.min_r by lia. apply (N.mod_unique _ _ (N.of_nat k)); lia. }
  apply blockFits_few; auto.
  - apply third_program.
  - unfold block. apply are_bytes_firstn, are_bytes_skipn, HI.
  - lia.
  - lia.
  - rewrite LB. change (2 ^ 31) with 2147483648. lia.
  - unfold block. destruct HT as [(T1 & T2)|T].
    + left. split; [exact T1|]. pose proof (triples_first (skipn (k * N.to_nat pbSize) input) (N.to_nat pbSize)). pose proof (triples_skip (k * N.to_nat pbSize) input). lia.
    + right. pose proof (cubes_first (skipn (k * N.to_nat pbSize) input) (N.to_nat pbSize)). pose proof (cubes_skip (k * N.to_nat pbSize) input). lia.
Qed.

(** ** Counting faster, for examples *)
Fixpoint agree (k : nat) (l m : list N) : bool :=
  match k with
  | O => true
  | S k => match l, m with x :: l, y :: m => if x =? y then agree k l m else false | _, _ => false end
  end.
Fixpoint scan (k : nat) (l m n : list N) {struct n} : bool :=
  (if agree k l m then agree k m n else false) || match n with _ :: _ :: n' => scan (S k) l (tl m) n' | _ => false end.
Definition cubeHeadFast (l : list N) : bool := match l with _ :: m => match m with _ :: n => scan 1 l m n | [] => false end | [] => false end.
Fixpoint cubesFast (l : list N) : N := match l with [] => 0 | _ :: r => (if cubeHeadFast l then 1 else 0) + cubesFast r end.

Lemma agree_true : forall k l m, firstn k l = firstn k m -> (k <= length l)%nat -> (k <= length m)%nat -> agree k l m = true.
Proof.
  induction k as [|k IH]; intros [|x l] [|y m] H L1 L2; cbn [length] in *; try lia; [reflexivity..|]. cbn [firstn agree] in *. injection H as -> H. rewrite N.eqb_refl. apply IH; [exact H|lia|lia].
Qed.
Lemma skip_tl : forall (l : list N) j, skipn (S j) l = tl (skipn j l).
Proof. induction l as [|x l IH]; intros [|j]; try reflexivity. cbn [skipn]. rewrite <- IH. reflexivity. Qed.
Lemma scan_true : forall l k d j, (1 <= j)%nat -> (k = j + d)%nat -> (3 * k <= length l)%nat -> firstn k l = firstn k (skipn k l) -> firstn k l = firstn k (skipn (k + k) l) ->
  scan j l (skipn j l) (skipn (j + j) l) = true.
Proof.
  intros l k. induction d as [|d IH]; intros j J1 J2 J3 J4 J5.
  - assert (j = k) by lia. subst j. assert (A : (if agree k l (skipn k l) then agree k (skipn k l) (skipn (k + k) l) else false) = true).
    { rewrite agree_true; [|exact J4|lia|rewrite skipn_length; lia]. apply agree_true; [congruence|rewrite skipn_length; lia..]. }
    destruct (skipn (k + k) l) eqn:E; unfold scan; fold scan; rewrite A; reflexivity.
  - specialize (IH (S j) ltac:(lia) ltac:(lia) J3 J4 J5). destruct (skipn (j + j) l) as [|a [|b n]] eqn:E.
    + apply (f_equal (@length N)) in E. rewrite skipn_length in E. cbn [length] in E. lia.
    + apply (f_equal (@length N)) in E. rewrite skipn_length in E. cbn [length] in E. lia.
    + assert (E2 : skipn (S j + S j) l = n) by (replace (S j + S j)%nat with (S (S (j + j))) by lia; rewrite !skip_tl, E; reflexivity).
      rewrite E2, skip_tl in IH. cbn [scan]. rewrite IH. apply orb_true_r.
Qed.
Lemma cubes_fast : forall l, N.of_nat (cubes l) <= cubesFast l.
Proof.
  induction l as [|x l IH]; [cbn; lia|]. change (cubes (x :: l)) with ((if cubeHead (x :: l) then 1 else 0) + cubes l)%nat. cbn [cubesFast].
  assert (Q : cubeHead (x :: l) = true -> cubeHeadFast (x :: l) = true).
  { intros H. apply cubeHead_elim in H. destruct H as (k & K1 & K2 & K3 & K4). pose proof (scan_true (x :: l) k (k - 1) 1 (le_n _) ltac:(lia) K2 K3 K4) as S1.
    destruct l as [|y l]; [cbn [length] in K2; lia|]. exact S1. }
  destruct (cubeHead (x :: l)); [rewrite Q by reflexivity; lia|]. destruct (cubeHeadFast (x :: l)); lia.
Qed.

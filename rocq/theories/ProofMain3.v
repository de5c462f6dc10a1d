(** The block sizes of the program and those of the theorems about files. *)
From Coq Require Import List NArith ZArith Arith Bool Lia ZifyBool ZifyNat ZifyN.
From Verif Require Import Base ModelUtils ModelStreams ModelHeaders ModelBWT SpecBWT ModelFreq SpecFreq ModelGrammar ModelPairs SpecPairs ModelFile SpecFile ProofFile ModelSaisFile ProofSais20.
Import ListNotations.
Open Scope N_scope.

Definition sameChunks (P P' : N) (input : list N) : Prop := P = P' \/ (length input <= N.to_nat P /\ length input <= N.to_nat P')%nat.
Lemma chunk_same : forall P P' input k, 0 < P -> 0 < P' -> sameChunks P P' input ->
  firstn (N.to_nat P') (skipn (k * N.to_nat P') input) = firstn (N.to_nat P) (skipn (k * N.to_nat P) input).
Proof.
  intros P P' input k HP HP' [->|[A B]]; [reflexivity|]. destruct k as [|k].
  - cbn [Nat.mul skipn]. rewrite !firstn_all2 by assumption. reflexivity.
  - assert (forall x, 0 < x -> (length input <= N.to_nat x)%nat -> skipn (S k * N.to_nat x) input = []) as E by (intros x X1 X2; apply skipn_all2; nia).
    rewrite !E by assumption. rewrite !firstn_nil. reflexivity.
Qed.
Lemma chunk_next : forall P P' input, sameChunks P P' input -> skipn (N.to_nat P') input = skipn (N.to_nat P) input /\ sameChunks P P' (skipn (N.to_nat P) input).
Proof.
  intros P P' input [->|[A B]]; [split; [reflexivity|left; reflexivity]|].
  rewrite !skipn_all2 by assumption. split; [reflexivity|]. right. cbn. lia.
Qed.

Lemma slice_min : forall limit fuel used reserved bs, limit <= 2 ^ 31 - 2 -> N.of_nat used < limit -> bs < 2 ^ 31 - 2 ->
  sliceIntoBlocks fuel used reserved (N.to_nat (N.min bs (limit - 1))) = sliceIntoBlocks fuel used reserved (N.to_nat bs).
Proof.
  intros limit fuel used reserved bs HL HU HB. unfold sliceIntoBlocks. rewrite !N2Nat.id.
  change (2 ^ 31 - 2) with 2147483646 in *.
  replace (N.min bs (limit - 1) <? 2147483646) with true by (symmetry; apply N.ltb_lt; lia).
  replace (bs <? 2147483646) with true by (symmetry; apply N.ltb_lt; lia).
  destruct (used <? reserved)%nat; [|reflexivity]. cbn [andb]. generalize 0%nat. induction fuel as [|fuel IH]; intros b; cbn [sliceLoop]; [reflexivity|].
  replace (Nat.min (N.to_nat (N.min bs (limit - 1))) (used - b)) with (Nat.min (N.to_nat bs) (used - b)) by lia. rewrite IH. reflexivity.
Qed.

Section Congruence.
Variable coder : entropyCoder.
Variable sorter : list N -> list nat.
Variable points : N.
Variable prec : list N -> outcome (grammar * list N).
Variable q q' : N -> N.
Variable P P' : N.
Hypothesis HP : 0 < P.
Hypothesis HP' : 0 < P'.

(** Without options: the slices are the blocks. *)
Lemma loop_plain : forall fuel st written input size, sameChunks P P' input ->
  (forall k g data, prec (firstn (N.to_nat P) (skipn (k * N.to_nat P) input)) = Ok (g, data) ->
     sliceIntoBlocks (length data) (length data) (S (length data)) (N.to_nat P) = sliceIntoBlocks (length data) (length data) (S (length data)) (N.to_nat P')) ->
  compressLoop coder sorter points prec q fuel st written input P P size = compressLoop coder sorter points prec q' fuel st written input P' P' size.
Proof.
  induction fuel as [|fuel IH]; intros st written input size HC HS; [reflexivity|]. cbn [compressLoop].
  pose proof (chunk_same P P' input 0 HP HP' HC) as C0. cbn [Nat.mul skipn] in C0. rewrite C0.
  destruct (chunk_next P P' input HC) as [N1 N2]. rewrite N1. pose proof (HS 0%nat) as HS0. cbn [Nat.mul skipn] in HS0.
  destruct (firstn (N.to_nat P) input) as [|x l]; [reflexivity|]. destruct (prec (x :: l)) as [[g data]| |]; cbn [bind]; try reflexivity.
  rewrite !N.eqb_refl. rewrite (HS0 g data eq_refl). destruct (sliceIntoBlocks _ _ _ _); cbn [bind]; try reflexivity.
  destruct (writePreHeader _ _ _) as [[h m]| |]; cbn [bind]; try reflexivity. destruct (encodeSlices _ _ _ _ _ _ _ _) as [[[s w] k]| |]; cbn [bind]; try reflexivity.
  apply IH; [exact N2|]. intros j. rewrite skipn_add. replace (N.to_nat P + j * N.to_nat P)%nat with (S j * N.to_nat P)%nat by lia. apply HS.
Qed.

(** With options: the size of the slices is computed for each block. *)
Lemma loop_options : forall fuel st written input size B B', sameChunks P P' input -> P <> B -> P' <> B' ->
  (forall k g data, prec (firstn (N.to_nat P) (skipn (k * N.to_nat P) input)) = Ok (g, data) ->
     P <> clampSize (q (N.of_nat (length data))) /\ P' <> clampSize (q' (N.of_nat (length data))) /\
     sliceIntoBlocks (length data) (length data) (S (length data)) (N.to_nat (clampSize (q (N.of_nat (length data))))) =
     sliceIntoBlocks (length data) (length data) (S (length data)) (N.to_nat (clampSize (q' (N.of_nat (length data)))))) ->
  compressLoop coder sorter points prec q fuel st written input P B size = compressLoop coder sorter points prec q' fuel st written input P' B' size.
Proof.
  induction fuel as [|fuel IH]; intros st written input size B B' HC HB HB' HS; [reflexivity|]. cbn [compressLoop].
  pose proof (chunk_same P P' input 0 HP HP' HC) as C0. cbn [Nat.mul skipn] in C0. rewrite C0.
  destruct (chunk_next P P' input HC) as [N1 N2]. rewrite N1. pose proof (HS 0%nat) as HS0. cbn [Nat.mul skipn] in HS0.
  destruct (firstn (N.to_nat P) input) as [|x l]; [reflexivity|]. destruct (prec (x :: l)) as [[g data]| |]; cbn [bind]; try reflexivity.
  rewrite (proj2 (N.eqb_neq P B) HB), (proj2 (N.eqb_neq P' B') HB'). destruct (HS0 g data eq_refl) as (A1 & A2 & A3). rewrite A3. clear A3 HS0. destruct (sliceIntoBlocks _ _ _ _) as [slices| |]; cbn [bind]; try reflexivity.
  destruct (writePreHeader _ _ _) as [[h m]| |]; cbn [bind]; try reflexivity. destruct (encodeSlices _ _ _ _ _ _ _ _) as [[[s w] k]| |]; cbn [bind]; try reflexivity.
  apply IH; [exact N2|exact A1|exact A2|]. intros j. rewrite skipn_add. replace (N.to_nat P + j * N.to_nat P)%nat with (S j * N.to_nat P)%nat by lia. apply HS.
Qed.
End Congruence.

(** ** Sizes within the limits of the theorems about files *)
Section Sizes.
Variable coder : entropyCoder.
Variable limit : N.
Hypothesis HL : 0 < limit <= 2 ^ 31 - 2.
Variable sorter : list N -> list nat.
Variable points : N.
Variable sortF : list (N * N) -> list (N * N).
Variable capacity : nat -> nat.
Variable lowRatio : nat -> nat -> bool.
Variable c : N.

Lemma prec_none : forall block g data, precompress sortF layoutOver capacity lowRatio 0 block = Ok (g, data) -> data = block.
Proof.
  intros block g data E. unfold precompress in E. cbn [precompressRounds bind] in E.
  destruct ((0 <? length block) && (length block <=? S (length block)))%nat%bool; [|discriminate]. injection E as _ <-. reflexivity.
Qed.

Lemma plain_sizes : forall pbSize bwtSize q q' input, 0 < bwtSize ->
  bwtSize < limit \/ (bwtSize < 2 ^ 31 - 2 /\ N.of_nat (length input) < limit) -> 1 < limit ->
  compress coder sorter points (precompress sortF layoutOver capacity lowRatio 0) pbSize bwtSize q false c input =
  compress coder sorter points (precompress sortF layoutOver capacity lowRatio 0) pbSize (N.min bwtSize (limit - 1)) q' false c input.
Proof.
  intros pbSize bwtSize q q' input H0 HB H1. unfold compress. change (2 ^ 31 - 2) with 2147483646 in *.
  assert (E : clampSize bwtSize = bwtSize) by (unfold clampSize; change (2 ^ 31 - 2) with 2147483646; lia).
  assert (E' : clampSize (N.min bwtSize (limit - 1)) = N.min bwtSize (limit - 1)) by (unfold clampSize; change (2 ^ 31 - 2) with 2147483646; lia).
  rewrite E, E'. apply loop_plain; [lia|lia|unfold sameChunks; lia|].
  intros k g data D. apply prec_none in D. subst data. destruct HB as [HB|[HB HI]].
  - rewrite N.min_l by lia. reflexivity.
  - symmetry. apply slice_min; [exact (proj2 HL)| |exact HB]. rewrite firstn_length, skipn_length. lia.
Qed.

Lemma options_sizes : forall n pbSize bwtSize q input, 0 < pbSize -> 1 < limit ->
  pbSize < 2 ^ 31 \/ N.of_nat (length input) < limit ->
  pbSize <> clampSize bwtSize ->
  (forall m, m <= pbSize -> q m < pbSize /\ (q m < limit \/ (q m < 2 ^ 31 - 2 /\ N.of_nat (length input) < limit))) ->
  (forall k, blockFits sortF layoutOver capacity lowRatio n (firstn (N.to_nat pbSize) (skipn (k * N.to_nat pbSize) input)) = true) ->
  compress coder sorter points (precompress sortF layoutOver capacity lowRatio n) pbSize bwtSize q true c input =
  compress coder sorter points (precompress sortF layoutOver capacity lowRatio n) (N.min pbSize (2 ^ 31 - 1)) 0 (fun m => N.min (q m) (limit - 1)) true c input /\
  sameChunks pbSize (N.min pbSize (2 ^ 31 - 1)) input.
Proof.
  intros n pbSize bwtSize q input H0 H1 HP HB HQ HK. change (2 ^ 31 - 2) with 2147483646 in *. change (2 ^ 31 - 1) with 2147483647. change (2 ^ 31) with 2147483648 in *.
  assert (SC : sameChunks pbSize (N.min pbSize 2147483647) input) by (unfold sameChunks; lia). split; [|exact SC].
  unfold compress. apply loop_options; [lia|lia|exact SC|exact HB|change (clampSize 0) with 0; lia|].
  intros k g data D. pose proof (HK k) as F. unfold blockFits in F. rewrite D in F. apply andb_true_iff in F. destruct F as [_ F]. apply Nat.leb_le in F.
  rewrite firstn_length, skipn_length in F. destruct (HQ (N.of_nat (length data)) ltac:(lia)) as [Q1 Q2].
  unfold clampSize. change (2 ^ 31 - 2) with 2147483646.
  rewrite (N.min_l (q (N.of_nat (length data)))) by lia. rewrite (N.min_l (N.min _ _)) by lia. split; [lia|]. split; [lia|].
  destruct Q2 as [Q2|[Q2 Q3]].
  - rewrite N.min_l by lia. reflexivity.
  - symmetry. apply slice_min; [exact (proj2 HL)|lia|exact Q2].
Qed.
End Sizes.

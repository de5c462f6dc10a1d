(** How many bytes an archive made with the Huffman coder takes. *)
From Coq Require Import List NArith ZArith Lia Arith Bool Permutation.
From Coq Require Import ZifyBool ZifyNat ZifyN.
From Verif Require Import Base ModelUtils ModelStreams ModelHeaders SpecHeaders ProofUtils3 ModelHuffmanCoder SpecRuns ModelBWT SpecBWT
  ModelGrammar ModelFreq SpecFreq ModelPairs SpecPairs ModelFile SpecFile ModelSaisFile ProofHuffCoder4 ProofFile ProofSais20 ProofSize1.
Import ListNotations.
Open Scope N_scope.

Lemma one_slice : forall used bs slices, (0 < used <= bs)%nat -> sliceIntoBlocks used used (S used) bs = Ok slices -> slices = [(0, used)]%nat.
Proof.
  intros used bs slices H E. unfold sliceIntoBlocks in E. destruct (_ && _)%bool; [|discriminate].
  destruct used as [|u]; [lia|]. cbn [sliceLoop] in E. replace (0 <? S u)%nat with true in E by reflexivity.
  rewrite Nat.sub_0_r, Nat.min_r in E by lia. cbn [Nat.add] in E.
  assert (K : sliceLoop u bs (S u) (S u) = Ok []) by (destruct u; cbn [sliceLoop]; rewrite Nat.ltb_irrefl; reflexivity).
  rewrite K in E. cbn [bind] in E. injection E as <-. reflexivity.
Qed.

Lemma preHeader_size : forall size header n, size < 2 ^ 31 -> writePreHeader size 1 emptyGrammar = Ok (header, n) -> (n <= 11)%nat.
Proof.
  intros size header n H E. unfold writePreHeader in E.
  destruct (pack_all size) as (p & b & P1 & _ & P3 & _). { eapply N.lt_trans; [exact H|reflexivity]. }
  rewrite P1 in E. cbn [bind] in E. change (packInteger 1) with (Ok (1, 1%nat)) in E. cbn [bind] in E.
  destruct (writeGrammar emptyGrammar) as [w| |]; cbn [bind] in E; try discriminate.
  let v := eval vm_compute in (grammarBytes emptyGrammar) in change (grammarBytes emptyGrammar) with v in E.
  cbn [bind] in E. injection E as _ <-. lia.
Qed.

Section Size.
Variable sorter : list N -> list nat.
Hypothesis HS : sorts_suffixes sorter.
Variable points : N.

Lemma slice_size : forall x written st' out n, are_bytes x -> x <> [] -> N.of_nat (length x) < 2 ^ 29 ->
  transformAndEncode huffmanCoder sorter points tt written x = Ok (st', out, n) -> (10 * n <= 13 * length x + 10 * 2686)%nat.
Proof.
  intros x written st' out n Hx Hne Hl E.
  destruct (transform_proper (2 ^ 29) ltac:(reflexivity) sorter HS points x Hx Hne Hl) as (data & lf & freqs & T & P & Q & _).
  unfold transformAndEncode in E. rewrite T in E. cbn [bind huffmanCoder ec_encode] in E.
  destruct (encodeBlock written lf freqs data) as [[o m]| |] eqn:B; cbn [bind] in E; try discriminate. injection E as _ _ <-.
  destruct P as (P1 & P2 & P3 & P4 & P5 & P6 & P7). rewrite <- Q.
  apply (encodeBlock_size written lf freqs data o m P1 P2); auto.
  - destruct P3 as (K & _). lia.
  - eapply N.lt_trans; [exact P7|reflexivity].
  - apply short_runs. exact P7.
Qed.

Lemma loop_size : forall sortF capacity lowRatio quotient bwtSize, 0 < bwtSize < 2 ^ 29 -> forall fuel st written input size archive total,
  are_bytes input ->
  compressLoop huffmanCoder sorter points (precompress sortF layoutOver capacity lowRatio 0) quotient fuel st written input bwtSize bwtSize size = Ok (archive, total) ->
  10 * N.of_nat total <= 10 * N.of_nat size + 13 * N.of_nat (length input) + 26970 * ((N.of_nat (length input) + bwtSize - 1) / bwtSize) + 10.
Proof.
  intros sortF capacity lowRatio quotient bwtSize HW. induction fuel as [|fuel IH]; intros st written input size archive total BI E; [discriminate|].
  cbn [compressLoop] in E. destruct (firstn (N.to_nat bwtSize) input) as [|c0 block0] eqn:EB.
  { injection E as _ <-. lia. }
  set (block := c0 :: block0) in *. assert (NB : (0 < length block)%nat) by (cbn; lia). assert (BB : are_bytes block) by (rewrite <- EB; apply are_bytes_firstn; exact BI).
  assert (LB : length block = Nat.min (N.to_nat bwtSize) (length input)) by (rewrite <- EB; apply firstn_length). clearbody block.
  unfold precompress in E. cbn [precompressRounds bind] in E. destruct (Nat.ltb_spec 0 (length block)); [|lia]. destruct (Nat.leb_spec (length block) (S (length block))); [|lia]. cbn [andb bind] in E.
  rewrite N.eqb_refl in E. destruct (sliceIntoBlocks _ _ _ _) as [slices| |] eqn:SL; cbn [bind] in E; try discriminate.
  apply one_slice in SL; [|lia]. subst slices. change (N.of_nat (length [(0, length block)]%nat)) with 1 in E.
  destruct (writePreHeader _ _ _) as [[h m]| |] eqn:WH; cbn [bind] in E; try discriminate.
  apply preHeader_size in WH; [|change (2 ^ 31) with 2147483648; change (2 ^ 29) with 536870912 in HW; lia].
  cbn [encodeSlices] in E. cbn [skipn] in E. rewrite firstn_all in E.
  destruct (transformAndEncode _ _ _ _ _ _) as [[[st1 w1] n1]| |] eqn:TE; cbn [bind] in E; try discriminate.
  destruct st. apply slice_size in TE; [|exact BB|intros Q; rewrite Q in NB; cbn in NB; lia|lia].
  apply IH in E; [|apply are_bytes_skipn; exact BI]. rewrite skipn_length in E.
  set (L := N.of_nat (length input)) in *.
  assert (D : (L + bwtSize - 1) / bwtSize = (N.of_nat (length input - N.to_nat bwtSize) + bwtSize - 1) / bwtSize + 1).
  { assert (LP : 0 < L) by lia. destruct (N.le_gt_cases bwtSize L) as [G|G].
    - replace (L + bwtSize - 1) with ((N.of_nat (length input - N.to_nat bwtSize) + bwtSize - 1) + 1 * bwtSize) by lia. apply N.div_add. lia.
    - replace (N.of_nat (length input - N.to_nat bwtSize)) with 0 by lia. rewrite (N.div_small (0 + bwtSize - 1)) by lia.
      symmetry. apply N.div_unique with (L - 1); lia. }
  rewrite D. lia.
Qed.
End Size.

Lemma archive_size : forall sorter points sortF capacity lowRatio pbSize0 bwtSize quotient input archive size,
  sorts_suffixes sorter -> sorts_by_frequency sortF -> are_bytes input -> 0 < bwtSize < 2 ^ 29 ->
  compress huffmanCoder sorter points (precompress sortF layoutOver capacity lowRatio 0) pbSize0 bwtSize quotient false 72 input = Ok (archive, size) ->
  10 * N.of_nat (length archive) <= 13 * N.of_nat (length input) + 26970 * ((N.of_nat (length input) + bwtSize - 1) / bwtSize) + 20.
Proof.
  intros sorter points sortF capacity lowRatio pbSize0 bwtSize quotient input archive size HS HF HI HW E.
  destruct (C39_huffman_plain (fun _ => huffmanCoder) sorter points (fun _ => 0) sortF capacity lowRatio pbSize0 bwtSize quotient input HS HF ltac:(intros; reflexivity) HI HW) as (a & E' & _).
  rewrite E in E'. injection E' as <- ->.
  assert (CL : clampSize bwtSize = bwtSize) by (unfold clampSize; change (2 ^ 31 - 2) with 2147483646; change (2 ^ 29) with 536870912 in HW; lia).
  unfold compress in E. rewrite CL in E. apply loop_size in E; auto. lia.
Qed.

Lemma archive_size_sais : forall points sortF capacity lowRatio pbSize0 bwtSize quotient input archive size,
  sorts_by_frequency sortF -> are_bytes input -> 0 < bwtSize < 2 ^ 29 ->
  compressSais huffmanCoder points (precompress sortF layoutOver capacity lowRatio 0) pbSize0 bwtSize quotient false 72 input = Ok (archive, size) ->
  10 * N.of_nat (length archive) <= 13 * N.of_nat (length input) + 26970 * ((N.of_nat (length input) + bwtSize - 1) / bwtSize) + 20.
Proof.
  intros points sortF capacity lowRatio pbSize0 bwtSize quotient input archive size HF HI HB.
  pose proof (compress_fits huffmanCoder reference points sortF capacity lowRatio 0 pbSize0 bwtSize quotient 72 input reference_sorts HF HI) as H.
  change (negb (0 =? 0)%nat) with false in H. rewrite H.
  - apply archive_size; auto using reference_sorts.
  - cbn. lia.
  - cbn [Nat.eqb]. unfold clampSize. change (2 ^ 31) with 2147483648. lia.
  - intros k. apply blockFits_none.
Qed.

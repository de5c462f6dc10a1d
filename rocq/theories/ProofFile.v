(** Compression and decompression of a file: proofs. *)
From Coq Require Import List NArith ZArith Lia Arith Bool Permutation.
From Coq Require Import ZifyBool ZifyNat ZifyN.
From Verif Require Import Base Arrays TArray ModelUtils ModelStreams ModelHeaders SpecHeaders ProofHeaders ModelHuffmanCoder SpecRuns ProofHuffCoder4
  ModelBWT SpecBWT ProofBWT8 ModelGrammar SpecGrammar ProofGrammar4 ModelFreq SpecFreq ModelPairs SpecPairs ProofPairs9 ModelFile SpecFile.
Import ListNotations.
Open Scope N_scope.

Lemma are_bytes_split : forall a b, are_bytes (a ++ b) <-> are_bytes a /\ are_bytes b.
Proof. intros a b. apply Forall_app. Qed.
Lemma are_bytes_firstn : forall n l, are_bytes l -> are_bytes (firstn n l).
Proof. intros n l H. rewrite <- (firstn_skipn n l) in H. apply are_bytes_split in H. apply H. Qed.
Lemma are_bytes_skipn : forall n l, are_bytes l -> are_bytes (skipn n l).
Proof. intros n l H. rewrite <- (firstn_skipn n l) in H. apply are_bytes_split in H. apply H. Qed.

(** ** The Huffman coder *)
Lemma short_runs : forall data, N.of_nat (length data) < 2 ^ 29 -> runs_below (2 ^ 29) data.
Proof. intros data H a c n b E. rewrite E, !app_length, repeat_length in H. lia. Qed.

Lemma huffman_both : forall st written lf stats data, proper_block (2 ^ 29) lf stats data ->
  exists block, ec_encode huffmanCoder st written lf stats data = Ok (tt, written ++ block, length block) /\ are_bytes block /\ block <> [] /\
    forall following, ec_decode huffmanCoder st (bytes_bits (block ++ following)) = Ok (Some (lf, data, N.of_nat (length data)), tt, bytes_bits following).
Proof.
  intros st written lf stats data (P1 & P2 & P3 & P4 & P5 & P6 & P7).
  assert (L31 : N.of_nat (length data) < 2 ^ 31) by (change (2 ^ 29) with 536870912 in P7; change (2 ^ 31) with 2147483648; lia).
  assert (L256 : (length stats <= 256)%nat) by (destruct P3 as (Q & _); lia).
  pose proof (fun f => C13_all written lf stats data f P1 P2 L256 P4 P5 P6 L31 (short_runs _ P7)) as C.
  destruct (C []) as (block & E & B & D). exists block. cbn [huffmanCoder ec_encode ec_decode]. rewrite E. cbn [bind].
  split; [reflexivity|]. split; [exact B|]. split.
  - intros ->. cbn [app] in D. vm_compute in D. discriminate.
  - intros following. destruct (C following) as (block' & E' & _ & D'). rewrite E in E'. injection E' as E' _. apply app_inv_head in E'. subst block'. rewrite D'. reflexivity.
Qed.
Lemma huffman_correct : coder_correct huffmanCoder (2 ^ 29).
Proof.
  intros st written lf stats data st' out n P H. destruct (huffman_both st written lf stats data P) as (block & E & B & NE & D).
  rewrite E in H. injection H as <- <- <-. exists block. repeat split; auto.
Qed.
Lemma huffman_total : coder_total huffmanCoder (2 ^ 29).
Proof. intros st written lf stats data P. destruct (huffman_both st written lf stats data P) as (block & E & _). eauto. Qed.

(** ** Slices *)
Section Coder.
Variable coder : entropyCoder.
Variable limit : N.
Hypothesis HL : limit < 2 ^ 31.
Hypothesis HC : coder_correct coder limit.
Variable sorter : list N -> list nat.
Hypothesis HS : sorts_suffixes sorter.
Variable points : N.
Variable behind : nat -> N.
Hypothesis HB : forall i, behind i < 256.

Lemma transform_proper : forall x, are_bytes x -> x <> [] -> N.of_nat (length x) < limit ->
  exists data lf freqs, doTransform x (sorter (sortedText x)) points = Ok (data, lf, freqs) /\ proper_block limit lf freqs data /\ length data = length x /\
    forall next, next < 256 -> inverseWith mtlInverse data next lf = Ok x.
Proof.
  intros x Hx Hne Hl. change (2 ^ 31) with 2147483648 in HL.
  assert (L1 : N.of_nat (length x) + 1 < 2 ^ 31) by (change (2 ^ 31) with 2147483648; lia).
  destruct (C37_all x (sorter (sortedText x)) points 0 Hx Hne L1 (HS _) ltac:(lia)) as (data & lf & freqs & E & Q & _).
  destruct (C38_all x _ points data lf freqs Hx Hne L1 (HS _) E) as (P & P1 & P2 & P3 & P4).
  exists data, lf, freqs. split; [exact E|]. split; [|split; [exact Q|]].
  - unfold proper_block. split; [exact P3|]. split; [exact P4|]. split; [exact P1|]. split; [exact P2|]. split.
    + intros ->. destruct x; [contradiction|discriminate].
    + split; [|rewrite Q; exact Hl]. unfold are_bytes in *. rewrite Forall_forall in *. intros c Hc. apply Hx. eapply Permutation_in; eauto.
  - intros next Hn. destruct (C37_all x _ points next Hx Hne L1 (HS _) Hn) as (data' & lf' & freqs' & E' & _ & D). rewrite E in E'. injection E' as <- <- <-. exact D.
Qed.

Definition piece (block : list N) (p : nat * nat) : list N := firstn (snd p) (skipn (fst p) block).

Lemma encodeSlices_ok : forall block slices st written size st' out n, are_bytes block ->
  Forall (fun p => (1 <= snd p)%nat /\ N.of_nat (snd p) < limit /\ (fst p + snd p <= length block)%nat) slices ->
  encodeSlices coder sorter points st written block slices size = Ok (st', out, n) ->
  exists tail, out = written ++ tail /\ n = (size + length tail)%nat /\ are_bytes tail /\
    forall memory used following, N.of_nat (length used + length (concat (map (piece block) slices))) < memory ->
    decodeSlices behind coder (length slices) memory st used (bytes_bits (tail ++ following)) =
      Ok (st', used ++ concat (map (piece block) slices), bytes_bits following).
Proof.
  induction slices as [|[b l] slices IH]; intros st written size st' out n BB F H.
  - cbn [encodeSlices] in H. injection H as <- <- <-. exists []. rewrite app_nil_r. split; [reflexivity|]. split; [cbn; lia|]. split; [constructor|].
    intros memory used following _. cbn [length decodeSlices map concat]. rewrite app_nil_r. reflexivity.
  - inversion_clear F as [|? ? F0 F1]. destruct F0 as (L1 & L2 & L3). cbn [fst snd] in *. cbn [encodeSlices] in H. unfold transformAndEncode in H.
    assert (LX : length (firstn l (skipn b block)) = l) by (rewrite firstn_length, skipn_length; lia).
    destruct (transform_proper (firstn l (skipn b block))) as (data & lf & freqs & E & P & Q & D).
    { apply are_bytes_firstn, are_bytes_skipn. exact BB. }
    { intros E0. rewrite E0 in LX. cbn in LX. lia. }
    { rewrite LX. exact L2. }
    rewrite E in H. cbn [bind] in H. destruct (ec_encode coder st written lf freqs data) as [[[st1 w1] n1]| |] eqn:EE; cbn [bind] in H; try discriminate.
    destruct (HC _ _ _ _ _ _ _ _ P EE) as (blk & -> & -> & B1 & _ & D1).
    destruct (IH _ _ _ _ _ _ BB F1 H) as (tail & -> & -> & B2 & D2).
    exists (blk ++ tail). split; [rewrite app_assoc; reflexivity|]. split; [rewrite app_length; lia|]. split; [apply are_bytes_split; auto|].
    intros memory used following HM. cbn [length decodeSlices map concat] in *. rewrite <- app_assoc, D1. cbn [bind].
    unfold piece at 1 in HM. cbn [fst snd] in HM. rewrite app_length, LX in HM. rewrite N.eqb_refl. cbn [andb].
    destruct (N.ltb_spec (N.of_nat (length used + length data)) memory); [|lia]. rewrite D by apply HB. cbn [bind].
    rewrite D2.
    + unfold piece at 2. cbn [fst snd]. rewrite <- app_assoc. reflexivity.
    + rewrite app_length, LX. lia.
Qed.

(** ** Blocks *)
Variable prec : list N -> outcome (grammar * list N).
Definition prec_ok (block : list N) : Prop := forall g data, prec block = Ok (g, data) ->
  are_bytes data /\ data <> [] /\ (length data <= length block)%nat /\ N.of_nat (length block) < 2 ^ 56 /\ (exists rules, writable g rules) /\ postprocess g data = Ok block.

Variable quotient : N -> N.
Hypothesis HQ : forall m, clampSize (quotient m) < limit.

Lemma compressLoop_ok : forall fuel st written input pbSize bwtSize size archive n,
  are_bytes input -> 0 < pbSize -> bwtSize < limit ->
  (forall k, prec_ok (firstn (N.to_nat pbSize) (skipn (k * N.to_nat pbSize) input))) ->
  compressLoop coder sorter points prec quotient fuel st written input pbSize bwtSize size = Ok (archive, n) ->
  exists tail, archive = written ++ tail /\ n = (size + length tail)%nat /\ are_bytes tail /\
    (forall more out, decompressLoop behind coder (length tail + more) st (bytes_bits tail) out = Ok (out ++ input, length (out ++ input))) /\
    exists front, tail = front ++ [0] /\ forall more out, decompressLoop behind coder (length tail + more) st (bytes_bits front) out = UB.
Proof.
  induction fuel as [|fuel IH]; intros st written input pbSize bwtSize size archive n BI HP HW HK H; [discriminate|].
  cbn [compressLoop] in H. pose proof (HK 0%nat) as H0. cbn [Nat.mul skipn] in H0.
  destruct (firstn (N.to_nat pbSize) input) as [|c0 block0] eqn:EB.
  - injection H as <- <-. exists writeEmptyHeader. split; [reflexivity|]. split; [reflexivity|]. split; [repeat constructor|].
    split; [|exists []; split; reflexivity].
    intros more out. change (length writeEmptyHeader + more)%nat with (S more). cbn [decompressLoop]. rewrite <- (app_nil_r writeEmptyHeader), C30_end_all. cbn [bind].
    assert (input = []) as ->; [|rewrite app_nil_r; reflexivity]. destruct input; [reflexivity|]. destruct (N.to_nat pbSize) eqn:E; [lia|discriminate].
  - set (block := c0 :: block0) in *. assert (NB : block <> []) by discriminate. clearbody block.
    destruct (prec block) as [[g data]| |] eqn:EP; cbn [bind] in H; try discriminate.
    destruct (H0 g data EP) as (D1 & D2 & D3 & D4 & (rules & W) & D5). clear H0.
    set (bwtSize' := if pbSize =? bwtSize then bwtSize else clampSize (quotient (N.of_nat (length data)))) in *.
    assert (HW' : bwtSize' < limit) by (unfold bwtSize'; destruct (pbSize =? bwtSize); auto). clearbody bwtSize'.
    destruct (sliceIntoBlocks (length data) (length data) (S (length data)) (N.to_nat bwtSize')) as [slices| |] eqn:ES; cbn [bind] in H; try discriminate.
    assert (SL : cuts data slices /\ Forall (fun p => (1 <= snd p)%nat /\ N.of_nat (snd p) < limit /\ (fst p + snd p <= length data)%nat) slices).
    { destruct (Nat.eq_dec (N.to_nat bwtSize') 0) as [Z|Z].
      - rewrite Z, (slice_zero (length data)) in ES; [discriminate|]. destruct data; [contradiction|cbn; lia].
      - assert (LT : N.of_nat (N.to_nat bwtSize') < 2 ^ 31 - 2).
        { unfold sliceIntoBlocks in ES. destruct (N.ltb_spec (N.of_nat (N.to_nat bwtSize')) (2 ^ 31 - 2)); [assumption|]. rewrite andb_false_r in ES. discriminate. }
        destruct (C28_all N data (S (length data)) (N.to_nat bwtSize')) as (l & E & C & F); [lia|lia|exact LT|]. rewrite E in ES. injection ES as <-.
        split; [exact C|]. eapply Forall_impl; [|exact F]. cbn beta. intros p Q. lia. }
    destruct SL as (CU & FS).
    assert (LS : (length slices <= length data)%nat).
    { clear - CU FS. unfold cuts in CU. assert (G : (length slices <= length (concat (map (piece data) slices)))%nat).
      { clear CU. induction slices as [|[b l] r IH]; [cbn; lia|]. inversion_clear FS as [|? ? F0 F1]. cbn [map concat length]. rewrite app_length. specialize (IH F1). cbn [fst snd] in F0.
        unfold piece at 1. cbn [fst snd]. rewrite firstn_length, skipn_length. lia. }
      change (concat (map (piece data) slices) = data) in CU. rewrite CU in G. exact G. }
    assert (HB56 : 0 < N.of_nat (length block) < 2 ^ 56) by (split; [destruct block; [contradiction|cbn [length]; lia]|exact D4]).
    assert (HS56 : N.of_nat (length slices) < 2 ^ 56) by lia.
    pose proof (fun f => C30_all g rules (N.of_nat (length block)) (N.of_nat (length slices)) f W HB56 HS56) as CH.
    destruct (CH []) as (hdr & g' & E1 & E2 & _ & SG). rewrite E1 in H. cbn [bind] in H.
    destruct (encodeSlices coder sorter points st (written ++ hdr) data slices (size + length hdr)) as [[[st1 w1] n1]| |] eqn:EE; cbn [bind] in H; try discriminate.
    destruct (encodeSlices_ok _ _ _ _ _ _ _ _ D1 FS EE) as (body & -> & -> & B1 & DD).
    eapply IH in H; [|apply are_bytes_skipn; exact BI|exact HP|exact HW'|].
    2:{ intros k. specialize (HK (S k)).
        replace (skipn (k * N.to_nat pbSize) (skipn (N.to_nat pbSize) input)) with (skipn (S k * N.to_nat pbSize) input); [exact HK|].
        cbn [Nat.mul]. rewrite <- (ProofPairs1.skip_skip _ input). reflexivity. }
    destruct H as (tail & -> & -> & B2 & DT & front & FE & DF).
    exists (hdr ++ body ++ tail). split; [rewrite <- !app_assoc; reflexivity|]. split; [rewrite !app_length; lia|]. split; [rewrite !are_bytes_split; auto|].
    assert (HN : hdr <> []).
    { intros ->. destruct (CH [0]) as (h2 & g2 & F1 & _ & F3 & _). rewrite E1 in F1. injection F1 as <- _. cbn [app] in F3. vm_compute in F3. discriminate. }
    assert (CC : concat (map (piece data) slices) = data) by exact CU.
    assert (STEP : forall more out rest, decompressLoop behind coder (length (hdr ++ body ++ tail) + more) st (bytes_bits (hdr ++ body ++ rest)) out =
      decompressLoop behind coder (length tail + (length hdr + length body - 1 + more)) st1 (bytes_bits rest) (out ++ block)).
    { intros more out rest. destruct (CH (body ++ rest)) as (h2 & g2 & F1 & _ & F3 & SG2). rewrite E1 in F1. injection F1 as <- .
      assert (EL : (length (hdr ++ body ++ tail) + more = S (length tail + (length hdr + length body - 1 + more)))%nat).
      { rewrite !app_length. destruct hdr; [contradiction|]. cbn [length]. lia. }
      rewrite EL. cbn [decompressLoop]. rewrite F3. cbn [bind]. rewrite Nat2N.id.
      rewrite DD by (rewrite CC; cbn [length Nat.add]; lia). cbn [bind app]. rewrite CC, (postprocess_same _ _ _ SG2), D5. cbn [bind]. rewrite N.eqb_refl. reflexivity. }
    split.
    + intros more out. rewrite STEP, DT, <- app_assoc, <- EB, firstn_skipn. reflexivity.
    + exists (hdr ++ body ++ front). split; [rewrite FE, <- !app_assoc; reflexivity|]. intros more out. rewrite STEP. apply DF.
Qed.
End Coder.

(** ** The whole file *)
Lemma precompress_ok : forall sortF capacity lowRatio n block, sorts_by_frequency sortF -> are_bytes block ->
  N.of_nat (length block) < 2 ^ 31 -> N.of_nat n <= 1000000 -> blockFits sortF layoutOver capacity lowRatio n block = true ->
  prec_ok (precompress sortF layoutOver capacity lowRatio n) block.
Proof.
  intros sortF capacity lowRatio n block HS HB HL HN HF g data E. unfold blockFits in HF. rewrite E in HF. apply andb_true_iff in HF. destruct HF as (HF & LE). apply Nat.leb_le in LE.
  destruct (C33_all _ _ _ _ _ _ _ HS HB HL HN E HF) as (P1 & P2 & P3). split; [exact P2|]. split.
  - unfold precompress in E. destruct (precompressRounds _ _ _ _ _ _ _ _ _) as [[[g1 data1] temp]| |]; cbn [bind] in E; try discriminate.
    destruct (((0 <? length data1) && (length data1 <=? S (length block)))%nat%bool) eqn:Q; [|discriminate]. injection E as <- <-. intros ->. discriminate.
  - split; [exact LE|]. split; [|auto]. change (2 ^ 31) with 2147483648 in HL. change (2 ^ 56) with 72057594037927936. lia.
Qed.

Lemma are_bytes_coder : forall c tail, c < 256 -> are_bytes tail -> are_bytes ([c] ++ tail).
Proof. intros c tail Hc Ht. constructor; assumption. Qed.

Lemma readByte_cons : forall c l, c < 256 -> readByte (bytes_bits (c :: l)) = (c, bytes_bits l).
Proof.
  intros c l Hc. rewrite bytes_bits_cons. apply ProofUtils1.readByte_spec. exact Hc.
Qed.

Lemma C39_generic : forall coder limit wavelet c sorter points behind sortF capacity lowRatio n pbSize0 bwtSize0 quotient input archive size,
  limit < 2 ^ 31 -> coder_correct coder limit -> giveCoder wavelet c = coder -> c < 256 ->
  sorts_suffixes sorter -> sorts_by_frequency sortF -> (forall i, behind i < 256) ->
  are_bytes input -> N.of_nat n <= 1000000 ->
  let pbSize := if (n =? 0)%nat then clampSize bwtSize0 else pbSize0 in
  0 < pbSize < 2 ^ 31 -> clampSize bwtSize0 < limit -> (forall m, clampSize (quotient m) < limit) ->
  (forall k, blockFits sortF layoutOver capacity lowRatio n (firstn (N.to_nat pbSize) (skipn (k * N.to_nat pbSize) input)) = true) ->
  compress coder sorter points (precompress sortF layoutOver capacity lowRatio n) pbSize0 bwtSize0 quotient (negb (n =? 0)%nat) c input = Ok (archive, size) ->
  decompress behind wavelet archive = Ok (input, length input) /\ size = length archive /\ are_bytes archive /\ decompress behind wavelet (removelast archive) = UB.
Proof.
  intros coder limit wavelet c sorter points behind sortF capacity lowRatio n pbSize0 bwtSize0 quotient input archive size HL HC HG Hc HS HF HB HI HN pbSize HP HW HQ HK H.
  unfold compress in H. replace (if negb (n =? 0)%nat then pbSize0 else clampSize bwtSize0) with pbSize in H by (unfold pbSize; destruct (n =? 0)%nat; reflexivity).
  destruct (compressLoop_ok coder limit HL HC sorter HS points behind HB (precompress sortF layoutOver capacity lowRatio n) quotient HQ (S (length input)) (ec_init coder) [c] input pbSize (clampSize bwtSize0) 1%nat archive size HI (proj1 HP) HW) as (tail & -> & -> & B & D & front & FE & DF); [|exact H|].
  { intros k. apply precompress_ok; auto.
    - apply are_bytes_firstn, are_bytes_skipn. exact HI.
    - pose proof (firstn_le_length (N.to_nat pbSize) (skipn (k * N.to_nat pbSize) input)). rewrite firstn_length. lia. }
  split; [|split; [cbn [app length]; lia|split; [apply are_bytes_coder; assumption|]]].
  2:{ rewrite FE, app_assoc, removelast_last. unfold decompress. cbn [app]. rewrite readByte_cons by exact Hc. rewrite HG, bytes_bits_length.
      pose proof (DF (7 * length front)%nat []) as Q. rewrite FE, app_length in Q. cbn [length] in Q. replace (S (8 * length front)) with (length front + 1 + 7 * length front)%nat by lia. exact Q. }
  unfold decompress. cbn [app]. rewrite readByte_cons by exact Hc. rewrite HG. rewrite bytes_bits_length.
  replace (S (8 * length tail)) with (length tail + S (7 * length tail))%nat by lia. rewrite D. reflexivity.
Qed.

(** ** Success *)
Lemma sliceLoop_count : forall bs used fuel b l, (1 <= bs)%nat -> sliceLoop fuel bs used b = Ok l -> (length l <= used - b)%nat.
Proof.
  intros bs used. induction fuel as [|fuel IH]; intros b l W H; cbn [sliceLoop] in H; destruct (Nat.ltb_spec b used); try discriminate; try (injection H as <-; cbn; lia).
  destruct (sliceLoop fuel bs used (b + Nat.min bs (used - b))) as [r| |] eqn:E; cbn [bind] in H; try discriminate. injection H as <-. apply IH in E; [|exact W]. cbn [length]. lia.
Qed.

Section Total.
Variable coder : entropyCoder.
Variable limit : N.
Hypothesis HL : limit < 2 ^ 31.
Hypothesis HT : coder_total coder limit.
Variable sorter : list N -> list nat.
Hypothesis HS : sorts_suffixes sorter.
Variable points : N.

Lemma encodeSlices_total : forall block slices st written size, are_bytes block ->
  Forall (fun p => (1 <= snd p)%nat /\ N.of_nat (snd p) < limit /\ (fst p + snd p <= length block)%nat) slices ->
  exists r, encodeSlices coder sorter points st written block slices size = Ok r.
Proof.
  intros block. induction slices as [|[b l] slices IH]; intros st written size BB F; [eexists; reflexivity|].
  inversion_clear F as [|? ? F0 F1]. destruct F0 as (L1 & L2 & L3). cbn [fst snd] in *. cbn [encodeSlices]. unfold transformAndEncode.
  assert (LX : length (firstn l (skipn b block)) = l) by (rewrite firstn_length, skipn_length; lia).
  destruct (transform_proper limit HL sorter HS points (firstn l (skipn b block))) as (data & lf & freqs & E & P & Q & D).
  { apply are_bytes_firstn, are_bytes_skipn. exact BB. }
  { intros E0. rewrite E0 in LX. cbn in LX. lia. }
  { rewrite LX. exact L2. }
  rewrite E. cbn [bind]. destruct (HT st written lf freqs data P) as ([[st1 w1] n1] & ->). cbn [bind]. apply IH; assumption.
Qed.

Lemma compressLoop_total : forall sortF capacity lowRatio quotient fuel st written input bwtSize size,
  are_bytes input -> 0 < bwtSize < limit -> bwtSize < 2 ^ 31 - 2 -> (length input < fuel)%nat ->
  exists r, compressLoop coder sorter points (precompress sortF layoutOver capacity lowRatio 0) quotient fuel st written input bwtSize bwtSize size = Ok r.
Proof.
  intros sortF capacity lowRatio quotient. induction fuel as [|fuel IH]; intros st written input bwtSize size BI HW HW2 HF; [lia|].
  cbn [compressLoop]. destruct (firstn (N.to_nat bwtSize) input) as [|c0 block0] eqn:EB; [eexists; reflexivity|].
  set (block := c0 :: block0) in *. assert (NB : (0 < length block)%nat) by (cbn; lia). assert (BB : are_bytes block) by (rewrite <- EB; apply are_bytes_firstn; exact BI). 
  assert (LB : (length block <= N.to_nat bwtSize)%nat) by (rewrite <- EB; apply firstn_le_length). clearbody block.
  unfold precompress. cbn [precompressRounds bind]. destruct (Nat.ltb_spec 0 (length block)); [|lia]. destruct (Nat.leb_spec (length block) (S (length block))); [|lia]. cbn [andb bind].
  rewrite N.eqb_refl. destruct (C28_all N block (S (length block)) (N.to_nat bwtSize)) as (l & E & _ & F); [lia|lia|rewrite N2Nat.id; exact HW2|]. rewrite E. cbn [bind].
  assert (LS : (length l <= length block)%nat).
  { unfold sliceIntoBlocks in E. destruct ((length block <? S (length block))%nat && _)%bool; [|discriminate].
    apply sliceLoop_count in E; lia. }
  destruct (C30_all emptyGrammar [] (N.of_nat (length block)) (N.of_nat (length l)) []) as (hdr & g' & E1 & _).
  - apply (writable_ok _ _ ProofPairs7.gram_empty). reflexivity.
  - change (2 ^ 56) with 72057594037927936. change (2 ^ 31 - 2) with 2147483646 in HW2. lia.
  - change (2 ^ 56) with 72057594037927936. change (2 ^ 31 - 2) with 2147483646 in HW2. lia.
  - rewrite E1. cbn [bind]. destruct (encodeSlices_total block l st (written ++ hdr) (size + length hdr) BB) as ([[st1 w1] n1] & E2).
    { eapply Forall_impl; [|exact F]. cbn beta. intros p Q. lia. }
    rewrite E2. cbn [bind]. apply IH; auto.
    + apply are_bytes_skipn. exact BI.
    + rewrite skipn_length. assert (0 < length input)%nat; [|lia]. destruct input; [rewrite firstn_nil in EB; subst; cbn in *; lia|cbn; lia].
Qed.
End Total.

Lemma C39_huffman_all : forall wavelet sorter points behind sortF capacity lowRatio n pbSize0 bwtSize0 quotient input archive size,
  sorts_suffixes sorter -> sorts_by_frequency sortF -> (forall i, behind i < 256) ->
  are_bytes input -> N.of_nat n <= 1000000 ->
  let pbSize := if (n =? 0)%nat then clampSize bwtSize0 else pbSize0 in
  0 < pbSize < 2 ^ 31 -> clampSize bwtSize0 < 2 ^ 29 -> (forall m, clampSize (quotient m) < 2 ^ 29) ->
  (forall k, blockFits sortF layoutOver capacity lowRatio n (firstn (N.to_nat pbSize) (skipn (k * N.to_nat pbSize) input)) = true) ->
  compress huffmanCoder sorter points (precompress sortF layoutOver capacity lowRatio n) pbSize0 bwtSize0 quotient (negb (n =? 0)%nat) 72 input = Ok (archive, size) ->
  decompress behind wavelet archive = Ok (input, length input) /\ size = length archive /\ are_bytes archive /\ decompress behind wavelet (removelast archive) = UB.
Proof.
  intros wavelet sorter points behind sortF capacity lowRatio n pbSize0 bwtSize0 quotient input archive size HS HF HB HI HN pbSize HP HW HQ HK H.
  eapply (C39_generic huffmanCoder (2 ^ 29) wavelet 72); eauto; try reflexivity. exact huffman_correct.
Qed.

Lemma blockFits_zero : forall sortF over capacity lowRatio block, blockFits sortF over capacity lowRatio 0 block = true.
Proof.
  intros sortF over capacity lowRatio block. unfold blockFits, precompress. cbn [roundsFit precompressRounds bind andb].
  destruct ((0 <? length block) && (length block <=? S (length block)))%nat%bool; [|reflexivity]. apply Nat.leb_refl.
Qed.

Lemma C39_plain : forall coder limit wavelet c sorter points behind sortF capacity lowRatio pbSize0 bwtSize quotient input,
  limit <= 2 ^ 31 - 2 -> coder_correct coder limit -> coder_total coder limit -> giveCoder wavelet c = coder -> c < 256 ->
  sorts_suffixes sorter -> sorts_by_frequency sortF -> (forall i, behind i < 256) -> are_bytes input -> 0 < bwtSize < limit ->
  exists archive, compress coder sorter points (precompress sortF layoutOver capacity lowRatio 0) pbSize0 bwtSize quotient false c input = Ok (archive, length archive) /\
    are_bytes archive /\ decompress behind wavelet archive = Ok (input, length input) /\ decompress behind wavelet (removelast archive) = UB.
Proof.
  intros coder limit wavelet c sorter points behind sortF capacity lowRatio pbSize0 bwtSize quotient input HL HC HT HG Hc HS HF HB HI HW.
  change (2 ^ 31 - 2) with 2147483646 in HL.
  assert (CL : clampSize bwtSize = bwtSize) by (unfold clampSize; change (2 ^ 31 - 2) with 2147483646; lia).
  assert (L31 : limit < 2 ^ 31) by (change (2 ^ 31) with 2147483648; lia).
  assert (Q0 : forall q : N -> N, exists r, compress coder sorter points (precompress sortF layoutOver capacity lowRatio 0) pbSize0 bwtSize q false c input = Ok r).
  { intros q. unfold compress. rewrite CL. apply compressLoop_total with (limit := limit); auto. change (2 ^ 31 - 2) with 2147483646. lia. }
  assert (QE : forall q q', compress coder sorter points (precompress sortF layoutOver capacity lowRatio 0) pbSize0 bwtSize q false c input = compress coder sorter points (precompress sortF layoutOver capacity lowRatio 0) pbSize0 bwtSize q' false c input).
  { intros q q'. unfold compress. rewrite CL. generalize (S (length input)), (ec_init coder), [c], 1%nat. clear. intros fuel. revert input.
    induction fuel as [|fuel IH]; intros input st written size; [reflexivity|]. cbn [compressLoop]. destruct (firstn (N.to_nat bwtSize) input); [reflexivity|].
    destruct (precompress _ _ _ _ _ _) as [[g data]| |]; cbn [bind]; try reflexivity. rewrite N.eqb_refl. destruct (sliceIntoBlocks _ _ _ _); cbn [bind]; try reflexivity.
    destruct (writePreHeader _ _ _) as [[h m]| |]; cbn [bind]; try reflexivity. destruct (encodeSlices _ _ _ _ _ _ _ _) as [[[s w] k]| |]; cbn [bind]; try reflexivity. apply IH. }
  destruct (Q0 (fun _ => 0)) as ([archive size] & E).
  destruct (C39_generic coder limit wavelet c sorter points behind sortF capacity lowRatio 0 pbSize0 bwtSize (fun _ => 0) input archive size) as (D1 & D2 & D3 & D4); auto.
  - cbn. lia.
  - cbn [Nat.eqb]. rewrite CL. change (2 ^ 31) with 2147483648. lia.
  - rewrite CL. lia.
  - intros _. change (clampSize 0) with 0. lia.
  - intros k. apply blockFits_zero.
  - exists archive. rewrite (QE quotient (fun _ => 0)), E, D2. auto.
Qed.

Lemma C39_huffman_plain : forall wavelet sorter points behind sortF capacity lowRatio pbSize0 bwtSize quotient input,
  sorts_suffixes sorter -> sorts_by_frequency sortF -> (forall i, behind i < 256) -> are_bytes input -> 0 < bwtSize < 2 ^ 29 ->
  exists archive, compress huffmanCoder sorter points (precompress sortF layoutOver capacity lowRatio 0) pbSize0 bwtSize quotient false 72 input = Ok (archive, length archive) /\
    are_bytes archive /\ decompress behind wavelet archive = Ok (input, length input) /\ decompress behind wavelet (removelast archive) = UB.
Proof.
  intros wavelet sorter points behind sortF capacity lowRatio pbSize0 bwtSize quotient input HS HF HB HI HW.
  eapply (C39_plain huffmanCoder (2 ^ 29)); eauto; try reflexivity; [discriminate|exact huffman_correct|exact huffman_total].
Qed.

(** ** Damaged archives, zero sizes *)
Lemma small_limit : forall sorter points prec pbSize0 quotient input,
  compress huffmanCoder sorter points prec pbSize0 0 quotient false 72 input = Ok ([72; 0], 2%nat) /\
  forall behind wavelet, decompress behind wavelet [72; 0] = Ok ([], 0%nat).
Proof. intros. split; [reflexivity|]. intros behind wavelet. reflexivity. Qed.
Lemma no_slices : forall fuel used, (0 < used)%nat -> sliceIntoBlocks fuel used (S used) (N.to_nat (clampSize 0)) = Fuel.
Proof. intros fuel used H. apply slice_zero. exact H. Qed.
Lemma C41_all : forall wavelet sorter points behind sortF capacity lowRatio pbSize0 bwtSize quotient input,
  sorts_suffixes sorter -> sorts_by_frequency sortF -> (forall i, behind i < 256) -> are_bytes input -> 0 < bwtSize < 2 ^ 29 ->
  decompress behind wavelet [] = UB /\
  exists archive n, compress huffmanCoder sorter points (precompress sortF layoutOver capacity lowRatio 0) pbSize0 bwtSize quotient false 72 input = Ok (archive, n) /\
    decompress behind wavelet (removelast archive) = UB.
Proof.
  intros wavelet sorter points behind sortF capacity lowRatio pbSize0 bwtSize quotient input HS HF HB HI HW. split; [reflexivity|].
  destruct (C39_huffman_plain wavelet sorter points behind sortF capacity lowRatio pbSize0 bwtSize quotient input HS HF HB HI HW) as (archive & E & _ & _ & D). eauto.
Qed.

Lemma C39_huffman_round : forall wavelet sorter points behind sortF capacity lowRatio n pbSize0 bwtSize0 quotient input archive size,
  sorts_suffixes sorter -> sorts_by_frequency sortF -> (forall i, behind i < 256) ->
  are_bytes input -> N.of_nat n <= 1000000 ->
  let pbSize := if (n =? 0)%nat then clampSize bwtSize0 else pbSize0 in
  0 < pbSize < 2 ^ 31 -> clampSize bwtSize0 < 2 ^ 29 -> (forall m, clampSize (quotient m) < 2 ^ 29) ->
  (forall k, blockFits sortF layoutOver capacity lowRatio n (firstn (N.to_nat pbSize) (skipn (k * N.to_nat pbSize) input)) = true) ->
  compress huffmanCoder sorter points (precompress sortF layoutOver capacity lowRatio n) pbSize0 bwtSize0 quotient (negb (n =? 0)%nat) 72 input = Ok (archive, size) ->
  decompress behind wavelet archive = Ok (input, length input) /\ size = length archive /\ are_bytes archive.
Proof.
  intros wavelet sorter points behind sortF capacity lowRatio n pbSize0 bwtSize0 quotient input archive size HS HF HB HI HN pbSize HP HW HQ HK H.
  destruct (C39_huffman_all wavelet sorter points behind sortF capacity lowRatio n pbSize0 bwtSize0 quotient input archive size HS HF HB HI HN HP HW HQ HK H) as (A & B & C & _). auto.
Qed.
Lemma C39_huffman_always : forall wavelet sorter points behind sortF capacity lowRatio pbSize0 bwtSize quotient input,
  sorts_suffixes sorter -> sorts_by_frequency sortF -> (forall i, behind i < 256) -> are_bytes input -> 0 < bwtSize < 2 ^ 29 ->
  exists archive, compress huffmanCoder sorter points (precompress sortF layoutOver capacity lowRatio 0) pbSize0 bwtSize quotient false 72 input = Ok (archive, length archive) /\
    are_bytes archive /\ decompress behind wavelet archive = Ok (input, length input).
Proof.
  intros wavelet sorter points behind sortF capacity lowRatio pbSize0 bwtSize quotient input HS HF HB HI HW.
  destruct (C39_huffman_plain wavelet sorter points behind sortF capacity lowRatio pbSize0 bwtSize quotient input HS HF HB HI HW) as (archive & E & B & D & _). eauto.
Qed.
Lemma decidedUB : forall A B C (c : outcome (A * B)) (d : A -> outcome C),
  match c with Ok (a, _) => match d a with UB => true | _ => false end | _ => false end = true ->
  exists a b, c = Ok (a, b) /\ d a = UB.
Proof. intros A B C [[a b]| |] d H; try discriminate. exists a, b. split; [reflexivity|]. destruct (d a); [discriminate|reflexivity|discriminate]. Qed.

(** Which files the wavelet coder codes. *)
From Coq Require Import List NArith ZArith Arith Bool Lia.
From Coq Require Import ZifyBool ZifyNat ZifyN.
From Verif Require Import Base Arrays SpecRuns SpecProb SpecHeaders ModelUtils ModelHeaders ModelBWT SpecBWT ModelFreq SpecFreq ModelGrammar ModelPairs SpecPairs ModelStreams ModelProb ModelFile SpecFile ModelWavelet SpecChoice SpecStops.
From Verif Require Import ProofHeaders ProofPairs9 ProofGrammar1 ProofGrammar2 ProofGrammar3 ProofGrammar4 ProofPairs1 ProofPairs7 ProofFile ProofProb ProofWav18 ProofWav19 ProofWav21 ProofWav22 ProofWav23 ProofWav24.
Import ListNotations.
Open Scope N_scope.

Lemma slice_one : forall (x : list N) bs, (1 <= length x)%nat -> (length x <= bs)%nat -> N.of_nat bs < 2 ^ 31 - 2 ->
  sliceIntoBlocks (length x) (length x) (S (length x)) bs = Ok [(0, length x)]%nat.
Proof.
  intros x bs H H1 H2. unfold sliceIntoBlocks. destruct (Nat.ltb_spec (length x) (S (length x))) as [_|]; [|lia].
  destruct (N.ltb_spec (N.of_nat bs) (2 ^ 31 - 2)) as [_|]; [|lia]. cbn [andb].
  destruct (length x) as [|m] eqn:E; [lia|]. cbn [sliceLoop]. destruct (Nat.ltb_spec 0 (S m)) as [_|]; [|lia].
  rewrite Nat.sub_0_r, Nat.add_0_l, Nat.min_r by lia. destruct m as [|m]; cbn [sliceLoop]; rewrite Nat.ltb_irrefl; reflexivity.
Qed.

Section Stops.
Variable coder : entropyCoder.
Variable limit : N.
Hypothesis HL : limit < 2 ^ 31.
Variable J : ec_state coder -> Prop.
Variable sorter : list N -> list nat.
Hypothesis HS : sorts_suffixes sorter.
Variable points : N.
(** [bad x]: the transform of [x] cannot be coded. *)
Variable bad : list N -> Prop.
Hypothesis HT : forall st written x data lf stats, are_bytes x -> x <> [] -> doTransform x (sorter (sortedText x)) points = Ok (data, lf, stats) -> proper_block limit lf stats data -> J st ->
  (ec_encode coder st written lf stats data = UB /\ ~ ~ bad x) \/ (exists st' out n, ec_encode coder st written lf stats data = Ok (st', out, n) /\ J st') /\ ~ bad x.

Lemma encode_one : forall x st written size, are_bytes x -> x <> [] -> N.of_nat (length x) < limit -> J st ->
  (encodeSlices coder sorter points st written x [(0, length x)]%nat size = UB /\ ~ ~ bad x) \/
  (exists st' out n, encodeSlices coder sorter points st written x [(0, length x)]%nat size = Ok (st', out, n) /\ J st') /\ ~ bad x.
Proof.
  intros x st written size BX NX LX HJ. cbn [encodeSlices]. cbn [skipn]. rewrite firstn_all. unfold transformAndEncode.
  destruct (transform_proper limit HL sorter HS points x BX NX LX) as (data & lf & freqs & E & P & _). rewrite E. cbn [bind].
  destruct (HT st written x data lf freqs BX NX E P HJ) as [(E1 & B)|((st' & out & n & E1 & HJ') & B)]; rewrite E1; cbn [bind]; [left|right]; eauto 10.
Qed.

Lemma loop_cases : forall sortF capacity lowRatio quotient bwtSize fuel st written input size,
  are_bytes input -> 0 < bwtSize < limit -> bwtSize < 2 ^ 31 - 2 -> (length input < fuel)%nat -> J st ->
  let outcome := compressLoop coder sorter points (precompress sortF layoutOver capacity lowRatio 0) quotient fuel st written input bwtSize bwtSize size in
  let chunk := fun k => firstn (N.to_nat bwtSize) (skipn (k * N.to_nat bwtSize) input) in
  (outcome = UB /\ ~ ~ exists k, chunk k <> [] /\ bad (chunk k)) \/ (exists r, outcome = Ok r) /\ ~ exists k, chunk k <> [] /\ bad (chunk k).
Proof.
  intros sortF capacity lowRatio quotient bwtSize. induction fuel as [|fuel IH]; intros st written input size BI HW HW2 HF HJ outcome chunk; [lia|].
  unfold outcome. clear outcome. cbn [compressLoop]. destruct (firstn (N.to_nat bwtSize) input) as [|c0 block0] eqn:EB.
  { right. split; [eexists; reflexivity|]. intros (k & NE & _). apply NE. unfold chunk. clear - EB HW.
    destruct input; [rewrite skipn_nil, firstn_nil; reflexivity|]. destruct (N.to_nat bwtSize) eqn:E0; [lia|discriminate]. }
  set (block := c0 :: block0) in *. assert (NB : block <> []) by discriminate. assert (BB : are_bytes block) by (rewrite <- EB; apply are_bytes_firstn; exact BI).
  assert (LB : (length block <= N.to_nat bwtSize)%nat) by (rewrite <- EB; apply firstn_le_length).
  assert (NB1 : (1 <= length block)%nat) by (cbn; lia). clearbody block.
  unfold precompress. cbn [precompressRounds bind]. destruct (Nat.ltb_spec 0 (length block)); [|lia]. destruct (Nat.leb_spec (length block) (S (length block))); [|lia]. cbn [andb bind].
  rewrite N.eqb_refl. rewrite (slice_one block (N.to_nat bwtSize) NB1 LB) by (rewrite N2Nat.id; exact HW2). cbn [bind].
  destruct (C30_all emptyGrammar [] (N.of_nat (length block)) (N.of_nat (length [(0%nat, length block)])) []) as (hdr & g' & E1 & _).
  - apply (writable_ok _ _ ProofPairs7.gram_empty). reflexivity.
  - change (2 ^ 56) with 72057594037927936. change (2 ^ 31 - 2) with 2147483646 in HW2. lia.
  - reflexivity.
  - rewrite E1. cbn [bind].
    assert (C0 : chunk O = block) by (unfold chunk; cbn [Nat.mul skipn]; exact EB).
    assert (CS : forall k, chunk (S k) = firstn (N.to_nat bwtSize) (skipn (k * N.to_nat bwtSize) (skipn (N.to_nat bwtSize) input))).
    { intros k. unfold chunk. rewrite skip_skip. reflexivity. }
    destruct (encode_one block st (written ++ hdr) (size + length hdr)%nat BB NB) as [(E2 & B)|((st' & out & n & E2 & HJ') & B)]; [lia|exact HJ| |]; rewrite E2; cbn [bind].
    + left. split; [reflexivity|]. intros C. apply B. intros X. apply C. exists O. rewrite C0. auto.
    + destruct (IH st' out (skipn (N.to_nat bwtSize) input) n) as [(E3 & B3)|((r & E3) & B3)]; auto.
      * apply are_bytes_skipn. exact BI.
      * rewrite skipn_length. assert (0 < length input)%nat; [|lia]. destruct input; [rewrite firstn_nil in EB; subst; cbn in *; lia|cbn; lia].
      * left. split; [exact E3|]. intros C. apply B3. intros (k & X). apply C. exists (S k). rewrite CS. exact X.
      * right. split; [eauto|]. intros ([|k] & NE & X); [rewrite C0 in X; contradiction|]. apply B3. exists k. rewrite CS in NE, X. auto.
Qed.
End Stops.

Section Wavelet.
Variable worth : N -> N -> N -> bool.
Lemma good_model : forall c, c <> 109 -> c <> 77 -> exists I, good (giveProbabilityModel c) I.
Proof.
  intros c H1 H2. unfold giveProbabilityModel. destruct (N.eqb_spec c 109); [contradiction|]. destruct (N.eqb_spec c 77); [contradiction|].
  destruct (c =? 117); [eexists; exact good_u|]. destruct (c =? 98); [eexists; exact good_b|]. exact good_B.
Qed.

Lemma exists_stops : forall ps, Exists (stops worth) ps <-> exists piece runs, In piece ps /\ is_runs_of piece runs /\ cannotChoose worth runs.
Proof.
  intros ps. rewrite Exists_exists. split.
  - intros (x & H1 & r & H2 & H3). eauto 10.
  - intros (x & r & H1 & H2 & H3). exists x. split; [exact H1|]. exists r. auto.
Qed.

Lemma wavelet_blocks : forall c ms written lf stats data sections header n, c <> 109 -> c <> 77 -> proper_block (2 ^ 30) lf stats data -> writeBlockHeader lf stats = Ok (sections, header, n) ->
  (exists hp hg ha, let '(pm, gm, am) := ms in useAll (giveProbabilityModel c) (p_init _) hp = Ok pm /\ useAll modelForIntegerCodes (p_init _) hg = Ok gm /\ useAll modelForGaps (p_init _) ha = Ok am) ->
  ((exists piece runs, In piece (pieces sections data) /\ is_runs_of piece runs /\ cannotChoose worth runs) -> ec_encode (waveletCoder worth c) ms written lf stats data = UB) /\
  (~ (exists piece runs, In piece (pieces sections data) /\ is_runs_of piece runs /\ cannotChoose worth runs) -> exists r, ec_encode (waveletCoder worth c) ms written lf stats data = Ok r).
Proof.
  intros c ms written lf stats data sections header n H1 H2 HP HW HR. destruct (good_model c H1 H2) as (I & G).
  cbn [waveletCoder ec_state ec_encode] in *.
  destruct (block_total _ _ _ I inv_intcodes inv_gaps G good_intcodes good_gaps worth ms written lf stats data sections header n HP) as [B1 B2]; [|exact HW|].
  - destruct ms as [[pm gm] am], HR as (hp & hg & ha & U1 & U2 & U3). cbn [fine].
    destruct (good_useAll _ _ G hp _ (proj1 G)) as (p' & X1 & X2). rewrite U1 in X1. injection X1 as <-.
    destruct (good_useAll _ _ good_intcodes hg _ (proj1 good_intcodes)) as (g' & Y1 & Y2). rewrite U2 in Y1. injection Y1 as <-.
    destruct (good_useAll _ _ good_gaps ha _ (proj1 good_gaps)) as (a' & Z1 & Z2). rewrite U3 in Z1. injection Z1 as <-. auto.
  - rewrite <- exists_stops. split; [exact B1|]. intros C. destruct (B2 C) as (ms' & out & size & E & _). eauto.
Qed.

Lemma wavelet_files : forall c sorter points behind worth' sortF capacity lowRatio pbSize0 bwtSize quotient input,
  c < 256 -> c <> 72 -> c <> 109 -> c <> 77 -> sorts_suffixes sorter -> sorts_by_frequency sortF -> (forall i, behind i < 256) -> are_bytes input -> 0 < bwtSize < 2 ^ 30 ->
  let result := compress (waveletCoder worth c) sorter points (precompress sortF layoutOver capacity lowRatio 0) pbSize0 bwtSize quotient false c input in
  let chunk := fun k => firstn (N.to_nat bwtSize) (skipn (k * N.to_nat bwtSize) input) in
  ((exists k, blockStops worth sorter points (chunk k)) -> result = UB) /\
  (~ (exists k, blockStops worth sorter points (chunk k)) -> exists archive, result = Ok (archive, length archive) /\ decompress behind (waveletCoder worth') archive = Ok (input, length input)).
Proof.
  intros c sorter points behind worth' sortF capacity lowRatio pbSize0 bwtSize quotient input Hc H72 H1 H2 HS HF HB HI HW result chunk.
  assert (P30 : 2 ^ 30 = 1073741824) by reflexivity.
  assert (CL : clampSize bwtSize = bwtSize) by (unfold clampSize; change (2 ^ 31 - 2) with 2147483646; lia).
  destruct (good_model c H1 H2) as (I & G).
  assert (CASES : forall q, let res := compress (waveletCoder worth c) sorter points (precompress sortF layoutOver capacity lowRatio 0) pbSize0 bwtSize q false c input in
    (res = UB /\ ~ ~ exists k, chunk k <> [] /\ blockStops worth sorter points (chunk k)) \/ (exists r, res = Ok r) /\ ~ exists k, chunk k <> [] /\ blockStops worth sorter points (chunk k)).
  { intros q res. unfold res, compress. rewrite CL. cbn [negb].
    apply (loop_cases (waveletCoder worth c) (2 ^ 30) ltac:(reflexivity) (fine _ _ _ I inv_intcodes inv_gaps) sorter HS points (blockStops worth sorter points)).
    - intros st written x data lf stats BX NX E P HJ.
      assert (HP := P). destruct P as (L1 & V & CO & SS & NE & AB & LN). assert (L2 : (length stats <= 256)%nat) by (destruct CO as [CO _]; lia).
      assert (DP : 0 < N.of_nat (length data)) by (destruct data; [congruence|cbn [length]; lia]).
      destruct (C29_all lf stats L1 V L2) as (sections & header & A1 & _).
      { rewrite SS. split; [exact DP|]. change (2 ^ 32) with 4294967296. lia. }
      destruct (block_total _ _ _ I inv_intcodes inv_gaps G good_intcodes good_gaps worth st written lf stats data sections header (length header) HP HJ A1) as [B1 B2].
      assert (ST : blockStops worth sorter points x <-> Exists (stops worth) (pieces sections data)).
      { rewrite exists_stops. split.
        - intros (_ & data' & lf' & stats' & sections' & header' & n' & piece & runs & E' & A' & X). rewrite E in E'. injection E' as <- <- <-. rewrite A1 in A'. injection A' as <- _ _. eauto.
        - intros (piece & runs & X). split; [exact NX|]. exists data, lf, stats, sections, header, (length header), piece, runs. auto. }
      cbn [waveletCoder ec_encode]. destruct (encodeBlock _ _ _ worth st written lf stats data) as [[[st' out] n]| |] eqn:EE.
      + right. assert (NS : ~ blockStops worth sorter points x) by (intros X; apply ST, B1 in X; discriminate). split; [|exact NS].
        destruct B2 as (st2 & out2 & n2 & E2 & F2); [intros X; apply NS, ST, X|]. injection E2 as <- <- <-. eauto.
      + left. split; [reflexivity|]. intros X. destruct B2 as (st2 & out2 & n2 & E2 & F2); [intros Y; apply X, ST, Y|]. discriminate.
      + exfalso. assert (NS : ~ Exists (stops worth) (pieces sections data)) by (intros X; apply B1 in X; discriminate). destruct (B2 NS) as (st2 & out2 & n2 & E2 & F2). discriminate.
    - exact HI.
    - exact HW.
    - change (2 ^ 31 - 2) with 2147483646. lia.
    - lia.
    - cbn [waveletCoder ec_init fine]. split; [exact (proj1 G)|]. split; [exact (proj1 good_intcodes)|exact (proj1 good_gaps)]. }
  assert (EQ : (exists k, chunk k <> [] /\ blockStops worth sorter points (chunk k)) <-> exists k, blockStops worth sorter points (chunk k)).
  { split; intros (k & H); exists k; [apply H|]. split; [apply H|exact H]. }
  split.
  - intros X. destruct (CASES quotient) as [(E & _)|(_ & C)]; [exact E|]. exfalso. apply C, EQ, X.
  - intros X. assert (Q0 : forall q : N -> N, exists r, compress (waveletCoder worth c) sorter points (precompress sortF layoutOver capacity lowRatio 0) pbSize0 bwtSize q false c input = Ok r).
    { intros q. destruct (CASES q) as [(_ & C)|(E & _)]; [|exact E]. exfalso. apply C. intros Y. apply X, EQ, Y. }
    destruct (Q0 quotient) as ([archive size] & E).
    assert (QE : result = compress (waveletCoder worth c) sorter points (precompress sortF layoutOver capacity lowRatio 0) pbSize0 bwtSize (fun _ => 0) false c input).
    { unfold result, compress. rewrite CL. generalize (S (length input)), (ec_init (waveletCoder worth c)), [c], 1%nat. clear. intros fuel. revert input.
      induction fuel as [|fuel IH]; intros input st written size; [reflexivity|]. cbn [compressLoop]. destruct (firstn (N.to_nat bwtSize) input); [reflexivity|].
      destruct (precompress _ _ _ _ _ _) as [[g data]| |]; cbn [bind]; try reflexivity. rewrite N.eqb_refl. destruct (sliceIntoBlocks _ _ _ _); cbn [bind]; try reflexivity.
      destruct (writePreHeader _ _ _) as [[h m]| |]; cbn [bind]; try reflexivity. destruct (encodeSlices _ _ _ _ _ _ _ _) as [[[s w] k]| |]; cbn [bind]; try reflexivity. apply IH. }
    fold result in E. rewrite QE in E.
    destruct (C39_wavelet_round worth worth' c sorter points behind sortF capacity lowRatio 0 pbSize0 bwtSize (fun _ => 0) input archive size) as (D1 & D2 & _); auto.
    + cbn. lia.
    + cbn [Nat.eqb]. rewrite CL. change (2 ^ 31) with 2147483648. lia.
    + rewrite CL. lia.
    + intros _. change (clampSize 0) with 0. lia.
    + intros k. apply blockFits_zero.
    + exists archive. rewrite QE, E, D2. auto.
Qed.
End Wavelet.

(** The suffix array computed by saisxx; the transform and the compressor with SA-IS. *)
From Coq Require Import List NArith ZArith Arith Bool Lia Permutation Sorted.
From Coq Require Import ZifyBool ZifyNat ZifyN.
From Verif Require Import Base Arrays ModelUtils ModelHeaders ModelBWT SpecBWT ProofHeaders ProofBWT7 ProofBWT8 ModelGrammar ModelFreq SpecFreq ModelPairs SpecPairs ModelFile SpecFile ProofFile.
From Verif Require Import ModelWavelet ProofWav19.
From Verif Require Import ModelSais ModelSaisFile ProofSais1 ProofSais2 ProofSais3 ProofSais4 ProofSais10 ProofSais14 ProofSais18 ProofSais19.
Import ListNotations.
Open Scope nat_scope.

Lemma chars_below : forall T k, Forall (fun c => (c < N.of_nat k)%N) T -> charsBelow T k.
Proof.
  intros T k H a Ha. unfold ch. rewrite Forall_forall in H. specialize (H (nth a T 0%N) (nth_In _ _ Ha)). lia.
Qed.

Lemma saisxx_sorts : forall T k, 0 < k -> Forall (fun c => (c < N.of_nat k)%N) T ->
  exists sa, suffix_array T sa /\ saisxx T k = Ok (Some (map Z.of_nat sa)).
Proof.
  intros T k Hk HT. destruct (sorter_exists T) as (sa & HS). exists sa. split; [exact HS|].
  unfold saisxx. replace (k =? 0) with false by lia.
  destruct T as [|c0 T0]; [|destruct T0 as [|c1 T1]].
  - destruct HS as [P _]. cbn in P. apply Permutation_sym, Permutation_nil in P. rewrite P. reflexivity.
  - destruct HS as [P _]. cbn in P. apply Permutation_sym, Permutation_length_1_inv in P. rewrite P. reflexivity.
  - set (T := c0 :: c1 :: T1) in *. apply chars_below in HT. assert (Hn : 0 < length T) by (cbn; lia).
    destruct (sortLMS_ok stage1_ok (length T) T (repeat 0%Z (length T)) 0 k) as (A & C & EA & SA & HC & LA); auto.
    { rewrite repeat_length. lia. }
    rewrite repeat_length in LA. rewrite EA. cbn [bind].
    destruct (induceSA_ok T k HT Hn A C SA HC) as (A' & E' & V & L' & _). rewrite E'. cbn [bind]. do 2 f_equal.
    apply nth_error_ext. intros r. rewrite nth_error_map. destruct (nth_error sa r) as [q|] eqn:Eq; cbn [option_map].
    + rewrite <- (sa_rank T sa HS r q Eq). apply V. eapply sa_below; eauto.
    + apply nth_error_None in Eq. apply nth_error_None. rewrite (sa_length T sa HS) in Eq. lia.
Qed.

(** What saisxx_bwt computes, row by row. *)
Lemma saisxx_rows : forall T sa nLF freqs, suffix_array T sa -> are_bytes T -> 0 < nLF <= length T -> length freqs = 256 ->
  exists U lf freqs', saisxx_bwt T nLF freqs = Ok (U, lf, freqs') /\ length U = length T /\ length lf = nLF /\
    (forall r q, nth_error sa r = Some (S q) -> nth_error U r = nth_error T q) /\
    (forall r, nth_error sa r = Some 0 -> nth_error lf 0 = Some (N.of_nat r)) /\
    (forall j r, 0 < j < nLF -> nth_error sa r = Some (length T - j * (length T / nLF)) -> nth_error lf j = Some (N.of_nat r)).
Proof.
  intros T sa nLF freqs HS HB HF HL. assert (HT : charsBelow T 256) by (apply chars_below; exact HB).
  rewrite (saisxx_ok T sa HS nLF freqs HT HF). unfold divbwtf. replace (nLF =? 0) with false by lia.
  rewrite (index_rank T sa HS 0) by lia. cbn [bind].
  destruct (rows_at T sa 0) as (U & EU & LU & HU); [rewrite (sa_length T sa HS); reflexivity|eapply sa_below; eauto|].
  rewrite EU. cbn [bind]. rewrite (sa_length T sa HS) in LU.
  destruct (starting_at T sa HS (length T / nLF)) with (todo := nLF) (k := 0) as (lf & El & Ll & Hl); [apply Nat.div_str_pos; lia| |lia|].
  { rewrite Nat.add_0_l. eapply Nat.le_trans; [apply Nat.mul_div_le; lia|apply Nat.le_add_r]. }
  rewrite El. cbn [bind].
  assert (CR : forall V i p f, length f = 256 -> Forall (fun c => (c < 256)%N) V -> exists f', countRows p i V f = Ok f').
  { clear. induction V as [|c V IH]; intros i p f Hf HV; cbn [countRows]; [eauto|].
    pose proof (Forall_inv HV) as Hc. cbv beta in Hc. apply Forall_inv_tail in HV. destruct (i =? p); [auto|].
    destruct (get f (N.to_nat c)) as [v| |] eqn:G; [|exfalso; revert G; unfold get; destruct (nth_error f (N.to_nat c)) eqn:E; [discriminate|]; apply nth_error_None in E; lia|unfold get in G; destruct (nth_error f (N.to_nat c)); discriminate].
    cbn [bind]. rewrite set_ok by lia. cbn [bind]. apply IH; auto. rewrite upd_length. exact Hf. }
  destruct (CR U 0 (rank T 0) freqs HL) as (f' & Ef).
  { apply Forall_forall. intros c Hc. apply In_nth_error in Hc. destruct Hc as (r & Er).
    pose proof (nth_error_bound _ _ _ Er) as B. destruct (nth_error sa r) as [q|] eqn:Eq; [|apply nth_error_None in Eq; rewrite (sa_length T sa HS) in Eq; lia].
    rewrite (HU r q Eq) in Er. injection Er as <-. pose proof (sa_below T sa HS r q Eq).
    destruct (q =? 0); [pose proof (HT r ltac:(lia))|pose proof (HT (q - 1) ltac:(lia))]; cbn [Nat.add]; lia. }
  rewrite Ef. cbn [bind]. exists U, lf, f'. split; [reflexivity|]. split; [exact LU|]. split; [exact Ll|]. split; [|split].
  - intros r q Eq. rewrite (HU r (S q) Eq). cbn [Nat.eqb]. replace (S q - 1) with q by lia. unfold ch.
    symmetry. apply nth_error_nth'. pose proof (sa_below T sa HS r _ Eq). lia.
  - intros r Er. rewrite (Hl 0 ltac:(lia)). cbn [Nat.add Nat.eqb]. rewrite (sa_rank T sa HS r 0 Er). reflexivity.
  - intros j r Hj Er. rewrite (Hl j ltac:(lia)). cbn [Nat.add]. replace (j =? 0) with false by lia. rewrite (sa_rank T sa HS r _ Er). reflexivity.
Qed.

Open Scope N_scope.

Lemma bytes_sorted : forall x, are_bytes x -> are_bytes (sortedText x).
Proof.
  intros x H. unfold sortedText. apply Forall_app. split; [apply Forall_rev, H|]. constructor; [reflexivity|constructor].
Qed.

(** The transform of option --bwt s is the one of any correct sorter. *)
Lemma saisTransform_ok : forall x sa points, are_bytes x -> suffix_array (sortedText x) sa ->
  saisTransform x points = doTransform x sa points.
Proof.
  intros x sa points HB HS. unfold saisTransform, doTransform.
  rewrite (saisxx_ok (sortedText x) sa HS); [reflexivity|apply chars_below, bytes_sorted, HB|].
  unfold sortedText. rewrite app_length, rev_length. cbn [length].
  destruct (prepareLF_all (N.of_nat (length x)) points) as (P1 & P2 & P3).
  destruct (N.le_gt_cases (N.of_nat (length x)) 256) as [L|L]; [rewrite (P3 L)|]; lia.
Qed.

Lemma skipn_add : forall (l : list N) a b, skipn a (skipn b l) = skipn (b + a) l.
Proof. intros l a b. apply nth_error_ext. intros i. rewrite !skipn_nth. f_equal. lia. Qed.

Section Files.
Variable coder : entropyCoder.
Variable sorter : list N -> list nat.
Hypothesis HS : sorts_suffixes sorter.
Variable points : N.

Lemma encodeSlices_same : forall block slices st written size, are_bytes block ->
  encodeSlicesBy coder (fun s => saisTransform s points) st written block slices size = encodeSlices coder sorter points st written block slices size.
Proof.
  intros block. induction slices as [|(b, l) slices IH]; intros st written size HB; cbn [encodeSlicesBy encodeSlices]; [reflexivity|].
  unfold transformAndEncodeBy, transformAndEncode.
  rewrite (saisTransform_ok _ (sorter (sortedText (firstn l (skipn b block)))) points); [|apply are_bytes_firstn, are_bytes_skipn, HB|apply HS].
  destruct (doTransform _ _ _) as [((d, lf), stats)| |]; cbn [bind]; try reflexivity.
  destruct (ec_encode coder st written lf stats d) as [((st1, w1), n1)| |]; cbn [bind]; try reflexivity. apply IH, HB.
Qed.

Variable prec : list N -> outcome (grammar * list N).
Variable quotient : N -> N.

Lemma compressLoop_same : forall fuel st written input pbSize bwtSize size,
  (forall k g data, prec (firstn (N.to_nat pbSize) (skipn (k * N.to_nat pbSize) input)) = Ok (g, data) -> are_bytes data) ->
  compressLoopBy coder (fun s => saisTransform s points) prec quotient fuel st written input pbSize bwtSize size =
  compressLoop coder sorter points prec quotient fuel st written input pbSize bwtSize size.
Proof.
  induction fuel as [|fuel IH]; intros st written input pbSize bwtSize size HK; [reflexivity|]. cbn [compressLoopBy compressLoop].
  destruct (firstn (N.to_nat pbSize) input) as [|c0 block0] eqn:EB; [reflexivity|].
  destruct (prec (c0 :: block0)) as [(g, data)| |] eqn:EP; cbn [bind]; try reflexivity.
  assert (HD : are_bytes data) by (apply (HK 0%nat g); cbn [Nat.mul skipn]; rewrite EB; exact EP).
  destruct (sliceIntoBlocks _ _ _ _) as [slices| |]; cbn [bind]; try reflexivity.
  destruct (writePreHeader _ _ _) as [(header, n)| |]; cbn [bind]; try reflexivity.
  rewrite encodeSlices_same by exact HD.
  destruct (encodeSlices _ _ _ _ _ _ _ _) as [((st1, w1), s1)| |]; cbn [bind]; try reflexivity.
  apply IH. intros k g' data'. rewrite skipn_add. intros H. apply (HK (S k) g' data'). cbn [Nat.mul]. exact H.
Qed.

Lemma compress_same : forall pbSize0 bwtSize0 (anyOptions : bool) c input,
  (forall k g data, let pbSize := if anyOptions then pbSize0 else clampSize bwtSize0 in
     prec (firstn (N.to_nat pbSize) (skipn (k * N.to_nat pbSize) input)) = Ok (g, data) -> are_bytes data) ->
  compressSais coder points prec pbSize0 bwtSize0 quotient anyOptions c input =
  compress coder sorter points prec pbSize0 bwtSize0 quotient anyOptions c input.
Proof. intros pbSize0 bwtSize0 anyOptions c input H. unfold compressSais, compressBy, compress. apply compressLoop_same, H. Qed.
End Files.

Definition reference (t : list N) : list nat := sortSuffixes t (seq 0 (length t)).
Lemma reference_sorts : sorts_suffixes reference.
Proof. intros t. apply suffix_array_exists. Qed.

Lemma fits_bytes : forall sortF capacity lowRatio n block, sorts_by_frequency sortF -> are_bytes block ->
  N.of_nat (length block) < 2 ^ 31 -> N.of_nat n <= 1000000 -> blockFits sortF layoutOver capacity lowRatio n block = true ->
  forall g data, precompress sortF layoutOver capacity lowRatio n block = Ok (g, data) -> are_bytes data.
Proof.
  intros sortF capacity lowRatio n block HS HB HL HN HF g data E.
  exact (proj1 (precompress_ok sortF capacity lowRatio n block HS HB HL HN HF g data E)).
Qed.

Lemma compress_fits : forall coder sorter points sortF capacity lowRatio n pbSize0 bwtSize0 quotient c input,
  sorts_suffixes sorter -> sorts_by_frequency sortF -> are_bytes input -> N.of_nat n <= 1000000 ->
  let pbSize := if (n =? 0)%nat then clampSize bwtSize0 else pbSize0 in
  pbSize < 2 ^ 31 ->
  (forall k, blockFits sortF layoutOver capacity lowRatio n (firstn (N.to_nat pbSize) (skipn (k * N.to_nat pbSize) input)) = true) ->
  compressSais coder points (precompress sortF layoutOver capacity lowRatio n) pbSize0 bwtSize0 quotient (negb (n =? 0)%nat) c input =
  compress coder sorter points (precompress sortF layoutOver capacity lowRatio n) pbSize0 bwtSize0 quotient (negb (n =? 0)%nat) c input.
Proof.
  intros coder sorter points sortF capacity lowRatio n pbSize0 bwtSize0 quotient c input HS HF HI HN pbSize HP HK.
  apply compress_same; [exact HS|]. intros k g data.
  replace (if negb (n =? 0)%nat then pbSize0 else clampSize bwtSize0) with pbSize by (unfold pbSize; destruct (n =? 0)%nat; reflexivity).
  cbv zeta. apply fits_bytes; auto; [apply are_bytes_firstn, are_bytes_skipn, HI|].
  rewrite firstn_length. lia.
Qed.

Lemma sais_huffman : forall wavelet points behind sortF capacity lowRatio n pbSize0 bwtSize0 quotient input archive size,
  sorts_by_frequency sortF -> (forall i, behind i < 256) ->
  are_bytes input -> N.of_nat n <= 1000000 ->
  let pbSize := if (n =? 0)%nat then clampSize bwtSize0 else pbSize0 in
  0 < pbSize < 2 ^ 31 -> clampSize bwtSize0 < 2 ^ 29 -> (forall m, clampSize (quotient m) < 2 ^ 29) ->
  (forall k, blockFits sortF layoutOver capacity lowRatio n (firstn (N.to_nat pbSize) (skipn (k * N.to_nat pbSize) input)) = true) ->
  compressSais huffmanCoder points (precompress sortF layoutOver capacity lowRatio n) pbSize0 bwtSize0 quotient (negb (n =? 0)%nat) 72 input = Ok (archive, size) ->
  decompress behind wavelet archive = Ok (input, length input) /\ size = length archive /\ are_bytes archive.
Proof.
  intros wavelet points behind sortF capacity lowRatio n pbSize0 bwtSize0 quotient input archive size HF HM HI HN pbSize HP HB HQ HK E.
  rewrite (compress_fits huffmanCoder reference) in E; auto using reference_sorts; [|apply HP].
  eapply C39_huffman_round; eauto using reference_sorts.
Qed.

Lemma blockFits_none : forall sortF capacity lowRatio block, blockFits sortF layoutOver capacity lowRatio 0 block = true.
Proof.
  intros. unfold blockFits, precompress. cbn [roundsFit precompressRounds bind andb].
  destruct ((0 <? length block) && (length block <=? S (length block)))%nat%bool; [apply Nat.leb_refl|reflexivity].
Qed.

Lemma sais_huffman_always : forall wavelet points behind sortF capacity lowRatio pbSize0 bwtSize quotient input,
  sorts_by_frequency sortF -> (forall i, behind i < 256) -> are_bytes input -> 0 < bwtSize < 2 ^ 29 ->
  exists archive, compressSais huffmanCoder points (precompress sortF layoutOver capacity lowRatio 0) pbSize0 bwtSize quotient false 72 input = Ok (archive, length archive) /\
    are_bytes archive /\ decompress behind wavelet archive = Ok (input, length input).
Proof.
  intros wavelet points behind sortF capacity lowRatio pbSize0 bwtSize quotient input HF HM HI HB.
  pose proof (compress_fits huffmanCoder reference points sortF capacity lowRatio 0 pbSize0 bwtSize quotient 72 input reference_sorts HF HI) as H.
  change (negb (0 =? 0)%nat) with false in H. rewrite H.
  - apply C39_huffman_always; auto using reference_sorts.
  - cbn. lia.
  - cbn [Nat.eqb]. unfold clampSize. change (2 ^ 31) with 2147483648. lia.
  - intros k. apply blockFits_none.
Qed.

Lemma sais_wavelet : forall worth worth' c points behind sortF capacity lowRatio n pbSize0 bwtSize0 quotient input archive size,
  c < 256 -> c <> 72 -> sorts_by_frequency sortF -> (forall i, behind i < 256) ->
  are_bytes input -> N.of_nat n <= 1000000 ->
  let pbSize := if (n =? 0)%nat then clampSize bwtSize0 else pbSize0 in
  0 < pbSize < 2 ^ 31 -> clampSize bwtSize0 < 2 ^ 30 -> (forall m, clampSize (quotient m) < 2 ^ 30) ->
  (forall k, blockFits sortF layoutOver capacity lowRatio n (firstn (N.to_nat pbSize) (skipn (k * N.to_nat pbSize) input)) = true) ->
  compressSais (waveletCoder worth c) points (precompress sortF layoutOver capacity lowRatio n) pbSize0 bwtSize0 quotient (negb (n =? 0)%nat) c input = Ok (archive, size) ->
  decompress behind (waveletCoder worth') archive = Ok (input, length input) /\ size = length archive /\ are_bytes archive.
Proof.
  intros worth worth' c points behind sortF capacity lowRatio n pbSize0 bwtSize0 quotient input archive size Hc H72 HF HM HI HN pbSize HP HB HQ HK E.
  rewrite (compress_fits (waveletCoder worth c) reference) in E; auto using reference_sorts; [|apply HP].
  destruct (C39_wavelet_round worth worth' c reference points behind sortF capacity lowRatio n pbSize0 bwtSize0 quotient input archive size) as (D1 & D2 & D3 & _); auto using reference_sorts.
Qed.

(** One block and back, both inverses. *)
Lemma sais_inverse : forall x points next, are_bytes x -> x <> [] -> N.of_nat (length x) + 1 < 2 ^ 31 -> next < 256 ->
  exists data lf freqs, saisTransform x points = Ok (data, lf, freqs) /\ length data = length x /\
    Permutation data x /\ counts_of data freqs /\
    inverseWith fastInverse data next lf = Ok x /\ inverseWith mtlInverse data next lf = Ok x.
Proof.
  intros x points next HB HX HL HN. pose proof (reference_sorts (sortedText x)) as HS.
  rewrite (saisTransform_ok x _ points HB HS).
  destruct (C36_all x _ points next HB HX HL HS HN) as (data & lf & freqs & E & L & F).
  destruct (C37_all x _ points next HB HX HL HS HN) as (data' & lf' & freqs' & E' & _ & F').
  rewrite E in E'. injection E' as <- <- <-.
  destruct (C38_all x _ points data lf freqs HB HX HL HS E) as (Q1 & Q2 & _).
  exists data, lf, freqs. rewrite E. repeat split; auto; apply Q2.
Qed.

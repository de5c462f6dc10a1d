(** The program compress: round trips for all options. *)
From Coq Require Import List NArith ZArith Arith Bool SpecFloat Lia ZifyBool ZifyNat ZifyN.
From Verif Require Import Base ModelUtils ModelStreams ModelHeaders ModelBWT SpecBWT ModelFreq SpecFreq ModelGrammar ModelPairs SpecPairs ModelFile SpecFile ProofFile ModelSaisFile ProofSais20.
From Verif Require Import ModelWavelet ProofWav18 ProofWav19 ModelMain SpecMain ProofMain2 ProofMain3.
Import ListNotations.
Open Scope N_scope.

Lemma limit_small : forall mem, megabytes mem <= 18446744073709 -> memLimitOf mem = megabytes mem * 1000000 /\ memLimitOf mem < 2 ^ 64.
Proof.
  intros mem H. unfold memLimitOf, megabytes in *. change (2 ^ 64) with 18446744073709551616.
  destruct (mem =? 0); (split; [apply N.mod_small; lia|apply N.mod_lt; discriminate]).
Qed.

Section Program.
Variable sortF : list (N * N) -> list (N * N).
Variable sorter : list N -> list nat.
Variable worth : N -> N -> N -> bool.
Hypothesis HF : sorts_by_frequency sortF.

(** Any sorter in the place of SA-IS. *)
Lemma main_sorter : forall bwt starts n pb b q c input coder, sorts_suffixes sorter -> are_bytes input ->
  (forall k g data, let P := if negb (n =? 0)%nat then pb else clampSize b in precompress sortF layoutOver capacityOf lowRatioOf n (firstn (N.to_nat P) (skipn (k * N.to_nat P) input)) = Ok (g, data) -> are_bytes data) ->
  (if bwt =? 115 then compressSais coder starts (precompress sortF layoutOver capacityOf lowRatioOf n) pb b q (negb (n =? 0)%nat) c input
   else compress coder sorter starts (precompress sortF layoutOver capacityOf lowRatioOf n) pb b q (negb (n =? 0)%nat) c input) =
  compress coder sorter starts (precompress sortF layoutOver capacityOf lowRatioOf n) pb b q (negb (n =? 0)%nat) c input.
Proof. intros bwt starts n pb b q c input coder HS HI H. destruct (bwt =? 115); [|reflexivity]. apply compress_same; assumption. Qed.
End Program.

(** With --bwt s the sorter does not matter. *)
Lemma main_sais : forall sortF sorter sorter' worth mem starts enc prepr input,
  compressMain sortF sorter worth mem starts 115 enc prepr input = compressMain sortF sorter' worth mem starts 115 enc prepr input.
Proof. reflexivity. Qed.
Lemma main_any : forall sortF sorter worth mem starts bwt enc prepr input, (bwt <> 115 -> sorts_suffixes sorter) ->
  exists s, sorts_suffixes s /\ compressMain sortF sorter worth mem starts bwt enc prepr input = compressMain sortF s worth mem starts bwt enc prepr input.
Proof.
  intros sortF sorter worth mem starts bwt enc prepr input H. destruct (N.eq_dec bwt 115) as [->|B].
  - exists reference. split; [apply reference_sorts|reflexivity].
  - exists sorter. split; [apply H, B|reflexivity].
Qed.

Lemma encoding_small : forall enc, validEncoding enc = true -> enc < 256.
Proof. intros enc H. unfold validEncoding in H. lia. Qed.

(** What the coders have in common. *)
Lemma coder_round : forall worth worth' enc sorter points behind sortF n pbSize0 bwtSize0 quotient input archive size,
  enc < 256 -> sorts_suffixes sorter -> sorts_by_frequency sortF -> (forall i, behind i < 256) -> are_bytes input -> N.of_nat n <= 1000000 ->
  let pbSize := if (n =? 0)%nat then clampSize bwtSize0 else pbSize0 in
  0 < pbSize < 2 ^ 31 -> clampSize bwtSize0 < 2 ^ 29 -> (forall m, clampSize (quotient m) < 2 ^ 29) ->
  (forall k, blockFits sortF layoutOver capacityOf lowRatioOf n (firstn (N.to_nat pbSize) (skipn (k * N.to_nat pbSize) input)) = true) ->
  compress (giveCoder (waveletCoder worth) enc) sorter points (precompress sortF layoutOver capacityOf lowRatioOf n) pbSize0 bwtSize0 quotient (negb (n =? 0)%nat) enc input = Ok (archive, size) ->
  decompress behind (waveletCoder worth') archive = Ok (input, length input) /\ size = length archive /\ are_bytes archive.
Proof.
  intros worth worth' enc sorter points behind sortF n pbSize0 bwtSize0 quotient input archive size Hc HS HF HB HI HN pbSize HP HW HQ HK H.
  unfold giveCoder in H. destruct (N.eqb_spec enc 72) as [->|E].
  - eapply C39_huffman_round; eauto.
  - assert (T : 2 ^ 29 < 2 ^ 30) by reflexivity.
    destruct (C39_wavelet_round worth worth' enc sorter points behind sortF capacityOf lowRatioOf n pbSize0 bwtSize0 quotient input archive size) as (A & B & C & _); auto.
    + lia.
    + intros m. specialize (HQ m). lia.
Qed.

Lemma main_round : forall sortF sorter worth worth' behind mem starts bwt enc prepr input archive size,
  sorts_by_frequency sortF -> (bwt <> 115 -> sorts_suffixes sorter) -> (forall i, behind i < 256) -> are_bytes input ->
  moderate mem input -> N.of_nat (length prepr) <= 1000000 ->
  (forall pbSize k, prepr <> [] -> pbSizeOf (memLimitOf mem) = Ok pbSize ->
     blockFits sortF layoutOver capacityOf lowRatioOf (length prepr) (firstn (N.to_nat pbSize) (skipn (k * N.to_nat pbSize) input)) = true) ->
  compressMain sortF sorter worth mem starts bwt enc prepr input = Ok (Some (archive, size)) ->
  decompress behind (waveletCoder worth') archive = Ok (input, length input) /\ size = length archive /\ are_bytes archive.
Proof.
  intros sortF sorter0 worth worth' behind mem starts bwt enc prepr input archive size HF HS0 HB HI HM HN HK H.
  destruct (main_any sortF sorter0 worth mem starts bwt enc prepr input HS0) as (sorter & HS & EM). rewrite EM in H. clear EM HS0 sorter0.
  unfold compressMain in H. destruct (validPrepr prepr && validStarts starts && validEncoding enc && validBwt bwt) eqn:V; [|discriminate].
  assert (VE : enc < 256) by (apply encoding_small; destruct (validEncoding enc); [reflexivity|]; rewrite andb_false_r in V; discriminate).
  clear V. cbv zeta in H.
  unfold moderate in HM. assert (M1 : 1 <= megabytes mem) by (unfold megabytes; destruct (N.eqb_spec mem 0); lia).
  destruct (limit_small mem ltac:(lia)) as [ML ML2]. remember (memLimitOf mem) as L eqn:EL. clear EL.
  destruct (pb_bounds L ML2) as (pb & EP & P1 & P2). destruct (bwt_bounds L ML2) as (b & EB & B1 & B2). rewrite EP, EB in H. cbn [bind] in H.
  change (10 ^ 15) with 1000000000000000 in *. change (2 ^ 29) with 536870912 in HM.
  assert (PB : 739999 <= pb) by lia. assert (B0 : 0 < b) by lia. assert (PBL : pb < L) by lia.
  destruct (length prepr =? 0)%nat eqn:N0; cbn [negb] in H.
  - (* no preprocessing *)
    apply Nat.eqb_eq in N0. rewrite N0 in H.
    assert (E1 : (if bwt =? 115 then compressSais (giveCoder (waveletCoder worth) enc) starts (precompress sortF layoutOver capacityOf lowRatioOf 0) pb b (quotientFor L) false enc input
       else compress (giveCoder (waveletCoder worth) enc) sorter starts (precompress sortF layoutOver capacityOf lowRatioOf 0) pb b (quotientFor L) false enc input) = Ok (archive, size)).
    { destruct (if bwt =? 115 then _ else _) as [r| |] eqn:X; cbn [bind] in H; try discriminate. injection H as ->. reflexivity. }
    clear H. pose proof (main_sorter sortF sorter bwt starts 0 pb b (quotientFor L) enc input (giveCoder (waveletCoder worth) enc) HS HI) as MS. cbn [Nat.eqb negb] in MS. rewrite MS in E1.
    2: { intros k g data D. apply prec_none in D. subst data. apply are_bytes_firstn, are_bytes_skipn, HI. }
    rewrite (plain_sizes (giveCoder (waveletCoder worth) enc) (2 ^ 29) ltac:(split; [reflexivity|discriminate]) sorter starts sortF capacityOf lowRatioOf enc pb b (quotientFor L) (fun _ => 0) input) in E1; [|exact B0| |reflexivity].
    2: { change (2 ^ 29) with 536870912. change (2 ^ 31 - 2) with 2147483646. lia. }
    apply (coder_round worth worth' enc sorter starts behind sortF 0 pb (N.min b (2 ^ 29 - 1)) (fun _ => 0) input archive size); auto.
    + cbn. lia.
    + cbn [Nat.eqb]. unfold clampSize. change (2 ^ 29) with 536870912. change (2 ^ 31 - 2) with 2147483646. change (2 ^ 31) with 2147483648. lia.
    + unfold clampSize. change (2 ^ 29) with 536870912. lia.
    + intros _. reflexivity.
    + intros k. apply blockFits_none.
  - (* with preprocessing *)
    assert (PN : prepr <> []) by (intros ->; discriminate). specialize (HK pb).
    assert (HK' : forall k, blockFits sortF layoutOver capacityOf lowRatioOf (length prepr) (firstn (N.to_nat pb) (skipn (k * N.to_nat pb) input)) = true) by (intros k; apply HK; auto).
    clear HK. assert (SMALL : pb < 2 ^ 31 \/ N.of_nat (length input) < 2 ^ 29) by (change (2 ^ 29) with 536870912; change (2 ^ 31) with 2147483648; lia).
    assert (E1 : (if bwt =? 115 then compressSais (giveCoder (waveletCoder worth) enc) starts (precompress sortF layoutOver capacityOf lowRatioOf (length prepr)) pb b (quotientFor L) true enc input
       else compress (giveCoder (waveletCoder worth) enc) sorter starts (precompress sortF layoutOver capacityOf lowRatioOf (length prepr)) pb b (quotientFor L) true enc input) = Ok (archive, size)).
    { destruct (if bwt =? 115 then _ else _) as [r| |] eqn:X; cbn [bind] in H; try discriminate. injection H as ->. reflexivity. }
    clear H. pose proof (main_sorter sortF sorter bwt starts (length prepr) pb b (quotientFor L) enc input (giveCoder (waveletCoder worth) enc) HS HI) as MS.
    rewrite N0 in MS. cbn [negb] in MS. rewrite MS in E1.
    2: { intros k g data. cbv zeta. apply fits_bytes; auto; [apply are_bytes_firstn, are_bytes_skipn, HI|].
         rewrite firstn_length, skipn_length. change (2 ^ 29) with 536870912 in SMALL. change (2 ^ 31) with 2147483648 in *. lia. }
    destruct (options_sizes (giveCoder (waveletCoder worth) enc) (2 ^ 29) ltac:(split; [reflexivity|discriminate]) sorter starts sortF capacityOf lowRatioOf enc (length prepr) pb b (quotientFor L) input) as [E2 SC]; auto.
    + lia.
    + reflexivity.
    + unfold clampSize. change (2 ^ 31 - 2) with 2147483646. lia.
    + intros m Hm. destruct (quotient_bounds L m ltac:(lia)) as (_ & Q1 & Q2). change (10 ^ 15) with 1000000000000000 in *. change (2 ^ 29) with 536870912. change (2 ^ 31 - 2) with 2147483646.
      split; lia.
    + rewrite E2 in E1. assert (P0 : 0 < pb) by lia. assert (P0' : 0 < N.min pb (2 ^ 31 - 1)) by (change (2 ^ 31 - 1) with 2147483647; lia).
      apply (coder_round worth worth' enc sorter starts behind sortF (length prepr) (N.min pb (2 ^ 31 - 1)) 0 (fun m => N.min (quotientFor L m) (2 ^ 29 - 1)) input archive size); auto.
      * rewrite N0. change (2 ^ 31 - 1) with 2147483647 in *. change (2 ^ 31) with 2147483648. lia.
      * reflexivity.
      * intros m. unfold clampSize. change (2 ^ 29) with 536870912. lia.
      * rewrite N0. intros k. rewrite (chunk_same pb (N.min pb (2 ^ 31 - 1)) input k P0 P0' SC). apply HK'.
      * rewrite N0. exact E1.
Qed.

(** Without preprocessing and with the Huffman coder the program always finishes. *)
Lemma main_huffman : forall sortF sorter worth worth' behind mem starts bwt input,
  sorts_by_frequency sortF -> (bwt <> 115 -> sorts_suffixes sorter) -> (forall i, behind i < 256) -> are_bytes input ->
  validStarts starts = true -> validBwt bwt = true ->
  megabytes mem <= 2902 \/ (megabytes mem <= 11608 /\ N.of_nat (length input) < 2 ^ 29) ->
  exists archive, compressMain sortF sorter worth mem starts bwt 72 [] input = Ok (Some (archive, length archive)) /\ are_bytes archive /\
    decompress behind (waveletCoder worth') archive = Ok (input, length input).
Proof.
  intros sortF sorter0 worth worth' behind mem starts bwt input HF HS0 HB HI VS VB HM.
  destruct (main_any sortF sorter0 worth mem starts bwt 72 [] input HS0) as (sorter & HS & EM). rewrite EM. clear EM HS0 sorter0.
  unfold compressMain. rewrite VS, VB. cbn [validPrepr forallb andb validEncoding N.eqb Pos.eqb orb length Nat.eqb negb]. cbv zeta.
  assert (M1 : 1 <= megabytes mem) by (unfold megabytes; destruct (N.eqb_spec mem 0); lia).
  destruct (limit_small mem ltac:(lia)) as [ML ML2]. remember (memLimitOf mem) as L eqn:EL. clear EL.
  destruct (pb_bounds L ML2) as (pb & EP & P1 & P2). destruct (bwt_bounds L ML2) as (b & EB & B1 & B2). rewrite EP, EB. cbn [bind].
  change (10 ^ 15) with 1000000000000000 in *. change (2 ^ 29) with 536870912 in HM. assert (B0 : 0 < b) by lia.
  change (giveCoder (waveletCoder worth) 72) with huffmanCoder.
  pose proof (main_sorter sortF sorter bwt starts 0 pb b (quotientFor L) 72 input huffmanCoder HS HI) as MS. cbn [Nat.eqb negb] in MS. rewrite MS.
  2: { intros k g data D. apply prec_none in D. subst data. apply are_bytes_firstn, are_bytes_skipn, HI. }
  rewrite (plain_sizes huffmanCoder (2 ^ 29) ltac:(split; [reflexivity|discriminate]) sorter starts sortF capacityOf lowRatioOf 72 pb b (quotientFor L) (fun _ => 0) input); [|exact B0| |reflexivity].
  2: { change (2 ^ 29) with 536870912. change (2 ^ 31 - 2) with 2147483646. lia. }
  destruct (C39_huffman_always (waveletCoder worth') sorter starts behind sortF capacityOf lowRatioOf pb (N.min b (2 ^ 29 - 1)) (fun _ => 0) input) as (archive & E & A & D); auto.
  { change (2 ^ 29) with 536870912. lia. }
  exists archive. rewrite E. cbn [bind]. auto.
Qed.

(** The archive does not depend on the sorter. *)
Lemma main_same : forall sortF sorter worth mem starts bwt bwt' enc input,
  sorts_suffixes sorter -> are_bytes input -> validBwt bwt = true -> validBwt bwt' = true ->
  compressMain sortF sorter worth mem starts bwt enc [] input = compressMain sortF sorter worth mem starts bwt' enc [] input.
Proof.
  intros sortF sorter worth mem starts bwt bwt' enc input HS HI V V'. unfold compressMain. rewrite V, V'. destruct (_ && _ && _ && _); [|reflexivity]. cbv zeta.
  destruct (pbSizeOf _) as [pb| |]; cbn [bind]; try reflexivity. destruct (bwtSizeOf _) as [b| |]; cbn [bind]; try reflexivity.
  cbn [length]. rewrite (main_sorter sortF sorter bwt), (main_sorter sortF sorter bwt'); auto;
    intros k g data PP D; apply prec_none in D; subst data; apply are_bytes_firstn, are_bytes_skipn, HI.
Qed.

(** Too much memory: the block size fails the assertion of sliceIntoBlocks. *)
Lemma too_much : forall sortF sorter worth mem starts bwt enc input,
  validStarts starts = true -> validBwt bwt = true -> validEncoding enc = true -> 11609 <= mem <= 18446744073709 -> input <> [] ->
  compressMain sortF sorter worth mem starts bwt enc [] input = UB.
Proof.
  intros sortF sorter worth mem starts bwt enc input VS VB VE HM HI. unfold compressMain. rewrite VS, VB, VE. cbn [validPrepr forallb andb length Nat.eqb negb]. cbv zeta.
  assert (EM : megabytes mem = mem) by (unfold megabytes; destruct (N.eqb_spec mem 0); lia).
  destruct (limit_small mem ltac:(lia)) as [ML ML2]. remember (memLimitOf mem) as L eqn:EL. clear EL.
  destruct (pb_bounds L ML2) as (pb & EP & P1 & P2). destruct (bwt_bounds L ML2) as (b & EB & B1 & B2). rewrite EP, EB. cbn [bind].
  change (10 ^ 15) with 1000000000000000 in *.
  assert (CB : 2147483646 <= clampSize b) by (unfold clampSize; change (2 ^ 31 - 2) with 2147483646; lia).
  destruct input as [|x l]; [contradiction|].
  assert (FN : exists r, firstn (N.to_nat (clampSize b)) (x :: l) = x :: r).
  { clear - CB. generalize dependent (clampSize b). intros bs CB. destruct (N.to_nat bs) eqn:Z; [lia|]. eexists. reflexivity. }
  destruct FN as (r & FN).
  assert (SL : forall f u s, sliceIntoBlocks f u s (N.to_nat (clampSize b)) = UB).
  { clear - CB. generalize dependent (clampSize b). intros bs CB f u s. unfold sliceIntoBlocks. rewrite N2Nat.id. change (2 ^ 31 - 2) with 2147483646.
    replace (bs <? 2147483646) with false by (symmetry; apply N.ltb_ge; exact CB). rewrite andb_false_r. reflexivity. }
  assert (PR : exists g d, precompress sortF layoutOver capacityOf lowRatioOf 0 (x :: r) = Ok (g, d)).
  { unfold precompress. cbn [precompressRounds bind length]. replace ((0 <? S (length r)) && (S (length r) <=? S (S (length r))))%nat%bool with true by (symmetry; apply andb_true_iff; split; [reflexivity|apply Nat.leb_le; lia]). eauto. }
  destruct PR as (g & d & PR).
  destruct (bwt =? 115).
  - unfold compressSais, compressBy. cbn [compressLoopBy]. rewrite FN, PR. cbn [bind]. rewrite N.eqb_refl, SL. reflexivity.
  - unfold compress. cbn [compressLoop]. rewrite FN, PR. cbn [bind]. rewrite N.eqb_refl, SL. reflexivity.
Qed.

(** A limit that is a multiple of 2^64 bytes. *)
Lemma wrapped : forall sortF sorter worth starts bwt enc input,
  validStarts starts = true -> validBwt bwt = true -> validEncoding enc = true ->
  compressMain sortF sorter worth (2 ^ 58) starts bwt enc [] input = Ok (Some ([enc; 0], 2%nat)).
Proof.
  intros sortF sorter worth starts bwt enc input VS VB VE. unfold compressMain. rewrite VS, VB, VE. cbn [validPrepr forallb andb length Nat.eqb negb]. cbv zeta.
  change (memLimitOf (2 ^ 58)) with 0. change (pbSizeOf 0) with (Ok 0). change (bwtSizeOf 0) with (Ok 0). cbn [bind].
  destruct (bwt =? 115); reflexivity.
Qed.

Lemma sizes_both : forall L, L < 2 ^ 64 -> exists pbSize bwtSize, pbSizeOf L = Ok pbSize /\ bwtSizeOf L = Ok bwtSize /\
  100 * 10 ^ 15 * pbSize <= 74 * (10 ^ 15 + 1) * L /\ 74 * (10 ^ 15 - 1) * L < 100 * 10 ^ 15 * (pbSize + 1) /\
  1000 * 10 ^ 15 * bwtSize <= 185 * (10 ^ 15 + 1) * L /\ 185 * (10 ^ 15 - 1) * L < 1000 * 10 ^ 15 * (bwtSize + 1).
Proof. intros L HL. destruct (pb_bounds L HL) as (p & E & A & B). destruct (bwt_bounds L HL) as (b & E' & A' & B'). exists p, b. auto 10. Qed.
Lemma quotient_both : forall L m, (exists q, quotientOf L m = Ok q) /\
  (m <= L < 2 ^ 64 -> exists q, quotientOf L m = Ok q /\ 45 * 10 ^ 15 * q <= 10 * (10 ^ 15 + 1) * (L - m) /\ 10 * (10 ^ 15 - 1) * (L - m) < 45 * 10 ^ 15 * (q + 1)).
Proof. intros L m. split; [apply quotient_defined|]. intros H. destruct (quotient_bounds L m H) as (E & A & B). eauto. Qed.
Lemma capacity_third : forall len, N.of_nat len < 2 ^ 31 ->
  exists n, toSize (SFadd 53 1024 (SFmul 53 1024 (literal 333334 1000000) (toDouble (N.of_nat len))) (toDouble 3)) = Ok n /\ capacityOf len = N.to_nat n /\
    N.of_nat len + 6 <= 3 * n /\ 10 ^ 6 * n <= 333334 * N.of_nat len + 3 * 10 ^ 6 + 1.
Proof. intros len H. destruct (capacity_bounds len H) as (n & E & C & A & B). exists n. split; [exact E|]. split; [exact C|]. change (10 ^ 6) with 1000000 in *. lia. Qed.

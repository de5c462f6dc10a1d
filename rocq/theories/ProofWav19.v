(** Whole files with the wavelet coder. *)
From Coq Require Import List NArith ZArith Arith Bool Lia.
From Verif Require Import Base ModelUtils ModelStreams ModelHeaders ModelBWT SpecBWT ProofBWT7 ModelFreq SpecFreq ModelGrammar ModelPairs SpecPairs ModelFile SpecFile ProofFile.
From Verif Require Import ModelWavelet ProofWav10 ProofWav18.
Import ListNotations.
Open Scope N_scope.

(** Decoding does not use the encoder. *)
Lemma slices_same : forall behind S i e e' d n memory st used s,
  decodeSlices behind (mkCoder S i e d) n memory st used s = decodeSlices behind (mkCoder S i e' d) n memory st used s.
Proof.
  intros behind S i e e' d. induction n as [|n IH]; intros memory st used s; [reflexivity|]. cbn [decodeSlices ec_decode ec_state].
  apply bind_ext. intros [[[[[lf data] size]|] st1] s1] _; [|reflexivity]. destruct (_ && _); [|reflexivity]. apply bind_ext. intros data1 _. apply IH.
Qed.
Lemma loop_same : forall behind S i e e' d fuel st s out,
  decompressLoop behind (mkCoder S i e d) fuel st s out = decompressLoop behind (mkCoder S i e' d) fuel st s out.
Proof.
  intros behind S i e e' d. induction fuel as [|fuel IH]; intros st s out; [reflexivity|]. cbn [decompressLoop ec_state].
  apply bind_ext. intros [[[[size slices] g]|] s1] _; [|reflexivity].
  rewrite (slices_same behind S i e e' d). apply bind_ext. intros [[st1 data] s2] _. apply bind_ext. intros text _. destruct (_ =? _); [apply IH|reflexivity].
Qed.
Lemma decompress_same : forall behind worth worth' archive, decompress behind (waveletCoder worth) archive = decompress behind (waveletCoder worth') archive.
Proof.
  intros behind worth worth' archive. unfold decompress. destruct (readByte (bytes_bits archive)) as [c s]. cbv zeta. unfold giveCoder. destruct (c =? 72); [reflexivity|].
  unfold waveletCoder. cbv zeta. cbn [ec_init]. apply loop_same.
Qed.

Lemma C39_wavelet_round : forall worth worth' c sorter points behind sortF capacity lowRatio n pbSize0 bwtSize0 quotient input archive size,
  c < 256 -> c <> 72 -> sorts_suffixes sorter -> sorts_by_frequency sortF -> (forall i, behind i < 256) ->
  are_bytes input -> N.of_nat n <= 1000000 ->
  let pbSize := if (n =? 0)%nat then clampSize bwtSize0 else pbSize0 in
  0 < pbSize < 2 ^ 31 -> clampSize bwtSize0 < 2 ^ 30 -> (forall m, clampSize (quotient m) < 2 ^ 30) ->
  (forall k, blockFits sortF layoutOver capacity lowRatio n (firstn (N.to_nat pbSize) (skipn (k * N.to_nat pbSize) input)) = true) ->
  compress (waveletCoder worth c) sorter points (precompress sortF layoutOver capacity lowRatio n) pbSize0 bwtSize0 quotient (negb (n =? 0)%nat) c input = Ok (archive, size) ->
  decompress behind (waveletCoder worth') archive = Ok (input, length input) /\ size = length archive /\ are_bytes archive /\
  decompress behind (waveletCoder worth') (removelast archive) = UB.
Proof.
  intros worth worth' c sorter points behind sortF capacity lowRatio n pbSize0 bwtSize0 quotient input archive size Hc H72 HS HF HB HI HN pbSize HP HW HQ HK H.
  rewrite (decompress_same behind worth' worth archive), (decompress_same behind worth' worth (removelast archive)).
  eapply (C39_generic (waveletCoder worth c) (2 ^ 30) (waveletCoder worth) c); eauto; try reflexivity.
  - apply wavelet_correct.
  - unfold giveCoder. destruct (N.eqb_spec c 72); [contradiction|reflexivity].
Qed.

(** Sections and blocks of the wavelet coder. *)
From Coq Require Import List NArith Arith Bool Lia.
From Coq Require Import ZifyBool ZifyNat ZifyN.
From Verif Require Import Base Arrays SpecRuns SpecHeaders ModelUtils ModelHeaders ModelHuffman ModelHuffmanCoder ModelStreams ModelBitCoder ModelProb ModelWavelet ModelFile SpecFile.
From Verif Require Import ProofUtils1 ProofUtils2 ProofUtils3 ProofHeaders ProofHuffCoder4 ProofBitCoder ProofProb.
From Verif Require Import ProofWav1 ProofWav2 ProofWav3 ProofWav4 ProofWav5 ProofWav7 ProofWav8 ProofWav9 ProofWav11 ProofWav12 ProofWav13 ProofWav14 ProofWav15 ProofWav16 ProofWav17.
Import ListNotations.
Open Scope nat_scope.

Section Coder.
Variables PM GM AM : predictor.
Hypothesis IDEM : forall s s', p_reset GM s = Ok s' -> p_reset GM s' = Ok s'.
Variable worth : N -> N -> N -> bool.

Definition sectionBound (n : N) : N := 5 * n * n + 800 * n + 10000.

Lemma root_size : forall src w T0 runs ws CL L, built src w T0 runs ws CL L -> runs <> [] ->
  exists n, look (w_root w) [] = Some n /\ length (bitVector n) = length (wordsOf ws).
Proof.
  intros src w T0 runs ws CL L HB HNE. pose proof (tb_code _ _ _ _ _ _ (b_tables _ _ _ _ _ _ _ HB)) as HC.
  pose proof (W_parts src w T0 runs ws CL L HB) as HP.
  rewrite (T_node src w T0 runs ws CL L HB _ _ (ct_root _ _ HC)). eexists. split; [reflexivity|]. cbn [bitVector ends].
  apply heads_length. apply (proper_node T0 _ HC (wordsOf ws) HP [] _ (ct_root _ _ HC)).
Qed.

Lemma section_parts : forall ms e data out k ms' e', encodeSection PM GM AM worth ms e data = Ok (out, k, ms', e') ->
  exists w n packed bytes packedBytes shape calls ms1 e1 body,
    buildTree worth data = Ok w /\ look (w_root w) [] = Some n /\ packInteger (N.of_nat (length (bitVector n))) = Ok (packed, bytes) /\
    writePackedInteger packed = Ok packedBytes /\ treeShape w = Ok shape /\ encodeTreeBF PM GM AM (w_root w) ms = Ok (calls, ms1) /\
    encodeTrace e calls = Ok (e1, body) /\ resetModels PM GM AM ms1 = Ok ms' /\
    out = packedBytes ++ writeShapeBytes shape ++ body ++ snd (encFinish e1) /\ k = bytes + length (writeShapeBytes shape) /\ e' = fst (encFinish e1).
Proof.
  intros ms e data out k ms' e'. unfold encodeSection. intros H.
  apply bind_inv in H. destruct H as (w & E1 & H). destruct (look (w_root w) []) as [n|] eqn:LK; [|discriminate].
  apply bind_inv in H. destruct H as ([packed bytes] & E2 & H). apply bind_inv in H. destruct H as (packedBytes & E3 & H).
  apply bind_inv in H. destruct H as (shape & E4 & H). cbv zeta in H. apply bind_inv in H. destruct H as ([calls ms1] & E5 & H).
  apply bind_inv in H. destruct H as ([e1 body] & E6 & H). apply bind_inv in H. destruct H as (ms2 & E7 & H).
  destruct (encFinish e1) as [e2 last] eqn:EF. apply ok_inj in H. apply pair_equal_spec in H. destruct H as [H <-]. apply pair_equal_spec in H. destruct H as [H <-].
  apply pair_equal_spec in H. destruct H as [<- <-].
  exists w, n, packed, bytes, packedBytes, shape, calls, ms1, e1, body. rewrite EF.
  exact (conj E1 (conj LK (conj E2 (conj E3 (conj E4 (conj E5 (conj E6 (conj E7 (conj eq_refl (conj eq_refl eq_refl)))))))))).
Qed.

Lemma reset_parts : forall pm gm am ms', resetModels PM GM AM (pm, gm, am) = Ok ms' ->
  exists p2 g2 a2, p_reset PM pm = Ok p2 /\ p_reset GM gm = Ok g2 /\ p_reset AM am = Ok a2 /\ ms' = (p2, g2, a2).
Proof.
  intros pm gm am ms'. unfold resetModels. intros E5. apply bind_inv in E5. destruct E5 as (p2 & R1 & E5). apply bind_inv in E5. destruct E5 as (g2 & R2 & E5).
  apply bind_inv in E5. destruct E5 as (a2 & R3 & E5). apply ok_inj in E5. subst ms'. exists p2, g2, a2. auto.
Qed.
Lemma reset_join : forall pm gm am p2 g2 a2, p_reset PM pm = Ok p2 -> p_reset GM gm = Ok g2 -> p_reset AM am = Ok a2 -> resetModels PM GM AM (pm, gm, am) = Ok (p2, g2, a2).
Proof. intros * R1 R2 R3. unfold resetModels. rewrite R1. cbn [bind]. rewrite R2. cbn [bind]. rewrite R3. reflexivity. Qed.

Lemma finish_bytes : forall fin, enc_ok fin -> are_bytes (snd (encFinish fin)).
Proof.
  intros fin D2. unfold are_bytes. cbn [encFinish snd]. constructor; [|repeat (constructor; [unfold is_byte; lia|]); constructor].
  unfold is_byte. rewrite N.shiftr_div_pow2. destruct D2 as (X1 & X2 & _). apply N.div_lt_upper_bound; [lia|]. change (2 ^ 24 * 256)%N with two32. unfold two32 in *. lia.
Qed.

Lemma decode_parts : forall ms ms1 ms2 s s1 s2 s3 packed rootSize w t d data,
  readStillPacked s = Ok (packed, s1) -> unpackInteger packed = Ok rootSize -> readShape s1 = Ok (w, s2) ->
  decodeTreeBF PM GM AM rootSize w ms (decStart (absFlushBuffer s2)) = Ok (t, ms1, (d, s3)) -> message w t = Ok data -> resetModels PM GM AM ms1 = Ok ms2 ->
  decodeSection PM GM AM ms s = Ok (data, ms2, s3).
Proof.
  intros * E1 E2 E3 E4 E5 E6. unfold decodeSection. rewrite E1. cbn [bind]. rewrite E2. cbn [bind]. rewrite E3. cbn [bind]. cbv zeta. rewrite E4. cbn [bind].
  rewrite E5. cbn [bind]. rewrite E6. reflexivity.
Qed.

Lemma section_sim : forall ms c data out k ms' e', data <> [] -> are_bytes data -> (N.of_nat (length data) < 2 ^ 30)%N -> (c < two64)%N ->
  encodeSection PM GM AM worth ms (mkEnc 0 4294967295 c) data = Ok (out, k, ms', e') ->
  are_bytes out /\ (N.of_nat (length out) <= sectionBound (N.of_nat (length data)))%N /\
  (exists x, length out = k + x /\ e' = mkEnc 0 4294967295 ((c + N.of_nat x) mod two64)) /\
  forall following, decodeSection PM GM AM ms (bytes_bits out ++ bytes_bits following) = Ok (data, ms', bytes_bits following).
Proof.
  intros ms c data out k ms' e' NE AB LN HC H.
  assert (P30 : (2 ^ 30 < 2 ^ 31)%N) by reflexivity. assert (P31 : (2 ^ 31 < 2 ^ 32)%N) by reflexivity. assert (P32 : (2 ^ 32 < 2 ^ 56)%N) by reflexivity.
  apply section_parts in H. destruct H as (w & n & packed' & bytes' & packedBytes & shape & calls & ms1 & e1 & body & E1 & LK & E0 & E00 & E2 & E3 & E4 & E5 & OUT & EK & EE).
  destruct (build_spec worth data w NE AB ltac:(lia) E1) as (T0 & runs & ws & CL & L & HB).
  pose proof (b_runs _ _ _ _ _ _ _ HB) as RUNS. pose proof (b_tables _ _ _ _ _ _ _ HB) as TB.
  assert (RNE : runs <> []). { intros ->. destruct RUNS as [R _]. cbn in R. congruence. }
  destruct (root_size _ _ _ _ _ _ _ HB RNE) as (n' & LK' & LB). rewrite LK in LK'. injection LK' as <-. rewrite LB in E0.
  pose proof (word_count _ _ _ _ _ _ _ HB) as WC. assert (WL : length (wordsOf ws) = length ws) by apply map_length.
  destruct (pack_all (N.of_nat (length (wordsOf ws)))) as (packed & bytes & Q1 & Q2 & Q3 & _ & _ & Q4 & Q5 & Q6 & Q7); [lia|].
  rewrite Q1 in E0. apply ok_inj in E0. apply pair_equal_spec in E0. destruct E0 as [<- <-]. rewrite Q6 in E00. apply ok_inj in E00. subst packedBytes.
  pose proof (trace_codable _ _ _ _ E4) as CD.
  pose proof (shape_size _ _ _ _ _ _ _ _ HB LN E2) as SZ.
  pose proof (calls_count _ _ _ _ _ _ _ HB _ _ _ _ _ _ E3) as CC.
  destruct (writeShape_spec shape) as (pad & S1 & S2 & S3).
  assert (S4 : 8 * length (writeShapeBytes shape) = length shape + pad).
  { apply (f_equal (@length bool)) in S3. rewrite bytes_bits_length, app_length, repeat_length in S3. exact S3. }
  destruct (dec_ready_start c calls [] HC CD) as (fin & bs & D1 & D2 & D3 & D4 & D5 & _).
  rewrite D1 in E4. apply ok_inj in E4. apply pair_equal_spec in E4. destruct E4 as [<- <-].
  assert (FL : length (snd (encFinish fin)) = 4) by reflexivity.
  assert (FC : fst (encFinish fin) = mkEnc 0 4294967295 ((e_counter fin + 4) mod two64)) by reflexivity.
  subst out k e'.
  split; [|split; [|split]].
  - unfold are_bytes in *. rewrite !Forall_app. split; [exact Q5|]. split; [exact S2|]. split; [exact D3|]. apply finish_bytes. exact D2.
  - rewrite !app_length, Q4, FL. unfold sectionBound. nia.
  - exists (length bs + 4). rewrite !app_length, Q4, FL. split; [lia|]. rewrite FC. f_equal. rewrite D5, N.add_mod_idemp_l by (unfold two64; lia). f_equal. lia.
  - intros following.
    destruct (dec_ready_start c calls (bytes_bits following) HC CD) as (fin' & bs' & D1' & _ & _ & _ & _ & D6).
    rewrite D1 in D1'. apply ok_inj in D1'. apply pair_equal_spec in D1'. destruct D1' as [<- <-].
    destruct (shape_spec (w_root w) T0 (w_codes w) CL (w_intTree w) (w_intCodes w) L (w_W w) TB (b_W _ _ _ _ _ _ _ HB)) as (bits & S5 & S6).
    { intros x Hx. destruct (b_values _ _ _ _ _ _ _ HB _ Hx) as [V _]. lia. }
    { pose proof (b_count _ _ _ _ _ _ _ HB). lia. }
    assert (EW : w = mkWavelet (w_root w) (w_codes w) (w_intTree w) (w_intCodes w) (w_W w)) by (destruct w; reflexivity).
    rewrite EW in E2. rewrite E2 in S5. apply ok_inj in S5. subst bits.
    destruct ms as [[pm gm] am], ms1 as [[pm1 gm1] am1].
    apply reset_parts in E5. destruct E5 as (p2 & g2 & a2 & R1 & R2 & R3 & ->).
    rewrite <- (app_nil_r calls) in D6.
    destruct (tree_sim PM GM AM IDEM _ _ _ _ _ _ _ HB RNE pm gm am calls pm1 gm1 am1 g2 [] (bytes_bits following) _ E3 R2 D6) as (t' & gm'' & [d' s'] & F1 & F2 & F3 & F4).
    apply dec_ready_nil in F2. cbn [snd] in F2. subst s'.
    pose proof (shows_message _ _ _ _ _ _ _ HB RNE t' T0 F4 ltac:(eapply built_bounds; [exact RUNS|exact AB|lia])) as F5.
    rewrite expand_concat, (proj1 RUNS) in F5.
    eapply decode_parts; [|exact Q2| | |exact F5|exact (reset_join _ _ _ _ _ _ R1 F3 R3)].
    + rewrite bytes_bits_app, <- app_assoc. exact (proj2 (Q7 _)).
    + rewrite bytes_bits_app, S3, <- !app_assoc. apply S6.
    + rewrite <- bytes_bits_app, flush_pad by exact S1. rewrite bytes_bits_app. exact F1.
Qed.

Lemma data_step : forall n r data ms e out k ms' e', (0 < n)%N -> encodeData PM GM AM worth (n :: r) data ms e = Ok (out, k, ms', e') ->
  N.to_nat n <= length data /\ exists out1 k1 ms1 e1 out2 k2,
    encodeSection PM GM AM worth ms e (firstn (N.to_nat n) data) = Ok (out1, k1, ms1, e1) /\
    encodeData PM GM AM worth r (skipn (N.to_nat n) data) ms1 e1 = Ok (out2, k2, ms', e') /\ out = out1 ++ out2 /\ k = k1 + k2.
Proof.
  intros n r data ms e out k ms' e' P. cbn [encodeData]. replace (n =? 0)%N with false by lia.
  destruct (Nat.ltb_spec (length data) (N.to_nat n)) as [|B]; [discriminate|]. intros H. split; [exact B|].
  apply bind_inv in H. destruct H as ([[[out1 k1] ms1] e1] & E1 & H). apply bind_inv in H. destruct H as ([[[out2 k2] ms2] e2] & E2 & H).
  apply ok_inj in H. apply pair_equal_spec in H. destruct H as [H <-]. apply pair_equal_spec in H. destruct H as [H <-].
  apply pair_equal_spec in H. destruct H as [<- <-]. exists out1, k1, ms1, e1, out2, k2. auto.
Qed.
Lemma sections_step : forall n r ms s data ms1 s1 data' ms2 s2, (0 < n)%N -> decodeSection PM GM AM ms s = Ok (data, ms1, s1) ->
  decodeSections PM GM AM r ms1 s1 = Ok (data', ms2, s2) -> decodeSections PM GM AM (n :: r) ms s = Ok (data ++ data', ms2, s2).
Proof.
  intros * P E1 E2. cbn [decodeSections]. replace (n =? 0)%N with false by lia. rewrite E1. cbn [bind]. rewrite E2. reflexivity.
Qed.

Lemma sections_sim : forall sections data ms c out k ms' e', Forall (fun x => 0 < x)%N sections -> sumN sections = N.of_nat (length data) ->
  are_bytes data -> (N.of_nat (length data) < 2 ^ 30)%N -> (c < two64)%N ->
  encodeData PM GM AM worth sections data ms (mkEnc 0 4294967295 c) = Ok (out, k, ms', e') ->
  are_bytes out /\ (N.of_nat (length out) <= 5 * N.of_nat (length data) * N.of_nat (length data) + 800 * N.of_nat (length data) + 10000 * N.of_nat (length sections))%N /\
  (exists x, length out = k + x /\ e_counter e' = ((c + N.of_nat x) mod two64)%N) /\
  forall following, decodeSections PM GM AM sections ms (bytes_bits out ++ bytes_bits following) = Ok (data, ms', bytes_bits following).
Proof.
  induction sections as [|n r IH]; intros data ms c out k ms' e' P S AB LN HC H.
  - cbn in S. destruct data; [|cbn [length] in S; lia]. cbn [encodeData] in H. apply ok_inj in H.
    apply pair_equal_spec in H. destruct H as [H <-]. apply pair_equal_spec in H. destruct H as [H <-]. apply pair_equal_spec in H. destruct H as [<- <-].
    split; [constructor|]. split; [cbn [length]; lia|]. split; [exists 0; split; [reflexivity|]; cbn [e_counter]; rewrite N.add_0_r, N.mod_small by exact HC; reflexivity|].
    intros following. reflexivity.
  - inversion_clear P as [|? ? P1 P2]. unfold sumN in S. cbn [fold_right] in S. fold (sumN r) in S.
    apply data_step in H; [|exact P1]. destruct H as (B & out1 & k1 & ms1 & e1 & out2 & k2 & E1 & E2 & -> & ->).
    assert (LF : length (firstn (N.to_nat n) data) = N.to_nat n) by (apply firstn_length_le; lia).
    assert (LS : length (skipn (N.to_nat n) data) = length data - N.to_nat n) by apply skipn_length.
    rewrite <- (firstn_skipn (N.to_nat n) data) in AB. apply Forall_app in AB. destruct AB as [AB1 AB2].
    apply section_sim in E1; [|intros C; rewrite C in LF; cbn [length] in LF; lia|exact AB1|lia|exact HC].
    destruct E1 as (A1 & A2 & (x & A3 & ->) & A4).
    apply IH in E2; [|exact P2|lia|exact AB2|lia|apply N.mod_lt; discriminate].
    destruct E2 as (B1 & B2 & (y & B3 & B4) & B5).
    split; [apply Forall_app; auto|]. split; [|split].
    + rewrite LF in A2. rewrite LS in B2. rewrite app_length. cbn [length]. unfold sectionBound in A2.
      replace (N.of_nat (length data - N.to_nat n)) with (N.of_nat (length data) - n)%N in B2 by lia. rewrite N2Nat.id in A2.
      assert (X : (n <= N.of_nat (length data))%N) by lia. destruct (N.le_exists_sub _ _ X) as (m & EM & _). rewrite EM in *. replace (m + n - n)%N with m in B2 by lia. clear - A2 B2. nia.
    + exists (x + y). split; [rewrite app_length; lia|]. rewrite B4, N.add_mod_idemp_l by discriminate. f_equal. lia.
    + intros following. rewrite <- (firstn_skipn (N.to_nat n) data) at 1. eapply sections_step; [exact P1| |apply B5].
      rewrite bytes_bits_app, <- app_assoc, <- bytes_bits_app. apply A4.
Qed.

Lemma block_parts : forall ms written lf stats data ms' out size, encodeBlock PM GM AM worth ms written lf stats data = Ok (ms', out, size) ->
  exists sections header headerLength body k e, writeBlockHeader lf stats = Ok (sections, header, headerLength) /\
    encodeData PM GM AM worth sections data ms encInit = Ok (body, k, ms', e) /\
    absWrite48 (written ++ repeat 0%N 6 ++ header ++ body) ((N.of_nat (headerLength + k) + e_counter e) mod two64) (length written) = Ok out /\
    size = N.to_nat ((N.of_nat (headerLength + k) + e_counter e) mod two64 + 6).
Proof.
  intros ms written lf stats data ms' out size. unfold encodeBlock. intros H.
  apply bind_inv in H. destruct H as ([[sections header] headerLength] & E1 & H).
  apply bind_inv in H. destruct H as ([[[body k] ms1] e] & E2 & H). cbv zeta in H.
  apply bind_inv in H. destruct H as (out' & E3 & H). apply ok_inj in H. apply pair_equal_spec in H. destruct H as [H <-]. apply pair_equal_spec in H. destruct H as [<- <-].
  exists sections, header, headerLength, body, k, e. auto.
Qed.

Lemma write48_inv : forall written rest size out, absWrite48 (written ++ repeat 0%N 6 ++ rest) size (length written) = Ok out ->
  (size < 2 ^ 48)%N /\ out = written ++ bytes48 size ++ rest.
Proof.
  intros written rest size out. unfold absWrite48.
  destruct (N.ltb_spec size (2 ^ 48)) as [B|]; [|discriminate].
  destruct (length written + 6 <=? _); [|discriminate]. cbn [andb]. intros H. apply ok_inj in H. split; [exact B|]. subst out.
  rewrite firstn_app, firstn_all, Nat.sub_diag. cbn [firstn]. rewrite app_nil_r. f_equal. f_equal.
  rewrite skipn_app. rewrite skipn_all2 by lia. replace (length written + 6 - length written) with 6 by lia. reflexivity.
Qed.

Lemma decode_block : forall ms s c lf sections s1 data ms' s2, absDataEnding s = false -> readBlockHeader s = Ok (c, lf, sections, s1) ->
  decodeSections PM GM AM sections ms s1 = Ok (data, ms', s2) -> sumN sections = N.of_nat (length data) -> (sumN sections < two64)%N ->
  decodeBlock PM GM AM ms s = Ok (Some (lf, data, N.of_nat (length data)), ms', s2).
Proof.
  intros * E0 E1 E2 E3 E4. unfold decodeBlock. rewrite E0, E1. cbn [bind]. cbv zeta. rewrite E2. cbn [bind].
  rewrite fold_sum by (rewrite N.add_0_l; exact E4). rewrite N.add_0_l, E3, N.eqb_refl. reflexivity.
Qed.

Lemma block_sim : forall ms written lf stats data ms' out size, proper_block (2 ^ 30) lf stats data ->
  encodeBlock PM GM AM worth ms written lf stats data = Ok (ms', out, size) ->
  exists block, out = written ++ block /\ size = length block /\ are_bytes block /\ block <> [] /\
    forall following, decodeBlock PM GM AM ms (bytes_bits (block ++ following)) = Ok (Some (lf, data, N.of_nat (length data)), ms', bytes_bits following).
Proof.
  intros ms written lf stats data ms' out size (L1 & V & CO & SS & NE & AB & LN) H.
  apply block_parts in H. destruct H as (sections' & header' & hl & body & k & e & E1 & E2 & E3 & ->).
  assert (L2 : length stats <= 256) by (destruct CO as [CO _]; lia).
  assert (DP : (0 < N.of_nat (length data))%N) by (destruct data; [congruence|cbn [length]; lia]).
  assert (P30 : (2 ^ 30 = 1073741824)%N) by reflexivity. rewrite P30 in LN.
  destruct (C29_all lf stats L1 V L2) as (sections & header & A1 & A2 & A3 & A4 & A5 & A6).
  { rewrite SS. split; [exact DP|]. change (2 ^ 32)%N with 4294967296%N. lia. }
  rewrite A1 in E1. apply ok_inj in E1. apply pair_equal_spec in E1. destruct E1 as [E1 <-]. apply pair_equal_spec in E1. destruct E1 as [<- <-].
  assert (SB : Forall (fun x => x < 2 ^ 56)%N sections).
  { apply Forall_le_sum. rewrite A3, SS. change (2 ^ 56)%N with 72057594037927936%N. lia. }
  pose proof (header_length lf stats sections header (length header) L1 V SB A1) as HL.
  unfold encInit in E2. apply sections_sim in E2; [|exact A4|congruence|exact AB|rewrite P30; exact LN|reflexivity].
  destruct E2 as (B1 & B2 & (x & B3 & B4) & B5).
  assert (LB : (N.of_nat (length header + length body) < two64)%N).
  { assert (HH : (N.of_nat (length header) <= 4000)%N) by lia. assert (HS : (N.of_nat (length sections) <= 256)%N) by lia.
    rewrite Nat2N.inj_add. unfold two64. set (d := N.of_nat (length data)) in *.
    assert (DD : (d * d <= 1073741824 * 1073741824)%N) by (apply N.mul_le_mono; lia). rewrite <- N.mul_assoc in B2. clear - HH HS B2 DD LN. lia. }
  assert (SZ : ((N.of_nat (length header + k) + e_counter e) mod two64 = N.of_nat (length header + length body))%N).
  { rewrite B4, N.add_0_l, N.add_mod_idemp_r by discriminate. rewrite B3.
    replace (N.of_nat (length header + k) + N.of_nat x)%N with (N.of_nat (length header + length body)) by lia. rewrite <- B3. apply N.mod_small. exact LB. }
  rewrite SZ in *. apply write48_inv in E3. destruct E3 as [C48 ->].
  exists (bytes48 (N.of_nat (length header + length body)) ++ header ++ body). split; [reflexivity|].
  split; [rewrite !app_length, bytes48_length; lia|].
  split; [unfold are_bytes; rewrite !Forall_app; split; [apply bytes48_bytes|auto]|].
  split; [intros C; apply (f_equal (@length N)) in C; rewrite app_length, bytes48_length in C; cbn [length] in C; lia|].
  intros following. eapply decode_block; [| |apply B5|congruence|].
  - destruct (bytes_bits ((bytes48 _ ++ header ++ body) ++ following)) as [|b t] eqn:E; [|reflexivity].
    exfalso. apply (f_equal (@length bool)) in E. rewrite bytes_bits_length, !app_length, bytes48_length in E. cbn [length] in E. lia.
  - rewrite !app_assoc, <- (app_assoc (_ ++ header)), bytes_bits_app. rewrite A6 by exact C48. rewrite bytes_bits_app. reflexivity.
  - rewrite A3, SS. unfold two64. lia.
Qed.
End Coder.

Lemma integer_reset : forall s s', p_reset modelForIntegerCodes s = Ok s' -> p_reset modelForIntegerCodes s' = Ok s'.
Proof.
  cbn [modelForIntegerCodes FSM p_reset]. intros [cur states] s' H. cbn [snd] in H. apply bind_inv in H. destruct H as (states' & E & H). apply ok_inj in H. subst s'.
  cbn [snd]. assert (R : resetAll (UnbiasedPredictor 100 5 2048) states' = Ok states').
  { revert states' E. induction states as [|a states IH]; cbn [resetAll]; intros states' E; [injection E as <-; reflexivity|].
    cbn [UnbiasedPredictor p_reset bind] in E. apply bind_inv in E. destruct E as (t & E & H). apply ok_inj in H. subst states'.
    cbn [resetAll UnbiasedPredictor p_reset bind]. rewrite (IH _ E). reflexivity. }
  rewrite R. reflexivity.
Qed.

Lemma wavelet_correct : forall worth c, coder_correct (waveletCoder worth c) (2 ^ 30).
Proof.
  intros worth c st written lf stats data st' out n HP H. cbn [waveletCoder ec_encode ec_decode ec_state] in *.
  exact (block_sim _ _ _ integer_reset worth st written lf stats data st' out n HP H).
Qed.

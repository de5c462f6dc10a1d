(** When a block is coded. *)
From Coq Require Import List NArith Arith Bool Lia.
From Coq Require Import ZifyBool ZifyNat ZifyN.
From Verif Require Import Base Arrays SpecRuns SpecProb SpecHeaders ModelUtils ModelHeaders ModelRuns ModelHuffman ModelHuffmanCoder ModelStreams ModelBitCoder ModelProb ModelWavelet ModelFile SpecFile.
From Verif Require Import ProofUtils1 ProofUtils2 ProofUtils3 ProofRuns ProofHeaders ProofHuffCoder4 ProofBitCoder ProofProb.
From Verif Require Import ProofWav1 ProofWav2 ProofWav3 ProofWav4 ProofWav5 ProofWav7 ProofWav8 ProofWav9 ProofWav11 ProofWav12 ProofWav13 ProofWav14 ProofWav15 ProofWav16 ProofWav17 ProofWav18.
From Verif Require Import SpecChoice ProofWav21 ProofWav22 ProofWav23.
Import ListNotations.
Open Scope nat_scope.

Section Total.
Variables PM GM AM : predictor.
Variables (IP : p_state PM -> Prop) (IG : p_state GM -> Prop) (IA : p_state AM -> Prop).
Hypotheses (GP : good PM IP) (GG : good GM IG) (GA : good AM IA).
Variable worth : N -> N -> N -> bool.
Definition fine (ms : models PM GM AM) : Prop := let '(pm, gm, am) := ms in IP pm /\ IG gm /\ IA am.
Definition bound2 (n : N) : N := 190000 * n + 300000000.

Lemma section_join : forall ms e data w n packed bytes packedBytes shape calls ms1 e1 body ms',
    buildTree worth data = Ok w -> look (w_root w) [] = Some n -> packInteger (N.of_nat (length (bitVector n))) = Ok (packed, bytes) ->
    writePackedInteger packed = Ok packedBytes -> treeShape w = Ok shape -> encodeTreeBF PM GM AM (w_root w) ms = Ok (calls, ms1) ->
    encodeTrace e calls = Ok (e1, body) -> resetModels PM GM AM ms1 = Ok ms' ->
    encodeSection PM GM AM worth ms e data = Ok (packedBytes ++ writeShapeBytes shape ++ body ++ snd (encFinish e1), bytes + length (writeShapeBytes shape), ms', fst (encFinish e1)).
Proof.
  intros * E1 LK E2 E3 E4 E5 E6 E7. unfold encodeSection. rewrite E1. cbn [bind]. rewrite LK, E2. cbn [bind]. rewrite E3. cbn [bind]. rewrite E4. cbn [bind]. cbv zeta.
  rewrite E5. cbn [bind]. rewrite E6. cbn [bind]. rewrite E7. cbn [bind]. reflexivity.
Qed.

Lemma section_total : forall ms c data w, data <> [] -> are_bytes data -> (N.of_nat (length data) < 2 ^ 30)%N -> (c < two64)%N -> fine ms ->
  buildTree worth data = Ok w ->
  exists out k ms' c', encodeSection PM GM AM worth ms (mkEnc 0 4294967295 c) data = Ok (out, k, ms', mkEnc 0 4294967295 c') /\
    fine ms' /\ (c' < two64)%N /\ (N.of_nat (length out) <= bound2 (N.of_nat (length data)))%N /\
    exists x, length out = k + x /\ c' = ((c + N.of_nat x) mod two64)%N.
Proof.
  intros [[pm gm] am] c data w NE AB LN HC (HP & HG & HA) E1.
  assert (P30 : (2 ^ 30 < 2 ^ 31)%N) by reflexivity. assert (P31 : (2 ^ 31 < 2 ^ 32)%N) by reflexivity. assert (P32 : (2 ^ 32 < 2 ^ 56)%N) by reflexivity.
  destruct (build_spec worth data w NE AB ltac:(lia) E1) as (T0 & runs & ws & CL & L & HB).
  pose proof (b_runs _ _ _ _ _ _ _ HB) as RUNS. pose proof (b_tables _ _ _ _ _ _ _ HB) as TB.
  assert (RNE : runs <> []). { intros ->. destruct RUNS as [R _]. cbn in R. congruence. }
  destruct (root_size _ _ _ _ _ _ _ HB RNE) as (n & LK & LB).
  pose proof (word_count _ _ _ _ _ _ _ HB) as WC. assert (WL : length (wordsOf ws) = length ws) by apply map_length.
  destruct (pack_all (N.of_nat (length (wordsOf ws)))) as (packed & bytes & Q1 & Q2 & Q3 & _ & _ & Q4 & Q5 & Q6 & Q7); [lia|].
  assert (QB := pack_bytes (N.of_nat (length (wordsOf ws))) packed bytes ltac:(lia) Q1).
  destruct (shape_spec (w_root w) T0 (w_codes w) CL (w_intTree w) (w_intCodes w) L (w_W w) TB (b_W _ _ _ _ _ _ _ HB)) as (shape & E2 & _).
  { intros x Hx. destruct (b_values _ _ _ _ _ _ _ HB _ Hx) as [V _]. lia. }
  { pose proof (b_count _ _ _ _ _ _ _ HB). lia. }
  assert (EW : mkWavelet (w_root w) (w_codes w) (w_intTree w) (w_intCodes w) (w_W w) = w) by (destruct w; reflexivity). rewrite EW in E2.
  pose proof (shape_size2 _ _ _ _ _ _ _ HB LN shape E2) as SZ.
  destruct (writeShape_spec shape) as (pad & S1 & S2 & S3).
  assert (S4 : 8 * length (writeShapeBytes shape) = length shape + pad).
  { apply (f_equal (@length bool)) in S3. rewrite bytes_bits_length, app_length, repeat_length in S3. exact S3. }
  destruct (tree_total PM GM AM IP IG IA GP GG GA _ _ _ _ _ _ _ HB RNE pm gm am HP HG HA) as (calls & pm1 & gm1 & am1 & E3 & HP1 & HG1 & HA1 & CD).
  pose proof (calls_count2 _ _ _ _ _ _ _ HB LN _ _ _ _ _ _ E3) as CC.
  destruct (dec_ready_start c calls [] HC CD) as (fin & bs & D1 & D2 & D3 & D4 & D5 & _).
  destruct (good_reset PM IP pm1 GP HP1) as (pm2 & R1 & HP2). destruct (good_reset GM IG gm1 GG HG1) as (gm2 & R2 & HG2). destruct (good_reset AM IA am1 GA HA1) as (am2 & R3 & HA2).
  pose proof (reset_join PM GM AM pm1 gm1 am1 pm2 gm2 am2 R1 R2 R3) as RM.
  rewrite <- LB in Q1.
  assert (FL : length (snd (encFinish fin)) = 4) by reflexivity.
  assert (FC : fst (encFinish fin) = mkEnc 0 4294967295 ((e_counter fin + 4) mod two64)) by reflexivity.
  pose proof (section_join (pm, gm, am) (mkEnc 0 4294967295 c) data w n packed bytes _ shape calls (pm1, gm1, am1) fin bs (pm2, gm2, am2) E1 LK Q1 Q6 E2 E3 D1 RM) as E.
  rewrite FC in E. eexists _, _, _, _. split; [exact E|]. split; [cbn [fine]; auto|]. split; [apply N.mod_lt; discriminate|].
  rewrite !app_length, Q4, FL. split.
  - unfold bound2. clear - SZ S4 S1 CC D4 QB. lia.
  - exists (length bs + 4). split; [lia|]. rewrite D5, N.add_mod_idemp_l by (unfold two64; lia). f_equal. lia.
Qed.

(** The consecutive pieces of [data] with the lengths [sections]. *)
Lemma section_UB : forall ms e data, buildTree worth data = UB -> encodeSection PM GM AM worth ms e data = UB.
Proof. intros ms e data E. unfold encodeSection. rewrite E. reflexivity. Qed.

Definition stops (piece : list N) : Prop := exists runs, is_runs_of piece runs /\ cannotChoose worth runs.
Lemma build_cases : forall piece, piece <> [] -> are_bytes piece -> (N.of_nat (length piece) < 2 ^ 30)%N ->
  (buildTree worth piece = UB /\ ~ ~ stops piece) \/ (exists w, buildTree worth piece = Ok w) /\ ~ stops piece.
Proof.
  intros piece NE AB LN. assert (P30 : (2 ^ 30 < 2 ^ 31)%N) by reflexivity.
  destruct (run_counters_all (fun _ => 0%N) (fun _ => 0%N) piece NE) as (runs & _ & _ & _ & IR & _).
  destruct (build_total worth piece runs NE AB ltac:(lia) IR) as [B1 B2].
  assert (ST : stops piece <-> cannotChoose worth runs).
  { split; [intros (r & H1 & H2); rewrite (is_runs_of_unique _ _ _ IR H1); exact H2|intros H; exists runs; auto]. }
  destruct (buildTree worth piece) as [w| |] eqn:E.
  - right. split; [eauto|]. intros C. apply ST, B1 in C. discriminate.
  - left. split; [reflexivity|]. intros C. assert (C2 : ~ cannotChoose worth runs) by (intros X; apply C, ST, X). destruct (B2 C2) as (w & X). discriminate.
  - exfalso. assert (C : ~ cannotChoose worth runs) by (intros X; apply B1 in X; discriminate). destruct (B2 C) as (w & X). discriminate.
Qed.

Lemma data_total : forall sections data ms c, Forall (fun x => 0 < x)%N sections -> sumN sections = N.of_nat (length data) -> are_bytes data ->
  (N.of_nat (length data) < 2 ^ 30)%N -> (c < two64)%N -> fine ms ->
  (Exists stops (pieces sections data) -> encodeData PM GM AM worth sections data ms (mkEnc 0 4294967295 c) = UB) /\
  (~ Exists stops (pieces sections data) -> exists out k ms' c', encodeData PM GM AM worth sections data ms (mkEnc 0 4294967295 c) = Ok (out, k, ms', mkEnc 0 4294967295 c') /\
     fine ms' /\ (N.of_nat (length out) <= 190000 * N.of_nat (length data) + 300000000 * N.of_nat (length sections))%N /\
     exists x, length out = k + x /\ c' = ((c + N.of_nat x) mod two64)%N).
Proof.
  induction sections as [|n r IH]; intros data ms c P S AB LN HC HM.
  - split; [intros H; inversion H|]. intros _. cbn in S. destruct data; [|cbn [length] in S; lia]. exists [], 0, ms, c. split; [reflexivity|]. split; [exact HM|].
    split; [cbn [length]; lia|]. exists 0. split; [reflexivity|]. rewrite N.add_0_r, N.mod_small by exact HC. reflexivity.
  - inversion_clear P as [|? ? P1 P2]. unfold sumN in S. cbn [fold_right] in S. fold (sumN r) in S.
    assert (LF : length (firstn (N.to_nat n) data) = N.to_nat n) by (apply firstn_length_le; lia).
    assert (LS : length (skipn (N.to_nat n) data) = length data - N.to_nat n) by apply skipn_length.
    rewrite <- (firstn_skipn (N.to_nat n) data) in AB. apply Forall_app in AB. destruct AB as [AB1 AB2].
    assert (NE : firstn (N.to_nat n) data <> []) by (intros C; rewrite C in LF; cbn [length] in LF; lia).
    cbn [pieces encodeData]. replace (n =? 0)%N with false by lia. destruct (Nat.ltb_spec (length data) (N.to_nat n)) as [|_]; [lia|].
    destruct (build_cases (firstn (N.to_nat n) data) NE AB1 ltac:(lia)) as [(E & ST)|((w & E) & ST)].
    + rewrite (section_UB ms _ _ E). split; [reflexivity|]. intros C. exfalso. apply ST. intros X. apply C. left. exact X.
    + destruct (section_total ms c _ w NE AB1 ltac:(lia) HC HM E) as (out1 & k1 & ms1 & c1 & E1 & HM1 & HC1 & B1 & x & X1 & X2).
      rewrite E1. cbn [bind]. destruct (IH (skipn (N.to_nat n) data) ms1 c1 P2 ltac:(lia) AB2 ltac:(lia) HC1 HM1) as [I1 I2].
      split.
      * intros C. inversion_clear C as [? ? C1|? ? C2]; [contradiction|]. rewrite (I1 C2). reflexivity.
      * intros C. destruct I2 as (out2 & k2 & ms2 & c2 & E2 & HM2 & B2 & y & Y1 & Y2); [intros X; apply C; right; exact X|].
        rewrite E2. cbn [bind]. eexists _, _, _, _. split; [reflexivity|]. split; [exact HM2|]. rewrite app_length. cbn [length]. unfold bound2 in B1. split; [lia|].
        exists (x + y). split; [lia|]. rewrite Y2, X2, N.add_mod_idemp_l by discriminate. f_equal. lia.
Qed.

Lemma block_total : forall ms written lf stats data sections header n, proper_block (2 ^ 30) lf stats data -> fine ms ->
  writeBlockHeader lf stats = Ok (sections, header, n) ->
  (Exists stops (pieces sections data) -> encodeBlock PM GM AM worth ms written lf stats data = UB) /\
  (~ Exists stops (pieces sections data) -> exists ms' out size, encodeBlock PM GM AM worth ms written lf stats data = Ok (ms', out, size) /\ fine ms').
Proof.
  intros ms written lf stats data sections header n (L1 & V & CO & SS & NE & AB & LN) HM E1.
  assert (L2 : length stats <= 256) by (destruct CO as [CO _]; lia).
  assert (DP : (0 < N.of_nat (length data))%N) by (destruct data; [congruence|cbn [length]; lia]).
  assert (P30 : (2 ^ 30 = 1073741824)%N) by reflexivity.
  destruct (C29_all lf stats L1 V L2) as (sections' & header' & A1 & A2 & A3 & A4 & A5 & A6).
  { rewrite SS. split; [exact DP|]. change (2 ^ 32)%N with 4294967296%N. lia. }
  rewrite A1 in E1. apply ok_inj in E1. apply pair_equal_spec in E1. destruct E1 as [E1 <-]. apply pair_equal_spec in E1. destruct E1 as [-> ->].
  assert (SB : Forall (fun x => x < 2 ^ 56)%N sections).
  { apply Forall_le_sum. rewrite A3, SS. change (2 ^ 56)%N with 72057594037927936%N. lia. }
  pose proof (header_length lf stats sections header (length header) L1 V SB A1) as HL.
  destruct (data_total sections data ms 0 A4 ltac:(congruence) AB LN ltac:(reflexivity) HM) as [D1 D2].
  unfold encodeBlock. rewrite A1. cbn [bind]. unfold encInit. split.
  - intros C. rewrite (D1 C). reflexivity.
  - intros C. destruct (D2 C) as (out & k & ms' & c' & E2 & HM' & B & x & X1 & X2). rewrite E2. cbn [bind]. cbv zeta. cbn [e_counter].
    assert (SZ : ((N.of_nat (length header + k) + c') mod two64 = N.of_nat (length header + length out))%N).
    { rewrite X2, N.add_0_l, N.add_mod_idemp_r by discriminate. rewrite X1.
      replace (N.of_nat (length header + k) + N.of_nat x)%N with (N.of_nat (length header + (k + x))) by lia. apply N.mod_small.
      rewrite <- X1. unfold two64. lia. }
    rewrite SZ. unfold absWrite48.
    assert (BB : (N.of_nat (length header + length out) < 2 ^ 48)%N) by (change (2 ^ 48)%N with 281474976710656%N; lia).
    destruct (N.ltb_spec (N.of_nat (length header + length out)) (2 ^ 48)) as [_|]; [|lia].
    destruct (Nat.leb_spec (length written + 6) (length (written ++ repeat 0%N 6 ++ header ++ out))) as [_|C2]; [|rewrite !app_length, repeat_length in C2; lia].
    cbn [andb bind]. eexists _, _, _. split; [reflexivity|exact HM'].
Qed.
End Total.

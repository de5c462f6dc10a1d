(** Huffman block: round trip of a section and of a block. *)
From Coq Require Import List NArith ZArith Lia Arith Bool Permutation.
From Coq Require Import ZifyBool ZifyNat ZifyN.
From Verif Require Import Base Arrays ModelUtils ModelRuns SpecRuns ModelStreams ModelHeaders ModelHuffman ModelHuffmanCoder SpecHuffman SpecHeaders.
From Verif Require Import ProofUtils1 ProofUtils2 ProofUtils3 ProofRuns ProofStreams2 ProofHeaders.
From Verif Require Import ProofStreams1.
From Verif Require Import ProofHuffman5 ProofHuffman6 ProofHuffman7 ProofHuffCoder1 ProofHuffCoder2 ProofHuffCoder3.
Import ListNotations.
Open Scope nat_scope.

Lemma unaryLengths_length : forall clen maxLen symbols bits, unaryLengths clen maxLen symbols = Ok bits ->
  (maxLen < 128)%N -> Forall (fun l => l <= maxLen)%N clen -> length bits <= 129 * length symbols.
Proof.
  intros clen maxLen. induction symbols as [|s r IH]; intros bits H M F; cbn [unaryLengths] in H.
  - injection H as <-. cbn. lia.
  - destruct (get clen (N.to_nat s)) as [l| |] eqn:G; cbn [bind] in H; try discriminate.
    destruct (unaryLengths clen maxLen r) as [b| |] eqn:U; cbn [bind] in H; try discriminate.
    injection H as <-. specialize (IH b eq_refl M F). apply get_inv in G. apply nth_error_In in G.
    rewrite Forall_forall in F. specialize (F l G). rewrite app_length, unaryCode_length.
    + cbn [length]. lia.
    + lia.
Qed.

Lemma shape_length : forall clen bits, length clen = 256 -> Forall (fun l => l < 128)%N clen ->
  serializeShape clen = Ok bits -> length bits <= 100 * 500.
Proof.
  intros clen bits L F H. unfold serializeShape in H.
  destruct (rev (usedSymbols clen)) as [|back t]; [discriminate|].
  pose proof (maxLength_lt clen 128 ltac:(lia) F) as ML.
  rewrite pack_small in H by exact ML. cbn [bind] in H.
  destruct (binaryInterpolativeCode _ _ _) as [i| |] eqn:I; cbn [bind] in H; try discriminate.
  destruct (unaryLengths _ _ _) as [u| |] eqn:U; cbn [bind] in H; try discriminate.
  apply (f_equal (fun o => match o with Ok b => b | _ => [] end)) in H. cbn beta iota in H. rewrite <- H. clear H bits.
  apply interpCode_length in I. apply unaryLengths_length in U; [|exact ML|apply maxLength_spec].
  assert (LS : length (usedSymbols clen) <= 256) by (rewrite <- L; apply (usedFrom_length clen 0)).
  rewrite !app_length, !pushBits_be, !be_bits_length. lia.
Qed.

Lemma packed_size : forall codes out pad, Forall (fun p : nat * N => fst p <= 57 /\ (snd p < 2 ^ N.of_nat (fst p))%N) codes ->
  bytes_bits out = codeBits codes ++ repeat false pad -> pad < 8 -> length out <= 8 * length codes + 1.
Proof.
  intros codes out pad F E P. apply (f_equal (@length bool)) in E. rewrite bytes_bits_length, app_length, repeat_length in E.
  assert (K : length (codeBits codes) <= 57 * length codes).
  { clear -F. induction F as [|[l v] r [H _] F IH]; [cbn; lia|]. cbn [codeBits flat_map fst snd length] in *. fold (codeBits r) in *.
    rewrite app_length, be_bits_length. lia. }
  lia.
Qed.

Lemma section_spec : forall data, data <> [] -> are_bytes data -> (N.of_nat (length data) < 2 ^ 31)%N -> shortRuns data ->
  exists out, encodeSection data = Ok (out, length out) /\ are_bytes out /\ length out <= 16 * length data + (100 * 600) /\
    forall bs following, (N.of_nat (length data) <= bs)%N ->
      decodeSection bs (bytes_bits out ++ bytes_bits following) = Ok (data, bytes_bits following).
Proof.
  intros data NE AB LN SR.
  destruct (store_runs_all (fun _ => 0%N) data NE) as (runs & freqs & R1 & (R2 & R3 & R4) & R5).
  destruct (runs_short runs R4) as [RS RL]. { rewrite R2. exact SR. }
  rewrite R2 in RL.
  assert (RNE : runs <> []) by (intros ->; cbn in R2; congruence).
  assert (RC : Forall (fun c => c < 256)%N (map fst runs)).
  { apply Forall_forall. intros c Hc. unfold are_bytes in AB. rewrite Forall_forall in AB. apply AB. rewrite <- R2. apply expand_in; assumption. }
  set (F := countersArray freqs).
  assert (FL : length F = 256) by (unfold F, countersArray; rewrite map_length; apply fromTo_length).
  assert (FN : forall c, (c < 256)%N -> nth_error F (N.to_nat c) = Some (freqs c)).
  { intros c Hc. unfold F, countersArray. erewrite map_nth_error; [reflexivity|]. rewrite fromTo_nth by lia. f_equal. lia. }
  assert (FS : (sumN F < 2 ^ 31)%N).
  { pose proof (counts_bound 256 0 (map fst runs)) as B. rewrite map_length in B.
    unfold F, countersArray. erewrite map_ext; [|exact R5]. cbn [N.add]. eapply N.le_lt_trans; [exact B|]. lia. }
  assert (OCC : forall c, In c (map fst runs) -> occurs F c).
  { intros c Hc. exists (freqs c). rewrite Forall_forall in RC. split; [apply FN, RC, Hc|].
    rewrite R5. pose proof (proj1 (count_occ_In N.eq_dec (map fst runs) c) Hc). lia. }
  assert (FE : Exists (fun f => 0 < f)%N F).
  { destruct runs as [|[c n] runs]; [congruence|]. destruct (OCC c (or_introl eq_refl)) as (f & Hf & Pf).
    apply Exists_exists. exists f. split; [eapply nth_error_In; exact Hf|exact Pf]. }
  destruct (codeTable_lens F FL FE FS) as (lens & clen & L1 & L2 & L3 & L4 & L5 & L6 & L7).
  assert (L128 : Forall (fun l => l < 128)%N clen) by (eapply Forall_impl; [|exact L5]; cbn beta; intros; lia).
  assert (L256 : Forall (fun l => l < 256)%N clen) by (eapply Forall_impl; [|exact L5]; cbn beta; intros; lia).
  destruct (pack_all (N.of_nat (length runs))) as (packed & bytes & P1 & P2 & P3 & _ & _ & P4 & P5 & P6 & P7).
  { eapply N.le_lt_trans with (m := N.of_nat (length data)); [lia|]. eapply N.lt_trans; [exact LN|]. reflexivity. }
  destruct (C12_all clen L3 L6 L128) as (shape & S1 & S2 & S3).
  pose proof (shape_length clen shape L3 L128 S1) as S4.
  destruct (writeShape_spec shape) as (spad & S5 & _ & S6).
  assert (S7 : length (writeShapeBytes shape) <= 100 * 63).
  { apply (f_equal (@length bool)) in S6. rewrite bytes_bits_length, app_length, repeat_length in S6. lia. }
  destruct (canonical_all clen L3 L256 L4) as (code & C1 & C2 & C3 & C4).
  pose proof (zero_code clen code L3 L256 L4 L6 C1) as HZ.
  assert (HC : forall i l c, nth_error clen i = Some l -> nth_error code i = Some c ->
    (c < 256)%N /\ (l <= 50)%N /\ ((0 < l)%N -> (c < 2 ^ l)%N)).
  { intros i l c Hl Hc. destruct (C3 i l c Hl Hc) as (_ & X & Y). split; [exact X|]. split; [|exact Y].
    apply nth_error_In in Hl. rewrite Forall_forall in L5. specialize (L5 l Hl). lia. }
  assert (HP : forall i j li lj ci cj, nth_error clen i = Some li -> nth_error clen j = Some lj ->
    nth_error code i = Some ci -> nth_error code j = Some cj -> (0 < li)%N -> (0 < lj)%N ->
    i <> j -> ~ is_prefix (be_bits (N.to_nat li) ci) (be_bits (N.to_nat lj) cj)).
  { intros i j li lj ci cj H1 H2 H3 H4 H5 H6. exact (proj1 (C4 i j li lj ci cj H1 H2 H3 H4 H5 H6)). }
  destruct (symbolCodes_spec clen code (map fst runs) L3 C2) as (cs & D1 & D2 & D3 & D4).
  { intros i l c Hl Hc. destruct (HC i l c Hl Hc) as (_ & _ & Y). split; [|exact Y].
    apply nth_error_In in Hl. rewrite Forall_forall in L5. exact (L5 l Hl). }
  { apply Forall_forall. intros c Hc. apply L7, OCC, Hc. }
  destruct (packCodes_spec cs 0 0 ltac:(lia) D3) as (body & pad & E1 & E2 & E3 & E4). cbn [be_bits app] in E4.
  destruct (gamma_spec (map snd runs) RS) as (gs & G1 & G2 & G3 & G4).
  destruct (packCodes_spec gs 0 0 ltac:(lia) G3) as (lengths & pad2 & H1 & H2 & H3 & H4). cbn [be_bits app] in H4.
  exists (lowBytes bytes packed ++ writeShapeBytes shape ++ body ++ lengths).
  assert (ENC : encodeSection data = Ok (lowBytes bytes packed ++ writeShapeBytes shape ++ body ++ lengths,
      bytes + length (writeShapeBytes shape) + length body + length lengths)).
  { unfold encodeSection. rewrite R1. cbn [bind]. fold F. rewrite L1. cbn [bind]. rewrite L2. cbn [bind]. rewrite P1. cbn [bind].
    rewrite P6. cbn [bind]. rewrite S1. cbn [bind]. rewrite C1. cbn [bind]. rewrite D1. cbn [bind]. rewrite E1. cbn [bind].
    rewrite G1. cbn [bind]. rewrite H1. cbn [bind]. reflexivity. }
  split; [rewrite ENC; rewrite !app_length, P4; do 2 f_equal; lia|].
  split; [unfold are_bytes in *; rewrite !Forall_app; auto|].
  rewrite map_length in D2, G2.
  pose proof (packed_size cs body pad D3 E4 E3). pose proof (packed_size gs lengths pad2 G3 H4 H3).
  split; [rewrite !app_length, P4; lia|].
  intros bs following BS.
  unfold decodeSection. rewrite !bytes_bits_app, <- !app_assoc.
  rewrite (proj2 (P7 _)). cbn [bind]. rewrite P2. cbn [bind].
  rewrite <- !bytes_bits_app. rewrite bytes_bits_app, S3. cbn [bind]. rewrite C1. cbn [bind].
  destruct (filled_empty clen code L3 C2 HC HP 0 0%N) as [T1 T2].
  destruct (fillTable_spec clen code L3 C2 HC HP 0 0%N clen code 0 emptyTable eq_refl eq_refl ltac:(lia) ltac:(lia) ltac:(lia) T1 T2) as (t & T3 & T4 & T5).
  change (N.of_nat 0) with 0%N in T3. rewrite T3. cbn [bind].
  destruct (zeroCode clen code 0 (0, 0%N)) as [len0 code0] eqn:Z0.
  replace (bs <? N.of_nat (length runs))%N with false by lia.
  rewrite Nat2N.id.
  rewrite !bytes_bits_app. rewrite E4.
  assert (DL : decodeLoop (S (length ((codeBits cs ++ repeat false pad) ++ bytes_bits lengths ++ bytes_bits following))) t len0 code0
    (length (map fst runs)) (0%N, 0, 0) ((codeBits cs ++ repeat false pad) ++ bytes_bits lengths ++ bytes_bits following) =
    Ok (map fst runs, bytes_bits lengths ++ bytes_bits following)).
  { apply (decodeLoop_spec clen code L3 C2 HC HP HZ len0 code0 Z0 t T5) with (P := []) (bits := codeBits cs) (pad := pad); [|lia|exact E3|].
    - split; [|split; [change (length (@nil bool)) with 0; clear; lia|split]].
      + split; [|split; [exact D4|rewrite <- app_assoc; reflexivity]]. repeat split; auto; lia.
      + rewrite <- E4, <- !bytes_bits_app, bytes_bits_length, Nat.mul_comm. apply Nat.mod_mul. lia.
      + right. cbn [snd]. pose proof (len0_range clen code L3 C2 HC HP HZ len0 code0 Z0). split; [lia|].
        intros k w Wk [a E]. pose proof (W_len clen code L3 C2 HC k w Wk). destruct w; [cbn [length] in *; lia|discriminate].
    - rewrite <- bytes_bits_app, bytes_bits_length, Nat.mul_comm. apply Nat.mod_mul. lia. }
  rewrite map_length in DL. rewrite DL. cbn [bind].
  rewrite <- bytes_bits_app, flush_bytes, bytes_bits_app, H4, <- app_assoc.
  specialize (G4 (repeat false pad2 ++ bytes_bits following)). rewrite map_length in G4. rewrite G4. cbn [bind].
  rewrite flush_pad by exact H3. rewrite expandRuns_expand, R2. reflexivity.
Qed.

(** ** Sections *)
Lemma sections_spec : forall sections data bs, Forall (fun x => 0 < x)%N sections -> sumN sections = N.of_nat (length data) ->
  are_bytes data -> (N.of_nat (length data) < 2 ^ 31)%N -> shortRuns data -> (N.of_nat (length data) <= bs)%N ->
  exists out, encodeData sections data = Ok (out, length out) /\ are_bytes out /\
    length out <= 16 * length data + (100 * 600) * length sections /\
    forall following, decodeSections bs sections (bytes_bits out ++ bytes_bits following) = Ok (data, bytes_bits following).
Proof.
  induction sections as [|n r IH]; intros data bs P S AB LN SR BS.
  - cbn in S. destruct data; [|cbn [length] in S; lia]. exists []. repeat split; auto.
  - inversion_clear P as [|? ? P1 P2]. unfold sumN in S. cbn [fold_right] in S. fold (sumN r) in S.
    set (k := N.to_nat n). assert (K : 0 < k <= length data) by lia.
    rewrite <- (firstn_skipn k data) in SR, AB. apply Forall_app in AB. destruct AB as [AB1 AB2].
    assert (LF : length (firstn k data) = k) by (apply firstn_length_le; lia).
    assert (LS : length (skipn k data) = length data - k) by apply skipn_length.
    destruct (section_spec (firstn k data)) as (o1 & A1 & A2 & A3 & A4).
    { intros E. rewrite E in LF. cbn [length] in LF. lia. } { exact AB1. } { lia. }
    { apply (shortRuns_sub [] (firstn k data) (skipn k data)). exact SR. }
    destruct (IH (skipn k data) bs) as (o2 & B1 & B2 & B3 & B4).
    { exact P2. } { lia. } { exact AB2. } { lia. }
    { apply (shortRuns_sub (firstn k data) (skipn k data) []). rewrite app_nil_r. exact SR. } { lia. }
    exists (o1 ++ o2). cbn [encodeData]. replace (n =? 0)%N with false by lia. fold k.
    replace (length data <? k) with false by lia. rewrite A1. cbn [bind]. rewrite B1. cbn [bind].
    split; [rewrite app_length; reflexivity|]. split; [apply Forall_app; auto|]. split; [rewrite app_length; cbn [length]; lia|].
    intros following. cbn [decodeSections]. replace (n =? 0)%N with false by lia.
    rewrite bytes_bits_app, <- app_assoc, <- bytes_bits_app. rewrite A4 by lia. cbn [bind].
    rewrite bytes_bits_app, B4. cbn [bind]. rewrite firstn_skipn. reflexivity.
Qed.

Lemma writeLengths_length : forall l ls n, Forall (fun x => x < 2 ^ 56)%N l -> writeLengths l = Ok (ls, n) -> n <= 8 * length l.
Proof.
  induction l as [|x l IH]; intros ls n F H; cbn [writeLengths] in H; [injection H as <- <-; lia|].
  inversion_clear F as [|? ? F1 F2]. destruct (pack_all x F1) as (packed & bytes & P1 & _ & P3 & _ & _ & _ & _ & P6 & _).
  rewrite P1 in H. cbn [bind] in H. rewrite P6 in H. cbn [bind] in H.
  destruct (writeLengths l) as [[ws m]| |]; cbn [bind] in H; try discriminate. injection H as <- <-.
  specialize (IH ws m F2 eq_refl). cbn [length]. lia.
Qed.
Lemma header_length : forall lf stats sections out n, 1 <= length lf <= 256 -> Forall (fun v => v < 2 ^ 31)%N lf ->
  Forall (fun x => x < 2 ^ 56)%N sections -> writeBlockHeader lf stats = Ok (sections, out, n) -> n <= 4 * 1000.
Proof.
  intros lf stats sections out n L V F H. destruct (C24_all lf L V) as (h & hn & H1 & _ & H3 & _).
  unfold writeBlockHeader in H. rewrite H1 in H. destruct (Nat.leb_spec (length (deduceSections stats)) 256) as [K|]; [|discriminate].
  destruct (writeLengths (deduceSections stats)) as [[ls m]| |] eqn:W; cbn [bind] in H; try discriminate.
  injection H as <- <- <-. apply writeLengths_length in W; [|exact F].
  assert ((31 * length lf + 7) / 8 <= 1000).
  { apply Nat.div_le_upper_bound; lia. }
  lia.
Qed.

Lemma fold_sum : forall l a, (a + sumN l < two64)%N -> fold_left (fun a x => (a + x) mod two64)%N l a = (a + sumN l)%N.
Proof.
  induction l as [|x l IH]; intros a H; unfold sumN in *; cbn [fold_left fold_right] in *; [lia|].
  rewrite N.mod_small by lia. rewrite IH by lia. lia.
Qed.

Lemma bytes48_length : forall v, length (bytes48 v) = 6.
Proof. intros v. rewrite bytes48_spec. reflexivity. Qed.

Lemma C13_all : forall written lf stats data following,
  1 <= length lf <= 256 -> Forall (fun v => v < 2 ^ 31)%N lf ->
  length stats <= 256 -> sumN stats = N.of_nat (length data) ->
  data <> [] -> are_bytes data -> (N.of_nat (length data) < 2 ^ 31)%N -> shortRuns data ->
  exists block, encodeBlock written lf stats data = Ok (written ++ block, length block) /\ are_bytes block /\
    decodeBlock (bytes_bits (block ++ following)) = Ok (Some (lf, data, N.of_nat (length data)), bytes_bits following).
Proof.
  intros written lf stats data following L1 V L2 SS NE AB LN SR.
  assert (DP : (0 < N.of_nat (length data))%N) by (destruct data; [congruence|cbn [length]; lia]).
  destruct (C29_all lf stats L1 V L2) as (sections & header & A1 & A2 & A3 & A4 & A5 & A6).
  { rewrite SS. split; [exact DP|]. eapply N.lt_trans; [exact LN|]. reflexivity. }
  destruct (sections_spec sections data (N.of_nat (length data)) A4 ltac:(congruence) AB LN SR ltac:(lia)) as (body & B1 & B2 & B3 & B4).
  pose proof (header_length lf stats sections header (length header) L1 V) as HL.
  assert (SB : Forall (fun x => x < 2 ^ 56)%N sections).
  { apply Forall_le_sum. rewrite A3, SS. eapply N.lt_trans; [exact LN|]. reflexivity. }
  specialize (HL SB A1).
  assert (C48 : (N.of_nat (length header + length body) < 2 ^ 48)%N).
  { assert (2 ^ 31 * 64 < 2 ^ 48)%N by reflexivity. assert (2 ^ 31 = 2147483648)%N by reflexivity. lia. }
  exists (bytes48 (N.of_nat (length header + length body)) ++ header ++ body). split; [|split].
  - unfold encodeBlock. rewrite A1. cbn [bind]. rewrite B1. cbn [bind]. unfold absWrite48.
    replace ((N.of_nat (length header + length body) <? 2 ^ 48)%N) with true by lia.
    replace (length written + 6 <=? length (written ++ repeat 0%N 6 ++ header ++ body)) with true
      by (rewrite !app_length, repeat_length; lia).
    cbn [andb bind]. f_equal. f_equal.
    + rewrite firstn_app, firstn_all, Nat.sub_diag. cbn [firstn]. rewrite app_nil_r. f_equal. f_equal.
      rewrite skipn_app. rewrite skipn_all2 by lia. replace (length written + 6 - length written) with 6 by lia. reflexivity.
    + rewrite !app_length, bytes48_length. lia.
  - unfold are_bytes. rewrite !Forall_app. split; [apply bytes48_bytes|auto].
  - unfold decodeBlock.
    assert (ND : absDataEnding (bytes_bits ((bytes48 (N.of_nat (length header + length body)) ++ header ++ body) ++ following)) = false).
    { destruct (bytes_bits ((bytes48 _ ++ header ++ body) ++ following)) as [|x t] eqn:E; [|reflexivity].
      exfalso. apply (f_equal (@length bool)) in E. rewrite bytes_bits_length, !app_length, bytes48_length in E. cbn [length] in E. lia. }
    rewrite ND. rewrite !app_assoc, <- (app_assoc (_ ++ header)), bytes_bits_app. rewrite A6 by exact C48. cbn [bind].
    rewrite fold_sum by (rewrite A3, SS, N.add_0_l; eapply N.lt_trans; [exact LN|]; reflexivity).
    rewrite A3, SS, N.add_0_l. rewrite bytes_bits_app, B4. reflexivity.
Qed.

(** ** Long runs *)
(** A run length of at least 2^29 has a gamma code of at least 59 bits; when 6 or 7 bits
    are pending in the buffer the counter becomes negative. *)
Lemma runs_unique : forall r1 r2, Forall (fun r : N * nat => 1 <= snd r) r1 -> Forall (fun r : N * nat => 1 <= snd r) r2 ->
  neighbours_differ r1 -> neighbours_differ r2 -> expand r1 = expand r2 -> r1 = r2.
Proof.
  assert (HD : forall r c l, Forall (fun r : N * nat => 1 <= snd r) r -> expand r = c :: l ->
    exists n t, r = (c, S n) :: t).
  { intros [|[d [|n]] t] c l F E; [discriminate|inversion_clear F as [|? ? F1 F2]; cbn in F1; lia|].
    cbn [expand flat_map fst snd repeat app] in E. injection E as <- _. exists n, t. reflexivity. }
  assert (ND : forall c n t m l, neighbours_differ ((c, n) :: t) -> Forall (fun r : N * nat => 1 <= snd r) t ->
    expand t = repeat c m ++ l -> m = 0).
  { intros c n t [|m] l N F E; [reflexivity|exfalso]. cbn [repeat app] in E.
    destruct (HD _ _ _ F E) as (k & t' & ->). destruct N as [N _]. cbn [fst] in N. congruence. }
  induction r1 as [|[c n] r1 IH]; intros r2 F1 F2 N1 N2 E.
  - destruct r2 as [|[d m] r2]; [reflexivity|]. inversion_clear F2 as [|? ? Q _]. cbn [snd] in Q. destruct m; [lia|discriminate].
  - inversion_clear F1 as [|? ? A B]. cbn [snd] in A. destruct n as [|n]; [lia|].
    cbn [expand flat_map fst snd repeat app] in E. fold (expand r1) in E. symmetry in E.
    destruct (HD _ _ _ F2 E) as (m & t & ->). inversion_clear F2 as [|? ? C D].
    cbn [expand flat_map fst snd repeat app] in E. fold (expand t) in E. injection E as E.
    assert (n = m) as <-.
    { destruct (lt_eq_lt_dec n m) as [[L|L]|L]; [exfalso|exact L|exfalso].
      - replace m with (n + (m - n)) in E by lia. rewrite repeat_app, <- app_assoc in E. apply app_inv_head in E.
        symmetry in E. apply (ND c (S n) r1 (m - n)) in E; [lia|exact N1|exact B].
      - replace n with (m + (n - m)) in E by lia. rewrite repeat_app, <- app_assoc in E. apply app_inv_head in E.
        apply (ND c (S m) t (n - m)) in E; [lia|exact N2|exact D]. }
    apply app_inv_head in E. f_equal. apply IH; auto.
    + destruct r1; [exact I|]. apply N1.
    + destruct t; [exact I|]. apply N2.
Qed.

Definition longRun : list N := repeat 0%N 8 ++ repeat 1%N (N.to_nat (2 ^ 29)).
Lemma drain_ub : forall b, drain 7 59 b = UB.
Proof. reflexivity. Qed.
Lemma long_run_ub : encodeSection longRun = UB.
Proof.
  set (M := N.to_nat (2 ^ 29)). assert (MN : N.of_nat M = (2 ^ 29)%N) by (unfold M; apply N2Nat.id).
  assert (MP : 1 <= M) by lia. unfold longRun. fold M. clearbody M.
  assert (NE : repeat 0%N 8 ++ repeat 1%N M <> []) by discriminate.
  destruct (store_runs_all (fun _ => 0%N) _ NE) as (runs & freqs & R1 & (R2 & R3 & R4) & R5).
  assert (R : runs = [(0%N, 8); (1%N, M)]).
  { apply runs_unique; auto.
    - repeat constructor. exact MP.
    - cbn. split; [discriminate|exact I].
    - rewrite R2. cbn [expand flat_map fst snd]. rewrite app_nil_r. reflexivity. }
  subst runs. unfold encodeSection. rewrite R1. cbn [bind]. cbn [map fst snd length] in R5 |- *.
  assert (F : countersArray freqs = 1%N :: 1%N :: repeat 0%N 254).
  { unfold countersArray. rewrite (map_ext _ _ R5). vm_compute. reflexivity. }
  rewrite F.
  assert (A : calculateHuffmanLengths (1%N :: 1%N :: repeat 0%N 254) = Ok [(1, 0); (1, 1)]%N) by (vm_compute; reflexivity).
  rewrite A. cbn [bind].
  assert (B : fillLengths (repeat 0%N 256) [(1, 0); (1, 1)]%N = Ok (1%N :: 1%N :: repeat 0%N 254)) by (vm_compute; reflexivity).
  rewrite B. cbn [bind].
  assert (C : packInteger (N.of_nat 2) = Ok (2%N, 1)) by (vm_compute; reflexivity). rewrite C. cbn [bind].
  assert (D : writePackedInteger 2 = Ok [2%N]) by (vm_compute; reflexivity). rewrite D. cbn [bind].
  destruct (serializeShape (1%N :: 1%N :: repeat 0%N 254)) as [shape| |] eqn:S; [|exfalso; revert S; vm_compute; discriminate..].
  cbn [bind].
  assert (E : computeHuffmanCodes (1%N :: 1%N :: repeat 0%N 254) = Ok (0%N :: 1%N :: repeat 0%N 254)) by (vm_compute; reflexivity).
  rewrite E. cbn [bind].
  assert (G : symbolCodes (1%N :: 1%N :: repeat 0%N 254) (0%N :: 1%N :: repeat 0%N 254) [0%N; 1%N] = Ok [(1, 0%N); (1, 1%N)]) by (vm_compute; reflexivity).
  rewrite G. cbn [bind].
  assert (H : packCodes [(1, 0%N); (1, 1%N)] 0 0 = Ok [64%N]) by (vm_compute; reflexivity). rewrite H. cbn [bind].
  assert (J : gammaCodes [8; M] = Ok [(7, 8%N); (59, (2 ^ 29)%N)]).
  { cbn [gammaCodes]. rewrite MN.
    assert (X : logFloor (N.of_nat 8) = Ok 3%N) by (vm_compute; reflexivity).
    assert (Y : logFloor (2 ^ 29) = Ok 29%N) by (vm_compute; reflexivity). rewrite X, Y. cbn [bind]. reflexivity. }
  rewrite J. cbn [bind].
  assert (K : packCodes [(7, 8%N); (59, (2 ^ 29)%N)] 0 0 = UB) by (vm_compute; reflexivity).
  rewrite K. reflexivity.
Qed.
Lemma longRun_length : N.of_nat (length longRun) = (2 ^ 29 + 8)%N /\ are_bytes longRun /\ longRun <> [].
Proof.
  unfold longRun. split; [|split].
  - rewrite app_length, !repeat_length. lia.
  - apply Forall_app. split; apply Forall_forall; intros x H; apply repeat_spec in H; subst; unfold is_byte; lia.
  - discriminate.
Qed.
Lemma long_run_block : forall written lf, 1 <= length lf <= 256 -> Forall (fun v => v < 2 ^ 31)%N lf ->
  encodeBlock written lf [8; 2 ^ 29]%N longRun = UB.
Proof.
  intros written lf L V. unfold encodeBlock.
  destruct (C29_all lf [8; 2 ^ 29]%N L V) as (sections & header & A1 & _).
  { cbn [length]. lia. } { vm_compute. split; reflexivity. }
  rewrite A1. cbn [bind].
  assert (S : sections = [2 ^ 29 + 8]%N).
  { unfold writeBlockHeader in A1. destruct (writeHeader lf) as [h hn].
    assert (DS : deduceSections [8; 2 ^ 29]%N = [2 ^ 29 + 8]%N) by (vm_compute; reflexivity). rewrite DS in A1.
    cbn [length Nat.leb Nat.eqb] in A1. destruct (writeLengths [2 ^ 29 + 8]%N) as [[ls ln]| |]; cbn [bind] in A1; try discriminate.
    injection A1 as <- _ _. reflexivity. }
  rewrite S. destruct longRun_length as (LL & _). set (k := length longRun) in *.
  assert (K : N.to_nat (2 ^ 29 + 8) = k) by lia.
  cbn [encodeData]. change (2 ^ 29 + 8 =? 0)%N with false. cbn iota. rewrite K. fold k. rewrite Nat.ltb_irrefl.
  unfold k. rewrite firstn_all, long_run_ub. reflexivity.
Qed.

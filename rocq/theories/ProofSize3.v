(** How many bytes an archive takes with pair replacement. *)
From Coq Require Import List NArith ZArith Lia Arith Bool Permutation.
From Coq Require Import ZifyBool ZifyNat ZifyN.
From Verif Require Import Base ModelUtils ModelStreams ModelHeaders SpecHeaders ProofUtils3 ModelHuffmanCoder SpecRuns ModelBWT SpecBWT
  ModelGrammar SpecGrammar ModelFreq SpecFreq ModelPairs SpecPairs ModelFile SpecFile ModelSaisFile ProofHuffCoder4 ProofPairs5 ProofPairs7 ProofPairs9 ProofFile ProofSais20 ProofSize1 ProofSize2 ProofGrammar4.
Import ListNotations.
Open Scope N_scope.

(** ** The header of a block *)
Lemma Ok_eq : forall A (x y : A), Ok x = Ok y -> x = y.
Proof. intros A x y H. injection H. auto. Qed.

Lemma layout_length : forall rules pos, length (layout pos rules) = length rules.
Proof. induction rules as [|[k side] rules IH]; intros pos; [reflexivity|]. cbn [layout length]. rewrite IH. reflexivity. Qed.

Lemma variables_size : forall rules, (fold_right (fun r k => ((if r_large r then 2 else 1) + k)%nat) O rules <= 2 * length rules)%nat.
Proof. induction rules as [|r rules IH]; [reflexivity|]. cbn [fold_right length]. destruct (r_large r); lia. Qed.

Lemma sides_size : forall rules, Forall (fun r => length (snd r) = 2%nat) rules -> (length (concat (map snd (flat rules))) <= 4 * length rules)%nat.
Proof.
  induction rules as [|[k ks] rules IH]; intros H; [cbn; lia|]. inversion_clear H as [|? ? H1 H2]. cbn [snd] in H1. unfold flat in *. cbn [map concat snd length]. rewrite app_length.
  specialize (IH H2). pose proof (bytesOf_le ks). lia.
Qed.

Lemma header_size : forall g rules a b header n, gram g rules -> a < 2 ^ 56 -> b < 2 ^ 56 -> N.of_nat (length rules) < 2 ^ 56 ->
  writePreHeader a b g = Ok (header, n) -> (n <= 540 + 7 * length rules)%nat.
Proof.
  intros g rules a b header n G HA HB HR E. unfold writePreHeader in E.
  destruct (pack_all a HA) as (p1 & n1 & E1 & _ & P1 & _). destruct (pack_all b HB) as (p2 & n2 & E2 & _ & P2 & _). rewrite E1, E2 in E. cbn [bind] in E.
  destruct (writeGrammar g) as [w| |] eqn:W; cbn [bind] in E; try discriminate. destruct (grammarBytes g) as [m| |] eqn:M; cbn [bind] in E; try discriminate. injection E as _ <-.
  unfold grammarBytes in M. unfold writeGrammar in W.
  assert (LR : length (g_rules g) = length rules) by (rewrite (gr_rules _ _ G), layout_length; unfold flat; apply map_length).
  rewrite LR in *. destruct (pack_all (N.of_nat (length rules)) HR) as (p3 & n3 & E3 & _ & P3 & _). rewrite E3 in M. cbn [bind] in M. unfold writePacked in W. rewrite E3 in W. cbn [bind] in W.
  destruct (Nat.eqb_spec (length rules) 0) as [Z0|Z0]; [injection M as <-; lia|].
  destruct (g_rules g) as [|r0 rs] eqn:ER; [cbn [length] in LR; lia|]. rewrite <- ER in *. clear ER.
  destruct (writeFreedSymbols g) as [fr| |] eqn:F; cbn [bind] in W; try discriminate. unfold writeFreedSymbols in F.
  destruct (Nat.leb_spec (countFreed (g_pairs g) 0 0) 255) as [C|C]; [|discriminate]. clear F W.
  pose proof (variables_size (g_rules g)) as V. rewrite LR in V. pose proof (sides_size rules (gr_two _ _ G)) as S. pose proof (gr_255 _ _ G) as S2. rewrite (gr_rhs _ _ G) in M.
  set (v := fold_right _ _ _) in *. set (rhs := length (concat _)) in *. set (cf := countFreed _ _ _) in *. clearbody v rhs cf.
  apply Ok_eq in M. pose proof (Nat.div_mod_eq (length rules) 8). pose proof (Nat.div_mod_eq (length rules) 4).
  destruct (length rules mod 8 =? 0)%nat; destruct (length rules mod 4 =? 0)%nat; lia.
Qed.

(** ** What the preprocessor gives *)
Lemma prec_gram : forall sortF capacity lowRatio n data g data',
  sorts_by_frequency sortF -> are_bytes data -> N.of_nat (length data) < 2 ^ 31 -> N.of_nat n <= 1000000 ->
  precompress sortF layoutOver capacity lowRatio n data = Ok (g, data') ->
  roundsFit sortF layoutOver capacity lowRatio n (length data) None emptyGrammar data = true ->
  exists rules, gram g rules /\ (length rules <= 256 * n)%nat.
Proof.
  intros sortF capacity lowRatio n data g data' HS HB HL HN H HF. unfold precompress in H.
  destruct (precompressRounds _ _ _ _ _ _ _ _ _) as [[[g1 data1] temp]| |] eqn:E; cbn [bind] in H; try discriminate.
  destruct (((0 <? length data1) && (length data1 <=? S (length data)))%nat%bool); [|discriminate]. injection H as <- <-.
  assert (TB : bytesOf (map One data) = data) by (unfold bytesOf; clear; induction data as [|c data IH]; [reflexivity|cbn [map concat symBytes app]; rewrite IH; reflexivity]).
  destruct (rounds_ok sortF capacity lowRatio HS (length data) data n None emptyGrammar data g1 data1 temp [] (map One data) E HF) as (rules' & toks' & G & V & _ & R & M).
  - exact gram_empty.
  - apply Forall_forall. intros k Hk. apply in_map_iff in Hk. destruct Hk as (c & <- & Hc). split; [unfold are_bytes in HB; rewrite Forall_forall in HB; apply HB; exact Hc|]. cbn [emptyGrammar g_special]. apply flagged_repeat.
  - symmetry. exact TB.
  - lia.
  - change (2 ^ 31) with 2147483648 in HL. cbn [length Nat.add]. lia.
  - intros T (I1 & _). cbn [eval]. rewrite map_map. clear -I1. induction data as [|c data IH]; [reflexivity|]. cbn [map concat]. rewrite I1, IH. reflexivity.
  - exists rules'. split; [exact G|exact R].
Qed.

(** ** Slices *)
Lemma slice_number : forall bs used fuel b l, (1 <= bs)%nat -> sliceLoop fuel bs used b = Ok l -> (bs * length l <= (used - b) + (bs - 1))%nat.
Proof.
  intros bs used. induction fuel as [|fuel IH]; intros b l W H; cbn [sliceLoop] in H; destruct (Nat.ltb_spec b used); try discriminate; try (injection H as <-; cbn [length]; lia).
  destruct (sliceLoop fuel bs used (b + Nat.min bs (used - b))) as [r| |] eqn:E; cbn [bind] in H; try discriminate. injection H as <-. apply IH in E; [|exact W]. cbn [length].
  rewrite Nat.mul_succ_r. destruct (Nat.le_gt_cases bs (used - b)) as [C|C]; [rewrite Nat.min_l in E by lia; lia|]. rewrite Nat.min_r in E by lia.
  assert (length r = O) by (destruct (length r); [reflexivity|rewrite Nat.mul_succ_r in E; lia]). lia.
Qed.
Lemma slice_sum : forall bs used fuel b l, sliceLoop fuel bs used b = Ok l -> (b <= used)%nat ->
  fold_right (fun p k => snd p + k)%nat O l = (used - b)%nat /\ Forall (fun p => fst p + snd p <= used /\ snd p <= bs)%nat l.
Proof.
  intros bs used. induction fuel as [|fuel IH]; intros b l H HB; cbn [sliceLoop] in H; destruct (Nat.ltb_spec b used); try discriminate; try (injection H as <-; cbn [fold_right]; split; [lia|constructor]).
  destruct (sliceLoop fuel bs used (b + Nat.min bs (used - b))) as [r| |] eqn:E; cbn [bind] in H; try discriminate. injection H as <-. apply IH in E; [|lia]. destruct E as (E1 & E2).
  cbn [fold_right snd]. split; [lia|]. constructor; [cbn [fst snd]; lia|exact E2].
Qed.
Lemma slice_positive : forall bs used fuel b l, (1 <= bs)%nat -> sliceLoop fuel bs used b = Ok l -> Forall (fun p => 0 < snd p)%nat l.
Proof.
  intros bs used. induction fuel as [|fuel IH]; intros b l W H; cbn [sliceLoop] in H; destruct (Nat.ltb_spec b used); try discriminate; try (injection H as <-; constructor).
  destruct (sliceLoop fuel bs used (b + Nat.min bs (used - b))) as [r| |] eqn:E; cbn [bind] in H; try discriminate. injection H as <-. apply IH in E; [|exact W]. constructor; [cbn [snd]; lia|exact E].
Qed.

Section Size.
Variable sorter : list N -> list nat.
Hypothesis HS : sorts_suffixes sorter.
Variable points : N.

Lemma slices_size : forall data slices written size st st' w n, are_bytes data ->
  Forall (fun p => 0 < snd p /\ fst p + snd p <= length data /\ (N.of_nat (snd p) < 2 ^ 29)%N)%nat slices ->
  encodeSlices huffmanCoder sorter points st written data slices size = Ok (st', w, n) ->
  10 * N.of_nat n <= 10 * N.of_nat size + 13 * N.of_nat (fold_right (fun p k => snd p + k)%nat O slices) + 26860 * N.of_nat (length slices).
Proof.
  intros data. induction slices as [|[b len] slices IH]; intros written size st st' w n HB HF E; cbn [encodeSlices] in E.
  - injection E as _ _ <-. cbn [fold_right length]. lia.
  - inversion_clear HF as [|? ? (F1 & F2 & F3) F]. cbn [fst snd] in F1, F2, F3.
    destruct (transformAndEncode _ _ _ _ _ _) as [[[st1 w1] n1]| |] eqn:TE; cbn [bind] in E; try discriminate. destruct st.
    assert (L : length (firstn len (skipn b data)) = len) by (rewrite firstn_length, skipn_length; lia).
    apply slice_size in TE; [|exact HS|apply are_bytes_firstn, are_bytes_skipn, HB|intros Q; rewrite Q in L; cbn [length] in L; lia|rewrite L; exact F3]. rewrite L in TE.
    apply IH in E; [|exact HB|exact F]. cbn [fold_right snd length]. lia.
Qed.

Variables (sortF : list (N * N) -> list (N * N)) (capacity : nat -> nat) (lowRatio : nat -> nat -> bool) (n : nat).
Hypothesis HSF : sorts_by_frequency sortF.
Hypothesis HN : N.of_nat n <= 1000000.
Variables (pbSize : N) (quotient : N -> N) (pieces : nat).
Hypothesis HP : 0 < pbSize < 2 ^ 31.
Hypothesis HQ : forall m, m <= pbSize -> 0 < clampSize (quotient m) < 2 ^ 29 /\ clampSize (quotient m) <> pbSize /\ m <= N.of_nat pieces * clampSize (quotient m).

Lemma loop_size_pairs : forall fuel st written input bwtSize size archive total, are_bytes input -> pbSize <> bwtSize ->
  (forall k, blockFits sortF layoutOver capacity lowRatio n (firstn (N.to_nat pbSize) (skipn (k * N.to_nat pbSize) input)) = true) ->
  compressLoop huffmanCoder sorter points (precompress sortF layoutOver capacity lowRatio n) quotient fuel st written input pbSize bwtSize size = Ok (archive, total) ->
  10 * N.of_nat total <= 10 * N.of_nat size + 13 * N.of_nat (length input) +
    (26860 * N.of_nat pieces + 5400 + 17920 * N.of_nat n) * ((N.of_nat (length input) + pbSize - 1) / pbSize) + 10.
Proof.
  assert (K31 : 2 ^ 31 = 2147483648) by reflexivity. assert (K29 : 2 ^ 29 = 536870912) by reflexivity.
  induction fuel as [|fuel IH]; intros st written input bwtSize size archive total BI NE HK E; [discriminate|].
  cbn [compressLoop] in E. pose proof (HK 0%nat) as K0. cbn [Nat.mul skipn] in K0. destruct (firstn (N.to_nat pbSize) input) as [|c0 block0] eqn:EB.
  { injection E as _ <-. rewrite Nat2N.inj_add. set (x := _ * (_ / _)). change (N.of_nat 1) with 1. clearbody x. lia. }
  set (block := c0 :: block0) in *. assert (NB : (0 < length block)%nat) by (cbn; lia). assert (BB : are_bytes block) by (rewrite <- EB; apply are_bytes_firstn; exact BI).
  assert (LB : length block = Nat.min (N.to_nat pbSize) (length input)) by (rewrite <- EB; apply firstn_length). clearbody block.
  destruct (precompress sortF layoutOver capacity lowRatio n block) as [[g data]| |] eqn:PC; cbn [bind] in E; try discriminate.
  assert (BL : N.of_nat (length block) < 2 ^ 31) by lia.
  destruct (precompress_ok sortF capacity lowRatio n block HSF BB BL HN K0 g data PC) as (BD & ND & LD & _).
  assert (RF : roundsFit sortF layoutOver capacity lowRatio n (length block) None emptyGrammar block = true) by (unfold blockFits in K0; apply andb_true_iff in K0; apply K0).
  destruct (prec_gram sortF capacity lowRatio n block g data HSF BB BL HN PC RF) as (rules & G & LR).
  destruct (N.eqb_spec pbSize bwtSize) as [Q|_]; [contradiction|].
  destruct (HQ (N.of_nat (length data)) ltac:(lia)) as (Q1 & Q2 & Q3). set (bs := clampSize (quotient (N.of_nat (length data)))) in *. clearbody bs.
  destruct (sliceIntoBlocks _ _ _ _) as [slices| |] eqn:SL; cbn [bind] in E; try discriminate.
  unfold sliceIntoBlocks in SL. destruct ((length data <? S (length data))%nat && _)%bool; [|discriminate].
  assert (B1 : (1 <= N.to_nat bs)%nat) by lia.
  pose proof (slice_number _ _ _ _ _ B1 SL) as S1. pose proof (slice_sum _ _ _ _ _ SL (Nat.le_0_l _)) as (S2 & S3). pose proof (slice_positive _ _ _ _ _ B1 SL) as S4. clear SL.
  rewrite Nat.sub_0_r in S1, S2.
  assert (LS : (length slices <= pieces)%nat).
  { assert (Q : (length data <= pieces * N.to_nat bs)%nat) by lia. destruct (Nat.le_gt_cases (length slices) pieces) as [X|X]; [exact X|]. exfalso.
    assert (N.to_nat bs * S pieces <= N.to_nat bs * length slices)%nat by (apply Nat.mul_le_mono_l; lia). rewrite Nat.mul_succ_r, Nat.mul_comm in *. lia. }
  destruct (writePreHeader _ _ _) as [[h m]| |] eqn:WH; cbn [bind] in E; try discriminate.
  assert (K56 : 2 ^ 56 = 72057594037927936) by reflexivity.
  assert (SN : (length slices <= length data)%nat).
  { destruct (Nat.le_gt_cases (length slices) (length data)) as [X|X]; [exact X|]. exfalso.
    assert (N.to_nat bs * S (length data) <= N.to_nat bs * length slices)%nat by (apply Nat.mul_le_mono_l; lia).
    assert (1 * length data <= N.to_nat bs * length data)%nat by (apply Nat.mul_le_mono_r; lia). rewrite Nat.mul_succ_r in *. lia. }
  apply (header_size g rules) in WH; [|exact G|lia|lia|lia].
  destruct (encodeSlices _ _ _ _ _ _ _ _) as [[[st1 w1] n1]| |] eqn:ES; cbn [bind] in E; try discriminate.
  apply slices_size in ES; [|exact BD|].
  2: { rewrite Forall_forall in S3, S4. apply Forall_forall. intros p Hp. specialize (S3 p Hp). specialize (S4 p Hp). lia. }
  rewrite S2 in ES. apply IH in E; [|apply are_bytes_skipn; exact BI|congruence|].
  2: { intros k. rewrite skipn_add. replace (N.to_nat pbSize + k * N.to_nat pbSize)%nat with (S k * N.to_nat pbSize)%nat by lia. apply HK. }
  rewrite skipn_length in E. set (L := N.of_nat (length input)) in *.
  assert (D : (L + pbSize - 1) / pbSize = (N.of_nat (length input - N.to_nat pbSize) + pbSize - 1) / pbSize + 1).
  { assert (LP : 0 < L) by lia. destruct (N.le_gt_cases pbSize L) as [X|X].
    - replace (L + pbSize - 1) with ((N.of_nat (length input - N.to_nat pbSize) + pbSize - 1) + 1 * pbSize) by lia. apply N.div_add. lia.
    - replace (N.of_nat (length input - N.to_nat pbSize)) with 0 by lia. rewrite (N.div_small (0 + pbSize - 1)) by lia.
      symmetry. apply N.div_unique with (L - 1); lia. }
  rewrite D. set (d := (N.of_nat (length input - N.to_nat pbSize) + pbSize - 1) / pbSize) in *. clearbody d. clear HK K0 RF PC IH HQ D.
  rewrite N.mul_add_distr_l, N.mul_1_r. set (x := _ * d) in *. clearbody x. clear S1 S2 S3 S4 Q3 K56 G. lia.
Qed.
End Size.

Lemma block_header : forall sortF capacity lowRatio n block g data slices header size,
  sorts_by_frequency sortF -> are_bytes block -> N.of_nat (length block) < 2 ^ 31 -> N.of_nat n <= 1000000 -> slices < 2 ^ 56 ->
  roundsFit sortF layoutOver capacity lowRatio n (length block) None emptyGrammar block = true ->
  precompress sortF layoutOver capacity lowRatio n block = Ok (g, data) ->
  writePreHeader (N.of_nat (length block)) slices g = Ok (header, size) ->
  (length (g_rules g) <= 256 * n)%nat /\ (size <= 540 + 7 * length (g_rules g))%nat /\ length header = size.
Proof.
  intros sortF capacity lowRatio n block g data slices header size HS HB HL HN HSL HF E W.
  assert (K31 : 2 ^ 31 = 2147483648) by reflexivity. assert (K56 : 2 ^ 56 = 72057594037927936) by reflexivity.
  destruct (prec_gram _ _ _ _ _ _ _ HS HB HL HN E HF) as (rules & G & LR).
  assert (LG : length (g_rules g) = length rules) by (rewrite (gr_rules _ _ G), layout_length; unfold flat; apply map_length).
  destruct (C33_all _ _ _ _ _ _ _ HS HB HL HN E HF) as (_ & _ & (rules' & WR)).
  assert (NB : (0 < length block)%nat) by (destruct block; [destruct n; discriminate E|cbn; lia]).
  destruct (C30_all g rules' (N.of_nat (length block)) slices [] WR ltac:(lia) HSL) as (bytes & g' & E1 & _). rewrite W in E1. injection E1 as <- ->.
  apply (header_size g rules) in W; [|exact G|lia|exact HSL|lia]. rewrite LG. auto.
Qed.

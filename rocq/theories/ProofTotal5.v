(** The program compress finishes with pair replacement. *)
From Coq Require Import List NArith ZArith Lia Arith Bool SpecFloat.
From Coq Require Import ZifyBool ZifyNat ZifyN.
From Verif Require Import Base Arrays TArray ModelUtils ModelStreams ModelHeaders ProofHeaders ModelBWT SpecBWT ModelFreq SpecFreq ModelGrammar SpecGrammar ProofGrammar4 ModelPairs SpecPairs SpecTriple SpecTotal
  ModelFile SpecFile ProofFile ModelSaisFile ProofSais20 ModelWavelet ModelMain SpecMain ProofMain1 ProofMain2 ProofMain3 ProofMain4 ProofTriple5 ProofTriple6 ProofTriple7 ProofTotal4.
Import ListNotations.
Open Scope N_scope.

(** ** The ratio of a length to itself is one *)
Lemma ratio_self : forall len, (N.of_nat len < 2 ^ 64)%N -> lowRatioOf len len = false.
Proof.
  intros len HL. unfold lowRatioOf. destruct (N.eq_dec (N.of_nat len) 0) as [E|E]; [rewrite E; reflexivity|].
  destruct (toDouble_value (N.of_nat len) ltac:(lia)) as (m & e & -> & _ & _ & _). cbn [SFdiv xorb]. unfold SFdiv_core_binary.
  rewrite !Z.sub_diag. change (Z.min (fexp 53 1024 0) 0) with (-53)%Z. change (0 - -53)%Z with 53%Z. cbn iota. rewrite Z.shiftl_mul_pow2 by lia.
  assert (D : Z.div_eucl (Z.pos m * 2 ^ 53) (Z.pos m) = (2 ^ 53, 0)%Z).
  { pose proof (Z.div_mul (2 ^ 53) (Z.pos m) ltac:(lia)) as D1. pose proof (Z.mod_mul (2 ^ 53) (Z.pos m) ltac:(lia)) as D2. rewrite Z.mul_comm in D1, D2.
    unfold Z.div in D1. unfold Z.modulo in D2. destruct (Z.div_eucl (Z.pos m * 2 ^ 53) (Z.pos m)) as [q r]. congruence. }
  rewrite D. assert (L : new_location (Z.pos m) 0 = loc_Exact). { unfold new_location, new_location_even, new_location_odd. destruct (Z.even (Z.pos m)); reflexivity. }
  rewrite L. vm_compute. reflexivity.
Qed.

(** ** The compressor *)
Section Loop.
Variable coder : entropyCoder.
Variable limit : N.
Hypothesis HL : limit <= 2 ^ 31 - 2.
Hypothesis HT : coder_total coder limit.
Variable sorter : list N -> list nat.
Hypothesis HS : sorts_suffixes sorter.
Variables (points : N) (prec : list N -> outcome (grammar * list N)) (quotient : N -> N).

Lemma loop_total : forall fuel st written input pbSize bwtSize size, are_bytes input -> 0 < pbSize ->
  (forall m, m <= pbSize -> 0 < clampSize (quotient m) < limit) -> (pbSize = bwtSize -> 0 < bwtSize < limit) -> (length input < fuel)%nat ->
  (forall k, prec_ok prec (firstn (N.to_nat pbSize) (skipn (k * N.to_nat pbSize) input))) ->
  (forall k, firstn (N.to_nat pbSize) (skipn (k * N.to_nat pbSize) input) <> [] -> exists r, prec (firstn (N.to_nat pbSize) (skipn (k * N.to_nat pbSize) input)) = Ok r) ->
  exists r, compressLoop coder sorter points prec quotient fuel st written input pbSize bwtSize size = Ok r.
Proof.
  change (2 ^ 31 - 2) with 2147483646 in HL.
  induction fuel as [|fuel IH]; intros st written input pbSize bwtSize size BI HP HQ HW HF HK HR; [lia|].
  cbn [compressLoop]. pose proof (HK 0%nat) as K0. pose proof (HR 0%nat) as R0. cbn [Nat.mul skipn] in K0, R0.
  destruct (firstn (N.to_nat pbSize) input) as [|c0 block0] eqn:EB; [eexists; reflexivity|].
  destruct (R0 ltac:(discriminate)) as ([g data] & EP). destruct (K0 g data EP) as (P1 & P2 & P3 & P4 & (rules & P5) & _). rewrite EP. cbn [bind].
  assert (LB : (length (c0 :: block0) <= N.to_nat pbSize)%nat) by (rewrite <- EB; apply firstn_le_length).
  assert (LI : (0 < length input)%nat) by (destruct input; [rewrite firstn_nil in EB; discriminate|cbn; lia]).
  assert (L0 : (0 < length (c0 :: block0))%nat) by (cbn; lia).
  set (block := c0 :: block0) in *. clearbody block.
  set (bs := if pbSize =? bwtSize then bwtSize else clampSize (quotient (N.of_nat (length data)))).
  assert (BS : 0 < bs < limit). { unfold bs. destruct (N.eqb_spec pbSize bwtSize) as [Q|Q]; [apply HW, Q|apply HQ; lia]. }
  destruct (C28_all N data (S (length data)) (N.to_nat bs)) as (l & E & _ & F); [lia|lia|rewrite N2Nat.id; change (2 ^ 31 - 2) with 2147483646; lia|]. rewrite E. cbn [bind].
  assert (LS : (length l <= length data)%nat).
  { unfold sliceIntoBlocks in E. destruct ((length data <? S (length data))%nat && _)%bool; [|discriminate]. apply sliceLoop_count in E; lia. }
  destruct (C30_all g rules (N.of_nat (length block)) (N.of_nat (length l)) [] P5) as (hdr & g' & E1 & _); [lia|lia|].
  rewrite E1. cbn [bind]. destruct (encodeSlices_total coder limit ltac:(change (2 ^ 31) with 2147483648; lia) HT sorter HS points data l st (written ++ hdr) (size + length hdr)%nat P1) as ([[st1 w1] n1] & E2).
  { eapply Forall_impl; [|exact F]. cbn beta. intros p Q. lia. }
  rewrite E2. cbn [bind]. apply IH; auto.
  - apply are_bytes_skipn. exact BI.
  - rewrite skipn_length. lia.
  - intros k. rewrite skipn_add. replace (N.to_nat pbSize + k * N.to_nat pbSize)%nat with (S k * N.to_nat pbSize)%nat by lia. apply HK.
  - intros k. rewrite skipn_add. replace (N.to_nat pbSize + k * N.to_nat pbSize)%nat with (S k * N.to_nat pbSize)%nat by lia. apply HR.
Qed.
End Loop.

(** ** The program *)
Lemma main_total : forall sortF sorter worth worth' behind mem starts bwt prepr input,
  sorts_by_frequency sortF -> (bwt <> 115 -> sorts_suffixes sorter) -> (forall i, behind i < 256) -> are_bytes input ->
  validStarts starts = true -> validBwt bwt = true -> validPrepr prepr = true -> moderate mem input -> (length prepr <= 200)%nat ->
  (length prepr <= 1 /\ triples input <= 1000)%nat \/ (cubes input <= 1000)%nat ->
  (forall pbSize, prepr <> [] -> pbSizeOf (memLimitOf mem) = Ok pbSize ->
     (N.of_nat (length input) mod pbSize = 0 \/ 5 <= N.of_nat (length input) mod pbSize) /\
     forall k, let block := firstn (N.to_nat pbSize) (skipn (k * N.to_nat pbSize) input) in
       block <> [] -> lastOnce sortF layoutOver lowRatioOf (length prepr) (length block) None emptyGrammar block = true) ->
  exists archive, compressMain sortF sorter worth mem starts bwt 72 prepr input = Ok (Some (archive, length archive)) /\ are_bytes archive /\
    decompress behind (waveletCoder worth') archive = Ok (input, length input).
Proof.
  intros sortF sorter0 worth worth' behind mem starts bwt prepr input HF HS0 HB HI VS VB VP HM HN HT HL.
  destruct prepr as [|c0 prepr0].
  { apply main_huffman; auto. unfold moderate in HM. lia. }
  set (prepr := c0 :: prepr0) in *. assert (N0 : (length prepr =? 0)%nat = false) by reflexivity. assert (PN : prepr <> []) by discriminate. clearbody prepr.
  assert (G : exists r, compressMain sortF sorter0 worth mem starts bwt 72 prepr input = Ok (Some r)).
  { destruct (main_any sortF sorter0 worth mem starts bwt 72 prepr input HS0) as (sorter & HS & EM). rewrite EM. clear EM.
    unfold compressMain. rewrite VS, VB, VP. cbn [andb validEncoding N.eqb Pos.eqb orb]. cbv zeta.
    unfold moderate in HM. assert (M1 : 1 <= megabytes mem) by (unfold megabytes; destruct (N.eqb_spec mem 0); lia).
    destruct (limit_small mem ltac:(lia)) as [ML ML2]. remember (memLimitOf mem) as L eqn:EL.
    destruct (pb_bounds L ML2) as (pb & EP & P1 & P2). destruct (bwt_bounds L ML2) as (b & EB & B1 & B2). rewrite EP, EB. cbn [bind].
    change (10 ^ 15) with 1000000000000000 in *. change (2 ^ 29) with 536870912 in HM.
    assert (PB : 739999 <= pb) by lia. assert (B0 : 0 < b) by lia. assert (PBL : pb < L) by lia.
    destruct (HL pb PN EP) as (HLM & HLO). clear HL EL.
    assert (SMALL : pb < 2 ^ 31 \/ N.of_nat (length input) < 2 ^ 29) by (change (2 ^ 29) with 536870912; change (2 ^ 31) with 2147483648; lia).
    assert (BLK : forall k, let block := firstn (N.to_nat pb) (skipn (k * N.to_nat pb) input) in block <> [] ->
      are_bytes block /\ (5 <= length block)%nat /\ N.of_nat (length block) < 2 ^ 31 /\ ((length prepr <= 1 /\ triples block <= 1000)%nat \/ (cubes block <= 1000)%nat)).
    { intros k block NE.
      assert (LB : (length block = Nat.min (N.to_nat pb) (length input - k * N.to_nat pb))%nat) by (unfold block; rewrite firstn_length, skipn_length; reflexivity).
      assert (L0 : length block <> O) by (intros Q; apply NE, length_zero_iff_nil, Q).
      split; [unfold block; apply are_bytes_firstn, are_bytes_skipn, HI|]. split; [|split].
      - destruct (Nat.le_gt_cases (N.to_nat pb) (length input - k * N.to_nat pb)) as [A|A]; [lia|].
        assert (Q : N.of_nat (length block) = N.of_nat (length input) mod pb) by (rewrite LB, Nat.min_r by lia; apply (N.mod_unique _ _ (N.of_nat k)); lia). lia.
      - rewrite LB. change (2 ^ 29) with 536870912 in SMALL. change (2 ^ 31) with 2147483648 in *. lia.
      - unfold block. destruct HT as [(T1 & T2)|T].
        + left. split; [exact T1|]. pose proof (triples_first (skipn (k * N.to_nat pb) input) (N.to_nat pb)). pose proof (triples_skip (k * N.to_nat pb) input). lia.
        + right. pose proof (cubes_first (skipn (k * N.to_nat pb) input) (N.to_nat pb)). pose proof (cubes_skip (k * N.to_nat pb) input). lia. }
    assert (HK : forall k, blockFits sortF layoutOver capacityOf lowRatioOf (length prepr) (firstn (N.to_nat pb) (skipn (k * N.to_nat pb) input)) = true).
    { intros k. specialize (BLK k). cbv zeta in BLK. set (block := firstn (N.to_nat pb) (skipn (k * N.to_nat pb) input)) in *.
      destruct (list_eq_dec N.eq_dec block []) as [E0|E0].
      - rewrite E0. apply blockFits_few; [exact HF|apply third_program|constructor|discriminate|discriminate|reflexivity|lia|right; cbn; lia].
      - destruct (BLK E0) as (X1 & X2 & X3 & X4). apply blockFits_few; auto; [apply third_program|lia|lia|lia]. }
    assert (HP : forall k, firstn (N.to_nat pb) (skipn (k * N.to_nat pb) input) <> [] -> exists r, precompress sortF layoutOver capacityOf lowRatioOf (length prepr) (firstn (N.to_nat pb) (skipn (k * N.to_nat pb) input)) = Ok r).
    { intros k NE. destruct (BLK k NE) as (X1 & X2 & X3 & X4).
      assert (X0 : N.of_nat (length (firstn (N.to_nat pb) (skipn (k * N.to_nat pb) input))) < 2 ^ 64) by (eapply N.lt_trans; [exact X3|reflexivity]).
      destruct (precompress_total sortF capacityOf lowRatioOf HF third_program (length prepr) _ (ratio_self _ X0) X1 X2 X3 HN X4 (HLO k NE)) as (g & data & E & _). eauto. }
    pose proof (main_sorter sortF sorter bwt starts (length prepr) pb b (quotientFor L) 72 input huffmanCoder HS HI) as MS. rewrite N0 in *. cbn [negb] in *.
    change (giveCoder (waveletCoder worth) 72) with huffmanCoder. rewrite MS.
    2: { intros k g data. cbv zeta. apply fits_bytes; auto; [apply are_bytes_firstn, are_bytes_skipn, HI| |lia].
         rewrite firstn_length, skipn_length. change (2 ^ 29) with 536870912 in SMALL. change (2 ^ 31) with 2147483648 in *. lia. }
    destruct (options_sizes huffmanCoder (2 ^ 29) ltac:(split; [reflexivity|discriminate]) sorter starts sortF capacityOf lowRatioOf 72 (length prepr) pb b (quotientFor L) input) as [E2 SC]; auto.
    - lia.
    - reflexivity.
    - unfold clampSize. change (2 ^ 31 - 2) with 2147483646. lia.
    - intros m Hm. destruct (quotient_bounds L m ltac:(lia)) as (_ & Q1 & Q2). change (10 ^ 15) with 1000000000000000 in *. change (2 ^ 29) with 536870912. change (2 ^ 31 - 2) with 2147483646.
      split; lia.
    - rewrite E2. assert (P0 : 0 < pb) by lia. assert (P0' : 0 < N.min pb (2 ^ 31 - 1)) by (change (2 ^ 31 - 1) with 2147483647; lia).
      assert (C : exists r, compress huffmanCoder sorter starts (precompress sortF layoutOver capacityOf lowRatioOf (length prepr)) (N.min pb (2 ^ 31 - 1)) 0 (fun m => N.min (quotientFor L m) (2 ^ 29 - 1)) true 72 input = Ok r).
      { unfold compress. apply (loop_total huffmanCoder (2 ^ 29)); auto.
        - discriminate.
        - exact huffman_total.
        - intros m Hm. destruct (quotient_bounds L m ltac:(lia)) as (_ & Q1 & Q2). change (10 ^ 15) with 1000000000000000 in *. unfold clampSize. change (2 ^ 29) with 536870912. change (2 ^ 31 - 2) with 2147483646. lia.
        - change (clampSize 0) with 0. lia.
        - intros k. rewrite (chunk_same pb (N.min pb (2 ^ 31 - 1)) input k P0 P0' SC). apply precompress_ok; auto; [apply are_bytes_firstn, are_bytes_skipn, HI| |lia].
          rewrite firstn_length, skipn_length. change (2 ^ 29) with 536870912 in SMALL. change (2 ^ 31) with 2147483648 in *. lia.
        - intros k. rewrite (chunk_same pb (N.min pb (2 ^ 31 - 1)) input k P0 P0' SC). apply HP. }
      destruct C as (r & ->). cbn [bind]. eauto. }
  destruct G as ([archive size] & E).
  destruct (main_few sortF sorter0 worth worth' behind mem starts bwt 72 prepr input archive size) as (D & -> & A); auto; [lia| |eauto].
  intros pbSize EP. destruct (HL pbSize PN EP) as (Q & _). lia.
Qed.

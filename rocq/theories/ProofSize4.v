(** How large the archives of the program compress get. *)
From Coq Require Import List NArith ZArith Lia Arith Bool.
From Coq Require Import ZifyBool ZifyNat ZifyN.
From Verif Require Import Base Arrays TArray ModelUtils ModelStreams ModelHeaders ModelBWT SpecBWT ModelFreq SpecFreq ModelGrammar SpecGrammar ModelPairs SpecPairs SpecTriple
  ModelFile SpecFile ProofFile ModelSaisFile ProofSais20 ModelWavelet ModelMain SpecMain ProofMain1 ProofMain2 ProofMain3 ProofMain4 ProofTriple5 ProofTriple6 ProofTriple7 ProofSize2 ProofSize3.
Import ListNotations.
Open Scope N_scope.

Lemma blocks_le : forall len size P, 0 < P <= size -> (len + size - 1) / size <= len / P + 1.
Proof.
  intros len size P H. assert (S0 : size <> 0) by lia.
  assert (A : (len + size - 1) / size <= (len + 1 * size) / size) by (apply N.div_le_mono; lia). rewrite N.div_add in A by exact S0.
  assert (B : len / size <= len / P) by (apply N.div_le_compat_l; lia). lia.
Qed.

Lemma main_size_plain : forall sortF sorter worth mem starts bwt input archive size,
  sorts_by_frequency sortF -> (bwt <> 115 -> sorts_suffixes sorter) -> are_bytes input -> megabytes mem <= 2902 ->
  compressMain sortF sorter worth mem starts bwt 72 [] input = Ok (Some (archive, size)) ->
  10 * N.of_nat (length archive) <= 13 * N.of_nat (length input) + 26970 * (N.of_nat (length input) / (184999 * megabytes mem) + 1) + 20.
Proof.
  intros sortF sorter0 worth mem starts bwt input archive size HF HS0 HI HM H.
  destruct (main_any sortF sorter0 worth mem starts bwt 72 [] input HS0) as (sorter & HS & EM). rewrite EM in H. clear EM HS0 sorter0.
  unfold compressMain in H. destruct (_ && _)%bool in H; [|discriminate]. cbn [length Nat.eqb negb] in H. cbv zeta in H.
  assert (M1 : 1 <= megabytes mem) by (unfold megabytes; destruct (N.eqb_spec mem 0); lia).
  destruct (limit_small mem ltac:(lia)) as [ML ML2]. remember (memLimitOf mem) as L eqn:EL. clear EL.
  destruct (pb_bounds L ML2) as (pb & EP & P1 & P2). destruct (bwt_bounds L ML2) as (b & EB & B1 & B2). rewrite EP, EB in H. cbn [bind] in H.
  change (10 ^ 15) with 1000000000000000 in *. assert (B0 : 0 < 184999 * megabytes mem <= b) by lia.
  change (giveCoder (waveletCoder worth) 72) with huffmanCoder in H.
  pose proof (main_sorter sortF sorter bwt starts 0 pb b (quotientFor L) 72 input huffmanCoder HS HI) as MS. cbn [Nat.eqb negb] in MS. rewrite MS in H.
  2: { intros k g data D. apply prec_none in D. subst data. apply are_bytes_firstn, are_bytes_skipn, HI. }
  destruct (compress _ _ _ _ _ _ _ _ _ _) as [[a s]| |] eqn:E; cbn [bind] in H; try discriminate. injection H as -> ->.
  apply archive_size in E; auto; [|change (2 ^ 29) with 536870912; lia].
  pose proof (blocks_le (N.of_nat (length input)) b _ B0). lia.
Qed.

Lemma main_size_pairs : forall sortF sorter worth mem starts bwt prepr input archive size,
  sorts_by_frequency sortF -> (bwt <> 115 -> sorts_suffixes sorter) -> are_bytes input -> prepr <> [] -> megabytes mem <= 2415 -> N.of_nat (length prepr) <= 1000000 ->
  (length prepr <= 1 /\ triples input <= 1000)%nat \/ (cubes input <= 1000)%nat ->
  (forall pbSize, pbSizeOf (memLimitOf mem) = Ok pbSize -> N.of_nat (length input) mod pbSize <> 3 /\ N.of_nat (length input) mod pbSize <> 4) ->
  compressMain sortF sorter worth mem starts bwt 72 prepr input = Ok (Some (archive, size)) ->
  10 * N.of_nat (length archive) <= 13 * N.of_nat (length input) + (354580 + 17920 * N.of_nat (length prepr)) * (N.of_nat (length input) / (739999 * megabytes mem) + 1) + 20.
Proof.
  intros sortF sorter0 worth mem starts bwt prepr input archive size HF HS0 HI HE HM HN HT HL H.
  assert (N0 : (length prepr =? 0)%nat = false) by (destruct prepr; [contradiction|reflexivity]).
  assert (SZ : size = length archive).
  { destruct (main_few sortF sorter0 worth worth (fun _ => 0) mem starts bwt 72 prepr input archive size HF HS0 ltac:(reflexivity) HI ltac:(left; exact HM) HN HT HL H) as (_ & S & _). exact S. }
  subst size.
  destruct (main_any sortF sorter0 worth mem starts bwt 72 prepr input HS0) as (sorter & HS & EM). rewrite EM in H. clear EM HS0 sorter0.
  unfold compressMain in H. destruct (_ && _)%bool in H; [|discriminate]. rewrite N0 in H. cbn [negb] in H. cbv zeta in H.
  assert (M1 : 1 <= megabytes mem) by (unfold megabytes; destruct (N.eqb_spec mem 0); lia).
  destruct (limit_small mem ltac:(lia)) as [ML ML2]. remember (memLimitOf mem) as L eqn:EL. clear EL.
  destruct (pb_bounds L ML2) as (pb & EP & P1 & P2). destruct (bwt_bounds L ML2) as (b & EB & B1 & B2). specialize (HL pb EP). rewrite EP, EB in H. cbn [bind] in H.
  change (10 ^ 15) with 1000000000000000 in *. assert (K31 : 2 ^ 31 = 2147483648) by reflexivity. assert (K29 : 2 ^ 29 = 536870912) by reflexivity.
  assert (PB : 739999 * megabytes mem <= pb < 2 ^ 31) by lia.
  change (giveCoder (waveletCoder worth) 72) with huffmanCoder in H.
  assert (HK : forall k, blockFits sortF layoutOver capacityOf lowRatioOf (length prepr) (firstn (N.to_nat pb) (skipn (k * N.to_nat pb) input)) = true).
  { intros k. set (block := firstn (N.to_nat pb) (skipn (k * N.to_nat pb) input)).
    assert (LB : (length block = Nat.min (N.to_nat pb) (length input - k * N.to_nat pb))%nat) by (unfold block; rewrite firstn_length, skipn_length; reflexivity).
    assert (LC : length block = O \/ length block = N.to_nat pb \/ N.of_nat (length block) = N.of_nat (length input) mod pb).
    { rewrite LB. destruct (Nat.le_gt_cases (length input) (k * N.to_nat pb)) as [A|A]; [left; lia|]. right.
      destruct (Nat.le_gt_cases (N.to_nat pb) (length input - k * N.to_nat pb)) as [B|B]; [left; lia|]. right.
      rewrite Nat.min_r by lia. apply (N.mod_unique _ _ (N.of_nat k)); lia. }
    apply blockFits_few; auto; [apply third_program|unfold block; apply are_bytes_firstn, are_bytes_skipn, HI|lia|lia|rewrite LB; lia|].
    unfold block. destruct HT as [(T1 & T2)|T].
    - left. split; [exact T1|]. pose proof (triples_first (skipn (k * N.to_nat pb) input) (N.to_nat pb)). pose proof (triples_skip (k * N.to_nat pb) input). lia.
    - right. pose proof (cubes_first (skipn (k * N.to_nat pb) input) (N.to_nat pb)). pose proof (cubes_skip (k * N.to_nat pb) input). lia. }
  pose proof (main_sorter sortF sorter bwt starts (length prepr) pb b (quotientFor L) 72 input huffmanCoder HS HI) as MS. rewrite N0 in MS. cbn [negb] in MS. rewrite MS in H.
  2: { intros k g data. cbv zeta. apply fits_bytes; auto; [apply are_bytes_firstn, are_bytes_skipn, HI|]. rewrite firstn_length, skipn_length. lia. }
  destruct (compress _ _ _ _ _ _ _ _ _ _) as [[a s]| |] eqn:E; cbn [bind] in H; try discriminate. injection H as -> ->.
  unfold compress in E.
  apply (loop_size_pairs sorter HS starts sortF capacityOf lowRatioOf (length prepr) HF HN pb (quotientFor L) 13) in E; auto.
  - assert (PQ : 0 < 739999 * megabytes mem <= pb) by lia.
    pose proof (blocks_le (N.of_nat (length input)) pb _ PQ) as BL. change (N.of_nat 13) with 13 in E. set (x := (N.of_nat (length input) + pb - 1) / pb) in *. set (y := N.of_nat (length input) / _) in *. clearbody x y.
    change (N.of_nat 1) with 1 in E.
    assert (Q : (26860 * 13 + 5400 + 17920 * N.of_nat (length prepr)) * x <= (354580 + 17920 * N.of_nat (length prepr)) * (y + 1)) by (apply N.mul_le_mono; lia).
    clear -E Q. lia.
  - lia.
  - intros m Hm. destruct (quotient_bounds L m ltac:(lia)) as (_ & Q1 & Q2). change (10 ^ 15) with 1000000000000000 in *. unfold clampSize. change (2 ^ 31 - 2) with 2147483646. change (N.of_nat 13) with 13. lia.
  - unfold clampSize. change (2 ^ 31 - 2) with 2147483646. lia.
Qed.

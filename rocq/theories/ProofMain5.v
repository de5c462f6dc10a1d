(** The program compress with the wavelet coders (C53). *)
From Coq Require Import List NArith ZArith Arith Bool SpecFloat Lia ZifyBool ZifyNat ZifyN.
From Verif Require Import Base ModelUtils ModelStreams ModelHeaders ModelBWT SpecBWT ProofBWT7 ModelFreq SpecFreq ModelGrammar ModelPairs SpecPairs ModelFile SpecFile ProofFile ModelSaisFile ProofSais20.
From Verif Require Import SpecRuns ModelWavelet SpecChoice SpecStops ProofWav18 ProofWav19 ProofWav25 ModelMain SpecMain ProofMain2 ProofMain3 ProofMain4.
Import ListNotations.
Open Scope N_scope.

Lemma main_wavelet : forall sortF sorter worth worth' behind mem starts bwt enc input bwtSize,
  sorts_by_frequency sortF -> sorts_suffixes sorter -> (forall i, behind i < 256) -> are_bytes input ->
  validStarts starts = true -> validBwt bwt = true -> In enc [117; 98; 66] -> megabytes mem <= 5804 -> bwtSizeOf (memLimitOf mem) = Ok bwtSize ->
  let result := compressMain sortF sorter worth mem starts bwt enc [] input in
  let block := fun k => firstn (N.to_nat bwtSize) (skipn (k * N.to_nat bwtSize) input) in
  ((exists k, blockStops worth sorter starts (block k)) -> result = UB) /\
  (~ (exists k, blockStops worth sorter starts (block k)) ->
   exists archive, result = Ok (Some (archive, length archive)) /\ decompress behind (waveletCoder worth') archive = Ok (input, length input)).
Proof.
  intros sortF sorter worth worth' behind mem starts bwt enc input b HF HS HB HI VS VB HE HM EB result block.
  assert (VE : validEncoding enc = true /\ enc < 256 /\ enc <> 72 /\ enc <> 109 /\ enc <> 77) by (destruct HE as [<-|[<-|[<-|[]]]]; repeat split; discriminate).
  destruct VE as (VE & E0 & E1 & E2 & E3).
  assert (M1 : 1 <= megabytes mem) by (unfold megabytes; destruct (N.eqb_spec mem 0); lia).
  unfold result, compressMain. rewrite VS, VB, VE. cbn [validPrepr forallb andb length Nat.eqb negb]. cbv zeta.
  destruct (limit_small mem ltac:(lia)) as [ML ML2]. remember (memLimitOf mem) as L eqn:EL. clear EL.
  destruct (pb_bounds L ML2) as (pb & EP & P1 & P2). destruct (bwt_bounds L ML2) as (b' & EB' & B1 & B2). rewrite EB in EB'. injection EB' as <-. rewrite EP, EB. cbn [bind].
  change (10 ^ 15) with 1000000000000000 in *. assert (HW : 0 < b < 2 ^ 30) by (change (2 ^ 30) with 1073741824; lia).
  assert (GC : giveCoder (waveletCoder worth) enc = waveletCoder worth enc) by (unfold giveCoder; destruct (N.eqb_spec enc 72); [contradiction|reflexivity]). rewrite GC.
  pose proof (main_sorter sortF sorter bwt starts 0 pb b (quotientFor L) enc input (waveletCoder worth enc) HS HI) as MS. cbn [Nat.eqb negb] in MS. rewrite MS.
  2: { intros k g data D. apply prec_none in D. subst data. apply are_bytes_firstn, are_bytes_skipn, HI. }
  destruct (wavelet_files worth enc sorter starts behind worth' sortF capacityOf lowRatioOf pb b (quotientFor L) input E0 E1 E2 E3 HS HF HB HI HW) as [W1 W2].
  split.
  - intros X. rewrite (W1 X). reflexivity.
  - intros X. destruct (W2 X) as (archive & E & D). exists archive. rewrite E. auto.
Qed.

(** Three run lengths need six bytes. *)
Lemma expand_length : forall runs, length (expand runs) = fold_right (fun r n => (snd r + n)%nat) 0%nat runs.
Proof. induction runs as [|r runs IH]; [reflexivity|]. unfold expand in *. cbn [flat_map fold_right]. rewrite app_length, repeat_length, IH. reflexivity. Qed.
Lemma sum_in : forall l a, In a l -> exists l', (fold_right Nat.add 0 l = a + fold_right Nat.add 0 l')%nat /\ forall x, In x l -> x <> a -> In x l'.
Proof.
  induction l as [|y l IH]; intros a []; [subst y; exists l; split; [reflexivity|]; intros x [->|H] N; [congruence|exact H]|].
  destruct (IH a H) as (l' & E & Q). exists (y :: l'). cbn [fold_right]. split; [lia|]. intros x [->|X] N; [left; reflexivity|right; auto].
Qed.
Lemma three_lengths : forall l a b c, Forall (fun n => (1 <= n)%nat) l -> In a l -> In b l -> In c l -> a <> b -> a <> c -> b <> c -> (6 <= fold_right Nat.add 0 l)%nat.
Proof.
  intros l a b c F A B C AB AC BC. rewrite Forall_forall in F. pose proof (F a A). pose proof (F b B). pose proof (F c C).
  destruct (sum_in l a A) as (l1 & E1 & Q1). destruct (sum_in l1 b) as (l2 & E2 & Q2); [apply Q1; auto|]. destruct (sum_in l2 c) as (l3 & E3 & Q3); [apply Q2; auto|]. lia.
Qed.
Lemma pieces_length : forall sections data piece, In piece (pieces sections data) -> (length piece <= length data)%nat.
Proof.
  induction sections as [|n sections IH]; intros data piece []; [subst piece; rewrite firstn_length; lia|]. apply IH in H. rewrite skipn_length in H. lia.
Qed.
Lemma stops_six : forall worth sorter points x, sorts_suffixes sorter -> are_bytes x -> N.of_nat (length x) < 2 ^ 30 -> blockStops worth sorter points x -> (6 <= length x)%nat.
Proof.
  intros worth sorter points x HS BX LX (NX & data & lf & stats & sections & header & n & piece & runs & E & _ & HP & (R1 & _ & R3) & k & _ & (a & b & c & A & B & C & AB & AC & BC) & _).
  destruct (transform_proper (2 ^ 30) ltac:(reflexivity) sorter HS points x BX NX LX) as (data' & lf' & freqs' & E' & _ & L & _). rewrite E in E'. injection E' as <- <- <-.
  apply pieces_length in HP. rewrite <- R1, expand_length in HP.
  assert (S6 : (6 <= fold_right Nat.add 0 (map snd runs))%nat).
  { apply (three_lengths _ a b c); auto. apply Forall_map. exact R3. }
  assert (EQ : fold_right Nat.add 0%nat (map snd runs) = fold_right (fun r n => (snd r + n)%nat) 0%nat runs) by (clear; induction runs as [|r runs IH]; [reflexivity|cbn; lia]). lia.
Qed.

Lemma main_short : forall sortF sorter worth worth' behind mem starts bwt enc input,
  sorts_by_frequency sortF -> (bwt <> 115 -> sorts_suffixes sorter) -> (forall i, behind i < 256) -> are_bytes input -> (length input <= 5)%nat ->
  validStarts starts = true -> validBwt bwt = true -> In enc [117; 98; 66] -> megabytes mem <= 5804 ->
  exists archive, compressMain sortF sorter worth mem starts bwt enc [] input = Ok (Some (archive, length archive)) /\ decompress behind (waveletCoder worth') archive = Ok (input, length input).
Proof.
  intros sortF sorter0 worth worth' behind mem starts bwt enc input HF HS0 HB HI HL VS VB HE HM.
  destruct (main_any sortF sorter0 worth mem starts bwt enc [] input HS0) as (sorter & HS & EM). rewrite EM.
  destruct (limit_small mem ltac:(lia)) as [ML ML2]. destruct (bwt_bounds _ ML2) as (b & EB & _).
  apply (proj2 (main_wavelet sortF sorter worth worth' behind mem starts bwt enc input b HF HS HB HI VS VB HE HM EB)).
  intros (k & X). assert (LK : (length (firstn (N.to_nat b) (skipn (k * N.to_nat b) input)) <= 5)%nat) by (rewrite firstn_length, skipn_length; lia).
  apply stops_six in X; [lia|exact HS|apply are_bytes_firstn, are_bytes_skipn, HI|]. change (2 ^ 30) with 1073741824. lia.
Qed.

(** "bbbaaa" *)
Lemma main_six : forall sortF sorter worth mem starts bwt enc,
  sorts_by_frequency sortF -> (bwt <> 115 -> sorts_suffixes sorter) ->
  validStarts starts = true -> validBwt bwt = true -> In enc [117; 98; 66] -> megabytes mem <= 5804 ->
  compressMain sortF sorter worth mem starts bwt enc [] [98; 98; 98; 97; 97; 97] = UB.
Proof.
  intros sortF sorter worth mem starts bwt enc HF HS VS VB HE HM.
  assert (HI : are_bytes [98; 98; 98; 97; 97; 97]) by (repeat constructor).
  set (r := fun t : list N => sortSuffixes t (seq 0 (length t))). assert (HR : sorts_suffixes r) by exact suffix_array_exists.
  assert (EM : compressMain sortF sorter worth mem starts bwt enc [] [98; 98; 98; 97; 97; 97] = compressMain sortF r worth mem starts 115 enc [] [98; 98; 98; 97; 97; 97]).
  { destruct (N.eq_dec bwt 115) as [->|B]; [apply main_sais|].
    eapply eq_trans; [exact (main_same sortF sorter worth mem starts bwt 115 enc _ (HS B) HI VB eq_refl)|apply main_sais]. }
  rewrite EM. destruct (limit_small mem ltac:(lia)) as [ML ML2]. destruct (bwt_bounds _ ML2) as (b & EB & B1 & B2).
  apply (proj1 (main_wavelet sortF r worth worth (fun _ => 0) mem starts 115 enc [98; 98; 98; 97; 97; 97] b HF HR ltac:(reflexivity) HI VS eq_refl HE HM EB)).
  assert (M1 : 1 <= megabytes mem) by (unfold megabytes; destruct (N.eqb_spec mem 0); lia). change (10 ^ 15) with 1000000000000000 in *.
  exists 0%nat. cbn [Nat.mul skipn]. rewrite firstn_all2 by (cbn [length]; lia).
  split; [discriminate|].
  exists [98; 97; 97; 97; 98; 98], [1], (repeat 0 97 ++ [3; 3] ++ repeat 0 157), [6], [0; 0; 0; 0; 2; 1; 6], 7%nat, [98; 97; 97; 97; 98; 98], [(98, 1%nat); (97, 3%nat); (98, 2%nat)].
  split; [|split; [vm_compute; reflexivity|]; split; [left; reflexivity|]; split; [split; [reflexivity|]; split; [cbn; repeat split; discriminate|repeat constructor]|]].
  - unfold doTransform. change (prepareLFpowers (N.of_nat (length [98; 98; 98; 97; 97; 97])) starts) with 1. vm_compute. reflexivity.
  - exists 1%nat. split; [repeat constructor|]. split; [|left; repeat constructor]. exists 1%nat, 2%nat, 3%nat. cbn. repeat split; auto; discriminate.
Qed.

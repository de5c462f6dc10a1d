(** When the tree can be built. *)
From Coq Require Import List NArith Arith Bool Lia Sorted Permutation.
From Coq Require Import ZifyBool ZifyNat ZifyN.
From Verif Require Import Base Arrays ModelUtils ModelRuns SpecRuns ModelHuffman SpecHuffman ModelHuffmanCoder ModelWavelet SpecWavelet SpecHeaders.
From Verif Require Import ProofUtils2 ProofRuns ProofHuffman4 ProofHuffCoder3.
From Verif Require Import ProofWav1 ProofWav2 ProofWav3 ProofWav4 ProofWav5 ProofWav6 ProofWav7.
From Verif Require Import ProofWav8 ProofWav20 SpecChoice.
Import ListNotations.
Open Scope nat_scope.

(** The run lengths with the number of runs of that length. *)
Definition lengthCounts (runs : list (N * nat)) : list (N * N) :=
  map (fun n => (N.of_nat (count_occ Nat.eq_dec (map snd runs) n), N.of_nat n)) (nodup Nat.eq_dec (map snd runs)).

Lemma build_join : forall worth src freqs lens n lns T0 runs,
    calculateRunsAndCharacters (fun _ => 0%N) src (fun _ => 0%N) = Ok (freqs, lens, n) ->
    calculateHuffmanLengths (countersArray freqs) = Ok lns -> assignPrefixCodes (sortPairs lns) = Ok T0 -> emittedRuns src = Ok runs ->
    buildTree worth src =
      let! (W, intLengths) := findParameters worth (distribution lens runs) (N.of_nat n) in
      let! (intTree, intCodes) := integerTree intLengths in
      let! codes := collectCodes T0 in
      let! root := pushRuns codes intCodes W T0 runs in
      Ok (mkWavelet root codes intTree intCodes W).
Proof. intros * E0 E1 E2 E3. unfold buildTree. rewrite E0. cbn [bind]. rewrite E1. cbn [bind]. rewrite E2. cbn [bind]. rewrite E3. reflexivity. Qed.

Lemma build_choice : forall worth src runs, src <> [] -> Forall (fun c => c < 256)%N src -> (N.of_nat (length src) < 2 ^ 31)%N -> is_runs_of src runs ->
  ((exists r, findParameters worth (lengthCounts runs) (N.of_nat (length runs)) = Ok r) -> exists w, buildTree worth src = Ok w) /\
  (findParameters worth (lengthCounts runs) (N.of_nat (length runs)) = UB -> buildTree worth src = UB).
Proof.
  intros worth src runs0 NE AB LN IR.
  destruct (run_counters_all (fun _ => 0%N) (fun _ => 0%N) src NE) as (runs & f1 & freqs & lens & (R1 & R2 & R3) & _ & R4 & _ & R5 & R6).
  assert (runs0 = runs) by (eapply is_runs_of_unique; [exact IR|]; split; [exact R1|split; assumption]). subst runs0. clear IR.
  destruct (emittedRuns_spec src NE) as (runs' & R7 & R8).
  assert (runs' = runs) by (eapply is_runs_of_unique; [exact R8|]; split; [exact R1|split; assumption]). subst runs'.
  assert (RNE : runs <> []) by (intros ->; cbn in R1; congruence).
  assert (RC : Forall (fun c => c < 256)%N (map fst runs)).
  { apply Forall_forall. intros c Hc. rewrite Forall_forall in AB. apply AB. rewrite <- R1. apply expand_in; assumption. }
  pose proof (runs_count runs R3) as RL. rewrite R1 in RL.
  remember (countersArray freqs) as F eqn:HF0.
  assert (FL : length F = 256) by (rewrite HF0; unfold countersArray; rewrite map_length; apply fromTo_length).
  assert (FN : forall c, (c < 256)%N -> nth_error F (N.to_nat c) = Some (freqs c)).
  { intros c Hc. rewrite HF0; unfold countersArray. erewrite map_nth_error; [reflexivity|]. rewrite fromTo_nth by lia. f_equal. lia. }
  assert (FS : (sumN F < 2 ^ 31)%N).
  { pose proof (counts_bound 256 0 (map fst runs)) as B. rewrite map_length in B.
    rewrite HF0; unfold countersArray. erewrite map_ext; [|exact R5]. cbn [N.add]. eapply N.le_lt_trans; [exact B|]. lia. }
  assert (OCC : forall c, In c (map fst runs) -> occurs F c).
  { intros c Hc. exists (freqs c). rewrite Forall_forall in RC. split; [apply FN, RC, Hc|].
    rewrite R5. pose proof (proj1 (count_occ_In N.eq_dec (map fst runs) c) Hc). lia. }
  assert (FE : Exists (fun f => 0 < f)%N F).
  { destruct runs as [|[c n] runs]; [congruence|]. destruct (OCC c (or_introl eq_refl)) as (f & Hf & Pf).
    apply Exists_exists. exists f. split; [eapply nth_error_In; exact Hf|exact Pf]. }
  destruct (lens_cases F FE FS) as (lns & A1 & A2 & A3 & A4 & A5 & A6).
  assert (AR : Forall (fun p => 1 <= fst p <= 44 /\ snd p < 256)%N lns).
  { apply Forall_forall. intros p Hp. rewrite Forall_forall in A4, A5. specialize (A4 p Hp). specialize (A5 p Hp).
    split; [lia|]. assert (In (snd p) (map snd lns)) as HS by (apply in_map; exact Hp). apply A3 in HS. destruct HS as (f & Hf & _).
    apply nth_error_bound in Hf. lia. }
  destruct (char_table lns A2 AR A6) as (T0 & codes & B1 & B2 & B3 & B4 & B5).
  subst F. rewrite (build_join worth src freqs lens _ lns T0 runs R4 A1 B1 R7).
  assert (DE : distribution lens runs = lengthCounts runs). { unfold distribution, lengthCounts. apply map_ext. intros n. rewrite R6. reflexivity. }
  rewrite DE. rewrite B2.
  split; [|intros ->; reflexivity].
  intros ([W L] & EF). rewrite EF. cbn [bind].
  assert (DN : map snd (lengthCounts runs) = map N.of_nat (nodup Nat.eq_dec (map snd runs))).
  { unfold lengthCounts. rewrite map_map. reflexivity. }
  assert (DIN : forall p, In p (lengthCounts runs) -> exists n, In n (map snd runs) /\ p = (lens n, N.of_nat n)).
  { intros p Hp. rewrite <- DE in Hp. unfold distribution in Hp. apply in_map_iff in Hp. destruct Hp as (n & <- & Hn). apply nodup_In in Hn. eauto. }
  assert (R3' : forall n, In n (map snd runs) -> 1 <= n <= length src).
  { intros n Hn. apply in_map_iff in Hn. destruct Hn as (r & <- & Hr). pose proof (runs_length_in runs r Hr) as B. rewrite R1 in B.
    rewrite Forall_forall in R3. specialize (R3 r Hr). lia. }
  assert (DS : (sumFst (lengthCounts runs) <= N.of_nat (length runs))%N).
  { rewrite <- DE, <- (map_length snd runs). unfold distribution. apply counts_nodup; [apply NoDup_nodup|]. intros n. rewrite R6. lia. }
  destruct (findParameters_spec worth (lengthCounts runs) (N.of_nat (length runs)) W L) as [HW HL].
  { rewrite DN. apply FinFun.Injective_map_NoDup; [intros a b; apply Nat2N.inj|apply NoDup_nodup]. }
  { apply Forall_forall. intros p Hp. destruct (DIN p Hp) as (n & Hn & ->). cbn [fst]. rewrite R6.
    pose proof (proj1 (count_occ_In Nat.eq_dec (map snd runs) n) Hn). lia. }
  { apply Forall_forall. intros p Hp. destruct (DIN p Hp) as (n & Hn & ->). cbn [snd]. specialize (R3' n Hn). lia. }
  { change (2 ^ 31)%N with 2147483648%N in LN. unfold two64. lia. }
  { exact EF. }
  assert (VAL : forall x, In x (map snd L) -> (x <= N.of_nat (length src))%N /\ (x <> 0%N -> In (N.to_nat x) (map snd runs))).
  { intros x Hx. destruct HL as [->|(_ & _ & HL)]; [destruct Hx|]. destruct (HL x Hx) as [->|Hx']; [split; [lia|congruence]|].
    rewrite DN in Hx'. apply in_map_iff in Hx'. destruct Hx' as (n & <- & Hn). apply nodup_In in Hn. rewrite Nat2N.id. specialize (R3' n Hn). split; [lia|auto]. }
  assert (LL : length L <= S (length src)).
  { destruct HL as [->|((_ & _ & _ & HL & _) & _)]; [cbn; lia|]. rewrite <- (map_length snd L).
    assert (IC : incl (map snd L) (fromTo 0 (S (length src)))).
    { intros x Hx. destruct (VAL x Hx) as [V _]. apply nth_error_In with (n := N.to_nat x). rewrite fromTo_nth by lia. f_equal. lia. }
    pose proof (NoDup_incl_length HL IC) as B. rewrite fromTo_length in B. exact B. }
  destruct (integerTree_spec (lengthCounts runs) L) as (intTree & intCodes & I1 & I2 & I3 & I4).
  { change (2 ^ 31)%N with 2147483648%N in LN. unfold two64. lia. } { exact HL. }
  rewrite I1. cbn [bind].
  destruct (pushed_tree T0 codes intTree intCodes W runs B3 B4 I2 HW) as (ws & T & P1 & P2 & P3 & P4).
  { apply Forall_forall. intros r Hr. rewrite <- sizes_symbols, B5.
    eapply Permutation_in; [apply Permutation_map; symmetry; apply sortPairs_perm|]. apply A3, OCC, in_map, Hr. }
  { apply Forall_forall. intros r Hr. specialize (R3' (snd r) (in_map snd _ _ Hr)).
    change (2 ^ 31)%N with 2147483648%N in LN. change (2 ^ 32)%N with 4294967296%N. lia. }
  rewrite P1. cbn [bind]. eexists. reflexivity.
Qed.

Lemma fixedLength_spec : forall x w, (1 <= x < 2 ^ 32 -> w <= 15 -> lengthOfFixedCode x w = Ok (fixedLength w x))%N.
Proof.
  intros x w Hx Hw. destruct (fixed_form x w Hx Hw) as (k & v & _ & EL & _ & Hv & Ex). rewrite EL. f_equal. unfold fixedLength.
  assert (P : (0 < 2 ^ w)%N) by (apply N.neq_0_lt_0, N.pow_nonzero; lia). assert (Q : (0 < 2 ^ N.of_nat k)%N) by (apply N.neq_0_lt_0, N.pow_nonzero; lia).
  assert (EX : (x - 1 + 2 ^ w = 2 ^ (w + N.of_nat k) + v)%N) by (rewrite N.pow_add_r; rewrite Ex, N.mul_sub_distr_l, N.mul_1_r; assert (2 ^ w * 1 <= 2 ^ w * 2 ^ N.of_nat k)%N by (apply N.mul_le_mono_l; lia); lia).
  rewrite EX. rewrite (N.log2_unique (2 ^ (w + N.of_nat k) + v) (w + N.of_nat k)); [lia|lia|]. split; [lia|].
  rewrite N.pow_succ_r by lia. replace (N.of_nat (k + N.to_nat w))%N with (w + N.of_nat k)%N in Hv by lia. lia.
Qed.

Lemma three_distinct : forall l : list nat, NoDup l -> 3 <= length l <-> exists a b c, In a l /\ In b l /\ In c l /\ a <> b /\ a <> c /\ b <> c.
Proof.
  intros l ND. split.
  - intros H. destruct l as [|a [|b [|c l]]]; cbn in H; try lia. exists a, b, c. inversion_clear ND as [|? ? N1 N2]. inversion_clear N2 as [|? ? N3 _].
    cbn in *. repeat split; auto; intros ->; intuition.
  - intros (a & b & c & H1 & H2 & H3 & D1 & D2 & D3). assert (I : incl [a; b; c] l) by (intros x [<-|[<-|[<-|[]]]]; assumption).
    apply NoDup_incl_length in I; [exact I|]. repeat constructor; cbn; intuition.
Qed.

Lemma stuck_runs : forall worth runs, (N.of_nat (length runs) < 2 ^ 31)%N -> Forall (fun r => 1 <= snd r /\ (N.of_nat (snd r) < 2 ^ 31)%N) runs -> runs <> [] ->
  (exists w, (w <= 15)%N /\ stuck worth (N.of_nat (length runs)) (lengthCounts runs) w) <-> cannotChoose worth runs.
Proof.
  intros worth runs LN HR NE.
  assert (LIN : forall p, In p (lengthCounts runs) <-> exists n, In n (map snd runs) /\ p = (N.of_nat (count_occ Nat.eq_dec (map snd runs) n), N.of_nat n)).
  { intros p. unfold lengthCounts. rewrite in_map_iff. split; intros (n & H1 & H2); exists n; [rewrite nodup_In in H2; auto|rewrite nodup_In; auto]. }
  assert (LEN : length (lengthCounts runs) = length (nodup Nat.eq_dec (map snd runs))) by apply map_length.
  assert (RNG : forall n, In n (map snd runs) -> (1 <= N.of_nat n < 2 ^ 32)%N).
  { intros n Hn. apply in_map_iff in Hn. destruct Hn as (r & <- & Hr). rewrite Forall_forall in HR. specialize (HR r Hr).
    change (2 ^ 31)%N with 2147483648%N in HR. change (2 ^ 32)%N with 4294967296%N. lia. }
  assert (TK : forall w n k, (w <= 15)%N -> In n (map snd runs) ->
     taken worth (N.of_nat (length runs)) w 3 (k, N.of_nat n) = worth (N.of_nat (length runs)) k ((k * (3 + fixedLength w (N.of_nat n))) mod 2 ^ 64)%N && (10 <=? k)%N).
  { intros w n k Hw Hn. destruct (fixed_form (N.of_nat n) w (RNG n Hn) Hw) as (i & v & _ & EL & B & _).
    assert (EF := fixedLength_spec (N.of_nat n) w (RNG n Hn) Hw). rewrite EL in EF. injection EF as EF. rewrite <- EF.
    unfold taken. cbn [fst snd]. rewrite EL. rewrite (N.mod_small (3 + _)%N) by (unfold two32; lia). reflexivity. }
  split.
  - intros (w & Hw & (S1 & S2 & S3)).
    rewrite LEN in S1. apply three_distinct in S1; [|apply NoDup_nodup]. destruct S1 as (a & b & c & Ha & Hb & Hc & D). rewrite nodup_In in Ha, Hb, Hc.
    exists (count_occ Nat.eq_dec (map snd runs) a).
    assert (AL : Forall (fun r => count_occ Nat.eq_dec (map snd runs) (snd r) = count_occ Nat.eq_dec (map snd runs) a) runs).
    { apply Forall_forall. intros r Hr. apply Nat2N.inj.
      apply (S2 (N.of_nat (count_occ Nat.eq_dec (map snd runs) (snd r)), N.of_nat (snd r)) (N.of_nat (count_occ Nat.eq_dec (map snd runs) a), N.of_nat a)); apply LIN; eexists; (split; [|reflexivity]); [apply in_map; exact Hr|exact Ha]. }
    split; [exact AL|]. split; [exists a, b, c; auto|].
    destruct (Nat.lt_ge_cases (count_occ Nat.eq_dec (map snd runs) a) 10) as [SM|BG]; [left; exact SM|right]. exists w. split; [exact Hw|].
    apply Forall_forall. intros r Hr. pose proof (TK w (snd r) (N.of_nat (count_occ Nat.eq_dec (map snd runs) a)) Hw (in_map snd _ _ Hr)) as E2.
    unfold runsOfLength in AL. rewrite Forall_forall in AL. rewrite <- (AL r Hr) in E2 at 1. rewrite S3 in E2.
    + symmetry in E2. apply andb_false_iff in E2. destruct E2 as [E2|E2]; [exact E2|lia].
    + apply LIN. exists (snd r). split; [apply in_map; exact Hr|reflexivity].
  - intros (k & AL & (a & b & c & Ha & Hb & Hc & D) & H).
    assert (KN : forall n, In n (map snd runs) -> count_occ Nat.eq_dec (map snd runs) n = k).
    { intros n Hn. apply in_map_iff in Hn. destruct Hn as (r & <- & Hr). rewrite Forall_forall in AL. apply AL. exact Hr. }
    assert (G : exists w, (w <= 15)%N /\ forall n, In n (map snd runs) -> taken worth (N.of_nat (length runs)) w 3 (N.of_nat k, N.of_nat n) = false).
    { destruct H as [H|(w & Hw & H)].
      - exists 0%N. split; [lia|]. intros n Hn. rewrite (TK 0%N n (N.of_nat k) ltac:(lia) Hn). replace (10 <=? N.of_nat k)%N with false by lia. apply andb_false_r.
      - exists w. split; [exact Hw|]. intros n Hn. rewrite (TK w n (N.of_nat k) Hw Hn). apply in_map_iff in Hn. destruct Hn as (r & <- & Hr).
        rewrite Forall_forall in H. rewrite (H r Hr). reflexivity. }
    destruct G as (w & Hw & G). exists w. split; [exact Hw|]. split; [|split].
    + rewrite LEN. apply three_distinct; [apply NoDup_nodup|]. exists a, b, c. rewrite !nodup_In. auto.
    + intros p q Hp Hq. apply LIN in Hp, Hq. destruct Hp as (n & Hn & ->), Hq as (m & Hm & ->). cbn [fst]. rewrite (KN n Hn), (KN m Hm). reflexivity.
    + intros p Hp. apply LIN in Hp. destruct Hp as (n & Hn & ->). rewrite (KN n Hn). apply G. exact Hn.
Qed.

Lemma build_total : forall worth src runs, src <> [] -> Forall (fun c => c < 256)%N src -> (N.of_nat (length src) < 2 ^ 31)%N -> is_runs_of src runs ->
  (cannotChoose worth runs -> buildTree worth src = UB) /\ (~ cannotChoose worth runs -> exists w, buildTree worth src = Ok w).
Proof.
  intros worth src runs NE AB LN IR. destruct (build_choice worth src runs NE AB LN IR) as [C1 C2].
  destruct IR as (R1 & R2 & R3). pose proof (runs_count runs R3) as RL. rewrite R1 in RL.
  assert (RNE : runs <> []) by (intros ->; cbn in R1; congruence).
  assert (R3' : forall n, In n (map snd runs) -> 1 <= n <= length src).
  { intros n Hn. apply in_map_iff in Hn. destruct Hn as (r & <- & Hr). pose proof (runs_length_in runs r Hr) as B. rewrite R1 in B.
    rewrite Forall_forall in R3. specialize (R3 r Hr). lia. }
  assert (LIN : forall p, In p (lengthCounts runs) -> exists n, In n (map snd runs) /\ p = (N.of_nat (count_occ Nat.eq_dec (map snd runs) n), N.of_nat n)).
  { intros p. unfold lengthCounts. rewrite in_map_iff. intros (n & H1 & H2). rewrite nodup_In in H2. exists n. auto. }
  destruct (findParameters_total worth (N.of_nat (length runs)) (lengthCounts runs)) as [T1 T2].
  { unfold lengthCounts. rewrite map_map. apply FinFun.Injective_map_NoDup; [intros a b; apply Nat2N.inj|apply NoDup_nodup]. }
  { apply Forall_forall. intros p Hp. destruct (LIN p Hp) as (n & Hn & ->). cbn [fst]. pose proof (proj1 (count_occ_In Nat.eq_dec (map snd runs) n) Hn). lia. }
  { apply Forall_forall. intros p Hp. destruct (LIN p Hp) as (n & Hn & ->). cbn [snd]. specialize (R3' n Hn).
    change (2 ^ 31)%N with 2147483648%N in LN. change (2 ^ 32)%N with 4294967296%N. lia. }
  { assert (DS : (sumFst (lengthCounts runs) <= N.of_nat (length runs))%N); [|lia].
    rewrite <- (map_length snd runs). unfold lengthCounts. apply (counts_nodup (nodup Nat.eq_dec (map snd runs)) (NoDup_nodup _ _) (map snd runs) (fun n => N.of_nat (count_occ Nat.eq_dec (map snd runs) n))). reflexivity. }
  { destruct runs as [|r runs]; [congruence|]. intros C. assert (In (snd r) (nodup Nat.eq_dec (map snd (r :: runs)))) as H by (apply nodup_In; left; reflexivity).
    unfold lengthCounts in C. apply map_eq_nil in C. rewrite C in H. destruct H. }
  assert (ST := stuck_runs worth runs ltac:(lia)). destruct ST as [ST1 ST2]; [|exact RNE|].
  { apply Forall_forall. intros r Hr. specialize (R3' _ (in_map snd _ _ Hr)). lia. }
  split.
  - intros C. apply C2, T2, ST2, C.
  - intros C. apply C1, T1. intros w Hw S. apply C, ST1. exists w. auto.
Qed.

Lemma always_built : forall worth src runs, src <> [] -> Forall (fun c => c < 256)%N src -> (N.of_nat (length src) < 2 ^ 31)%N -> is_runs_of src runs ->
  (exists a b, In a (map snd runs) /\ In b (map snd runs) /\ runsOfLength runs a <> runsOfLength runs b) \/
  (exists a b, Forall (fun r => snd r = a \/ snd r = b) runs) ->
  exists w, buildTree worth src = Ok w.
Proof.
  intros worth src runs NE AB LN IR H. apply (build_total worth src runs NE AB LN IR). intros (k & AL & (a & b & c & Ha & Hb & Hc & D) & _).
  rewrite Forall_forall in AL. destruct H as [(x & y & Hx & Hy & H)|(x & y & H)].
  - apply in_map_iff in Hx, Hy. destruct Hx as (r & <- & Hx), Hy as (s & <- & Hy). rewrite (AL r Hx), (AL s Hy) in H. congruence.
  - rewrite Forall_forall in H. apply in_map_iff in Ha, Hb, Hc. destruct Ha as (p & <- & Ha), Hb as (q & <- & Hb), Hc as (r & <- & Hc).
    pose proof (H p Ha). pose proof (H q Hb). pose proof (H r Hc). lia.
Qed.
Lemma never_built : forall worth src runs k, src <> [] -> Forall (fun c => c < 256)%N src -> (N.of_nat (length src) < 2 ^ 31)%N -> is_runs_of src runs ->
  k < 10 -> Forall (fun r => runsOfLength runs (snd r) = k) runs ->
  (exists a b c, In a (map snd runs) /\ In b (map snd runs) /\ In c (map snd runs) /\ a <> b /\ a <> c /\ b <> c) ->
  buildTree worth src = UB.
Proof. intros worth src runs k NE AB LN IR Hk AL H. apply (build_total worth src runs NE AB LN IR). exists k. auto. Qed.

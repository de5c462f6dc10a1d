(** Choosing codes for run lengths of equal frequency. *)
From Coq Require Import List NArith Arith Bool Lia.
From Coq Require Import ZifyBool ZifyNat ZifyN.
From Verif Require Import Base Arrays ModelUtils ModelRuns ModelHuffman ModelHuffmanCoder ModelWavelet SpecRuns ProofRuns.
From Verif Require Import ProofWav8.
Import ListNotations.
Open Scope N_scope.

Lemma bind_ext : forall {A B} (m : outcome A) (f g : A -> outcome B), (forall a, m = Ok a -> f a = g a) -> bind m f = bind m g.
Proof. intros A B [a| |] f g H; cbn [bind]; auto. Qed.

(** Frequencies below 10 never make the oracle count. *)
Lemma guess_rare : forall worth w depth t freqs i st, Forall (fun p => fst p < 10) freqs ->
  guess worth w depth t freqs i st = guess (fun _ _ _ => false) w depth t freqs i st.
Proof.
  intros worth w depth t. induction freqs as [|[f x] r IH]; intros i st HF; [reflexivity|]. inversion HF as [|? ? H1 H2]; subst. cbn [fst] in H1.
  cbn [guess]. destruct st as [[[removed nr] cl] mf]. destruct (lengthOfFixedCode x w) as [len| |]; cbn [bind]; try reflexivity.
  replace (10 <=? f) with false by lia. rewrite andb_false_r. cbn [andb]. apply IH. exact H2.
Qed.
Lemma bits_rare : forall worth w depth freqs t, Forall (fun p => fst p < 10) freqs ->
  bitsForIntegers worth w depth freqs t = bitsForIntegers (fun _ _ _ => false) w depth freqs t.
Proof. intros. unfold bitsForIntegers. rewrite guess_rare by assumption. reflexivity. Qed.
Lemma plainRound_rare : forall worth ws freqs t lb bw, Forall (fun p => fst p < 10) freqs ->
  plainRound worth ws freqs t lb bw = plainRound (fun _ _ _ => false) ws freqs t lb bw.
Proof.
  intros worth ws freqs t lb bw HF. revert bw. induction ws as [|w ws IH]; intros bw; [reflexivity|]. cbn [plainRound].
  rewrite bits_rare by exact HF. apply bind_ext. intros [b l] _. apply IH.
Qed.
Lemma depthRound_rare : forall worth w ds freqs t st, Forall (fun p => fst p < 10) freqs ->
  depthRound worth w ds freqs t st = depthRound (fun _ _ _ => false) w ds freqs t st.
Proof.
  intros worth w ds freqs t st HF. revert st. induction ds as [|d ds IH]; intros st; [reflexivity|]. cbn [depthRound].
  rewrite bits_rare by exact HF. apply bind_ext. intros [b l] _.
  destruct (b =? 0); [reflexivity|]. destruct st as [[lb bw] cl]. apply IH.
Qed.
Lemma semiRound_rare : forall worth ws freqs t st, Forall (fun p => fst p < 10) freqs ->
  semiRound worth ws freqs t st = semiRound (fun _ _ _ => false) ws freqs t st.
Proof.
  intros worth ws freqs t st HF. revert st. induction ws as [|w ws IH]; intros st; [reflexivity|]. cbn [semiRound].
  rewrite depthRound_rare by exact HF. apply bind_ext. intros st' _. apply IH.
Qed.
Lemma findParameters_rare : forall worth freqs t, Forall (fun p => fst p < 10) (sortPairs freqs) ->
  findParameters worth freqs t = findParameters (fun _ _ _ => false) freqs t.
Proof.
  intros worth freqs t HF. unfold findParameters. destruct freqs as [|p r]; [reflexivity|]. cbv zeta.
  rewrite bits_rare by exact HF. apply bind_ext. intros [b l] _.
  rewrite plainRound_rare by exact HF. apply bind_ext. intros bw _.
  rewrite semiRound_rare by exact HF. reflexivity.
Qed.

Lemma buildTree_rare : forall worth src, src <> [] -> (length src < 10)%nat -> buildTree worth src = buildTree (fun _ _ _ => false) src.
Proof.
  intros worth src NE HL. unfold buildTree.
  apply bind_ext. intros [[freqs lens] n] E0. apply bind_ext. intros lns E1. apply bind_ext. intros T0 E2. apply bind_ext. intros runs E3.
  rewrite findParameters_rare; [reflexivity|].
  destruct (run_counters_all (fun _ => 0) (fun _ => 0) src NE) as (runs' & f1 & f2 & lens' & R & _ & R4 & _ & _ & R6).
  rewrite R4 in E0. injection E0 as <- <- <-.
  destruct (emittedRuns_spec src NE) as (runs'' & R7 & R8). rewrite R7 in E3. injection E3 as <-.
  assert (runs'' = runs') by (eapply is_runs_of_unique; eassumption). subst runs''.
  eapply Permutation.Permutation_Forall; [symmetry; apply ProofHuffman4.sortPairs_perm|].
  apply Forall_forall. intros p Hp. unfold distribution in Hp. apply in_map_iff in Hp. destruct Hp as (m & <- & _). cbn [fst]. rewrite R6.
  pose proof (count_occ_bound Nat.eq_dec m (map snd runs')) as B. rewrite map_length in B.
  destruct R as (R1 & _ & R3). pose proof (runs_count runs' R3) as C. rewrite R1 in C. lia.
Qed.

(** Three runs of different lengths. *)
Lemma three_runs : buildTree (fun _ _ _ => false) [97; 98; 98; 99; 99; 99] = UB.
Proof. vm_compute. reflexivity. Qed.
Lemma C23_witness : forall worth, buildTree worth [97; 98; 98; 99; 99; 99] = UB.
Proof. intros worth. rewrite buildTree_rare; [apply three_runs|discriminate|cbn; lia]. Qed.
Lemma C23_all : exists src, src <> [] /\ Forall (fun c => c < 256) src /\ forall worth, buildTree worth src = UB.
Proof. exists [97; 98; 98; 99; 99; 99]. split; [discriminate|]. split; [repeat constructor|apply C23_witness]. Qed.

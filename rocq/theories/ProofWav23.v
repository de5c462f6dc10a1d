(** Sharper bounds on the size of a section. *)
From Coq Require Import List NArith Arith Bool Lia Permutation.
From Coq Require Import ZifyBool ZifyNat ZifyN.
From Verif Require Import Base Arrays SpecRuns SpecHeaders ModelUtils ModelHeaders ModelRuns ModelHuffman ModelHuffmanCoder ModelBitCoder ModelProb ModelWavelet.
From Verif Require Import ProofUtils1 ProofUtils2 ProofUtils3 ProofRuns ProofHuffman4 ProofHuffCoder3 ProofHuffCoder4 ProofBitCoder.
From Verif Require Import ProofHuffman6 ProofWav1 ProofWav2 ProofWav3 ProofWav4 ProofWav5 ProofWav6 ProofWav7 ProofWav8 ProofWav9 ProofWav10 ProofWav11 ProofWav12 ProofWav13 ProofWav14 ProofWav15 ProofWav16 ProofWav17.
Import ListNotations.
Open Scope nat_scope.

Lemma sum_incl : forall l m, NoDup l -> incl l m -> list_sum l <= list_sum m.
Proof.
  induction l as [|x l IH]; intros m ND H; [cbn; lia|]. inversion_clear ND as [|? ? N1 N2].
  destruct (in_split x m (H x (or_introl eq_refl))) as (m1 & m2 & ->).
  assert (IH' := IH (m1 ++ m2) N2). rewrite list_sum_app in *. cbn [list_sum fold_right] in *. fold (list_sum l) (list_sum m2).
  enough (list_sum l <= list_sum m1 + list_sum m2) by lia. apply IH'. intros y Hy.
  assert (In y (m1 ++ x :: m2)) as C by (apply H; right; exact Hy). apply in_app_iff in C. apply in_app_iff. destruct C as [C|[C|C]]; auto. congruence.
Qed.
Lemma sum_distinct : forall M l, NoDup l -> Forall (fun x => 1 <= x <= M) l -> length l * S (length l) <= 2 * list_sum l.
Proof.
  induction M as [|M IH]; intros l ND H.
  - destruct l as [|x l]; [cbn; lia|]. inversion_clear H as [|? ? H1 H2]. lia.
  - destruct (in_dec Nat.eq_dec (S M) l) as [I|I].
    + destruct (in_split _ _ I) as (l1 & l2 & ->). pose proof (NoDup_remove_1 _ _ _ ND) as N1. pose proof (NoDup_remove_2 _ _ _ ND) as N2.
      assert (F : Forall (fun x => 1 <= x <= M) (l1 ++ l2)).
      { apply Forall_forall. intros x Hx. rewrite Forall_forall in H. assert (x <> S M) by (intros ->; contradiction).
        specialize (H x). assert (In x (l1 ++ S M :: l2)) as C by (apply in_app_iff in Hx; apply in_app_iff; cbn; intuition). specialize (H C). lia. }
      assert (B : length (l1 ++ l2) <= M).
      { rewrite <- (seq_length M 1). apply NoDup_incl_length; [exact N1|]. intros x Hx. apply in_seq. rewrite Forall_forall in F. specialize (F x Hx). lia. }
      specialize (IH _ N1 F). rewrite app_length in *. rewrite list_sum_app in *. cbn [length list_sum fold_right] in *. fold (list_sum l2). nia.
    + apply IH; [exact ND|]. apply Forall_forall. intros x Hx. rewrite Forall_forall in H. specialize (H x Hx). assert (x <> S M) by (intros ->; contradiction). lia.
Qed.
Lemma expand_sum : forall runs, length (expand runs) = list_sum (map snd runs).
Proof.
  induction runs as [|[c n] runs IH]; [reflexivity|]. unfold expand in *. cbn [map flat_map fst snd list_sum fold_right]. fold (list_sum (map snd runs)). rewrite app_length, repeat_length, IH. reflexivity.
Qed.

Section Sharp.
Variables (src : list N) (w : wavelet) (T0 : wtree) (runs : list (N * nat)) (ws : list word) (CL L : list (N * N)).
Hypothesis HB : built src w T0 runs ws CL L.
Hypothesis LN : (N.of_nat (length src) < 2 ^ 30)%N.

Lemma few_codes : (N.of_nat (length L) <= 46341)%N.
Proof.
  pose proof (b_tables _ _ _ _ _ _ _ HB) as TB. pose proof (b_runs _ _ _ _ _ _ _ HB) as (R1 & _ & R3).
  destruct (tb_lengths _ _ _ _ _ _ TB) as [(-> & _ & _)|((_ & _ & _ & ND & _) & _)]; [cbn; lia|].
  set (l := filter (fun x => negb (x =? 0)) (map (fun p => N.to_nat (snd p)) L)).
  assert (N1 : NoDup (map (fun p => N.to_nat (snd p)) L)).
  { rewrite <- (map_map snd N.to_nat). apply FinFun.Injective_map_NoDup; [intros a b; apply N2Nat.inj|exact ND]. }
  assert (N2 : NoDup l) by (apply NoDup_filter; exact N1).
  assert (IN : forall x, In x l -> 1 <= x /\ In x (map snd runs)).
  { intros x Hx. apply filter_In in Hx. destruct Hx as [Hx NZ]. apply in_map_iff in Hx. destruct Hx as (p & <- & Hp).
    destruct (b_values _ _ _ _ _ _ _ HB (snd p) (in_map snd _ _ Hp)) as [_ V]. split; [lia|]. apply V. lia. }
  assert (S1 : length l * S (length l) <= 2 * list_sum l).
  { apply (sum_distinct (length src)); [exact N2|]. apply Forall_forall. intros x Hx. destruct (IN x Hx) as [P I]. split; [exact P|].
    apply in_map_iff in I. destruct I as (r & <- & Hr). pose proof (runs_length_in runs r Hr) as B. rewrite R1 in B. exact B. }
  assert (S2 : list_sum l <= length src).
  { rewrite <- R1, expand_sum. apply sum_incl; [exact N2|]. intros x Hx. apply IN. exact Hx. }
  assert (LL : length L <= S (length l)).
  { rewrite <- (map_length (fun p => N.to_nat (snd p)) L). change (S (length l)) with (length (0 :: l)). apply NoDup_incl_length; [exact N1|].
    intros x Hx. destruct (Nat.eq_dec x 0) as [->|NZ]; [left; reflexivity|right]. apply filter_In. split; [exact Hx|]. lia. }
  clear - LN S1 S2 LL. change (2 ^ 30)%N with 1073741824%N in LN. assert (B : (N.of_nat (length l) < 46341)%N); [|lia].
  assert (S3 : (N.of_nat (length l) * (N.of_nat (length l) + 1) < 2147483648)%N) by lia.
  destruct (N.lt_ge_cases (N.of_nat (length l)) 46341) as [G|G]; [exact G|exfalso].
  assert (46341 * 46342 <= N.of_nat (length l) * (N.of_nat (length l) + 1))%N by (apply N.mul_le_mono; lia). lia.
Qed.
Lemma int_height2 : (N.of_nat (height (w_intTree w)) <= 46342)%N.
Proof.
  pose proof (b_tables _ _ _ _ _ _ _ HB) as TB. pose proof (tb_table _ _ _ _ _ _ TB) as IT. pose proof few_codes as FC.
  destruct (tb_lengths _ _ _ _ _ _ TB) as [(_ & -> & _)|((_ & LG & _) & LS & _)]; [cbn; lia|].
  destruct (intTable_tree _ _ IT) as [->|HC]; [cbn; lia|].
  assert (DH : height (w_intTree w) <= length L); [|lia]. apply (dense_height _ (length L)); [apply full_dense; exact (intTable_full _ _ IT)|].
  eapply code_tree_height; [exact HC|]. intros s c H. apply sizes_in in H. rewrite LS in H. rewrite Forall_forall in LG. specialize (LG _ H). cbn [fst] in LG. lia.
Qed.
Lemma tree_height2 : (N.of_nat (height (w_root w)) <= 46500)%N.
Proof.
  pose proof int_height2 as IH2. assert (DH : height (w_root w) <= 150 + height (w_intTree w)); [|lia]. apply dense_height; [exact (b_full _ _ _ _ _ _ _ HB)|]. intros q Hq. rewrite (b_look _ _ _ _ _ _ _ HB) in Hq. unfold stored in Hq.
  destruct (look T0 q) as [n|] eqn:E; [pose proof (codes_height _ _ _ _ _ _ _ HB q ltac:(congruence)); lia|].
  fold (wordsOf ws) in Hq. destruct (ends q (wordsOf ws)) as [|s ss] eqn:EE; [congruence|].
  assert (H : In s (ends q (wordsOf ws))) by (rewrite EE; left; reflexivity). apply ends_in in H.
  pose proof (runWords_all _ _ _ _ _ (b_words _ _ _ _ _ _ _ HB)) as HA. rewrite Forall_forall in HA.
  destruct (HA _ H) as (c & x & cc & ic & EQ & L1 & L2 & _). pose proof (codes_height _ _ _ _ _ _ _ HB cc ltac:(congruence)).
  pose proof (intWord_length _ _ _ _ (b_W _ _ _ _ _ _ _ HB) L2).
  apply (f_equal (@length bool)) in EQ. rewrite !app_length in EQ. lia.
Qed.
Lemma calls_count2 : forall PM GM AM ms cs ms', encodeTreeBF PM GM AM (w_root w) ms = Ok (cs, ms') -> (N.of_nat (length cs) <= N.of_nat (length src) * 46500)%N.
Proof.
  intros PM GM AM ms cs ms' E. apply tree_count with (W := wordsOf ws) in E.
  - assert (LH : length (heads (wordsOf ws)) <= length src).
    { eapply Nat.le_trans; [apply heads_le|]. unfold wordsOf. rewrite map_length. exact (word_count _ _ _ _ _ _ _ HB). }
    pose proof tree_height2 as TH. assert (E2 : (N.of_nat (length cs) <= N.of_nat (length (heads (wordsOf ws))) * N.of_nat (height (w_root w)))%N) by (rewrite <- Nat2N.inj_mul; lia).
    eapply N.le_trans; [exact E2|]. apply N.mul_le_mono; [lia|exact TH].
  - intros q n EQ. rewrite (b_look _ _ _ _ _ _ _ HB) in EQ. unfold stored in EQ. fold (wordsOf ws) in EQ. destruct (look T0 q); [injection EQ as <-; reflexivity|].
    destruct (ends q (wordsOf ws)); [discriminate|]. injection EQ as <-. reflexivity.
Qed.

Lemma integer_size2 : forall intCodes d m bits, d <= m -> (N.of_nat m < 2 ^ 31)%N -> length intCodes <= d -> Forall (fun c => (fst c <= N.of_nat m)%N /\ length (snd c) <= d) intCodes ->
  integerShape intCodes = Ok bits -> length bits <= 192 + 31 * d + (d + 1) * d.
Proof using LN src.
  intros intCodes d m bits DM M LC HF H. unfold integerShape in H.
  assert (P : Permutation (integerSizes intCodes) (map (fun c => (fst c, N.of_nat (length (snd c)))) intCodes)) by apply sortPairs_perm.
  assert (LS : length (integerSizes intCodes) = length intCodes) by (rewrite (Permutation_length P); apply map_length).
  assert (FS : Forall (fun p => fst p <= N.of_nat m /\ snd p <= N.of_nat d)%N (integerSizes intCodes)).
  { eapply Permutation_Forall; [symmetry; exact P|]. apply Forall_forall. intros p Hp. apply in_map_iff in Hp. destruct Hp as (c & <- & Hc).
    rewrite Forall_forall in HF. specialize (HF _ Hc). cbn [fst snd]. lia. }
  set (sizes := integerSizes intCodes) in *. clearbody sizes.
  assert (ML : (maxLength (map snd sizes) < N.of_nat d + 1)%N).
  { apply maxLength_lt; [lia|]. apply Forall_forall. intros l Hl. apply in_map_iff in Hl. destruct Hl as (p & <- & Hp).
    rewrite Forall_forall in FS. specialize (FS _ Hp). lia. }
  assert (B31 : (2 ^ 31 + 1 < 2 ^ 56)%N) by reflexivity.
  destruct (rev sizes) as [|[back bl] t] eqn:ER; [discriminate|].
  assert (BM : (back <= N.of_nat m)%N).
  { assert (I : In (back, bl) sizes) by (apply in_rev; rewrite ER; left; reflexivity). rewrite Forall_forall in FS. specialize (FS _ I). cbn [fst] in FS. lia. }
  apply bind_inv in H. destruct H as ([packed bytes] & E1 & H). apply pack_bytes in E1; [|lia].
  apply bind_inv in H. destruct H as (more & E2 & H). apply ok_inj in H. subst bits. rewrite app_length, pushBitsRev_length.
  assert (MB : length more <= 128 + 31 * d + (d + 1) * d); [|lia].
  destruct (0 <? packed)%N; [|injection E2 as <-; cbn [length]; lia].
  apply bind_inv in E2. destruct E2 as ([p1 b1] & E3 & E2). apply bind_inv in E2. destruct E2 as ([p2 b2] & E4 & E2).
  apply bind_inv in E2. destruct E2 as (interp & E5 & E2). apply bind_inv in E2. destruct E2 as (unary & E6 & E2). apply ok_inj in E2. subst more.
  apply pack_bytes in E3; [|lia]. apply pack_bytes in E4; [|lia]. apply interpCode_length in E5. apply integerUnary_length in E6.
  rewrite map_length in E5, E6. rewrite !app_length, !pushBitsRev_length.
  assert ((N.to_nat (maxLength (map snd sizes)) + 1) * length sizes <= (d + 1) * d) by (apply Nat.mul_le_mono; lia). lia.
Qed.
Lemma shape_size2 : forall bits, treeShape w = Ok bits -> (N.of_nat (length bits) <= 2200000000)%N.
Proof.
  intros bits H. destruct (shape_parts _ _ H) as (chars & ints & E1 & E2 & ->).
  pose proof (b_tables _ _ _ _ _ _ _ HB) as TB. destruct (intCodes_small _ _ _ _ _ _ _ HB) as [I1 I2].
  apply character_size in E1; [|rewrite (tb_sizes _ _ _ _ _ _ TB); exact (tb_range _ _ _ _ _ _ TB)].
  change (2 ^ 30)%N with 1073741824%N in LN.
  set (d := Nat.max 1 (length L)). assert (D0 : (N.of_nat d <= 46341)%N) by (pose proof few_codes; lia).
  assert (D9 : 1 <= d /\ length L <= d) by (unfold d; lia). clearbody d.
  assert (D1 : length (w_intCodes w) <= d /\ Forall (fun c => length (snd c) <= d) (w_intCodes w)).
  { destruct (tb_lengths _ _ _ _ _ _ TB) as [(_ & _ & ->)|((_ & LG & _) & LS & _)]; [split; [cbn; lia|constructor; [cbn; lia|constructor]]|].
    apply sizesOf_codes in LS. destruct LS as [LS1 LS2]. split; [lia|]. apply Forall_forall. intros c Hc. specialize (LS2 c Hc).
    rewrite Forall_forall in LG. specialize (LG _ LS2). cbn [fst] in LG. lia. }
  destruct D1 as [D1 D2].
  apply integer_size2 with (d := d) (m := S (length src + d)) in E2; [|lia|change (2 ^ 31)%N with 2147483648%N; lia|exact D1|].
  - assert (B : (N.of_nat (length ints) <= 192 + 31 * N.of_nat d + (N.of_nat d + 1) * N.of_nat d)%N) by lia.
    assert (D3 : (N.of_nat d <= 46341)%N) by lia. assert (B2 : ((N.of_nat d + 1) * N.of_nat d <= 46342 * 46341)%N) by (apply N.mul_le_mono; lia). lia.
  - apply Forall_forall. intros c Hc. rewrite Forall_forall in I2, D2. specialize (I2 c Hc). specialize (D2 c Hc). lia.
Qed.
End Sharp.

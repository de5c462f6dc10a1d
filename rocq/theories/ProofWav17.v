(** How long the description of the tree is. *)
From Coq Require Import List NArith Arith Bool Lia Permutation.
From Coq Require Import ZifyBool ZifyNat ZifyN.
From Verif Require Import Base Arrays SpecRuns ModelUtils ModelHeaders ModelHuffman ModelHuffmanCoder ModelBitCoder ModelProb ModelWavelet.
From Verif Require Import ProofUtils1 ProofUtils2 ProofUtils3 ProofHeaders ProofHuffman4 ProofHuffman6 ProofHuffCoder3 ProofHuffCoder4.
From Verif Require Import ProofWav1 ProofWav2 ProofWav3 ProofWav4 ProofWav5 ProofWav8 ProofWav9 ProofWav16.
Import ListNotations.
Open Scope nat_scope.

Lemma ok_inj : forall {A} (a b : A), Ok a = Ok b -> a = b.
Proof. intros A a b H. injection H as H. exact H. Qed.
Lemma pack_bytes : forall v p b, (v < 2 ^ 56)%N -> packInteger v = Ok (p, b) -> b <= 8.
Proof. intros v p b H E. destruct (pack_all v H) as (p' & b' & E' & _ & B & _). rewrite E' in E. injection E as <- <-. lia. Qed.
Lemma pushBitsRev_length : forall k n, length (pushBitsRev n k) = k.
Proof. induction k as [|k IH]; intros n; [reflexivity|]. cbn [pushBitsRev length]. rewrite IH. reflexivity. Qed.
Lemma pushBits_length : forall k n, length (pushBits n k) = k.
Proof. intros. unfold pushBits. rewrite map_length. apply seq_length. Qed.

Lemma table_size : forall clen bits, Forall (fun l => l < 128)%N clen -> length clen = 256 ->
  (match rev (usedSymbols clen) with
   | [] => UB
   | back :: _ => let! (packedInt, bytes) := packInteger (maxLength clen) in
     let! interp := binaryInterpolativeCode (usedSymbols clen) 0 back in
     let! unary := unaryLengths clen (maxLength clen) (usedSymbols clen) in
     Ok (pushBits back 8 ++ pushBits (N.of_nat (length (usedSymbols clen))) 8 ++ pushBitsRev packedInt (8 * bytes) ++ interp ++ unary)
   end) = Ok bits -> (N.of_nat (length bits) <= 50000)%N.
Proof.
  intros clen bits FL LC H.
  pose proof (maxLength_lt clen 128 ltac:(lia) FL) as ML. pose proof (maxLength_spec clen) as MS.
  pose proof (usedSymbols_length clen) as LS.
  destruct (rev (usedSymbols clen)) as [|back t]; [discriminate|].
  apply bind_inv in H. destruct H as ([packed bytes] & E1 & H). apply bind_inv in H. destruct H as (interp & E2 & H). apply bind_inv in H. destruct H as (unary & E3 & H).
  apply ok_inj in H. apply pack_bytes in E1; [|lia].
  apply interpCode_length in E2. apply unaryLengths_length in E3; [|exact ML|exact MS].
  apply (f_equal (@length bool)) in H. rewrite !app_length, !pushBits_length, pushBitsRev_length in H. lia.
Qed.
Lemma character_size : forall codes bits, Forall (fun p => 1 <= fst p <= 44 /\ snd p < 256)%N (sizesOf codes) ->
  characterShape codes = Ok bits -> (N.of_nat (length bits) <= 50000)%N.
Proof.
  intros codes bits HR. unfold characterShape. cbv zeta. intros H. refine (table_size (codeSizes codes) bits _ _ H).
  - apply Forall_forall. intros l Hl. unfold codeSizes in Hl. apply in_map_iff in Hl. destruct Hl as (s & <- & _).
    change (sizeOf codes s < 128)%N. destruct (in_dec N.eq_dec s (map fst codes)) as [I|I].
    + apply sizeOf_sizes in I. rewrite Forall_forall in HR. apply HR in I. cbn [fst] in I. lia.
    + rewrite (sizeOf_none _ _ I). lia.
  - apply codeSizes_length.
Qed.

Lemma integerUnary_length : forall maxLen sizes bits, integerUnary maxLen sizes = Ok bits -> length bits <= (N.to_nat maxLen + 1) * length sizes.
Proof.
  intros maxLen. induction sizes as [|len r IH]; intros bits H; cbn [integerUnary] in H; [injection H as <-; cbn; lia|].
  destruct (N.eqb_spec len 0) as [|NZ]; [discriminate|]. apply bind_inv in H. destruct H as (t & E & H). injection H as <-. apply IH in E.
  rewrite app_length, unaryCode_length by lia. cbn [length]. lia.
Qed.
Lemma integer_size : forall intCodes m bits, (N.of_nat m < 2 ^ 31)%N -> length intCodes <= m -> Forall (fun c => (fst c <= N.of_nat m)%N /\ length (snd c) <= m) intCodes ->
  integerShape intCodes = Ok bits -> length bits <= 192 + 31 * m + (m + 1) * m.
Proof.
  intros intCodes m bits M LC HF H. unfold integerShape in H.
  assert (P : Permutation (integerSizes intCodes) (map (fun c => (fst c, N.of_nat (length (snd c)))) intCodes)) by apply sortPairs_perm.
  assert (LS : length (integerSizes intCodes) = length intCodes) by (rewrite (Permutation_length P); apply map_length).
  assert (FS : Forall (fun p => fst p <= N.of_nat m /\ snd p <= N.of_nat m)%N (integerSizes intCodes)).
  { eapply Permutation_Forall; [symmetry; exact P|]. apply Forall_forall. intros p Hp. apply in_map_iff in Hp. destruct Hp as (c & <- & Hc).
    rewrite Forall_forall in HF. specialize (HF _ Hc). cbn [fst snd]. lia. }
  set (sizes := integerSizes intCodes) in *. clearbody sizes.
  assert (ML : (maxLength (map snd sizes) < N.of_nat m + 1)%N).
  { apply maxLength_lt; [lia|]. apply Forall_forall. intros l Hl. apply in_map_iff in Hl. destruct Hl as (p & <- & Hp).
    rewrite Forall_forall in FS. specialize (FS _ Hp). lia. }
  assert (B31 : (2 ^ 31 + 1 < 2 ^ 56)%N) by reflexivity.
  destruct (rev sizes) as [|[back bl] t] eqn:ER; [discriminate|].
  assert (BM : (back <= N.of_nat m)%N).
  { assert (I : In (back, bl) sizes) by (apply in_rev; rewrite ER; left; reflexivity). rewrite Forall_forall in FS. specialize (FS _ I). cbn [fst] in FS. lia. }
  apply bind_inv in H. destruct H as ([packed bytes] & E1 & H). apply pack_bytes in E1; [|lia].
  apply bind_inv in H. destruct H as (more & E2 & H). apply ok_inj in H. subst bits. rewrite app_length, pushBitsRev_length.
  assert (MB : length more <= 128 + 31 * m + (m + 1) * m); [|lia].
  destruct (0 <? packed)%N; [|injection E2 as <-; cbn [length]; lia].
  apply bind_inv in E2. destruct E2 as ([p1 b1] & E3 & E2). apply bind_inv in E2. destruct E2 as ([p2 b2] & E4 & E2).
  apply bind_inv in E2. destruct E2 as (interp & E5 & E2). apply bind_inv in E2. destruct E2 as (unary & E6 & E2). apply ok_inj in E2. subst more.
  apply pack_bytes in E3; [|lia]. apply pack_bytes in E4; [|lia]. apply interpCode_length in E5. apply integerUnary_length in E6.
  rewrite map_length in E5, E6. rewrite !app_length, !pushBitsRev_length.
  assert ((N.to_nat (maxLength (map snd sizes)) + 1) * length sizes <= (m + 1) * m) by (apply Nat.mul_le_mono; lia). lia.
Qed.

Lemma sizesOf_codes : forall codes L, sizesOf codes = L -> length codes = length L /\ (forall c, In c codes -> In (N.of_nat (length (snd c)), fst c) L).
Proof.
  intros codes L <-. unfold sizesOf. split; [rewrite map_length; reflexivity|]. intros c Hc. apply in_map_iff. exists c. auto.
Qed.
Lemma shape_parts : forall w bits, treeShape w = Ok bits -> exists chars ints, characterShape (w_codes w) = Ok chars /\ integerShape (w_intCodes w) = Ok ints /\
  length bits = length chars + length ints + 4.
Proof.
  intros w bits. unfold treeShape. intros H.
  apply bind_inv in H. destruct H as (chars & E1 & H). apply bind_inv in H. destruct H as (ints & E2 & H). apply ok_inj in H.
  exists chars, ints. split; [exact E1|]. split; [exact E2|].
  apply (f_equal (@length bool)) in H. rewrite !app_length, pushBits_length in H. lia.
Qed.
Lemma intCodes_small : forall src w T0 runs ws CL L, built src w T0 runs ws CL L ->
  length (w_intCodes w) <= S (length src) /\ Forall (fun c => (fst c <= N.of_nat (S (length src)))%N /\ length (snd c) <= S (length src)) (w_intCodes w).
Proof.
  intros src w T0 runs ws CL L HB. pose proof (b_tables _ _ _ _ _ _ _ HB) as TB. pose proof (b_count _ _ _ _ _ _ _ HB) as BC.
  destruct (tb_lengths _ _ _ _ _ _ TB) as [(_ & _ & ->)|((_ & LG & _) & LS & _)]; [split; [cbn; lia|constructor; [cbn; lia|constructor]]|].
  apply sizesOf_codes in LS. destruct LS as [LS1 LS2]. split; [lia|]. apply Forall_forall. intros c Hc. specialize (LS2 c Hc). rewrite Forall_forall in LG. specialize (LG _ LS2). cbn [fst] in LG.
  apply (in_map snd) in LS2. cbn [snd] in LS2. destruct (b_values _ _ _ _ _ _ _ HB _ LS2) as [V _]. lia.
Qed.
Lemma shape_size : forall src w T0 runs ws CL L bits, built src w T0 runs ws CL L -> (N.of_nat (length src) < 2 ^ 30)%N ->
  treeShape w = Ok bits -> (N.of_nat (length bits) <= 60000 + 40 * N.of_nat (length src) + (N.of_nat (length src) + 2) * (N.of_nat (length src) + 2))%N.
Proof.
  intros src w T0 runs ws CL L bits HB LN H. destruct (shape_parts _ _ H) as (chars & ints & E1 & E2 & ->).
  pose proof (b_tables _ _ _ _ _ _ _ HB) as TB. destruct (intCodes_small _ _ _ _ _ _ _ HB) as [I1 I2].
  apply character_size in E1; [|rewrite (tb_sizes _ _ _ _ _ _ TB); exact (tb_range _ _ _ _ _ _ TB)].
  assert (B30 : (2 ^ 30 + 1 < 2 ^ 31)%N) by reflexivity.
  apply integer_size with (m := S (length src)) in E2; [lia|lia|exact I1|exact I2].
Qed.

(** The shape of the tree is read back. *)
From Coq Require Import List NArith Arith Bool Lia Sorted Permutation.
From Coq Require Import ZifyBool ZifyNat ZifyN.
From Verif Require Import Base Arrays ModelUtils SpecRuns ModelHuffman SpecHuffman ModelWavelet.
From Verif Require Import ProofUtils1 ProofUtils2 ProofUtils3 ProofHeaders ProofHuffman4 ProofHuffman6 ProofHuffCoder3.
From Verif Require Import ProofWav2 ProofWav3 ProofWav4 ProofWav5 ProofWav8.
Import ListNotations.
Open Scope nat_scope.

Definition sizeOf (codes : list (N * list bool)) (s : N) : N := match codeOf codes s with Some c => N.of_nat (length c) | None => 0%N end.

Lemma codeOf_nodup : forall codes s c, NoDup (map fst codes) -> In (s, c) codes -> codeOf codes s = Some c.
Proof.
  intros codes s c HN Hin. destruct (codeOf_some codes s (in_map fst _ _ Hin)) as (c' & E). rewrite E. f_equal. apply codeOf_in in E.
  clear - HN Hin E. induction codes as [|[a b] codes IH]; [destruct Hin|]. cbn [map fst] in HN. inversion HN as [|? ? N1 N2]; subst.
  destruct Hin as [Hin|Hin], E as [E|E].
  - congruence.
  - injection Hin as -> ->. elim N1. apply (in_map fst) in E. exact E.
  - injection E as -> ->. elim N1. apply (in_map fst) in Hin. exact Hin.
  - auto.
Qed.
Lemma sizeOf_in : forall codes s l, NoDup (map fst codes) -> In (l, s) (sizesOf codes) -> sizeOf codes s = l.
Proof.
  intros codes s l HN Hin. unfold sizesOf in Hin. apply in_map_iff in Hin. destruct Hin as ([s' c] & E & Hin). cbn in E. injection E as <- <-.
  unfold sizeOf. rewrite (codeOf_nodup _ _ _ HN Hin). reflexivity.
Qed.
Lemma sizeOf_sizes : forall codes s, In s (map fst codes) -> In (sizeOf codes s, s) (sizesOf codes).
Proof.
  intros codes s H. unfold sizeOf. destruct (codeOf_some _ _ H) as (c & E). rewrite E. apply codeOf_in in E.
  unfold sizesOf. change (N.of_nat (length c), s) with ((fun c : N * list bool => (N.of_nat (length (snd c)), fst c)) (s, c)). apply in_map. exact E.
Qed.
Lemma sizeOf_none : forall codes s, ~ In s (map fst codes) -> sizeOf codes s = 0%N.
Proof.
  intros codes s H. unfold sizeOf. destruct (codeOf codes s) eqn:E; [|reflexivity]. apply codeOf_in in E. elim H. apply (in_map fst) in E. exact E.
Qed.

Lemma codeSizes_nth : forall codes s, (s < 256)%N -> nth_error (codeSizes codes) (N.to_nat s) = Some (sizeOf codes s).
Proof.
  intros codes s H. unfold codeSizes. erewrite map_nth_error; [reflexivity|]. rewrite fromTo_nth by lia. f_equal. lia.
Qed.
Lemma codeSizes_length : forall codes, length (codeSizes codes) = 256.
Proof. intros. unfold codeSizes. rewrite map_length. apply fromTo_length. Qed.

Lemma usedSymbols_sorted : forall clen, StronglySorted N.lt (usedSymbols clen).
Proof. intros clen. apply (usedFrom_sorted clen 0). Qed.
Lemma usedSymbols_length : forall clen, length (usedSymbols clen) <= length clen.
Proof. intros clen. apply (usedFrom_length clen 0). Qed.

Lemma unary_characters : forall codes maxLen, (maxLen < 100)%N -> forall symbols,
  Forall (fun s => s < 256 /\ sizeOf codes s <= maxLen)%N symbols ->
  exists bits, unaryLengths (codeSizes codes) maxLen symbols = Ok bits /\
    forall rest, readCharacterLengths symbols maxLen (bits ++ rest) = (map (fun s => (sizeOf codes s, s)) symbols, rest).
Proof.
  intros codes maxLen HM. induction 1 as [|s symbols [H1 H2] _ (bits & E1 & E2)]; [exists []; split; [reflexivity|intros; reflexivity]|].
  cbn [unaryLengths]. rewrite (get_ok _ _ _ (codeSizes_nth codes s H1)). cbn [bind]. rewrite E1. cbn [bind].
  eexists. split; [reflexivity|]. intros rest. cbn [readCharacterLengths]. rewrite <- app_assoc, unary_spec by lia. rewrite E2.
  cbn [map]. do 3 f_equal.
  - replace (N.of_nat (N.to_nat (maxLen - sizeOf codes s + 1)) mod two64)%N with (maxLen - sizeOf codes s + 1)%N.
    2: { rewrite N2Nat.id, N.mod_small; [reflexivity|]. unfold two64. lia. }
    replace (maxLen + two64 - (maxLen - sizeOf codes s + 1) + 1)%N with (sizeOf codes s + 1 * two64)%N by (unfold two64; lia).
    rewrite N.mod_add by (unfold two64; lia). apply N.mod_small. unfold two64. lia.
  - apply N.mod_small. exact H1.
Qed.

Lemma rev_nonempty : forall {A} (l : list A), l <> [] -> exists b t, rev l = b :: t.
Proof. intros A l H. destruct (rev l) as [|b t] eqn:E; [|eauto]. rewrite <- (rev_involutive l), E in H. elim H. reflexivity. Qed.
Lemma lt_nodup : forall l, StronglySorted N.lt l -> NoDup l.
Proof.
  induction 1 as [|a l HS IH HF]; [constructor|]. constructor; [|exact IH]. intros C. rewrite Forall_forall in HF. specialize (HF a C). lia.
Qed.

Lemma NoDup_map : forall {A B} (f : A -> B) l, NoDup (map f l) -> NoDup l.
Proof. intros A B f l H. eapply NoDup_map_inv. exact H. Qed.

(** The part of the shape for the characters. *)
Lemma character_part : forall codes, NoDup (map fst codes) -> codes <> [] ->
  Forall (fun p => 1 <= fst p <= 44 /\ snd p < 256)%N (sizesOf codes) ->
  exists back symbols packed bytes interp unary,
    characterShape codes = Ok (pushBits back 8 ++ pushBits (N.of_nat (length symbols)) 8 ++ pushBitsRev packed (8 * bytes) ++ interp ++ unary) /\
    (back < 256)%N /\ length symbols <= 256 /\ 0 < length symbols /\
    exists maxLen,
    (forall rest, readPackedIntegerRev (pushBitsRev packed (8 * bytes) ++ rest) = Ok (maxLen, bytes, rest)) /\
    (forall rest, binaryInterpolativeDecode (interp ++ rest) 0 back (length symbols) = Ok (symbols, length interp, rest)) /\
    (forall rest, exists lens, readCharacterLengths symbols maxLen (unary ++ rest) = (lens, rest) /\ Permutation lens (sizesOf codes)).
Proof.
  intros codes HN HNE HR. destruct (ex_intro (fun l => l = codeSizes codes) _ eq_refl) as (clen & EC).
  assert (CN : forall s, (s < 256)%N -> nth_error clen (N.to_nat s) = Some (sizeOf codes s)) by (rewrite EC; apply codeSizes_nth).
  assert (CLN : length clen = 256) by (rewrite EC; apply codeSizes_length).
  assert (SS : StronglySorted N.lt (usedSymbols clen)) by apply usedSymbols_sorted.
  assert (LS : length (usedSymbols clen) <= 256) by (rewrite <- CLN; apply usedSymbols_length).
  destruct (ex_intro (fun l => l = usedSymbols clen) _ eq_refl) as (symbols & ES). rewrite <- ES in SS, LS.
  assert (RS : forall s, In s (map fst codes) -> (1 <= sizeOf codes s <= 44 /\ s < 256)%N).
  { intros s Hs. apply sizeOf_sizes in Hs. rewrite Forall_forall in HR. apply HR in Hs. exact Hs. }
  assert (S0 : forall s, In s symbols <-> In s (map fst codes)).
  { intros s. rewrite ES, used_in_table. split.
    - intros (l & H1 & H2). pose proof (nth_error_bound _ _ _ H1) as B. rewrite CLN in B.
      rewrite CN in H1 by lia. injection H1 as <-. destruct (in_dec N.eq_dec s (map fst codes)) as [I|I]; [exact I|].
      rewrite (sizeOf_none _ _ I) in H2. lia.
    - intros Hs. destruct (RS s Hs). exists (sizeOf codes s). rewrite CN by assumption. split; [reflexivity|lia]. }
  assert (NE : symbols <> []).
  { destruct codes as [|[s c] codes']; [congruence|]. intros C. specialize (proj2 (S0 s) (or_introl eq_refl)). rewrite C. intros []. }
  destruct (rev_nonempty symbols NE) as (back & t & ER).
  pose proof (last_rev _ _ _ ER) as EL.
  assert (BK : (back < 256)%N).
  { apply RS, S0. rewrite EL. apply in_app_iff. right. left. reflexivity. }
  assert (HM : (maxLength clen < 100)%N).
  { apply maxLength_lt; [lia|]. apply Forall_forall. intros l Hl. rewrite EC in Hl. unfold codeSizes in Hl. apply in_map_iff in Hl. destruct Hl as (s & <- & _).
    change (sizeOf codes s < 100)%N. destruct (in_dec N.eq_dec s (map fst codes)) as [I|I]; [destruct (RS s I); lia|].
    rewrite (sizeOf_none _ _ I). lia. }
  assert (FS : Forall (fun s => s < 256 /\ sizeOf codes s <= maxLength clen)%N symbols).
  { apply Forall_forall. intros s Hs. destruct (RS s (proj1 (S0 s) Hs)) as [_ B]. split; [exact B|].
    pose proof (maxLength_spec clen) as M. rewrite Forall_forall in M. apply M. eapply nth_error_In. apply CN. exact B. }
  destruct (unary_characters codes (maxLength clen) HM symbols FS) as (unary & U1 & U2).
  destruct (interp_all symbols back NE SS) as (interp & I1 & I2).
  { rewrite EL in SS |- *. apply sorted_last. exact SS. } { lia. }
  destruct (packRev_all (maxLength clen)) as (packed & bytes & P1 & P2 & P3).
  { eapply N.lt_trans; [exact HM|reflexivity]. }
  exists back, symbols, packed, bytes, interp, unary. split.
  { unfold characterShape. rewrite <- EC. cbv zeta. rewrite <- ES. rewrite ER. rewrite P1. cbn [bind]. rewrite I1. cbn [bind].
    rewrite <- EC in U1. rewrite U1. cbn [bind]. reflexivity. }
  split; [exact BK|]. split; [exact LS|]. split; [destruct symbols; [congruence|cbn; lia]|].
  exists (maxLength clen). split; [exact P3|]. split; [exact I2|].
  intros rest. eexists. split; [apply U2|].
  apply NoDup_Permutation.
  - apply (NoDup_map snd). rewrite map_map. cbn [snd]. rewrite map_id. apply lt_nodup. exact SS.
  - apply (NoDup_map snd). rewrite sizes_symbols. exact HN.
  - intros [l s]. split.
    + intros H. apply in_map_iff in H. destruct H as (s' & E & Hs). injection E as <- <-. apply sizeOf_sizes, S0, Hs.
    + intros H. pose proof (sizeOf_in _ _ _ HN H) as E. apply in_map_iff. exists s. rewrite E. split; [reflexivity|].
      apply S0. rewrite <- sizes_symbols. apply (in_map snd) in H. exact H.
Qed.

(** The part for the run lengths. *)
Lemma unary_integers : forall maxLen sizes, Forall (fun p => fst p < 2 ^ 30 /\ 1 <= snd p <= maxLen)%N sizes ->
  exists bits, integerUnary maxLen (map snd sizes) = Ok bits /\
    forall rest, readIntegerLengths (map fst sizes) maxLen (bits ++ rest) = Ok (map (fun p => (snd p, fst p)) sizes, rest).
Proof.
  intros maxLen. induction 1 as [|[x l] sizes [H1 H2] _ (bits & E1 & E2)]; [exists []; split; reflexivity|]. cbn [fst snd] in H1, H2.
  cbn [map integerUnary fst snd]. replace (l =? 0)%N with false by lia. rewrite E1. cbn [bind].
  eexists. split; [reflexivity|]. intros rest. cbn [readIntegerLengths]. rewrite <- app_assoc, unary_spec by lia.
  replace (N.of_nat (N.to_nat (maxLen - l + 1)) <=? maxLen)%N with true by lia. rewrite E2. cbn [bind]. do 4 f_equal.
  - lia.
  - apply N.mod_small. eapply N.lt_trans; [exact H1|reflexivity].
Qed.

Lemma pairLe_fst : forall l, StronglySorted pairLe l -> NoDup (map fst l) -> StronglySorted N.lt (map fst l).
Proof.
  induction 1 as [|p l HS IH HF]; intros HN; [constructor|]. cbn [map] in *. inversion HN as [|? ? N1 N2]; subst.
  constructor; [apply IH; exact N2|]. apply Forall_forall. intros x Hx. apply in_map_iff in Hx. destruct Hx as (q & <- & Hq).
  rewrite Forall_forall in HF. specialize (HF q Hq). unfold pairLe in HF.
  assert (fst p <> fst q) by (intros E; apply N1; rewrite E; apply in_map; exact Hq). lia.
Qed.

Lemma packed_positive : forall v packed bytes, (0 < v)%N -> (v < 2 ^ 56)%N -> packInteger v = Ok (packed, bytes) -> (0 < packed)%N.
Proof.
  intros v packed bytes H0 HB E. destruct (pack_all v HB) as (p & b & E1 & E2 & _). rewrite E1 in E. injection E as <- <-.
  destruct (N.eq_dec p 0) as [->|]; [|lia]. exfalso. vm_compute in E2. injection E2 as <-. lia.
Qed.

Lemma integer_part : forall intTree intCodes L, lengths_good L -> sizesOf intCodes = L -> (exists x, In x (map snd L) /\ 0 < x)%N ->
  (forall x, In x (map snd L) -> x < 2 ^ 30)%N -> (N.of_nat (length L) < 2 ^ 32)%N -> integerTree L = Ok (intTree, intCodes) ->
  exists back packed bytes packed1 bytes1 packed2 bytes2 interp unary n,
    integerShape intCodes = Ok (pushBitsRev packed (8 * bytes) ++ pushBitsRev packed1 (8 * bytes1) ++ pushBitsRev packed2 (8 * bytes2) ++ interp ++ unary) /\
    (0 < back)%N /\
    (forall rest, readPackedIntegerRev (pushBitsRev packed (8 * bytes) ++ rest) = Ok (back, bytes, rest)) /\
    (forall rest, readPackedIntegerRev (pushBitsRev packed1 (8 * bytes1) ++ rest) = Ok (n, bytes1, rest)) /\
    exists maxLen ints,
    (forall rest, readPackedIntegerRev (pushBitsRev packed2 (8 * bytes2) ++ rest) = Ok (maxLen, bytes2, rest)) /\
    (forall rest, binaryInterpolativeDecode (interp ++ rest) 0 back (N.to_nat n) = Ok (ints, length interp, rest)) /\
    (forall rest, exists lens, readIntegerLengths ints maxLen (unary ++ rest) = Ok (lens, rest) /\ Permutation lens L).
Proof.
  intros intTree intCodes L (G1 & G2 & G3 & G4 & G5) HL (xp & Hxp & Hxp0) HX HLB HI.
  set (flip := fun p : N * N => (snd p, fst p)).
  set (sizes := integerSizes intCodes).
  assert (PS : Permutation sizes (map flip L)).
  { unfold sizes, integerSizes. etransitivity; [apply sortPairs_perm|]. rewrite <- HL. unfold sizesOf. rewrite map_map. apply Permutation_refl. }
  assert (PI : Permutation (map flip sizes) L).
  { etransitivity; [apply Permutation_map; exact PS|]. rewrite map_map. rewrite (map_ext _ (fun p => p)) by (intros [? ?]; reflexivity).
    rewrite map_id. apply Permutation_refl. }
  assert (PF : Permutation (map fst sizes) (map snd L)).
  { etransitivity; [apply Permutation_map; exact PS|]. rewrite map_map. apply Permutation_refl. }
  assert (SS : StronglySorted N.lt (map fst sizes)).
  { apply pairLe_fst; [apply sortPairs_sorted|]. eapply Permutation_NoDup; [symmetry; exact PF|exact G4]. }
  assert (LS : length sizes = length L) by (rewrite (Permutation_length PS); apply map_length).
  assert (NE : sizes <> []) by (intros C; rewrite C in LS; cbn in LS; lia).
  destruct (rev_nonempty sizes NE) as ([back bl] & t & ER).
  assert (EL : map fst sizes = map fst (rev t) ++ [back]).
  { rewrite <- (rev_involutive sizes), ER. cbn [rev]. rewrite map_app. reflexivity. }
  assert (FB : Forall (fun x => x <= back)%N (map fst sizes)).
  { rewrite EL in SS |- *. apply sorted_last. exact SS. }
  assert (IB : In back (map snd L)).
  { eapply Permutation_in; [exact PF|]. rewrite EL. apply in_app_iff. right. left. reflexivity. }
  assert (BB : (back < 2 ^ 30)%N) by (apply HX; exact IB).
  assert (B0 : (0 < back)%N).
  { rewrite Forall_forall in FB. eapply N.lt_le_trans; [exact Hxp0|]. apply FB. eapply Permutation_in; [symmetry; exact PF|exact Hxp]. }
  set (maxLen := maxLength (map snd sizes)).
  assert (FZ : Forall (fun p => fst p < 2 ^ 30 /\ 1 <= snd p <= maxLen)%N sizes).
  { apply Forall_forall. intros p Hp. split.
    - apply HX. eapply Permutation_in; [exact PF|]. apply in_map. exact Hp.
    - pose proof (maxLength_spec (map snd sizes)) as M. rewrite Forall_forall in M. specialize (M (snd p) (in_map snd _ _ Hp)).
      assert (In (flip p) L) as HQ by (eapply Permutation_in; [exact PI|]; apply in_map; exact Hp).
      rewrite Forall_forall in G2. specialize (G2 _ HQ). unfold flip in G2. cbn [fst snd] in G2. unfold maxLen. lia. }
  assert (MB : (maxLen < 2 ^ 56)%N).
  { apply maxLength_lt; [reflexivity|]. apply Forall_forall. intros l Hl. apply in_map_iff in Hl. destruct Hl as (p & <- & Hp).
    assert (In (flip p) L) as HQ by (eapply Permutation_in; [exact PI|]; apply in_map; exact Hp).
    rewrite Forall_forall in G2. specialize (G2 _ HQ). unfold flip in G2. cbn [fst snd] in G2. eapply N.lt_trans; [apply G2|].
    eapply N.lt_trans; [exact HLB|]. reflexivity. }
  destruct (packRev_all back) as (packed & bytes & P1 & P2 & P3). { eapply N.lt_trans; [exact BB|reflexivity]. }
  destruct (packRev_all (N.of_nat (length sizes))) as (packed1 & bytes1 & Q1 & Q2 & Q3).
  { rewrite LS. eapply N.lt_trans; [exact HLB|reflexivity]. }
  destruct (packRev_all maxLen MB) as (packed2 & bytes2 & R1 & R2 & R3).
  destruct (interp_all (map fst sizes) back) as (interp & I1 & I2).
  { intros C. apply map_eq_nil in C. contradiction. } { exact SS. } { exact FB. } { exact BB. }
  destruct (unary_integers maxLen sizes FZ) as (unary & U1 & U2).
  pose proof (packed_positive back packed bytes B0 ltac:(eapply N.lt_trans; [exact BB|reflexivity]) P1) as PP.
  exists back, packed, bytes, packed1, bytes1, packed2, bytes2, interp, unary, (N.of_nat (length sizes)). split.
  { unfold integerShape. fold sizes. cbv zeta. rewrite ER. rewrite P1. cbn [bind]. replace (0 <? packed)%N with true by lia.
    rewrite Q1. cbn [bind]. fold maxLen. rewrite R1. cbn [bind]. rewrite I1. cbn [bind]. rewrite U1. cbn [bind]. reflexivity. }
  split; [exact B0|]. split; [exact P3|]. split; [exact Q3|].
  exists maxLen, (map fst sizes). split; [exact R3|]. split.
  - intros rest. rewrite Nat2N.id. rewrite <- (map_length fst sizes). apply I2.
  - intros rest. exists (map flip sizes). split; [apply U2|exact PI].
Qed.

Lemma shape_spec : forall root T0 codes CL intTree intCodes L W, tables codes T0 CL intTree intCodes L -> (W <= 15)%N ->
  (forall x, In x (map snd L) -> x < 2 ^ 30)%N -> (N.of_nat (length L) < 2 ^ 32)%N ->
  exists bits, treeShape (mkWavelet root codes intTree intCodes W) = Ok bits /\
    forall rest, readShape (bits ++ rest) = Ok (mkWavelet T0 codes intTree intCodes W, rest).
Proof.
  intros root T0 codes CL intTree intCodes L W TB HW HX HLB.
  destruct TB as [T1 T2 T3 T4 T5 T6 T7 T8 T9 T10 T11 T12].
  assert (HN : NoDup (map fst codes)) by (rewrite <- sizes_symbols, T5; exact T7).
  assert (HNE : codes <> []) by (intros ->; apply T9; rewrite <- T5; reflexivity).
  destruct (character_part codes HN HNE) as (back & symbols & packed & bytes & interp & unary & C1 & C2 & C3 & C4 & maxLen & C5 & C6 & C7).
  { rewrite T5. exact T8. }
  assert (CS : forall lens, Permutation lens (sizesOf codes) -> sortPairs lens = CL).
  { intros lens P. rewrite (sortPairs_eq _ _ P), T5. apply sortPairs_id. exact T6. }
  unfold treeShape. cbn [w_codes w_intCodes w_W]. rewrite C1. cbn [bind].
  assert (RB : forall rest, readByte (pushBits (N.of_nat (length symbols)) 8 ++ rest) = ((N.of_nat (length symbols) mod 256)%N, rest)).
  { intros rest. rewrite pushBits_be. replace (be_bits 8 (N.of_nat (length symbols))) with (byte_bits (N.of_nat (length symbols) mod 256)).
    - apply readByte_spec. apply N.mod_lt. lia.
    - unfold byte_bits. apply (be_bits_mod 8 8). lia. }
  assert (NS : N.to_nat (if (N.of_nat (length symbols) mod 256 =? 0)%N then 256%N else (N.of_nat (length symbols) mod 256)%N) = length symbols).
  { destruct (Nat.eq_dec (length symbols) 256) as [->|]; [reflexivity|].
    rewrite N.mod_small by lia. replace (N.of_nat (length symbols) =? 0)%N with false by lia. lia. }
  assert (RW : forall rest, readInto 4 0 (pushBits W 4 ++ rest) = (W, rest)).
  { intros rest. rewrite pushBits_be. apply readInto_be. change (2 ^ N.of_nat 4)%N with 16%N. lia. }
  destruct T12 as [(-> & -> & ->)|(G & HL & HP)].
  - change (integerShape [(0%N, [])]) with (Ok (pushBitsRev 0 8 ++ [])). cbn [bind].
    eexists. split; [reflexivity|]. intros rest. rewrite <- !app_assoc. unfold readShape.
    rewrite pushBits_be. change (be_bits 8 back) with (byte_bits back). rewrite readByte_spec by exact C2. rewrite RB. cbv zeta.
    rewrite C5. cbn [bind]. rewrite NS, C6. cbn [bind].
    destruct (C7 (pushBitsRev 0 8 ++ [] ++ pushBits W 4 ++ rest)) as (lens & E1 & E2). rewrite E1, (CS lens E2), T1. cbn [bind]. rewrite T2. cbn [bind].
    change (pushBitsRev 0 8) with (pushBitsRev 0 (8 * 1)).
    destruct (packRev_all 0) as (p0 & b0 & P1 & _ & P3); [reflexivity|]. change (packInteger 0) with (@Ok (N * nat) (0%N, 1)) in P1. injection P1 as <- <-.
    rewrite P3. cbn [bind N.ltb]. change (0 <? 0)%N with false. cbv iota. cbn [bind app]. rewrite RW. reflexivity.
  - destruct (integer_part intTree intCodes L G HL HP HX HLB T10) as (backI & pk & by0 & pk1 & by1 & pk2 & by2 & interpI & unaryI & n & D1 & D2 & D3 & D4 & maxI & ints & D5 & D6 & D7).
    rewrite D1. cbn [bind]. eexists. split; [reflexivity|]. intros rest. rewrite <- !app_assoc. unfold readShape.
    rewrite pushBits_be. change (be_bits 8 back) with (byte_bits back). rewrite readByte_spec by exact C2. rewrite RB. cbv zeta.
    rewrite C5. cbn [bind]. rewrite NS, C6. cbn [bind].
    match goal with |- context [readCharacterLengths symbols maxLen (unary ++ ?r)] => destruct (C7 r) as (lens & E1 & E2) end.
    rewrite E1, (CS lens E2), T1. cbn [bind]. rewrite T2. cbn [bind].
    rewrite D3. cbn [bind]. replace (0 <? backI)%N with true by lia. rewrite D4. cbn [bind]. rewrite D5. cbn [bind]. rewrite D6. cbn [bind].
    match goal with |- context [readIntegerLengths ints maxI (unaryI ++ ?r)] => destruct (D7 r) as (lensI & F1 & F2) end.
    rewrite F1. cbn [bind]. rewrite (sortPairs_eq _ _ F2), sortPairs_id by apply G.
    unfold integerTree in T10. destruct L as [|p L]; [destruct G as (_ & _ & _ & _ & G); cbn in G; lia|].
    apply bind_inv in T10. destruct T10 as (t & U1 & U2). apply bind_inv in U2. destruct U2 as (cs & U2 & U3). injection U3 as -> ->.
    rewrite U1. cbn [bind]. rewrite U2. cbn [bind]. rewrite RW. reflexivity.
Qed.

Lemma runs_split : forall runs r, In r runs -> exists a b, expand runs = a ++ repeat (fst r) (snd r) ++ b.
Proof.
  induction runs as [|q runs IH]; [intros r []|]. intros r [<-|H]; cbn [expand flat_map]; fold (expand runs).
  - exists [], (expand runs). reflexivity.
  - destruct (IH r H) as (a & b & E). exists (repeat (fst q) (snd q) ++ a), b. rewrite E, <- app_assoc. reflexivity.
Qed.
Lemma runs_values : forall src runs, is_runs_of src runs -> runs_below (2 ^ 30) src -> forall x,
  (x <> 0%N -> In (N.to_nat x) (map snd runs)) -> (x < 2 ^ 30)%N.
Proof.
  intros src runs (R1 & _) RB x Hx. destruct (N.eq_dec x 0) as [->|NX]; [reflexivity|].
  specialize (Hx NX). apply in_map_iff in Hx. destruct Hx as (r & E & Hr). destruct (runs_split runs r Hr) as (a & b & ER).
  rewrite R1 in ER. specialize (RB _ _ _ _ ER). rewrite E, N2Nat.id in RB. exact RB.
Qed.

Lemma C21_all : forall worth src w, src <> [] -> Forall (fun c => c < 256)%N src -> (N.of_nat (length src) < 2 ^ 31)%N ->
  runs_below (2 ^ 30) src -> buildTree worth src = Ok w ->
  exists bits, treeShape w = Ok bits /\
    forall rest, exists root, readShape (bits ++ rest) = Ok (mkWavelet root (w_codes w) (w_intTree w) (w_intCodes w) (w_W w), rest) /\
      collectCodes root = Ok (w_codes w).
Proof.
  intros worth src w NE AB LN RB HB. destruct (build_spec worth src w NE AB LN HB) as (T0 & runs & ws & CL & L & B).
  destruct w as [root codes intTree intCodes W]. pose proof (b_tables _ _ _ _ _ _ _ B) as TB. cbn [w_codes w_intTree w_intCodes w_W] in TB |- *.
  destruct (shape_spec root T0 codes CL intTree intCodes L W TB) as (bits & E1 & E2).
  - apply (b_W _ _ _ _ _ _ _ B).
  - intros x Hx. apply (runs_values _ _ (b_runs _ _ _ _ _ _ _ B) RB). intros X0. apply (b_values _ _ _ _ _ _ _ B); assumption.
  - pose proof (b_count _ _ _ _ _ _ _ B). change (2 ^ 31)%N with 2147483648%N in LN. change (2 ^ 32)%N with 4294967296%N. lia.
  - exists bits. split; [exact E1|]. intros rest. exists T0. split; [apply E2|]. apply (tb_collect _ _ _ _ _ _ TB).
Qed.

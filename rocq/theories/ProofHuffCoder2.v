(** Table driven decoder of the Huffman coder: the tables find the code words, and the
    decoding loop gives back the symbols. *)
From Coq Require Import List NArith ZArith Lia Arith Bool.
From Coq Require Import ZifyBool ZifyNat ZifyN.
From Verif Require Import Base Arrays ModelUtils ModelRuns ModelStreams ModelHeaders ModelHuffman ModelHuffmanCoder SpecHuffman.
From Verif Require Import ProofUtils1 ProofUtils2 ProofUtils3 ProofStreams2 ProofHeaders ProofHuffman5 ProofHuffCoder1.
Import ListNotations.
Open Scope nat_scope.

(** ** Leading zeros *)
Lemma zeros_inj : forall i j x y, repeat false i ++ true :: x = repeat false j ++ true :: y -> i = j /\ x = y.
Proof.
  induction i as [|i IH]; intros [|j] x y H; cbn [repeat app] in H; try discriminate.
  - injection H as H. auto.
  - injection H as H. destruct (IH j x y H). subst. auto.
Qed.
Lemma be_bits_zeros : forall n, be_bits n 0 = repeat false n.
Proof. induction n as [|n IH]; cbn [be_bits repeat]; [reflexivity|]. rewrite N.bits_0, IH. reflexivity. Qed.
Lemma be_bits_lead : forall l m c, m <= l -> (c < 2 ^ N.of_nat m)%N -> be_bits l c = repeat false (l - m) ++ be_bits m c.
Proof.
  intros l m c H C. replace l with ((l - m) + m) at 1 by lia. rewrite be_bits_split.
  rewrite N.div_small by exact C. rewrite be_bits_zeros. reflexivity.
Qed.
Lemma top_bit : forall b k, 0 < b -> N.testbit k (N.of_nat (b - 1)) = true -> be_bits b k = true :: be_bits (b - 1) k.
Proof. intros [|b] k H T; [lia|]. cbn [be_bits]. replace (S b - 1) with b in * by lia. rewrite T. reflexivity. Qed.
Lemma repeat_split : forall (x : bool) a b, repeat x (a + b) = repeat x a ++ repeat x b.
Proof. intros. apply repeat_app. Qed.
Lemma prefix_app : forall a b c d : list bool, a ++ b = c ++ d -> length a <= length c -> exists e, c = a ++ e /\ b = e ++ d.
Proof.
  induction a as [|x a IH]; intros b c d H L; cbn [app] in *.
  - exists c. auto.
  - destruct c as [|y c]; cbn [length] in L; [lia|]. cbn [app] in H. injection H as <- H.
    destruct (IH b c d H ltac:(lia)) as (e & -> & ->). exists e. auto.
Qed.

Definition leading (B : list bool) : Prop := B = [] \/ exists r, B = true :: r.

Section Code.
Variables clen code : list N.
Hypothesis LC : length clen = 256.
Hypothesis LD : length code = 256.
Hypothesis HC : forall i l c, nth_error clen i = Some l -> nth_error code i = Some c ->
  (c < 256)%N /\ (l <= 50)%N /\ ((0 < l)%N -> (c < 2 ^ l)%N).
Hypothesis HP : forall i j li lj ci cj, nth_error clen i = Some li -> nth_error clen j = Some lj ->
  nth_error code i = Some ci -> nth_error code j = Some cj -> (0 < li)%N -> (0 < lj)%N ->
  i <> j -> ~ is_prefix (be_bits (N.to_nat li) ci) (be_bits (N.to_nat lj) cj).
Hypothesis HZ : exists i l, nth_error clen i = Some l /\ (0 < l)%N /\ nth_error code i = Some 0%N.

(** Symbol [k] has code word [w]. *)
Definition W (k : N) (w : list bool) : Prop := exists l c,
  nth_error clen (N.to_nat k) = Some l /\ nth_error code (N.to_nat k) = Some c /\ (0 < l)%N /\ w = be_bits (N.to_nat l) c.

Lemma W_fun : forall k w w', W k w -> W k w' -> w = w'.
Proof.
  intros k w w' (l & c & A & B & C & ->) (l' & c' & A' & B' & C' & ->).
  rewrite A in A'. rewrite B in B'. injection A' as <-. injection B' as <-. reflexivity.
Qed.
Lemma W_free : forall k k' w w', W k w -> W k' w' -> is_prefix w w' -> k = k'.
Proof.
  intros k k' w w' (l & c & A & B & C & ->) (l' & c' & A' & B' & C' & ->) P.
  destruct (N.eq_dec k k') as [|NE]; [assumption|exfalso].
  exact (HP _ _ _ _ _ _ A A' B B' C C' ltac:(lia) P).
Qed.
Lemma W_unique : forall k k' w w' a b, W k w -> W k' w' -> w ++ a = w' ++ b -> k = k' /\ w = w' /\ a = b.
Proof.
  intros k k' w w' a b A B E.
  assert (K : k = k').
  { destruct (Nat.le_ge_cases (length w) (length w')) as [L|L].
    - destruct (prefix_app _ _ _ _ E L) as (e & X & _). eapply W_free; eauto. exists e. exact X.
    - symmetry in E. destruct (prefix_app _ _ _ _ E L) as (e & X & _). symmetry. eapply W_free; eauto. exists e. exact X. }
  subst k'. split; [reflexivity|]. pose proof (W_fun _ _ _ A B). subst w'. split; [reflexivity|].
  apply app_inv_head in E. exact E.
Qed.
Lemma W_lt : forall k w, W k w -> (k < 256)%N.
Proof. intros k w (l & c & A & _). apply nth_error_bound in A. lia. Qed.
Lemma W_len : forall k w, W k w -> 1 <= length w <= 50.
Proof.
  intros k w (l & c & A & B & C & ->). rewrite be_bits_length. destruct (HC _ _ _ A B) as (_ & ? & _). lia.
Qed.

(** ** The zero code *)
Lemma zeroCode_spec_gen : forall cl co k acc, length cl = length co ->
  (exists i l, nth_error cl i = Some l /\ (0 < l)%N /\ nth_error co i = Some 0%N) ->
  exists i l, nth_error cl i = Some l /\ (0 < l)%N /\ nth_error co i = Some 0%N /\
    zeroCode cl co k acc = (N.to_nat l, k + N.of_nat i)%N.
Proof.
  induction cl as [|l cl IH]; intros [|c co] k acc L (i & l' & A & B & C); cbn [length] in L; try lia.
  - destruct i; discriminate.
  - cbn [zeroCode].
    destruct (List.existsb (fun p => (0 <? fst p)%N && (snd p =? 0)%N) (combine cl co)) eqn:X.
    + apply existsb_exists in X. destruct X as ([l1 c1] & I & Q). cbn [fst snd] in Q.
      destruct (In_nth_error _ _ I) as [j J].
      assert (J1 : nth_error cl j = Some l1 /\ nth_error co j = Some c1).
      { clear -J. revert co j J. induction cl as [|x cl IH]; intros [|y co] [|j] J; cbn in *; try discriminate; auto.
        injection J as -> ->. auto. }
      destruct J1 as [J1 J2].
      destruct (IH co (k + 1)%N (if ((0 <? l) && (c =? 0))%N%bool then (N.to_nat l, k) else acc) ltac:(lia)) as (i' & l2 & D1 & D2 & D3 & D4).
      { exists j, l1. assert (c1 = 0)%N by lia. subst c1. repeat split; auto; lia. }
      exists (S i'), l2. repeat split; auto. rewrite D4. f_equal. lia.
    + assert (Z : forall j l1, nth_error cl j = Some l1 -> nth_error co j = Some 0%N -> ~ (0 < l1)%N).
      { intros j l1 J1 J2 Hl. assert (I : In (l1, 0%N) (combine cl co)).
        { clear -J1 J2. revert co j J1 J2. induction cl as [|x cl IH]; intros [|y co] [|j] J1 J2; cbn in *; try discriminate.
          - injection J1 as ->. injection J2 as ->. left. reflexivity.
          - right. eapply IH; eauto. }
        assert (T : existsb (fun p => (0 <? fst p)%N && (snd p =? 0)%N) (combine cl co) = true)
          by (apply existsb_exists; exists (l1, 0%N); split; [exact I|cbn [fst snd]; lia]).
        congruence. }
      destruct i as [|i]; cbn [nth_error] in A, C.
      * injection A as ->. injection C as ->.
        replace ((0 <? l')%N && (0 =? 0)%N) with true by lia.
        exists 0, l'. repeat split; auto. replace (k + N.of_nat 0)%N with k by lia.
        assert (N0 : forall cl co k acc, (forall j l1, nth_error cl j = Some l1 -> nth_error co j = Some 0%N -> ~ (0 < l1)%N) ->
                  zeroCode cl co k acc = acc).
        { clear. induction cl as [|x cl IH]; intros [|y co] k acc Z; cbn [zeroCode]; auto.
          replace ((0 <? x)%N && (y =? 0)%N) with false.
          - apply IH. intros j l1 J1 J2. exact (Z (S j) l1 J1 J2).
          - destruct (N.eqb_spec y 0) as [->|]; [|lia]. pose proof (Z 0 x eq_refl eq_refl). lia. }
        apply N0. exact Z.
      * exfalso. exact (Z i l' A C B).
Qed.

Variables (len0 : nat) (code0 : N).
Hypothesis Z0 : zeroCode clen code 0 (0, 0%N) = (len0, code0).
Lemma W_zero : W code0 (repeat false len0).
Proof.
  destruct (zeroCode_spec_gen clen code 0 (0, 0%N) ltac:(congruence) HZ) as (i & l & A & B & C & D).
  rewrite Z0 in D. injection D as D1 D2. cbn [N.add] in D2. rewrite D1, D2. exists l, 0%N. rewrite Nat2N.id. repeat split; auto.
  rewrite be_bits_zeros. reflexivity.
Qed.
Lemma len0_range : 1 <= len0 <= 50.
Proof. pose proof (W_len _ _ W_zero) as H. rewrite repeat_length in H. exact H. Qed.

(** ** Tables *)
(** The code of [k] is z zeros followed by the top m bits of v, the first of which is 1. *)
Definition matches (k : N) (z : nat) (v : N) (m : nat) : Prop := exists l c,
  nth_error clen (N.to_nat k) = Some l /\ nth_error code (N.to_nat k) = Some c /\
  N.to_nat l = z + m /\ 1 <= m <= 8 /\ (c = v / 2 ^ N.of_nat (8 - m))%N /\ (128 <= v < 256)%N.

Lemma matches_word : forall k z v m, matches k z v m -> exists w, W k w /\ length w = z + m /\
  w = repeat false z ++ be_bits m (v / 2 ^ N.of_nat (8 - m)) /\ repeat false z ++ be_bits 8 v = w ++ be_bits (8 - m) v.
Proof.
  intros k z v m (l & c & A & B & C & D & E & F).
  assert (T : (c < 2 ^ N.of_nat m)%N).
  { subst c. apply N.div_lt_upper_bound; [apply N.pow_nonzero; lia|]. rewrite <- N.pow_add_r.
    replace (N.of_nat (8 - m) + N.of_nat m)%N with 8%N by lia. change (2 ^ 8)%N with 256%N. lia. }
  exists (be_bits (N.to_nat l) c). split; [exists l, c; repeat split; auto; lia|].
  split; [rewrite be_bits_length; exact C|].
  assert (Q : be_bits (N.to_nat l) c = repeat false z ++ be_bits m (v / 2 ^ N.of_nat (8 - m))).
  { rewrite (be_bits_lead (N.to_nat l) m c) by (auto; lia). replace (N.to_nat l - m) with z by lia. rewrite E. reflexivity. }
  split; [exact Q|].
  rewrite Q, <- app_assoc. f_equal. replace 8 with (m + (8 - m)) at 1 by lia. apply be_bits_split.
Qed.
Lemma matches_unique : forall k z v m k' m', matches k z v m -> matches k' z v m' -> k = k' /\ m = m'.
Proof.
  intros k z v m k' m' A B.
  destruct (matches_word _ _ _ _ A) as (w & A1 & A2 & A3 & A4).
  destruct (matches_word _ _ _ _ B) as (w' & B1 & B2 & B3 & B4).
  rewrite A4 in B4. destruct (W_unique _ _ _ _ _ _ A1 B1 B4) as (? & -> & _). split; [assumption|lia].
Qed.

(** A code word at the front of bits whose first 1 is at position z, inside the word. *)
Lemma word_matches : forall k w a z v r, W k w -> (128 <= v < 256)%N -> w ++ a = repeat false z ++ be_bits 8 v ++ r ->
  z < length w -> matches k z v (length w - z).
Proof.
  intros k w a z v r (l & c & A & B & C & ->) V E L. rewrite be_bits_length in *.
  destruct (HC _ _ _ A B) as (C1 & C2 & C3). specialize (C3 C).
  assert (TV : be_bits 8 v = true :: be_bits 7 v).
  { apply (top_bit 8 v ltac:(lia)). cbn [Nat.sub]. apply N.testbit_true. change (N.of_nat 7) with 7%N. change (2 ^ 7)%N with 128%N.
    replace (v / 128)%N with 1%N; [reflexivity|]. apply (N.div_unique v 128 1 (v - 128)); lia. }
  assert (NZ : c <> 0%N).
  { intros ->. rewrite be_bits_zeros in E. replace (N.to_nat l) with (z + S (N.to_nat l - z - 1)) in E by lia.
    rewrite repeat_split, <- app_assoc in E. apply app_inv_head in E. rewrite TV in E. discriminate. }
  destruct (maxNonZeroBit_spec c ltac:(lia)) as [M1 M2]. set (m := maxNonZeroBit c) in *.
  assert (ML : m <= N.to_nat l).
  { destruct (Nat.le_gt_cases m (N.to_nat l)) as [|G]; [assumption|exfalso].
    assert (2 ^ l <= 2 ^ (N.of_nat m - 1))%N by (apply N.pow_le_mono_r; lia). lia. }
  assert (TC : be_bits m c = true :: be_bits (m - 1) c).
  { apply top_bit; [lia|]. replace (N.of_nat (m - 1)) with (N.of_nat m - 1)%N by lia. apply N.testbit_true.
    replace (c / 2 ^ (N.of_nat m - 1))%N with 1%N; [reflexivity|].
    apply (N.div_unique c _ 1 (c - 2 ^ (N.of_nat m - 1))); [|lia].
    replace (2 ^ N.of_nat m)%N with (2 * 2 ^ (N.of_nat m - 1))%N in M2 by (rewrite <- N.pow_succ_r'; f_equal; lia). lia. }
  rewrite (be_bits_lead (N.to_nat l) m c) in E by (auto; lia). rewrite TC, TV, <- app_assoc in E. cbn [app] in E.
  apply zeros_inj in E. destruct E as [E1 E2]. exists l, c. replace (N.to_nat l - z) with m by lia.
  repeat split; auto; try lia.
  assert (E3 : be_bits m c ++ a = be_bits 8 v ++ r) by (rewrite TC, TV; cbn [app]; f_equal; exact E2).
  replace 8 with (m + (8 - m)) in E3 at 1 by lia. rewrite be_bits_split, <- app_assoc in E3.
  assert (E4 : be_bits m c = be_bits m (v / 2 ^ N.of_nat (8 - m))).
  { apply (f_equal (firstn m)) in E3. rewrite !firstn_app, !be_bits_length, !Nat.sub_diag in E3. cbn [firstn] in E3.
    rewrite !app_nil_r in E3. rewrite !firstn_all2 in E3 by (rewrite be_bits_length; lia). exact E3. }
  apply (be_bits_inj m); [exact (proj2 M2)| |exact E4].
  apply N.div_lt_upper_bound; [apply N.pow_nonzero; lia|]. rewrite <- N.pow_add_r.
  replace (N.of_nat (8 - m) + N.of_nat m)%N with 8%N by lia. change (2 ^ 8)%N with 256%N. lia.
Qed.

Definition filled (j : nat) (t : table) : Prop := forall z v, z < 50 -> (v < 256)%N ->
  exists w l, get2 t z v = Ok (w, l) /\
    ((w = 256%N /\ forall k m, (N.to_nat k < j) -> ~ matches k z v m) \/ (N.to_nat w < j /\ matches w z v l)).

Lemma filled_empty : shaped emptyTable /\ filled 0 emptyTable.
Proof.
  split.
  - split; [apply repeat_length|]. apply Forall_forall. intros x H. apply repeat_spec in H. subst. apply repeat_length.
  - intros z v Hz Hv. exists 256%N, 0. split; [|left; split; [reflexivity|intros; lia]].
    unfold get2, emptyTable, get. rewrite nth_error_repeat_lt by exact Hz. cbn [bind].
    rewrite nth_error_repeat_lt by lia. reflexivity.
Qed.

Lemma fillTable_spec : forall cl co j t, clen = firstn j clen ++ cl -> code = firstn j code ++ co -> j <= 256 ->
  length cl = 256 - j -> length co = 256 - j ->
  shaped t -> filled j t -> exists t', fillTable cl co (N.of_nat j) t = Ok t' /\ shaped t' /\ filled 256 t'.
Proof.
  induction cl as [|l cl IH]; intros co j t EC ED J Lc Lo S F.
  - cbn [length] in Lc. exists t. replace j with 256 in * by lia. split; [reflexivity|]. auto.
  - destruct co as [|c co]; cbn [length] in *; [lia|].
    assert (NC : nth_error clen j = Some l).
    { rewrite EC. rewrite nth_error_app2; rewrite firstn_length_le by lia; [|lia]. rewrite Nat.sub_diag. reflexivity. }
    assert (ND : nth_error code j = Some c).
    { rewrite ED. rewrite nth_error_app2; rewrite firstn_length_le by lia; [|lia]. rewrite Nat.sub_diag. reflexivity. }
    assert (EC' : clen = firstn (Datatypes.S j) clen ++ cl).
    { transitivity (firstn (Datatypes.S j) (firstn j clen ++ l :: cl) ++ cl); [|rewrite <- EC; reflexivity].
      rewrite firstn_app, firstn_firstn, firstn_length_le by lia. replace (Nat.min (Datatypes.S j) j) with j by lia.
      replace (Datatypes.S j - j) with 1 by lia. cbn [firstn]. rewrite <- app_assoc. exact EC. }
    assert (ED' : code = firstn (Datatypes.S j) code ++ co).
    { transitivity (firstn (Datatypes.S j) (firstn j code ++ c :: co) ++ co); [|rewrite <- ED; reflexivity].
      rewrite firstn_app, firstn_firstn, firstn_length_le by lia. replace (Nat.min (Datatypes.S j) j) with j by lia.
      replace (Datatypes.S j - j) with 1 by lia. cbn [firstn]. rewrite <- app_assoc. exact ED. }
    cbn [fillTable]. replace (N.of_nat j + 1)%N with (N.of_nat (Datatypes.S j)) by lia.
    destruct (HC _ _ _ NC ND) as (C1 & C2 & C3).
    assert (KJ : forall k, N.to_nat k < Datatypes.S j -> N.to_nat k < j \/ k = N.of_nat j) by (intros; lia).
    destruct ((0 <? l)%N && (0 <? c)%N) eqn:B.
    + specialize (C3 ltac:(lia)). destruct (maxNonZeroBit_spec c ltac:(lia)) as [M1 M2]. set (m := maxNonZeroBit c) in *. cbv zeta.
      assert (ML : m <= N.to_nat l).
      { destruct (Nat.le_gt_cases m (N.to_nat l)) as [|G]; [assumption|exfalso].
        assert (2 ^ l <= 2 ^ (N.of_nat m - 1))%N by (apply N.pow_le_mono_r; lia). lia. }
      replace ((N.to_nat l <? m) || (8 <? m)) with false by lia.
      rewrite N.shiftl_mul_pow2. set (p := (2 ^ N.of_nat (8 - m))%N).
      assert (Pp : (p <> 0)%N) by (apply N.pow_nonzero; lia).
      assert (P2 : (2 ^ N.of_nat m * p = 256)%N).
      { unfold p. rewrite <- N.pow_add_r. replace (N.of_nat m + N.of_nat (8 - m))%N with 8%N by lia. reflexivity. }
      assert (P1 : (2 * (2 ^ (N.of_nat m - 1) * p) = 256)%N).
      { rewrite <- P2. replace (2 ^ N.of_nat m)%N with (2 * 2 ^ (N.of_nat m - 1))%N by (rewrite <- N.pow_succ_r'; f_equal; lia). lia. }
      assert (PN : N.of_nat (2 ^ (8 - m)) = p).
      { unfold p. rewrite Nat2N.inj_pow. reflexivity. }
      destruct M2 as [M2 M3].
      assert (R1 : (128 <= c * p)%N) by nia. assert (R2 : (c * p + p <= 256)%N) by nia.
      destruct (fillEntries_spec (2 ^ (8 - m)) t (N.to_nat l - m) (c * p)%N (N.of_nat j, m) S ltac:(lia) ltac:(rewrite PN; lia)) as (t1 & T1 & T2 & T3).
      rewrite PN in T3. rewrite T1. cbn [bind].
      apply (IH co (Datatypes.S j) t1); auto; try lia.
      intros z v Hz Hv. rewrite T3 by assumption.
      assert (ME : forall z v m', (v < 256)%N -> matches (N.of_nat j) z v m' <->
        (z =? N.to_nat l - m) && (c * p <=? v)%N && (v <? c * p + p)%N = true /\ m' = m).
      { clear z v Hz Hv. intros z v m' Hv. split.
        - intros (l' & c' & X1 & X2 & X3 & X4 & X5 & X6). rewrite Nat2N.id in X1, X2. rewrite NC in X1. rewrite ND in X2.
          injection X1 as <-. injection X2 as <-.
          assert (MM : m' = m).
          { assert (Q1 : (v < 2 ^ N.of_nat m' * 2 ^ N.of_nat (8 - m'))%N).
            { rewrite <- N.pow_add_r. replace (N.of_nat m' + N.of_nat (8 - m'))%N with 8%N by lia. change (2 ^ 8)%N with 256%N. lia. }
            assert (Q2 : (2 ^ (N.of_nat m' - 1) * 2 ^ N.of_nat (8 - m') <= v)%N).
            { rewrite <- N.pow_add_r. replace (N.of_nat m' - 1 + N.of_nat (8 - m'))%N with 7%N by lia. change (2 ^ 7)%N with 128%N. lia. }
            assert (Q3 : (c < 2 ^ N.of_nat m')%N).
            { rewrite X5. apply N.div_lt_upper_bound; [apply N.pow_nonzero; lia|]. lia. }
            assert (Q4 : (2 ^ (N.of_nat m' - 1) <= c)%N).
            { rewrite X5. apply N.div_le_lower_bound; [apply N.pow_nonzero; lia|]. lia. }
            destruct (Nat.lt_trichotomy m m') as [G|[G|G]]; [exfalso|auto|exfalso].
            - assert (2 ^ N.of_nat m <= 2 ^ (N.of_nat m' - 1))%N by (apply N.pow_le_mono_r; lia). lia.
            - assert (2 ^ N.of_nat m' <= 2 ^ (N.of_nat m - 1))%N by (apply N.pow_le_mono_r; lia). lia. }
          subst m'. split; [|reflexivity]. fold p in X5.
          pose proof (N.div_mod v p Pp) as DM. pose proof (N.mod_lt v p Pp) as DL. rewrite <- X5 in DM.
          rewrite (N.mul_comm c p). lia.
        - intros [Q ->]. exists l, c. rewrite Nat2N.id. repeat split; auto; try lia. fold p.
          apply (N.div_unique v p c (v - c * p)); lia. }
      destruct ((z =? N.to_nat l - m) && (c * p <=? v)%N && (v <? c * p + p)%N) eqn:G.
      * exists (N.of_nat j), m. split; [reflexivity|]. right. split; [lia|]. apply ME; auto.
      * destruct (F z v Hz Hv) as (w & l' & F1 & F2). exists w, l'. split; [exact F1|].
        destruct F2 as [[F2 F3]|[F2 F3]].
        -- left. split; [exact F2|]. intros k m' Hk Hm. destruct (KJ k Hk) as [Q| ->]; [exact (F3 k m' Q Hm)|].
           apply ME in Hm; [|assumption]. rewrite G in Hm. destruct Hm; discriminate.
        -- right. split; [lia|exact F3].
    + apply (IH co (Datatypes.S j) t); auto; try lia.
      intros z v Hz Hv. destruct (F z v Hz Hv) as (w & l' & F1 & F2). exists w, l'. split; [exact F1|].
      destruct F2 as [[F2 F3]|[F2 F3]]; [|right; split; [lia|exact F3]].
      left. split; [exact F2|]. intros k m' Hk Hm. destruct (KJ k Hk) as [Q| ->]; [exact (F3 k m' Q Hm)|].
      destruct Hm as (l1 & c1 & X1 & X2 & X3 & X4 & X5 & X6). rewrite Nat2N.id in X1, X2. rewrite NC in X1. rewrite ND in X2.
      injection X1 as <-. injection X2 as <-.
      assert (c <> 0)%N; [|lia]. rewrite X5. intros Q. apply N.div_small_iff in Q; [|apply N.pow_nonzero; lia].
      assert (2 ^ N.of_nat (8 - m') <= 2 ^ 7)%N by (apply N.pow_le_mono_r; lia). change (2 ^ 7)%N with 128%N in *. lia.
Qed.

Variable t : table.
Hypothesis TS : shaped t.
Hypothesis TF : filled 256 t.

Lemma table_hit : forall k z v m, z < 50 -> matches k z v m -> get2 t z v = Ok (k, m).
Proof.
  intros k z v m Hz M. assert (K : (k < 256)%N) by (destruct M as (? & ? & A & _); apply nth_error_bound in A; lia).
  assert (Hv : (v < 256)%N) by (destruct M as (? & ? & _ & _ & _ & _ & _ & ?); lia).
  destruct (TF z v Hz Hv) as (w & l & A & [[B C]|[B C]]).
  - exfalso. exact (C k m ltac:(lia) M).
  - destruct (matches_unique _ _ _ _ _ _ M C) as [<- <-]. exact A.
Qed.

(** ** Decoder state *)
Definition rep (st : dstate) (P : list bool) : Prop :=
  let '(buffer, bits, zc) := st in P = repeat false zc ++ be_bits bits buffer /\ bits <= 8 /\ (buffer < 256)%N /\
    (bits = 0 \/ N.testbit buffer (N.of_nat (bits - 1)) = true).

Lemma rep_leading : forall buffer bits zc P, rep (buffer, bits, zc) P -> leading (be_bits bits buffer).
Proof.
  intros buffer bits zc P (_ & _ & _ & [-> | T]); [left; reflexivity|].
  destruct bits as [|b]; [left; reflexivity|]. right. exists (be_bits b buffer).
  apply (top_bit (S b)) in T; [|lia]. replace (S b - 1) with b in T by lia. exact T.
Qed.

Lemma zero_prefix : forall z B n X, leading B -> repeat false z ++ B = repeat false n ++ X -> n <= z.
Proof.
  intros z B n X LB E. destruct (Nat.le_gt_cases n z) as [|G]; [assumption|exfalso].
  replace n with (z + S (n - z - 1)) in E by lia. rewrite repeat_split, <- app_assoc in E. apply app_inv_head in E.
  destruct LB as [-> | [r ->]]; discriminate.
Qed.

Definition wbits (ws : list N) (bits : list bool) : Prop := exists ps, Forall2 W ws ps /\ bits = concat ps.
Lemma wbits_cons : forall k ws bits, wbits (k :: ws) bits -> exists w b', W k w /\ wbits ws b' /\ bits = w ++ b'.
Proof.
  intros k ws bits (ps & F & ->). inversion_clear F as [|? w ? ps' A B]. exists w, (concat ps').
  split; [exact A|]. split; [exists ps'; auto|reflexivity].
Qed.
Lemma wbits_nil : forall bits, wbits [] bits -> bits = [].
Proof. intros bits (ps & F & ->). inversion F. reflexivity. Qed.

(** Code0s taken from the zeros at the front. *)
Lemma extractZeros_spec : forall ws bits z B s tail, wbits ws bits -> leading B ->
  (repeat false z ++ B) ++ s = bits ++ tail ->
  let '(out, z', n') := extractZeros len0 code0 (length ws) z in
  exists ws' bits', ws = out ++ ws' /\ n' = length ws' /\ wbits ws' bits' /\ z' <= z /\
    (repeat false z' ++ B) ++ s = bits' ++ tail /\ length bits - length bits' = z - z' /\ length bits' <= length bits /\
    (ws' = [] \/ z' < len0).
Proof.
  induction ws as [|k ws IH]; intros bits z B s tail WB LB E; cbn [length extractZeros].
  - exists [], bits. repeat split; auto; lia.
  - destruct (Nat.leb_spec len0 z) as [G|G].
    + destruct (wbits_cons _ _ _ WB) as (w & b' & W1 & W2 & ->).
      replace z with (len0 + (z - len0)) in E by lia. rewrite repeat_split, <- !app_assoc in E.
      destruct (W_unique _ _ _ _ _ _ W_zero W1 E) as (K & Kw & E').
      specialize (IH b' (z - len0) B s tail W2 LB ltac:(rewrite <- app_assoc; exact E')).
      destruct (extractZeros len0 code0 (length ws) (z - len0)) as [[out z'] n'].
      destruct IH as (ws' & bits' & A1 & A2 & A3 & A4 & A5 & A6 & A7 & A8).
      exists ws', bits'. subst ws k. rewrite app_length. rewrite <- Kw. rewrite repeat_length. repeat split; auto; lia.
    + exists (k :: ws), bits. repeat split; auto; lia.
Qed.

Lemma window : forall b buffer, b <= 8 -> (buffer < 256)%N ->
  (N.shiftl buffer (N.of_nat (8 - b)) mod 256 < 256)%N /\
  be_bits 8 (N.shiftl buffer (N.of_nat (8 - b)) mod 256) = be_bits b buffer ++ repeat false (8 - b).
Proof.
  intros b buffer Hb Hk. split; [apply N.mod_lt; discriminate|].
  change 256%N with (2 ^ N.of_nat 8)%N. rewrite be_bits_mod by lia.
  pose proof (be_bits_shl_or b (8 - b) buffer 0 ltac:(lia) (pow2_pos _)) as S. rewrite N.lor_0_r in S.
  rewrite be_bits_zeros in S. replace (b + (8 - b)) with 8 in S by lia. rewrite <- S. symmetry.
  change two64 with (2 ^ N.of_nat 64)%N. apply be_bits_mod. lia.
Qed.
Lemma window_top : forall v r, (v < 256)%N -> be_bits 8 v = true :: r -> (128 <= v < 256)%N.
Proof.
  intros v r Hv H. cbn [be_bits] in H. injection H as H _. split; [|exact Hv].
  destruct (N.le_gt_cases 128 v) as [|G]; [assumption|exfalso].
  change (N.of_nat 7) with 7%N in H. apply N.testbit_true in H. rewrite N.div_small in H by exact G. discriminate.
Qed.

(** What is left of a byte after the code: strip zeros. *)
Lemma strip : forall b k, b <= 8 -> (k < 256)%N -> exists z, leadingZeros b k = Ok z /\ z <= b /\
  rep (N.land k (2 ^ N.of_nat (b - z) - 1)%N, b - z, z) (be_bits b k) /\ rep (k, b - z, z) (be_bits b k).
Proof.
  intros b k Hb Hk. destruct (leadingZeros_spec b k Hb Hk) as (z & A & B & C & D).
  exists z. split; [exact A|]. split; [exact B|].
  assert (O : (2 ^ N.of_nat (b - z) - 1 = N.ones (N.of_nat (b - z)))%N) by (rewrite N.ones_equiv; lia).
  split; repeat split; auto; try lia.
  - rewrite C. f_equal. rewrite O, N.land_ones. symmetry. apply be_bits_mod. lia.
  - rewrite O, N.land_ones. eapply N.le_lt_trans; [apply N.mod_le; apply N.pow_nonzero; lia|exact Hk].
  - destruct D as [D|D]; [left; exact D|]. destruct (Nat.eq_dec (b - z) 0) as [|NE]; [left; assumption|right].
    rewrite O, N.land_ones. rewrite N.mod_pow2_bits_low by lia. exact D.
Qed.

Definition nonzero (w : list bool) : Prop := In true w.
Lemma extractOne_spec : forall st P, rep st P -> snd st < 50 ->
  (exists k w P' st', extractOne t st = Ok (Some k, st') /\ W k w /\ P = w ++ P' /\ rep st' P' /\ snd st' + snd (fst st') <= 8) \/
  (extractOne t st = Ok (None, st) /\ forall k w, W k w -> is_prefix w P -> w = repeat false (length w)).
Proof.
  intros [[buffer bits] zc] P R Hz. pose proof (rep_leading _ _ _ _ R) as LB. destruct R as (-> & R2 & R3 & R4). cbn [snd] in Hz.
  unfold extractOne. destruct (window bits buffer R2 R3) as [V1 V2].
  set (v := (N.shiftl buffer (N.of_nat (8 - bits)) mod 256)%N) in *.
  destruct (TF zc v Hz V1) as (w & l & A & B). rewrite A. cbn [bind].
  destruct ((w <? 256)%N && (l <=? bits)) eqn:G.
  - left. destruct B as [[B _]|[B M]]; [lia|].
    destruct (matches_word _ _ _ _ M) as (wd & M1 & M2 & M3 & M4).
    assert (ML : 1 <= l) by (destruct M as (? & ? & _ & _ & _ & ? & _); lia).
    assert (PE : repeat false zc ++ be_bits bits buffer = wd ++ be_bits (bits - l) buffer).
    { rewrite M3, <- app_assoc. f_equal.
      replace bits with (l + (bits - l)) at 1 by lia. rewrite be_bits_split. f_equal.
      replace bits with (l + (bits - l)) in V2 by lia. rewrite be_bits_split, <- app_assoc in V2.
      replace 8 with (l + (8 - l)) in V2 at 1 by lia. rewrite be_bits_split in V2.
      apply (f_equal (firstn l)) in V2. rewrite !firstn_app, !be_bits_length, !Nat.sub_diag in V2. cbn [firstn] in V2.
      rewrite !app_nil_r in V2. rewrite !firstn_all2 in V2 by (rewrite be_bits_length; lia). symmetry. exact V2. }
    destruct (strip (bits - l) buffer ltac:(lia) R3) as (z & S1 & S2 & S3 & _). rewrite S1. cbn [bind].
    exists w, wd, (be_bits (bits - l) buffer), (N.land buffer (2 ^ N.of_nat (bits - l - z) - 1)%N, bits - l - z, z).
    split; [reflexivity|]. split; [exact M1|]. split; [exact PE|]. split; [exact S3|]. cbn [fst snd]. lia.
  - right. split; [reflexivity|]. intros k wd Wk [a E].
    destruct (in_dec Bool.bool_dec true wd) as [I|NI].
    + exfalso. destruct LB as [LB|[r LB]].
      * rewrite LB, app_nil_r in E. assert (In true (repeat false zc)) as Q by (rewrite E; apply in_or_app; left; exact I).
        apply repeat_spec in Q. discriminate.
      * assert (Bp : bits <> 0) by (intros ->; discriminate LB).
        assert (VV : (128 <= v < 256)%N).
        { apply (window_top v (r ++ repeat false (8 - bits))); [exact V1|]. rewrite V2, LB. reflexivity. }
        assert (ZL : zc < length wd).
        { destruct (Nat.le_gt_cases (length wd) zc) as [Q|]; [exfalso|assumption].
          replace zc with (length wd + (zc - length wd)) in E by lia. rewrite repeat_split, <- app_assoc in E.
          apply (f_equal (firstn (length wd))) in E. rewrite !firstn_app, repeat_length, !Nat.sub_diag in E. cbn [firstn] in E.
          rewrite !app_nil_r in E. rewrite !firstn_all2 in E by (rewrite ?repeat_length; lia).
          rewrite <- E in I. apply repeat_spec in I. discriminate. }
        assert (E2 : wd ++ (a ++ repeat false (8 - bits)) = repeat false zc ++ be_bits 8 v ++ []).
        { rewrite app_nil_r, V2, !app_assoc, E. reflexivity. }
        pose proof (word_matches k wd _ zc v [] Wk VV E2 ZL) as M.
        rewrite (table_hit _ _ _ _ Hz M) in A. injection A as <- <-.
        pose proof (W_lt _ _ Wk). pose proof (f_equal (@length bool) E) as EL.
        rewrite !app_length, repeat_length, be_bits_length in EL. lia.
    + clear -NI. induction wd as [|x wd IH]; [reflexivity|]. cbn [length repeat]. destruct x; [exfalso; apply NI; left; reflexivity|].
      f_equal. apply IH. intros Q. apply NI. right. exact Q.
Qed.

(** Nothing can be taken from the bits [P]. *)
Definition stuck (P : list bool) : Prop := forall k w, W k w -> ~ is_prefix w P.

Lemma all_zero_word : forall k w, W k w -> w = repeat false (length w) -> w = repeat false len0.
Proof.
  intros k w Wk E. assert (k = code0); [|subst; eapply W_fun; eauto using W_zero].
  destruct (Nat.le_ge_cases (length w) len0) as [L|L].
  - eapply W_free; [exact Wk|exact W_zero|]. rewrite E. exists (repeat false (len0 - length w)). rewrite <- repeat_split. f_equal. lia.
  - symmetry. eapply W_free; [exact W_zero|exact Wk|]. rewrite E. exists (repeat false (length w - len0)). rewrite <- repeat_split. f_equal. lia.
Qed.
Lemma stuck_intro : forall z B, leading B -> z < len0 ->
  (forall k w, W k w -> is_prefix w (repeat false z ++ B) -> w = repeat false (length w)) -> stuck (repeat false z ++ B).
Proof.
  intros z B LB Hz H k w Wk P. pose proof (H k w Wk P) as E. pose proof (all_zero_word k w Wk E) as E0.
  destruct P as [a P]. rewrite E0 in P. apply zero_prefix in P; [lia|exact LB].
Qed.
Lemma stuck_zeros : forall z, z < len0 -> stuck (repeat false z).
Proof.
  intros z Hz. rewrite <- (app_nil_r (repeat false z)). apply stuck_intro; [left; reflexivity|exact Hz|].
  intros k w Wk [a E]. rewrite app_nil_r in E. clear -E.
  assert (H : forall w z a, repeat false z = w ++ a -> w = repeat false (length w)).
  { clear. induction w as [|x w IH]; intros [|z] a E; cbn in *; auto; try discriminate. injection E as <- E. f_equal. eauto. }
  eauto.
Qed.

(** State of the whole computation: [ws] the symbols to come, [s] the bits to read. *)
Definition good (st : dstate) (ws : list N) (P bits s tail : list bool) : Prop :=
  rep st P /\ wbits ws bits /\ P ++ s = bits ++ tail.

Lemma extractLoop_spec : forall fuel ws st P bits s tail, good st ws P bits s tail -> snd st + snd (fst st) <= 8 ->
  length ws <= fuel ->
  exists out n' st' ws' P' bits', extractLoop fuel t len0 code0 (length ws) st = Ok (out, n', st') /\
    ws = out ++ ws' /\ n' = length ws' /\ good st' ws' P' bits' s tail /\
    length P' + length bits = length P + length bits' /\ (ws' = [] \/ (snd st' < len0 /\ stuck P')).
Proof.
  induction fuel as [|fuel IH]; intros ws st P bits s tail (R & WB & E) H8 HF.
  { destruct ws; cbn [length] in HF; [|lia]. exists [], 0, st, [], P, bits. repeat split; auto. }
  destruct ws as [|k ws]; [exists [], 0, st, [], P, bits; repeat split; auto|].
  cbn [length extractLoop] in *.
  destruct (extractOne_spec st P R ltac:(lia)) as [(k' & w & P1 & st1 & A1 & A2 & A3 & A4 & A5)|[A1 A2]]; rewrite A1; cbn [bind].
  - destruct (wbits_cons _ _ _ WB) as (w' & b' & W1 & W2 & ->). subst P. rewrite <- !app_assoc in E.
    destruct (W_unique _ _ _ _ _ _ A2 W1 E) as (-> & -> & E').
    destruct st1 as [[buffer b] z1]. pose proof (rep_leading _ _ _ _ A4) as LB. pose proof A4 as (P1E & A4').
    subst P1. pose proof (extractZeros_spec ws b' z1 (be_bits b buffer) s tail W2 LB E') as X.
    destruct (extractZeros len0 code0 (length ws) z1) as [[zs z2] n3].
    destruct X as (ws2 & bits2 & X1 & X2 & X3 & X4 & X5 & X6 & X6b & X7). cbn [snd fst] in A5.
    destruct (IH ws2 (buffer, b, z2) (repeat false z2 ++ be_bits b buffer) bits2 s tail) as (out & n' & st' & ws' & P' & bits' & Y1 & Y2 & Y3 & Y4 & Y5 & Y6).
    { split; [split; [reflexivity|exact A4']|]. split; [exact X3|exact X5]. }
    { cbn [fst snd]. lia. }
    { subst ws. rewrite app_length in HF. lia. }
    subst n3. rewrite Y1. cbn [bind]. exists ((k :: zs) ++ out), n', st', ws', P', bits'.
    split; [reflexivity|]. split; [subst ws; rewrite Y2; rewrite <- !app_assoc; reflexivity|]. split; [exact Y3|]. split; [exact Y4|].
    split; [|exact Y6]. rewrite !app_length, ?repeat_length in *. lia.
  - destruct st as [[buffer b] z1]. pose proof (rep_leading _ _ _ _ R) as LB. pose proof R as (PE & R').
    subst P. pose proof (extractZeros_spec (k :: ws) bits z1 (be_bits b buffer) s tail WB LB E) as X. cbn [length] in X.
    destruct (extractZeros len0 code0 (S (length ws)) z1) as [[zs z2] n3].
    destruct X as (ws2 & bits2 & X1 & X2 & X3 & X4 & X5 & X6 & X6b & X7). cbn [snd fst] in H8.
    destruct zs as [|z0 zs].
    + exists [], (S (length ws)), (buffer, b, z1), (k :: ws), (repeat false z1 ++ be_bits b buffer), bits.
      split; [reflexivity|]. split; [reflexivity|]. split; [reflexivity|]. split; [split; [exact R|split; [exact WB|exact E]]|].
      split; [lia|]. right. cbn [app] in X1. subst ws2. destruct X7 as [X7|X7]; [discriminate|].
      assert (ZE : z1 < len0).
      { destruct (Nat.lt_ge_cases z1 len0) as [|Q]; [assumption|exfalso].
        assert (z2 = z1); [|lia].
        pose proof (f_equal (@length bool) X5) as L5. pose proof (f_equal (@length bool) E) as L1.
        rewrite !app_length, !repeat_length in L5, L1. 
        assert (LL : length bits2 = length bits).
        { destruct WB as (ps & F1 & ->). destruct X3 as (ps2 & F2 & ->). f_equal. f_equal.
          clear -F1 F2 HP HC. revert ps2 F2. induction F1 as [|x y l l' Wx F1 IH]; intros ps2 F2; inversion F2; subst; [reflexivity|].
          f_equal; [eapply W_fun; eauto|]. apply IH. assumption. }
        lia. }
      cbn [snd]. split; [exact ZE|]. apply stuck_intro; auto.
    + destruct (IH ws2 (buffer, b, z2) (repeat false z2 ++ be_bits b buffer) bits2 s tail) as (out & n' & st' & ws' & P' & bits' & Y1 & Y2 & Y3 & Y4 & Y5 & Y6).
      { split; [split; [reflexivity|exact R']|]. split; [exact X3|exact X5]. }
      { cbn [fst snd]. lia. }
      { apply (f_equal (@length N)) in X1. rewrite app_length in X1. cbn [length] in X1. lia. }
      subst n3. rewrite Y1. cbn [bind]. exists ((z0 :: zs) ++ out), n', st', ws', P', bits'.
      split; [reflexivity|]. split; [rewrite X1, Y2, <- !app_assoc; reflexivity|]. split; [exact Y3|]. split; [exact Y4|].
      split; [|exact Y6]. rewrite !app_length, ?repeat_length in *. lia.
Qed.

(** A word ending in the next byte. *)
Lemma crossing_spec : forall st P b mask k w a s, rep st P -> 0 < snd (fst st) -> snd st < len0 -> stuck P -> (b < 256)%N ->
  W k w -> (P ++ byte_bits b) ++ s = w ++ a ->
  exists st' P', crossing t st b mask = Ok (k, st') /\ rep st' P' /\ P ++ byte_bits b = w ++ P' /\ snd st' + snd (fst st') <= 8.
Proof.
  intros [[buffer bits] zc] P b mask k w a s R Hb Hz ST Hk Wk E. cbn [fst snd] in Hb, Hz.
  pose proof (rep_leading _ _ _ _ R) as LB. destruct R as (PE & R2 & R3 & R4).
  assert (LP : length P = zc + bits) by (rewrite PE, app_length, repeat_length, be_bits_length; reflexivity).
  assert (LW : length P < length w).
  { destruct (Nat.lt_ge_cases (length P) (length w)) as [|Q]; [assumption|exfalso].
    rewrite <- app_assoc in E. symmetry in E. destruct (prefix_app _ _ _ _ E Q) as (e & X & _). apply (ST k w Wk). exists e. exact X. }
  unfold crossing. destruct (window bits buffer R2 R3) as [V1 V2].
  set (v := N.lor (N.shiftl buffer (N.of_nat (8 - bits)) mod 256) (N.shiftr b (N.of_nat bits))) in *.
  assert (VB : be_bits 8 v = be_bits bits buffer ++ be_bits (8 - bits) (b / 2 ^ N.of_nat bits)).
  { unfold v. rewrite N.shiftr_div_pow2.
    assert (Q : (b / 2 ^ N.of_nat bits < 2 ^ N.of_nat (8 - bits))%N).
    { apply N.div_lt_upper_bound; [apply N.pow_nonzero; lia|]. rewrite <- N.pow_add_r.
      replace (N.of_nat bits + N.of_nat (8 - bits))%N with 8%N by lia. exact Hk. }
    rewrite <- (be_bits_shl_or bits (8 - bits) buffer (b / 2 ^ N.of_nat bits)) by (auto; lia).
    replace (bits + (8 - bits)) with 8 by lia. apply be_bits_low. intros i Hi. rewrite !N.lor_spec. f_equal.
    unfold two64. change 18446744073709551616%N with (2 ^ 64)%N. change 256%N with (2 ^ 8)%N.
    rewrite !N.mod_pow2_bits_low by lia. reflexivity. }
  assert (VL : (v < 256)%N).
  { unfold v. destruct (N.eq_dec (N.lor (N.shiftl buffer (N.of_nat (8 - bits)) mod 256) (N.shiftr b (N.of_nat bits))) 0) as [-> | NZ]; [lia|].
    change 256%N with (2 ^ 8)%N at 2. apply N.log2_lt_pow2; [lia|]. rewrite N.log2_lor.
    assert (L8 : forall x, (x < 256)%N -> (N.log2 x < 8)%N).
    { intros x Hx. destruct (N.eq_dec x 0) as [-> |]; [reflexivity|]. apply N.log2_lt_pow2; [lia|exact Hx]. }
    apply N.max_lub_lt; apply L8; [exact V1|]. rewrite N.shiftr_div_pow2. eapply N.le_lt_trans; [apply N.div_le_upper_bound with (q := b)|exact Hk].
    - apply N.pow_nonzero. lia.
    - pose proof (pow2_pos (N.of_nat bits)) as PB. clear -PB. revert PB. generalize (2 ^ N.of_nat bits)%N. intros p Hp. nia. }
  destruct LB as [LB|[r LB]]; [destruct bits; [lia|discriminate]|].
  assert (VV : (128 <= v < 256)%N).
  { apply (window_top v (r ++ be_bits (8 - bits) (b / 2 ^ N.of_nat bits))); [exact VL|]. rewrite VB, LB. reflexivity. }
  assert (BB : byte_bits b = be_bits (8 - bits) (b / 2 ^ N.of_nat bits) ++ be_bits bits b).
  { unfold byte_bits. replace 8 with ((8 - bits) + bits) at 1 by lia. apply be_bits_split. }
  assert (E2 : w ++ a = repeat false zc ++ be_bits 8 v ++ (be_bits bits b ++ s)).
  { rewrite <- E, PE, VB, BB, <- !app_assoc. reflexivity. }
  pose proof (word_matches k w a zc v _ Wk VV E2 ltac:(lia)) as M.
  assert (Z50 : zc < 50) by (pose proof len0_range; lia).
  rewrite (table_hit _ _ _ _ Z50 M). cbn [bind].
  pose proof (W_lt _ _ Wk). replace (k <? 256)%N with true by lia.
  set (m := length w - zc) in *.
  assert (MR : 1 <= m <= 8) by (destruct M as (? & ? & _ & _ & _ & ? & _); lia).
  destruct (strip (bits + (8 - m)) b ltac:(lia) Hk) as (z & S1 & S2 & S3 & S4). rewrite S1. cbn [bind].
  exists (if mask then N.land b (2 ^ N.of_nat (bits + (8 - m) - z) - 1)%N else b, bits + (8 - m) - z, z), (be_bits (bits + (8 - m)) b).
  split; [reflexivity|]. split; [destruct mask; assumption|]. split; [|cbn [fst snd]; lia].
  assert (E3 : P ++ byte_bits b = w ++ skipn (length w) (P ++ byte_bits b)).
  { pose proof E as E'. symmetry in E'. destruct (prefix_app _ _ _ _ E') as (e & X & _).
    - rewrite app_length, byte_bits_length. lia.
    - rewrite X. rewrite skipn_app, skipn_all, Nat.sub_diag. reflexivity. }
  rewrite E3 at 1. f_equal.
  assert (LWm : length w = length P + (8 - (bits + (8 - m)))) by lia.
  rewrite LWm. rewrite skipn_app. rewrite skipn_all2 by lia. replace (length P + (8 - (bits + (8 - m))) - length P) with (8 - (bits + (8 - m))) by lia.
  cbn [app]. unfold byte_bits. assert (X8 : bits + (8 - m) <= 8) by lia. clear -X8. revert X8. generalize (bits + (8 - m)). intros x X8.
  replace (be_bits 8 b) with (be_bits ((8 - x) + x) b) by (f_equal; lia).
  rewrite be_bits_split. rewrite skipn_app, be_bits_length, Nat.sub_diag. rewrite skipn_all2 by (rewrite be_bits_length; lia). reflexivity.
Qed.

(** ** Main loop *)
Definition settled (st : dstate) (ws : list N) (P : list bool) : Prop := ws = [] \/ (snd st < len0 /\ stuck P).
Definition inv (st : dstate) (ws : list N) (P bits s tail : list bool) : Prop :=
  good st ws P bits s tail /\ length P < length bits + 8 /\ length s mod 8 = 0 /\ settled st ws P.

Lemma next_byte : forall st k ws P bits s tail, inv st (k :: ws) P bits s tail ->
  exists b s', s = byte_bits b ++ s' /\ (b < 256)%N /\ length s' mod 8 = 0 /\ length P < length bits /\ length s' < length s.
Proof.
  intros st k ws P bits s tail ((R & WB & E) & L & M & S).
  destruct S as [|[_ S]]; [discriminate|]. destruct (wbits_cons _ _ _ WB) as (w & b' & W1 & W2 & ->).
  assert (LW : length P < length w).
  { destruct (Nat.lt_ge_cases (length P) (length w)) as [|Q]; [assumption|exfalso].
    rewrite <- app_assoc in E. symmetry in E. destruct (prefix_app _ _ _ _ E Q) as (e & X & _). apply (S k w W1). exists e. exact X. }
  assert (LS : 8 <= length s).
  { pose proof (f_equal (@length bool) E) as LE. rewrite !app_length in LE. 
    destruct (Nat.le_gt_cases 8 (length s)); [assumption|]. rewrite Nat.mod_small in M by assumption. lia. }
  exists (be_val (firstn 8 s)), (skipn 8 s).
  assert (F8 : length (firstn 8 s) = 8) by (apply firstn_length_le; exact LS).
  split; [|split; [|split; [|split]]].
  - unfold byte_bits. rewrite <- F8 at 1. rewrite be_val_bits. symmetry. apply firstn_skipn.
  - pose proof (be_val_bound (firstn 8 s)) as Bv. rewrite F8 in Bv. exact Bv.
  - rewrite skipn_length. replace (length s) with (length s - 8 + 1 * 8) in M by lia. rewrite Nat.mod_add in M by lia. exact M.
  - rewrite app_length. lia.
  - rewrite skipn_length. lia.
Qed.

Lemma extract_inv : forall fuel ws st P bits s tail, good st ws P bits s tail -> snd st + snd (fst st) <= 8 ->
  length ws <= fuel -> length P < length bits + 8 -> length s mod 8 = 0 ->
  exists out n' st' ws' P' bits', extractLoop fuel t len0 code0 (length ws) st = Ok (out, n', st') /\
    ws = out ++ ws' /\ n' = length ws' /\ inv st' ws' P' bits' s tail.
Proof.
  intros fuel ws st P bits s tail G H8 HF HL HM.
  destruct (extractLoop_spec fuel ws st P bits s tail G H8 HF) as (out & n' & st' & ws' & P' & bits' & A1 & A2 & A3 & A4 & A5 & A6).
  exists out, n', st', ws', P', bits'. split; [exact A1|]. split; [exact A2|]. split; [exact A3|].
  split; [exact A4|]. split; [lia|]. split; [exact HM|exact A6].
Qed.

Lemma decodeStep_spec : forall st ws P bits s tail, inv st ws P bits s tail -> ws <> [] ->
  exists out n' st' s' ws' P' bits', decodeStep t len0 code0 (length ws) st s = Ok (out, n', st', s') /\
    ws = out ++ ws' /\ n' = length ws' /\ inv st' ws' P' bits' s' tail /\ length s' < length s.
Proof.
  intros st ws P bits s tail I NE. destruct ws as [|k ws]; [congruence|]. clear NE.
  destruct (next_byte _ _ _ _ _ _ _ I) as (b & s1 & -> & Hb & M1 & LP & LS).
  destruct I as ((R & WB & E) & L & M & S). destruct S as [|[S1 S2]]; [discriminate|].
  destruct st as [[buffer bitsIn] zc]. cbn [snd] in S1. pose proof len0_range as L0.
  unfold decodeStep. rewrite readByte_spec by exact Hb.
  rewrite app_assoc in E.
  destruct (Nat.ltb_spec 0 zc) as [Z|Z]; destruct (Nat.eqb_spec bitsIn 0) as [B0|B0]; cbn [andb].
  - (* only zeros pending *)
    subst bitsIn. destruct R as (PE & _). cbn [be_bits] in PE. rewrite app_nil_r in PE. subst P. rewrite repeat_length in *.
    destruct (N.eqb_spec b 0) as [-> | NB].
    + assert (E1 : (repeat false (zc + 8) ++ []) ++ s1 = bits ++ tail).
      { rewrite app_nil_r, repeat_split. exact E. }
      pose proof (extractZeros_spec (k :: ws) bits (zc + 8) [] s1 tail WB (or_introl eq_refl) E1) as X.
      destruct (extractZeros len0 code0 (length (k :: ws)) (zc + 8)) as [[out z'] n'].
      destruct X as (ws2 & bits2 & X1 & X2 & X3 & X4 & X5 & X6 & X6b & X7).
      exists out, n', (0%N, 0, z'), s1, ws2, (repeat false z'), bits2.
      split; [reflexivity|]. split; [exact X1|]. split; [exact X2|]. split; [|exact LS].
      rewrite app_nil_r in X5. split; [|split; [rewrite repeat_length; lia|split; [exact M1|]]].
      * split; [|split; [exact X3|exact X5]]. split; [cbn [be_bits]; rewrite app_nil_r; reflexivity|]. repeat split; auto; lia.
      * destruct X7 as [X7|X7]; [left; exact X7|right]. split; [exact X7|]. apply stuck_zeros. exact X7.
    + destruct (leadingZeros_spec 8 b ltac:(lia) Hb) as (lz & A1 & A2 & A3 & A4). rewrite A1. cbn [bind].
      assert (T8 : 0 < 8 - lz).
      { destruct A4 as [A4|A4]; [|destruct (Nat.eq_dec (8 - lz) 0) as [Q|]; [|lia]]; exfalso; apply NB;
          (assert (8 - lz = 0) as Q' by lia); rewrite Q' in A3; assert (lz = 8) as -> by lia; cbn [be_bits] in A3; rewrite app_nil_r in A3;
          fold (be_bits 8 b) in A3; change (repeat false 8) with (be_bits 8 0) in A3;
          apply (be_bits_inj 8); [exact Hb|reflexivity|exact A3|exact Hb|reflexivity|exact A3]. }
      destruct A4 as [A4|A4]; [lia|].
      assert (LB : leading (be_bits (8 - lz) b)).
      { right. exists (be_bits (8 - lz - 1) b). apply top_bit; assumption. }
      assert (E1 : (repeat false (zc + lz) ++ be_bits (8 - lz) b) ++ s1 = bits ++ tail).
      { rewrite <- E. f_equal. rewrite repeat_split, <- app_assoc. f_equal. unfold byte_bits. symmetry. exact A3. }
      pose proof (extractZeros_spec (k :: ws) bits (zc + lz) _ s1 tail WB LB E1) as X.
      destruct (extractZeros len0 code0 (length (k :: ws)) (zc + lz)) as [[out1 z1] n1].
      destruct X as (ws1 & bits1 & X1 & X2 & X3 & X4 & X5 & X6 & X6b & X7).
      assert (R1 : rep (b, 8 - lz, z1) (repeat false z1 ++ be_bits (8 - lz) b)) by (repeat split; auto; lia).
      assert (L1 : z1 + (8 - lz) < length bits1 + 8) by lia.
      destruct ws1 as [|k1 ws1].
      { cbn [length] in X2. subst n1. replace (0 <? 0) with false by reflexivity. rewrite !andb_false_r. cbn [bind]. rewrite !andb_false_r.
        exists (out1 ++ []), 0, (b, 8 - lz, z1), s1, [], (repeat false z1 ++ be_bits (8 - lz) b), bits1.
        split; [reflexivity|]. split; [rewrite app_nil_r; rewrite app_nil_r in X1; rewrite app_nil_r; exact X1|]. split; [reflexivity|]. split; [|exact LS].
        split; [split; [exact R1|split; [exact X3|exact X5]]|]. split; [rewrite app_length, repeat_length, be_bits_length; lia|]. split; [exact M1|left; reflexivity]. }
      destruct X7 as [X7|X7]; [discriminate|].
      replace (0 <? n1) with true by (subst n1; reflexivity). rewrite andb_true_r.
      destruct (Nat.ltb_spec 8 (z1 + (8 - lz))) as [G|G].
      * (* a code on the boundary *)
        destruct (extractOne_spec (b, 8 - lz, z1) _ R1 ltac:(cbn [snd]; lia)) as [(k' & w & P2 & st2 & B1 & B2 & B3 & B4 & B5)|[B1 B2]]; rewrite B1; cbn [bind].
        -- destruct st2 as [[buf2 bt2] z2]. cbn [fst snd] in B5.
           destruct (wbits_cons _ _ _ X3) as (w' & b2 & W1 & W2 & EB). subst bits1. rewrite B3 in X5. rewrite <- !app_assoc in X5.
           destruct (W_unique _ _ _ _ _ _ B2 W1 X5) as (-> & <- & E').
           pose proof (rep_leading _ _ _ _ B4) as LB2. pose proof B4 as (P2E & B4'). subst P2.
           pose proof (extractZeros_spec ws1 b2 z2 _ s1 tail W2 LB2 E') as Y. subst n1. cbn [length]. replace (S (length ws1) - 1) with (length ws1) by lia.
           destruct (extractZeros len0 code0 (length ws1) z2) as [[zs z3] n3].
           destruct Y as (ws3 & bits3 & Y1 & Y2 & Y3 & Y4 & Y5 & Y6 & Y6b & Y7). cbn [bind].
           apply (f_equal (@length bool)) in B3. rewrite !app_length, !repeat_length, !be_bits_length in B3. rewrite app_length in L1, X6, X6b.
           replace (z3 + bt2 <=? 8) with true by lia. cbn [andb].
           destruct ws3 as [|k3 ws3].
           { subst n3. cbn [length]. replace (0 <? 0) with false by reflexivity. cbn [bind]. rewrite andb_false_r.
             exists (out1 ++ k1 :: zs), 0, (buf2, bt2, z3), s1, [], (repeat false z3 ++ be_bits bt2 buf2), bits3.
             split; [reflexivity|]. split; [rewrite X1, Y1, !app_nil_r; reflexivity|]. split; [reflexivity|]. split; [|exact LS].
             split; [split; [split; [reflexivity|exact B4']|split; [exact Y3|exact Y5]]|]. split; [rewrite app_length, repeat_length, be_bits_length; lia|]. split; [exact M1|left; reflexivity]. }
           replace (0 <? n3) with true by (subst n3; reflexivity).
           destruct (extract_inv n3 (k3 :: ws3) (buf2, bt2, z3) (repeat false z3 ++ be_bits bt2 buf2) bits3 s1 tail) as (out & n' & st' & ws' & P' & bits' & C1 & C2 & C3 & C4).
           { split; [split; [reflexivity|exact B4']|split; [exact Y3|exact Y5]]. }
           { cbn [fst snd]. lia. } { lia. } { rewrite app_length, repeat_length, be_bits_length. lia. } { exact M1. }
           rewrite <- Y2 in C1. rewrite C1. cbn [bind].
           exists (out1 ++ (k1 :: zs) ++ out), n', st', s1, ws', P', bits'. split; [reflexivity|].
           split; [rewrite X1, Y1, C2, <- !app_assoc; cbn [app]; rewrite <- ?app_assoc; reflexivity|]. split; [exact C3|]. split; [exact C4|exact LS].
        -- (* a code in three bytes *)
           pose proof (extractZeros_spec (k1 :: ws1) bits1 z1 _ s1 tail X3 LB X5) as Y. subst n1. cbn [length].
           assert (EZ : extractZeros len0 code0 (S (length ws1)) z1 = ([], z1, S (length ws1))).
           { cbn [extractZeros]. replace (len0 <=? z1) with false by lia. reflexivity. }
           cbn [length] in Y. rewrite EZ in Y. rewrite EZ. clear Y. cbn [bind].
           replace (z1 + (8 - lz) <=? 8) with false by lia. cbn [andb].
           replace (8 <? z1 + (8 - lz)) with true by lia. replace (0 <? S (length ws1)) with true by reflexivity. cbn [andb].
           pose proof (stuck_intro _ _ LB X7 B2) as ST.
           assert (I1 : inv (b, 8 - lz, z1) (k1 :: ws1) (repeat false z1 ++ be_bits (8 - lz) b) bits1 s1 tail).
           { split; [split; [exact R1|split; [exact X3|exact X5]]|]. split; [rewrite app_length, repeat_length, be_bits_length; lia|].
             split; [exact M1|]. right. split; [exact X7|exact ST]. }
           destruct (next_byte _ _ _ _ _ _ _ I1) as (nb & s2 & -> & Hnb & M2 & LP2 & LS2).
           rewrite readByte_spec by exact Hnb.
           destruct (wbits_cons _ _ _ X3) as (w' & b2 & W1 & W2 & ->).
           rewrite app_assoc in X5. rewrite <- (app_assoc w') in X5.
           destruct (crossing_spec (b, 8 - lz, z1) _ nb false k1 w' _ s2 R1 T8 X7 ST Hnb W1 X5) as (st3 & P3 & D1 & D2 & D3 & D4).
           rewrite D1. cbn [bind]. replace (S (length ws1) - 1) with (length ws1) by lia.
           destruct (extract_inv (S (length ws1)) ws1 st3 P3 b2 s2 tail) as (out & n' & st' & ws' & P' & bits' & C1 & C2 & C3 & C4).
           { split; [exact D2|split; [exact W2|]]. rewrite D3, <- app_assoc in X5. apply app_inv_head in X5. exact X5. }
           { exact D4. } { lia. }
           { apply (f_equal (@length bool)) in D3. rewrite !app_length, byte_bits_length in D3. rewrite !app_length in LP2. lia. } { exact M2. }
           rewrite C1. cbn [bind].
           exists (out1 ++ [] ++ k1 :: out), n', st', s2, ws', P', bits'. split; [reflexivity|].
           split; [rewrite X1, C2; cbn [app]; rewrite <- app_assoc; reflexivity|]. split; [exact C3|]. split; [exact C4|].
           lia.
      * cbn [bind]. replace (z1 + (8 - lz) <=? 8) with true by lia. cbn [andb]. rewrite X2. cbn [length]. replace (0 <? S (length ws1)) with true by reflexivity.
        destruct (extract_inv (S (length ws1)) (k1 :: ws1) (b, 8 - lz, z1) (repeat false z1 ++ be_bits (8 - lz) b) bits1 s1 tail) as (out & n' & st' & ws' & P' & bits' & C1 & C2 & C3 & C4).
        { split; [exact R1|split; [exact X3|exact X5]]. }
        { cbn [fst snd]. lia. } { cbn [length]. lia. } { rewrite app_length, repeat_length, be_bits_length. lia. } { exact M1. }
        cbn [length] in C1. rewrite C1. cbn [bind].
        exists (out1 ++ [] ++ out), n', st', s1, ws', P', bits'. split; [reflexivity|].
        split; [rewrite X1, C2; cbn [app]; rewrite <- app_assoc; reflexivity|]. split; [exact C3|]. split; [exact C4|exact LS].
  - (* a partial code pending *)
    replace (zc =? 0) with false by lia. cbn [andb].
    destruct (wbits_cons _ _ _ WB) as (w' & b2 & W1 & W2 & ->). rewrite <- (app_assoc w') in E.
    destruct (crossing_spec (buffer, bitsIn, zc) P b true k w' _ s1 R ltac:(cbn [fst snd]; lia) S1 S2 Hb W1 E) as (st3 & P3 & D1 & D2 & D3 & D4).
    rewrite D1. cbn [bind length]. replace (S (length ws) - 1) with (length ws) by lia.
    destruct (extract_inv (S (length ws)) ws st3 P3 b2 s1 tail) as (out & n' & st' & ws' & P' & bits' & C1 & C2 & C3 & C4).
    { split; [exact D2|split; [exact W2|]]. rewrite D3, <- app_assoc in E. apply app_inv_head in E. exact E. }
    { exact D4. } { lia. }
    { apply (f_equal (@length bool)) in D3. rewrite !app_length, byte_bits_length in D3. rewrite !app_length in LP. lia. } { exact M1. }
    rewrite C1. cbn [bind]. exists (k :: out), n', st', s1, ws', P', bits'. split; [reflexivity|].
    split; [rewrite C2; reflexivity|]. split; [exact C3|]. split; [exact C4|exact LS].
  - (* nothing pending *)
    assert (zc = 0) as -> by lia. subst bitsIn. replace (0 =? 0) with true by reflexivity. cbn [andb].
    destruct R as (PE & _). cbn [be_bits repeat app] in PE. subst P. cbn [app] in E.
    destruct (strip 8 b ltac:(lia) Hb) as (z & Q1 & Q2 & _ & Q4). rewrite Q1. cbn [bind].
    destruct (extract_inv (length (k :: ws)) (k :: ws) (b, 8 - z, z) (be_bits 8 b) bits s1 tail) as (out & n' & st' & ws' & P' & bits' & C1 & C2 & C3 & C4).
    { split; [exact Q4|split; [exact WB|exact E]]. }
    { cbn [fst snd]. lia. } { lia. }
    { cbn [length] in LP. rewrite be_bits_length. lia. } { exact M1. }
    rewrite C1. cbn [bind]. exists out, n', st', s1, ws', P', bits'. split; [reflexivity|].
    split; [exact C2|]. split; [exact C3|]. split; [exact C4|exact LS].
  - (* a partial code pending *)
    replace (zc =? 0) with true by lia. cbn [andb].
    destruct (wbits_cons _ _ _ WB) as (w' & b2 & W1 & W2 & ->). rewrite <- (app_assoc w') in E.
    destruct (crossing_spec (buffer, bitsIn, zc) P b true k w' _ s1 R ltac:(cbn [fst snd]; lia) S1 S2 Hb W1 E) as (st3 & P3 & D1 & D2 & D3 & D4).
    rewrite D1. cbn [bind length]. replace (S (length ws) - 1) with (length ws) by lia.
    destruct (extract_inv (S (length ws)) ws st3 P3 b2 s1 tail) as (out & n' & st' & ws' & P' & bits' & C1 & C2 & C3 & C4).
    { split; [exact D2|split; [exact W2|]]. rewrite D3, <- app_assoc in E. apply app_inv_head in E. exact E. }
    { exact D4. } { lia. }
    { apply (f_equal (@length bool)) in D3. rewrite !app_length, byte_bits_length in D3. rewrite !app_length in LP. lia. } { exact M1. }
    rewrite C1. cbn [bind]. exists (k :: out), n', st', s1, ws', P', bits'. split; [reflexivity|].
    split; [rewrite C2; reflexivity|]. split; [exact C3|]. split; [exact C4|exact LS].
Qed.

Lemma decodeLoop_spec : forall fuel ws st P bits s pad rest, inv st ws P bits s (repeat false pad ++ rest) ->
  length s < fuel -> pad < 8 -> length rest mod 8 = 0 ->
  decodeLoop fuel t len0 code0 (length ws) st s = Ok (ws, rest).
Proof.
  induction fuel as [|fuel IH]; intros ws st P bits s pad rest I HF HP8 HR; [lia|].
  destruct ws as [|k ws].
  - cbn [length decodeLoop]. do 2 f_equal. destruct I as ((R & WB & E) & L & M & _). apply wbits_nil in WB. subst bits.
    cbn [length app] in *. pose proof (f_equal (@length bool) E) as LE. rewrite !app_length, repeat_length in LE.
    assert (LP : length P = pad).
    { apply (f_equal (fun x => x mod 8)) in LE. rewrite Nat.add_mod, M, (Nat.add_mod pad), HR in LE by lia.
      rewrite !Nat.add_0_r, !Nat.mod_mod in LE by lia. rewrite !Nat.mod_small in LE by lia. exact LE. }
    apply (f_equal (skipn pad)) in E. rewrite !skipn_app, repeat_length, LP, Nat.sub_diag in E.
    rewrite (skipn_all2 P) in E by lia. rewrite (skipn_all2 (repeat false pad)) in E by (rewrite repeat_length; lia).
    rewrite ?Nat.sub_diag in E. cbn [skipn app] in E. exact E.
  - cbn [decodeLoop]. destruct (decodeStep_spec _ _ _ _ _ _ I ltac:(discriminate)) as (out & n' & st' & s' & ws' & P' & bits' & A & B & C & D & F).
    cbn [length] in A |- *. rewrite A. cbn [bind]. rewrite C. rewrite (IH ws' st' P' bits' s' pad rest D ltac:(lia) HP8 HR). cbn [bind].
    rewrite <- B. reflexivity.
Qed.
End Code.

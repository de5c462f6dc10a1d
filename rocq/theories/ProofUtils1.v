(** Packed integers, logarithms, unary code: lemmas. *)
From Coq Require Import List NArith ZArith Lia Arith Bool.
From Coq Require Import ZifyBool ZifyNat ZifyN.
From Verif Require Import Base ModelUtils.
Import ListNotations.
Open Scope N_scope.

Ltac Zify.zify_post_hook ::= Z.div_mod_to_equations.

(** ** Bit operations as arithmetic *)

Lemma lor_add : forall x y k, x < 2 ^ k -> N.lor x (N.shiftl y k) = x + y * 2 ^ k.
Proof.
  intros x y k Hx.
  assert (E : N.land x (N.shiftl y k) = 0).
  { apply N.bits_inj. intro i. rewrite N.land_spec, N.bits_0.
    destruct (N.lt_ge_cases i k) as [L|G].
    - rewrite N.shiftl_spec_low by assumption. apply andb_false_r.
    - replace (N.testbit x i) with false; auto. symmetry.
      destruct (N.eq_dec x 0) as [->|NZ]; [apply N.bits_0|].
      apply N.bits_above_log2. apply N.log2_lt_pow2; try lia.
      apply N.lt_le_trans with (2 ^ k); auto. apply N.pow_le_mono_r; lia. }
  rewrite <- N.lxor_lor by assumption.
  rewrite <- N.add_nocarry_lxor by assumption.
  rewrite N.shiftl_mul_pow2. reflexivity.
Qed.

Lemma land_127 : forall x, N.land x 127 = x mod 128.
Proof. intros. change 127 with (N.ones 7). rewrite N.land_ones. reflexivity. Qed.

Lemma land_255 : forall x, N.land x 255 = x mod 256.
Proof. intros. change 255 with (N.ones 8). rewrite N.land_ones. reflexivity. Qed.

Lemma shiftr_div : forall x k, N.shiftr x k = x / 2 ^ k.
Proof. intros. apply N.shiftr_div_pow2. Qed.

Lemma land_128 : forall x, (N.land x 128 =? 0) = (x mod 256 <? 128).
Proof.
  intros x.
  assert (E : N.land x 128 = 128 * N.b2n (N.testbit x 7)).
  { apply N.bits_inj. intro i. rewrite N.land_spec.
    change 128 with (2 ^ 7) at 1. rewrite N.pow2_bits_eqb.
    destruct (N.eqb_spec 7 i) as [<-|NE].
    - rewrite andb_true_r. destruct (N.testbit x 7); reflexivity.
    - rewrite andb_false_r. symmetry.
      destruct (N.testbit x 7); cbn [N.b2n].
      + change (128 * 1) with (2 ^ 7). rewrite N.pow2_bits_eqb.
        apply N.eqb_neq. assumption.
      + apply N.bits_0. }
  rewrite E.
  rewrite N.testbit_eqb. change (2 ^ 7) with 128.
  destruct (N.eqb_spec ((x / 128) mod 2) 1) as [H|H]; cbn [N.b2n]; lia.
Qed.

(** ** Logarithms *)

Lemma logFloorLoop_spec : forall fuel n log,
  0 < n -> n < 2 ^ N.of_nat (S fuel) -> logFloorLoop fuel n log = Ok (log + N.log2 n).
Proof.
  induction fuel as [|f IH]; intros n log Hn Hb.
  - simpl. change (2 ^ N.of_nat 1) with 2 in Hb. assert (n = 1) by lia. subst.
    simpl. f_equal. lia.
  - cbn [logFloorLoop]. destruct (N.leb_spec n 1).
    + assert (n = 1) by lia. subst. simpl. f_equal. lia.
    + rewrite shiftr_div. change (2 ^ 1) with 2. rewrite IH.
      * f_equal. rewrite <- (N.add_1_r) || idtac.
        assert (E : N.log2 n = N.succ (N.log2 (n / 2))).
        { rewrite <- N.log2_double by lia.
          destruct (N.Even_or_Odd n) as [[k Hk]|[k Hk]]; subst n.
          - f_equal. lia.
          - rewrite N.log2_succ_double by lia.
            replace ((2 * k + 1) / 2) with k by lia.
            try rewrite N.log2_double by lia. reflexivity. }
        rewrite E. lia.
      * lia.
      * rewrite Nat2N.inj_succ, N.pow_succ_r' in Hb. lia.
Qed.

Lemma clz_spec : forall w n, 0 < n -> n < 2 ^ N.of_nat w ->
  clz w n = N.of_nat w - N.log2 n - 1.
Proof.
  induction w as [|w IH]; intros n Hn Hb.
  - simpl in Hb. lia.
  - cbn [clz]. destruct (N.testbit n (N.of_nat w)) eqn:T.
    + assert (N.of_nat w <= N.log2 n).
      { destruct (N.le_gt_cases (N.of_nat w) (N.log2 n)); auto.
        rewrite N.bits_above_log2 in T by assumption. discriminate. }
      lia.
    + assert (Hlt : n < 2 ^ N.of_nat w).
      { destruct (N.lt_ge_cases n (2 ^ N.of_nat w)) as [|G]; auto.
        exfalso. assert (E : N.log2 n = N.of_nat w).
        { rewrite Nat2N.inj_succ in Hb. apply N.log2_unique; lia. }
        rewrite <- E, N.bit_log2 in T by lia. discriminate. }
      rewrite IH by assumption.
      assert (N.log2 n < N.of_nat w) by (apply N.log2_lt_pow2; lia). lia.
Qed.

Lemma logFloorGnu_spec : forall w n, 0 < n -> n < 2 ^ N.of_nat w ->
  logFloorGnu w n = Ok (N.log2 n).
Proof.
  intros w n Hn Hb. unfold logFloorGnu.
  destruct (N.eqb_spec n 0); [lia|].
  rewrite clz_spec by assumption.
  assert (N.log2 n < N.of_nat w) by (apply N.log2_lt_pow2; lia).
  f_equal. lia.
Qed.

Lemma logFloor_spec : forall n, 0 < n -> n < two64 -> logFloor n = Ok (N.log2 n).
Proof. intros. apply logFloorGnu_spec; auto. Qed.

Lemma log2_up_floor : forall n, 0 < n ->
  N.log2_up n = if 2 ^ N.log2 n <? n then N.log2 n + 1 else N.log2 n.
Proof.
  intros n Hn. pose proof (N.log2_spec n Hn) as [L U].
  destruct (N.ltb_spec (2 ^ N.log2 n) n) as [H|H].
  - apply N.log2_up_unique.
    + lia.
    + split. replace (N.pred (N.log2 n + 1)) with (N.log2 n) by lia. lia.
      rewrite N.add_1_r. lia.
  - assert (E : n = 2 ^ N.log2 n) by lia.
    rewrite E at 1. apply N.log2_up_pow2. lia.
Qed.

Lemma logCeiling_spec : forall n, 0 < n -> n < 2 ^ 31 -> logCeiling n = Ok (N.log2_up n).
Proof.
  intros n Hn Hb. unfold logCeiling.
  rewrite logFloor_spec; [|lia|unfold two64; lia]. cbn [bind].
  unfold intShl1.
  assert (N.log2 n < 31) by (apply N.log2_lt_pow2; lia).
  destruct (N.leb_spec (N.log2 n) 30); [|lia]. cbn [bind].
  rewrite log2_up_floor by assumption. reflexivity.
Qed.

Lemma logCeiling_overflow : forall n, 2 ^ 31 <= n -> n < two64 -> logCeiling n = UB.
Proof.
  intros n Hn Hb. unfold logCeiling.
  rewrite logFloor_spec by lia. cbn [bind]. unfold intShl1.
  assert (31 <= N.log2 n). { apply N.log2_le_pow2; lia. }
  destruct (N.leb_spec (N.log2 n) 30); [lia|]. reflexivity.
Qed.

(** Smearing: after or-ing with shifts by 1, 2, 4, ... the bit [i] is set iff some bit in
    [i, i+2^k) of the original is. *)
Definition smeared (k : N) (n m : N) : Prop :=
  forall i, N.testbit m i = true <-> exists j, i <= j < i + 2 ^ k /\ N.testbit n j = true.

Lemma smeared_0 : forall n, smeared 0 n n.
Proof.
  intros n i. split.
  - intros H. exists i. split; auto. simpl. lia.
  - intros [j [Hj T]]. simpl in Hj. replace i with j by lia. assumption.
Qed.

Lemma smeared_step : forall k n m, smeared k n m ->
  smeared (k + 1) n (N.lor m (N.shiftr m (2 ^ k))).
Proof.
  intros k n m H i. rewrite N.lor_spec, N.shiftr_spec by lia.
  rewrite N.pow_add_r. change (2 ^ 1) with 2.
  rewrite orb_true_iff, (H i), (H (i + 2 ^ k)). split.
  - intros [[j [Hj T]]|[j [Hj T]]]; exists j; split; auto; lia.
  - intros [j [Hj T]]. destruct (N.lt_ge_cases j (i + 2 ^ k)).
    + left. exists j. split; auto. lia.
    + right. exists j. split; auto. lia.
Qed.

Lemma smeared_ones : forall k n m, smeared k n m -> 0 < n -> n < 2 ^ (2 ^ k) ->
  m = N.ones (N.log2 n + 1).
Proof.
  intros k n m H Hn Hb. apply N.bits_inj. intro i.
  assert (L : N.log2 n < 2 ^ k) by (apply (proj1 (N.log2_lt_pow2 n (2 ^ k) Hn)); assumption).
  destruct (N.lt_ge_cases i (N.log2 n + 1)) as [G|G].
  - rewrite N.ones_spec_low by assumption.
    apply H. exists (N.log2 n). split; [lia|]. apply N.bit_log2. lia.
  - rewrite N.ones_spec_high by assumption.
    destruct (N.testbit m i) eqn:T; auto.
    apply H in T. destruct T as [j [Hj T]].
    rewrite N.bits_above_log2 in T by lia. discriminate.
Qed.

Lemma msb_of_ones : forall L, L < 32 ->
  N.land (N.ones (L + 1)) (N.lxor (N.shiftr (N.ones (L + 1)) 1) (two32 - 1)) = 2 ^ L.
Proof.
  intros L HL. apply N.bits_inj. intro i.
  rewrite N.land_spec, N.lxor_spec, N.shiftr_spec, N.pow2_bits_eqb by lia.
  change (two32 - 1) with (N.ones 32).
  destruct (N.eqb_spec L i) as [<-|NE].
  - rewrite N.ones_spec_low by lia. rewrite N.ones_spec_high by lia.
    rewrite N.ones_spec_low by lia. reflexivity.
  - destruct (N.lt_ge_cases i (L + 1)).
    + rewrite (N.ones_spec_low (L + 1) i) by lia.
      rewrite (N.ones_spec_low (L + 1) (i + 1)) by lia.
      rewrite (N.ones_spec_low 32 i) by lia. reflexivity.
    + rewrite (N.ones_spec_high (L + 1) i) by lia. reflexivity.
Qed.

Lemma smear4 : forall n, smeared 4 n
  (let n := N.lor n (N.shiftr n 1) in
   let n := N.lor n (N.shiftr n 2) in
   let n := N.lor n (N.shiftr n 4) in
   N.lor n (N.shiftr n 8)).
Proof.
  intros n. cbv zeta.
  change 8 with (2 ^ 3). change 4 with (2 ^ 2). change 2 with (2 ^ 1) at 3 4 6 8.
  apply (smeared_step 3 n). apply (smeared_step 2 n).
  apply (smeared_step 1 n). apply (smeared_step 0 n). apply smeared_0.
Qed.

Lemma msb16_spec : forall n, n < 2 ^ 16 ->
  mostSignificantBit16 n = Ok (if n =? 0 then 0 else 2 ^ N.log2 n).
Proof.
  intros n Hb. unfold mostSignificantBit16.
  destruct (N.ltb_spec n (2 ^ 16)); [|lia].
  destruct (N.eqb_spec n 0) as [->|NZ]; [reflexivity|].
  f_equal. pose proof (smear4 n) as H4. cbv zeta in H4 |- *.
  rewrite (smeared_ones 4 n _ H4) by (try lia; exact Hb).
  apply msb_of_ones.
  assert (N.log2 n < 16) by (apply N.log2_lt_pow2; lia). lia.
Qed.

Lemma msb_spec : forall n, n < two32 ->
  mostSignificantBit n = if n =? 0 then 0 else 2 ^ N.log2 n.
Proof.
  intros n Hb. unfold mostSignificantBit.
  destruct (N.eqb_spec n 0) as [->|NZ]; [reflexivity|].
  pose proof (smear4 n) as H4. cbv zeta in H4 |- *.
  pose proof (smeared_step 4 n _ H4) as H5. change (4 + 1) with 5 in H5. change (2 ^ 4) with 16 in H5.
  rewrite (smeared_ones 5 n _ H5) by (try lia; exact Hb).
  apply msb_of_ones. apply N.log2_lt_pow2; try lia; exact Hb.
Qed.

(** ** Packed integers *)

(** The 7-bit groups with continuation bits. *)
Fixpoint groups (fuel : nat) (v : N) : list N :=
  match fuel with
  | O => [v]
  | S f => if v <? 128 then [v] else (128 + v mod 128) :: groups f (v / 128)
  end.

Fixpoint leval (l : list N) : N :=
  match l with
  | [] => 0
  | b :: l' => b + 256 * leval l'
  end.

(** What a decoder computes from groups. *)
Fixpoint ungroup (l : list N) : N :=
  match l with
  | [] => 0
  | b :: l' => b mod 128 + 128 * ungroup l'
  end.

(** A well-formed group list: last below 128, the others from 128 to 255. *)
Inductive wf_groups : list N -> Prop :=
| wf_last : forall b, b < 128 -> wf_groups [b]
| wf_more : forall b l, 128 <= b < 256 -> wf_groups l -> wf_groups (b :: l).

Lemma groups_wf : forall fuel v, v < 2 ^ (7 * N.of_nat (S fuel)) -> wf_groups (groups fuel v).
Proof.
  induction fuel as [|f IH]; intros v Hv.
  - simpl. constructor. exact Hv.
  - cbn [groups]. destruct (N.ltb_spec v 128).
    + constructor; assumption.
    + constructor; [lia|]. apply IH.
      replace (7 * N.of_nat (S (S f))) with (7 + 7 * N.of_nat (S f)) in Hv by lia.
      rewrite N.pow_add_r in Hv. change (2 ^ 7) with 128 in Hv.
      apply N.div_lt_upper_bound; lia.
Qed.

Lemma ungroup_groups : forall fuel v, v < 2 ^ (7 * N.of_nat (S fuel)) ->
  ungroup (groups fuel v) = v.
Proof.
  induction fuel as [|f IH]; intros v Hv.
  - simpl. change (2 ^ (7 * N.of_nat 1)) with 128 in Hv. lia.
  - cbn [groups]. destruct (N.ltb_spec v 128).
    + simpl. lia.
    + cbn [ungroup]. rewrite IH.
      * lia.
      * replace (7 * N.of_nat (S (S f))) with (7 + 7 * N.of_nat (S f)) in Hv by lia.
        rewrite N.pow_add_r in Hv. change (2 ^ 7) with 128 in Hv.
        apply N.div_lt_upper_bound; lia.
Qed.

Lemma groups_length : forall fuel v, (1 <= length (groups fuel v) <= S fuel)%nat.
Proof.
  induction fuel as [|f IH]; intros v; simpl; [lia|].
  destruct (v <? 128); simpl; [lia|]. specialize (IH (v / 128)). lia.
Qed.

(** The number of groups is minimal. *)
Lemma groups_minimal : forall fuel v, length (groups fuel v) = 1%nat \/
  2 ^ (7 * N.of_nat (length (groups fuel v) - 1)) <= v.
Proof.
  induction fuel as [|f IH]; intros v; cbn [groups]; auto.
  destruct (N.ltb_spec v 128); auto. right.
  cbn [length].
  pose proof (groups_length f (v / 128)) as L.
  destruct (IH (v / 128)) as [E|G].
  - rewrite E. change (2 ^ (7 * N.of_nat (2 - 1))) with 128. assumption.
  - set (k := length (groups f (v / 128))) in *.
    replace (7 * N.of_nat (S k - 1)) with (7 + 7 * N.of_nat (k - 1)) by lia.
    rewrite N.pow_add_r. change (2 ^ 7) with 128. lia.
Qed.

Lemma groups_fits : forall fuel v, v < 2 ^ (7 * N.of_nat (S fuel)) ->
  v < 2 ^ (7 * N.of_nat (length (groups fuel v))).
Proof.
  induction fuel as [|f IH]; intros v Hv; cbn [groups]; auto.
  destruct (N.ltb_spec v 128); auto.
  cbn [length].
  assert (Hd : v / 128 < 2 ^ (7 * N.of_nat (S f))).
  { replace (7 * N.of_nat (S (S f))) with (7 + 7 * N.of_nat (S f)) in Hv by lia.
    rewrite N.pow_add_r in Hv. change (2 ^ 7) with 128 in Hv.
    apply N.div_lt_upper_bound; lia. }
  specialize (IH _ Hd).
  set (k := length (groups f (v / 128))) in *.
  replace (7 * N.of_nat (S k)) with (7 + 7 * N.of_nat k) by lia.
  rewrite N.pow_add_r. change (2 ^ 7) with 128. lia.
Qed.

Lemma leval_bound : forall l, are_bytes l -> leval l < 256 ^ N.of_nat (length l).
Proof.
  induction 1 as [|b l Hb Hl IH]; simpl length; [simpl; lia|].
  cbn [leval]. rewrite Nat2N.inj_succ, N.pow_succ_r'. unfold is_byte in Hb. lia.
Qed.

Lemma wf_groups_bytes : forall l, wf_groups l -> are_bytes l.
Proof.
  induction 1.
  - constructor; [unfold is_byte; lia|constructor].
  - constructor; [unfold is_byte; lia|assumption].
Qed.

Lemma pow256 : forall i, 256 ^ N.of_nat i = 2 ^ N.of_nat (i * 8).
Proof.
  intros. change 256 with (2 ^ 8). rewrite <- N.pow_mul_r. f_equal. lia.
Qed.

Lemma packLoop_spec : forall fuel v result i,
  0 < v -> v < 2 ^ (7 * N.of_nat (S fuel)) -> (i + S fuel <= 8)%nat ->
  result < 256 ^ N.of_nat i ->
  packLoop (S fuel) v result i
  = Ok (result + 256 ^ N.of_nat i * leval (groups fuel v), (i + length (groups fuel v))%nat).
Proof.
  induction fuel as [|f IH]; intros v result i Hv Hb Hi Hr.
  - cbn [packLoop].
    destruct (N.eqb_spec v 0); [lia|]. destruct (Nat.leb_spec 8 i); [lia|].
    change (2 ^ (7 * N.of_nat 1)) with 128 in Hb.
    rewrite shiftr_div. change (2 ^ 7) with 128.
    destruct (N.eqb_spec (v / 128) 0); [|lia].
    rewrite land_127. rewrite <- pow256 in * || idtac.
    rewrite lor_add by (rewrite <- pow256; assumption).
    rewrite <- pow256. rewrite (N.mod_small v 128) by lia.
    cbn [groups leval length]. simpl N.eqb.
    replace (v / 128) with 0 by lia. cbn [N.eqb].
    f_equal. f_equal; lia.
  - assert (Hpos : 0 < 256 ^ N.of_nat i) by (apply N.neq_0_lt_0, N.pow_nonzero; lia).
    remember (S f) as sf. cbn [packLoop].
    destruct (N.eqb_spec v 0); [lia|]. destruct (Nat.leb_spec 8 i); [lia|].
    rewrite shiftr_div. change (2 ^ 7) with 128. rewrite land_127.
    rewrite lor_add by (rewrite <- pow256; assumption).
    rewrite <- pow256.
    subst sf. cbn [groups].
    destruct (N.ltb_spec v 128).
    + replace (v / 128) with 0 by lia. cbn [N.eqb]. cbn [packLoop N.eqb leval length].
      f_equal. f_equal; try lia. rewrite (N.mod_small v 128) by lia. lia.
    + destruct (N.eqb_spec (v / 128) 0); [lia|].
      assert (E : N.lor (result + v mod 128 * 256 ^ N.of_nat i) (N.shiftl 128 (N.of_nat (i * 8)))
        = result + (128 + v mod 128) * 256 ^ N.of_nat i).
      { replace (N.of_nat (i * 8 + 7)) with (N.of_nat (i*8) + 7) by lia.
        replace (N.shiftl 128 (N.of_nat (i * 8))) with (N.shiftl 1 (7 + N.of_nat (i * 8))).
        2:{ rewrite <- N.shiftl_shiftl. reflexivity. }
        rewrite lor_add.
        - rewrite N.pow_add_r. change (2 ^ 7) with 128. rewrite <- pow256. lia.
        - rewrite N.pow_add_r. change (2 ^ 7) with 128. rewrite <- pow256. nia. }
      rewrite E. rewrite IH.
      * cbn [leval length]. rewrite Nat2N.inj_succ, N.pow_succ_r'. f_equal. f_equal; lia.
      * lia.
      * replace (7 * N.of_nat (S (S f))) with (7 + 7 * N.of_nat (S f)) in Hb by lia.
        rewrite N.pow_add_r in Hb. change (2 ^ 7) with 128 in Hb.
        apply N.div_lt_upper_bound; lia.
      * lia.
      * rewrite Nat2N.inj_succ, N.pow_succ_r'. nia.
Qed.

Lemma packLoop_fuel : forall f v r i x, packLoop f v r i = Ok x -> packLoop (S f) v r i = Ok x.
Proof.
  induction f as [|f IH]; intros v r i x H; cbn [packLoop] in H; cbn [packLoop].
  - destruct (v =? 0); auto. destruct (8 <=? i)%nat; discriminate.
  - destruct (v =? 0); auto. destruct (8 <=? i)%nat; auto. apply IH. exact H.
Qed.

Lemma packInteger_spec : forall v, v < 2 ^ 56 ->
  packInteger v = Ok (leval (groups 7 v), length (groups 7 v)).
Proof.
  intros v Hv. unfold packInteger.
  destruct (N.eq_dec v 0) as [->|NZ]; [reflexivity|].
  pose proof (packLoop_spec 7 v 0 0 ltac:(lia) Hv ltac:(lia) ltac:(simpl; lia)) as H.
  apply packLoop_fuel in H. rewrite H. cbn [bind].
  pose proof (groups_length 7 v).
  destruct (Nat.eqb_spec (0 + length (groups 7 v)) 0); [lia|].
  f_equal. f_equal. change (256 ^ N.of_nat 0) with 1. lia.
Qed.

Lemma leval_mod : forall b l, b < 256 -> leval (b :: l) mod 256 = b.
Proof. intros. cbn [leval]. lia. Qed.
Lemma leval_div : forall b l, b < 256 -> leval (b :: l) / 256 = leval l.
Proof. intros. cbn [leval]. lia. Qed.

Lemma lowBytes_leval : forall l, are_bytes l -> lowBytes (length l) (leval l) = l.
Proof.
  induction 1 as [|b l Hb Hl IH]; auto.
  cbn [length lowBytes]. rewrite land_255, shiftr_div. change (2 ^ 8) with 256.
  rewrite leval_mod, leval_div by assumption. rewrite IH. reflexivity.
Qed.

Lemma wf_groups_pos : forall l, wf_groups l -> (exists b, l = [b]) \/ 0 < leval l.
Proof.
  induction 1; [left; eauto|right]. cbn [leval]. lia.
Qed.

Lemma writePacked_leval : forall l fuel, wf_groups l -> (length l <= fuel)%nat ->
  (forall p b, l = p ++ [b] -> p = [] \/ 0 < b) ->
  writePackedLoop fuel (leval l) = Ok l.
Proof.
  intros l fuel H. revert fuel.
  induction H as [b Hb|b l Hb Hl IH]; intros fuel Hf Hlast.
  - destruct fuel; simpl in Hf; [lia|]. cbn [writePackedLoop leval].
    rewrite land_255, shiftr_div. change (2 ^ 8) with 256.
    destruct (N.eqb_spec ((b + 256 * 0) / 256) 0); [|lia]. f_equal. f_equal. lia.
  - destruct fuel; simpl in Hf; [lia|]. cbn [writePackedLoop].
    rewrite land_255, shiftr_div. change (2 ^ 8) with 256.
    rewrite leval_mod, leval_div by lia.
    assert (P : 0 < leval l).
    { destruct (wf_groups_pos l Hl) as [[c ->]|G]; auto.
      destruct (Hlast [b] c eq_refl) as [E|G]; [discriminate|]. cbn [leval]. lia. }
    destruct (N.eqb_spec (leval l) 0); [lia|].
    rewrite IH; auto; try lia.
    intros p c E. destruct (Hlast (b :: p) c) as [F|F]; auto.
    + rewrite E. reflexivity.
    + discriminate.
Qed.

Lemma groups_last : forall fuel v p b, groups fuel v = p ++ [b] ->
  v < 2 ^ (7 * N.of_nat (S fuel)) -> p = [] \/ 0 < b.
Proof.
  assert (G : forall fuel v p b, groups fuel v = p ++ [b] -> 0 < v -> 
     v < 2 ^ (7 * N.of_nat (S fuel)) -> 0 < b).
  { induction fuel as [|f IH]; intros v p b E Hv Hb.
    - cbn [groups] in E. destruct p as [|? [|? ?]]; inversion E; subst; auto.
    - cbn [groups] in E. destruct (N.ltb_spec v 128).
      + destruct p as [|? [|? ?]]; inversion E; subst; auto.
      + destruct p as [|x p]; inversion E as [[E1 E2]].
        * pose proof (groups_length f (v / 128)) as L. rewrite E2 in L. simpl in L. lia.
        * apply (IH _ _ _ E2).
          -- lia.
          -- replace (7 * N.of_nat (S (S f))) with (7 + 7 * N.of_nat (S f)) in Hb by lia.
             rewrite N.pow_add_r in Hb. change (2 ^ 7) with 128 in Hb.
             apply N.div_lt_upper_bound; lia. }
  intros fuel v p b E Hb.
  destruct (N.eq_dec v 0) as [->|NZ].
  - left. destruct fuel; cbn in E; destruct p as [|? [|? ?]]; inversion E; auto.
  - right. apply (G _ _ _ _ E); auto. lia.
Qed.

Lemma writePackedInteger_spec : forall v, v < 2 ^ 56 ->
  writePackedInteger (leval (groups 7 v)) = Ok (groups 7 v).
Proof.
  intros v Hv. apply writePacked_leval.
  - apply groups_wf. exact Hv.
  - apply groups_length.
  - intros p b E. apply (groups_last _ _ _ _ E). exact Hv.
Qed.

(** Reading one byte back from its bits. *)
Lemma readByteBits_spec : forall bs acc rest,
  readByteBits (length bs) (acc * 2 ^ N.of_nat (length bs)) (bs ++ rest)
  = (acc * 2 ^ N.of_nat (length bs) + be_val bs, rest).
Proof.
  induction bs as [|b bs IH]; intros acc rest.
  - simpl. f_equal. unfold be_val, be_val_acc. simpl. lia.
  - cbn [length readByteBits app readBit].
    rewrite Nat2N.inj_succ, N.pow_succ_r'.
    replace (N.lor (acc * (2 * 2 ^ N.of_nat (length bs))) (N.shiftl (N.b2n b) (N.of_nat (length bs))))
      with ((2 * acc + N.b2n b) * 2 ^ N.of_nat (length bs)).
    + rewrite IH. f_equal. change (b :: bs) with ([b] ++ bs). rewrite be_val_app.
      assert (Hb : be_val [b] = N.b2n b) by (destruct b; reflexivity). rewrite Hb. lia.
    + rewrite N.shiftl_mul_pow2.
      replace (acc * (2 * 2 ^ N.of_nat (length bs))) with (2 * acc * 2 ^ N.of_nat (length bs)) by lia.
      rewrite <- !N.shiftl_mul_pow2, <- N.shiftl_lor. f_equal.
      replace (2 * acc) with (N.shiftl acc 1) by (rewrite N.shiftl_mul_pow2; lia).
      rewrite N.lor_comm, lor_add.
      * rewrite N.shiftl_mul_pow2. lia.
      * destruct b; simpl; lia.
Qed.

Lemma readByte_spec : forall b rest, b < 256 -> readByte (byte_bits b ++ rest) = (b, rest).
Proof.
  intros b rest Hb. unfold readByte.
  pose proof (readByteBits_spec (byte_bits b) 0 rest) as H.
  rewrite byte_bits_length in H. change (0 * 2 ^ N.of_nat 8) with 0 in H. rewrite H.
  f_equal. rewrite N.add_0_l. apply be_bits_val. exact Hb.
Qed.

Lemma readByteBitsRev_spec : forall k i b acc rest,
  acc < 2 ^ N.of_nat i -> b < 2 ^ N.of_nat k ->
  readByteBitsRev k i acc (le_bits k b ++ rest) = (acc + b * 2 ^ N.of_nat i, rest).
Proof.
  induction k as [|k IH]; intros i b acc rest Ha Hb.
  - simpl in *. f_equal. lia.
  - cbn [readByteBitsRev le_bits app readBit].
    rewrite lor_add by assumption. rewrite N.div2_div.
    assert (Eb : b = 2 * (b / 2) + N.b2n (N.odd b)).
    { rewrite <- N.bit0_odd, N.bit0_mod. apply N.div_mod. lia. }
    rewrite IH.
    + f_equal. rewrite Nat2N.inj_succ, N.pow_succ_r'. rewrite Eb at 3.
      lia.
    + rewrite Nat2N.inj_succ, N.pow_succ_r'. destruct (N.odd b); cbn [N.b2n]; lia.
    + rewrite Nat2N.inj_succ, N.pow_succ_r' in Hb. lia.
Qed.

(** Generic reader: [rd] reads a byte from its image [enc b]. *)
Lemma readPackedLoop_spec : forall (rd : list bool -> N * list bool) (enc : N -> list bool),
  (forall b rest, b < 256 -> rd (enc b ++ rest) = (b, rest)) ->
  forall l, wf_groups l -> forall fuel j result n rest,
  (length l <= fuel)%nat ->
  result < 2 ^ j -> j + 7 * N.of_nat (length l) <= 64 ->
  readPackedLoop rd fuel j result n (flat_map enc l ++ rest)
  = Ok (result + ungroup l * 2 ^ j, (n + length l)%nat, rest).
Proof.
  intros rd enc Hrd l W.
  induction W as [b Hb|b l Hb Hl IH]; intros fuel j result n rest Hf Hr Hj.
  - destruct fuel; [simpl in Hf; lia|]. cbn [flat_map readPackedLoop].
    rewrite <- app_assoc, Hrd by lia.
    cbn [length] in Hj. destruct (N.leb_spec 64 j); [lia|].
    rewrite land_128, land_127. rewrite (N.mod_small b 256) by lia.
    destruct (N.ltb_spec b 128); [|lia].
    rewrite N.shiftl_mul_pow2. rewrite (N.mod_small b 128) by lia.
    rewrite N.mod_small.
    2:{ unfold two64. apply N.lt_le_trans with (2 ^ 7 * 2 ^ j).
        - apply N.mul_lt_mono_pos_r; [apply N.neq_0_lt_0, N.pow_nonzero; lia|]. exact Hb.
        - rewrite <- N.pow_add_r. apply N.pow_le_mono_r; lia. }
    rewrite <- N.shiftl_mul_pow2, lor_add by assumption.
    cbn [app ungroup length]. rewrite (N.mod_small b 128) by lia. oklia.
  - destruct fuel; [simpl in Hf; lia|]. cbn [flat_map readPackedLoop].
    rewrite <- app_assoc, Hrd by lia.
    cbn [length] in Hj. destruct (N.leb_spec 64 j); [lia|].
    rewrite land_128, land_127. rewrite (N.mod_small b 256) by lia.
    destruct (N.ltb_spec b 128); [lia|].
    assert (P : 0 < 2 ^ j) by (apply N.neq_0_lt_0, N.pow_nonzero; lia).
    assert (Hm : b mod 128 < 128) by lia.
    rewrite N.shiftl_mul_pow2.
    rewrite N.mod_small.
    2:{ unfold two64. apply N.lt_le_trans with (2 ^ 7 * 2 ^ j).
        - apply N.mul_lt_mono_pos_r; [exact P|]. exact Hm.
        - rewrite <- N.pow_add_r. apply N.pow_le_mono_r; lia. }
    rewrite <- N.shiftl_mul_pow2, lor_add by assumption.
    rewrite IH.
    + cbn [ungroup length]. rewrite N.pow_add_r. change (2 ^ 7) with 128. oklia.
    + simpl in Hf; lia.
    + rewrite N.pow_add_r. change (2 ^ 7) with 128. nia.
    + lia.
Qed.

Lemma readPackedInteger_spec : forall v rest, v < 2 ^ 56 ->
  readPackedInteger (bytes_bits (groups 7 v) ++ rest) = Ok (v, length (groups 7 v), rest).
Proof.
  intros v rest Hv. unfold readPackedInteger.
  pose proof (groups_length 7 v).
  rewrite (readPackedLoop_spec _ byte_bits).
  - rewrite ungroup_groups by exact Hv. change (2 ^ 0) with 1. oklia.
  - intros. apply readByte_spec. assumption.
  - apply groups_wf. exact Hv.
  - lia.
  - simpl. lia.
  - lia.
Qed.

Lemma readPackedIntegerRev_spec : forall v rest, v < 2 ^ 56 ->
  readPackedIntegerRev (flat_map (le_bits 8) (groups 7 v) ++ rest)
  = Ok (v, length (groups 7 v), rest).
Proof.
  intros v rest Hv. unfold readPackedIntegerRev.
  pose proof (groups_length 7 v).
  rewrite (readPackedLoop_spec _ (le_bits 8)).
  - rewrite ungroup_groups by exact Hv. change (2 ^ 0) with 1. oklia.
  - intros b r Hb. rewrite readByteBitsRev_spec; [|simpl; lia|exact Hb].
    change (2 ^ N.of_nat 0) with 1. f_equal. lia.
  - apply groups_wf. exact Hv.
  - lia.
  - simpl. lia.
  - lia.
Qed.

Lemma pushBitsRev_le : forall k n, pushBitsRev n k = le_bits k n.
Proof.
  induction k as [|k IH]; intros n; simpl; auto. rewrite IH. f_equal.
Qed.

Lemma le_bits_app : forall a b n, le_bits (a + b) n = le_bits a n ++ le_bits b (n / 2 ^ N.of_nat a).
Proof.
  induction a as [|a IH]; intros b n.
  - simpl. rewrite N.div_1_r. reflexivity.
  - cbn [Nat.add le_bits app]. rewrite IH. f_equal. f_equal. f_equal.
    rewrite N.div2_div, N.div_div by (try apply N.pow_nonzero; lia).
    f_equal. rewrite Nat2N.inj_succ, N.pow_succ_r'. reflexivity.
Qed.

Lemma le_bits_mod : forall a n, le_bits a (n mod 2 ^ N.of_nat a) = le_bits a n.
Proof.
  induction a as [|a IH]; intros n; auto.
  cbn [le_bits]. rewrite !N.div2_div.
  assert (P : 2 ^ N.of_nat a <> 0) by (apply N.pow_nonzero; lia).
  rewrite Nat2N.inj_succ, N.pow_succ_r'.
  rewrite N.mod_mul_r by lia.
  f_equal.
  - rewrite <- !N.bit0_odd. rewrite !N.testbit_eqb. change (2 ^ 0) with 1. rewrite !N.div_1_r.
    f_equal. lia.
  - replace ((n mod 2 + 2 * ((n / 2) mod 2 ^ N.of_nat a)) / 2) with ((n / 2) mod 2 ^ N.of_nat a) by lia.
    apply IH.
Qed.

Lemma pushBitsRev_leval : forall l, are_bytes l ->
  pushBitsRev (leval l) (8 * length l) = flat_map (le_bits 8) l.
Proof.
  intros l H. rewrite pushBitsRev_le. induction H as [|b l Hb Hl IH]; auto.
  cbn [length flat_map]. replace (8 * S (length l))%nat with (8 + 8 * length l)%nat by lia.
  rewrite le_bits_app. f_equal.
  - rewrite <- (le_bits_mod 8 (leval (b :: l))). change (2 ^ N.of_nat 8) with 256.
    rewrite leval_mod by assumption. reflexivity.
  - change (2 ^ N.of_nat 8) with 256. rewrite leval_div by assumption. exact IH.
Qed.

Lemma unpackLoop_spec : forall l, wf_groups l -> forall fuel result j,
  (length l <= fuel)%nat -> result < 2 ^ j -> j + 7 * N.of_nat (length l) <= 56 ->
  unpackLoop fuel (leval l) result j = Ok (result + ungroup l * 2 ^ j).
Proof.
  intros l W. induction W as [b Hb|b l Hb Hl IH]; intros fuel result j Hf Hr Hj.
  - destruct fuel; [simpl in Hf; lia|]. cbn [unpackLoop leval ungroup].
    rewrite land_128, land_127. cbn [length] in Hj.
    destruct (N.leb_spec (j + 7) 56); [|lia].
    destruct (N.ltb_spec ((b + 256 * 0) mod 256) 128); [|lia]. cbn [negb].
    rewrite lor_add by assumption. f_equal. replace ((b + 256 * 0) mod 128) with b by lia.
    rewrite (N.mod_small b 128) by lia. lia.
  - destruct fuel; [simpl in Hf; lia|]. cbn [unpackLoop].
    rewrite land_128, land_127, shiftr_div. change (2 ^ 8) with 256.
    rewrite leval_mod, leval_div by lia. cbn [length] in Hj.
    destruct (N.leb_spec (j + 7) 56); [|lia].
    destruct (N.ltb_spec b 128); [lia|]. cbn [negb].
    rewrite lor_add by assumption.
    assert (P : 0 < 2 ^ j) by (apply N.neq_0_lt_0, N.pow_nonzero; lia).
    replace (leval (b :: l) mod 128) with (b mod 128) by (cbn [leval]; lia).
    assert (Hm : b mod 128 < 128) by lia.
    rewrite IH.
    + cbn [ungroup]. rewrite N.pow_add_r. change (2 ^ 7) with 128. f_equal. lia.
    + simpl in Hf; lia.
    + rewrite N.pow_add_r. change (2 ^ 7) with 128. nia.
    + lia.
Qed.

Lemma unpackInteger_spec : forall v, v < 2 ^ 56 -> unpackInteger (leval (groups 7 v)) = Ok v.
Proof.
  intros v Hv. unfold unpackInteger.
  pose proof (groups_length 7 v).
  rewrite unpackLoop_spec.
  - rewrite ungroup_groups by exact Hv. f_equal. simpl. lia.
  - apply groups_wf. exact Hv.
  - lia.
  - simpl. lia.
  - lia.
Qed.

Lemma readStillPackedLoop_spec : forall l, wf_groups l -> forall fuel i packed rest,
  (length l <= fuel)%nat -> (i + length l <= 8)%nat -> packed < 256 ^ N.of_nat i ->
  readStillPackedLoop fuel i packed (bytes_bits l ++ rest)
  = Ok (packed + 256 ^ N.of_nat i * leval l, rest).
Proof.
  intros l W. induction W as [b Hb|b l Hb Hl IH]; intros fuel i packed rest Hf Hi Hp.
  - destruct fuel; [simpl in Hf; lia|]. cbn [readStillPackedLoop].
    rewrite bytes_bits_cons, <- app_assoc, readByte_spec by lia. cbn [length] in Hi.
    destruct (Nat.leb_spec 8 i); [lia|].
    rewrite land_128, (N.mod_small b 256) by lia. destruct (N.ltb_spec b 128); [|lia].
    rewrite lor_add by (rewrite <- pow256; assumption). rewrite <- pow256.
    cbn [leval]. f_equal. f_equal. lia.
  - destruct fuel; [simpl in Hf; lia|]. cbn [readStillPackedLoop].
    rewrite bytes_bits_cons, <- app_assoc, readByte_spec by lia. cbn [length] in Hi, Hf.
    destruct (Nat.leb_spec 8 i); [lia|].
    rewrite land_128, (N.mod_small b 256) by lia. destruct (N.ltb_spec b 128); [lia|].
    rewrite lor_add by (rewrite <- pow256; assumption). rewrite <- pow256.
    rewrite IH; try lia.
    + cbn [leval]. rewrite Nat2N.inj_succ, N.pow_succ_r'. f_equal. f_equal. lia.
    + rewrite Nat2N.inj_succ, N.pow_succ_r'. nia.
Qed.

Lemma groups_not_end : forall v, v < 2 ^ 56 -> leval (groups 7 v) <> 128.
Proof.
  intros v Hv E. pose proof (unpackInteger_spec v Hv) as H. rewrite E in H.
  assert (v = 0) by (vm_compute in H; congruence). subst. discriminate.
Qed.

Lemma readStillPacked_spec : forall v rest, v < 2 ^ 56 ->
  readStillPacked (bytes_bits (groups 7 v) ++ rest) = Ok (leval (groups 7 v), rest).
Proof.
  intros v rest Hv. unfold readStillPacked.
  pose proof (groups_length 7 v).
  rewrite readStillPackedLoop_spec; try lia.
  - cbn [bind]. change (256 ^ N.of_nat 0) with 1. rewrite N.add_0_l, N.mul_1_l.
    destruct (N.eqb_spec (leval (groups 7 v)) 128) as [E|]; auto.
    exfalso. apply (groups_not_end v Hv E).
  - apply groups_wf. exact Hv.
Qed.

(** ** packAndWriteInteger *)

Lemma packAndWrite_spec : forall fuel v, 0 < v -> v < 2 ^ (7 * N.of_nat (S fuel)) ->
  packAndWriteLoop (S fuel) v = Ok (groups fuel v).
Proof.
  induction fuel as [|f IH]; intros v Hv Hb.
  - cbn [packAndWriteLoop]. change (2 ^ (7 * N.of_nat 1)) with 128 in Hb.
    destruct (N.eqb_spec v 0); [lia|]. rewrite shiftr_div. change (2 ^ 7) with 128.
    replace (v / 128) with 0 by lia. cbn [N.eqb bind groups]. rewrite land_127.
    rewrite N.mod_small by lia. reflexivity.
  - remember (S f) as sf. cbn [packAndWriteLoop]. subst sf.
    destruct (N.eqb_spec v 0); [lia|]. rewrite shiftr_div. change (2 ^ 7) with 128.
    cbn [groups]. rewrite land_127. destruct (N.ltb_spec v 128).
    + replace (v / 128) with 0 by lia. cbn [N.eqb packAndWriteLoop bind].
      rewrite N.mod_small by lia. reflexivity.
    + destruct (N.eqb_spec (v / 128) 0); [lia|].
      rewrite IH.
      * cbn [bind]. f_equal. f_equal.
        change 128 with (N.shiftl 1 7) at 2. rewrite lor_add by (change (2 ^ 7) with 128; lia).
        change (2 ^ 7) with 128. lia.
      * lia.
      * replace (7 * N.of_nat (S (S f))) with (7 + 7 * N.of_nat (S f)) in Hb by lia.
        rewrite N.pow_add_r in Hb. change (2 ^ 7) with 128 in Hb.
        apply N.div_lt_upper_bound; lia.
Qed.

Lemma readAndUnpackLoop_spec : forall l, wf_groups l -> forall n result rest,
  result < 2 ^ N.of_nat (7 * n) -> N.of_nat (7 * (n + length l)) <= 70 ->
  result + ungroup l * 2 ^ N.of_nat (7 * n) < two64 ->
  readAndUnpackLoop (l ++ rest) n result
  = Ok (result + ungroup l * 2 ^ N.of_nat (7 * n), (n + length l)%nat).
Proof.
  intros l W. induction W as [b Hb|b l Hb Hl IH]; intros n result rest Hr Hn Ht.
  - cbn [app readAndUnpackLoop]. cbn [length] in Hn.
    destruct (N.leb_spec 64 (N.of_nat (7 * n))); [lia|].
    rewrite land_127, land_128. rewrite (N.mod_small b 256) by lia.
    destruct (N.ltb_spec b 128); [|lia]. cbn [ungroup length] in *.
    rewrite (N.mod_small b 128) in * by lia.
    rewrite N.shiftl_mul_pow2. rewrite (N.mod_small (b * _)) by lia.
    rewrite <- N.shiftl_mul_pow2, lor_add by assumption.
    f_equal. f_equal; lia.
  - cbn [app readAndUnpackLoop]. cbn [length] in Hn.
    assert (L1 : (1 <= length l)%nat) by (destruct Hl; simpl; lia).
    destruct (N.leb_spec 64 (N.of_nat (7 * n))); [lia|].
    rewrite land_127, land_128. rewrite (N.mod_small b 256) by lia.
    destruct (N.ltb_spec b 128); [lia|]. cbn [ungroup length] in *.
    assert (P : 0 < 2 ^ N.of_nat (7 * n)) by (apply N.neq_0_lt_0, N.pow_nonzero; lia).
    assert (Hm : b mod 128 < 128) by lia.
    rewrite N.shiftl_mul_pow2. rewrite (N.mod_small (b mod 128 * _)) by nia.
    rewrite <- N.shiftl_mul_pow2, lor_add by assumption.
    assert (Ep : 2 ^ N.of_nat (7 * S n) = 128 * 2 ^ N.of_nat (7 * n)).
    { replace (N.of_nat (7 * S n)) with (7 + N.of_nat (7 * n)) by lia.
      rewrite N.pow_add_r. reflexivity. }
    rewrite IH.
    + rewrite Ep. f_equal. f_equal; lia.
    + rewrite Ep. nia.
    + lia.
    + rewrite Ep. lia.
Qed.

(** ** Unary *)

Lemma unary_spec : forall n rest, (1 <= n)%nat ->
  unaryDecode (unaryCode n ++ rest) = (n, rest).
Proof.
  intros n rest Hn. unfold unaryDecode, unaryCode.
  assert (G : forall k m, unaryDecodeLoop m ((repeat false k ++ [true]) ++ rest) = ((m + k)%nat, rest)).
  { induction k as [|k IH]; intros m; cbn.
    - f_equal. lia.
    - rewrite IH. f_equal. lia. }
  rewrite G. f_equal. lia.
Qed.

Lemma unaryCode_length : forall n, (1 <= n)%nat -> length (unaryCode n) = n.
Proof. intros. unfold unaryCode. rewrite app_length, repeat_length. simpl. lia. Qed.

(** The integer codes of the wavelet coder. *)
From Coq Require Import List NArith Arith Bool Lia.
From Coq Require Import ZifyBool ZifyNat ZifyN.
From Verif Require Import Base ModelUtils ModelWavelet SpecWavelet ProofUtils1 ProofUtils2 ProofUtils3 ProofStreams2.
Import ListNotations.
Open Scope N_scope.

Lemma leadingOnes_code : forall k r, leadingOnes (repeat true k ++ false :: r) = (k, r).
Proof. induction k as [|k IH]; intros r; cbn [repeat app leadingOnes]; [reflexivity|rewrite IH; reflexivity]. Qed.

Lemma readFixed_code : forall w k v rest, v < 2 ^ N.of_nat (k + w) ->
  readFixed w ((repeat true k ++ [false] ++ be_bits (k + w) v) ++ rest) =
    Some (v + 1 + 2 ^ N.of_nat w * (2 ^ N.of_nat k - 1), rest).
Proof.
  intros w k v rest Hv. unfold readFixed.
  replace ((repeat true k ++ [false] ++ be_bits (k + w) v) ++ rest)
    with (repeat true k ++ false :: (be_bits (k + w) v ++ rest)) by (rewrite <- !app_assoc; reflexivity).
  rewrite leadingOnes_code.
  rewrite app_length, be_bits_length.
  destruct (Nat.ltb_spec (k + w + length rest) (k + w)); [lia|].
  rewrite firstn_app, be_bits_length, Nat.sub_diag, firstn_all2, firstn_O, app_nil_r
    by (rewrite be_bits_length; lia).
  rewrite be_bits_val by assumption.
  rewrite skipn_app, be_bits_length, Nat.sub_diag, skipn_all2, skipn_O by (rewrite be_bits_length; lia).
  reflexivity.
Qed.

Lemma translation_spec : forall k w, k <= 40 -> w <= 15 ->
  fixedIntegerCodeTranslation k w = 1 + 2 ^ w * (2 ^ k - 1).
Proof.
  intros k w Hk Hw. unfold fixedIntegerCodeTranslation.
  assert (Hp : 2 ^ k <= 2 ^ 40) by (apply N.pow_le_mono_r; lia).
  assert (Hq : 2 ^ w <= 2 ^ 15) by (apply N.pow_le_mono_r; lia).
  assert (P0 : 0 < 2 ^ k) by (apply N.neq_0_lt_0, N.pow_nonzero; lia).
  rewrite N.shiftl_mul_pow2, N.shiftl_mul_pow2, N.mul_1_l.
  change (2 ^ 40) with 1099511627776 in Hp. change (2 ^ 15) with 32768 in Hq.
  assert (E1 : 2 ^ k mod two64 = 2 ^ k) by (apply N.mod_small; unfold two64; lia).
  rewrite E1.
  replace (1 + (2 ^ k + two64 - 1) * 2 ^ w) with (1 + 2 ^ w * (2 ^ k - 1) + 2 ^ w * two64) by nia.
  rewrite N.mod_add by (unfold two64; lia).
  apply N.mod_small. unfold two64. nia.
Qed.

Lemma fixed_split : forall x w k, 1 <= x -> w <= k -> 2 ^ k <= x - 1 + 2 ^ w < 2 ^ (k + 1) ->
  1 + 2 ^ w * (2 ^ (k - w) - 1) <= x /\ x - (1 + 2 ^ w * (2 ^ (k - w) - 1)) < 2 ^ k.
Proof.
  intros x w k Hx Hw H.
  assert (E : 2 ^ w * 2 ^ (k - w) = 2 ^ k) by (rewrite <- N.pow_add_r; f_equal; lia).
  rewrite N.pow_add_r in H. change (2 ^ 1) with 2 in H.
  assert (0 < 2 ^ (k - w)) by (apply N.neq_0_lt_0, N.pow_nonzero; lia).
  nia.
Qed.

Lemma logFloor_ge : forall n k w, 2 ^ k <= n < 2 ^ (k + 1) -> 2 ^ w <= n -> w <= k.
Proof.
  intros n k w H1 H2. destruct (N.le_gt_cases w k) as [|C]; [assumption|].
  assert (2 ^ (k + 1) <= 2 ^ w) by (apply N.pow_le_mono_r; lia). lia.
Qed.

(** Shape of a code: number of ones and value. *)
Lemma fixed_form : forall x w, 1 <= x < 2 ^ 32 -> w <= 15 ->
  exists k v, fixedIntegerCode x w = Ok (repeat true k ++ [false] ++ be_bits (k + N.to_nat w) v) /\
    lengthOfFixedCode x w = Ok (N.of_nat (2 * k + N.to_nat w + 1)) /\ (k <= 32)%nat /\
    v < 2 ^ N.of_nat (k + N.to_nat w) /\ x = v + 1 + 2 ^ w * (2 ^ N.of_nat k - 1).
Proof.
  intros x w Hx Hw. unfold fixedIntegerCode, lengthOfFixedCode.
  change (2 ^ 32) with 4294967296 in Hx.
  assert (Hq : 2 ^ w <= 32768) by (change 32768 with (2 ^ 15); apply N.pow_le_mono_r; lia).
  assert (P0 : 0 < 2 ^ w) by (apply N.neq_0_lt_0, N.pow_nonzero; lia).
  destruct (N.eqb_spec x 0) as [|_]; [lia|].
  replace ((x + two32 - 1) mod two32) with (x - 1).
  2:{ unfold two32. change (2 ^ 32) with 4294967296.
      replace (x + 4294967296 - 1) with (x - 1 + 1 * 4294967296) by lia.
      rewrite N.mod_add by lia. rewrite N.mod_small by lia. reflexivity. }
  destruct (logFloor_def (x - 1 + 2 ^ w)) as (log & HL & HB); [change (2^64) with 18446744073709551616; lia|].
  rewrite HL. cbn [bind].
  assert (Hwl : w <= log) by (apply (logFloor_ge (x - 1 + 2 ^ w)); [exact HB|lia]).
  assert (Hl32 : log <= 32).
  { destruct (N.le_gt_cases log 32) as [|C]; [assumption|].
    assert (2 ^ 33 <= 2 ^ log) by (apply N.pow_le_mono_r; lia). change (2^33) with 8589934592 in *. lia. }
  destruct (fixed_split x w log) as (S1 & S2); [lia|exact Hwl|exact HB|].
  exists (N.to_nat (log - w)), (x - (1 + 2 ^ w * (2 ^ (log - w) - 1))).
  rewrite translation_spec by lia.
  replace ((x + two64 - (1 + 2 ^ w * (2 ^ (log - w) - 1))) mod two64)
    with (x - (1 + 2 ^ w * (2 ^ (log - w) - 1))).
  2:{ set (tr := 1 + 2 ^ w * (2 ^ (log - w) - 1)) in *.
      replace (x + two64 - tr) with (x - tr + 1 * two64) by lia.
      rewrite N.mod_add by (unfold two64; lia). rewrite N.mod_small; [reflexivity|].
      unfold two64. change (2 ^ 64) with 18446744073709551616. lia. }
  rewrite pushBits_be.
  replace (N.to_nat (log - w) + N.to_nat w)%nat with (N.to_nat (w + (log - w))) by lia.
  split; [reflexivity|]. split.
  { f_equal. rewrite N.mod_small by (unfold two32; change (2^32) with 4294967296; lia). lia. }
  split; [lia|].
  replace (N.of_nat (N.to_nat (w + (log - w)))) with log by lia.
  rewrite N2Nat.id. split; [exact S2|]. lia.
Qed.

Lemma C19_fixed : forall x w, 1 <= x < 2 ^ 32 -> w <= 15 ->
  exists c, fixedIntegerCode x w = Ok c /\ lengthOfFixedCode x w = Ok (N.of_nat (length c)) /\
    forall rest, readFixed (N.to_nat w) (c ++ rest) = Some (x, rest).
Proof.
  intros x w Hx Hw. destruct (fixed_form x w Hx Hw) as (k & v & HC & HL & _ & Hv & Ex).
  eexists. split; [exact HC|]. split.
  - rewrite HL. do 2 f_equal. rewrite !app_length, repeat_length, be_bits_length. cbn [length]. lia.
  - intros rest. rewrite readFixed_code by exact Hv. rewrite N2Nat.id, <- Ex. reflexivity.
Qed.

Lemma gamma_form : forall x, 1 <= x < 2 ^ 64 ->
  exists k v, gammaCode x = Ok (repeat true k ++ [false] ++ be_bits k v) /\
    v < 2 ^ N.of_nat k /\ x = v + 2 ^ N.of_nat k.
Proof.
  intros x Hx. unfold gammaCode.
  destruct (logFloor_def x) as (log & HL & HB); [lia|].
  rewrite HL. cbn [bind]. exists (N.to_nat log), (x - 2 ^ log).
  rewrite pushBits_be, N2Nat.id.
  rewrite N.pow_add_r in HB. change (2 ^ 1) with 2 in HB.
  split; [|split; lia].
  do 3 f_equal. apply be_bits_low. intros i Hi.
  replace x with (1 * 2 ^ log + (x - 2 ^ log)) at 1 by lia. apply testbit_low; lia.
Qed.

Lemma C19_gamma : forall x, 1 <= x < 2 ^ 64 ->
  exists c, gammaCode x = Ok c /\ forall rest, readFixed 0 (c ++ rest) = Some (x, rest).
Proof.
  intros x Hx. destruct (gamma_form x Hx) as (k & v & HC & Hv & Ex).
  eexists. split; [exact HC|]. intros rest.
  replace k with (k + 0)%nat in Hv |- * at 2 by lia. rewrite readFixed_code by exact Hv.
  f_equal. f_equal. change (2 ^ N.of_nat 0) with 1.
  assert (0 < 2 ^ N.of_nat k) by (apply N.neq_0_lt_0, N.pow_nonzero; lia). lia.
Qed.

(** A code is determined by what it is read as. *)
Lemma gamma_is_fixed : forall x, 1 <= x < 2 ^ 32 -> gammaCode x = fixedIntegerCode x 0.
Proof.
  intros x Hx.
  destruct (gamma_form x) as (k & v & HC & Hv & Ex); [change (2^32) with 4294967296 in Hx; change (2^64) with 18446744073709551616; lia|].
  destruct (fixed_form x 0 Hx) as (k' & v' & HC' & _ & _ & Hv' & Ex'); [lia|].
  rewrite HC, HC'. change (N.to_nat 0) with 0%nat in *. rewrite Nat.add_0_r in *.
  change (2 ^ 0) with 1 in Ex'.
  assert (P : 0 < 2 ^ N.of_nat k') by (apply N.neq_0_lt_0, N.pow_nonzero; lia).
  assert (k = k').
  { destruct (Nat.lt_trichotomy k k') as [C|[C|C]]; [exfalso|exact C|exfalso].
    - assert (2 ^ (N.of_nat k + 1) <= 2 ^ N.of_nat k') by (apply N.pow_le_mono_r; lia).
      rewrite N.pow_add_r in *. change (2 ^ 1) with 2 in *. lia.
    - assert (2 ^ (N.of_nat k' + 1) <= 2 ^ N.of_nat k) by (apply N.pow_le_mono_r; lia).
      rewrite N.pow_add_r in *. change (2 ^ 1) with 2 in *. lia. }
  subst k'. assert (v = v') by lia. subst v'. reflexivity.
Qed.

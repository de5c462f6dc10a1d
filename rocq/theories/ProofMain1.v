(** Rounding of doubles: relative error of conversion, product and quotient. *)
From Coq Require Import List NArith ZArith Arith Bool SpecFloat Lia.
From Verif Require Import Base ModelMain.
Import ListNotations.
Open Scope Z_scope.

Lemma digits2_log2 : forall p, Zpos (digits2_pos p) = Z.log2 (Zpos p) + 1.
Proof.
  assert (S0 : forall p, digits2_pos p = Pos.size p) by (induction p; cbn; congruence).
  intros p. rewrite S0. destruct p; cbn [Pos.size Z.log2]; lia.
Qed.

Lemma shr_1_half : forall x, 0 <= shr_m x -> shr_m (shr_1 x) = shr_m x / 2.
Proof.
  intros [m r s]. cbn [shr_m]. intros H. destruct m as [|p|p]; [reflexivity| |lia].
  destruct p as [p|p|]; cbn [shr_1 shr_m].
  - replace (Zpos p~1) with (1 + Zpos p * 2) by lia. rewrite Z.div_add by lia. reflexivity.
  - replace (Zpos p~0) with (Zpos p * 2) by lia. rewrite Z.div_mul by lia. reflexivity.
  - reflexivity.
Qed.
Lemma shr_iter : forall n x, 0 <= shr_m x -> shr_m (iter_pos shr_1 n x) = shr_m x / 2 ^ Zpos n /\ 0 <= shr_m (iter_pos shr_1 n x).
Proof.
  induction n as [n IH|n IH|]; intros x H; cbn [iter_pos].
  - assert (H1 : 0 <= shr_m (shr_1 x)) by (rewrite shr_1_half by exact H; apply Z.div_pos; lia).
    destruct (IH _ H1) as [E1 P1]. destruct (IH _ P1) as [E2 P2]. split; [|exact P2].
    rewrite E2, E1, shr_1_half by exact H. rewrite !Z.div_div by (try apply Z.pow_pos_nonneg; try apply Z.pow_nonzero; lia).
    f_equal. replace (Zpos n~1) with (1 + (Zpos n + Zpos n)) by lia. rewrite !Z.pow_add_r by lia. lia.
  - destruct (IH _ H) as [E1 P1]. destruct (IH _ P1) as [E2 P2]. split; [|exact P2].
    rewrite E2, E1. rewrite !Z.div_div by (try apply Z.pow_pos_nonneg; try apply Z.pow_nonzero; lia).
    f_equal. replace (Zpos n~0) with (Zpos n + Zpos n) by lia. rewrite !Z.pow_add_r by lia. reflexivity.
  - rewrite shr_1_half by exact H. split; [reflexivity|apply Z.div_pos; lia].
Qed.

Lemma shr_any : forall x e n, 0 <= shr_m x ->
  shr_m (fst (shr x e n)) = shr_m x / 2 ^ Z.max n 0 /\ snd (shr x e n) = e + Z.max n 0.
Proof.
  intros x e n H. unfold shr. destruct n as [|n|n]; cbn [fst snd].
  - rewrite Z.max_r by lia. rewrite Z.pow_0_r, Z.div_1_r. split; [reflexivity|lia].
  - rewrite Z.max_l by lia. split; [apply shr_iter, H|reflexivity].
  - rewrite Z.max_r by lia. rewrite Z.pow_0_r, Z.div_1_r. split; [reflexivity|lia].
Qed.

Lemma record_m : forall m l, shr_m (shr_record_of_loc m l) = m.
Proof. intros m [|[]]; reflexivity. Qed.

Lemma shr_fexp_any : forall p e l, -1000 <= Z.log2 (Zpos p) + e - 52 ->
  let n := Z.max (Z.log2 (Zpos p) - 52) 0 in
  shr_m (fst (shr_fexp 53 1024 (Zpos p) e l)) = Zpos p / 2 ^ n /\ snd (shr_fexp 53 1024 (Zpos p) e l) = e + n.
Proof.
  intros p e l H n. unfold shr_fexp. cbn [Zdigits2]. rewrite digits2_log2.
  destruct (shr_any (shr_record_of_loc (Zpos p) l) e (fexp 53 1024 (Z.log2 (Zpos p) + 1 + e) - e)) as [A B]; [rewrite record_m; lia|].
  rewrite A, B, record_m. replace (Z.max (fexp 53 1024 (Z.log2 (Zpos p) + 1 + e) - e) 0) with n; [split; reflexivity|].
  unfold n, fexp, emin. lia.
Qed.

Lemma round_choice : forall m l, round_nearest_even m l = m \/ round_nearest_even m l = m + 1.
Proof. intros m [|[]]; cbn; auto. destruct (Z.even m); auto. Qed.

(** The rounding of a mantissa of at least 53 bits. *)
Lemma round_aux : forall p ex l, 2 ^ 52 <= Zpos p < 2 ^ 150 -> -500 <= ex <= 500 ->
  exists m e, binary_round_aux 53 1024 false (Zpos p) ex l = S754_finite false m e /\
    2 ^ 52 <= Zpos m < 2 ^ 53 /\ ex <= e <= ex + 100 /\
    Zpos p * (2 ^ 52 - 1) <= Zpos m * 2 ^ (e - ex) * 2 ^ 52 <= Zpos p * (2 ^ 52 + 1).
Proof.
  intros p ex l Hp He.
  assert (LP : 52 <= Z.log2 (Zpos p) < 150).
  { split; [apply Z.log2_le_pow2; lia|apply Z.log2_lt_pow2; lia]. }
  unfold binary_round_aux. destruct (shr_fexp_any p ex l) as [A B]; [lia|]. cbv zeta in A, B.
  destruct (shr_fexp 53 1024 (Z.pos p) ex l) as [mrs e1]. cbn [fst snd] in A, B.
  remember (Z.max (Z.log2 (Zpos p) - 52) 0) as n eqn:En.
  assert (Hn : n = Z.log2 (Zpos p) - 52) by lia.
  assert (P2 : 2 ^ Z.log2 (Zpos p) <= Zpos p < 2 ^ (Z.log2 (Zpos p) + 1)) by (apply Z.log2_spec; lia).
  replace (Z.log2 (Zpos p)) with (52 + n) in P2 by lia. replace (52 + n + 1) with (53 + n) in P2 by lia.
  rewrite !Z.pow_add_r in P2 by lia.
  assert (PN : 0 < 2 ^ n) by (apply Z.pow_pos_nonneg; lia).
  pose proof (Z.div_mod (Zpos p) (2 ^ n) ltac:(lia)) as DM. pose proof (Z.mod_pos_bound (Zpos p) (2 ^ n) PN) as MB.
  remember (Zpos p / 2 ^ n) as q eqn:Eq. remember (Zpos p mod 2 ^ n) as r eqn:Er.
  assert (Q : 2 ^ 52 <= q < 2 ^ 53).
  { split; [subst q; apply Z.div_le_lower_bound; lia|subst q; apply Z.div_lt_upper_bound; lia]. }
  rewrite A. destruct (round_choice q (loc_of_shr_record mrs)) as [C|C]; rewrite C.
  - (* q *)
    destruct q as [|q|q]; try lia. destruct (shr_fexp_any q e1 loc_Exact) as [A2 B2].
    { assert (52 <= Z.log2 (Zpos q)) by (apply Z.log2_le_pow2; lia). lia. }
    cbv zeta in A2, B2. destruct (shr_fexp 53 1024 (Z.pos q) e1 loc_Exact) as [mrs2 e2]. cbn [fst snd] in A2, B2.
    assert (LQ : Z.log2 (Zpos q) = 52) by (apply Z.log2_unique; lia). rewrite LQ in A2, B2. cbn [Z.max Z.sub Z.pos_sub Z.add Z.opp] in A2, B2.
    change (52 - 52) with 0 in *. rewrite Z.pow_0_r, Z.div_1_r in A2. rewrite A2.
    replace (e2 <=? 1024 - 53) with true by (symmetry; apply Z.leb_le; lia).
    exists q, e2. split; [reflexivity|]. split; [exact Q|]. split; [lia|]. replace (e2 - ex) with n by lia.
    clear - DM MB P2 PN Q. nia.
  - (* q + 1 *)
    destruct (Z.eq_dec (q + 1) (2 ^ 53)) as [T|T].
    + rewrite T. destruct (shr_fexp_any (2 ^ 53)%positive e1 loc_Exact) as [A2 B2].
      { change (Z.log2 (Z.pos (2 ^ 53))) with 53. lia. }
      cbv zeta in A2, B2. change (Z.pos (2 ^ 53)) with (2 ^ 53) in A2, B2.
      destruct (shr_fexp 53 1024 (2 ^ 53) e1 loc_Exact) as [mrs2 e2]. cbn [fst snd] in A2, B2.
      change (Z.log2 (2 ^ 53)) with 53 in A2, B2. change (Z.max (53 - 52) 0) with 1 in A2, B2. change (2 ^ 53 / 2 ^ 1) with (Z.pos (2 ^ 52)) in A2. rewrite A2.
      replace (e2 <=? 1024 - 53) with true by (symmetry; apply Z.leb_le; lia).
      exists (2 ^ 52)%positive, e2. split; [reflexivity|]. split; [cbv; split; congruence|]. split; [lia|]. replace (e2 - ex) with (1 + n) by lia.
      rewrite Z.pow_add_r by lia. change (Z.pos (2 ^ 52)) with (2 ^ 52).
      clear - DM MB P2 PN Q T. nia.
    + destruct (q + 1) as [|q1|q1] eqn:E1; try lia. destruct (shr_fexp_any q1 e1 loc_Exact) as [A2 B2].
      { assert (52 <= Z.log2 (Zpos q1)) by (apply Z.log2_le_pow2; lia). lia. }
      cbv zeta in A2, B2. destruct (shr_fexp 53 1024 (Z.pos q1) e1 loc_Exact) as [mrs2 e2]. cbn [fst snd] in A2, B2.
      assert (LQ : Z.log2 (Zpos q1) = 52) by (apply Z.log2_unique; lia). rewrite LQ in A2, B2.
      change (Z.max (52 - 52) 0) with 0 in *. rewrite Z.pow_0_r, Z.div_1_r in A2. rewrite A2.
      replace (e2 <=? 1024 - 53) with true by (symmetry; apply Z.leb_le; lia).
      exists q1, e2. split; [reflexivity|]. split; [lia|]. split; [lia|]. replace (e2 - ex) with n by lia. rewrite <- E1.
      clear - DM MB P2 PN Q. nia.
Qed.

(** ** Values, scaled by 2^200 *)
Definition scaled (m : positive) (e : Z) : Z := Zpos m * 2 ^ (e + 200).

Lemma toDouble_value : forall n, (0 < n < 2 ^ 64)%N ->
  exists m e, toDouble n = S754_finite false m e /\ 2 ^ 52 <= Zpos m < 2 ^ 53 /\ -60 <= e <= 60 /\
    Z.of_N n * 2 ^ 200 * (2 ^ 52 - 1) <= scaled m e * 2 ^ 52 <= Z.of_N n * 2 ^ 200 * (2 ^ 52 + 1).
Proof.
  intros n Hn. unfold toDouble. destruct n as [|p]; [lia|]. cbn [Z.of_N binary_normalize]. unfold binary_round. rewrite digits2_log2.
  change (2 ^ 64)%N with (N.pos 18446744073709551616) in Hn.
  assert (P64 : 1 <= Zpos p < 2 ^ 64) by (change (2 ^ 64) with 18446744073709551616; lia).
  assert (LP : 0 <= Z.log2 (Zpos p) < 64).
  { split; [apply Z.log2_nonneg|apply Z.log2_lt_pow2; lia]. }
  assert (P2 : 2 ^ Z.log2 (Zpos p) <= Zpos p < 2 ^ (Z.log2 (Zpos p) + 1)) by (apply Z.log2_spec; lia).
  assert (FE : fexp 53 1024 (Z.log2 (Z.pos p) + 1 + 0) = Z.log2 (Zpos p) - 52) by (unfold fexp, emin; lia).
  rewrite FE. unfold shl_align. rewrite Z.sub_0_r.
  destruct (Z.log2 (Zpos p) - 52) as [|d|d] eqn:ED.
  - destruct (round_aux p 0 loc_Exact) as (m & e & R & M & E & V).
    { assert (Z.log2 (Zpos p) = 52) as L by lia. rewrite L in P2. split; [lia|]. change (2 ^ 150) with (2 ^ 64 * 2 ^ 86). lia. }
    { lia. }
    exists m, e. rewrite R. split; [reflexivity|]. split; [exact M|]. split.
    { split; [lia|]. destruct (Z.le_gt_cases e 60) as [?|G]; [assumption|exfalso].
      assert (2 ^ 60 <= 2 ^ (e - 0)) by (apply Z.pow_le_mono_r; lia). change (2 ^ 60) with (2 ^ 52 * 256) in *. change (2 ^ 64) with (2 ^ 52 * 4096) in P64.
      remember (2 ^ 52) as c. assert (1000 < c) by (subst c; reflexivity). nia. }
    unfold scaled. rewrite Z.sub_0_r in V. rewrite Z.pow_add_r by lia.
    assert (0 < 2 ^ 200) by reflexivity. nia.
  - destruct (round_aux p 0 loc_Exact) as (m & e & R & M & E & V).
    { assert (2 ^ 52 <= 2 ^ Z.log2 (Zpos p)) by (apply Z.pow_le_mono_r; lia). split; [lia|]. change (2 ^ 150) with (2 ^ 64 * 2 ^ 86). lia. }
    { lia. }
    exists m, e. rewrite R. split; [reflexivity|]. split; [exact M|]. split.
    { split; [lia|]. destruct (Z.le_gt_cases e 60) as [?|G]; [assumption|exfalso].
      assert (2 ^ 60 <= 2 ^ (e - 0)) by (apply Z.pow_le_mono_r; lia). change (2 ^ 60) with (2 ^ 52 * 256) in *. change (2 ^ 64) with (2 ^ 52 * 4096) in P64.
      remember (2 ^ 52) as c. assert (1000 < c) by (subst c; reflexivity). nia. }
    unfold scaled. rewrite Z.sub_0_r in V. rewrite Z.pow_add_r by lia.
    assert (0 < 2 ^ 200) by reflexivity. nia.
  - assert (SP : Zpos (shift_pos d p) = Zpos p * 2 ^ Zpos d).
    { rewrite Zpower.shift_pos_correct. change (Z.pow_pos 2 d) with (2 ^ Zpos d). lia. }
    assert (DD : Z.log2 (Zpos p) = 52 - Zpos d) by lia.
    assert (E2 : 2 ^ Z.log2 (Zpos p) * 2 ^ Zpos d = 2 ^ 52) by (rewrite <- Z.pow_add_r by lia; f_equal; lia).
    destruct (round_aux (shift_pos d p) (Zneg d) loc_Exact) as (m & e & R & M & E & V).
    { rewrite SP. assert (PD : 0 < 2 ^ Zpos d) by (apply Z.pow_pos_nonneg; lia). split; [nia|].
      rewrite Z.pow_add_r in P2 by lia. change (2 ^ 150) with (2 ^ 52 * 2 ^ 98). assert (2 < 2 ^ 98) by reflexivity. nia. }
    { lia. }
    exists m, e. rewrite R. split; [reflexivity|]. split; [exact M|]. split.
    { split; [lia|]. destruct (Z.le_gt_cases e 60) as [?|G]; [assumption|exfalso]. rewrite SP in V.
      assert (2 ^ 60 <= 2 ^ (e - Z.neg d)) by (apply Z.pow_le_mono_r; lia). change (2 ^ 60) with (2 ^ 52 * 256) in *.
      rewrite Z.pow_add_r in P2 by lia.
      remember (2 ^ 52) as c. assert (1000 < c) by (subst c; reflexivity). nia. }
    unfold scaled. rewrite SP in V. replace (e + 200) with ((e - Z.neg d) + (200 - Zpos d)) by lia. rewrite Z.pow_add_r by lia.
    assert (E3 : 2 ^ Zpos d * 2 ^ (200 - Zpos d) = 2 ^ 200) by (rewrite <- Z.pow_add_r by lia; f_equal; lia).
    assert (0 < 2 ^ (200 - Zpos d)) by (apply Z.pow_pos_nonneg; lia).
    rewrite <- E3. nia.
Qed.

(** Product with a constant. *)
Lemma mul_value : forall m e c k, 2 ^ 52 <= Zpos m < 2 ^ 53 -> -60 <= e <= 60 -> 2 ^ 52 <= Zpos c < 2 ^ 53 -> 0 <= k <= 60 ->
  exists m' e', SFmul 53 1024 (S754_finite false m e) (S754_finite false c (- k)) = S754_finite false m' e' /\ -120 <= e' <= 160 /\ 2 ^ 52 <= Zpos m' < 2 ^ 53 /\
    scaled m e * Zpos c * (2 ^ 52 - 1) <= scaled m' e' * 2 ^ k * 2 ^ 52 <= scaled m e * Zpos c * (2 ^ 52 + 1).
Proof.
  intros m e c k Hm He Hc Hk. cbn [SFmul xorb].
  destruct (round_aux (m * c) (e + - k) loc_Exact) as (m' & e' & R & M & E & V).
  { rewrite Pos2Z.inj_mul. change (2 ^ 150) with (2 ^ 53 * 2 ^ 53 * 2 ^ 44). assert (1 < 2 ^ 44) by reflexivity. change (2 ^ 53) with (2 * 2 ^ 52) in *. assert (0 < 2 ^ 52) by reflexivity. nia. }
  { lia. }
  exists m', e'. split; [exact R|]. split; [lia|]. split; [exact M|]. unfold scaled. rewrite Pos2Z.inj_mul in V.
  replace (e' + 200) with ((e' - (e + - k)) + (e - k + 200)) by lia. rewrite (Z.pow_add_r 2 (e' - (e + - k))) by lia.
  replace (e + 200) with ((e - k + 200) + k) by lia. rewrite (Z.pow_add_r 2 (e - k + 200) k) by lia.
  assert (0 < 2 ^ k) by (apply Z.pow_pos_nonneg; lia). assert (0 < 2 ^ (e - k + 200)) by (apply Z.pow_pos_nonneg; lia).
  remember (2 ^ (e' - (e + - k))) as A. remember (2 ^ (e - k + 200)) as B. remember (2 ^ k) as D. clear - V H H0.
  assert (0 < B * D) by nia. split; nia.
Qed.

(** Quotient by a constant. *)
Lemma div_value : forall m e c k, 2 ^ 52 <= Zpos m < 2 ^ 53 -> -60 <= e <= 60 -> 2 ^ 52 <= Zpos c < 2 ^ 53 -> 0 <= k <= 60 ->
  exists m' e', SFdiv 53 1024 (S754_finite false m e) (S754_finite false c (- k)) = S754_finite false m' e' /\ -120 <= e' <= 230 /\
    scaled m' e' * Zpos c * 2 ^ 52 <= scaled m e * 2 ^ k * (2 ^ 52 + 1) /\
    scaled m e * 2 ^ k * (2 ^ 52 - 2) <= scaled m' e' * Zpos c * 2 ^ 52.
Proof.
  intros m e c k Hm He Hc Hk. cbn [SFdiv xorb]. unfold SFdiv_core_binary. cbn [Zdigits2]. rewrite !digits2_log2.
  assert (Lm : Z.log2 (Zpos m) = 52) by (apply Z.log2_unique; lia). assert (Lc : Z.log2 (Zpos c) = 52) by (apply Z.log2_unique; lia).
  rewrite Lm, Lc. assert (FE : Z.min (fexp 53 1024 (52 + 1 + e - (52 + 1 + - k))) (e - - k) = e + k - 53) by (unfold fexp, emin; lia).
  rewrite FE. replace (e - - k - (e + k - 53)) with 53 by lia. cbv iota. rewrite Z.shiftl_mul_pow2 by lia.
  pose proof (Z.div_eucl_eq (Zpos m * 2 ^ 53) (Zpos c) ltac:(lia)) as DE. pose proof (Z.mod_pos_bound (Zpos m * 2 ^ 53) (Zpos c) ltac:(lia)) as MB.
  unfold Z.modulo in MB. destruct (Z.div_eucl (Zpos m * 2 ^ 53) (Zpos c)) as [q r].
  assert (Q : 2 ^ 52 <= q < 2 ^ 54).
  { change (2 ^ 53) with (2 * 2 ^ 52) in *. change (2 ^ 54) with (4 * 2 ^ 52) in *. assert (1 < 2 ^ 52) by reflexivity. remember (2 ^ 52) as b. clear - H DE MB Hm Hc. nia. }
  destruct q as [|q|q]; try lia.
  destruct (round_aux q (e + k - 53) (new_location (Zpos c) r)) as (m' & e' & R & M & E & V).
  { change (2 ^ 150) with (2 ^ 54 * 2 ^ 96). assert (1 < 2 ^ 96) by reflexivity. lia. }
  { lia. }
  exists m', e'. split; [exact R|]. split; [lia|]. unfold scaled.
  replace (e' + 200) with ((e' - (e + k - 53)) + (e + k - 53 + 200)) by lia. rewrite (Z.pow_add_r 2 (e' - (e + k - 53))) by lia.
  assert (EE : 2 ^ (e + 200) * 2 ^ k = 2 ^ 53 * 2 ^ (e + k - 53 + 200)) by (rewrite <- !Z.pow_add_r by lia; f_equal; lia).
  assert (0 < 2 ^ (e + k - 53 + 200)) by (apply Z.pow_pos_nonneg; lia).
  remember (2 ^ (e' - (e + k - 53))) as A. remember (2 ^ (e + k - 53 + 200)) as B.
  replace (Z.pos m * 2 ^ (e + 200) * 2 ^ k) with (Zpos m * 2 ^ 53 * B) by (transitivity (Zpos m * (2 ^ 53 * B)); [ring|rewrite <- EE; ring]).
  assert (U : Zpos m' * A * Zpos c * 2 ^ 52 <= Zpos m * 2 ^ 53 * (2 ^ 52 + 1)).
  { assert (Zpos c * Zpos q <= Zpos m * 2 ^ 53) by lia. remember (2 ^ 52) as b. assert (0 < b) by (subst b; reflexivity). clear - V H0 H1. nia. }
  assert (D : Zpos m * 2 ^ 53 * (2 ^ 52 - 2) <= Zpos m' * A * Zpos c * 2 ^ 52).
  { assert (X : Zpos m * 2 ^ 53 < Zpos c * (Zpos q + 1)) by lia. remember (2 ^ 52) as b. assert (2 < b) by (subst b; reflexivity).
    assert (Y : Zpos m * 2 ^ 53 * (b - 2) <= Zpos c * (Zpos q + 1) * (b - 2)) by (apply Z.mul_le_mono_nonneg_r; lia).
    assert (W : Zpos c * (Zpos q * (b - 1)) <= Zpos c * (Zpos m' * A * b)) by (apply Z.mul_le_mono_nonneg_l; lia).
    assert (W2 : (Zpos q + 1) * (b - 2) <= Zpos q * (b - 1)) by lia.
    assert (W3 : Zpos c * ((Zpos q + 1) * (b - 2)) <= Zpos c * (Zpos q * (b - 1))) by (apply Z.mul_le_mono_nonneg_l; lia). lia. }
  split.
  - replace (Z.pos m' * (A * B) * Z.pos c * 2 ^ 52) with (Z.pos m' * A * Z.pos c * 2 ^ 52 * B) by ring.
    replace (Z.pos m * 2 ^ 53 * B * (2 ^ 52 + 1)) with (Z.pos m * 2 ^ 53 * (2 ^ 52 + 1) * B) by ring. apply Z.mul_le_mono_nonneg_r; lia.
  - replace (Z.pos m' * (A * B) * Z.pos c * 2 ^ 52) with (Z.pos m' * A * Z.pos c * 2 ^ 52 * B) by ring.
    replace (Z.pos m * 2 ^ 53 * B * (2 ^ 52 - 2)) with (Z.pos m * 2 ^ 53 * (2 ^ 52 - 2) * B) by ring. apply Z.mul_le_mono_nonneg_r; lia.
Qed.

(** Dropping the fraction. *)
Lemma shiftl_value : forall m e, -120 <= e -> let t := Z.shiftl (Zpos m) e in 0 <= t /\ t * 2 ^ 200 <= scaled m e < (t + 1) * 2 ^ 200.
Proof.
  intros m e He t. unfold t, scaled. destruct (Z.le_gt_cases 0 e) as [G|G].
  - rewrite Z.shiftl_mul_pow2 by lia. assert (0 < 2 ^ e) by (apply Z.pow_pos_nonneg; lia). rewrite Z.pow_add_r by lia. assert (0 < 2 ^ 200) by reflexivity. nia.
  - assert (ES : Z.shiftl (Zpos m) e = Zpos m / 2 ^ (- e)) by (replace e with (- - e) at 1 by lia; rewrite Z.shiftl_opp_r, Z.shiftr_div_pow2 by lia; reflexivity).
    rewrite ES. clear ES t. assert (P : 0 < 2 ^ (- e)) by (apply Z.pow_pos_nonneg; lia).
    pose proof (Z.div_mod (Zpos m) (2 ^ (- e)) ltac:(lia)) as DM. pose proof (Z.mod_pos_bound (Zpos m) (2 ^ (- e)) P) as MB.
    assert (EE : 2 ^ (- e) * 2 ^ (e + 200) = 2 ^ 200) by (rewrite <- Z.pow_add_r by lia; f_equal; lia).
    assert (PB : 0 < 2 ^ (e + 200)) by (apply Z.pow_pos_nonneg; lia). rewrite <- EE.
    split; [apply Z.div_pos; lia|].
    remember (Zpos m / 2 ^ (- e)) as q. remember (Zpos m mod 2 ^ (- e)) as r. remember (2 ^ (- e)) as A. remember (2 ^ (e + 200)) as B. remember (Zpos m) as M.
    clear - DM MB PB P. split.
    + replace (q * (A * B)) with (q * A * B) by ring. apply Z.mul_le_mono_nonneg_r; lia.
    + replace ((q + 1) * (A * B)) with ((q + 1) * A * B) by ring. apply Z.mul_lt_mono_pos_r; lia.
Qed.

Lemma toSize_finite : forall m e v, v = Z.to_N (Z.shiftl (Zpos m) e) -> (v < 2 ^ 64)%N -> toSize (S754_finite false m e) = Ok v.
Proof. intros m e v -> H. cbn [toSize]. apply N.ltb_lt in H. rewrite H. reflexivity. Qed.

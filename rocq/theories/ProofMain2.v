(** The block sizes of the compressor, computed with doubles. *)
From Coq Require Import List NArith ZArith Arith Bool SpecFloat Lia.
From Verif Require Import Base ModelMain ProofMain1.
Import ListNotations.
Open Scope Z_scope.

Lemma mul_size : forall n c k, (0 < n < 2 ^ 64)%N -> 2 ^ 52 <= Zpos c < 2 ^ 53 -> 0 <= k <= 60 -> (2 ^ 52 + 1) * (2 ^ 52 + 1) * Zpos c <= 2 ^ k * 2 ^ 104 ->
  exists t, toSize (SFmul 53 1024 (toDouble n) (S754_finite false c (- k))) = Ok t /\
    Z.of_N t * (2 ^ k * 2 ^ 104) <= (2 ^ 52 + 1) * (2 ^ 52 + 1) * Zpos c * Z.of_N n /\
    (2 ^ 52 - 1) * (2 ^ 52 - 1) * Zpos c * Z.of_N n < (Z.of_N t + 1) * (2 ^ k * 2 ^ 104).
Proof.
  intros n c k Hn Hc Hk HS. destruct (toDouble_value n Hn) as (m & e & E1 & M & E & V1).
  destruct (mul_value m e c k M E Hc Hk) as (m' & e' & E2 & E' & _ & V2). rewrite E1, E2.
  destruct (shiftl_value m' e' ltac:(lia)) as (T0 & T1 & T2). cbv zeta in *.
  remember (Z.shiftl (Zpos m') e') as t eqn:Et. remember (scaled m e) as F. remember (scaled m' e') as G.
  remember (2 ^ k) as K. assert (PK : 0 < K) by (subst K; apply Z.pow_pos_nonneg; lia).
  assert (PC : 0 < Zpos c) by lia. remember (Zpos c) as C. clear HeqC.
  assert (L0 : 0 < Z.of_N n) by lia. remember (Z.of_N n) as L.
  change (2 ^ 104) with (2 ^ 52 * 2 ^ 52) in *. remember (2 ^ 52) as b. assert (PB : 1 < b) by (subst b; reflexivity).
  assert (P200 : 0 < 2 ^ 200) by reflexivity. remember (2 ^ 200) as S2.
  (* upper *)
  assert (U : t * (K * (b * b)) <= (b + 1) * (b + 1) * C * L).
  { apply (Z.mul_le_mono_pos_r _ _ S2 P200).
    assert (A1 : t * S2 * (K * b * b) <= G * (K * b * b)) by (apply Z.mul_le_mono_nonneg_r; [nia|exact T1]).
    assert (A2 : G * K * b * b <= F * C * (b + 1) * b) by (apply Z.mul_le_mono_nonneg_r; lia).
    assert (A3 : F * b * (C * (b + 1)) <= L * S2 * (b + 1) * (C * (b + 1))) by (apply Z.mul_le_mono_nonneg_r; [nia|lia]).
    lia. }
  assert (D : (b - 1) * (b - 1) * C * L < (t + 1) * (K * (b * b))).
  { apply (Z.mul_lt_mono_pos_r S2); [exact P200|].
    assert (A1 : G * (K * b * b) < (t + 1) * S2 * (K * b * b)) by (apply Z.mul_lt_mono_pos_r; [nia|exact T2]).
    assert (A2 : F * C * (b - 1) * b <= G * K * b * b) by (apply Z.mul_le_mono_nonneg_r; lia).
    assert (A3 : L * S2 * (b - 1) * (C * (b - 1)) <= F * b * (C * (b - 1))) by (apply Z.mul_le_mono_nonneg_r; [nia|lia]).
    lia. }
  assert (TL : t <= L).
  { apply (Z.mul_le_mono_pos_r _ _ (K * (b * b))); [nia|].
    assert ((b + 1) * (b + 1) * C * L <= K * (b * b) * L) by (apply Z.mul_le_mono_nonneg_r; lia). lia. }
  exists (Z.to_N t). split.
  - rewrite Et. apply toSize_finite; [reflexivity|]. rewrite <- Et. apply N2Z.inj_lt. rewrite Z2N.id by lia. destruct Hn as [_ Hn]. apply N2Z.inj_lt in Hn. lia.
  - rewrite Z2N.id by lia. split; [exact U|exact D].
Qed.

Lemma div_size : forall n c k, (0 < n < 2 ^ 64)%N -> 2 ^ 52 <= Zpos c < 2 ^ 53 -> 0 <= k <= 60 -> (2 ^ 52 + 1) * (2 ^ 52 + 1) * 2 ^ k <= Zpos c * 2 ^ 104 ->
  exists t, toSize (SFdiv 53 1024 (toDouble n) (S754_finite false c (- k))) = Ok t /\
    Z.of_N t * (Zpos c * 2 ^ 104) <= (2 ^ 52 + 1) * (2 ^ 52 + 1) * 2 ^ k * Z.of_N n /\
    (2 ^ 52 - 1) * (2 ^ 52 - 2) * 2 ^ k * Z.of_N n < (Z.of_N t + 1) * (Zpos c * 2 ^ 104).
Proof.
  intros n c k Hn Hc Hk HS. destruct (toDouble_value n Hn) as (m & e & E1 & M & E & V1).
  destruct (div_value m e c k M E Hc Hk) as (m' & e' & E2 & E' & V2). rewrite E1, E2.
  destruct (shiftl_value m' e' ltac:(lia)) as (T0 & T1 & T2). cbv zeta in *.
  remember (Z.shiftl (Zpos m') e') as t eqn:Et. remember (scaled m e) as F. remember (scaled m' e') as G.
  remember (2 ^ k) as K. assert (PK : 0 < K) by (subst K; apply Z.pow_pos_nonneg; lia).
  assert (PC : 0 < Zpos c) by lia. remember (Zpos c) as C. clear HeqC.
  assert (L0 : 0 < Z.of_N n) by lia. remember (Z.of_N n) as L.
  change (2 ^ 104) with (2 ^ 52 * 2 ^ 52) in *. remember (2 ^ 52) as b. assert (PB : 2 < b) by (subst b; reflexivity).
  assert (P200 : 0 < 2 ^ 200) by reflexivity. remember (2 ^ 200) as S2.
  assert (U : t * (C * (b * b)) <= (b + 1) * (b + 1) * K * L).
  { apply (Z.mul_le_mono_pos_r _ _ S2 P200).
    assert (A1 : t * S2 * (C * b * b) <= G * (C * b * b)) by (apply Z.mul_le_mono_nonneg_r; [nia|exact T1]).
    assert (A2 : G * C * b * b <= F * K * (b + 1) * b) by (apply Z.mul_le_mono_nonneg_r; lia).
    assert (A3 : F * b * (K * (b + 1)) <= L * S2 * (b + 1) * (K * (b + 1))) by (apply Z.mul_le_mono_nonneg_r; [nia|lia]).
    lia. }
  assert (D : (b - 1) * (b - 2) * K * L < (t + 1) * (C * (b * b))).
  { apply (Z.mul_lt_mono_pos_r S2); [exact P200|].
    assert (A1 : G * (C * b * b) < (t + 1) * S2 * (C * b * b)) by (apply Z.mul_lt_mono_pos_r; [nia|exact T2]).
    assert (A2 : F * K * (b - 2) * b <= G * C * b * b) by (apply Z.mul_le_mono_nonneg_r; lia).
    assert (A3 : L * S2 * (b - 1) * (K * (b - 2)) <= F * b * (K * (b - 2))) by (apply Z.mul_le_mono_nonneg_r; [nia|lia]).
    lia. }
  assert (TL : t <= L).
  { apply (Z.mul_le_mono_pos_r _ _ (C * (b * b))); [nia|].
    assert ((b + 1) * (b + 1) * K * L <= C * (b * b) * L) by (apply Z.mul_le_mono_nonneg_r; lia). lia. }
  exists (Z.to_N t). split.
  - rewrite Et. apply toSize_finite; [reflexivity|]. rewrite <- Et. apply N2Z.inj_lt. rewrite Z2N.id by lia. destruct Hn as [_ Hn]. apply N2Z.inj_lt in Hn. lia.
  - rewrite Z2N.id by lia. split; [exact U|exact D].
Qed.

(** One part in 10^15. *)
Lemma pb_bounds : forall L, (L < 2 ^ 64)%N -> exists t, pbSizeOf L = Ok t /\
  (100 * 10 ^ 15 * t <= 74 * (10 ^ 15 + 1) * L /\ 74 * (10 ^ 15 - 1) * L < 100 * 10 ^ 15 * (t + 1))%N.
Proof.
  intros L HL. unfold pbSizeOf. change (literal 74 100) with (S754_finite false 6665327448508334 (- 53)).
  destruct (N.eq_dec L 0) as [->|L0]; [exists 0%N; split; [reflexivity|lia]|].
  destruct (mul_size L 6665327448508334 53) as (t & E & U & D); [lia|split; reflexivity || discriminate|lia|discriminate|].
  exists t. split; [exact E|]. clear E HL. lia.
Qed.
Lemma bwt_bounds : forall L, (L < 2 ^ 64)%N -> exists t, bwtSizeOf L = Ok t /\
  (1000 * 10 ^ 15 * t <= 185 * (10 ^ 15 + 1) * L /\ 185 * (10 ^ 15 - 1) * L < 1000 * 10 ^ 15 * (t + 1))%N.
Proof.
  intros L HL. unfold bwtSizeOf. change (literal 185 1000) with (S754_finite false 6665327448508334 (- 55)).
  destruct (N.eq_dec L 0) as [->|L0]; [exists 0%N; split; [reflexivity|lia]|].
  destruct (mul_size L 6665327448508334 55) as (t & E & U & D); [lia|split; reflexivity || discriminate|lia|discriminate|].
  exists t. split; [exact E|]. clear E HL. lia.
Qed.
Lemma quotient_bounds : forall L m, (m <= L < 2 ^ 64)%N -> quotientOf L m = Ok (quotientFor L m) /\
  (45 * 10 ^ 15 * quotientFor L m <= 10 * (10 ^ 15 + 1) * (L - m) /\ 10 * (10 ^ 15 - 1) * (L - m) < 45 * 10 ^ 15 * (quotientFor L m + 1))%N.
Proof.
  intros L m HL.
  assert (EM : ((L + 2 ^ 64 - m) mod 2 ^ 64 = L - m)%N).
  { replace (L + 2 ^ 64 - m)%N with (L - m + 1 * 2 ^ 64)%N by lia. rewrite N.mod_add by discriminate. apply N.mod_small. lia. }
  assert (Q : exists t, quotientOf L m = Ok t /\ (45 * 10 ^ 15 * t <= 10 * (10 ^ 15 + 1) * (L - m) /\ 10 * (10 ^ 15 - 1) * (L - m) < 45 * 10 ^ 15 * (t + 1))%N).
  { unfold quotientOf. rewrite EM. change (literal 45 10) with (S754_finite false 5066549580791808 (- 50)).
    destruct (N.eq_dec (L - m) 0) as [Z0|L0]; [rewrite Z0; exists 0%N; split; [reflexivity|lia]|].
    destruct (div_size (L - m) 5066549580791808 50) as (t & E & U & D); [lia|split; reflexivity || discriminate|lia|discriminate|].
    exists t. split; [exact E|]. clear E EM. lia. }
  destruct Q as (t & E & B). unfold quotientFor. rewrite E. auto.
Qed.
Lemma quotient_defined : forall L m, exists q, quotientOf L m = Ok q.
Proof.
  intros L m. unfold quotientOf. change (literal 45 10) with (S754_finite false 5066549580791808 (- 50)).
  remember ((L + 2 ^ 64 - m) mod 2 ^ 64)%N as x. assert (X : (x < 2 ^ 64)%N) by (subst x; apply N.mod_lt; discriminate).
  destruct (N.eq_dec x 0) as [->|L0]; [exists 0%N; reflexivity|].
  destruct (div_size x 5066549580791808 50) as (t & E & _); [lia|split; reflexivity || discriminate|lia|discriminate|]. eauto.
Qed.

(** ** The sum in PairReplacer.cpp 326 *)
Lemma align_value : forall m e ez, ez <= e -> Zpos (fst (shl_align m e ez)) = Zpos m * 2 ^ (e - ez).
Proof.
  intros m e ez H. unfold shl_align. destruct (ez - e) as [|d|d] eqn:E; cbn [fst].
  - replace (e - ez) with 0 by lia. rewrite Z.pow_0_r. lia.
  - lia.
  - rewrite Zpower.shift_pos_correct. change (Z.pow_pos 2 d) with (2 ^ Zpos d). replace (e - ez) with (Zpos d) by lia. lia.
Qed.

Lemma add_value : forall m e c k, 2 ^ 52 <= Zpos m < 2 ^ 53 -> -80 <= e <= 0 -> 2 ^ 52 <= Zpos c < 2 ^ 53 -> -80 <= k <= 0 ->
  exists m' e', SFadd 53 1024 (S754_finite false m e) (S754_finite false c k) = S754_finite false m' e' /\ -120 <= e' <= 100 /\
    (scaled m e + scaled c k) * (2 ^ 52 - 1) <= scaled m' e' * 2 ^ 52 <= (scaled m e + scaled c k) * (2 ^ 52 + 1).
Proof.
  intros m e c k Hm He Hc Hk. cbn [SFadd]. cbv zeta. remember (Z.min e k) as ez eqn:EZ. cbn [cond_Zopp].
  rewrite !align_value by lia.
  assert (A : 1 <= 2 ^ (e - ez) <= 2 ^ 80) by (split; [change 1 with (2 ^ 0)|]; apply Z.pow_le_mono_r; lia).
  assert (B : 1 <= 2 ^ (k - ez) <= 2 ^ 80) by (split; [change 1 with (2 ^ 0)|]; apply Z.pow_le_mono_r; lia).
  destruct (Zpos m * 2 ^ (e - ez) + Zpos c * 2 ^ (k - ez)) as [|p|p] eqn:EP; [nia| |nia].
  assert (HP : 2 ^ 52 <= Zpos p < 2 ^ 150).
  { rewrite <- EP. change (2 ^ 150) with (2 ^ 53 * 2 ^ 80 * 2 ^ 17). change (2 ^ 17) with 131072. remember (2 ^ 53) as x. remember (2 ^ 80) as y.
    assert (Zpos m * 2 ^ (e - ez) <= x * y) by (apply Z.mul_le_mono_nonneg; lia). assert (Zpos c * 2 ^ (k - ez) <= x * y) by (apply Z.mul_le_mono_nonneg; lia).
    assert (0 < x * y) by (subst x y; reflexivity). split; nia. }
  cbn [binary_normalize]. unfold binary_round. rewrite digits2_log2.
  assert (LP : 52 <= Z.log2 (Zpos p)) by (apply Z.log2_le_pow2; lia).
  assert (AL : shl_align p ez (fexp 53 1024 (Z.log2 (Z.pos p) + 1 + ez)) = (p, ez)).
  { unfold shl_align. assert (0 <= fexp 53 1024 (Z.log2 (Z.pos p) + 1 + ez) - ez) by (unfold fexp, emin; lia).
    destruct (fexp 53 1024 (Z.log2 (Z.pos p) + 1 + ez) - ez); [reflexivity|reflexivity|lia]. }
  rewrite AL. destruct (round_aux p ez loc_Exact HP ltac:(lia)) as (m' & e' & R & M & E & V).
  exists m', e'. split; [exact R|]. split; [lia|]. unfold scaled.
  replace (e' + 200) with ((e' - ez) + (ez + 200)) by lia. rewrite (Z.pow_add_r 2 (e' - ez)) by lia.
  replace (e + 200) with ((e - ez) + (ez + 200)) by lia. rewrite (Z.pow_add_r 2 (e - ez)) by lia.
  replace (k + 200) with ((k - ez) + (ez + 200)) by lia. rewrite (Z.pow_add_r 2 (k - ez)) by lia.
  rewrite <- EP in V. assert (PB : 0 < 2 ^ (ez + 200)) by (apply Z.pow_pos_nonneg; lia).
  remember (2 ^ (ez + 200)) as T. remember (2 ^ (e - ez)) as U. remember (2 ^ (k - ez)) as W. remember (2 ^ (e' - ez)) as X.
  replace (Zpos m * (U * T) + Zpos c * (W * T)) with ((Zpos m * U + Zpos c * W) * T) by ring.
  replace (Zpos m' * (X * T) * 2 ^ 52) with (Zpos m' * X * 2 ^ 52 * T) by ring.
  clear - V PB. split.
  - replace ((Zpos m * U + Zpos c * W) * T * (2 ^ 52 - 1)) with ((Zpos m * U + Zpos c * W) * (2 ^ 52 - 1) * T) by ring. apply Z.mul_le_mono_nonneg_r; lia.
  - replace ((Zpos m * U + Zpos c * W) * T * (2 ^ 52 + 1)) with ((Zpos m * U + Zpos c * W) * (2 ^ 52 + 1) * T) by ring. apply Z.mul_le_mono_nonneg_r; lia.
Qed.

Lemma capacity_bounds : forall len, (N.of_nat len < 2 ^ 31)%N ->
  exists n, toSize (SFadd 53 1024 (SFmul 53 1024 (literal 333334 1000000) (toDouble (N.of_nat len))) (toDouble 3)) = Ok n /\ capacityOf len = N.to_nat n /\
    (333334 * N.of_nat len + 2 * 10 ^ 6 < 10 ^ 6 * n + 1 /\ 10 ^ 6 * n <= 333334 * N.of_nat len + 3 * 10 ^ 6 + 1)%N.
Proof.
  intros len HL. enough (exists n, toSize (SFadd 53 1024 (SFmul 53 1024 (literal 333334 1000000) (toDouble (N.of_nat len))) (toDouble 3)) = Ok n /\
    (333334 * N.of_nat len + 2 * 10 ^ 6 < 10 ^ 6 * n + 1 /\ 10 ^ 6 * n <= 333334 * N.of_nat len + 3 * 10 ^ 6 + 1)%N) as (n & E & B).
  { exists n. split; [exact E|]. split; [|exact B]. unfold capacityOf. rewrite E. reflexivity. }
  change (literal 333334 1000000) with (S754_finite false 6004811512759668 (- 54)). change (toDouble 3) with (S754_finite false 6755399441055744 (-51)).
  destruct (N.eq_dec (N.of_nat len) 0) as [->|L0]; [exists 3%N; split; [reflexivity|lia]|].
  remember (N.of_nat len) as n. clear Heqn len. change (2 ^ 31)%N with 2147483648%N in HL.
  destruct (toDouble_value n) as (m & e & E1 & M & E & V1); [change (2 ^ 64)%N with 18446744073709551616%N; lia|].
  destruct (mul_value m e 6004811512759668 54 M E) as (m' & e' & E2 & E' & M' & V2); [split; reflexivity || discriminate|lia|].
  rewrite E1. assert (SW : SFmul 53 1024 (S754_finite false 6004811512759668 (- 54)) (S754_finite false m e) = S754_finite false m' e').
  { rewrite <- E2. cbn [SFmul]. rewrite (Pos.mul_comm m), (Z.add_comm e). reflexivity. }
  rewrite SW. clear SW E1 E2.
  remember (scaled m e) as F. remember (scaled m' e') as G.
  assert (UL : 2 ^ 198 <= G < 2 ^ 250).
  { clear - V1 V2 HL L0. change (2 ^ 200) with (4 * 2 ^ 198) in V1. change (2 ^ 250) with (2 ^ 52 * 2 ^ 198). remember (2 ^ 198) as s2. assert (0 < s2) by (subst; reflexivity).
    change (2 ^ 52) with 4503599627370496 in *. change (2 ^ 54) with 18014398509481984 in *.
    assert (A : s2 <= Z.of_N n * s2) by nia. assert (B : Z.of_N n * s2 <= 281474976710656 * s2) by (apply Z.mul_le_mono_nonneg_r; lia).
    remember (Z.of_N n * s2) as ns. replace (Z.of_N n * (4 * s2)) with (4 * ns) in V1 by (subst ns; ring). lia. }
  assert (RE : -80 <= e' <= 0).
  { unfold scaled in HeqG. split.
    - destruct (Z.le_gt_cases (-80) e') as [?|X]; [assumption|exfalso]. assert (2 ^ (e' + 200) <= 2 ^ 119) by (apply Z.pow_le_mono_r; lia).
      assert (0 <= 2 ^ (e' + 200)) by (apply Z.pow_nonneg; lia). assert (G <= 2 ^ 53 * 2 ^ 119) by (subst G; apply Z.mul_le_mono_nonneg; lia). change (2 ^ 198) with (2 ^ 53 * 2 ^ 119 * 67108864) in UL. assert (0 < 2 ^ 53 * 2 ^ 119) by reflexivity. lia.
    - destruct (Z.le_gt_cases e' 0) as [?|X]; [assumption|exfalso]. assert (2 ^ 201 <= 2 ^ (e' + 200)) by (apply Z.pow_le_mono_r; lia).
      assert (2 ^ 52 * 2 ^ 201 <= G) by (subst G; apply Z.mul_le_mono_nonneg; lia). change (2 ^ 250) with (2 ^ 49 * 2 ^ 201) in UL. assert (2 ^ 49 * 2 ^ 201 <= 2 ^ 52 * 2 ^ 201) by discriminate. lia. }
  destruct (add_value m' e' 6755399441055744 (-51) M' RE) as (m2 & e2 & E3 & E4 & V3); [split; reflexivity || discriminate|lia|]. rewrite <- HeqG in V3. rewrite E3.
  change (scaled 6755399441055744 (-51)) with (3 * 2 ^ 200) in V3.
  destruct (shiftl_value m2 e2 ltac:(lia)) as (T0 & T1 & T2). cbv zeta in *.
  remember (Z.shiftl (Zpos m2) e2) as t eqn:Et. remember (scaled m2 e2) as H.
  assert (R : Z.of_N n * 333334 + 2 * 10 ^ 6 < 10 ^ 6 * t + 1 /\ 10 ^ 6 * t <= Z.of_N n * 333334 + 3 * 10 ^ 6 + 1).
  { clear - V1 V2 V3 T0 T1 T2 HL L0. change (2 ^ 52) with 4503599627370496 in *. change (2 ^ 54) with 18014398509481984 in *. change (10 ^ 6) with 1000000.
    change (2 ^ 200) with 1606938044258990275541962092341162602522202993782792835301376 in *. lia. }
  exists (Z.to_N t). split.
  - rewrite Et. apply toSize_finite; [reflexivity|]. rewrite <- Et. change (2 ^ 64)%N with 18446744073709551616%N. lia.
  - lia.
Qed.

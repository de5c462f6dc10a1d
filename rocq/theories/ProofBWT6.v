(** The MTL-SA inverse transform. *)
From Coq Require Import List NArith ZArith Lia Arith Bool Permutation Sorted.
From Coq Require Import ZifyBool ZifyNat ZifyN.
From Verif Require Import Base Arrays TArray ModelUtils ModelHeaders ModelBWT SpecBWT ProofBWT1 ProofBWT3 ProofBWT4 ProofBWT5.
Import ListNotations.
Open Scope nat_scope.

Section mtl.
Variable t : list N.
Variable sa : list nat.
Variable y : list N.
Hypothesis Ht : t = y ++ [0%N].
Hypothesis Hsa : suffix_array t sa.
Hypothesis Hbytes : Forall (fun c => (c < 256)%N) t.
Let n := length t.
Hypothesis Hn2 : 2 <= n.
Hypothesis Hn : (N.of_nat n <= 2 ^ 31)%N.
Variable bwt : tarray N.
Hypothesis Hbl : t_len bwt = N.of_nat n.
Let p := RK sa 0.
Hypothesis Hbv : forall r, r < n -> r <> p -> tval bwt (N.of_nat r) = B t sa r.
Hypothesis Hbb : forall r, r < n -> (tval bwt (N.of_nat r) < 256)%N.

Definition tableOk (data : tarray N) : Prop :=
  halves t sa bwt data n /\ forall k, k < n -> tval data (wIdx k) = DV t sa k.

Lemma computeData_spec : forall data0, t_len data0 = (3 * ((N.of_nat n + 1) / 2))%N ->
  exists data, computeData bwt data0 (N.of_nat p) = Ok data /\ tableOk data.
Proof.
  intros data0 L0. unfold computeData. rewrite Hbl, Nat2N.id.
  assert (Pl : p < n) by exact (p_lt t sa Hsa Hn2).
  assert (Pp : p <> 0) by exact (p_pos t sa y Ht Hsa Hn2 Hn bwt Hbl Hbv).
  rewrite tset_ok by (cbn [t_len tmake]; lia). cbn [bind].
  match goal with |- context [forLoop n 0%N ?b ?s] =>
    destruct (forLoop_nat (fun j c => counted t sa c j) b n 0 s) as (c1 & E1 & I1) end.
  { split; [reflexivity|]. split; [reflexivity|]. intros c Hc. rewrite tval_put.
    destruct (N.eqb_spec (c + 1) 0); [lia|]. rewrite tval_make. reflexivity. }
  { intros j c Hj Hc. destruct (counted_step t sa Hsa Hn2 Hn bwt Hbl Hbv c j ltac:(fold n; lia) Hc) as [C1 C2].
    unfold mtlCount. destruct (N.eqb_spec (N.of_nat j) (N.of_nat p)) as [E|E].
    - exists c. split; [reflexivity|]. apply C1. fold p. lia.
    - rewrite tget_ok by lia. cbn [bind]. rewrite Hbv by lia. unfold increment. destruct Hc as (L & Z & V).
      assert (Bj := B_byte t sa Hbytes j). rewrite tget_ok by lia. cbn [bind]. rewrite tset_ok by lia.
      eexists. split; [reflexivity|]. rewrite V by exact Bj.
      assert (Cl := cR_lt t sa Hn2 Hn bwt Hbl Hbv (B t sa j) j ltac:(fold n; lia)).
      rewrite N.mod_small by (change two32 with (2 ^ 32)%N; lia). apply C2. fold p. lia. }
  change (N.of_nat 0) with 0%N in E1. rewrite E1. cbn [bind]. cbn [Nat.add] in I1.
  destruct (counted_sum t sa Hsa Hbytes Hn2 Hn bwt Hbl Hbv c1 I1) as (count & E2 & Hcl & Hcv).
  rewrite E2. cbn [bind]. rewrite tget_ok by lia. cbn [bind]. rewrite Hcv by lia.
  rewrite (lessRows_all t sa Hsa Hbytes Hn2 Hn bwt Hbl Hbv). fold n.
  destruct (N.eqb_spec (N.of_nat (S (n - 1))) (N.of_nat n)); [|lia]. cbn [negb].
  rewrite tget_ok by lia. cbn [bind]. change (tval bwt 0) with (tval bwt (N.of_nat 0)). rewrite Hbv by lia.
  assert (R0 : ranked t sa count 0).
  { split; [exact Hcl|]. intros c Hc. rewrite Hcv by lia. unfold cR. rewrite cnt_0. f_equal. lia. }
  destruct (rank_next t sa y Ht Hsa Hbytes Hn2 Hn bwt Hbl Hbv Hbb count Hcl Hcv count 0 ltac:(fold n; lia) ltac:(fold p; lia) R0)
    as (E3 & rank & E4 & R1). rewrite E3. cbn [bind].
  assert (LL := LF_lt t sa Hsa Hn2 Hn bwt Hbl Hbv 0 ltac:(fold n; lia)). fold n in LL.
  rewrite tget_ok by lia. cbn [bind].
  destruct (halves_next t sa Hsa Hbytes Hn2 Hn bwt Hbl Hbv Hbb count Hcl Hcv data0 0
     (B t sa 0 + N.shiftl (tval bwt (N.of_nat (LF sa 0))) 8)%N) as (data1 & E5 & Hh1).
  { fold n. lia. }
  { split; [exact L0|]. intros i Hi. lia. }
  { unfold PV. fold p. destruct (Nat.eqb_spec 0 p); [lia|]. rewrite N.shiftl_mul_pow2. change (2 ^ 8)%N with 256%N. lia. }
  change (hIdx 0) with 2%N in E5. rewrite E5. cbn [bind]. rewrite E4. cbn [bind].
  replace (N.to_nat (N.of_nat p - 1)) with (p - 1) by lia.
  match goal with |- context [forLoop (p - 1) 1%N ?b ?s] =>
    destruct (forLoop_nat (scanInv t sa bwt) b (p - 1) 1 s) as (st & E6 & I6) end.
  { split; [exact Hh1|]. split; [reflexivity|]. split; [exact R1|]. split.
    { destruct (Nat.ltb_spec (RK sa 1) 1); lia. }
    split; [lia|]. split.
    { assert (Q : lessRows t sa 0 = 0). { unfold lessRows. apply cnt_none. intros i Hi. destruct (N.ltb_spec (B t sa i) 0); [lia|]. apply andb_false_r. }
      lia. }
    split; [reflexivity|]. split; [reflexivity|]. intros a b Ha Hb. unfold at2. rewrite tval_make.
    rewrite cnt_S, cnt_0. unfold pr. cbn [Nat.eqb negb]. rewrite andb_false_r. reflexivity. }
  { intros j st Hj Hs. apply (scan_next t sa y Ht Hsa Hbytes Hn2 Hn bwt Hbl Hbv Hbb count Hcl Hcv); auto; fold n; fold p; lia. }
  change (N.of_nat 1) with 1%N in E6. rewrite E6. cbn [bind]. replace (1 + (p - 1)) with p in I6 by lia.
  destruct st as [[[[[data2 pp2] rank2] second2] first2] pairs2]. cbn beta iota.
  destruct (scan_eob t sa Hsa Hbytes Hn2 Hn bwt Hbl Hbv Hbb count Hcl Hcv data2 pp2 rank2 second2 first2 pairs2
     (N.shiftl (B t sa 0) 8)%N I6) as (data3 & E7 & I7).
  { unfold PV. rewrite Nat.eqb_refl. rewrite N.shiftl_mul_pow2. reflexivity. }
  rewrite E7. cbn [bind]. fold p in I7.
  replace (N.to_nat (N.of_nat n - (N.of_nat p + 1))) with (n - S p) by lia.
  replace (N.of_nat p + 1)%N with (N.of_nat (S p)) by lia.
  match goal with |- context [forLoop (n - S p) _ ?b ?s] =>
    destruct (forLoop_nat (scanInv t sa bwt) b (n - S p) (S p) s) as (st & E8 & I8) end.
  { exact I7. }
  { intros j st Hj Hs. apply (scan_next t sa y Ht Hsa Hbytes Hn2 Hn bwt Hbl Hbv Hbb count Hcl Hcv); auto; fold n; fold p; lia. }
  rewrite E8. cbn [bind]. replace (S p + (n - S p)) with n in I8 by lia.
  destruct st as [[[[[data4 pp4] rank4] second4] first4] pairs4]. cbn beta iota.
  destruct I8 as (Hh4 & _ & _ & Hsec & _ & _ & Lp & Zp & Vp).
  assert (Rk1 : RK sa 1 < n) by (apply (RK_lt t sa Hsa); exact Hn2).
  destruct (Nat.ltb_spec (RK sa 1) n); [|lia]. subst second4.
  destruct (pairs_sums t sa y Ht Hsa Hbytes Hn2 Hn bwt Hbl Hbv Hbb count Hcl Hcv pairs4 Lp Zp Vp) as (pairs5 & E9 & L5 & V5).
  destruct (transpose pairs4) as [q1| |]; try discriminate E9. cbn [bind] in E9 |- *.
  destruct (increment q1 0) as [q2| |]; try discriminate E9. cbn [bind] in E9 |- *.
  destruct (increment q2 _) as [q3| |]; try discriminate E9. cbn [bind] in E9 |- *.
  rewrite E9. cbn [bind].
  assert (Lf0 : LF sa 0 = RK sa (n - 2)).
  { unfold LF. rewrite (SA0 t sa y Ht Hsa). f_equal. fold n. lia. }
  rewrite Lf0.
  assert (EN := entry_next t sa y Ht Hsa Hbytes Hn2 Hn bwt Hbl Hbv Hbb count Hcl Hcv). fold n p in EN.
  match goal with |- context [forLoop ?k 0%N ?b ?s] =>
    destruct (forLoop_nat (fun m '(d, q, dp, pp, i) => entryInv t sa bwt (2 * m) d q /\ dp = wIdx (2 * m) /\
                 pp = hIdx (2 * m) /\ i = N.of_nat (2 * m)) b k 0 s) as ([[[[d6 q6] dp6] pp6] i6] & E10 & I10) end.
  { split; [|repeat split]. split; [exact Hh4|]. split; [intros; lia|]. split; [exact L5|].
    intros v Hv. rewrite V5 by exact Hv. change (2 * 0) with 0. rewrite cnt_0. f_equal. lia. }
  { intros m [[[[d q] dp] pp] i] Hm (I & -> & -> & ->).
    assert (Hm2 : S (2 * m) < n).
    { assert (N.to_nat (N.of_nat n / 2) * 2 <= n) by lia. lia. }
    unfold mtlRound.
    destruct (EN (2 * m) d q ltac:(lia) I) as (d' & q' & Ea & Ia). rewrite Ea. cbn [bind].
    replace (wIdx (2 * m) + 2)%N with (wIdx (S (2 * m))) by (unfold wIdx; lia).
    replace (hIdx (2 * m) + 1)%N with (hIdx (S (2 * m))) by (unfold hIdx; lia).
    replace (N.of_nat (2 * m) + 1)%N with (N.of_nat (S (2 * m))) by lia.
    destruct (EN (S (2 * m)) d' q' ltac:(lia) Ia) as (d'' & q'' & Eb & Ib). rewrite Eb. cbn [bind].
    eexists. split; [reflexivity|]. cbn beta iota. replace (2 * S m) with (S (S (2 * m))) by lia.
    split; [exact Ib|]. split; [unfold wIdx; lia|]. split; [unfold hIdx; lia|lia]. }
  change (N.of_nat 0) with 0%N in E10. rewrite E10. cbn [bind].
  cbn beta iota in I10. destruct I10 as (I10 & -> & -> & ->). set (m := 0 + N.to_nat (N.of_nat n / 2)) in *.
  destruct (N.odd (N.of_nat n)) eqn:Od.
  - assert (Em : n = S (2 * m)).
    { unfold m. apply N.odd_spec in Od. destruct Od as [k Ek]. lia. }
    destruct (EN (2 * m) d6 q6 ltac:(lia) I10) as (d' & q' & Ea & Ia). rewrite Ea. cbn [bind].
    exists d'. split; [reflexivity|]. rewrite <- Em in Ia. destruct Ia as (A1 & A2 & _). split; [exact A1|exact A2].
  - exists d6. split; [reflexivity|].
    assert (Em : n = 2 * m).
    { unfold m. assert (Od' : N.even (N.of_nat n) = true) by (rewrite <- N.negb_odd, Od; reflexivity).
      apply N.even_spec in Od'. destruct Od' as [k Ek]. lia. }
    rewrite <- Em in I10. destruct I10 as (A1 & A2 & _). split; [exact A1|exact A2].
Qed.

(** ** Reading the table *)
Variable data : tarray N.
Hypothesis Hd : tableOk data.

Definition X (j : nat) : N := C t (n - 2 - j).

(** The state "[m] positions before the end": the next low byte is X (m-1), the high byte X m. *)
Definition row (m : nat) : nat := RK sa ((n - m) mod n).
Lemma row_lt : forall m, row m < n.
Proof. intros m. apply (RK_lt t sa Hsa). apply Nat.mod_upper_bound. fold n. lia. Qed.
Lemma SA_row : forall m, SA sa (row m) = (n - m) mod n.
Proof. intros m. apply (SA_RK t sa Hsa). apply Nat.mod_upper_bound. fold n. lia. Qed.

Lemma fetch_spec : forall m, m <= n - 1 -> exists next cp,
  mtlFetch data (N.of_nat (row m)) = Ok (next, cp) /\ (m <= n - 2 -> next = N.of_nat (row (m + 2))) /\ (cp < 65536)%N /\
  (1 <= m -> (cp mod 256)%N = X (m - 1)) /\ (m <= n - 2 -> (cp / 256)%N = X m).
Proof.
  intros m Hm. set (i := row m). assert (Hi : i < n) by apply row_lt.
  destruct Hd as [[L Vh] Ve]. unfold mtlFetch.
  assert (L1 : N.land (N.of_nat i) 1 = (N.of_nat i mod 2)%N) by (change 1%N with (N.ones 1); apply N.land_ones).
  rewrite L1. change two32 with (2 ^ 32)%N. rewrite N.mod_small by lia. rewrite N.shiftl_mul_pow2. change (2 ^ 1)%N with 2%N.
  replace (3 * (N.of_nat i / 2) + N.of_nat i mod 2 * 2)%N with (wIdx i) by (unfold wIdx; lia).
  assert (W1 := wIdx_bound i n Hi). assert (W2 := hIdx_bound i n Hi). unfold n in W1, W2.
  rewrite tget_ok by (rewrite L; exact W1). cbn [bind].
  change (2 * (3 * (N.of_nat i / 2) + 1) + N.of_nat i mod 2)%N with (hIdx i).
  rewrite getHalf_ok by (rewrite L; exact W2). cbn [bind]. rewrite Vh, Ve by exact Hi.
  exists (DV t sa i), (PV t sa bwt i).
  assert (Si : SA sa i = (n - m) mod n) by apply SA_row.
  assert (Pb : (PV t sa bwt i < 65536)%N).
  { unfold PV. assert (B1 := B_byte t sa Hbytes 0). assert (B2 := B_byte t sa Hbytes i).
    assert (B3 := Hbb (LF sa i) (LF_lt t sa Hsa Hn2 Hn bwt Hbl Hbv i Hi)). destruct (i =? RK sa 0); lia. }
  split; [reflexivity|]. split.
  { intros H2. unfold DV, row. fold n. do 2 f_equal. rewrite Si.
    destruct (Nat.eq_dec m 0) as [->|D].
    - rewrite Nat.sub_0_r, Nat.mod_same by lia. reflexivity.
    - rewrite (Nat.mod_small (n - m) n) by lia.
      replace (n - m + n - 2) with (n - (m + 2) + 1 * n) by lia. apply Nat.mod_add. lia. }
  split; [exact Pb|].
  assert (Bi := B_byte t sa Hbytes i).
  split.
  - intros H1. rewrite Nat.mod_small in Si by lia.
    assert (D : i <> p). { intros E. assert (Q := SA_p t sa Hsa Hn2). fold p in Q. rewrite <- E, Si in Q. lia. }
    unfold PV. fold p. destruct (Nat.eqb_spec i p); [contradiction|].
    replace ((B t sa i + 256 * tval bwt (N.of_nat (LF sa i))) mod 256)%N with (B t sa i).
    + unfold B, X. rewrite Si. f_equal. lia.
    + revert Bi. generalize (B t sa i) (tval bwt (N.of_nat (LF sa i))). clear. intros. lia.
  - intros H2. unfold PV. fold p. destruct (Nat.eqb_spec i p) as [E|E].
    + assert (Q := SA_p t sa Hsa Hn2). fold p in Q. rewrite <- E, Si in Q.
      assert (m = 0). { destruct (Nat.eq_dec m 0); [assumption|]. rewrite Nat.mod_small in Q by lia. lia. }
      subst m. rewrite N.div_mul by discriminate. unfold B, X. rewrite (SA_first t sa y Ht Hsa). fold n. f_equal. lia.
    + assert (m <> 0).
      { intros ->. apply E. rewrite Nat.sub_0_r, Nat.mod_same in Si by lia.
        unfold p. rewrite <- Si. symmetry. apply (RK_SA t sa Hsa). exact Hi. }
      rewrite Nat.mod_small in Si by lia.
      assert (SL : SA sa (LF sa i) = n - m - 1). { unfold LF. rewrite Si. apply (SA_RK t sa Hsa). fold n. lia. }
      assert (DL : LF sa i <> p). { intros Q. assert (Q' := SA_p t sa Hsa Hn2). fold p in Q'. rewrite <- Q, SL in Q'. lia. }
      rewrite Hbv by (try apply (LF_lt t sa Hsa Hn2 Hn bwt Hbl Hbv); assumption).
      replace ((B t sa i + 256 * B t sa (LF sa i)) / 256)%N with (B t sa (LF sa i)).
      * unfold B at 1, X. rewrite SL. f_equal. lia.
      * revert Bi. generalize (B t sa i) (B t sa (LF sa i)). clear. intros. lia.
Qed.

(** ** Restoring *)
Variables (sp bs L : nat).
Hypothesis Hsp : 1 <= sp <= L.
Hypothesis Hbs : 2 <= bs.
Hypothesis Hsb : sp * bs <= n.

Lemma block_start : forall k, k < sp -> k * bs + bs <= n.
Proof. intros k Hk. nia. Qed.

(** [f k] pairs of block [k] are read; the bytes in [E] are there besides. *)
Definition J (f : nat -> nat) (E : nat -> Prop) (st : restState) : Prop :=
  let '(result, positions, dest) := st in
  t_len positions = N.of_nat L /\ (forall k, k < sp -> tval positions (N.of_nat k) = N.of_nat (row (k * bs + 2 * f k))) /\
  t_len dest = N.of_nat sp /\ (forall k, k < sp -> tval dest (N.of_nat k) = N.of_nat (k * bs + 2 * f k)) /\
  t_len result = N.of_nat n /\
  (forall k j, k < sp -> k * bs <= j + 1 < k * bs + 2 * f k -> tval result (N.of_nat j) = X j) /\
  (forall j, E j -> tval result (N.of_nat j) = X j).
Definition bump (f : nat -> nat) (k i : nat) : nat := if i =? k then S (f i) else f i.

Lemma J_ext : forall f g E st, (forall k, k < sp -> f k = g k) -> J f E st -> J g E st.
Proof.
  intros f g E [[result positions] dest] H (L1 & V1 & L2 & V2 & L3 & V3 & V4). unfold J.
  split; [exact L1|]. split; [intros k Hk; rewrite <- H by exact Hk; auto|]. split; [exact L2|].
  split; [intros k Hk; rewrite <- H by exact Hk; auto|]. split; [exact L3|]. split; [|exact V4].
  intros k j Hk. rewrite <- H by exact Hk. apply V3. exact Hk.
Qed.

Lemma J_step : forall f E k result positions dest result' next d',
  k < sp -> J f E (result, positions, dest) ->
  next = N.of_nat (row (k * bs + 2 * f k + 2)) -> d' = N.of_nat (k * bs + 2 * f k + 2) ->
  t_len result' = t_len result ->
  (forall j, tval result' (N.of_nat j) = X j \/ tval result' (N.of_nat j) = tval result (N.of_nat j)) ->
  (forall j, k * bs + 2 * f k <= j + 1 < k * bs + 2 * f k + 2 -> tval result' (N.of_nat j) = X j) ->
  J (bump f k) E (result', tput positions (N.of_nat k) next, tput dest (N.of_nat k) d').
Proof.
  intros f E k result positions dest result' next d' Hk (L1 & V1 & L2 & V2 & L3 & V3 & V4) -> -> Lr Keep New.
  unfold J. split; [exact L1|]. split.
  { intros i Hi. rewrite tval_put. unfold bump. destruct (Nat.eqb_spec i k) as [->|D].
    - rewrite N.eqb_refl. do 2 f_equal. lia.
    - destruct (N.eqb_spec (N.of_nat i) (N.of_nat k)); [lia|]. apply V1. exact Hi. }
  split; [exact L2|]. split.
  { intros i Hi. rewrite tval_put. unfold bump. destruct (Nat.eqb_spec i k) as [->|D].
    - rewrite N.eqb_refl. f_equal. lia.
    - destruct (N.eqb_spec (N.of_nat i) (N.of_nat k)); [lia|]. apply V2. exact Hi. }
  split; [rewrite Lr; exact L3|]. split.
  - intros i j Hi Hj. unfold bump in Hj.
    assert (Old : k * bs <= j + 1 < k * bs + 2 * f k -> tval result' (N.of_nat j) = X j).
    { intros H. destruct (Keep j) as [Q|Q]; [exact Q|]. rewrite Q. apply (V3 k); auto. }
    destruct (Nat.eqb_spec i k) as [->|D].
    + destruct (Nat.ltb_spec (j + 1) (k * bs + 2 * f k)); [apply Old; lia|apply New; lia].
    + destruct (Keep j) as [Q|Q]; [exact Q|]. rewrite Q. apply (V3 i); auto.
  - intros j Hj. destruct (Keep j) as [Q|Q]; [exact Q|]. rewrite Q. apply V4. exact Hj.
Qed.

Lemma next_pair : forall f E k st, k < sp -> 0 < k * bs + 2 * f k -> k * bs + 2 * f k <= n - 2 -> J f E st ->
  exists st', nextPair data (N.of_nat k) st = Ok st' /\ J (bump f k) E st'.
Proof.
  intros f E k [[result positions] dest] Hk H0 H2 HJ. assert (HJ' := HJ). destruct HJ' as (L1 & V1 & L2 & V2 & L3 & V3 & V4).
  unfold nextPair. rewrite tget_ok by lia. cbn [bind]. rewrite V1 by exact Hk.
  set (m := k * bs + 2 * f k) in *.
  destruct (fetch_spec m ltac:(lia)) as (next & cp & E1 & Hnext & Hcp & Hlo & Hhi). rewrite E1. cbn [bind].
  rewrite tset_ok by lia. cbn [bind]. unfold storePair. rewrite tget_ok by lia. cbn [bind]. rewrite V2 by exact Hk. fold m.
  destruct (N.eqb_spec (N.of_nat m) 0); [lia|].
  rewrite tset_ok by lia. cbn [bind]. rewrite tset_ok by (cbn [t_len tput]; lia). cbn [bind]. rewrite tset_ok by lia. cbn [bind].
  eexists. split; [reflexivity|]. apply (J_step f E k result positions dest);
    [exact Hk|exact HJ|apply Hnext; exact H2|fold m; lia|reflexivity| |].
  - intros j. rewrite !tval_put. destruct (N.eqb_spec (N.of_nat j) (N.of_nat m)) as [Q|Q].
    + left. assert (j = m) by lia. subst j. apply Hhi. exact H2.
    + destruct (N.eqb_spec (N.of_nat j) (N.of_nat m - 1)) as [Q'|Q']; [|right; reflexivity].
      left. assert (j = m - 1) by lia. subst j. apply Hlo. lia.
  - fold m. intros j Hj. rewrite !tval_put. destruct (N.eqb_spec (N.of_nat j) (N.of_nat m)) as [Q|Q].
    + assert (j = m) by lia. subst j. apply Hhi. exact H2.
    + destruct (N.eqb_spec (N.of_nat j) (N.of_nat m - 1)) as [Q'|Q']; [|lia].
      assert (j = m - 1) by lia. subst j. apply Hlo. lia.
Qed.

Lemma first_pair : forall f E k st, k < sp -> f k = 0 -> J f E st ->
  exists st', firstPair data (N.of_nat k) st = Ok st' /\ J (bump f k) E st'.
Proof.
  intros f E k st Hk Hf HJ. assert (Hb := block_start k Hk).
  destruct (Nat.eq_dec k 0) as [->|D].
  - destruct st as [[result positions] dest]. assert (HJ' := HJ). destruct HJ' as (L1 & V1 & L2 & V2 & L3 & V3 & V4).
    unfold firstPair. rewrite tget_ok by lia. cbn [bind]. rewrite V1, Hf by exact Hk. change (0 * bs + 2 * 0) with 0.
    destruct (fetch_spec 0 ltac:(lia)) as (next & cp & E1 & Hnext & Hcp & Hlo & Hhi). rewrite E1. cbn [bind].
    rewrite tset_ok by lia. cbn [bind]. change (N.of_nat 0 =? 0)%N with true. cbn beta iota.
    rewrite tget_ok by lia. cbn [bind]. rewrite tset_ok by lia. cbn [bind]. rewrite tset_ok by lia. cbn [bind].
    eexists. split; [reflexivity|]. rewrite V2, Hf by exact Hk.
    apply (J_step f E 0 result positions dest);
      [exact Hk|exact HJ|rewrite Hf; apply Hnext; lia|rewrite Hf; lia|reflexivity| |].
    + intros j. rewrite tval_put. destruct (N.eqb_spec (N.of_nat j) 0); [|right; reflexivity].
      left. assert (j = 0) by lia. subst j. apply Hhi. lia.
    + rewrite Hf. intros j Hj. assert (j = 0) by lia. subst j. rewrite tval_put. change (N.of_nat 0 =? 0)%N with true.
      cbn beta iota. apply Hhi. lia.
  - assert (Hkb : 0 < k * bs) by nia.
    destruct (next_pair f E k st Hk) as (st' & E1 & J1); [lia|lia|exact HJ|].
    exists st'. split; [|exact J1]. rewrite <- E1. destruct st as [[result positions] dest].
    unfold firstPair, nextPair. destruct (N.eqb_spec (N.of_nat k) 0); [lia|]. reflexivity.
Qed.

Lemma last_byte : forall f (E : nat -> Prop) k index st, k < sp -> 1 <= k * bs + 2 * f k <= n - 1 ->
  index = k * bs + 2 * f k - 1 -> J f E st ->
  exists st', lastByte data (N.of_nat k) (N.of_nat index) st = Ok st' /\ J f (fun j => E j \/ j = index) st'.
Proof.
  intros f E k index [[result positions] dest] Hk Hm -> HJ. destruct HJ as (L1 & V1 & L2 & V2 & L3 & V3 & V4).
  unfold lastByte. rewrite tget_ok by lia. cbn [bind]. rewrite V1 by exact Hk.
  set (m := k * bs + 2 * f k) in *.
  destruct (fetch_spec m ltac:(lia)) as (next & cp & E1 & Hnext & Hcp & Hlo & Hhi). rewrite E1. cbn [bind].
  rewrite tset_ok by lia. cbn [bind]. eexists. split; [reflexivity|].
  assert (Hw : forall j, tval (tput result (N.of_nat (m - 1)) (cp mod 256)%N) (N.of_nat j) =
                         if j =? m - 1 then X j else tval result (N.of_nat j)).
  { intros j. rewrite tval_put. destruct (N.eqb_spec (N.of_nat j) (N.of_nat (m - 1))), (Nat.eqb_spec j (m - 1)); try lia.
    subst j. apply Hlo. lia. }
  unfold J. split; [exact L1|]. split; [exact V1|]. split; [exact L2|]. split; [exact V2|]. split; [exact L3|]. split.
  - intros i j Hi Hj. rewrite Hw. destruct (j =? m - 1); [reflexivity|]. apply (V3 i); auto.
  - intros j Hj. rewrite Hw. destruct (Nat.eqb_spec j (m - 1)); [reflexivity|]. destruct Hj as [Hj|Hj]; [apply V4; exact Hj|contradiction].
Qed.

(** One round over all blocks. *)
Lemma round_spec : forall (body : N -> restState -> outcome restState) m E st,
  (forall f k st, k < sp -> f k = m -> J f E st -> exists st', body (N.of_nat k) st = Ok st' /\ J (bump f k) E st') ->
  J (fun _ => m) E st -> exists st', forLoop sp 0 body st = Ok st' /\ J (fun _ => S m) E st'.
Proof.
  intros body m E st Hb HJ.
  destruct (forLoop_nat (fun k st => J (fun i => if i <? k then S m else m) E st) body sp 0 st) as (st' & E1 & J1).
  - eapply J_ext; [|exact HJ]. intros k Hk. reflexivity.
  - intros k s Hk HJk. destruct (Hb (fun i => if i <? k then S m else m) k s ltac:(lia) ltac:(cbn beta; rewrite Nat.ltb_irrefl; reflexivity) HJk) as (s' & E2 & J2).
    exists s'. split; [exact E2|]. eapply J_ext; [|exact J2]. intros i Hi. unfold bump.
    destruct (Nat.eqb_spec i k), (Nat.ltb_spec i k), (Nat.ltb_spec i (S k)); try lia.
  - exists st'. split; [exact E1|]. eapply J_ext; [|exact J1]. intros k Hk. cbn beta.
    destruct (Nat.ltb_spec k (0 + sp)); [reflexivity|lia].
Qed.

(** The tail. *)
Lemma tail_spec : forall fuel f E st, (sp - 1) * bs + 2 * f (sp - 1) <= n -> 1 <= (sp - 1) * bs + 2 * f (sp - 1) ->
  n <= fuel + ((sp - 1) * bs + 2 * f (sp - 1)) -> J f E st ->
  exists st' f', tailLoop fuel data (N.of_nat (sp - 1)) (N.of_nat (n - 1)) (N.of_nat ((sp - 1) * bs + 2 * f (sp - 1) - 1)) st
      = Ok (st', N.of_nat ((sp - 1) * bs + 2 * f' (sp - 1) - 1)) /\
    n - 1 <= (sp - 1) * bs + 2 * f' (sp - 1) <= n /\ (forall k, k < sp - 1 -> f' k = f k) /\ J f' E st'.
Proof.
  induction fuel as [|fuel IH]; intros f E st H1 H2 Hf HJ; cbn [tailLoop].
  - assert ((sp - 1) * bs + 2 * f (sp - 1) = n) as Q by lia. rewrite !Q.
    replace (N.of_nat (n - 1) + 1)%N with (N.of_nat n) by lia. rewrite N.mod_small by (change two32 with (2 ^ 32)%N; lia).
    destruct (N.ltb_spec (N.of_nat n) (N.of_nat (n - 1))); [lia|]. exists st, f. rewrite Q. repeat split; auto; lia.
  - set (m := (sp - 1) * bs + 2 * f (sp - 1)) in *.
    replace (N.of_nat (m - 1) + 1)%N with (N.of_nat m) by lia. rewrite N.mod_small by (change two32 with (2 ^ 32)%N; lia).
    destruct (N.ltb_spec (N.of_nat m) (N.of_nat (n - 1))).
    + destruct (next_pair f E (sp - 1) st) as (st1 & E1 & J1); [lia|fold m; lia|fold m; lia|exact HJ|].
      rewrite E1. cbn [bind].
      assert (Bm : (sp - 1) * bs + 2 * bump f (sp - 1) (sp - 1) = m + 2).
      { unfold bump. rewrite Nat.eqb_refl. unfold m. lia. }
      destruct (IH (bump f (sp - 1)) E st1) as (st' & f' & E2 & R2 & K2 & J2); [rewrite Bm; lia|rewrite Bm; lia|rewrite Bm; lia|exact J1|].
      exists st', f'. rewrite Bm in E2. replace (N.of_nat (m - 1) + 2)%N with (N.of_nat (m + 2 - 1)) by lia.
      rewrite N.mod_small by (change two32 with (2 ^ 32)%N; lia). split; [exact E2|]. split; [exact R2|]. split; [|exact J2].
      intros k Hk. rewrite K2 by exact Hk. unfold bump. destruct (Nat.eqb_spec k (sp - 1)); [lia|reflexivity].
    + exists st, f. fold m. repeat split; auto; lia.
Qed.
End mtl.

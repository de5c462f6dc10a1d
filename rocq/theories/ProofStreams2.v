(** Input stream: the buffered stream refines the list of bits left. *)
From Coq Require Import List NArith ZArith Lia Arith Bool.
From Coq Require Import ZifyBool ZifyNat ZifyN.
From Verif Require Import Base ModelUtils ProofUtils1 ModelStreams SpecStreams.
Import ListNotations.
Open Scope N_scope.

Lemma be_bits_app : forall a b n, be_bits (a + b) n = be_bits a (n / 2 ^ N.of_nat b) ++ be_bits b n.
Proof.
  induction a as [|a IH]; intros b n; cbn [Nat.add be_bits app]; auto.
  rewrite IH. f_equal. rewrite N.div_pow2_bits. f_equal. lia.
Qed.

Lemma be_bits_low : forall w m n, (forall i, (i < w)%nat -> N.testbit m (N.of_nat i) = N.testbit n (N.of_nat i)) ->
  be_bits w m = be_bits w n.
Proof.
  induction w as [|w IH]; intros m n H; auto. cbn [be_bits]. f_equal; [apply H; lia|].
  apply IH. intros i Hi. apply H. lia.
Qed.

Lemma testbit_low : forall a x k i, x < 2 ^ k -> i < k -> N.testbit (a * 2 ^ k + x) i = N.testbit x i.
Proof.
  intros a x k i Hx Hi. rewrite <- (N.mod_pow2_bits_low _ k) by assumption.
  rewrite N.add_comm, N.mod_add by (apply N.pow_nonzero; lia). rewrite N.mod_small by assumption. reflexivity.
Qed.

Lemma testbit_high : forall a x k i, x < 2 ^ k -> N.testbit (a * 2 ^ k + x) (k + i) = N.testbit a i.
Proof.
  intros a x k i Hx. rewrite N.add_comm with (n := k). rewrite <- N.div_pow2_bits.
  rewrite N.add_comm, N.div_add by (apply N.pow_nonzero; lia).
  rewrite N.div_small by assumption. reflexivity.
Qed.

Lemma readByteBits_short : forall n acc s,
  fst (readByteBits n acc s) = fst (readByteBits n acc (s ++ repeat true n)) /\
  snd (readByteBits n acc s) = skipn n s.
Proof.
  assert (G : forall n acc s j, (n <= j)%nat ->
     fst (readByteBits n acc s) = fst (readByteBits n acc (s ++ repeat true j)) /\
     snd (readByteBits n acc s) = skipn n s).
  { induction n as [|n IH]; intros acc s j Hj.
    - split; reflexivity.
    - destruct s as [|b s].
      + destruct j as [|j]; [lia|]. cbn [readByteBits readBit app repeat].
        destruct (IH (N.lor acc (N.shiftl (N.b2n true) (N.of_nat n))) [] j ltac:(lia)) as [A B].
        rewrite A, B. split; [reflexivity|]. rewrite skipn_nil. reflexivity.
      + cbn [readByteBits readBit app skipn]. apply IH. lia. }
  intros. apply G. lia.
Qed.

Lemma readByte_ones : forall s, readByte s = (be_val (firstn 8 (s ++ repeat true 8)), skipn 8 s).
Proof.
  intros s. unfold readByte. rewrite (surjective_pairing (readByteBits 8 0 s)).
  destruct (readByteBits_short 8 0 s) as [A B]. rewrite A, B. f_equal.
  set (t := s ++ repeat true 8).
  assert (L : length (firstn 8 t) = 8%nat).
  { rewrite firstn_length. unfold t. rewrite app_length, repeat_length. lia. }
  pose proof (readByteBits_spec (firstn 8 t) 0 (skipn 8 t)) as S.
  rewrite L, firstn_skipn in S. change (0 * 2 ^ N.of_nat 8) with 0 in S. rewrite S. cbn [fst]. lia.
Qed.

Lemma firstn_ones : forall n j s, firstn n (s ++ repeat true (n + j)) = firstn n (s ++ repeat true n).
Proof.
  intros n j s. rewrite repeat_app, app_assoc, firstn_app.
  replace (n - length (s ++ repeat true n))%nat with 0%nat
    by (rewrite app_length, repeat_length; lia).
  cbn [firstn]. rewrite app_nil_r. reflexivity.
Qed.

(** Bytes not yet fetched into the bit buffer. *)
Definition pending (st : inStream) : list N := i_big st ++ i_rest st.
Definition cbits (st : inStream) : list bool :=
  be_bits (N.to_nat (i_bits st)) (i_buffer st) ++ bytes_bits (pending st).

Definition in_rel (st : inStream) (s : list bool) : Prop :=
  are_bytes (pending st) /\ i_bits st < 8 /\ (i_eof st = true -> i_rest st = []) /\
  exists k, cbits st = s ++ repeat true k /\ (k = 0%nat \/ pending st = []).

Lemma fetch_spec : forall K st, (0 < K)%nat -> are_bytes (pending st) ->
  (i_eof st = true -> i_rest st = []) ->
  exists st', i_buffer st' = i_buffer st /\ i_bits st' = i_bits st /\
    (i_eof st' = true -> i_rest st' = []) /\ are_bytes (pending st') /\
    match pending st with
    | [] => fetchByte K st = (st', None) /\ pending st' = []
    | b :: t => fetchByte K st = (st', Some b) /\ pending st' = t /\ b < 256
    end.
Proof.
  intros K [rest eof big buf bits] HK HB HE. unfold pending, fetchByte in *.
  cbn [i_big i_rest i_eof i_buffer i_bits] in *.
  destruct big as [|x big].
  - unfold refill. cbn [i_big i_rest i_eof i_buffer i_bits app] in *.
    destruct rest as [|y rest].
    + rewrite firstn_nil, skipn_nil. eexists. cbn. repeat split; auto.
    + destruct K as [|K]; [lia|]. cbn [firstn skipn].
      exists (mkIn (skipn K rest) (eof || (length (y :: rest) <? S K)%nat) (firstn K rest) buf bits).
      cbn [i_big i_rest i_eof i_buffer i_bits]. rewrite firstn_skipn.
      inversion HB; subst. repeat split; auto.
      intros H. apply orb_true_iff in H. destruct H as [H|H].
      * specialize (HE H). discriminate.
      * apply Nat.ltb_lt in H. cbn [length] in H. apply skipn_all2. lia.
  - cbn [i_big app] in *. inversion HB; subst. eexists. cbn. repeat split; auto.
Qed.

Lemma fetchCast_spec : forall K st, (0 < K)%nat -> are_bytes (pending st) ->
  (i_eof st = true -> i_rest st = []) ->
  exists st' b, fetchCast K st = (st', b) /\ i_buffer st' = i_buffer st /\ i_bits st' = i_bits st /\
    (i_eof st' = true -> i_rest st' = []) /\ are_bytes (pending st') /\ b < 256 /\
    ((pending st = b :: pending st') \/ (pending st = [] /\ pending st' = [] /\ b = 255)).
Proof.
  intros K st HK HB HE. destruct (fetch_spec K st HK HB HE) as [st' (A & B & C & D & E)].
  unfold fetchCast. destruct (pending st) as [|x t].
  - destruct E as [-> E2]. exists st', 255. repeat split; auto.
  - destruct E as [-> [E2 E3]]. exists st', x. repeat split; auto. left. rewrite E2. reflexivity.
Qed.

Lemma odd_shiftr_testbit : forall n i, N.odd (N.shiftr n i) = N.testbit n i.
Proof. intros. rewrite <- N.bit0_odd, N.shiftr_spec'. f_equal. Qed.

Lemma app_ones_nonempty : forall (s : list bool) k b t, b :: t = s ++ repeat true k ->
  exists s' k', readBit s = (b, s') /\ t = s' ++ repeat true k' /\ (k = 0%nat -> k' = 0%nat).
Proof.
  intros [|b' s] k b t E.
  - destruct k as [|k]; cbn in E; [discriminate|]. inversion E; subst.
    exists [], k. repeat split; auto. lia.
  - cbn in E. inversion E; subst. exists s, k. auto.
Qed.

Lemma readBit_sim : forall K st s, (0 < K)%nat -> in_rel st s ->
  exists st', inReadBit K st = (st', fst (readBit s)) /\ in_rel st' (snd (readBit s)) /\
    i_bits st' = unread (i_bits st) IBit.
Proof.
  intros K st s HK (HB & HW & HE & k & HC & Hk).
  unfold inReadBit. destruct (N.eqb_spec (i_bits st) 0) as [Z|NZ].
  - destruct (fetchCast_spec K st HK HB HE) as (st' & b & EF & A1 & A2 & A3 & A4 & A5 & A6).
    rewrite EF. cbn [i_rest i_eof i_big i_buffer i_bits].
    unfold cbits in HC. rewrite Z in HC. change (N.to_nat 0) with 0%nat in HC. cbn [be_bits app] in HC.
    eexists. rewrite odd_shiftr_testbit. change (8 - 1) with 7.
    destruct A6 as [P|[P1 [P2 ->]]].
    + rewrite P, bytes_bits_cons in HC.
      change (byte_bits b) with (N.testbit b 7 :: be_bits 7 b) in HC. cbn [app] in HC.
      destruct (app_ones_nonempty _ _ _ _ HC) as (s' & k' & E1 & E2 & E3). rewrite E1. cbn [fst snd].
      split; [reflexivity|].
      split; [|cbn; rewrite Z; reflexivity].
      split; [exact A4|]. split; [cbn; lia|]. split; [exact A3|].
      exists k'. unfold cbits, pending in *. cbn [i_rest i_eof i_big i_buffer i_bits].
      change (N.to_nat 7) with 7%nat. split; [exact E2|].
      destruct Hk as [Hk|Hk]; [left; auto|rewrite Hk in P; discriminate].
    + rewrite P1 in HC. cbn in HC.
      destruct s as [|? ?]; [|discriminate]. destruct k; [|discriminate].
      cbn [readBit fst snd]. split; [reflexivity|].
      split; [|cbn; rewrite Z; reflexivity].
      split; [exact A4|]. split; [cbn; lia|]. split; [exact A3|].
      exists 7%nat. unfold cbits, pending in *. cbn [i_rest i_eof i_big i_buffer i_bits].
      rewrite P2. split; [reflexivity|right; reflexivity].
  - eexists. rewrite odd_shiftr_testbit. cbn [i_rest i_eof i_big i_buffer i_bits].
    unfold cbits in HC.
    assert (EW : N.to_nat (i_bits st) = S (N.to_nat (i_bits st - 1))) by lia.
    rewrite EW in HC. cbn [be_bits app] in HC. rewrite N2Nat.id in HC.
    destruct (app_ones_nonempty _ _ _ _ HC) as (s' & k' & E1 & E2 & E3). rewrite E1. cbn [fst snd].
    split; [reflexivity|].
    split; [|cbn; destruct (N.eqb_spec (i_bits st) 0); [lia|reflexivity]].
    split; [exact HB|]. split; [cbn; lia|]. split; [exact HE|].
    exists k'. unfold cbits, pending in *. cbn [i_rest i_eof i_big i_buffer i_bits].
    split; [exact E2|]. destruct Hk; auto.
Qed.

Lemma readByte_sim : forall K st s, (0 < K)%nat -> in_rel st s ->
  exists st', inReadByte K st = Ok (st', fst (readByte s)) /\ in_rel st' (snd (readByte s)) /\
    i_bits st' = i_bits st.
Proof.
  intros K st s HK (HB & HW & HE & k & HC & Hk).
  unfold inReadByte. destruct (N.ltb_spec (i_bits st) 8); [|lia].
  destruct (fetchCast_spec K st HK HB HE) as (st' & x & EF & A1 & A2 & A3 & A4 & A5 & A6).
  rewrite EF. cbn [i_rest i_eof i_big i_buffer i_bits]. rewrite A1, A2.
  set (m := i_buffer st) in *. set (w := N.to_nat (i_bits st)).
  assert (EM : N.lor (N.shiftl m 8 mod 65536) x = (m mod 256) * 2 ^ 8 + x).
  { rewrite N.shiftl_mul_pow2. change 65536 with (256 * 2 ^ 8).
    rewrite N.mul_mod_distr_r by lia. rewrite N.lor_comm, <- N.shiftl_mul_pow2, lor_add by exact A5.
    rewrite N.shiftl_mul_pow2. apply N.add_comm. }
  rewrite EM. set (M := (m mod 256) * 2 ^ 8 + x).
  assert (HwN : i_bits st = N.of_nat w) by (unfold w; lia).
  assert (Hw8 : (w < 8)%nat) by lia.
  assert (Bits : be_bits w m ++ byte_bits x = be_bits 8 (M / 2 ^ N.of_nat w) ++ be_bits w M).
  { rewrite <- be_bits_app. rewrite (Nat.add_comm 8 w), be_bits_app.
    unfold byte_bits. f_equal.
    - apply be_bits_low. intros i Hi. unfold M. rewrite N.div_pow2_bits.
      change (N.of_nat 8) with 8. rewrite (N.add_comm _ 8).
      rewrite testbit_high by exact A5. change 256 with (2 ^ 8). rewrite N.mod_pow2_bits_low by lia. reflexivity.
    - apply be_bits_low. intros i Hi. unfold M. rewrite testbit_low; [reflexivity|exact A5|lia]. }
  assert (LowM : be_bits w M = be_bits w x).
  { apply be_bits_low. intros i Hi. unfold M. rewrite testbit_low; [reflexivity|exact A5|lia]. }
  assert (Res : N.land (N.shiftr M (i_bits st)) 255 = be_val (be_bits 8 (M / 2 ^ N.of_nat w))).
  { rewrite land_255, shiftr_div, HwN. unfold be_val. rewrite be_bits_val_acc.
    change (2 ^ N.of_nat 8) with 256. lia. }
  rewrite Res. unfold cbits in HC. fold w m in HC.
  eexists. rewrite readByte_ones. cbn [fst snd].
  destruct A6 as [P|[P1 [P2 ->]]].
  - destruct Hk as [->|Hk]; [|rewrite Hk in P; discriminate].
    cbn [repeat] in HC. rewrite app_nil_r in HC. rewrite P, bytes_bits_cons, app_assoc, Bits, <- app_assoc in HC.
    split.
    + f_equal. f_equal. rewrite <- HC, <- app_assoc, firstn_app.
      rewrite be_bits_length. rewrite firstn_all2 by (rewrite be_bits_length; lia).
      rewrite Nat.sub_diag. cbn [firstn]. rewrite app_nil_r. reflexivity.
    + split; [|reflexivity].
      split; [exact A4|]. split; [cbn; lia|]. split; [exact A3|].
      exists 0%nat. unfold cbits, pending in *. cbn [i_rest i_eof i_big i_buffer i_bits repeat].
      rewrite app_nil_r. split; [|auto]. fold w.
      rewrite <- HC, skipn_app, be_bits_length.
      rewrite skipn_all2 by (rewrite be_bits_length; lia).
      rewrite Nat.sub_diag. cbn [skipn app]. reflexivity.
  - rewrite P1 in HC. change (bytes_bits []) with (@nil bool) in HC. rewrite app_nil_r in HC.
    assert (Hs : (length s <= w)%nat).
    { assert (length (be_bits w m) = length (s ++ repeat true k)) as L by (rewrite HC; reflexivity).
      rewrite be_bits_length, app_length in L. lia. }
    split.
    + f_equal. f_equal. f_equal.
      change (repeat true 8) with (byte_bits 255).
      rewrite HC, <- app_assoc in Bits. change (byte_bits 255) with (repeat true 8) in Bits.
      rewrite <- repeat_app in Bits. rewrite (Nat.add_comm k 8) in Bits.
      rewrite <- (firstn_ones 8 k). rewrite Bits, firstn_app, be_bits_length.
      rewrite firstn_all2 by (rewrite be_bits_length; lia).
      rewrite Nat.sub_diag. cbn [firstn]. rewrite app_nil_r. reflexivity.
    + rewrite skipn_all2 by lia.
      split; [|reflexivity].
      split; [exact A4|]. split; [cbn; lia|]. split; [exact A3|].
      exists w. unfold cbits, pending in *. cbn [i_rest i_eof i_big i_buffer i_bits app].
      rewrite P2. split; [|auto]. fold w. rewrite LowM.
      change (bytes_bits []) with (@nil bool). rewrite app_nil_r.
      assert (G : forall w, (w <= 8)%nat -> be_bits w 255 = repeat true w).
      { clear. intros w Hw. do 9 (destruct w; [reflexivity|]). lia. }
      apply G. lia.
Qed.

Lemma flush_sim : forall st s, in_rel st s -> in_rel (inFlushBuffer st) (absFlushBuffer s).
Proof.
  intros st s (HB & HW & HE & k & HC & Hk).
  split; [exact HB|]. split; [cbn; lia|]. split; [exact HE|].
  exists 0%nat. unfold cbits, pending in *. cbn [inFlushBuffer i_rest i_eof i_big i_buffer i_bits repeat] in *.
  change (N.to_nat 0) with 0%nat. cbn [be_bits app]. rewrite app_nil_r. split; [|auto].
  unfold absFlushBuffer. set (w := N.to_nat (i_bits st)) in *.
  destruct Hk as [-> | Hk].
  - cbn [repeat] in HC. rewrite app_nil_r in HC. rewrite <- HC.
    rewrite app_length, be_bits_length, bytes_bits_length.
    rewrite (Nat.mul_comm 8), Nat.mod_add by lia. rewrite Nat.mod_small by lia.
    rewrite skipn_app, be_bits_length, skipn_all2 by (rewrite be_bits_length; lia).
    rewrite Nat.sub_diag. reflexivity.
  - rewrite Hk in *. change (bytes_bits []) with (@nil bool) in *. rewrite app_nil_r in HC.
    assert (L : length (be_bits w (i_buffer st)) = length (s ++ repeat true k)) by (rewrite HC; reflexivity).
    rewrite be_bits_length, app_length in L. rewrite Nat.mod_small by lia.
    symmetry. apply skipn_all.
Qed.

Lemma aligned_rel : forall st s, in_rel st s -> i_bits st = 0 -> s = bytes_bits (pending st).
Proof.
  intros st s (HB & HW & HE & k & HC & Hk) Z. unfold cbits in HC. rewrite Z in HC.
  change (N.to_nat 0) with 0%nat in HC. cbn [be_bits app] in HC.
  destruct Hk as [-> | Hk].
  - cbn [repeat] in HC. rewrite app_nil_r in HC. auto.
  - rewrite Hk in *. change (bytes_bits []) with (@nil bool) in *.
    symmetry in HC. apply app_eq_nil in HC. apply HC.
Qed.

Lemma rel_aligned : forall st, are_bytes (pending st) -> i_bits st = 0 -> (i_eof st = true -> i_rest st = []) ->
  in_rel st (bytes_bits (pending st)).
Proof.
  intros st HB Z HE. split; [exact HB|]. split; [lia|]. split; [exact HE|].
  exists 0%nat. unfold cbits. rewrite Z. cbn. rewrite app_nil_r. auto.
Qed.

Lemma fetchCast_sim : forall K st s, (0 < K)%nat -> in_rel st s -> i_bits st = 0 ->
  exists st', fetchCast K st = (st', fst (readByte s)) /\ in_rel st' (snd (readByte s)) /\
    i_bits st' = 0 /\ fst (readByte s) < 256.
Proof.
  intros K st s HK H Z. pose proof (aligned_rel st s H Z) as ->.
  destruct H as (HB & HW & HE & _).
  destruct (fetchCast_spec K st HK HB HE) as (st' & x & EF & A1 & A2 & A3 & A4 & A5 & A6).
  exists st'. destruct A6 as [P|[P1 [P2 ->]]].
  - rewrite P, bytes_bits_cons, readByte_spec by exact A5. cbn [fst snd].
    split; [exact EF|]. split; [apply rel_aligned; auto; congruence|]. split; [congruence|assumption].
  - rewrite P1. change (bytes_bits []) with (@nil bool). rewrite readByte_ones. cbn [fst snd app skipn].
    change (be_val (firstn 8 (repeat true 8))) with 255.
    split; [exact EF|]. split; [|split; [congruence|lia]].
    change (@nil bool) with (bytes_bits []). rewrite <- P2. apply rel_aligned; auto. congruence.
Qed.

Lemma read48_step : forall acc b, acc < 2 ^ 40 -> b < 256 ->
  N.lor (N.shiftl acc 8 mod two64) b = acc * 256 + b /\ acc * 256 + b < 2 ^ 48.
Proof.
  intros acc b Ha Hb. rewrite N.shiftl_mul_pow2. unfold two64. change (2 ^ 8) with 256.
  assert (2 ^ 40 * 256 = 2 ^ 48) by reflexivity. assert (2 ^ 48 < 2 ^ 64) by reflexivity.
  rewrite N.mod_small by lia. split; [|lia].
  change 256 with (2 ^ 8) at 1. rewrite <- N.shiftl_mul_pow2, N.lor_comm, lor_add by exact Hb.
  change (2 ^ 8) with 256. lia.
Qed.

Lemma read48_sim : forall K st s, (0 < K)%nat -> in_rel st s -> i_bits st = 0 ->
  exists st', inRead48bits K st = (st', fst (absRead48bits s)) /\ in_rel st' (snd (absRead48bits s)) /\
    i_bits st' = 0.
Proof.
  intros K st0 s0 HK H0 Z0. unfold inRead48bits, absRead48bits.
  destruct (fetchCast_sim K st0 s0 HK H0 Z0) as (st1 & E1 & H1 & Z1 & B1).
  cbn [inRead48Loop]. rewrite E1. destruct (readByte s0) as [a s1]. cbn [fst snd] in *.
  destruct (fetchCast_sim K st1 s1 HK H1 Z1) as (st2 & E2 & H2 & Z2 & B2).
  cbn [inRead48Loop]. rewrite E2. destruct (readByte s1) as [b s2]. cbn [fst snd] in *.
  destruct (fetchCast_sim K st2 s2 HK H2 Z2) as (st3 & E3 & H3 & Z3 & B3).
  cbn [inRead48Loop]. rewrite E3. destruct (readByte s2) as [c s3]. cbn [fst snd] in *.
  destruct (fetchCast_sim K st3 s3 HK H3 Z3) as (st4 & E4 & H4 & Z4 & B4).
  cbn [inRead48Loop]. rewrite E4. destruct (readByte s3) as [d s4]. cbn [fst snd] in *.
  destruct (fetchCast_sim K st4 s4 HK H4 Z4) as (st5 & E5 & H5 & Z5 & B5).
  cbn [inRead48Loop]. rewrite E5. destruct (readByte s4) as [e s5]. cbn [fst snd] in *.
  destruct (fetchCast_sim K st5 s5 HK H5 Z5) as (st6 & E6 & H6 & Z6 & B6).
  cbn [inRead48Loop]. rewrite E6. destruct (readByte s5) as [f s6]. cbn [fst snd] in *.
  exists st6. split; [|auto]. f_equal.
  assert (P40 : 2 ^ 40 = 1099511627776) by reflexivity.
  destruct (read48_step 0 a) as [-> _]; [lia|assumption|]. rewrite N.mul_0_l, N.add_0_l.
  destruct (read48_step a b) as [-> _]; [lia|assumption|].
  destruct (read48_step (a * 256 + b) c) as [-> _]; [lia|assumption|].
  destruct (read48_step ((a * 256 + b) * 256 + c) d) as [-> _]; [lia|assumption|].
  destruct (read48_step (((a * 256 + b) * 256 + c) * 256 + d) e) as [-> _]; [lia|assumption|].
  destruct (read48_step ((((a * 256 + b) * 256 + c) * 256 + d) * 256 + e) f) as [-> _]; [lia|assumption|].
  reflexivity.
Qed.

Lemma readBlock_sim : forall K n st s, (0 < K)%nat -> in_rel st s -> i_bits st = 0 ->
  exists st', inReadBlockLoop K n st = (st', fst (absReadBlock n s)) /\
    in_rel st' (snd (absReadBlock n s)) /\ i_bits st' = 0.
Proof.
  induction n as [|n IH]; intros st s HK H Z.
  - exists st. cbn. auto.
  - pose proof (aligned_rel st s H Z) as Es. destruct H as (HB & HW & HE & _).
    destruct (fetch_spec K st HK HB HE) as [st' (A & B & C & D & E)].
    cbn [inReadBlockLoop absReadBlock].
    destruct (pending st) as [|x t].
    + destruct E as [E1 E2]. rewrite E1. subst s. change (bytes_bits []) with (@nil bool).
      exists st'. split; [reflexivity|]. cbn [snd]. split; [|congruence].
      change (@nil bool) with (bytes_bits []). rewrite <- E2. apply rel_aligned; auto. congruence.
    + destruct E as [E1 [E2 E3]]. rewrite E1. rewrite bytes_bits_cons in Es.
      assert (Hne : exists b0 s0, s = b0 :: s0) by (rewrite Es; cbn; eauto).
      destruct Hne as (b0 & s0 & Hs).
      assert (Hr : readByte s = (x, bytes_bits t)) by (rewrite Es; apply readByte_spec, E3).
      clear Es. subst s. cbv iota. rewrite Hr.
      destruct (IH st' (bytes_bits t) HK) as (st2 & F1 & F2 & F3).
      { rewrite <- E2. apply rel_aligned; auto. congruence. }
      { congruence. }
      rewrite F1. destruct (absReadBlock n (bytes_bits t)) as [l s'']. cbn [fst snd] in *.
      exists st2. auto.
Qed.

Lemma runIn_sim : forall K, (0 < K)%nat -> forall ops st s, in_rel st s -> validIn (i_bits st) ops ->
  exists st', runIn K st ops = Ok (st', specInAll s ops) /\ in_rel st' (leftAfter s ops) /\
    i_bits st' = unreadAfter (i_bits st) ops.
Proof.
  intros K HK. induction ops as [|op ops IH]; intros st s H V.
  - exists st. cbn. auto.
  - destruct V as [V1 V2]. cbn [runIn specInAll leftAfter].
    destruct op as [| | | |n]; cbn [runIn1 specIn unread] in *.
    + destruct (readBit_sim K st s HK H) as (st' & E & R & L). rewrite E. cbn [bind].
      destruct (readBit s) as [b s']. cbn [fst snd] in *. cbn [unread] in L. rewrite <- L in V2.
      destruct (IH st' s' R V2) as (st2 & E2 & R2 & U2). rewrite E2. cbn [bind]. exists st2. split; [reflexivity|]. split; [exact R2|]. unfold unreadAfter in *. cbn [fold_left unread]. congruence.
    + destruct (readByte_sim K st s HK H) as (st' & E & R & L). rewrite E. cbn [bind].
      destruct (readByte s) as [b s']. cbn [fst snd] in *. rewrite <- L in V2.
      destruct (IH st' s' R V2) as (st2 & E2 & R2 & U2). rewrite E2. cbn [bind]. exists st2. split; [reflexivity|]. split; [exact R2|]. unfold unreadAfter in *. cbn [fold_left unread]. congruence.
    + cbn [bind].
      destruct (IH _ _ (flush_sim st s H) V2) as (st2 & E2 & R2 & U2). rewrite E2. cbn [bind snd]. exists st2. split; [reflexivity|]. split; [exact R2|]. exact U2.
    + destruct (read48_sim K st s HK H V1) as (st' & E & R & L). rewrite E. cbn [bind].
      destruct (absRead48bits s) as [b s']. cbn [fst snd] in *. rewrite V1, <- L in V2.
      destruct (IH st' s' R V2) as (st2 & E2 & R2 & U2). rewrite E2. cbn [bind]. exists st2. split; [reflexivity|]. split; [exact R2|]. unfold unreadAfter in *. cbn [fold_left unread]. congruence.
    + unfold inReadBlock. rewrite V1, N.eqb_refl. cbn [bind].
      destruct (readBlock_sim K n st s HK H V1) as (st' & E & R & L). rewrite E. cbn [bind].
      destruct (absReadBlock n s) as [b s']. cbn [fst snd] in *. rewrite V1, <- L in V2.
      destruct (IH st' s' R V2) as (st2 & E2 & R2 & U2). rewrite E2. cbn [bind]. exists st2. split; [reflexivity|]. split; [exact R2|]. unfold unreadAfter in *. cbn [fold_left unread]. congruence.
Qed.

Lemma inInit_rel : forall file, are_bytes file -> in_rel (inInit file) (bytes_bits file).
Proof.
  intros file H. apply (rel_aligned (inInit file)); auto. intros E. discriminate.
Qed.

Lemma C26_all : forall K, (0 < K)%nat -> forall file ops, are_bytes file -> validIn 0 ops ->
  exists st, runIn K (inInit file) ops = Ok (st, specInAll (bytes_bits file) ops).
Proof.
  intros K HK file ops HF V.
  destruct (runIn_sim K HK ops _ _ (inInit_rel file HF) V) as (st & E & _). eauto.
Qed.

(** The end-of-data test at a byte boundary. *)
Lemma ending_sim : forall K st s, (0 < K)%nat -> in_rel st s -> i_bits st = 0 -> length s <> 8%nat ->
  exists st', inDataEnding K st = (st', absDataEnding s) /\ in_rel st' s /\ i_bits st' = 0.
Proof.
  intros K st s HK H Z N1. pose proof (aligned_rel st s H Z) as Es.
  pose proof H as (HB & HW & HE & _).
  assert (Hl : length (pending st) <> 1%nat).
  { intros E. apply N1. rewrite Es, bytes_bits_length, E. reflexivity. }
  assert (Hend : absDataEnding s = match pending st with [] => true | _ => false end).
  { rewrite Es. destruct (pending st); reflexivity. }
  unfold inDataEnding, pending in *.
  destruct (i_big st) as [|x [|y t]] eqn:EB.
  - cbn [app] in *.
    assert (EP : pending (refill K st) = i_rest st).
    { unfold pending, refill. cbn [i_big i_rest]. apply firstn_skipn. }
    assert (R : in_rel (refill K st) (bytes_bits (pending (refill K st)))).
    { apply rel_aligned.
      - rewrite EP. exact HB.
      - exact Z.
      - unfold refill. cbn [i_eof i_rest]. intros EE. apply orb_true_iff in EE.
        destruct EE as [EE|EE]; [rewrite (HE EE); apply skipn_nil|].
        apply Nat.ltb_lt in EE. apply skipn_all2. lia. }
    rewrite EP in R. exists (refill K st). rewrite Es. split; [|split; [exact R|exact Z]].
    unfold peekByte. rewrite EB. rewrite Es in Hend. rewrite Hend.
    unfold refill at 1. cbn [i_big]. destruct (i_rest st) as [|z r].
    + rewrite firstn_nil. reflexivity.
    + destruct K as [|K]; [lia|]. cbn [firstn]. reflexivity.
  - cbn [app] in *. rewrite Hend. eexists. split; [|split; [exact H|exact Z]].
    f_equal. destruct (i_eof st) eqn:EE; auto. rewrite (HE eq_refl) in Hl. cbn in Hl. lia.
  - rewrite Hend. cbn [app]. eexists. split; [reflexivity|auto].
Qed.

Lemma C26_ending_all : forall K, (0 < K)%nat -> forall file ops, are_bytes file -> validIn 0 ops ->
  unreadAfter 0 ops = 0 -> length (leftAfter (bytes_bits file) ops) <> 8%nat ->
  exists st res, runIn K (inInit file) ops = Ok (st, res) /\
    (snd (inDataEnding K st) = true <-> leftAfter (bytes_bits file) ops = []).
Proof.
  intros K HK file ops HF V U NE.
  destruct (runIn_sim K HK ops _ _ (inInit_rel file HF) V) as (st & E & R & B).
  change (i_bits (inInit file)) with 0 in B.
  destruct (ending_sim K st _ HK R) as (st' & E' & _); auto; [congruence|].
  exists st, (specInAll (bytes_bits file) ops). split; [exact E|]. rewrite E'. cbn [snd].
  unfold absDataEnding. destruct (leftAfter (bytes_bits file) ops); split; congruence.
Qed.

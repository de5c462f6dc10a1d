(** Frequencies found by the analysis. *)
From Coq Require Import List NArith ZArith Lia Arith Bool.
From Coq Require Import ZifyBool ZifyNat ZifyN.
From Verif Require Import Base Arrays TArray ModelUtils ModelStreams ModelSort ModelFreq ModelGrammar ModelPairs SpecPairs ProofUtils1 ProofGrammar3 ProofPairs1.
Import ListNotations.
Open Scope N_scope.

Definition cnt (l : list N) (c : N) : N := N.of_nat (count_occ N.eq_dec l c).
Lemma cnt_app : forall l m c, cnt (l ++ m) c = cnt l c + cnt m c.
Proof. intros. unfold cnt. rewrite count_occ_app. lia. Qed.
Lemma cnt_one : forall x c, cnt [x] c = if c =? x then 1 else 0.
Proof. intros x c. unfold cnt. cbn. destruct (N.eq_dec x c), (N.eqb_spec c x); try lia; congruence. Qed.
Lemma cnt_cons : forall x l c, cnt (x :: l) c = (if c =? x then 1 else 0) + cnt l c.
Proof. intros x l c. change (x :: l) with ([x] ++ l). rewrite cnt_app, cnt_one. reflexivity. Qed.
Lemma cnt_pos : forall l c, 0 < cnt l c <-> In c l.
Proof. intros l c. unfold cnt. rewrite (count_occ_In N.eq_dec). lia. Qed.
Lemma cnt_le : forall l c, cnt l c <= N.of_nat (length l).
Proof. intros l c. unfold cnt. pose proof (count_occ_bound N.eq_dec c l). lia. Qed.

Lemma tadd_ok : forall t i v, i < t_len t -> tadd t i v = Ok (tput t i ((tval t i + v) mod two64)).
Proof. intros t i v H. unfold tadd. rewrite tget_ok by exact H. cbn [bind]. apply tset_ok. exact H. Qed.

(** What holds once [done] has been analysed; [gf] are the frequencies in the grammar. *)
Definition analysed (gf : N -> N) (done : list N) (st : analysis) : Prop :=
  t_len (a_freqs st) = 256 /\ t_len (a_pairs st) = 65536 /\
  (exists x d, done = d ++ [x] /\ a_prev st mod 256 = x /\ a_prev st < 65536) /\
  (forall c, c < 256 -> tval (a_freqs st) c = (cnt done c + gf c) mod two64) /\
  (forall a b, a < 256 -> b < 256 -> tval (a_pairs st) (pair16 a b) + (if a_prev st mod 256 =? a then 1 else 0) <= cnt done a) /\
  (forall a b, a < 256 -> b < 256 -> tval (a_pairs st) (pair16 a b) <= cnt done b).

Lemma pair16_inj : forall a b c d, b < 256 -> d < 256 -> pair16 a b = pair16 c d -> a = c /\ b = d.
Proof. intros a b c d Hb Hd. rewrite !pair16_eq by assumption. lia. Qed.
Lemma pair16_prev : forall prev next, next < 256 -> pair16 prev next mod 65536 = pair16 (prev mod 256) next.
Proof. intros prev next H. rewrite !pair16_eq by exact H. lia. Qed.

(** One more symbol: one of the two ways of counting its pair. *)
Lemma analysed_step : forall gf done st next k, analysed gf done st -> next < 256 -> k <= 1 ->
  analysed gf (done ++ [next])
    (mkA (tput (a_freqs st) next ((tval (a_freqs st) next + 1) mod two64))
         (tput (a_pairs st) (pair16 (a_prev st mod 256) next) ((tval (a_pairs st) (pair16 (a_prev st mod 256) next) + k) mod two64))
         (pair16 (a_prev st mod 256) next)).
Proof.
  intros gf done st next k (L1 & L2 & (x & d & Ed & Ex & Bp) & F & P1 & P2) Hn Hk.
  assert (Bx : a_prev st mod 256 < 256) by lia.
  unfold analysed. cbn [a_freqs a_pairs a_prev]. split; [exact L1|]. split; [exact L2|]. split.
  { exists next, done. split; [reflexivity|]. rewrite pair16_eq by exact Hn. lia. }
  assert (PM : pair16 (a_prev st mod 256) next mod 256 = next) by (rewrite pair16_eq by exact Hn; lia).
  split; [|split].
  - intros c Hc. rewrite tval_put, cnt_app, cnt_one. destruct (N.eqb_spec c next) as [->|NE]; rewrite F by assumption.
    + unfold two64. rewrite N.add_mod_idemp_l by lia. f_equal. lia.
    + f_equal. lia.
  - intros a b Ha Hb. rewrite PM, tval_put, cnt_app, cnt_one.
    specialize (P1 a b Ha Hb). destruct (N.eqb_spec (pair16 a b) (pair16 (a_prev st mod 256) next)) as [E|NE].
    + apply pair16_inj in E; [|assumption..]. destruct E as (Ea & Eb). rewrite <- Ea, <- Eb in *. rewrite N.eqb_refl in P1.
      pose proof (N.mod_le (tval (a_pairs st) (pair16 a b) + k) two64 ltac:(unfold two64; lia)).
      set (q := (_ + k) mod two64) in *. clearbody q. destruct (N.eqb_spec b a), (N.eqb_spec a b); lia.
    + destruct (N.eqb_spec next a), (N.eqb_spec a next), (N.eqb_spec (a_prev st mod 256) a); lia.
  - intros a b Ha Hb. rewrite tval_put, cnt_app, cnt_one. specialize (P2 a b Ha Hb).
    destruct (N.eqb_spec (pair16 a b) (pair16 (a_prev st mod 256) next)) as [E|NE].
    + apply pair16_inj in E; [|assumption..]. destruct E as (Ea & Eb). rewrite <- Ea, <- Eb in *. rewrite N.eqb_refl.
      pose proof (N.mod_le (tval (a_pairs st) (pair16 a b) + k) two64 ltac:(unfold two64; lia)). lia.
    + destruct (N.eqb_spec b next); lia.
Qed.

Lemma analyse1_ok : forall gf done st next, analysed gf done st -> next < 256 ->
  exists st', analyse1 next st = Ok st' /\ analysed gf (done ++ [next]) st'.
Proof.
  intros gf done st next A Hn. assert (A' := A). destruct A' as (L1 & L2 & _).
  unfold analyse1. rewrite pair16_prev by exact Hn.
  rewrite tadd_ok by (rewrite L2; apply pair16_lt; [lia|exact Hn]). cbn [bind]. rewrite tadd_ok by lia. cbn [bind].
  eexists. split; [reflexivity|]. apply (analysed_step gf done st next 1 A Hn ltac:(lia)).
Qed.
Lemma analyse0_ok : forall gf done st next, analysed gf done st -> next < 256 ->
  exists st', analyse0 next st = Ok st' /\ analysed gf (done ++ [next]) st'.
Proof.
  intros gf done st next A Hn. assert (A' := A). destruct A' as (L1 & L2 & _).
  unfold analyse0. rewrite pair16_prev by exact Hn.
  rewrite tadd_ok by lia. cbn [bind]. rewrite tadd_ok by (rewrite L2; apply pair16_lt; [lia|exact Hn]). cbn [bind].
  eexists. split; [reflexivity|]. apply (analysed_step gf done st next _ A Hn).
  destruct (a_prev st =? pair16 (a_prev st mod 256) next); lia.
Qed.

Lemma analyseLoop_ok : forall gf k data done st, analysed gf done st -> are_bytes data -> (2 * k <= length data)%nat ->
  exists st', analyseLoop k data st = Ok (skipn (2 * k) data, st') /\ analysed gf (done ++ firstn (2 * k) data) st'.
Proof.
  intros gf. induction k as [|k IH]; intros data done st A B H.
  - exists st. cbn. rewrite app_nil_r. auto.
  - destruct data as [|a [|b r]]; cbn [length] in H; try lia.
    inversion_clear B as [|? ? Ba B']. inversion_clear B' as [|? ? Bb Br].
    cbn [analyseLoop]. destruct (analyse0_ok gf done st a A Ba) as (s1 & E1 & A1). rewrite E1. cbn [bind].
    destruct (analyse1_ok gf _ s1 b A1 Bb) as (s2 & E2 & A2). rewrite E2. cbn [bind].
    destruct (IH r _ s2 A2 Br ltac:(lia)) as (s3 & E3 & A3). exists s3. rewrite E3.
    replace (2 * S k)%nat with (S (S (2 * k))) by lia. cbn [skipn firstn]. split; [reflexivity|].
    rewrite <- !app_assoc in A3. exact A3.
Qed.

Lemma addFreqs_ok : forall gf i t, i + N.of_nat (length gf) <= t_len t ->
  exists t', addFreqs i gf t = Ok t' /\ t_len t' = t_len t /\
    forall c, tval t' c = if (i <=? c) && (c <? i + N.of_nat (length gf)) then (tval t c + nth (N.to_nat (c - i)) gf 0) mod two64 else tval t c.
Proof.
  induction gf as [|f gf IH]; intros i t H; cbn [addFreqs length] in *.
  - exists t. split; [reflexivity|]. split; [reflexivity|]. intros c. destruct (N.leb_spec i c), (N.ltb_spec c (i + N.of_nat 0)); cbn [andb]; try reflexivity. lia.
  - rewrite tadd_ok by lia. cbn [bind]. destruct (IH (i + 1) (tput t i ((tval t i + f) mod two64))) as (t' & E & L & V); [rewrite tput_len; lia|].
    exists t'. split; [exact E|]. split; [exact L|]. intros c. rewrite V, tval_put.
    destruct (N.leb_spec (i + 1) c), (N.ltb_spec c (i + 1 + N.of_nat (length gf))), (N.leb_spec i c),
      (N.ltb_spec c (i + N.of_nat (S (length gf)))), (N.eqb_spec c i); cbn [andb]; try lia; try reflexivity.
    + replace (N.to_nat (c - i)) with (S (N.to_nat (c - (i + 1)))) by lia. reflexivity.
    + subst c. rewrite N.sub_diag. reflexivity.
Qed.

Lemma even_mask : forall x, x < 2 ^ 32 -> N.land x 4294967294 / 2 = x / 2.
Proof.
  intros x H. rewrite <- !N.div2_div, !N.div2_spec, N.shiftr_land. change (N.shiftr 4294967294 1) with (N.ones 31).
  rewrite N.land_ones, N.mod_small; [reflexivity|]. rewrite N.shiftr_div_pow2. change (2 ^ 1) with 2. lia.
Qed.

Lemma analyseData_ok : forall g data, are_bytes data -> (2 < length data)%nat -> N.of_nat (length data) < 2 ^ 32 ->
  length (g_freqs g) = 256%nat ->
  exists st, analyseData g data = Ok st /\ analysed (fun c => nth (N.to_nat c) (g_freqs g) 0) data st.
Proof.
  intros g data B L1 L2 LG. unfold analyseData. destruct (N.ltb_spec 2 (N.of_nat (length data))); [|lia].
  destruct data as [|first r]; [cbn in L1; lia|]. inversion_clear B as [|? ? Bf Br].
  unfold beginAnalysing. rewrite tadd_ok by (cbn; exact Bf). cbn [bind].
  destruct (addFreqs_ok (g_freqs g) 0 (tput (tmake 256 0) first ((tval (tmake 256 0) first + 1) mod two64))) as (t & E & Lt & V).
  { rewrite LG. cbn. lia. }
  rewrite E. cbn [bind].
  assert (A0 : analysed (fun c => nth (N.to_nat c) (g_freqs g) 0) [first] (mkA t (tmake 65536 0) first)).
  { split; [exact Lt|]. split; [reflexivity|]. cbn [a_prev a_freqs a_pairs]. unfold is_byte in Bf. split; [exists first, []; repeat split; lia|].
    split; [|split].
    - intros c Hc. rewrite V, LG, tval_put, !tval_make, cnt_one. destruct (N.leb_spec 0 c); [|lia]. destruct (N.ltb_spec c (0 + N.of_nat 256)); [|lia].
      cbn [andb]. rewrite N.sub_0_r. destruct (c =? first); reflexivity.
    - intros a b Ha Hb. rewrite tval_make, cnt_one. rewrite N.mod_small by exact Bf. rewrite N.eqb_sym. lia.
    - intros a b Ha Hb. rewrite tval_make. lia. }
  rewrite even_mask by (cbn [length] in *; lia).
  replace (N.of_nat (length (first :: r)) - 1) with (N.of_nat (length r)) by (cbn [length]; lia).
  set (k := N.to_nat (N.of_nat (length r) / 2)). assert (Hk : (k = length r / 2)%nat) by (unfold k; lia).
  destruct (analyseLoop_ok _ k r [first] _ A0 Br) as (st & E1 & A1); [lia|]. rewrite E1. cbn [bind].
  destruct (N.even (N.of_nat (length (first :: r)))) eqn:Ev.
  - apply N.even_spec in Ev. destruct Ev as (m & Ev). cbn [length] in Ev.
    assert (Hlt : (2 * k < length r)%nat) by lia.
    destruct (skipn_cons_nth _ r _ Hlt) as (c & Ec & Esk). rewrite Esk.
    assert (Bc : c < 256) by (apply nth_error_In in Ec; unfold are_bytes in Br; rewrite Forall_forall in Br; apply Br; exact Ec).
    destruct (analyse0_ok _ _ st c A1 Bc) as (st' & E2 & A2). exists st'. split; [exact E2|].
    rewrite <- app_assoc in A2. cbn [app] in A2. rewrite <- (firstn_snoc _ _ _ _ Ec) in A2.
    rewrite firstn_all2 in A2 by lia. exact A2.
  - exists st. split; [reflexivity|]. rewrite firstn_all2 in A1; [exact A1|].
    assert (Od : N.odd (N.of_nat (length (first :: r))) = true) by (rewrite <- N.negb_even, Ev; reflexivity).
    apply N.odd_spec in Od. destruct Od as (m & Od). cbn [length] in Od. lia.
Qed.

(** Size of the block after one round, and room in the buffer. *)
From Coq Require Import List NArith ZArith Lia Arith Bool Permutation.
From Coq Require Import ZifyBool ZifyNat ZifyN.
From Verif Require Import Base Arrays TArray ModelUtils ModelStreams ModelFreq SpecFreq ModelGrammar SpecGrammar ProofGrammar3 ModelPairs SpecPairs SpecTriple
  ProofPairs1 ProofPairs2 ProofPairs3 ProofPairs4 ProofPairs5 ProofPairs6 ProofPairs7 ProofPairs8 ProofPairs9 ProofTriple1 ProofTriple2 ProofTriple3.
Import ListNotations.
Open Scope N_scope.

Lemma pairsFrom_nodup : forall t k i, NoDup (map snd (pairsFrom t i k)).
Proof.
  induction k as [|k IH]; intros i; cbn [pairsFrom map snd]; [constructor|]. constructor; [|apply IH].
  intros H. apply in_map_iff in H. destruct H as ([p pr] & E & I). cbn [snd] in E. apply pairsFrom_in in I. lia.
Qed.
Lemma keys_sum : forall F (key : nat -> N) symbols, (forall k c, nth_error symbols k = Some c -> c = key k) ->
  sumF (fun i => F (key i)) (length symbols) = Z.of_N (sumC F symbols).
Proof.
  intros F key symbols H. assert (E : symbols = map key (seq 0 (length symbols))).
  { apply (nth_ext _ _ 0 0); [rewrite map_length, seq_length; reflexivity|]. intros n Hn.
    rewrite (nth_indep (map key _) 0 (key 0%nat)) by (rewrite map_length, seq_length; exact Hn). rewrite map_nth, seq_nth by exact Hn.
    apply H. apply nth_error_nth'. exact Hn. }
  assert (A : forall n m, sumC F (map key (seq 0 (n + m))) = sumC F (map key (seq 0 n)) + sumC F (map key (seq n m))).
  { intros n m. rewrite seq_app, map_app. generalize (map key (seq 0 n)). cbn [Nat.add]. induction l as [|x l IH]; [reflexivity|]. unfold sumC in *. cbn [app fold_right]. rewrite IH. lia. }
  rewrite E at 2. generalize (length symbols). clear - A. induction n as [|n IH]; [reflexivity|]. replace (S n) with (n + 1)%nat at 2 by lia. rewrite A. cbn [sumF seq map].
  rewrite IH. unfold sumC at 3. cbn [fold_right]. lia.
Qed.

Lemma taken_sum : forall g st R symbols, taken g st R symbols -> (forall c, c < 256 -> tval (a_freqs st) c < 4294966000) ->
  NoDup (map snd R) /\ apart R /\ gain R (sumP R - Z.of_N (sumC (tval (a_freqs st)) symbols)).
Proof.
  intros g st R symbols (t & key & u & specs & forFree & H & K & L1 & L2 & HK) HB. unfold findReplaceablePairs in H.
  apply (bestStart_sum g t (fun i => tval (a_freqs st) (key i))) in H.
  - destruct H as (H1 & H2 & H3 & H4). split; [exact H1|]. split; [exact H2|]. rewrite <- (keys_sum _ key) by exact HK. rewrite L1, <- H3. exact H4.
  - intros i Hi. apply (K i Hi).
  - intros i Hi. apply HB, (K i Hi).
  - destruct (sortPairs_facts (makePairList st)) as (P & _). apply (Permutation_map snd) in P. apply (Permutation_NoDup (Permutation_sym P)). apply pairsFrom_nodup.
  - split; [constructor|]. split; [intros x y []|]. split; [reflexivity|]. left. auto.
Qed.

Lemma sumP_bound : forall f R, (forall x, In x R -> fst x <= f x) -> (sumP R <= Z.of_N (sumN f R))%Z.
Proof.
  intros f. induction R as [|x R IH]; intros H; [cbn; lia|]. unfold sumP, sumN in *. cbn [fold_right]. specialize (IH (fun y Hy => H y (or_intror Hy))).
  specialize (H x (or_introl eq_refl)). lia.
Qed.

(** A block is left alone or becomes shorter by more than a thousand bytes, apart from the places with three equal symbols in a row. *)
Lemma round_size : forall sortF g rules toks g' common table,
  sorts_by_frequency sortF -> gram g rules -> Forall (valid g) toks ->
  N.of_nat (length (bytesOf toks)) + 6 * N.of_nat (length rules) < 4294966000 ->
  analyseAndDecide sortF layoutOver g (bytesOf toks) = Ok (g', common, table) ->
  ((forall room l, writeReplaced common table room (bytesOf toks) = Ok l -> l = bytesOf toks) /\ doubles common table (bytesOf toks) = 0%nat) \/
  ((forall room l, writeReplaced common table room (bytesOf toks) = Ok l ->
     (length l + 1001 <= length (bytesOf toks) + trip toks)%nat /\ (length (bytesOf toks) <= 2 * length l)%nat) /\
   (3 * doubles common table (bytesOf toks) + 2002 <= length (bytesOf toks) + 2 * trip toks)%nat /\ (1001 <= length (bytesOf toks))%nat).
Proof.
  intros sortF g rules toks g' common table HS G HT HB H. unfold analyseAndDecide in H. set (data := bytesOf toks) in *.
  pose proof (bytesOf_bytes g rules toks G HT) as BY. fold data in BY.
  assert (L2 : (2 < length data)%nat).
  { destruct (Nat.lt_ge_cases 2 (length data)) as [L|L]; [exact L|]. exfalso. unfold analyseData in H. destruct (N.ltb_spec 2 (N.of_nat (length data))); [lia|discriminate]. }
  destruct (analyseData_ok g data BY L2) as (st & EA & A1 & A2 & A3 & A4 & A5 & A6); [lia|apply (gr_freqs _ _ G)|]. rewrite EA in H. cbn [bind] in H.
  apply analyseData_counted in EA; [|exact BY|lia]. destruct EA as (_ & EA).
  pose proof (ruleBytes_le rules (gr_two _ _ G)) as RB.
  assert (CZ : forall c, (0 <= cz (ruleBytes rules) c <= Z.of_nat (length (ruleBytes rules)))%Z).
  { intros c. unfold cz. pose proof (count_occ_bound N.eq_dec c (ruleBytes rules)). lia. }
  assert (GF : forall c, c < 256 -> Z.of_N (nth (N.to_nat c) (g_freqs g) 0) = cz (ruleBytes rules) c).
  { intros c Hc. destruct (gr_freqs _ _ G) as (_ & W). rewrite W by exact Hc. apply Z.mod_small. specialize (CZ c). lia. }
  assert (FV : forall c, c < 256 -> Z.of_N (tval (a_freqs st) c) = (Z.of_N (cnt data c) + cz (ruleBytes rules) c)%Z).
  { intros c Hc. rewrite A4 by exact Hc. pose proof (cnt_le data c) as Q. specialize (CZ c). specialize (GF c Hc).
    rewrite N.mod_small by (unfold two64; lia). lia. }
  assert (FP : forall a b, a < 256 -> b < 256 -> tval (a_pairs st) (pair16 a b) <= tval (a_freqs st) a /\ tval (a_pairs st) (pair16 a b) <= tval (a_freqs st) b).
  { intros a b Ha Hb. pose proof (A5 a b Ha Hb). pose proof (A6 a b Ha Hb). pose proof (FV a Ha). pose proof (FV b Hb). pose proof (CZ a). pose proof (CZ b). split; lia. }
  assert (FB : forall c, c < 256 -> tval (a_freqs st) c < 4294966000).
  { intros c Hc. pose proof (FV c Hc). pose proof (cnt_le data c). specialize (CZ c). lia. }
  apply decide_ok in H; auto.
  2:{ apply G. }
  2:{ destruct (gr_q _ _ G) as [(Q1 & Q2)|Q]; lia. }
  2:{ pose proof (gr_255 _ _ G). lia. }
  destruct H as (R & frees & news & freed & D & TK & [(RN & -> & ->)|(RN & H)]).
  - left. destruct D as (D1 & _). split.
    + intros room l W. unfold data in *. rewrite <- (rw_id toks).
      eapply (replaced_ok (fun _ => None) (fun _ _ => None) common (tmake 65536 (pair16 common common)) (flagged (g_special g))); [reflexivity|exact D1| | | | | |exact W].
      * intros a b _ _. apply tval_make.
      * discriminate.
      * discriminate.
      * discriminate.
      * eapply Forall_impl; [|exact HT]. intros k V. eapply rd_tokOk; eauto.
    + unfold doubles. induction data as [|c d IH]; [reflexivity|]. cbn [filter].
      assert (Z : writtenTwice common (tmake 65536 (pair16 common common)) c = false).
      { unfold writtenTwice. apply not_true_iff_false. intros E. apply existsb_exists in E. destruct E as (j & _ & E). rewrite tval_make, lo16_pair, N.eqb_refl in E by exact D1. discriminate. }
      rewrite Z. clear -D1. induction d as [|c' d IH]; [reflexivity|]. cbn [filter].
      assert (Z : writtenTwice common (tmake 65536 (pair16 common common)) c' = false).
      { unfold writtenTwice. apply not_true_iff_false. intros E. apply existsb_exists in E. destruct E as (j & _ & E). rewrite tval_make, lo16_pair, N.eqb_refl in E by exact D1. discriminate. }
      rewrite Z. exact IH.
  - right. destruct (construct_ok _ _ _ _ _ _ _ _ _ _ _ G D H) as (esc & ext & C).
    pose proof D as (D1 & _ & D3 & D4 & _ & D6 & D7 & _).
    assert (LR : length R = length (freed ++ frees)) by (rewrite app_length; exact D7).
    assert (HFG : forall c, c < 256 -> In c (ruleBytes rules) -> 0 < tval (a_freqs st) c).
    { intros c Hc I. apply (count_occ_In N.eq_dec) in I. pose proof (FV c Hc) as Q. unfold cz in Q. lia. }
    assert (HFD : forall c, c < 256 -> In c (bytesOf toks) -> 0 < tval (a_freqs st) c).
    { intros c Hc I. apply cnt_pos in I. fold data in I. pose proof (FV c Hc) as Q. specialize (CZ c). lia. }
    destruct (taken_sum _ _ _ _ TK FB) as (T1 & T2 & T3).
    set (RR := combine R (freed ++ frees)) in *. set (rule := fun a b => ruleOf RR (pair16 a b)).
    assert (TOK : Forall (tokOk (flagged (g_special g))) toks) by (eapply Forall_impl; [|exact HT]; intros k V; eapply rd_tokOk; eauto).
    (* rules for bytes only *)
    assert (RIN : forall a b r, rule a b = Some r -> exists p, In (p, pair16 a b, r) RR) by (intros a b r Q; apply ruleOf_in in Q; exact Q).
    set (ruleB := fun a b => if (a <? 256) && (b <? 256) then rule a b else None).
    assert (RB1 : forall a b r, ruleB a b = Some r -> a < 256 /\ b < 256 /\ rule a b = Some r).
    { intros a b r Q. unfold ruleB in Q. destruct (N.ltb_spec a 256), (N.ltb_spec b 256); cbn [andb] in Q; try discriminate. auto. }
    assert (RW : forall n ks, (length ks <= n)%nat -> Forall (tokOk (flagged (g_special g))) ks -> rw esc rule ks = rw esc ruleB ks /\ places rule ks = places ruleB ks).
    { induction n as [|n IH]; intros ks Hn HK; [destruct ks; [split; reflexivity|cbn in Hn; lia]|]. destruct ks as [|k ks]; [split; reflexivity|]. cbn [length] in Hn.
      inversion_clear HK as [|? ? K1 K2]. destruct (IH ks ltac:(lia) K2) as (I1 & I2).
      destruct k as [a|a b]; [|cbn [rw places]; rewrite I1, I2; split; reflexivity].
      destruct ks as [|[b|b c] ks]; [split; reflexivity| |cbn [rw places] in *; rewrite I2; split; [f_equal; exact I1|reflexivity]].
      inversion_clear K2 as [|? ? K3 K4]. cbn [length] in Hn. destruct (IH ks ltac:(lia) K4) as (I3 & I4).
      assert (E : ruleB a b = rule a b). { unfold ruleB. destruct K1 as (K1 & _). destruct K3 as (K3 & _). destruct (N.ltb_spec a 256), (N.ltb_spec b 256); try lia. reflexivity. }
      change (places rule (One a :: One b :: ks)) with (ruled rule a b + places rule (One b :: ks))%nat.
      change (places ruleB (One a :: One b :: ks)) with (ruled ruleB a b + places ruleB (One b :: ks))%nat. rewrite I2. unfold ruled. rewrite E. split; [|reflexivity].
      cbn [rw] in *. rewrite E. destruct (rule a b); [rewrite I3; reflexivity|]. rewrite I1. reflexivity. }
    destruct (RW (length toks) toks (le_n _) TOK) as (RW1 & RW2).
    assert (HRE : forall a b r, ruleB a b = Some r -> esc a = None /\ esc b = None).
    { intros a b r Q. apply RB1 in Q. destruct Q as (Q1 & Q2 & Q). unfold rule, RR in Q. eapply rd_rule in Q; eauto. tauto. }
    assert (HAP : forall a b c r s, ruleB a b = Some r -> ruleB b c = Some s -> a = b /\ b = c).
    { intros a b c r s Q1 Q2. apply RB1 in Q1, Q2. destruct Q1 as (Ba & Bb & Q1). destruct Q2 as (_ & Bc & Q2). apply RIN in Q1, Q2. destruct Q1 as (p & Q1). destruct Q2 as (q & Q2).
      apply in_combine_l in Q1, Q2. specialize (T2 _ _ Q1 Q2). cbn [snd] in T2. rewrite hiOf_pair, loOf_pair in T2 by assumption. specialize (T2 eq_refl).
      apply pair16_inj in T2; [|assumption..]. destruct T2. subst. auto. }
    pose proof (places_le esc ruleB HRE HAP _ toks (le_n _)) as P1. pose proof (rw_length esc ruleB HRE HAP _ toks (le_n _)) as P2. pose proof (twice_le esc ruleB HRE HAP _ toks (le_n _)) as P3.
    pose proof (places_length esc ruleB HRE HAP toks) as P4. pose proof (bytesOf_le toks) as P5.
    (* sums *)
    assert (SP : (sumP R <= Z.of_nat (places ruleB toks))%Z).
    { rewrite <- RW2. pose proof (sumP_bound (fun x => occ data (hiOf (snd x)) (loOf (snd x))) R) as Q1.
      pose proof (sum_places (flagged (g_special g)) R (freed ++ frees) T1 LR) as Q2. fold RR in Q2. fold rule in Q2. fold data in Q1.
      assert (Q3 : sumN (fun x => occ (bytesOf toks) (hiOf (snd x)) (loOf (snd x))) R <= N.of_nat (places rule toks)).
      { apply Q2; [|exact TOK]. intros [p pr] Hx. cbn [snd]. destruct (D6 p pr Hx) as (K1 & K2 & K3 & K4 & K5). split; [exact K1|].
        destruct K4 as (P0 & P0'). unfold isSpecial in P0, P0'. apply get_inv in P0, P0'. apply (nth_error_nth _ _ false) in P0, P0'. split; assumption. }
      fold data in Q3. assert (Q4 : forall x, In x R -> fst x <= occ data (hiOf (snd x)) (loOf (snd x))).
      { intros [p pr] Hx. cbn [fst snd]. destruct (D6 p pr Hx) as (K1 & K2 & _). rewrite K2. rewrite <- (pair_of pr K1) at 1. apply EA; [apply hiOf_lt|apply loOf_lt]. }
      specialize (Q1 Q4). lia. }
    set (symbols := frees ++ news ++ freed) in *.
    assert (SE : N.of_nat (twofolds esc toks) <= sumC (cnt data) symbols).
    { apply twofolds_le. intros c [x y] E. destruct C as (_ & _ & _ & _ & _ & _ & _ & _ & _ & _ & _ & C12 & _). destruct (C12 c x y E) as (I & _).
      unfold symbols. rewrite !in_app_iff in *. tauto. }
    assert (SF : sumC (cnt data) symbols <= sumC (tval (a_freqs st)) symbols).
    { apply sumC_le. intros c Hc. destruct (D4 c Hc) as (Bc & _). pose proof (FV c Bc). specialize (CZ c). lia. }
    destruct T3 as [(Z & _)|T3]; [contradiction|].
    assert (DB : (doubles common table data <= twofolds esc toks)%nat).
    { apply (doubles_le esc (flagged (g_special g))); [|exact TOK]. intros c Hc W. unfold writtenTwice in W. apply existsb_exists in W. destruct W as (j & Ij & W).
      assert (Bj : j < 256). { apply in_map_iff in Ij. destruct Ij as (j' & <- & Ij). apply in_seq in Ij. lia. }
      pose proof C as (_ & _ & _ & _ & _ & _ & _ & _ & _ & _ & _ & _ & _ & _ & _ & _ & _ & C18). fold RR in C18. rewrite (C18 c j Hc Bj) in W.
      destruct (ruleOf RR (pair16 c j)) as [r|] eqn:ER.
      - rewrite lo16_pair, N.eqb_refl in W by exact D1. discriminate.
      - destruct (esc c) as [[x y]|] eqn:EE; [|rewrite lo16_pair, N.eqb_refl in W by exact D1; discriminate]. split; [|discriminate]. eapply rd_esc_bytes in EE; eauto. tauto. }
    fold data in P2, P5. split; [|split; lia].
    intros room l W. assert (EL : l = bytesOf (rw esc rule toks)) by (unfold rule, RR; eapply rd_replaced; eauto). rewrite EL, RW1. fold data. lia.
Qed.

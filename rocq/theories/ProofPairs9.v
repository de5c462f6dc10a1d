(** All rounds of the precompressor, and the postprocessor. *)
From Coq Require Import List NArith ZArith Lia Arith Bool Permutation.
From Coq Require Import ZifyBool ZifyNat ZifyN.
From Verif Require Import Base Arrays TArray ModelUtils ModelStreams ModelHeaders ProofUtils1 ModelFreq SpecFreq ModelGrammar SpecGrammar ProofGrammar1 ProofGrammar3 ProofGrammar4
  ModelPairs SpecPairs ProofPairs1 ProofPairs2 ProofPairs3 ProofPairs4 ProofPairs5 ProofPairs6 ProofPairs7 ProofPairs8.
Import ListNotations.
Open Scope N_scope.

(** ** One round *)
Lemma bytesOf_bytes : forall g rules ks, gram g rules -> Forall (valid g) ks -> are_bytes (bytesOf ks).
Proof.
  intros g rules ks G. induction ks as [|k ks IH]; intros H; [constructor|]. inversion_clear H as [|? ? H1 H2].
  change (bytesOf (k :: ks)) with (symBytes k ++ bytesOf ks). apply Forall_app. split; [|apply IH; exact H2].
  destruct k as [c|a b]; cbn [symBytes valid] in *; [constructor; [apply H1|constructor]|].
  destruct H1 as (i & j & N1 & N2 & _). apply nth_error_In in N1, N2. repeat constructor; apply (gr_bytes _ _ G); assumption.
Qed.
Lemma symBytes_le : forall k, (1 <= length (symBytes k) <= 2)%nat.
Proof. intros [c|a b]; cbn [symBytes length]; lia. Qed.
Lemma bytesOf_le : forall ks, (length ks <= length (bytesOf ks) <= 2 * length ks)%nat.
Proof.
  induction ks as [|k ks IH]; [cbn; lia|]. change (bytesOf (k :: ks)) with (symBytes k ++ bytesOf ks). rewrite app_length. cbn [length]. pose proof (symBytes_le k). lia.
Qed.
Lemma ruleBytes_le : forall rules, Forall (fun r => length (snd r) = 2%nat) rules -> (length (ruleBytes rules) <= 6 * length rules)%nat.
Proof.
  induction rules as [|[k ks] rules IH]; intros H; [cbn; lia|]. inversion_clear H as [|? ? H1 H2]. cbn [snd] in H1. unfold ruleBytes in *. cbn [map concat fst snd length].
  rewrite !app_length. specialize (IH H2). pose proof (symBytes_le k). pose proof (bytesOf_le ks). lia.
Qed.

Lemma rw_id : forall ks, rw (fun _ => None) (fun _ _ => None) ks = ks.
Proof.
  induction ks as [|k ks IH]; [reflexivity|]. destruct k as [a|a b]; [destruct ks as [|[b|b c] ks]|]; cbn [rw tr] in *; rewrite ?IH; reflexivity.
Qed.

Lemma round_ok : forall sortF g rules toks g' common table,
  sorts_by_frequency sortF -> gram g rules -> Forall (valid g) toks ->
  N.of_nat (length (bytesOf toks)) + 6 * N.of_nat (length rules) < 4294966000 ->
  analyseAndDecide sortF layoutOver g (bytesOf toks) = Ok (g', common, table) ->
  exists rules' toks', gram g' rules' /\ (length rules' <= length rules + 256)%nat /\ common < 256 /\ t_len table = 65536 /\
    Forall (valid g') toks' /\ (2 < length (bytesOf toks))%nat /\
    (forall room l, writeReplaced common table room (bytesOf toks) = Ok l -> l = bytesOf toks') /\
    (forall T', initOk g' T' -> exists T, initOk g T /\ concat (map (eval rules' T') toks') = concat (map (eval rules T) toks)) /\
    (rules' = rules \/ exists c ks, In (One c, ks) rules') /\ (length (g_pairs g') <= length (g_pairs g) + 256)%nat.
Proof.
  intros sortF g rules toks g' common table HS G HT HB H. unfold analyseAndDecide in H. set (data := bytesOf toks) in *.
  pose proof (bytesOf_bytes g rules toks G HT) as BY. fold data in BY.
  assert (L2 : (2 < length data)%nat).
  { destruct (Nat.lt_ge_cases 2 (length data)) as [L|L]; [exact L|]. exfalso. unfold analyseData in H. destruct (N.ltb_spec 2 (N.of_nat (length data))); [lia|discriminate]. }
  destruct (analyseData_ok g data BY L2) as (st & EA & A1 & A2 & A3 & A4 & A5 & A6); [lia|apply (gr_freqs _ _ G)|]. rewrite EA in H. cbn [bind] in H.
  pose proof (ruleBytes_le rules (gr_two _ _ G)) as RB.
  assert (CZ : forall c, (0 <= cz (ruleBytes rules) c <= Z.of_nat (length (ruleBytes rules)))%Z).
  { intros c. unfold cz. pose proof (count_occ_bound N.eq_dec c (ruleBytes rules)). lia. }
  assert (GF : forall c, c < 256 -> Z.of_N (nth (N.to_nat c) (g_freqs g) 0) = cz (ruleBytes rules) c).
  { intros c Hc. destruct (gr_freqs _ _ G) as (_ & W). rewrite W by exact Hc. apply Z.mod_small. specialize (CZ c). lia. }
  assert (FV : forall c, c < 256 -> Z.of_N (tval (a_freqs st) c) = (Z.of_N (cnt data c) + cz (ruleBytes rules) c)%Z).
  { intros c Hc. rewrite A4 by exact Hc. pose proof (cnt_le data c) as Q. specialize (CZ c). specialize (GF c Hc).
    rewrite N.mod_small by (unfold two64; lia). lia. }
  assert (FP : forall a b, a < 256 -> b < 256 -> tval (a_pairs st) (pair16 a b) <= tval (a_freqs st) a /\ tval (a_pairs st) (pair16 a b) <= tval (a_freqs st) b).
  { intros a b Ha Hb. pose proof (A5 a b Ha Hb). pose proof (A6 a b Ha Hb). pose proof (FV a Ha). pose proof (FV b Hb). pose proof (CZ a). pose proof (CZ b). split; lia. }
  apply decide_ok in H; auto.
  2:{ apply G. }
  2:{ destruct (gr_q _ _ G) as [(Q1 & Q2)|Q]; lia. }
  2:{ pose proof (gr_255 _ _ G). lia. }
  2:{ intros c Hc. pose proof (FV c Hc). pose proof (cnt_le data c). specialize (CZ c). lia. }
  destruct H as (R & frees & news & freed & D & _ & [(RN & -> & ->)|(RN & H)]).
  - exists rules, toks. split; [exact G|]. split; [lia|]. split; [exact (proj1 D)|]. split; [reflexivity|]. split; [exact HT|]. split; [exact L2|]. split; [|split; [intros T' I; exists T'; auto|]; split; [auto|lia]].
    intros room l W. destruct D as (D1 & _). rewrite <- (rw_id toks).
    eapply (replaced_ok (fun _ => None) (fun _ _ => None) common (tmake 65536 (pair16 common common)) (flagged (g_special g))); [reflexivity|exact D1| | | | | |exact W].
    + intros a b _ _. apply tval_make.
    + discriminate.
    + discriminate.
    + discriminate.
    + eapply Forall_impl; [|exact HT]. intros k V. eapply rd_tokOk; eauto.
  - destruct (construct_ok _ _ _ _ _ _ _ _ _ _ _ G D H) as (esc & ext & C).
    pose proof D as (D1 & _ & D3 & D4 & _ & _ & D7 & _).
    assert (LR : length R = length (freed ++ frees)) by (rewrite app_length; exact D7).
    assert (HFG : forall c, c < 256 -> In c (ruleBytes rules) -> 0 < tval (a_freqs st) c).
    { intros c Hc I. apply (count_occ_In N.eq_dec) in I. pose proof (FV c Hc) as Q. unfold cz in Q. lia. }
    assert (HFD : forall c, c < 256 -> In c (bytesOf toks) -> 0 < tval (a_freqs st) c).
    { intros c Hc I. apply cnt_pos in I. fold data in I. pose proof (FV c Hc) as Q. specialize (CZ c). lia. }
    exists (map (trBoth (tr esc)) rules ++ map (trRhs (tr esc)) (newRules (combine R (freed ++ frees)))),
           (rw esc (fun a b => ruleOf (combine R (freed ++ frees)) (pair16 a b)) toks).
    split; [eapply rd_gram; eauto|]. split.
    { rewrite app_length, !map_length. unfold newRules. rewrite map_length, combine_length.
      assert (NDR : NoDup (freed ++ frees)) by (eapply rd_repl_nodup; eauto).
      apply (NoDup_incl_length (l' := map N.of_nat (seq 0 256))) in NDR.
      - rewrite map_length, seq_length in NDR. lia.
      - intros x Hx. assert (x < 256) by (apply D4; rewrite !in_app_iff in *; tauto). apply in_map_iff. exists (N.to_nat x). split; [lia|]. apply in_seq. lia. }
    split; [exact D1|]. split; [apply C|]. split; [eapply rd_toks_valid; eauto|]. split; [exact L2|]. split.
    + intros room l W. eapply rd_replaced; eauto.
    + split; [intros T' I; eapply rd_meaning; eauto|]. split.
      * right. destruct R as [|[p pr] R]; [contradiction|]. destruct (freed ++ frees) as [|r rs]; [discriminate|]. exists r, (map (tr esc) [One (hiOf pr); One (loOf pr)]).
        apply in_app_iff. right. apply in_map_iff. eexists. split; [|left; reflexivity]. reflexivity.
      * destruct C as (_ & _ & _ & _ & C5 & C6 & _). rewrite C5, app_length, C6.
        assert (NDR : NoDup (freed ++ news)).
        { apply NoDup_app_r in D3. eapply Permutation_NoDup; [apply Permutation_app_comm|exact D3]. }
        apply (NoDup_incl_length (l' := map N.of_nat (seq 0 256))) in NDR.
        -- rewrite map_length, seq_length, app_length in NDR. lia.
        -- intros x Hx. assert (x < 256) by (apply D4; rewrite !in_app_iff in *; tauto). apply in_map_iff. exists (N.to_nat x). split; [lia|]. apply in_seq. lia.
Qed.

(** ** All rounds *)
Lemma replaced_room : forall common table room src l, writeReplaced common table room src = Ok l -> (length l <= room)%nat.
Proof.
  intros common table room src l H. unfold writeReplaced in H. destruct src as [|c rest]; [discriminate|]. bd H. destruct (Nat.leb_spec (length a) room); [|discriminate]. injection H as <-. assumption.
Qed.

Section Rounds.
Variables (sortF : list (N * N) -> list (N * N)) (capacity : nat -> nat) (lowRatio : nat -> nat -> bool).
Hypothesis HS : sorts_by_frequency sortF.

Lemma rounds_ok : forall original text n temp g data g' data' temp' rules toks,
  precompressRounds sortF layoutOver capacity lowRatio n original temp g data = Ok (g', data', temp') ->
  roundsFit sortF layoutOver capacity lowRatio n original temp g data = true ->
  gram g rules -> Forall (valid g) toks -> data = bytesOf toks ->
  (match temp with None => length data <= S original | Some (a, b) => a <= original + 3 /\ b <= original + 3 /\ length data <= original + 3 end)%nat ->
  N.of_nat original + 3 + 6 * N.of_nat (length rules + 256 * n) < 4294966000 ->
  (forall T, initOk g T -> concat (map (eval rules T) toks) = text) ->
  exists rules' toks', gram g' rules' /\ Forall (valid g') toks' /\ data' = bytesOf toks' /\
    (length rules' <= length rules + 256 * n)%nat /\ (forall T, initOk g' T -> concat (map (eval rules' T) toks') = text).
Proof.
  intros original text. induction n as [|n IH]; intros temp g data g' data' temp' rules toks H HF G V -> HL HB HM; cbn [precompressRounds roundsFit] in H, HF.
  - injection H as <- <- <-. exists rules, toks. split; [exact G|]. split; [exact V|]. split; [reflexivity|]. split; [lia|exact HM].
  - destruct (analyseAndDecide sortF layoutOver g (bytesOf toks)) as [[[g1 common] table]| |] eqn:EA; cbn [bind] in H; try discriminate.
    assert (LD : (length (bytesOf toks) <= original + 3)%nat) by (destruct temp as [[? ?]|]; lia).
    destruct (round_ok sortF g rules toks g1 common table HS G V ltac:(lia) EA) as (rules1 & toks1 & G1 & R1 & C1 & T1 & V1 & L2 & W1 & M1 & _).
    assert (HM1 : forall T, initOk g1 T -> concat (map (eval rules1 T) toks1) = text).
    { intros T IT. destruct (M1 T IT) as (T0 & I0 & E). rewrite E. apply HM. exact I0. }
    assert (FIN : forall data1 temp1, data1 = bytesOf toks1 ->
      (match temp1 with None => length data1 <= S original | Some (a, b) => a <= original + 3 /\ b <= original + 3 /\ length data1 <= original + 3 end)%nat ->
      precompressRounds sortF layoutOver capacity lowRatio n original temp1 g1 data1 = Ok (g', data', temp') ->
      roundsFit sortF layoutOver capacity lowRatio n original temp1 g1 data1 = true ->
      exists rules' toks', gram g' rules' /\ Forall (valid g') toks' /\ data' = bytesOf toks' /\
        (length rules' <= length rules + 256 * S n)%nat /\ (forall T, initOk g' T -> concat (map (eval rules' T) toks') = text)).
    { intros data1 temp1 ED HT HR HR2. destruct (IH _ _ _ _ _ _ _ _ HR HR2 G1 V1 ED HT ltac:(lia) HM1) as (rules2 & toks2 & X1 & X2 & X3 & X4 & X5).
      exists rules2, toks2. split; [exact X1|]. split; [exact X2|]. split; [exact X3|]. split; [lia|exact X5]. }
    destruct (match temp with Some t => Some t | None => if lowRatio (length (bytesOf toks)) original then Some (S original, S (length (bytesOf toks))) else None end) as [[a b]|] eqn:ET.
    + assert (AB : (a <= original + 3 /\ b <= original + 3)%nat).
      { destruct temp as [[a0 b0]|]; [injection ET as -> ->; lia|]. destruct (lowRatio _ _); [injection ET as <- <-; lia|discriminate]. }
      destruct (writeReplaced common table b (bytesOf toks)) as [data1| |] eqn:EW; cbn [bind] in H; try discriminate.
      destruct (length data1 =? original)%nat; [discriminate|]. pose proof (replaced_room _ _ _ _ _ EW). apply (FIN data1 (Some (b, a))); auto; [apply (W1 _ _ EW)|lia].
    + assert (temp = None) by (destruct temp; [discriminate|reflexivity]). subst temp.
      apply andb_prop in HF. destruct HF as (HF1 & HF2). destruct (writeInPlace _ _ _ _ _) as [data1| |] eqn:EW; cbn [bind] in H; try discriminate.
      unfold bufferFits in HF1. apply andb_prop in HF1. destruct HF1 as (HF1 & B3). apply andb_prop in HF1. destruct HF1 as (B1 & B2).
      apply Nat.leb_le in B1. apply Nat.ltb_lt in B2.
      assert (B3' : (capacity (length (bytesOf toks)) + 1 < length (bytesOf toks) \/ doubles common table (bytesOf toks) = 0)%nat).
      { apply orb_prop in B3. destruct B3 as [B3|B3]; [left; apply Nat.ltb_lt; exact B3|right; apply Nat.eqb_eq; exact B3]. }
      destruct (C34_all _ common table (S original) (bytesOf toks) T1 C1 (bytesOf_bytes _ _ _ G V) ltac:(lia) B1 B2 B3') as (IP & _).
      apply IP in EW. pose proof (replaced_room _ _ _ _ _ EW). pose proof (W1 _ _ EW) as ED.
      destruct (length data1 =? original)%nat eqn:EO.
      * injection H as <- <- <-. exists rules1, toks1. split; [exact G1|]. split; [exact V1|]. split; [exact ED|]. split; [lia|exact HM1].
      * apply (FIN data1 None); auto.
Qed.
End Rounds.

(** ** The postprocessor *)
Definition keyOf (k : sym) : N := match k with One c => c | Two a b => N.lor highBit (pair16 a b) end.
Lemma keyOf_two : forall a b, a < 256 -> b < 256 -> keyOf (Two a b) = 65536 + a * 256 + b.
Proof.
  intros a b Ha Hb. cbn [keyOf]. rewrite pair16_eq by exact Hb. rewrite N.lor_comm.
  replace highBit with (N.shiftl 1 16) by reflexivity. rewrite lor_add by (change (2 ^ 16) with 65536; lia). change (2 ^ 16) with 65536. lia.
Qed.

Section Post.
Variables (g : grammar) (rules : list (sym * list sym)).
Hypothesis G : gram g rules.

Lemma pt_index : forall i j x, nth_error (g_specials g) i = Some x -> nth_error (g_specials g) j = Some x -> i = j.
Proof. intros i j x Hi Hj. pose proof (gr_nodup _ _ G) as N0. rewrite NoDup_nth_error in N0. apply N0; [eapply nth_error_bound; eauto|congruence]. Qed.
Lemma pt_byte : forall i x, nth_error (g_specials g) i = Some x -> x < 256.
Proof. intros i x H. apply nth_error_In in H. apply (gr_bytes _ _ G). exact H. Qed.
Lemma pt_key_bound : forall k, valid g k -> keyOf k < 131072.
Proof.
  intros [c|a b] V; [cbn [keyOf]; destruct V; lia|]. destruct V as (i & j & N1 & N2 & _). rewrite keyOf_two by (eapply pt_byte; eauto). apply pt_byte in N1, N2. lia.
Qed.
Lemma pt_key_inj : forall k l, valid g k -> valid g l -> keyOf k = keyOf l -> k = l.
Proof.
  assert (B2 : forall a b, valid g (Two a b) -> a < 256 /\ b < 256) by (intros a b (i & j & N1 & N2 & _); split; eapply pt_byte; eauto).
  intros [c|a b] [d|a' b'] V1 V2 H.
  - cbn [keyOf] in H. congruence.
  - destruct (B2 _ _ V2). rewrite keyOf_two in H by assumption. cbn [keyOf] in H. destruct V1. lia.
  - destruct (B2 _ _ V1). rewrite keyOf_two in H by assumption. cbn [keyOf] in H. destruct V2. lia.
  - destruct (B2 _ _ V1), (B2 _ _ V2). rewrite !keyOf_two in H by assumption. f_equal; lia.
Qed.

(** Uncompressing with a table that agrees with T. *)
Definition agrees (table : tarray (list N)) (T : sym -> list N) : Prop :=
  t_len table = 131072 /\ forall k, valid g k -> tval table (keyOf k) = T k.
Lemma uncompress_ok : forall table T, agrees table T -> forall ks rest, Forall (valid g) ks ->
  uncompress (g_special g) table (bytesOf ks ++ rest) (length (bytesOf ks)) = Ok (concat (map T ks)).
Proof.
  intros table T (L & A). assert (SP : forall c, c < 256 -> get (g_special g) (N.to_nat c) = Ok (flagged (g_special g) c)).
  { intros c Hc. destruct (nth_error_lt (g_special g) (N.to_nat c)) as (b & E); [rewrite (gr_special _ _ G); lia|]. rewrite (get_ok _ _ _ E). unfold flagged. rewrite (nth_error_nth _ _ false E). reflexivity. }
  induction ks as [|k ks IH]; intros rest H; [destruct rest; reflexivity|]. inversion_clear H as [|? ? H1 H2].
  change (bytesOf (k :: ks)) with (symBytes k ++ bytesOf ks). rewrite <- app_assoc, app_length. pose proof (A k H1) as AK. pose proof (pt_key_bound k H1) as KB.
  destruct k as [c|a b]; cbn [symBytes app length Nat.add uncompress].
  - destruct H1 as (Hc & NS). rewrite SP, NS by exact Hc. cbn [bind]. cbn [keyOf] in *. rewrite tget_ok by (rewrite L; exact KB). cbn [bind]. rewrite (IH rest H2). cbn [bind map concat]. rewrite AK. reflexivity.
  - destruct H1 as (i & j & N1 & N2 & _). assert (Ha := pt_byte _ _ N1). assert (F1 : flagged (g_special g) a = true) by (apply (gr_flag _ _ G); eapply nth_error_In; eauto).
    rewrite SP, F1 by exact Ha. cbn [bind]. cbn [keyOf] in AK, KB. rewrite tget_ok by (rewrite L; exact KB). cbn [bind pred]. rewrite (IH rest H2). cbn [bind map concat]. rewrite AK. reflexivity.
Qed.

Lemma setRules_ok : forall todo pre table T, agrees table T -> g_rhs g = pre ++ concat (map snd (flat todo)) ->
  Forall (fun r => valid g (fst r) /\ Forall (valid g) (snd r)) todo ->
  exists table', setRules (g_special g) (g_rhs g) (layout (length pre) (flat todo)) table = Ok table' /\ agrees table' (eval todo T).
Proof.
  induction todo as [|[k ks] todo IH]; intros pre table T A ER V; [exists table; split; [reflexivity|exact A]|].
  inversion_clear V as [|? ? V0 V3]. destruct V0 as (V1 & V2). cbn [fst snd] in *.
  assert (FL : flat ((k, ks) :: todo) = (k, bytesOf ks) :: flat todo) by reflexivity. rewrite FL in *. cbn [layout setRules map snd concat r_begin r_end r_large r_variable] in *.
  assert (SK : skipn (length pre) (g_rhs g) = bytesOf ks ++ concat (map snd (flat todo))).
  { rewrite ER, skipn_app, skipn_all, Nat.sub_diag. reflexivity. }
  rewrite SK. replace (length pre + length (bytesOf ks) - length pre)%nat with (length (bytesOf ks)) by lia.
  rewrite (uncompress_ok table T A ks _ V2). cbn [bind].
  assert (KEY : (if isTwo k then N.lor (symVariable k) highBit else symVariable k) = keyOf k).
  { destruct k as [c|a b]; cbn [isTwo symVariable keyOf]; [reflexivity|]. destruct V1 as (i & j & N1 & N2 & _). rewrite pair16_eq by (eapply pt_byte; eauto). apply N.lor_comm. }
  rewrite KEY. destruct A as (L & A). rewrite tset_ok by (rewrite L; apply pt_key_bound; exact V1). cbn [bind].
  destruct (IH (pre ++ bytesOf ks) (tput table (keyOf k) (concat (map T ks))) (updS T k (concat (map T ks)))) as (table' & E & A').
  - split; [rewrite tput_len; exact L|]. intros l Vl. rewrite tval_put. unfold updS. destruct (symEqb_spec l k) as [->|NE]; [rewrite N.eqb_refl; reflexivity|].
    destruct (N.eqb_spec (keyOf l) (keyOf k)) as [Q|Q]; [elim NE; apply pt_key_inj; auto|]. apply A. exact Vl.
  - rewrite ER, <- app_assoc. reflexivity.
  - exact V3.
  - exists table'. rewrite app_length in E. split; [exact E|exact A'].
Qed.

Lemma pt_number : forall n, (n < length (g_pairs g))%nat -> exists i j x y, number i j = n /\ nth_error (g_specials g) i = Some x /\ nth_error (g_specials g) j = Some y.
Proof.
  intros n Hn. pose proof (pairOfNumber_bounds (N.of_nat n) (N.of_nat (length (g_specials g)))) as B.
  destruct B as (B1 & B2). { destruct (gr_q _ _ G) as [(Q1 & Q2)|Q]; lia. }
  set (i := N.to_nat (fst (pairOfNumber (N.of_nat n)))). set (j := N.to_nat (snd (pairOfNumber (N.of_nat n)))).
  destruct (nth_error_lt (g_specials g) i) as (x & Ex); [lia|]. destruct (nth_error_lt (g_specials g) j) as (y & Ey); [lia|].
  exists i, j, x, y. split; [|auto]. assert (Q : N.of_nat (number i j) = N.of_nat n); [|lia]. rewrite number_pair. unfold i, j. rewrite !N2Nat.id. apply number_pairOfNumber.
Qed.

Lemma freed_ok : forall pairs n table, pairs = skipn n (g_pairs g) -> t_len table = 131072 ->
  (forall i j x y, nth_error (g_specials g) i = Some x -> nth_error (g_specials g) j = Some y -> (n <= number i j)%nat -> tval table (keyOf (Two x y)) = []) ->
  exists l table', freedSymbolsFrom (g_specials g) (N.of_nat n) pairs = Ok l /\ setFreed l table = Ok table' /\ t_len table' = 131072 /\
    (forall c, c < 256 -> tval table' c = tval table c) /\
    (forall i j x y, nth_error (g_specials g) i = Some x -> nth_error (g_specials g) j = Some y -> (number i j < n)%nat -> tval table' (keyOf (Two x y)) = tval table (keyOf (Two x y))) /\
    (forall i j x y c, nth_error (g_specials g) i = Some x -> nth_error (g_specials g) j = Some y -> (n <= number i j)%nat -> nth_error (g_pairs g) (number i j) = Some (false, c) ->
       tval table' (keyOf (Two x y)) = [c]).
Proof.
  induction pairs as [|[v c] pairs IH]; intros n table EP L HE.
  - exists [], table. split; [reflexivity|]. split; [reflexivity|]. split; [exact L|]. split; [reflexivity|]. split; [reflexivity|].
    intros i j x y c _ _ Hn Q. apply nth_error_bound in Q. apply (f_equal (@length (bool * N))) in EP. rewrite skipn_length in EP. cbn in EP. lia.
  - assert (Hn : (n < length (g_pairs g))%nat) by (apply (f_equal (@length (bool * N))) in EP; rewrite skipn_length in EP; cbn [length] in EP; lia).
    assert (EN : nth_error (g_pairs g) n = Some (v, c)).
    { destruct (skipn_cons_nth _ (g_pairs g) n Hn) as (e & E1 & E2). rewrite E2 in EP. injection EP as <- _. exact E1. }
    assert (EP2 : pairs = skipn (S n) (g_pairs g)).
    { destruct (skipn_cons_nth _ (g_pairs g) n Hn) as (e & E1 & E2). rewrite E2 in EP. injection EP as _ EP. exact EP. }
    cbn [freedSymbolsFrom]. replace (N.of_nat n + 1) with (N.of_nat (S n)) by lia.
    destruct (pt_number n Hn) as (i0 & j0 & x0 & y0 & M1 & M2 & M3). destruct v.
    + destruct (IH (S n) table EP2 L) as (l & t' & E1 & E2 & E3 & E4 & E5 & E6).
      { intros i j x y N1 N2 N3. apply (HE i j x y N1 N2). lia. }
      exists l, t'. split; [exact E1|]. split; [exact E2|]. split; [exact E3|]. split; [exact E4|]. split; [intros i j x y N1 N2 N3; apply (E5 i j x y N1 N2); lia|].
      intros i j x y d N1 N2 N3 N4. apply (E6 i j x y d N1 N2); [|exact N4]. destruct (Nat.eq_dec (number i j) n) as [Q|Q]; [rewrite Q, EN in N4; discriminate|lia].
    + assert (SPP : specialPair (g_specials g) (N.of_nat n) = Ok (pair16 x0 y0)).
      { rewrite <- M1, number_pair. apply specialPair_number; rewrite Nat2N.id; assumption. }
      rewrite SPP. cbn [bind]. assert (KB : keyOf (Two x0 y0) < 131072) by (apply pt_key_bound; exists i0, j0; rewrite M1; auto).
      assert (Bx := pt_byte _ _ M2). assert (By := pt_byte _ _ M3).
      destruct (IH (S n) (tput table (keyOf (Two x0 y0)) [c]) EP2) as (l & t' & E1 & E2 & E3 & E4 & E5 & E6).
      { rewrite tput_len. exact L. }
      { intros i j x y N1 N2 N3. rewrite tval_put. destruct (N.eqb_spec (keyOf (Two x y)) (keyOf (Two x0 y0))) as [Q|Q].
        - assert (Bx' := pt_byte _ _ N1). assert (By' := pt_byte _ _ N2). rewrite !keyOf_two in Q by assumption. assert (x = x0) by lia. assert (y = y0) by lia. subst x y.
          assert (i = i0) by (eapply pt_index; eauto). assert (j = j0) by (eapply pt_index; eauto). subst i j. lia.
        - apply (HE i j x y N1 N2). lia. }
      rewrite E1. cbn [bind]. exists ((pair16 x0 y0, c) :: l), t'. split; [reflexivity|]. cbn [setFreed]. change (N.lor highBit (pair16 x0 y0)) with (keyOf (Two x0 y0)).
      rewrite tget_ok by (rewrite L; exact KB). cbn [bind]. rewrite (HE i0 j0 x0 y0 M2 M3) by lia. rewrite tset_ok by (rewrite L; exact KB). cbn [bind].
      split; [exact E2|]. split; [exact E3|]. split.
      { intros d Hd. rewrite E4 by exact Hd. rewrite tval_put. rewrite keyOf_two by assumption. destruct (N.eqb_spec d (65536 + x0 * 256 + y0)); [lia|reflexivity]. }
      split.
      { intros i j x y N1 N2 N3. rewrite (E5 i j x y N1 N2) by lia. rewrite tval_put. destruct (N.eqb_spec (keyOf (Two x y)) (keyOf (Two x0 y0))) as [Q|Q]; [|reflexivity].
        assert (Bx' := pt_byte _ _ N1). assert (By' := pt_byte _ _ N2). rewrite !keyOf_two in Q by assumption. assert (x = x0) by lia. assert (y = y0) by lia. subst x y.
        assert (i = i0) by (eapply pt_index; eauto). assert (j = j0) by (eapply pt_index; eauto). subst i j. lia. }
      intros i j x y d N1 N2 N3 N4. destruct (Nat.eq_dec (number i j) n) as [Q|Q].
      * rewrite Q, EN in N4. injection N4 as <-. rewrite (E5 i j x y N1 N2) by lia. rewrite tval_put.
        rewrite <- M1 in Q. apply number_inj in Q. destruct Q as (-> & ->). assert (x = x0) by congruence. assert (y = y0) by congruence. subst x y. rewrite N.eqb_refl. reflexivity.
      * apply (E6 i j x y d N1 N2); [lia|exact N4].
Qed.

Lemma postTable_ok : exists table T, postTable g = Ok table /\ initOk g T /\ agrees table (eval rules T).
Proof.
  unfold postTable, freedSymbols. set (t0 := tfill (tmake 131072 []) 0 (map (fun i => [N.of_nat i]) (seq 0 256))).
  assert (L0 : t_len t0 = 131072) by (unfold t0; rewrite tfill_len; reflexivity).
  assert (V0 : forall j, tval t0 j = if j <? 256 then [j] else []).
  { intros j. unfold t0. rewrite tval_fill. rewrite map_length, seq_length. destruct (N.leb_spec 0 j); [|lia]. cbn [andb].
    destruct (N.ltb_spec j (0 + N.of_nat 256)), (N.ltb_spec j 256); try lia; [|apply tval_make].
    replace (N.to_nat (j - 0)) with (N.to_nat j) by lia.
    change [] with ((fun i => match i with O => [] | _ => @nil N end) 0%nat).
    assert (Q : nth_error (map (fun i => [N.of_nat i]) (seq 0 256)) (N.to_nat j) = Some [j]).
    { rewrite nth_error_map. assert (nth_error (seq 0 256) (N.to_nat j) = Some (N.to_nat j)).
      { rewrite (nth_error_nth' (seq 0 256) 0%nat) by (rewrite seq_length; lia). rewrite seq_nth by lia. reflexivity. }
      rewrite H2. cbn [option_map]. do 2 f_equal. lia. }
    apply (nth_error_nth _ _ _ Q). }
  destruct (freed_ok (g_pairs g) 0 t0 eq_refl L0) as (l & t1 & E1 & E2 & E3 & E4 & E5 & E6).
  { intros i j x y N1 N2 _. rewrite V0, keyOf_two by (eapply pt_byte; eauto). destruct (N.ltb_spec (65536 + x * 256 + y) 256); [lia|reflexivity]. }
  change 0 with (N.of_nat 0). rewrite E1. cbn [bind]. fold t0. rewrite E2. cbn [bind].
  set (T := fun k => match k with One c => [c] | Two a b => tval t1 (keyOf (Two a b)) end).
  destruct (setRules_ok rules [] t1 T) as (table & E & A).
  - split; [exact E3|]. intros [c|a b] V; [|reflexivity]. cbn [keyOf T]. destruct V as (Hc & _). rewrite E4, V0 by exact Hc. destruct (N.ltb_spec c 256); [reflexivity|lia].
  - apply (gr_rhs _ _ G).
  - apply (gr_valid _ _ G).
  - rewrite (gr_rules _ _ G). cbn [length] in E. exists table, T. split; [exact E|]. split; [|exact A].
    split; [reflexivity|]. intros i j x y c N1 N2 N3. apply (E6 i j x y c N1 N2); [lia|exact N3].
Qed.

Lemma post_ok : forall toks text, Forall (valid g) toks -> (forall T, initOk g T -> concat (map (eval rules T) toks) = text) ->
  postprocess g (bytesOf toks) = Ok text.
Proof.
  intros toks text V HM. unfold postprocess. destruct postTable_ok as (table & T & E & I0 & A). rewrite E. cbn [bind].
  pose proof (uncompress_ok _ _ A toks [] V) as U. rewrite app_nil_r, (HM T I0) in U.
  pose proof (gr_rules _ _ G) as GR. destruct rules as [|r0 rs] eqn:ER.
  - rewrite GR. cbn [layout flat map]. rewrite <- (HM T I0). f_equal. cbn [eval]. destruct (gr_nil _ _ G eq_refl) as (SN & _).
    unfold bytesOf. f_equal. apply map_ext_in. intros k Hk. rewrite Forall_forall in V. specialize (V k Hk). destruct k as [c|a b]; [cbn [symBytes]; symmetry; apply I0|].
    destruct V as (i & j & N1 & _). rewrite SN in N1. destruct i; discriminate.
  - rewrite GR. destruct r0 as [k ks]. change (flat ((k, ks) :: rs)) with ((k, bytesOf ks) :: flat rs). cbn [layout]. exact U.
Qed.

(** ** The grammar can be written *)
Lemma freedFrom_ok : forall pairs i curr, sqi i curr ->
  (forall m m' c, nth_error pairs m = Some (false, c) -> nth_error pairs m' = Some (false, c) -> (forall k, (i + m <> k * k)%nat) -> (forall k, (i + m' <> k * k)%nat) -> m = m') ->
  NoDup (freedFrom pairs i curr) /\ forall c, In c (freedFrom pairs i curr) -> exists m, nth_error pairs m = Some (false, c) /\ forall k, (i + m <> k * k)%nat.
Proof.
  clear g rules G. induction pairs as [|[v c] pairs IH]; intros i curr Q H; [split; [constructor|intros c []]|].
  cbn [freedFrom]. pose proof (sqi_square _ _ Q) as S1. pose proof (sqi_step _ _ Q) as S2.
  assert (SHIFT : forall m, (S i + m = i + S m)%nat) by lia.
  assert (H' : forall m m' c, nth_error pairs m = Some (false, c) -> nth_error pairs m' = Some (false, c) -> (forall k, (S i + m <> k * k)%nat) -> (forall k, (S i + m' <> k * k)%nat) -> m = m').
  { intros m m' d H1 H2 H3 H4. assert (Y : S m = S m'); [|lia]. apply (H (S m) (S m') d H1 H2); intros k; rewrite <- SHIFT; auto. }
  destruct (curr * curr =? i)%nat eqn:EQ.
  - destruct (IH (S i) (S curr) S2 H') as (I1 & I2). split; [exact I1|]. intros d Hd. destruct (I2 d Hd) as (m & M1 & M2). exists (S m). split; [exact M1|]. intros k. rewrite <- SHIFT. apply M2.
  - destruct (IH (S i) curr S2 H') as (I1 & I2).
    assert (I2' : forall d, In d (freedFrom pairs (S i) curr) -> exists m, nth_error ((v, c) :: pairs) (S m) = Some (false, d) /\ forall k, (i + S m <> k * k)%nat).
    { intros d Hd. destruct (I2 d Hd) as (m & M1 & M2). exists m. split; [exact M1|]. intros k. rewrite <- SHIFT. apply M2. }
    assert (NSQ : forall k, (i + 0 <> k * k)%nat).
    { intros k E. assert (Z : false = true); [|discriminate]. apply S1. exists k. lia. }
    destruct v.
    + split; [exact I1|]. intros d Hd. destruct (I2' d Hd) as (m & M1 & M2). exists (S m). auto.
    + split.
      * apply NoDup_cons_iff. split; [|exact I1]. intros Hc. destruct (I2' c Hc) as (m & M1 & M2). assert (0 = S m)%nat; [|lia]. apply (H 0%nat (S m) c); auto.
      * intros d [<-|Hd]; [exists 0%nat; auto|]. destruct (I2' d Hd) as (m & M1 & M2). exists (S m). auto.
Qed.

Lemma pt_nonsquare : forall n e, nth_error (g_pairs g) n = Some e -> (forall k, n <> (k * k)%nat) ->
  exists i j x y, number i j = n /\ i <> j /\ nth_error (g_specials g) i = Some x /\ nth_error (g_specials g) j = Some y.
Proof.
  intros n e H NS. destruct (pt_number n ltac:(eapply nth_error_bound; eauto)) as (i & j & x & y & M1 & M2 & M3). exists i, j, x, y. split; [exact M1|]. split; [|auto].
  intros ->. apply (NS j). rewrite <- M1. apply number_diag. auto.
Qed.

Lemma writable_ok : N.of_nat (length rules) < 2 ^ 32 -> writable g (flat rules).
Proof.
  intros HL. unfold writable. split; [apply G|]. split; [apply G|]. split; [unfold flat; rewrite map_length; exact HL|].
  assert (FI : forall k side, In (k, side) (flat rules) -> exists ks, In (k, ks) rules /\ side = bytesOf ks).
  { intros k side H. unfold flat in H. apply in_map_iff in H. destruct H as ([k0 ks] & Q & H). injection Q as <- <-. exists ks. auto. }
  assert (FL : forall k, In k (map fst rules) <-> exists side, In (k, side) (flat rules)).
  { intros k. split; [|intros (side & H); apply FI in H; destruct H as (ks & H & _); apply in_map_iff; exists (k, ks); auto].
    intros H. apply in_map_iff in H. destruct H as ([k0 ks] & <- & H). exists (bytesOf ks). unfold flat. apply in_map_iff. exists (k0, ks). auto. }
  pose proof (gr_valid _ _ G) as GV. rewrite Forall_forall in GV. pose proof (gr_two _ _ G) as GT. rewrite Forall_forall in GT.
  split. { intros k side H. apply FI in H. destruct H as (ks & H & ->). specialize (GT _ H). cbn [snd] in GT. pose proof (bytesOf_le ks). split; [lia|]. destruct (GV _ H) as (_ & V). eapply bytesOf_bytes; eauto. }
  split. { intros c side H. apply FI in H. destruct H as (ks & H & _). destruct (GV _ H) as (V & _). apply V. }
  split. { intros a b side H. apply FI in H. destruct H as (ks & H & _). destruct (GV _ H) as (V & _). exact V. }
  split; [apply G|]. split. { apply Forall_forall. apply (gr_bytes _ _ G). }
  split; [apply G|]. split; [apply G|]. split.
  { intros c Hc. rewrite <- (gr_flag _ _ G). unfold flagged. destruct (nth_error_lt (g_special g) (N.to_nat c)) as (b & E); [rewrite (gr_special _ _ G); lia|].
    rewrite (nth_error_nth _ _ false E), E. split; [intros Q; injection Q as ->; reflexivity|intros ->; reflexivity]. }
  split. { destruct (gr_q _ _ G) as [(Q1 & Q2)|Q]; lia. }
  split.
  { intros n [fl c] H. split; [|split].
    - intros k ->. apply (gr_sq _ _ G k (fl, c) H).
    - intros NS. cbn [fst]. destruct (pt_nonsquare n _ H NS) as (i & j & x & y & M1 & IJ & M2 & M3). rewrite <- M1 in H. rewrite (gr_large _ _ G i j x y c fl IJ M2 M3 H), FL. split.
      + intros (side & S0). exists i, j, x, y, side. auto.
      + intros (i' & j' & a & b & side & Q1 & Q2 & Q3 & Q4). rewrite <- M1 in Q1. apply number_inj in Q1. destruct Q1 as (<- & <-). exists side. congruence.
    - apply (gr_pbytes _ _ G n _ H). }
  split.
  { destruct (gr_q _ _ G) as [(Q1 & Q2)|Q]; [left; destruct (g_pairs g); [reflexivity|discriminate]|]. right. exists (length (g_pairs g) - 1)%nat. split; [lia|].
    intros k E. set (s := length (g_specials g)) in *. assert (s - 1 < k < s)%nat by nia. lia. }
  split.
  { rewrite (freedCount_len _ 0 0) by (split; [lia|intros k Hk; lia]).
    destruct (freedFrom_ok (g_pairs g) 0 0) as (F1 & F2).
    - split; [lia|intros k Hk; lia].
    - intros m m' c H1 H2 H3 H4. cbn [Nat.add] in H3, H4. destruct (pt_nonsquare m _ H1 H3) as (i & j & x & y & M1 & IJ & _). destruct (pt_nonsquare m' _ H2 H4) as (i' & j' & x' & y' & M1' & IJ' & _).
      rewrite <- M1 in H1. rewrite <- M1' in H2. destruct (gr_inj _ _ G i j i' j' c IJ IJ' H1 H2) as (-> & ->). congruence.
    - destruct (g_specials g) as [|s0 sp] eqn:ES.
      + destruct (gr_q _ _ G) as [(Q1 & Q2)|Q]; [|rewrite ES in Q; cbn [length] in Q; lia]. destruct (g_pairs g); [cbn; lia|discriminate].
      + assert (ND : NoDup (s0 :: freedFrom (g_pairs g) 0 0)).
        { apply NoDup_cons_iff. split; [|exact F1]. intros H. destruct (F2 s0 H) as (m & M1 & M2). destruct (pt_nonsquare m _ M1 M2) as (i & j & x & y & M3 & IJ & _). rewrite <- M3 in M1.
          destruct (gr_freed _ _ G i j s0 IJ M1) as (_ & Q). rewrite ES in Q. apply Q. reflexivity. }
        apply (NoDup_incl_length (l' := map N.of_nat (seq 0 256))) in ND.
        * cbn [length] in ND. rewrite map_length, seq_length in ND. lia.
        * intros x Hx. assert (x < 256).
          { destruct Hx as [<-|Hx]; [apply (gr_bytes _ _ G); rewrite ES; left; reflexivity|]. destruct (F2 x Hx) as (m & M1 & _). apply (gr_pbytes _ _ G m _ M1). }
          apply in_map_iff. exists (N.to_nat x). split; [lia|]. apply in_seq. lia. }
  intros E. apply (gr_nil _ _ G). unfold flat in E. apply map_eq_nil in E. exact E.
Qed.
End Post.

(** ** The property *)
Lemma C33_all : forall sortF capacity lowRatio n data g data',
  sorts_by_frequency sortF -> are_bytes data -> N.of_nat (length data) < 2 ^ 31 -> N.of_nat n <= 1000000 ->
  precompress sortF layoutOver capacity lowRatio n data = Ok (g, data') ->
  roundsFit sortF layoutOver capacity lowRatio n (length data) None emptyGrammar data = true ->
  postprocess g data' = Ok data /\ are_bytes data' /\ exists rules, writable g rules.
Proof.
  intros sortF capacity lowRatio n data g data' HS HB HL HN H HF. unfold precompress in H.
  destruct (precompressRounds _ _ _ _ _ _ _ _ _) as [[[g1 data1] temp]| |] eqn:E; cbn [bind] in H; try discriminate.
  destruct (((0 <? length data1) && (length data1 <=? S (length data)))%nat%bool); [|discriminate]. injection H as <- <-.
  assert (TB : bytesOf (map One data) = data) by (unfold bytesOf; clear; induction data as [|c data IH]; [reflexivity|cbn [map concat symBytes app]; rewrite IH; reflexivity]).
  destruct (rounds_ok sortF capacity lowRatio HS (length data) data n None emptyGrammar data g1 data1 temp [] (map One data) E HF) as (rules' & toks' & G & V & -> & R & M).
  - exact gram_empty.
  - apply Forall_forall. intros k Hk. apply in_map_iff in Hk. destruct Hk as (c & <- & Hc). split; [unfold are_bytes in HB; rewrite Forall_forall in HB; apply HB; exact Hc|]. cbn [emptyGrammar g_special]. apply flagged_repeat.
  - symmetry. exact TB.
  - lia.
  - change (2 ^ 31) with 2147483648 in HL. cbn [length Nat.add]. lia.
  - intros T (I1 & _). cbn [eval]. rewrite map_map. clear -I1. induction data as [|c data IH]; [reflexivity|]. cbn [map concat]. rewrite I1, IH. reflexivity.
  - split; [|split].
    + eapply post_ok; eauto.
    + eapply bytesOf_bytes; eauto.
    + exists (flat rules'). apply (writable_ok _ _ G). cbn [length Nat.add] in R. change (2 ^ 32) with 4294967296. lia.
Qed.

(** ** Through the header *)
Lemma postprocess_same : forall g g' data, sameGrammar g g' -> postprocess g' data = postprocess g data.
Proof.
  intros g g' data (S1 & S2 & S3 & S4 & S5). unfold postprocess, postTable. rewrite S1, S3, S4, S5. reflexivity.
Qed.

Lemma C33_header_all : forall sortF capacity lowRatio n data g data' slices following,
  sorts_by_frequency sortF -> are_bytes data -> N.of_nat (length data) < 2 ^ 31 -> N.of_nat n <= 1000000 -> slices < 2 ^ 56 ->
  precompress sortF layoutOver capacity lowRatio n data = Ok (g, data') ->
  roundsFit sortF layoutOver capacity lowRatio n (length data) None emptyGrammar data = true ->
  exists bytes g', writePreHeader (N.of_nat (length data)) slices g = Ok (bytes, length bytes) /\ are_bytes bytes /\
    readPreHeader (bytes_bits (bytes ++ following)) = Ok (Some (N.of_nat (length data), slices, g'), bytes_bits following) /\
    sameGrammar g g' /\ postprocess g' data' = Ok data.
Proof.
  intros sortF capacity lowRatio n data g data' slices following HS HB HL HN HSl H HF.
  destruct (C33_all _ _ _ _ _ _ _ HS HB HL HN H HF) as (P1 & P2 & rules & W).
  assert (HD : 0 < N.of_nat (length data) < 2 ^ 56).
  { split; [|change (2 ^ 31) with 2147483648 in HL; change (2 ^ 56) with 72057594037927936; lia]. destruct data as [|c data]; [|cbn [length]; lia]. exfalso.
    unfold precompress in H. destruct n; cbn [precompressRounds length] in H; [discriminate|]. unfold analyseAndDecide, analyseData in H.
    destruct (lowRatio 0%nat 0%nat); discriminate. }
  destruct (C30_all g rules (N.of_nat (length data)) slices following W HD HSl) as (bytes & g' & E1 & E2 & E3 & E4).
  exists bytes, g'. split; [exact E1|]. split; [exact E2|]. split; [exact E3|]. split; [exact E4|]. rewrite (postprocess_same _ _ _ E4). exact P1.
Qed.

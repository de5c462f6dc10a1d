(** The rounds of the precompressor finish. *)
From Coq Require Import List NArith ZArith Lia Arith Bool Permutation.
From Coq Require Import ZifyBool ZifyNat ZifyN.
From Verif Require Import Base Arrays TArray ModelUtils ModelStreams ModelHeaders ModelFreq SpecFreq ModelGrammar SpecGrammar ProofGrammar2 ProofGrammar3 ModelPairs SpecPairs SpecTriple SpecTotal
  ProofPairs1 ProofPairs2 ProofPairs3 ProofPairs4 ProofPairs5 ProofPairs6 ProofPairs7 ProofPairs8 ProofPairs9 ProofTriple1 ProofTriple2 ProofTriple3 ProofTriple4 ProofTriple5 ProofTotal1 ProofTotal2 ProofTotal3.
Import ListNotations.
Open Scope N_scope.

Lemma replaceLoop_total : forall common table, t_len table = 65536 -> forall n src prev, (length src <= n)%nat -> prev < 256 -> are_bytes src -> src <> [] ->
  exists l, replaceLoop common table prev src = Ok l.
Proof.
  intros common table HT.
  assert (FIN : forall c, c < 256 -> exists l, (let! v := tget table (pair16 c 0) in Ok (if lo16 v =? common then [c] else [hi16 v; lo16 v])) = Ok l).
  { intros c Hc. rewrite tget_ok by (rewrite HT; apply pair16_lt; lia). cbn [bind]. eauto. }
  induction n as [|n IH]; intros src prev HL HP HB HN; [destruct src; [contradiction|cbn in HL; lia]|].
  destruct src as [|c rest]; [contradiction|]. inversion_clear HB as [|? ? B1 B2]. unfold is_byte in B1. cbn [replaceLoop length] in *. cbv zeta.
  rewrite tget_ok by (rewrite HT; apply pair16_lt; assumption). cbn [bind].
  assert (NEXT : exists l, (match rest with [] => let! v := tget table (pair16 c 0) in Ok (if lo16 v =? common then [c] else [hi16 v; lo16 v]) | _ => replaceLoop common table c rest end) = Ok l).
  { destruct rest as [|d rest]; [apply FIN, B1|]. apply IH; [lia|exact B1|exact B2|discriminate]. }
  destruct (tval table (pair16 prev c) =? pair16 common common).
  { destruct NEXT as (l & E). rewrite E. cbn [bind]. eauto. }
  destruct (lo16 (tval table (pair16 prev c)) =? common).
  - destruct rest as [|d [|e rest]]; [eauto| |].
    + inversion_clear B2 as [|? ? B3 _]. destruct (FIN d B3) as (l & E). rewrite E. cbn [bind]. eauto.
    + inversion_clear B2 as [|? ? B3 B4]. destruct (IH (e :: rest) d) as (l & E); [cbn [length] in *; lia|exact B3|exact B4|discriminate|]. rewrite E. cbn [bind]. eauto.
  - destruct NEXT as (l & E). rewrite E. cbn [bind]. eauto.
Qed.
Lemma replaced_total : forall common table src, t_len table = 65536 -> are_bytes src -> (2 <= length src)%nat ->
  exists l, forall room, writeReplaced common table room src = (if (length l <=? room)%nat then Ok l else UB).
Proof.
  intros common table src HT HB HL. destruct src as [|c rest]; [cbn in HL; lia|]. inversion_clear HB as [|? ? B1 B2].
  destruct (replaceLoop_total common table HT (length rest) rest c) as (l & E); [lia|exact B1|exact B2|destruct rest; [cbn in HL; lia|discriminate]|].
  exists l. intros room. unfold writeReplaced. rewrite E. reflexivity.
Qed.

(** ** One round *)
Definition started (rules : list (sym * list sym)) : Prop := rules = [] \/ exists c ks, In (One c, ks) rules.

Lemma round_total : forall sortF g rules toks, sorts_by_frequency sortF -> gram g rules -> started rules -> Forall (valid g) toks ->
  (length (g_pairs g) <= N.to_nat 51200)%nat ->
  N.of_nat (length (bytesOf toks)) + 6 * N.of_nat (length rules) < 4294966000 -> (2 < length (bytesOf toks))%nat ->
  exists r, analyseAndDecide sortF layoutOver g (bytesOf toks) = Ok r.
Proof.
  intros sortF g rules toks HS G ST HT HQ HB L2. unfold analyseAndDecide. set (data := bytesOf toks) in *.
  pose proof (bytesOf_bytes g rules toks G HT) as BY. fold data in BY.
  destruct (analyseData_ok g data BY L2) as (st & EA & A1 & A2 & A3 & A4 & A5 & A6); [lia|apply (gr_freqs _ _ G)|]. rewrite EA. cbn [bind].
  pose proof (ruleBytes_le rules (gr_two _ _ G)) as RB.
  assert (CZ : forall c, (0 <= cz (ruleBytes rules) c <= Z.of_nat (length (ruleBytes rules)))%Z).
  { intros c. unfold cz. pose proof (count_occ_bound N.eq_dec c (ruleBytes rules)). lia. }
  assert (GF : forall c, c < 256 -> Z.of_N (nth (N.to_nat c) (g_freqs g) 0) = cz (ruleBytes rules) c).
  { intros c Hc. destruct (gr_freqs _ _ G) as (_ & W). rewrite W by exact Hc. apply Z.mod_small. specialize (CZ c). lia. }
  assert (FV : forall c, c < 256 -> Z.of_N (tval (a_freqs st) c) = (Z.of_N (cnt data c) + cz (ruleBytes rules) c)%Z).
  { intros c Hc. rewrite A4 by exact Hc. pose proof (cnt_le data c) as Q. specialize (CZ c). specialize (GF c Hc).
    rewrite N.mod_small by (unfold two64; lia). lia. }
  assert (FP : forall a b, a < 256 -> b < 256 -> tval (a_pairs st) (pair16 a b) <= tval (a_freqs st) a /\ tval (a_pairs st) (pair16 a b) <= tval (a_freqs st) b).
  { intros a b Ha Hb. pose proof (A5 a b Ha Hb). pose proof (A6 a b Ha Hb). pose proof (FV a Ha). pose proof (FV b Hb). pose proof (CZ a). pose proof (CZ b). split; lia. }
  apply (decide_total sortF g rules st HS G); auto.
  - intros c Hc. pose proof (FV c Hc). pose proof (cnt_le data c). specialize (CZ c). lia.
  - destruct (gr_q _ _ G) as [(Q1 & _)|(Q1 & Q2 & _)]; [lia|]. set (s := length (g_specials g)) in *. destruct (Nat.le_gt_cases s 240) as [L|L]; [exact L|].
    assert ((240 * 240 <= (s - 1) * (s - 1))%nat) by (apply Nat.mul_le_mono; lia). lia.
  - destruct ST as [->|(c & ks & I)].
    + destruct (gr_nil _ _ G eq_refl) as (N0 & _). destruct data as [|c data'] eqn:ED; [cbn in L2; lia|]. inversion_clear BY as [|? ? B1 _]. unfold is_byte in B1. exists c. split; [exact B1|]. split.
      * destruct (flagged (g_special g) c) eqn:Q; [|reflexivity]. apply (gr_flag _ _ G) in Q. rewrite N0 in Q. destruct Q.
      * specialize (FV c B1). assert (0 < cnt (c :: data') c) by (apply cnt_pos; left; reflexivity). specialize (CZ c). lia.
    + pose proof (gr_valid _ _ G) as V. rewrite Forall_forall in V. destruct (V _ I) as (V1 & _). cbn [fst valid] in V1. destruct V1 as (V1 & V2). exists c. split; [exact V1|]. split; [exact V2|].
      assert (In c (ruleBytes rules)).
      { unfold ruleBytes. apply in_concat. exists (symBytes (One c) ++ bytesOf ks). split; [apply in_map_iff; exists (One c, ks); auto|left; reflexivity]. }
      apply (count_occ_In N.eq_dec) in H. specialize (FV c V1). unfold cz in FV. lia.
Qed.

(** ** All rounds *)
Section Rounds.
Variables (sortF : list (N * N) -> list (N * N)) (capacity : nat -> nat) (lowRatio : nat -> nat -> bool).
Hypothesis HS : sorts_by_frequency sortF.
Hypothesis HC : third capacity.

Lemma rounds_total : forall original text, lowRatio original original = false -> forall n temp g rules toks,
  gram g rules -> started rules -> Forall (valid g) toks -> (5 <= length (bytesOf toks) <= original)%nat -> N.of_nat original < 2 ^ 31 ->
  N.of_nat original + 6 * N.of_nat (length rules + 256 * n) < 4294966000 -> (length (g_pairs g) + 256 * n <= N.to_nat 51200)%nat ->
  (forall T, initOk g T -> concat (map (eval rules T) toks) = text) ->
  n = O \/ (n = 1%nat /\ (trip toks <= 1000)%nat) \/ (cubes text <= 1000)%nat ->
  match temp with Some (a, b) => length (bytesOf toks) < a /\ length (bytesOf toks) < b /\ length (bytesOf toks) < original | None => True end%nat ->
  lastOnce sortF layoutOver lowRatio n original temp g (bytesOf toks) = true ->
  exists g' data' temp', precompressRounds sortF layoutOver capacity lowRatio n original temp g (bytesOf toks) = Ok (g', data', temp') /\ (5 <= length data')%nat.
Proof.
  intros original text HR. induction n as [|n IH]; intros temp g rules toks G ST V HL H31 HB HQ HM HF TM LO; cbn [precompressRounds lastOnce] in *; [do 3 eexists; split; [reflexivity|lia]|].
  destruct (round_total sortF g rules toks HS G ST V ltac:(lia) ltac:(lia) ltac:(lia)) as ([[g1 common] table] & EA). rewrite EA in *. cbn [bind].
  destruct (round_ok sortF g rules toks g1 common table HS G V ltac:(lia) EA) as (rules1 & toks1 & G1 & R1 & C1 & T1 & V1 & L2 & W1 & M1 & ST1 & Q1).
  assert (ST1' : started rules1) by (destruct ST1 as [->|ST1]; [exact ST|right; exact ST1]).
  assert (HM1 : forall T, initOk g1 T -> concat (map (eval rules1 T) toks1) = text).
  { intros T IT. destruct (M1 T IT) as (T0 & I0 & E). rewrite E. apply HM. exact I0. }
  assert (TR : (trip toks <= 1000)%nat). { destruct HF as [HF|[HF|HF]]; [lia|lia|]. pose proof (trip_text g rules toks text G HM). lia. }
  destruct (round_step sortF capacity lowRatio HS HC g rules toks g1 common table G V ltac:(lia) TR (proj1 HL) ltac:(lia) EA) as (BF & WL).
  destruct (replaced_total common table (bytesOf toks) T1 (bytesOf_bytes _ _ _ G V) ltac:(lia)) as (l & EW).
  assert (LL : (5 <= length l <= length (bytesOf toks))%nat). { apply (WL (length l)). rewrite EW, Nat.leb_refl. reflexivity. }
  assert (EL : l = bytesOf toks1). { apply (W1 (length l)). rewrite EW, Nat.leb_refl. reflexivity. }
  assert (HF1 : n = O \/ (n = 1%nat /\ (trip toks1 <= 1000)%nat) \/ (cubes text <= 1000)%nat).
  { destruct HF as [HF|[(HF & _)|HF]]; [lia|left; lia|right; right; exact HF]. }
  assert (ROOM : forall room, (length (bytesOf toks) <= room)%nat -> writeReplaced common table room (bytesOf toks) = Ok l).
  { intros room Hr. rewrite EW. destruct (Nat.leb_spec (length l) room); [reflexivity|lia]. }
  destruct (match temp with Some t => Some t | None => if lowRatio (length (bytesOf toks)) original then Some (S original, S (length (bytesOf toks))) else None end) as [[a b]|] eqn:ET.
  - assert (TM' : (length (bytesOf toks) < a /\ length (bytesOf toks) < b /\ length (bytesOf toks) < original)%nat).
    { destruct temp as [[a0 b0]|]; [injection ET as -> ->; exact TM|]. destruct (lowRatio (length (bytesOf toks)) original) eqn:ER; [|discriminate]. injection ET as <- <-.
      split; [lia|]. split; [lia|]. destruct (Nat.eq_dec (length (bytesOf toks)) original) as [Q|Q]; [rewrite Q, HR in ER; discriminate|lia]. }
    rewrite ROOM in * by lia. cbn [bind]. destruct (Nat.eqb_spec (length l) original) as [Q|_]; [lia|]. subst l.
    apply (IH (Some (b, a)) g1 rules1 toks1 G1 ST1' V1); auto; lia.
  - unfold bufferFits in BF. apply andb_prop in BF. destruct BF as (BF & B3). apply andb_prop in BF. destruct BF as (B1 & B2). apply Nat.leb_le in B1. apply Nat.ltb_lt in B2.
    assert (B3' : (capacity (length (bytesOf toks)) + 1 < length (bytesOf toks) \/ doubles common table (bytesOf toks) = 0)%nat).
    { apply orb_prop in B3. destruct B3 as [B3|B3]; [left; apply Nat.ltb_lt; exact B3|right; apply Nat.eqb_eq; exact B3]. }
    destruct (C34_all _ common table (S original) (bytesOf toks) T1 C1 (bytesOf_bytes _ _ _ G V) ltac:(lia) B1 B2 B3') as (_ & IP).
    apply andb_prop in LO. destruct LO as (LO1 & LO2). apply negb_true_iff in LO1. rewrite (IP LO1). rewrite ROOM in * by lia. cbn [bind].
    destruct (length l =? original)%nat; [do 3 eexists; split; [reflexivity|lia]|]. subst l. apply (IH None g1 rules1 toks1 G1 ST1' V1); auto; lia.
Qed.

Lemma precompress_total : forall n data, lowRatio (length data) (length data) = false -> are_bytes data -> (5 <= length data)%nat -> N.of_nat (length data) < 2 ^ 31 -> (n <= 200)%nat ->
  (n <= 1 /\ triples data <= 1000)%nat \/ (cubes data <= 1000)%nat ->
  lastOnce sortF layoutOver lowRatio n (length data) None emptyGrammar data = true ->
  exists g data', precompress sortF layoutOver capacity lowRatio n data = Ok (g, data') /\ (length data' <= length data)%nat.
Proof.
  intros n data HR HB L5 H31 Hn HF LO. unfold precompress. change (2 ^ 31) with 2147483648 in H31.
  assert (HM : forall T, initOk emptyGrammar T -> concat (map (eval [] T) (map One data)) = data).
  { intros T (I1 & _). cbn [eval]. rewrite map_map. clear -I1. induction data as [|c data IH]; [reflexivity|]. cbn [map concat]. rewrite I1, IH. reflexivity. }
  assert (HF' : n = O \/ (n = 1%nat /\ (trip (map One data) <= 1000)%nat) \/ (cubes data <= 1000)%nat).
  { rewrite trip_one. destruct HF as [(HF1 & HF2)|HF]; [|auto]. destruct n as [|[|n]]; [auto|right; left; auto|lia]. }
  destruct (rounds_total (length data) data HR n None emptyGrammar [] (map One data) gram_empty (or_introl eq_refl) (toks_valid _ HB)) as (g1 & data1 & temp & E & P); auto.
  - rewrite toks_of. lia.
  - cbn [length]. lia.
  - cbn [emptyGrammar g_pairs length]. lia.
  - rewrite toks_of. exact LO.
  - rewrite toks_of in E. rewrite E. cbn [bind].
    destruct (rounds_fit sortF capacity lowRatio HS HC (length data) data n None emptyGrammar [] (map One data) gram_empty (toks_valid _ HB)) as (_ & R2); auto.
    + rewrite toks_of. lia.
    + cbn [length]. lia.
    + rewrite toks_of in R2. specialize (R2 _ _ _ E).
      exists g1, data1. split; [|exact R2]. destruct ((0 <? length data1)%nat && (length data1 <=? S (length data))%nat)%bool eqn:Q; [reflexivity|lia].
Qed.
End Rounds.

Lemma first_total : forall sortF data, sorts_by_frequency sortF -> are_bytes data -> (2 < length data)%nat -> N.of_nat (length data) < 2 ^ 31 ->
  exists g common table, analyseAndDecide sortF layoutOver emptyGrammar data = Ok (g, common, table).
Proof.
  intros sortF data HS HB H2 H31. change (2 ^ 31) with 2147483648 in H31. rewrite <- (toks_of data) in *.
  destruct (round_total sortF emptyGrammar [] (map One data) HS gram_empty (or_introl eq_refl)) as ([[g common] table] & E); eauto.
  - apply toks_valid. rewrite toks_of in HB. exact HB.
  - cbn [emptyGrammar g_pairs length]. lia.
  - cbn [length]. lia.
Qed.

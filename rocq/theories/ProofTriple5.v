(** All rounds. *)
From Coq Require Import List NArith ZArith Lia Arith Bool Permutation.
From Coq Require Import ZifyBool ZifyNat ZifyN.
From Verif Require Import Base Arrays TArray ModelUtils ModelStreams ModelFreq SpecFreq ModelGrammar SpecGrammar ProofGrammar3 ModelPairs SpecPairs SpecTriple ModelHeaders SpecFile
  ProofPairs1 ProofPairs2 ProofPairs3 ProofPairs4 ProofPairs5 ProofPairs6 ProofPairs7 ProofPairs8 ProofPairs9 ProofTriple1 ProofTriple2 ProofTriple3 ProofTriple4.
Import ListNotations.
Open Scope N_scope.

(** ** Three equal symbols stand for a cube *)
Lemma cubeHead_intro : forall w r, w <> [] -> cubeHead (w ++ w ++ w ++ r) = true.
Proof.
  intros w r H. assert (L : (0 < length w)%nat) by (destruct w; [contradiction|cbn; lia]). unfold cubeHead. apply existsb_exists. exists (length w).
  rewrite !app_length. split; [apply in_seq; split; [lia|]; pose proof (Nat.div_le_mono (3 * length w) (length w + (length w + (length w + length r))) 3); rewrite Nat.mul_comm, Nat.div_mul in H0 by lia; lia|].
  assert (F : forall m, firstn (length w) (w ++ m) = w) by (intros m; rewrite firstn_app, Nat.sub_diag, firstn_all, firstn_O, app_nil_r; reflexivity).
  assert (S1 : skipn (length w) (w ++ w ++ w ++ r) = w ++ w ++ r) by (rewrite skipn_app, skipn_all, Nat.sub_diag; reflexivity).
  assert (S2 : skipn (length w + length w) (w ++ w ++ w ++ r) = w ++ r).
  { rewrite (app_assoc w w), skipn_app, (skipn_all2 (w ++ w)), app_length by (rewrite app_length; lia). rewrite Nat.sub_diag. reflexivity. }
  rewrite S1, S2, !F. unfold sameText. destruct (list_eq_dec N.eq_dec w w); [|contradiction]. cbn [andb]. apply Nat.leb_le. lia.
Qed.
Lemma cubes_app : forall w r, (cubes r <= cubes (w ++ r))%nat.
Proof. induction w as [|x w IH]; intros r; [cbn; lia|]. change (cubes ((x :: w) ++ r)) with ((if cubeHead ((x :: w) ++ r) then 1 else 0) + cubes (w ++ r))%nat. specialize (IH r). lia. Qed.
Lemma cubes_head : forall w r, w <> [] -> cubeHead (w ++ r) = true -> (S (cubes r) <= cubes (w ++ r))%nat.
Proof. intros [|x w] r N0 H; [contradiction|]. cbn [app cubes] in *. rewrite H. pose proof (cubes_app w r). lia. Qed.

Lemma trip_cubes : forall (f : sym -> list N), (forall k, f k <> []) -> forall ks, (trip ks <= cubes (concat (map f ks)))%nat.
Proof.
  intros f Hf. induction ks as [|k ks IH]; [cbn; lia|]. cbn [trip map concat].
  assert (PL : (0 + trip ks <= cubes (f k ++ concat (map f ks)))%nat) by (pose proof (cubes_app (f k) (concat (map f ks))); lia).
  destruct k as [x|x x']; [|exact PL]. destruct ks as [|[y|y y'] [|[z|z z'] ks]]; try exact PL.
  destruct ((x =? y) && (y =? z)) eqn:E; [|exact PL]. apply andb_true_iff in E. destruct E as (E1 & E2). apply N.eqb_eq in E1, E2. subst y z.
  pose proof (cubes_head (f (One x)) (concat (map f (One x :: One x :: ks))) (Hf _)) as Q. cbn [map concat] in *. rewrite cubeHead_intro in Q by apply Hf. specialize (Q eq_refl). lia.
Qed.
Lemma trip_one : forall l, trip (map One l) = triples l.
Proof. induction l as [|x l IH]; [reflexivity|]. cbn [map trip triples]. rewrite IH. destruct l as [|y [|z l]]; reflexivity. Qed.

Lemma eval_full : forall rules T, Forall (fun r : sym * list sym => length (snd r) = 2%nat) rules -> (forall k, T k <> []) -> forall k, eval rules T k <> [].
Proof.
  induction rules as [|[k0 ks] rules IH]; intros T H HT; [exact HT|]. inversion_clear H as [|? ? H1 H2]. cbn [eval]. apply IH; [exact H2|].
  intros k. unfold updS. destruct (symEqb k k0); [|apply HT]. cbn [snd] in H1. destruct ks as [|a ks]; [discriminate|]. cbn [map concat]. intros E. apply app_eq_nil in E. apply (HT a), E.
Qed.
Lemma trip_text : forall g rules toks text, gram g rules -> (forall T, initOk g T -> concat (map (eval rules T) toks) = text) -> (trip toks <= cubes text)%nat.
Proof.
  intros g rules toks text G HM. destruct (postTable_ok g rules G) as (_ & T & _ & (I1 & I2) & _).
  set (T1 := fun k => match T k with [] => [0] | l => l end).
  assert (I : initOk g T1). { split; [intros c; unfold T1; rewrite I1; reflexivity|]. intros i j x y c N1 N2 N3. unfold T1. rewrite (I2 i j x y c N1 N2 N3). reflexivity. }
  rewrite <- (HM T1 I). apply trip_cubes. apply eval_full; [apply (gr_two _ _ G)|]. intros k. unfold T1. destruct (T k); discriminate.
Qed.

(** ** One round *)
Section Rounds.
Variables (sortF : list (N * N) -> list (N * N)) (capacity : nat -> nat) (lowRatio : nat -> nat -> bool).
Hypothesis HS : sorts_by_frequency sortF.
Hypothesis HC : third capacity.

Lemma round_step : forall g rules toks g' common table,
  gram g rules -> Forall (valid g) toks -> N.of_nat (length (bytesOf toks)) + 6 * N.of_nat (length rules) < 4294966000 ->
  (trip toks <= 1000)%nat -> (5 <= length (bytesOf toks))%nat -> N.of_nat (length (bytesOf toks)) < 2 ^ 31 ->
  analyseAndDecide sortF layoutOver g (bytesOf toks) = Ok (g', common, table) ->
  bufferFits (capacity (length (bytesOf toks))) common table (bytesOf toks) = true /\
  forall room l, writeReplaced common table room (bytesOf toks) = Ok l -> (5 <= length l <= length (bytesOf toks))%nat.
Proof.
  intros g rules toks g' common table G HT HB HK L5 L31 H. destruct (HC _ L5 L31) as (C1 & C2). unfold bufferFits.
  destruct (round_size sortF g rules toks g' common table HS G HT HB H) as [(W & D)|(W & D & L)].
  - rewrite D. split.
    + apply andb_true_iff. split; [apply andb_true_iff; split; [apply Nat.leb_le|apply Nat.ltb_lt]; lia|]. apply orb_true_iff. right. reflexivity.
    + intros room l E. rewrite (W room l E). lia.
  - split.
    + apply andb_true_iff. split; [apply andb_true_iff; split; [apply Nat.leb_le|apply Nat.ltb_lt]; lia|]. apply orb_true_iff. left. apply Nat.ltb_lt. lia.
    + intros room l E. destruct (W room l E). lia.
Qed.

Lemma rounds_fit : forall original text n temp g rules toks,
  gram g rules -> Forall (valid g) toks -> (5 <= length (bytesOf toks) <= original)%nat -> N.of_nat original < 2 ^ 31 ->
  N.of_nat original + 6 * N.of_nat (length rules + 256 * n) < 4294966000 ->
  (forall T, initOk g T -> concat (map (eval rules T) toks) = text) ->
  n = O \/ (n = 1%nat /\ (trip toks <= 1000)%nat) \/ (cubes text <= 1000)%nat ->
  roundsFit sortF layoutOver capacity lowRatio n original temp g (bytesOf toks) = true /\
  forall g' data' temp', precompressRounds sortF layoutOver capacity lowRatio n original temp g (bytesOf toks) = Ok (g', data', temp') ->
    (length data' <= length (bytesOf toks))%nat.
Proof.
  intros original text. induction n as [|n IH]; intros temp g rules toks G V HL H31 HB HM HF; cbn [precompressRounds roundsFit].
  - split; [reflexivity|]. intros g' data' temp' H. injection H as <- <- <-. lia.
  - destruct (analyseAndDecide sortF layoutOver g (bytesOf toks)) as [[[g1 common] table]| |] eqn:EA; cbn [bind]; try (split; [reflexivity|discriminate]).
    destruct (round_ok sortF g rules toks g1 common table HS G V ltac:(lia) EA) as (rules1 & toks1 & G1 & R1 & C1 & T1 & V1 & L2 & W1 & M1 & _).
    assert (HM1 : forall T, initOk g1 T -> concat (map (eval rules1 T) toks1) = text).
    { intros T IT. destruct (M1 T IT) as (T0 & I0 & E). rewrite E. apply HM. exact I0. }
    assert (TR : (trip toks <= 1000)%nat). { destruct HF as [HF|[HF|HF]]; [lia|lia|]. pose proof (trip_text g rules toks text G HM). lia. }
    destruct (round_step g rules toks g1 common table G V ltac:(lia) TR (proj1 HL) ltac:(lia) EA) as (BF & WL).
    assert (FIN : forall room data1 temp1, writeReplaced common table room (bytesOf toks) = Ok data1 ->
      roundsFit sortF layoutOver capacity lowRatio n original temp1 g1 data1 = true /\
      forall g' data' temp', precompressRounds sortF layoutOver capacity lowRatio n original temp1 g1 data1 = Ok (g', data', temp') -> (length data' <= length (bytesOf toks))%nat).
    { intros room data1 temp1 EW. pose proof (WL _ _ EW) as WL'. pose proof (W1 _ _ EW) as ED. subst data1.
      destruct (IH temp1 g1 rules1 toks1 G1 V1 ltac:(lia) H31 ltac:(lia) HM1) as (I1 & I2).
      - destruct HF as [HF|[(HF & _)|HF]]; [lia|left; lia|right; right; exact HF].
      - split; [exact I1|]. intros g' data' temp' H. specialize (I2 g' data' temp' H). lia. }
    destruct (match temp with Some t => Some t | None => if lowRatio (length (bytesOf toks)) original then Some (S original, S (length (bytesOf toks))) else None end) as [[a b]|] eqn:ET.
    + destruct (writeReplaced common table b (bytesOf toks)) as [data1| |] eqn:EW; cbn [bind]; try (split; [reflexivity|discriminate]).
      destruct (FIN b data1 (Some (b, a)) EW) as (F1 & F2). split; [exact F1|]. destruct (length data1 =? original)%nat; [discriminate|exact F2].
    + rewrite BF. cbn [andb]. destruct (writeInPlace (capacity (length (bytesOf toks))) common table (S original) (bytesOf toks)) as [data1| |] eqn:EW; cbn [bind]; try (split; [reflexivity|discriminate]).
      unfold bufferFits in BF. apply andb_prop in BF. destruct BF as (BF & B3). apply andb_prop in BF. destruct BF as (B1 & B2). apply Nat.leb_le in B1. apply Nat.ltb_lt in B2.
      assert (B3' : (capacity (length (bytesOf toks)) + 1 < length (bytesOf toks) \/ doubles common table (bytesOf toks) = 0)%nat).
      { apply orb_prop in B3. destruct B3 as [B3|B3]; [left; apply Nat.ltb_lt; exact B3|right; apply Nat.eqb_eq; exact B3]. }
      destruct (C34_all _ common table (S original) (bytesOf toks) T1 C1 (bytesOf_bytes _ _ _ G V) ltac:(lia) B1 B2 B3') as (IP & _).
      apply IP in EW. destruct (FIN _ data1 None EW) as (F1 & F2). pose proof (WL _ _ EW).
      destruct (length data1 =? original)%nat; [|split; assumption]. split; [reflexivity|]. intros g' data' temp' H0. injection H0 as <- <- <-. lia.
Qed.

Lemma toks_of : forall data, bytesOf (map One data) = data.
Proof. unfold bytesOf. induction data as [|c data IH]; [reflexivity|cbn [map concat symBytes app]; rewrite IH; reflexivity]. Qed.
Lemma toks_valid : forall data, are_bytes data -> Forall (valid emptyGrammar) (map One data).
Proof.
  intros data HB. apply Forall_forall. intros k Hk. apply in_map_iff in Hk. destruct Hk as (c & <- & Hc). split; [unfold are_bytes in HB; rewrite Forall_forall in HB; apply HB; exact Hc|].
  cbn [emptyGrammar g_special]. apply flagged_repeat.
Qed.

Lemma blockFits_few : forall n data, are_bytes data -> (length data <> 3)%nat -> (length data <> 4)%nat -> N.of_nat (length data) < 2 ^ 31 -> N.of_nat n <= 1000000 ->
  (n <= 1 /\ triples data <= 1000)%nat \/ (cubes data <= 1000)%nat -> blockFits sortF layoutOver capacity lowRatio n data = true.
Proof.
  intros n data HB N3 N4 H31 Hn HF. unfold blockFits, precompress.
  destruct (Nat.le_gt_cases (length data) 2) as [L2|L2].
  { destruct n as [|n]; [cbn [roundsFit precompressRounds bind andb]; destruct ((0 <? length data)%nat && (length data <=? S (length data))%nat)%bool; [apply Nat.leb_le; lia|reflexivity]|].
    cbn [roundsFit precompressRounds]. assert (E : analyseAndDecide sortF layoutOver emptyGrammar data = UB).
    { unfold analyseAndDecide, analyseData. destruct (N.ltb_spec 2 (N.of_nat (length data))); [lia|reflexivity]. }
    rewrite E. reflexivity. }
  destruct (rounds_fit (length data) data n None emptyGrammar [] (map One data)) as (R1 & R2).
  - exact gram_empty.
  - apply toks_valid. exact HB.
  - rewrite toks_of. lia.
  - exact H31.
  - change (2 ^ 31) with 2147483648 in H31. cbn [length]. lia.
  - intros T (I1 & _). cbn [eval]. rewrite map_map. clear -I1. induction data as [|c data IH]; [reflexivity|]. cbn [map concat]. rewrite I1, IH. reflexivity.
  - rewrite trip_one. destruct HF as [(HF1 & HF2)|HF]; [|auto]. destruct n as [|[|n]]; [auto|right; left; auto|lia].
  - rewrite toks_of in R1, R2. rewrite R1. cbn [andb].
    destruct (precompressRounds sortF layoutOver capacity lowRatio n (length data) None emptyGrammar data) as [[[g1 data1] temp]| |] eqn:E; cbn [bind]; [|reflexivity|reflexivity].
    specialize (R2 _ _ _ eq_refl). destruct ((0 <? length data1)%nat && (length data1 <=? S (length data))%nat)%bool; [apply Nat.leb_le; exact R2|reflexivity].
Qed.
End Rounds.

(** ** For a block as it is *)
Lemma C49_round_all : forall sortF data g common table,
  sorts_by_frequency sortF -> are_bytes data -> N.of_nat (length data) < 2 ^ 31 ->
  analyseAndDecide sortF layoutOver emptyGrammar data = Ok (g, common, table) ->
  ((forall room l, writeReplaced common table room data = Ok l -> l = data) /\ doubles common table data = 0%nat) \/
  ((forall room l, writeReplaced common table room data = Ok l ->
     (length l + 1001 <= length data + triples data)%nat /\ (length data <= 2 * length l)%nat) /\
   (3 * doubles common table data + 2002 <= length data + 2 * triples data)%nat).
Proof.
  intros sortF data g common table HS HB H31 H. rewrite <- trip_one, <- (toks_of data) in *. change (2 ^ 31) with 2147483648 in H31.
  destruct (round_size sortF emptyGrammar [] (map One data) g common table HS gram_empty) as [R|(R1 & R2 & R3)].
  - apply toks_valid. rewrite toks_of in HB. exact HB.
  - cbn [length]. lia.
  - exact H.
  - left. exact R.
  - right. rewrite !toks_of in *. auto.
Qed.

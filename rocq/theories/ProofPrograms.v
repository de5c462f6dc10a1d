(** The programs preprocess and postprocess (C44). *)
From Coq Require Import List NArith ZArith Arith Bool Lia.
From Coq Require Import ZifyBool ZifyNat ZifyN.
From Verif Require Import Base Arrays TArray ModelUtils ModelStreams ModelFreq SpecFreq ModelGrammar SpecGrammar ProofGrammar4 ModelPairs SpecPairs ProofPairs9 ProofGrammar2 ModelPrograms ProofFile.
Import ListNotations.
Open Scope N_scope.

Definition prec_fine (prec : list N -> outcome (grammar * list N)) (block : list N) : Prop := forall g data, prec block = Ok (g, data) ->
  data <> [] /\ are_bytes data /\ N.of_nat (length data) < 2 ^ 56 /\ (exists rules, writable g rules) /\ postprocess g data = Ok block.

Lemma endMarker : forall f, readPreHeaderCompressed (bytes_bits (writeEmptyHeader ++ f)) = Ok (None, bytes_bits f).
Proof. intros f. reflexivity. Qed.

Lemma preprocessLoop_ok : forall prec fuel blockSize written input archive, 0 < blockSize ->
  (forall k, prec_fine prec (firstn (N.to_nat blockSize) (skipn (k * N.to_nat blockSize) input))) ->
  preprocessLoop prec fuel blockSize written input = Ok archive ->
  exists tail, archive = written ++ tail /\ forall more out, postprocessLoop (length tail + more) (bytes_bits tail) out = Ok (out ++ input).
Proof.
  intros prec. induction fuel as [|fuel IH]; intros blockSize written input archive HP HK H; [discriminate|].
  cbn [preprocessLoop] in H. pose proof (HK 0%nat) as H0. cbn [Nat.mul skipn] in H0.
  destruct (firstn (N.to_nat blockSize) input) as [|c0 block0] eqn:EB.
  - injection H as <-. exists writeEmptyHeader. split; [reflexivity|]. intros more out. change (length writeEmptyHeader + more)%nat with (S more). cbn [postprocessLoop].
    rewrite <- (app_nil_r writeEmptyHeader), endMarker. cbn [bind].
    assert (input = []) as ->; [|rewrite app_nil_r; reflexivity]. destruct input; [reflexivity|]. destruct (N.to_nat blockSize) eqn:E; [lia|discriminate].
  - set (block := c0 :: block0) in *. clearbody block.
    destruct (prec block) as [[g data]| |] eqn:EP; cbn [bind] in H; try discriminate.
    destruct (H0 g data EP) as (D1 & D2 & D3 & (rules & W) & D5). clear H0.
    destruct (C30_compressed_all g rules data [] W D1 D2 D3) as (hdr & g0 & E1 & _ & _). rewrite E1 in H. cbn [bind] in H.
    eapply IH in H; [|exact HP|].
    + destruct H as (tail & -> & DD). exists (hdr ++ data ++ tail). split; [rewrite <- !app_assoc; reflexivity|]. intros more out.
      assert (LD : (0 < length data)%nat) by (destruct data; [congruence|cbn; lia]).
      rewrite !app_length. replace (length hdr + (length data + length tail) + more)%nat with (S (length tail + (length hdr + length data - 1 + more)))%nat by lia. cbn [postprocessLoop].
      destruct (C30_compressed_all g rules data tail W D1 D2 D3) as (hdr' & g' & E1' & E2 & SG). rewrite E1' in E1. injection E1 as ->. rewrite E2. cbn [bind].
      rewrite (postprocess_same _ _ _ SG), D5. cbn [bind]. rewrite DD, <- app_assoc. do 2 f_equal. rewrite <- EB. apply firstn_skipn.
    + intros k. specialize (HK (S k)). replace (skipn (k * N.to_nat blockSize) (skipn (N.to_nat blockSize) input)) with (skipn (S k * N.to_nat blockSize) input); [exact HK|].
      cbn [Nat.mul]. rewrite <- (ProofPairs1.skip_skip _ input). reflexivity.
Qed.

Lemma precompress_fine : forall sortF capacity lowRatio n block, sorts_by_frequency sortF -> are_bytes block -> N.of_nat (length block) < 2 ^ 31 -> N.of_nat n <= 1000000 ->
  roundsFit sortF layoutOver capacity lowRatio n (length block) None emptyGrammar block = true ->
  prec_fine (precompress sortF layoutOver capacity lowRatio n) block.
Proof.
  intros sortF capacity lowRatio n block HS HB HL HN HF g data E.
  destruct (C33_all _ _ _ _ _ _ _ HS HB HL HN E HF) as (P1 & P2 & W).
  assert (LE : (0 < length data <= S (length block))%nat).
  { clear - E. unfold precompress in E. destruct (precompressRounds sortF layoutOver capacity lowRatio n (length block) None emptyGrammar block) as [[[g1 d1] t1]| |]; cbn [bind] in E; try discriminate.
    destruct ((0 <? length d1) && (length d1 <=? S (length block)))%nat eqn:C; [|discriminate]. assert (data = d1) as -> by congruence. lia. }
  split; [intros ->; cbn in LE; lia|]. split; [exact P2|]. split; [change (2 ^ 31) with 2147483648 in HL; change (2 ^ 56) with 72057594037927936; lia|]. split; assumption.
Qed.

Lemma C44_all : forall sortF capacity lowRatio n blockSize input archive,
  sorts_by_frequency sortF -> are_bytes input -> N.of_nat n <= 1000000 -> 0 < blockSize < 2 ^ 31 ->
  (forall k, let block := firstn (N.to_nat blockSize) (skipn (k * N.to_nat blockSize) input) in
     roundsFit sortF layoutOver capacity lowRatio n (length block) None emptyGrammar block = true) ->
  preprocessFile (precompress sortF layoutOver capacity lowRatio n) blockSize input = Ok archive ->
  postprocessFile archive = Ok input.
Proof.
  intros sortF capacity lowRatio n blockSize input archive HS HB HN HL HF H. change (2 ^ 31) with 2147483648 in HL. unfold preprocessFile in H.
  apply preprocessLoop_ok in H; [|lia|].
  - destruct H as (tail & -> & D). unfold postprocessFile. cbn [app]. replace (S (length tail)) with (length tail + 1)%nat by lia. rewrite D. reflexivity.
  - intros k. apply precompress_fine; auto.
    + apply are_bytes_firstn, are_bytes_skipn. exact HB.
    + change (2 ^ 31) with 2147483648. rewrite firstn_length. lia.
Qed.

Lemma preprocessLoop_total : forall sortF capacity lowRatio, sorts_by_frequency sortF -> forall fuel blockSize written input, 0 < blockSize < 2 ^ 31 -> (length input < fuel)%nat ->
  exists archive, preprocessLoop (precompress sortF layoutOver capacity lowRatio 0) fuel blockSize written input = Ok archive.
Proof.
  intros sortF capacity lowRatio HS.
  destruct (C33_all sortF capacity lowRatio 0 [0] emptyGrammar [0] HS) as (_ & _ & rules & W); [repeat constructor|reflexivity|cbn; lia|reflexivity|reflexivity|].
  induction fuel as [|fuel IH]; intros blockSize written input HP HL; [lia|]. change (2 ^ 31) with 2147483648 in HP. cbn [preprocessLoop].
  destruct (firstn (N.to_nat blockSize) input) as [|c block] eqn:EB; [eexists; reflexivity|].
  assert (LB : (length (c :: block) <= N.to_nat blockSize)%nat) by (rewrite <- EB; apply firstn_le_length).
  unfold precompress at 1. cbn [precompressRounds bind]. destruct (((0 <? length (c :: block)) && (length (c :: block) <=? S (length (c :: block))))%nat) eqn:C; [|exfalso; cbn [length] in C; lia]. cbn [bind].
  destruct (packed_ok (N.of_nat (length (c :: block)))) as (p & m & P1 & P2 & P3 & P4); [change (2 ^ 56) with 72057594037927936; lia|].
  unfold writePreHeaderCompressed. rewrite P1. cbn [bind].
  destruct (C31_all emptyGrammar rules [] W) as (bytes & g' & E1 & _ & E2 & _). rewrite E1. cbn [bind]. rewrite E2. cbn [bind]. apply IH; [exact HP|].
  rewrite skipn_length. destruct input as [|x input]; [rewrite firstn_nil in EB; discriminate|]. cbn [length] in *. lia.
Qed.

Lemma C44_always : forall sortF capacity lowRatio blockSize input, sorts_by_frequency sortF -> are_bytes input -> 0 < blockSize < 2 ^ 31 ->
  exists archive, preprocessFile (precompress sortF layoutOver capacity lowRatio 0) blockSize input = Ok archive /\ postprocessFile archive = Ok input.
Proof.
  intros sortF capacity lowRatio blockSize input HS HB HP.
  destruct (preprocessLoop_total sortF capacity lowRatio HS (S (length input)) blockSize [] input HP ltac:(lia)) as (archive & E).
  exists archive. split; [exact E|]. apply (C44_all sortF capacity lowRatio 0 blockSize input archive HS HB); [cbn; lia|exact HP|intros k; reflexivity|exact E].
Qed.

Definition isOkList (m : outcome (list N)) (l : list N) : bool :=
  match m with Ok x => if list_eq_dec N.eq_dec x l then true else false | _ => false end.
Lemma sameOutcome : forall m l, isOkList m l = true -> m = Ok l.
Proof. intros [x| |] l H; try discriminate. cbn in H. destruct (list_eq_dec N.eq_dec x l) as [->|]; [reflexivity|discriminate]. Qed.

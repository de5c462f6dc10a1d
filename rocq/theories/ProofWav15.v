(** The decoder rebuilds the tree (2). *)
From Coq Require Import List NArith Arith Bool Lia.
From Coq Require Import ZifyBool ZifyNat ZifyN.
From Verif Require Import Base Arrays SpecRuns ModelUtils ModelBitCoder ModelProb ModelWavelet.
From Verif Require Import ProofBitCoder ProofWav2 ProofWav4 ProofWav5 ProofWav7 ProofWav8 ProofWav11 ProofWav12 ProofWav13 ProofWav14.
Import ListNotations.
Open Scope nat_scope.

Lemma intWord_length : forall t W x ic, (W <= 15)%N -> intWord t W x ic -> length ic < height t + 100.
Proof.
  intros t W x ic HW [H|(esc & k & v & H & K & -> & _)].
  - pose proof (look_height ic t ltac:(congruence)). lia.
  - pose proof (look_height esc t ltac:(congruence)). rewrite app_length, app_length, repeat_length. cbn [length]. rewrite be_bits_length. lia.
Qed.

Section Tree.
Variables PM GM AM : predictor.
Hypothesis IDEM : forall s s', p_reset GM s = Ok s' -> p_reset GM s' = Ok s'.
Variables (src : list N) (w : wavelet) (T0 : wtree) (runs : list (N * nat)) (ws : list word) (CL L : list (N * N)).
Hypothesis HB : built src w T0 runs ws CL L.
Hypothesis HNE : runs <> [].
Notation W := (wordsOf ws).
Notation T := (w_root w).
Notation intTree := (w_intTree w).

Let HC : code_tree T0 (w_codes w) := tb_code _ _ _ _ _ _ (b_tables _ _ _ _ _ _ _ HB).
Let HIT : intTable (w_intTree w) (w_intCodes w) := tb_table _ _ _ _ _ _ (b_tables _ _ _ _ _ _ _ HB).
Let HF : full (w_intTree w) := intTable_full _ _ HIT.

Lemma unfin_entry : forall p, unfin (entry W intTree p) = true.
Proof.
  intros p. unfold unfin, fin, stateOf, finishedSt, entry. cbn [fst snd i_tree]. pose proof (intTable_several _ _ HIT) as H.
  destruct (1 <? length (w_intCodes w)); rewrite H; reflexivity.
Qed.
Lemma unfin_entries : forall l, filter unfin (map (entry W intTree) l) = map (entry W intTree) l.
Proof. induction l as [|p l IH]; [reflexivity|]. cbn [map filter]. rewrite unfin_entry, IH. reflexivity. Qed.
Lemma entry_paths : forall l, paths (map (entry W intTree) l) = l.
Proof. intros l. unfold paths. rewrite map_map. cbn [entry i_path]. apply map_id. Qed.
Lemma leaf_word : forall p s, isLeaf T0 p -> In s (ends p W) -> exists x, intWord intTree (w_W w) x s /\ x <> 0%N.
Proof.
  intros p s HL H. apply ends_in in H. pose proof (runWords_all _ _ _ _ _ (b_words _ _ _ _ _ _ _ HB)) as HA. rewrite Forall_forall in HA.
  destruct (HA _ H) as (c & x & cc & ic & E & L1 & L2 & L3 & _).
  destruct (leaf_unique T0 _ HC p cc s ic HL (ex_intro _ c L1) E) as [_ ->]. eauto.
Qed.
Lemma leaves_antichain : forall l, Forall (isLeaf T0) l -> NoDup l -> antichain l.
Proof.
  intros l H. induction H as [|p l Hp H IH]; intros ND; [constructor|]. inversion ND as [|? ? N1 N2]; subst.
  constructor; [|apply IH; exact N2]. apply Forall_forall. intros q Hq. rewrite Forall_forall in H. specialize (H _ Hq).
  assert (NE : p <> q) by (intros ->; contradiction). split.
  - destruct (pre p q) eqn:E; [|reflexivity]. apply pre_spec in E. destruct E as (r & E). exfalso. apply NE.
    destruct (leaf_unique T0 _ HC q p [] r H Hp) as [A _]; [rewrite app_nil_r; exact E|congruence].
  - destruct (pre q p) eqn:E; [|reflexivity]. apply pre_spec in E. destruct E as (r & E). exfalso. apply NE.
    destruct (leaf_unique T0 _ HC p q [] r Hp H) as [A _]; [rewrite app_nil_r; exact E|congruence].
Qed.
Lemma leaf_not_inner : forall p, isLeaf T0 p -> ~ isInner T0 p.
Proof. intros p (c & H) I. unfold isInner in I. congruence. Qed.
Lemma entry_good : forall t p, (forall q, look t q = final T0 W q) -> isLeaf T0 p -> egood T0 intTree (w_W w) W t (entry W intTree p).
Proof.
  intros t p Ht HL. pose proof HL as (c & L1). constructor; cbn [entry i_path i_bits].
  - exists p, [], c. split; [exact L1|]. split; [rewrite app_nil_r; reflexivity|]. split; [reflexivity|]. split; [left; reflexivity|].
    rewrite Ht, (final_other T0 _ HC) by (apply leaf_not_inner; exact HL). exact L1.
  - reflexivity.
  - apply Forall_forall. intros s H. destruct (leaf_word p s HL H) as (x & A & B). apply (intWord_valid _ _ x); [exact HF|exact B|exact A].
  - reflexivity.
  - intros b r. assert (E : look T0 (p ++ b :: r) = None) by (eapply ct_beyond; [exact HC|exact L1]).
    rewrite Ht. unfold final. rewrite E. reflexivity.
Qed.

(** What the message needs of the tree. *)
Definition shows (t : wtree) : Prop :=
  (forall q b s, In (b :: s) (ends q W) -> exists n, look t q = Some n /\ bitVector n = heads (ends q W)) /\
  (forall q n (s : list bool), look T0 q = Some n -> In s (ends q W) -> exists n', look t q = Some n' /\ symbol n' = symbol n) /\
  integersShown T0 intTree W t.
Lemma shows_message : forall t root, shows t -> Forall (fun r => (fst r < 256)%N /\ (N.of_nat (snd r) < 2 ^ 32)%N) runs ->
  message (mkWavelet root (w_codes w) intTree (w_intCodes w) (w_W w)) t = Ok (concat (map (fun r => repeat (fst r) (snd r)) runs)).
Proof.
  intros t root (A & B & C) HR.
  eapply message_decoded; [exact HC|exact HF|exact (b_W _ _ _ _ _ _ _ HB)|exact (b_words _ _ _ _ _ _ _ HB)|exact HNE|exact HR|exact A|exact B|exact C].
Qed.

Lemma shows_all : forall t t' leaves, (forall q, look t q = final T0 W q) -> (forall q, isLeaf T0 q -> In q leaves) -> Forall (isLeaf T0) leaves ->
  (forall q, below leaves q = false -> look t' q = look t q) -> Forall (shown T0 intTree W t') (map (entry W intTree) leaves) -> shows t'.
Proof.
  intros t t' leaves Ht ALL HL U HS.
  assert (SH : forall cc u s, isLeaf T0 cc -> In s (ends (cc ++ u) W) ->
    exists n', look t' (cc ++ u) = Some n' /\ (s <> [] -> bitVector n' = heads (ends (cc ++ u) W)) /\ symOK T0 intTree (cc ++ u) n').
  { intros cc u s H1 H2. rewrite Forall_forall in HS. exact (HS (entry W intTree cc) (in_map _ _ _ (ALL _ H1)) u s H2). }
  assert (INN : forall q, isInner T0 q -> look t' q = Some (mkNode (heads (ends q W)) None)).
  { intros q Hq. rewrite U; [rewrite Ht; apply final_inner; exact Hq|].
    destruct (below leaves q) eqn:E; [|reflexivity]. exfalso. apply below_spec in E. destruct E as (p & r & H1 & ->).
    rewrite Forall_forall in HL. destruct (HL _ H1) as (c & L1). unfold isInner in Hq.
    destruct r as [|b r]; [rewrite app_nil_r in Hq; congruence|]. rewrite (ct_beyond _ _ HC _ _ _ _ L1) in Hq. discriminate. }
  assert (SPLIT : forall q b s, In (b :: s) (ends q W) -> isInner T0 q \/ exists cc u, isLeaf T0 cc /\ q = cc ++ u).
  { intros q b s H. apply ends_in in H. pose proof (W_parts src w T0 runs ws CL L HB) as HP. rewrite Forall_forall in HP.
    destruct (HP _ H) as (c & cc & ic & E & L1 & _). apply common_prefix in E. destruct E as [([|b' e] & E1 & E2)|(e & E1 & E2)].
    - rewrite app_nil_r in E1. subst cc. right. exists q, []. split; [exists c; exact L1|rewrite app_nil_r; reflexivity].
    - left. subst cc. unfold isInner. eapply ct_prefix; [exact HC|exact L1].
    - right. exists cc, e. split; [exists c; exact L1|exact E1]. }
  split; [|split].
  - intros q b s H. destruct (SPLIT q b s H) as [I|(cc & u & I & ->)].
    + rewrite (INN _ I). eexists. split; reflexivity.
    + destruct (SH cc u _ I H) as (n' & A & B & _). exists n'. split; [exact A|apply B; discriminate].
  - intros q n s E H. destruct (node_cases T0 _ HC _ _ E) as [->|(c & ->)].
    + rewrite (INN _ E). eexists. split; reflexivity.
    + destruct (SH q [] s) as (n' & A & _ & B & _); [exists c; exact E|rewrite app_nil_r; exact H|].
      rewrite app_nil_r in A, B. exists n'. split; [exact A|]. cbn [symbol]. apply B. exact E.
  - intros cc c u n s E Hu E' H. destruct (SH cc u s (ex_intro _ c E) H) as (n' & A & _ & _ & B). exists n'. split; [exact A|].
    eapply B; [exists c; exact E|exact Hu|reflexivity|exact E'].
Qed.

Lemma tree_sim : forall pm gm am cs pm' gm' am' g1 trace rest (D : source),
  encodeTreeBF PM GM AM T (pm, gm, am) = Ok (cs, (pm', gm', am')) -> p_reset GM gm' = Ok g1 -> dec_ready (cs ++ trace) rest D ->
  exists t' gm'' D', decodeTreeBF PM GM AM (N.of_nat (length W)) (mkWavelet T0 (w_codes w) intTree (w_intCodes w) (w_W w)) (pm, gm, am) D =
      Ok (t', (pm', gm'', am'), D') /\ dec_ready trace rest D' /\ p_reset GM gm'' = Ok g1 /\ shows t'.
Proof.
  intros pm gm am cs pm' gm' am' g1 trace rest D E ER HD. unfold encodeTreeBF in E. unfold decodeTreeBF. cbn [w_root w_intTree w_intCodes w_W].
  pose proof (W_parts src w T0 runs ws CL L HB) as HP.
  assert (PW : proper W). { apply (proper_node T0 _ HC W HP [] _ (ct_root _ _ HC)). }
  pose proof (W_nonempty src w T0 runs ws CL L HB HNE) as WNE.
  rewrite (T_node src w T0 runs ws CL L HB _ _ (ct_root _ _ HC)) in E. rewrite (ct_root _ _ HC). cbn [bitVector ends] in E.
  pose proof (heads_length W PW) as LH. destruct (heads W) as [|b0 hs] eqn:EH; [destruct W; [congruence|discriminate LH]|].
  apply bind_inv in E. destruct E as ([[cs0 gaps] pm1] & E0 & E). cbn [encodeRoot] in E0.
  apply bind_inv in E0. destruct E0 as ([c0 pm0] & E01 & E0). apply bind_inv in E0. destruct E0 as ([[cs00 gaps0] pm2] & E02 & E0).
  injection E0 as <- <- <-.
  replace (xorb (negb b0) b0) with true in E by (destruct b0; reflexivity).
  destruct (enter T [false] (fst (addGap b0 true gaps0))) as [queue1 ints1] eqn:EE1.
  destruct (enter T [true] (snd (addGap b0 true gaps0))) as [queue2 ints2] eqn:EE2.
  apply bind_inv in E. destruct E as ([[[cs1 ints] pm3] am1] & E1 & E). apply bind_inv in E. destruct E as ([cs2 gm1] & E2 & E).
  injection E as <- <- <- <-. cbn [app] in HD. rewrite <- !app_assoc in HD.
  (* the root *)
  destruct (decodeBit_spec _ _ _ _ _ _ _ _ E01 HD) as (D0 & DE0 & HD0). rewrite DE0. cbn [bind].
  destruct (root_sim PM hs b0 pm0 cs00 gaps0 pm2 _ _ D0 E02 HD0) as (EG & D1 & DE1 & HD1).
  cbn [length] in LH. replace (N.to_nat (N.of_nat (length W) - 1)) with (length hs) by (rewrite <- LH; lia).
  rewrite DE1. cbn [bind].
  (* the flags *)
  assert (EGG : addGap b0 true gaps0 = childGaps (heads W) (true :: repeat false (length ws - 1)) true).
  { rewrite EH. cbn [childGaps]. rewrite orb_true_r. f_equal. rewrite EG. f_equal. f_equal. apply (f_equal pred) in LH. cbn [pred] in LH.
    rewrite LH. unfold wordsOf. rewrite map_length. symmetry. apply Nat.sub_1_r. }
  pose proof (b_runs _ _ _ _ _ _ _ HB) as (_ & ND & _).
  pose proof (okg_root T0 _ _ _ HC runs ws (b_words _ _ _ _ _ _ _ HB) HNE ND) as OK0.
  assert (OK : forall b, okg (Rel T0 [b]) None (ends [b] W) (side b (addGap b0 true gaps0))).
  { intros b. rewrite EGG. eapply okg_impl; [|apply (childGaps_ok (Rel T0 []) W _ None true (fun _ => None) OK0 PW); discriminate].
    intros x y H. apply (Rel_child T0 [] b). exact H. }
  clear EGG OK0 EG. set (g := addGap b0 true gaps0) in *. clearbody g.
  pose proof (enter_enters _ _ _ _ _ _ _ HB _ _ _ _ EE1) as N1. pose proof (enter_enters _ _ _ _ _ _ _ HB _ _ _ _ EE2) as N2.
  change (pushedAll (mkNode [] None) (b0 :: hs)) with (mkNode (b0 :: hs) None).
  set (t := put T0 [] (mkNode (b0 :: hs) None)) in *.
  assert (HT : forall b r, look t (b :: r) = look T0 (b :: r)) by (intros b r; unfold t; apply look_put_other; discriminate).
  assert (HTR : look t [] = Some (mkNode (b0 :: hs) None)) by (unfold t; apply look_put_same).
  assert (HTN : nodes t = nodes T0). { unfold t. pose proof (ct_root _ _ HC) as R. destruct T0; [discriminate|reflexivity]. }
  clearbody t.
  assert (G1 : decodeEnter intTree t [false] (fst g) = Ok (queue1, map (entry W intTree) ints1)).
  { eapply enters_decode; [exact N1|apply (okg_length _ _ _ _ (OK false))|apply HT|]. destruct (ct_left _ _ HC) as (n & ->). discriminate. }
  assert (G2 : match snd g with [] => Ok ([], []) | _ => decodeEnter intTree t [true] (snd g) end = Ok (queue2, map (entry W intTree) ints2)).
  { pose proof (okg_length _ _ _ _ (OK true)) as LL. cbn [side] in LL. destruct (look T0 [true]) as [n|] eqn:ET.
    - assert (X : decodeEnter intTree t [true] (snd g) = Ok (queue2, map (entry W intTree) ints2)).
      { eapply enters_decode; [exact N2|exact LL|apply HT|congruence]. }
      destruct (snd g) as [|x l] eqn:EG; [|exact X]. exfalso. apply (right_used _ _ _ _ _ _ _ HB _ ET).
      destruct (tailsOf true W) eqn:EW; [reflexivity|]. cbn [ends] in LL. rewrite EW in LL. discriminate.
    - destruct N2 as [(A & _)|[((c & A) & _)|(_ & A & -> & ->)]]; [unfold isInner in A; congruence|congruence|].
      rewrite A in LL. destruct (snd g); [reflexivity|discriminate]. }
  rewrite G1. cbn [bind]. rewrite G2. cbn [bind].
  (* the queue *)
  destruct (queue_sim PM AM T0 _ HC W HP T (T_node src w T0 runs ws CL L HB) intTree _ _ _ _ _ _ _ _ E1) as (HI & HQ).
  { apply Forall_app. split; [eapply enters_queue; [exact N1|exact (OK false)]|eapply enters_queue; [exact N2|exact (OK true)]]. }
  { eapply entered_antichain; eassumption. }
  destruct (HQ (nodes t) t (cs2 ++ trace) rest D1) as (t1 & D2 & DE2 & HD2 & F1 & F2); [| |exact HD1|].
  { rewrite HTN. unfold qpaths. rewrite map_app. fold (qpaths queue1) (qpaths queue2). rewrite (sizes_app T0 W T (T_node src w T0 runs ws CL L HB)).
    pose proof (size_children T0 [] _ (ct_root _ _ HC)) as SZ. cbn [app] in SZ. change (size T0 []) with (nodes T0) in SZ.
    destruct (enters_paths _ _ _ _ _ _ N1) as [->| ->], (enters_paths _ _ _ _ _ _ N2) as [->| ->]; cbn [sizes]; lia. }
  { intros [|b r] H; [|apply HT]. rewrite (entered_root _ _ _ _ _ _ _ _ N1 N2) in H. discriminate. }
  rewrite DE2. cbn [bind].
  assert (HF1 : forall q, look t1 q = final T0 W q).
  { intros q. destruct (below (qpaths (queue1 ++ queue2)) q) eqn:EB; [apply F1; exact EB|]. rewrite F2 by exact EB.
    destruct q as [|b r]; [rewrite HTR, final_inner by exact (ct_root _ _ HC); cbn [ends]; rewrite EH; reflexivity|].
    rewrite HT. symmetry. apply (final_other T0 _ HC). intros I.
    rewrite (entered_inner _ _ _ _ _ _ _ HB _ _ _ _ _ _ N1 N2 (b :: r) ltac:(discriminate) I) in EB. discriminate. }
  (* the levels *)
  pose proof (leaves_leaf _ _ _ _ _ _ _ _ _ N1 N2 HI) as LV1.
  pose proof (leaves_nodup _ _ _ _ _ _ _ _ _ N1 N2 HI) as LV2.
  pose proof (leaves_all _ _ _ _ _ _ _ HB _ _ _ _ _ _ _ N1 N2 HI) as LV3.
  unfold leaves in LV1, LV2, LV3. rewrite <- !map_app. set (lv := ints1 ++ ints2 ++ ints) in *.
  destruct (levels_sim GM T0 _ HC intTree (w_W w) (1 <? length (w_intCodes w)) (b_W _ _ _ _ _ _ _ HB) (intTable_several _ _ HIT) W T
    (T_below src w T0 runs ws CL L HB) (T_goesOn src w T0 runs ws CL L HB) IDEM (height intTree + 100) (S (height T)) (map (entry W intTree) lv)
    t1 gm cs2 gm1 g1 trace rest D2) as (t' & gm'' & D' & DE3 & HD3 & RS & U & MON & SH).
  { rewrite unfin_entries, entry_paths. exact E2. }
  { exact ER. }
  { rewrite entry_paths. apply leaves_antichain; assumption. }
  { apply Forall_forall. intros e He. apply in_map_iff in He. destruct He as (p & <- & Hp). rewrite Forall_forall in LV1. apply entry_good; auto. }
  { exact HD2. }
  { lia. }
  { intros e s He Hs. apply in_map_iff in He. destruct He as (p & <- & Hp). cbn [entry i_path] in Hs. rewrite Forall_forall in LV1.
    destruct (leaf_word p s (LV1 _ Hp) Hs) as (x & A & _). eapply intWord_length; [exact (b_W _ _ _ _ _ _ _ HB)|exact A]. }
  rewrite DE3. cbn [bind]. exists t', gm'', D'. split; [reflexivity|]. split; [exact HD3|]. split; [exact RS|].
  rewrite entry_paths in U. eapply shows_all; eassumption.
Qed.
End Tree.

(** The bit vectors of a tree are coded without undefined behaviour by models that always predict. *)
From Coq Require Import List NArith Arith Bool Lia.
From Coq Require Import ZifyBool ZifyNat ZifyN.
From Verif Require Import Base Arrays SpecRuns SpecProb ModelUtils ModelBitCoder ModelProb ModelWavelet.
From Verif Require Import ProofProb ProofBitCoder ProofWav2 ProofWav4 ProofWav5 ProofWav7 ProofWav8 ProofWav11 ProofWav12 ProofWav13 ProofWav14 ProofWav16.
Import ListNotations.
Open Scope nat_scope.

Lemma good_reset : forall P I s, good P I -> I s -> exists s', p_reset P s = Ok s' /\ I s'.
Proof. intros P I s (_ & _ & G) H. exact (G s NewContext H). Qed.
Lemma good_bit : forall P I s b, good P I -> I s -> exists c s', encodeBit P s b = Ok (c, s') /\ I s' /\ codable c.
Proof.
  intros P I s b (_ & G1 & G2) H. destruct (G1 s H) as (p & E1 & E2). destruct (G2 s (Coded b) H) as (s' & E3 & E4). cbn [use1] in E3.
  exists (b, p), s'. unfold encodeBit. rewrite E1. cbn [bind]. rewrite E3. split; [reflexivity|]. split; [exact E4|]. unfold codable. cbn [snd]. lia.
Qed.

Section Total.
Variables PM GM AM : predictor.
Variables (IP : p_state PM -> Prop) (IG : p_state GM -> Prop) (IA : p_state AM -> Prop).
Hypotheses (GP : good PM IP) (GG : good GM IG) (GA : good AM IA).

Lemma root_total : forall bits prev pm, IP pm -> exists cs g pm', encodeRoot PM bits prev pm = Ok (cs, g, pm') /\ IP pm' /\ Forall codable cs.
Proof.
  induction bits as [|b bits IH]; intros prev pm H; cbn [encodeRoot]; [exists [], ([], []), pm; auto|].
  destruct (good_bit PM IP pm b GP H) as (c & pm1 & -> & H1 & C). cbn [bind]. destruct (IH b pm1 H1) as (cs & g & pm2 & -> & H2 & CS). cbn [bind].
  eexists _, _, _. split; [reflexivity|]. auto.
Qed.
Lemma flagged_total : forall g bit pm am, IP pm -> IA am -> exists c pm' am', encodeFlagged PM AM g bit pm am = Ok (c, pm', am') /\ IP pm' /\ IA am' /\ codable c.
Proof.
  intros g bit pm am HP HA. unfold encodeFlagged. destruct g.
  - destruct (good_bit AM IA am bit GA HA) as (c & am1 & -> & H1 & C). cbn [bind]. destruct GP as (_ & _ & G).
    destruct (G pm (Noted bit) HP) as (pm1 & E & H2). cbn [use1] in E. rewrite E. cbn [bind]. eauto 10.
  - destruct (good_bit PM IP pm bit GP HP) as (c & pm1 & -> & H1 & C). cbn [bind]. eauto 10.
Qed.
Lemma leaves_total : forall bits gs am, length gs = length bits -> IA am -> exists cs am', encodeLeaves AM bits gs am = Ok (cs, am') /\ IA am' /\ Forall codable cs.
Proof.
  induction bits as [|b bits IH]; intros [|g gs] am HL H; try discriminate; cbn [encodeLeaves]; [exists [], am; auto|]. injection HL as HL. destruct g.
  - destruct (good_bit AM IA am b GA H) as (c & am1 & -> & H1 & C). cbn [bind]. destruct (IH gs am1 HL H1) as (cs & am2 & -> & H2 & CS). cbn [bind]. eexists _, _. split; [reflexivity|]. auto.
  - apply IH; assumption.
Qed.
Lemma leftLeaf_total : forall bits gs prev pm am, length gs = length bits -> IP pm -> IA am ->
  exists cs g pm' am', encodeLeftLeaf PM AM bits gs prev pm am = Ok (cs, g, pm', am') /\ IP pm' /\ IA am' /\ Forall codable cs.
Proof.
  induction bits as [|b bits IH]; intros [|g gs] prev pm am HL HP HA; try discriminate; cbn [encodeLeftLeaf]; [exists [], [], pm, am; auto|]. injection HL as HL.
  assert (S : exists c pm' am', (if (prev || g)%bool then let! (c, pm, am) := encodeFlagged PM AM g b pm am in Ok ([c], pm, am) else Ok ([], pm, am)) = Ok (c, pm', am') /\
    IP pm' /\ IA am' /\ Forall codable c).
  { destruct (prev || g)%bool; [|eauto 10]. destruct (flagged_total g b pm am HP HA) as (c & pm1 & am1 & -> & H1 & H2 & C). cbn [bind]. eexists _, _, _. split; [reflexivity|]. auto. }
  destruct S as (c & pm1 & am1 & -> & H1 & H2 & C). cbn [bind].
  destruct (IH gs b pm1 am1 HL H1 H2) as (cs & g' & pm2 & am2 & -> & H3 & H4 & CS). cbn [bind]. eexists _, _, _, _. split; [reflexivity|].
  split; [exact H3|]. split; [exact H4|]. apply Forall_app. auto.
Qed.
Lemma inner_total : forall bits gs prev pm am, length gs = length bits -> IP pm -> IA am ->
  exists cs g pm' am', encodeInner PM AM bits gs prev pm am = Ok (cs, g, pm', am') /\ IP pm' /\ IA am' /\ Forall codable cs.
Proof.
  induction bits as [|b bits IH]; intros [|g gs] prev pm am HL HP HA; try discriminate; cbn [encodeInner]; [exists [], ([], []), pm, am; auto|]. injection HL as HL.
  destruct (flagged_total g b pm am HP HA) as (c & pm1 & am1 & -> & H1 & H2 & C). cbn [bind].
  destruct (IH gs b pm1 am1 HL H1 H2) as (cs & g' & pm2 & am2 & -> & H3 & H4 & CS). cbn [bind]. eexists _, _, _, _. split; [reflexivity|]. auto.
Qed.
Lemma all_total : forall bits gm, IG gm -> exists cs gm', encodeAll GM bits gm = Ok (cs, gm') /\ IG gm' /\ Forall codable cs.
Proof.
  induction bits as [|b bits IH]; intros gm H; cbn [encodeAll]; [exists [], gm; auto|].
  destruct (good_bit GM IG gm b GG H) as (c & gm1 & -> & H1 & C). cbn [bind]. destruct (IH gm1 H1) as (cs & gm2 & -> & H2 & CS). cbn [bind]. eexists _, _. split; [reflexivity|]. auto.
Qed.

(** Levels of the run length codes. *)
Section Levels.
Variable T : wtree.
Definition there (k : nat) (p : list bool) : Prop := look T p <> None /\ k <= length p.
Lemma goesOn_there : forall k p b, k <= length p -> Forall (there (S k)) (goesOn T (p ++ [b])).
Proof.
  intros k p b H. unfold goesOn. destruct (look T (p ++ [b])) as [n|] eqn:E; [|constructor].
  assert (H' : there (S k) (p ++ [b])) by (split; [congruence|rewrite app_length; cbn; lia]).
  destruct (symbol n) as [s|]; [destruct (s =? 0)%N|]; auto.
Qed.
Lemma level_total : forall k level gm, Forall (there k) level -> IG gm ->
  exists cs l r gm', encodeLevel GM T level gm = Ok (cs, l, r, gm') /\ IG gm' /\ Forall codable cs /\ Forall (there (S k)) l /\ Forall (there (S k)) r.
Proof.
  intros k. induction level as [|p level IH]; intros gm HL H; cbn [encodeLevel]; [exists [], [], [], gm; auto 10|].
  inversion_clear HL as [|? ? [L1 L2] L3]. destruct (look T p) as [n|]; [|congruence].
  destruct (all_total (bitVector n) gm H) as (c & gm1 & -> & H1 & C). cbn [bind].
  destruct (IH gm1 L3 H1) as (cs & l & r & gm2 & -> & H2 & CS & Hl & Hr). cbn [bind]. eexists _, _, _, _. split; [reflexivity|].
  split; [exact H2|]. split; [apply Forall_app; auto|]. split; apply Forall_app; split; auto using goesOn_there.
Qed.
Lemma levels_total : forall fuel k level gm, height T < fuel + k -> Forall (there k) level -> IG gm ->
  exists cs gm', encodeLevels GM fuel T level gm = Ok (cs, gm') /\ IG gm' /\ Forall codable cs.
Proof.
  induction fuel as [|fuel IH]; intros k level gm HK HL H.
  - destruct level as [|p level]; [exists [], gm; cbn; auto|]. apply Forall_inv in HL. destruct HL as [L1 L2]. apply look_height in L1. lia.
  - destruct level as [|p level]; [exists [], gm; cbn; auto|]. cbn [encodeLevels].
    destruct (good_reset GM IG gm GG H) as (gm0 & -> & H0). cbn [bind].
    destruct (level_total k (p :: level) gm0 HL H0) as (c & l & r & gm1 & -> & H1 & C & Hl & Hr). cbn [bind].
    destruct (IH (S k) (l ++ r) gm1) as (cs & gm2 & -> & H2 & CS); [lia|apply Forall_app; auto|exact H1|]. cbn [bind].
    eexists _, _. split; [reflexivity|]. split; [exact H2|]. apply Forall_app. auto.
Qed.
End Levels.

Section Queue.
Variables (T0 : wtree) (codes : list (N * list bool)).
Hypothesis HC : code_tree T0 codes.
Variable W : list (list bool).
Hypothesis HR : Forall (fun w => exists c cc ic, w = cc ++ ic /\ look T0 cc = Some (mkNode [] (Some c)) /\ ic <> []) W.
Variable T : wtree.
Hypothesis HT : forall q n, look T0 q = Some n -> look T q = Some (mkNode (heads (ends q W)) (symbol n)).
Hypothesis HU : forall s c, In (s, c) codes -> exists r, In (c ++ r) W.

Lemma used_node : forall p, isInner T0 p -> heads (ends p W) <> [].
Proof.
  intros p H C. pose proof (proper_node T0 _ HC W HR p _ H) as PP. pose proof (heads_length _ PP) as L. rewrite C in L.
  destruct (ct_reach _ _ HC _ H) as (s & c & I). destruct (HU _ _ I) as (r & R). rewrite <- app_assoc in R. apply ends_in in R. destruct (ends p W); [destruct R|discriminate].
Qed.
Definition tsize (p : list bool) : nat := nodes (fold_left child p T).
Fixpoint tsizes (ps : list (list bool)) : nat := match ps with [] => O | p :: ps => tsize p + tsizes ps end.
Lemma tsizes_app : forall a b, tsizes (a ++ b) = tsizes a + tsizes b.
Proof using T. induction a as [|p a IH]; intros b; [reflexivity|]. cbn [app tsizes]. rewrite IH. apply Nat.add_assoc. Qed.
Lemma tsize_children : forall p n, look T p = Some n -> S (tsize (p ++ [false]) + tsize (p ++ [true])) = tsize p.
Proof using T.
  intros p n E. unfold tsize. rewrite !fold_left_app. rewrite <- (app_nil_r p), look_app in E. cbn [fold_left].
  destruct (fold_left child p T); [discriminate|]. reflexivity.
Qed.

Lemma queue_total : forall fuel queue pm am, queue_ok T0 W queue -> tsizes (qpaths queue) <= fuel -> IP pm -> IA am ->
  exists cs ints pm' am', encodeQueue PM AM fuel T queue pm am = Ok (cs, ints, pm', am') /\ IP pm' /\ IA am' /\ Forall codable cs /\ Forall (there T 0) ints.
Proof.
  induction fuel as [|fuel IH]; intros [|[p gs] queue] pm am HQ HF HP HA; cbn [encodeQueue].
  1,3: exists [], [], pm, am; auto 10.
  all: assert (HQ' := Forall_inv_tail HQ); destruct (Forall_inv HQ) as (Q1 & Q2 & Q3); clear HQ; cbn [fst snd] in Q1, Q2, Q3.
  all: assert (SZ := tsize_children p _ (HT _ _ Q1)).
  - cbn [qpaths map tsizes fst] in HF. lia.
  - destruct (good_reset PM IP pm GP HP) as (pm1 & -> & HP1). cbn [bind]. destruct (good_reset AM IA am GA HA) as (am1 & -> & HA1). cbn [bind].
    destruct (ct_both _ _ HC p false Q2 Q1) as (nl & El). destruct (ct_both _ _ HC p true Q2 Q1) as (nr & Er).
    pose proof (proper_node T0 _ HC W HR p _ Q1) as PP.
    rewrite (HT _ _ Q1), (HT _ _ El), (HT _ _ Er). cbn [bitVector symbol].
    assert (TL : there T 0 (p ++ [false])) by (split; [rewrite (HT _ _ El); discriminate|lia]).
    assert (TR : there T 0 (p ++ [true])) by (split; [rewrite (HT _ _ Er); discriminate|lia]).
    assert (LG : length gs = length (heads (ends p W))) by (rewrite heads_length by exact PP; eapply okg_length; exact Q3).
    assert (CG : forall b pb, okg (Rel T0 (p ++ [b])) None (ends (p ++ [b]) W) (side b (childGaps (heads (ends p W)) gs pb))).
    { intros b pb. rewrite ends_snoc. eapply okg_impl; [|eapply (childGaps_ok (Rel T0 p) (ends p W) gs None pb (fun _ => None)); [exact Q3|exact PP|discriminate]].
      cbv beta. intros x y H. apply Rel_child. exact H. }
    assert (NN : forall b, p ++ [b] <> []) by (intros b C; destruct p; discriminate).
    assert (UN := used_node p Q1).
    destruct (heads (ends p W)) as [|b0 hs] eqn:EH; [congruence|]. rewrite <- EH in *. clear EH hs.
    cbn [qpaths map tsizes fst] in HF. fold (qpaths queue) in HF.
    destruct (node_cases T0 _ HC _ _ El) as [->|(cl & ->)]; destruct (node_cases T0 _ HC _ _ Er) as [->|(cr & ->)]; cbn [symbol].
    + destruct (inner_total (heads (ends p W)) gs (negb b0) pm1 am1 LG HP1 HA1) as (c1 & ch & pm2 & am2 & E1 & HP2 & HA2 & C1). rewrite E1. cbn [bind].
      rewrite (encodeInner_first PM AM _ _ _ (negb b0) true pm1 am1 Q3 PP) in E1. pose proof (inner_gaps PM AM _ _ _ _ _ _ _ _ _ LG E1) as EC. subst ch.
      edestruct (IH (queue ++ [(p ++ [false], fst (childGaps (heads (ends p W)) gs true)); (p ++ [true], snd (childGaps (heads (ends p W)) gs true))]) pm2 am2) as (c2 & ints & pm3 & am3 & E2 & HP3 & HA3 & C2 & I2); [| |exact HP2|exact HA2|].
      { apply Forall_app. split; [exact HQ'|]. constructor; [|constructor; [|constructor]]; cbn [fst snd].
        - split; [exact El|]. split; [apply NN|]. apply (CG false true).
        - split; [exact Er|]. split; [apply NN|]. apply (CG true true). }
      { unfold qpaths. rewrite map_app. fold (qpaths queue). rewrite tsizes_app. cbn [map fst tsizes]. lia. }
      rewrite E2. cbn [bind]. eexists _, _, _, _. split; [reflexivity|]. split; [exact HP3|]. split; [exact HA3|]. split; [apply Forall_app; auto|exact I2].
    + destruct (ct_order _ _ HC _ _ Er) as (s' & E). congruence.
    + destruct (leftLeaf_total (heads (ends p W)) gs (negb b0) pm1 am1 LG HP1 HA1) as (c1 & rg & pm2 & am2 & E1 & HP2 & HA2 & C1). rewrite E1. cbn [bind].
      rewrite (encodeLeftLeaf_first PM AM _ _ _ (negb b0) true pm1 am1 Q3 PP) in E1. pose proof (leftLeaf_gaps PM AM _ _ _ _ _ _ _ _ _ LG E1) as EC. subst rg.
      edestruct (IH (queue ++ [(p ++ [true], snd (childGaps (heads (ends p W)) gs true))]) pm2 am2) as (c2 & ints & pm3 & am3 & E2 & HP3 & HA3 & C2 & I2); [| |exact HP2|exact HA2|].
      { apply Forall_app. split; [exact HQ'|]. constructor; [|constructor]; cbn [fst snd]. split; [exact Er|]. split; [apply NN|]. apply (CG true true). }
      { unfold qpaths. rewrite map_app. fold (qpaths queue). rewrite tsizes_app. cbn [map fst tsizes]. lia. }
      rewrite E2. cbn [bind]. eexists _, _, _, _. split; [reflexivity|]. split; [exact HP3|]. split; [exact HA3|]. split; [apply Forall_app; auto|]. auto.
    + destruct (leaves_total (heads (ends p W)) gs am1 LG HA1) as (c1 & am2 & E1 & HA2 & C1). rewrite E1. cbn [bind].
      destruct (IH queue pm1 am2 HQ') as (c2 & ints & pm3 & am3 & E2 & HP3 & HA3 & C2 & I2); [lia|exact HP1|exact HA2|].
      rewrite E2. cbn [bind]. eexists _, _, _, _. split; [reflexivity|]. split; [exact HP3|]. split; [exact HA3|]. split; [apply Forall_app; auto|]. auto.
Qed.
End Queue.

Section Tree.
Variables (src : list N) (w : wavelet) (T0 : wtree) (runs : list (N * nat)) (ws : list word) (CL L : list (N * N)).
Hypothesis HB : built src w T0 runs ws CL L.
Hypothesis HNE : runs <> [].
Notation W := (wordsOf ws).
Notation T := (w_root w).
Let HC : code_tree T0 (w_codes w) := tb_code _ _ _ _ _ _ (b_tables _ _ _ _ _ _ _ HB).

Lemma tree_total : forall pm gm am, IP pm -> IG gm -> IA am ->
  exists cs pm' gm' am', encodeTreeBF PM GM AM T (pm, gm, am) = Ok (cs, (pm', gm', am')) /\ IP pm' /\ IG gm' /\ IA am' /\ Forall codable cs.
Proof.
  intros pm gm am HP HG HA. unfold encodeTreeBF.
  pose proof (W_parts src w T0 runs ws CL L HB) as HPA.
  assert (PW : proper W). { apply (proper_node T0 _ HC W HPA [] _ (ct_root _ _ HC)). }
  pose proof (W_nonempty src w T0 runs ws CL L HB HNE) as WNE.
  rewrite (T_node src w T0 runs ws CL L HB _ _ (ct_root _ _ HC)). cbn [bitVector ends].
  pose proof (heads_length W PW) as LH. destruct (heads W) as [|b0 hs] eqn:EH; [destruct W; [congruence|discriminate LH]|].
  destruct (root_total (b0 :: hs) (negb b0) pm HP) as (cs0 & gaps & pm1 & E0 & HP1 & C0). rewrite E0. cbn [bind].
  assert (EGG : gaps = childGaps (heads W) (true :: repeat false (length ws - 1)) true).
  { cbn [encodeRoot] in E0. apply bind_inv in E0. destruct E0 as ([c0 pm0] & E01 & E0). apply bind_inv in E0. destruct E0 as ([[cs00 gaps0] pm2] & E02 & E0).
    injection E0 as _ <- _. replace (xorb (negb b0) b0) with true by (destruct b0; reflexivity).
    rewrite EH. cbn [childGaps]. rewrite orb_true_r. f_equal. rewrite (root_gaps PM _ _ _ _ _ _ E02). f_equal. f_equal. apply (f_equal pred) in LH. cbn [pred length] in LH.
    rewrite LH. unfold wordsOf. rewrite map_length. symmetry. apply Nat.sub_1_r. }
  pose proof (b_runs _ _ _ _ _ _ _ HB) as (_ & ND & _).
  pose proof (okg_root T0 _ _ _ HC runs ws (b_words _ _ _ _ _ _ _ HB) HNE ND) as OK0.
  assert (OK : forall b, okg (Rel T0 [b]) None (ends [b] W) (side b gaps)).
  { intros b. rewrite EGG. eapply okg_impl; [|apply (childGaps_ok (Rel T0 []) W _ None true (fun _ => None) OK0 PW); discriminate].
    intros x y H. apply (Rel_child T0 [] b). exact H. }
  destruct (enter T [false] (fst gaps)) as [queue1 ints1] eqn:EE1.
  destruct (enter T [true] (snd gaps)) as [queue2 ints2] eqn:EE2.
  pose proof (enter_enters _ _ _ _ _ _ _ HB _ _ _ _ EE1) as N1. pose proof (enter_enters _ _ _ _ _ _ _ HB _ _ _ _ EE2) as N2.
  assert (TH : forall p g q i, enter T p g = (q, i) -> Forall (there T 0) i).
  { intros p g q i E. unfold enter in E. destruct (look T p) as [n|] eqn:EP; [|injection E as <- <-; constructor].
    destruct (symbol n); injection E as <- <-; constructor; [split; [congruence|lia]|constructor]. }
  destruct (queue_total T0 _ HC W HPA T (T_node src w T0 runs ws CL L HB) (leaf_in src w T0 runs ws CL L HB) (nodes T) (queue1 ++ queue2) pm1 am) as (cs1 & ints & pm2 & am2 & E1 & HP2 & HA2 & C1 & I1).
  { apply Forall_app. split; [eapply enters_queue; [exact N1|exact (OK false)]|eapply enters_queue; [exact N2|exact (OK true)]]. }
  { unfold qpaths. rewrite map_app. fold (qpaths queue1) (qpaths queue2). rewrite (tsizes_app T).
    pose proof (tsize_children T [] _ (T_node src w T0 runs ws CL L HB _ _ (ct_root _ _ HC))) as SZ. cbn [app] in SZ. change (tsize T []) with (nodes T) in SZ.
    destruct (enters_paths _ _ _ _ _ _ N1) as [->| ->], (enters_paths _ _ _ _ _ _ N2) as [->| ->]; cbn [tsizes]; lia. }
  { exact HP1. } { exact HA. }
  rewrite E1. cbn [bind].
  destruct (levels_total T (S (height T)) 0 (ints1 ++ ints2 ++ ints) gm) as (cs2 & gm2 & E2 & HG2 & C2); [lia| |exact HG|].
  { apply Forall_app. split; [exact (TH _ _ _ _ EE1)|]. apply Forall_app. split; [exact (TH _ _ _ _ EE2)|exact I1]. }
  rewrite E2. cbn [bind]. eexists _, _, _, _. split; [reflexivity|]. split; [exact HP2|]. split; [exact HG2|]. split; [exact HA2|].
  apply Forall_app. split; [exact C0|]. apply Forall_app. auto.
Qed.
End Tree.
End Total.

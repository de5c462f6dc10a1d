(** Sizes of wavelet trees (C58). *)
From Coq Require Import List NArith ZArith Lia Arith Bool.
From Coq Require Import ZifyBool ZifyNat ZifyN.
From Verif Require Import Base Arrays ModelUtils ModelRuns ModelHuffman ModelWavelet ModelTreeSize SpecRuns ProofRuns.
Import ListNotations.
Open Scope nat_scope.

Ltac bd H := match type of H with
  | bind ?m _ = Ok _ => let E := fresh "E" in destruct m eqn:E; cbn [bind] in H; [|discriminate H|discriminate H]
  end.

Lemma rankLoop_spec : forall todo bits bit sum, todo <= length bits -> rankLoop todo bits bit sum = Ok (count_occ bool_dec (firstn todo bits) bit + sum).
Proof.
  induction todo as [|todo IH]; intros bits bit sum H; [reflexivity|]. destruct bits as [|b bits]; [cbn in H; lia|]. cbn [rankLoop firstn count_occ]. rewrite IH by (cbn in H; lia).
  destruct b, bit; cbn; f_equal; lia.
Qed.
Lemma rank_spec : forall n bit i, rank n bit i = Ok (count_occ bool_dec (firstn i (bitVector n)) bit).
Proof.
  intros n bit i. unfold rank. destruct (Nat.eqb_spec (length (bitVector n)) 0) as [E|E].
  - destruct (bitVector n); [|discriminate]. destruct i; reflexivity.
  - rewrite rankLoop_spec by lia. rewrite Nat.add_0_r. do 2 f_equal. destruct (Nat.le_ge_cases i (length (bitVector n))).
    + rewrite Nat.min_r by assumption. reflexivity.
    + rewrite Nat.min_l by assumption. rewrite !firstn_all2 by lia. reflexivity.
Qed.

(** No child has more bits than its parent has bits leading to it. *)
Fixpoint balanced (t : wtree) : Prop :=
  match t with
  | Empty => True
  | Branch v l r => (forall n, v = Some n -> nodeBits l <= count_occ bool_dec (bitVector n) false /\ nodeBits r <= count_occ bool_dec (bitVector n) true) /\ balanced l /\ balanced r
  end.
Definition blank (t : wtree) : Prop := totalBits t = 0 /\ balanced t.

Lemma blank_leaf : forall s, blank (leaf s).
Proof. intros s. split; [reflexivity|]. cbn. repeat split; auto; lia. Qed.
Lemma blank_bits : forall t, blank t -> nodeBits t = 0.
Proof. intros [|v l r] [H _]; [reflexivity|]. cbn [totalBits] in H. lia. Qed.
Lemma blank_inner : forall l r, blank l -> blank r -> blank (inner l r).
Proof.
  intros l r Hl Hr. pose proof (blank_bits l Hl). pose proof (blank_bits r Hr). destruct Hl as [L1 L2]. destruct Hr as [R1 R2]. split; [cbn; cbn in *; lia|]. cbn [inner balanced]. repeat split; auto; intros; lia.
Qed.
Lemma blank_empty : blank Empty.
Proof. split; [reflexivity|exact I]. Qed.
Lemma assign_blank : forall fuel lnode rest bits t r, blank lnode -> assignFrom fuel lnode rest bits = Ok (t, r) -> blank t.
Proof.
  induction fuel as [|fuel IH]; intros lnode rest bits t r B H; cbn [assignFrom] in H.
  - destruct rest as [|[len sym] rest]; [injection H as <- <-; apply blank_inner; [exact B|apply blank_empty]|discriminate].
  - destruct rest as [|[len sym] rest]; [injection H as <- <-; apply blank_inner; [exact B|apply blank_empty]|].
    destruct (_ =? _)%N.
    + destruct lnode; [eapply IH; [apply blank_leaf|exact H]|]. injection H as <- <-. apply blank_inner; [exact B|apply blank_leaf].
    + destruct (_ <? _)%N; [|discriminate]. bd H. destruct a as [l' rest'].
      assert (B' : blank l') by (destruct lnode; [eapply IH; [apply blank_empty|exact E]|injection E as <- <-; exact B]).
      destruct rest' as [|x rest']; [injection H as <- <-; apply blank_inner; [exact B'|apply blank_empty]|]. bd H. destruct a as [r' rest'']. injection H as <- <-. apply blank_inner; [exact B'|]. eapply IH; [apply blank_empty|exact E0].
Qed.

Lemma count_snoc : forall l b c, count_occ bool_dec (l ++ [b]) c = count_occ bool_dec l c + (if bool_dec b c then 1 else 0).
Proof. intros l b c. rewrite count_occ_app. cbn. destruct (bool_dec b c); reflexivity. Qed.
Lemma step_balanced : forall (b : bool) n lnode rnode next, balanced (Branch (Some n) lnode rnode) -> balanced next -> nodeBits next <= S (nodeBits (if b then rnode else lnode)) ->
  balanced (if b then Branch (Some (pushed n b)) lnode next else Branch (Some (pushed n b)) next rnode).
Proof.
  intros b n lnode rnode next (H & BL & BR) BN S. destruct (H n eq_refl) as [HL HR]. destruct b; cbn [balanced]; (split; [|auto]); intros m Em; injection Em as <-; unfold pushed; cbn [bitVector]; rewrite !count_snoc; cbn; lia.
Qed.
Lemma step_total : forall (b : bool) n lnode rnode next k, totalBits next = totalBits (if b then rnode else lnode) + k ->
  totalBits (if b then Branch (Some (pushed n b)) lnode next else Branch (Some (pushed n b)) next rnode) = totalBits (Branch (Some n) lnode rnode) + S k.
Proof. intros b n lnode rnode next k H. destruct b; cbn [totalBits nodeBits here pushed bitVector]; rewrite app_length; cbn [length]; lia. Qed.
Lemma step_node : forall (b : bool) n lnode rnode next, nodeBits (if b then Branch (Some (pushed n b)) lnode next else Branch (Some (pushed n b)) next rnode) = S (nodeBits (Branch (Some n) lnode rnode)).
Proof. intros b n lnode rnode next. destruct b; cbn [nodeBits here pushed bitVector]; rewrite app_length; cbn [length]; lia. Qed.

Lemma pushInteger_size : forall bits t sym t', balanced t -> pushInteger t bits sym = Ok t' -> totalBits t' = totalBits t + length bits /\ balanced t' /\ nodeBits t' = S (nodeBits t).
Proof.
  induction bits as [|b r IH]; intros t sym t' B H; [discriminate|]. destruct t as [|[n|] lnode rnode]; try discriminate. cbn [pushInteger] in H. bd H. injection H as <-.
  remember (if b then rnode else lnode) as next eqn:EN. assert (BN : balanced next) by (destruct B as (_ & BL & BR); rewrite EN; destruct b; assumption).
  assert (X : totalBits a = totalBits next + length r /\ balanced a /\ nodeBits a <= S (nodeBits next)).
  { clear EN. destruct r as [|c r].
    - injection E as <-. destruct next; [|split; [cbn [length]; lia|split; [exact BN|lia]]]. destruct (blank_leaf sym) as [L1 L2]. split; [rewrite L1; reflexivity|]. split; [exact L2|cbn; lia].
    - destruct (IH (match next with Empty => inner Empty Empty | _ => next end) sym a) as (I1 & I2 & I3); [destruct next; [apply (blank_inner Empty Empty blank_empty blank_empty)|exact BN]|exact E|].
      destruct next; split; auto; split; auto; cbn [nodeBits here inner bitVector length] in *; lia. }
  destruct X as (X1 & X2 & X3). rewrite EN in X1, X3. split; [|split].
  - cbn [length]. apply step_total. exact X1.
  - apply step_balanced; assumption.
  - apply step_node.
Qed.
Lemma pushCharacter_size : forall bits t integer sym t', balanced t -> pushCharacter t bits integer sym = Ok t' -> totalBits t' = totalBits t + (length bits + length integer) /\ balanced t' /\ nodeBits t' = S (nodeBits t).
Proof.
  induction bits as [|b r IH]; intros t integer sym t' B H; destruct t as [|[n|] lnode rnode]; try discriminate.
  - cbn [pushCharacter] in H. destruct (symbol n); [|discriminate]. eapply pushInteger_size in H; [|exact B]. exact H.
  - cbn [pushCharacter] in H. bd H. injection H as <-. destruct (IH (if b then rnode else lnode) integer sym a) as (I1 & I2 & I3); [destruct B as (_ & BL & BR); destruct b; assumption|exact E|].
    split; [|split].
    + cbn [length]. rewrite Nat.add_succ_l. apply step_total. exact I1.
    + apply step_balanced; [exact B|exact I2|lia].
    + apply step_node.
Qed.

(** The bits of a run. *)
Definition byteCode (codes : list (N * list bool)) (c : N) : list bool := match codeOf codes c with Some z => z | None => [] end.
Lemma pushRuns_size : forall codes ints W runs t t', balanced t -> pushRuns codes ints W t runs = Ok t' ->
  exists cs, Forall2 (fun r c => integerCode ints W (N.of_nat (snd r)) = Ok c) runs cs /\ balanced t' /\
    totalBits t' = totalBits t + fold_right (fun rc a => length (byteCode codes (fst (fst rc))) + length (snd rc) + a) 0 (List.combine runs cs) /\ nodeBits t' = nodeBits t + length runs.
Proof.
  intros codes ints W. induction runs as [|r runs IH]; intros t t' B H; cbn [pushRuns] in H.
  - injection H as <-. exists []. repeat split; [constructor|exact B|cbn; lia|cbn; lia].
  - bd H. unfold pushRun in E. bd E. destruct (pushCharacter_size _ _ _ _ _ B E) as (S1 & S2 & S3). destruct (IH _ _ S2 H) as (cs & F & B' & T & K). exists (a0 :: cs). split; [constructor; assumption|]. split; [exact B'|].
    split; [|cbn [length]; lia]. cbn [List.combine fold_right fst snd]. fold (byteCode codes (fst r)) in S1. lia.
Qed.

Lemma tree_size : forall worth src w, src <> [] -> buildTree worth src = Ok w -> exists runs cs, is_runs_of src runs /\
  Forall2 (fun r c => integerCode (w_intCodes w) (w_W w) (N.of_nat (snd r)) = Ok c) runs cs /\
  totalBits (w_root w) = fold_right (fun rc a => length (byteCode (w_codes w) (fst (fst rc))) + length (snd rc) + a) 0 (List.combine runs cs) /\
  nodeBits (w_root w) = length runs /\ balanced (w_root w).
Proof.
  intros worth src w NE H. unfold buildTree in H. bd H. destruct a as [[rf lens] tr]. bd H. bd H. rename a0 into root. bd H. rename a0 into runs. bd H. destruct a0 as [W il]. bd H. destruct a0 as [it ic]. bd H. bd H. injection H as <-. cbn [w_root w_codes w_intCodes w_W].
  destruct (emittedRuns_spec src NE) as (runs' & R & RR). rewrite E2 in R. injection R as <-.
  unfold assignPrefixCodes in E1. bd E1. destruct a2 as [t ?]. injection E1 as <-. pose proof (assign_blank _ _ _ _ _ _ blank_empty E7) as BB.
  destruct (pushRuns_size _ _ _ _ _ _ (proj2 BB) E6) as (cs & F & B & T & K). exists runs, cs. split; [exact RR|]. split; [exact F|]. rewrite (blank_bits _ BB) in K. destruct BB as [B0 _]. rewrite B0 in T. repeat split; assumption.
Qed.
Lemma balanced_look : forall p t n m b, balanced t -> look t p = Some n -> look t (p ++ [b]) = Some m -> exists k, rank n b (length (bitVector n)) = Ok k /\ length (bitVector m) <= k.
Proof.
  assert (NN : forall p b, look (@Empty node) (p ++ [b]) = None) by (induction p as [|c p IH]; intros b; [destruct b; reflexivity|destruct c; apply IH]).
  induction p as [|c p IH]; intros t n m b B H1 H2; destruct t as [|v l r]; try (exfalso; match type of H2 with look _ (?q ++ [?d]) = _ => pose proof (NN q d) end; congruence).
  - cbn in H1. subst v. destruct B as (H & _ & _). destruct (H n eq_refl) as [HL HR]. rewrite rank_spec, firstn_all. eexists. split; [reflexivity|]. cbn in H2. unfold nodeBits in *. destruct b; rewrite H2 in *; assumption.
  - destruct B as (_ & BL & BR). destruct c; cbn in H1, H2; eauto.
Qed.
Lemma tree_total : forall worth src w, src <> [] -> buildTree worth src = Ok w -> exists runs cs, is_runs_of src runs /\
  Forall2 (fun r c => integerCode (w_intCodes w) (w_W w) (N.of_nat (snd r)) = Ok c) runs cs /\
  totalBits (w_root w) = fold_right (fun rc a => length (match codeOf (w_codes w) (fst (fst rc)) with Some z => z | None => [] end) + length (snd rc) + a) 0 (List.combine runs cs) /\
  exists n, look (w_root w) [] = Some n /\ length (bitVector n) = length runs.
Proof.
  intros worth src w NE H. destruct (tree_size worth src w NE H) as (runs & cs & R & F & T & K & B). exists runs, cs. split; [exact R|]. split; [exact F|]. split; [exact T|].
  assert (L : 0 < length runs) by (destruct runs; [destruct R as [R _]; cbn in R; congruence|cbn; lia]). destruct (w_root w) as [|[n|] l r]; try (cbn in K; lia). exists n. split; [reflexivity|exact K].
Qed.
Lemma tree_children : forall worth src w p n m b, src <> [] -> buildTree worth src = Ok w -> look (w_root w) p = Some n -> look (w_root w) (p ++ [b]) = Some m ->
  exists k, rank n b (length (bitVector n)) = Ok k /\ length (bitVector m) <= k.
Proof. intros worth src w p n m b NE H. destruct (tree_size worth src w NE H) as (? & ? & _ & _ & _ & _ & B). eapply balanced_look, B. Qed.

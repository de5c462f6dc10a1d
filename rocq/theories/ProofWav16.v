(** How many bits are coded. *)
From Coq Require Import List NArith Arith Bool Lia.
From Coq Require Import ZifyBool ZifyNat ZifyN.
From Verif Require Import Base Arrays SpecRuns ModelUtils ModelBitCoder ModelProb ModelWavelet.
From Verif Require Import ProofBitCoder ProofWav2 ProofWav3 ProofWav4 ProofWav5 ProofWav7 ProofWav8 ProofWav11 ProofWav12 ProofWav13 ProofWav14 ProofWav15.
Import ListNotations.
Open Scope nat_scope.

(** Only probabilities in range are coded. *)
Lemma trace_codable : forall calls e e' out, encodeTrace e calls = Ok (e', out) -> Forall codable calls.
Proof.
  induction calls as [|[b p] calls IH]; intros e e' out E; [constructor|]. cbn [encodeTrace] in E.
  apply bind_inv in E. destruct E as ([e1 o1] & E1 & E). apply bind_inv in E. destruct E as ([e2 o2] & E2 & E).
  constructor; [|eapply IH; exact E2]. unfold encode in E1. apply bind_inv in E1. destruct E1 as (sp & E1 & _). unfold Split in E1.
  unfold codable. cbn [snd]. destruct (N.leb_spec p kProbabilityScale) as [H|H]; [exact H|discriminate].
Qed.

Lemma heads_le : forall ws, length (heads ws) <= length ws.
Proof.
  induction ws as [|[|c r] ws IH]; [reflexivity| |]; cbn [length]; [change (length (heads ws) <= S (length ws))|change (S (length (heads ws)) <= S (length ws))]; lia.
Qed.

Section Count.
Variables PM GM AM : predictor.

Lemma root_count : forall bits prev pm cs g pm', encodeRoot PM bits prev pm = Ok (cs, g, pm') -> length cs = length bits.
Proof.
  induction bits as [|b bits IH]; intros prev pm cs g pm' E; cbn [encodeRoot] in E; [injection E as <- <- <-; reflexivity|].
  apply bind_inv in E. destruct E as ([c pm1] & E1 & E). apply bind_inv in E. destruct E as ([[cs1 g1] pm2] & E2 & E). injection E as <- <- <-.
  cbn [length]. f_equal. eapply IH. exact E2.
Qed.
Lemma leaves_count : forall bits gs am cs am', encodeLeaves AM bits gs am = Ok (cs, am') -> length cs <= length bits.
Proof.
  induction bits as [|b bits IH]; intros gs am cs am' E; cbn [encodeLeaves] in E; [injection E as <- <-; reflexivity|].
  destruct gs as [|[|] gs]; [discriminate| |].
  - apply bind_inv in E. destruct E as ([c am1] & E1 & E). apply bind_inv in E. destruct E as ([cs1 am2] & E2 & E). injection E as <- <-.
    apply IH in E2. cbn [length]. lia.
  - apply IH in E. cbn [length]. lia.
Qed.
Lemma leftLeaf_count : forall bits gs prev pm am cs g pm' am', encodeLeftLeaf PM AM bits gs prev pm am = Ok (cs, g, pm', am') -> length cs <= length bits.
Proof.
  induction bits as [|b bits IH]; intros gs prev pm am cs g pm' am' E; cbn [encodeLeftLeaf] in E; [injection E as <- <- <- <-; reflexivity|].
  destruct gs as [|f gs]; [discriminate|].
  apply bind_inv in E. destruct E as ([[c pm1] am1] & E1 & E). apply bind_inv in E. destruct E as ([[[cs1 g1] pm2] am2] & E2 & E). injection E as <- <- <- <-.
  apply IH in E2. rewrite app_length. cbn [length].
  assert (length c <= 1); [|lia]. destruct (prev || f)%bool.
  - apply bind_inv in E1. destruct E1 as ([[c1 x] y] & _ & E1). injection E1 as <- <- <-. reflexivity.
  - injection E1 as <- <- <-. cbn. lia.
Qed.
Lemma inner_count : forall bits gs prev pm am cs g pm' am', encodeInner PM AM bits gs prev pm am = Ok (cs, g, pm', am') -> length cs = length bits.
Proof.
  induction bits as [|b bits IH]; intros gs prev pm am cs g pm' am' E; cbn [encodeInner] in E; [injection E as <- <- <- <-; reflexivity|].
  destruct gs as [|f gs]; [discriminate|].
  apply bind_inv in E. destruct E as ([[c pm1] am1] & E1 & E). apply bind_inv in E. destruct E as ([[[cs1 g1] pm2] am2] & E2 & E). injection E as <- <- <- <-.
  cbn [length]. f_equal. eapply IH. exact E2.
Qed.
Lemma all_count : forall bits gm cs gm', encodeAll GM bits gm = Ok (cs, gm') -> length cs = length bits.
Proof.
  induction bits as [|b bits IH]; intros gm cs gm' E; cbn [encodeAll] in E; [injection E as <- <-; reflexivity|].
  apply bind_inv in E. destruct E as ([c gm1] & E1 & E). apply bind_inv in E. destruct E as ([cs1 gm2] & E2 & E). injection E as <- <-.
  cbn [length]. f_equal. eapply IH. exact E2.
Qed.

Variables (T : wtree) (W : list (list bool)).
Hypothesis HT : forall q n, look T q = Some n -> bitVector n = heads (ends q W).

Definition wt (p : list bool) : nat := length (heads (ends p W)).
Definition ht (p : list bool) : nat := height (fold_left child p T).
Fixpoint potential (ps : list (list bool)) : nat := match ps with [] => 0 | p :: ps => wt p * ht p + potential ps end.
Lemma potential_app : forall a b, potential (a ++ b) = potential a + potential b.
Proof. induction a as [|p a IH]; intros b; [reflexivity|]. cbn [app potential]. rewrite IH. lia. Qed.
Lemma heads_tails : forall ws, length (heads (tailsOf false ws)) + length (heads (tailsOf true ws)) <= length (heads ws).
Proof.
  assert (X : forall ws, length (heads ws) <= length ws).
  { induction ws as [|[|c r] ws IH]; [reflexivity| |]; cbn [length]; [change (length (heads ws) <= S (length ws))|change (S (length (heads ws)) <= S (length ws))]; lia. }
  assert (Y : forall ws, length (tailsOf false ws) + length (tailsOf true ws) = length (heads ws)).
  { induction ws as [|[|[|] r] ws IH]; [reflexivity|exact IH| |].
    - change (length (tailsOf false ws) + S (length (tailsOf true ws)) = S (length (heads ws))). rewrite <- IH. symmetry. apply plus_n_Sm.
    - change (S (length (tailsOf false ws)) + length (tailsOf true ws) = S (length (heads ws))). rewrite <- IH. reflexivity. }
  intros ws. rewrite <- (Y ws). apply Nat.add_le_mono; apply X.
Qed.
Lemma wt_children : forall p, wt (p ++ [false]) + wt (p ++ [true]) <= wt p.
Proof. intros p. unfold wt. rewrite !ends_snoc. apply heads_tails. Qed.
Lemma ht_child : forall p n b, look T p = Some n -> ht (p ++ [b]) < ht p.
Proof.
  intros p n b E. unfold ht. rewrite fold_left_app. cbn [fold_left]. rewrite <- (app_nil_r p), look_app in E.
  destruct (fold_left child p T) as [|v l r]; [discriminate|]. destruct b; cbn; lia.
Qed.
Lemma step_potential : forall p n, look T p = Some n -> wt p + wt (p ++ [false]) * ht (p ++ [false]) + wt (p ++ [true]) * ht (p ++ [true]) <= wt p * ht p.
Proof.
  intros p n E. pose proof (wt_children p) as A. pose proof (ht_child p n false E) as B. pose proof (ht_child p n true E) as C.
  destruct (ht p) as [|h]; [lia|].
  assert (wt (p ++ [false]) * ht (p ++ [false]) <= wt (p ++ [false]) * h) by (apply Nat.mul_le_mono_l; lia).
  assert (wt (p ++ [true]) * ht (p ++ [true]) <= wt (p ++ [true]) * h) by (apply Nat.mul_le_mono_l; lia).
  assert ((wt (p ++ [false]) + wt (p ++ [true])) * h <= wt p * h) by (apply Nat.mul_le_mono_r; lia). lia.
Qed.

Lemma queue_count : forall fuel queue pm am cs ints pm' am', encodeQueue PM AM fuel T queue pm am = Ok (cs, ints, pm', am') ->
  length cs + potential ints <= potential (qpaths queue).
Proof.
  induction fuel as [|fuel IH]; intros [|[p gs] queue] pm am cs ints pm' am' E; cbn [encodeQueue] in E; try discriminate;
    try (injection E as <- <- <- <-; reflexivity).
  apply bind_inv in E. destruct E as (pm1 & _ & E). apply bind_inv in E. destruct E as (am1 & _ & E).
  destruct (look T p) as [n|] eqn:EP; [|discriminate]. destruct (look T (p ++ [false])) as [nl|]; [|discriminate].
  destruct (look T (p ++ [true])) as [nr|]; [|discriminate].
  pose proof (step_potential p n EP) as SP. assert (LB : length (bitVector n) = wt p) by (rewrite (HT _ _ EP); reflexivity).
  destruct (bitVector n) as [|b0 bs] eqn:EB; [discriminate|]. rewrite <- EB in *. cbn [qpaths map fst potential]. fold (qpaths queue).
  destruct (symbol nl) as [sl|]; destruct (symbol nr) as [sr|]; try discriminate.
  - apply bind_inv in E. destruct E as ([c am2] & E1 & E). apply bind_inv in E. destruct E as ([[[c' i'] pm3] am3] & E2 & E). injection E as <- <- <- <-.
    apply leaves_count in E1. apply IH in E2. rewrite app_length. cbn [potential]. lia.
  - apply bind_inv in E. destruct E as ([[[c rg] pm2] am2] & E1 & E). apply bind_inv in E. destruct E as ([[[c' i'] pm3] am3] & E2 & E). injection E as <- <- <- <-.
    apply leftLeaf_count in E1. apply IH in E2. rewrite app_length. unfold qpaths in E2. rewrite map_app, potential_app in E2. cbn [map fst potential] in *.
    unfold qpaths. lia.
  - apply bind_inv in E. destruct E as ([[[c ch] pm2] am2] & E1 & E). apply bind_inv in E. destruct E as ([[[c' i'] pm3] am3] & E2 & E). injection E as <- <- <- <-.
    apply inner_count in E1. apply IH in E2. rewrite app_length. unfold qpaths in E2. rewrite map_app, potential_app in E2. cbn [map fst potential] in *.
    unfold qpaths. lia.
Qed.

Lemma goesOn_potential : forall p, potential (goesOn T p) <= wt p * ht p.
Proof.
  intros p. unfold goesOn. destruct (look T p) as [n|]; [|cbn; lia]. destruct (symbol n) as [s|]; [destruct (s =? 0)%N|]; cbn [potential]; lia.
Qed.
Lemma level_count : forall level gm cs l r gm', encodeLevel GM T level gm = Ok (cs, l, r, gm') -> length cs + potential l + potential r <= potential level.
Proof.
  induction level as [|p level IH]; intros gm cs l r gm' E; cbn [encodeLevel] in E; [injection E as <- <- <- <-; reflexivity|].
  destruct (look T p) as [n|] eqn:EP; [|discriminate]. apply bind_inv in E. destruct E as ([c gm1] & E1 & E).
  apply bind_inv in E. destruct E as ([[[c' l'] r'] gm2] & E2 & E). injection E as <- <- <- <-. apply all_count in E1. apply IH in E2.
  rewrite (HT _ _ EP) in E1. fold (wt p) in E1. pose proof (step_potential p n EP). pose proof (goesOn_potential (p ++ [false])). pose proof (goesOn_potential (p ++ [true])).
  rewrite app_length, !potential_app. cbn [potential]. lia.
Qed.
Lemma levels_count : forall fuel level gm cs gm', encodeLevels GM fuel T level gm = Ok (cs, gm') -> length cs <= potential level.
Proof.
  induction fuel as [|fuel IH]; intros level gm cs gm' E; cbn [encodeLevels] in E.
  - destruct level; [|discriminate]. injection E as <- <-. reflexivity.
  - destruct level as [|p level]; [injection E as <- <-; reflexivity|].
    apply bind_inv in E. destruct E as (gm1 & _ & E). apply bind_inv in E. destruct E as ([[[c l] r] gm2] & E1 & E).
    apply bind_inv in E. destruct E as ([c' gm3] & E2 & E). injection E as <- <-. apply level_count in E1. apply IH in E2.
    rewrite potential_app in E2. rewrite app_length. lia.
Qed.
Lemma enter_potential : forall p g queue ints, enter T p g = (queue, ints) -> potential (qpaths queue) + potential ints <= wt p * ht p.
Proof.
  intros p g queue ints E. unfold enter in E. destruct (look T p) as [n|]; [|injection E as <- <-; cbn; lia].
  destruct (symbol n); injection E as <- <-; cbn [qpaths map fst potential]; lia.
Qed.
Lemma tree_count : forall ms cs ms', encodeTreeBF PM GM AM T ms = Ok (cs, ms') -> length cs <= length (heads W) * height T.
Proof.
  intros [[pm gm] am] cs ms' E. unfold encodeTreeBF in E. destruct (look T []) as [n|] eqn:ER; [|discriminate].
  pose proof (HT _ _ ER) as LB. destruct (bitVector n) as [|b0 bs] eqn:EB; [discriminate|]. rewrite <- EB in *. clear EB.
  apply bind_inv in E. destruct E as ([[c0 g] pm1] & E0 & E).
  destruct (enter T [false] (fst g)) as [q1 i1] eqn:N1. destruct (enter T [true] (snd g)) as [q2 i2] eqn:N2.
  apply bind_inv in E. destruct E as ([[[c1 i3] pm2] am1] & E1 & E). apply bind_inv in E. destruct E as ([c2 gm1] & E2 & E). injection E as <- <-.
  apply root_count in E0. apply queue_count in E1. apply levels_count in E2. apply enter_potential in N1. apply enter_potential in N2.
  pose proof (step_potential [] n ER) as S0. cbn [app] in S0. change (ht []) with (height T) in S0. change (wt []) with (length (heads W)) in S0.
  rewrite LB in E0. cbn [ends] in E0. unfold qpaths in *. rewrite map_app, potential_app in E1. rewrite !potential_app in E2. rewrite !app_length. lia.
Qed.
End Count.

(** Heights. *)
Lemma dense_height : forall (t : wtree) k, dense t -> (forall q, look t q <> None -> length q < k) -> height t <= k.
Proof.
  intros t k D. revert k. induction D as [|v l r Dl IHl Dr IHr]; intros k H; [cbn; lia|].
  assert (K := H [] ltac:(discriminate)). destruct k as [|k]; [cbn in K; lia|]. cbn [height].
  assert (height l <= k) by (apply IHl; intros q Hq; specialize (H (false :: q) Hq); cbn in H; lia).
  assert (height r <= k) by (apply IHr; intros q Hq; specialize (H (true :: q) Hq); cbn in H; lia). lia.
Qed.
Lemma code_tree_height : forall t codes k, code_tree t codes -> (forall s c, In (s, c) codes -> length c < k) -> forall q, look t q <> None -> length q < k.
Proof.
  intros t codes k HC H q Hq. destruct (look t q) as [n|] eqn:E; [|congruence]. destruct (node_cases t _ HC _ _ E) as [->|(c & ->)].
  - destruct (ct_reach _ _ HC _ E) as (s & c & I). specialize (H _ _ I). rewrite app_length in H. lia.
  - apply (ct_codes _ _ HC) in E. exact (H _ _ E).
Qed.
Lemma sizes_in : forall codes s c, In (s, c) codes -> In (N.of_nat (length c), s) (sizesOf codes).
Proof. intros codes s c H. unfold sizesOf. apply in_map_iff. exists (s, c). auto. Qed.

Lemma intTable_tree : forall t codes, intTable t codes -> t = leaf 0 \/ code_tree t codes.
Proof. intros t codes [|l r cs Hl Hr HC HN H0]; auto. Qed.

Lemma words_length : forall T0 t WW runs ws, runWords T0 t WW runs ws -> length ws = length runs.
Proof. intros T0 t WW runs ws H. induction H; [reflexivity|cbn; f_equal; assumption]. Qed.

Section Heights.
Variables (src : list N) (w : wavelet) (T0 : wtree) (runs : list (N * nat)) (ws : list word) (CL L : list (N * N)).
Hypothesis HB : built src w T0 runs ws CL L.
Lemma codes_height : forall q, look T0 q <> None -> length q < 45.
Proof.
  pose proof (b_tables _ _ _ _ _ _ _ HB) as TB. eapply code_tree_height; [exact (tb_code _ _ _ _ _ _ TB)|].
  intros s c H. apply sizes_in in H. rewrite (tb_sizes _ _ _ _ _ _ TB) in H. pose proof (tb_range _ _ _ _ _ _ TB) as R. rewrite Forall_forall in R.
  specialize (R _ H). cbn [fst] in R. lia.
Qed.
Lemma int_height : height (w_intTree w) <= 2 + length src.
Proof.
  pose proof (b_tables _ _ _ _ _ _ _ HB) as TB. pose proof (tb_table _ _ _ _ _ _ TB) as IT.
  destruct (tb_lengths _ _ _ _ _ _ TB) as [(_ & -> & _)|((_ & LG & _) & LS & _)]; [cbn; lia|].
  pose proof (b_count _ _ _ _ _ _ _ HB) as BC.
  destruct (intTable_tree _ _ IT) as [->|HC]; [cbn; lia|].
  eapply Nat.le_trans; [apply (dense_height _ (length L))|lia]; [apply full_dense; exact (intTable_full _ _ IT)|].
  eapply code_tree_height; [exact HC|]. intros s c H. apply sizes_in in H. rewrite LS in H. rewrite Forall_forall in LG. specialize (LG _ H). cbn [fst] in LG. lia.
Qed.
Lemma tree_height : height (w_root w) <= 150 + length src.
Proof.
  apply dense_height; [exact (b_full _ _ _ _ _ _ _ HB)|]. intros q Hq. rewrite (b_look _ _ _ _ _ _ _ HB) in Hq. unfold stored in Hq.
  destruct (look T0 q) as [n|] eqn:E; [pose proof (codes_height q ltac:(congruence)); lia|].
  fold (wordsOf ws) in Hq. destruct (ends q (wordsOf ws)) as [|s ss] eqn:EE; [congruence|].
  assert (H : In s (ends q (wordsOf ws))) by (rewrite EE; left; reflexivity). apply ends_in in H.
  pose proof (runWords_all _ _ _ _ _ (b_words _ _ _ _ _ _ _ HB)) as HA. rewrite Forall_forall in HA.
  destruct (HA _ H) as (c & x & cc & ic & EQ & L1 & L2 & _). pose proof (codes_height cc ltac:(congruence)).
  pose proof (intWord_length _ _ _ _ (b_W _ _ _ _ _ _ _ HB) L2). pose proof int_height.
  apply (f_equal (@length bool)) in EQ. rewrite !app_length in EQ. lia.
Qed.
Lemma word_count : length ws <= length src.
Proof.
  pose proof (b_runs _ _ _ _ _ _ _ HB) as (R1 & R2 & R3). pose proof (runs_count runs R3) as RC. rewrite R1 in RC.
  pose proof (b_words _ _ _ _ _ _ _ HB) as H. apply words_length in H. rewrite H. exact RC.
Qed.
Lemma calls_count : forall PM GM AM ms cs ms', encodeTreeBF PM GM AM (w_root w) ms = Ok (cs, ms') -> length cs <= length src * (150 + length src).
Proof.
  intros PM GM AM ms cs ms' E. apply tree_count with (W := wordsOf ws) in E.
  - assert (LH : length (heads (wordsOf ws)) <= length src).
    { eapply Nat.le_trans; [apply heads_le|]. unfold wordsOf. rewrite map_length. exact word_count. }
    pose proof tree_height as TH. eapply Nat.le_trans; [exact E|]. apply Nat.mul_le_mono; assumption.
  - intros q n EQ. rewrite (b_look _ _ _ _ _ _ _ HB) in EQ. unfold stored in EQ. fold (wordsOf ws) in EQ. destruct (look T0 q); [injection EQ as <-; reflexivity|].
    destruct (ends q (wordsOf ws)); [discriminate|]. injection EQ as <-. reflexivity.
Qed.
End Heights.

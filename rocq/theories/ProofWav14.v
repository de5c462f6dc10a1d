(** The decoder rebuilds the tree. *)
From Coq Require Import List NArith Arith Bool Lia.
From Coq Require Import ZifyBool ZifyNat ZifyN.
From Verif Require Import Base Arrays SpecRuns ModelUtils ModelBitCoder ModelProb ModelWavelet.
From Verif Require Import ProofBitCoder ProofWav2 ProofWav4 ProofWav5 ProofWav7 ProofWav8 ProofWav11 ProofWav12 ProofWav13.
Import ListNotations.
Open Scope nat_scope.

Lemma full_has_leaf : forall t, full t -> exists q s, look t q = Some (mkNode [] (Some s)).
Proof.
  induction 1 as [s|l r Hl (q & s & IHl) Hr _]; [exists [], s; reflexivity|]. exists (false :: q), s. exact IHl.
Qed.
Lemma intTable_several : forall t codes, intTable t codes ->
  if 1 <? length codes then symbolOf t = None else t = leaf 0.
Proof.
  intros t codes [|l r cs Hl Hr HC HN H0]; [reflexivity|].
  destruct (full_has_leaf l Hl) as (ql & sl & El). destruct (full_has_leaf r Hr) as (qr & sr & Er).
  assert (I1 : In (sl, false :: ql) cs) by (apply (ct_codes _ _ HC); exact El).
  assert (I2 : In (sr, true :: qr) cs) by (apply (ct_codes _ _ HC); exact Er).
  destruct cs as [|a [|b cs]]; [destruct I1| |reflexivity].
  destruct I1 as [I1|[]], I2 as [I2|[]]. rewrite I1 in I2. discriminate.
Qed.

Lemma run_has_word : forall T0 t WW runs ws, runWords T0 t WW runs ws -> forall run, In run runs ->
  exists wd, In wd ws /\ runWord T0 t WW (fst run) (N.of_nat (snd run)) (fst wd).
Proof.
  intros T0 t WW runs ws HW run HR. induction HW as [|r0 w0 rs0 ws0 [H0 H1] _ IH]; [destruct HR|].
  destruct HR as [->|HR]; [exists w0; split; [left; reflexivity|exact H0]|].
  destruct (IH HR) as (wd & A & B). exists wd. split; [right; exact A|exact B].
Qed.
Lemma word_has_run : forall T0 t WW runs ws, runWords T0 t WW runs ws -> forall wd, In wd ws ->
  exists run, In run runs /\ runWord T0 t WW (fst run) (N.of_nat (snd run)) (fst wd) /\ snd wd = N.of_nat (snd run).
Proof.
  intros T0 t WW runs ws HW run HR. induction HW as [|r0 w0 rs0 ws0 [H0 H1] _ IH]; [destruct HR|].
  destruct HR as [->|HR]; [exists r0; split; [left; reflexivity|split; assumption]|].
  destruct (IH HR) as (wd & A & B). exists wd. split; [right; exact A|exact B].
Qed.

(** Neighbouring words have different bytes. *)
Section Differ.
Variables (T0 : wtree) (codes : list (N * list bool)) (t : wtree) (WW : N).
Hypothesis HC : code_tree T0 codes.
Lemma words_differ : forall c1 n1 w1 c2 n2 w2, runWord T0 t WW c1 n1 w1 -> runWord T0 t WW c2 n2 w2 ->
  c1 <> c2 -> Rel T0 [] w1 w2.
Proof.
  intros c1 n1 w1 c2 n2 w2 (cc1 & i1 & -> & L1 & _) (cc2 & i2 & -> & L2 & _) NE cc r1 r2 HL E1 E2. cbn [app] in E1, E2.
  destruct (leaf_unique T0 _ HC cc1 cc i1 r1 (ex_intro _ c1 L1) HL E1) as [A _].
  destruct (leaf_unique T0 _ HC cc2 cc i2 r2 (ex_intro _ c2 L2) HL E2) as [B _]. congruence.
Qed.
Lemma okg_false : forall rs ws0 c n prev, runWords T0 t WW rs ws0 ->
  runWord T0 t WW c n prev -> neighbours_differ ((c, N.to_nat n) :: rs) ->
  okg (Rel T0 []) (Some prev) (wordsOf ws0) (repeat false (length ws0)).
Proof.
  intros rs ws0 c n prev H. revert c n prev. induction H as [|run w0 rs ws0 [H1 H2] H IH]; intros c n prev HP HN; [constructor|].
  destruct run as [c1 n1]. destruct HN as [D HN]. cbn [wordsOf map length repeat]. constructor.
  - intros _. exists prev. split; [reflexivity|]. eapply words_differ; [exact HP|exact H1|exact D].
  - eapply (IH c1 (N.of_nat n1)); [exact H1|]. rewrite Nat2N.id. exact HN.
Qed.
Lemma okg_root : forall runs ws, runWords T0 t WW runs ws -> runs <> [] -> neighbours_differ runs ->
  okg (Rel T0 []) None (wordsOf ws) (true :: repeat false (length ws - 1)).
Proof.
  intros runs ws H HNE ND. destruct H as [|run w0 rs ws0 [H1 H2] H3]; [congruence|]. cbn [wordsOf map length]. constructor; [discriminate|].
  match goal with |- okg _ _ _ (repeat false ?k) => replace k with (length ws0) by (symmetry; apply Nat.sub_0_r) end.
  destruct run as [c n]. eapply (okg_false rs ws0 c (N.of_nat n)); [exact H3|exact H1|]. rewrite Nat2N.id. exact ND.
Qed.
End Differ.

Section Tree.
Variables PM GM AM : predictor.
Hypothesis IDEM : forall s s', p_reset GM s = Ok s' -> p_reset GM s' = Ok s'.
Variables (src : list N) (w : wavelet) (T0 : wtree) (runs : list (N * nat)) (ws : list word) (CL L : list (N * N)).
Hypothesis HB : built src w T0 runs ws CL L.
Hypothesis HNE : runs <> [].
Notation W := (wordsOf ws).
Notation T := (w_root w).

Let HC : code_tree T0 (w_codes w) := tb_code _ _ _ _ _ _ (b_tables _ _ _ _ _ _ _ HB).
Let HIT : intTable (w_intTree w) (w_intCodes w) := tb_table _ _ _ _ _ _ (b_tables _ _ _ _ _ _ _ HB).
Let HF : full (w_intTree w) := intTable_full _ _ HIT.
Let HWORD : Forall (fun x => exists c n, runWord T0 (w_intTree w) (w_W w) c n x) W := runWords_all _ _ _ _ _ (b_words _ _ _ _ _ _ _ HB).

Lemma T_node : forall q n, look T0 q = Some n -> look T q = Some (mkNode (heads (ends q W)) (symbol n)).
Proof. intros q n E. rewrite (b_look _ _ _ _ _ _ _ HB). unfold stored. rewrite E. reflexivity. Qed.
Lemma T_other : forall q, look T0 q = None -> look T q = match ends q W with [] => None | _ => Some (mkNode (heads (ends q W)) (symOf q ws)) end.
Proof. intros q E. rewrite (b_look _ _ _ _ _ _ _ HB). unfold stored. rewrite E. reflexivity. Qed.
Lemma W_parts : Forall (fun x => exists c cc ic, x = cc ++ ic /\ look T0 cc = Some (mkNode [] (Some c)) /\ ic <> []) W.
Proof. eapply Forall_impl; [|exact HWORD]. intros x (c & n & cc & ic & A & B & C & D & E). exists c, cc, ic. auto. Qed.
Lemma W_nonempty : W <> [].
Proof. pose proof (b_words _ _ _ _ _ _ _ HB) as H. inversion H; subst; [congruence|discriminate]. Qed.
Lemma leaf_nonempty : forall cc c, look T0 cc = Some (mkNode [] (Some c)) -> cc <> [].
Proof. intros cc c E ->. rewrite (ct_root _ _ HC) in E. discriminate. Qed.
Lemma leaf_in : forall s c, In (s, c) (w_codes w) -> exists r, In (c ++ r) W.
Proof.
  intros s c H. pose proof (b_used _ _ _ _ _ _ _ HB s (in_map fst _ _ H)) as HU. apply in_map_iff in HU. destruct HU as (run & <- & HR).
  pose proof (b_words _ _ _ _ _ _ _ HB) as HW. unfold wordsOf.
  pose proof (run_has_word _ _ _ _ _ HW run HR) as G.
  destruct G as (wd & G1 & cc & ic & E & HL & _). apply (ct_codes _ _ HC) in HL.
  assert (cc = c).
  { pose proof (tb_nodup _ _ _ _ _ _ (b_tables _ _ _ _ _ _ _ HB)) as ND. rewrite <- (tb_sizes _ _ _ _ _ _ (b_tables _ _ _ _ _ _ _ HB)), sizes_symbols in ND.
    clear - ND HL H. induction (w_codes w) as [|[x y] l IH]; [destruct H|]. cbn in ND. inversion ND as [|? ? N1 N2]; subst.
    destruct HL as [E1|HL], H as [E2|H].
    - congruence.
    - injection E1 as -> ->. exfalso. apply N1. apply (in_map fst) in H. exact H.
    - injection E2 as -> ->. exfalso. apply N1. apply (in_map fst) in HL. exact HL.
    - auto. }
  subst cc. exists ic. rewrite <- E. apply in_map. exact G1.
Qed.
Lemma right_used : forall n, look T0 [true] = Some n -> tailsOf true W <> [].
Proof.
  intros n E C. assert (G : exists s c, In (s, true :: c) (w_codes w)).
  { destruct (node_cases T0 _ HC _ _ E) as [->|(c & ->)].
    - destruct (ct_reach _ _ HC _ E) as (s & c & H). exists s, c. exact H.
    - exists c, []. apply (ct_codes _ _ HC). exact E. }
  destruct G as (s & c & H). destruct (leaf_in _ _ H) as (r & Hr). cbn [app] in Hr. apply tailsOf_in in Hr. rewrite C in Hr. destruct Hr.
Qed.
Lemma right_unused : look T0 [true] = None -> tailsOf true W = [].
Proof.
  intros E. destruct (tailsOf true W) as [|s ss] eqn:EW; [reflexivity|]. exfalso.
  assert (H : In s (tailsOf true W)) by (rewrite EW; left; reflexivity). apply tailsOf_in in H.
  pose proof W_parts as HP. rewrite Forall_forall in HP. destruct (HP _ H) as (c & cc & ic & EQ & HL & _).
  destruct cc as [|b [|b' cc]]; [exact (leaf_nonempty _ _ HL eq_refl)| |]; injection EQ as <- _.
  - congruence.
  - pose proof (ct_prefix _ _ HC cc [true] b' _ HL). congruence.
Qed.


(** The levels of the integer codes as the encoder has them. *)
Lemma T_below : forall cc u, isLeaf T0 cc -> (u = [] \/ ends (cc ++ u) W <> []) ->
  exists n, look T (cc ++ u) = Some n /\ bitVector n = heads (ends (cc ++ u) W).
Proof.
  intros cc u (c & HL) H. destruct u as [|b u].
  - rewrite app_nil_r. eexists. split; [apply T_node; exact HL|reflexivity].
  - destruct H as [H|H]; [discriminate|]. rewrite T_other by (eapply ct_beyond; [exact HC|exact HL]).
    destruct (ends (cc ++ b :: u) W) eqn:E; [congruence|]. eexists. split; [reflexivity|]. reflexivity.
Qed.
Lemma T_goesOn : forall cc u, isLeaf T0 cc -> u <> [] ->
  (ends (cc ++ u) W = [] -> goesOn T (cc ++ u) = []) /\
  (In [] (ends (cc ++ u) W) -> goesOn T (cc ++ u) = []) /\
  (ends (cc ++ u) W <> [] -> ~ In [] (ends (cc ++ u) W) -> goesOn T (cc ++ u) = [cc ++ u]).
Proof.
  intros cc [|b u] (c & HL) Hu; [congruence|]. unfold goesOn. rewrite T_other by (eapply ct_beyond; [exact HC|exact HL]).
  split; [intros ->; reflexivity|]. split.
  - intros H. destruct (ends (cc ++ b :: u) W) as [|x l] eqn:E; [destruct H|]. cbn [symbol]. rewrite <- E in H. apply ends_in in H. rewrite app_nil_r in H.
    destruct (symOf_in _ _ H) as (wd & H1 & H2 & ->). destruct (word_has_run _ _ _ _ _ (b_words _ _ _ _ _ _ _ HB) _ H1) as (run & R1 & (cc' & ic & _ & _ & _ & R3 & _) & R4).
    rewrite R4. destruct (N.eqb_spec (N.of_nat (snd run)) 0) as [|_]; [contradiction|reflexivity].
  - intros H1 H2. destruct (ends (cc ++ b :: u) W) as [|x l] eqn:E; [congruence|]. cbn [symbol]. rewrite <- E in H2.
    replace (symOf (cc ++ b :: u) ws) with (@None N); [reflexivity|]. symmetry. apply symOf_none. intros x0 C. apply H2. apply ends_in. rewrite app_nil_r. apply (in_map fst) in C. exact C.
Qed.

(** The children of the root. *)
Definition enters (b : bool) (g : list bool) (queue : queueOf) (ints : list (list bool)) : Prop :=
  isInner T0 [b] /\ queue = [([b], g)] /\ ints = [] \/
  isLeaf T0 [b] /\ queue = [] /\ ints = [[b]] \/
  look T0 [b] = None /\ ends [b] W = [] /\ queue = [] /\ ints = [].
Lemma enter_enters : forall b g queue ints, enter T [b] g = (queue, ints) -> enters b g queue ints.
Proof.
  intros b g queue ints E. unfold enter in E. destruct (look T0 [b]) as [n|] eqn:EL.
  - rewrite (T_node _ _ EL) in E. cbn [symbol] in E. destruct (node_cases T0 _ HC _ _ EL) as [->|(c & ->)]; cbn [symbol] in E; injection E as <- <-.
    + left. auto.
    + right. left. split; [exists c; exact EL|]. auto.
  - assert (EE : ends [b] W = []).
    { destruct b; [cbn [ends]; apply right_unused; exact EL|]. destruct (ct_left _ _ HC) as (n & C). congruence. }
    rewrite (T_other _ EL), EE in E. injection E as <- <-. right. right. auto.
Qed.
Lemma enters_decode : forall t b g queue ints, enters b g queue ints -> length g = length (ends [b] W) -> (forall r, look t (b :: r) = look T0 (b :: r)) ->
  look T0 [b] <> None -> decodeEnter (w_intTree w) t [b] g = Ok (queue, map (entry W (w_intTree w)) ints).
Proof.
  intros t b g queue ints H HL Ht NN. unfold decodeEnter. rewrite Ht.
  destruct H as [(A & -> & ->)|[((c & A) & -> & ->)|(A & _)]]; [| |congruence]; rewrite A; cbn [symbol map].
  - reflexivity.
  - unfold entry. rewrite HL. reflexivity.
Qed.
Lemma enters_queue : forall b g queue ints, enters b g queue ints -> okg (Rel T0 [b]) None (ends [b] W) g -> queue_ok T0 W queue.
Proof.
  intros b g queue ints [(A & -> & _)|[(A & -> & _)|(_ & _ & -> & _)]] H; [|constructor|constructor].
  constructor; [|constructor]. split; [exact A|]. split; [discriminate|exact H].
Qed.
Lemma enters_paths : forall b g queue ints, enters b g queue ints -> qpaths queue = [] \/ qpaths queue = [[b]].
Proof. intros b g queue ints [(A & -> & _)|[(A & -> & _)|(_ & _ & -> & _)]]; auto. Qed.
Lemma enters_leaf : forall b g queue ints r, enters b g queue ints -> isLeaf T0 (b :: r) -> In (b :: r) ints \/ below (qpaths queue) (b :: r) = true.
Proof.
  intros b g queue ints r [(A & -> & ->)|[((s & A) & -> & ->)|(A & _ & -> & ->)]] (c & HL).
  - right. apply below_spec. exists [b], r. split; [left; reflexivity|reflexivity].
  - left. destruct r as [|b' r]; [left; reflexivity|]. pose proof (ct_beyond _ _ HC [b] s b' r A) as C. cbn [app] in C. congruence.
  - exfalso. destruct r as [|b' r]; [congruence|]. pose proof (ct_prefix _ _ HC r [b] b' _ HL). congruence.
Qed.
Lemma enters_inner : forall b g queue ints r, enters b g queue ints -> isInner T0 (b :: r) -> below (qpaths queue) (b :: r) = true.
Proof.
  intros b g queue ints r [(A & -> & ->)|[((s & A) & -> & ->)|(A & _ & -> & ->)]] HL; unfold isInner in HL.
  - apply below_spec. exists [b], r. split; [left; reflexivity|reflexivity].
  - exfalso. destruct r as [|b' r]; [congruence|]. pose proof (ct_beyond _ _ HC [b] s b' r A) as C. cbn [app] in C. congruence.
  - exfalso. destruct r as [|b' r]; [congruence|]. pose proof (ct_prefix _ _ HC r [b] b' _ HL). congruence.
Qed.
Lemma enters_ints : forall b g queue ints, enters b g queue ints -> ints = [] \/ ints = [[b]] /\ isLeaf T0 [b] /\ queue = [].
Proof. intros b g queue ints [(A & -> & ->)|[(A & -> & ->)|(A & _ & -> & ->)]]; auto. Qed.

Section Entered.
Variables (g1 g2 : list bool) (queue1 queue2 : queueOf) (ints1 ints2 ints : list (list bool)).
Hypothesis EN1 : enters false g1 queue1 ints1.
Hypothesis EN2 : enters true g2 queue2 ints2.
Hypothesis HI : ints_ok T0 (queue1 ++ queue2) ints.

Lemma entered_antichain : antichain (qpaths (queue1 ++ queue2)).
Proof.
  unfold qpaths. rewrite map_app. fold (qpaths queue1) (qpaths queue2).
  destruct (enters_paths _ _ _ _ EN1) as [->| ->], (enters_paths _ _ _ _ EN2) as [->| ->]; cbn [app].
  - constructor.
  - constructor; constructor.
  - constructor; constructor.
  - constructor; [constructor; [split; reflexivity|constructor]|]. constructor; constructor.
Qed.
Lemma entered_below : forall q, below (qpaths (queue1 ++ queue2)) q = (below (qpaths queue1) q || below (qpaths queue2) q)%bool.
Proof. intros q. unfold qpaths, below. rewrite map_app, existsb_app. reflexivity. Qed.
Lemma entered_inner : forall q, q <> [] -> isInner T0 q -> below (qpaths (queue1 ++ queue2)) q = true.
Proof.
  intros [|b r] H HL; [congruence|]. rewrite entered_below. destruct b.
  - rewrite (enters_inner _ _ _ _ _ EN2 HL). apply orb_true_r.
  - rewrite (enters_inner _ _ _ _ _ EN1 HL). reflexivity.
Qed.
Lemma entered_root : below (qpaths (queue1 ++ queue2)) [] = false.
Proof.
  rewrite entered_below. destruct (enters_paths _ _ _ _ EN1) as [->| ->], (enters_paths _ _ _ _ EN2) as [->| ->]; reflexivity.
Qed.
Definition leaves := ints1 ++ ints2 ++ ints.
Lemma leaves_all : forall q, isLeaf T0 q -> In q leaves.
Proof.
  intros [|b r] HL; [destruct HL as (c & HL); exfalso; exact (leaf_nonempty _ _ HL eq_refl)|].
  unfold leaves. rewrite !in_app_iff. destruct HI as (_ & _ & _ & I4).
  destruct b.
  - destruct (enters_leaf _ _ _ _ _ EN2 HL) as [H|H]; [auto|]. right. right. apply I4; [exact HL|]. rewrite entered_below, H. apply orb_true_r.
  - destruct (enters_leaf _ _ _ _ _ EN1 HL) as [H|H]; [auto|]. right. right. apply I4; [exact HL|]. rewrite entered_below, H. reflexivity.
Qed.
Lemma leaves_leaf : Forall (isLeaf T0) leaves.
Proof.
  destruct HI as (I1 & _). apply Forall_app. split; [|apply Forall_app; split; [|exact I1]].
  - destruct (enters_ints _ _ _ _ EN1) as [->|(-> & A & _)]; auto.
  - destruct (enters_ints _ _ _ _ EN2) as [->|(-> & A & _)]; auto.
Qed.
Lemma leaves_nodup : NoDup leaves.
Proof.
  destruct HI as (_ & I2 & I3 & _). unfold leaves.
  assert (X : forall b, below (qpaths (queue1 ++ queue2)) [b] = true -> isLeaf T0 [b] -> False).
  { intros b H (c & HL). apply below_spec in H. destruct H as (p & r & H1 & H2).
    unfold qpaths in H1. rewrite map_app in H1. apply in_app_iff in H1. fold (qpaths queue1) (qpaths queue2) in H1.
    destruct H1 as [H1|H1].
    - destruct EN1 as [(A & -> & _)|[(A & -> & _)|(_ & _ & -> & _)]]; [|destruct H1|destruct H1]. destruct H1 as [<-|[]].
      injection H2 as -> _. unfold isInner in A. cbn [fst] in A. congruence.
    - destruct EN2 as [(A & -> & _)|[(A & -> & _)|(_ & _ & -> & _)]]; [|destruct H1|destruct H1]. destruct H1 as [<-|[]].
      injection H2 as -> _. unfold isInner in A. cbn [fst] in A. congruence. }
  destruct (enters_ints _ _ _ _ EN1) as [->|(-> & A & _)], (enters_ints _ _ _ _ EN2) as [->|(-> & A2 & _)]; cbn [app].
  - exact I2.
  - constructor; [intros H; exact (X _ (I3 _ H) A2)|exact I2].
  - constructor; [intros H; exact (X _ (I3 _ H) A)|exact I2].
  - constructor; [intros [H|H]; [discriminate|exact (X _ (I3 _ H) A)]|].
    constructor; [intros H; exact (X _ (I3 _ H) A2)|exact I2].
Qed.
End Entered.
End Tree.

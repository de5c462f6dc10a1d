(** Coding the bit vectors of the run lengths, level by level. *)
From Coq Require Import List NArith Arith Bool Lia.
From Coq Require Import ZifyBool ZifyNat ZifyN.
From Verif Require Import Base Arrays ModelUtils ModelBitCoder ModelProb ModelWavelet.
From Verif Require Import ProofBitCoder ProofWav2 ProofWav4 ProofWav5 ProofWav7 ProofWav8 ProofWav11 ProofWav12.
Import ListNotations.
Open Scope nat_scope.

Lemma antichain_in : forall ps a b, antichain ps -> In a ps -> In b ps -> a = b \/ apart a b.
Proof.
  induction 1 as [|p ps HF H IH]; intros Ha Hb; [destruct Ha|]. rewrite Forall_forall in HF.
  destruct Ha as [<-|Ha], Hb as [<-|Hb]; auto. right. apply apart_sym. auto.
Qed.
Lemma antichain_app : forall a b, antichain a -> antichain b -> (forall x y, In x a -> In y b -> apart x y) -> antichain (a ++ b).
Proof.
  induction 1 as [|p ps HF H IH]; intros Hb HX; [exact Hb|]. cbn. constructor.
  - apply Forall_app. split; [exact HF|]. apply Forall_forall. intros y Hy. apply HX; [left; reflexivity|exact Hy].
  - apply IH; [exact Hb|]. intros x y Hx Hy. apply HX; [right; exact Hx|exact Hy].
Qed.
Lemma apart_app2 : forall p q r s, apart p q -> apart (p ++ r) (q ++ s).
Proof. intros p q r s H. apply apart_app, apart_sym, apart_app, apart_sym. exact H. Qed.

Section Levels.
Variable GM : predictor.
Variables (T0 : wtree) (codes : list (N * list bool)).
Hypothesis HC : code_tree T0 codes.
Variables (intTree : wtree) (WW : N) (several : bool).
Hypothesis HF : full intTree.
Hypothesis HW : (WW <= 15)%N.
Hypothesis HS : if several then symbolOf intTree = None else intTree = leaf 0.
Variable W : list (list bool).
Variable T : wtree.
Notation isLeaf := (isLeaf T0).
(** The tree of the encoder below the characters. *)
Hypothesis HT1 : forall cc u, isLeaf cc -> (u = [] \/ ends (cc ++ u) W <> []) ->
  exists n, look T (cc ++ u) = Some n /\ bitVector n = heads (ends (cc ++ u) W).
Hypothesis HT2 : forall cc u, isLeaf cc -> u <> [] ->
  (ends (cc ++ u) W = [] -> goesOn T (cc ++ u) = []) /\
  (In [] (ends (cc ++ u) W) -> goesOn T (cc ++ u) = []) /\
  (ends (cc ++ u) W <> [] -> ~ In [] (ends (cc ++ u) W) -> goesOn T (cc ++ u) = [cc ++ u]).

Definition stateOf (e : integerNode) : istate := (i_tree e, i_leadingOnes e, i_status e).
Definition fin (e : integerNode) : bool := finishedSt (stateOf e).
Definition unfin (e : integerNode) : bool := negb (fin e).

Lemma leaf_unique : forall c1 c2 u1 u2, isLeaf c1 -> isLeaf c2 -> c1 ++ u1 = c2 ++ u2 -> c1 = c2 /\ u1 = u2.
Proof.
  intros c1 c2 u1 u2 (s1 & L1) (s2 & L2) E. apply common_prefix in E. destruct E as [([|b e] & E1 & E2)|([|b e] & E1 & E2)].
  - rewrite app_nil_r in E1. auto.
  - subst c2. rewrite (ct_beyond _ _ HC _ _ _ _ L1) in L2. discriminate.
  - rewrite app_nil_r in E1. auto.
  - subst c1. rewrite (ct_beyond _ _ HC _ _ _ _ L2) in L1. discriminate.
Qed.

(** The symbol of a node as the decoder needs it. *)
Definition symOK (q : list bool) (n' : node) : Prop :=
  (forall c, look T0 q = Some (mkNode [] (Some c)) -> symbol n' = Some c) /\
  (forall cc u n, isLeaf cc -> u <> [] -> q = cc ++ u -> look intTree u = Some n -> symbol n' = symbol n).

Record egood (t : wtree) (e : integerNode) : Prop := mkGood {
  eg_path : exists cc u c, look T0 cc = Some (mkNode [] (Some c)) /\ i_path e = cc ++ u /\ i_tree e = fold_left child u intTree /\
    (u = [] \/ ends (i_path e) W <> []) /\
    look t (i_path e) = Some (mkNode [] (match u with [] => Some c | _ => None end));
  eg_bits : i_bits e = length (ends (i_path e) W);
  eg_valid : Forall (valid WW (stateOf e)) (ends (i_path e) W);
  eg_kept : droppedSt (stateOf e) = false;
  eg_below : forall b r, look t (i_path e ++ b :: r) = None
}.

Lemma egood_same : forall t t' e, egood t e -> (forall q, pre (i_path e) q = true -> look t' q = look t q) -> egood t' e.
Proof.
  intros t t' e [G1 G2 G3 G4 G5] H. constructor; auto.
  - destruct G1 as (cc & u & c & A & B & C & D & E). exists cc, u, c. repeat split; auto. rewrite H; [exact E|].
    apply pre_spec. exists []. rewrite app_nil_r. reflexivity.
  - intros b r. rewrite H; [apply G5|]. apply pre_spec. eauto.
Qed.

Lemma encodeAll_sim : forall bits gm cs gm' trace rest D, encodeAll GM bits gm = Ok (cs, gm') -> dec_ready (cs ++ trace) rest D ->
  exists D', decodeAll GM (length bits) gm D = Ok (bits, gm', D') /\ dec_ready trace rest D'.
Proof.
  induction bits as [|b bits IH]; intros gm cs gm' trace rest D E HD; cbn [encodeAll decodeAll length] in *.
  - injection E as <- <-. eauto.
  - apply bind_inv in E. destruct E as ([c gm1] & E1 & E). apply bind_inv in E. destruct E as ([cs1 gm2] & E2 & E). injection E as <- <-.
    cbn [app] in HD. destruct (decodeBit_spec _ _ _ _ _ _ _ _ E1 HD) as (D1 & -> & R1). cbn [bind].
    destruct (IH _ _ _ _ _ _ E2 R1) as (D2 & -> & R2). cbn [bind]. eauto.
Qed.

(** The child of an entry. *)
Definition childOf (e : integerNode) (b : bool) : integerNode := childEntry WW e b (length (ends (i_path e ++ [b]) W)).
Lemma childOf_state : forall e b, stateOf (childOf e b) = istep WW (stateOf e) b.
Proof.
  intros e b. unfold childOf, stateOf. rewrite childEntry_istep. destruct (istep WW (i_tree e, i_leadingOnes e, i_status e) b) as [[x y] z]. reflexivity.
Qed.
Lemma childOf_path : forall e b, i_path (childOf e b) = i_path e ++ [b].
Proof. intros e b. unfold childOf. rewrite childEntry_istep. destruct (istep _ _ _) as [[x y] z]. reflexivity. Qed.
Lemma childOf_bits : forall e b, i_bits (childOf e b) = length (ends (i_path e ++ [b]) W).
Proof. intros e b. unfold childOf. rewrite childEntry_istep. destruct (istep _ _ _) as [[x y] z]. reflexivity. Qed.
Lemma istep_tree : forall st b, fst (fst (istep WW st b)) = child (fst (fst st)) b.
Proof.
  intros [[t k] s] b. cbn [istep fst]. destruct (child t b); [|reflexivity].
  destruct (s =? 0)%N; [destruct b; reflexivity|]. destruct (s =? 1)%N; [destruct b; reflexivity|]. reflexivity.
Qed.
Lemma childOf_tree : forall e b, i_tree (childOf e b) = child (i_tree e) b.
Proof. intros e b. pose proof (istep_tree (stateOf e) b) as H. rewrite <- childOf_state in H. exact H. Qed.

Lemma childOf_valid : forall t e b, egood t e -> Forall (valid WW (stateOf (childOf e b))) (ends (i_path e ++ [b]) W).
Proof.
  intros t e b HE. rewrite childOf_state. apply Forall_forall. intros s Hs. rewrite ends_snoc in Hs. apply tailsOf_in in Hs.
  pose proof (eg_valid _ _ HE) as HV. rewrite Forall_forall in HV. apply HV in Hs. apply valid_step; assumption.
Qed.
Definition kept (e : integerNode) (b : bool) : list integerNode :=
  match ends (i_path e ++ [b]) W with
  | [] => []
  | _ => if droppedSt (stateOf (childOf e b)) then [] else [childOf e b]
  end.

Lemma goesOn_kept : forall t e b, egood t e -> goesOn T (i_path e ++ [b]) = map i_path (filter unfin (kept e b)).
Proof.
  intros t e b HE. destruct (eg_path _ _ HE) as (cc & u & c & HL & EP & _).
  assert (L : isLeaf cc) by (exists c; exact HL).
  assert (NU : u ++ [b] <> []) by (destruct u; discriminate).
  destruct (HT2 cc (u ++ [b]) L NU) as (G1 & G2 & G3). rewrite app_assoc, <- EP in G1, G2, G3.
  pose proof (childOf_valid t e b HE) as HV.
  unfold kept. destruct (ends (i_path e ++ [b]) W) as [|s ss] eqn:EE; [apply G1; reflexivity|].
  pose proof (Forall_inv HV) as V0. pose proof (valid_end _ _ _ V0) as VE.
  unfold unfin, fin. destruct (droppedSt (stateOf (childOf e b))) eqn:ED.
  - cbn [filter map]. apply G2. left. apply VE. apply orb_true_r.
  - cbn [filter map]. unfold unfin, fin. destruct (finishedSt (stateOf (childOf e b))) eqn:EF; cbn [negb].
    + cbn [map]. apply G2. left. apply VE. reflexivity.
    + cbn [map]. rewrite childOf_path. apply G3; [discriminate|]. intros C. rewrite Forall_forall in HV. apply HV in C. apply valid_end in C.
      rewrite EF, ED in C. cbn in C. apply proj1 in C. specialize (C eq_refl). discriminate.
Qed.

Lemma droppedSt_eq : forall e, (negb (i_status e =? 2)%N || (0 <? i_leadingOnes e)%N)%bool = negb (droppedSt (stateOf e)).
Proof. intros e. unfold droppedSt, stateOf. cbn [fst snd]. destruct (i_status e =? 2)%N, (0 <? i_leadingOnes e)%N; reflexivity. Qed.

(** One child. *)
Lemma descend_spec : forall t e b, look t (i_path e ++ [b]) = None ->
  exists t', descend WW t e b (length (ends (i_path e ++ [b]) W)) = (t', kept e b) /\
    (forall q, q <> i_path e ++ [b] -> look t' q = look t q) /\
    (ends (i_path e ++ [b]) W <> [] -> look t' (i_path e ++ [b]) = Some (mkNode [] None)) /\
    (ends (i_path e ++ [b]) W = [] -> look t' (i_path e ++ [b]) = None).
Proof.
  intros t e b HN. unfold descend, kept. fold (childOf e b). rewrite childOf_path, droppedSt_eq, HN.
  destruct (ends (i_path e ++ [b]) W) as [|s ss] eqn:EE.
  - cbn [length Nat.ltb Nat.leb]. exists t. repeat split; auto. congruence.
  - replace (0 <? length (s :: ss)) with true by (symmetry; apply Nat.ltb_lt; cbn; lia). eexists. split.
    { destruct (droppedSt (stateOf (childOf e b))); reflexivity. }
    split; [intros q Hq; apply look_put_other; congruence|]. split; [intros _; apply look_put_same|discriminate].
Qed.

(** An entry whose bits are read. *)
Lemma entry_step : forall t e n, egood t e -> fin e = false -> bitVector n = [] -> symOK (i_path e) n ->
  exists t2 t3,
    descend WW (put t (i_path e) (pushedAll n (heads (ends (i_path e) W)))) e false (i_bits e - ones (heads (ends (i_path e) W))) = (t2, kept e false) /\
    descend WW t2 e true (ones (heads (ends (i_path e) W))) = (t3, kept e true) /\
    look t3 (i_path e) = Some (mkNode (heads (ends (i_path e) W)) (symbol n)) /\
    (forall q, pre (i_path e) q = false -> look t3 q = look t q) /\
    (forall b, ends (i_path e ++ [b]) W <> [] -> look t3 (i_path e ++ [b]) = Some (mkNode [] None)) /\
    (forall b, Forall (egood t3) (kept e b)).
Proof.
  intros t e n HE FE BN SN.
  assert (PR : proper (ends (i_path e) W)).
  { eapply Forall_impl; [|exact (eg_valid _ _ HE)]. intros s Hs C. apply (proj1 (valid_end _ _ _ Hs)) in C. unfold fin in FE.
    rewrite FE, (eg_kept _ _ HE) in C. discriminate. }
  assert (K0 : i_bits e - ones (heads (ends (i_path e) W)) = length (ends (i_path e ++ [false]) W)).
  { rewrite (eg_bits _ _ HE), ends_snoc, (tails_false _ PR). reflexivity. }
  assert (K1 : ones (heads (ends (i_path e) W)) = length (ends (i_path e ++ [true]) W)) by (rewrite ends_snoc, tails_true; reflexivity).
  rewrite K0. rewrite K1.
  assert (NE : forall (p : list bool) b r, p <> p ++ b :: r).
  { intros p b r C. rewrite <- (app_nil_r p) in C at 1. apply app_inv_head in C. discriminate. }
  set (t1 := put t (i_path e) (pushedAll n (heads (ends (i_path e) W)))).
  assert (L1 : forall b r, look t1 (i_path e ++ b :: r) = None).
  { intros b r. unfold t1. rewrite look_put_other by apply NE. apply (eg_below _ _ HE). }
  destruct (descend_spec t1 e false (L1 false [])) as (t2 & D2 & A2 & B2 & C2).
  assert (L2 : look t2 (i_path e ++ [true]) = None).
  { rewrite A2; [apply L1|]. intros C. apply app_inv_head in C. discriminate. }
  destruct (descend_spec t2 e true L2) as (t3 & D3 & A3 & B3 & C3).
  exists t2, t3. split; [exact D2|]. split; [exact D3|].
  assert (X1 : look t3 (i_path e) = Some (mkNode (heads (ends (i_path e) W)) (symbol n))).
  { rewrite A3 by apply NE. rewrite A2 by apply NE. unfold t1. rewrite look_put_same. unfold pushedAll. rewrite BN. reflexivity. }
  assert (X2 : forall q, pre (i_path e) q = false -> look t3 q = look t q).
  { intros q Hq. assert (G : forall r, q <> i_path e ++ r). { intros r C. assert (pre (i_path e) q = true) by (apply pre_spec; eauto). congruence. }
    rewrite A3 by apply G. rewrite A2 by apply G. unfold t1. apply look_put_other. intros C. apply (G []). rewrite app_nil_r. congruence. }
  assert (X3 : forall b, ends (i_path e ++ [b]) W <> [] -> look t3 (i_path e ++ [b]) = Some (mkNode [] None)).
  { intros [|] Hb; [apply B3; exact Hb|]. rewrite A3; [apply B2; exact Hb|]. intros C. apply app_inv_head in C. discriminate. }
  split; [exact X1|]. split; [exact X2|]. split; [exact X3|].
  intros b. unfold kept. destruct (ends (i_path e ++ [b]) W) as [|s ss] eqn:EE; [constructor|].
  destruct (droppedSt (stateOf (childOf e b))) eqn:ED; [constructor|]. constructor; [|constructor].
  destruct (eg_path _ _ HE) as (cc & u & c & HL & EP & ET & EU & EL).
  constructor.
  - exists cc, (u ++ [b]), c. split; [exact HL|]. rewrite childOf_path. split; [rewrite EP, app_assoc; reflexivity|].
    split; [rewrite childOf_tree, ET, fold_left_app; reflexivity|]. split; [right; rewrite EE; discriminate|].
    rewrite X3 by (rewrite EE; discriminate). destruct u; reflexivity.
  - rewrite childOf_bits, childOf_path. reflexivity.
  - rewrite childOf_path. eapply childOf_valid. exact HE.
  - exact ED.
  - intros b' r. rewrite childOf_path, <- app_assoc. cbn [app].
    assert (G : forall b2, i_path e ++ b :: b' :: r <> i_path e ++ [b2]) by (intros b2 C; apply app_inv_head in C; discriminate).
    rewrite A3 by apply G. rewrite A2 by apply G. apply L1.
Qed.

(** The symbol given to the node. *)
Definition newNode (e : integerNode) (n : node) : outcome node :=
  match symbolOf (i_tree e) with
  | None => Ok n
  | Some s => if several then Ok (mkNode (bitVector n) (Some s))
              else match symbol n with None => UB | Some _ => Ok n end
  end.
Lemma newNode_spec : forall t e, egood t e -> exists n n', look t (i_path e) = Some n /\ newNode e n = Ok n' /\ bitVector n' = [] /\ symOK (i_path e) n'.
Proof.
  intros t e HE. destruct (eg_path _ _ HE) as (cc & u & c & HL & EP & ET & EU & EL). rewrite EL. unfold newNode. rewrite ET, EP.
  assert (L : isLeaf cc) by (exists c; exact HL).
  destruct u as [|b u].
  - cbn [fold_left]. eexists. exists (mkNode [] (Some c)). split; [reflexivity|].
    assert (G : symOK cc (mkNode [] (Some c))).
    { split; [intros c' E; rewrite HL in E; injection E as <-; reflexivity|]. intros cc' u' n L' NU E _. exfalso. apply NU.
      destruct (leaf_unique cc cc' [] u' L L') as [_ <-]; [rewrite app_nil_r; exact E|reflexivity]. }
    rewrite app_nil_r. split; [|split; [reflexivity|exact G]].
    destruct several; [rewrite HS; reflexivity|]. rewrite HS. reflexivity.
  - assert (G : forall n', (forall n, look intTree (b :: u) = Some n -> symbol n' = symbol n) -> symOK (cc ++ b :: u) n').
    { intros n' H. split; [intros c' E; rewrite (ct_beyond _ _ HC _ _ _ _ HL) in E; discriminate|].
      intros cc' u' n L' NU E E'. destruct (leaf_unique _ _ _ _ L L' E) as [_ <-]. apply H. exact E'. }
    assert (ES : forall n, look intTree (b :: u) = Some n -> symbolOf (fold_left child (b :: u) intTree) = symbol n).
    { intros n En. rewrite <- (app_nil_r (b :: u)), look_app in En. unfold symbolOf. cbn [look] in En. rewrite En. reflexivity. }
    destruct (symbolOf (fold_left child (b :: u) intTree)) as [s|] eqn:EY.
    + destruct several.
      * eexists. exists (mkNode [] (Some s)). split; [reflexivity|]. split; [reflexivity|]. split; [reflexivity|]. apply G.
        intros n En. cbn [symbol]. apply ES. exact En.
      * exfalso. rewrite HS in EY.
        assert (EZ : forall v, fold_left child v (Empty : wtree) = Empty) by (induction v as [|x v IHv]; [reflexivity|exact IHv]).
        cbn [fold_left] in EY. replace (child (leaf 0) b) with (Empty : wtree) in EY by (destruct b; reflexivity). rewrite EZ in EY. discriminate.
    + eexists. exists (mkNode [] None). split; [reflexivity|]. split; [reflexivity|]. split; [reflexivity|]. apply G.
      intros n En. cbn [symbol]. apply ES. exact En.
Qed.

Definition paths (level : list integerNode) : list (list bool) := map i_path level.
Definition nextLevel (b : bool) (level : list integerNode) : list integerNode := flat_map (fun e => if fin e then [] else kept e b) level.
Definition done (t' : wtree) (e : integerNode) : Prop :=
  (exists n, look t' (i_path e) = Some n /\ symOK (i_path e) n /\ (fin e = false -> bitVector n = heads (ends (i_path e) W))) /\
  (fin e = false -> forall b, (ends (i_path e ++ [b]) W <> [] -> look t' (i_path e ++ [b]) = Some (mkNode [] None)) /\ Forall (egood t') (kept e b)).

Lemma kept_path : forall e b e', In e' (kept e b) -> i_path e' = i_path e ++ [b].
Proof.
  intros e b e' H. unfold kept in H. destruct (ends (i_path e ++ [b]) W); [destruct H|].
  destruct (droppedSt (stateOf (childOf e b))); [destruct H|]. destruct H as [<-|[]]. apply childOf_path.
Qed.

Lemma done_same : forall t t' e, done t e -> (forall q, pre (i_path e) q = true -> look t' q = look t q) -> done t' e.
Proof.
  intros t t' e (A & B) H.
  assert (P : forall r, pre (i_path e) (i_path e ++ r) = true) by (intros r; apply pre_spec; eauto).
  split.
  - destruct A as (n & A1 & A2). exists n. split; [|exact A2]. rewrite H; [exact A1|]. rewrite <- (app_nil_r (i_path e)) at 2. apply P.
  - intros F b. destruct (B F b) as (B1 & B2). split.
    + intros Hb. rewrite H by apply P. apply B1. exact Hb.
    + rewrite Forall_forall in B2 |- *. intros e' He'. eapply egood_same; [apply B2; exact He'|]. intros q Hq. apply H.
      apply pre_spec in Hq. destruct Hq as (r & ->). rewrite (kept_path _ _ _ He'), <- app_assoc. apply P.
Qed.

Lemma level_sim : forall level t gm cs l r gm' trace rest D,
  encodeLevel GM T (paths (filter unfin level)) gm = Ok (cs, l, r, gm') -> antichain (paths level) -> Forall (egood t) level ->
  dec_ready (cs ++ trace) rest D ->
  exists t' D', decodeLevel GM several WW t level gm D = Ok (t', nextLevel false level, nextLevel true level, gm', D') /\ dec_ready trace rest D' /\
    l = paths (filter unfin (nextLevel false level)) /\ r = paths (filter unfin (nextLevel true level)) /\
    (forall q, below (paths level) q = false -> look t' q = look t q) /\ Forall (done t') level.
Proof.
  induction level as [|e level IH]; intros t gm cs l r gm' trace rest D E HA HG HD.
  - cbn in E. injection E as <- <- <- <-. exists t, D. cbn. auto 10.
  - inversion_clear HA as [|? ? A1 A2]. pose proof (Forall_inv HG) as G1. pose proof (Forall_inv_tail HG) as G2.
    fold (paths level) in A1, A2.
    assert (AP : forall e', In e' level -> forall q, pre (i_path e') q = true -> pre (i_path e) q = false).
    { intros e' He' q Hq. rewrite Forall_forall in A1. specialize (A1 (i_path e') (in_map _ _ _ He')).
      destruct (pre (i_path e) q) eqn:C; [|reflexivity]. apply pre_spec in Hq. apply pre_spec in C. destruct Hq as (r1 & ->), C as (r2 & C).
      apply (apart_app2 _ _ r2 r1) in A1. rewrite C in A1. apply apart_neq in A1. destruct A1. }
    assert (AB : forall q, pre (i_path e) q = true -> below (paths level) q = false).
    { intros q Hq. destruct (below (paths level) q) eqn:C; [|reflexivity]. unfold below in C. apply existsb_exists in C. destruct C as (p' & C1 & C2).
      apply in_map_iff in C1. destruct C1 as (e' & <- & C1). rewrite (AP e' C1 q C2) in Hq. discriminate. }
    destruct (newNode_spec t e G1) as (n & n' & L1 & N1 & N2 & N3).
    cbn [decodeLevel]. rewrite L1. unfold newNode in N1. rewrite N1. cbn [bind].
    change (match symbolOf (i_tree e) with Some s => negb (s =? 0)%N | None => false end) with (fin e).
    cbn [filter nextLevel flat_map] in *. unfold unfin in E at 1. destruct (fin e) eqn:FE; cbn [negb] in E.
    + destruct (IH (put t (i_path e) n') gm cs l r gm' trace rest D E A2) as (t' & D' & E1 & R1 & EL & ER & U & DN).
      { apply Forall_forall. intros e' He'. rewrite Forall_forall in G2. eapply egood_same; [apply G2; exact He'|].
        intros q Hq. apply look_put_other. intros C. apply AP in Hq; [|exact He']. rewrite <- C in Hq.
        assert (pre (i_path e) (i_path e) = true) by (apply pre_spec; exists []; rewrite app_nil_r; reflexivity). congruence. }
      { exact HD. }
      exists t', D'. split; [exact E1|]. split; [exact R1|]. split; [exact EL|]. split; [exact ER|]. split.
      * intros q Hq. cbn in Hq. apply orb_false_elim in Hq. destruct Hq as [Q1 Q2]. rewrite U by exact Q2. apply look_put_other.
        intros C. rewrite <- C in Q1. assert (pre (i_path e) (i_path e) = true) by (apply pre_spec; exists []; rewrite app_nil_r; reflexivity). congruence.
      * constructor; [|exact DN]. split; [|congruence]. exists n'. split; [|split; [exact N3|congruence]].
        rewrite U; [apply look_put_same|]. apply AB. apply pre_spec. exists []. rewrite app_nil_r. reflexivity.
    + cbn [paths map encodeLevel] in E. fold (paths (filter unfin level)) in E.
      destruct (eg_path _ _ G1) as (cc & u & c & HL & EP & ET & EU & _).
      destruct (HT1 cc u (ex_intro _ c HL)) as (nT & LT & BT). { destruct EU as [EU|EU]; [left; exact EU|right; rewrite <- EP; exact EU]. }
      rewrite <- EP in LT, BT. rewrite LT, BT in E.
      apply bind_inv in E. destruct E as ([cs1 gm1] & E1 & E). apply bind_inv in E. destruct E as ([[[cs2 l2] r2] gm2] & E2 & E). injection E as <- <- <- <-.
      rewrite <- app_assoc in HD. destruct (encodeAll_sim _ _ _ _ _ _ _ E1 HD) as (D1 & E3 & R1).
      assert (PR : proper (ends (i_path e) W)).
      { eapply Forall_impl; [|exact (eg_valid _ _ G1)]. intros s Hs C. apply (proj1 (valid_end _ _ _ Hs)) in C. unfold fin in FE.
        rewrite FE, (eg_kept _ _ G1) in C. discriminate. }
      rewrite (heads_length _ PR), <- (eg_bits _ _ G1) in E3. rewrite E3. cbn [bind].
      destruct (entry_step t e n' G1 FE N2 N3) as (t2 & t3 & X1 & X2 & X3 & X4 & X5 & X6).
      rewrite X1, X2.
      destruct (IH t3 gm1 cs2 l2 r2 gm2 trace rest D1 E2 A2) as (t' & D' & E4 & R2 & EL & ER & U & DN).
      { apply Forall_forall. intros e' He'. rewrite Forall_forall in G2. eapply egood_same; [apply G2; exact He'|].
        intros q Hq. apply X4. eapply AP; eassumption. }
      { exact R1. }
      rewrite E4. cbn [bind]. exists t', D'. split; [reflexivity|]. split; [exact R2|].
      assert (PF : forall a b, paths (filter unfin (a ++ b)) = paths (filter unfin a) ++ paths (filter unfin b)).
      { intros a b. unfold paths. rewrite filter_app, map_app. reflexivity. }
      split; [rewrite PF, (goesOn_kept t e false G1), EL; reflexivity|].
      split; [rewrite PF, (goesOn_kept t e true G1), ER; reflexivity|]. split.
      * intros q Hq. cbn in Hq. apply orb_false_elim in Hq. destruct Hq as [Q1 Q2]. rewrite U by exact Q2. apply X4. exact Q1.
      * constructor; [|exact DN]. apply (done_same t3); [|intros q Hq; apply U, AB, Hq].
        split; [|auto]. exists (mkNode (heads (ends (i_path e) W)) (symbol n')). split; [exact X3|]. split; [exact N3|reflexivity].
Qed.

Lemma nextLevel_in : forall b level e', In e' (nextLevel b level) <-> exists e, In e level /\ fin e = false /\ In e' (kept e b).
Proof.
  intros b level e'. unfold nextLevel. rewrite in_flat_map. split.
  - intros (e & H1 & H2). destruct (fin e) eqn:F; [destruct H2|]. eauto.
  - intros (e & H1 & H2 & H3). exists e. rewrite H2. auto.
Qed.
Lemma nextLevel_good : forall t b level, Forall (done t) level -> Forall (egood t) (nextLevel b level).
Proof.
  intros t b level H. apply Forall_forall. intros e' He'. apply nextLevel_in in He'. destruct He' as (e & H1 & H2 & H3).
  rewrite Forall_forall in H. destruct (H _ H1) as (_ & B). destruct (B H2 b) as (_ & B'). rewrite Forall_forall in B'. auto.
Qed.
Lemma nextLevel_antichain : forall b level, antichain (paths level) -> antichain (paths (nextLevel b level)).
Proof.
  induction level as [|e level IH]; intros H; [constructor|]. inversion_clear H as [|? ? A1 A2]. fold (paths level) in A1, A2.
  cbn [nextLevel flat_map]. unfold paths. rewrite map_app. apply antichain_app.
  - destruct (fin e); [constructor|]. unfold kept. destruct (ends (i_path e ++ [b]) W); [constructor|].
    destruct (droppedSt _); [constructor|]. cbn. repeat constructor.
  - apply IH. exact A2.
  - intros x y Hx Hy. apply in_map_iff in Hx. apply in_map_iff in Hy. destruct Hx as (ex & <- & Hx), Hy as (ey & <- & Hy).
    destruct (fin e); [destruct Hx|]. apply kept_path in Hx. fold (nextLevel b level) in Hy. apply nextLevel_in in Hy.
    destruct Hy as (e2 & Y1 & _ & Y2). apply kept_path in Y2. rewrite Hx, Y2. apply apart_app2. rewrite Forall_forall in A1. apply A1.
    apply in_map. exact Y1.
Qed.
Lemma levels_antichain : forall level, antichain (paths level) -> antichain (paths (nextLevel false level ++ nextLevel true level)).
Proof.
  intros level H. unfold paths. rewrite map_app. apply antichain_app; [apply nextLevel_antichain; exact H|apply nextLevel_antichain; exact H|].
  intros x y Hx Hy. apply in_map_iff in Hx. apply in_map_iff in Hy. destruct Hx as (ex & <- & Hx), Hy as (ey & <- & Hy).
  apply nextLevel_in in Hx. apply nextLevel_in in Hy. destruct Hx as (e1 & X1 & _ & X2), Hy as (e2 & Y1 & _ & Y2).
  apply kept_path in X2. apply kept_path in Y2. rewrite X2, Y2.
  destruct (antichain_in _ _ _ H (in_map i_path _ _ X1) (in_map i_path _ _ Y1)) as [->|A]; [apply apart_children|apply apart_app2; exact A].
Qed.
Lemma next_path : forall level e', In e' (nextLevel false level ++ nextLevel true level) ->
  exists e b, In e level /\ fin e = false /\ In e' (kept e b).
Proof.
  intros level e' H. apply in_app_iff in H. destruct H as [H|H]; apply nextLevel_in in H; destruct H as (e & H1 & H2 & H3); eauto.
Qed.
Lemma next_in : forall level e b e', In e level -> fin e = false -> In e' (kept e b) -> In e' (nextLevel false level ++ nextLevel true level).
Proof. intros level e b e' H1 H2 H3. apply in_app_iff. destruct b; [right|left]; apply nextLevel_in; eauto. Qed.

Lemma valid_status : forall st s, valid WW st s -> snd st = 2%N -> fst (fst st) = Empty.
Proof. intros st s H. destruct H; cbn; intros; try discriminate; reflexivity. Qed.

Definition shown (t' : wtree) (e : integerNode) : Prop := forall u' s, In s (ends (i_path e ++ u') W) ->
  exists n', look t' (i_path e ++ u') = Some n' /\ (s <> [] -> bitVector n' = heads (ends (i_path e ++ u') W)) /\ symOK (i_path e ++ u') n'.

Lemma levels_sim : (forall s s', p_reset GM s = Ok s' -> p_reset GM s' = Ok s') ->
  forall fuelD fuelE level t gm cs gm' g1 trace rest D,
  encodeLevels GM fuelE T (paths (filter unfin level)) gm = Ok (cs, gm') -> p_reset GM gm' = Ok g1 ->
  antichain (paths level) -> Forall (egood t) level -> dec_ready (cs ++ trace) rest D ->
  (level <> [] -> 1 <= fuelD) -> (forall e s, In e level -> In s (ends (i_path e) W) -> length s < fuelD) ->
  exists t' gm'' D', decodeLevels GM fuelD several WW t level gm D = Ok (t', gm'', D') /\ dec_ready trace rest D' /\
    p_reset GM gm'' = Ok g1 /\ (forall q, below (paths level) q = false -> look t' q = look t q) /\
    (forall q, look t q <> None -> look t' q <> None) /\ Forall (shown t') level.
Proof.
  intros IDEM. induction fuelD as [|fuelD IH]; intros fuelE level t gm cs gm' g1 trace rest D E ER HA HG HD F1 F2.
  - destruct level as [|e level]; [|exfalso; assert (1 <= 0) by (apply F1; discriminate); lia].
    assert (E' : Ok ([], gm) = Ok (cs, gm')) by (destruct fuelE; exact E). injection E' as <- <-.
    exists t, gm, D. cbn. auto 10.
  - destruct level as [|e0 level0] eqn:EL.
    { assert (E' : Ok ([], gm) = Ok (cs, gm')) by (destruct fuelE; exact E). injection E' as <- <-.
      exists t, gm, D. cbn. auto 10. }
    cbn [decodeLevels]. rewrite <- EL in *. clear EL e0 level0 F1.
    (* the encoder's step, also when it has nothing left *)
    assert (ST : exists gm1 cs1 l r gm2 cs2 fuelE', p_reset GM gm = Ok gm1 /\
      encodeLevel GM T (paths (filter unfin level)) gm1 = Ok (cs1, l, r, gm2) /\
      encodeLevels GM fuelE' T (l ++ r) gm2 = Ok (cs2, if paths (filter unfin level) then gm2 else gm') /\ cs = cs1 ++ cs2 /\
      p_reset GM (if paths (filter unfin level) then gm2 else gm') = Ok g1).
    { destruct (paths (filter unfin level)) as [|p ps] eqn:EP.
      - assert (E' : Ok ([], gm) = Ok (cs, gm')) by (destruct fuelE; exact E). injection E' as <- <-.
        exists g1, [], [], [], g1, [], 0. split; [exact ER|]. split; [reflexivity|]. split; [reflexivity|]. split; [reflexivity|].
        eapply IDEM. exact ER.
      - destruct fuelE as [|fuelE]; [discriminate|]. cbn [encodeLevels] in E.
        apply bind_inv in E. destruct E as (gm1 & E1 & E). apply bind_inv in E. destruct E as ([[[cs1 l] r] gm2] & E2 & E).
        apply bind_inv in E. destruct E as ([cs2 gm3] & E3 & E). injection E as <- <-.
        exists gm1, cs1, l, r, gm2, cs2, fuelE. auto 10. }
    destruct ST as (gm1 & cs1 & l & r & gm2 & cs2 & fuelE' & S1 & S2 & S3 & -> & S5).
    rewrite S1. cbn [bind]. rewrite <- app_assoc in HD.
    destruct (level_sim level t gm1 cs1 l r gm2 (cs2 ++ trace) rest D S2 HA HG HD) as (t1 & D1 & L1 & L2 & L3 & L4 & L5 & L6).
    rewrite L1. cbn [bind].
    assert (EN : l ++ r = paths (filter unfin (nextLevel false level ++ nextLevel true level))).
    { rewrite L3, L4. unfold paths. rewrite filter_app, map_app. reflexivity. }
    rewrite EN in S3.
    destruct (IH fuelE' _ t1 gm2 cs2 _ g1 trace rest D1 S3 S5 (levels_antichain level HA)) as (t' & gm'' & D' & I1 & I2 & I3 & I4 & I5 & I6).
    { apply Forall_app. split; apply nextLevel_good; exact L6. }
    { exact L2. }
    { intros NE. destruct (nextLevel false level ++ nextLevel true level) as [|e' ls] eqn:EL; [congruence|].
      destruct (next_path level e') as (e & b & X1 & X2 & X3); [rewrite EL; left; reflexivity|].
      pose proof (kept_path _ _ _ X3) as XP. unfold kept in X3. destruct (ends (i_path e ++ [b]) W) as [|s ss] eqn:EE; [destruct X3|].
      assert (X4 : In s (ends (i_path e ++ [b]) W)) by (rewrite EE; left; reflexivity). rewrite ends_snoc in X4. apply tailsOf_in in X4.
      specialize (F2 e _ X1 X4). cbn in F2. lia. }
    { intros e' s X1 X2. apply next_path in X1. destruct X1 as (e & b & Y1 & Y2 & Y3). rewrite (kept_path _ _ _ Y3), ends_snoc in X2.
      apply tailsOf_in in X2. specialize (F2 e _ Y1 X2). cbn in F2. lia. }
    exists t', gm'', D'. split; [exact I1|]. split; [exact I2|]. split; [exact I3|].
    assert (MONO : forall q, look t q <> None -> look t1 q <> None).
    { intros q Hq. destruct (below (paths level) q) eqn:B; [|rewrite L5 by exact B; exact Hq].
      apply below_spec in B. destruct B as (p & u & B1 & ->). apply in_map_iff in B1. destruct B1 as (e & <- & B1).
      rewrite Forall_forall in L6, HG. destruct u as [|b u].
      - rewrite app_nil_r. destruct (L6 _ B1) as ((n & -> & _) & _). discriminate.
      - rewrite (eg_below _ _ (HG _ B1)) in Hq. congruence. }
    assert (NB : forall q, below (paths (nextLevel false level ++ nextLevel true level)) q = true ->
      exists e b u, In e level /\ fin e = false /\ q = i_path e ++ b :: u).
    { intros q Hq. apply below_spec in Hq. destruct Hq as (p & u & Q1 & ->). apply in_map_iff in Q1. destruct Q1 as (e' & <- & Q1).
      apply next_path in Q1. destruct Q1 as (e & b & Y1 & Y2 & Y3). exists e, b, u. rewrite (kept_path _ _ _ Y3), <- app_assoc. auto. }
    split.
    { intros q Hq. rewrite I4; [apply L5; exact Hq|]. destruct (below (paths (nextLevel false level ++ nextLevel true level)) q) eqn:B; [|reflexivity].
      apply NB in B. destruct B as (e & b & u & B1 & _ & ->). assert (below (paths level) (i_path e ++ b :: u) = true); [|congruence].
      apply below_spec. exists (i_path e), (b :: u). split; [apply in_map; exact B1|reflexivity]. }
    split; [intros q Hq; apply I5, MONO, Hq|].
    apply Forall_forall. intros e He u' s Hs.
    rewrite Forall_forall in HG, L6, I6. destruct (L6 _ He) as ((n & N1 & N2 & N3) & N4).
    destruct u' as [|b u'].
    + rewrite app_nil_r in *. exists n.
      assert (B : below (paths (nextLevel false level ++ nextLevel true level)) (i_path e) = false).
      { destruct (below (paths (nextLevel false level ++ nextLevel true level)) (i_path e)) eqn:B; [|reflexivity]. apply NB in B.
        destruct B as (e2 & b & u & B1 & _ & B2). destruct (antichain_in _ _ _ HA (in_map i_path _ _ He) (in_map i_path _ _ B1)) as [A|[_ A]].
        - rewrite A in B2. rewrite <- (app_nil_r (i_path e2)) in B2 at 1. apply app_inv_head in B2. discriminate.
        - assert (pre (i_path e2) (i_path e) = true) by (apply pre_spec; eauto). congruence. }
      rewrite I4 by exact B. split; [exact N1|]. split; [|exact N2]. intros NS. apply N3.
      destruct (fin e) eqn:FE; [|reflexivity]. exfalso. apply NS. pose proof (eg_valid _ _ (HG _ He)) as HV. rewrite Forall_forall in HV.
      apply (valid_end _ _ _ (HV _ Hs)). unfold fin in FE. rewrite FE. reflexivity.
    + replace (i_path e ++ b :: u') with ((i_path e ++ [b]) ++ u') in * by (rewrite <- app_assoc; reflexivity).
      assert (HI : In (u' ++ s) (ends (i_path e ++ [b]) W)) by (rewrite ends_app in Hs; apply ends_in in Hs; exact Hs).
      assert (HV := eg_valid _ _ (HG _ He)). rewrite Forall_forall in HV.
      assert (FE : fin e = false).
      { destruct (fin e) eqn:FE; [|reflexivity]. exfalso. rewrite ends_snoc in HI. apply tailsOf_in in HI. apply HV in HI.
        apply valid_end in HI. unfold fin in FE. rewrite FE in HI. apply proj2 in HI. specialize (HI eq_refl). discriminate. }
      destruct (N4 FE b) as (M1 & M2).
      pose proof (childOf_valid t e b (HG _ He)) as CV. rewrite Forall_forall in CV.
      assert (M1' : look t1 (i_path e ++ [b]) = Some (mkNode [] None)) by (apply M1; intros C; rewrite C in HI; destruct HI).
      destruct (droppedSt (stateOf (childOf e b))) eqn:DR.
      * pose proof (CV _ HI) as V0. assert (E0 : u' ++ s = []) by (apply (valid_end _ _ _ V0); rewrite DR; apply orb_true_r).
        apply app_eq_nil in E0. destruct E0 as [-> ->]. rewrite app_nil_r in *.
        destruct (look t' (i_path e ++ [b])) as [n'|] eqn:EN'; [|exfalso; eapply I5; [rewrite M1'; discriminate|exact EN']].
        exists n'. split; [reflexivity|]. split; [congruence|].
        destruct (eg_path _ _ (HG _ He)) as (cc & u & c & HL & EP & ET & _).
        split.
        -- intros c' C. rewrite EP, <- app_assoc in C. destruct u; cbn [app] in C; rewrite (ct_beyond _ _ HC _ _ _ _ HL) in C; discriminate.
        -- intros cc2 u2 n2 LC NU EQ EI. rewrite EP, <- app_assoc in EQ.
           destruct (leaf_unique cc cc2 (u ++ [b]) u2 (ex_intro _ c HL) LC EQ) as [_ <-].
           exfalso. assert (ET2 : i_tree (childOf e b) = fold_left child (u ++ [b]) intTree) by (rewrite childOf_tree, ET, fold_left_app; reflexivity).
           assert (EM : i_tree (childOf e b) = Empty).
           { unfold droppedSt in DR. apply andb_prop in DR. destruct DR as [DR _]. apply N.eqb_eq in DR.
             exact (valid_status _ _ V0 DR). }
           rewrite <- (app_nil_r (u ++ [b])), look_app, <- ET2, EM in EI. discriminate.
      * assert (KE : kept e b = [childOf e b]).
        { unfold kept. destruct (ends (i_path e ++ [b]) W); [destruct HI|]. rewrite DR. reflexivity. }
        assert (KI : In (childOf e b) (nextLevel false level ++ nextLevel true level)).
        { eapply next_in; [exact He|exact FE|]. rewrite KE. left. reflexivity. }
        specialize (I6 _ KI). unfold shown in I6. rewrite childOf_path in I6. apply I6. exact Hs.
Qed.
End Levels.

(** The words of the runs: a prefix code the decoder can follow. *)
From Coq Require Import List NArith Arith Bool Lia Sorted Permutation.
From Coq Require Import ZifyBool ZifyNat ZifyN.
From Verif Require Import Base Arrays ModelUtils ModelHuffman ModelWavelet SpecHuffman SpecWavelet.
From Verif Require ProofHuffman6.
From Verif Require Import ProofHuffman4 ProofWav1 ProofWav2 ProofWav3 ProofWav4.
Import ListNotations.
Open Scope nat_scope.

(** ** States of the decoder of integer codes *)
Definition istate := (wtree * N * N)%type.
Definition istep (W : N) (st : istate) (b : bool) : istate :=
  let '(t, k, s) := st in
  match child t b with
  | Branch v l r => (Branch v l r, k, s)
  | Empty =>
    if (s =? 0)%N then (if b then (Empty, (k + 1) mod two32, 1)%N else (Empty, W, 2%N))
    else if (s =? 1)%N then (if b then (Empty, (k + 1) mod two32, 1)%N else (Empty, (k + W) mod two32, 2)%N)
    else (Empty, (k + two32 - 1) mod two32, s)%N
  end.
Lemma childEntry_istep : forall W e b k, childEntry W e b k =
  let '(t, o, s) := istep W (i_tree e, i_leadingOnes e, i_status e) b in mkIntegerNode (i_path e ++ [b]) t k o s.
Proof.
  intros W e b k. unfold childEntry, istep. destruct (child (i_tree e) b); [|reflexivity].
  destruct (i_status e =? 0)%N; [destruct b; reflexivity|]. destruct (i_status e =? 1)%N; [destruct b; reflexivity|]. reflexivity.
Qed.

(** What can follow in a state. *)
Inductive valid (W : N) : istate -> list bool -> Prop :=
| v_inner : forall (l r : wtree) (b : bool) c, full l -> full r -> valid W ((if b then r else l) : wtree, 0%N, 0%N) c -> valid W (inner l r, 0%N, 0%N) (b :: c)
| v_leaf : forall s, s <> 0%N -> valid W (leaf s, 0%N, 0%N) []
| v_escape : forall j v, j <= 40 -> length v = j + N.to_nat W -> valid W (leaf 0, 0%N, 0%N) (repeat true j ++ false :: v)
| v_ones : forall k j v, k + j <= 40 -> length v = k + j + N.to_nat W -> valid W (Empty, N.of_nat k, 1%N) (repeat true j ++ false :: v)
| v_value : forall v, length v <= 100 -> valid W (Empty, N.of_nat (length v), 2%N) v.

Lemma valid_step : forall W st b c, (W <= 15)%N -> valid W st (b :: c) -> valid W (istep W st b) c.
Proof.
  intros W st b c HW H. inversion H as [l r b0 c0 Hl Hr Hv E1 E2|s Hs E1 E2|j v Hj Hv E1 E2|k j v Hj Hv E1 E2|v Hv E1 E2]; subst; unfold istep.
  - assert (G : exists v x y, child (inner l r) b = Branch v x y /\ Branch v x y = if b then r else l).
    { destruct b; cbn; [destruct (full_nonempty _ Hr) as (v & x & y & ->)|destruct (full_nonempty _ Hl) as (v & x & y & ->)]; eauto. }
    destruct G as (v & x & y & -> & ->). exact Hv.
  - destruct j as [|j]; cbn in E2; injection E2 as <- <-; cbn [leaf child N.eqb].
    + replace W with (N.of_nat (length v)) by lia. apply v_value. lia.
    + change ((0 + 1) mod two32)%N with (N.of_nat 1). apply v_ones; lia.
  - destruct j as [|j]; cbn in E2; injection E2 as <- <-; cbn [child N.eqb Pos.eqb].
    + rewrite N.mod_small by (unfold two32; lia). replace (N.of_nat k + W)%N with (N.of_nat (length v)) by lia. apply v_value. lia.
    + rewrite N.mod_small by (unfold two32; lia). replace (N.of_nat k + 1)%N with (N.of_nat (S k)) by lia. apply v_ones; lia.
  - cbn [child N.eqb Pos.eqb]. replace ((N.of_nat (length (b :: c)) + two32 - 1) mod two32)%N with (N.of_nat (length c)).
    + apply v_value. cbn in Hv. lia.
    + cbn [length] in *. replace (N.of_nat (S (length c)) + two32 - 1)%N with (N.of_nat (length c) + 1 * two32)%N by lia.
      rewrite N.mod_add by (unfold two32; lia). rewrite N.mod_small; [reflexivity|unfold two32; lia].
Qed.

Definition finishedSt (st : istate) : bool :=
  match symbolOf (fst (fst st)) with Some s => negb (s =? 0)%N | None => false end.
Definition droppedSt (st : istate) : bool := (snd st =? 2)%N && negb (0 <? snd (fst st))%N.

Lemma valid_end : forall W st c, valid W st c -> (c = [] <-> (finishedSt st || droppedSt st)%bool = true).
Proof.
  intros W st c H. destruct H as [l r b c Hl Hr Hv|s Hs|j v Hj Hv|k j v Hj Hv|v Hv].
  - unfold finishedSt, droppedSt. cbn. split; discriminate.
  - unfold finishedSt. cbn. destruct (N.eqb_spec s 0); [contradiction|]. cbn. tauto.
  - cbn. split; [destruct j; discriminate|discriminate].
  - cbn. split; [destruct j; discriminate|discriminate].
  - unfold finishedSt, droppedSt. cbn [fst snd symbolOf here]. cbn. destruct v as [|b v]; cbn [length]; [cbn; tauto|].
    split; [discriminate|]. destruct (0 <? N.of_nat (S (length v)))%N eqn:E; [discriminate|lia].
Qed.

Lemma ones_prefix : forall j i v u s, repeat true j ++ false :: v = (repeat true i ++ false :: u) ++ s -> j = i /\ v = u ++ s.
Proof.
  induction j as [|j IH]; intros [|i] v u s E; cbn in E; try discriminate.
  - injection E as ->. auto.
  - injection E as E. destruct (IH i v u s E) as [-> ->]. auto.
Qed.

Lemma valid_prefix : forall W st c s, valid W st c -> valid W st (c ++ s) -> s = [].
Proof.
  intros W st c s H. revert s. induction H as [l r b c Hl Hr Hv IH|x Hs|j v Hj Hv|k j v Hj Hv|v Hv]; intros s Hc; inversion Hc; subst.
  - apply IH. assumption.
  - destruct s; [reflexivity|discriminate].
  - congruence.
  - congruence.
  - match goal with E : repeat true _ ++ _ = _ |- _ => apply ones_prefix in E; destruct E as [-> ->] end.
    rewrite app_length in *. destruct s; [reflexivity|cbn in *; lia].
  - match goal with E : repeat true _ ++ _ = _ |- _ => apply ones_prefix in E; destruct E as [-> ->] end.
    rewrite app_length in *. destruct s; [reflexivity|cbn in *; lia].
  - rewrite app_length in *. destruct s; [reflexivity|cbn in *; lia].
Qed.

(** ** Codes of run lengths *)
Definition intWord (intTree : wtree) (W x : N) (ic : list bool) : Prop :=
  look intTree ic = Some (mkNode [] (Some x)) \/
  (exists esc k v, look intTree esc = Some (mkNode [] (Some 0%N)) /\ k <= 32 /\
     ic = esc ++ repeat true k ++ false :: be_bits (k + N.to_nat W) v /\
     (v < 2 ^ N.of_nat (k + N.to_nat W))%N /\ x = (v + 1 + 2 ^ W * (2 ^ N.of_nat k - 1))%N).

Lemma valid_down : forall W t, full t -> forall q s c, look t q = Some (mkNode [] (Some s)) -> valid W (leaf s, 0%N, 0%N) c ->
  valid W (t, 0%N, 0%N) (q ++ c).
Proof.
  induction 1 as [s0|l r Hl IHl Hr IHr]; intros q s c E Hc.
  - destruct q as [|b q]; cbn in E; [injection E as ->; exact Hc|]. destruct b; rewrite look_nil_empty in E; discriminate.
  - destruct q as [|b q]; cbn in E; [discriminate|]. cbn [app]. constructor; auto. destruct b; eauto.
Qed.

Lemma intWord_valid : forall W t x ic, full t -> x <> 0%N -> intWord t W x ic -> valid W (t, 0%N, 0%N) ic.
Proof.
  intros W t x ic Ht Hx [H|(esc & k & v & H1 & H2 & -> & H4 & H5)].
  - rewrite <- (app_nil_r ic). eapply valid_down; [exact Ht|exact H|]. apply v_leaf. exact Hx.
  - eapply valid_down; [exact Ht|exact H1|]. apply v_escape; [lia|]. apply be_bits_length.
Qed.

Lemma codeOf_in : forall codes s c, codeOf codes s = Some c -> In (s, c) codes.
Proof.
  intros codes s c H. unfold codeOf in H. destruct (find _ codes) as [[s' c']|] eqn:E; [|discriminate].
  injection H as <-. apply find_some in E. cbn in E. destruct E as [E1 E2]. apply N.eqb_eq in E2. subst s'. exact E1.
Qed.
Lemma codeOf_some : forall codes s, In s (map fst codes) -> exists c, codeOf codes s = Some c.
Proof.
  intros codes s H. unfold codeOf. destruct (find (fun c => (fst c =? s)%N) codes) as [[s' c']|] eqn:E; [eauto|].
  exfalso. apply in_map_iff in H. destruct H as ([s' c] & <- & Hc). eapply find_none in E; [|exact Hc].
  cbn [fst] in E. rewrite N.eqb_refl in E. discriminate.
Qed.
Lemma codeOf_none : forall codes s, codeOf codes s = None -> ~ In s (map fst codes).
Proof. intros codes s H C. apply codeOf_some in C. destruct C as (c & C). congruence. Qed.

(** ** Tables from lengths *)
Lemma leavesOf_nonempty : forall t d, full t -> leavesOf t d <> [].
Proof. intros t d Ht C. destruct (leavesOf_some t Ht d) as (p & Hp). rewrite C in Hp. destruct Hp. Qed.

Definition sizesOf (codes : list (N * list bool)) : list (N * N) := map (fun c => (N.of_nat (length (snd c)), fst c)) codes.

Lemma pairLe_len : forall L, StronglySorted pairLe L -> StronglySorted len_le L.
Proof.
  induction 1 as [|p L HS IH HF]; [constructor|]. constructor; [exact IH|]. eapply Forall_impl; [|exact HF].
  intros q Hq. unfold pairLe, len_le in *. lia.
Qed.

Lemma table_full : forall L, StronglySorted pairLe L -> Forall (fun p => 0 < fst p)%N L -> complete (natLengths L) ->
  (maxLength (map fst L) < two64)%N ->
  exists l r codes, assignPrefixCodes L = Ok (inner l r) /\ collectCodes (inner l r) = Ok codes /\ full l /\ full r /\
    code_tree (inner l r) codes /\ sizesOf codes = L.
Proof.
  intros L HS HP HC HM. pose proof (pairLe_len _ HS) as HS'.
  destruct (assign_complete L HS' HP HC HM) as (l & r & E & Hl & Hr & HL).
  exists l, r, (pathsOf (inner l r) []). split; [exact E|].
  assert (F : full (inner l r)) by (constructor; assumption).
  split; [unfold collectCodes; apply collect_full; exact F|]. split; [exact Hl|]. split; [exact Hr|].
  split; [apply full_code_tree; auto; rewrite HL; exact HS'|].
  unfold sizesOf. rewrite (paths_leaves _ F). exact HL.
Qed.
Lemma table_single : forall s, assignPrefixCodes [(1%N, s)] = Ok (inner (leaf s) Empty) /\
  collectCodes (inner (leaf s) Empty) = Ok [(s, [false])] /\ code_tree (inner (leaf s) Empty) [(s, [false])] /\
  sizesOf [(s, [false])] = [(1%N, s)].
Proof. intros s. split; [apply assign_single|]. split; [reflexivity|]. split; [apply single_code_tree|reflexivity]. Qed.

Lemma sizes_symbols : forall codes, map snd (sizesOf codes) = map fst codes.
Proof. intros codes. unfold sizesOf. rewrite map_map. reflexivity. Qed.

(** Trees for the run lengths: a complete code with 0, or 0 alone without bits. *)
Inductive intTable : wtree -> list (N * list bool) -> Prop :=
| it_one : intTable (leaf 0) [(0%N, [])]
| it_code : forall l r codes, full l -> full r -> code_tree (inner l r) codes -> NoDup (map fst codes) -> In 0%N (map fst codes) ->
    intTable (inner l r) codes.

Lemma intTable_full : forall t codes, intTable t codes -> full t.
Proof. intros t codes []; constructor; assumption. Qed.
Lemma intTable_look : forall t codes s c, intTable t codes -> In (s, c) codes -> look t c = Some (mkNode [] (Some s)).
Proof.
  intros t codes s c [|l r cs Hl Hr HC HN H0] Hin.
  - destruct Hin as [E|[]]. injection E as <- <-. reflexivity.
  - apply (ct_codes _ _ HC). exact Hin.
Qed.

Lemma integerTree_spec : forall freqs L, (N.of_nat (length L) < two64)%N -> (L = [] \/ integers_good freqs L) ->
  exists t codes, integerTree L = Ok (t, codes) /\ intTable t codes /\
    (L = [] -> t = leaf 0 /\ codes = [(0%N, [])]) /\ (L <> [] -> sizesOf codes = L).
Proof.
  intros freqs L HB [->|((G1 & G2 & G3 & G4 & G5) & H0 & HX)].
  - exists (leaf 0), [(0%N, [])]. split; [reflexivity|]. split; [constructor|]. split; [auto|congruence].
  - destruct (table_full L G1) as (l & r & codes & E1 & E2 & Hl & Hr & HC & HL).
    { eapply Forall_impl; [|exact G2]. cbn. intros; lia. } { exact G3. }
    { apply ProofHuffman6.maxLength_lt; [reflexivity|]. rewrite Forall_map. eapply Forall_impl; [|exact G2]. cbv beta. intros p [_ Hp]. eapply N.lt_trans; [exact Hp|exact HB]. }
    exists (inner l r), codes. split.
    { unfold integerTree. destruct L; [cbn in G5; lia|]. rewrite E1. cbn [bind]. rewrite E2. reflexivity. }
    split; [|split; [intros ->; cbn in G5; lia|intros _; exact HL]].
    assert (ES : map fst codes = map snd L) by (rewrite <- HL; symmetry; apply sizes_symbols).
    constructor; auto; rewrite ES; assumption.
Qed.

Lemma integerCode_spec : forall t codes W x, intTable t codes -> (W <= 15)%N -> (1 <= x < 2 ^ 32)%N ->
  exists ic, integerCode codes W x = Ok ic /\ intWord t W x ic /\ ic <> [].
Proof.
  intros t codes W x HT HW Hx. unfold integerCode. destruct (codeOf codes x) as [c|] eqn:E.
  - exists c. split; [reflexivity|]. apply codeOf_in in E. pose proof (intTable_look _ _ _ _ HT E) as EL. split; [left; exact EL|].
    intros ->. destruct HT; cbn in EL; [injection EL as <-; lia|discriminate].
  - destruct (fixed_form x W Hx HW) as (k & v & E1 & _ & Hk & Hv & Ex). rewrite E1. cbn [bind].
    assert (H0 : exists esc, codeOf codes 0 = Some esc).
    { apply codeOf_some. destruct HT; [left; reflexivity|assumption]. }
    destruct H0 as (esc & H0). rewrite H0. eexists. split; [reflexivity|]. split; [|destruct esc, k; discriminate].
    right. exists esc, k, v. split; [apply (intTable_look _ _ _ _ HT), codeOf_in, H0|]. split; [exact Hk|]. split; [reflexivity|]. auto.
Qed.

(** ** Paths in trees of codes *)
Lemma ct_prefix : forall t codes, code_tree t codes -> forall r q b n, look t (q ++ b :: r) = Some n -> look t q = Some (mkNode [] None).
Proof.
  intros t codes HC. induction r as [|c r IH] using rev_ind; intros q b n E.
  - eapply ct_up; [exact HC|exact E].
  - replace (q ++ b :: r ++ [c]) with ((q ++ b :: r) ++ [c]) in E by (rewrite <- app_assoc; reflexivity).
    apply (ct_up _ _ HC) in E. eapply IH. exact E.
Qed.
Lemma ct_beyond : forall t codes, code_tree t codes -> forall q s b r, look t q = Some (mkNode [] (Some s)) -> look t (q ++ b :: r) = None.
Proof.
  intros t codes HC q s b r E. destruct (look t (q ++ b :: r)) as [n|] eqn:E'; [|reflexivity].
  apply (ct_prefix _ _ HC) in E'. congruence.
Qed.

Lemma common_prefix : forall {A} (a c b d : list A), a ++ b = c ++ d -> (exists e, c = a ++ e /\ b = e ++ d) \/ (exists e, a = c ++ e /\ d = e ++ b).
Proof.
  intros A. induction a as [|x a IH]; intros c b d E; [left; exists c; auto|].
  destruct c as [|y c]; [right; exists (x :: a); auto|]. cbn in E. injection E as <- E. apply IH in E.
  destruct E as [(e & -> & ->)|(e & -> & ->)]; [left|right]; exists e; auto.
Qed.

(** The word of a run. *)
Definition runWord (T0 intTree : wtree) (W c x : N) (w : list bool) : Prop :=
  exists cc ic, w = cc ++ ic /\ look T0 cc = Some (mkNode [] (Some c)) /\ intWord intTree W x ic /\ x <> 0%N /\ ic <> [].

Lemma runWords_noPrefix : forall T0 codes intTree W ws, code_tree T0 codes -> full intTree ->
  Forall (fun w => exists c x, runWord T0 intTree W c x w) ws -> noPrefix ws.
Proof.
  intros T0 codes intTree W ws HC HF HW u s Hu Hs. rewrite Forall_forall in HW.
  destruct (HW _ Hu) as (c & x & cc & ic & -> & L1 & V1 & X1 & N1).
  destruct (HW _ Hs) as (c' & x' & cc' & ic' & E & L2 & V2 & X2 & N2).
  rewrite <- app_assoc in E. apply common_prefix in E. destruct E as [([|b e] & -> & E2)|([|b e] & -> & E2)].
  - cbn in E2. subst ic'. eapply valid_prefix; [eapply intWord_valid; [exact HF|exact X1|exact V1]|].
    eapply intWord_valid; [exact HF|exact X2|exact V2].
  - rewrite (ct_beyond _ _ HC _ _ _ _ L1) in L2. discriminate.
  - cbn in E2. subst ic'. eapply valid_prefix; [eapply intWord_valid; [exact HF|exact X1|exact V1]|].
    eapply intWord_valid; [exact HF|exact X2|exact V2].
  - rewrite (ct_beyond _ _ HC _ _ _ _ L2) in L1. discriminate.
Qed.

(** All words of a list of runs. *)
Definition runWords (T0 intTree : wtree) (W : N) (runs : list (N * nat)) (ws : list word) : Prop :=
  Forall2 (fun run w => runWord T0 intTree W (fst run) (N.of_nat (snd run)) (fst w) /\ snd w = N.of_nat (snd run)) runs ws.

Lemma words_of_runs : forall T0 codes intTree intCodes W runs, code_tree T0 codes -> intTable intTree intCodes -> (W <= 15)%N ->
  Forall (fun r => In (fst r) (map fst codes)) runs -> Forall (fun r => (1 <= N.of_nat (snd r) < 2 ^ 32)%N) runs ->
  exists ws, codesOK T0 codes intCodes W runs ws /\ runWords T0 intTree W runs ws.
Proof.
  intros T0 codes intTree intCodes W runs HC HT HW H1 H2. induction runs as [|[c k] runs IH].
  - exists []. split; constructor.
  - inversion_clear H1 as [|? ? A1 B1]. inversion_clear H2 as [|? ? A2 B2]. destruct (IH B1 B2) as (ws & W1 & W2). cbn [fst snd] in *.
    destruct (codeOf_some codes c A1) as (cc & Ecc).
    destruct (integerCode_spec intTree intCodes W (N.of_nat k) HT HW A2) as (ic & E1 & E2 & E3).
    pose proof (codeOf_in _ _ _ Ecc) as Hin. apply (ct_codes _ _ HC) in Hin.
    exists ((cc ++ ic, N.of_nat k) :: ws). split; constructor; auto.
    + exists cc, ic. cbn [fst snd]. split; [exact Ecc|]. split; [exact E1|]. split; [reflexivity|]. split; [reflexivity|].
      split; [exact E3|]. split; [exists c; exact Hin|]. split.
      * destruct ic as [|b ic]; [congruence|]. eapply ct_beyond; [exact HC|exact Hin].
      * intros q b r ->. rewrite (ct_prefix _ _ HC _ _ _ _ Hin). discriminate.
    + split; [|reflexivity]. exists cc, ic. split; [reflexivity|]. split; [exact Hin|]. split; [exact E2|]. split; [|exact E3]. cbn [snd]. intros C. rewrite C in A2. destruct A2 as [A2 _]. apply A2. reflexivity.
Qed.

Lemma runWords_all : forall T0 intTree W runs ws, runWords T0 intTree W runs ws ->
  Forall (fun w => exists c x, runWord T0 intTree W c x w) (map fst ws).
Proof.
  intros T0 intTree W runs ws H. induction H as [|run w runs ws [H _] _ IH]; [constructor|]. cbn [map]. constructor; [|exact IH].
  eauto.
Qed.

Lemma dense_code_tree : forall l r, full l -> full r -> dense (inner l r).
Proof. intros. apply full_dense. constructor; assumption. Qed.
Lemma dense_single : forall s, dense (inner (leaf s) Empty).
Proof. intros. unfold inner, leaf. repeat constructor. Qed.

(** The tree after pushMessage. *)
Lemma pushed_tree : forall T0 codes intTree intCodes W runs, code_tree T0 codes -> dense T0 -> intTable intTree intCodes -> (W <= 15)%N ->
  Forall (fun r => In (fst r) (map fst codes)) runs -> Forall (fun r => (1 <= N.of_nat (snd r) < 2 ^ 32)%N) runs ->
  exists ws T, pushRuns codes intCodes W T0 runs = Ok T /\ dense T /\ runWords T0 intTree W runs ws /\
    forall q, look T q = stored T0 ws q.
Proof.
  intros T0 codes intTree intCodes W runs HC HD HT HW H1 H2.
  destruct (words_of_runs T0 codes intTree intCodes W runs HC HT HW H1 H2) as (ws & W1 & W2).
  destruct (pushRuns_spec T0 codes intCodes W runs ws W1) as (T & E1 & E2 & E3).
  - eapply runWords_noPrefix; [exact HC|eapply intTable_full; exact HT|eapply runWords_all; exact W2].
  - exact HD.
  - intros C. pose proof (ct_root _ _ HC) as R. rewrite C in R. discriminate.
  - intros q n E. eapply ct_empty; [exact HC|exact E].
  - exists ws, T. auto.
Qed.

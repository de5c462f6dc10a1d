(** One round keeps the grammar well formed and the meaning of the text. *)
From Coq Require Import List NArith ZArith Lia Arith Bool Permutation.
From Coq Require Import ZifyBool ZifyNat ZifyN.
From Verif Require Import Base Arrays TArray ModelUtils ModelStreams ModelHeaders ProofUtils1 ModelGrammar SpecGrammar ProofGrammar3 ModelPairs
  ProofPairs1 ProofPairs2 ProofPairs3 ProofPairs4 ProofPairs5 ProofPairs6 ProofPairs7.
Import ListNotations.
Open Scope N_scope.

Lemma bytesOf_in : forall ks k c, In k ks -> In c (symBytes k) -> In c (bytesOf ks).
Proof. intros ks k c H1 H2. unfold bytesOf. apply in_concat. exists (symBytes k). split; [apply in_map; exact H1|exact H2]. Qed.
Lemma ruleBytes_lhs : forall rules k ks c, In (k, ks) rules -> In c (symBytes k) -> In c (ruleBytes rules).
Proof.
  intros rules k ks c H1 H2. unfold ruleBytes. apply in_concat. exists (symBytes k ++ bytesOf ks). split; [|apply in_app_iff; auto].
  apply in_map_iff. exists (k, ks). auto.
Qed.
Lemma ruleBytes_rhs : forall rules k ks x c, In (k, ks) rules -> In x ks -> In c (symBytes x) -> In c (ruleBytes rules).
Proof.
  intros rules k ks x c H1 H2 H3. unfold ruleBytes. apply in_concat. exists (symBytes k ++ bytesOf ks). split; [|apply in_app_iff; right; eapply bytesOf_in; eauto].
  apply in_map_iff. exists (k, ks). auto.
Qed.

Lemma ordered_app : forall a b, ordered a -> ordered b -> (forall k ks x, In (k, ks) a -> In x ks -> ~ In x (map fst b)) -> ordered (a ++ b).
Proof.
  induction a as [|[k ks] a IH]; intros b Ha Hb H; [exact Hb|]. cbn [app ordered] in *. destruct Ha as (A1 & A2). split.
  - intros x Hx. rewrite map_app. intros [Q|Q]; [apply (A1 x Hx); left; exact Q|]. apply in_app_iff in Q. destruct Q as [Q|Q]; [apply (A1 x Hx); right; exact Q|].
    apply (H k ks x (or_introl eq_refl) Hx Q).
  - apply IH; auto. intros k' ks' x I. apply (H k' ks'). right. exact I.
Qed.
Lemma ordered_tr : forall (f : sym -> sym) (valid : sym -> Prop) rules,
  (forall k l, valid k -> valid l -> f k = f l -> k = l) ->
  Forall (fun r => valid (fst r) /\ Forall valid (snd r)) rules -> ordered rules -> ordered (map (trBoth f) rules).
Proof.
  intros f valid rules INJ. induction rules as [|[k ks] rules IH]; intros V O; [exact I|]. inversion_clear V as [|? ? V0 V3]. destruct V0 as (V1 & V2). cbn [fst snd] in *.
  cbn [map trBoth fst snd ordered] in *. destruct O as (O1 & O2). split; [|apply IH; auto].
  intros x Hx. apply in_map_iff in Hx. destruct Hx as (x0 & <- & Hx). rewrite Forall_forall in V2. intros [Q|Q].
  - apply (O1 x0 Hx). left. apply INJ; auto.
  - apply (O1 x0 Hx). right. rewrite map_map in Q. apply in_map_iff in Q. destruct Q as ([l ls] & Q1 & Q2). cbn [trBoth fst] in Q1.
    apply in_map_iff. exists (l, ls). split; [|exact Q2]. cbn [fst]. apply INJ; auto. rewrite Forall_forall in V3. apply (V3 (l, ls) Q2).
Qed.

Section Round.
Variables (g : grammar) (rules : list (sym * list sym)) (F P : N -> N) (common : N) (R : list (N * N)) (frees news freed : list N).
Variables (g' : grammar) (table : tarray N) (esc : N -> option (N * N)) (ext : list (bool * N)) (toks : list sym).
Hypothesis G : gram g rules.
Hypothesis D : decision g F P common R frees news freed.
Hypothesis C : constructed g rules common R frees news freed g' table esc ext.
Hypothesis LR : length R = length (freed ++ frees).
Hypothesis RN : R <> [].
Hypothesis HPF : forall a b, a < 256 -> b < 256 -> P (pair16 a b) <= F a /\ P (pair16 a b) <= F b.
Hypothesis HFG : forall c, c < 256 -> In c (ruleBytes rules) -> 0 < F c.
Hypothesis HFD : forall c, c < 256 -> In c (bytesOf toks) -> 0 < F c.
Hypothesis HT : Forall (valid g) toks.

Let RR := combine R (freed ++ frees).
Let rules' := map (trBoth (tr esc)) rules ++ map (trRhs (tr esc)) (newRules RR).

Lemma rd_plain : forall c, In c (frees ++ news ++ freed) -> c < 256 /\ flagged (g_special g) c = false.
Proof.
  intros c Hc. destruct D as (_ & _ & _ & D4 & _). destruct (D4 c Hc) as (Q1 & Q). split; [exact Q1|]. unfold isSpecial in Q. apply get_inv in Q.
  unfold flagged. apply (nth_error_nth _ _ false Q).
Qed.
Lemma rd_common : common < 256 /\ flagged (g_special g) common = false.
Proof.
  destruct D as (D1 & Q & _). split; [exact D1|]. unfold isSpecial in Q. apply get_inv in Q. unfold flagged. apply (nth_error_nth _ _ false Q).
Qed.
Lemma rd_repl : forall c, In c (freed ++ frees) -> In c (frees ++ news ++ freed).
Proof. intros c. rewrite !in_app_iff. tauto. Qed.
Lemma rd_esc : forall c, In c (freed ++ news) -> In c (frees ++ news ++ freed).
Proof. intros c. rewrite !in_app_iff. tauto. Qed.

(** Symbols of the chosen pairs are not touched otherwise. *)
Lemma rd_chosen : forall p pr r, In (p, pr, r) RR -> pr < 65536 /\ 0 < p /\ In r (freed ++ frees) /\
  (flagged (g_special g) (hiOf pr) = false /\ ~ In (hiOf pr) (frees ++ news ++ freed)) /\
  (flagged (g_special g) (loOf pr) = false /\ ~ In (loOf pr) (frees ++ news ++ freed)).
Proof.
  intros p pr r H. destruct D as (_ & _ & _ & _ & _ & D6 & _). unfold RR in H. pose proof (in_combine_l _ _ _ _ H) as H1. pose proof (in_combine_r _ _ _ _ H) as H2.
  destruct (D6 p pr H1) as (K1 & K2 & K3 & K4 & K5). destruct (HPF (hiOf pr) (loOf pr) (hiOf_lt pr) (loOf_lt pr)) as (Q1 & Q2). rewrite pair_of in Q1, Q2 by exact K1.
  destruct K4 as (P1 & P2). unfold isSpecial in P1, P2. apply get_inv in P1, P2. apply (nth_error_nth _ _ false) in P1, P2.
  split; [exact K1|]. split; [exact K3|]. split; [exact H2|]. split; (split; [assumption|]); intros I; apply K5 in I; lia.
Qed.

Lemma rd_specials : NoDup (g_specials g').
Proof.
  destruct C as (_ & _ & _ & C4 & _). rewrite C4. apply NoDup_app_mk; [apply G| |].
  - destruct D as (_ & _ & D3 & _). apply NoDup_app_r in D3. apply NoDup_app_l in D3. exact D3.
  - intros x X1 X2. apply (gr_flag _ _ G) in X1. destruct (rd_plain x) as (_ & Q); [rewrite !in_app_iff; auto|]. congruence.
Qed.
Lemma rd_index : forall i j x, nth_error (g_specials g') i = Some x -> nth_error (g_specials g') j = Some x -> i = j.
Proof.
  intros i j x Hi Hj. pose proof rd_specials as N0. rewrite NoDup_nth_error in N0. apply N0; [eapply nth_error_bound; eauto|congruence].
Qed.
Lemma rd_old : forall i x, nth_error (g_specials g) i = Some x -> nth_error (g_specials g') i = Some x.
Proof. intros i x H. destruct C as (_ & _ & _ & C4 & _). rewrite C4, nth_error_app1; [exact H|]. eapply nth_error_bound; eauto. Qed.
Lemma rd_flag_bytes : forall c, In c (g_specials g') -> c < 256.
Proof.
  intros c H. destruct C as (_ & _ & _ & C4 & _). rewrite C4 in H. apply in_app_iff in H. destruct H as [H|H]; [apply (gr_bytes _ _ G); exact H|].
  apply rd_plain. rewrite !in_app_iff. auto.
Qed.

Lemma rd_esc_inj : forall c d x y, esc c = Some (x, y) -> esc d = Some (x, y) -> c = d.
Proof.
  intros c d x y Hc Hd. destruct C as (_ & _ & _ & _ & _ & _ & _ & _ & _ & _ & _ & C12 & _).
  destruct (C12 c x y Hc) as (_ & m & fl & M1 & i & j & N1 & N2 & N3 & _). destruct (C12 d x y Hd) as (_ & m' & fl' & M1' & i' & j' & N1' & N2' & N3' & _).
  assert (i = i') by (eapply rd_index; eauto). assert (j = j') by (eapply rd_index; eauto). subst i' j'.
  assert (m = m') by lia. subst m'. congruence.
Qed.
(** A pair that stands for a symbol is new. *)
Lemma rd_esc_new : forall c x y, esc c = Some (x, y) -> ~ valid g (Two x y).
Proof.
  intros c x y Hc (i' & j' & N1' & N2' & N3'). destruct C as (_ & _ & _ & _ & _ & _ & _ & _ & _ & _ & _ & C12 & _).
  destruct (C12 c x y Hc) as (_ & m & fl & M1 & i & j & N1 & N2 & N3 & _). apply rd_old in N1', N2'.
  assert (i = i') by (eapply rd_index; eauto). assert (j = j') by (eapply rd_index; eauto). subst i' j'. lia.
Qed.
Lemma rd_tr_inj : forall k l, valid g k -> valid g l -> tr esc k = tr esc l -> k = l.
Proof.
  intros [a|a b] [c|c d] V1 V2 H; cbn [tr] in H.
  - destruct (esc a) as [[x y]|] eqn:E1, (esc c) as [[x' y']|] eqn:E2; try discriminate; [|exact H]. injection H as <- <-. f_equal. eapply rd_esc_inj; eauto.
  - destruct (esc a) as [[x y]|] eqn:E1; [|discriminate]. injection H as <- <-. elim (rd_esc_new _ _ _ E1 V2).
  - destruct (esc c) as [[x y]|] eqn:E1; [|discriminate]. injection H as -> ->. elim (rd_esc_new _ _ _ E1 V1).
  - exact H.
Qed.
Lemma rd_tr_valid : forall k, valid g k -> valid g' (tr esc k).
Proof.
  intros k V. destruct C as (_ & _ & _ & C4 & C5 & C6 & _ & C8 & _ & _ & C11 & C12 & _). destruct k as [c|a b]; cbn [tr valid] in *.
  - destruct (esc c) as [[x y]|] eqn:E.
    + destruct (C12 c x y E) as (_ & m & fl & M1 & i & j & N1 & N2 & N3 & _). exists i, j. split; [exact N2|]. split; [exact N3|].
      rewrite N1, C5, app_length. apply nth_error_bound in M1. lia.
    + split; [apply V|]. destruct (flagged (g_special g') c) eqn:Q; [|reflexivity]. apply C8 in Q. destruct V as (_ & V). destruct Q as [Q|Q]; [congruence|].
      elim (C11 c E). apply in_app_iff. auto.
  - destruct V as (i & j & N1 & N2 & N3). exists i, j. split; [apply rd_old; exact N1|]. split; [apply rd_old; exact N2|]. rewrite C5, app_length. lia.
Qed.
Lemma rd_repl_valid : forall r, In r (freed ++ frees) -> valid g' (One r).
Proof.
  intros r H. destruct (rd_plain r (rd_repl r H)) as (Q1 & Q2). split; [exact Q1|]. destruct C as (_ & _ & _ & _ & _ & _ & _ & C8 & _).
  destruct (flagged (g_special g') r) eqn:Q; [|reflexivity]. apply C8 in Q. destruct Q as [Q|Q]; [congruence|]. exfalso.
  destruct D as (_ & _ & D3 & _). apply in_app_iff in H. destruct H as [H|H].
  - apply NoDup_app_r in D3. apply (NoDup_app_dis _ _ D3 r Q H).
  - apply (NoDup_app_dis _ _ D3 r H). apply in_app_iff. auto.
Qed.
(** The image of a symbol that occurs is not one of the new variables. *)
Lemma rd_tr_occ : forall k r, (forall c, k = One c -> c < 256 /\ 0 < F c) -> In r (freed ++ frees) -> tr esc k <> One r.
Proof.
  intros k r HO HR Q. destruct C as (_ & _ & _ & _ & _ & _ & _ & _ & _ & _ & C11 & _). destruct k as [c|a b]; cbn [tr] in Q; [|discriminate].
  destruct (esc c) as [[x y]|] eqn:E; [discriminate|]. injection Q as ->. destruct (HO r eq_refl) as (_ & HF).
  apply in_app_iff in HR. destruct HR as [HR|HR]; [apply (C11 r E); apply in_app_iff; auto|]. destruct D as (_ & _ & _ & _ & D5 & _). specialize (D5 r HR). lia.
Qed.
Lemma rd_RR_snd : map snd RR = freed ++ frees.
Proof.
  unfold RR. generalize (freed ++ frees), R, LR. induction l as [|x l IH]; intros [|[p q] R0] HL; cbn [length] in HL; try lia; [reflexivity|].
  cbn [combine map snd]. f_equal. apply IH. lia.
Qed.
Lemma rd_repl_nodup : NoDup (freed ++ frees).
Proof.
  destruct D as (_ & _ & D3 & _). apply NoDup_app_mk.
  - apply NoDup_app_r in D3. apply NoDup_app_r in D3. exact D3.
  - apply NoDup_app_l in D3. exact D3.
  - intros x X1 X2. apply (NoDup_app_dis _ _ D3 x X2). apply in_app_iff. auto.
Qed.
Lemma rd_rule_in : forall a b r, a < 256 -> b < 256 -> ruleOf RR (pair16 a b) = Some r -> exists p, In (p, pair16 a b, r) RR.
Proof. intros a b r Ha Hb H. apply ruleOf_in in H. exact H. Qed.
Lemma rd_rule : forall a b r, a < 256 -> b < 256 -> ruleOf RR (pair16 a b) = Some r ->
  r < 256 /\ In r (freed ++ frees) /\ flagged (g_special g) a = false /\ flagged (g_special g) b = false /\ esc a = None /\ esc b = None.
Proof.
  intros a b r Ha Hb H. destruct (rd_rule_in a b r Ha Hb H) as (p & I). destruct (rd_chosen p _ r I) as (_ & _ & K1 & (K2 & K3) & (K4 & K5)).
  rewrite hiOf_pair in K2, K3 by assumption. rewrite loOf_pair in K4, K5 by assumption.
  destruct C as (_ & _ & _ & _ & _ & _ & _ & _ & _ & _ & _ & C12 & _).
  split; [apply rd_plain, rd_repl, K1|]. split; [exact K1|]. split; [exact K2|]. split; [exact K4|]. split.
  - destruct (esc a) as [[x y]|] eqn:E; [|reflexivity]. elim K3. apply rd_esc. apply (C12 a x y E).
  - destruct (esc b) as [[x y]|] eqn:E; [|reflexivity]. elim K5. apply rd_esc. apply (C12 b x y E).
Qed.

(** ** The rewritten text *)
Let rule (a b : N) := ruleOf RR (pair16 a b).
Lemma rd_tokOk : forall k, valid g k -> tokOk (flagged (g_special g)) k.
Proof.
  intros [c|a b]; cbn [valid tokOk]; [tauto|]. intros (i & j & N1 & N2 & _). apply nth_error_In in N1, N2.
  split; [apply (gr_bytes _ _ G); exact N1|]. split; [apply (gr_bytes _ _ G); exact N2|]. split; apply (gr_flag _ _ G); assumption.
Qed.
Lemma rd_esc_bytes : forall a x y, esc a = Some (x, y) -> x < 256 /\ y < 256 /\ x <> common /\ y <> common /\ flagged (g_special g) a = false.
Proof.
  intros a x y E. destruct C as (_ & _ & _ & C4 & _ & _ & _ & _ & _ & _ & _ & C12 & _ & _ & C15 & C16 & C17 & _).
  destruct (C12 a x y E) as (IC & m & fl & M1 & i & j & N1 & N2 & N3 & N4 & N5).
  assert (NC : forall z, In z (g_specials g') -> z <> common).
  { intros z Hz ->. rewrite C4 in Hz. apply in_app_iff in Hz. destruct Hz as [Hz|Hz]; [|apply (C16 common Hz); reflexivity].
    apply (gr_flag _ _ G) in Hz. destruct rd_common as (_ & Q). congruence. }
  apply nth_error_In in N2, N3. split; [apply rd_flag_bytes; exact N2|]. split; [apply rd_flag_bytes; exact N3|]. split; [apply NC; exact N2|]. split; [apply NC; exact N3|].
  apply rd_plain, rd_esc, IC.
Qed.
Lemma rd_replaced : forall room l, writeReplaced common table room (bytesOf toks) = Ok l -> l = bytesOf (rw esc rule toks).
Proof.
  intros room l H. destruct C as (_ & _ & _ & _ & _ & _ & _ & _ & _ & _ & _ & _ & _ & C14 & C15 & _ & _ & C18). fold RR in C18.
  eapply (replaced_ok esc rule common table (flagged (g_special g))); [exact C14|apply rd_common|exact C18| | | | |exact H].
  - intros a b r Ha Hb Q. destruct (rd_rule a b r Ha Hb Q) as (Q1 & Q2 & Q3 & Q4 & _). auto.
  - intros a x y Ha Q. apply rd_esc_bytes. exact Q.
  - intros a r Ha Q. apply (rd_rule a 0 r Ha ltac:(lia) Q).
  - eapply Forall_impl; [|exact HT]. exact rd_tokOk.
Qed.
Lemma rd_toks_valid : Forall (valid g') (rw esc rule toks).
Proof.
  apply Forall_forall. intros k Hk. rewrite Forall_forall in HT. apply (rw_in esc rule (length toks) toks (le_n _)) in Hk.
  destruct Hk as [(k0 & I & ->)|(a & b & r & I1 & I2 & Q & ->)]; [apply rd_tr_valid, HT, I|].
  apply rd_repl_valid. destruct (HT _ I1) as (Ha & _). destruct (HT _ I2) as (Hb & _). apply (rd_rule a b r Ha Hb Q).
Qed.
Lemma rd_meaning : forall T', initOk g' T' -> exists T, initOk g T /\
  concat (map (eval rules' T') (rw esc rule toks)) = concat (map (eval rules T) toks).
Proof.
  intros T' (I1 & I2). exists (fun k => match k with One c => [c] | Two a b => T' (Two a b) end). set (T := fun k => match k with One c => [c] | Two a b => T' (Two a b) end).
  split.
  { split; [reflexivity|]. intros i j x y c N1 N2 N3. cbn [T]. apply (I2 i j); [apply rd_old; exact N1|apply rd_old; exact N2|].
    destruct C as (_ & _ & _ & _ & C5 & _). rewrite C5, nth_error_app1; [exact N3|]. eapply nth_error_bound; eauto. }
  unfold rules'. rewrite eval_app. set (T2 := eval (map (trBoth (tr esc)) rules) T').
  assert (E2 : forall k, valid g k -> T2 (tr esc k) = eval rules T k).
  { apply (eval_tr (tr esc) (valid g)); [exact rd_tr_inj|apply G|apply G|]. intros k V NI. destruct k as [c|a b]; cbn [tr T]; [|reflexivity].
    destruct (esc c) as [[x y]|] eqn:E; [|apply I1]. destruct C as (_ & _ & _ & _ & C5 & _ & _ & _ & _ & _ & _ & C12 & _).
    destruct (C12 c x y E) as (_ & m & fl & M1 & i & j & N1 & N2 & N3 & N4 & N5). apply (I2 i j x y c N2 N3).
    assert (fl = false).
    { destruct (Nat.eq_dec i j) as [IJ|IJ]; [apply N4; exact IJ|]. destruct (N5 IJ) as (_ & ->). destruct (flagged (g_variable g) c) eqn:Q; [|reflexivity].
      elim NI. apply (gr_var _ _ G); [apply V|apply V|exact Q]. }
    subst fl. rewrite N1, C5, nth_error_app2 by lia. rewrite <- M1. f_equal. lia. }
  rewrite Forall_forall in HT. apply (rw_eval esc rule _ _ (length toks) toks (le_n _)).
  - intros k Hk. rewrite <- E2 by (apply HT; exact Hk). apply eval_other. rewrite fst_newRules. intros Q. apply in_map_iff in Q. destruct Q as (x & Q1 & Q2).
    symmetry in Q1. apply rd_tr_occ in Q1; [exact Q1| |rewrite <- rd_RR_snd; apply in_map; exact Q2].
    intros c ->. pose proof (HT _ Hk) as (V1 & _). split; [exact V1|]. apply HFD; [exact V1|]. eapply bytesOf_in; [exact Hk|left; reflexivity].
  - intros a b r Ha Hb Q. pose proof (HT _ Ha) as Va. pose proof (HT _ Hb) as Vb. destruct Va as (Va & Va2). destruct Vb as (Vb & Vb2).
    destruct (rd_rule_in a b r Va Vb Q) as (p & I).
    rewrite (eval_new (tr esc) RR T2) with (p := p) (pr := pair16 a b).
    + rewrite hiOf_pair, loOf_pair by assumption. rewrite !E2 by (apply HT; assumption). reflexivity.
    + rewrite rd_RR_snd. apply rd_repl_nodup.
    + intros p1 pr1 r1 J1 r2 J2. rewrite rd_RR_snd in J2. destruct (rd_chosen p1 pr1 r1 J1) as (K1 & K0 & _ & (_ & K3) & (_ & K5)).
      assert (K : forall z, ~ In z (frees ++ news ++ freed) -> tr esc (One z) <> One r2).
      { intros z NZ Y. cbn [tr] in Y. destruct (esc z) as [[? ?]|]; [discriminate|]. injection Y as ->. apply NZ, rd_repl, J2. }
      split; apply K; assumption.
    + exact I.
Qed.

(** ** The new grammar *)
Lemma rd_lhs : forall k, In k (map fst rules') <-> (exists k0, In k0 (map fst rules) /\ k = tr esc k0) \/ (exists r, In r (freed ++ frees) /\ k = One r).
Proof.
  intros k. unfold rules'. rewrite map_app, in_app_iff, fst_newRules, map_map. split.
  - intros [H|H]; apply in_map_iff in H.
    + destruct H as ([l ls] & <- & H). left. exists l. split; [|reflexivity]. apply in_map_iff. exists (l, ls). auto.
    + destruct H as (x & <- & H). right. exists (snd x). split; [|reflexivity]. rewrite <- rd_RR_snd. apply in_map. exact H.
  - intros [(k0 & H & ->)|(r & H & ->)].
    + left. apply in_map_iff in H. destruct H as ([l ls] & <- & H). apply in_map_iff. exists (l, ls). auto.
    + right. rewrite <- rd_RR_snd in H. apply in_map_iff in H. destruct H as (x & <- & H). apply in_map_iff. exists x. auto.
Qed.
Lemma rd_lhs_valid : forall k, In k (map fst rules) -> valid g k.
Proof. intros k H. apply in_map_iff in H. destruct H as ([l ls] & <- & H). pose proof (gr_valid _ _ G) as V. rewrite Forall_forall in V. apply (V (l, ls) H). Qed.

Lemma rd_valid : Forall (fun r => valid g' (fst r) /\ Forall (valid g') (snd r)) rules'.
Proof.
  unfold rules'. apply Forall_app. split.
  - apply Forall_forall. intros r Hr. apply in_map_iff in Hr. destruct Hr as ([k ks] & <- & H). cbn [trBoth fst snd].
    pose proof (gr_valid _ _ G) as V. rewrite Forall_forall in V. destruct (V (k, ks) H) as (V1 & V2). cbn [fst snd] in *. split; [apply rd_tr_valid; exact V1|].
    apply Forall_forall. intros x Hx. apply in_map_iff in Hx. destruct Hx as (x0 & <- & Hx). apply rd_tr_valid. rewrite Forall_forall in V2. auto.
  - apply Forall_forall. intros r Hr. apply in_map_iff in Hr. destruct Hr as (r0 & <- & H). unfold newRules in H. apply in_map_iff in H. destruct H as ([[p pr] x] & <- & H).
    cbn [trRhs fst snd map]. destruct (rd_chosen p pr x H) as (_ & _ & K1 & (K2 & _) & (K4 & _)). split; [apply rd_repl_valid; exact K1|].
    repeat constructor; apply rd_tr_valid; split; auto; [apply hiOf_lt|apply loOf_lt].
Qed.
Lemma rd_ordered : ordered rules'.
Proof.
  unfold rules'. apply ordered_app.
  - apply (ordered_tr _ (valid g)); [exact rd_tr_inj|apply G|apply G].
  - assert (K : forall p pr r, In (p, pr, r) RR -> forall z, z = hiOf pr \/ z = loOf pr -> forall r2, In r2 (freed ++ frees) -> tr esc (One z) <> One r2).
    { intros p pr r H z Hz r2 J2 Y. destruct (rd_chosen p pr r H) as (_ & _ & _ & (_ & K3) & (_ & K5)). cbn [tr] in Y. destruct (esc z) as [[? ?]|]; [discriminate|].
      injection Y as ->. destruct Hz as [->| ->]; [apply K3|apply K5]; apply rd_repl, J2. }
    assert (SS : forall x, In x RR -> In (snd x) (freed ++ frees)) by (intros x Hx; rewrite <- rd_RR_snd; apply in_map; exact Hx).
    clearbody RR. clear - K SS. revert K SS. induction RR as [|[[p pr] r] l IH]; intros K SS; [exact I|]. cbn [newRules map trRhs fst snd ordered]. fold (newRules l). split.
    + intros x Hx. rewrite fst_newRules. intros Q.
      assert (EX : exists r2, In r2 (freed ++ frees) /\ x = One r2).
      { destruct Q as [Q|Q]; [exists r; split; [apply (SS (p, pr, r)); left; reflexivity|congruence]|]. apply in_map_iff in Q. destruct Q as (y & Q1 & Q2).
        exists (snd y). split; [apply SS; right; exact Q2|congruence]. }
      destruct EX as (r2 & J2 & ->). destruct Hx as [Hx|[Hx|[]]]; revert Hx; [apply (K p pr r (or_introl eq_refl) _ (or_introl eq_refl) r2 J2)|apply (K p pr r (or_introl eq_refl) _ (or_intror eq_refl) r2 J2)].
    + apply IH; [intros p1 pr1 r1 H1; apply (K p1 pr1 r1); right; exact H1|intros x Hx; apply SS; right; exact Hx].
  - intros k ks x H Hx. rewrite fst_newRules. intros Q. apply in_map_iff in H. destruct H as ([k0 ks0] & H1 & H2). injection H1 as <- <-.
    apply in_map_iff in Hx. destruct Hx as (x0 & <- & Hx). apply in_map_iff in Q. destruct Q as (y & Q1 & Q2). symmetry in Q1. apply rd_tr_occ in Q1; [exact Q1| |rewrite <- rd_RR_snd; apply in_map; exact Q2].
    intros c ->. pose proof (gr_valid _ _ G) as V. rewrite Forall_forall in V. destruct (V _ H2) as (_ & V2). rewrite Forall_forall in V2. destruct (V2 _ Hx) as (V3 & _).
    split; [exact V3|]. apply HFG; [exact V3|]. eapply ruleBytes_rhs; [exact H2|exact Hx|left; reflexivity].
Qed.
Lemma rd_freed_news : forall c, In c freed -> ~ In c news.
Proof. intros c H1 H2. destruct D as (_ & _ & D3 & _). apply NoDup_app_r in D3. apply (NoDup_app_dis _ _ D3 c H2 H1). Qed.

Lemma rd_ext_fun : forall m m' fl fl' c, nth_error ext m = Some (fl, c) -> nth_error ext m' = Some (fl', c) -> m = m'.
Proof.
  intros m m' fl fl' c H1 H2. destruct C as (_ & _ & _ & _ & _ & _ & _ & _ & _ & _ & _ & _ & C13 & _).
  destruct (C13 m fl c H1) as (x & y & E & i & j & N1 & N2 & N3 & _). destruct (C13 m' fl' c H2) as (x' & y' & E' & i' & j' & N1' & N2' & N3' & _).
  rewrite E in E'. injection E' as <- <-. assert (i = i') by (eapply rd_index; eauto). assert (j = j') by (eapply rd_index; eauto). subst i' j'. lia.
Qed.

Lemma rd_gram : gram g' rules'.
Proof.
  pose proof C as (C1 & C2 & C3 & C4 & C5 & C6 & C7 & C8 & C9 & C10 & C11 & C12 & C13 & C14 & C15 & C16 & C17 & C18).
  fold RR in C1, C2, C3. fold rules' in C1, C2, C3.
  assert (ENT : forall n e, nth_error (g_pairs g') n = Some e -> nth_error (g_pairs g) n = Some e \/ exists m, n = (length (g_pairs g) + m)%nat /\ nth_error ext m = Some e).
  { intros n e H. rewrite C5 in H. destruct (Nat.lt_ge_cases n (length (g_pairs g))) as [L|L].
    - rewrite nth_error_app1 in H by exact L. auto.
    - rewrite nth_error_app2 in H by exact L. right. exists (n - length (g_pairs g))%nat. split; [lia|exact H]. }
  assert (EXB : forall m fl c, nth_error ext m = Some (fl, c) -> c < 256 /\ flagged (g_special g) c = false).
  { intros m fl c H. destruct (C13 m fl c H) as (x & y & E & _). apply rd_plain, rd_esc. apply (C12 c x y E). }
  assert (LE : (length (g_specials g') <= 255)%nat).
  { assert (ND : NoDup (common :: g_specials g')).
    { apply NoDup_cons_iff. split; [|apply rd_specials]. rewrite C4, in_app_iff. intros [Q|Q]; [|apply (C16 common Q); reflexivity].
      apply (gr_flag _ _ G) in Q. destruct rd_common as (_ & Q'). congruence. }
    apply (NoDup_incl_length (l' := map N.of_nat (seq 0 256))) in ND.
    - cbn [length] in ND. rewrite map_length, seq_length in ND. lia.
    - intros x Hx. assert (x < 256) by (destruct Hx as [<-|Hx]; [apply rd_common|apply rd_flag_bytes; exact Hx]). apply in_map_iff. exists (N.to_nat x). split; [lia|]. apply in_seq. lia. }
  constructor.
  - exact C3.
  - exact C7.
  - exact C9.
  - apply rd_specials.
  - exact rd_flag_bytes.
  - intros c. rewrite C8, C4, in_app_iff, (gr_flag _ _ G). reflexivity.
  - exact LE.
  - destruct D as (_ & _ & _ & _ & _ & _ & _ & D8). destruct D8 as (F1 & F2). rewrite C4, C5, !app_length, C6.
    set (s := length (g_specials g)) in *. set (q := length (g_pairs g)) in *. set (n := length news) in *. set (f := length freed) in *.
    destruct (Nat.eq_dec n 0) as [Z|Z].
    + rewrite Z in *. replace (s + 0)%nat with s in * by lia. destruct (gr_q _ _ G) as [(Q1 & Q2)|(Q1 & Q2)]; fold s q in Q1, Q2.
      * left. split; [exact Q1|]. rewrite Q1 in F1. cbn in F1. lia.
      * right. split; [exact Q1|]. lia.
    + right. specialize (F2 ltac:(lia)). split; [lia|]. split; [lia|]. lia.
  - intros n [fl c] H. cbn [snd]. destruct (ENT n _ H) as [Q|(m & _ & Q)]; [apply (gr_pbytes _ _ G n _ Q)|]. apply (EXB m fl c Q).
  - intros k [fl c] H. cbn [fst snd]. destruct (ENT _ _ H) as [Q|(m & M & Q)].
    + destruct (gr_sq _ _ G k _ Q) as (Q1 & Q2). split; [exact Q1|]. apply rd_old. exact Q2.
    + destruct (C13 m fl c Q) as (x & y & E & i & j & N1 & N2 & N3 & N4 & N5). rewrite <- M in N1. apply number_diag in N1. destruct N1 as (-> & ->).
      destruct (N4 eq_refl) as (_ & -> & ->). auto.
  - exact C1.
  - exact C2.
  - exact rd_valid.
  - unfold rules'. apply Forall_app. split.
    + apply Forall_forall. intros r Hr. apply in_map_iff in Hr. destruct Hr as (r0 & <- & H). cbn [trBoth snd]. rewrite map_length. pose proof (gr_two _ _ G) as V. rewrite Forall_forall in V. apply V. exact H.
    + apply Forall_forall. intros r Hr. apply in_map_iff in Hr. destruct Hr as (r0 & <- & H). unfold newRules in H. apply in_map_iff in H. destruct H as (x & <- & _). reflexivity.
  - exact rd_ordered.
  - (* variables *)
    intros c Hc NS. assert (NS0 : flagged (g_special g) c = false /\ ~ In c news).
    { destruct (flagged (g_special g) c) eqn:Q; [assert (flagged (g_special g') c = true) by (apply C8; auto); congruence|]. split; [reflexivity|].
      intros Q2. assert (flagged (g_special g') c = true) by (apply C8; auto). congruence. }
    rewrite C10, rd_lhs, (gr_var _ _ G c Hc (proj1 NS0)). split.
    + intros [H|H]; [|right; exists c; auto]. destruct (esc c) as [[x y]|] eqn:E.
      * right. exists c. split; [|reflexivity]. destruct (C12 c x y E) as (IC & _). apply in_app_iff in IC. apply in_app_iff. tauto.
      * left. exists (One c). split; [exact H|]. cbn [tr]. rewrite E. reflexivity.
    + intros [(k0 & H & Q)|(r & H & Q)]; [|injection Q as ->; auto]. destruct k0 as [d|a b]; cbn [tr] in Q; [|discriminate].
      destruct (esc d) as [[x y]|] eqn:E; [discriminate|]. injection Q as ->. left. exact H.
  - (* large variables *)
    intros i j x y c fl IJ N1 N2 N3. rewrite rd_lhs. destruct (ENT _ _ N3) as [Q|(m & M & Q)].
    + assert (LT := nth_error_bound _ _ _ Q).
      assert (SB : (i < length (g_specials g) /\ j < length (g_specials g))%nat).
      { pose proof (gr_q _ _ G) as GQ. assert (GQ' : (length (g_pairs g) <= length (g_specials g) * length (g_specials g))%nat) by (destruct GQ as [(U1 & U2)|U]; lia).
        assert (NN : (number i j < length (g_specials g) * length (g_specials g))%nat) by lia. unfold number in NN.
        destruct (Nat.eqb_spec i j); [contradiction|]. destruct (Nat.ltb_spec j i); split; nia. }
      assert (O1 : nth_error (g_specials g) i = Some x) by (rewrite C4, nth_error_app1 in N1 by lia; exact N1).
      assert (O2 : nth_error (g_specials g) j = Some y) by (rewrite C4, nth_error_app1 in N2 by lia; exact N2).
      rewrite (gr_large _ _ G i j x y c fl IJ O1 O2 Q). split.
      * intros H. left. exists (Two x y). split; [exact H|reflexivity].
      * intros [(k0 & H & K)|(r & _ & K)]; [|discriminate]. destruct k0 as [d|a b]; cbn [tr] in K; [|injection K as <- <-; exact H].
        destruct (esc d) as [[x' y']|] eqn:E; [|discriminate]. injection K as <- <-. exfalso. apply (rd_esc_new d x y E). exists i, j. auto.
    + destruct (C13 m fl c Q) as (x' & y' & E & i' & j' & N1' & N2' & N3' & N4' & N5'). rewrite <- M in N1'. apply number_inj in N1'. destruct N1' as (-> & ->).
      assert (x' = x) by congruence. assert (y' = y) by congruence. subst x' y'. destruct (N5' IJ) as (IF & ->).
      destruct (EXB m _ c Q) as (Hc & NS). rewrite (gr_var _ _ G c Hc NS). split.
      * intros H. left. exists (One c). split; [exact H|]. cbn [tr]. rewrite E. reflexivity.
      * intros [(k0 & H & K)|(r & _ & K)]; [|discriminate]. destruct k0 as [d|a b]; cbn [tr] in K.
        -- destruct (esc d) as [[x' y']|] eqn:E2; [|discriminate]. injection K as <- <-. rewrite (rd_esc_inj c d x y E E2). exact H.
        -- injection K as <- <-. elim (rd_esc_new c x y E). apply rd_lhs_valid. exact H.
  - (* freed symbols *)
    intros i j c IJ H. destruct (ENT _ _ H) as [Q|(m & M & Q)].
    + destruct (gr_freed _ _ G i j c IJ Q) as (Q1 & Q2). split; [apply C10; auto|].
      rewrite C4. destruct (g_specials g) as [|s0 sp] eqn:ES; [|exact Q2]. exfalso. apply nth_error_bound in Q.
      pose proof (gr_q _ _ G) as GQ. rewrite ES in GQ. cbn [length] in GQ. lia.
    + destruct (C13 m _ c Q) as (x & y & E & i' & j' & N1 & N2 & N3 & N4 & N5). rewrite <- M in N1. apply number_inj in N1. destruct N1 as (-> & ->).
      destruct (N5 IJ) as (IF & _). split; [apply C10; right; apply in_app_iff; auto|]. intros Z. apply nth_error_In in Z. rewrite C4 in Z. apply in_app_iff in Z.
      destruct Z as [Z|Z]; [|apply (rd_freed_news c IF Z)]. apply (gr_flag _ _ G) in Z. destruct (EXB m _ c Q) as (_ & NS). congruence.
  - intros i j i' j' c IJ IJ' H H'. destruct (ENT _ _ H) as [Q|(m & M & Q)], (ENT _ _ H') as [Q'|(m' & M' & Q')].
    + apply (gr_inj _ _ G i j i' j' c IJ IJ' Q Q').
    + exfalso. destruct (gr_freed _ _ G i j c IJ Q) as (V & _). destruct (C13 m' _ c Q') as (x & y & E & i1 & j1 & N1 & _ & _ & _ & N5).
      rewrite <- M' in N1. apply number_inj in N1. destruct N1 as (-> & ->). destruct (N5 IJ') as (_ & N6). congruence.
    + exfalso. destruct (gr_freed _ _ G i' j' c IJ' Q') as (V & _). destruct (C13 m _ c Q) as (x & y & E & i1 & j1 & N1 & _ & _ & _ & N5).
      rewrite <- M in N1. apply number_inj in N1. destruct N1 as (-> & ->). destruct (N5 IJ) as (_ & N6). congruence.
    + assert (m = m') by (eapply rd_ext_fun; eauto). subst m'. rewrite <- M' in M. apply number_inj in M. exact M.
  - intros Z. exfalso. unfold rules' in Z. apply app_eq_nil in Z. destruct Z as (_ & Z). apply map_eq_nil in Z. unfold newRules in Z. apply map_eq_nil in Z.
    pose proof rd_RR_snd as Q. rewrite Z in Q. cbn [map] in Q. rewrite <- Q in LR. destruct R; [apply RN; reflexivity|discriminate].
Qed.
End Round.

(** Meaning of a grammar, and one round of the precompressor. *)
From Coq Require Import List NArith ZArith Lia Arith Bool Permutation.
From Coq Require Import ZifyBool ZifyNat ZifyN.
From Verif Require Import Base Arrays TArray ModelUtils ModelStreams ModelHeaders ProofUtils1 ModelGrammar SpecGrammar ProofGrammar3 ModelPairs
  ProofPairs1 ProofPairs2 ProofPairs3 ProofPairs4 ProofPairs5 ProofPairs6.
Import ListNotations.
Open Scope N_scope.

(** ** Meaning *)
Definition symEqb (k l : sym) : bool :=
  match k, l with One a, One b => a =? b | Two a b, Two c d => (a =? c) && (b =? d) | _, _ => false end.
Lemma symEqb_spec : forall k l, reflect (k = l) (symEqb k l).
Proof.
  intros [a|a b] [c|c d]; cbn [symEqb]; try (constructor; congruence).
  - destruct (N.eqb_spec a c); constructor; congruence.
  - destruct (N.eqb_spec a c), (N.eqb_spec b d); cbn [andb]; constructor; congruence.
Qed.
Definition updS (T : sym -> list N) (k : sym) (v : list N) : sym -> list N := fun l => if symEqb l k then v else T l.
Fixpoint eval (rules : list (sym * list sym)) (T : sym -> list N) : sym -> list N :=
  match rules with
  | [] => T
  | (k, ks) :: r => eval r (updS T k (concat (map T ks)))
  end.
(** No symbol is used in a right side before its rule. *)
Fixpoint ordered (rules : list (sym * list sym)) : Prop :=
  match rules with
  | [] => True
  | (k, ks) :: r => (forall x, In x ks -> ~ In x (k :: map fst r)) /\ ordered r
  end.

Lemma eval_other : forall rules T k, ~ In k (map fst rules) -> eval rules T k = T k.
Proof.
  induction rules as [|[l ks] rules IH]; intros T k H; cbn [eval map fst In] in *; [reflexivity|].
  rewrite IH by tauto. unfold updS. destruct (symEqb_spec k l); [subst; tauto|reflexivity].
Qed.
Lemma eval_app : forall a b T, eval (a ++ b) T = eval b (eval a T).
Proof. induction a as [|[k ks] a IH]; intros b T; cbn [app eval]; auto. Qed.

Definition trBoth (f : sym -> sym) (r : sym * list sym) : sym * list sym := (f (fst r), map f (snd r)).
Definition trRhs (f : sym -> sym) (r : sym * list sym) : sym * list sym := (fst r, map f (snd r)).

Lemma eval_tr : forall (f : sym -> sym) (valid : sym -> Prop) rules T T',
  (forall k l, valid k -> valid l -> f k = f l -> k = l) ->
  Forall (fun r => valid (fst r) /\ Forall valid (snd r)) rules -> ordered rules ->
  (forall k, valid k -> ~ In k (map fst rules) -> T' (f k) = T k) ->
  forall k, valid k -> eval (map (trBoth f) rules) T' (f k) = eval rules T k.
Proof.
  intros f valid. induction rules as [|[l ks] rules IH]; intros T T' INJ V O E k Hk; cbn [map trBoth fst snd eval].
  - apply E; auto.
  - inversion_clear V as [|? ? V0 V3]. destruct V0 as (V1 & V2). cbn [fst snd] in *. destruct O as (O1 & O2).
    assert (EQ : concat (map T' (map f ks)) = concat (map T ks)).
    { f_equal. rewrite map_map. apply map_ext_in. intros x Hx. apply E; [rewrite Forall_forall in V2; auto|]. cbn [map fst]. apply O1. exact Hx. }
    rewrite EQ. apply IH; auto. intros x Hx NI. unfold updS. destruct (symEqb_spec x l) as [->|NE].
    + destruct (symEqb_spec (f l) (f l)); [reflexivity|contradiction].
    + destruct (symEqb_spec (f x) (f l)) as [Q|_]; [elim NE; apply INJ; auto|]. apply E; [exact Hx|]. cbn [map fst In]. intros [Q|Q]; [congruence|contradiction].
Qed.

Lemma fst_newRules : forall f RR, map fst (map (trRhs f) (newRules RR)) = map (fun x => One (snd x)) RR.
Proof. intros. unfold newRules. rewrite !map_map. apply map_ext. reflexivity. Qed.

Lemma eval_new : forall (f : sym -> sym) RR T',
  NoDup (map snd RR) ->
  (forall p pr r, In (p, pr, r) RR -> forall r', In r' (map snd RR) -> f (One (hiOf pr)) <> One r' /\ f (One (loOf pr)) <> One r') ->
  forall p pr r, In (p, pr, r) RR ->
   eval (map (trRhs f) (newRules RR)) T' (One r) = T' (f (One (hiOf pr))) ++ T' (f (One (loOf pr))).
Proof.
  intros f. induction RR as [|[[p0 pr0] r0] RR IH]; intros T' ND H p pr r I; [contradiction|].
  cbn [map snd] in ND. apply NoDup_cons_iff in ND. destruct ND as (N1 & N2). cbn [newRules map trRhs fst snd eval]. fold (newRules RR).
  assert (IHH : forall p pr r, In (p, pr, r) RR -> forall r', In r' (map snd RR) -> f (One (hiOf pr)) <> One r' /\ f (One (loOf pr)) <> One r').
  { intros p1 pr1 r1 I1 r' I'. apply (H p1 pr1 r1); [right; exact I1|right; exact I']. }
  destruct I as [I|I].
  - injection I as <- <- <-. rewrite eval_other.
    + unfold updS. destruct (symEqb_spec (One r0) (One r0)); [|contradiction]. cbn [concat]. rewrite app_nil_r. reflexivity.
    + rewrite fst_newRules. intros Q. apply in_map_iff in Q. destruct Q as (x & Q1 & Q2). injection Q1 as Q1. apply N1. rewrite <- Q1. apply in_map. exact Q2.
  - rewrite (IH _ N2 IHH p pr r I). destruct (H p pr r (or_intror I) r0 (or_introl eq_refl)) as (A & B).
    unfold updS. destruct (symEqb_spec (f (One (hiOf pr))) (One r0)); [contradiction|]. destruct (symEqb_spec (f (One (loOf pr))) (One r0)); [contradiction|]. reflexivity.
Qed.

Lemma rw_eval : forall esc rule (T T' : sym -> list N) n ks, (length ks <= n)%nat ->
  (forall k, In k ks -> T' (tr esc k) = T k) ->
  (forall a b r, In (One a) ks -> In (One b) ks -> rule a b = Some r -> T' (One r) = T (One a) ++ T (One b)) ->
  concat (map T' (rw esc rule ks)) = concat (map T ks).
Proof.
  intros esc rule T T'. induction n as [|n IH]; intros ks Hn HT HR; [destruct ks; [reflexivity|cbn in Hn; lia]|].
  destruct ks as [|k ks]; [reflexivity|]. cbn [length] in Hn.
  assert (PL : concat (map T' (tr esc k :: rw esc rule ks)) = concat (map T (k :: ks))).
  { cbn [map concat]. rewrite HT by (left; reflexivity). f_equal. apply IH; [lia| |].
    - intros x Hx. apply HT. right. exact Hx.
    - intros a b r Ha Hb. apply HR; right; assumption. }
  destruct k as [a|a b]; [|exact PL]. destruct ks as [|[b|b c] ks]; [exact PL| |exact PL].
  cbn [rw]. destruct (rule a b) as [r|] eqn:E; [|exact PL]. cbn [map concat].
  rewrite (HR a b r) by (exact E || (left; reflexivity) || (right; left; reflexivity)). rewrite <- app_assoc. do 2 f_equal. cbn [length] in Hn. apply IH; [lia| |].
  - intros x Hx. apply HT. right. right. exact Hx.
  - intros a' b' r' Ha Hb. apply HR; right; right; assumption.
Qed.
Lemma rw_in : forall esc rule n ks, (length ks <= n)%nat -> forall k, In k (rw esc rule ks) ->
  (exists k0, In k0 ks /\ k = tr esc k0) \/ (exists a b r, In (One a) ks /\ In (One b) ks /\ rule a b = Some r /\ k = One r).
Proof.
  intros esc rule. induction n as [|n IH]; intros ks Hn k HI; [destruct ks; [contradiction|cbn in Hn; lia]|].
  destruct ks as [|k0 ks]; [contradiction|]. cbn [length] in Hn.
  assert (PL : In k (tr esc k0 :: rw esc rule ks) -> (exists k1, In k1 (k0 :: ks) /\ k = tr esc k1) \/ (exists a b r, In (One a) (k0 :: ks) /\ In (One b) (k0 :: ks) /\ rule a b = Some r /\ k = One r)).
  { intros [<-|I]; [left; exists k0; split; [left; reflexivity|reflexivity]|]. destruct (IH ks ltac:(lia) k I) as [(k1 & A & B)|(a & b & r & A & B & C & D)].
    - left. exists k1. split; [right; exact A|exact B].
    - right. exists a, b, r. repeat split; auto; right; assumption. }
  destruct k0 as [a|a b]; [|apply PL; exact HI]. destruct ks as [|[b|b c] ks]; [apply PL; exact HI| |apply PL; exact HI].
  cbn [rw] in HI. destruct (rule a b) as [r|] eqn:E; [|apply PL; exact HI]. destruct HI as [<-|I].
  - right. exists a, b, r. split; [left; reflexivity|]. split; [right; left; reflexivity|]. auto.
  - cbn [length] in Hn. destruct (IH ks ltac:(lia) k I) as [(k1 & A & B)|(a' & b' & r' & A & B & C & D)].
    + left. exists k1. split; [right; right; exact A|exact B].
    + right. exists a', b', r'. repeat split; auto; right; right; assumption.
Qed.

(** ** Grammars made by the precompressor *)
Definition valid (g : grammar) (k : sym) : Prop :=
  match k with
  | One c => c < 256 /\ flagged (g_special g) c = false
  | Two a b => exists i j, nth_error (g_specials g) i = Some a /\ nth_error (g_specials g) j = Some b /\ (number i j < length (g_pairs g))%nat
  end.

Record gram (g : grammar) (rules : list (sym * list sym)) : Prop := mkGram {
  gr_freqs : weigh (g_freqs g) (cz (ruleBytes rules));
  gr_special : length (g_special g) = 256%nat;
  gr_variable : length (g_variable g) = 256%nat;
  gr_nodup : NoDup (g_specials g);
  gr_bytes : forall c, In c (g_specials g) -> c < 256;
  gr_flag : forall c, flagged (g_special g) c = true <-> In c (g_specials g);
  gr_255 : (length (g_specials g) <= 255)%nat;
  gr_q : ((length (g_specials g) = 0 /\ length (g_pairs g) = 0) \/
          (0 < length (g_specials g) /\ (length (g_specials g) - 1) * (length (g_specials g) - 1) + 1 < length (g_pairs g) <= length (g_specials g) * length (g_specials g)))%nat;
  gr_pbytes : forall n e, nth_error (g_pairs g) n = Some e -> snd e < 256;
  gr_sq : forall k e, nth_error (g_pairs g) (k * k) = Some e -> fst e = false /\ nth_error (g_specials g) k = Some (snd e);
  gr_rules : g_rules g = layout 0 (flat rules);
  gr_rhs : g_rhs g = concat (map snd (flat rules));
  gr_valid : Forall (fun r => valid g (fst r) /\ Forall (valid g) (snd r)) rules;
  gr_two : Forall (fun r => length (snd r) = 2%nat) rules;
  gr_ord : ordered rules;
  gr_var : forall c, c < 256 -> flagged (g_special g) c = false -> flagged (g_variable g) c = true <-> In (One c) (map fst rules);
  gr_large : forall i j x y c fl, i <> j -> nth_error (g_specials g) i = Some x -> nth_error (g_specials g) j = Some y ->
    nth_error (g_pairs g) (number i j) = Some (fl, c) -> fl = true <-> In (Two x y) (map fst rules);
  gr_freed : forall i j c, i <> j -> nth_error (g_pairs g) (number i j) = Some (false, c) ->
    flagged (g_variable g) c = true /\ nth_error (g_specials g) 0 <> Some c;
  gr_inj : forall i j i' j' c, i <> j -> i' <> j' -> nth_error (g_pairs g) (number i j) = Some (false, c) ->
    nth_error (g_pairs g) (number i' j') = Some (false, c) -> i = i' /\ j = j';
  gr_nil : rules = [] -> g_specials g = [] /\ g_pairs g = [] }.

Lemma flagged_repeat : forall c, flagged (repeat false 256) c = false.
Proof. intros c. unfold flagged. apply nth_repeat. Qed.
Lemma gram_empty : gram emptyGrammar [].
Proof.
  constructor; cbn [emptyGrammar g_freqs g_special g_variable g_specials g_pairs g_rules g_rhs g_new].
  - split; [apply repeat_length|]. intros c Hc. unfold ruleBytes. cbn [map concat]. rewrite cz_nil.
    replace (nth (N.to_nat c) (repeat 0 256) 0) with 0 by (symmetry; apply nth_repeat). reflexivity.
  - apply repeat_length.
  - apply repeat_length.
  - constructor.
  - intros c [].
  - intros c. rewrite flagged_repeat. split; [discriminate|intros []].
  - cbn; lia.
  - left. split; reflexivity.
  - intros n e H. destruct n; discriminate.
  - intros k e H. destruct (k * k)%nat; discriminate.
  - reflexivity.
  - reflexivity.
  - constructor.
  - constructor.
  - exact I.
  - intros c _ _. rewrite flagged_repeat. split; [discriminate|intros []].
  - intros i j x y c fl _ H. destruct i; discriminate.
  - intros i j c _ H. destruct (number i j); discriminate.
  - intros i j i' j' c _ _ H. destruct (number i j); discriminate.
  - auto.
Qed.

(** Meaning before the rules. *)
Definition initOk (g : grammar) (T : sym -> list N) : Prop :=
  (forall c, T (One c) = [c]) /\
  (forall i j x y c, nth_error (g_specials g) i = Some x -> nth_error (g_specials g) j = Some y ->
     nth_error (g_pairs g) (number i j) = Some (false, c) -> T (Two x y) = [c]).

(** ** Adding rules: what constructReplacementTable does *)
Lemma setAll_ok : forall is l l', setAll l is = Ok l' -> length l' = length l /\
  forall c, flagged l' c = true <-> flagged l c = true \/ In c is.
Proof.
  induction is as [|i is IH]; intros l l' H; cbn [setAll] in H.
  - injection H as <-. split; [reflexivity|]. intros c. cbn [In]. tauto.
  - bd H. apply set_inv in E. destruct E as (B & ->). apply IH in H. rewrite upd_length in H. destruct H as (H1 & H2). split; [exact H1|].
    intros c. rewrite H2, flagged_upd by exact B. cbn [In]. destruct (N.eqb_spec c i) as [->|]; [tauto|]. intuition congruence.
Qed.

Lemma trRules_app : forall isNew repl rules nr,
  trRules isNew repl (length rules) (rules ++ nr) = map (trBoth (tr (escOf isNew repl))) rules ++ map (trRhs (tr (escOf isNew repl))) nr.
Proof.
  intros isNew repl. induction rules as [|[k ks] rules IH]; intros nr; cbn [length app map].
  - assert (Z : forall m, trRules isNew repl 0 m = map (trRhs (tr (escOf isNew repl))) m).
    { induction m as [|[k ks] m IHm]; [reflexivity|]. cbn [trRules pred map]. rewrite IHm. reflexivity. }
    apply Z.
  - cbn [trRules pred]. rewrite IH. reflexivity.
Qed.

Lemma layout_length : forall rules pos, length (layout pos rules) = length rules.
Proof. induction rules as [|[k s] rules IH]; intros pos; cbn [layout length]; auto. Qed.

(** Entry [(fl, c)] number q + m of the pairs belongs to the pair x y. *)
Definition entryFor (g : grammar) (specials : list N) (freed news : list N) (m : nat) (fl : bool) (c x y : N) : Prop :=
  exists i j, number i j = (length (g_pairs g) + m)%nat /\ nth_error specials i = Some x /\ nth_error specials j = Some y /\
    (i = j -> In c news /\ x = c /\ fl = false) /\ (i <> j -> In c freed /\ fl = flagged (g_variable g) c).

Definition constructed (g : grammar) (rules : list (sym * list sym)) (common : N) (R : list (N * N)) (frees news freed : list N)
    (g' : grammar) (table : tarray N) (esc : N -> option (N * N)) (ext : list (bool * N)) : Prop :=
  let RR := combine R (freed ++ frees) in
  let rules' := map (trBoth (tr esc)) rules ++ map (trRhs (tr esc)) (newRules RR) in
  g_rules g' = layout 0 (flat rules') /\ g_rhs g' = concat (map snd (flat rules')) /\ weigh (g_freqs g') (cz (ruleBytes rules')) /\
  g_specials g' = g_specials g ++ news /\ g_pairs g' = g_pairs g ++ ext /\ length ext = (length freed + length news)%nat /\
  length (g_special g') = 256%nat /\ (forall c, flagged (g_special g') c = true <-> flagged (g_special g) c = true \/ In c news) /\
  length (g_variable g') = 256%nat /\ (forall c, flagged (g_variable g') c = true <-> flagged (g_variable g) c = true \/ In c (freed ++ frees)) /\
  (forall c, esc c = None -> ~ In c (freed ++ news)) /\
  (forall c x y, esc c = Some (x, y) -> In c (freed ++ news) /\ exists m fl, nth_error ext m = Some (fl, c) /\ entryFor g (g_specials g') freed news m fl c x y) /\
  (forall m fl c, nth_error ext m = Some (fl, c) -> exists x y, esc c = Some (x, y) /\ entryFor g (g_specials g') freed news m fl c x y) /\
  t_len table = 65536 /\
  (forall r, In r (freed ++ frees) -> r <> common) /\ (forall c, In c news -> c <> common) /\
  (forall c x y, In c freed -> esc c = Some (x, y) -> x <> common) /\
  (forall a b, a < 256 -> b < 256 -> tval table (pair16 a b) =
    match ruleOf RR (pair16 a b) with
    | Some r => pair16 r common
    | None => match esc a with Some (x, y) => pair16 x y | None => pair16 common common end
    end).

Lemma NoDup_app_l : forall (a b : list N), NoDup (a ++ b) -> NoDup a.
Proof.
  induction a as [|x a IH]; intros b H; [constructor|]. cbn [app] in H. apply NoDup_cons_iff in H. apply NoDup_cons_iff.
  rewrite in_app_iff in H. split; [tauto|]. apply (IH b), H.
Qed.
Lemma NoDup_app_r : forall (a b : list N), NoDup (a ++ b) -> NoDup b.
Proof. induction a as [|x a IH]; intros b H; [exact H|]. cbn [app] in H. apply NoDup_cons_iff in H. apply IH, H. Qed.
Lemma NoDup_app_dis : forall (a b : list N), NoDup (a ++ b) -> forall x, In x a -> ~ In x b.
Proof.
  induction a as [|y a IH]; intros b H x HI; [contradiction|]; destruct HI as [<-|I]; cbn [app] in H; apply NoDup_cons_iff in H; rewrite in_app_iff in H; [tauto|]. apply IH; [apply H|exact I].
Qed.
Lemma NoDup_app_mk : forall (a b : list N), NoDup a -> NoDup b -> (forall x, In x a -> ~ In x b) -> NoDup (a ++ b).
Proof.
  induction a as [|y a IH]; intros b Ha Hb H; [exact Hb|]. cbn [app]. apply NoDup_cons_iff in Ha. apply NoDup_cons_iff. split.
  - rewrite in_app_iff. intros [Q|Q]; [apply Ha; exact Q|]. apply (H y); [left; reflexivity|exact Q].
  - apply IH; [apply Ha|exact Hb|]. intros x Hx. apply H. right. exact Hx.
Qed.

Lemma construct_ok : forall g rules F P common R frees news freed g' table,
  gram g rules -> decision g F P common R frees news freed ->
  constructReplacementTable g common (tmake 65536 (pair16 common common)) R freed news (freed ++ frees) = Ok (g', table) ->
  exists esc ext, constructed g rules common R frees news freed g' table esc ext.
Proof.
  intros g rules F P common R frees news freed g' table G D H.
  destruct D as (D1 & D2 & D3 & D4 & D5 & D6 & D7 & D8).
  assert (NDF : NoDup (freed ++ news)).
  { apply (Permutation_NoDup (l := news ++ freed)); [apply Permutation_app_comm|]. clear - D3. induction frees as [|x l IH]; [exact D3|]. cbn [app] in D3. apply NoDup_cons_iff in D3. apply IH, D3. }
  assert (B : forall c, In c (frees ++ news ++ freed) -> c < 256) by (intros c Hc; apply D4, Hc).
  assert (NS : forall c, In c (frees ++ news ++ freed) -> flagged (g_special g) c = false).
  { intros c Hc. destruct (D4 c Hc) as (_ & Q). unfold isSpecial in Q. apply get_inv in Q. unfold flagged. apply (nth_error_nth _ _ false Q). }
  unfold constructReplacementTable in H. destruct (addRules _ _ _ _ _ _) as [[g1 table1]| |] eqn:EA; cbn [bind] in H; try discriminate.
  apply (addRules_ok _ _ _ _ _ _ _ _ rules (cz (ruleBytes rules))) in EA; cbn [beginUpdatingRules g_rules g_rhs g_freqs g_new g_special g_variable g_specials g_pairs] in EA;
    [|apply G|apply G|apply G|intros r Hr; apply B; rewrite !in_app_iff in *; tauto].
  destruct EA as (A1 & A2 & A3 & A4 & A5 & A6 & A7 & A8 & A9 & A10 & A11 & A12).
  set (RR := combine R (freed ++ frees)) in *.
  destruct (expandAlphabet g1 freed news) as [[g2 next]| |] eqn:EX; cbn [bind] in H; try discriminate. unfold expandAlphabet in EX.
  destruct (expandLoop _ _ _ _) as [[[[g3 isNew] repl] next3]| |] eqn:EL; cbn [bind] in EX; try discriminate.
  assert (LEN : (length (g_specials g) + length news <= 256)%nat).
  { assert (NDS : NoDup (g_specials g ++ news)).
    { assert (DJ : forall x, In x (g_specials g) -> ~ In x news).
      { intros x X1 X2. apply (gr_flag _ _ G) in X1. rewrite NS in X1 by (rewrite !in_app_iff; auto). discriminate. }
      assert (NN : NoDup news) by (clear - NDF; induction freed as [|x l IH]; [exact NDF|cbn [app] in NDF; apply NoDup_cons_iff in NDF; apply IH, NDF]).
      pose proof (gr_nodup _ _ G) as N0. revert N0 DJ. generalize (g_specials g). induction l as [|x l IH]; intros N0 DJ; [exact NN|].
      cbn [app]. apply NoDup_cons_iff in N0. apply NoDup_cons_iff. split; [|apply IH; [apply N0|intros z Hz; apply DJ; right; exact Hz]].
      rewrite in_app_iff. intros [Q|Q]; [apply N0; exact Q|]. apply (DJ x); [left; reflexivity|exact Q]. }
    rewrite <- app_length. replace 256%nat with (length (map N.of_nat (seq 0 256))) by (rewrite map_length, seq_length; reflexivity).
    apply NoDup_incl_length; [exact NDS|]. intros x Hx. apply in_map_iff. exists (N.to_nat x). split; [lia|]. apply in_seq.
    apply in_app_iff in Hx. destruct Hx as [Hx|Hx]; [apply (gr_bytes _ _ G) in Hx; lia|]. specialize (B x). rewrite !in_app_iff in B. specialize (B (or_intror (or_introl Hx))). lia. }
  apply (expandLoop_ok g1 _ _ _ [] []) in EL; cbn [app].
  2:{ unfold expanded. rewrite A6, A7, A8, A9. split; [reflexivity|]. split; [reflexivity|]. split; [reflexivity|]. split; [reflexivity|]. split; [rewrite app_nil_r; reflexivity|].
      split; [apply G|]. split; [intros c; cbn [In]; tauto|]. split; [apply G|]. split; [intros c; cbn [In]; tauto|]. split; [apply repeat_length|]. split; [apply repeat_length|].
      split; [intros c; rewrite flagged_repeat; cbn [app In]; split; [discriminate|tauto]|]. split; [destruct (gr_q _ _ G) as [Q|Q]; [left; exact Q|right; lia]|].
      split; [|split; [reflexivity|intros i c Q; destruct i; discriminate]].
      exists []. split; [rewrite app_nil_r; reflexivity|]. split; [reflexivity|]. split; [intros c []|]. intros m fl c Q. destruct m; discriminate. }
  2:{ exact NDF. }
  2:{ intros c Hc. apply B. rewrite !in_app_iff in *. tauto. }
  2:{ rewrite A8. cbn [length]. lia. }
  2:{ cbn [fst]. rewrite A8, A9. exact D8. }
  cbn [app] in EL. destruct EL as (X1 & X2 & X3 & X4 & X5 & X6 & X7 & X8 & X9 & X10 & X11 & X12 & X13 & X14 & X15 & X16).
  rewrite X1, X2, X3, X4 in EX. rewrite A6 in X7. rewrite A7 in X9. rewrite A8 in X5. destruct X14 as (ext & Y1 & Y2 & Y3 & Y4). rewrite A9 in Y1, Y4. rewrite A7 in Y4.
  assert (BS : forall i c, nth_error (g_specials g3) i = Some c -> c < 256).
  { intros i c Q. apply nth_error_In in Q. rewrite X5 in Q. apply in_app_iff in Q. destruct Q as [Q|Q]; [apply (gr_bytes _ _ G); exact Q|]. apply B. rewrite !in_app_iff. auto. }
  set (esc := escOf isNew repl) in *.
  assert (EE : forall m fl c, nth_error ext m = Some (fl, c) -> exists x y, esc c = Some (x, y) /\ nth (N.to_nat c) repl 0 = pair16 x y /\ x < 256 /\ y < 256 /\ In c (freed ++ news) /\ entryFor g (g_specials g3) freed news m fl c x y).
  { intros m fl c Q. destruct (Y4 m fl c Q) as (i & j & x & y & Z1 & Z2 & Z3 & Z4 & Z5 & Z6). exists x, y.
    assert (IC : In c (freed ++ news)).
    { apply in_app_iff. destruct (Nat.eq_dec i j) as [IJ|IJ]; [right; apply Z5; exact IJ|left; apply Z6; exact IJ]. }
    assert (Hy : y < 256) by (eapply BS; eauto). split.
    { unfold esc, escOf. fold (flagged isNew c). destruct (X12 c) as (_ & X12'). rewrite (X12' IC). rewrite Z4, hi16_pair, lo16_pair by exact Hy. reflexivity. }
    split; [exact Z4|]. split; [eapply BS; eauto|]. split; [exact Hy|]. split; [exact IC|]. exists i, j. auto. }
  assert (ES : forall c x y, esc c = Some (x, y) -> x < 256 /\ y < 256 /\ nth (N.to_nat c) repl 0 = pair16 x y /\ In c (freed ++ news) /\
     exists m fl, nth_error ext m = Some (fl, c) /\ entryFor g (g_specials g3) freed news m fl c x y).
  { intros c x y Q. assert (IC : In c (freed ++ news)) by (apply X12; unfold esc, escOf in Q; unfold flagged; destruct (nth (N.to_nat c) isNew false); [reflexivity|discriminate]).
    destruct (Y3 c IC) as (m & fl & Z). destruct (EE m fl c Z) as (x' & y' & Z1 & Z2 & Z3 & Z4 & Z5 & Z6). rewrite Z1 in Q. injection Q as -> ->.
    split; [exact Z3|]. split; [exact Z4|]. split; [exact Z2|]. split; [exact IC|]. exists m, fl. auto. }
  assert (EN : forall c, esc c = None -> ~ In c (freed ++ news)).
  { intros c Q IC. apply X12 in IC. unfold esc, escOf in Q. unfold flagged in IC. rewrite IC in Q. discriminate. }
  assert (ENN : forall c, ~ In c (freed ++ news) -> esc c = None).
  { intros c Q. destruct (esc c) as [[x y]|] eqn:E; [|reflexivity]. elim Q. apply (ES c x y E). }
  (* the rules *)
  assert (OK : Forall (fun r => okSym esc (fst r) /\ Forall (okSym esc) (snd r)) (rules ++ newRules RR)).
  { assert (VO : forall k, valid g k -> okSym esc k).
    { intros [c|a b]; cbn [valid okSym]; [tauto|]. intros (i & j & Q1 & Q2 & _). apply nth_error_In in Q1, Q2.
      split; [apply (gr_bytes _ _ G); exact Q1|]. split; [apply (gr_bytes _ _ G); exact Q2|].
      apply (gr_flag _ _ G) in Q1, Q2. split; apply ENN; intros Q.
      - rewrite (NS a) in Q1 by (rewrite !in_app_iff in *; tauto). discriminate.
      - rewrite (NS b) in Q2 by (rewrite !in_app_iff in *; tauto). discriminate. }
    apply Forall_app. split.
    - eapply Forall_impl; [|apply (gr_valid _ _ G)]. intros [k ks] (V1 & V2). cbn [fst snd] in *. split; [apply VO; exact V1|]. eapply Forall_impl; [|exact V2]. exact VO.
    - apply Forall_forall. intros r Hr. unfold newRules in Hr. apply in_map_iff in Hr. destruct Hr as ([[p pr] r0] & <- & Hr). cbn [fst snd okSym].
      split; [|repeat constructor; [apply hiOf_lt|apply loOf_lt]]. apply in_combine_r in Hr. apply B. rewrite !in_app_iff in *. tauto. }
  assert (HE : forall c x y, c < 256 -> escOf isNew repl c = Some (x, y) -> x < 256 /\ y < 256 /\ nth (N.to_nat c) repl 0 = pair16 x y).
  { intros c x y _ Q. destruct (ES c x y Q) as (Z1 & Z2 & Z3 & _). auto. }
  assert (TODO : (length (g_rules g1) - g_new g1)%nat = length rules).
  { rewrite A2, A5, layout_length. unfold flat, newRules. rewrite map_length, app_length, map_length. unfold RR. rewrite combine_length. lia. }
  destruct (expandRules_ok isNew repl X10 X11 HE (rules ++ newRules RR) (length rules) [] (g_freqs g1) [] _ OK A4) as (freqs' & ER & WR).
  cbn [length app] in ER. rewrite TODO, A2, A3 in EX. rewrite ER in EX. cbn [bind] in EX. injection EX as <- <-.
  rewrite trRules_app in WR. fold esc in WR.
  destruct (length freed =? length next3)%nat eqn:ELN; [|discriminate].
  destruct (fillFreed common freed next3 table1) as [table2| |] eqn:E2; cbn [bind] in H; try discriminate.
  destruct (fillSpecials common news table2) as [table3| |] eqn:E3; cbn [bind] in H; try discriminate.
  unfold endUpdatingRules in H. cbn [g_freqs g_special g_variable g_specials g_pairs g_rules g_rhs g_new] in H.
  destruct (setAll (g_variable g3) (freed ++ frees)) as [v| |] eqn:E4; cbn [bind] in H; try discriminate. injection H as <- <-.
  apply setAll_ok in E4. destruct E4 as (V1 & V2).
  apply fillFreed_ok in E2; [|rewrite A11; reflexivity|intros c Hc; apply B; rewrite !in_app_iff; auto]. destruct E2 as (F1 & F2 & F3 & F4 & F5).
  apply fillSpecials_ok in E3; [|exact F2|intros c Hc; apply B; rewrite !in_app_iff; auto]. destruct E3 as (S1 & S2 & S3).
  exists esc, ext. unfold constructed. fold RR. cbn [g_freqs g_special g_variable g_specials g_pairs g_rules g_rhs g_new].
  rewrite trRules_app. fold esc.
  split; [reflexivity|]. split; [reflexivity|]. split.
  { eapply weigh_ext; [exact WR|]. intros c Hc. cbn beta. unfold ruleBytes. rewrite !map_app, !concat_app, !cz_app. lia. }
  split; [exact X5|]. split; [exact Y1|]. split; [exact Y2|]. split; [exact X6|]. split; [exact X7|]. split; [lia|]. split.
  { intros c. rewrite V2, X9. rewrite !in_app_iff. tauto. }
  split; [exact EN|]. split.
  { intros c x y Q. destruct (ES c x y Q) as (_ & _ & _ & Z1 & Z2). split; [exact Z1|exact Z2]. }
  split.
  { intros m fl c Q. destruct (EE m fl c Q) as (x & y & Z1 & _ & _ & _ & _ & Z2). exists x, y. auto. }
  split; [exact S1|]. split; [intros r Hr; apply A10; exact Hr|]. split; [exact S2|]. split.
  { intros c x y Hc Q. destruct (ES c x y Q) as (_ & Z2 & Z3 & _). apply In_nth_error in Hc. destruct Hc as (i & Hi). specialize (X16 i c Hi). rewrite Z3 in X16.
    specialize (F4 (pair16 x y)). rewrite <- (hi16_pair x y Z2). apply F4. eapply nth_error_In; exact X16. }
  intros a b Ha Hb. rewrite S3, F5, A12 by assumption. cbn [tmake tval].
  assert (TM : tval (tmake 65536 (pair16 common common)) (pair16 a b) = pair16 common common) by apply tval_make. rewrite TM.
  assert (HI : forall r, N.shiftr (pair16 r common) 8 = r) by (intros r; change (N.shiftr (pair16 r common) 8) with (hi16 (pair16 r common)); apply hi16_pair; exact D1).
  destruct (ruleOf RR (pair16 a b)) as [r|] eqn:ERU.
  - rewrite !HI. assert (r <> common).
    { destruct (ruleOf_in _ _ _ ERU) as (p & I). apply in_combine_r in I. apply A10. exact I. }
    destruct (N.eqb_spec r common); [contradiction|]. rewrite HI. destruct (N.eqb_spec r common); [contradiction|]. reflexivity.
  - rewrite !HI, N.eqb_refl. destruct (in_dec N.eq_dec a freed) as [IF|NF].
    + apply In_nth_error in IF. destruct IF as (i & Hi). rewrite (assoc_nth freed next3 i a (NoDup_app_l _ _ NDF) Hi F1).
      rewrite (X16 i a Hi). assert (IC : In a (freed ++ news)) by (apply in_app_iff; left; eapply nth_error_In; eauto).
      destruct (esc a) as [[x y]|] eqn:Q; [|elim (EN a Q); exact IC]. destruct (ES a x y Q) as (_ & Zy & Z3 & _). rewrite Z3.
      assert (NI : In (pair16 x y) next3) by (rewrite <- Z3; eapply nth_error_In; apply (X16 i a Hi)).
      specialize (F4 _ NI). destruct (N.eqb_spec (N.shiftr (pair16 x y) 8) common); [contradiction|]. reflexivity.
    + rewrite assoc_none by exact NF. rewrite HI, N.eqb_refl. cbn [andb]. destruct (existsb (N.eqb a) news) eqn:EXB.
      * apply existsb_exists in EXB. destruct EXB as (a' & IA & Q). apply N.eqb_eq in Q. subst a'.
        assert (IC : In a (freed ++ news)) by (apply in_app_iff; auto).
        destruct (esc a) as [[x y]|] eqn:Q; [|elim (EN a Q); exact IC]. destruct (ES a x y Q) as (_ & _ & _ & _ & m & fl & _ & i & j & _ & Z2 & Z3 & Z4 & Z5).
        destruct (Nat.eq_dec i j) as [->|IJ]; [|elim NF; apply Z5; exact IJ]. destruct (Z4 eq_refl) as (_ & -> & _). congruence.
      * rewrite ENN; [reflexivity|]. rewrite in_app_iff. intros [Q|Q]; [contradiction|].
        assert (existsb (N.eqb a) news = true) by (apply existsb_exists; exists a; split; [exact Q|apply N.eqb_refl]). congruence.
Qed.

(** PairReplacer::constructReplacementTable never fails. *)
From Coq Require Import List NArith ZArith Lia Arith Bool Permutation.
From Coq Require Import ZifyBool ZifyNat ZifyN.
From Verif Require Import Base Arrays TArray ModelUtils ModelStreams ModelHeaders ModelGrammar SpecGrammar ProofGrammar2 ProofGrammar3 ModelPairs
  ProofPairs1 ProofPairs2 ProofPairs3 ProofPairs4 ProofPairs5 ProofPairs6 ProofPairs7 ProofTotal1.
Import ListNotations.
Open Scope N_scope.

Lemma decr_total : forall l i, length l = 256%nat -> i < 256 -> exists l', decr l i = Ok l' /\ length l' = 256%nat.
Proof.
  intros l i L H. unfold decr. destruct (nth_error_lt l (N.to_nat i) ltac:(lia)) as (v & E). rewrite (get_ok _ _ _ E). cbn [bind].
  rewrite set_ok by lia. eexists. split; [reflexivity|]. rewrite upd_length. exact L.
Qed.

Lemma addRules_total : forall news common pairs repl g table, length pairs = length repl -> length (g_freqs g) = 256%nat -> t_len table = 65536 ->
  length (g_special g) = 256%nat ->
  (forall p pr, In (p, pr) pairs -> pr < 65536) -> (forall r, In r repl -> r < 256 /\ r <> common /\ ~ In r news /\ flagged (g_special g) r = false) ->
  exists g' table', addRules news common pairs repl g table = Ok (g', table').
Proof.
  intros news common. induction pairs as [|[p pr] pairs IH]; intros [|r repl] g table HL HF HT HS HP HR; cbn [length] in HL; try lia; cbn [addRules]; [eauto|].
  destruct (HR r (or_introl eq_refl)) as (R1 & R2 & R3 & R4). unfold isSpecial. rewrite get_flagged by assumption. cbn [bind]. rewrite R4.
  assert (E1 : (common =? r) = false) by lia. assert (E2 : existsb (N.eqb r) news = false).
  { destruct (existsb (N.eqb r) news) eqn:E; [|reflexivity]. apply existsb_exists in E. destruct E as (x & X1 & X2). apply N.eqb_eq in X2. subst x. contradiction. }
  rewrite E1, E2. cbn [orb]. specialize (HP p pr (or_introl eq_refl)) as PR. rewrite tset_ok by lia. cbn [bind]. fold (hiOf pr) (loOf pr). unfold addRule.
  destruct (incr_ok (g_freqs g) (hiOf pr) HF (hiOf_lt pr)) as (f1 & I1 & L1). rewrite I1. cbn [bind].
  destruct (incr_ok f1 (loOf pr) L1 (loOf_lt pr)) as (f2 & I2 & L2). rewrite I2. cbn [bind].
  destruct (incr_ok f2 r L2 R1) as (f3 & I3 & L3). rewrite I3. cbn [bind].
  apply IH; cbn [g_freqs g_special]; [lia|exact L3|exact HT|exact HS|intros p0 pr0 I; apply (HP p0); right; exact I|intros; apply HR; right; assumption].
Qed.

(** ** expandAlphabet *)
Definition roomy (st : grammar * list bool * list N * list N) (freed news : list N) : Prop :=
  let '(g, isNew, repl, next) := st in
  length (g_special g) = 256%nat /\ length (g_variable g) = 256%nat /\ length isNew = 256%nat /\ length repl = 256%nat /\
  (forall c, In c (g_specials g ++ freed ++ news) -> c < 256) /\ (forall v, In v repl -> v < 65536) /\
  (length (g_specials g) + length news <= 256)%nat /\
  ((length (g_specials g) = 0 /\ length (g_pairs g) = 0) \/
   (0 < length (g_specials g) /\ (length (g_specials g) - 1) * (length (g_specials g) - 1) + 1 <= length (g_pairs g) <= length (g_specials g) * length (g_specials g)))%nat /\
  fits (length (g_specials g)) (length (g_pairs g)) (length news) (length freed).

Lemma upd_in : forall {A} (l : list A) i v x, In x (upd l i v) -> x = v \/ In x l.
Proof.
  intros A. induction l as [|y l IH]; intros i v x H; [destruct i; destruct H|]. destruct i as [|i]; cbn in H.
  - destruct H as [H|H]; [left; congruence|right; right; exact H].
  - destruct H as [H|H]; [right; left; exact H|]. apply IH in H. destruct H; [left; assumption|right; right; assumption].
Qed.

Lemma back_total : forall {A} (l : list A), (0 < length l)%nat -> exists x, back l = Ok x /\ In x l.
Proof.
  intros A. induction l as [|y l IH]; intros H; [cbn in H; lia|]. destruct l as [|z l]; [exists y; split; [reflexivity|left; reflexivity]|].
  destruct (IH ltac:(cbn; lia)) as (x & E & I). exists x. split; [exact E|right; exact I].
Qed.

Lemma expandLoop_total : forall fuel freed news g isNew repl next, roomy (g, isNew, repl, next) freed news -> (length freed + length news < fuel)%nat ->
  exists g' isNew' repl' next', expandLoop fuel freed news (g, isNew, repl, next) = Ok (g', isNew', repl', next') /\
    g_rules g' = g_rules g /\ g_rhs g' = g_rhs g /\ g_freqs g' = g_freqs g /\ g_new g' = g_new g /\ length (g_variable g') = 256%nat /\
    length isNew' = 256%nat /\ length repl' = 256%nat /\ (forall v, In v repl' -> v < 65536) /\
    length next' = (length next + length freed)%nat /\
    (forall v, In v next' -> In v next \/ exists a b, In a (g_specials g ++ news) /\ b < 256 /\ v = pair16 a b).
Proof.
  induction fuel as [|fuel IH]; intros freed news g isNew repl next (R1 & R2 & R3 & R4 & R5 & R6 & R7 & R8 & R9) HF; [lia|]. cbn [expandLoop].
  destruct freed as [|c freed].
  { exists g, isNew, repl, next. cbn [length]. repeat (split; [auto; lia|]). auto. }
  cbn zeta. set (s := length (g_specials g)) in *. set (q := length (g_pairs g)) in *.
  assert (QL : (q <= s * s)%nat) by (destruct R8 as [(-> & ->)|R8]; lia).
  rewrite left_ok by (fold s q; lia). fold s q.
  destruct (N.eqb_spec (N.of_nat (s * s - q)) 0) as [Z|NZ].
  - destruct news as [|s0 news].
    { exfalso. destruct R9 as (R9 & _). cbn [length] in R9. rewrite Nat.add_0_r in R9. lia. }
    assert (B0 : s0 < 256) by (apply R5; rewrite !in_app_iff; right; right; left; reflexivity).
    rewrite !set_ok by lia. cbn [bind].
    destruct (IH (c :: freed) news (mkG (g_freqs g) (upd (g_special g) (N.to_nat s0) true) (g_variable g) (g_specials g ++ [s0]) (g_pairs g ++ [(false, s0)]) (g_rules g) (g_rhs g) (g_new g))
      (upd isNew (N.to_nat s0) true) (upd repl (N.to_nat s0) (pair16 s0 s0)) next) as (g' & isNew' & repl' & next' & E & Q).
    + unfold roomy. cbn [g_special g_variable g_specials g_pairs]. rewrite !upd_length, !app_length. cbn [length] in *. fold s q.
      split; [exact R1|]. split; [exact R2|]. split; [exact R3|]. split; [exact R4|]. split.
      { intros x Hx. apply R5. rewrite !in_app_iff in *. cbn [In] in *. tauto. }
      split; [intros v Hv; apply upd_in in Hv; destruct Hv as [->|Hv]; [apply pair16_lt; exact B0|apply R6; exact Hv]|]. split; [lia|]. split.
      { right. destruct R8 as [(U1 & U2)|R8]; [rewrite U1, U2; cbn; lia|]. replace (s + 1 - 1)%nat with s by lia. split; [lia|]. split; [lia|]. nia. }
      destruct R9 as (F1 & F2). unfold fits.
      replace (s + 1 + length news)%nat with (s + S (length news))%nat by lia.
      split; [lia|]. intros HN. specialize (F2 ltac:(lia)). replace (s + S (length news) - 1)%nat with (s + 1 + length news - 1)%nat in F2 by lia. lia.
    + cbn [length] in *. lia.
    + exists g', isNew', repl', next'. split; [exact E|]. cbn [g_rules g_rhs g_freqs g_new g_specials] in Q.
      destruct Q as (Q1 & Q2 & Q3 & Q4 & Q5 & Q6 & Q7 & Q8 & Q9 & Q10). repeat (split; [assumption|]). intros v Hv. destruct (Q10 v Hv) as [X|(a & b & X1 & X2)]; [left; exact X|].
      right. exists a, b. split; [|exact X2]. rewrite !in_app_iff in *. cbn [In] in *. tauto.
  - assert (B0 : c < 256) by (apply R5; rewrite !in_app_iff; right; left; left; reflexivity).
    assert (HX : (0 < s /\ (s - 1) * (s - 1) + 1 <= q < s * s)%nat).
    { destruct R8 as [(U1 & U2)|R8]; [rewrite U1 in *; lia|]. lia. }
    assert (SB : (s <= 256)%nat) by lia.
    assert (IX : (N.of_nat q + two32 - ((N.of_nat s - 1) * (N.of_nat s - 1) + 1) mod two32) mod two32 = N.of_nat (q - ((s - 1) * (s - 1) + 1))).
    { assert ((s * s <= 256 * 256)%nat) by (apply Nat.mul_le_mono; assumption).
      assert (EQ : (N.of_nat s - 1) * (N.of_nat s - 1) + 1 = N.of_nat ((s - 1) * (s - 1) + 1)) by lia. rewrite EQ.
      set (o := ((s - 1) * (s - 1) + 1)%nat) in *. clearbody o. clear EQ.
      rewrite (N.mod_small (N.of_nat o)) by (unfold two32; lia).
      replace (N.of_nat q + two32 - N.of_nat o) with (N.of_nat (q - o) + 1 * two32) by (unfold two32; lia).
      rewrite N.mod_add by discriminate. apply N.mod_small. unfold two32. lia. }
    rewrite IX. clear IX. set (idx := (q - ((s - 1) * (s - 1) + 1))%nat).
    destruct (nth_error_lt (g_variable g) (N.to_nat c) ltac:(lia)) as (tv & ETV). rewrite (get_ok _ _ _ ETV). cbn [bind]. rewrite set_ok by lia. cbn [bind].
    destruct (back_total (g_specials g) ltac:(fold s; lia)) as (last & EB & IB). rewrite EB. cbn [bind].
    assert (P : exists a b, In a (g_specials g) /\ In b (g_specials g) /\
      (if N.of_nat idx <? N.of_nat s - 1 then let! a := get (g_specials g) (N.to_nat (N.of_nat idx)) in Ok (pair16 a last)
       else let! b := get (g_specials g) (N.to_nat (N.of_nat idx + 1 - N.of_nat s)) in Ok (pair16 last b)) = Ok (pair16 a b)).
    { destruct (N.ltb_spec (N.of_nat idx) (N.of_nat s - 1)) as [LT|GE].
      - destruct (nth_error_lt (g_specials g) (N.to_nat (N.of_nat idx)) ltac:(fold s; lia)) as (a & EA). rewrite (get_ok _ _ _ EA). cbn [bind]. exists a, last. split; [eapply nth_error_In; eauto|]. auto.
      - assert (idx + 1 - s < s - 1)%nat by (unfold idx; nia).
        destruct (nth_error_lt (g_specials g) (N.to_nat (N.of_nat idx + 1 - N.of_nat s)) ltac:(fold s; lia)) as (b & EA). rewrite (get_ok _ _ _ EA). cbn [bind]. exists last, b. split; [exact IB|]. split; [eapply nth_error_In; eauto|reflexivity]. }
    destruct P as (a & b & IA & IBB & EP). rewrite EP. cbn [bind]. clear EP. rewrite !set_ok by lia. cbn [bind].
    assert (A0 : a < 256) by (apply R5; rewrite !in_app_iff; auto). assert (BB0 : b < 256) by (apply R5; rewrite !in_app_iff; auto).
    destruct (IH freed news (mkG (g_freqs g) (g_special g) (upd (g_variable g) (N.to_nat c) true) (g_specials g) (g_pairs g ++ [(tv, c)]) (g_rules g) (g_rhs g) (g_new g))
      (upd isNew (N.to_nat c) true) (upd repl (N.to_nat c) (pair16 a b)) (next ++ [pair16 a b])) as (g' & isNew' & repl' & next' & E & Q).
    + unfold roomy. cbn [g_special g_variable g_specials g_pairs]. rewrite !upd_length, !app_length. cbn [length] in *. fold s q.
      split; [exact R1|]. split; [exact R2|]. split; [exact R3|]. split; [exact R4|]. split.
      { intros x Hx. apply R5. rewrite !in_app_iff in *. cbn [In] in *. tauto. }
      split; [intros v Hv; apply upd_in in Hv; destruct Hv as [->|Hv]; [apply pair16_lt; assumption|apply R6; exact Hv]|]. split; [lia|]. split; [right; lia|].
      destruct R9 as (F1 & F2). unfold fits. split; [lia|]. intros HN. specialize (F2 ltac:(lia)). lia.
    + cbn [length] in *. lia.
    + exists g', isNew', repl', next'. split; [exact E|]. cbn [g_rules g_rhs g_freqs g_new g_specials] in Q.
      destruct Q as (Q1 & Q2 & Q3 & Q4 & Q5 & Q6 & Q7 & Q8 & Q9 & Q10). rewrite app_length in Q9. cbn [length] in *. repeat (split; [first [assumption|lia]|]). intros v Hv. destruct (Q10 v Hv) as [X|X]; [|right; exact X].
      apply in_app_iff in X. destruct X as [X|[<-|[]]]; [left; exact X|]. right. exists a, b. split; [rewrite in_app_iff; auto|]. auto.
Qed.

Lemma slice_middle : forall {A} (l m r : list A), slice (l ++ m ++ r) (length l) (length l + length m) = m.
Proof.
  intros A l m r. unfold slice. rewrite skipn_app, skipn_all, Nat.sub_diag. cbn [skipn app]. replace (length l + length m - length l)%nat with (length m) by lia.
  rewrite firstn_app, firstn_all, Nat.sub_diag. cbn [firstn]. apply app_nil_r.
Qed.

Section Sides.
Variables (isNew : list bool) (repl : list N).
Hypothesis L1 : length isNew = 256%nat.
Hypothesis L2 : length repl = 256%nat.
Hypothesis HV : forall v, In v repl -> v < 65536.

Lemma newPair : forall c, c < 256 -> exists v, get repl (N.to_nat c) = Ok v /\ hi16 v < 256 /\ lo16 v < 256.
Proof.
  intros c Hc. destruct (nth_error_lt repl (N.to_nat c) ltac:(lia)) as (v & E). exists v. split; [apply (get_ok _ _ _ E)|]. apply nth_error_In, HV in E.
  unfold hi16. rewrite N.shiftr_div_pow2. change (2 ^ 8) with 256. split; [apply N.div_lt_upper_bound; lia|]. apply loOf_lt.
Qed.

Lemma expandSide_total : forall side freqs, are_bytes side -> length freqs = 256%nat -> exists l f, expandSide isNew repl side freqs = Ok (l, f) /\ length f = 256%nat.
Proof.
  induction side as [|c side IH]; intros freqs HB HF; cbn [expandSide]; [eauto|]. inversion_clear HB as [|? ? B1 B2]. unfold is_byte in B1.
  rewrite get_flagged by auto. cbn [bind]. destruct (flagged isNew c).
  - destruct (decr_total freqs c HF B1) as (f1 & E1 & F1). rewrite E1. cbn [bind]. destruct (newPair c B1) as (v & EV & V1 & V2). rewrite EV. cbn [bind].
    destruct (incr_ok f1 (hi16 v) F1 V1) as (f2 & E2 & F2). rewrite E2. cbn [bind]. destruct (incr_ok f2 (lo16 v) F2 V2) as (f3 & E3 & F3). rewrite E3. cbn [bind].
    destruct (IH f3 B2 F3) as (l & f & E & F). rewrite E. cbn [bind]. eauto.
  - destruct (IH freqs B2 HF) as (l & f & E & F). rewrite E. cbn [bind]. eauto.
Qed.

Lemma expandRules_total : forall (rules : list (sym * list N)) pre todo freqs acc,
  (forall k side, In (k, side) rules -> are_bytes side /\ (forall c, k = One c -> c < 256)) -> length freqs = 256%nat ->
  exists r, expandRules isNew repl (pre ++ concat (map snd rules)) todo (layout (length pre) rules) freqs acc = Ok r.
Proof.
  induction rules as [|[k side] rules IH]; intros pre todo freqs acc HR HF; cbn [layout expandRules]; [eauto|].
  destruct (HR k side (or_introl eq_refl)) as (HB & HK). cbn [r_large r_variable r_begin r_end].
  assert (X : exists r' f', (match todo with
       | O => Ok (mkRule (symVariable k) (length pre) (length pre + length side) (isTwo k), freqs)
       | S _ =>
         if isTwo k then Ok (mkRule (symVariable k) (length pre) (length pre + length side) (isTwo k), freqs)
         else
           let! b := get isNew (N.to_nat (symVariable k)) in
           if b : bool then
             let! freqs := decr freqs (symVariable k) in
             let! nPair := get repl (N.to_nat (symVariable k)) in
             let! freqs := incr freqs (hi16 nPair) in
             let! freqs := incr freqs (lo16 nPair) in
             Ok (mkRule nPair (length pre) (length pre + length side) true, freqs)
           else Ok (mkRule (symVariable k) (length pre) (length pre + length side) (isTwo k), freqs)
       end) = Ok (r', f') /\ length f' = 256%nat).
  { destruct todo as [|todo]; [eauto|]. destruct k as [c|a b]; cbn [isTwo symVariable]; [|eauto]. specialize (HK c eq_refl).
    rewrite get_flagged by auto. cbn [bind]. destruct (flagged isNew c); [|eauto].
    destruct (decr_total freqs c HF HK) as (f1 & E1 & F1). rewrite E1. cbn [bind]. destruct (newPair c HK) as (v & EV & V1 & V2). rewrite EV. cbn [bind].
    destruct (incr_ok f1 (hi16 v) F1 V1) as (f2 & E2 & F2). rewrite E2. cbn [bind]. destruct (incr_ok f2 (lo16 v) F2 V2) as (f3 & E3 & F3). rewrite E3. cbn [bind]. eauto. }
  destruct X as (r' & f' & E & F'). rewrite E. cbn [bind]. clear E. cbn [map snd concat].
  assert (RG : range (pre ++ side ++ concat (map snd rules)) (length pre) (length pre + length side) = Ok side).
  { unfold range. rewrite slice_middle. rewrite !app_length.
    destruct (Nat.leb_spec (length pre + length side) (length pre + (length side + length (concat (map snd rules))))); [reflexivity|lia]. }
  rewrite RG. cbn [bind]. destruct (expandSide_total side f' HB F') as (l & f2 & E2 & F2). rewrite E2. cbn [bind].
  destruct (IH (pre ++ side) (pred todo) f2 (acc ++ l)) as ([[rs fs] ns] & E3); [intros; apply HR; right; assumption|exact F2|].
  rewrite <- app_assoc, app_length in E3. rewrite E3. cbn [bind]. eauto.
Qed.
End Sides.

(** ** The table *)
Lemma fillFreed_total : forall common freed next table, t_len table = 65536 -> length freed = length next ->
  (forall c, In c freed -> c < 256 /\ c <> common) -> (forall v, In v next -> N.shiftr v 8 <> common) ->
  exists table', fillFreed common freed next table = Ok table' /\ t_len table' = 65536.
Proof.
  intros common. induction freed as [|c freed IH]; intros [|v next] table HL HN HF HV; cbn [length] in HN; try lia; cbn [fillFreed]; [eauto|].
  destruct (HF c (or_introl eq_refl)) as (C1 & C2). specialize (HV v (or_introl eq_refl)) as V1. destruct ((common =? c) || (N.shiftr v 8 =? common)) eqn:E; [lia|].
  destruct (fillRow_ok common c v table HL C1) as (t1 & E1 & T1 & _). rewrite E1. cbn [bind]. apply IH; [exact T1|lia|intros; apply HF; right; assumption|intros; apply HV; right; assumption].
Qed.
Lemma fillSpecials_total : forall common news table, t_len table = 65536 -> (forall c, In c news -> c < 256 /\ c <> common) ->
  exists table', fillSpecials common news table = Ok table' /\ t_len table' = 65536.
Proof.
  intros common. induction news as [|c news IH]; intros table HL HF; cbn [fillSpecials]; [eauto|]. destruct (HF c (or_introl eq_refl)) as (C1 & C2).
  destruct (common =? c) eqn:E; [lia|]. destruct (fillRow_ok common c (pair16 c c) table HL C1) as (t1 & E1 & T1 & _). rewrite E1. cbn [bind]. apply IH; [exact T1|intros; apply HF; right; assumption].
Qed.
Lemma setAll_total : forall is l, length l = 256%nat -> (forall c, In c is -> c < 256) -> exists l', setAll l is = Ok l'.
Proof.
  induction is as [|c is IH]; intros l HL H; cbn [setAll]; [eauto|]. specialize (H c (or_introl eq_refl)) as C. rewrite set_ok by lia. cbn [bind]. apply IH; [rewrite upd_length; exact HL|intros; apply H; right; assumption].
Qed.

Lemma flat_bytes : forall g rules, gram g rules -> forall k side, In (k, side) (flat rules) -> are_bytes side /\ (forall c, k = One c -> c < 256).
Proof.
  intros g rules G k side H. apply in_map_iff in H. destruct H as ([k0 ks] & E & H). cbn [fst snd] in E. injection E as <- <-.
  pose proof (gr_valid _ _ G) as V. rewrite Forall_forall in V. destruct (V _ H) as (V1 & V2). cbn [fst snd] in *. split; [|intros c ->; apply V1].
  clear -V2 G. induction V2 as [|x ks X _ IH]; [constructor|]. change (bytesOf (x :: ks)) with (symBytes x ++ bytesOf ks). apply Forall_app. split; [|exact IH].
  destruct x as [c|a b]; cbn [symBytes valid] in *; [constructor; [apply X|constructor]|].
  destruct X as (i & j & N1 & N2 & _). apply nth_error_In in N1, N2. repeat constructor; apply (gr_bytes _ _ G); assumption.
Qed.

Lemma construct_total : forall g rules F P common R frees news freed,
  gram g rules -> decision g F P common R frees news freed -> ~ In common (frees ++ news ++ freed) ->
  exists r, constructReplacementTable g common (tmake 65536 (pair16 common common)) R freed news (freed ++ frees) = Ok r.
Proof.
  intros g rules F P common R frees news freed G D HC. destruct D as (D1 & D2 & D3 & D4 & D5 & D6 & D7 & D8).
  assert (B : forall c, In c (frees ++ news ++ freed) -> c < 256) by (intros c Hc; apply D4, Hc).
  assert (NS : forall c, isSpecial g c = Ok false -> flagged (g_special g) c = false).
  { intros c Q. unfold isSpecial in Q. apply get_inv in Q. unfold flagged. apply (nth_error_nth _ _ false Q). }
  assert (SUB : forall c, In c (freed ++ frees) -> In c (frees ++ news ++ freed)) by (intros c; rewrite !in_app_iff; tauto).
  assert (DIS : forall c, In c (freed ++ frees) -> ~ In c news).
  { intros c I1 I2. apply (Permutation_NoDup (Permutation_app_swap_app _ _ _)) in D3. pose proof (NoDup_app_dis _ _ D3 c I2). apply H. rewrite in_app_iff in *. tauto. }
  unfold constructReplacementTable.
  destruct (addRules_total news common R (freed ++ frees) (beginUpdatingRules g) (tmake 65536 (pair16 common common))) as (g1 & table1 & EA); cbn [beginUpdatingRules g_freqs g_special].
  { rewrite app_length. exact D7. }
  { apply (gr_freqs _ _ G). }
  { reflexivity. }
  { apply (gr_special _ _ G). }
  { intros p pr I. apply (D6 p pr I). }
  { intros r I. split; [apply B, SUB, I|]. split; [intros ->; apply HC, SUB, I|]. split; [apply DIS, I|]. apply NS, D4, SUB, I. }
  rewrite EA. cbn [bind].
  apply (addRules_ok _ _ _ _ _ _ _ _ rules (cz (ruleBytes rules))) in EA; cbn [beginUpdatingRules g_rules g_rhs g_freqs g_new g_special g_variable g_specials g_pairs] in EA;
    [|apply G|apply G|apply G|intros r Hr; apply B, SUB, Hr].
  destruct EA as (A1 & A2 & A3 & A4 & A5 & A6 & A7 & A8 & A9 & A10 & A11 & A12).
  unfold expandAlphabet.
  assert (LEN : (length (g_specials g) + length news <= 256)%nat).
  { assert (NDS : NoDup (g_specials g ++ news)).
    { apply NoDup_app_mk; [apply (gr_nodup _ _ G)|apply NoDup_app_r in D3; apply NoDup_app_l in D3; exact D3|].
      intros x X1 X2. apply (gr_flag _ _ G) in X1. rewrite NS in X1 by (apply D4; rewrite !in_app_iff; auto). discriminate. }
    rewrite <- app_length. replace 256%nat with (length (map N.of_nat (seq 0 256))) by (rewrite map_length, seq_length; reflexivity).
    apply NoDup_incl_length; [exact NDS|]. intros x Hx. apply in_map_iff. exists (N.to_nat x). split; [lia|]. apply in_seq.
    apply in_app_iff in Hx. destruct Hx as [Hx|Hx]; [apply (gr_bytes _ _ G) in Hx; lia|]. specialize (B x). rewrite !in_app_iff in B. specialize (B (or_intror (or_introl Hx))). lia. }
  destruct (expandLoop_total (S (length freed + length news)) freed news g1 (repeat false 256) (repeat 0 256) []) as (g2 & isNew & repl & next & EL & X1 & X2 & X3 & X4 & X5 & X6 & X7 & X8 & X9 & X10).
  { unfold roomy. rewrite A6, A7, A8, A9. split; [apply G|]. split; [apply G|]. split; [apply repeat_length|]. split; [apply repeat_length|]. split.
    { intros c I. rewrite !in_app_iff in I. destruct I as [I|I]; [apply (gr_bytes _ _ G); exact I|]. apply B. rewrite !in_app_iff. tauto. }
    split; [intros v I; apply repeat_spec in I; subst v; lia|]. split; [exact LEN|]. split; [destruct (gr_q _ _ G) as [Q|Q]; [left; exact Q|right; lia]|]. exact D8. }
  { lia. }
  rewrite EL. cbn [bind].
  assert (W : length (g_freqs g1) = 256%nat) by apply A4.
  destruct (expandRules_total isNew repl X6 X7 X8 (flat (rules ++ newRules (combine R (freed ++ frees)))) [] (length (g_rules g2) - g_new g2) (g_freqs g2) []) as ([[rs fs] ns] & ER).
  { intros k side I. unfold flat in I. rewrite map_app in I. apply in_app_iff in I. destruct I as [I|I]; [eapply flat_bytes; eauto|].
    apply in_map_iff in I. destruct I as ([k0 ks] & E & I). cbn [fst snd] in E. injection E as <- <-. unfold newRules in I. apply in_map_iff in I. destruct I as ([[p pr] r] & E & I). cbn [fst snd] in E. injection E as <- <-.
    split; [repeat constructor; [apply hiOf_lt|apply loOf_lt]|]. intros c Q. injection Q as <-. apply in_combine_r in I. apply B, SUB, I. }
  { rewrite X3. exact W. }
  cbn [app length] in ER. rewrite X1, X2, A2, A3 in *. rewrite ER. cbn [bind].
  destruct (Nat.eqb_spec (length freed) (length next)) as [_|Q]; [|cbn [length] in X9; lia].
  assert (HC2 : ~ In common (g_specials g ++ news)).
  { rewrite in_app_iff. intros [Q|Q]; [|apply HC; rewrite !in_app_iff; auto]. apply (gr_flag _ _ G) in Q. rewrite NS in Q by exact D2. discriminate. }
  destruct (fillFreed_total common freed next table1) as (t2 & E2 & L2).
  { rewrite A11. reflexivity. }
  { cbn [length] in X9. lia. }
  { intros c I. split; [apply B|intros ->; apply HC]; rewrite !in_app_iff; auto. }
  { intros v I. destruct (X10 v I) as [[]|(a & b & Y1 & Y2 & ->)]. rewrite A8 in Y1. fold (hi16 (pair16 a b)). rewrite hi16_pair by exact Y2. intros ->. contradiction. }
  rewrite E2. cbn [bind]. destruct (fillSpecials_total common news t2 L2) as (t3 & E3 & L3).
  { intros c I. split; [apply B|intros ->; apply HC]; rewrite !in_app_iff; auto. }
  rewrite E3. cbn [bind]. unfold endUpdatingRules. cbn [g_variable].
  destruct (setAll_total (freed ++ frees) (g_variable g2) X5) as (v & EV); [intros c I; apply B, SUB, I|]. rewrite EV. cbn [bind]. eauto.
Qed.

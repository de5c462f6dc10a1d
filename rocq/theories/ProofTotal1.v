(** PairReplacer::findReplaceables never fails: there are always pairs and symbols left. *)
From Coq Require Import List NArith ZArith Lia Arith Bool Permutation.
From Coq Require Import ZifyBool ZifyNat ZifyN.
From Verif Require Import Base Arrays TArray ModelUtils ModelSort ModelFreq ModelGrammar ModelPairs SpecFreq ProofFreq2
  ProofPairs1 ProofPairs3 ProofPairs4 ProofPairs5 ProofPairs6.
Import ListNotations.
Open Scope N_scope.

Lemma get_flagged : forall l c, length l = 256%nat -> c < 256 -> get l (N.to_nat c) = Ok (flagged l c).
Proof. intros l c L H. destruct (nth_error_lt l (N.to_nat c) ltac:(lia)) as (b & E). rewrite (get_ok _ _ _ E). unfold flagged. rewrite (nth_error_nth _ _ false E). reflexivity. Qed.

Lemma flagged_rep256 : forall c, flagged (repeat false 256) c = false.
Proof. intros c. unfold flagged. apply nth_repeat. Qed.

Section Total.
Variables (g : grammar) (t : ftable) (key : nat -> N) (F : N -> N) (pool : list (N * N)).
Let last := ft_last t.
Hypothesis HSP : length (g_special g) = 256%nat.
Hypothesis HK : forall i, (i < last)%nat -> key i < 256 /\ flagged (g_special g) (key i) = false /\ ftGetKey t i = Ok (key i) /\ ftGetFrequency t i = Ok (F (key i)).
Hypothesis HKinj : forall i j, (i < last)%nat -> (j < last)%nat -> key i = key j -> i = j.
Hypothesis HKsur : forall c, c < 256 -> flagged (g_special g) c = false -> exists i, (i < last)%nat /\ key i = c.
Hypothesis Hmono : forall i j, (i <= j < last)%nat -> F (key i) <= F (key j).
Hypothesis Hsmall : forall i, (i < last)%nat -> F (key i) < 4294966000.
Hypothesis Hlast : (16 <= last <= 256)%nat.
Hypothesis Hpool : forall p pr, In (p, pr) pool -> pr < 65536 /\ p <= F (hiOf pr) /\ p <= F (loOf pr).
Hypothesis Hall : forall pr, pr < 65536 -> exists p, In (p, pr) pool.

Definition bad (st : fstate) (pr : N) : bool :=
  flagged (f_usedFst st) (loOf pr) || flagged (f_usedSnd st) (hiOf pr) || flagged (g_special g) (loOf pr) || flagged (g_special g) (hiOf pr).

Definition state (skipped : list (N * N)) (b : nat) (st : fstate) (pairs : list (N * N)) : Prop :=
  length (f_usedFst st) = 256%nat /\ length (f_usedSnd st) = 256%nat /\
  (forall c, flagged (f_usedFst st) c = true -> exists x, In x (f_repl st) /\ hiOf (snd x) = c) /\
  (forall c, flagged (f_usedSnd st) c = true -> c = 0 \/ exists x, In x (f_repl st) /\ loOf (snd x) = c) /\
  NoDup (map snd (f_repl st ++ pairs)) /\
  (forall x, In x (f_repl st ++ pairs) -> In x pool) /\
  (forall x, In x (f_repl st) -> flagged (g_special g) (hiOf (snd x)) = false /\ flagged (g_special g) (loOf (snd x)) = false) /\
  (forall x i, In x (f_repl st) -> (i < b)%nat -> F (key i) < fst x) /\
  (forall x y, In x (f_repl st) -> In y pairs -> fst y <= fst x) /\ descending pairs /\
  (length (f_repl st) <= b <= last)%nat /\ (b <= 3 * length (f_repl st))%nat /\
  (forall x, In x pool -> In x skipped \/ In x pairs \/ In x (f_repl st) \/ bad st (snd x) = true).

Lemma unusable_bad : forall st pr, length (f_usedFst st) = 256%nat -> length (f_usedSnd st) = 256%nat ->
  unusable g st (hiOf pr) (loOf pr) = Ok (bad st pr).
Proof.
  intros st pr L1 L2. unfold unusable, isSpecial. rewrite !get_flagged by auto using hiOf_lt, loOf_lt. reflexivity.
Qed.

(** Symbols of chosen pairs come late. *)
Lemma late : forall skipped b st pairs x, state skipped b st pairs -> In x (f_repl st) ->
  (exists i, (b <= i < last)%nat /\ key i = hiOf (snd x)) /\ (exists i, (b <= i < last)%nat /\ key i = loOf (snd x)).
Proof.
  intros skipped b st pairs [p pr] S I. destruct S as (_ & _ & _ & _ & _ & S6 & S7 & S8 & _ & _ & (_ & S10) & _).
  destruct (Hpool p pr (S6 _ (in_or_app _ _ _ (or_introl I)))) as (P1 & P2 & P3). destruct (S7 _ I) as (Q1 & Q2). cbn [snd] in *.
  split.
  - destruct (HKsur _ (hiOf_lt pr) Q1) as (i & Hi & E). exists i. split; [|exact E]. split; [|exact Hi]. destruct (Nat.le_gt_cases b i) as [L|L]; [exact L|].
    specialize (S8 _ _ I L). cbn [fst] in S8. rewrite E in S8. lia.
  - destruct (HKsur _ (loOf_lt pr) Q2) as (i & Hi & E). exists i. split; [|exact E]. split; [|exact Hi]. destruct (Nat.le_gt_cases b i) as [L|L]; [exact L|].
    specialize (S8 _ _ I L). cbn [fst] in S8. rewrite E in S8. lia.
Qed.

Lemma NoDup_map_l : forall (R pairs : list (N * N)), NoDup (map snd (R ++ pairs)) -> NoDup (map snd R).
Proof. induction R as [|x R IH]; intros pairs H; [constructor|]. cbn [app map] in *. apply NoDup_cons_iff in H. destruct H as (H1 & H2). rewrite map_app, in_app_iff in H1. apply NoDup_cons_iff. split; [tauto|]. apply (IH pairs), H2. Qed.

Lemma room : forall skipped b st pairs, state skipped b st pairs -> (b + 3 <= last)%nat.
Proof.
  intros skipped b st pairs S. destruct (Nat.le_gt_cases (b + 3) last) as [L|L]; [exact L|]. exfalso.
  pose proof (late skipped b st pairs) as LT. pose proof S as S'. destruct S as (_ & _ & _ & _ & S5 & S6 & _ & _ & _ & _ & (S9 & S10) & S11 & _).
  set (u := key b) in *. set (v := key (b + 1)%nat) in *.
  assert (IN : forall i, (b <= i < last)%nat -> key i = u \/ key i = v).
  { intros i Hi. assert (i = b \/ i = b + 1)%nat as [-> | ->] by lia; auto. }
  assert (INC : incl (map snd (f_repl st)) [pair16 u u; pair16 u v; pair16 v u; pair16 v v]).
  { intros pr I. apply in_map_iff in I. destruct I as ([p q] & <- & I). cbn [snd].
    destruct (Hpool _ _ (S6 _ (in_or_app _ _ _ (or_introl I)))) as (B & _). rewrite <- (pair_of q B).
    destruct (LT _ S' I) as ((i & I1 & I2) & (j & J1 & J2)). cbn [snd] in *. rewrite <- I2, <- J2. cbn [In].
    destruct (IN i I1) as [-> | ->], (IN j J1) as [-> | ->]; auto. }
  apply NoDup_incl_length in INC; [|apply (NoDup_map_l _ pairs); exact S5]. rewrite map_length in INC. cbn [length] in INC. lia.
Qed.

Lemma pick : forall (cand excl : list N), NoDup cand -> (length excl < length cand)%nat -> exists c, In c cand /\ ~ In c excl.
Proof.
  intros cand excl ND L. destruct (Forall_Exists_dec (fun c => In c excl) (fun c => in_dec N.eq_dec c excl) cand) as [A|E].
  - rewrite Forall_forall in A. pose proof (NoDup_incl_length ND A). lia.
  - apply Exists_exists in E. destruct E as (c & I & N). eauto.
Qed.
Lemma NoDup_keys : forall b, (b <= last)%nat -> NoDup (map key (seq 0 b)).
Proof.
  induction b as [|b IH]; intros Hb; [constructor|]. rewrite seq_S, map_app. apply (Permutation_NoDup (Permutation_cons_append _ _)). constructor; [|apply IH; lia].
  intros I. apply in_map_iff in I. destruct I as (i & E & I). apply in_seq in I. apply HKinj in E; lia.
Qed.

Lemma more : forall skipped b st pairs, state skipped b st pairs -> (length skipped <= 4)%nat -> pairs <> [].
Proof.
  intros skipped b st pairs S L4 Z. pose proof (late skipped b st pairs) as LT. pose proof S as S'.
  destruct S as (S1 & S2 & S3 & S4 & _ & S6 & _ & _ & _ & _ & (S9 & S10) & S11 & S12).
  assert (C : exists c, c <> 0 /\ ~ In c (map (fun x => hiOf (snd x)) skipped) /\ c < 256 /\ flagged (g_special g) c = false /\
                (forall x, In x (f_repl st) -> hiOf (snd x) <> c /\ loOf (snd x) <> c)).
  { destruct (Nat.le_gt_cases (length (f_repl st)) 5) as [R5|R5].
    - destruct (pick (map key (seq 0 last)) (0 :: map (fun x => hiOf (snd x)) skipped ++ map (fun x => hiOf (snd x)) (f_repl st) ++ map (fun x => loOf (snd x)) (f_repl st))) as (c & C1 & C2).
      + apply NoDup_keys. lia.
      + cbn [length]. rewrite !app_length, !map_length, seq_length. lia.
      + exists c. cbn [In] in C2. rewrite !in_app_iff in C2. apply in_map_iff in C1. destruct C1 as (i & <- & I). apply in_seq in I. destruct (HK i ltac:(lia)) as (K1 & K2 & _).
        split; [intros Q; apply C2; left; congruence|]. split; [tauto|]. split; [exact K1|]. split; [exact K2|]. intros x Ix. split; intros Q; apply C2; right; right; [left|right]; apply in_map_iff; exists x; auto.
    - destruct (pick (map key (seq 0 b)) (0 :: map (fun x => hiOf (snd x)) skipped)) as (c & C1 & C2).
      + apply NoDup_keys. lia.
      + cbn [length]. rewrite !map_length, seq_length. lia.
      + exists c. cbn [In] in C2. apply in_map_iff in C1. destruct C1 as (i & <- & I). apply in_seq in I. destruct (HK i ltac:(lia)) as (K1 & K2 & _).
        split; [intros Q; apply C2; left; congruence|]. split; [tauto|]. split; [exact K1|]. split; [exact K2|]. intros x Ix. destruct (LT x S' Ix) as ((j & J1 & J2) & (k & K3 & K4)).
        split; intros Q; [rewrite <- J2 in Q; apply HKinj in Q; lia|rewrite <- K4 in Q; apply HKinj in Q; lia]. }
  destruct C as (c & C1 & C2 & C3 & C4 & C5).
  destruct (Hall (pair16 c c)) as (p & I). { apply pair16_lt; exact C3. }
  subst pairs. assert (H1 : hiOf (pair16 c c) = c) by (apply hiOf_pair; exact C3). assert (H2 : loOf (pair16 c c) = c) by (apply loOf_pair; exact C3).
  destruct (S12 _ I) as [Q|[[]|[Q|Q]]].
  - apply C2. apply in_map_iff. exists (p, pair16 c c). split; [exact H1|exact Q].
  - apply C5 in Q. cbn [snd] in Q. rewrite H1 in Q. tauto.
  - unfold bad in Q. cbn [snd] in Q. rewrite H1, H2, C4, !orb_false_r in Q. apply orb_true_iff in Q. destruct Q as [Q|Q].
    + apply S3 in Q. destruct Q as (x & X1 & X2). apply C5 in X1. tauto.
    + apply S4 in Q. destruct Q as [Q|(x & X1 & X2)]; [congruence|]. apply C5 in X1. tauto.
Qed.

Lemma state_skip : forall skipped b st x pairs, state skipped b st (x :: pairs) -> bad st (snd x) = true -> state skipped b st pairs.
Proof.
  intros skipped b st x pairs (S1 & S2 & S3 & S4 & S5 & S6 & S7 & S8 & S13 & S14 & S9 & S11 & S12) HB.
  split; [exact S1|]. split; [exact S2|]. split; [exact S3|]. split; [exact S4|]. split.
  { rewrite map_app in *. cbn [map] in S5. apply NoDup_remove_1 in S5. exact S5. }
  split; [intros y I; apply S6; rewrite in_app_iff in *; cbn [In]; tauto|]. split; [exact S7|]. split; [exact S8|].
  split; [intros y z Iy Iz; apply S13; [exact Iy|right; exact Iz]|]. split; [inversion S14; assumption|]. split; [exact S9|]. split; [exact S11|].
  intros y I. destruct (S12 y I) as [Q|[[<-|Q]|[Q|Q]]]; auto.
Qed.

Lemma state_take : forall skipped b st p pr pairs b' st', state skipped b st ((p, pr) :: pairs) -> bad st pr = false ->
  (b <= b')%nat -> (b' <= b + 2)%nat -> (b' < last)%nat -> F (key b') < p ->
  f_usedFst st' = upd (f_usedFst st) (N.to_nat (hiOf pr)) true -> f_usedSnd st' = upd (f_usedSnd st) (N.to_nat (loOf pr)) true -> f_repl st' = f_repl st ++ [(p, pr)] ->
  state skipped (S b') st' pairs.
Proof.
  intros skipped b st p pr pairs b' st' (S1 & S2 & S3 & S4 & S5 & S6 & S7 & S8 & S13 & S14 & S9 & S11 & S12) HB B1 B2 B3 HP E1 E2 E3.
  unfold bad in HB. apply orb_false_iff in HB. destruct HB as (HB & HB4). apply orb_false_iff in HB. destruct HB as (HB & HB3). apply orb_false_iff in HB. destruct HB as (HB1 & HB2).
  pose proof (hiOf_lt pr). pose proof (loOf_lt pr).
  assert (FU : forall c, flagged (f_usedFst st') c = if c =? hiOf pr then true else flagged (f_usedFst st) c) by (intros c; rewrite E1; apply flagged_upd; lia).
  assert (SU : forall c, flagged (f_usedSnd st') c = if c =? loOf pr then true else flagged (f_usedSnd st) c) by (intros c; rewrite E2; apply flagged_upd; lia).
  unfold state. rewrite E3, <- app_assoc. cbn [app].
  split; [rewrite E1, upd_length; exact S1|]. split; [rewrite E2, upd_length; exact S2|]. split.
  { intros c. rewrite FU. destruct (N.eqb_spec c (hiOf pr)) as [->|NE]; intros Q; [exists (p, pr); split; [apply in_or_app; right; left; reflexivity|reflexivity]|].
    apply S3 in Q. destruct Q as (x & X1 & X2). exists x. split; [apply in_or_app; left; exact X1|exact X2]. }
  split.
  { intros c. rewrite SU. destruct (N.eqb_spec c (loOf pr)) as [->|NE]; intros Q; [right; exists (p, pr); split; [apply in_or_app; right; left; reflexivity|reflexivity]|].
    apply S4 in Q. destruct Q as [Q|(x & X1 & X2)]; [left; exact Q|right]. exists x. split; [apply in_or_app; left; exact X1|exact X2]. }
  split; [exact S5|]. split; [exact S6|]. split.
  { intros x I. apply in_app_iff in I. destruct I as [I|[<-|[]]]; [apply S7; exact I|]. cbn [snd]. auto. }
  split.
  { intros x i I Hi. assert (M : F (key i) <= F (key b')) by (apply Hmono; lia). apply in_app_iff in I. destruct I as [I|[<-|[]]]; [|cbn [fst]; lia].
    specialize (S13 x (p, pr) I (or_introl eq_refl)). cbn [fst] in S13. lia. }
  split.
  { inversion S14 as [|? ? T1 T2]; subst. rewrite Forall_forall in T2. intros x y I Iy. apply in_app_iff in I. destruct I as [I|[<-|[]]]; [apply S13; [exact I|right; exact Iy]|]. apply T2 in Iy. exact Iy. }
  split; [inversion S14; assumption|]. rewrite app_length. cbn [length]. split; [lia|]. split; [lia|].
  intros x I. destruct (S12 x I) as [Q|[[<-|Q]|[Q|Q]]]; [auto|right; right; left; apply in_or_app; right; left; reflexivity|auto|right; right; left; apply in_or_app; left; exact Q|].
  right. right. right. unfold bad in *. rewrite FU, SU. destruct (loOf (snd x) =? hiOf pr); [reflexivity|]. destruct (hiOf (snd x) =? loOf pr); [rewrite orb_true_r; reflexivity|exact Q].
Qed.

Lemma state_ext : forall skipped b st st' pairs, state skipped b st pairs -> f_usedFst st' = f_usedFst st -> f_usedSnd st' = f_usedSnd st -> f_repl st' = f_repl st -> state skipped b st' pairs.
Proof. intros skipped b st st' pairs S E1 E2 E3. unfold state, bad in *. rewrite E1, E2, E3. exact S. Qed.

Lemma assert_ok : forall i, (i < last)%nat -> assertNotSpecial g t i = Ok tt.
Proof.
  intros i Hi. destruct (HK i Hi) as (K1 & K2 & K3 & _). unfold assertNotSpecial, isSpecial. rewrite K3. cbn [bind]. rewrite get_flagged by auto. rewrite K2. reflexivity.
Qed.
Lemma noWrapF : forall i, (i < last)%nat -> (F (key i) + 1003) mod two32 = F (key i) + 1003.
Proof. intros i Hi. apply N.mod_small. specialize (Hsmall i Hi). unfold two32. lia. Qed.

Lemma firstPairs_total : forall skipped, (length skipped <= 4)%nat -> forall pairs st,
  state skipped (f_symbol st) st pairs -> (f_symbol st < last)%nat ->
  exists pairs' st', firstPairs g t pairs st = Ok (pairs', st') /\ state skipped (f_symbol st') st' pairs'.
Proof.
  intros skipped L4. induction pairs as [|[p pr] rest IH]; intros st HS L.
  - elim (more _ _ _ _ HS L4). reflexivity.
  - cbn [firstPairs]. pose proof HS as S'. destruct S' as (S1 & S2 & _). change (N.land (N.shiftr pr 8) 255) with (hiOf pr). change (N.land pr 255) with (loOf pr).
    rewrite unusable_bad by assumption. cbn [bind]. destruct (bad st pr) eqn:EB.
    + apply IH; [|exact L]. eapply state_skip; [exact HS|exact EB].
    + rewrite assert_ok by exact L. cbn [bind]. destruct (HK _ L) as (_ & _ & _ & K4). rewrite K4. cbn [bind]. rewrite noWrapF by exact L.
      destruct ((p <=? F (key (f_symbol st)) + 1003) || (f_without st =? 0)) eqn:EC.
      { exists ((p, pr) :: rest), st. split; [reflexivity|exact HS]. }
      apply orb_false_iff in EC. destruct EC as (EC & _). pose proof (hiOf_lt pr). pose proof (loOf_lt pr).
      rewrite !set_ok by lia. cbn [bind]. cbn zeta. cbn [f_symbol].
      match goal with |- context [if _ then firstPairs g t rest ?s else _] => set (st1 := s) end.
      assert (S3 : state skipped (f_symbol st1) st1 rest).
      { change (f_symbol st1) with (S (f_symbol st)). eapply (state_take skipped (f_symbol st) st p pr rest (f_symbol st) st1 HS EB); try reflexivity; lia. }
      destruct (nonEmpty rest && (S (f_symbol st) <? ft_last t)%nat) eqn:EN.
      * apply IH; [exact S3|]. apply andb_true_iff in EN. change (f_symbol st1) with (S (f_symbol st)). fold last in EN. lia.
      * exists rest, st1. auto.
Qed.

(** [b]: symbols in use before the pairs chosen here. *)
Lemma specialPairs_total : forall skipped, (length skipped <= 4)%nat -> forall limit pairs st count hope b,
  state skipped b st pairs -> (b <= f_symbol st)%nat -> (f_symbol st <= b + 2)%nat -> (f_symbol st <= last)%nat -> (hope = true -> f_symbol st < last)%nat ->
  (0 < count -> b = f_symbol st)%nat -> (count <= length (f_repl st))%nat ->
  exists pairs' st' count' hope', specialPairs g t limit pairs st count hope = Ok (pairs', st', count', hope') /\
    (0 < count' -> state skipped (f_symbol st') st' pairs' /\ (f_symbol st + 1 <= f_symbol st' + count)%nat)%nat /\
    (hope' = true -> f_symbol st' < last)%nat /\ (count' <= length (f_repl st'))%nat.
Proof.
  intros skipped L4 limit. induction pairs as [|[p pr] rest IH]; intros st count hope b HS B1 B2 B3 HH HC HL.
  - elim (more _ _ _ _ HS L4). reflexivity.
  - cbn [specialPairs]. destruct ((count <? limit)%nat && hope) eqn:EG.
    2:{ exists ((p, pr) :: rest), st, count, hope. split; [reflexivity|]. split; [intros C; specialize (HC C); subst b; split; [exact HS|lia]|]. split; [exact HH|exact HL]. }
    apply andb_true_iff in EG. destruct EG as (G1 & ->). specialize (HH eq_refl).
    pose proof HS as S'. destruct S' as (S1 & S2 & _). change (N.land (N.shiftr pr 8) 255) with (hiOf pr). change (N.land pr 255) with (loOf pr).
    rewrite unusable_bad by assumption. cbn [bind]. destruct (bad st pr) eqn:EB.
    + apply (IH st count true b); auto. eapply state_skip; [exact HS|exact EB].
    + rewrite assert_ok by exact HH. cbn [bind]. destruct (HK _ HH) as (_ & _ & _ & K4). rewrite K4. cbn [bind]. rewrite noWrapF by exact HH.
      destruct (p <=? F (key (f_symbol st)) + 1003) eqn:EC.
      { exists ((p, pr) :: rest), st, count, false. split; [reflexivity|]. split; [intros C; specialize (HC C); subst b; split; [exact HS|lia]|]. split; [discriminate|exact HL]. }
      pose proof (hiOf_lt pr). pose proof (loOf_lt pr).
      rewrite !set_ok by lia. cbn [bind]. cbn zeta. cbn [f_symbol].
      match goal with |- context [specialPairs g t limit rest ?s _ _] => set (st1 := s) end.
      assert (S3 : state skipped (f_symbol st1) st1 rest).
      { change (f_symbol st1) with (S (f_symbol st)). eapply (state_take skipped b st p pr rest (f_symbol st) st1 HS EB); try reflexivity; lia. }
      destruct (IH st1 (S count) (nonEmpty rest && (S (f_symbol st) <? ft_last t)%nat) (f_symbol st1) S3) as (pairs' & st' & count' & hope' & E & Q1 & Q2 & Q3).
      * lia.
      * lia.
      * change (f_symbol st1) with (S (f_symbol st)). lia.
      * intros Q. apply andb_true_iff in Q. change (f_symbol st1) with (S (f_symbol st)). fold last in Q. lia.
      * reflexivity.
      * unfold st1. cbn [f_repl]. rewrite app_length. cbn [length]. lia.
      * exists pairs', st', count', hope'. split; [exact E|]. split; [|auto]. intros C. destruct (Q1 C) as (Q4 & Q5). split; [exact Q4|]. change (f_symbol st1) with (S (f_symbol st)) in Q5. lia.
Qed.

Lemma newSpecialsLoop_total : forall skipped, (length skipped <= 4)%nat -> forall fuel pairs st specs tSpecials,
  state skipped (f_symbol st) st pairs -> (f_symbol st < last)%nat -> F (key (f_symbol st)) <> 0 -> (last < f_symbol st + fuel)%nat ->
  exists r, newSpecialsLoop fuel g t pairs st specs tSpecials = Ok r.
Proof.
  intros skipped L4. induction fuel as [|fuel IH]; intros pairs st specs tSpecials HS L NZ HF; [lia|].
  cbn [newSpecialsLoop]. destruct (HK _ L) as (_ & _ & _ & K4). rewrite K4. cbn [bind]. apply N.eqb_neq in NZ. rewrite NZ. rewrite assert_ok by exact L. cbn [bind].
  pose proof (room _ _ _ _ HS) as RM.
  assert (Q : exists limit nS after symbol, (if (tSpecials =? 0)%nat then
           let! fr2 := ftGetFrequency t (S (f_symbol st)) in
           let! _ := assertNotSpecial g t (S (f_symbol st)) in
           Ok (2%nat, 2%nat, (- Z.of_N (F (key (f_symbol st))) - Z.of_N fr2)%Z, S (S (f_symbol st)))
         else Ok ((2 * tSpecials)%nat, 1%nat, (- Z.of_N (F (key (f_symbol st))))%Z, S (f_symbol st))) = Ok (limit, nS, after, symbol) /\ (f_symbol st < symbol <= f_symbol st + 2)%nat).
  { destruct (tSpecials =? 0)%nat.
    - destruct (HK (S (f_symbol st)) ltac:(lia)) as (_ & _ & _ & K5). rewrite K5. cbn [bind]. rewrite assert_ok by lia. cbn [bind]. do 4 eexists. split; [reflexivity|lia].
    - do 4 eexists. split; [reflexivity|lia]. }
  destruct Q as (limit & nS & after & symbol & E & Q). rewrite E. cbn [bind].
  match goal with |- context [specialPairs g t limit pairs ?s _ _] => set (st1 := s) end.
  destruct (specialPairs_total skipped L4 limit pairs st1 0 true (f_symbol st)) as (pairs' & st' & count & hope & E2 & Q1 & Q2 & Q3).
  - eapply state_ext; [exact HS|reflexivity..].
  - unfold st1. cbn [f_symbol]. lia.
  - unfold st1. cbn [f_symbol]. lia.
  - unfold st1. cbn [f_symbol]. lia.
  - unfold st1. cbn [f_symbol]. lia.
  - lia.
  - lia.
  - rewrite E2. cbn [bind]. cbn zeta. destruct ((1000 <? f_utility st')%Z && (0 <? count)%nat) eqn:EB.
    + apply andb_true_iff in EB. destruct EB as (_ & EB). destruct (Q1 ltac:(lia)) as (Q4 & Q5). change (f_symbol st1) with symbol in Q5.
      destruct hope; [|eexists; reflexivity]. specialize (Q2 eq_refl). apply IH.
      * cbn [f_symbol]. eapply state_ext; [exact Q4|reflexivity..].
      * cbn [f_symbol]. exact Q2.
      * cbn [f_symbol]. assert (F (key (f_symbol st)) <= F (key (f_symbol st'))) by (apply Hmono; lia). apply N.eqb_neq in NZ. lia.
      * cbn [f_symbol]. lia.
    + destruct (Nat.leb_spec count (length (f_repl st'))); [eexists; reflexivity|lia].
Qed.

Lemma countFree_total : (exists i, (i < last)%nat /\ F (key i) <> 0) -> forall fuel i, (i < last)%nat -> (last < i + fuel)%nat -> exists n, countFree fuel t i = Ok n.
Proof.
  intros (k & K1 & K2). induction fuel as [|fuel IH]; intros i Hi HF; [lia|]. cbn [countFree]. destruct (HK i Hi) as (_ & _ & _ & E). rewrite E. cbn [bind].
  destruct (N.eqb_spec (F (key i)) 0) as [Z|NZ]; [|eauto]. assert (i <> (last - 1)%nat). { intros ->. pose proof (Hmono k (last - 1)%nat ltac:(lia)). lia. }
  apply IH; lia.
Qed.

Lemma findReplaceables_total : forall start pairs, (start <= 4)%nat -> Permutation pairs pool -> NoDup (map snd pool) -> descending pairs ->
  (exists i, (i < last)%nat /\ F (key i) <> 0) ->
  (length (g_pairs g) <= length (g_specials g) * length (g_specials g))%nat -> (length (g_specials g) <= 256)%nat ->
  exists R u specs forFree, findReplaceables g t start pairs = Ok (R, u, specs, forFree) /\ forall i, (i < forFree)%nat -> F (key i) = 0.
Proof.
  intros start pairs HS PP ND HD HN Hq Hs. unfold findReplaceables. cbn zeta.
  destruct (countFree_total HN 257 0 ltac:(lia) ltac:(lia)) as (free & EF). rewrite EF. cbn [bind].
  destruct (countFree_ok t (fun i => F (key i))) with (fuel := 257%nat) (i := 0%nat) (n := free) as (F1 & F2); auto; [intros i Hi; apply HK; exact Hi|intros j Hj; lia|].
  fold last in F1, F2. rewrite (left_ok g Hq Hs).
  assert (HSS : (length (g_specials g) * length (g_specials g) <= 256 * 256)%nat) by (apply Nat.mul_le_mono; assumption).
  set (left := N.of_nat (length (g_specials g) * length (g_specials g) - length (g_pairs g))).
  rewrite (N.mod_small (left + N.of_nat free)) by (unfold left, two32; lia).
  match goal with |- context [firstPairs g t _ ?s] => set (st0 := s) end.
  set (skipped := firstn start pairs). set (sp := skipn start pairs).
  assert (HD' : descending sp).
  { unfold sp. clear -HD. revert start. induction pairs as [|x pairs IH]; intros [|start]; cbn [skipn]; auto. inversion HD; subst. apply IH. assumption. }
  assert (S0 : state skipped 0 st0 sp).
  { unfold state, st0. cbn [f_usedFst f_usedSnd f_repl app length]. split; [reflexivity|]. split; [reflexivity|].
    split; [intros c Q; rewrite flagged_rep256 in Q; discriminate|]. split.
    { intros c Q. left. destruct (N.to_nat c) as [|n] eqn:E; [lia|]. unfold flagged in Q. rewrite E in Q. change (nth (S n) (true :: repeat false 255) false) with (nth n (repeat false 255) false) in Q. rewrite nth_repeat in Q. discriminate. }
    split. { assert (N2 : NoDup (map snd pairs)) by (apply (Permutation_NoDup (Permutation_sym (Permutation_map snd PP))); exact ND).
             rewrite <- (firstn_skipn start pairs), map_app in N2. fold sp in N2. revert N2. generalize (map snd (firstn start pairs)). induction l as [|x l IH]; [auto|]. cbn [app]. intros Q. apply NoDup_cons_iff in Q. apply IH, Q. }
    split. { intros x I. apply (Permutation_in _ PP). rewrite <- (firstn_skipn start pairs). apply in_or_app. right. exact I. }
    split; [intros x []|]. split; [intros x i []|]. split; [intros x y []|]. split; [exact HD'|]. split; [lia|]. split; [lia|].
    intros x I. apply (Permutation_in _ (Permutation_sym PP)) in I. rewrite <- (firstn_skipn start pairs) in I. apply in_app_iff in I. tauto. }
  assert (L4 : (length skipped <= 4)%nat) by (unfold skipped; rewrite firstn_length; lia).
  assert (NE : nonEmpty sp = true). { pose proof (more _ _ _ _ S0 L4). destruct sp; [congruence|reflexivity]. }
  assert (FO : exists pairs1 st1, firstPairs g t sp st0 = Ok (pairs1, st1) /\ state skipped (f_symbol st1) st1 pairs1).
  { apply firstPairs_total; [exact L4|exact S0|]. change (f_symbol st0) with 0%nat. lia. }
  destruct FO as (pairs1 & st1 & E1 & S1). rewrite NE. destruct (Nat.ltb_spec 0 (ft_last t)) as [_|Q]; [|fold last in Q; lia]. cbn [andb]. rewrite E1. cbn [bind].
  destruct (firstPairs_ok g t (fun i => F (key i)) pool) with (W := left + N.of_nat free) (free := free) (pairs := sp) (st := st0) (pairs' := pairs1) (st' := st1) as (_ & _ & W1 & W2 & W3); auto.
  { intros i Hi. apply HK. exact Hi. }
  { unfold chosen, st0. cbn [f_repl f_symbol]. split; [constructor|]. split; [intros x y []|]. split; [exact HD'|]. split; [|lia]. intros x I. destruct S0 as (_ & _ & _ & _ & _ & S6 & _). apply S6. exact I. }
  { left. reflexivity. }
  { unfold st0. cbn. lia. }
  assert (FZ : forall i, (i < f_forFree st1)%nat -> F (key i) = 0) by (intros i Hi; apply F2; lia).
  destruct (nonEmpty pairs1 && (f_symbol st1 <? ft_last t)%nat && (f_without st1 =? 0)) eqn:EB; [|do 4 eexists; split; [reflexivity|exact FZ]].
  apply andb_true_iff in EB. destruct EB as (EB & EW). apply andb_true_iff in EB. destruct EB as (_ & EL). fold last in EL.
  assert (NZ : F (key (f_symbol st1)) <> 0). { intros Z. apply F2 in Z; [|lia]. lia. }
  destruct (newSpecialsLoop_total skipped L4 257 pairs1 st1 0 (length (g_specials g)) S1) as ([[R u] specs] & E2); [lia|exact NZ|lia|].
  rewrite E2. cbn [bind]. do 4 eexists. split; [reflexivity|exact FZ].
Qed.

Lemma bestStart_total : forall pairs, Permutation pairs pool -> NoDup (map snd pool) -> descending pairs ->
  (exists i, (i < last)%nat /\ F (key i) <> 0) ->
  (length (g_pairs g) <= length (g_specials g) * length (g_specials g))%nat -> (length (g_specials g) <= 256)%nat ->
  forall starts best, (forall s, In s starts -> s <= 4)%nat -> (forall i, (i < snd best)%nat -> F (key i) = 0) ->
  exists R u specs forFree, bestStart g t pairs starts best = Ok (R, u, specs, forFree) /\ forall i, (i < forFree)%nat -> F (key i) = 0.
Proof.
  intros pairs PP ND HD HN Hq Hs. induction starts as [|s starts IH]; intros best HS HB; [destruct best as [[[R u] sp] ff]; cbn [bestStart]; do 4 eexists; split; [reflexivity|exact HB]|]. cbn [bestStart].
  destruct (findReplaceables_total s pairs) as (R & u & sp & ff & E & Z); auto; [apply HS; left; reflexivity|]. rewrite E. cbn [bind]. destruct best as [[[R2 u2] sp2] ff2].
  apply IH; [intros i I; apply HS; right; exact I|]. destruct (u2 <? u)%Z; [exact Z|exact HB].
Qed.
End Total.

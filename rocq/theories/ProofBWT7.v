(** Both inverse transforms undo the transform. *)
From Coq Require Import List NArith ZArith Lia Arith Bool Permutation Sorted.
From Coq Require Import ZifyBool ZifyNat ZifyN.
From Verif Require Import Base Arrays TArray ModelUtils ModelHeaders ModelBWT SpecHeaders SpecBWT.
From Verif Require Import ProofBWT1 ProofBWT2 ProofBWT3 ProofBWT4 ProofBWT5 ProofBWT6.
Import ListNotations.
Open Scope nat_scope.

Lemma nth_map_seq : forall (f : nat -> N) k m, k < m -> nth k (map f (seq 0 m)) 0%N = f k.
Proof.
  intros f k m H. rewrite (nth_indep _ 0%N (f 0)) by (rewrite map_length, seq_length; exact H).
  rewrite map_nth, seq_nth by exact H. reflexivity.
Qed.

Section mtl.
Variable t : list N.
Variable sa : list nat.
Variable y : list N.
Hypothesis Ht : t = y ++ [0%N].
Hypothesis Hsa : suffix_array t sa.
Hypothesis Hbytes : Forall (fun c => (c < 256)%N) t.
Let n := length t.
Hypothesis Hn2 : 2 <= n.
Hypothesis Hn : (N.of_nat n <= 2 ^ 31)%N.
Variable bwt : tarray N.
Hypothesis Hbl : t_len bwt = N.of_nat n.
Let p := RK sa 0.
Hypothesis Hbv : forall r, r < n -> r <> p -> tval bwt (N.of_nat r) = B t sa r.
Hypothesis Hbb : forall r, r < n -> (tval bwt (N.of_nat r) < 256)%N.
Variable lf : list N.
Let L := length lf.
Hypothesis HL : 1 <= L.
Hypothesis Hlf : forall k, k < L -> nth k lf 0%N = N.of_nat (RK sa (if k =? 0 then 0 else n - k * (n / L))).

Lemma mtlInverse_spec : exists out, mtlInverse bwt lf = Ok out /\
  forall j, j < n - 1 -> tval out (N.of_nat j) = C t (n - 2 - j).
Proof.
  assert (E0 := Hlf 0 ltac:(lia)). cbn [Nat.eqb] in E0. fold p in E0.
  assert (G : forall l, l = lf -> exists out, mtlInverse bwt l = Ok out /\
     forall j, j < n - 1 -> tval out (N.of_nat j) = C t (n - 2 - j)); [|apply G; reflexivity].
  intros l El. unfold mtlInverse. destruct l as [|p0 l']; [exfalso; clear -El HL; unfold L in HL; rewrite <- El in HL; cbn in HL; lia|].
  assert (Ep : p0 = N.of_nat p) by (rewrite <- E0, <- El; reflexivity).
  rewrite El, Ep. cbv zeta.
  rewrite Hbl. destruct (N.ltb_spec (N.of_nat n) 2); [lia|].
  destruct (computeData_spec t sa y Ht Hsa Hbytes Hn2 Hn bwt Hbl Hbv Hbb (tmake (3 * ((N.of_nat n + 1) / 2))%N 0%N) eq_refl)
    as (data & Ed & Hd). fold p in Ed. rewrite Ed. cbn [bind]. fold L.
  set (small := (N.of_nat n / N.of_nat L <=? 1)%N).
  set (sp := if small then 1 else L). set (bs := if small then n else n / L).
  assert (Dv : (N.of_nat n / N.of_nat L)%N = N.of_nat (n / L)) by (symmetry; apply Nat2N.inj_div).
  assert (Esp : (if small then 1%N else N.of_nat L) = N.of_nat sp) by (unfold sp; destruct small; reflexivity).
  assert (Ebs : (if small then N.of_nat n else (N.of_nat n / N.of_nat L)%N) = N.of_nat bs).
  { unfold bs. destruct small; [reflexivity|exact Dv]. }
  rewrite Esp, Ebs.
  assert (HM : L * (n / L) <= n) by (apply Nat.mul_div_le; lia).
  assert (Hsmall : small = false -> 2 <= n / L).
  { unfold small. rewrite Dv. destruct (N.leb_spec (N.of_nat (n / L)) 1); [discriminate|]. intros _. clear -H0. lia. }
  assert (Hsp : 1 <= sp <= L) by (unfold sp; destruct small; lia).
  assert (Hbs : 2 <= bs) by (unfold bs; destruct small; [exact Hn2|apply Hsmall; reflexivity]).
  assert (Hsb : sp * bs <= n) by (unfold sp, bs; destruct small; [lia|exact HM]).
  assert (Hlf' : forall k, k < sp -> nth k lf 0%N = N.of_nat (row t sa (k * bs + 2 * 0))).
  { intros k Hk. rewrite Hlf by lia. unfold row. fold n. f_equal. f_equal.
    destruct (Nat.eqb_spec k 0) as [->|D].
    - cbn [Nat.mul Nat.add]. rewrite Nat.sub_0_r, Nat.mod_same by lia. reflexivity.
    - unfold sp in Hk. unfold bs. destruct small; [lia|]. specialize (Hsmall eq_refl).
      assert (k * (n / L) + n / L <= n) by nia.
      rewrite Nat.mod_small by lia. lia. }
  clearbody sp bs. clear Ebs Esp Dv HM Hsmall small.
  replace (N.of_nat n - 1)%N with (N.of_nat (n - 1)) by lia. rewrite !Nat2N.id.
  assert (NP := next_pair t sa y Ht Hsa Hbytes Hn2 Hn bwt Hbl Hbv Hbb data Hd sp bs L Hsp Hbs Hsb).
  assert (FP := first_pair t sa y Ht Hsa Hbytes Hn2 Hn bwt Hbl Hbv Hbb data Hd sp bs L Hsp Hbs Hsb).
  assert (LB := last_byte t sa y Ht Hsa Hbytes Hn2 Hn bwt Hbl Hbv Hbb data Hd sp bs L Hsp Hbs Hsb).
  assert (TS := tail_spec t sa y Ht Hsa Hbytes Hn2 Hn bwt Hbl Hbv Hbb data Hd sp bs L Hsp Hbs Hsb).
  assert (RS := round_spec t sa Hn2 Hn bwt Hbl Hbv Hbb sp bs L Hsp Hbs Hsb).
  fold n in NP, FP, LB, TS, RS.
  assert (BK : forall k, k < sp -> k * bs + bs <= n) by (intros k Hk; nia).
  (* the first pairs *)
  match goal with |- context [forLoop sp 0%N ?b ?s] => destruct (RS b 0 (fun _ => False) s) as (st1 & E1 & J1) end.
  { intros f k st Hk Hf HJ. apply FP; assumption. }
  { split; [apply tofList_len|]. split; [intros k Hk; rewrite tval_ofList, Nat2N.id; apply Hlf'; exact Hk|].
    split; [rewrite tofList_len, map_length, seq_length; reflexivity|]. split.
    { intros k Hk. rewrite tval_ofList, Nat2N.id.
      rewrite nth_map_seq by exact Hk. lia. }
    split; [exact Hbl|]. split; [intros; lia|]. intros j []. }
  rewrite E1. cbn [bind].
  (* the rounds *)
  replace (N.to_nat (N.of_nat bs / 2 - 1)) with (bs / 2 - 1) by lia.
  assert (B2 : 1 <= bs / 2) by lia.
  match goal with |- context [forLoop (bs / 2 - 1) 1%N ?b ?s] =>
    destruct (forLoop_nat (fun m st => J t sa sp bs L (fun _ => m) (fun _ => False) st) b (bs / 2 - 1) 1 s) as (st2 & E2 & J2) end.
  { exact J1. }
  { intros m st Hm HJ. apply RS; [|exact HJ]. intros f k s Hk Hf HJk. specialize (BK k Hk).
    assert (m + 1 <= bs / 2) by lia. assert (bs / 2 * 2 <= bs) by lia.
    apply NP; [exact Hk|lia|lia|exact HJk]. }
  change (N.of_nat 1) with 1%N in E2. rewrite E2. cbn [bind]. replace (1 + (bs / 2 - 1)) with (bs / 2) in J2 by lia.
  set (h := bs / 2) in *. assert (Hh : 2 * h <= bs <= 2 * h + 1) by (unfold h; lia).
  (* odd block size *)
  set (E := fun j => exists k, k < sp - 1 /\ bs = 2 * h + 1 /\ j = k * bs + 2 * h - 1).
  assert (G : exists st3, (if N.odd (N.of_nat bs) then
                 forLoop (N.to_nat (N.of_nat sp - 1)) 0 (fun id => lastByte data id ((id + 1) * N.of_nat bs - 2)%N) st2
                 else Ok st2) = Ok st3 /\ J t sa sp bs L (fun _ => h) E st3).
  { destruct (N.odd (N.of_nat bs)) eqn:Od.
    - assert (Eb : bs = 2 * h + 1). { apply N.odd_spec in Od. destruct Od as [q Eq]. unfold h. lia. }
      match goal with |- context [forLoop ?cnt 0%N ?b ?s] =>
        destruct (forLoop_nat (fun m st => J t sa sp bs L (fun _ => h) (fun j => exists k, k < m /\ j = k * bs + 2 * h - 1) st) b cnt 0 s)
          as (st3 & E3 & J3) end.
      + destruct st2 as [[r2 p2] d2]. destruct J2 as (A1 & A2 & A3 & A4 & A5 & A6 & A7).
        unfold J. split; [exact A1|]. split; [exact A2|]. split; [exact A3|]. split; [exact A4|]. split; [exact A5|].
        split; [exact A6|]. intros j (k & Hk & _). lia.
      + intros k st Hk HJ. assert (Hks : k < sp) by lia. specialize (BK k Hks).
        replace ((N.of_nat k + 1) * N.of_nat bs - 2)%N with (N.of_nat (k * bs + 2 * h - 1)).
        2:{ replace (k * bs + 2 * h - 1) with (k * bs + bs - 2) by lia. lia. }
        destruct (LB (fun _ => h) (fun j => exists k', k' < k /\ j = k' * bs + 2 * h - 1) k (k * bs + 2 * h - 1) st) as (st' & E4 & J4);
          [exact Hks|lia|reflexivity|exact HJ|].
        exists st'. split; [exact E4|]. destruct st' as [[r4 p4] d4]. destruct J4 as (A1 & A2 & A3 & A4 & A5 & A6 & A7).
        unfold J. split; [exact A1|]. split; [exact A2|]. split; [exact A3|]. split; [exact A4|]. split; [exact A5|].
        split; [exact A6|]. intros j (k' & Hk' & Ej). apply A7.
        destruct (Nat.eq_dec k' k) as [->|D]; [right; exact Ej|left; exists k'; split; [lia|exact Ej]].
      + change (N.of_nat 0) with 0%N in E3. exists st3. split; [exact E3|].
        destruct st3 as [[r4 p4] d4]. destruct J3 as (A1 & A2 & A3 & A4 & A5 & A6 & A7).
        unfold J. split; [exact A1|]. split; [exact A2|]. split; [exact A3|]. split; [exact A4|]. split; [exact A5|].
        split; [exact A6|]. intros j (k' & Hk' & _ & Ej). apply A7. exists k'. split; [lia|exact Ej].
    - exists st2. split; [reflexivity|].
      assert (Eb : bs = 2 * h).
      { assert (Od' : N.even (N.of_nat bs) = true) by (rewrite <- N.negb_odd, Od; reflexivity).
        apply N.even_spec in Od'. destruct Od' as [q Eq]. unfold h. lia. }
      destruct st2 as [[r2 p2] d2]. destruct J2 as (A1 & A2 & A3 & A4 & A5 & A6 & A7).
      unfold J. split; [exact A1|]. split; [exact A2|]. split; [exact A3|]. split; [exact A4|]. split; [exact A5|].
      split; [exact A6|]. intros j (k & _ & Q & _). lia. }
  destruct G as (st3 & E3 & J3). rewrite E3. cbn [bind].
  (* the tail *)
  assert (Bl := BK (sp - 1) ltac:(lia)).
  replace (((N.of_nat sp - 1) * N.of_nat bs + two32 - 1 + 2 * (N.of_nat bs / 2)) mod two32)%N
    with (N.of_nat ((sp - 1) * bs + 2 * h - 1)).
  2:{ assert (Eh : (N.of_nat bs / 2)%N = N.of_nat h) by (unfold h; lia). rewrite Eh.
      replace (N.of_nat sp - 1)%N with (N.of_nat (sp - 1)) by lia. rewrite <- Nat2N.inj_mul.
      change two32 with (2 ^ 32)%N.
      replace (N.of_nat ((sp - 1) * bs) + 2 ^ 32 - 1 + 2 * N.of_nat h)%N
        with (N.of_nat ((sp - 1) * bs + 2 * h - 1) + 1 * 2 ^ 32)%N by lia.
      rewrite N.mod_add by discriminate. rewrite N.mod_small; [reflexivity|]. lia. }
  replace (N.of_nat sp - 1)%N with (N.of_nat (sp - 1)) by lia.
  destruct (TS n (fun _ => h) E st3) as (st4 & f4 & E4 & R4 & K4 & J4); [lia|lia|lia|exact J3|].
  cbn beta in E4. rewrite E4. cbn [bind].
  set (m := (sp - 1) * bs + 2 * f4 (sp - 1)) in *.
  assert (Cover : forall result positions dest E', J t sa sp bs L f4 E' (result, positions, dest) ->
     (forall j, E j -> E' j) -> (m = n - 1 -> E' (n - 2)) ->
     forall j, j < n - 1 -> tval result (N.of_nat j) = C t (n - 2 - j)).
  { intros result positions dest E' (A1 & A2 & A3 & A4 & A5 & A6 & A7) HE Hlast j Hj.
    change (C t (n - 2 - j)) with (X t j).
    destruct (Nat.ltb_spec (j + 1) ((sp - 1) * bs)) as [Lt|Ge].
    - set (k := (j + 1) / bs).
      assert (Ek : k * bs <= j + 1 < k * bs + bs).
      { assert (D := Nat.div_mod (j + 1) bs ltac:(lia)). assert (M := Nat.mod_upper_bound (j + 1) bs ltac:(lia)). fold k in D. lia. }
      assert (Hk : k < sp - 1) by nia.
      destruct (Nat.ltb_spec (j + 1) (k * bs + 2 * h)).
      + apply (A6 k); [lia|]. rewrite K4 by exact Hk. lia.
      + apply A7, HE. exists k. split; [exact Hk|]. split; lia.
    - destruct (Nat.ltb_spec (j + 1) m).
      + apply (A6 (sp - 1)); [lia|]. unfold m in H0. lia.
      + assert (j = n - 2) by lia. subst j. apply A7, Hlast. lia. }
  destruct (N.eqb_spec (N.of_nat (m - 1)) (N.of_nat (n - 1))) as [Em|Em].
  - destruct st4 as [[r4 p4] d4]. cbn [bind]. exists r4. split; [reflexivity|].
    apply (Cover r4 p4 d4 E J4); [auto|]. intros Q. lia.
  - replace (N.of_nat (n - 1) - 1)%N with (N.of_nat (m - 1)) by lia.
    destruct (LB f4 E (sp - 1) (m - 1) st4) as (st5 & E5 & J5); [lia|fold m; lia|reflexivity|exact J4|].
    rewrite E5. cbn [bind]. destruct st5 as [[r5 p5] d5]. exists r5. split; [reflexivity|].
    apply (Cover r5 p5 d5 _ J5); [auto|]. intros Q. right. lia.
Qed.
End mtl.

(** ** Both directions together *)
Lemma inverse_all : forall x sa sp next data lf freqs, are_bytes x -> x <> [] -> (N.of_nat (length x) + 1 < 2 ^ 31)%N ->
  suffix_array (sortedText x) sa -> (next < 256)%N -> doTransform x sa sp = Ok (data, lf, freqs) ->
  inverseWith fastInverse data next lf = Ok x /\ inverseWith mtlInverse data next lf = Ok x.
Proof.
  intros x sa sp next data lf freqs Hx Hne Hlen Hsa Hnext E.
  destruct (forward_spec x sa Hx Hne Hlen Hsa sp) as (data' & freqs' & E' & Hb & Hl & Hi & _).
  rewrite E in E'. injection E' as <- -> <-.
  destruct (Hi next) as (bw & Ei & Lb & Vb & Bb). specialize (Bb Hnext). clear Hi.
  set (t := sortedText x) in *. assert (En := n_x x Hlen). fold t in En.
  assert (Xp := x_pos x sa Hx Hne Hlen Hsa).
  assert (Ht : t = rev x ++ [0%N]) by reflexivity.
  assert (Tb : Forall (fun c => (c < 256)%N) t) by (apply t_bytes; assumption).
  assert (Hn2 : 2 <= length t) by lia.
  assert (Hn : (N.of_nat (length t) <= 2 ^ 31)%N) by lia.
  assert (Hbl : t_len (tofList 0%N bw) = N.of_nat (length t)) by (rewrite tofList_len, Lb; reflexivity).
  assert (Hbv : forall r, r < length t -> r <> RK sa 0 -> tval (tofList 0%N bw) (N.of_nat r) = B t sa r).
  { intros r Hr D. rewrite tval_ofList, Nat2N.id. apply Vb; assumption. }
  assert (Hbb : forall r, r < length t -> (tval (tofList 0%N bw) (N.of_nat r) < 256)%N).
  { intros r Hr. rewrite tval_ofList, Nat2N.id. unfold are_bytes in Bb. rewrite Forall_forall in Bb. apply Bb, nth_In. lia. }
  assert (Fin : forall out, (forall j, j < length t - 1 -> tval out (N.of_nat j) = C t (length t - 2 - j)) ->
                 ttake out 0 (length data) = x).
  { intros out H. rewrite Hl. apply ttake_list. intros j Hj. rewrite N.add_0_l, H by lia.
    unfold t. rewrite (C_x x Hlen j Hj). apply nth_error_nth'. exact Hj. }
  destruct (points_range x Hlen sp) as [P1 P2].
  assert (Hlf0 : specPoints x sa sp = N.of_nat (RK sa 0) :: tl (specPoints x sa sp)).
  { unfold specPoints. destruct (points x sp); [lia|]. reflexivity. }
  unfold inverseWith. rewrite Ei. cbn [bind]. split.
  - rewrite Hlf0. destruct (fastInverse_spec t sa (rev x) Ht Hsa Tb Hn2 Hn _ Hbl Hbv (tl (specPoints x sa sp))) as (out & Eo & Vo).
    rewrite Eo. cbn [bind]. f_equal. apply Fin. exact Vo.
  - assert (Ll : length (specPoints x sa sp) = points x sp) by (unfold specPoints; rewrite map_length, seq_length; reflexivity).
    destruct (mtlInverse_spec t sa (rev x) Ht Hsa Tb Hn2 Hn _ Hbl Hbv Hbb (specPoints x sa sp)) as (out & Eo & Vo).
    + lia.
    + intros k Hk. rewrite Ll in *. unfold specPoints.
      rewrite nth_map_seq by exact Hk. reflexivity.
    + rewrite Eo. cbn [bind]. f_equal. apply Fin. exact Vo.
Qed.

(** ** Every text has a suffix array, so the theorems speak about every block *)
Fixpoint lexltb (a b : list N) : bool :=
  match a, b with
  | _, [] => false
  | [], _ :: _ => true
  | x :: a', y :: b' => ((x <? y)%N || ((x =? y)%N && lexltb a' b'))%bool
  end.

Lemma lexltb_spec : forall a b, lexltb a b = true <-> lexlt a b.
Proof.
  induction a as [|x a IH]; intros [|y b]; cbn [lexltb lexlt]; try (split; [discriminate|tauto]); try (split; auto; fail).
  rewrite orb_true_iff, andb_true_iff, N.ltb_lt, N.eqb_eq, IH. reflexivity.
Qed.
Lemma lexlt_trans : forall a b c, lexlt a b -> lexlt b c -> lexlt a c.
Proof.
  induction a as [|x a IH]; intros [|y b] [|z c]; cbn [lexlt]; try tauto.
  intros [H1|[E1 H1]] [H2|[E2 H2]]; try (left; lia). right. split; [lia|]. eapply IH; eassumption.
Qed.
Lemma lexlt_total : forall a b, a = b \/ lexlt a b \/ lexlt b a.
Proof.
  induction a as [|x a IH]; intros [|y b]; cbn [lexlt]; try (left; reflexivity); try (right; auto; fail).
  destruct (N.lt_trichotomy x y) as [H|[->|H]].
  - right. left. left. exact H.
  - destruct (IH b) as [->|[H|H]]; [left; reflexivity|right; left; right; auto|right; right; right; auto].
  - right. right. left. exact H.
Qed.

Section sort.
Variable t : list N.
Fixpoint insertSuffix (a : nat) (l : list nat) : list nat :=
  match l with
  | [] => [a]
  | b :: r => if lexltb (skipn a t) (skipn b t) then a :: l else b :: insertSuffix a r
  end.
Definition sortSuffixes (l : list nat) : list nat := fold_right insertSuffix [] l.

Lemma insert_perm : forall a l, Permutation (insertSuffix a l) (a :: l).
Proof.
  induction l as [|b l IH]; cbn [insertSuffix]; [reflexivity|]. destruct (lexltb _ _); [reflexivity|].
  rewrite IH. apply perm_swap.
Qed.
Lemma sort_perm : forall l, Permutation (sortSuffixes l) l.
Proof. induction l as [|a l IH]; cbn [sortSuffixes fold_right]; [reflexivity|]. rewrite insert_perm. apply perm_skip, IH. Qed.

Lemma insert_sorted : forall a l, a < length t -> Forall (fun b => b < length t /\ b <> a) l ->
  StronglySorted (fun a b => lexlt (skipn a t) (skipn b t)) l ->
  StronglySorted (fun a b => lexlt (skipn a t) (skipn b t)) (insertSuffix a l).
Proof.
  induction l as [|b l IH]; intros Ha Hl Hs; cbn [insertSuffix].
  - constructor; constructor.
  - inversion Hl; subst. inversion Hs; subst.
    destruct (lexltb (skipn a t) (skipn b t)) eqn:E.
    + apply lexltb_spec in E. constructor; [assumption|]. constructor; [exact E|].
      eapply Forall_impl; [|eassumption]. intros c Hc. cbn beta in *. eapply lexlt_trans; eassumption.
    + assert (L : lexlt (skipn b t) (skipn a t)).
      { destruct (lexlt_total (skipn b t) (skipn a t)) as [Q|[Q|Q]]; [|exact Q|].
        - apply (f_equal (@length N)) in Q. rewrite !skipn_length in Q. lia.
        - apply lexltb_spec in Q. congruence. }
      constructor; [apply IH; assumption|].
      eapply Permutation_Forall; [symmetry; apply insert_perm|]. constructor; assumption.
Qed.

Lemma suffix_array_exists : suffix_array t (sortSuffixes (seq 0 (length t))).
Proof.
  split; [apply sort_perm|].
  assert (G : forall l, NoDup l -> Forall (fun b => b < length t) l ->
     StronglySorted (fun a b => lexlt (skipn a t) (skipn b t)) (sortSuffixes l)).
  { induction l as [|a l IH]; intros Hd Hl; cbn [sortSuffixes fold_right]; [constructor|].
    inversion Hd; subst. inversion Hl; subst. apply insert_sorted; [assumption| |apply IH; assumption].
    eapply Permutation_Forall; [symmetry; apply sort_perm|]. rewrite Forall_forall in *. intros b Hb. split; [auto|]. congruence. }
  apply G; [apply seq_NoDup|]. rewrite Forall_forall. intros b Hb. apply in_seq in Hb. lia.
Qed.
End sort.

(** ** Summary *)
Lemma rankIn_le : forall sa s, rankIn sa s <= length sa.
Proof. induction sa as [|a sa IH]; intros s; cbn [rankIn length]; [lia|]. destruct (_ =? _); [lia|]. specialize (IH s). lia. Qed.
Lemma sumN_cons : forall a l, sumN (a :: l) = (a + sumN l)%N.
Proof. reflexivity. Qed.
Lemma sum_count_cons : forall d data m k, sumN (map (fun c => N.of_nat (count_occ N.eq_dec (d :: data) (N.of_nat c))) (seq k m)) =
  (sumN (map (fun c => N.of_nat (count_occ N.eq_dec data (N.of_nat c))) (seq k m)) +
   (if ((N.of_nat k <=? d) && (d <? N.of_nat (k + m)))%N then 1 else 0))%N.
Proof.
  intros d data. induction m as [|m IH]; intros k; cbn [seq map].
  - destruct (N.leb_spec (N.of_nat k) d), (N.ltb_spec d (N.of_nat (k + 0))); cbn [andb]; try reflexivity. lia.
  - rewrite !sumN_cons, IH. cbn [count_occ].
    destruct (N.eq_dec d (N.of_nat k)) as [D|D];
    destruct (N.leb_spec (N.of_nat (S k)) d), (N.ltb_spec d (N.of_nat (S k + m))), (N.leb_spec (N.of_nat k) d),
       (N.ltb_spec d (N.of_nat (k + S m))); cbn [andb]; lia.
Qed.

Lemma sum_counts : forall data freqs, are_bytes data -> counts_of data freqs -> sumN freqs = N.of_nat (length data).
Proof.
  intros data freqs Hb [Hl Hc].
  assert (E : freqs = map (fun c => N.of_nat (count_occ N.eq_dec data (N.of_nat c))) (seq 0 256)).
  { apply nth_error_ext. intros c. destruct (Nat.ltb_spec c 256) as [L|G].
    - rewrite Hc by exact L. rewrite nth_error_map.
      rewrite (nth_error_nth' _ 0) by (rewrite seq_length; exact L). rewrite seq_nth by exact L. reflexivity.
    - rewrite (proj2 (nth_error_None _ _)) by (rewrite Hl; exact G).
      symmetry. apply nth_error_None. rewrite map_length, seq_length. exact G. }
  rewrite E. clear -Hb. induction data as [|d data IH].
  - induction (seq 0 256) as [|k l IHl]; [reflexivity|]. cbn [map]. rewrite sumN_cons, IHl. reflexivity.
  - inversion Hb as [|? ? Hd Hr]; subst. cbn beta in Hd. rewrite sum_count_cons, IH by assumption.
    change (0 + 256) with 256. change (N.of_nat 256) with 256%N. change (N.of_nat 0) with 0%N. cbn [length].
    rewrite (proj2 (N.leb_le 0 d)) by lia. rewrite (proj2 (N.ltb_lt d 256)) by exact Hd. cbn [andb]. clear. lia.
Qed.

Lemma transform_all : forall x sa sp, are_bytes x -> x <> [] -> (N.of_nat (length x) + 1 < 2 ^ 31)%N ->
  suffix_array (sortedText x) sa -> exists data lf freqs,
  doTransform x sa sp = Ok (data, lf, freqs) /\ are_bytes data /\ Permutation data x /\
  counts_of data freqs /\ sumN freqs = N.of_nat (length data) /\
  1 <= length lf <= 256 /\ Forall (fun v => (v < 2 ^ 31)%N) lf.
Proof.
  intros x sa sp Hx Hne Hlen Hsa.
  destruct (forward_spec x sa Hx Hne Hlen Hsa sp) as (data & freqs & E & Hb & Hl & _ & Lf & Hf).
  exists data, (specPoints x sa sp), freqs. split; [exact E|]. split; [exact Hb|].
  assert (Co : counts_of data freqs).
  { split; [exact Lf|]. intros c Hc. rewrite <- (proj1 (Hf c Hc)). apply nth_error_nth'. rewrite Lf. exact Hc. }
  split.
  { apply (Permutation_count_occ N.eq_dec). intros c. destruct (N.ltb_spec c 256) as [L|G].
    - destruct (Hf (N.to_nat c) ltac:(lia)) as [A B]. rewrite N2Nat.id in *. lia.
    - assert (Z : forall l, are_bytes l -> count_occ N.eq_dec l c = 0).
      { intros l Hbl. apply count_occ_not_In. intros Q. unfold are_bytes in Hbl. rewrite Forall_forall in Hbl. apply Hbl in Q. apply N.lt_nge in Q. exact (Q G). }
      rewrite !Z by assumption. reflexivity. }
  split; [exact Co|]. split; [apply sum_counts; assumption|].
  destruct (points_range x Hlen sp) as [P1 _].
  unfold specPoints. rewrite map_length, seq_length. split; [exact P1|].
  rewrite Forall_forall. intros v Hv. apply in_map_iff in Hv. destruct Hv as (k & <- & _).
  assert (En := n_x x Hlen). 
  match goal with |- context [RK sa ?i] => assert (R : RK sa i <= length sa) by apply rankIn_le end.
  rewrite (sa_length _ _ Hsa) in R. lia.
Qed.

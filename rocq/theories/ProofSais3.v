(** Buckets, the start of both scans, and induceSA: the suffix array from the sorted LMS
    suffixes. *)
From Coq Require Import List NArith ZArith Arith Bool Lia.
From Coq Require Import ZifyBool ZifyNat ZifyN.
From Verif Require Import Base Arrays ModelSais ProofSais1 ProofSais2.
Import ListNotations.
Open Scope nat_scope.

(** ** Buckets *)
Lemma map_ch : forall T, map (ch T) (seq 0 (length T)) = T.
Proof.
  intros T. apply nth_error_ext. intros i.
  destruct (le_lt_dec (length T) i) as [L|L].
  - rewrite !(proj2 (nth_error_None _ _)); auto. rewrite map_length, seq_length. assumption.
  - rewrite (map_nth_error (ch T) i (seq 0 (length T)) (d := i)).
    + symmetry. apply nth_error_nth'. assumption.
    + rewrite (nth_error_nth' _ 0) by (rewrite seq_length; assumption). rewrite seq_nth by assumption. reflexivity.
Qed.

Lemma filter_map_length : forall {A B} (g : A -> B) (f : B -> bool) l,
  length (filter (fun a => f (g a)) l) = length (filter f (map g l)).
Proof.
  induction l as [|a l IH]; [reflexivity|]. cbn [map filter]. destruct (f (g a)); cbn [length]; auto.
Qed.

Lemma cnt_list : forall T f, cnt (length T) (fun a => f (ch T a)) = length (filter f T).
Proof. intros T f. unfold cnt. rewrite filter_map_length, map_ch. reflexivity. Qed.

Definition charCount (T : list N) (c : N) : nat := cnt (length T) (fun a => (ch T a =? c)%N).

Lemma countChars_ok : forall T C, (forall c, In c T -> N.to_nat c < length C) ->
  exists C', countChars T C = Ok C' /\ length C' = length C /\
    forall c v, nth_error C (N.to_nat c) = Some v -> nth_error C' (N.to_nat c) = Some (v + length (filter (fun a => (a =? c)%N) T)).
Proof.
  induction T as [|c T IH]; intros C H; cbn [countChars filter length].
  - exists C. repeat split; auto. intros c v E. rewrite E. f_equal. lia.
  - destruct (nth_error_lt C (N.to_nat c)) as [v Ev]; [apply H; left; reflexivity|].
    rewrite (get_ok _ _ _ Ev). cbn [bind]. pose proof (nth_error_bound _ _ _ Ev) as Lv.
    rewrite set_ok by assumption. cbn [bind].
    destruct (IH (upd C (N.to_nat c) (v + 1))) as (C' & E & L & HC).
    { intros d Hd. rewrite upd_length. apply H. right. assumption. }
    rewrite E. exists C'. split; [reflexivity|]. split; [rewrite L, upd_length; reflexivity|].
    intros d w Ew. destruct (N.eqb_spec c d) as [D|D]; cbn [length].
    + subst d. rewrite (HC c (v + 1)) by (apply nth_error_upd_same; assumption).
      rewrite Ew in Ev. injection Ev as ->. f_equal. lia.
    + apply HC. rewrite nth_error_upd_other; auto. intros F. apply D. lia.
Qed.

Definition countsOf (T : list N) (k : nat) (C : list nat) : Prop :=
  length C = k /\ forall c, N.to_nat c < k -> nth_error C (N.to_nat c) = Some (charCount T c).

Definition charsBelow (T : list N) (k : nat) : Prop := forall a, a < length T -> N.to_nat (ch T a) < k.

Lemma getCounts_ok : forall T k, charsBelow T k -> exists C, getCounts T k = Ok C /\ countsOf T k C.
Proof.
  intros T k H. unfold getCounts.
  destruct (countChars_ok T (repeat 0 k)) as (C & E & L & HC).
  { intros c Hc. rewrite repeat_length. apply In_nth with (d := 0%N) in Hc. destruct Hc as (i & Hi & Ei).
    specialize (H i Hi). unfold ch in H. rewrite Ei in H. assumption. }
  exists C. split; [assumption|]. split; [rewrite L; apply repeat_length|].
  intros c Hc. rewrite (HC c 0) by (apply nth_error_repeat_lt; assumption).
  unfold charCount. rewrite (cnt_list T (fun x => (x =? c)%N)). reflexivity.
Qed.

Lemma startOf_next : forall T c, startOf T (c + 1) = startOf T c + charCount T c.
Proof. intros T c. unfold charCount. rewrite <- endOf_split. apply cnt_ext. intros. lia. Qed.

Lemma endOf_start : forall T c, endOf T c = startOf T (c + 1).
Proof. intros T c. apply cnt_ext. intros. lia. Qed.

Lemma getBuckets_length : forall C sum b, length (getBuckets C sum b) = length C.
Proof. induction C as [|c C IH]; intros sum b; cbn [getBuckets length]; auto. Qed.

Lemma getBuckets_from : forall T C i sum b,
  (forall j, j < length C -> nth_error C j = Some (charCount T (N.of_nat (i + j)))) ->
  sum = startOf T (N.of_nat i) ->
  forall j, j < length C ->
    nth_error (getBuckets C sum b) j = Some (if b then endOf T (N.of_nat (i + j)) else startOf T (N.of_nat (i + j))).
Proof.
  induction C as [|v C IH]; intros i sum b H Hs j Hj; cbn [length] in *; [lia|]. cbn [getBuckets].
  pose proof (H 0 ltac:(lia)) as H0. cbn [nth_error] in H0. injection H0 as Hv. rewrite Nat.add_0_r in Hv.
  assert (Hn : sum + v = startOf T (N.of_nat (S i))).
  { rewrite Nat2N.inj_succ, <- N.add_1_r, startOf_next. lia. }
  destruct j as [|j]; cbn [nth_error].
  - rewrite Nat.add_0_r. f_equal. destruct b; [|assumption].
    rewrite endOf_start. rewrite Hn. f_equal. lia.
  - replace (i + S j) with (S i + j) by lia. apply IH; auto; [|lia].
    intros j' Hj'. specialize (H (S j') ltac:(lia)). cbn [nth_error] in H. rewrite H. do 2 f_equal. lia.
Qed.

Lemma startOf_0 : forall T, startOf T 0 = 0.
Proof. intros T. apply cnt_none. intros. lia. Qed.

Lemma getBuckets_ok : forall T k C b, countsOf T k C -> forall c, N.to_nat c < k ->
  nth_error (getBuckets C 0 b) (N.to_nat c) = Some (if b then endOf T c else startOf T c).
Proof.
  intros T k C b [L H] c Hc.
  rewrite (getBuckets_from T C 0 0 b).
  - cbn [Nat.add]. rewrite N2Nat.id. reflexivity.
  - intros j Hj. replace j with (N.to_nat (N.of_nat j)) at 1 by lia. rewrite H by lia. reflexivity.
  - cbn [N.of_nat]. rewrite startOf_0. reflexivity.
  - lia.
Qed.

(** ** The start of the scans *)
Section Starts.
Context {X : Type}.
Variable T : list N.
Variable k : nat.
Hypothesis HT : charsBelow T k.
Variable lt : nat -> nat -> bool.
Variables P Q : nat -> bool.
Hypothesis O : ordered T lt P Q.
Let n := length T.
Local Notation R a := (P a || Q a = true).

Section UpStart.
Hypothesis Hn : 0 < n.
Hypothesis Plast : forall a b, P a = true -> P b = true -> ch T a = ch T b -> S a = n -> a <> b -> lt a b = true.
Hypothesis Pend : P (n - 1) = true.

Lemma first_row : row T lt P Q (n - 1) = startOf T (ch T (n - 1)).
Proof.
  rewrite row_P by assumption. unfold rowP. rewrite cnt_none; [lia|].
  intros a Ha. destruct (P a) eqn:Pa; [|reflexivity].
  destruct (N.eqb_spec (ch T a) (ch T (n - 1))) as [C|C]; [|reflexivity]. cbn [andb].
  destruct (Nat.eq_dec a (n - 1)) as [D|D]; [subst; apply (o_irr _ _ _ _ O)|].
  destruct (lt a (n - 1)) eqn:E; [|reflexivity].
  assert (F : lt (n - 1) a = true) by (apply Plast; auto; lia).
  assert (G : lt a a = true).
  { apply (o_trans _ _ _ _ O a (n - 1) a); auto; rewrite ?Pa, ?Pend; reflexivity. }
  rewrite (o_irr _ _ _ _ O) in G. discriminate.
Qed.

Variables val post : nat -> Z.
Variables e0 e1 : Z.

Lemma up_start : forall SA, n <= length SA ->
  (forall q, Q q = true -> nth_error SA (row T lt P Q q) = Some (val q)) ->
  (forall r, r < n -> (forall q, Q q = true -> row T lt P Q q <> r) -> nth_error SA r = Some e0) ->
  upInv T lt P Q val post e0 e1 0 (upd SA (startOf T (ch T (n - 1))) (val (n - 1))).
Proof.
  intros SA HL HQ HE.
  assert (Rn : R (n - 1)) by (rewrite Pend; reflexivity).
  pose proof (row_lt T lt P Q O (n - 1) Rn) as B. rewrite first_row in B. fold n in B.
  constructor.
  - intros; lia.
  - intros; lia.
  - intros q Qq _. rewrite nth_error_upd_other; auto; [lia|].
    rewrite <- first_row. intros F. apply (row_inj _ _ _ _ O) in F; auto; [|rewrite Qq; apply orb_true_r].
    subst q. rewrite (o_disj _ _ _ _ O _ Pend) in Qq. discriminate.
  - intros q Pq _ Hp. unfold placedU in Hp. apply orb_prop in Hp. destruct Hp as [Hp|Hp]; [|lia].
    apply Nat.eqb_eq in Hp. replace q with (n - 1) by (unfold n; lia).
    rewrite first_row. apply nth_error_upd_same. lia.
  - intros r [_ Hr] NR. rewrite nth_error_upd_other; [|lia|].
    + apply HE; auto. intros q Qq. apply NR. rewrite Qq. apply orb_true_r.
    + rewrite <- first_row. intros F. exact (NR _ Rn (eq_sym F)).
Qed.

Lemma up_cursor : forall C, countsOf T k C ->
  upCur T k lt P Q 0 (getBuckets C 0 false, ch T (n - 1), S (startOf T (ch T (n - 1)))).
Proof.
  intros C HC. split.
  - split; [rewrite getBuckets_length; apply HC|]. apply HT. unfold n in *. lia.
  - intros c Hc. unfold eff, upPtr.
    destruct (N.eqb_spec c (ch T (n - 1))) as [D|D].
    + subst c. f_equal. rewrite (cnt_ext _ _ (fun a => a =? n - 1)).
      * rewrite cnt_one; [lia|]. unfold n in *. lia.
      * intros a Ha. unfold placedU. fold n. destruct (Nat.eqb_spec a (n - 1)) as [E|E].
        -- subst a. rewrite Pend, N.eqb_refl. replace (S (n - 1)) with n by lia. rewrite Nat.eqb_refl. reflexivity.
        -- destruct (Nat.eqb_spec (S a) n); [lia|]. cbn [orb Nat.ltb Nat.leb]. apply andb_false_r.
    + rewrite (getBuckets_ok T k C false HC c Hc). f_equal. rewrite cnt_none; [lia|].
      intros a Ha. unfold placedU. fold n. cbn [Nat.ltb Nat.leb]. rewrite orb_false_r.
      destruct (Nat.eqb_spec (S a) n) as [E|E]; [|apply andb_false_r].
      replace a with (n - 1) by lia. destruct (N.eqb_spec (ch T (n - 1)) c); [congruence|].
      rewrite andb_false_r. reflexivity.
Qed.
End UpStart.

Section DownStart.
Hypothesis Qnext : forall a, Q a = true -> R (S a).
Variables val post : nat -> Z.
Variables e0 e1 : Z.

Lemma placedD_end : forall a, Q a = true -> placedD T lt P Q n a = false.
Proof. intros a Qa. unfold placedD. pose proof (row_lt T lt P Q O (S a) (Qnext a Qa)). unfold n. lia. Qed.

Lemma down_start : forall SA,
  (forall q, P q = true -> nth_error SA (row T lt P Q q) = Some (val q)) ->
  (forall r, r < n -> (forall q, R q -> row T lt P Q q <> r) -> nth_error SA r = Some e0) ->
  downInv T lt P Q val post e0 e1 n SA.
Proof.
  intros SA HP HE. constructor.
  - intros q Rq H. pose proof (row_lt T lt P Q O q Rq). unfold n in *. lia.
  - intros r H. fold n in H. lia.
  - intros q Pq _. auto.
  - intros q Qq _ H. rewrite placedD_end in H by assumption. discriminate.
  - intros r Hr NR. auto.
Qed.

Lemma down_cursor : forall C, 0 < k -> countsOf T k C ->
  downCur T k lt P Q n (getBuckets C 0 true, 0%N, endOf T 0).
Proof.
  intros C Hk HC. split.
  - split; [rewrite getBuckets_length; apply HC|]. lia.
  - intros c Hc. unfold eff, downPtr.
    rewrite cnt_none.
    + rewrite Nat.sub_0_r. destruct (N.eqb_spec c 0%N); [congruence|].
      apply (getBuckets_ok T k C true HC c Hc).
    + intros a Ha. destruct (Q a) eqn:Qa; [|reflexivity]. rewrite placedD_end by assumption. apply andb_false_r.
Qed.
End DownStart.
End Starts.

(** ** The order of the suffixes *)
Section Final.
Variable T : list N.
Let n := length T.
Definition ltyp (a : nat) : bool := (a <? n) && negb (styp T a).

Lemma ltyp_spec : forall a, ltyp a = true <-> a < n /\ styp T a = false.
Proof. intros a. unfold ltyp. rewrite andb_true_iff, negb_true_iff, Nat.ltb_lt. tauto. Qed.

Lemma ordered_sub : forall Q, (forall a, Q a = true -> styp T a = true) -> ordered T (slt T) ltyp Q.
Proof.
  intros Q HQ.
  assert (B : forall a, ltyp a || Q a = true -> a < n).
  { intros a H. apply orb_prop in H. destruct H as [H|H]; [apply ltyp_spec in H; apply H|].
    apply HQ in H. apply styp_lt in H. unfold n. lia. }
  constructor.
  - intros a H. apply ltyp_spec in H. apply H.
  - intros a H. apply B. rewrite H. apply orb_true_r.
  - intros a H. apply ltyp_spec in H. destruct (Q a) eqn:E; [|reflexivity]. apply HQ in E. destruct H. congruence.
  - intros a b Ha Hb H. apply slt_head; auto; apply B; assumption.
  - intros a. apply slt_irrefl.
  - intros a b c _ _ _. apply slt_trans.
  - intros a b Ha Hb D. apply slt_total; auto; apply B in Ha, Hb; unfold n in *; lia.
  - intros a b Ha Hb E. apply ltyp_spec in Ha. pose proof (HQ b Hb) as Sb. pose proof (styp_lt T b Sb).
    apply (L_before_S T (length T - a)); try tauto; try lia.
Qed.

Lemma ordered_lms : ordered T (slt T) ltyp (lms T).
Proof. apply ordered_sub. intros a H. apply lms_lt in H. tauto. Qed.
Lemma ordered_all : ordered T (slt T) ltyp (styp T).
Proof. apply ordered_sub. auto. Qed.

Lemma ltyp_next : forall a, ltyp a = true -> S a = n \/ ltyp (S a) || lms T (S a) = true.
Proof.
  intros a H. apply ltyp_spec in H. destruct H as [Ha E].
  destruct (Nat.eq_dec (S a) n) as [D|D]; [left; assumption|right].
  assert (L : S a < n) by lia.
  destruct (styp T (S a)) eqn:F.
  - rewrite (lms_next T a L E F). apply orb_true_r.
  - apply orb_true_iff. left. apply ltyp_spec. auto.
Qed.

Lemma styp_next : forall a, styp T a = true -> ltyp (S a) || styp T (S a) = true.
Proof.
  intros a H. apply styp_lt in H. fold n in H. destruct (styp T (S a)) eqn:F; [apply orb_true_r|].
  apply orb_true_iff. left. apply ltyp_spec. auto.
Qed.

Lemma ltyp_dec : forall a, ltyp a = true -> slt T (S a) a = true.
Proof.
  intros a H. apply ltyp_spec in H. destruct H as [Ha E].
  destruct (slt_total T a (S a)) as [F|F]; auto; unfold n in *; try lia.
  unfold styp in E. congruence.
Qed.

Lemma ltyp_step : forall a b, ltyp a = true -> ltyp b = true -> ch T a = ch T b -> slt T a b = slt T (S a) (S b).
Proof. intros a b Ha Hb E. apply ltyp_spec in Ha, Hb. apply slt_step; auto; tauto. Qed.

Lemma ltyp_last : forall a b, ltyp a = true -> ltyp b = true -> ch T a = ch T b -> S a = n -> a <> b -> slt T a b = true.
Proof.
  intros a b Ha Hb E L D. rewrite ltyp_step by auto. apply ltyp_spec in Hb. apply slt_end; unfold n in *; lia.
Qed.

Lemma ltyp_end : 0 < n -> ltyp (n - 1) = true.
Proof.
  intros H. apply ltyp_spec. split; [lia|]. destruct (styp T (n - 1)) eqn:E; [|reflexivity].
  apply styp_lt in E. unfold n in *. lia.
Qed.

Lemma styp_step : forall a b, styp T a = true -> styp T b = true -> ch T a = ch T b -> slt T a b = slt T (S a) (S b).
Proof. intros a b Ha Hb E. apply styp_lt in Ha, Hb. apply slt_step; auto; lia. Qed.

(** The type of the position before. *)
Lemma before_L : forall q, 0 < q -> q < n -> styp T q = false -> styp T (q - 1) = (ch T (q - 1) <? ch T q)%N.
Proof.
  intros q H0 Hq E. pose proof (styp_rule T (q - 1)) as F. replace (S (q - 1)) with q in F by lia.
  rewrite F by (unfold n in *; lia). rewrite E.
  destruct (N.ltb_spec (ch T (q - 1)) (ch T q)); [reflexivity|]. destruct (ch T q <? ch T (q - 1))%N; reflexivity.
Qed.
Lemma before_S : forall q, 0 < q -> q < n -> styp T q = true -> styp T (q - 1) = negb (ch T q <? ch T (q - 1))%N.
Proof.
  intros q H0 Hq E. pose proof (styp_rule T (q - 1)) as F. replace (S (q - 1)) with q in F by lia.
  rewrite F by (unfold n in *; lia). rewrite E.
  destruct (N.ltb_spec (ch T (q - 1)) (ch T q)); destruct (N.ltb_spec (ch T q) (ch T (q - 1))); try reflexivity. lia.
Qed.

(** ** Ranks *)
Definition rank (a : nat) : nat := cnt n (fun x => slt T x a).

Lemma rank_L : forall Q a, ltyp a = true -> row T (slt T) ltyp Q a = rank a.
Proof.
  intros Q a H. unfold row. rewrite H. unfold rowP, rank, startOf. fold n.
  apply ltyp_spec in H. destruct H as [Ha E].
  rewrite <- cnt_or.
  - apply cnt_ext. intros x Hx.
    destruct (N.lt_trichotomy (ch T x) (ch T a)) as [C|[C|C]].
    + rewrite slt_head by auto. apply orb_true_iff. left. lia.
    + rewrite C, N.eqb_refl, N.ltb_irrefl. cbn [orb]. destruct (slt T x a) eqn:L; [|apply andb_false_r].
      rewrite !andb_true_r. apply ltyp_spec. split; [assumption|].
      destruct (styp T x) eqn:F; [|reflexivity].
      assert (M : slt T a x = true) by (apply (L_before_S T (length T - a)); auto).
      apply slt_asym in M. congruence.
    + rewrite (slt_asym T a x) by (apply slt_head; auto). rewrite andb_false_r, orb_false_r. lia.
  - intros x _ L. destruct (N.eqb_spec (ch T x) (ch T a)) as [C|C]; [lia|]. rewrite andb_false_r. reflexivity.
Qed.

Lemma rank_S : forall a, styp T a = true -> row T (slt T) ltyp (styp T) a = rank a.
Proof.
  intros a H. rewrite (row_Q T (slt T) ltyp (styp T) ordered_all a H). pose proof (styp_lt T a H) as Ha. fold n in Ha.
  unfold rowQ, rank, endOf. fold n.
  assert (E : cnt n (fun x => (ch T x <=? ch T a)%N) =
    cnt n (fun x => slt T x a) + S (cnt n (fun x => styp T x && (ch T x =? ch T a)%N && slt T a x))); [|lia].
  rewrite <- (cnt_add n (fun x => styp T x && (ch T x =? ch T a)%N && slt T a x)
                      (fun x => styp T x && (ch T x =? ch T a)%N && slt T a x || (x =? a)) a).
  - rewrite <- cnt_or.
    + apply cnt_ext. intros x Hx.
      destruct (Nat.eqb_spec x a) as [D|D]; [subst; rewrite !orb_true_r; lia|]. rewrite orb_false_r.
      destruct (N.lt_trichotomy (ch T x) (ch T a)) as [C|[C|C]].
      * rewrite slt_head by (auto; lia). cbn [orb]. lia.
      * rewrite C, N.leb_refl, N.eqb_refl, andb_true_r.
        destruct (slt_total T x a) as [L|L]; auto; [unfold n in *; lia|unfold n in *; lia| |].
        -- rewrite L. reflexivity.
        -- rewrite L, andb_true_r, (slt_asym T a x L). cbn [orb]. symmetry.
           destruct (styp T x) eqn:F; [reflexivity|].
           assert (M : slt T x a = true) by (apply (L_before_S T (length T - x)); auto; unfold n in *; lia).
           apply slt_asym in M. congruence.
      * rewrite (slt_asym T a x) by (apply slt_head; auto; lia).
        replace (ch T x =? ch T a)%N with false by lia. rewrite andb_false_r. cbn [andb orb]. lia.
    + intros x Hx L. rewrite (slt_asym T x a L), andb_false_r. cbn [orb].
      destruct (Nat.eqb_spec x a); [|reflexivity]. subst. rewrite slt_irrefl in L. discriminate.
  - lia.
  - rewrite slt_irrefl. apply andb_false_r.
  - auto.
Qed.

Lemma all_typed : forall a, a < n -> ltyp a || styp T a = true.
Proof. intros a H. unfold ltyp. destruct (Nat.ltb_spec a n); [|lia]. destruct (styp T a); reflexivity. Qed.

Lemma row_rank : forall a, a < n -> row T (slt T) ltyp (styp T) a = rank a.
Proof.
  intros a H. pose proof (all_typed a H) as E. apply orb_prop in E. destruct E as [E|E]; [apply rank_L|apply rank_S]; assumption.
Qed.

Lemma rank_lt : forall a, a < n -> rank a < n.
Proof. intros a H. rewrite <- row_rank by assumption. apply row_lt; [apply ordered_all|apply all_typed, H]. Qed.

Lemma rank_inj : forall a b, a < n -> b < n -> rank a = rank b -> a = b.
Proof.
  intros a b Ha Hb E. rewrite <- !row_rank in E by assumption.
  apply (row_inj _ _ _ _ ordered_all) in E; auto; apply all_typed; assumption.
Qed.

Lemma rank_mono : forall a b, a < n -> b < n -> slt T a b = true -> rank a < rank b.
Proof.
  intros a b Ha Hb E. rewrite <- !row_rank by assumption.
  apply row_mono; auto; try apply all_typed; auto. apply ordered_all.
Qed.

Lemma rank_surj : forall r, r < n -> exists a, a < n /\ rank a = r.
Proof.
  intros r Hr.
  assert (I : incl (seq 0 n) (map rank (seq 0 n))).
  { apply NoDup_length_incl.
    - assert (G : forall l, NoDup l -> (forall x, In x l -> x < n) -> NoDup (map rank l)).
      { induction l as [|x l IH]; intros ND B; cbn [map]; [constructor|].
        inversion ND as [|? ? NI ND']; subst. constructor.
        - intros H. apply in_map_iff in H. destruct H as (y & E & Hy).
          apply rank_inj in E; [subst; contradiction|apply B; right; assumption|apply B; left; reflexivity].
        - apply IH; auto. intros y Hy. apply B. right. assumption. }
      apply G; [apply seq_NoDup|]. intros x Hx. apply in_seq in Hx. lia.
    - rewrite map_length. reflexivity.
    - intros x Hx. apply in_map_iff in Hx. destruct Hx as (y & E & Hy). apply in_seq in Hy. subst.
      apply in_seq. pose proof (rank_lt y). lia. }
  specialize (I r). rewrite in_map_iff in I. destruct I as (a & E & Ha); [apply in_seq; lia|].
  apply in_seq in Ha. exists a. split; [lia|assumption].
Qed.

(** The sorted LMS suffixes at the ends of their buckets, zero elsewhere. *)
Definition seeded (SA : list Z) : Prop :=
  n <= length SA /\
  (forall q, lms T q = true -> nth_error SA (rowQ T (slt T) (lms T) q) = Some (Z.of_nat q)) /\
  (forall r, r < n -> (forall q, lms T q = true -> rowQ T (slt T) (lms T) q <> r) -> nth_error SA r = Some 0%Z).

Lemma row_lms : forall q, lms T q = true -> row T (slt T) ltyp (lms T) q = rowQ T (slt T) (lms T) q.
Proof. intros q H. apply row_Q; auto. apply ordered_lms. Qed.

(** The value for suffix [q] in the first scan: its sign shows the type before. *)
Definition sgn (q : nat) : Z :=
  if (0 <? q) && (ch T (q - 1) <? ch T q)%N then inv (Z.of_nat q) else Z.of_nat q.

Lemma ahead_ok : forall q, q < n -> ahead T q = Ok (sgn q).
Proof.
  intros q H. unfold ahead, sgn. rewrite (get_ch T q) by assumption. cbn [bind].
  destruct (Nat.ltb_spec 0 q); [|reflexivity].
  rewrite (get_ch T (q - 1)) by (unfold n in *; lia). reflexivity.
Qed.

Lemma sgn_lms : forall q, lms T q = true -> sgn q = Z.of_nat q.
Proof.
  intros q H. apply lms_lt in H. unfold sgn.
  replace (ch T (q - 1) <? ch T q)%N with false by lia. rewrite andb_false_r. reflexivity.
Qed.

(** The element is positive just if the suffix before has type L. *)
Lemma sgn_pos : forall q, ltyp q || lms T q = true -> (0 <? sgn q)%Z = (0 <? q) && ltyp (q - 1).
Proof.
  intros q H.
  assert (B : q < n) by (apply (R_lt T (slt T) ltyp (lms T) ordered_lms), H).
  destruct (Nat.ltb_spec 0 q) as [L|L]; cbn [andb].
  - apply orb_prop in H. destruct H as [H|H].
    + apply ltyp_spec in H. destruct H as [_ E]. pose proof (before_L q L B E) as F.
      unfold sgn, ltyp. rewrite F. replace (0 <? q) with true by lia. replace (q - 1 <? n) with true by lia. cbn [andb].
      destruct (ch T (q - 1) <? ch T q)%N; unfold inv; cbn [negb]; lia.
    + rewrite sgn_lms by assumption. apply lms_lt in H. destruct H as (_ & _ & _ & H & _).
      unfold ltyp. rewrite H. cbn [negb]. rewrite andb_true_r. lia.
  - unfold sgn. replace (0 <? q) with false by lia. cbn [andb]. lia.
Qed.

Lemma upTarget_sgn : forall q, ltyp q || lms T q = true ->
  upTarget ltyp q = if (0 <? sgn q)%Z then Some (q - 1) else None.
Proof. intros q H. unfold upTarget. rewrite sgn_pos by assumption. reflexivity. Qed.

Lemma sgn_pos_eq : forall q, (0 < sgn q)%Z -> sgn q = Z.of_nat q /\ 0 < q.
Proof.
  intros q. unfold sgn. destruct ((0 <? q) && (ch T (q - 1) <? ch T q)%N); unfold inv; lia.
Qed.

Lemma sgn_neg : forall q, ltyp q = true -> (sgn q < 0)%Z -> sgn q = inv (Z.of_nat q) /\ 0 < q /\ styp T (q - 1) = true.
Proof.
  intros q H L. apply ltyp_spec in H. destruct H as [B E]. unfold sgn in *.
  destruct (Nat.ltb_spec 0 q) as [M|M]; cbn [andb] in *; [|lia].
  rewrite before_L by assumption.
  destruct (ch T (q - 1) <? ch T q)%N; [|lia]. auto.
Qed.

(** *** First scan, for any way of treating the elements visited *)
Section Scan1.
Context {X : Type}.
Variable k : nat.
Hypothesis HT : charsBelow T k.
Hypothesis Hn : 0 < n.
Variable visit : nat -> Z -> X -> outcome (Z * X * option nat).
Variable store : nat -> nat -> nat -> X -> outcome (Z * X).
Variable post : nat -> Z.
Variable e1 : Z.
Variable J : nat -> X -> Prop.
Local Notation rowU := (row T (slt T) ltyp (lms T)).

Hypothesis Hvisit : forall i q x, i < n -> ltyp q || lms T q = true -> rowU q = i -> J i x ->
  exists x1, visit i (sgn q) x = Ok (post q, x1, if (0 <? sgn q)%Z then Some (q - 1) else None) /\ J (S i) x1.
Hypothesis Hstore : forall i a b x, a < n -> store i a b x = Ok (sgn a, x).
Hypothesis Hempty : forall i x, i < n -> (forall q, ltyp q || lms T q = true -> rowU q <> i) -> J i x ->
  exists x1, visit i 0%Z x = Ok (e1, x1, None) /\ J (S i) x1.

Theorem scan1 : forall SA C x, seeded SA -> countsOf T k C -> J 0 x ->
  exists SA' x', upLoop T visit store n 0 (upd SA (startOf T (ch T (n - 1))) (sgn (n - 1)))
      (getBuckets C 0 false, ch T (n - 1), S (startOf T (ch T (n - 1)))) x = Ok (SA', x') /\
    (forall q, ltyp q = true -> nth_error SA' (rank q) = Some (post q)) /\ J n x' /\
    length SA' = length SA /\ forall r, n <= r -> nth_error SA' r = nth_error SA r.
Proof.
  intros SA C x (HL & HQ & HE) HC HJ.
  assert (B : startOf T (ch T (n - 1)) < n).
  { assert (FR : rowU (n - 1) = startOf T (ch T (n - 1))).
    { apply first_row; auto; [apply ordered_lms|intros a b; apply ltyp_last|apply ltyp_end, Hn]. }
    rewrite <- FR. apply row_lt; [apply ordered_lms|]. rewrite ltyp_end by assumption. reflexivity. }
  destruct (upLoop_ok (X := X) T k HT (slt T) ltyp (lms T) ordered_lms) with (visit := visit) (store := store)
    (val := sgn) (post := post) (e0 := 0%Z) (e1 := e1) (J := J) (todo := n) (i := 0)
    (SA := upd SA (startOf T (ch T (n - 1))) (sgn (n - 1)))
    (cu := (getBuckets C 0 false, ch T (n - 1), S (startOf T (ch T (n - 1))))) (x := x)
    as (SA' & x' & E & I & HJ' & Hlen & Htail); auto.
  - apply ltyp_next.
  - intros a Ha _. apply ltyp_dec, Ha.
  - intros a b Ha Hb Hc _ _. apply ltyp_step; assumption.
  - intros a b. apply ltyp_last.
  - intros i q y Hi Rq Eq Hy. destruct (Hvisit i q y Hi Rq Eq Hy) as (x1 & E1 & Hx1).
    rewrite upTarget_sgn by assumption. exists x1. split; [assumption|].
    destruct (0 <? sgn q)%Z eqn:G; [|assumption]. exists x1. split; [|assumption]. apply Hstore.
    pose proof (R_lt T (slt T) ltyp (lms T) ordered_lms q Rq). unfold n. lia.
  - rewrite upd_length. exact HL.
  - apply up_start; auto.
    + apply ordered_lms.
    + intros a b. apply ltyp_last.
    + apply ltyp_end, Hn.
    + intros q Qq. rewrite row_lms, sgn_lms by assumption. apply HQ, Qq.
    + intros r Hr NR. apply HE; auto. intros q Qq. rewrite <- row_lms by assumption. apply NR, Qq.
  - apply up_cursor; auto; first [apply ordered_lms|exact ltyp_last|exact (ltyp_end Hn)].
  - exists SA', x'. split; [exact E|]. split; [|split; [exact HJ'|split]].
    + intros q Hq. rewrite <- (rank_L (lms T)) by assumption. apply (u_done _ _ _ _ _ _ _ _ _ _ I).
      * rewrite Hq. reflexivity.
      * apply row_lt; [apply ordered_lms|]. rewrite Hq. reflexivity.
    + rewrite Hlen. apply upd_length.
    + intros r Hr. rewrite Htail by exact Hr. apply nth_error_upd_other; unfold n in *; lia.
Qed.
End Scan1.

(** *** Second scan *)
Section Scan2.
Context {X : Type}.
Variable k : nat.
Hypothesis HT : charsBelow T k.
Hypothesis Hn : 0 < n.
Variable visit : nat -> Z -> X -> outcome (Z * X * option nat).
Variable store : nat -> nat -> nat -> X -> outcome (Z * X).
Variables val post : nat -> Z.
Variable J : nat -> X -> Prop.

Hypothesis Hvisit : forall q x, q < n -> J (S (rank q)) x ->
  exists x1, visit (rank q) (val q) x = Ok (post q, x1, downTarget (styp T) q) /\
    match downTarget (styp T) q with
    | None => J (rank q) x1
    | Some a => exists x2, store (rank q) a (rank a) x1 = Ok (val a, x2) /\ J (rank q) x2
    end.

Lemma styp_R : forall a, ltyp a || styp T a = true -> a < n.
Proof. intros a. apply (R_lt T (slt T) ltyp (styp T) ordered_all). Qed.

Theorem scan2 : forall SA C x, n <= length SA -> (forall q, ltyp q = true -> nth_error SA (rank q) = Some (val q)) ->
  countsOf T k C -> J n x ->
  exists SA' x', downLoop T visit store n SA (getBuckets C 0 true, 0%N, endOf T 0) x = Ok (SA', x') /\
    (forall q, q < n -> nth_error SA' (rank q) = Some (post q)) /\ J 0 x' /\
    length SA' = length SA /\ forall r, n <= r -> nth_error SA' r = nth_error SA r.
Proof.
  intros SA C x HL HP HC HJ.
  assert (Hk : 0 < k) by (specialize (HT 0 Hn); lia).
  assert (NE : forall r, r < n -> ~ forall q, ltyp q || styp T q = true -> row T (slt T) ltyp (styp T) q <> r).
  { intros r Hr H. destruct (rank_surj r Hr) as (a & Ha & E). apply (H a (all_typed a Ha)). rewrite row_rank by assumption. exact E. }
  destruct (downLoop_ok (X := X) T k HT (slt T) ltyp (styp T) ordered_all) with (visit := visit) (store := store)
    (val := val) (post := post) (e0 := 0%Z) (e1 := 0%Z) (J := J) (e := n) (SA := SA)
    (cu := (getBuckets C 0 true, 0%N, endOf T 0)) (x := x)
    as (SA' & x' & E & I & HJ' & Hlen & Htail); auto.
  - apply styp_next.
  - intros a b. apply styp_step.
  - intros i q y Hi Rq Eq Hy. pose proof (styp_R q Rq) as B. rewrite row_rank in Eq by assumption. subst i.
    destruct (Hvisit q y B Hy) as (x1 & E1 & H1). exists x1. split; [exact E1|].
    destruct (downTarget (styp T) q) as [a|] eqn:F; [|exact H1].
    unfold downTarget in F. destruct ((0 <? q) && styp T (q - 1)) eqn:G; [|discriminate]. injection F as <-.
    rewrite row_rank by lia. exact H1.
  - intros i y Hi H. destruct (NE i Hi H).
  - apply down_start.
    + apply ordered_all.
    + apply styp_next.
    + intros q Hq. rewrite rank_L by assumption. apply HP, Hq.
    + intros r Hr H. destruct (NE r Hr H).
  - apply down_cursor; auto; [apply ordered_all|apply styp_next].
  - exists SA', x'. split; [exact E|]. split; [|auto].
    intros q Hq. rewrite <- row_rank by assumption. apply (d_done _ _ _ _ _ _ _ _ _ _ I); [apply all_typed, Hq|lia].
Qed.
End Scan2.
End Final.

(** Stage 2: the names are sorted recursively. *)
From Coq Require Import List NArith ZArith Arith Bool Lia.
From Coq Require Import ZifyBool ZifyNat ZifyN.
From Verif Require Import Base Arrays ModelSais ProofSais1 ProofSais2 ProofSais3 ProofSais4 ProofSais6 ProofSais7 ProofSais8 ProofSais9 ProofSais10 ProofSais11 ProofSais12 ProofSais13.
Import ListNotations.
Ltac Zify.zify_post_hook ::= Z.to_euclidean_division_equations.
Open Scope nat_scope.

Lemma nth_firstn : forall {A} c (l : list A) i, i < c -> nth_error (firstn c l) i = nth_error l i.
Proof.
  induction c as [|c IH]; intros l i H; [lia|]. destruct l as [|x l]; [rewrite firstn_nil; reflexivity|].
  destruct i as [|i]; [reflexivity|]. cbn [firstn nth_error]. apply IH. lia.
Qed.

Section Memory.
Variable T : list N.
Let n := length T.
Let m := cnt n (lms T).

Lemma pair_cnt : forall a, (forall p, lms T p = true -> p / 2 <> a) -> cnt (2 * S a) (lms T) = cnt (2 * a) (lms T).
Proof.
  intros a H. apply cnt_same; [lia|]. intros x Hx. destruct (lms T x) eqn:E; [|reflexivity]. exfalso. apply (H x E). lia.
Qed.
Lemma pair_one : forall p, lms T p = true -> cnt (2 * S (p / 2)) (lms T) = S (cnt (2 * (p / 2)) (lms T)) /\ ix T p = cnt (2 * (p / 2)) (lms T).
Proof.
  intros p H.
  assert (X : forall x, lms T x = true -> x / 2 = p / 2 -> x = p) by (intros x Hx E; apply (lms_apart T x p); assumption).
  assert (A : ix T p = cnt (2 * (p / 2)) (lms T)).
  { unfold ix. apply cnt_same; [lia|]. intros x Hx. destruct (lms T x) eqn:E; [|reflexivity]. specialize (X x E). lia. }
  split; [|exact A]. rewrite <- A. unfold ix.
  rewrite (cnt_same (lms T) (S p) (2 * S (p / 2))); [rewrite cnt_S, H; lia|lia|].
  intros x Hx. destruct (lms T x) eqn:E; [|reflexivity]. specialize (X x E). lia.
Qed.
Lemma pair_le : forall b a, a <= b -> cnt (2 * b) (lms T) <= cnt (2 * a) (lms T) + (b - a).
Proof.
  intros b a H. induction H as [|b H IH]; [lia|].
  assert (cnt (2 * S b) (lms T) <= S (cnt (2 * b) (lms T))).
  { destruct (find (fun p => lms T p && (p / 2 =? b)) (seq 0 (2 * S b))) as [p|] eqn:E.
    - apply find_some in E. destruct E as [_ E]. apply andb_prop in E. destruct E as [E1 E2]. apply Nat.eqb_eq in E2. subst b.
      destruct (pair_one p E1) as [-> _]. lia.
    - rewrite pair_cnt; [lia|]. intros p Hp Hb. apply find_none with (x := p) in E; [rewrite Hp, Hb, Nat.eqb_refl in E; discriminate|].
      apply in_seq. lia. }
  lia.
Qed.
Lemma pair_all : cnt (2 * (n / 2)) (lms T) = m.
Proof.
  unfold m. symmetry. apply cnt_same; [lia|]. intros x Hx. destruct (lms T x) eqn:E; [|reflexivity].
  apply lms_lt in E. fold n in E. lia.
Qed.

Section Move.
Variables (base : nat) (SA0 : list Z) (v : nat -> Z).
Hypothesis Hb : n / 2 <= base.
Hypothesis Hlen : base + m <= length SA0.
Hypothesis Hlen' : m + n / 2 <= length SA0.
Hypothesis Hv : forall p, lms T p = true -> nth_error SA0 (m + p / 2) = Some (v p) /\ (1 <= v p)%Z.
Hypothesis Hz : forall r, m <= r < m + n / 2 -> (forall p, lms T p = true -> r <> m + p / 2) -> nth_error SA0 r = Some 0%Z.

Lemma move_ok : forall todo SA, todo <= n / 2 -> length SA = length SA0 ->
  (forall r, r < m + todo -> nth_error SA r = nth_error SA0 r) ->
  (forall p, lms T p = true -> todo <= p / 2 -> nth_error SA (base + ix T p) = Some (v p - 1)%Z) ->
  exists SA', moveNames m base todo (m + todo) (cnt (2 * todo) (lms T)) SA = Ok SA' /\ length SA' = length SA0 /\
    (forall p, lms T p = true -> nth_error SA' (base + ix T p) = Some (v p - 1)%Z).
Proof.
  induction todo as [|todo IH]; intros SA Ht L1 R1 D1.
  - exists SA. split; [reflexivity|]. split; [exact L1|]. intros p Hp. apply D1; auto. lia.
  - cbn [moveNames]. replace (m + S todo) with (S (m + todo)) by lia.
    destruct (find (fun p => lms T p && (p / 2 =? todo)) (seq 0 n)) as [p|] eqn:E.
    + apply find_some in E. destruct E as [_ E]. apply andb_prop in E. destruct E as [E1 E2]. apply Nat.eqb_eq in E2. subst todo.
      destruct (Hv p E1) as [V1 V2]. assert (G : nth_error SA (m + p / 2) = Some (v p)) by (rewrite R1 by lia; exact V1).
      rewrite (get_ok _ _ _ G). cbn [bind]. replace (v p =? 0)%Z with false by lia.
      destruct (pair_one p E1) as [C1 C2]. rewrite C1.
      assert (Ip : ix T p < m) by (apply ix_lt; exact E1). rewrite C2 in Ip.
      pose proof (pair_le (n / 2) (S (p / 2)) Ht) as PL. rewrite pair_all, C1 in PL.
      rewrite set_ok by lia. cbn [bind]. apply IH; [lia|rewrite upd_length; exact L1| |].
      * intros r Hr. rewrite nth_error_upd_other by lia. apply R1. lia.
      * intros q Hq Hpq. destruct (Nat.eq_dec q p) as [D|D].
        -- subst q. rewrite C2. apply nth_error_upd_same. lia.
        -- assert (ix T q <> ix T p) by (intros F; apply D; apply (ix_inj T); assumption).
           assert (q / 2 <> p / 2) by (intros F; apply D; apply (lms_apart T q p); assumption).
           rewrite nth_error_upd_other by lia. apply D1; auto. lia.
    + assert (NO : forall p, lms T p = true -> p / 2 <> todo).
      { intros p Hp Hx. apply find_none with (x := p) in E; [rewrite Hp, Hx, Nat.eqb_refl in E; discriminate|].
        apply in_seq. apply lms_lt in Hp. fold n in Hp. lia. }
      assert (G : nth_error SA (m + todo) = Some 0%Z).
      { rewrite R1 by lia. apply Hz; [lia|]. intros p Hp. specialize (NO p Hp). lia. }
      rewrite (get_ok _ _ _ G). cbn [bind]. cbn [Z.eqb]. rewrite pair_cnt by exact NO. apply IH; auto; [lia|intros; apply R1; lia|].
      intros p Hp Hx. apply D1; auto. specialize (NO p Hp). lia.
Qed.
Lemma moveNames_ok : exists SA', moveNames m base (n / 2) (m + n / 2) m SA0 = Ok SA' /\ length SA' = length SA0 /\
    (forall p, lms T p = true -> nth_error SA' (base + ix T p) = Some (v p - 1)%Z).
Proof.
  destruct (move_ok (n / 2) SA0) as (SA' & E & H); auto.
  - intros p Hp H. apply lms_lt in Hp. fold n in Hp. lia.
  - rewrite pair_all in E. exists SA'. auto.
Qed.
End Move.

(** ** Positions *)
Lemma pos_fold : forall base SA0, base + m <= length SA0 -> forall e SA, e <= n -> length SA = length SA0 ->
  (forall r, r < base -> nth_error SA r = nth_error SA0 r) ->
  (forall p, lms T p = true -> e <= p -> nth_error SA (base + ix T p) = Some (Z.of_nat p)) ->
  exists SA' j, foldAct T (storePosition base) (lmsBelow T e) (SA, ix T e) = Ok (SA', j) /\ length SA' = length SA0 /\
    (forall r, r < base -> nth_error SA' r = nth_error SA0 r) /\
    (forall p, lms T p = true -> nth_error SA' (base + ix T p) = Some (Z.of_nat p)).
Proof.
  intros base SA0 HL. induction e as [|e IH]; intros SA He L1 R1 D1.
  - exists SA, (ix T 0). split; [reflexivity|]. split; [exact L1|]. split; [exact R1|]. intros p Hp. apply D1; auto. lia.
  - unfold ix at 1. rewrite cnt_S. cbn [lmsBelow]. destruct (lms T e) eqn:E.
    + cbn [foldAct]. unfold storePosition at 1. replace (cnt e (lms T) + 1) with (S (ix T e)) by (unfold ix; lia).
      pose proof (ix_lt T e E) as I. fold n in I. fold m in I. pose proof (lms_lt T e E) as B.
      rewrite set_ok by lia. cbn [bind]. replace (Z.of_nat (e - 1) + 1)%Z with (Z.of_nat e) by lia.
      apply IH; [lia|rewrite upd_length; exact L1| |].
      * intros r Hr. rewrite nth_error_upd_other by lia. apply R1, Hr.
      * intros p Hp Hx. destruct (Nat.eq_dec p e) as [D|D]; [subst; apply nth_error_upd_same; lia|].
        assert (ix T p <> ix T e) by (intros F; apply D; apply (ix_inj T); assumption).
        rewrite nth_error_upd_other by lia. apply D1; auto. lia.
    + rewrite Nat.add_0_r. apply IH; auto; [lia|]. intros p Hp Hx. apply D1; auto. destruct (Nat.eq_dec p e); [congruence|lia].
Qed.

Lemma lookup_ok : forall base SA0 (w u : nat -> nat), m <= base -> base + m <= length SA0 ->
  (forall i, i < m -> nth_error SA0 i = Some (Z.of_nat (w i)) /\ w i < m /\ nth_error SA0 (base + w i) = Some (Z.of_nat (u i))) ->
  forall todo i SA, i + todo = m -> length SA = length SA0 ->
  (forall a, a < i -> nth_error SA a = Some (Z.of_nat (u a))) ->
  (forall r, i <= r -> nth_error SA r = nth_error SA0 r) ->
  exists SA', lookupPositions base todo i SA = Ok SA' /\ length SA' = length SA0 /\
    (forall a, a < m -> nth_error SA' a = Some (Z.of_nat (u a))).
Proof.
  intros base SA0 w u Hmb HL HW. induction todo as [|todo IH]; intros i SA Hi L1 D1 R1; cbn [lookupPositions].
  - exists SA. split; [reflexivity|]. split; [exact L1|]. intros a Ha. apply D1. lia.
  - destruct (HW i ltac:(lia)) as (W1 & W2 & W3).
    rewrite (get_ok _ _ _ (eq_trans (R1 i (le_n _)) W1)). cbn [bind].
    replace (Z.of_nat base + Z.of_nat (w i))%Z with (Z.of_nat (base + w i)) by lia.
    rewrite (getz_some _ _ _ (eq_trans (R1 (base + w i) ltac:(lia)) W3)). cbn [bind].
    rewrite set_ok by lia. cbn [bind]. apply IH; [lia|rewrite upd_length; exact L1| |].
    + intros a Ha. destruct (Nat.eq_dec a i) as [D|D]; [subst; apply nth_error_upd_same; lia|].
      rewrite nth_error_upd_other by lia. apply D1. lia.
    + intros r Hr. rewrite nth_error_upd_other by lia. apply R1. lia.
Qed.
End Memory.

(** ** The whole of stages 1 and 2 *)
Definition stage1_spec (T : list N) (k : nat) (sort2 : bool) : Prop :=
  let n := length T in
  let m := cnt n (lms T) in
  forall SA, n <= length SA -> exists SA' name, stage1sort T SA k sort2 = Ok (SA', m, name) /\ length SA' = length SA /\
    (m <= 1 -> name = m /\ seeded T SA') /\
    (1 < m -> exists row,
       (forall p q, lms T p = true -> lms T q = true -> row p = row q -> p = q) /\
       (forall p, lms T p = true -> S (row p) < n) /\
       (forall p q, lms T p = true -> lms T q = true -> row p < row q -> lessS T k p q = true) /\
       stage1At T k row SA name SA').

Lemma leftmost : forall T, 0 < cnt (length T) (lms T) -> exists p, lms T p = true /\ forall q, lms T q = true -> p <= q.
Proof.
  intros T H. destruct (ix_surj T 0 H) as (p & Lp & Ep). exists p. split; [exact Lp|]. intros q Hq.
  destruct (Nat.le_gt_cases p q) as [G|G]; [assumption|]. unfold ix in Ep. pose proof (cnt_less (lms T) q p G Hq). lia.
Qed.

Lemma newSpace_bound : forall fs n k m name, 2 * m <= n ->
  n / 2 <= newSpace fs n k m name + m /\ m + newSpace fs n k m name + m <= n + fs.
Proof.
  intros fs n k m name H. unfold newSpace.
  destruct (keepsC fs k && (k + name <=? n + fs - 2 * m)) eqn:E; [|lia].
  unfold keepsC in E. lia.
Qed.

Theorem sortLMS_ok : (forall T k s, 0 < length T -> charsBelow T k -> stage1_spec T k s) ->
  forall fuel T SA fs k, 0 < length T -> length T <= fuel -> charsBelow T k -> length T + fs <= length SA ->
  exists SA' C, sortLMS fuel T SA fs k = Ok (SA', C) /\ seeded T SA' /\ countsOf T k C /\ length SA' = length SA.
Proof.
  intros H1. induction fuel as [|fuel IH]; intros T SA fs k Hn Hf HT HL; [lia|].
  cbn [sortLMS]. set (n := length T) in *. set (m := cnt n (lms T)).
  destruct (H1 T k (useSort2 fs n k) Hn HT SA ltac:(fold n; lia)) as (SA1 & name & E1 & L1 & S1 & S2).
  fold n m in E1, S1, S2. rewrite E1. cbn [bind].
  destruct (getCounts_ok T k HT) as (C & EC & HC). rewrite EC. cbn [bind].
  destruct (le_lt_dec m 1) as [Gm|Gm].
  - destruct (S1 Gm) as [-> SD]. replace (m <? m) with false by lia. cbn [bind].
    unfold stage3place. replace (1 <? m) with false by lia. cbn [bind]. exists SA1, C. auto.
  - clear S1. destruct (S2 Gm) as (row & R1 & R2 & R3 & N0 & N1 & N2 & N3 & N4 & N5). clear S2.
    destruct (leftmost T ltac:(fold n m; lia)) as (p0 & L0 & F0). pose proof (half_m T) as H2. fold n m in H2, N0, N3, N4, N5.
    assert (NL : forall i, 1 <= nm T k row i <= S i) by (eapply nm_low; eauto).
    assert (NB : 1 <= name <= m) by (rewrite N0; specialize (NL (m - 1)); lia).
    assert (Stage2 : exists SA2 lm,
      (if name <? m then
         let newfs := newSpace fs n k m name in
         let! _ := check (n / 2 <=? newfs + m) in
         let base := m + newfs in
         let! SA := moveNames m base (n / 2) (m + n / 2) m SA1 in
         let RA := map Z.to_N (firstn m (skipn base SA)) in
         let! (low, C') := sortLMS fuel RA (firstn base SA) newfs name in
         let! low := induceSA RA low C' in
         let SA := low ++ skipn base SA in
         let! (SA, _) := lmsScan T (storePosition base) (SA, m) in
         lookupPositions base m 0 SA
       else Ok SA1) = Ok SA2 /\ length SA2 = length SA /\
      (forall i, i < m -> lms T (lm i) = true) /\ (forall q, lms T q = true -> exists i, i < m /\ lm i = q) /\
      (forall i j, i < j -> j < m -> slt T (lm i) (lm j) = true) /\
      (forall i, i < m -> nth_error SA2 i = Some (Z.of_nat (lm i)))).
    { pose proof (L_at T row R1 R2) as LA. pose proof (at_lms T row R1 R2) as LL.
      assert (LS : forall p, lms T p = true -> exists i, i < m /\ nth i (sorted T row) 0 = p) by (apply (at_surj T k HT p0); assumption).
      destruct (Nat.ltb_spec name m) as [G|G].
      - (* names repeat *)
        destruct (newSpace_bound fs n k m name H2) as [B1 B2]. cbv zeta. set (newfs := newSpace fs n k m name) in *.
        unfold check. replace (n / 2 <=? newfs + m) with true by lia. cbn [bind].
        set (v := fun p => match find (fun i => nth i (sorted T row) 0 =? p) (seq 0 m) with Some i => Z.of_nat (nm T k row i) | None => 0%Z end).
        assert (Va : forall i, i < m -> v (nth i (sorted T row) 0) = Z.of_nat (nm T k row i)).
        { intros i Hi. unfold v. destruct (find (fun x => nth x (sorted T row) 0 =? nth i (sorted T row) 0) (seq 0 m)) as [j|] eqn:E.
          - apply find_some in E. destruct E as [Ej E]. apply Nat.eqb_eq in E. apply in_seq in Ej. do 2 f_equal.
            pose proof (coll_NoDup T row R1 R2 n) as ND. eapply NoDup_nth with (d := 0); [exact ND| | |exact E].
            + change (j < length (sorted T row)). rewrite (L_length T row R1 R2). fold n m. lia.
            + change (i < length (sorted T row)). rewrite (L_length T row R1 R2). fold n m. lia.
          - apply find_none with (x := i) in E; [rewrite Nat.eqb_refl in E; discriminate|]. apply in_seq. lia. }
        destruct (moveNames_ok T (m + newfs) SA1 v) as (SA2 & E2 & L2 & V2).
        + fold n. lia.
        + fold n m. lia.
        + fold n m. lia.
        + intros p Hp. fold n m. destruct (LS p Hp) as (i & Hi & <-). rewrite Va by assumption.
          split; [apply N3; auto; apply LA; exact Hi|]. specialize (NL i). lia.
        + fold n m. intros r Hr Hno. apply N4; auto. lia.
        + fold n m in E2. rewrite E2. cbn [bind].
          set (RA := map Z.to_N (firstn m (skipn (m + newfs) SA2))).
          assert (LR : length RA = m) by (unfold RA; rewrite map_length, firstn_length, skipn_length; lia).
          assert (RAat : forall i, i < m -> nth_error RA (ix T (nth i (sorted T row) 0)) = Some (N.of_nat (nm T k row i - 1))).
          { intros i Hi. specialize (V2 _ (LL i Hi)). rewrite (Va i Hi) in V2. unfold RA. rewrite nth_error_map.
            assert (I : ix T (nth i (sorted T row) 0) < m) by (apply ix_lt, LL, Hi).
            rewrite nth_firstn by exact I. rewrite skipn_nth, V2. cbn [option_map].
            specialize (NL i). f_equal. lia. }
          assert (RB : charsBelow RA name) by (rewrite N0; eapply RA_below; eauto).
          assert (RO : forall d p q, d = n - p -> lms T p = true \/ p = n -> lms T q = true \/ q = n -> slt RA (ix T p) (ix T q) = slt T p q)
            by (eapply reduced_order; eauto).
          destruct (IH RA (firstn (m + newfs) SA2) newfs name) as (low & C' & E3 & SD & HC' & L3); [lia|lia|exact RB|rewrite firstn_length; lia|].
          rewrite E3. cbn [bind].
          destruct (induceSA_ok RA name RB ltac:(lia) low C' SD HC') as (low' & E4 & V4 & L4 & _). rewrite E4. cbn [bind].
          rewrite LR in V4. rewrite lmsScan_ok by (fold n; lia). fold n.
          assert (L5 : length low' = m + newfs) by (rewrite L4, L3, firstn_length; lia).
          destruct (pos_fold T (m + newfs) (low' ++ skipn (m + newfs) SA2)) with (e := n) (SA := low' ++ skipn (m + newfs) SA2) as (SA3 & j & E5 & L6 & V6 & P6).
          * fold n m. rewrite app_length, skipn_length. lia.
          * auto.
          * reflexivity.
          * auto.
          * intros p Hp Hx. apply lms_lt in Hp. fold n in Hp. lia.
          * change (ix T n) with m in E5. rewrite E5. cbn [bind].
            rewrite app_length, skipn_length in L6.
            (* rows of RA *)
            assert (INV : forall i, i < m -> exists p, lms T p = true /\ rank RA (ix T p) = i).
            { intros i Hi. destruct (rank_surj RA i) as (a & Ha & Ea); [lia|]. rewrite LR in Ha.
              destruct (ix_surj T a Ha) as (p & Lp & <-). exists p. auto. }
            set (u := fun i => match find (fun p => lms T p && (rank RA (ix T p) =? i)) (seq 0 n) with Some p => p | None => 0 end).
            assert (U : forall i, i < m -> lms T (u i) = true /\ rank RA (ix T (u i)) = i).
            { intros i Hi. unfold u. destruct (find (fun p => lms T p && (rank RA (ix T p) =? i)) (seq 0 n)) as [p|] eqn:E.
              - apply find_some in E. destruct E as [_ E]. apply andb_prop in E. destruct E as [A B]. apply Nat.eqb_eq in B. auto.
              - exfalso. destruct (INV i Hi) as (p & Lp & Ep). apply find_none with (x := p) in E; [rewrite Lp, Ep, Nat.eqb_refl in E; discriminate|].
                apply in_seq. apply lms_lt in Lp. fold n in Lp. lia. }
            destruct (lookup_ok T (m + newfs) SA3 (fun i => ix T (u i)) u) with (todo := m) (i := 0) (SA := SA3) as (SA4 & E6 & L7 & V7); auto.
            -- fold n m. lia.
            -- fold n m. lia.
            -- fold n m. intros i Hi. destruct (U i Hi) as [U1 U2]. pose proof (ix_lt T _ U1) as I. fold n m in I.
               split; [|split; [exact I|apply P6, U1]].
               rewrite V6 by lia. rewrite nth_error_app1 by lia. rewrite <- U2 at 1. apply V4. exact I.
            -- intros a Ha. lia.
            -- fold n m in V7, E6. exists SA4, u. split; [exact E6|]. split; [lia|]. split; [intros; apply U; assumption|]. split; [|split; [|exact V7]].
               ++ intros q Hq. assert (I : ix T q < m) by (apply ix_lt, Hq). exists (rank RA (ix T q)).
                  assert (R : rank RA (ix T q) < m) by (rewrite <- LR; apply rank_lt; lia). split; [exact R|].
                  destruct (U _ R) as [U1 U2]. apply rank_inj in U2; [|rewrite LR; apply ix_lt; assumption|lia].
                  apply (ix_inj T) in U2; assumption.
               ++ intros i j' Hij Hj. destruct (U i ltac:(lia)) as [A1 A2]. destruct (U j' Hj) as [B1' B2'].
                  rewrite <- (RO (n - u i) (u i) (u j')) by auto.
                  pose proof (ix_lt T _ A1) as IA. pose proof (ix_lt T _ B1') as IB. fold n m in IA, IB.
                  destruct (slt_total RA (ix T (u i)) (ix T (u j'))) as [X|X]; [lia|lia| |exact X|].
                  ** intros F. rewrite F in A2. lia.
                  ** apply rank_mono in X; lia.
      - (* all names differ *)
        assert (EN : name = m) by lia. exists SA1, (fun i => nth i (sorted T row) 0).
        split; [reflexivity|]. split; [lia|]. split; [exact LL|]. split; [exact LS|]. split.
        + eapply full_sorted; eauto. fold n m. lia.
        + intros i Hi. apply (N5 EN). apply LA, Hi. }
    destruct Stage2 as (SA2 & lm & E2 & L2 & F1 & F2 & F3 & V2). cbv zeta in E2 |- *. rewrite E2. cbn [bind].
    destruct (stage3place_ok T k HT lm m F1 F2 F3 SA2 C Gm HC) as (SA3 & E3 & SD & L3 & _); [fold n; lia|exact V2|].
    rewrite E3. cbn [bind]. exists SA3, C. split; [reflexivity|]. split; [exact SD|]. split; [exact HC|]. lia.
Qed.

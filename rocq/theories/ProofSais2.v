(** Rows of the suffixes of the two types, and the two scans of induced sorting. *)
From Coq Require Import List NArith ZArith Arith Bool Lia.
From Coq Require Import ZifyBool ZifyNat ZifyN.
From Verif Require Import Base Arrays ModelSais ProofSais1.
Import ListNotations.
Open Scope nat_scope.

Definition startOf (T : list N) (c : N) : nat := cnt (length T) (fun a => (ch T a <? c)%N).
Definition endOf (T : list N) (c : N) : nat := cnt (length T) (fun a => (ch T a <=? c)%N).

Lemma endOf_split : forall T c, endOf T c = startOf T c + cnt (length T) (fun a => (ch T a =? c)%N).
Proof.
  intros T c. unfold endOf, startOf. rewrite <- cnt_or by (intros; lia). apply cnt_ext. intros. lia.
Qed.

Lemma end_le_start : forall T c d, (c < d)%N -> endOf T c <= startOf T d.
Proof. intros T c d H. apply cnt_mono. intros. lia. Qed.

Lemma endOf_le : forall T c, endOf T c <= length T.
Proof. intros. apply cnt_le. Qed.

(** The rows for an order [lt] on the suffixes [P] (type L, from the start of the bucket)
    and [Q] (type S, towards the end of the bucket). *)
Record ordered (T : list N) (lt : nat -> nat -> bool) (P Q : nat -> bool) : Prop := {
  o_P : forall a, P a = true -> a < length T;
  o_Q : forall a, Q a = true -> a < length T;
  o_disj : forall a, P a = true -> Q a = false;
  o_char : forall a b, P a || Q a = true -> P b || Q b = true -> (ch T a < ch T b)%N -> lt a b = true;
  o_irr : forall a, lt a a = false;
  o_trans : forall a b c, P a || Q a = true -> P b || Q b = true -> P c || Q c = true ->
    lt a b = true -> lt b c = true -> lt a c = true;
  o_total : forall a b, P a || Q a = true -> P b || Q b = true -> a <> b -> lt a b = true \/ lt b a = true;
  o_PQ : forall a b, P a = true -> Q b = true -> ch T a = ch T b -> lt a b = true
}.

Section Rows.
Variable T : list N.
Variable lt : nat -> nat -> bool.
Variables P Q : nat -> bool.
Let n := length T.
Local Notation ch := (ch T).

Definition rowP (a : nat) : nat :=
  startOf T (ch a) + cnt n (fun x => P x && (ch x =? ch a)%N && lt x a).
Definition rowQ (a : nat) : nat :=
  endOf T (ch a) - S (cnt n (fun x => Q x && (ch x =? ch a)%N && lt a x)).
Definition row (a : nat) : nat := if P a then rowP a else rowQ a.

Hypothesis O : ordered T lt P Q.
Local Notation R a := (P a || Q a = true).

Lemma R_lt : forall a, R a -> a < n.
Proof. intros a H. apply orb_prop in H. destruct H; [apply (o_P _ _ _ _ O)|apply (o_Q _ _ _ _ O)]; assumption. Qed.

Definition inP (c : N) := cnt n (fun x => P x && (ch x =? c)%N).
Definition inQ (c : N) := cnt n (fun x => Q x && (ch x =? c)%N).

Lemma bucket_room : forall c, startOf T c + inP c + inQ c <= endOf T c.
Proof.
  intros c. rewrite endOf_split. unfold inP, inQ.
  assert (cnt n (fun x => P x && (ch x =? c)%N) + cnt n (fun x => Q x && (ch x =? c)%N) <= cnt n (fun a => (ch a =? c)%N)).
  { rewrite <- cnt_or.
    - apply cnt_mono. intros a _ H. lia.
    - intros a _ H. apply andb_prop in H. destruct H as [H _].
      rewrite (o_disj _ _ _ _ O a H). reflexivity. }
  fold n. lia.
Qed.

Lemma rowP_bound : forall a, P a = true -> startOf T (ch a) <= rowP a < startOf T (ch a) + inP (ch a).
Proof.
  intros a H. unfold rowP, inP. split; [lia|]. apply Nat.add_lt_mono_l.
  apply (cnt_strict n _ _ a).
  - apply (o_P _ _ _ _ O a H).
  - rewrite (o_irr _ _ _ _ O a), andb_false_r. reflexivity.
  - rewrite H, N.eqb_refl. reflexivity.
  - intros x _ E. apply andb_prop in E. apply E.
Qed.

Lemma rowQ_count : forall a, Q a = true -> cnt n (fun x => Q x && (ch x =? ch a)%N && lt a x) < inQ (ch a).
Proof.
  intros a H. unfold inQ. apply (cnt_strict n _ _ a).
  - apply (o_Q _ _ _ _ O a H).
  - rewrite (o_irr _ _ _ _ O a), andb_false_r. reflexivity.
  - rewrite H, N.eqb_refl. reflexivity.
  - intros x _ E. apply andb_prop in E. apply E.
Qed.

Lemma rowQ_bound : forall a, Q a = true -> endOf T (ch a) - inQ (ch a) <= rowQ a < endOf T (ch a).
Proof.
  intros a H. pose proof (rowQ_count a H). pose proof (bucket_room (ch a)). unfold rowQ. lia.
Qed.

Lemma row_P : forall a, P a = true -> row a = rowP a.
Proof. intros a H. unfold row. rewrite H. reflexivity. Qed.
Lemma row_Q : forall a, Q a = true -> row a = rowQ a.
Proof.
  intros a H. unfold row. destruct (P a) eqn:E; [|reflexivity].
  rewrite (o_disj _ _ _ _ O a E) in H. discriminate.
Qed.

Lemma row_bucket : forall a, R a -> startOf T (ch a) <= row a < endOf T (ch a).
Proof.
  intros a H. pose proof (bucket_room (ch a)). apply orb_prop in H. destruct H as [H|H].
  - rewrite row_P by assumption. pose proof (rowP_bound a H). lia.
  - rewrite row_Q by assumption. pose proof (rowQ_bound a H). lia.
Qed.

Lemma row_lt : forall a, R a -> row a < n.
Proof. intros a H. pose proof (row_bucket a H). pose proof (endOf_le T (ch a)). unfold n. lia. Qed.

Lemma row_mono : forall a b, R a -> R b -> lt a b = true -> row a < row b.
Proof.
  intros a b Ra Rb L. pose proof (row_bucket a Ra). pose proof (row_bucket b Rb).
  destruct (N.lt_trichotomy (ch a) (ch b)) as [C|[C|C]].
  - pose proof (end_le_start T _ _ C). lia.
  - pose proof (bucket_room (ch a)) as Room.
    pose proof Ra as Ra'. pose proof Rb as Rb'.
    apply orb_prop in Ra'. apply orb_prop in Rb'. destruct Ra' as [Pa|Qa], Rb' as [Pb|Qb].
    + rewrite !row_P by assumption. unfold rowP. rewrite <- C. apply Nat.add_lt_mono_l.
      apply (cnt_strict n _ _ a).
      * apply R_lt, Ra.
      * rewrite (o_irr _ _ _ _ O a), andb_false_r. reflexivity.
      * rewrite Pa, N.eqb_refl, L. reflexivity.
      * intros x _ E. apply andb_prop in E. destruct E as [E1 E2]. rewrite E1. cbn [andb].
        apply andb_prop in E1. destruct E1 as [E1 _].
        apply (o_trans _ _ _ _ O x a b); auto. rewrite E1. reflexivity.
    + rewrite (row_P a), (row_Q b) by assumption. pose proof (rowP_bound a Pa). pose proof (rowQ_bound b Qb).
      rewrite <- C in *. lia.
    + exfalso. pose proof (o_PQ _ _ _ _ O b a Pb Qa (eq_sym C)) as M.
      pose proof (o_trans _ _ _ _ O a b a Ra Rb Ra L M) as I. rewrite (o_irr _ _ _ _ O) in I. discriminate.
    + rewrite !row_Q by assumption. unfold rowQ. rewrite <- C.
      pose proof (rowQ_count a Qa) as Ca.
      assert (cnt n (fun x => Q x && (ch x =? ch a)%N && lt b x) < cnt n (fun x => Q x && (ch x =? ch a)%N && lt a x)); [|lia].
      apply (cnt_strict n _ _ b).
      * apply R_lt, Rb.
      * rewrite (o_irr _ _ _ _ O b), andb_false_r. reflexivity.
      * rewrite Qb, C, N.eqb_refl, L. reflexivity.
      * intros x _ E. apply andb_prop in E. destruct E as [E1 E2]. rewrite E1. cbn [andb].
        apply andb_prop in E1. destruct E1 as [E1 _].
        apply (o_trans _ _ _ _ O a b x); auto. rewrite E1. apply orb_true_r.
  - exfalso. pose proof (o_char _ _ _ _ O b a Rb Ra C) as M.
    pose proof (o_trans _ _ _ _ O a b a Ra Rb Ra L M) as I. rewrite (o_irr _ _ _ _ O) in I. discriminate.
Qed.

Lemma row_inj : forall a b, R a -> R b -> row a = row b -> a = b.
Proof.
  intros a b Ra Rb E. destruct (Nat.eq_dec a b) as [D|D]; [assumption|].
  destruct (o_total _ _ _ _ O a b Ra Rb D) as [L|L].
  - pose proof (row_mono a b Ra Rb L). lia.
  - pose proof (row_mono b a Rb Ra L). lia.
Qed.

Lemma row_lt_iff : forall a b, R a -> R b -> (row a <? row b) = lt a b.
Proof.
  intros a b Ra Rb. destruct (lt a b) eqn:L.
  - apply Nat.ltb_lt. apply row_mono; assumption.
  - apply Nat.ltb_ge. destruct (Nat.eq_dec a b) as [D|D]; [subst; lia|].
    destruct (o_total _ _ _ _ O a b Ra Rb D) as [M|M]; [congruence|].
    pose proof (row_mono b a Rb Ra M). lia.
Qed.

(** Which suffix, if any, has a given row. *)
Lemma row_dec : forall r, {q | R q /\ row q = r} + {forall q, R q -> row q <> r}.
Proof.
  intros r.
  destruct (find (fun q => (P q || Q q) && (row q =? r)) (seq 0 n)) as [q|] eqn:E.
  - left. exists q. apply find_some in E. destruct E as [_ E]. apply andb_prop in E. destruct E as [E1 E2].
    split; [assumption|]. apply Nat.eqb_eq. assumption.
  - right. intros q Rq Eq. apply find_none with (x := q) in E.
    + rewrite Rq, Eq, Nat.eqb_refl in E. discriminate.
    + apply in_seq. pose proof (R_lt q Rq). lia.
Qed.
End Rows.

(** ** The cursor *)
Definition eff (cu : cursor) (c : N) : option nat :=
  let '(B, c1, b) := cu in if (c =? c1)%N then Some b else nth_error B (N.to_nat c).
Definition cursorOk (k : nat) (cu : cursor) : Prop :=
  let '(B, c1, b) := cu in length B = k /\ N.to_nat c1 < k.

Lemma switch_ok : forall k cu c0 b, cursorOk k cu -> N.to_nat c0 < k -> eff cu c0 = Some b ->
  exists B, switch cu c0 = Ok (B, c0, b) /\ length B = k /\
    forall c v, c <> c0 -> eff cu c = Some v -> nth_error B (N.to_nat c) = Some v.
Proof.
  intros k [[B c1] b1] c0 b (HB & Hc1) Hc0 E. unfold switch, eff in *.
  destruct (N.eqb_spec c0 c1) as [D|D].
  - subst. injection E as ->. exists B. repeat split; auto. intros c v H F.
    destruct (N.eqb_spec c c1); [congruence|assumption].
  - rewrite set_ok by lia. cbn [bind]. unfold get.
    rewrite nth_error_upd_other, E by (rewrite ?HB; try lia; intros F; apply D; lia). cbn [bind].
    exists (upd B (N.to_nat c1) b1). repeat split; auto; [rewrite upd_length; assumption|].
    intros c v H F. destruct (N.eqb_spec c c1) as [G|G].
    + subst. injection F as ->. apply nth_error_upd_same. lia.
    + rewrite nth_error_upd_other; [assumption|lia|]. intros X. apply G. lia.
Qed.

(** ** The scan upwards *)
Section UpPass.
Context {X : Type}.
Variable T : list N.
Variable k : nat.
Hypothesis HT : forall a, a < length T -> N.to_nat (ch T a) < k.
Variable lt : nat -> nat -> bool.
Variables P Q : nat -> bool.
Hypothesis O : ordered T lt P Q.
Let n := length T.
Local Notation ch := (ch T).
Local Notation R a := (P a || Q a = true).
Local Notation row := (row T lt P Q).
Hypothesis Pnext : forall a, P a = true -> S a = n \/ R (S a).
Hypothesis Pdec : forall a, P a = true -> S a < n -> lt (S a) a = true.
Hypothesis Pstep : forall a b, P a = true -> P b = true -> ch a = ch b -> S a < n -> S b < n -> lt a b = lt (S a) (S b).
Hypothesis Plast : forall a b, P a = true -> P b = true -> ch a = ch b -> S a = n -> a <> b -> lt a b = true.

Variable visit : nat -> Z -> X -> outcome (Z * X * option nat).
Variable store : nat -> nat -> nat -> X -> outcome (Z * X).
Variables val post : nat -> Z.
Variables e0 e1 : Z.
Variable J : nat -> X -> Prop.

Definition upTarget (q : nat) : option nat := if (0 <? q) && P (q - 1) then Some (q - 1) else None.

Hypothesis Hvisit : forall i q x, i < n -> R q -> row q = i -> J i x ->
  exists x1, visit i (val q) x = Ok (post q, x1, upTarget q) /\
    match upTarget q with
    | None => J (S i) x1
    | Some a => exists x2, store i a (row a) x1 = Ok (val a, x2) /\ J (S i) x2
    end.
Hypothesis Hempty : forall i x, i < n -> (forall q, R q -> row q <> i) -> J i x ->
  exists x1, visit i e0 x = Ok (e1, x1, None) /\ J (S i) x1.

Definition placedU (i a : nat) : bool := (S a =? n) || (row (S a) <? i).

Record upInv (i : nat) (SA : list Z) : Prop := {
  u_done : forall q, R q -> row q < i -> nth_error SA (row q) = Some (post q);
  u_doneE : forall r, r < i -> (forall q, R q -> row q <> r) -> nth_error SA r = Some e1;
  u_seed : forall q, Q q = true -> i <= row q -> nth_error SA (row q) = Some (val q);
  u_placed : forall q, P q = true -> i <= row q -> placedU i q = true -> nth_error SA (row q) = Some (val q);
  u_empty : forall r, i <= r < n -> (forall q, R q -> row q <> r) -> nth_error SA r = Some e0
}.
Definition upPtr (i : nat) (c : N) : nat := startOf T c + cnt n (fun a => P a && (ch a =? c)%N && placedU i a).
Definition upCur (i : nat) (cu : cursor) : Prop :=
  cursorOk k cu /\ forall c, N.to_nat c < k -> eff cu c = Some (upPtr i c).

Lemma placed_iff : forall a b, P a = true -> P b = true -> ch b = ch a -> S a < n ->
  placedU (row (S a)) b = lt b a.
Proof.
  intros a b Pa Pb C Ha. unfold placedU.
  destruct (Pnext a Pa) as [E|Ra]; [lia|].
  destruct (Nat.eqb_spec (S b) n) as [E|E]; cbn [orb].
  - symmetry. apply Plast; auto. lia.
  - destruct (Pnext b Pb) as [F|Rb]; [lia|].
    rewrite row_lt_iff by assumption. symmetry. apply Pstep; auto.
    pose proof (o_P _ _ _ _ O b Pb). unfold n in *. lia.
Qed.

Lemma target_ptr : forall a, P a = true -> S a < n -> upPtr (row (S a)) (ch a) = row a.
Proof.
  intros a Pa Ha. rewrite (row_P T lt P Q a Pa). unfold upPtr, rowP. f_equal.
  apply cnt_ext. intros x _.
  destruct (P x) eqn:Px; [|reflexivity]. destruct (N.eqb_spec (ch x) (ch a)) as [C|C]; [|reflexivity].
  cbn [andb]. apply placed_iff; auto.
Qed.

Lemma placed_none : forall i a, P a = true -> (forall q, R q -> row q = i -> upTarget q = None) ->
  placedU (S i) a = placedU i a.
Proof.
  intros i a Pa H. unfold placedU. destruct (Nat.eqb_spec (S a) n) as [E|E]; [reflexivity|]. cbn [orb].
  destruct (Pnext a Pa) as [F|Ra]; [lia|].
  assert (row (S a) <> i).
  { intros F. specialize (H _ Ra F). unfold upTarget in H. cbn [Nat.ltb Nat.leb andb] in H.
    replace (S a - 1) with a in H by lia. rewrite Pa in H. discriminate. }
  lia.
Qed.

Lemma upPtr_none : forall i c, (forall q, R q -> row q = i -> upTarget q = None) -> upPtr (S i) c = upPtr i c.
Proof.
  intros i c H. unfold upPtr. f_equal. apply cnt_ext. intros a _.
  destruct (P a) eqn:Pa; [|reflexivity]. rewrite (placed_none i a Pa H). reflexivity.
Qed.

Lemma placed_some : forall a b, P a = true -> P b = true -> S a < n ->
  placedU (S (row (S a))) b = placedU (row (S a)) b || (b =? a).
Proof.
  intros a b Pa Pb Ha. unfold placedU. destruct (Nat.eqb_spec (S b) n) as [E|E]; [reflexivity|]. cbn [orb].
  destruct (Pnext a Pa) as [F|Ra]; [lia|]. destruct (Pnext b Pb) as [F|Rb]; [lia|].
  destruct (Nat.eqb_spec b a) as [D|D].
  - subst. lia.
  - assert (row (S b) <> row (S a)) by (intros G; apply (row_inj _ _ _ _ O) in G; auto; lia). lia.
Qed.

Lemma not_placed : forall a, P a = true -> S a < n -> placedU (row (S a)) a = false.
Proof. intros a Pa Ha. rewrite placed_iff by auto. apply (o_irr _ _ _ _ O). Qed.

Lemma upPtr_some : forall a c, P a = true -> S a < n ->
  upPtr (S (row (S a))) c = if (c =? ch a)%N then S (upPtr (row (S a)) c) else upPtr (row (S a)) c.
Proof.
  intros a c Pa Ha. unfold upPtr. destruct (N.eqb_spec c (ch a)) as [C|C].
  - rewrite <- Nat.add_succ_r. f_equal. apply (cnt_add n _ _ a).
    + lia.
    + rewrite not_placed, andb_false_r by assumption. reflexivity.
    + intros b _. destruct (P b) eqn:Pb; cbn [andb].
      * rewrite placed_some by assumption. destruct (N.eqb_spec (ch b) c) as [D|D]; cbn [andb]; [reflexivity|].
        destruct (Nat.eqb_spec b a); [|reflexivity]. subst. congruence.
      * destruct (Nat.eqb_spec b a); [|reflexivity]. subst. congruence.
  - f_equal. apply cnt_ext. intros b _. destruct (P b) eqn:Pb; cbn [andb]; [|reflexivity].
    rewrite placed_some by assumption. destruct (N.eqb_spec (ch b) c) as [D|D]; cbn [andb]; [|reflexivity].
    destruct (Nat.eqb_spec b a); [subst; congruence|]. rewrite orb_false_r. reflexivity.
Qed.

Lemma placed_visited : forall q, P q = true -> placedU (row q) q = true.
Proof.
  intros q Pq. unfold placedU. destruct (Nat.eqb_spec (S q) n) as [E|E]; [reflexivity|]. cbn [orb].
  destruct (Pnext q Pq) as [F|Rq]; [lia|]. apply Nat.ltb_lt. apply row_mono; auto.
  - rewrite Pq. reflexivity.
  - apply Pdec; auto. pose proof (o_P _ _ _ _ O q Pq). unfold n in *. lia.
Qed.

Theorem upLoop_ok : forall todo i SA cu x, i + todo = n -> n <= length SA -> upInv i SA -> upCur i cu -> J i x ->
  exists SA' x', upLoop T visit store todo i SA cu x = Ok (SA', x') /\ upInv n SA' /\ J n x' /\
    length SA' = length SA /\ forall r, n <= r -> nth_error SA' r = nth_error SA r.
Proof.
  induction todo as [|todo IH]; intros i SA cu x Hi HL I [HC HE] HJ.
  - replace i with n in * by lia. exists SA, x. cbn [upLoop]. auto.
  - cbn [upLoop].
    destruct (row_dec T lt P Q O i) as [(q & Rq & Eq)|NQ].
    + assert (V : nth_error SA i = Some (val q)).
      { rewrite <- Eq. pose proof Rq as Rq'. apply orb_prop in Rq'. destruct Rq' as [Pq|Qq].
        - apply (u_placed _ _ I); auto; [lia|]. rewrite <- Eq. apply placed_visited, Pq.
        - apply (u_seed _ _ I); auto. lia. }
      rewrite (get_ok _ _ _ V). cbn [bind].
      destruct (Hvisit i q x ltac:(lia) Rq Eq HJ) as (x1 & E1 & HJ1). rewrite E1. cbn [bind].
      rewrite set_ok by lia. cbn [bind].
      destruct (upTarget q) as [a|] eqn:Et.
      * unfold upTarget in Et. destruct ((0 <? q) && P (q - 1)) eqn:Eb; [|discriminate]. injection Et as Ea.
        apply andb_prop in Eb. destruct Eb as [Hq Pa]. apply Nat.ltb_lt in Hq. rewrite Ea in Pa.
        assert (Eqa : q = S a) by lia. subst q.
        pose proof (R_lt _ _ _ _ O _ Rq) as Hqn. fold n in Hqn.
        assert (Han : a < n) by lia.
        rewrite (get_ch T a) by exact Han. cbn [bind].
        assert (Pr : upPtr i (ch a) = row a) by (rewrite <- Eq; apply target_ptr; assumption).
        destruct (switch_ok k cu (ch a) (row a) HC (HT a Han)) as (B & Es & LB & HB).
        { rewrite HE, Pr; auto. }
        rewrite Es. cbn [bind].
        destruct HJ1 as (x2 & E2 & HJ2). rewrite E2. cbn [bind].
        assert (Ra : R a) by (rewrite Pa; reflexivity).
        assert (Hra : row a < n) by (apply row_lt; auto).
        assert (Hlt : i < row a).
        { rewrite <- Eq. apply row_mono; auto. }
        rewrite set_ok by (rewrite upd_length; lia). cbn [bind].
        destruct (IH (S i) (upd (upd SA i (post (S a))) (row a) (val a)) (B, ch a, S (row a)) x2) as (SA' & x' & EE & HI & HJ' & HLen & HTail); auto.
        { lia. }
        { rewrite !upd_length. assumption. }
        { constructor.
          - intros p Rp Hp. rewrite nth_error_upd_other by (rewrite ?upd_length; lia).
            destruct (Nat.eq_dec (row p) i) as [D|D].
            + assert (p = S a) by (apply (row_inj _ _ _ _ O); auto; lia). subst p.
              rewrite D. apply nth_error_upd_same. lia.
            + rewrite nth_error_upd_other by lia. apply (u_done _ _ I); auto. lia.
          - intros r Hr NR. rewrite nth_error_upd_other by (rewrite ?upd_length; lia).
            destruct (Nat.eq_dec r i) as [D|D]; [exfalso; apply (NR _ Rq); lia|].
            rewrite nth_error_upd_other by lia. apply (u_doneE _ _ I); auto. lia.
          - intros p Qp Hp.
            assert (row p <> row a).
            { intros F. apply (row_inj _ _ _ _ O) in F; auto; [|rewrite Qp; apply orb_true_r].
              subst p. rewrite (o_disj _ _ _ _ O a Pa) in Qp. discriminate. }
            rewrite nth_error_upd_other by (rewrite ?upd_length; lia).
            rewrite nth_error_upd_other by lia. apply (u_seed _ _ I); auto. lia.
          - intros p Pp Hp Hpl. destruct (Nat.eq_dec p a) as [D|D].
            + subst p. apply nth_error_upd_same. rewrite upd_length. lia.
            + assert (row p <> row a).
              { intros F. apply (row_inj _ _ _ _ O) in F; auto. rewrite Pp. reflexivity. }
              rewrite nth_error_upd_other by (rewrite ?upd_length; lia).
              rewrite nth_error_upd_other by lia. apply (u_placed _ _ I); auto; [lia|].
              rewrite <- Eq in Hpl |- *. rewrite placed_some in Hpl by auto.
              apply orb_prop in Hpl. destruct Hpl as [?|F]; [assumption|]. apply Nat.eqb_eq in F. contradiction.
          - intros r Hr NR. rewrite nth_error_upd_other; [|rewrite upd_length; lia|intros F; exact (NR a Ra (eq_sym F))].
            rewrite nth_error_upd_other by lia. apply (u_empty _ _ I); auto. lia. }
        { split; [split; [assumption|apply HT, Han]|].
          intros c Hc. cbn [eff].
          rewrite <- Eq, upPtr_some by auto. rewrite Eq.
          destruct (N.eqb_spec c (ch a)) as [D|D]; [subst; rewrite Pr; reflexivity|].
          apply HB; auto. }
        { exists SA', x'. split; [exact EE|]. split; [exact HI|]. split; [exact HJ'|]. split; [rewrite HLen, !upd_length; reflexivity|].
          intros r Hr. rewrite HTail by assumption. rewrite nth_error_upd_other by (rewrite ?upd_length; lia).
          apply nth_error_upd_other; lia. }
      * assert (NT : forall p, R p -> row p = i -> upTarget p = None).
        { intros p Rp Ep. assert (p = q) by (apply (row_inj _ _ _ _ O); auto; lia). subst p. assumption. }
        destruct (IH (S i) (upd SA i (post q)) cu x1) as (SA' & x' & EE & HI & HJ' & HLen & HTail); auto.
        { lia. }
        { rewrite upd_length. assumption. }
        { constructor.
          - intros p Rp Hp. destruct (Nat.eq_dec (row p) i) as [D|D].
            + assert (p = q) by (apply (row_inj _ _ _ _ O); auto; lia). subst p.
              rewrite D. apply nth_error_upd_same. lia.
            + rewrite nth_error_upd_other by lia. apply (u_done _ _ I); auto. lia.
          - intros r Hr NR. destruct (Nat.eq_dec r i) as [D|D]; [exfalso; apply (NR _ Rq); lia|].
            rewrite nth_error_upd_other by lia. apply (u_doneE _ _ I); auto. lia.
          - intros p Qp Hp. rewrite nth_error_upd_other by lia. apply (u_seed _ _ I); auto. lia.
          - intros p Pp Hp Hpl. rewrite nth_error_upd_other by lia. apply (u_placed _ _ I); auto; [lia|].
            rewrite <- (placed_none i p Pp NT). assumption.
          - intros r Hr NR. rewrite nth_error_upd_other by lia. apply (u_empty _ _ I); auto. lia. }
        { split; [assumption|]. intros c Hc. rewrite upPtr_none by assumption. apply HE. assumption. }
        { exists SA', x'. split; [exact EE|]. split; [exact HI|]. split; [exact HJ'|]. split; [rewrite HLen, !upd_length; reflexivity|].
          intros r Hr. rewrite HTail by assumption. apply nth_error_upd_other; lia. }
    + assert (NT : forall p, R p -> row p = i -> upTarget p = None) by (intros p Rp Ep; exfalso; exact (NQ p Rp Ep)).
      rewrite (get_ok _ _ e0) by (apply (u_empty _ _ I); auto; lia). cbn [bind].
      destruct (Hempty i x ltac:(lia) NQ HJ) as (x1 & E1 & HJ1). rewrite E1. cbn [bind].
      rewrite set_ok by lia. cbn [bind].
      destruct (IH (S i) (upd SA i e1) cu x1) as (SA' & x' & EE & HI & HJ' & HLen & HTail); auto.
      { lia. }
      { rewrite upd_length. assumption. }
      { constructor.
        - intros p Rp Hp. pose proof (NQ p Rp).
          rewrite nth_error_upd_other by lia. apply (u_done _ _ I); auto. lia.
        - intros r Hr NR. destruct (Nat.eq_dec r i) as [D|D]; [subst; apply nth_error_upd_same; lia|].
          rewrite nth_error_upd_other by lia. apply (u_doneE _ _ I); auto. lia.
        - intros p Qp Hp. rewrite nth_error_upd_other by lia. apply (u_seed _ _ I); auto. lia.
        - intros p Pp Hp Hpl. rewrite nth_error_upd_other by lia. apply (u_placed _ _ I); auto; [lia|].
          rewrite <- (placed_none i p Pp NT). assumption.
        - intros r Hr NR. rewrite nth_error_upd_other by lia. apply (u_empty _ _ I); auto. lia. }
      { split; [assumption|]. intros c Hc. rewrite upPtr_none by assumption. apply HE. assumption. }
      { exists SA', x'. split; [exact EE|]. split; [exact HI|]. split; [exact HJ'|]. split; [rewrite HLen, !upd_length; reflexivity|].
        intros r Hr. rewrite HTail by assumption. apply nth_error_upd_other; lia. }
Qed.
End UpPass.

(** ** The scan downwards *)
Section DownPass.
Context {X : Type}.
Variable T : list N.
Variable k : nat.
Hypothesis HT : forall a, a < length T -> N.to_nat (ch T a) < k.
Variable lt : nat -> nat -> bool.
Variables P Q : nat -> bool.
Hypothesis O : ordered T lt P Q.
Let n := length T.
Local Notation ch := (ch T).
Local Notation R a := (P a || Q a = true).
Local Notation row := (row T lt P Q).
Hypothesis Qnext : forall a, Q a = true -> R (S a).
Hypothesis Qinc : forall a, Q a = true -> lt a (S a) = true.
Hypothesis Qstep : forall a b, Q a = true -> Q b = true -> ch a = ch b -> lt a b = lt (S a) (S b).

Variable visit : nat -> Z -> X -> outcome (Z * X * option nat).
Variable store : nat -> nat -> nat -> X -> outcome (Z * X).
Variables val post : nat -> Z.
Variables e0 e1 : Z.
Variable J : nat -> X -> Prop.

Definition downTarget (q : nat) : option nat := if (0 <? q) && Q (q - 1) then Some (q - 1) else None.

Hypothesis Hvisit : forall i q x, i < n -> R q -> row q = i -> J (S i) x ->
  exists x1, visit i (val q) x = Ok (post q, x1, downTarget q) /\
    match downTarget q with
    | None => J i x1
    | Some a => exists x2, store i a (row a) x1 = Ok (val a, x2) /\ J i x2
    end.
Hypothesis Hempty : forall i x, i < n -> (forall q, R q -> row q <> i) -> J (S i) x ->
  exists x1, visit i e0 x = Ok (e1, x1, None) /\ J i x1.

Definition placedD (e a : nat) : bool := e <=? row (S a).

Record downInv (e : nat) (SA : list Z) : Prop := {
  d_done : forall q, R q -> e <= row q -> nth_error SA (row q) = Some (post q);
  d_doneE : forall r, e <= r < n -> (forall q, R q -> row q <> r) -> nth_error SA r = Some e1;
  d_seed : forall q, P q = true -> row q < e -> nth_error SA (row q) = Some (val q);
  d_placed : forall q, Q q = true -> row q < e -> placedD e q = true -> nth_error SA (row q) = Some (val q);
  d_empty : forall r, r < e -> (forall q, R q -> row q <> r) -> nth_error SA r = Some e0
}.
Definition downPtr (e : nat) (c : N) : nat := endOf T c - cnt n (fun a => Q a && (ch a =? c)%N && placedD e a).
Definition downCur (e : nat) (cu : cursor) : Prop :=
  cursorOk k cu /\ forall c, N.to_nat c < k -> eff cu c = Some (downPtr e c).

Lemma placedD_iff : forall a b, Q a = true -> Q b = true -> ch b = ch a ->
  placedD (S (row (S a))) b = lt a b.
Proof.
  intros a b Qa Qb C. unfold placedD.
  rewrite (Qstep a b) by auto. rewrite <- (row_lt_iff T lt P Q O) by (apply Qnext; assumption).
  reflexivity.
Qed.

Lemma rowQ_S : forall a, Q a = true -> S (rowQ T lt Q a) = endOf T (ch a) - cnt n (fun x => Q x && (ch x =? ch a)%N && lt a x).
Proof.
  intros a Qa. pose proof (rowQ_count T lt P Q O a Qa). pose proof (bucket_room T lt P Q O (ch a)).
  unfold rowQ, n in *. lia.
Qed.

Lemma targetD_ptr : forall a, Q a = true -> downPtr (S (row (S a))) (ch a) = S (row a).
Proof.
  intros a Qa. rewrite (row_Q T lt P Q O a Qa), rowQ_S by assumption. unfold downPtr. f_equal.
  apply cnt_ext. intros x _.
  destruct (Q x) eqn:Qx; [|reflexivity]. destruct (N.eqb_spec (ch x) (ch a)) as [C|C]; [|reflexivity].
  cbn [andb]. apply placedD_iff; auto.
Qed.

Lemma placedD_none : forall i a, Q a = true -> (forall q, R q -> row q = i -> downTarget q = None) ->
  placedD i a = placedD (S i) a.
Proof.
  intros i a Qa H. unfold placedD. pose proof (Qnext a Qa) as Ra.
  assert (row (S a) <> i).
  { intros F. specialize (H _ Ra F). unfold downTarget in H. cbn [Nat.ltb Nat.leb andb] in H.
    replace (S a - 1) with a in H by lia. rewrite Qa in H. discriminate. }
  lia.
Qed.

Lemma downPtr_none : forall i c, (forall q, R q -> row q = i -> downTarget q = None) -> downPtr i c = downPtr (S i) c.
Proof.
  intros i c H. unfold downPtr. f_equal. apply cnt_ext. intros a _.
  destruct (Q a) eqn:Qa; [|reflexivity]. rewrite (placedD_none i a Qa H). reflexivity.
Qed.

Lemma placedD_some : forall a b, Q a = true -> Q b = true ->
  placedD (row (S a)) b = placedD (S (row (S a))) b || (b =? a).
Proof.
  intros a b Qa Qb. unfold placedD. pose proof (Qnext a Qa) as Ra. pose proof (Qnext b Qb) as Rb.
  destruct (Nat.eqb_spec b a) as [D|D].
  - subst. lia.
  - assert (row (S b) <> row (S a)) by (intros G; apply (row_inj _ _ _ _ O) in G; auto; lia). lia.
Qed.

Lemma not_placedD : forall a, Q a = true -> placedD (S (row (S a))) a = false.
Proof. intros a Qa. rewrite placedD_iff by auto. apply (o_irr _ _ _ _ O). Qed.

Lemma downPtr_some : forall a c, Q a = true ->
  downPtr (row (S a)) c = if (c =? ch a)%N then downPtr (S (row (S a))) c - 1 else downPtr (S (row (S a))) c.
Proof.
  intros a c Qa. unfold downPtr. pose proof (o_Q _ _ _ _ O a Qa) as Ha. destruct (N.eqb_spec c (ch a)) as [C|C].
  - rewrite <- Nat.sub_add_distr, Nat.add_1_r. f_equal. apply (cnt_add n _ _ a).
    + exact Ha.
    + rewrite not_placedD, andb_false_r by assumption. reflexivity.
    + intros b _. destruct (Q b) eqn:Qb; cbn [andb].
      * rewrite placedD_some by assumption. destruct (N.eqb_spec (ch b) c) as [D|D]; cbn [andb]; [reflexivity|].
        destruct (Nat.eqb_spec b a); [|reflexivity]. subst. congruence.
      * destruct (Nat.eqb_spec b a); [|reflexivity]. subst. congruence.
  - f_equal. apply cnt_ext. intros b _. destruct (Q b) eqn:Qb; cbn [andb]; [|reflexivity].
    rewrite placedD_some by assumption. destruct (N.eqb_spec (ch b) c) as [D|D]; cbn [andb]; [|reflexivity].
    destruct (Nat.eqb_spec b a); [subst; congruence|]. rewrite orb_false_r. reflexivity.
Qed.

Lemma placedD_visited : forall q, Q q = true -> placedD (S (row q)) q = true.
Proof.
  intros q Qq. unfold placedD. apply Nat.leb_le. apply row_mono; auto.
  rewrite Qq. apply orb_true_r.
Qed.

Theorem downLoop_ok : forall e SA cu x, e <= n -> n <= length SA -> downInv e SA -> downCur e cu -> J e x ->
  exists SA' x', downLoop T visit store e SA cu x = Ok (SA', x') /\ downInv 0 SA' /\ J 0 x' /\
    length SA' = length SA /\ forall r, n <= r -> nth_error SA' r = nth_error SA r.
Proof.
  induction e as [|i IH]; intros SA cu x Hi HL I [HC HE] HJ.
  - exists SA, x. cbn [downLoop]. auto.
  - cbn [downLoop].
    destruct (row_dec T lt P Q O i) as [(q & Rq & Eq)|NQ].
    + assert (V : nth_error SA i = Some (val q)).
      { rewrite <- Eq. pose proof Rq as Rq'. apply orb_prop in Rq'. destruct Rq' as [Pq|Qq].
        - apply (d_seed _ _ I); auto. lia.
        - apply (d_placed _ _ I); auto; [lia|]. rewrite <- Eq. apply placedD_visited, Qq. }
      rewrite (get_ok _ _ _ V). cbn [bind].
      destruct (Hvisit i q x ltac:(lia) Rq Eq HJ) as (x1 & E1 & HJ1). rewrite E1. cbn [bind].
      rewrite set_ok by lia. cbn [bind].
      destruct (downTarget q) as [a|] eqn:Et.
      * unfold downTarget in Et. destruct ((0 <? q) && Q (q - 1)) eqn:Eb; [|discriminate]. injection Et as Ea.
        apply andb_prop in Eb. destruct Eb as [Hq Qa]. apply Nat.ltb_lt in Hq. rewrite Ea in Qa.
        assert (Eqa : q = S a) by lia. subst q.
        pose proof (R_lt _ _ _ _ O _ Rq) as Hqn. fold n in Hqn.
        assert (Han : a < n) by lia.
        rewrite (get_ch T a) by exact Han. cbn [bind].
        assert (Pr : downPtr (S i) (ch a) = S (row a)) by (rewrite <- Eq; apply targetD_ptr; assumption).
        destruct (switch_ok k cu (ch a) (S (row a)) HC (HT a Han)) as (B & Es & LB & HB).
        { rewrite HE, Pr; auto. }
        rewrite Es. cbn [bind].
        destruct HJ1 as (x2 & E2 & HJ2). rewrite E2. cbn [bind].
        assert (Ra : R a) by (rewrite Qa; apply orb_true_r).
        assert (Hra : row a < n) by (apply row_lt; auto).
        assert (Hlt : row a < i).
        { rewrite <- Eq. apply row_mono; auto. }
        rewrite set_ok by (rewrite upd_length; lia). cbn [bind].
        destruct (IH (upd (upd SA i (post (S a))) (row a) (val a)) (B, ch a, row a) x2) as (SA' & x' & EE & HI & HJ' & HLen & HTail); auto.
        { lia. }
        { rewrite !upd_length. assumption. }
        { constructor.
          - intros p Rp Hp. rewrite nth_error_upd_other by (rewrite ?upd_length; lia).
            destruct (Nat.eq_dec (row p) i) as [D|D].
            + assert (p = S a) by (apply (row_inj _ _ _ _ O); auto; lia). subst p.
              rewrite D. apply nth_error_upd_same. lia.
            + rewrite nth_error_upd_other by lia. apply (d_done _ _ I); auto. lia.
          - intros r Hr NR. rewrite nth_error_upd_other by (rewrite ?upd_length; lia).
            destruct (Nat.eq_dec r i) as [D|D]; [exfalso; apply (NR _ Rq); lia|].
            rewrite nth_error_upd_other by lia. apply (d_doneE _ _ I); auto. lia.
          - intros p Pp Hp.
            assert (row p <> row a).
            { intros F. apply (row_inj _ _ _ _ O) in F; auto; [|rewrite Pp; reflexivity].
              subst p. rewrite (o_disj _ _ _ _ O a Pp) in Qa. discriminate. }
            rewrite nth_error_upd_other by (rewrite ?upd_length; lia).
            rewrite nth_error_upd_other by lia. apply (d_seed _ _ I); auto.
          - intros p Qp Hp Hpl. destruct (Nat.eq_dec p a) as [D|D].
            + subst p. apply nth_error_upd_same. rewrite upd_length. lia.
            + assert (row p <> row a).
              { intros F. apply (row_inj _ _ _ _ O) in F; auto. rewrite Qp. apply orb_true_r. }
              rewrite nth_error_upd_other by (rewrite ?upd_length; lia).
              rewrite nth_error_upd_other by lia. apply (d_placed _ _ I); auto.
              rewrite <- Eq in Hpl |- *. rewrite placedD_some in Hpl by auto.
              apply orb_prop in Hpl. destruct Hpl as [?|F]; [assumption|]. apply Nat.eqb_eq in F. contradiction.
          - intros r Hr NR. rewrite nth_error_upd_other; [|rewrite upd_length; lia|intros F; exact (NR a Ra (eq_sym F))].
            rewrite nth_error_upd_other by lia. apply (d_empty _ _ I); auto. }
        { split; [split; [assumption|apply HT, Han]|].
          intros c Hc. cbn [eff].
          rewrite <- Eq, downPtr_some by auto. rewrite Eq.
          destruct (N.eqb_spec c (ch a)) as [D|D]; [subst c; rewrite Pr; f_equal; lia|].
          apply HB; auto. }
        { exists SA', x'. split; [exact EE|]. split; [exact HI|]. split; [exact HJ'|]. split; [rewrite HLen, !upd_length; reflexivity|].
          intros r Hr. rewrite HTail by assumption. rewrite nth_error_upd_other by (rewrite ?upd_length; lia).
          apply nth_error_upd_other; lia. }
      * assert (NT : forall p, R p -> row p = i -> downTarget p = None).
        { intros p Rp Ep. assert (p = q) by (apply (row_inj _ _ _ _ O); auto; lia). subst p. assumption. }
        destruct (IH (upd SA i (post q)) cu x1) as (SA' & x' & EE & HI & HJ' & HLen & HTail); auto.
        { lia. }
        { rewrite upd_length. assumption. }
        { constructor.
          - intros p Rp Hp. destruct (Nat.eq_dec (row p) i) as [D|D].
            + assert (p = q) by (apply (row_inj _ _ _ _ O); auto; lia). subst p.
              rewrite D. apply nth_error_upd_same. lia.
            + rewrite nth_error_upd_other by lia. apply (d_done _ _ I); auto. lia.
          - intros r Hr NR. destruct (Nat.eq_dec r i) as [D|D]; [exfalso; apply (NR _ Rq); lia|].
            rewrite nth_error_upd_other by lia. apply (d_doneE _ _ I); auto. lia.
          - intros p Pp Hp. rewrite nth_error_upd_other by lia. apply (d_seed _ _ I); auto.
          - intros p Qp Hp Hpl. rewrite nth_error_upd_other by lia. apply (d_placed _ _ I); auto.
            rewrite <- (placedD_none i p Qp NT). assumption.
          - intros r Hr NR. rewrite nth_error_upd_other by lia. apply (d_empty _ _ I); auto. }
        { split; [assumption|]. intros c Hc. rewrite downPtr_none by assumption. apply HE. assumption. }
        { exists SA', x'. split; [exact EE|]. split; [exact HI|]. split; [exact HJ'|]. split; [rewrite HLen, !upd_length; reflexivity|].
          intros r Hr. rewrite HTail by assumption. apply nth_error_upd_other; lia. }
    + assert (NT : forall p, R p -> row p = i -> downTarget p = None) by (intros p Rp Ep; exfalso; exact (NQ p Rp Ep)).
      rewrite (get_ok _ _ e0) by (apply (d_empty _ _ I); auto; lia). cbn [bind].
      destruct (Hempty i x ltac:(lia) NQ HJ) as (x1 & E1 & HJ1). rewrite E1. cbn [bind].
      rewrite set_ok by lia. cbn [bind].
      destruct (IH (upd SA i e1) cu x1) as (SA' & x' & EE & HI & HJ' & HLen & HTail); auto.
      { lia. }
      { rewrite upd_length. assumption. }
      { constructor.
        - intros p Rp Hp. pose proof (NQ p Rp).
          rewrite nth_error_upd_other by lia. apply (d_done _ _ I); auto. lia.
        - intros r Hr NR. destruct (Nat.eq_dec r i) as [D|D]; [subst; apply nth_error_upd_same; lia|].
          rewrite nth_error_upd_other by lia. apply (d_doneE _ _ I); auto. lia.
        - intros p Pp Hp. rewrite nth_error_upd_other by lia. apply (d_seed _ _ I); auto.
        - intros p Qp Hp Hpl. rewrite nth_error_upd_other by lia. apply (d_placed _ _ I); auto.
          rewrite <- (placedD_none i p Qp NT). assumption.
        - intros r Hr NR. rewrite nth_error_upd_other by lia. apply (d_empty _ _ I); auto. }
      { split; [assumption|]. intros c Hc. rewrite downPtr_none by assumption. apply HE. assumption. }
      { exists SA', x'. split; [exact EE|]. split; [exact HI|]. split; [exact HJ'|]. split; [rewrite HLen, !upd_length; reflexivity|].
        intros r Hr. rewrite HTail by assumption. apply nth_error_upd_other; lia. }
Qed.
End DownPass.

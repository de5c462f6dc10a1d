(** The last-to-first mapping of the Burrows-Wheeler transform, for one and two characters. *)
From Coq Require Import List NArith ZArith Lia Arith Bool Permutation Sorted.
From Coq Require Import ZifyBool ZifyNat ZifyN.
From Verif Require Import Base SpecBWT.
Import ListNotations.
Open Scope nat_scope.

(** ** Counting *)
Definition cnt (P : nat -> bool) (m : nat) : nat := length (filter P (seq 0 m)).

Lemma cnt_0 : forall P, cnt P 0 = 0.
Proof. reflexivity. Qed.
Lemma cnt_S : forall P m, cnt P (S m) = cnt P m + (if P m then 1 else 0).
Proof.
  intros P m. unfold cnt. rewrite seq_S, filter_app, app_length. cbn [filter Nat.add].
  destruct (P m); reflexivity.
Qed.
Lemma cnt_ext : forall P Q m, (forall i, i < m -> P i = Q i) -> cnt P m = cnt Q m.
Proof.
  intros P Q m. induction m as [|m IH]; intros H; [reflexivity|].
  rewrite !cnt_S, IH, (H m) by auto with arith. reflexivity.
Qed.
Lemma cnt_le : forall P m, cnt P m <= m.
Proof. intros P m. induction m as [|m IH]; [reflexivity|]. rewrite cnt_S. destruct (P m); lia. Qed.
Lemma cnt_split : forall P Q m, cnt P m = cnt (fun i => P i && Q i) m + cnt (fun i => P i && negb (Q i)) m.
Proof.
  intros P Q m. induction m as [|m IH]; [reflexivity|].
  rewrite !cnt_S, IH. destruct (P m), (Q m); cbn [andb negb]; lia.
Qed.
Lemma cnt_ltb : forall k m, k <= m -> cnt (fun i => i <? k) m = k.
Proof.
  intros k m. induction m as [|m IH]; intros H; [cbn; lia|].
  rewrite cnt_S. destruct (Nat.ltb_spec m k).
  - assert (k = S m) by lia. subst. rewrite (cnt_ext _ (fun i => i <? m)).
    + assert (cnt (fun i => i <? m) m = m); [|lia]. clear.
      induction m as [|m IH]; [reflexivity|]. rewrite cnt_S, (cnt_ext _ (fun i => i <? m)).
      * rewrite IH. destruct (Nat.ltb_spec m (S m)); lia.
      * intros i Hi. destruct (Nat.ltb_spec i (S m)), (Nat.ltb_spec i m); lia.
    + intros i Hi. destruct (Nat.ltb_spec i (S m)), (Nat.ltb_spec i m); lia.
  - rewrite IH; lia.
Qed.
Lemma cnt_restrict : forall P k m, k <= m -> cnt (fun i => P i && (i <? k)) m = cnt P k.
Proof.
  intros P k m. induction m as [|m IH]; intros H.
  - assert (k = 0) by lia. subst. reflexivity.
  - rewrite cnt_S. destruct (Nat.ltb_spec m k).
    + assert (k = S m) by lia. subst. rewrite cnt_S, andb_true_r. f_equal.
      apply cnt_ext. intros i Hi. destruct (Nat.ltb_spec i (S m)); [|lia]. apply andb_true_r.
    + rewrite andb_false_r, IH; lia.
Qed.
Lemma cnt_shift : forall P k m, k <= m -> cnt P (m - k) = cnt (fun i => (k <=? i) && P (i - k)) m.
Proof.
  intros P k m. induction m as [|m IH]; intros H.
  - assert (k = 0) by lia. subst. reflexivity.
  - rewrite cnt_S. destruct (Nat.leb_spec k m); cbn [andb].
    + replace (S m - k) with (S (m - k)) by lia. rewrite cnt_S, IH by lia. reflexivity.
    + assert (k = S m) by lia. subst. replace (S m - S m) with 0 by lia. rewrite cnt_0.
      rewrite (cnt_ext _ (fun _ => false)).
      * clear. induction m as [|m IH]; [reflexivity|]. rewrite cnt_S. lia.
      * intros i Hi. destruct (Nat.leb_spec (S m) i); [lia|reflexivity].
Qed.
Lemma cnt_none : forall P m, (forall i, i < m -> P i = false) -> cnt P m = 0.
Proof. intros P m. induction m as [|m IH]; intros H; [reflexivity|]. rewrite cnt_S, (H m), IH by auto. reflexivity. Qed.
Lemma cnt_one : forall P m k, k < m -> P k = true -> (forall i, i < m -> i <> k -> P i = false) -> cnt P m = 1.
Proof.
  intros P m. induction m as [|m IH]; intros k Hk Hp H; [lia|]. rewrite cnt_S.
  destruct (Nat.eq_dec k m) as [->|D].
  - rewrite Hp, (cnt_none P m); [reflexivity|]. intros i Hi. apply H; lia.
  - rewrite (IH k), (H m) by (auto; lia). reflexivity.
Qed.
Lemma cnt_lt : forall P i m, i < m -> P i = true -> cnt P i < cnt P m.
Proof.
  intros P i m. induction m as [|m IH]; intros H Hp; [lia|]. rewrite cnt_S.
  destruct (Nat.eq_dec i m) as [->|D]; [rewrite Hp; lia|]. specialize (IH ltac:(lia) Hp). lia.
Qed.
Lemma cnt_mono : forall P i m, i <= m -> cnt P i <= cnt P m.
Proof.
  intros P i m H. induction H as [|m H IH]; [lia|]. rewrite cnt_S. lia.
Qed.

Lemma filter_perm : forall {A} (f : A -> bool) l l', Permutation l l' -> Permutation (filter f l) (filter f l').
Proof.
  intros A f l l' H. induction H; cbn [filter].
  - constructor.
  - destruct (f x); auto.
  - destruct (f x), (f y); auto. apply perm_swap.
  - eapply perm_trans; eauto.
Qed.
Lemma filter_map_length : forall {A B} (f : A -> B) (P : B -> bool) l,
  length (filter P (map f l)) = length (filter (fun x => P (f x)) l).
Proof. intros A B f P l. induction l as [|x l IH]; cbn [map filter]; [reflexivity|]. destruct (P (f x)); cbn [length]; auto. Qed.

(** ** Suffix order *)
Lemma lexlt_irrefl : forall a, ~ lexlt a a.
Proof. induction a as [|x a IH]; cbn [lexlt]; [auto|]. intros [H|[_ H]]; [lia|auto]. Qed.
Lemma lexlt_trans : forall a b c, lexlt a b -> lexlt b c -> lexlt a c.
Proof.
  induction a as [|x a IH]; intros [|y b] [|z c]; cbn [lexlt]; auto; try tauto.
  intros [H1|[-> H1]] [H2|[-> H2]]; try (left; lia). right. split; [reflexivity|]. eauto.
Qed.

Lemma skipn_cons : forall {A} (l : list A) d i, i < length l -> skipn i l = nth i l d :: skipn (S i) l.
Proof.
  intros A l d. induction l as [|x l IH]; intros [|i] H; cbn [length] in H; try lia; [reflexivity|].
  cbn [skipn nth]. apply IH. lia.
Qed.

Section order.
Variable t : list N.
Variable sa : list nat.
Variable y : list N.
Hypothesis Ht : t = y ++ [0%N].
Hypothesis Hsa : suffix_array t sa.
Let n := length t.

Definition SA (i : nat) : nat := nth i sa 0.
(** Rank of a suffix. *)
Fixpoint rankIn (l : list nat) (s : nat) : nat :=
  match l with [] => 0 | x :: r => if x =? s then 0 else S (rankIn r s) end.
Definition RK (s : nat) : nat := rankIn sa s.
Definition C (q : nat) : N := nth q t 0%N.
(** The character with the end of the text smaller than all others. *)
Definition key (q : nat) : N := if S q <? n then (C q + 1)%N else 0%N.

Lemma n_pos : n = S (length y).
Proof. unfold n. rewrite Ht, app_length. cbn [length]. lia. Qed.
Lemma sa_length : length sa = n.
Proof. destruct Hsa as [P _]. apply Permutation_length in P. rewrite seq_length in P. exact P. Qed.
Lemma sa_nodup : NoDup sa.
Proof. destruct Hsa as [P _]. eapply Permutation_NoDup; [apply Permutation_sym, P|apply seq_NoDup]. Qed.
Lemma sa_in : forall s, In s sa <-> s < n.
Proof.
  intros s. destruct Hsa as [P _]. split; intros H.
  - apply (Permutation_in s P), in_seq in H. unfold n. lia.
  - apply (Permutation_in s (Permutation_sym P)), in_seq. unfold n in H. lia.
Qed.
Lemma SA_lt : forall i, i < n -> SA i < n.
Proof. intros i H. apply sa_in. apply nth_In. rewrite sa_length. exact H. Qed.
Lemma rankIn_in : forall l s, In s l -> rankIn l s < length l /\ nth (rankIn l s) l 0 = s.
Proof.
  induction l as [|x l IH]; intros s H; [contradiction|]. cbn [rankIn length].
  destruct (Nat.eqb_spec x s) as [->|D]; [split; [lia|reflexivity]|].
  destruct H as [H|H]; [congruence|]. destruct (IH s H). split; [lia|]. cbn [nth]. assumption.
Qed.
Lemma RK_lt : forall s, s < n -> RK s < n.
Proof. intros s H. rewrite <- sa_length. apply rankIn_in, sa_in, H. Qed.
Lemma SA_RK : forall s, s < n -> SA (RK s) = s.
Proof. intros s H. apply rankIn_in, sa_in, H. Qed.
Lemma RK_SA : forall i, i < n -> RK (SA i) = i.
Proof.
  intros i H. assert (Hl := sa_length). assert (Hs := SA_lt i H).
  assert (Hn := sa_nodup). rewrite (NoDup_nth sa 0) in Hn.
  apply Hn; [rewrite Hl; apply RK_lt, Hs|lia|]. apply SA_RK, Hs.
Qed.
Lemma SA_inj : forall i j, i < n -> j < n -> SA i = SA j -> i = j.
Proof. intros i j Hi Hj E. rewrite <- (RK_SA i Hi), <- (RK_SA j Hj), E. reflexivity. Qed.
Lemma RK_inj : forall i j, i < n -> j < n -> RK i = RK j -> i = j.
Proof. intros i j Hi Hj E. rewrite <- (SA_RK i Hi), <- (SA_RK j Hj), E. reflexivity. Qed.

Lemma ss_nth : forall (R : nat -> nat -> Prop) l, StronglySorted R l -> forall i j, i < j < length l -> R (nth i l 0) (nth j l 0).
Proof.
  intros R l H. induction H as [|x l H IH F]; intros i j Hij; cbn [length] in Hij; [lia|].
  destruct j as [|j]; [lia|]. destruct i as [|i]; cbn [nth].
  - rewrite Forall_forall in F. apply F, nth_In. lia.
  - apply IH. lia.
Qed.
Lemma rank_lex : forall q q', q < n -> q' < n -> (RK q < RK q' <-> lexlt (skipn q t) (skipn q' t)).
Proof.
  intros q q' Hq Hq'. destruct Hsa as [_ S].
  assert (F : forall a b, a < n -> b < n -> RK a < RK b -> lexlt (skipn a t) (skipn b t)).
  { intros a b Ha Hb H. assert (L := ss_nth _ _ S (RK a) (RK b)).
    fold (SA (RK a)) in L. fold (SA (RK b)) in L. rewrite !SA_RK in L by assumption. apply L.
    rewrite sa_length. split; [assumption|apply RK_lt; assumption]. }
  split; [auto|]. intros H.
  destruct (lt_eq_lt_dec (RK q) (RK q')) as [[L|E]|L]; [assumption| |].
  - apply RK_inj in E; auto. subst. exfalso. exact (lexlt_irrefl _ H).
  - exfalso. apply (lexlt_irrefl (skipn q t)). eapply lexlt_trans; eauto.
Qed.

Lemma suffix_cons : forall q, q < n -> skipn q t = C q :: skipn (S q) t.
Proof. intros q H. apply skipn_cons. exact H. Qed.
Lemma last_C : forall q, S q = n -> C q = 0%N /\ skipn (S q) t = [].
Proof.
  intros q H. assert (E := n_pos). split.
  - unfold C. rewrite Ht, app_nth2 by lia. replace (q - length y) with 0 by lia. reflexivity.
  - apply skipn_all2. fold n. lia.
Qed.
Lemma key_lt : forall q q', q < n -> q' < n -> (key q < key q')%N -> RK q < RK q'.
Proof.
  intros q q' Hq Hq' H. apply rank_lex; auto. rewrite (suffix_cons q), (suffix_cons q') by assumption. unfold key in H.
  destruct (Nat.ltb_spec (S q) n), (Nat.ltb_spec (S q') n); cbn [lexlt]; [left; lia|lia| |lia].
  destruct (last_C q ltac:(lia)) as [-> ->].
  destruct (N.eq_dec (C q') 0) as [->|D]; [right; split; [reflexivity|]|left; lia].
  rewrite suffix_cons by lia. exact I.
Qed.
Lemma key_eq : forall q q', S q < n -> S q' < n -> key q = key q' -> (RK q < RK q' <-> RK (S q) < RK (S q')).
Proof.
  intros q q' Hq Hq' H. rewrite !rank_lex by lia. rewrite (suffix_cons q), (suffix_cons q') by lia.
  unfold key in H. destruct (Nat.ltb_spec (S q) n), (Nat.ltb_spec (S q') n); try lia.
  cbn [lexlt]. split; [intros [L|[_ L]]; [lia|exact L]|]. intros L. right. split; [lia|exact L].
Qed.
Lemma key_zero : forall q, q < n -> key q = 0%N -> S q = n.
Proof. intros q H E. unfold key in E. destruct (Nat.ltb_spec (S q) n); lia. Qed.

(** Counting over suffixes is counting over rows. *)
Lemma cnt_rows : forall P, cnt P n = cnt (fun r => P (SA r)) n.
Proof.
  intros P. unfold cnt. rewrite <- (filter_map_length SA P).
  assert (E : map SA (seq 0 n) = sa).
  { apply (nth_ext _ _ 0 0); [rewrite map_length, seq_length; symmetry; apply sa_length|].
    intros i Hi. rewrite map_length, seq_length in Hi.
    rewrite (nth_indep _ 0 (SA 0)) by (rewrite map_length, seq_length; exact Hi).
    rewrite map_nth, seq_nth by exact Hi. reflexivity. }
  rewrite E. destruct Hsa as [Pm _]. symmetry. apply Permutation_length, filter_perm. exact Pm.
Qed.

Lemma rank_count : forall q, q < n -> RK q = cnt (fun q' => RK q' <? RK q) n.
Proof.
  intros q H. rewrite cnt_rows. rewrite (cnt_ext _ (fun r => r <? RK q)).
  - symmetry. apply cnt_ltb. apply Nat.lt_le_incl, RK_lt, H.
  - intros r Hr. rewrite RK_SA by assumption. reflexivity.
Qed.

(** The rank of the suffix [k] characters earlier, [K] being a summary of those characters. *)
Lemma LF_general : forall k (K : nat -> N),
  (forall q q', q < n -> q' < n -> (K q < K q')%N -> RK q < RK q') ->
  (forall q q', q + k < n -> q' + k < n -> K q = K q' -> (RK q < RK q' <-> RK (q + k) < RK (q' + k))) ->
  (forall q q', q + k < n -> q' < n -> K q' = K q -> q' + k < n) ->
  forall q, q + k < n ->
  RK q = cnt (fun q' => (K q' <? K q)%N) n +
         cnt (fun r => (k <=? SA r) && (K (SA r - k)%nat =? K q)%N) (RK (q + k)).
Proof.
  intros k K H1 H2 H3 q Hq. rewrite (rank_count q) by lia.
  rewrite (cnt_split _ (fun q' => (K q' <? K q)%N)). f_equal.
  - apply cnt_ext. intros q' Hq'. destruct (N.ltb_spec (K q') (K q)); [|apply andb_false_r].
    rewrite andb_true_r. apply Nat.ltb_lt. apply H1; auto; lia.
  - rewrite (cnt_ext _ (fun q' => (K q' =? K q)%N && (q' + k <? n) && (RK (q' + k) <? RK (q + k)))).
    + transitivity (cnt (fun q' => (K q' =? K q)%N && (RK (q' + k) <? RK (q + k))) (n - k)).
      * replace (cnt (fun q' => (K q' =? K q)%N && (q' + k <? n) && (RK (q' + k) <? RK (q + k))) n)
          with (cnt (fun q' => (K q' =? K q)%N && (RK (q' + k) <? RK (q + k)) && (q' <? n - k)) n).
        { apply (cnt_restrict (fun q' => (K q' =? K q)%N && (RK (q' + k) <? RK (q + k)))). lia. }
        apply cnt_ext. intros i Hi.
        destruct (Nat.ltb_spec (i + k) n), (Nat.ltb_spec i (n - k)); try lia; cbn [andb];
          rewrite ?andb_true_r, ?andb_false_r; reflexivity.
      * rewrite (cnt_shift _ k n) by lia. rewrite cnt_rows.
        rewrite <- (cnt_restrict _ (RK (q + k)) n) by (apply Nat.lt_le_incl, RK_lt, Hq).
        apply cnt_ext. intros r Hr. destruct (Nat.leb_spec k (SA r)); cbn [andb]; [|reflexivity].
        replace (SA r - k + k) with (SA r) by lia. rewrite RK_SA by assumption. reflexivity.
    + intros q' Hq'. destruct (N.eqb_spec (K q') (K q)) as [E|E]; cbn [andb].
      * assert (L := H3 q q' Hq Hq' E). destruct (Nat.ltb_spec (q' + k) n); [|lia]. cbn [andb].
        rewrite E, N.ltb_irrefl. cbn [negb]. rewrite andb_true_r.
        assert (I := H2 q' q L Hq E).
        destruct (Nat.ltb_spec (RK q') (RK q)), (Nat.ltb_spec (RK (q' + k)) (RK (q + k))); lia.
      * destruct (N.ltb_spec (K q') (K q)); cbn [negb]; [apply andb_false_r|].
        rewrite andb_true_r. apply Nat.ltb_ge.
        assert (RK q < RK q'); [|lia]. apply H1; lia.
Qed.

(** *** One character *)

(** The character of row [r]: the one before the suffix. *)
Definition B (r : nat) : N := C (SA r - 1).
Definition isEob (r : nat) : bool := SA r =? 0.
Definition lessRows (c : N) : nat := cnt (fun r => negb (isEob r) && (B r <? c)%N) n.

Lemma cnt_key : forall c, cnt (fun q => (key q <? c + 1)%N) n = S (lessRows c).
Proof.
  intros c. unfold lessRows. assert (En := n_pos).
  replace n with (S (n - 1)) at 1 by lia. rewrite cnt_S.
  unfold key at 2. destruct (Nat.ltb_spec (S (n - 1)) n); [lia|].
  destruct (N.ltb_spec 0 (c + 1)); [|lia].
  rewrite (cnt_shift _ 1 n) by lia. rewrite cnt_rows, Nat.add_1_r. f_equal.
  apply cnt_ext. intros r Hr. unfold isEob, B. destruct (Nat.eqb_spec (SA r) 0) as [->|D]; [reflexivity|].
  destruct (Nat.leb_spec 1 (SA r)); [|lia]. cbn [negb andb]. unfold key.
  assert (L := SA_lt r Hr). destruct (Nat.ltb_spec (S (SA r - 1)) n); [|lia].
  destruct (N.ltb_spec (C (SA r - 1) + 1) (c + 1)), (N.ltb_spec (C (SA r - 1)) c); lia.
Qed.

Lemma LF_one : forall i, i < n -> SA i <> 0 ->
  RK (SA i - 1) = S (lessRows (B i)) + cnt (fun r => negb (isEob r) && (B r =? B i)%N) i.
Proof.
  intros i Hi Hs. assert (L := SA_lt i Hi).
  rewrite (LF_general 1 key); [| | | |lia].
  - replace (SA i - 1 + 1) with (SA i) by lia. rewrite RK_SA by assumption.
    assert (E : key (SA i - 1) = (B i + 1)%N).
    { unfold key, B. destruct (Nat.ltb_spec (S (SA i - 1)) n); [reflexivity|lia]. }
    rewrite E, cnt_key. f_equal. apply cnt_ext. intros r Hr. unfold isEob.
    destruct (Nat.leb_spec 1 (SA r)), (Nat.eqb_spec (SA r) 0); cbn [negb andb]; try lia.
    unfold key, B. assert (L2 := SA_lt r ltac:(lia)). destruct (Nat.ltb_spec (S (SA r - 1)) n); [|lia].
    destruct (N.eqb_spec (C (SA r - 1) + 1) (C (SA i - 1) + 1)), (N.eqb_spec (C (SA r - 1)) (C (SA i - 1))); lia.
  - exact key_lt.
  - intros q q' Hq Hq' E. rewrite !Nat.add_1_r. apply key_eq; lia.
  - intros q q' Hq Hq' E. unfold key in E.
    destruct (Nat.ltb_spec (S q') n); [lia|]. destruct (Nat.ltb_spec (S q) n); lia.
Qed.

(** *** Two characters *)

(** The number a pair of characters is counted under (see the comment in
    MtlSaInverseBWT.cpp): the pair starting at [q], the last two suffixes being special. *)
Definition pairIdx (q : nat) : N :=
  if S q =? n then 0%N
  else if S (S q) =? n then (C q * 256)%N
  else (C q * 256 + C (S q) + 1)%N.
Definition key2 (q : nat) : N := (key q * 257 + key (S q))%N.
(** The pair before the suffix of row [r]. *)
Definition PR (r : nat) : N := (C (SA r - 2) * 256 + C (SA r - 1))%N.

Hypothesis Hbytes : Forall (fun c => (c < 256)%N) t.
Lemma C_byte : forall q, (C q < 256)%N.
Proof.
  intros q. unfold C. destruct (Nat.ltb_spec q (length t)) as [H|H].
  - rewrite Forall_forall in Hbytes. apply Hbytes, nth_In. exact H.
  - rewrite nth_overflow by exact H. lia.
Qed.
Lemma key_byte : forall q, (key q < 257)%N.
Proof. intros q. unfold key. assert (H := C_byte q). destruct (Nat.ltb_spec (S q) n); lia. Qed.

Lemma key2_lt : forall q q', q < n -> q' < n -> (key2 q < key2 q')%N -> RK q < RK q'.
Proof.
  intros q q' Hq Hq' H. unfold key2 in H.
  assert (B1 := key_byte (S q)). assert (B2 := key_byte (S q')).
  destruct (N.lt_trichotomy (key q) (key q')) as [L|[E|L]]; [apply key_lt; auto| |lia].
  destruct (Nat.ltb_spec (S q) n) as [L1|L1], (Nat.ltb_spec (S q') n) as [L2|L2].
  - apply key_eq; auto. apply key_lt; lia.
  - exfalso. revert E. unfold key. destruct (Nat.ltb_spec (S q) n), (Nat.ltb_spec (S q') n); lia.
  - exfalso. revert E. unfold key. destruct (Nat.ltb_spec (S q) n), (Nat.ltb_spec (S q') n); lia.
  - exfalso. assert (q = q') by lia. subst. lia.
Qed.

Lemma key2_eq : forall q q', key2 q = key2 q' -> key q = key q' /\ key (S q) = key (S q').
Proof.
  intros q q' H. unfold key2 in H. assert (B1 := key_byte (S q)). assert (B2 := key_byte (S q')). lia.
Qed.

Lemma pairIdx_key2 : forall q a b, q < n -> (a < 256)%N -> (b < 256)%N ->
  ((pairIdx q <=? a * 256 + b) = (key2 q <? (a + 1) * 257 + (b + 1)))%N.
Proof.
  intros q a b Hq Ha Hb. unfold pairIdx, key2, key.
  assert (B1 := C_byte q). assert (B2 := C_byte (S q)).
  destruct (Nat.eqb_spec (S q) n).
  { destruct (Nat.ltb_spec (S q) n); [lia|]. destruct (Nat.ltb_spec (S (S q)) n); [lia|].
    destruct (N.leb_spec 0 (a * 256 + b)), (N.ltb_spec (0 * 257 + 0) ((a + 1) * 257 + (b + 1))); lia. }
  destruct (Nat.ltb_spec (S q) n); [|lia].
  destruct (Nat.eqb_spec (S (S q)) n).
  - destruct (Nat.ltb_spec (S (S q)) n); [lia|].
    destruct (N.leb_spec (C q * 256) (a * 256 + b)), (N.ltb_spec ((C q + 1) * 257 + 0) ((a + 1) * 257 + (b + 1))); lia.
  - destruct (Nat.ltb_spec (S (S q)) n); [|lia].
    destruct (N.leb_spec (C q * 256 + C (S q) + 1) (a * 256 + b)),
      (N.ltb_spec ((C q + 1) * 257 + (C (S q) + 1)) ((a + 1) * 257 + (b + 1))); lia.
Qed.

Lemma LF_two : forall i, i < n -> 2 <= SA i ->
  RK (SA i - 2) = cnt (fun q => (pairIdx q <=? PR i)%N) n +
                  cnt (fun r => (2 <=? SA r) && (PR r =? PR i)%N) i.
Proof.
  intros i Hi Hs. assert (L := SA_lt i Hi).
  assert (K : forall r, r < n -> 2 <= SA r -> key2 (SA r - 2) = ((C (SA r - 2) + 1) * 257 + (C (SA r - 1) + 1))%N).
  { intros r Hr H2. assert (L2 := SA_lt r Hr). unfold key2, key. replace (S (SA r - 2)) with (SA r - 1) by lia.
    destruct (Nat.ltb_spec (SA r - 1) n); [|lia]. destruct (Nat.ltb_spec (S (SA r - 1)) n); [|lia]. reflexivity. }
  rewrite (LF_general 2 key2); [| | | |lia].
  - replace (SA i - 2 + 2) with (SA i) by lia. rewrite RK_SA by assumption. f_equal.
    + apply cnt_ext. intros q Hq. unfold PR. rewrite pairIdx_key2 by (auto using C_byte). rewrite K by assumption. reflexivity.
    + apply cnt_ext. intros r Hr. destruct (Nat.leb_spec 2 (SA r)); cbn [andb]; [|reflexivity].
      rewrite !K by (auto; lia). unfold PR.
      assert (B1 := C_byte (SA r - 2)). assert (B2 := C_byte (SA r - 1)).
      assert (B3 := C_byte (SA i - 2)). assert (B4 := C_byte (SA i - 1)).
      apply eq_true_iff_eq. rewrite !N.eqb_eq. clear -B1 B2 B3 B4. lia.
  - exact key2_lt.
  - intros q q' Hq Hq' E. destruct (key2_eq _ _ E) as [E1 E2].
    rewrite key_eq by (auto; lia). replace (q + 2) with (S (S q)) by lia. replace (q' + 2) with (S (S q')) by lia.
    apply key_eq; auto; lia.
  - intros q q' Hq Hq' E. destruct (key2_eq _ _ E) as [E1 E2]. unfold key in E1, E2.
    destruct (Nat.ltb_spec (S q') n); destruct (Nat.ltb_spec (S q) n); try lia.
    destruct (Nat.ltb_spec (S (S q')) n); destruct (Nat.ltb_spec (S (S q)) n); try lia.
Qed.

Lemma RK_last : RK (n - 1) = 0.
Proof.
  assert (En := n_pos). rewrite rank_count by lia. apply cnt_none. intros q Hq. apply Nat.ltb_ge.
  destruct (Nat.eq_dec q (n - 1)) as [->|D]; [lia|]. apply Nat.lt_le_incl, key_lt; try lia.
  unfold key. destruct (Nat.ltb_spec (S (n - 1)) n); [lia|]. destruct (Nat.ltb_spec (S q) n); lia.
Qed.
Lemma SA_first : SA 0 = n - 1.
Proof. assert (En := n_pos). assert (H := SA_RK (n - 1) ltac:(lia)). rewrite RK_last in H. exact H. Qed.
End order.

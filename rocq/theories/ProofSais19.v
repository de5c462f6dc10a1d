(** saisxx_bwt gives what the suffix array gives. *)
From Coq Require Import List NArith ZArith Arith Bool Lia Permutation Sorted.
From Coq Require Import ZifyBool ZifyNat ZifyN.
From Verif Require Import Base Arrays ModelBWT SpecBWT ModelSais ProofSais1 ProofSais2 ProofSais3 ProofSais4 ProofSais5 ProofSais6 ProofSais14 ProofSais18.
Import ListNotations.
Open Scope nat_scope.

Lemma increasing_id : forall n f, (forall i, i < n -> f i < n) -> (forall i j, i < j -> j < n -> f i < f j) -> forall i, i < n -> f i = i.
Proof.
  intros n f B M.
  assert (Lo : forall i, i < n -> i <= f i).
  { induction i as [|i IH]; intros H; [lia|]. pose proof (M i (S i) ltac:(lia) H). specialize (IH ltac:(lia)). lia. }
  assert (Hi : forall d i, i + d = n -> i < n -> f i + d <= n).
  { induction d as [|d IH]; intros i E H; [lia|]. destruct d as [|d].
    - specialize (B i H). lia.
    - pose proof (M i (S i) ltac:(lia) ltac:(lia)). specialize (IH (S i) ltac:(lia) ltac:(lia)). lia. }
  intros i H. specialize (Lo i H). specialize (Hi (n - i) i ltac:(lia) H). lia.
Qed.

Lemma sorted_nth : forall {A} (R : A -> A -> Prop) l, StronglySorted R l -> forall i j a b, i < j ->
  nth_error l i = Some a -> nth_error l j = Some b -> R a b.
Proof.
  intros A R l H. induction H as [|x l H IH F]; intros i j a b L Ha Hb; [destruct i; discriminate|].
  destruct j as [|j]; [lia|]. cbn [nth_error] in Hb. destruct i as [|i]; cbn [nth_error] in Ha.
  - injection Ha as <-. rewrite Forall_forall in F. apply F. eapply nth_error_In, Hb.
  - apply (IH i j); auto. lia.
Qed.

Section Whole.
Variable T : list N.
Let n := length T.
Variable sa : list nat.
Hypothesis HS : suffix_array T sa.

Lemma sa_length : length sa = n.
Proof. destruct HS as [P _]. apply Permutation_length in P. rewrite seq_length in P. exact P. Qed.
Lemma sa_below : forall r q, nth_error sa r = Some q -> q < n.
Proof.
  intros r q H. destruct HS as [P _]. apply nth_error_In in H. apply (Permutation_in _ P) in H. apply in_seq in H. unfold n. lia.
Qed.
Lemma sa_rank : forall r q, nth_error sa r = Some q -> rank T q = r.
Proof.
  intros r q H. pose proof (nth_error_bound _ _ _ H) as B. rewrite sa_length in B.
  rewrite <- (nth_error_nth _ _ 0 H).
  apply (increasing_id n (fun i => rank T (nth i sa 0))); [| |exact B].
  - intros i Hi. apply rank_lt. apply (sa_below i). apply nth_error_nth'. rewrite sa_length. exact Hi.
  - intros i j L Hj.
    assert (Ei : nth_error sa i = Some (nth i sa 0)) by (apply nth_error_nth'; rewrite sa_length; lia).
    assert (Ej : nth_error sa j = Some (nth j sa 0)) by (apply nth_error_nth'; rewrite sa_length; lia).
    apply rank_mono; [eapply sa_below; eauto|eapply sa_below; eauto|].
    destruct HS as [_ S]. apply lexltb_spec. apply (sorted_nth _ _ S i j); auto.
Qed.
Lemma rank_sa : forall q, q < n -> nth_error sa (rank T q) = Some q.
Proof.
  intros q H. pose proof (rank_lt T q H) as B. destruct (nth_error sa (rank T q)) as [p|] eqn:E.
  - f_equal. apply (rank_inj T); [eapply sa_below; eauto|exact H|]. apply sa_rank, E.
  - apply nth_error_None in E. rewrite sa_length in E. unfold n in E. lia.
Qed.

Lemma index_at : forall l s r, nth_error l r = Some s -> (forall i, i < r -> nth_error l i <> Some s) -> indexOf s l = Ok r.
Proof.
  induction l as [|x l IH]; intros s r H N; [destruct r; discriminate|]. cbn [indexOf]. destruct r as [|r].
  - injection H as ->. rewrite Nat.eqb_refl. reflexivity.
  - destruct (Nat.eqb_spec x s) as [D|D]; [exfalso; apply (N 0 ltac:(lia)); cbn; congruence|].
    cbn [nth_error] in H. rewrite (IH s r H); [reflexivity|]. intros i Hi. exact (N (S i) ltac:(lia)).
Qed.
Lemma index_rank : forall q, q < n -> indexOf q sa = Ok (rank T q).
Proof.
  intros q H. apply index_at; [apply rank_sa, H|]. intros i Hi E. apply sa_rank in E. lia.
Qed.

Lemma rows_at : forall l i, i + length l = n -> (forall r q, nth_error l r = Some q -> q < n) ->
  exists U, bwtRows T i l = Ok U /\ length U = length l /\
    forall r q, nth_error l r = Some q -> nth_error U r = Some (if q =? 0 then ch T (i + r) else ch T (q - 1)).
Proof.
  induction l as [|s l IH]; intros i H B; cbn [bwtRows].
  - exists []. repeat split. intros [|r]; discriminate.
  - cbn [length] in H. destruct (IH (S i)) as (U & E & LU & HU); [lia|intros r q Hq; apply (B (S r) q Hq)|].
    pose proof (B 0 s eq_refl) as Bs.
    assert (G : (match s with O => get T i | S s' => get T s' end) = Ok (if s =? 0 then ch T i else ch T (s - 1))).
    { destruct s as [|s]; cbn [Nat.eqb]; [apply get_ch; unfold n in *; lia|]. replace (S s - 1) with s by lia. apply get_ch. unfold n in *; lia. }
    rewrite G, E. cbn [bind]. eexists. split; [reflexivity|]. split; [cbn [length]; lia|].
    intros [|r] q Hq; cbn [nth_error] in *.
    + injection Hq as <-. rewrite Nat.add_0_r. reflexivity.
    + rewrite (HU r q Hq). replace (S i + r) with (i + S r) by lia. reflexivity.
Qed.

Lemma starting_at : forall x, 0 < x -> forall todo k, (k + todo) * x <= n + x -> 0 < n -> exists l, startingPoints n x k todo sa = Ok l /\ length l = todo /\
  forall j, j < todo -> nth_error l j = Some (N.of_nat (rank T (if k + j =? 0 then 0 else n - (k + j) * x))).
Proof.
  intros x Hx. induction todo as [|todo IH]; intros k H Hn; cbn [startingPoints].
  - exists []. repeat split. lia.
  - rewrite index_rank by (destruct (Nat.eqb_spec k 0); nia). cbn [bind].
    destruct (IH (S k)) as (l & E & Ll & Hl); [nia|exact Hn|]. rewrite E. cbn [bind].
    eexists. split; [reflexivity|]. split; [cbn [length]; lia|]. intros [|j] Hj; cbn [nth_error].
    + rewrite Nat.add_0_r. reflexivity.
    + rewrite (Hl j ltac:(lia)). replace (S k + j) with (k + S j) by lia. reflexivity.
Qed.

Lemma copy_at : forall pidx Uf, length Uf = n -> forall A i U freqs, i + length A = n -> length U = n ->
  (forall r a, nth_error A r = Some a -> i + r <> pidx -> nth_error Uf (i + r) = Some (Z.to_N (a mod 256))) ->
  (forall j, j < i \/ j = pidx -> nth_error U j = nth_error Uf j) ->
  copyRows pidx i A U freqs = (let! f := countRows pidx i (skipn i Uf) freqs in Ok (Uf, f)).
Proof.
  intros pidx Uf LF. induction A as [|a A IH]; intros i U freqs Hi LU HA HU; cbn [copyRows].
  - cbn [length] in Hi. rewrite skipn_all2 by lia. cbn [countRows bind]. f_equal. f_equal. apply nth_error_ext. intros j.
    destruct (Nat.lt_ge_cases j n) as [L|L]; [apply HU; lia|]. rewrite !(proj2 (nth_error_None _ _)) by lia. reflexivity.
  - cbn [length] in Hi.
    destruct (nth_error Uf i) as [u|] eqn:Eu; [|apply nth_error_None in Eu; lia].
    assert (SK : skipn i Uf = u :: skipn (S i) Uf).
    { clear - Eu. revert i Eu. induction Uf as [|x l IHl]; intros [|i] Eu; try discriminate; cbn [nth_error skipn] in *; [congruence|].
      rewrite (IHl i Eu). reflexivity. }
    rewrite SK. cbn [countRows].
    assert (NX : forall r a0, nth_error A r = Some a0 -> S i + r <> pidx -> nth_error Uf (S i + r) = Some (Z.to_N (a0 mod 256))).
    { intros r a0 H D. replace (S i + r) with (i + S r) in * by lia. apply HA; auto. }
    destruct (Nat.eqb_spec i pidx) as [D|D].
    + apply IH; auto; [lia|]. intros j [Hj|Hj]; apply HU; lia.
    + pose proof (HA 0 a eq_refl ltac:(lia)) as Ea. rewrite Nat.add_0_r, Eu in Ea. injection Ea as Ea. rewrite <- Ea.
      rewrite set_ok by lia. cbn [bind]. destruct (get freqs (N.to_nat u)) as [f| |]; cbn [bind]; try reflexivity.
      match goal with |- context [set freqs ?a ?b] => destruct (set freqs a b) as [fr| |] end; cbn [bind]; try reflexivity.
      apply IH; auto; [lia|rewrite upd_length; exact LU|]. intros j Hj. destruct (Nat.eq_dec j i) as [Dj|Dj].
      * subst j. rewrite nth_error_upd_same by lia. symmetry. exact Eu.
      * rewrite nth_error_upd_other by lia. apply HU. lia.
Qed.

Theorem saisxx_ok : forall nLF freqs, charsBelow T 256 -> 0 < nLF <= n ->
  saisxx_bwt T nLF freqs = divbwtf T sa nLF freqs.
Proof.
  intros nLF freqs HT HF. assert (Hn : 0 < n) by lia.
  unfold saisxx_bwt, divbwtf. fold n. replace (nLF =? 0) with false by lia.
  destruct (sortLMS_ok stage1_ok n T (repeat 0%Z n) 0 256) as (A & C & EA & SA & HC & LA); auto.
  { rewrite repeat_length. fold n. lia. }
  rewrite repeat_length in LA. rewrite EA. cbn [bind].
  rewrite (index_rank 0 Hn). cbn [bind].
  destruct (rows_at sa 0) as (U & EU & LU & HU); [rewrite sa_length; reflexivity|apply sa_below|].
  rewrite EU. cbn [bind]. rewrite sa_length in LU.
  destruct (starting_at (n / nLF)) with (todo := nLF) (k := 0) as (lf & El & Ll & Hl); [apply Nat.div_str_pos; lia| |exact Hn|].
  { rewrite Nat.add_0_l. eapply Nat.le_trans; [apply Nat.mul_div_le; lia|apply Nat.le_add_r]. }
  rewrite El. cbn [bind].
  assert (Copy : forall A', (forall q, q < n -> nth_error A' (rank T q) = Some (bwtChar T q)) -> length A' = n ->
    copyRows (rank T 0) 0 A' T freqs = (let! f := countRows (rank T 0) 0 U freqs in Ok (U, f))).
  { intros A' HA' LA'. rewrite (copy_at (rank T 0) U LU A' 0 T freqs); auto.
    - intros r a Ha Hr. cbn [Nat.add] in *. pose proof (nth_error_bound _ _ _ Ha) as B. rewrite LA' in B.
      destruct (nth_error sa r) as [q|] eqn:Eq; [|apply nth_error_None in Eq; rewrite sa_length in Eq; lia].
      pose proof (sa_below r q Eq) as Bq. pose proof (sa_rank r q Eq) as Rq.
      rewrite (HU r q Eq). rewrite <- Rq, HA' in Ha by exact Bq. injection Ha as <-. unfold bwtChar.
      destruct (Nat.eqb_spec q 0) as [D|D]; [subst q; congruence|]. f_equal.
      pose proof (HT (q - 1) ltac:(unfold n in *; lia)) as Hc. rewrite Z.mod_small by lia. lia.
    - intros j [Hj|Hj]; [lia|]. subst j. pose proof (rank_sa 0 Hn) as E0. rewrite (HU _ 0 E0). cbn [Nat.eqb Nat.add].
      pose proof (rank_lt T 0 Hn) as B. apply get_ch in B. unfold get in B. destruct (nth_error T (rank T 0)); congruence. }
  destruct (Nat.eqb_spec nLF 1) as [D|D].
  - destruct (computeBWT_ok T 256 HT Hn A C SA HC) as (A' & E' & HA' & LA' & _). rewrite E'. cbn [bind].
    rewrite Copy by (auto; congruence).
    assert (lf = [N.of_nat (rank T 0)]) as ->.
    { apply nth_error_ext. intros [|j].
      - rewrite (Hl 0 ltac:(lia)). reflexivity.
      - rewrite !(proj2 (nth_error_None _ _)) by (cbn [length]; lia). reflexivity. }
    destruct (countRows (rank T 0) 0 U freqs); reflexivity.
  - destruct (computeBWTPowers_ok T 256 HT Hn nLF HF A C (repeat 0%N nLF)) as (A' & lf' & E' & HA' & LA' & _ & Ll' & H0' & Hj'); auto; [apply repeat_length|].
    rewrite E'. cbn [bind]. rewrite Copy by (auto; congruence).
    assert (lf' = lf) as ->.
    { apply nth_error_ext. intros j. destruct (Nat.lt_ge_cases j nLF) as [L|L].
      - rewrite (Hl j L). cbn [Nat.add]. destruct (Nat.eqb_spec j 0) as [Dj|Dj]; [subst j; exact H0'|]. apply Hj'. lia.
      - rewrite !(proj2 (nth_error_None _ _)) by lia. reflexivity. }
    destruct (countRows (rank T 0) 0 U freqs); reflexivity.
Qed.
End Whole.

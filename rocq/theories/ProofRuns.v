(** Run splitting: lemmas. *)
From Coq Require Import List NArith ZArith Lia Arith Bool.
From Coq Require Import ZifyBool ZifyNat ZifyN.
From Verif Require Import Base ModelRuns SpecRuns.
Import ListNotations.
Open Scope N_scope.

Lemma skipEqual_spec : forall c l k q, skipEqual c l = (k, q) ->
  l = repeat c k ++ q /\ (length q <= length l)%nat /\
  match q with [] => True | x :: _ => c <> x end.
Proof.
  induction l as [|x l IH]; intros k q E; simpl in E.
  - inversion E; subst. simpl. auto.
  - destruct (N.eqb_spec c x) as [->|NE].
    + destruct (skipEqual x l) as [n q'] eqn:E'. inversion E; subst.
      destruct (IH _ _ eq_refl) as [A [B C]]. simpl. split; [f_equal; exact A|]. split; [lia|auto].
    + inversion E; subst. simpl. repeat split; auto.
Qed.

Lemma runLoop_spec : forall fuel src, src <> [] -> (length src <= fuel)%nat ->
  exists runs, runLoop fuel src = Ok runs /\ is_runs_of src runs /\
    (forall c s, src = c :: s -> exists n t, runs = (c, n) :: t).
Proof.
  induction fuel as [|f IH]; intros src Hne Hf.
  { destruct src; [contradiction|simpl in Hf; lia]. }
  destruct src as [|c s]; [contradiction|].
  cbn [runLoop]. destruct (skipEqual c s) as [k q] eqn:E.
  destruct (skipEqual_spec _ _ _ _ E) as [A [B C]].
  destruct q as [|x [|y q]].
  - cbn [bind]. eexists. split; [reflexivity|]. split.
    + repeat split; cbn; auto. rewrite app_nil_r in *. f_equal. auto.
      constructor; auto. simpl. lia.
    + intros c0 s0 E0. inversion E0; subst. eauto.
  - cbn [bind]. eexists. split; [reflexivity|]. split.
    + repeat split; cbn; auto.
      * f_equal. symmetry. exact A.
      * constructor; [simpl; lia|]. constructor; [simpl; lia|constructor].
    + intros c0 s0 E0. inversion E0; subst. eauto.
  - destruct (IH (x :: y :: q)) as [runs [Er [[R1 [R2 R3]] R4]]]; [discriminate| |].
    { simpl in Hf, B |- *. lia. }
    rewrite Er. cbn [bind]. eexists. split; [reflexivity|]. split.
    + destruct (R4 _ _ eq_refl) as [n [t ->]]. repeat split.
      * unfold expand in *. cbn [flat_map fst snd repeat app] in *. rewrite R1. f_equal. symmetry. exact A.
      * exact C.
      * exact R2.
      * constructor; auto. simpl. lia.
    + intros c0 s0 E0. inversion E0; subst. eauto.
Qed.

Lemma emittedRuns_spec : forall src, src <> [] ->
  exists runs, emittedRuns src = Ok runs /\ is_runs_of src runs.
Proof.
  intros src H. destruct (runLoop_spec (length src) src H (le_n _)) as [r [E [R _]]].
  exists r. auto.
Qed.

Lemma bump_fold : forall l f c,
  fold_left (fun f (r : N * nat) => bumpN f (fst r)) l f c
  = f c + N.of_nat (count_occ N.eq_dec (map fst l) c).
Proof.
  induction l as [|[x n] l IH]; intros f c; simpl; [lia|].
  rewrite IH. unfold bumpN. destruct (N.eq_dec x c) as [->|NE].
  - rewrite N.eqb_refl. simpl. lia.
  - destruct (N.eqb_spec c x); [congruence|]. lia.
Qed.

Lemma bump3_fold : forall l f g n c k,
  let '(f', g', n') := fold_left (fun (st : counters N * counters nat * nat) (r : N * nat) =>
        let '(f, g, n) := st in (bumpN f (fst r), bumpNat g (snd r), S n)) l (f, g, n) in
  f' c = f c + N.of_nat (count_occ N.eq_dec (map fst l) c) /\
  g' k = g k + N.of_nat (count_occ Nat.eq_dec (map snd l) k) /\
  n' = (n + length l)%nat.
Proof.
  induction l as [|[x m] l IH]; intros f g n c k.
  - simpl. lia.
  - cbn [fold_left fst snd]. specialize (IH (bumpN f x) (bumpNat g m) (S n) c k).
    destruct (fold_left _ l _) as [[f' g'] n']. destruct IH as [A [B C]].
    rewrite A, B, C. cbn [map fst snd count_occ length]. unfold bumpN, bumpNat.
    repeat split.
    + destruct (N.eq_dec x c) as [->|NE].
      * rewrite N.eqb_refl. lia.
      * destruct (N.eqb_spec c x); [congruence|]. lia.
    + destruct (Nat.eq_dec m k) as [->|NE].
      * rewrite Nat.eqb_refl. lia.
      * destruct (Nat.eqb_spec k m); [congruence|]. lia.
    + lia.
Qed.

Lemma store_runs_all : forall (freqs : N -> N) src, src <> [] ->
  exists runs freqs',
    calculateRunFrequenciesAndStoreRuns freqs src
      = Ok (freqs', map fst runs, map snd runs, length runs) /\
    is_runs_of src runs /\
    forall c, freqs' c = freqs c + N.of_nat (count_occ N.eq_dec (map fst runs) c).
Proof.
  intros freqs src H. destruct (emittedRuns_spec src H) as [runs [E R]].
  exists runs. eexists. unfold calculateRunFrequenciesAndStoreRuns. rewrite E. cbn [bind].
  split; [reflexivity|]. split; auto. intros c. apply bump_fold.
Qed.

Lemma run_counters_all : forall (freqs : N -> N) (lens : nat -> N) src, src <> [] ->
  exists runs freqs1 freqs2 lens',
    is_runs_of src runs /\
    calculateRunFrequencies freqs src = Ok freqs1 /\
    calculateRunsAndCharacters freqs src lens = Ok (freqs2, lens', length runs) /\
    (forall c, freqs1 c = freqs c + N.of_nat (count_occ N.eq_dec (map fst runs) c)) /\
    (forall c, freqs2 c = freqs c + N.of_nat (count_occ N.eq_dec (map fst runs) c)) /\
    (forall k, lens' k = lens k + N.of_nat (count_occ Nat.eq_dec (map snd runs) k)).
Proof.
  intros freqs lens src H. destruct (emittedRuns_spec src H) as [runs [E R]].
  unfold calculateRunFrequencies, calculateRunsAndCharacters. rewrite E. cbn [bind].
  pose proof (fun c k => bump3_fold runs freqs lens 0 c k) as B.
  match type of B with forall _ _, let '_ := ?x in _ => set (F3 := x) in * end.
  unfold counters in *. fold F3. destruct F3 as [[f3 g3] n3].
  exists runs. eexists. exists f3, g3.
  split; [exact R|]. split; [reflexivity|].
  split. { destruct (B 0 0%nat) as [_ [_ ->]]. reflexivity. }
  split; [intros c; apply bump_fold|].
  split; [intros c; apply (B c 0%nat)|intros k; apply (B 0 k)].
Qed.

Lemma is_runs_of_unique : forall src r1 r2, is_runs_of src r1 -> is_runs_of src r2 -> r1 = r2.
Proof.
  intros src r1. revert src.
  induction r1 as [|[c n] r1 IH]; intros src r2 [E1 [D1 L1]] [E2 [D2 L2]].
  - cbn in E1. subst src. destruct r2 as [|[d m] r2]; auto.
    inversion L2; subst. simpl in *. destruct m; [lia|]. discriminate.
  - inversion L1 as [|? ? Hn L1']; subst; simpl in Hn.
    destruct r2 as [|[d m] r2].
    { cbn in E2. destruct n; [lia|]. discriminate. }
    inversion L2 as [|? ? Hm L2']; subst; simpl in Hm.
    unfold expand in E2; cbn [flat_map fst snd] in E2; fold (expand r1) (expand r2) in E2.
    assert (c = d). { destruct n; [lia|]. destruct m; [lia|]. simpl in E2. congruence. }
    subst d.
    assert (head_ok : forall r n, neighbours_differ ((c, n) :: r) -> Forall (fun r => (1 <= snd r)%nat) r ->
      match expand r with [] => True | x :: _ => x <> c end).
    { intros r k Hd Hl. destruct r as [|[e j] r]; [exact I|]. inversion Hl; subst. simpl in *.
      destruct j; [lia|]. simpl. intuition congruence. }
    pose proof (head_ok _ _ D1 L1') as H1. pose proof (head_ok _ _ D2 L2') as H2.
    assert (split_eq : forall n m a b, repeat c n ++ a = repeat c m ++ b ->
       match a with [] => True | x :: _ => x <> c end ->
       match b with [] => True | x :: _ => x <> c end -> n = m /\ a = b).
    { clear. induction n as [|n IHn]; intros [|m] a b E Ha Hb; simpl in E.
      - auto.
      - subst a. simpl in Ha. congruence.
      - subst b. simpl in Hb. congruence.
      - inversion E as [E']. destruct (IHn _ _ _ E' Ha Hb). auto. }
    destruct (split_eq _ _ _ _ E2 H2 H1) as [-> E'].
    f_equal. apply (IH (expand r1)).
    + repeat split; auto. destruct r1 as [|]; [exact I|]. destruct D1; auto.
    + repeat split; auto. destruct r2 as [|]; [exact I|]. destruct D2; auto.
Qed.

(** The fast inverse transform. *)
From Coq Require Import List NArith ZArith Lia Arith Bool Permutation Sorted.
From Coq Require Import ZifyBool ZifyNat ZifyN.
From Verif Require Import Base Arrays TArray ModelUtils ModelHeaders ModelBWT SpecBWT ProofBWT1.
Import ListNotations.
Open Scope nat_scope.

Lemma forLoop_nat : forall {S0} (I : nat -> S0 -> Prop) body k a st, I a st ->
  (forall j s, a <= j < a + k -> I j s -> exists s', body (N.of_nat j) s = Ok s' /\ I (S j) s') ->
  exists st', forLoop k (N.of_nat a) body st = Ok st' /\ I (a + k) st'.
Proof.
  intros S0 I body k a st H0 Hs.
  destruct (forLoop_inv (fun i s => I (N.to_nat i) s) body k (N.of_nat a) st) as (st' & E & H).
  - rewrite Nat2N.id. exact H0.
  - intros j s Hj H. destruct (Hs (N.to_nat j) s ltac:(lia) H) as (s' & E' & H').
    rewrite N2Nat.id in E'. exists s'. split; [exact E'|]. replace (N.to_nat (j + 1)) with (S (N.to_nat j)) by lia. exact H'.
  - exists st'. split; [exact E|]. replace (a + k) with (N.to_nat (N.of_nat a + N.of_nat k)) by lia. exact H.
Qed.

(** ** Partial sums *)
Fixpoint psum (f : N -> N) (k : nat) : N :=
  match k with O => 0%N | S k' => (psum f k' + f (N.of_nat k'))%N end.
Lemma psum_ext : forall f g k, (forall i, i < k -> f (N.of_nat i) = g (N.of_nat i)) -> psum f k = psum g k.
Proof. induction k as [|k IH]; intros H; cbn [psum]; [reflexivity|]. rewrite IH, H by auto. reflexivity. Qed.
Lemma psum_mono : forall f i k, i <= k -> (psum f i <= psum f k)%N.
Proof. intros f i k H. induction H; cbn [psum]; lia. Qed.

Lemma partialSum_spec : forall t, (psum (tval t) (N.to_nat (t_len t)) < 2 ^ 32)%N ->
  exists t', partialSum t = Ok t' /\ t_len t' = t_len t /\
    forall i, i < N.to_nat (t_len t) -> tval t' (N.of_nat i) = psum (tval t) (S i).
Proof.
  intros t H. unfold partialSum.
  match goal with |- context [forLoop ?k 0 ?b ?s] =>
    destruct (forLoop_nat (fun j '(u, sum) => t_len u = t_len t /\ sum = psum (tval t) j /\
       (forall i, i < j -> tval u (N.of_nat i) = psum (tval t) (S i)) /\
       (forall i, j <= i -> tval u (N.of_nat i) = tval t (N.of_nat i))) b k 0 s) as ((u & sum) & E & I) end.
  - repeat split. intros i Hi. lia.
  - intros j [u sum] Hj (L & S1 & P1 & P2). rewrite tget_ok by lia. cbn [bind].
    rewrite P2 by lia. assert (M := psum_mono (tval t) (S j) (N.to_nat (t_len t)) ltac:(lia)). cbn [psum] in M.
    change two32 with (2 ^ 32)%N. rewrite N.mod_small by (rewrite S1; lia).
    rewrite tset_ok by lia. cbn [bind]. eexists. split; [reflexivity|]. cbn beta iota.
    split; [exact L|]. split; [rewrite S1; reflexivity|]. split.
    + intros i Hi. rewrite tval_put. destruct (N.eqb_spec (N.of_nat i) (N.of_nat j)) as [Q|Q].
      * assert (i = j) by lia. subst i. rewrite S1. reflexivity.
      * apply P1. lia.
    + intros i Hi. rewrite tval_put. destruct (N.eqb_spec (N.of_nat i) (N.of_nat j)); [lia|]. apply P2. lia.
  - cbn beta iota in I. destruct I as (L & S1 & P1 & P2). change (N.of_nat 0) with 0%N in E. rewrite E. cbn [bind].
    exists u. repeat split; auto.
Qed.

(** Counting by value. *)
Lemma psum_cnt : forall (P : nat -> bool) (g : nat -> N) m k,
  psum (fun v => N.of_nat (cnt (fun r => P r && (g r =? v)%N) m)) k =
  N.of_nat (cnt (fun r => P r && (g r <? N.of_nat k)%N) m).
Proof.
  intros P g m. induction k as [|k IH]; cbn [psum].
  - rewrite cnt_none; [reflexivity|]. intros i Hi. destruct (N.ltb_spec (g i) (N.of_nat 0)); [lia|apply andb_false_r].
  - rewrite IH. rewrite (cnt_split (fun r => P r && (g r <? N.of_nat (S k))%N) (fun r => (g r <? N.of_nat k)%N)).
    rewrite Nat2N.inj_add. f_equal; f_equal; apply cnt_ext; intros i Hi; destruct (P i); cbn [andb]; try reflexivity;
    destruct (N.ltb_spec (g i) (N.of_nat k)), (N.ltb_spec (g i) (N.of_nat (S k))), (N.eqb_spec (g i) (N.of_nat k)); cbn [andb negb]; lia.
Qed.

Section inverse.
Variable t : list N.
Variable sa : list nat.
Variable y : list N.
Hypothesis Ht : t = y ++ [0%N].
Hypothesis Hsa : suffix_array t sa.
Hypothesis Hbytes : Forall (fun c => (c < 256)%N) t.
Let n := length t.
Hypothesis Hn2 : 2 <= n.
Hypothesis Hn : (N.of_nat n <= 2 ^ 31)%N.
Variable bwt : tarray N.
Hypothesis Hbl : t_len bwt = N.of_nat n.
Let p := RK sa 0.
Hypothesis Hbv : forall r, r < n -> r <> p -> tval bwt (N.of_nat r) = B t sa r.

Lemma nlt : 0 < n.
Proof. clear -Hn2. lia. Qed.
Lemma p_lt : p < n.
Proof. apply (RK_lt t sa Hsa). exact nlt. Qed.
Lemma eob_iff : forall r, r < n -> isEob sa r = (r =? p).
Proof.
  intros r Hr. unfold isEob. destruct (Nat.eqb_spec (SA sa r) 0) as [E|E], (Nat.eqb_spec r p) as [Q|Q]; try reflexivity.
  - exfalso. apply Q. unfold p. rewrite <- E. symmetry. apply (RK_SA t sa Hsa). exact Hr.
  - exfalso. apply E. rewrite Q. apply (SA_RK t sa Hsa). exact nlt.
Qed.
Lemma SA_p : SA sa p = 0.
Proof. apply (SA_RK t sa Hsa). exact nlt. Qed.
Lemma p_pos : p <> 0.
Proof. intros E. assert (H := SA_p). rewrite E, (SA_first t sa y Ht Hsa) in H. fold n in H. lia. Qed.
Lemma SA_pos : forall r, r < n -> r <> p -> 1 <= SA sa r.
Proof.
  intros r Hr D. assert (E := eob_iff r Hr). unfold isEob in E. destruct (Nat.eqb_spec r p); [contradiction|].
  destruct (Nat.eqb_spec (SA sa r) 0); [discriminate|lia].
Qed.
Lemma B_byte : forall r, (B t sa r < 256)%N.
Proof. intros r. apply C_byte. exact Hbytes. Qed.

(** The rows before [m], the row of the whole text excepted, with character [c]. *)
Definition cR (c : N) (m : nat) : nat := cnt (fun r => negb (isEob sa r) && (B t sa r =? c)%N) m.
Definition LF (r : nat) : nat := RK sa (SA sa r - 1).
Lemma LF_eq : forall r, r < n -> r <> p -> LF r = S (lessRows t sa (B t sa r)) + cR (B t sa r) r.
Proof. intros r Hr D. apply (LF_one t sa y Ht Hsa); [exact Hr|]. assert (H := SA_pos r Hr D). lia. Qed.
Lemma LF_lt : forall r, r < n -> LF r < n.
Proof. intros r Hr. apply (RK_lt t sa Hsa). assert (L := SA_lt t sa Hsa r Hr). fold n. fold n in L. lia. Qed.

Lemma not_eob : cnt (fun r => negb (isEob sa r)) n = n - 1.
Proof.
  assert (E := cnt_split (fun _ => true) (isEob sa) n). cbn [andb] in E.
  assert (A : cnt (fun _ => true) n = n).
  { rewrite (cnt_ext _ (fun i => i <? n)); [apply cnt_ltb; lia|]. intros i Hi. symmetry. apply Nat.ltb_lt. exact Hi. }
  assert (O : cnt (isEob sa) n = 1).
  { apply (cnt_one _ _ p p_lt).
    - rewrite eob_iff by apply p_lt. apply Nat.eqb_refl.
    - intros i Hi D. rewrite eob_iff by exact Hi. apply Nat.eqb_neq. exact D. }
  change (fun i => isEob sa i) with (isEob sa) in E. lia.
Qed.
Lemma lessRows_all : lessRows t sa 256 = n - 1.
Proof.
  rewrite <- not_eob. unfold lessRows. fold n. apply cnt_ext. intros i Hi. assert (H := B_byte i).
  destruct (N.ltb_spec (B t sa i) 256); [apply andb_true_r|lia].
Qed.

(** The counter array after [j] rows. *)
Definition counted (count : tarray N) (j : nat) : Prop :=
  t_len count = 257%N /\ tval count 0 = 1%N /\
  forall c, (c < 256)%N -> tval count (c + 1) = N.of_nat (cR c j).

Lemma counted_step : forall count j, j < n -> counted count j ->
  (j = p -> counted count (S j)) /\
  (j <> p -> counted (tput count (B t sa j + 1)%N (N.of_nat (cR (B t sa j) j) + 1)%N) (S j)).
Proof.
  intros count j Hj (L & Z & V). split.
  - intros ->. split; [exact L|]. split; [exact Z|]. intros c Hc. rewrite V by exact Hc. unfold cR.
    rewrite cnt_S, eob_iff by exact Hj. rewrite Nat.eqb_refl. cbn [negb andb]. f_equal. lia.
  - intros D. split; [exact L|]. split.
    + rewrite tval_put. destruct (N.eqb_spec 0 (B t sa j + 1)); [lia|exact Z].
    + intros c Hc. rewrite tval_put. unfold cR. rewrite cnt_S, eob_iff by exact Hj.
      destruct (Nat.eqb_spec j p); [contradiction|]. cbn [negb andb].
      destruct (N.eqb_spec (c + 1) (B t sa j + 1)), (N.eqb_spec (B t sa j) c); try lia.
      * subst c. lia.
      * rewrite V by exact Hc. unfold cR. lia.
Qed.

Lemma counted_sum : forall count, counted count n -> exists count', partialSum count = Ok count' /\
  t_len count' = 257%N /\ forall c, (c <= 256)%N -> tval count' c = N.of_nat (S (lessRows t sa c)).
Proof.
  intros count (L & Z & V).
  assert (P : forall k, k <= 256 -> psum (tval count) (S k) = N.of_nat (S (lessRows t sa (N.of_nat k)))).
  { intros k Hk.
    transitivity (1 + psum (fun v => N.of_nat (cR v n)) k)%N.
    - induction k as [|k IH]; [cbn [psum]; change (N.of_nat 0) with 0%N; rewrite Z; reflexivity|].
      change (psum (tval count) (S (S k))) with (psum (tval count) (S k) + tval count (N.of_nat (S k)))%N.
      rewrite IH by lia. cbn [psum]. replace (N.of_nat (S k)) with (N.of_nat k + 1)%N by lia. rewrite V by lia. lia.
    - unfold cR. rewrite psum_cnt. unfold lessRows. fold n. lia. }
  destruct (partialSum_spec count) as (c' & E & L' & V').
  { rewrite L. change (N.to_nat 257) with (S 256). rewrite P by lia.
    change (N.of_nat 256) with 256%N. rewrite lessRows_all. lia. }
  exists c'. split; [exact E|]. split; [lia|]. intros c Hc.
  specialize (V' (N.to_nat c) ltac:(lia)). rewrite N2Nat.id in V'. rewrite V', P by lia. rewrite N2Nat.id. reflexivity.
Qed.

(** ** Milestones *)
Let M : N := (2 ^ 24)%N.
Definition isMile (c : N) (r : nat) : bool :=
  (negb (isEob sa r) && (B t sa r =? c)%N) && (N.of_nat (cR c r) mod M =? 0)%N.
Definition milesOf (c : N) (j : nat) : list N := map N.of_nat (filter (isMile c) (seq 0 j)).

Lemma cnt_miles : forall c j, N.of_nat (cnt (isMile c) j) = ((N.of_nat (cR c j) + (M - 1)) / M)%N.
Proof.
  intros c j. induction j as [|j IH].
  - reflexivity.
  - unfold cR. rewrite !cnt_S. fold (cR c j). unfold isMile at 2.
    assert (M1 : (M = 16777216)%N) by reflexivity. rewrite M1 in *. clear M1.
    destruct (negb (isEob sa j) && (B t sa j =? c)%N); cbn [andb].
    + destruct (N.eqb_spec (N.of_nat (cR c j) mod 16777216) 0); lia.
    + rewrite !Nat.add_0_r. exact IH.
Qed.

Lemma milestonesPassed_spec : forall l1 l2 pos h, (forall v, In v l1 -> (v <= pos)%N) ->
  (forall v, In v l2 -> (pos < v)%N) -> l2 <> [] ->
  milestonesPassed (l1 ++ l2) pos h = Ok (h + N.of_nat (length l1))%N.
Proof.
  induction l1 as [|a l1 IH]; intros l2 pos h H1 H2 Hne; cbn [app milestonesPassed].
  - destruct l2 as [|b l2]; [contradiction|]. cbn [milestonesPassed].
    assert (Q := H2 b (or_introl eq_refl)). destruct (N.leb_spec b pos); [lia|]. cbn [length]. f_equal. lia.
  - assert (Q := H1 a (or_introl eq_refl)). destruct (N.leb_spec a pos); [|lia].
    rewrite IH; auto. { cbn [length]. f_equal. lia. } intros v Hv. apply H1. right. exact Hv.
Qed.

Lemma milesOf_S : forall c j, milesOf c (S j) = milesOf c j ++ (if isMile c j then [N.of_nat j] else []).
Proof.
  intros c j. unfold milesOf. rewrite seq_S, filter_app, map_app. cbn [filter Nat.add].
  destruct (isMile c j); reflexivity.
Qed.

(** The high part of the rank is the number of milestones passed. *)
Lemma miles_rank : forall r, r < n -> r <> p ->
  milestonesPassed (tl (milesOf (B t sa r) n ++ [N.of_nat n])) (N.of_nat r) 0 = Ok (N.of_nat (cR (B t sa r) r) / M)%N.
Proof.
  intros r Hr D. set (c := B t sa r).
  assert (Sp : milesOf c n = milesOf c (S r) ++ map N.of_nat (filter (isMile c) (seq (S r) (n - S r)))).
  { unfold milesOf. replace n with (S r + (n - S r)) at 1 by lia. rewrite seq_app, filter_app, map_app. reflexivity. }
  assert (Lm : N.of_nat (length (milesOf c (S r))) = (N.of_nat (cR c r) / M + 1)%N).
  { unfold milesOf. rewrite map_length. fold (cnt (isMile c) (S r)). rewrite cnt_miles.
    assert (E : cR c (S r) = S (cR c r)).
    { unfold cR. rewrite cnt_S, eob_iff by exact Hr. destruct (Nat.eqb_spec r p); [contradiction|].
      unfold c. rewrite N.eqb_refl. cbn [negb andb]. lia. }
    rewrite E. assert (M1 : (M = 16777216)%N) by reflexivity. rewrite M1 in *. clear -E. lia. }
  rewrite Sp. destruct (milesOf c (S r)) as [|m0 ms] eqn:Em.
  { cbn [length] in Lm. lia. }
  rewrite <- app_assoc. cbn [tl app]. rewrite milestonesPassed_spec.
  - cbn [length] in Lm. f_equal. lia.
  - intros v Hv. assert (In v (milesOf c (S r))) as Hi by (rewrite Em; right; exact Hv).
    unfold milesOf in Hi. apply in_map_iff in Hi. destruct Hi as (i & <- & Hi). apply filter_In in Hi.
    destruct Hi as [Hi _]. apply in_seq in Hi. lia.
  - intros v Hv. apply in_app_or in Hv. destruct Hv as [Hv|[<-|[]]]; [|lia].
    apply in_map_iff in Hv. destruct Hv as (i & <- & Hi). apply filter_In in Hi. destruct Hi as [Hi _].
    apply in_seq in Hi. lia.
  - intros E. apply app_eq_nil in E. destruct E as [_ E]. discriminate E.
Qed.

(** ** The scan *)
Definition rankWord (r : nat) : N := (B t sa r * M + N.of_nat (cR (B t sa r) r) mod M)%N.
Definition scanned (j : nat) (st : tarray N * tarray (list N) * tarray N) : Prop :=
  let '(ranks, miles, count) := st in
  t_len ranks = N.of_nat n /\ (forall r, r < j -> r <> p -> tval ranks (N.of_nat r) = rankWord r) /\
  t_len miles = 256%N /\ (forall c, (c < 256)%N -> tval miles c = milesOf c j) /\
  counted count j.

Lemma cR_lt : forall c m, m <= n -> (N.of_nat (cR c m) <= 2 ^ 31)%N.
Proof. intros c m Hm. assert (H := cnt_le (fun r => negb (isEob sa r) && (B t sa r =? c)%N) m). unfold cR. lia. Qed.

Lemma scan_step : forall j st, j < n -> scanned j st -> exists st',
  fastScan bwt (N.of_nat p) (N.of_nat j) st = Ok st' /\ scanned (S j) st'.
Proof.
  intros j [[ranks miles] count] Hj (L1 & V1 & L2 & V2 & Hc). unfold fastScan.
  destruct (counted_step count j Hj Hc) as [C1 C2].
  destruct (N.eqb_spec (N.of_nat j) (N.of_nat p)) as [E|E].
  - assert (j = p) by lia. subst j. eexists. split; [reflexivity|]. cbn beta iota. unfold scanned.
    split; [exact L1|]. split; [intros r Hr D; apply V1; lia|]. split; [exact L2|]. split; [|apply C1; reflexivity].
    intros c Hcc. rewrite V2 by exact Hcc. rewrite milesOf_S. unfold isMile. rewrite eob_iff by exact Hj.
    rewrite Nat.eqb_refl. cbn [negb andb]. rewrite app_nil_r. reflexivity.
  - assert (D : j <> p) by lia. rewrite tget_ok by lia. cbn [bind]. rewrite Hbv by assumption.
    set (c := B t sa j). assert (Bc : (c < 256)%N) by apply B_byte.
    assert (Hc' := Hc). destruct Hc' as (L3 & Z3 & V3).
    rewrite tget_ok by lia. cbn [bind]. rewrite V3 by exact Bc.
    assert (R31 := cR_lt c j ltac:(lia)).
    assert (Lo : N.land (N.of_nat (cR c j)) 16777215 = (N.of_nat (cR c j) mod M)%N).
    { change 16777215%N with (N.ones 24). apply N.land_ones. }
    rewrite Lo. rewrite tset_ok by lia. cbn [bind].
    assert (W : ((N.shiftl c 24 + N.of_nat (cR c j) mod M) mod two32 = rankWord j)%N).
    { rewrite N.shiftl_mul_pow2. unfold rankWord. fold c. fold M. apply N.mod_small.
      assert (Q : (N.of_nat (cR c j) mod M < M)%N) by (apply N.mod_lt; discriminate).
      revert Q. generalize (N.of_nat (cR c j) mod M)%N. intros v Q. change two32 with (256 * M)%N.
      change M with 16777216%N in *. lia. }
    rewrite W.
    assert (G : exists miles', (if (N.of_nat (cR c j) mod M =? 0)%N
               then let! m := tget miles c in tset miles c (m ++ [N.of_nat j]) else Ok miles) = Ok miles' /\
               t_len miles' = 256%N /\ forall c', (c' < 256)%N -> tval miles' c' = milesOf c' (S j)).
    { assert (Mi : forall c', isMile c' j = ((c =? c')%N && (N.of_nat (cR c' j) mod M =? 0)%N)).
      { intros c'. unfold isMile. rewrite eob_iff by exact Hj. destruct (Nat.eqb_spec j p); [contradiction|].
        reflexivity. }
      destruct (N.of_nat (cR c j) mod M =? 0)%N eqn:Em.
      - rewrite tget_ok by lia. cbn [bind]. rewrite tset_ok by lia. eexists. split; [reflexivity|].
        split; [exact L2|]. intros c' Hc'. rewrite tval_put, milesOf_S, Mi, V2, V2 by assumption.
        destruct (N.eqb_spec c' c), (N.eqb_spec c c'); try congruence; cbn [andb].
        + subst c'. rewrite Em. reflexivity.
        + rewrite app_nil_r. reflexivity.
      - eexists. split; [reflexivity|]. split; [exact L2|]. intros c' Hc'.
        rewrite milesOf_S, Mi, V2 by assumption.
        destruct (N.eqb_spec c c') as [Q|Q]; [rewrite <- Q, Em|]; cbn [andb]; rewrite app_nil_r; congruence. }
    destruct G as (miles' & G & L2' & V2'). rewrite G. cbn [bind].
    rewrite tset_ok by lia. cbn [bind]. eexists. split; [reflexivity|]. unfold scanned.
    split; [exact L1|]. split.
    { intros r Hr Dr. rewrite tval_put. destruct (N.eqb_spec (N.of_nat r) (N.of_nat j)).
      - assert (r = j) by lia. subst r. reflexivity.
      - apply V1; lia. }
    split; [exact L2'|]. split; [exact V2'|].
    rewrite N.mod_small by (change two32 with (2 ^ 32)%N; lia). apply C2. exact D.
Qed.

(** ** The output *)
Lemma fast_output : forall ranks miles count,
  t_len ranks = N.of_nat n -> (forall r, r < n -> r <> p -> tval ranks (N.of_nat r) = rankWord r) ->
  t_len miles = 256%N -> (forall c, (c < 256)%N -> tval miles c = milesOf c n ++ [N.of_nat n]) ->
  t_len count = 257%N -> (forall c, (c <= 256)%N -> tval count c = N.of_nat (S (lessRows t sa c))) ->
  forall s fuel out, s < n -> s <= fuel -> t_len out = N.of_nat n ->
  (forall j, j < n - 1 - s -> tval out (N.of_nat j) = C t (n - 2 - j)) ->
  exists out', fastOutput fuel ranks miles count (N.of_nat p) (N.of_nat (RK sa s)) out (N.of_nat (n - 1 - s)) = Ok out' /\
    forall j, j < n - 1 -> tval out' (N.of_nat j) = C t (n - 2 - j).
Proof.
  intros ranks miles count L1 V1 L2 V2 L3 V3. induction s as [|s IH]; intros fuel out Hs Hf Lo Vo.
  - exists out. replace (n - 1 - 0) with (n - 1) in * by lia. split; [|exact Vo].
    fold p. destruct fuel; cbn [fastOutput]; rewrite N.eqb_refl; reflexivity.
  - destruct fuel as [|fuel]; [lia|]. cbn [fastOutput].
    set (r := RK sa (S s)). assert (Hr : r < n) by (apply (RK_lt t sa Hsa); exact Hs).
    assert (Sr : SA sa r = S s) by (apply (SA_RK t sa Hsa); exact Hs).
    assert (D : r <> p). { intros E. assert (Q := SA_p). rewrite <- E, Sr in Q. discriminate. }
    destruct (N.eqb_spec (N.of_nat r) (N.of_nat p)); [lia|].
    rewrite tget_ok by lia. cbn [bind]. rewrite V1 by assumption.
    set (c := B t sa r). assert (Bc : (c < 256)%N) by apply B_byte.
    assert (Q : (N.of_nat (cR c r) mod M < M)%N) by (apply N.mod_lt; discriminate).
    assert (Hc : N.shiftr (rankWord r) 24 = c).
    { rewrite N.shiftr_div_pow2. fold M. unfold rankWord. fold c. revert Q. generalize (N.of_nat (cR c r) mod M)%N.
      intros v Qv. change M with 16777216%N in *. lia. }
    assert (Hl : N.land (rankWord r) 16777215 = (N.of_nat (cR c r) mod M)%N).
    { change 16777215%N with (N.ones 24). rewrite N.land_ones. fold M. unfold rankWord. fold c.
      revert Q. generalize (N.of_nat (cR c r) mod M)%N. intros v Qv. change M with 16777216%N in *. lia. }
    rewrite Hc, Hl. rewrite tset_ok by lia. cbn [bind]. rewrite tget_ok by lia. cbn [bind].
    rewrite V2 by exact Bc. unfold c. rewrite miles_rank by assumption. cbn [bind]. fold c.
    rewrite tget_ok by lia. cbn [bind]. rewrite V3 by lia.
    assert (Hnx : ((N.of_nat (S (lessRows t sa c)) + N.shiftl (N.of_nat (cR c r) / M) 24 + N.of_nat (cR c r) mod M) mod two32
              = N.of_nat (RK sa s))%N).
    { assert (HL := LF_eq r Hr D). fold c in HL. unfold LF in HL. rewrite Sr in HL.
      replace (S s - 1) with s in HL by lia. rewrite HL.
      rewrite N.shiftl_mul_pow2. fold M. rewrite <- N.add_assoc.
      replace (N.of_nat (cR c r) / M * M + N.of_nat (cR c r) mod M)%N with (N.of_nat (cR c r)).
      2:{ rewrite N.mul_comm. apply N.div_mod. discriminate. }
      rewrite <- Nat2N.inj_add. apply N.mod_small. rewrite <- HL.
      assert (RK sa s < n) by (apply (RK_lt t sa Hsa); fold n; lia). change two32 with (2 ^ 32)%N. lia. }
    rewrite Hnx. replace (N.of_nat (n - 1 - S s) + 1)%N with (N.of_nat (n - 1 - s)) by lia.
    apply IH; [lia|lia|exact Lo|].
    intros j Hj. rewrite tval_put. destruct (N.eqb_spec (N.of_nat j) (N.of_nat (n - 1 - S s))) as [E|E].
    + unfold c, B. rewrite Sr. f_equal. lia.
    + apply Vo. lia.
Qed.

Lemma fastInverse_spec : forall lf, exists out, fastInverse bwt (N.of_nat p :: lf) = Ok out /\
  forall j, j < n - 1 -> tval out (N.of_nat j) = C t (n - 2 - j).
Proof.
  intros lf. unfold fastInverse. assert (Hp := p_lt).
  rewrite tset_ok by (cbn [t_len tmake]; lia). cbn [bind].
  rewrite tset_ok by (cbn [t_len tmake]; lia). cbn [bind].
  rewrite Hbl, Nat2N.id.
  match goal with |- context [forLoop n 0%N ?b ?s] =>
    destruct (forLoop_nat scanned b n 0 s) as ([[ranks miles] count] & E & I) end.
  - unfold scanned. split; [reflexivity|]. split; [intros; lia|]. split; [reflexivity|].
    split; [intros c Hc; rewrite tval_make; reflexivity|].
    split; [reflexivity|]. split; [reflexivity|]. intros c Hc. rewrite tval_put.
    destruct (N.eqb_spec (c + 1) 0); [lia|]. rewrite tval_make. reflexivity.
  - intros j s Hj Hs. apply scan_step; [lia|exact Hs].
  - change (N.of_nat 0) with 0%N in E. rewrite E. cbn [bind]. cbn [Nat.add] in I.
    destruct I as (L1 & V1 & L2 & V2 & Hc).
    destruct (counted_sum count Hc) as (count' & E' & L3 & V3). rewrite E'. cbn [bind].
    rewrite tget_ok by lia. cbn [bind]. rewrite V3, lessRows_all by lia.
    destruct (N.eqb_spec (N.of_nat (S (n - 1))) (N.of_nat n)); [|lia].
    match goal with |- context [forLoop 256 0%N ?b ?s] =>
      destruct (forLoop_nat (fun j m => t_len m = 256%N /\
        forall c, (c < 256)%N -> tval m c = milesOf c n ++ (if (c <? N.of_nat j)%N then [N.of_nat n] else [])) b 256 0 s)
        as (miles' & E2 & L2' & V2') end.
    + split; [exact L2|]. intros c Hcc. rewrite V2 by exact Hcc. destruct (N.ltb_spec c (N.of_nat 0)); [lia|].
      rewrite app_nil_r. reflexivity.
    + intros j m Hj (Lm & Vm). rewrite tget_ok by lia. cbn [bind]. rewrite tset_ok by lia.
      eexists. split; [reflexivity|]. split; [exact Lm|]. intros c Hcc. rewrite tval_put.
      destruct (N.eqb_spec c (N.of_nat j)) as [->|D].
      * rewrite Vm by exact Hcc. destruct (N.ltb_spec (N.of_nat j) (N.of_nat j)); [lia|].
        destruct (N.ltb_spec (N.of_nat j) (N.of_nat (S j))); [|lia]. rewrite app_nil_r. reflexivity.
      * rewrite Vm by exact Hcc. destruct (N.ltb_spec c (N.of_nat j)), (N.ltb_spec c (N.of_nat (S j))); try lia; reflexivity.
    + change (N.of_nat 0) with 0%N in E2. rewrite E2. cbn [bind].
      assert (R0 := RK_last t sa y Ht Hsa). fold n in R0.
      destruct (fast_output ranks miles' count' L1 V1 L2') with (s := n - 1) (fuel := n) (out := bwt)
        as (out & Eo & Vo); auto; try lia.
      { intros c Hcc. rewrite V2' by exact Hcc. destruct (N.ltb_spec c (N.of_nat (0 + 256))); [reflexivity|lia]. }
      rewrite R0, Nat.sub_diag in Eo. exists out. split; [exact Eo|exact Vo].
Qed.
End inverse.

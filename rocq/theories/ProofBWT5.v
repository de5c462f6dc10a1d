(** The table of the MTL-SA inverse transform: its contents. *)
From Coq Require Import List NArith ZArith Lia Arith Bool Permutation Sorted.
From Coq Require Import ZifyBool ZifyNat ZifyN.
From Verif Require Import Base Arrays TArray ModelUtils ModelHeaders ModelBWT SpecBWT ProofBWT1 ProofBWT3 ProofBWT4.
Import ListNotations.
Open Scope nat_scope.

Section table.
Variable t : list N.
Variable sa : list nat.
Variable y : list N.
Hypothesis Ht : t = y ++ [0%N].
Hypothesis Hsa : suffix_array t sa.
Hypothesis Hbytes : Forall (fun c => (c < 256)%N) t.
Let n := length t.
Hypothesis Hn2 : 2 <= n.
Hypothesis Hn : (N.of_nat n <= 2 ^ 31)%N.
Variable bwt : tarray N.
Hypothesis Hbl : t_len bwt = N.of_nat n.
Let p := RK sa 0.
Hypothesis Hbv : forall r, r < n -> r <> p -> tval bwt (N.of_nat r) = B t sa r.
Hypothesis Hbb : forall r, r < n -> (tval bwt (N.of_nat r) < 256)%N.

Lemma Plt : p < n. Proof. exact (p_lt t sa Hsa Hn2). Qed.
Lemma Ppos : p <> 0. Proof. exact (p_pos t sa y Ht Hsa Hn2 Hn bwt Hbl Hbv). Qed.
Lemma Eob : forall r, r < n -> isEob sa r = (r =? p). Proof. exact (eob_iff t sa Hsa Hn2). Qed.
Lemma SAlt : forall r, r < n -> SA sa r < n. Proof. exact (SA_lt t sa Hsa). Qed.
Lemma RKlt : forall s, s < n -> RK sa s < n. Proof. exact (RK_lt t sa Hsa). Qed.
Lemma SARK : forall s, s < n -> SA sa (RK sa s) = s. Proof. exact (SA_RK t sa Hsa). Qed.
Lemma RKSA : forall r, r < n -> RK sa (SA sa r) = r. Proof. exact (RK_SA t sa Hsa). Qed.
Lemma SAp : SA sa p = 0. Proof. exact (SA_p t sa Hsa Hn2). Qed.
Lemma SApos : forall r, r < n -> r <> p -> 1 <= SA sa r. Proof. exact (SA_pos t sa Hsa Hn2 Hn bwt Hbl Hbv). Qed.
Lemma SA0 : SA sa 0 = n - 1. Proof. exact (SA_first t sa y Ht Hsa). Qed.
Lemma Bb : forall r, (B t sa r < 256)%N. Proof. exact (B_byte t sa Hbytes). Qed.
Lemma Cb : forall q, (C t q < 256)%N. Proof. exact (C_byte t Hbytes). Qed.
Lemma LFe : forall r, r < n -> r <> p -> LF sa r = S (lessRows t sa (B t sa r)) + cR t sa (B t sa r) r.
Proof. exact (LF_eq t sa y Ht Hsa Hn2 Hn bwt Hbl Hbv). Qed.
Lemma LFlt : forall r, r < n -> LF sa r < n. Proof. exact (LF_lt t sa Hsa Hn2 Hn bwt Hbl Hbv). Qed.
Lemma LessAll : lessRows t sa 256 = n - 1. Proof. exact (lessRows_all t sa Hsa Hbytes Hn2 Hn bwt Hbl Hbv). Qed.

Lemma RKinj : forall a b, a < n -> b < n -> RK sa a = RK sa b -> a = b.
Proof. intros a b Ha Hb E. rewrite <- (SARK a Ha), <- (SARK b Hb), E. reflexivity. Qed.
Lemma RK1 : RK sa 1 < n /\ RK sa 1 <> p.
Proof.
  split; [apply RKlt; exact Hn2|]. intros E. assert (1 = 0); [|lia]. apply RKinj; [lia|lia|exact E].
Qed.

(** ** First column *)
Lemma less_next : forall c, lessRows t sa (c + 1) = lessRows t sa c + cR t sa c n.
Proof.
  intros c. unfold lessRows, cR. fold n.
  rewrite (cnt_split (fun r => negb (isEob sa r) && (B t sa r <? c + 1)%N) (fun r => (B t sa r <? c)%N)).
  f_equal; apply cnt_ext; intros i Hi; destruct (isEob sa i); cbn [negb andb]; try reflexivity;
    destruct (N.ltb_spec (B t sa i) (c + 1)), (N.ltb_spec (B t sa i) c), (N.eqb_spec (B t sa i) c); cbn [negb andb]; lia.
Qed.
Lemma less_mono : forall a b, (a <= b)%N -> lessRows t sa a <= lessRows t sa b.
Proof.
  intros a b H. unfold lessRows. fold n.
  rewrite (cnt_split (fun r => negb (isEob sa r) && (B t sa r <? b)%N) (fun r => (B t sa r <? a)%N)).
  rewrite (cnt_ext (fun i => negb (isEob sa i) && (B t sa i <? b)%N && (B t sa i <? a)%N)
                   (fun i => negb (isEob sa i) && (B t sa i <? a)%N)).
  - lia.
  - intros i Hi. destruct (isEob sa i); cbn [negb andb]; try reflexivity.
    destruct (N.ltb_spec (B t sa i) b), (N.ltb_spec (B t sa i) a); cbn [negb andb]; lia.
Qed.
(** Row j starts with C (SA j). *)
Lemma first_column : forall j, j < n -> j <> 0 ->
  S (lessRows t sa (C t (SA sa j))) <= j < S (lessRows t sa (C t (SA sa j) + 1)).
Proof.
  intros j Hj H0. assert (L := SAlt j Hj).
  assert (S1 : SA sa j <> n - 1).
  { intros E. apply H0. rewrite <- (RKSA j Hj), E, <- SA0. apply RKSA. lia. }
  set (i := RK sa (S (SA sa j))).
  assert (Hi : i < n) by (apply RKlt; lia).
  assert (Si : SA sa i = S (SA sa j)) by (apply SARK; lia).
  assert (Di : i <> p). { intros E. assert (Q := SAp). rewrite <- E, Si in Q. discriminate. }
  assert (E := LFe i Hi Di). unfold LF in E. rewrite Si in E. replace (S (SA sa j) - 1) with (SA sa j) in E by lia.
  rewrite RKSA in E by exact Hj.
  assert (Bi : B t sa i = C t (SA sa j)). { unfold B. rewrite Si. f_equal. lia. }
  rewrite Bi in E. rewrite less_next.
  assert (Lt : cR t sa (C t (SA sa j)) i < cR t sa (C t (SA sa j)) n).
  { unfold cR. apply (cnt_lt _ i n Hi). rewrite Eob by exact Hi. destruct (Nat.eqb_spec i p); [contradiction|].
    rewrite Bi, N.eqb_refl. reflexivity. }
  lia.
Qed.
Lemma first_unique : forall j c, j < n -> j <> 0 -> S (lessRows t sa c) <= j < S (lessRows t sa (c + 1)) -> c = C t (SA sa j).
Proof.
  intros j c Hj H0 H. assert (F := first_column j Hj H0).
  destruct (N.lt_trichotomy c (C t (SA sa j))) as [L|[E|L]]; [|exact E|].
  - assert (M := less_mono (c + 1) (C t (SA sa j)) ltac:(lia)). lia.
  - assert (M := less_mono (C t (SA sa j) + 1) c ltac:(lia)). lia.
Qed.

Variable count : tarray N.
Hypothesis Hcl : t_len count = 257%N.
Hypothesis Hcv : forall c, (c <= 256)%N -> tval count c = N.of_nat (S (lessRows t sa c)).

Lemma advance_spec : forall fuel first j, j < n -> j <> 0 -> (first < 256)%N -> (256 <= N.of_nat fuel + first)%N ->
  S (lessRows t sa first) <= j -> advanceFirst fuel count (N.of_nat j) first = Ok (C t (SA sa j)).
Proof.
  induction fuel as [|fuel IH]; intros first j Hj H0 Hf Hfu Hl.
  - lia.
  - cbn [advanceFirst]. rewrite tget_ok by lia. cbn [bind]. rewrite Hcv by lia.
    destruct (N.leb_spec (N.of_nat (S (lessRows t sa (first + 1)))) (N.of_nat j)).
    + assert (first <> 255)%N.
      { intros ->. change (255 + 1)%N with 256%N in H. rewrite LessAll in H. lia. }
      apply IH; lia.
    + f_equal. apply first_unique; auto. lia.
Qed.

(** ** The scan *)
Definition PV (i : nat) : N :=
  if i =? p then (B t sa 0 * 256)%N else (B t sa i + 256 * tval bwt (N.of_nat (LF sa i)))%N.
Lemma PV_bound : forall i, i < n -> (PV i < 65536)%N.
Proof.
  intros i Hi. unfold PV. assert (B1 := Bb 0). assert (B2 := Bb i). assert (B3 := Hbb (LF sa i) (LFlt i Hi)).
  destruct (i =? p); lia.
Qed.
(** Rows counted with first column [a] and character [b]. *)
Definition pr (a b : nat) (r : nat) : bool :=
  negb (isEob sa r) && negb (r =? 0) && (C t (SA sa r) =? N.of_nat a)%N && (B t sa r =? N.of_nat b)%N.

Lemma pr_at : forall a b j, j < n -> pr a b j =
  negb (j =? p) && negb (j =? 0) && (C t (SA sa j) =? N.of_nat a)%N && (B t sa j =? N.of_nat b)%N.
Proof. intros a b j Hj. unfold pr. rewrite Eob by exact Hj. reflexivity. Qed.

Let W := (3 * ((N.of_nat n + 1) / 2))%N.
Definition halves (data : tarray N) (j : nat) : Prop :=
  t_len data = W /\ forall i, i < j -> hval data (hIdx i) = PV i.
Definition ranked (rank : tarray N) (j : nat) : Prop :=
  t_len rank = 257%N /\ forall c, (c < 256)%N -> tval rank c = N.of_nat (S (lessRows t sa c) + cR t sa c j).
Definition scanInv (j : nat) (st : mtlState) : Prop :=
  let '(data, pp, rank, second, first, pairs) := st in
  halves data j /\ pp = hIdx j /\ ranked rank j /\
  second = N.of_nat (if RK sa 1 <? j then RK sa 1 else 0) /\
  (first < 256)%N /\ S (lessRows t sa first) <= j /\
  t_len pairs = 65537%N /\ tval pairs 0 = 0%N /\
  forall a b, a < 256 -> b < 256 -> at2 pairs a b = N.of_nat (cnt (pr a b) j).

Lemma rank_next : forall rank j, j < n -> j <> p -> ranked rank j ->
  tget rank (B t sa j) = Ok (N.of_nat (LF sa j)) /\
  exists rank', increment rank (B t sa j) = Ok rank' /\ ranked rank' (S j).
Proof.
  intros rank j Hj D (L & V). assert (Bj := Bb j). assert (E := LFe j Hj D). assert (L1 := LFlt j Hj).
  rewrite tget_ok by lia. rewrite V, <- E by exact Bj. split; [reflexivity|].
  unfold increment. rewrite tget_ok by lia. cbn [bind]. rewrite V, <- E by exact Bj. rewrite tset_ok by lia.
  eexists. split; [reflexivity|]. split; [exact L|]. intros c Hc. rewrite tval_put. unfold cR. rewrite cnt_S, Eob by exact Hj.
  destruct (Nat.eqb_spec j p); [contradiction|]. cbn [negb andb]. fold (cR t sa c j).
  change two32 with (2 ^ 32)%N.
  destruct (N.eqb_spec c (B t sa j)), (N.eqb_spec (B t sa j) c); try congruence.
  - subst c. rewrite N.mod_small by lia. lia.
  - rewrite V by exact Hc. lia.
Qed.
Lemma ranked_skip : forall rank, ranked rank p -> ranked rank (S p).
Proof.
  intros rank (L & V). split; [exact L|]. intros c Hc. rewrite V by exact Hc. unfold cR. rewrite cnt_S, Eob by exact Plt.
  rewrite Nat.eqb_refl. cbn [negb andb]. f_equal. lia.
Qed.
Lemma halves_next : forall data j v, j < n -> halves data j -> v = PV j -> exists data',
  setHalf data (hIdx j) v = Ok data' /\ halves data' (S j).
Proof.
  intros data j v Hj (L & V) ->. destruct (setHalf_spec data (hIdx j) (PV j)) as (data' & E & L' & V' & _).
  { rewrite L. apply hIdx_bound. exact Hj. }
  exists data'. split; [exact E|]. split; [lia|]. intros i Hi. rewrite V'.
  destruct (N.eqb_spec (hIdx i) (hIdx j)) as [Q|Q].
  - apply hIdx_inj in Q. subst i. apply N.mod_small, PV_bound. exact Hj.
  - apply V. assert (i <> j) by congruence. lia.
Qed.

Lemma second_next : forall j, j < n -> j <> p -> j <> 0 ->
  (if (N.of_nat (LF sa j) =? N.of_nat p)%N then N.of_nat j else N.of_nat (if RK sa 1 <? j then RK sa 1 else 0)) =
  N.of_nat (if RK sa 1 <? S j then RK sa 1 else 0).
Proof.
  intros j Hj D H0. assert (P1 := SApos j Hj D). assert (L1 := SAlt j Hj).
  destruct (N.eqb_spec (N.of_nat (LF sa j)) (N.of_nat p)) as [E|E].
  - assert (Q : SA sa j = 1).
    { assert (SA sa j - 1 = 0); [|lia]. apply RKinj; [lia|lia|]. unfold LF in E. fold p. lia. }
    assert (R : RK sa 1 = j) by (rewrite <- Q; apply RKSA; exact Hj). rewrite R.
    destruct (Nat.ltb_spec j (S j)); [reflexivity|lia].
  - assert (R : RK sa 1 <> j).
    { intros R. apply E. f_equal. unfold LF. rewrite <- R, SARK by lia. reflexivity. }
    destruct (Nat.ltb_spec (RK sa 1) j), (Nat.ltb_spec (RK sa 1) (S j)); try reflexivity; lia.
Qed.

Lemma scan_next : forall j st, j < n -> j <> p -> j <> 0 -> scanInv j st -> exists st',
  mtlScan bwt count (N.of_nat p) (N.of_nat j) st = Ok st' /\ scanInv (S j) st'.
Proof.
  intros j [[[[[data pp] rank] second] first] pairs] Hj D H0 (Hh & -> & Hr & Hsec & Hf1 & Hf2 & Lp & Zp & Vp).
  unfold mtlScan. rewrite tget_ok by lia. cbn [bind]. rewrite Hbv by assumption.
  destruct (rank_next rank j Hj D Hr) as (E1 & rank' & E2 & Hr'). rewrite E1. cbn [bind].
  assert (L1 := LFlt j Hj). rewrite tget_ok by lia. cbn [bind].
  destruct (halves_next data j (B t sa j + N.shiftl (tval bwt (N.of_nat (LF sa j))) 8)%N Hj Hh) as (data' & E3 & Hh').
  { unfold PV. destruct (Nat.eqb_spec j p); [contradiction|]. rewrite N.shiftl_mul_pow2. change (2 ^ 8)%N with 256%N. lia. }
  rewrite E3. cbn [bind]. rewrite E2. cbn [bind].
  rewrite advance_spec by (auto; lia). cbn [bind].
  assert (Cj := Cb (SA sa j)). assert (Bj := Bb j).
  unfold increment. rewrite N.shiftl_mul_pow2. change (2 ^ 8)%N with 256%N.
  rewrite tget_ok by lia. cbn [bind]. rewrite tset_ok by lia. cbn [bind].
  eexists. split; [reflexivity|]. unfold scanInv. split; [exact Hh'|]. split; [apply hIdx_next|].
  split; [exact Hr'|]. split; [rewrite Hsec; apply second_next; assumption|].
  split; [exact Cj|]. split; [assert (F := first_column j Hj H0); lia|].
  split; [exact Lp|]. split.
  { rewrite tval_put. destruct (N.eqb_spec 0 (C t (SA sa j) * 256 + B t sa j + 1)); [lia|exact Zp]. }
  intros a b Ha Hb.
  set (a0 := N.to_nat (C t (SA sa j))). set (b0 := N.to_nat (B t sa j)).
  replace (C t (SA sa j) * 256 + B t sa j + 1)%N with (N.of_nat a0 * 256 + N.of_nat b0 + 1)%N by lia.
  rewrite at2_put by lia. fold (at2 pairs a0 b0). rewrite !Vp by lia. rewrite cnt_S.
  rewrite pr_at by exact Hj. destruct (Nat.eqb_spec j p); [contradiction|]. destruct (Nat.eqb_spec j 0); [contradiction|].
  cbn [negb andb]. change two32 with (2 ^ 32)%N.
  assert (Cl := cnt_le (pr a0 b0) j).
  destruct (Nat.eqb_spec a a0), (Nat.eqb_spec b b0), (N.eqb_spec (C t (SA sa j)) (N.of_nat a)), (N.eqb_spec (B t sa j) (N.of_nat b));
    cbn [andb]; try lia; subst a b; rewrite N.mod_small; lia.
Qed.

Lemma scan_eob : forall data pp rank second first pairs v, scanInv p (data, pp, rank, second, first, pairs) ->
  v = PV p -> exists data', setHalf data pp v = Ok data' /\
  scanInv (S p) (data', (pp + 1 + N.shiftl (N.land (N.of_nat p) 1) 2)%N, rank, second, first, pairs).
Proof.
  intros data pp rank second first pairs v (Hh & -> & Hr & Hsec & Hf1 & Hf2 & Lp & Zp & Vp) Ev.
  destruct (halves_next data p v Plt Hh Ev) as (data' & E & Hh'). exists data'. split; [exact E|].
  unfold scanInv. split; [exact Hh'|]. split; [apply hIdx_next|]. split; [apply ranked_skip; exact Hr|].
  destruct RK1 as [R1 R2]. split.
  { rewrite Hsec. destruct (Nat.ltb_spec (RK sa 1) p), (Nat.ltb_spec (RK sa 1) (S p)); try reflexivity; lia. }
  split; [exact Hf1|]. split; [lia|]. split; [exact Lp|]. split; [exact Zp|].
  intros a b Ha Hb. rewrite Vp, cnt_S by assumption. rewrite pr_at by exact Plt. rewrite Nat.eqb_refl.
  cbn [negb andb]. f_equal. lia.
Qed.

(** ** Pairs of the text *)
Lemma pair_rows : forall v, cnt (fun q => (pairIdx t q =? v)%N) n =
  cnt (fun r => negb (isEob sa r) && negb (r =? 0) && (C t (SA sa r - 1) * 256 + C t (SA sa r) + 1 =? v)%N) n
  + (if (C t (n - 2) * 256 =? v)%N then 1 else 0) + (if (0 =? v)%N then 1 else 0).
Proof.
  intros v. replace n with (S (S (n - 2))) at 1 by lia. rewrite !cnt_S.
  assert (E2 : pairIdx t (S (n - 2)) = 0%N).
  { unfold pairIdx. fold n. destruct (Nat.eqb_spec (S (S (n - 2))) n); [reflexivity|lia]. }
  assert (E1 : pairIdx t (n - 2) = (C t (n - 2) * 256)%N).
  { unfold pairIdx. fold n. destruct (Nat.eqb_spec (S (n - 2)) n); [lia|].
    destruct (Nat.eqb_spec (S (S (n - 2))) n); [reflexivity|lia]. }
  rewrite E1, E2. f_equal. f_equal.
  replace (n - 2) with (n - 1 - 1) by lia. rewrite (cnt_shift _ 1 (n - 1)) by lia.
  rewrite <- (cnt_restrict _ (n - 1) n) by lia.
  etransitivity; [apply (cnt_rows t sa Hsa)|]. fold n. apply cnt_ext. intros r Hr.
  assert (L := SAlt r Hr). rewrite Eob by exact Hr.
  assert (Q0 : (r =? 0) = negb (SA sa r <? n - 1)).
  { destruct (Nat.eqb_spec r 0) as [Er|D], (Nat.ltb_spec (SA sa r) (n - 1)) as [Q|Q]; try reflexivity.
    - rewrite Er, SA0 in Q. lia.
    - exfalso. apply D. assert (E : SA sa r = SA sa 0) by (rewrite SA0; lia).
      rewrite <- (RKSA r Hr), E. apply RKSA. lia. }
  assert (Qp : (r =? p) = negb (1 <=? SA sa r)).
  { destruct (Nat.eqb_spec r p) as [->|D].
    - rewrite SAp. reflexivity.
    - assert (H := SApos r Hr D). destruct (Nat.leb_spec 1 (SA sa r)); [reflexivity|lia]. }
  rewrite Q0, Qp, !negb_involutive.
  destruct (Nat.leb_spec 1 (SA sa r)); cbn [andb]; [|reflexivity].
  destruct (Nat.ltb_spec (SA sa r) (n - 1)); cbn [andb]; [|apply andb_false_r].
  rewrite andb_true_r. unfold pairIdx. fold n. destruct (Nat.eqb_spec (S (SA sa r - 1)) n); [lia|].
  destruct (Nat.eqb_spec (S (S (SA sa r - 1))) n); [lia|]. replace (S (SA sa r - 1)) with (SA sa r) by lia. reflexivity.
Qed.

Lemma pairIdx_bound : forall q, (pairIdx t q <= 65536)%N.
Proof.
  intros q. unfold pairIdx. assert (B1 := Cb q). assert (B2 := Cb (S q)).
  destruct (S q =? length t); [lia|]. destruct (S (S q) =? length t); lia.
Qed.

(** Lines "transpose" to "partial_sum". *)
Lemma pairs_sums : forall pairs, t_len pairs = 65537%N -> tval pairs 0 = 0%N ->
  (forall a b, a < 256 -> b < 256 -> at2 pairs a b = N.of_nat (cnt (pr a b) n)) ->
  exists pairs', (let! pairs := transpose pairs in
                  let! pairs := increment pairs 0 in
                  let! pairs := increment pairs (N.shiftl (B t sa 0) 8) in
                  partialSum pairs) = Ok pairs' /\ t_len pairs' = 65537%N /\
    forall v, (v < 65536)%N -> tval pairs' v = N.of_nat (cnt (fun q => (pairIdx t q <=? v)%N) n).
Proof.
  intros pairs Lp Zp Vp. destruct (transpose_spec pairs Lp) as (p1 & E1 & L1 & Z1 & V1).
  rewrite E1. cbn [bind]. unfold increment at 1. rewrite tget_ok by lia. cbn [bind]. rewrite Z1, Zp.
  change ((0 + 1) mod two32)%N with 1%N. rewrite tset_ok by lia. cbn [bind].
  rewrite N.shiftl_mul_pow2. change (2 ^ 8)%N with 256%N.
  assert (B0 : B t sa 0 = C t (n - 2)). { unfold B. rewrite SA0. f_equal. lia. }
  assert (Bd := Bb 0). rewrite B0 in *. set (z := (C t (n - 2) * 256)%N) in *.
  unfold increment. rewrite tget_ok by (cbn [t_len tput]; lia). cbn [bind]. rewrite tset_ok by (cbn [t_len tput]; lia). cbn [bind].
  set (p2 := tput p1 0 1%N). set (p3 := tput p2 z _).
  assert (V2 : forall v, (v <= 65536)%N -> tval p2 v =
    N.of_nat (cnt (fun r => negb (isEob sa r) && negb (r =? 0) && (C t (SA sa r - 1) * 256 + C t (SA sa r) + 1 =? v)%N) n
              + (if (0 =? v)%N then 1 else 0))).
  { intros v Hv. unfold p2. rewrite tval_put. destruct (N.eqb_spec v 0) as [->|D].
    - rewrite cnt_none; [reflexivity|]. intros i Hi.
      destruct (N.eqb_spec (C t (SA sa i - 1) * 256 + C t (SA sa i) + 1) 0); [lia|]. apply andb_false_r.
    - destruct (N.eqb_spec 0 v); [lia|]. rewrite Nat.add_0_r.
      set (a := N.to_nat ((v - 1) / 256)). set (b := N.to_nat ((v - 1) mod 256)).
      replace v with (N.of_nat a * 256 + N.of_nat b + 1)%N at 1 by lia. fold (at2 p1 a b).
      rewrite V1, Vp by lia. f_equal. apply cnt_ext. intros i Hi. unfold pr. fold (B t sa i).
      rewrite <- !andb_assoc. f_equal. f_equal. assert (B1 := Bb i). assert (B2 := Cb (SA sa i)).
      destruct (N.eqb_spec (C t (SA sa i)) (N.of_nat b)), (N.eqb_spec (B t sa i) (N.of_nat a)),
        (N.eqb_spec (B t sa i * 256 + C t (SA sa i) + 1) v); cbn [andb]; try reflexivity; lia. }
  assert (V3 : forall v, (v <= 65536)%N -> tval p3 v = N.of_nat (cnt (fun q => (pairIdx t q =? v)%N) n)).
  { intros v Hv. rewrite pair_rows. fold z. unfold p3. rewrite tval_put.
    destruct (N.eqb_spec v z) as [->|D].
    - rewrite V2 by lia. rewrite N.eqb_refl.
      match goal with |- context [cnt ?P n] => assert (Q := cnt_le P n); generalize dependent (cnt P n) end. intros m Q.
      change two32 with (2 ^ 32)%N. destruct (0 =? z)%N; rewrite N.mod_small by lia; lia.
    - rewrite V2 by exact Hv. destruct (N.eqb_spec z v); [congruence|]. lia. }
  assert (Ps : forall k, (N.of_nat k <= 65537)%N -> psum (tval p3) k = N.of_nat (cnt (fun q => (pairIdx t q <? N.of_nat k)%N) n)).
  { intros k Hk. etransitivity; [|apply (psum_cnt (fun _ => true) (pairIdx t) n k)]. apply psum_ext. intros i Hi.
    apply V3. lia. }
  destruct (partialSum_spec p3) as (p4 & E4 & L4 & V4).
  { change (t_len p3) with (t_len p1). rewrite L1. rewrite Ps by lia.
    match goal with |- context [cnt ?P n] => assert (Q := cnt_le P n) end. lia. }
  change (t_len p3) with (t_len p1) in *. rewrite L1 in *.
  exists p4. split; [exact E4|]. split; [exact L4|]. intros v Hv.
  specialize (V4 (N.to_nat v) ltac:(lia)). rewrite N2Nat.id in V4. rewrite V4, Ps by lia. f_equal. apply cnt_ext.
  intros q Hq. destruct (N.ltb_spec (pairIdx t q) (N.of_nat (S (N.to_nat v)))), (N.leb_spec (pairIdx t q) v); lia.
Qed.

(** ** The entries *)
Definition DV (i : nat) : N := N.of_nat (RK sa ((SA sa i + n - 2) mod n)).
Lemma DV_eob : DV p = N.of_nat (RK sa (n - 2)).
Proof. unfold DV. rewrite SAp. rewrite Nat.mod_small by lia. do 2 f_equal. Qed.
Lemma DV_second : DV (RK sa 1) = 0%N.
Proof.
  unfold DV. rewrite SARK by lia. replace (1 + n - 2) with (n - 1) by lia. rewrite Nat.mod_small by lia.
  rewrite <- SA0. rewrite RKSA by lia. reflexivity.
Qed.
Lemma row_two : forall i, i < n -> i <> p -> i <> RK sa 1 -> 2 <= SA sa i.
Proof.
  intros i Hi D1 D2. assert (H := SApos i Hi D1). assert (SA sa i <> 1); [|lia].
  intros E. apply D2. rewrite <- E. symmetry. apply RKSA. exact Hi.
Qed.
Lemma PV_two : forall i, i < n -> 2 <= SA sa i -> PV i = PR t sa i.
Proof.
  intros i Hi H. assert (L := SAlt i Hi). unfold PV. destruct (Nat.eqb_spec i p) as [->|D]; [rewrite SAp in H; lia|].
  assert (SL : SA sa (LF sa i) = SA sa i - 1) by (apply SARK; lia).
  rewrite Hbv; [|apply LFlt; exact Hi|].
  - unfold PR, B. rewrite SL. replace (SA sa i - 1 - 1) with (SA sa i - 2) by lia. lia.
  - intros E. assert (Q := SAp). rewrite <- E, SL in Q. lia.
Qed.
Lemma DV_two : forall i, i < n -> 2 <= SA sa i ->
  DV i = N.of_nat (cnt (fun q => (pairIdx t q <=? PR t sa i)%N) n + cnt (fun r => (2 <=? SA sa r) && (PR t sa r =? PR t sa i)%N) i).
Proof.
  intros i Hi H. assert (L := SAlt i Hi). unfold DV.
  replace ((SA sa i + n - 2) mod n) with (SA sa i - 2).
  - f_equal. apply (LF_two t sa y Ht Hsa Hbytes); assumption.
  - replace (SA sa i + n - 2) with (SA sa i - 2 + 1 * n) by lia. rewrite Nat.mod_add by lia. symmetry. apply Nat.mod_small. lia.
Qed.

Definition entryInv (i : nat) (data pairs : tarray N) : Prop :=
  halves data n /\ (forall k, k < i -> tval data (wIdx k) = DV k) /\
  t_len pairs = 65537%N /\
  forall v, (v < 65536)%N -> tval pairs v =
    N.of_nat (cnt (fun q => (pairIdx t q <=? v)%N) n + cnt (fun r => (2 <=? SA sa r) && (PR t sa r =? v)%N) i).

Lemma halves_put : forall data i v, i < n -> halves data n -> halves (tput data (wIdx i) v) n.
Proof.
  intros data i v Hi (L & V). split; [exact L|]. intros k Hk. rewrite <- V by exact Hk. unfold hval. rewrite tval_put.
  destruct (N.eqb_spec (hIdx k / 2) (wIdx i)) as [E|E]; [|reflexivity]. symmetry in E. apply wIdx_hIdx in E. contradiction.
Qed.
Lemma entries_put : forall data i, i < n -> (forall k, k < i -> tval data (wIdx k) = DV k) ->
  forall k, k < S i -> tval (tput data (wIdx i) (DV i)) (wIdx k) = DV k.
Proof.
  intros data i Hi V k Hk. rewrite tval_put. destruct (N.eqb_spec (wIdx k) (wIdx i)) as [E|E].
  - apply wIdx_inj in E. subst. reflexivity.
  - apply V. assert (k <> i) by congruence. lia.
Qed.

Lemma entry_next : forall i data pairs, i < n -> entryInv i data pairs -> exists data' pairs',
  mtlEntry (N.of_nat p) (N.of_nat (RK sa 1)) (N.of_nat (RK sa (n - 2))) (N.of_nat i) (wIdx i) (hIdx i) data pairs
    = Ok (data', pairs') /\ entryInv (S i) data' pairs'.
Proof.
  intros i data pairs Hi (Hh & Ve & Lp & Vp). unfold mtlEntry.
  assert (Ld : (wIdx i < t_len data)%N). { destruct Hh as [-> _]. apply wIdx_bound. exact Hi. }
  destruct RK1 as [R1 R2].
  destruct (N.eqb_spec (N.of_nat i) (N.of_nat p)) as [E|E].
  - assert (i = p) by lia. subst i. rewrite tset_ok by exact Ld. cbn [bind]. do 2 eexists. split; [reflexivity|].
    rewrite <- DV_eob. split; [apply halves_put; assumption|]. split; [apply entries_put; assumption|]. split; [exact Lp|].
    intros v Hv. rewrite Vp, cnt_S by exact Hv. rewrite SAp. cbn [Nat.leb andb]. f_equal. lia.
  - destruct (N.eqb_spec (N.of_nat i) (N.of_nat (RK sa 1))) as [E1|E1].
    + assert (Ei : i = RK sa 1) by lia. rewrite tset_ok by exact Ld. cbn [bind]. do 2 eexists. split; [reflexivity|].
      replace 0%N with (DV i) by (rewrite Ei; apply DV_second).
      split; [apply halves_put; assumption|]. split; [apply entries_put; assumption|]. split; [exact Lp|].
      intros v Hv. rewrite Vp, cnt_S by exact Hv. replace (SA sa i) with 1 by (rewrite Ei; symmetry; apply SARK; lia).
      cbn [Nat.leb andb]. f_equal. lia.
    + assert (H2 : 2 <= SA sa i) by (apply row_two; lia).
      assert (Lh : (hIdx i / 2 < t_len data)%N). { destruct Hh as [-> _]. apply hIdx_bound. exact Hi. }
      rewrite getHalf_ok by exact Lh. cbn [bind].
      assert (Hp : hval data (hIdx i) = PR t sa i). { destruct Hh as [_ Vh]. rewrite Vh by exact Hi. apply PV_two; assumption. }
      rewrite Hp. assert (Pb : (PR t sa i < 65536)%N). { rewrite <- PV_two by assumption. apply PV_bound. exact Hi. }
      rewrite tget_ok by lia. cbn [bind]. rewrite tset_ok by exact Ld. cbn [bind].
      unfold increment. rewrite tget_ok by lia. cbn [bind]. rewrite tset_ok by lia. cbn [bind].
      do 2 eexists. split; [reflexivity|]. rewrite Vp by exact Pb. rewrite <- DV_two by assumption.
      split; [apply halves_put; assumption|]. split; [apply entries_put; assumption|]. split; [exact Lp|].
      intros v Hv. rewrite tval_put, cnt_S. destruct (Nat.leb_spec 2 (SA sa i)); [|lia]. cbn [andb].
      destruct (N.eqb_spec v (PR t sa i)), (N.eqb_spec (PR t sa i) v); try congruence.
      * subst v. rewrite DV_two by assumption.
        assert (Q : (DV i < 2 ^ 31)%N). { unfold DV. assert (Q : (SA sa i + n - 2) mod n < n) by (apply Nat.mod_upper_bound; clear -Hn2; lia).
          apply RKlt in Q. revert Q. generalize (RK sa ((SA sa i + n - 2) mod n)). clear -Hn. intros m Q. lia. }
        rewrite DV_two in Q by assumption. change two32 with (2 ^ 32)%N. rewrite N.mod_small by lia. lia.
      * rewrite Vp by exact Hv. f_equal. lia.
Qed.
End table.

(** The forward transform. *)
From Coq Require Import List NArith ZArith Lia Arith Bool Permutation Sorted.
From Coq Require Import ZifyBool ZifyNat ZifyN.
From Verif Require Import Base Arrays TArray ModelUtils ModelHeaders ProofHeaders ModelBWT SpecBWT ProofBWT1.
Import ListNotations.
Open Scope nat_scope.

Lemma count_occ_cnt : forall l c, count_occ N.eq_dec l c = cnt (fun i => (nth i l 0%N =? c)%N) (length l).
Proof.
  intros l c. induction l as [|x l IH] using rev_ind; [reflexivity|].
  rewrite count_occ_app, app_length, Nat.add_1_r, cnt_S, IH. f_equal.
  - apply cnt_ext. intros i Hi. rewrite app_nth1 by exact Hi. reflexivity.
  - rewrite app_nth2, Nat.sub_diag by lia. cbn [nth count_occ].
    destruct (N.eq_dec x c), (N.eqb_spec x c); congruence.
Qed.

Lemma get_nth : forall (l : list N) i, i < length l -> get l i = Ok (nth i l 0%N).
Proof. intros l i H. apply get_ok. apply nth_error_nth'. exact H. Qed.
Lemma nth_upd : forall (l : list N) i v j, i < length l -> nth j (upd l i v) 0%N = if j =? i then v else nth j l 0%N.
Proof.
  intros l i v j H. assert (E := nth_error_upd l i v j H).
  destruct (Nat.ltb_spec j (length l)) as [L|L].
  - rewrite (nth_error_nth' _ 0%N) in E by (rewrite upd_length; exact L).
    destruct (j =? i); [injection E as ->; reflexivity|].
    rewrite (nth_error_nth' l 0%N) in E by exact L. injection E as ->. reflexivity.
  - rewrite !nth_overflow by (rewrite ?upd_length; exact L). destruct (Nat.eqb_spec j i); [lia|reflexivity].
Qed.

Lemma nth_firstn_lt : forall (l : list N) k i, i < k -> nth i (firstn k l) 0%N = nth i l 0%N.
Proof.
  induction l as [|a l IH]; intros [|k] [|i] H; cbn [firstn nth]; try lia; auto. apply IH. lia.
Qed.
Lemma indexOf_in : forall sa s, In s sa -> indexOf s sa = Ok (rankIn sa s).
Proof.
  induction sa as [|x sa IH]; intros s H; [contradiction|]. cbn [indexOf rankIn].
  destruct (Nat.eqb_spec x s) as [->|D]; [reflexivity|].
  destruct H as [H|H]; [congruence|]. rewrite IH by assumption. reflexivity.
Qed.

Section forward.
Variable x : list N.
Variable sa : list nat.
Hypothesis Hx : are_bytes x.
Hypothesis Hne : x <> [].
Hypothesis Hlen : (N.of_nat (length x) + 1 < 2 ^ 31)%N.
Let t := sortedText x.
Let n := length t.
Hypothesis Hsa : suffix_array t sa.
Let Ht : t = rev x ++ [0%N] := eq_refl.

Lemma n_x : n = S (length x).
Proof. unfold n, t, sortedText. rewrite app_length, rev_length. cbn [length]. lia. Qed.
Lemma x_pos : 0 < length x.
Proof. destruct x; [contradiction|cbn [length]; lia]. Qed.
Lemma t_bytes : Forall (fun c => (c < 256)%N) t.
Proof.
  unfold t, sortedText. apply Forall_app. split; [apply Forall_rev; exact Hx|].
  constructor; [lia|constructor].
Qed.
(** The text backwards. *)
Lemma C_x : forall j, j < length x -> C t (n - 2 - j) = nth j x 0%N.
Proof.
  intros j H. unfold C, t, sortedText. assert (E := n_x). rewrite app_nth1 by (rewrite rev_length; lia).
  rewrite rev_nth by lia. f_equal. lia.
Qed.

Lemma bwtRows_spec : forall l i, (forall s, In s l -> s <= length t) -> i + length l <= length t ->
  exists U, bwtRows t i l = Ok U /\ length U = length l /\
    forall j, j < length l -> nth j U 0%N = (if nth j l 0 =? 0 then C t (i + j) else C t (nth j l 0 - 1)).
Proof.
  induction l as [|s l IH]; intros i Hs Hi; cbn [bwtRows].
  - exists []. repeat split. intros j Hj. cbn in Hj. lia.
  - cbn [length] in Hi. destruct (IH (S i)) as (U & EU & LU & NU); [intros; apply Hs; right; assumption|lia|].
    assert (G : match s with O => get t i | S s' => get t s' end = Ok (if s =? 0 then C t i else C t (s - 1))).
    { specialize (Hs s (or_introl eq_refl)). destruct s as [|s]; cbn [Nat.eqb].
      - apply get_nth. lia.
      - replace (S s - 1) with s by lia. apply get_nth. lia. }
    rewrite G, EU. cbn [bind]. eexists. split; [reflexivity|]. split; [cbn [length]; lia|].
    intros [|j] Hj; cbn [nth].
    + rewrite Nat.add_0_r. reflexivity.
    + rewrite NU by (cbn [length] in Hj; lia). replace (S i + j) with (i + S j) by lia. reflexivity.
Qed.

Lemma startingPoints_spec : forall n' xx todo k, (forall i, i < k + todo -> i <> 0 -> 0 < n' - i * xx < n) ->
  0 < n ->
  startingPoints n' xx k todo sa =
    Ok (map (fun i => N.of_nat (RK sa (if i =? 0 then 0 else n' - i * xx))) (seq k todo)).
Proof.
  intros n' xx. induction todo as [|todo IH]; intros k H Hn; cbn [startingPoints seq map]; [reflexivity|].
  rewrite indexOf_in.
  - cbn [bind]. rewrite IH by (auto; intros; apply H; lia). reflexivity.
  - apply (sa_in t sa Hsa). destruct (Nat.eqb_spec k 0); [exact Hn|]. apply H; lia.
Qed.

Lemma countRows_spec : forall U pidx i freqs, length freqs = 256 -> are_bytes U ->
  (forall c, c < 256 -> (nth c freqs 0 + N.of_nat (length U) < 2 ^ 32)%N) ->
  exists freqs', countRows pidx i U freqs = Ok freqs' /\ length freqs' = 256 /\
    forall c, c < 256 -> nth c freqs' 0%N =
      (nth c freqs 0 + N.of_nat (cnt (fun j => negb ((i + j)%nat =? pidx)%nat && (nth j U 0 =? N.of_nat c)) (length U)))%N.
Proof.
  induction U as [|u U IH]; intros pidx i freqs Hl Hb Hs; cbn [countRows].
  - exists freqs. split; [reflexivity|]. split; [exact Hl|]. intros c Hc. cbn. lia.
  - assert (Hu : (u < 256)%N) by (inversion Hb; assumption).
    assert (Hb' : are_bytes U) by (inversion Hb; assumption).
    assert (Sh : forall c, cnt (fun j => negb (i + j =? pidx) && (nth j (u :: U) 0 =? c)%N) (length (u :: U)) =
              (if negb (i =? pidx) && (u =? c)%N then 1 else 0) +
              cnt (fun j => negb (S i + j =? pidx) && (nth j U 0 =? c)%N) (length U)).
    { intros c. cbn [length]. unfold cnt. cbn [seq filter nth]. rewrite Nat.add_0_r.
      rewrite <- seq_shift.
      assert (Q : length (filter (fun j => negb (i + j =? pidx) && (nth j (u :: U) 0 =? c)%N) (map S (seq 0 (length U)))) =
                  length (filter (fun j => negb (S i + j =? pidx) && (nth j U 0 =? c)%N) (seq 0 (length U)))).
      { rewrite filter_map_length. f_equal. apply filter_ext. intros a.
        replace (i + S a) with (S i + a) by lia. reflexivity. }
      destruct (negb (i =? pidx) && (u =? c)%N); cbn [length]; rewrite <- Q; reflexivity. }
    destruct (Nat.eqb_spec i pidx) as [E|E].
    + destruct (IH pidx (S i) freqs Hl Hb') as (f' & E1 & L1 & N1).
      { intros c Hc. specialize (Hs c Hc). cbn [length] in Hs. lia. }
      exists f'. split; [exact E1|]. split; [exact L1|]. intros c Hc. rewrite N1, Sh by exact Hc. cbn [negb andb]. lia.
    + rewrite get_nth by lia. cbn [bind]. rewrite set_ok by lia. cbn [bind].
      assert (Hsu := Hs (N.to_nat u) ltac:(lia)). cbn [length] in Hsu.
      change two32 with (2 ^ 32)%N. rewrite N.mod_small by lia.
      destruct (IH pidx (S i) (upd freqs (N.to_nat u) (nth (N.to_nat u) freqs 0 + 1)%N)) as (f' & E1 & L1 & N1).
      { rewrite upd_length. exact Hl. }
      { exact Hb'. }
      { intros c Hc. rewrite nth_upd by lia. specialize (Hs c Hc). cbn [length] in Hs.
        destruct (Nat.eqb_spec c (N.to_nat u)); subst; lia. }
      exists f'. split; [exact E1|]. split; [exact L1|]. intros c Hc. rewrite N1, Sh by exact Hc.
      rewrite nth_upd by lia. cbn [negb andb].
      destruct (Nat.eqb_spec c (N.to_nat u)), (N.eqb_spec u (N.of_nat c)); subst; lia.
Qed.

Definition points (sp : N) : nat := N.to_nat (prepareLFpowers (N.of_nat (length x)) sp).
(** The starting points of the specification. *)
Definition specPoints (sp : N) : list N :=
  map (fun k => N.of_nat (RK sa (if k =? 0 then 0 else n - k * (n / points sp)))) (seq 0 (points sp)).

Lemma points_range : forall sp, 1 <= points sp <= 256 /\ (1 < points sp -> 256 < length x).
Proof.
  intros sp. unfold points, prepareLFpowers.
  destruct (N.leb_spec (N.of_nat (length x)) 256), (N.eqb_spec sp 0), (N.leb_spec sp 256); cbn [orb]; lia.
Qed.

Lemma eob_range : RK sa 0 < n.
Proof. apply (RK_lt t sa Hsa). fold n. rewrite n_x. lia. Qed.

Lemma points_distance : forall sp i, i < points sp -> i <> 0 -> 0 < n - i * (n / points sp) < n.
Proof.
  intros sp i Hi H0. destruct (points_range sp) as [P1 P2]. assert (E := n_x).
  specialize (P2 ltac:(lia)).
  assert (Q : 1 <= n / points sp) by (apply Nat.div_le_lower_bound; lia).
  assert (M : points sp * (n / points sp) <= n) by (apply Nat.mul_div_le; lia).
  split; nia.
Qed.

(** Everything about the forward transform. *)
Lemma forward_spec : forall sp, exists data freqs,
  doTransform x sa sp = Ok (data, specPoints sp, freqs) /\ are_bytes data /\ length data = length x /\
  (forall next, exists bw, inverseInput data next (specPoints sp) = Ok bw /\ length bw = n /\
     (forall r, r < n -> r <> RK sa 0 -> nth r bw 0%N = B t sa r) /\ ((next < 256)%N -> are_bytes bw)) /\
  length freqs = 256 /\
  (forall c, c < 256 -> nth c freqs 0%N = N.of_nat (count_occ N.eq_dec data (N.of_nat c)) /\
                        nth c freqs 0%N = N.of_nat (count_occ N.eq_dec x (N.of_nat c))).
Proof.
  intros sp. destruct (points_range sp) as [P1 P2]. assert (En := n_x). assert (Hp := eob_range).
  assert (Ls : length sa = n) by apply (sa_length t sa Hsa).
  assert (Xp := x_pos).
  destruct (bwtRows_spec sa 0) as (U & EU & LU & NU).
  { intros s Hs. apply (sa_in t sa Hsa) in Hs. lia. }
  { rewrite Ls. unfold n. lia. }
  set (p := RK sa 0) in *.
  assert (NB : forall r, r < n -> r <> p -> nth r U 0%N = B t sa r).
  { intros r Hr D. rewrite NU by lia. fold (SA sa r). destruct (Nat.eqb_spec (SA sa r) 0) as [E|E]; [|reflexivity].
    exfalso. apply D. unfold p. rewrite <- E. symmetry. apply (RK_SA t sa Hsa). exact Hr. }
  assert (Ub : are_bytes U).
  { apply Forall_forall. intros u Hu. apply (In_nth _ _ 0%N) in Hu. destruct Hu as (j & Hj & <-).
    rewrite NU by lia. unfold is_byte. destruct (_ =? 0); apply C_byte, t_bytes. }
  destruct (countRows_spec U p 0 (repeat 0%N 256)) as (freqs & EF & LF & NF).
  { apply repeat_length. }
  { exact Ub. }
  { intros c Hc. rewrite nth_repeat. lia. }
  exists (firstn (length x) (upd U p (nth (length x) U 0%N))), freqs.
  assert (Hlast : length x < length U) by lia.
  assert (Ld : length (firstn (length x) (upd U p (nth (length x) U 0%N))) = length x).
  { rewrite firstn_length, upd_length. lia. }
  assert (Nd : forall r, r < length x -> nth r (firstn (length x) (upd U p (nth (length x) U 0%N))) 0%N =
                         if r =? p then nth (length x) U 0%N else nth r U 0%N).
  { intros r Hr. rewrite nth_firstn_lt by exact Hr. apply nth_upd. lia. }
  assert (Hpts : specPoints sp = N.of_nat p :: tl (specPoints sp)).
  { unfold specPoints. destruct (points sp); [lia|]. reflexivity. }
  split.
  { unfold doTransform, divbwtf. fold t. fold (points sp).
    destruct (Nat.eqb_spec (points sp) 0); [lia|].
    rewrite indexOf_in by (apply (sa_in t sa Hsa); fold n; lia). cbn [bind]. rewrite EU. cbn [bind].
    fold n. rewrite (startingPoints_spec n (n / points sp)); [|intros; apply points_distance; lia|lia].
    fold (specPoints sp). cbn [bind]. fold (RK sa 0). fold p. rewrite EF. cbn [bind].
    rewrite Hpts. rewrite get_nth by exact Hlast. cbn [bind].
    rewrite Nat2N.id, set_ok by lia. reflexivity. }
  assert (Db : are_bytes (firstn (length x) (upd U p (nth (length x) U 0%N)))).
  { apply Forall_forall. intros c Hc. apply (In_nth _ _ 0%N) in Hc. destruct Hc as (j & Hj & <-).
    rewrite Ld in Hj. rewrite Nd by exact Hj. unfold are_bytes in Ub. rewrite Forall_forall in Ub.
    destruct (j =? p); apply Ub, nth_In; lia. }
  split; [exact Db|]. split; [exact Ld|]. split.
  { intros next. unfold inverseInput. rewrite Hpts. rewrite Nat2N.id.
    set (data := firstn (length x) (upd U p (nth (length x) U 0%N))) in *.
    rewrite get_nth by (rewrite app_length, Ld; cbn [length]; lia). cbn [bind].
    rewrite set_ok by (rewrite app_length; cbn [length]; lia).
    eexists. split; [reflexivity|]. split; [rewrite upd_length, app_length, Ld; cbn [length]; lia|].
    split.
    2:{ intros Hnext. assert (An : are_bytes (data ++ [next])) by (apply Forall_app; split; [exact Db|constructor; [exact Hnext|constructor]]).
        unfold are_bytes in *. rewrite Forall_forall in *. intros c Hc. apply (In_nth _ _ 0%N) in Hc. destruct Hc as (j & Hj & <-).
        rewrite upd_length in Hj. rewrite nth_upd by (rewrite app_length; cbn [length]; lia).
        destruct (j =? length data); apply An, nth_In; rewrite ?app_length in *; cbn [length] in *; lia. }
    intros r Hr D. rewrite nth_upd by (rewrite app_length; cbn [length]; lia). rewrite Ld.
    destruct (Nat.eqb_spec r (length x)) as [E|E].
    - rewrite app_nth1 by (rewrite Ld; lia). rewrite Nd by lia. rewrite Nat.eqb_refl. subst r. apply NB; lia.
    - rewrite app_nth1 by (rewrite Ld; lia). rewrite Nd by lia. destruct (Nat.eqb_spec r p); [contradiction|].
      apply NB; lia. }
  split; [exact LF|]. intros c Hc. rewrite NF by exact Hc. rewrite nth_repeat.
  rewrite LU, Ls. rewrite !count_occ_cnt. rewrite Ld.
  cbn [Nat.add]. split.
  - f_equal. rewrite N.add_0_l. f_equal. rewrite En, cnt_S.
    destruct (Nat.eqb_spec (length x) p) as [E|E]; cbn [negb andb].
    + rewrite Nat.add_0_r. apply cnt_ext. intros i Hi. rewrite Nd by exact Hi.
      destruct (Nat.eqb_spec i p); [lia|]. reflexivity.
    + rewrite (cnt_split _ (fun i => i =? p) (length x)).
      rewrite (cnt_none _ (length x)), Nat.add_0_l.
      2:{ intros i Hi. destruct (Nat.eqb_spec i p); cbn [negb andb]; [reflexivity|apply andb_false_r]. }
      rewrite (cnt_split (fun i => (nth i _ 0 =? N.of_nat c)%N) (fun i => i =? p) (length x)).
      rewrite Nat.add_comm. f_equal.
      * destruct (N.eqb_spec (nth (length x) U 0%N) (N.of_nat c)) as [Eq|Eq].
        -- symmetry. apply (cnt_one _ _ p); [lia| |].
           ++ rewrite Nd by lia. rewrite Nat.eqb_refl, Eq, N.eqb_refl. reflexivity.
           ++ intros i Hi D. destruct (Nat.eqb_spec i p); [contradiction|apply andb_false_r].
        -- symmetry. apply cnt_none. intros i Hi. rewrite Nd by lia.
           destruct (Nat.eqb_spec i p); [|apply andb_false_r]. rewrite andb_true_r. apply N.eqb_neq. exact Eq.
      * apply cnt_ext. intros i Hi. rewrite Nd by lia. destruct (Nat.eqb_spec i p); cbn [negb andb].
        -- rewrite andb_false_r. reflexivity.
        -- rewrite !andb_true_r. reflexivity.
  - f_equal. rewrite N.add_0_l. f_equal.
    transitivity (cnt (fun s => negb (s =? 0) && (C t (s - 1) =? N.of_nat c)%N) n).
    + etransitivity; [|symmetry; apply (cnt_rows t sa Hsa)]. apply cnt_ext. intros r Hr.
      assert (Q : (r =? p) = (SA sa r =? 0)).
      { destruct (Nat.eqb_spec r p) as [Er|D], (Nat.eqb_spec (SA sa r) 0) as [E0|D0]; try reflexivity.
        - exfalso. apply D0. rewrite Er. unfold p. apply (SA_RK t sa Hsa). fold n. lia.
        - exfalso. apply D. unfold p. rewrite <- E0. symmetry. apply (RK_SA t sa Hsa). exact Hr. }
      rewrite <- Q. destruct (Nat.eqb_spec r p) as [|D]; [reflexivity|]. rewrite NB by auto. reflexivity.
    + rewrite (cnt_ext _ (fun i => (1 <=? i) && (C t (i - 1) =? N.of_nat c)%N)).
      2:{ intros i Hi. destruct (Nat.eqb_spec i 0), (Nat.leb_spec 1 i); try lia; reflexivity. }
      rewrite <- (cnt_shift (fun i => (C t i =? N.of_nat c)%N) 1 n) by lia.
      replace (n - 1) with (length x) by lia.
      transitivity (count_occ N.eq_dec (rev x) (N.of_nat c)).
      * rewrite count_occ_cnt, rev_length. apply cnt_ext. intros i Hi. unfold C, t, sortedText.
        rewrite app_nth1 by (rewrite rev_length; lia). reflexivity.
      * rewrite count_occ_rev. apply count_occ_cnt.
Qed.
End forward.

(** Phase 1 and the whole length computation. *)
From Coq Require Import List NArith ZArith Lia Arith Bool Permutation.
From Coq Require Import ZifyBool ZifyNat ZifyN.
From Verif Require Import Base Arrays ModelUtils ModelStreams ModelHeaders ModelHuffman ProofHuffman1.
Import ListNotations.
Open Scope nat_scope.

Definition cells (freqs : list N) (from : nat) (l : list item) : Prop :=
  forall i x, nth_error l i = Some x -> nth_error freqs (from + i) = Some (fst x).

Lemma cells_tail : forall f from x l, cells f from (x :: l) -> cells f (S from) l.
Proof. intros f from x l H i y Hy. replace (S from + i) with (from + S i) by lia. apply H. exact Hy. Qed.
Lemma cells_head : forall f from x l, cells f from (x :: l) -> nth_error f from = Some (fst x).
Proof. intros f from x l H. rewrite <- (Nat.add_0_r from). apply H. reflexivity. Qed.
Lemma cells_upd : forall f from l i v, i < length f -> (i < from \/ from + length l <= i) -> cells f from l ->
  cells (upd f i v) from l.
Proof.
  intros f from l i v Hi Ho H j x Hx. pose proof (nth_error_bound _ _ _ Hx).
  rewrite nth_error_upd_other by lia. apply H. exact Hx.
Qed.

Lemma fromQueue_spec : forall ls q b x ls' q' n t f s r, pick ls q b x ls' q' ->
  s + length ls = n -> r + length q = t -> cells f s ls -> cells f r q ->
  fromQueue n t f s r = Ok b.
Proof.
  intros ls q b x ls' q' n t f s r H Hs Hr C1 C2. unfold fromQueue.
  destruct H as [ls y q HY|x ls q HX].
  - destruct (Nat.leb_spec n s); auto. cbn [length] in Hr.
    destruct (Nat.ltb_spec r t); [|lia].
    rewrite (get_ok _ _ _ (cells_head _ _ _ _ C2)). cbn [bind].
    destruct ls as [|x ls]; [cbn [length] in Hs; lia|].
    rewrite (get_ok _ _ _ (cells_head _ _ _ _ C1)). cbn [bind]. f_equal.
    apply N.ltb_lt. apply HY. reflexivity.
  - cbn [length] in Hs. destruct (Nat.leb_spec n s); [lia|].
    destruct (Nat.ltb_spec r t); auto.
    destruct q as [|y q]; [cbn [length] in Hr; lia|].
    rewrite (get_ok _ _ _ (cells_head _ _ _ _ C2)). cbn [bind].
    rewrite (get_ok _ _ _ (cells_head _ _ _ _ C1)). cbn [bind]. f_equal.
    apply N.ltb_ge. apply HX. reflexivity.
Qed.

Lemma select1_spec : forall ls q b x ls' q' n t f s r, pick ls q b x ls' q' ->
  length f = n -> s + length ls = n -> r + length q = t -> s + r = 2 * t -> t < n -> cells f s ls -> cells f r q ->
  exists f', select1 n t (f, s, r) = Ok (f', s + (1 - nat_of b), r + nat_of b) /\ length f' = n /\
    cells f' (s + (1 - nat_of b)) ls' /\ cells f' (r + nat_of b) q' /\ t < s + (1 - nat_of b) /\
    nth_error f' t = Some (fst x) /\ (forall i, i < r -> nth_error f' i = nth_error f i) /\
    (b = true -> nth_error f' r = Some (N.of_nat t)).
Proof.
  intros ls q b x ls' q' n t f s r H Hf Hs Hr Hsr Ht C1 C2. unfold select1.
  rewrite (fromQueue_spec _ _ _ _ _ _ n t f s r H Hs Hr C1 C2). cbn [bind].
  destruct H as [ls y q HY|x ls q HX]; cbn [length nat_of] in *.
  - rewrite (get_ok _ _ _ (cells_head _ _ _ _ C2)). cbn [bind].
    rewrite set_ok by lia. cbn [bind]. rewrite set_ok by (rewrite upd_length; lia). cbn [bind].
    eexists. split; [do 3 f_equal; lia|]. rewrite !upd_length. split; [exact Hf|].
    replace (s + (1 - 1)) with s by lia. replace (r + 1) with (S r) by lia.
    split; [|split; [|split; [|split; [|split]]]].
    + apply cells_upd; [rewrite upd_length; lia|lia|]. apply cells_upd; [lia|lia|exact C1].
    + apply cells_upd; [rewrite upd_length; lia|lia|]. apply cells_upd; [lia|lia|]. eapply cells_tail. exact C2.
    + lia.
    + rewrite nth_error_upd_other by (rewrite ?upd_length; lia). apply nth_error_upd_same. lia.
    + intros i Hi. rewrite !nth_error_upd_other by (rewrite ?upd_length; lia). reflexivity.
    + intros _. apply nth_error_upd_same. rewrite upd_length. lia.
  - rewrite (get_ok _ _ _ (cells_head _ _ _ _ C1)). cbn [bind].
    rewrite set_ok by lia. cbn [bind].
    eexists. split; [do 3 f_equal; lia|]. rewrite !upd_length. split; [exact Hf|].
    replace (s + (1 - 0)) with (S s) by lia. replace (r + 0) with r by lia.
    split; [|split; [|split; [|split; [|split]]]].
    + apply cells_upd; [lia|lia|]. eapply cells_tail. exact C1.
    + apply cells_upd; [lia|lia|exact C2].
    + lia.
    + apply nth_error_upd_same. lia.
    + intros i Hi. rewrite !nth_error_upd_other by (rewrite ?upd_length; lia). reflexivity.
    + discriminate.
Qed.

Lemma select2_spec : forall ls q b x ls' q' n t f s r w, pick ls q b x ls' q' ->
  length f = n -> s + length ls = n -> r + length q = t -> t < s -> t < n -> cells f s ls -> cells f r q ->
  nth_error f t = Some w -> (w + fst x < two64)%N ->
  exists f', select2 n t (f, s, r) = Ok (f', s + (1 - nat_of b), r + nat_of b) /\ length f' = n /\
    cells f' (s + (1 - nat_of b)) ls' /\ cells f' (r + nat_of b) q' /\
    nth_error f' t = Some (w + fst x)%N /\ (forall i, i < r -> nth_error f' i = nth_error f i) /\
    (b = true -> nth_error f' r = Some (N.of_nat t)).
Proof.
  intros ls q b x ls' q' n t f s r w H Hf Hs Hr Hts Ht C1 C2 Hw Hsum. unfold select2.
  rewrite (fromQueue_spec _ _ _ _ _ _ n t f s r H Hs Hr C1 C2). cbn [bind].
  destruct H as [ls y q HY|x ls q HX]; cbn [length nat_of] in *.
  - rewrite (get_ok _ _ _ (cells_head _ _ _ _ C2)). cbn [bind].
    rewrite (get_ok _ _ _ Hw). cbn [bind].
    rewrite set_ok by lia. cbn [bind]. rewrite set_ok by (rewrite upd_length; lia). cbn [bind].
    rewrite N.mod_small by exact Hsum.
    eexists. split; [do 3 f_equal; lia|]. rewrite !upd_length. split; [exact Hf|].
    replace (s + (1 - 1)) with s by lia. replace (r + 1) with (S r) by lia.
    split; [|split; [|split; [|split]]].
    + apply cells_upd; [rewrite upd_length; lia|lia|]. apply cells_upd; [lia|lia|exact C1].
    + apply cells_upd; [rewrite upd_length; lia|lia|]. apply cells_upd; [lia|lia|]. eapply cells_tail. exact C2.
    + rewrite nth_error_upd_other by (rewrite ?upd_length; lia). apply nth_error_upd_same. lia.
    + intros i Hi. rewrite !nth_error_upd_other by (rewrite ?upd_length; lia). reflexivity.
    + intros _. apply nth_error_upd_same. rewrite upd_length. lia.
  - rewrite (get_ok _ _ _ (cells_head _ _ _ _ C1)). cbn [bind].
    rewrite (get_ok _ _ _ Hw). cbn [bind].
    rewrite set_ok by lia. cbn [bind]. rewrite N.mod_small by exact Hsum.
    eexists. split; [do 3 f_equal; lia|]. rewrite !upd_length. split; [exact Hf|].
    replace (s + (1 - 0)) with (S s) by lia. replace (r + 0) with r by lia.
    split; [|split; [|split; [|split]]].
    + apply cells_upd; [lia|lia|]. eapply cells_tail. exact C1.
    + apply cells_upd; [lia|lia|exact C2].
    + apply nth_error_upd_same. lia.
    + intros i Hi. rewrite !nth_error_upd_other by (rewrite ?upd_length; lia). reflexivity.
    + discriminate.
Qed.

Definition sumw (l : list item) : N := fold_right (fun x a => (fst x + a)%N) 0%N l.
Lemma sumw_app : forall a b, sumw (a ++ b) = (sumw a + sumw b)%N.
Proof.
  induction a as [|x a IH]; intros b; [reflexivity|]. cbn [app].
  change (sumw (x :: a ++ b)) with (fst x + sumw (a ++ b))%N. change (sumw (x :: a)) with (fst x + sumw a)%N.
  rewrite IH. lia.
Qed.
Lemma pick_sum : forall ls q b x ls' q', pick ls q b x ls' q' ->
  (sumw ls + sumw q = fst x + (sumw ls' + sumw q'))%N.
Proof.
  intros ls q b x ls' q' H. destruct H as [ls y q _|x ls q _].
  - change (sumw (y :: q)) with (fst y + sumw q)%N. lia.
  - change (sumw (x :: ls)) with (fst x + sumw ls)%N. lia.
Qed.

Lemma phase1_spec : forall t ls q dl E P, hrun t ls q dl E P -> forall n f s r,
  length f = n -> s + length ls = n -> r + length q = t -> length ls + length q + t = n ->
  cells f s ls -> cells f r q -> (sumw ls + sumw q < two64)%N ->
  exists f', phase1Loop (length ls + length q - 1) n t (f, s, r) = Ok (f', n, r + length P) /\ length f' = n /\
    (forall i, i < r -> nth_error f' i = nth_error f i) /\
    (forall i p, nth_error P i = Some p -> nth_error f' (r + i) = Some (N.of_nat p)).
Proof.
  induction 1 as [t y|t ls q b1 x1 ls1 q1 b2 x2 ls2 q2 dl E P d k P1 P2 R IH D K];
    intros n f s r Hf Hs Hr Hn C1 C2 HS.
  - cbn [length] in *. exists f. cbn [Nat.add Nat.sub phase1Loop].
    split; [do 3 f_equal; lia|]. split; [exact Hf|]. split; auto. intros [|i] p; discriminate.
  - destruct (pick_length _ _ _ _ _ _ P1) as [L1 L2], (pick_length _ _ _ _ _ _ P2) as [L3 L4].
    pose proof (pick_sum _ _ _ _ _ _ P1) as S1. pose proof (pick_sum _ _ _ _ _ _ P2) as S2.
    pose proof (hrun_length _ _ _ _ _ _ R) as LR. rewrite app_length in LR. cbn [length] in LR.
    assert (HM : length ls + length q - 1 = S (length ls2 + length (q2 ++ [node x1 x2]) - 1)).
    { rewrite app_length. cbn [length]. destruct b1, b2; cbn [nat_of] in *; lia. }
    rewrite HM. cbn [phase1Loop]. unfold phase1Step.
    destruct (select1_spec _ _ _ _ _ _ n t f s r P1) as (f1 & A1 & A2 & A3 & A4 & A5 & A6 & A7 & A8); auto;
      [destruct b1, b2; cbn [nat_of] in *; lia|destruct b1, b2; cbn [nat_of] in *; lia|].
    rewrite A1. cbn [bind].
    destruct (select2_spec _ _ _ _ _ _ n t f1 (s + (1 - nat_of b1)) (r + nat_of b1) (fst x1) P2)
      as (f2 & B1 & B2 & B3 & B4 & B5 & B6 & B7); auto;
      [destruct b1, b2; cbn [nat_of] in *; lia|lia|lia|lia|].
    rewrite B1. cbn [bind].
    destruct (IH n f2 (s + (1 - nat_of b1) + (1 - nat_of b2)) (r + nat_of b1 + nat_of b2)) as (f3 & D1 & D2 & D3 & D4); auto.
    + destruct b1, b2; cbn [nat_of] in *; lia.
    + rewrite app_length. cbn [length]. lia.
    + rewrite app_length. cbn [length]. destruct b1, b2; cbn [nat_of] in *; lia.
    + intros i x Hx. destruct (Nat.lt_ge_cases i (length q2)).
      * rewrite nth_error_app1 in Hx by assumption. apply B4. exact Hx.
      * rewrite nth_error_app2 in Hx by assumption.
        destruct (i - length q2) as [|j] eqn:Ej; [|destruct j; discriminate].
        injection Hx as <-. cbn [fst node]. replace (r + nat_of b1 + nat_of b2 + i) with t by lia. exact B5.
    + rewrite sumw_app. change (sumw [node x1 x2]) with (fst x1 + fst x2 + 0)%N. lia.
    + exists f3. rewrite D1. split; [rewrite app_length, repeat_length; do 2 f_equal; lia|].
      split; [exact D2|]. split.
      * intros i Hi. rewrite D3, B6, A7 by lia. reflexivity.
      * intros i p Hp. destruct (Nat.lt_ge_cases i k).
        -- rewrite nth_error_app1, nth_error_repeat_lt in Hp by (rewrite ?repeat_length; lia).
           injection Hp as <-. rewrite D3 by lia.
           destruct b1, b2; cbn [nat_of] in *.
           ++ assert (i = 0 \/ i = 1) as [-> | ->] by lia.
              ** rewrite Nat.add_0_r, B6 by lia. apply A8. reflexivity.
              ** apply B7. reflexivity.
           ++ assert (i = 0) as -> by lia. rewrite Nat.add_0_r, B6 by lia. apply A8. reflexivity.
           ++ assert (i = 0) as -> by lia. rewrite Nat.add_0_r. rewrite Nat.add_0_r in B7. apply B7. reflexivity.
           ++ lia.
        -- rewrite nth_error_app2, repeat_length in Hp by (rewrite repeat_length; lia).
           replace (r + i) with (r + nat_of b1 + nat_of b2 + (i - k)) by lia. apply D4. exact Hp.
Qed.

Definition leaves (ws : list N) : list item := map (fun w => (w, 0)) ws.

Lemma lengths_array : forall ws, 2 <= length ws -> (sumw (leaves ws) < two64)%N ->
  exists dl E P, hrun 0 (leaves ws) [] dl E P /\
    (let n := length ws in
     let! (freqs, _, _) := phase1Loop (n - 1) n 0 (ws, 0, 0) in
     let! freqs := set freqs (n - 2) 0%N in
     let! freqs := phase2Loop (n - 2) freqs in
     phase3Loop (S n) 1 (n - 1) n freqs 0) = Ok (map N.of_nat dl).
Proof.
  intros ws H2 HS.
  assert (LL : length (leaves ws) = length ws) by (unfold leaves; apply map_length).
  destruct (hrun_exists (length ws - 1) 0 (leaves ws) []) as (dl & E & P & R).
  { cbn [length]. lia. } { lia. }
  exists dl, E, P. split; [exact R|]. cbv zeta.
  pose proof (hrun_length _ _ _ _ _ _ R) as (_ & L1 & L2 & L3). cbn [length] in L2. rewrite LL in *.
  destruct (phase1_spec _ _ _ _ _ _ R (length ws) ws 0 0) as (f1 & A1 & A2 & A3 & A4); auto.
  { cbn [length]. lia. }
  { intros i x Hx. unfold leaves in Hx. rewrite nth_error_map in Hx. cbn [Nat.add].
    destruct (nth_error ws i); cbn in Hx; [|discriminate]. injection Hx as <-. reflexivity. }
  { intros [|i] x; discriminate. }
  { change (sumw []) with 0%N. lia. }
  cbn [length] in A1. rewrite LL, Nat.add_0_r in A1. rewrite A1. cbn [bind].
  rewrite set_ok by lia. cbn [bind].
  pose proof (hrun_parents _ _ _ _ _ _ R 0 eq_refl) as HP.
  destruct (phase2_spec P E ltac:(lia)) with (k := length ws - 2) (freqs := upd f1 (length ws - 2) 0%N)
    as (f2 & B1 & B2 & B3).
  { intros i p Hp. destruct (HP i p Hp) as (X & Y & d & Z1 & Z2). rewrite Nat.sub_0_r in *.
    split; [lia|]. eauto. }
  { lia. } { rewrite upd_length. lia. }
  { intros i p Hi Hp. rewrite nth_error_upd_other by lia. apply (A4 i p Hp). }
  { intros i d Hi Hd. pose proof (nth_error_bound _ _ _ Hd). assert (i = length ws - 2) as -> by lia.
    rewrite nth_error_upd_same by lia.
    assert (d = 0); [|subst; reflexivity].
    (* the root has depth 0 *)
    assert (RT : forall t ls q dl E P, hrun t ls q dl E P -> nth_error E (length E - 1) = Some 0).
    { clear. induction 1 as [|t ls q b1 x1 ls1 q1 b2 x2 ls2 q2 dl E P d k P1 P2 R IH D K]; [reflexivity|].
      pose proof (hrun_length _ _ _ _ _ _ R) as (_ & _ & L & _).
      rewrite app_length in *. cbn [length] in *. rewrite repeat_length.
      rewrite nth_error_app2; rewrite repeat_length; [|lia].
      replace (k + length E - 1 - k) with (length E - 1) by lia. exact IH. }
    specialize (RT _ _ _ _ _ _ R). replace (length E - 1) with (length ws - 2) in RT by lia. congruence. }
  rewrite B1. cbn [bind].
  destruct (hrun_mono _ _ _ _ _ _ R) as (M1 & M2 & _).
  change 0%N with (N.of_nat 0). apply (phase3_spec E dl M1 M2); try lia.
  - intros k. pose proof (hrun_levels _ _ _ _ _ _ R k) as Q. exact Q.
  - rewrite geq_0. lia.
  - rewrite geq_0. lia.
  - rewrite B2, upd_length. lia.
  - intros i d _ Hd. apply B3. exact Hd.
  - intros i d Hi Hd. pose proof (nth_error_bound _ _ _ Hd). lia.
Qed.

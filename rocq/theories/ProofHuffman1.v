(** The in-place code length computation and the tree it stands for. *)
From Coq Require Import List NArith ZArith Lia Arith Bool Permutation.
From Coq Require Import ZifyBool ZifyNat ZifyN.
From Verif Require Import Base Arrays ModelUtils ModelStreams ModelHeaders ModelHuffman.
Import ListNotations.
Open Scope nat_scope.

(** ** The two-queue construction, abstractly.  An item has a weight and a height. *)
Definition item : Type := (N * nat)%type.
Definition node (x y : item) : item := ((fst x + fst y)%N, S (Nat.max (snd x) (snd y))).

Inductive pick : list item -> list item -> bool -> item -> list item -> list item -> Prop :=
| pickQ : forall ls y q, (forall x, hd_error ls = Some x -> (fst y < fst x)%N) ->
    pick ls (y :: q) true y ls q
| pickL : forall x ls q, (forall y, hd_error q = Some y -> (fst x <= fst y)%N) ->
    pick (x :: ls) q false x ls q.

Definition nat_of (b : bool) : nat := if b then 1 else 0.

(** [hrun t ls q dl E P]: from the remaining leaves [ls] and the queue [q], the next inner
    node having number [t], the leaves get the depths [dl], the inner nodes in the queue
    and those still to be created the depths [E] and (but for the root) the parents [P]. *)
Inductive hrun : nat -> list item -> list item -> list nat -> list nat -> list nat -> Prop :=
| hr_end : forall t y, hrun t [] [y] [] [0] []
| hr_step : forall t ls q b1 x1 ls1 q1 b2 x2 ls2 q2 dl E P d k,
    pick ls q b1 x1 ls1 q1 -> pick ls1 q1 b2 x2 ls2 q2 ->
    hrun (S t) ls2 (q2 ++ [node x1 x2]) dl E P ->
    nth_error E (length q2) = Some d -> k = nat_of b1 + nat_of b2 ->
    hrun t ls q (repeat (S d) (2 - k) ++ dl) (repeat (S d) k ++ E) (repeat t k ++ P).

Lemma pick_length : forall ls q b x ls' q', pick ls q b x ls' q' ->
  length ls = length ls' + (1 - nat_of b) /\ length q = length q' + nat_of b.
Proof. intros ls q b x ls' q' H. destruct H; cbn; lia. Qed.

Lemma pick_exists : forall ls q, 1 <= length ls + length q -> exists b x ls' q', pick ls q b x ls' q'.
Proof.
  intros [|x ls] [|y q] H; [cbn in H; lia| | |].
  - exists true, y, [], q. constructor. discriminate.
  - exists false, x, ls, []. constructor. discriminate.
  - destruct (N.ltb_spec (fst y) (fst x)).
    + exists true, y, (x :: ls), q. constructor. cbn. intros z E. injection E as <-. assumption.
    + exists false, x, ls, (y :: q). constructor. cbn. intros z E. injection E as <-. assumption.
Qed.

Lemma hrun_length : forall t ls q dl E P, hrun t ls q dl E P ->
  1 <= length q + length ls /\ length dl = length ls /\
  S (length E) = length q + (length ls + length q) /\ S (length P) = length E.
Proof.
  induction 1 as [|t ls q b1 x1 ls1 q1 b2 x2 ls2 q2 dl E P d k P1 P2 R IH D K]; [cbn; lia|].
  destruct (pick_length _ _ _ _ _ _ P1), (pick_length _ _ _ _ _ _ P2).
  rewrite !app_length, !repeat_length in *. cbn [length] in *. destruct b1, b2; cbn [nat_of] in *; lia.
Qed.

Lemma hrun_exists : forall m t ls q, length ls + length q = S m -> (m = 0 -> ls = []) ->
  exists dl E P, hrun t ls q dl E P.
Proof.
  induction m as [|m IH]; intros t ls q H H0.
  - rewrite H0 in * by reflexivity. destruct q as [|y [|? ?]]; cbn in H; try lia.
    exists [], [0], []. constructor.
  - destruct (pick_exists ls q) as (b1 & x1 & ls1 & q1 & P1); [lia|].
    destruct (pick_length _ _ _ _ _ _ P1) as [L1 L2].
    destruct (pick_exists ls1 q1) as (b2 & x2 & ls2 & q2 & P2); [destruct b1; cbn in *; lia|].
    destruct (pick_length _ _ _ _ _ _ P2) as [L3 L4].
    destruct (IH (S t) ls2 (q2 ++ [node x1 x2])) as (dl & E & P & R).
    + rewrite app_length. cbn [length]. destruct b1, b2; cbn in *; lia.
    + intros ->. destruct ls2; auto. cbn in *. destruct b1, b2; cbn in *; lia.
    + pose proof (hrun_length _ _ _ _ _ _ R) as L. rewrite app_length in L. cbn [length] in L.
      destruct (nth_error_lt E (length q2)) as [d D]; [lia|].
      exists (repeat (S d) (2 - (nat_of b1 + nat_of b2)) ++ dl), (repeat (S d) (nat_of b1 + nat_of b2) ++ E),
        (repeat t (nat_of b1 + nat_of b2) ++ P).
      econstructor; eauto.
Qed.

(** Depths do not increase. *)
Definition nonincreasing (l : list nat) : Prop :=
  forall i j x y, i <= j -> nth_error l i = Some x -> nth_error l j = Some y -> y <= x.

Lemma noninc_repeat_app : forall k d l, nonincreasing l -> (forall x, In x l -> x <= d) ->
  nonincreasing (repeat d k ++ l).
Proof.
  intros k d l H B i j x y Hij Hx Hy.
  destruct (Nat.lt_ge_cases i k).
  - rewrite nth_error_app1, nth_error_repeat_lt in Hx by (rewrite ?repeat_length; lia).
    injection Hx as <-. destruct (Nat.lt_ge_cases j k).
    + rewrite nth_error_app1, nth_error_repeat_lt in Hy by (rewrite ?repeat_length; lia). injection Hy as <-. lia.
    + rewrite nth_error_app2, repeat_length in Hy by (rewrite repeat_length; lia).
      apply B. eapply nth_error_In. exact Hy.
  - rewrite nth_error_app2, repeat_length in Hx by (rewrite repeat_length; lia).
    rewrite nth_error_app2, repeat_length in Hy by (rewrite repeat_length; lia).
    eapply H; [|exact Hx|exact Hy]. lia.
Qed.

(** [dt] is the depth of the node created next. *)
Lemma hrun_mono : forall t ls q dl E P, hrun t ls q dl E P ->
  nonincreasing E /\ nonincreasing dl /\
  (forall dt, nth_error E (length q) = Some dt ->
     (forall x, In x E -> x <= S dt) /\ (forall x, In x dl -> x <= S dt)) /\
  (nth_error E (length q) = None -> dl = [] /\ E = [0]).
Proof.
  induction 1 as [|t ls q b1 x1 ls1 q1 b2 x2 ls2 q2 dl E P d k P1 P2 R IH D K].
  - split; [|split; [|split]].
    + intros [|[|i]] [|[|j]] u v Hij Hx Hy; cbn in *; try discriminate; injection Hx as <-; injection Hy as <-; lia.
    + intros [|i] j u v Hij Hx; discriminate.
    + discriminate.
    + auto.
  - destruct IH as (M1 & M2 & M3 & M4).
    rewrite app_length in *. cbn [length] in *.
    assert (B : (forall x, In x E -> x <= S d) /\ (forall x, In x dl -> x <= S d)).
    { destruct (nth_error E (length q2 + 1)) as [dt|] eqn:ET.
      - destruct (M3 dt eq_refl) as [A B]. assert (dt <= d) by (eapply M1; [|exact D|exact ET]; lia).
        split; intros x Hx; [specialize (A x Hx)|specialize (B x Hx)]; lia.
      - destruct (M4 eq_refl) as [-> ->]. split; cbn; [intros x [<-|[]]; lia|intros x []]. }
    destruct B as [B1 B2].
    split; [apply noninc_repeat_app; auto|]. split; [apply noninc_repeat_app; auto|].
    destruct (pick_length _ _ _ _ _ _ P1), (pick_length _ _ _ _ _ _ P2).
    assert (EN : nth_error (repeat (S d) k ++ E) (length q) = Some d).
    { rewrite nth_error_app2; rewrite repeat_length; [|lia]. replace (length q - k) with (length q2) by lia. exact D. }
    rewrite EN. split; [|discriminate]. intros dt Hdt. injection Hdt as <-.
    split; intros x Hx; apply in_app_or in Hx; destruct Hx as [Hx|Hx]; auto; apply repeat_spec in Hx; lia.
Qed.

(** Parents. *)
Lemma hrun_parents : forall t ls q dl E P, hrun t ls q dl E P -> forall r, r + length q = t ->
  forall i p, nth_error P i = Some p -> i + r < p /\ p - r < length E /\
  exists d, nth_error E (p - r) = Some d /\ nth_error E i = Some (S d).
Proof.
  induction 1 as [|t ls q b1 x1 ls1 q1 b2 x2 ls2 q2 dl E P d k P1 P2 R IH D K]; intros r Hr i p Hp.
  - destruct i; discriminate.
  - destruct (pick_length _ _ _ _ _ _ P1), (pick_length _ _ _ _ _ _ P2).
    rewrite app_length, repeat_length.
    destruct (Nat.lt_ge_cases i k).
    + rewrite nth_error_app1, nth_error_repeat_lt in Hp by (rewrite ?repeat_length; lia). injection Hp as <-.
      split; [lia|]. pose proof (nth_error_bound _ _ _ D). split; [lia|].
      exists d. split.
      * rewrite nth_error_app2; rewrite repeat_length; [|lia]. replace (t - r - k) with (length q2) by lia. exact D.
      * rewrite nth_error_app1, nth_error_repeat_lt by (rewrite ?repeat_length; lia). reflexivity.
    + rewrite nth_error_app2, repeat_length in Hp by (rewrite repeat_length; lia).
      destruct (IH (r + k)) with (i := i - k) (p := p) as (A & B & dd & C1 & C2).
      { rewrite app_length. cbn [length]. lia. }
      { exact Hp. }
      split; [lia|]. split; [lia|]. exists dd. split.
      * rewrite nth_error_app2; rewrite repeat_length; [|lia]. replace (p - r - k) with (p - (r + k)) by lia. exact C1.
      * rewrite nth_error_app2; rewrite repeat_length; [|lia]. exact C2.
Qed.

(** Nodes per level. *)
Definition geq (k : nat) (l : list nat) : nat := length (filter (Nat.leb k) l).
Lemma geq_app : forall k a b, geq k (a ++ b) = geq k a + geq k b.
Proof. intros. unfold geq. rewrite filter_app, app_length. reflexivity. Qed.
Lemma geq_repeat : forall k d n, geq k (repeat d n) = if k <=? d then n else 0.
Proof.
  intros. induction n as [|n IH]; cbn [repeat]; [destruct (k <=? d); reflexivity|].
  unfold geq in *. cbn [filter]. destruct (k <=? d); cbn [length]; lia.
Qed.

Lemma hrun_levels : forall t ls q dl E P, hrun t ls q dl E P -> forall k,
  geq (S k) dl + geq (S k) E = 2 * geq k (skipn (length q) E).
Proof.
  induction 1 as [|t ls q b1 x1 ls1 q1 b2 x2 ls2 q2 dl E P d k P1 P2 R IH D K]; intros j.
  - reflexivity.
  - specialize (IH j). rewrite app_length in IH. cbn [length] in IH.
    destruct (pick_length _ _ _ _ _ _ P1), (pick_length _ _ _ _ _ _ P2).
    rewrite !geq_app, !geq_repeat.
    assert (EQ : skipn (length q) (repeat (S d) k ++ E) = d :: skipn (length q2 + 1) E).
    { rewrite skipn_app, repeat_length, skipn_all2 by (rewrite repeat_length; lia). cbn [app].
      replace (length q - k) with (length q2) by lia. rewrite Nat.add_1_r.
      revert D. generalize (length q2). clear. intros m. revert E.
      induction m as [|m IH]; intros [|e E] D; try discriminate.
      - cbn in *. congruence.
      - cbn [skipn]. apply IH. exact D. }
    rewrite EQ. change (d :: skipn (length q2 + 1) E) with (repeat d 1 ++ skipn (length q2 + 1) E).
    rewrite geq_app, geq_repeat. cbn [Nat.leb]. destruct (j <=? d); destruct b1, b2; cbn [nat_of] in *; subst k; cbn; lia.
Qed.

(** In a list that does not increase the elements >= k come first. *)
Lemma geq_cut : forall l k, nonincreasing l -> forall i x, nth_error l i = Some x -> (k <= x <-> i < geq k l).
Proof.
  induction l as [|y l IH]; intros k M i x Hx; [destruct i; discriminate|].
  assert (M' : nonincreasing l).
  { intros a b u v Hab Hu Hv. apply (M (S a) (S b)); auto; lia. }
  unfold geq in *. cbn [filter]. destruct (Nat.leb_spec k y).
  - cbn [length]. destruct i as [|i]; cbn in Hx; [injection Hx as <-; lia|].
    specialize (IH k M' i x Hx). lia.
  - assert (Z : length (filter (Nat.leb k) l) = 0).
    { destruct (filter (Nat.leb k) l) as [|z f] eqn:EF; auto. exfalso.
      assert (Hz : In z (filter (Nat.leb k) l)) by (rewrite EF; left; auto).
      apply filter_In in Hz. destruct Hz as [Hz1 Hz2]. apply In_nth_error in Hz1. destruct Hz1 as [j Hj].
      assert (z <= y) by (apply (M 0 (S j)); auto; lia). apply Nat.leb_le in Hz2. lia. }
    rewrite Z. assert (x <= y) by (apply (M 0 i); auto; lia). lia.
Qed.

Lemma geq_le : forall k l, geq k l <= length l.
Proof. intros. unfold geq. induction l as [|x l IH]; cbn; [lia|]. destruct (k <=? x); cbn; lia. Qed.
Lemma geq_0 : forall l, geq 0 l = length l.
Proof. intros. unfold geq. induction l as [|x l IH]; auto. cbn. f_equal. exact IH. Qed.
Lemma geq_S : forall k l, geq (S k) l <= geq k l.
Proof.
  intros. unfold geq. induction l as [|x l IH]; cbn [filter]; [lia|].
  destruct (Nat.leb_spec (S k) x), (Nat.leb_spec k x); cbn [length]; lia.
Qed.

(** ** Phase 2 *)
Lemma phase2_spec : forall P E, length E = S (length P) ->
  (forall i p, nth_error P i = Some p -> i < p /\ exists d, nth_error E p = Some d /\ nth_error E i = Some (S d)) ->
  forall k freqs, k <= length P -> length E < length freqs ->
  (forall i p, i < k -> nth_error P i = Some p -> nth_error freqs i = Some (N.of_nat p)) ->
  (forall i d, k <= i -> nth_error E i = Some d -> nth_error freqs i = Some (N.of_nat d)) ->
  exists freqs', phase2Loop k freqs = Ok freqs' /\ length freqs' = length freqs /\
    forall i d, nth_error E i = Some d -> nth_error freqs' i = Some (N.of_nat d).
Proof.
  intros P E HL HP. induction k as [|k IH]; intros freqs Hk Hf H1 H2.
  - exists freqs. cbn. split; [reflexivity|]. split; [reflexivity|]. intros i d. apply H2. lia.
  - cbn [phase2Loop].
    destruct (nth_error_lt P k) as [p Ep]; [lia|].
    destruct (HP k p Ep) as (A & d & B & C).
    rewrite (get_ok _ _ _ (H1 k p ltac:(lia) Ep)). cbn [bind]. rewrite Nat2N.id.
    rewrite (get_ok _ _ _ (H2 p d ltac:(lia) B)). cbn [bind].
    rewrite set_ok by lia. cbn [bind].
    destruct (IH (upd freqs k (N.of_nat d + 1)%N)) as (f' & F1 & F2 & F3).
    + lia.
    + rewrite upd_length. lia.
    + intros i q Hi Hq. rewrite nth_error_upd_other by lia. apply H1; auto; lia.
    + intros i e Hi He. destruct (Nat.eq_dec i k) as [->|NE].
      * rewrite nth_error_upd_same by lia. rewrite C in He. injection He as <-. f_equal. lia.
      * rewrite nth_error_upd_other by lia. apply H2; auto; lia.
    + exists f'. rewrite upd_length in F2. auto.
Qed.

(** ** Phase 3 *)
Lemma countInner_spec : forall (E : list nat) k freqs t2, nonincreasing E -> t2 = geq (S k) E ->
  forall t1 u, (forall i d, i < t1 -> nth_error E i = Some d -> nth_error freqs i = Some (N.of_nat d)) ->
  t2 <= t1 <= geq k E ->
  countInner t1 freqs (N.of_nat k) u = Ok (t2, u + (t1 - t2)).
Proof.
  intros E k freqs t2 M T2. induction t1 as [|t IH]; intros u HF Ht.
  - cbn. oklia.
  - cbn [countInner]. pose proof (geq_le k E).
    destruct (nth_error_lt E t) as [d Ed]; [lia|].
    rewrite (get_ok _ _ _ (HF t d ltac:(lia) Ed)). cbn [bind].
    pose proof (geq_cut E k M t d Ed) as C1. pose proof (geq_cut E (S k) M t d Ed) as C2.
    destruct (N.eqb_spec (N.of_nat d) (N.of_nat k)) as [EQ|NE].
    + apply Nat2N.inj in EQ. subst d. rewrite IH; [oklia| |lia].
      intros i e Hi. apply HF. lia.
    + assert (t2 = S t) by lia. oklia.
Qed.

Lemma fillLeaves_spec : forall k x1 freqs depth, k <= x1 <= length freqs ->
  exists freqs', fillLeaves k x1 freqs depth = Ok (x1 - k, freqs') /\ length freqs' = length freqs /\
    forall i, nth_error freqs' i = if (x1 - k <=? i) && (i <? x1) then Some depth else nth_error freqs i.
Proof.
  induction k as [|k IH]; intros x1 freqs depth H.
  - exists freqs. cbn [fillLeaves]. rewrite Nat.sub_0_r. split; [reflexivity|]. split; [reflexivity|].
    intros i. destruct (Nat.leb_spec x1 i), (Nat.ltb_spec i x1); cbn; auto; lia.
  - destruct x1 as [|x]; [lia|]. cbn [fillLeaves]. rewrite set_ok by lia. cbn [bind].
    destruct (IH x (upd freqs x depth) depth) as (f & F1 & F2 & F3); [rewrite upd_length; lia|].
    exists f. rewrite F1. split; [reflexivity|]. rewrite upd_length in F2. split; [exact F2|].
    intros i. rewrite F3. rewrite nth_error_upd by lia.
    change (S x - S k) with (x - k).
    destruct (Nat.leb_spec (x - k) i), (Nat.ltb_spec i x), (Nat.ltb_spec i (S x)), (Nat.eqb_spec i x); cbn; auto; lia.
Qed.

Lemma phase3_spec : forall (E dl : list nat), nonincreasing E -> nonincreasing dl ->
  (forall k, geq (S k) dl + geq (S k) E = 2 * geq k E) ->
  forall fuel k freqs t1 x1 a, t1 = geq k E -> x1 = geq k dl -> x1 = t1 + a -> t1 + 1 < fuel ->
  length freqs = length dl ->
  (forall i d, i < t1 -> nth_error E i = Some d -> nth_error freqs i = Some (N.of_nat d)) ->
  (forall i d, x1 <= i -> nth_error dl i = Some d -> nth_error freqs i = Some (N.of_nat d)) ->
  phase3Loop fuel a t1 x1 freqs (N.of_nat k) = Ok (map N.of_nat dl).
Proof.
  intros E dl ME MD LV. induction fuel as [|f IH]; intros k freqs t1 x1 a T1 X1 HA HF HL H1 H2; [lia|].
  destruct a as [|a].
  - (* nothing left: all leaves are written *)
    cbn [phase3Loop]. f_equal.
    assert (Z : x1 = 0).
    { assert (geq (S k) dl <= x1) by (subst; apply geq_S).
      assert (forall j, geq (j + k) dl + geq (j + k) E <= 2 * t1).
      { induction j as [|j IHj]; [cbn [Nat.add]; lia|].
        pose proof (LV (j + k)). cbn [Nat.add].
        assert (geq (j + k) E <= geq k E) by (clear; induction j as [|j IHj]; [cbn; lia|]; cbn [Nat.add]; pose proof (geq_S (j + k) E); lia).
        lia. }
      assert (EQ : forall j, geq (j + k) E = t1 /\ geq (j + k) dl = t1).
      { induction j as [|j [I1 I2]]; [cbn [Nat.add]; lia|]. pose proof (LV (j + k)). cbn [Nat.add].
        pose proof (geq_S (j + k) E). pose proof (geq_S (j + k) dl). lia. }
      (* lists are finite: beyond the maximum nothing is left *)
      assert (exists m, forall x, In x dl -> x < m) as [m Hm].
      { clear. induction dl as [|x l [m IH]]; [exists 0; intros x []|].
        exists (S (Nat.max x m)). intros y [<-|Hy]; [lia|]. specialize (IH y Hy). lia. }
      destruct (EQ m) as [_ Q].
      assert (geq (m + k) dl = 0).
      { unfold geq. destruct (filter (Nat.leb (m + k)) dl) as [|z l] eqn:EF; auto. exfalso.
        assert (Hz : In z (filter (Nat.leb (m + k)) dl)) by (rewrite EF; left; auto).
        apply filter_In in Hz. destruct Hz as [Hz1 Hz2]. apply Nat.leb_le in Hz2. specialize (Hm z Hz1). lia. }
      lia. }
    apply nth_error_ext. intros i. rewrite nth_error_map.
    destruct (nth_error dl i) as [d|] eqn:ED; cbn [option_map].
    + apply H2; auto; lia.
    + apply nth_error_None. apply nth_error_None in ED. lia.
  - cbn [phase3Loop].
    set (t2 := geq (S k) E). pose proof (geq_S k E).
    rewrite (countInner_spec E k freqs t2 ME eq_refl t1 0 H1) by (unfold t2; lia).
    cbn [bind]. rewrite Nat.add_0_l.
    pose proof (LV k) as LK. fold t2 in LK. pose proof (geq_S k dl) as GS. pose proof (geq_le k dl) as GL.
    destruct (fillLeaves_spec (S a - (t1 - t2)) x1 freqs (N.of_nat k)) as (f' & F1 & F2 & F3); [lia|].
    rewrite F1. cbn [bind]. replace (N.of_nat k + 1)%N with (N.of_nat (S k)) by lia.
    destruct (Nat.eq_dec t1 t2) as [EQ|NE].
    + (* no inner node at this depth: the loop ends *)
      replace (2 * (t1 - t2)) with 0 by lia.
      assert (D : f' = map N.of_nat dl).
      { apply nth_error_ext. intros i. rewrite F3, nth_error_map.
        destruct (nth_error dl i) as [d|] eqn:ED; cbn [option_map].
        - pose proof (geq_cut dl k MD i d ED) as C1. pose proof (geq_cut dl (S k) MD i d ED) as C2.
          destruct (Nat.leb_spec (x1 - (S a - (t1 - t2))) i), (Nat.ltb_spec i x1); cbn [andb].
          + f_equal. f_equal. lia.
          + apply H2; auto.
          + exfalso. (* leaves deeper than k would need inner nodes deeper than or at k *)
            assert (NOE : forall j, geq (j + k) E = t1).
            { intros j. induction j as [|j IHj]; [cbn [Nat.add]; lia|].
              destruct j as [|j]; [cbn [Nat.add]; fold t2; lia|].
              pose proof (LV (S j + k)). cbn [Nat.add] in *. pose proof (geq_S (S (j + k)) E).
              pose proof (geq_S (S (j + k)) dl). pose proof (LV (j + k)).
              assert (geq (j + k) E = t1).
              { pose proof (geq_S (j + k) E). assert (geq (j + k) E <= geq k E) by (clear; induction j as [|j IHj]; [cbn; lia|]; cbn [Nat.add]; pose proof (geq_S (j + k) E); lia). lia. }
              lia. }
            assert (exists m, forall x, In x E -> x < m) as [m Hm].
            { clear. induction E as [|x l [m IH]]; [exists 0; intros x []|].
              exists (S (Nat.max x m)). intros y [<-|Hy]; [lia|]. specialize (IH y Hy). lia. }
            assert (geq (m + k) E = 0).
            { unfold geq. destruct (filter (Nat.leb (m + k)) E) as [|z l] eqn:EF; auto. exfalso.
              assert (Hz : In z (filter (Nat.leb (m + k)) E)) by (rewrite EF; left; auto).
              apply filter_In in Hz. destruct Hz as [Hz1 Hz2]. apply Nat.leb_le in Hz2. specialize (Hm z Hz1). lia. }
            rewrite NOE in *. lia.
          + lia.
        - destruct (Nat.leb_spec (x1 - (S a - (t1 - t2))) i), (Nat.ltb_spec i x1); cbn [andb];
            try (apply nth_error_None; apply nth_error_None in ED; lia).
          apply nth_error_None in ED. lia. }
      subst f'. destruct f; reflexivity.
    + apply IH; try lia; auto.
      * fold t2. intros i d Hi Hd. rewrite F3.
        destruct (Nat.leb_spec (x1 - (S a - (t1 - t2))) i); [lia|]. cbn [andb]. apply H1; auto; lia.
      * intros i d Hi Hd. rewrite F3.
        pose proof (geq_cut dl k MD i d Hd) as C1. pose proof (geq_cut dl (S k) MD i d Hd) as C2.
        destruct (Nat.leb_spec (x1 - (S a - (t1 - t2))) i), (Nat.ltb_spec i x1); cbn [andb]; try lia.
        -- f_equal. f_equal. lia.
        -- apply H2; auto.
Qed.

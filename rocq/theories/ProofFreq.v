(** The frequency table stays ordered and consistent. *)
From Coq Require Import List NArith ZArith Lia Arith Bool Permutation Sorted.
From Coq Require Import ZifyBool ZifyNat ZifyN.
From Verif Require Import Base Arrays ModelUtils ModelSort ModelFreq SpecFreq ProofSort.
Import ListNotations.
Open Scope N_scope.

(** ** Arrays with a hole *)
Definition hole (m : N -> N) (key : N) (i : nat) (freqs : list (N * N)) (loc : list N) : Prop :=
  length freqs = 256%nat /\ length loc = 256%nat /\
  (forall c, c < 256 -> c <> key -> exists j, j <> i /\
     nth_error loc (N.to_nat c) = Some (N.of_nat j) /\ nth_error freqs j = Some (c, m c)) /\
  (forall j c f, j <> i -> nth_error freqs j = Some (c, f) ->
     c <> key /\ c < 256 /\ f = m c /\ nth_error loc (N.to_nat c) = Some (N.of_nat j)).
Definition orderedBut (i : nat) (freqs : list (N * N)) : Prop :=
  forall a b p q, a <> i -> b <> i -> (a <= b)%nat -> nth_error freqs a = Some p -> nth_error freqs b = Some q ->
    snd p <= snd q.

Lemma hole_open : forall t m key i f, tableOf t m -> nth_error (ft_freqs t) i = Some (key, f) ->
  hole m key i (ft_freqs t) (ft_loc t).
Proof.
  intros t m key i f (L1 & L2 & D1 & D2) Hi. repeat split; auto.
  - intros c Hc Hk. destruct (D1 c Hc) as (j & E1 & E2). exists j. repeat split; auto.
    intros ->. rewrite Hi in E2. injection E2 as -> _. contradiction.
  - intros ->. destruct (D2 _ _ _ H0) as (_ & _ & E1). destruct (D2 _ _ _ Hi) as (_ & _ & E2).
    rewrite E1 in E2. injection E2 as E2. apply H. lia.
  - apply (D2 _ _ _ H0).
  - apply (D2 _ _ _ H0).
  - apply (D2 _ _ _ H0).
Qed.

Lemma hole_move : forall m key i i' freqs loc k f, hole m key i freqs loc -> i <> i' -> (i < 256)%nat ->
  nth_error freqs i' = Some (k, f) -> hole m key i' (upd freqs i (k, f)) (upd loc (N.to_nat k) (N.of_nat i)).
Proof.
  intros m key i i' freqs loc k f (L1 & L2 & D1 & D2) Hne Hi Hf.
  destruct (D2 i' k f ltac:(auto) Hf) as (K1 & K2 & K3 & K4).
  repeat split; rewrite ?upd_length; auto.
  - intros c Hc Hk. destruct (N.eq_dec c k) as [->|Hck].
    + exists i. split; [auto|]. rewrite !nth_error_upd_same by lia. split; congruence.
    + destruct (D1 c Hc Hk) as (j & J1 & J2 & J3). exists j.
      assert (j <> i') by (intros ->; rewrite Hf in J3; congruence).
      rewrite !nth_error_upd_other by lia. auto.
  - intros ->. destruct (Nat.eq_dec j i) as [->|Hj].
    + rewrite nth_error_upd_same in H0 by lia. congruence.
    + rewrite nth_error_upd_other in H0 by lia. destruct (D2 j key f0 Hj H0) as (X & _). contradiction.
  - destruct (Nat.eq_dec j i) as [->|Hj].
    + rewrite nth_error_upd_same in H0 by lia. injection H0 as <- <-. exact K2.
    + rewrite nth_error_upd_other in H0 by lia. apply (D2 j c f0 Hj H0).
  - destruct (Nat.eq_dec j i) as [->|Hj].
    + rewrite nth_error_upd_same in H0 by lia. injection H0 as <- <-. exact K3.
    + rewrite nth_error_upd_other in H0 by lia. apply (D2 j c f0 Hj H0).
  - destruct (Nat.eq_dec j i) as [->|Hj].
    + rewrite nth_error_upd_same in H0 by lia. injection H0 as <- <-. rewrite nth_error_upd_same by lia. reflexivity.
    + rewrite nth_error_upd_other in H0 by lia. destruct (D2 j c f0 Hj H0) as (X1 & X2 & X3 & X4).
      assert (c <> k) by (intros ->; rewrite X4 in K4; injection K4 as K4; lia).
      rewrite nth_error_upd_other by lia. exact X4.
Qed.

Lemma hole_close : forall m key i freqs loc v last, hole m key i freqs loc -> (i < 256)%nat -> key < 256 ->
  tableOf (mkFT (upd freqs i (key, v)) (upd loc (N.to_nat key) (N.of_nat i)) last) (with_value m key v).
Proof.
  intros m key i freqs loc v last (L1 & L2 & D1 & D2) Hi Hk. unfold tableOf, with_value. cbn [ft_freqs ft_loc].
  repeat split; rewrite ?upd_length; auto.
  - intros c Hc. destruct (N.eqb_spec c key) as [->|Hck].
    + exists i. rewrite !nth_error_upd_same by lia. auto.
    + destruct (D1 c Hc Hck) as (j & J1 & J2 & J3). exists j. rewrite !nth_error_upd_other by lia. auto.
  - destruct (Nat.eq_dec i0 i) as [->|Hj].
    + rewrite nth_error_upd_same in H by lia. congruence.
    + rewrite nth_error_upd_other in H by lia. apply (D2 i0 c f Hj H).
  - destruct (Nat.eq_dec i0 i) as [->|Hj].
    + rewrite nth_error_upd_same in H by lia. injection H as <- <-. rewrite N.eqb_refl. reflexivity.
    + rewrite nth_error_upd_other in H by lia. destruct (D2 i0 c f Hj H) as (X1 & X2 & X3 & X4).
      destruct (N.eqb_spec c key); [contradiction|exact X3].
  - destruct (Nat.eq_dec i0 i) as [->|Hj].
    + rewrite nth_error_upd_same in H by lia. injection H as <- <-. rewrite nth_error_upd_same by lia. reflexivity.
    + rewrite nth_error_upd_other in H by lia. destruct (D2 i0 c f Hj H) as (X1 & X2 & X3 & X4).
      rewrite nth_error_upd_other by lia. exact X4.
Qed.

Lemma ordered_close : forall i freqs x last loc, orderedBut i freqs ->
  (forall a p, (a < i)%nat -> nth_error freqs a = Some p -> snd p <= snd x) ->
  (forall a p, (i < a)%nat -> nth_error freqs a = Some p -> snd x <= snd p) ->
  (i < length freqs)%nat -> ordered (mkFT (upd freqs i x) loc last).
Proof.
  intros i freqs x last loc H Hl Hr Hi a b p q Hab Ha Hb. cbn [ft_freqs] in *.
  destruct (Nat.eq_dec a i) as [->|Na]; destruct (Nat.eq_dec b i) as [->|Nb].
  - rewrite Ha in Hb. injection Hb as ->. lia.
  - rewrite nth_error_upd_same in Ha by lia. rewrite nth_error_upd_other in Hb by lia. injection Ha as <-.
    apply (Hr b); [lia|exact Hb].
  - rewrite nth_error_upd_same in Hb by lia. rewrite nth_error_upd_other in Ha by lia. injection Hb as <-.
    apply (Hl a); [lia|exact Ha].
  - rewrite nth_error_upd_other in Ha, Hb by lia. apply (H a b p q); auto.
Qed.

(** ** Initialisation *)
Lemma initLocations_all : forall l i loc, (N.to_nat i + length l <= 256)%nat ->
  length loc = 256%nat -> NoDup (map fst l) -> Forall (fun p => fst p < 256) l ->
  exists loc', initLocations i l loc = Ok loc' /\ length loc' = 256%nat /\
    (forall j c f, nth_error l j = Some (c, f) -> nth_error loc' (N.to_nat c) = Some (i + N.of_nat j)) /\
    (forall c, ~ In c (map fst l) -> nth_error loc' (N.to_nat c) = nth_error loc (N.to_nat c)).
Proof.
  induction l as [|(k, f) l IH]; intros i loc Hi Hl Hn Hb.
  - exists loc. cbn. repeat split; auto. intros j c f H. destruct j; discriminate.
  - cbn [initLocations map fst length] in *. inversion Hn as [|? ? Hnk Hn']; subst. inversion Hb as [|? ? Hk Hb']; subst.
    cbn [fst] in Hk. rewrite set_ok by lia. cbn [bind].
    destruct (IH (i + 1) (upd loc (N.to_nat k) i)) as (loc' & E & L' & Q1 & Q2); auto; [lia|rewrite upd_length; exact Hl|].
    exists loc'. repeat split; auto.
    + intros j c f' Hj. destruct j as [|j]; cbn [nth_error] in Hj.
      * injection Hj as <- <-. rewrite Q2 by exact Hnk. rewrite nth_error_upd_same by lia. f_equal. lia.
      * rewrite (Q1 j c f' Hj). f_equal. lia.
    + intros c Hc. cbn [In] in Hc. rewrite Q2 by tauto. assert (k <> c) by tauto. apply nth_error_upd_other; lia.
Qed.

Lemma combine_fst : forall (l : list N) (r : list N), length l = length r -> map fst (combine l r) = l.
Proof. induction l as [|x l IH]; intros [|y r] H; cbn in *; try lia; [reflexivity|]. f_equal. apply IH. lia. Qed.
Lemma nth_error_combine : forall (l r : list N) i x y, nth_error l i = Some x -> nth_error r i = Some y ->
  nth_error (combine l r) i = Some (x, y).
Proof.
  induction l as [|a l IH]; intros [|b r] [|i] x y Hx Hy; cbn in *; try discriminate.
  - congruence.
  - apply IH; auto.
Qed.
Definition bytes256 : list N := map N.of_nat (seq 0 256).
Lemma bytes256_nth : forall i, (i < 256)%nat -> nth_error bytes256 i = Some (N.of_nat i).
Proof.
  intros i H. unfold bytes256. rewrite (map_nth_error N.of_nat i (seq 0 256) (d := i)); [reflexivity|].
  rewrite (nth_error_nth' (seq 0 256) O) by (rewrite seq_length; exact H). rewrite seq_nth by exact H. reflexivity.
Qed.
Lemma bytes256_length : length bytes256 = 256%nat.
Proof. reflexivity. Qed.
Lemma bytes256_nodup : NoDup bytes256.
Proof. unfold bytes256. apply FinFun.Injective_map_NoDup; [intros x y H; lia|apply seq_NoDup]. Qed.
Lemma bytes256_in : forall c, In c bytes256 <-> c < 256.
Proof.
  intros c. unfold bytes256. rewrite in_map_iff. split.
  - intros (i & <- & Hi). apply in_seq in Hi. lia.
  - intros H. exists (N.to_nat c). split; [lia|]. apply in_seq. lia.
Qed.

Lemma ftInit_all : forall sortF frequencies, sorts_by_frequency sortF -> length frequencies = 256%nat ->
  exists t, ftInit sortF frequencies = Ok t /\ tableOf t (fun c => nth (N.to_nat c) frequencies 0) /\
    ordered t /\ ft_last t = 256%nat.
Proof.
  intros sortF frequencies HS HL. unfold ftInit. fold bytes256.
  destruct (HS (combine bytes256 frequencies)) as (P & Q).
  set (l := sortF (combine bytes256 frequencies)) in *.
  assert (LL : length l = 256%nat) by (rewrite (Permutation_length P), combine_length, bytes256_length, HL; reflexivity).
  assert (PF : Permutation (map fst l) bytes256).
  { rewrite (Permutation_map fst P), combine_fst; [reflexivity|]. rewrite HL. reflexivity. }
  assert (ND : NoDup (map fst l)) by (eapply Permutation_NoDup; [symmetry; exact PF|apply bytes256_nodup]).
  destruct (initLocations_all l 0 (repeat 0 256)) as (loc & E & Ll & Q1 & _).
  - lia.
  - apply repeat_length.
  - exact ND.
  - apply Forall_forall. intros p Hp. apply bytes256_in. eapply Permutation_in; [exact PF|]. apply in_map. exact Hp.
  - rewrite E. cbn [bind]. eexists. split; [reflexivity|].
    assert (VAL : forall p, In p l -> fst p < 256 /\ snd p = nth (N.to_nat (fst p)) frequencies 0).
    { intros p Hp. assert (Hc : In p (combine bytes256 frequencies)) by (eapply Permutation_in; eauto).
      apply In_nth_error in Hc as (i & Hi).
      assert (Hlt : (i < 256)%nat).
      { assert (i < length (combine bytes256 frequencies))%nat by (apply nth_error_Some; congruence).
        rewrite combine_length, bytes256_length in H. lia. }
      rewrite (nth_error_combine _ _ _ (N.of_nat i) (nth i frequencies 0)) in Hi.
      - injection Hi as <-. cbn [fst snd]. rewrite Nat2N.id. split; [lia|reflexivity].
      - apply bytes256_nth. exact Hlt.
      - apply nth_error_nth'. lia. }
    repeat split; cbn [ft_freqs ft_loc]; auto.
    + intros c Hc. assert (In c (map fst l)) as HI.
      { eapply Permutation_in; [symmetry; exact PF|]. apply bytes256_in. exact Hc. }
      apply in_map_iff in HI as ((c', f) & Hc' & HI). cbn [fst] in Hc'. subst c'.
      pose proof (VAL _ HI) as (_ & V). cbn [fst snd] in V. subst f.
      apply In_nth_error in HI as (i & Hi). exists i. split; [|exact Hi]. rewrite (Q1 _ _ _ Hi). f_equal.
    + apply nth_error_In in H. apply (VAL _ H).
    + apply nth_error_In in H. apply (VAL _ H).
    + rewrite (Q1 _ _ _ H). f_equal.
    + intros i j p q Hij Hp Hq. cbn [ft_freqs] in *. clear - Q Hij Hp Hq. revert i j Hij Hp Hq.
      induction Q as [|x l Q IH F]; intros i j Hij Hp Hq; [destruct i; discriminate|].
      destruct i as [|i]; destruct j as [|j]; cbn [nth_error] in *.
      * rewrite Hp in Hq. injection Hq as ->. lia.
      * injection Hp as <-. rewrite Forall_forall in F. apply F. eapply nth_error_In; eauto.
      * lia.
      * apply (IH i j); auto. lia.
Qed.

(** ** Decreasing *)
Lemma decreaseLoop_all : forall m key value i freqs loc, hole m key i freqs loc -> orderedBut i freqs ->
  (i < 256)%nat -> (forall a p, (i < a)%nat -> nth_error freqs a = Some p -> value <= snd p) ->
  exists i' freqs' loc', decreaseLoop i value freqs loc = Ok (i', freqs', loc') /\ (i' <= i)%nat /\
    hole m key i' freqs' loc' /\ orderedBut i' freqs' /\
    (forall a p, (i' < a)%nat -> nth_error freqs' a = Some p -> value <= snd p) /\
    (forall a p, (a < i')%nat -> nth_error freqs' a = Some p -> snd p <= value) /\
    (forall a, (i < a)%nat -> nth_error freqs' a = nth_error freqs a).
Proof.
  intros m key value. induction i as [|i IH]; intros freqs loc H HO Hi HG.
  - cbn [decreaseLoop]. exists O, freqs, loc. split; [reflexivity|]. split; [lia|]. do 3 (split; [assumption|]). split; [intros a p Ha; lia|reflexivity].
  - cbn [decreaseLoop]. pose proof H as (L1 & L2 & D1 & D2).
    destruct (nth_error freqs i) as [(k, f)|] eqn:E; [|apply nth_error_None in E; lia].
    rewrite (get_ok _ _ _ E). cbn [bind].
    destruct (D2 i k f ltac:(lia) E) as (K1 & K2 & K3 & K4).
    destruct (N.ltb_spec value f) as [Hlt|Hge].
    + rewrite (get_ok _ _ _ K4). cbn [bind]. rewrite set_ok by lia. cbn [bind]. rewrite set_ok by lia. cbn [bind].
      replace ((N.of_nat i + 1) mod 256) with (N.of_nat (S i)) by (rewrite N.mod_small; lia).
      destruct (IH (upd freqs (S i) (k, f)) (upd loc (N.to_nat k) (N.of_nat (S i)))) as (i' & fr & lo & E' & B & R1 & R2 & R3 & R4 & R5).
      * apply (hole_move m key (S i) i); auto; lia.
      * intros a b p q Na Nb Hab Ha Hb.
        assert (M : forall c r, c <> i -> nth_error (upd freqs (S i) (k, f)) c = Some r ->
                    exists c', c' <> S i /\ nth_error freqs c' = Some r /\ (c = S i /\ c' = i \/ c <> S i /\ c' = c)).
        { intros c r Nc Hc. destruct (Nat.eq_dec c (S i)) as [->|].
          - rewrite nth_error_upd_same in Hc by lia. exists i. split; [lia|]. split; [congruence|lia].
          - rewrite nth_error_upd_other in Hc by lia. exists c. split; [lia|]. split; [exact Hc|lia]. }
        destruct (M a p Na Ha) as (a' & A1 & A2 & A3). destruct (M b q Nb Hb) as (b' & B1 & B2 & B3).
        apply (HO a' b'); auto. lia.
      * lia.
      * intros a p Ha Hp. destruct (Nat.eq_dec a (S i)) as [->|].
        -- rewrite nth_error_upd_same in Hp by lia. injection Hp as <-. cbn [snd]. lia.
        -- rewrite nth_error_upd_other in Hp by lia. apply (HG a p); [lia|exact Hp].
      * exists i', fr, lo. split; [exact E'|]. split; [lia|]. do 4 (split; [assumption|]).
        intros a Ha. rewrite R5 by lia. apply nth_error_upd_other; lia.
    + exists (S i), freqs, loc. split; [reflexivity|]. split; [lia|]. do 3 (split; [assumption|]). split; [|reflexivity].
      intros a p Ha Hp. apply N.le_trans with f; [|exact Hge]. apply (HO a i p (k, f)); auto; lia.
Qed.

Lemma tableOf_key : forall t m key, tableOf t m -> key < 256 -> exists i, (i < 256)%nat /\
  nth_error (ft_loc t) (N.to_nat key) = Some (N.of_nat i) /\ nth_error (ft_freqs t) i = Some (key, m key).
Proof.
  intros t m key (L1 & L2 & D1 & D2) H. destruct (D1 key H) as (i & E1 & E2). exists i. repeat split; auto.
  apply nth_error_bound in E2. lia.
Qed.

Lemma ftDecrease_all : forall t m key value, tableOf t m -> ordered t -> key < 256 -> value <= m key ->
  exists t', ftDecrease t key value = Ok t' /\ tableOf t' (with_value m key (m key - value)) /\ ordered t' /\
    ft_last t' = ft_last t /\ (forall c, c < 256 -> active t key -> active t' c <-> active t c).
Proof.
  intros t m key value HT HO Hk Hv. destruct (tableOf_key t m key HT Hk) as (i & Hi & E1 & E2).
  unfold ftDecrease. rewrite (get_ok _ _ _ E1). cbn [bind]. rewrite Nat2N.id, (get_ok _ _ _ E2). cbn [bind].
  destruct (N.leb_spec value (m key)); [|lia].
  destruct (decreaseLoop_all m key (m key - value) i (ft_freqs t) (ft_loc t)) as (i' & fr & lo & E & B & R1 & R2 & R3 & R4 & R5).
  - eapply hole_open; eauto.
  - intros a b p q _ _ Hab. apply HO. exact Hab.
  - exact Hi.
  - intros a p Ha Hp. assert (m key <= snd p) by (apply (HO i a (key, m key) p); auto; lia). lia.
  - rewrite E. cbn [bind]. pose proof R1 as (L1 & L2 & _). rewrite set_ok by lia. cbn [bind]. rewrite set_ok by lia. cbn [bind].
    eexists. split; [reflexivity|].
    assert (T' : tableOf (mkFT (upd fr i' (key, m key - value)) (upd lo (N.to_nat key) (N.of_nat i')) (ft_last t)) (with_value m key (m key - value)))
      by (apply hole_close; auto; lia).
    split; [exact T'|]. split; [apply ordered_close; auto; lia|]. split; [reflexivity|].
    intros c Hc (ik & Hik & Eik). rewrite E1 in Eik. injection Eik as Eik. assert (ik = i) by lia. subst ik.
    (* positions from i+1 on are unchanged *)
    assert (U : forall a, (i < a)%nat -> nth_error (upd fr i' (key, m key - value)) a = nth_error (ft_freqs t) a).
    { intros a Ha. rewrite nth_error_upd_other by lia. apply R5. exact Ha. }
    pose proof HT as (_ & _ & D1 & D2). pose proof T' as (_ & _ & D1' & D2'). cbn [ft_freqs ft_loc] in D1', D2'.
    destruct (D1 c Hc) as (j & J1 & J2). destruct (D1' c Hc) as (j' & J1' & J2').
    unfold active. cbn [ft_loc ft_last]. split.
    + intros (x & Hx & Ex). exists j. split; [|exact J1].
      destruct (Nat.le_gt_cases j i); [lia|].
      assert (X : nth_error (upd fr i' (key, m key - value)) j = Some (c, m c)) by (rewrite U by lia; exact J2).
      destruct (D2' _ _ _ X) as (_ & _ & Y). rewrite Ex in Y. injection Y as Y. lia.
    + intros (x & Hx & Ex). exists j'. split; [|exact J1'].
      destruct (Nat.le_gt_cases j' i); [lia|].
      rewrite U in J2' by lia. destruct (D2 _ _ _ J2') as (_ & _ & Y). rewrite Ex in Y. injection Y as Y. lia.
Qed.

(** ** Increasing *)
Lemma increaseLoop_all : forall over m key value last fuel i freqs loc,
  hole m key i freqs loc -> orderedBut i freqs -> (i < 256)%nat -> (last <= 256)%nat -> (256 - i < fuel)%nat ->
  (i < last)%nat ->
  (forall a p, (a < i)%nat -> nth_error freqs a = Some p -> snd p <= value) ->
  (forall p, (last < 256)%nat -> nth_error freqs last = Some p -> value <= snd p) ->
  (last = 256%nat -> forall loc', length loc' = 256%nat ->
      (forall c j, nth_error loc (N.to_nat c) = Some j -> exists j', nth_error loc' (N.to_nat c) = Some j' /\
          (c <> key -> j' = j \/ (j' + 1 = j /\ N.of_nat i <= j'))) ->
      exists v, over loc' = Ok v /\ value <= v) ->
  exists i' freqs' loc', increaseLoop over fuel last i value freqs loc = Ok (i', freqs', loc') /\
    (i <= i' < last)%nat /\ hole m key i' freqs' loc' /\ orderedBut i' freqs' /\
    (forall a p, (i' < a)%nat -> nth_error freqs' a = Some p -> value <= snd p) /\
    (forall a p, (a < i')%nat -> nth_error freqs' a = Some p -> snd p <= value) /\
    (forall a, (i' < a)%nat -> nth_error freqs' a = nth_error freqs a).
Proof.
  intros over m key value last. induction fuel as [|fuel IH]; intros i freqs loc H HO Hi Hl Hf Hil HL HG HV; [lia|].
  cbn [increaseLoop]. pose proof H as (L1 & L2 & D1 & D2).
  destruct (Nat.ltb_spec i last); [|lia].
  destruct (Nat.ltb_spec (S i) (length freqs)) as [Hs|Hs].
  - destruct (nth_error freqs (S i)) as [(k, f)|] eqn:E; [|apply nth_error_None in E; lia].
    rewrite (get_ok _ _ _ E). cbn [bind]. destruct (D2 (S i) k f ltac:(lia) E) as (K1 & K2 & K3 & K4).
    destruct (N.ltb_spec f value) as [Hlt|Hge].
    + rewrite (get_ok _ _ _ K4). cbn [bind]. rewrite set_ok by lia. cbn [bind]. rewrite set_ok by lia. cbn [bind].
      replace ((N.of_nat (S i) + 255) mod 256) with (N.of_nat i).
      2: { replace (N.of_nat (S i) + 255) with (N.of_nat i + 1 * 256) by lia. rewrite N.mod_add by lia. rewrite N.mod_small; lia. }
      assert (Hsl : (S i < last)%nat).
      { destruct (Nat.eq_dec (S i) last) as [El|]; [|lia]. exfalso. subst last.
        specialize (HG (k, f) ltac:(lia) E). cbn [snd] in HG. lia. }
      destruct (IH (S i) (upd freqs i (k, f)) (upd loc (N.to_nat k) (N.of_nat i))) as (i' & fr & lo & E' & B & R1 & R2 & R3 & R4 & R5).
      * apply (hole_move m key i (S i)); auto; lia.
      * intros a b p q Na Nb Hab Ha Hb.
        assert (M : forall c r, c <> S i -> nth_error (upd freqs i (k, f)) c = Some r ->
                    exists c', c' <> i /\ nth_error freqs c' = Some r /\ (c = i /\ c' = S i \/ c <> i /\ c' = c)).
        { intros c r Nc Hc. destruct (Nat.eq_dec c i) as [->|].
          - rewrite nth_error_upd_same in Hc by lia. exists (S i). split; [lia|]. split; [congruence|lia].
          - rewrite nth_error_upd_other in Hc by lia. exists c. split; [lia|]. split; [exact Hc|lia]. }
        destruct (M a p Na Ha) as (a' & A1 & A2 & A3). destruct (M b q Nb Hb) as (b' & B1 & B2 & B3).
        apply (HO a' b'); auto. lia.
      * lia.
      * lia.
      * lia.
      * lia.
      * intros a p Ha Hp. destruct (Nat.eq_dec a i) as [->|].
        -- rewrite nth_error_upd_same in Hp by lia. injection Hp as <-. cbn [snd]. lia.
        -- rewrite nth_error_upd_other in Hp by lia. apply (HL a p); [lia|exact Hp].
      * intros p Hp1 Hp2. rewrite nth_error_upd_other in Hp2 by lia. apply HG; auto.
      * intros El loc' Hl' Hloc'. apply HV; auto. intros c j Hc.
        destruct (N.eq_dec c k) as [->|Hck].
        -- rewrite K4 in Hc. injection Hc as <-.
           destruct (Hloc' k (N.of_nat i)) as (j' & J1 & J2); [rewrite nth_error_upd_same by lia; reflexivity|].
           exists j'. split; [exact J1|]. intros Hne. destruct (J2 Hne) as [->|(J3 & J4)]; right; lia.
        -- destruct (Hloc' c j) as (j' & J1 & J2); [rewrite nth_error_upd_other by lia; exact Hc|].
           exists j'. split; [exact J1|]. intros Hne. destruct (J2 Hne) as [->|(J3 & J4)]; [left; reflexivity|right; lia].
      * exists i', fr, lo. split; [exact E'|]. split; [lia|]. do 4 (split; [assumption|]).
        intros a Ha. rewrite R5 by lia. apply nth_error_upd_other; lia.
    + exists i, freqs, loc. split; [reflexivity|]. split; [lia|]. do 2 (split; [assumption|]). split; [|split; [assumption|reflexivity]].
      intros a p Ha Hp. apply N.le_trans with f; [exact Hge|]. apply (HO (S i) a (k, f) p); auto; lia.
  - destruct (HV ltac:(lia) loc L2) as (v & Ev & Hv).
    + intros c j Hc. exists j. split; [exact Hc|]. intros _. left. reflexivity.
    + rewrite Ev. cbn [bind]. destruct (N.ltb_spec v value); [lia|].
      exists i, freqs, loc. split; [reflexivity|]. split; [lia|]. do 2 (split; [assumption|]). split; [|split; [assumption|reflexivity]].
      intros a p Ha Hp. apply nth_error_bound in Hp. lia.
Qed.

(** What must hold of the word behind the array. *)
Definition overAtLeast (over : list N -> outcome N) (bound : N) : Prop :=
  forall t m key i loc', tableOf t m -> key < 256 -> nth_error (ft_loc t) (N.to_nat key) = Some (N.of_nat i) ->
    length loc' = 256%nat ->
    (forall c j, nth_error (ft_loc t) (N.to_nat c) = Some j -> exists j', nth_error loc' (N.to_nat c) = Some j' /\
          (c <> key -> j' = j \/ (j' + 1 = j /\ N.of_nat i <= j'))) ->
    exists v, over loc' = Ok v /\ bound <= v.

Lemma fold_le_bytes : forall a b c d e f g h : N,
  fold_right (fun x acc => x + 256 * acc) 0 [a; b; c; d; e; f; g; h] =
  a + 256 * b + 2^16 * c + 2^24 * d + 2^32 * e + 2^40 * f + 2^48 * g + 2^56 * h.
Proof. intros. cbn [fold_right]. lia. Qed.

Lemma layoutOver_bound : overAtLeast layoutOver (2 ^ 40).
Proof.
  intros t m key i loc' HT Hk Hi HL Hloc. pose proof HT as (L1 & L2 & D1 & D2).
  assert (P : forall c, c < 256 -> c <> key -> exists j', nth_error loc' (N.to_nat c) = Some j' /\
            exists j, nth_error (ft_loc t) (N.to_nat c) = Some j /\ (j' = 0 -> j = N.of_nat i + 1 /\ i = O \/ j = 0)).
  { intros c Hc Hck. destruct (D1 c Hc) as (j & J1 & J2). destruct (Hloc c _ J1) as (j' & J3 & J4).
    exists j'. split; [exact J3|]. exists (N.of_nat j). split; [exact J1|]. intros ->. destruct (J4 Hck) as [|(? & ?)]; lia. }
  assert (INJ : forall c d j, c < 256 -> d < 256 -> nth_error (ft_loc t) (N.to_nat c) = Some j ->
            nth_error (ft_loc t) (N.to_nat d) = Some j -> c = d).
  { intros c d j Hc Hd E1 E2. destruct (D1 c Hc) as (x & X1 & X2). destruct (D1 d Hd) as (y & Y1 & Y2).
    assert (x = y) by (rewrite X1 in E1; rewrite Y1 in E2; injection E1; injection E2; lia). subst y.
    rewrite X2 in Y2. congruence. }
  assert (TWO : forall c d, c < 256 -> d < 256 -> c <> key -> d <> key -> c <> d ->
            exists jc jd, nth_error loc' (N.to_nat c) = Some jc /\ nth_error loc' (N.to_nat d) = Some jd /\ 1 <= jc + jd).
  { intros c d Hc Hd Hck Hdk Hcd. destruct (P c Hc Hck) as (jc & C1 & oc & C2 & C3). destruct (P d Hd Hdk) as (jd & Dd1 & od & Dd2 & Dd3).
    exists jc, jd. repeat split; auto.
    destruct (N.eq_dec jc 0) as [Zc|]; [|lia]. destruct (N.eq_dec jd 0) as [Zd|]; [|lia]. exfalso.
    specialize (C3 Zc). specialize (Dd3 Zd).
    destruct C3 as [(C3 & I0)|C3]; destruct Dd3 as [(Dd3 & I0')|Dd3].
    - apply Hcd. apply (INJ c d oc); auto. congruence.
    - subst i. apply Hdk. apply (INJ d key 0); auto; congruence.
    - subst i. apply Hck. apply (INJ c key 0); auto; congruence.
    - apply Hcd. apply (INJ c d oc); auto. congruence. }
  assert (exists a b c d e f g h, firstn 8 (skipn 8 loc') = [a; b; c; d; e; f; g; h] /\
            nth_error loc' 13 = Some f /\ nth_error loc' 14 = Some g /\ nth_error loc' 15 = Some h) as (a & b & c & d & e & f & g & h & E & F & G & H).
  { do 16 (destruct loc' as [|? loc']; [cbn in HL; lia|]). cbn [skipn firstn nth_error]. repeat eexists. }
  unfold layoutOver. rewrite E, fold_le_bytes. eexists. split; [reflexivity|].
  assert (1 <= f + g + h); [|lia].
  assert (T13 : nth_error loc' (N.to_nat 13) = Some f) by exact F.
  assert (T14 : nth_error loc' (N.to_nat 14) = Some g) by exact G.
  assert (T15 : nth_error loc' (N.to_nat 15) = Some h) by exact H.
  destruct (N.eq_dec key 13) as [->|].
  - destruct (TWO 14 15) as (x & y & X & Y & Z); try lia. rewrite T14 in X. rewrite T15 in Y. injection X as ->. injection Y as ->. lia.
  - destruct (N.eq_dec key 14) as [->|].
    + destruct (TWO 13 15) as (x & y & X & Y & Z); try lia. rewrite T13 in X. rewrite T15 in Y. injection X as ->. injection Y as ->. lia.
    + destruct (TWO 13 14) as (x & y & X & Y & Z); try lia. rewrite T13 in X. rewrite T14 in Y. injection X as ->. injection Y as ->. lia.
Qed.

Lemma ftIncrease_all : forall over bound t m key v, overAtLeast over bound ->
  tableOf t m -> ordered t -> key < 256 -> (ft_last t <= 256)%nat -> active t key ->
  m key + v < 2 ^ 64 -> (ft_last t = 256%nat -> m key + v <= bound) ->
  (forall c f, nth_error (ft_freqs t) (ft_last t) = Some (c, f) -> m key + v <= f) ->
  exists t' i', ftIncrease over t key v = Ok t' /\ tableOf t' (with_value m key (m key + v)) /\ ordered t' /\
    ft_last t' = ft_last t /\ (i' < ft_last t)%nat /\ nth_error (ft_loc t') (N.to_nat key) = Some (N.of_nat i') /\
    (forall a, (i' < a)%nat -> nth_error (ft_freqs t') a = nth_error (ft_freqs t) a).
Proof.
  intros over bound t m key v HOV HT HO Hk HL (ik & Hik & Eik) HB1 HB2 HB3.
  destruct (tableOf_key t m key HT Hk) as (i & Hi & E1 & E2).
  rewrite E1 in Eik. injection Eik as Eik. assert (ik = i) by lia. subst ik.
  unfold ftIncrease. rewrite (get_ok _ _ _ E1). cbn [bind]. rewrite Nat2N.id, (get_ok _ _ _ E2). cbn [bind].
  rewrite N.eqb_refl. replace ((v + m key) mod two64) with (m key + v) by (unfold two64; rewrite N.mod_small; lia).
  destruct (increaseLoop_all over m key (m key + v) (ft_last t) 257 i (ft_freqs t) (ft_loc t)) as (i' & fr & lo & E & B & R1 & R2 & R3 & R4 & R5).
  - eapply hole_open; eauto.
  - intros a b p q _ _ Hab. apply HO. exact Hab.
  - exact Hi.
  - exact HL.
  - lia.
  - exact Hik.
  - intros a p Ha Hp. assert (snd p <= m key) by (apply (HO a i p (key, m key)); auto; lia). lia.
  - intros (c, f) _ Hp. apply (HB3 c f). exact Hp.
  - intros El loc' Hl' Hloc'. destruct (HOV t m key i loc' HT Hk E1 Hl' Hloc') as (w & W1 & W2).
    exists w. split; [exact W1|]. specialize (HB2 El). lia.
  - rewrite E. cbn [bind]. pose proof R1 as (L1 & L2 & _). rewrite set_ok by lia. cbn [bind]. rewrite set_ok by lia. cbn [bind].
    eexists. exists i'. split; [reflexivity|]. split; [apply hole_close; auto; lia|]. split; [apply ordered_close; auto; lia|].
    split; [reflexivity|]. split; [lia|]. cbn [ft_loc ft_freqs]. split; [apply nth_error_upd_same; lia|].
    intros a Ha. rewrite nth_error_upd_other by lia. apply R5. exact Ha.
Qed.

Lemma tableOf_pos : forall t m i, tableOf t m -> (i < 256)%nat -> exists c, c < 256 /\
  nth_error (ft_freqs t) i = Some (c, m c) /\ nth_error (ft_loc t) (N.to_nat c) = Some (N.of_nat i).
Proof.
  intros t m i (L1 & L2 & D1 & D2) Hi. destruct (nth_error_lt (ft_freqs t) i) as ((c, f) & E); [lia|].
  destruct (D2 _ _ _ E) as (Hc & -> & El). exists c. auto.
Qed.

Lemma tableOf_ext : forall t m m', tableOf t m -> (forall c, c < 256 -> m c = m' c) -> tableOf t m'.
Proof.
  intros t m m' (L1 & L2 & D1 & D2) H. repeat split; auto.
  - intros c Hc. destruct (D1 c Hc) as (i & E1 & E2). exists i. rewrite <- (H c Hc). auto.
  - apply (D2 _ _ _ H0).
  - destruct (D2 _ _ _ H0) as (Hc & -> & _). apply H. exact Hc.
  - apply (D2 _ _ _ H0).
Qed.

(** Removed symbols stand behind the others and keep a larger frequency than any of them. *)
Definition removed_high (t : ftable) : Prop :=
  forall i j c f d g, (i < ft_last t <= j)%nat -> nth_error (ft_freqs t) i = Some (c, f) ->
    nth_error (ft_freqs t) j = Some (d, g) -> f < g.

Lemma ftRemove_all : forall over bound t m key, overAtLeast over bound ->
  tableOf t m -> ordered t -> removed_high t -> key < 256 -> (ft_last t <= 256)%nat -> active t key ->
  (forall c, c < 256 -> active t c -> m c < bound) -> bound <= 2 ^ 63 ->
  exists t' v, ftRemove over t key = Ok t' /\ tableOf t' (with_value m key v) /\ ordered t' /\ removed_high t' /\
    ft_last t = S (ft_last t') /\ (forall c, c < 256 -> active t' c <-> active t c /\ c <> key) /\ m key < v.
Proof.
  intros over bound t m key HOV HT HO HR Hk HL HA HB HB'. pose proof HA as (ik & Hik & Eik).
  unfold ftRemove. destruct (ft_last t) as [|l] eqn:El; [lia|].
  destruct (tableOf_key t m key HT Hk) as (i & Hi & E1 & E2).
  assert (ik = i) by (rewrite E1 in Eik; injection Eik; lia). subst ik.
  destruct (tableOf_pos t m l HT ltac:(lia)) as (top & Ht & T1 & T2).
  rewrite (get_ok _ _ _ E1). cbn [bind]. rewrite (get_ok _ _ _ T1). cbn [bind]. rewrite Nat2N.id, (get_ok _ _ _ E2). cbn [bind snd].
  assert (Hle : m key <= m top) by (apply (HO i l (key, m key) (top, m top)); auto; lia).
  pose proof (HB top Ht ltac:(exists l; split; [lia|exact T2])) as Htb.
  replace ((m top + two64 - m key + 1) mod two64) with (m top - m key + 1).
  2: { unfold two64. replace (m top + 2^64 - m key + 1) with (m top - m key + 1 + 1 * 2^64) by lia. rewrite N.mod_add by lia. rewrite N.mod_small; lia. }
  destruct (ftIncrease_all over bound t m key (m top - m key + 1) HOV HT HO Hk) as (t' & i' & E & R1 & R2 & R3 & R4 & R5 & R6); auto.
  - lia.
  - lia.
  - lia.
  - intros c f Hcf. rewrite El in Hcf. assert (m top < f) by (apply (HR l (S l) top (m top) c f); auto; lia). lia.
  - rewrite E. cbn [bind]. replace (m key + (m top - m key + 1)) with (m top + 1) in R1 by lia.
    assert (TL : i' = l).
    { destruct (Nat.eq_dec i' l) as [|Hne]; [assumption|exfalso].
      assert (X : nth_error (ft_freqs t') l = Some (top, m top)) by (rewrite R6 by lia; exact T1).
      pose proof R1 as (_ & _ & D1' & D2'). destruct (D2' _ _ _ X) as (_ & V & _).
      unfold with_value in V. destruct (N.eqb_spec top key) as [->|]; [lia|].
      destruct (tableOf_key t' _ key R1 Hk) as (x & X1 & X2 & X3). rewrite R5 in X2. injection X2 as X2. assert (x = i') by lia. subst x.
      assert (m top + 1 <= m top).
      { change (m top) with (snd (top, m top)) at 2. replace (m top + 1) with (snd (key, with_value m key (m top + 1) key)).
        - apply (R2 i' l); auto; lia.
        - cbn [snd]. unfold with_value. rewrite N.eqb_refl. reflexivity. }
      lia. }
    subst i'.
    eexists. exists (m top + 1). split; [reflexivity|]. split; [exact R1|]. split; [exact R2|].
    assert (KEYPOS : nth_error (ft_freqs t') l = Some (key, m top + 1)).
    { destruct (tableOf_key t' _ key R1 Hk) as (x & X1 & X2 & X3). rewrite R5 in X2. injection X2 as X2. assert (x = l) by lia. subst x.
      rewrite X3. unfold with_value. rewrite N.eqb_refl. reflexivity. }
    assert (OLD : forall c, c < 256 -> c <> key -> forall x, nth_error (ft_loc t') (N.to_nat c) = Some (N.of_nat x) ->
              forall y, nth_error (ft_loc t) (N.to_nat c) = Some (N.of_nat y) -> (x <= l <-> y <= l)%nat).
    { intros c Hc Hck x Hx y Hy. pose proof R1 as (_ & _ & D1' & D2'). pose proof HT as (_ & _ & D1 & D2).
      destruct (D1' c Hc) as (x' & X1 & X2). rewrite Hx in X1. injection X1 as X1. assert (x' = x) by lia. subst x'.
      destruct (D1 c Hc) as (y' & Y1 & Y2). rewrite Hy in Y1. injection Y1 as Y1. assert (y' = y) by lia. subst y'.
      split; intros Hle'.
      - destruct (Nat.le_gt_cases y l); [assumption|]. exfalso.
        assert (Z : nth_error (ft_freqs t') y = Some (c, m c)) by (rewrite R6 by lia; exact Y2).
        destruct (D2' _ _ _ Z) as (_ & _ & Z3). rewrite Hx in Z3. injection Z3 as Z3. lia.
      - destruct (Nat.le_gt_cases x l); [assumption|]. exfalso.
        rewrite R6 in X2 by lia. destruct (D2 _ _ _ X2) as (_ & _ & Z3). rewrite Hy in Z3. injection Z3 as Z3. lia. }
    assert (ACT : forall c, c < 256 -> (exists j, (j < l)%nat /\ nth_error (ft_loc t') (N.to_nat c) = Some (N.of_nat j)) <-> active t c /\ c <> key).
    { intros c Hc. split.
      - intros (j & Hj & Ej). assert (c <> key) by (intros ->; rewrite R5 in Ej; injection Ej; lia). split; [|assumption].
        destruct (tableOf_key t m c HT Hc) as (y & Y1 & Y2 & Y3). exists y. split; [|exact Y2].
        pose proof (OLD c Hc H j Ej y Y2). lia.
      - intros ((y & Hy & Ey) & Hck). destruct (tableOf_key t' _ c R1 Hc) as (x & X1 & X2 & X3). exists x. split; [|exact X2].
        pose proof (OLD c Hc Hck x X2 y Ey). assert (x <> l) by (intros ->; rewrite X3 in KEYPOS; congruence). lia. }
    split.
    { intros a b c f d g Hab Ha Hb. cbn [ft_last ft_freqs] in *.
      assert (B256 : (b < 256)%nat) by (pose proof R1 as (L & _); apply nth_error_bound in Hb; lia).
      pose proof R1 as (_ & _ & _ & D2'). destruct (D2' _ _ _ Ha) as (Hc & Hf & Hlc).
      assert (HAc : active t c /\ c <> key) by (apply ACT; [exact Hc|exists a; split; [lia|exact Hlc]]).
      destruct HAc as ((y & Hy & Ey) & Hck). unfold with_value in Hf. destruct (N.eqb_spec c key); [contradiction|]. subst f.
      destruct (tableOf_key t m c HT Hc) as (y' & _ & Y2 & Y3). rewrite Ey in Y2. injection Y2 as Y2. assert (y' = y) by lia. subst y'.
      assert (m c <= m top) by (apply (HO y l (c, m c) (top, m top)); auto; lia).
      assert (m top + 1 <= g); [|lia].
      change (snd (key, m top + 1) <= snd (d, g)). apply (R2 l b); auto; lia. }
    split; [cbn [ft_last]; lia|]. split; [exact ACT|]. lia.
Qed.

(** ** The word behind the array is always read when a symbol is removed from a full table *)
Lemma increaseLoop_over : forall m key value fuel i freqs loc, hole m key i freqs loc -> (i < 256)%nat ->
  (256 - i < fuel)%nat -> (forall a p, (i < a)%nat -> nth_error freqs a = Some p -> snd p < value) ->
  increaseLoop strictOver fuel 256 i value freqs loc = UB.
Proof.
  intros m key value. induction fuel as [|fuel IH]; intros i freqs loc H Hi Hf HG; [lia|].
  cbn [increaseLoop]. pose proof H as (L1 & L2 & D1 & D2). destruct (Nat.ltb_spec i 256); [|lia].
  destruct (Nat.ltb_spec (S i) (length freqs)) as [Hs|Hs]; [|reflexivity].
  destruct (nth_error freqs (S i)) as [(k, f)|] eqn:E; [|apply nth_error_None in E; lia].
  rewrite (get_ok _ _ _ E). cbn [bind]. destruct (D2 (S i) k f ltac:(lia) E) as (K1 & K2 & K3 & K4).
  assert (f < value) by (apply (HG (S i) (k, f)); [lia|exact E]).
  destruct (N.ltb_spec f value); [|lia].
  rewrite (get_ok _ _ _ K4). cbn [bind]. rewrite set_ok by lia. cbn [bind]. rewrite set_ok by lia. cbn [bind].
  replace ((N.of_nat (S i) + 255) mod 256) with (N.of_nat i).
  2: { replace (N.of_nat (S i) + 255) with (N.of_nat i + 1 * 256) by lia. rewrite N.mod_add by lia. rewrite N.mod_small; lia. }
  apply IH.
  - apply (hole_move m key i (S i)); auto; lia.
  - lia.
  - lia.
  - intros a p Ha Hp. rewrite nth_error_upd_other in Hp by lia. apply (HG a p); [lia|exact Hp].
Qed.

Lemma ftRemove_strict : forall t m key, tableOf t m -> ordered t -> ft_last t = 256%nat -> key < 256 ->
  (forall c, c < 256 -> m c < 2 ^ 63) -> ftRemove strictOver t key = UB.
Proof.
  intros t m key HT HO El Hk HB. unfold ftRemove. rewrite El. cbv iota.
  destruct (tableOf_key t m key HT Hk) as (i & Hi & E1 & E2).
  destruct (tableOf_pos t m 255 HT ltac:(lia)) as (top & Ht & T1 & T2).
  rewrite (get_ok _ _ _ E1). cbn [bind]. rewrite (get_ok _ _ _ T1). cbn [bind]. rewrite Nat2N.id, (get_ok _ _ _ E2). cbn [bind snd].
  assert (Hle : m key <= m top) by (apply (HO i 255%nat (key, m key) (top, m top)); auto; lia).
  pose proof (HB top Ht) as Htb.
  replace ((m top + two64 - m key + 1) mod two64) with (m top - m key + 1).
  2: { unfold two64. replace (m top + 2^64 - m key + 1) with (m top - m key + 1 + 1 * 2^64) by lia. rewrite N.mod_add by lia. rewrite N.mod_small; lia. }
  unfold ftIncrease. rewrite (get_ok _ _ _ E1). cbn [bind]. rewrite Nat2N.id, (get_ok _ _ _ E2). cbn [bind].
  rewrite N.eqb_refl, El. replace ((m top - m key + 1 + m key) mod two64) with (m top + 1) by (unfold two64; rewrite N.mod_small; lia).
  rewrite (increaseLoop_over m key).
  - reflexivity.
  - eapply hole_open; eauto.
  - exact Hi.
  - lia.
  - intros a (c, f) Ha Hp. cbn [snd]. assert (Ha' : (a < 256)%nat) by (pose proof HT as (L & _); apply nth_error_bound in Hp; lia).
    assert (f <= m top) by (apply (HO a 255%nat (c, f) (top, m top)); auto; lia). lia.
Qed.

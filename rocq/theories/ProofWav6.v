(** Reading the runs out of a tree. *)
From Coq Require Import List NArith Arith Bool Lia Sorted Permutation.
From Coq Require Import ZifyBool ZifyNat ZifyN.
From Verif Require Import Base Arrays ModelUtils ModelHuffman ModelWavelet SpecWavelet.
From Verif Require Import ProofWav1 ProofWav2 ProofWav4 ProofWav5.
Import ListNotations.
Open Scope nat_scope.

Lemma nth_heads : forall a b s c, proper a -> nth_error (heads (a ++ (b :: s) :: c)) (length a) = Some b.
Proof.
  induction a as [|w a IH]; intros b s c Ha; [reflexivity|].
  inversion Ha; subst. destruct w as [|x w]; [contradiction|]. cbn. apply IH. assumption.
Qed.

Lemma ends_true_other : forall q p c, q <> p -> ends (q ++ [true]) [p ++ [c]] = [] /\ ends (q ++ [true]) [p] = [] \/
  length (ends (q ++ [true]) [p ++ [c]]) = length (ends (q ++ [true]) [p]).
Proof.
  induction q as [|b q IH]; intros p c H.
  - destruct p as [|d p]; [congruence|]. right. cbn. destruct d; reflexivity.
  - destruct p as [|d p].
    + left. cbn [app]. rewrite ends_one_nil. split; [|reflexivity]. rewrite ends_one_cons. destruct (Bool.eqb b c); [|reflexivity].
      destruct q as [|e q]; cbn; apply ends_nil || reflexivity.
    + cbn [app]. rewrite !ends_one_cons. destruct (Bool.eqb b d) eqn:E; [|left; auto].
      apply IH. intros C. subst. apply Bool.eqb_prop in E. congruence.
Qed.
Lemma ends_true_len : forall q p c, q <> p \/ c = false -> length (ends (q ++ [true]) [p ++ [c]]) = length (ends (q ++ [true]) [p]).
Proof.
  intros q p c H. destruct (list_eq_dec bool_dec q p) as [->|N].
  - destruct H as [H| ->]; [congruence|].
    assert (G : forall p, ends (p ++ [true]) [p ++ [false]] = [] /\ ends (p ++ [true]) [p] = []).
    { clear. induction p as [|b p IH]; [split; reflexivity|]. cbn [app]. rewrite !ends_one_cons, Bool.eqb_reflx. exact IH. }
    destruct (G p) as [-> ->]. reflexivity.
  - destruct (ends_true_other q p c N) as [[-> ->]|E]; [reflexivity|exact E].
Qed.
Lemma ends_true_same : forall p, ends (p ++ [true]) [p ++ [true]] = [[]] /\ ends (p ++ [true]) [p] = [].
Proof. induction p as [|b p IH]; [split; reflexivity|]. cbn [app]. rewrite !ends_one_cons, Bool.eqb_reflx. exact IH. Qed.
Lemma ends_true_nil : forall q, ends (q ++ [true]) [[]] = [].
Proof. intros [|b q]; cbn; [reflexivity|apply ends_nil]. Qed.

Lemma ones_le : forall l, ones l <= length l.
Proof. unfold ones. induction l as [|[|] l IH]; cbn; lia. Qed.

Section Reading.
Variable T : wtree.
Variable W : list (list bool).
Hypothesis HNP : noPrefix W.
Hypothesis HCOL : forall q b s, In (b :: s) (ends q W) -> exists n, look T q = Some n /\ bitVector n = heads (ends q W).
(** The nodes whose counters matter. *)
Variable needed : list bool -> Prop.

Definition counted (pre : list (list bool)) (p : list bool) (seen : seenMap) : Prop :=
  forall q, needed q -> seenAt seen q = length (ends (q ++ [true]) (pre ++ [p])).

Lemma pre_proper : forall p b s pre post, W = pre ++ (p ++ b :: s) :: post -> proper (ends p pre).
Proof.
  intros p b s pre post E. apply Forall_forall. intros w Hw C. subst w. apply ends_in in Hw. rewrite app_nil_r in Hw.
  assert (b :: s = []); [|discriminate]. apply (HNP p).
  - rewrite E. apply in_app_iff. left. exact Hw.
  - rewrite E. apply in_app_iff. right. left. reflexivity.
Qed.

Lemma bit_spec : forall p b s pre post, W = pre ++ (p ++ b :: s) :: post -> bitAt T p (length (ends p pre)) = Ok b.
Proof.
  intros p b s pre post E. pose proof (pre_proper _ _ _ _ _ E) as HP. unfold bitAt.
  assert (EE : ends p W = ends p pre ++ (b :: s) :: ends p post).
  { rewrite E, ends_words. f_equal. change ((p ++ b :: s) :: post) with ([p ++ b :: s] ++ post). rewrite ends_words.
    change ((b :: s) :: ends p post) with ([b :: s] ++ ends p post). f_equal.
    destruct (ends_one p (p ++ b :: s)) as [C|(s' & E' & ->)].
    - exfalso. assert (H : In (b :: s) (ends p [p ++ b :: s])) by (apply ends_in; left; reflexivity). rewrite C in H. destruct H.
    - apply app_inv_head in E'. subst. reflexivity. }
  destruct (HCOL p b s) as (n & -> & ->); [rewrite EE; apply in_app_iff; right; left; reflexivity|].
  unfold get. rewrite EE, nth_heads by exact HP. reflexivity.
Qed.

Lemma advance_spec : forall p b s pre post seen, W = pre ++ (p ++ b :: s) :: post -> counted pre p seen -> needed p ->
  exists seen', advance seen p (length (ends p pre)) b = Ok (length (ends (p ++ [b]) pre), p ++ [b], seen') /\ counted pre (p ++ [b]) seen'.
Proof.
  intros p b s pre post seen E HC HN. pose proof (pre_proper _ _ _ _ _ E) as HP.
  assert (K : seenAt seen p = length (ends (p ++ [true]) pre)).
  { rewrite HC by exact HN. rewrite ends_words, app_length. destruct (ends_true_same p) as [_ ->]. cbn. lia. }
  unfold advance. cbv zeta. rewrite K. destruct b.
  - eexists. split; [reflexivity|]. intros q Hq. unfold seenAt. rewrite ends_words, app_length.
    destruct (list_eq_dec bool_dec p q) as [<-|NE].
    + rewrite look_put_same. destruct (ends_true_same p) as [-> _]. cbn. lia.
    + rewrite look_put_other by exact NE. fold (seenAt seen q). rewrite HC by exact Hq. rewrite ends_words, app_length.
      rewrite ends_true_len by (left; congruence). reflexivity.
  - rewrite !ends_snoc. pose proof (tails_true (ends p pre)). pose proof (tails_false _ HP).
    pose proof (heads_length _ HP). assert (ones (heads (ends p pre)) <= length (heads (ends p pre))) by apply ones_le.
    destruct (Nat.ltb_spec (length (ends p pre)) (length (tailsOf true (ends p pre)))); [lia|].
    exists seen. split; [f_equal; f_equal; f_equal; lia|].
    intros q Hq. rewrite HC by exact Hq. rewrite !ends_words, !app_length. rewrite ends_true_len by (right; reflexivity). reflexivity.
Qed.

Lemma walk_spec : forall c1 p c2 pre post seen fuel s, W = pre ++ (p ++ c1 ++ c2) :: post -> c1 <> [] -> length c1 <= fuel ->
  counted pre p seen -> (forall u b v, c1 = u ++ b :: v -> needed (p ++ u)) ->
  (forall u b v, u <> [] -> c1 = u ++ b :: v -> exists n, look T (p ++ u) = Some n /\ symbol n = None) ->
  (exists n, look T (p ++ c1) = Some n /\ symbol n = Some s) ->
  exists seen', walk fuel T seen p (length (ends p pre)) = Ok (s, length (ends (p ++ c1) pre), p ++ c1, seen') /\
    counted pre (p ++ c1) seen'.
Proof.
  induction c1 as [|b c1 IH]; intros p c2 pre post seen fuel s E HN HF HC HD HU HS; [congruence|].
  destruct fuel as [|fuel]; [cbn in HF; lia|]. cbn [walk].
  rewrite (bit_spec p b (c1 ++ c2) pre post E). cbn [bind].
  destruct (advance_spec p b (c1 ++ c2) pre post seen E HC) as (seen1 & -> & C1).
  { specialize (HD [] b c1 eq_refl). rewrite app_nil_r in HD. exact HD. }
  cbn [bind]. destruct c1 as [|b' c1].
  - destruct HS as (n & -> & ->). exists seen1. split; [reflexivity|exact C1].
  - destruct (HU [b] b' c1) as (n & -> & ->); [discriminate|reflexivity|].
    destruct (IH (p ++ [b]) c2 pre post seen1 fuel s) as (seen' & E' & C').
    + rewrite E, <- app_assoc. reflexivity.
    + discriminate.
    + cbn in HF |- *. lia.
    + exact C1.
    + intros u x v Eu. rewrite <- app_assoc. apply (HD (b :: u) x v). cbn. f_equal. exact Eu.
    + intros u x v Hu Eu. rewrite <- app_assoc. apply (HU (b :: u) x v); [discriminate|]. cbn. f_equal. exact Eu.
    + rewrite <- app_assoc. exact HS.
    + exists seen'. rewrite <- app_assoc in E', C'. split; [exact E'|exact C'].
Qed.

Lemma leading_spec : forall k p v pre post seen fuel, W = pre ++ (p ++ repeat true k ++ false :: v) :: post -> k < fuel ->
  counted pre p seen -> (forall i, i < k -> needed (p ++ repeat true i)) ->
  exists seen', leading fuel T seen p (length (ends p pre)) = Ok (k, length (ends (p ++ repeat true k) pre), p ++ repeat true k, seen') /\
    counted pre (p ++ repeat true k) seen'.
Proof.
  induction k as [|k IH]; intros p v pre post seen fuel E HF HC HD; (destruct fuel as [|fuel]; [lia|]); cbn [leading].
  - cbn [repeat app] in E. rewrite (bit_spec p false v pre post E). cbn [bind].
    exists seen. rewrite app_nil_r. split; [reflexivity|exact HC].
  - cbn [repeat app] in E. rewrite (bit_spec p true _ pre post E). cbn [bind].
    destruct (advance_spec p true _ pre post seen E HC) as (seen1 & -> & C1).
    { specialize (HD 0 ltac:(lia)). rewrite app_nil_r in HD. exact HD. }
    cbn [bind]. destruct (IH (p ++ [true]) v pre post seen1 fuel) as (seen' & -> & C').
    + rewrite E, <- app_assoc. reflexivity.
    + lia.
    + exact C1.
    + intros i Hi. rewrite <- app_assoc. apply (HD (S i)). lia.
    + cbn [bind]. exists seen'. rewrite <- app_assoc in C' |- *. split; [reflexivity|exact C'].
Qed.

Lemma shift_bit : forall n b, (2 * n < two64)%N -> N.lor (N.shiftl n 1 mod two64) (N.b2n b) = (2 * n + N.b2n b)%N.
Proof.
  intros n b H. rewrite N.shiftl_mul_pow2. change (2 ^ 1)%N with 2%N. rewrite N.mul_comm, N.mod_small by exact H.
  destruct n as [|n]; destruct b; reflexivity.
Qed.

(** The bits behind [p], the first of which has been looked at. *)
Lemma readValue_spec : forall v p b pre post seen done, W = pre ++ (p ++ b :: v) :: post -> length (done ++ v) <= 63 ->
  counted pre p seen -> (forall u x y, v = u ++ x :: y -> needed (p ++ removelast (b :: u))) ->
  exists seen', readValue (length v) T seen p (length (ends p pre)) b (be_val done) = Ok (be_val (done ++ v), seen') /\
    counted pre (p ++ removelast (b :: v)) seen'.
Proof.
  induction v as [|x v IH]; intros p b pre post seen done E HL HC HD; cbn [length readValue].
  - exists seen. rewrite !app_nil_r. split; [reflexivity|exact HC].
  - destruct (advance_spec p b (x :: v) pre post seen E HC) as (seen1 & -> & C1).
    { specialize (HD [] x v eq_refl). rewrite app_nil_r in HD. exact HD. }
    cbn [bind]. assert (E1 : W = pre ++ ((p ++ [b]) ++ x :: v) :: post) by (rewrite E, <- app_assoc; reflexivity).
    rewrite (bit_spec (p ++ [b]) x v pre post E1). cbn [bind].
    assert (EV : (2 * be_val done + N.b2n x)%N = be_val (done ++ [x])).
    { rewrite be_val_app. change (2 ^ N.of_nat (length [x]))%N with 2%N. replace (be_val [x]) with (N.b2n x) by (destruct x; reflexivity). lia. }
    assert (BD : (2 * be_val done < two64)%N).
    { pose proof (be_val_bound done). assert (2 ^ N.of_nat (length done) <= 2 ^ 62)%N.
      { apply N.pow_le_mono_r; [lia|]. rewrite app_length in HL. cbn [length] in HL. lia. }
      change (2 ^ 62)%N with 4611686018427387904%N in *. unfold two64. lia. }
    rewrite shift_bit by exact BD. rewrite EV.
    destruct (IH (p ++ [b]) x pre post seen1 (done ++ [x])) as (seen' & E' & C').
    + exact E1.
    + rewrite <- app_assoc. exact HL.
    + exact C1.
    + intros u y z Eu. subst v. specialize (HD (x :: u) y z eq_refl). rewrite <- app_assoc. exact HD.
    + exists seen'. rewrite E', <- app_assoc. split; [reflexivity|]. rewrite <- app_assoc in C'. exact C'.
Qed.
End Reading.

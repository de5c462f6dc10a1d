(** C arrays as binary tries with checked access: the same meaning as the lists of
    Arrays.v, but usable for tables of many thousand entries.  Also the [for] loop. *)
From Coq Require Import List NArith ZArith Lia Arith Bool FMapPositive.
From Coq Require Import ZifyBool ZifyNat ZifyN.
From Verif Require Import Base.
Import ListNotations.
Open Scope N_scope.

(** Number of elements, value of the elements never written, the elements written. *)
Record tarray (A : Type) := mkT { t_len : N; t_def : A; t_map : PositiveMap.t A }.
Arguments mkT {A}. Arguments t_len {A}. Arguments t_def {A}. Arguments t_map {A}.

Definition tmake {A} (n : N) (d : A) : tarray A := mkT n d (PositiveMap.empty A).
Definition tval {A} (t : tarray A) (i : N) : A :=
  match PositiveMap.find (N.succ_pos i) (t_map t) with Some x => x | None => t_def t end.
(** [a[i]]; outside the array undefined. *)
Definition tget {A} (t : tarray A) (i : N) : outcome A :=
  if i <? t_len t then Ok (tval t i) else UB.
Definition tput {A} (t : tarray A) (i : N) (v : A) : tarray A :=
  mkT (t_len t) (t_def t) (PositiveMap.add (N.succ_pos i) v (t_map t)).
(** [a[i] = v]; outside the array undefined. *)
Definition tset {A} (t : tarray A) (i : N) (v : A) : outcome (tarray A) :=
  if i <? t_len t then Ok (tput t i v) else UB.

Fixpoint tfill {A} (t : tarray A) (i : N) (l : list A) : tarray A :=
  match l with
  | [] => t
  | x :: r => tfill (tput t i x) (i + 1) r
  end.
Definition tofList {A} (d : A) (l : list A) : tarray A := tfill (tmake (N.of_nat (length l)) d) 0 l.
(** The first [k] elements. *)
Fixpoint ttake {A} (t : tarray A) (i : N) (k : nat) : list A :=
  match k with
  | O => []
  | S k' => tval t i :: ttake t (i + 1) k'
  end.

(** [for(i = from; i < from + k; ++i) body]. *)
Fixpoint forLoop {S} (k : nat) (i : N) (body : N -> S -> outcome S) (st : S) : outcome S :=
  match k with
  | O => Ok st
  | S k' => let! st := body i st in forLoop k' (i + 1) body st
  end.

Lemma tget_ok : forall {A} (t : tarray A) i, i < t_len t -> tget t i = Ok (tval t i).
Proof. intros A t i H. unfold tget. destruct (N.ltb_spec i (t_len t)); [reflexivity|lia]. Qed.
Lemma tset_ok : forall {A} (t : tarray A) i v, i < t_len t -> tset t i v = Ok (tput t i v).
Proof. intros A t i v H. unfold tset. destruct (N.ltb_spec i (t_len t)); [reflexivity|lia]. Qed.
Lemma tput_len : forall {A} (t : tarray A) i v, t_len (tput t i v) = t_len t.
Proof. reflexivity. Qed.

Lemma succ_pos_inj : forall i j, N.succ_pos i = N.succ_pos j -> i = j.
Proof. intros i j H. assert (N.pos (N.succ_pos i) = N.pos (N.succ_pos j)) by (rewrite H; reflexivity). rewrite !N.succ_pos_spec in H0. lia. Qed.

Lemma tval_put : forall {A} (t : tarray A) i v j, tval (tput t i v) j = if j =? i then v else tval t j.
Proof.
  intros A t i v j. unfold tval, tput. cbn [t_map t_def]. destruct (N.eqb_spec j i) as [->|H].
  - rewrite PositiveMap.gss. reflexivity.
  - rewrite PositiveMap.gso; [reflexivity|]. intros E. apply succ_pos_inj in E. contradiction.
Qed.
Lemma tval_make : forall {A} n (d : A) i, tval (tmake n d) i = d.
Proof. intros. unfold tval, tmake. cbn [t_map t_def]. rewrite PositiveMap.gempty. reflexivity. Qed.

Lemma tfill_len : forall {A} (l : list A) t i, t_len (tfill t i l) = t_len t.
Proof. induction l as [|x l IH]; intros; cbn [tfill]; [reflexivity|]. rewrite IH. reflexivity. Qed.
Lemma tval_fill : forall {A} (l : list A) t i j, tval (tfill t i l) j =
  if (i <=? j) && (j <? i + N.of_nat (length l)) then nth (N.to_nat (j - i)) l (t_def t) else tval t j.
Proof.
  induction l as [|x l IH]; intros t i j; cbn [tfill length].
  - destruct (N.leb_spec i j), (N.ltb_spec j (i + N.of_nat 0)); cbn [andb]; try reflexivity. lia.
  - rewrite IH, tval_put.
    destruct (N.leb_spec i j), (N.leb_spec (i + 1) j), (N.ltb_spec j (i + N.of_nat (S (length l)))),
      (N.ltb_spec j (i + 1 + N.of_nat (length l))), (N.eqb_spec j i); cbn [andb]; try lia; try reflexivity.
    + replace (N.to_nat (j - i)) with (S (N.to_nat (j - (i + 1)))) by lia. reflexivity.
    + subst j. replace (N.to_nat (i - i)) with O by lia. reflexivity.
Qed.
Lemma tofList_len : forall {A} (d : A) l, t_len (tofList d l) = N.of_nat (length l).
Proof. intros. unfold tofList. rewrite tfill_len. reflexivity. Qed.
Lemma tval_ofList : forall {A} (d : A) l i, tval (tofList d l) i = nth (N.to_nat i) l d.
Proof.
  intros A d l i. unfold tofList. rewrite tval_fill, tval_make. cbn [t_def tmake].
  replace (i - 0) with i by lia.
  destruct (N.leb_spec 0 i); [|lia]. destruct (N.ltb_spec i (0 + N.of_nat (length l))); cbn [andb]; [reflexivity|].
  symmetry. apply nth_overflow. lia.
Qed.
Lemma ttake_length : forall {A} k (t : tarray A) i, length (ttake t i k) = k.
Proof. induction k as [|k IH]; intros; cbn [ttake length]; auto. Qed.
Lemma ttake_list : forall {A} (l : list A) (t : tarray A) i,
  (forall j, (j < length l)%nat -> nth_error l j = Some (tval t (i + N.of_nat j))) -> ttake t i (length l) = l.
Proof.
  induction l as [|x l IH]; intros t i H; cbn [ttake length]; [reflexivity|].
  f_equal.
  - specialize (H O ltac:(cbn [length]; lia)). cbn in H. injection H as ->. f_equal. lia.
  - apply IH. intros j Hj. specialize (H (S j) ltac:(cbn [length]; lia)). cbn [nth_error] in H. rewrite H.
    do 2 f_equal. lia.
Qed.

Lemma forLoop_inv : forall {S} (I : N -> S -> Prop) body k i st, I i st ->
  (forall j s, i <= j < i + N.of_nat k -> I j s -> exists s', body j s = Ok s' /\ I (j + 1) s') ->
  exists st', forLoop k i body st = Ok st' /\ I (i + N.of_nat k) st'.
Proof.
  intros S I body. induction k as [|k IH]; intros i st H0 Hs; cbn [forLoop].
  - exists st. replace (i + N.of_nat 0) with i by lia. auto.
  - destruct (Hs i st ltac:(lia) H0) as (s' & E & H1). rewrite E. cbn [bind].
    destruct (IH (i + 1) s' H1) as (st' & E' & H2).
    + intros j s Hj. apply Hs. lia.
    + exists st'. split; [exact E'|]. replace (i + N.of_nat (Datatypes.S k)) with (i + 1 + N.of_nat k) by lia. exact H2.
Qed.

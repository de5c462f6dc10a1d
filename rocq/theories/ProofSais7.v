(** The scan for the LMS positions visits exactly these, from right to left. *)
From Coq Require Import List NArith ZArith Arith Bool Lia.
From Coq Require Import ZifyBool ZifyNat ZifyN.
From Verif Require Import Base Arrays ModelSais ProofSais1 ProofSais2 ProofSais3.
Import ListNotations.
Open Scope nat_scope.

(** The LMS positions below [e], the largest first. *)
Fixpoint lmsBelow (T : list N) (e : nat) : list nat :=
  match e with
  | O => []
  | S e => if lms T e then e :: lmsBelow T e else lmsBelow T e
  end.

Fixpoint foldAct {X} (T : list N) (act : nat -> N -> X -> outcome X) (l : list nat) (x : X) : outcome X :=
  match l with
  | [] => Ok x
  | p :: l => let! x := act (p - 1) (ch T p) x in foldAct T act l x
  end.

Section Scan.
Variable T : list N.
Let n := length T.

Lemma before_ge : forall i, S i < n -> styp T (S i) = false ->
  geq (ch T i) (ch T (S i)) = negb (styp T i).
Proof.
  intros i H E. pose proof (before_L T (S i) ltac:(lia) H E) as F. replace (S i - 1) with i in F by lia.
  rewrite F. unfold geq. lia.
Qed.
Lemma before_le : forall i, S i < n -> styp T (S i) = true ->
  leq (ch T i) (ch T (S i)) = styp T i.
Proof.
  intros i H E. pose proof (before_S T (S i) ltac:(lia) H E) as F. replace (S i - 1) with i in F by lia.
  rewrite F. unfold leq. lia.
Qed.

Lemma scan_L : forall i, i < n -> styp T i = false ->
  (exists c, scan T geq i (ch T i) = Ok (None, c, c) /\ forall a, a <= i -> styp T a = false) \/
  (exists i' c, scan T geq i (ch T i) = Ok (Some i', ch T i', c) /\ i' < i /\ styp T i' = true /\
     forall a, i' < a <= i -> styp T a = false).
Proof.
  induction i as [|i IH]; intros H E; cbn [scan].
  - left. exists (ch T 0). split; [reflexivity|]. intros a Ha. replace a with 0 by lia. assumption.
  - rewrite (get_ch T i) by (unfold n in *; lia). cbn [bind]. rewrite before_ge by assumption.
    destruct (styp T i) eqn:F; cbn [negb].
    + right. exists i, (ch T (S i)). repeat split; auto. intros a Ha. replace a with (S i) by lia. assumption.
    + destruct (IH ltac:(lia) eq_refl) as [(c & Es & A)|(i' & c & Es & L & Si & A)].
      * left. exists c. split; [exact Es|]. intros a Ha. destruct (Nat.eq_dec a (S i)); [subst; assumption|apply A; lia].
      * right. exists i', c. repeat split; auto. intros a Ha. destruct (Nat.eq_dec a (S i)); [subst; assumption|apply A; lia].
Qed.

Lemma scan_S : forall i, styp T i = true ->
  (exists c, scan T leq i (ch T i) = Ok (None, c, c) /\ forall a, a <= i -> styp T a = true) \/
  (exists i', scan T leq i (ch T i) = Ok (Some i', ch T i', ch T (S i')) /\ i' < i /\ styp T i' = false /\
     forall a, i' < a <= i -> styp T a = true).
Proof.
  induction i as [|i IH]; intros E; cbn [scan].
  - left. exists (ch T 0). split; [reflexivity|]. intros a Ha. replace a with 0 by lia. assumption.
  - pose proof (styp_lt T _ E) as B. rewrite (get_ch T i) by lia. cbn [bind]. rewrite before_le by (auto; unfold n; lia).
    destruct (styp T i) eqn:F.
    + destruct (IH eq_refl) as [(c & Es & A)|(i' & Es & L & Si & A)].
      * left. exists c. split; [exact Es|]. intros a Ha. destruct (Nat.eq_dec a (S i)); [subst; assumption|apply A; lia].
      * right. exists i'. repeat split; auto. intros a Ha. destruct (Nat.eq_dec a (S i)); [subst; assumption|apply A; lia].
    + right. exists i. repeat split; auto. intros a Ha. replace a with (S i) by lia. assumption.
Qed.

Lemma lmsBelow_none : forall e i, i <= e -> (forall a, i <= a < e -> lms T a = false) -> lmsBelow T e = lmsBelow T i.
Proof.
  induction e as [|e IH]; intros i H A; cbn [lmsBelow].
  - replace i with 0 by lia. reflexivity.
  - destruct (Nat.eq_dec i (S e)) as [D|D]; [subst; reflexivity|].
    rewrite A by lia. apply IH; [lia|]. intros a Ha. apply A. lia.
Qed.

Lemma lms_L : forall a, styp T a = false -> lms T a = false.
Proof. intros a H. unfold lms. rewrite H. rewrite andb_false_r. reflexivity. Qed.
Lemma lms_SS : forall a, styp T (a - 1) = true -> lms T a = false.
Proof. intros a H. unfold lms. rewrite H. apply andb_false_r. Qed.

Context {X : Type}.
Variable act : nat -> N -> X -> outcome X.

Lemma bind_ext : forall {A B} (m : outcome A) (f g : A -> outcome B), (forall a, f a = g a) -> bind m f = bind m g.
Proof. intros A B [a| |] f g H; cbn [bind]; auto. Qed.

Lemma lmsLoop_ok : forall fuel i x, styp T i = true -> i < fuel ->
  lmsLoop T act fuel i (ch T i) x = foldAct T act (lmsBelow T (S i)) x.
Proof.
  induction fuel as [|fuel IH]; intros i x E Hf; [lia|]. cbn [lmsLoop].
  destruct (scan_S i E) as [(c & Es & A)|(i' & Es & L & Si & A)]; rewrite Es; cbn [bind].
  - rewrite (lmsBelow_none (S i) 0); [reflexivity|lia|]. intros a Ha. destruct (Nat.eq_dec a 0) as [D|D].
    + subst. reflexivity.
    + apply lms_SS. apply A. lia.
  - pose proof (styp_lt T i E) as B.
    rewrite (lmsBelow_none (S i) (S (S i'))); [|lia|].
    2:{ intros a Ha. apply lms_SS. apply A. lia. }
    cbn [lmsBelow]. rewrite (lms_next T i') by (auto; try (apply A; lia); unfold n; lia).
    cbn [foldAct]. replace (S i' - 1) with i' by lia.
    apply bind_ext. intros y.
    destruct (scan_L i') as [(c & Es' & A')|(i2 & c & Es' & L' & Si' & A')]; auto; [unfold n; lia| |]; rewrite Es'; cbn [bind].
    + rewrite (lms_L i' Si). rewrite (lmsBelow_none i' 0); [reflexivity|lia|]. intros a Ha. apply lms_L, A'. lia.
    + rewrite IH by (auto; lia). rewrite (lms_L i' Si). f_equal. symmetry. apply lmsBelow_none; [lia|].
      intros a Ha. apply lms_L, A'. lia.
Qed.

Theorem lmsScan_ok : forall x, 0 < n -> lmsScan T act x = foldAct T act (lmsBelow T n) x.
Proof.
  intros x Hn. unfold lmsScan. fold n. rewrite (get_ch T (n - 1)) by (unfold n in *; lia). cbn [bind].
  pose proof (ltyp_end T Hn) as E. apply ltyp_spec in E. destruct E as [B E]. fold n in B, E.
  destruct (scan_L (n - 1) B E) as [(c & Es & A)|(i' & c & Es & L & Si & A)]; rewrite Es; cbn [bind].
  - rewrite (lmsBelow_none n 0); [reflexivity|lia|]. intros a Ha. apply lms_L, A. lia.
  - rewrite lmsLoop_ok by (auto; lia). f_equal. symmetry. apply lmsBelow_none; [lia|].
    intros a Ha. apply lms_L, A. lia.
Qed.
End Scan.

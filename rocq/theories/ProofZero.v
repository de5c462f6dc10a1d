(** Pairs that begin with the byte 0 (C54). *)
From Coq Require Import List NArith ZArith Lia Arith Bool.
From Coq Require Import ZifyBool ZifyNat ZifyN.
From Verif Require Import Base Arrays TArray ModelUtils ModelSort ModelFreq ModelGrammar ModelPairs ProofPairs3.
Import ListNotations.
Open Scope N_scope.

Definition later (x : N * N) : Prop := N.land (N.shiftr (snd x) 8) 255 <> 0.
Definition zinv (st : fstate) : Prop := get (f_usedSnd st) 0 = Ok true /\ Forall later (f_repl st).

Lemma set_zero : forall l i l', get l 0 = Ok true -> set l i true = Ok l' -> get l' 0 = Ok true.
Proof.
  intros l i l' H E. unfold set in E. destruct (Nat.ltb_spec i (length l)); [|discriminate]. injection E as <-.
  destruct l as [|x l]; [discriminate|]. destruct i as [|i]; [reflexivity|exact H].
Qed.
Lemma unusable_zero : forall g st p pr, zinv st -> unusable g st (N.land (N.shiftr pr 8) 255) (N.land pr 255) = Ok false -> later (p, pr).
Proof.
  intros g st p pr (Z & _) H Q. cbn [snd] in Q. rewrite Q in H. unfold unusable in H. bd H. change (N.to_nat 0) with 0%nat in H. rewrite Z in H. cbn [bind] in H. bd H. bd H. injection H as H.
  rewrite orb_true_r in H. discriminate.
Qed.

Lemma first_zero : forall g t pairs st rest st', zinv st -> firstPairs g t pairs st = Ok (rest, st') -> zinv st'.
Proof.
  intros g t. induction pairs as [|(p, pr) pairs IH]; intros st rest st' Z H; [discriminate|]. cbn [firstPairs] in H. bd H. destruct a; [eauto|].
  pose proof (unusable_zero g st p pr Z E) as LT. bd H. bd H. destruct (_ || _); [injection H as <- <-; exact Z|]. bd H. bd H.
  match type of H with (if _ then firstPairs _ _ _ ?s else _) = _ => assert (Z' : zinv s) end.
  { destruct Z as (Z1 & Z2). split; cbn [f_usedSnd f_repl]; [eapply set_zero; eauto|]. apply Forall_app. auto. }
  destruct (_ && _); [eauto|injection H as <- <-; exact Z'].
Qed.
Lemma special_zero : forall g t limit pairs st count hope rest st' count' hope', zinv st -> specialPairs g t limit pairs st count hope = Ok (rest, st', count', hope') -> zinv st'.
Proof.
  intros g t limit. induction pairs as [|(p, pr) pairs IH]; intros st count hope rest st' count' hope' Z H; cbn [specialPairs] in H; (destruct (_ && hope); [|injection H as <- <- <- <-; exact Z]); [discriminate|].
  bd H. destruct a; [eauto|]. pose proof (unusable_zero g st p pr Z E) as LT. bd H. bd H. destruct (_ <=? _); [injection H as <- <- <- <-; exact Z|]. bd H. bd H.
  eapply IH; [|exact H]. destruct Z as (Z1 & Z2). split; cbn [f_usedSnd f_repl]; [eapply set_zero; eauto|]. apply Forall_app. auto.
Qed.
Lemma news_zero : forall g t fuel pairs st specs total R u s, zinv st -> newSpecialsLoop fuel g t pairs st specs total = Ok (R, u, s) -> Forall later R.
Proof.
  intros g t. induction fuel as [|fuel IH]; intros pairs st specs total R u s Z H; [discriminate|]. cbn [newSpecialsLoop] in H. cbv zeta in H. bd H. destruct (_ =? 0); [discriminate|]. bd H. bd H.
  destruct a1 as [[[limit n] after] symbol]. bd H. destruct a1 as [[[pairs' st'] count] hope].
  apply special_zero in E2; [|exact Z]. destruct (_ && _).
  - destruct hope; [eapply IH; [|exact H]; exact E2|]. injection H as <- <- <-. apply E2.
  - destruct (_ <=? _)%nat; [|discriminate]. injection H as <- <- <-. destruct E2 as (_ & F). rewrite <- (firstn_skipn (length (f_repl st') - count)) in F. apply Forall_app in F. apply F.
Qed.
Lemma find_zero : forall g t start pairs R u specs forFree, findReplaceables g t start pairs = Ok (R, u, specs, forFree) -> Forall later R.
Proof.
  intros g t start pairs R u specs forFree H. unfold findReplaceables in H. cbv zeta in H. bd H. bd H. destruct a0 as [pairs1 st].
  assert (Z : zinv st).
  { destruct (_ && _); [|injection E0 as _ <-; split; [reflexivity|constructor]]. eapply first_zero; [|exact E0]. split; [reflexivity|constructor]. }
  destruct (_ && _ && _).
  - bd H. destruct a0 as [[R' u'] s']. injection H as <- <- <- <-. eapply news_zero; eauto.
  - injection H as <- <- <- <-. apply Z.
Qed.
Lemma chosen_later : forall g t pairs R u specs forFree, findReplaceablePairs g t pairs = Ok (R, u, specs, forFree) -> Forall later R.
Proof.
  intros g t pairs. unfold findReplaceablePairs. generalize (sortPairs pairs), [0; 1; 2; 3; 4]%nat. intros sorted starts.
  assert (G : forall best R u specs forFree, Forall later (fst (fst (fst best))) -> bestStart g t sorted starts best = Ok (R, u, specs, forFree) -> Forall later R).
  { induction starts as [|i starts IH]; intros best R u specs forFree F H; cbn [bestStart] in H.
    - injection H as ->. exact F.
    - bd H. destruct a as [[[R1 u1] sp1] ff1]. destruct best as [[[R2 u2] sp2] ff2]. eapply IH; [|exact H]. destruct (u2 <? u1)%Z; [|exact F]. cbn [fst]. eapply find_zero; eauto. }
  intros R u specs forFree H. eapply G; [|exact H]. constructor.
Qed.

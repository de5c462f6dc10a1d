(** Numbers of replacements, of symbols written twice and of bytes after one round. *)
From Coq Require Import List NArith ZArith Lia Arith Bool Permutation.
From Coq Require Import ZifyBool ZifyNat ZifyN.
From Verif Require Import Base Arrays TArray ModelUtils ModelFreq SpecFreq ModelGrammar SpecGrammar ModelPairs SpecPairs SpecTriple
  ProofPairs1 ProofPairs2 ProofPairs3 ProofPairs4 ProofPairs5 ProofPairs6 ProofPairs7 ProofPairs8 ProofTriple1 ProofTriple2.
Import ListNotations.
Open Scope N_scope.

(** Three equal symbols in a row. *)
Fixpoint trip (ks : list sym) : nat :=
  match ks with
  | [] => O
  | k :: r => ((match k, r with One x, One y :: One z :: _ => if (x =? y)%N && (y =? z)%N then 1 else 0 | _, _ => 0 end) + trip r)%nat
  end.

Lemma trip_triples : forall ks, (trip ks <= triples (bytesOf ks))%nat.
Proof.
  assert (TC : forall x l, (triples l <= triples (x :: l))%nat) by (intros; cbn [triples]; lia).
  induction ks as [|k ks IH]; [cbn; lia|]. cbn [trip]. change (bytesOf (k :: ks)) with (symBytes k ++ bytesOf ks).
  destruct k as [x|x y]; cbn [symBytes app].
  - destruct ks as [|[y|y y'] [|[z|z z'] r]]; try (specialize (TC x (bytesOf [])); lia);
      try match goal with |- (0 + trip ?l <= _)%nat => specialize (TC x (bytesOf l)); lia end.
    change (bytesOf (One y :: One z :: r)) with (y :: z :: bytesOf r) in *. cbn [triples] in *. lia.
  - pose proof (TC x (y :: bytesOf ks)). pose proof (TC y (bytesOf ks)). lia.
Qed.

Section Count.
Variables (esc : N -> option (N * N)) (rule : N -> N -> option N).
Hypothesis HRE : forall a b r, rule a b = Some r -> esc a = None /\ esc b = None.
Hypothesis HAP : forall a b c r s, rule a b = Some r -> rule b c = Some s -> a = b /\ b = c.

Definition ruled (a b : N) : nat := match rule a b with Some _ => 1%nat | None => 0%nat end.
(** Places where a pair with a rule stands, replacements, symbols written twice. *)
Fixpoint places (ks : list sym) : nat :=
  match ks with [] => O | k :: r => ((match k, r with One a, One b :: _ => ruled a b | _, _ => 0 end) + places r)%nat end.
Fixpoint replacements (ks : list sym) : nat :=
  match ks with
  | [] => O
  | k :: rest =>
    match k, rest with
    | One a, One b :: rest' => match rule a b with Some _ => S (replacements rest') | None => replacements rest end
    | _, _ => replacements rest
    end
  end.
Definition twofold (k : sym) : nat := match k with One c => match esc c with Some _ => 1 | None => 0 end | _ => 0 end%nat.
Fixpoint twofolds (ks : list sym) : nat := match ks with [] => O | k :: r => (twofold k + twofolds r)%nat end.

Lemma places_le : forall n ks, (length ks <= n)%nat -> (places ks <= replacements ks + trip ks)%nat.
Proof.
  induction n as [|n IH]; intros ks Hn; [destruct ks; [cbn; lia|cbn in Hn; lia]|].
  destruct ks as [|k ks]; [cbn; lia|]. cbn [length] in Hn.
  assert (PL : (places ks <= replacements ks + trip (k :: ks))%nat) by (specialize (IH ks ltac:(lia)); cbn [trip]; lia).
  destruct k as [a|a b]; [|cbn [places replacements]; exact PL]. destruct ks as [|[b|b c] ks]; [cbn; lia| |cbn [places replacements] in *; exact PL].
  cbn [replacements]. destruct (rule a b) as [r|] eqn:E.
  - cbn [length] in Hn. specialize (IH ks ltac:(lia)). destruct ks as [|[c|c d] ks].
    + cbn [places]. unfold ruled. rewrite E. cbn. lia.
    + change (places (One a :: One b :: One c :: ks)) with (ruled a b + (ruled b c + places (One c :: ks)))%nat.
      change (trip (One a :: One b :: One c :: ks)) with ((if (a =? b)%N && (b =? c)%N then 1 else 0) + trip (One b :: One c :: ks))%nat.
      assert (TM : (trip (One c :: ks) <= trip (One b :: One c :: ks))%nat) by (cbn [trip]; lia).
      unfold ruled at 1. rewrite E. unfold ruled. destruct (rule b c) as [s|] eqn:E2; [|lia].
      destruct (HAP a b c r s E E2) as (-> & ->). rewrite N.eqb_refl. cbn [andb]. lia.
    + cbn [places trip] in *. unfold ruled. rewrite E. lia.
  - change (places (One a :: One b :: ks)) with (ruled a b + places (One b :: ks))%nat. unfold ruled. rewrite E. exact PL.
Qed.

Lemma bytesOf_cons : forall k ks, bytesOf (k :: ks) = symBytes k ++ bytesOf ks.
Proof. reflexivity. Qed.
Lemma tr_length : forall k, length (symBytes (tr esc k)) = (length (symBytes k) + twofold k)%nat.
Proof. intros [c|a b]; cbn [tr twofold symBytes length]; [|lia]. destruct (esc c) as [[x y]|]; reflexivity. Qed.

Lemma rw_length : forall n ks, (length ks <= n)%nat ->
  (length (bytesOf (rw esc rule ks)) + replacements ks = length (bytesOf ks) + twofolds ks)%nat.
Proof.
  induction n as [|n IH]; intros ks Hn; [destruct ks; [cbn; lia|cbn in Hn; lia]|].
  destruct ks as [|k ks]; [cbn; lia|]. cbn [length] in Hn.
  assert (PL : (length (bytesOf (tr esc k :: rw esc rule ks)) + replacements ks = length (bytesOf (k :: ks)) + twofolds (k :: ks))%nat).
  { specialize (IH ks ltac:(lia)). rewrite !bytesOf_cons, !app_length, tr_length. cbn [twofolds]. lia. }
  destruct k as [a|a b]; [|exact PL]. destruct ks as [|[b|b c] ks]; [exact PL| |exact PL].
  cbn [rw replacements] in *. destruct (rule a b) as [r|] eqn:E; [|exact PL].
  cbn [length] in Hn. specialize (IH ks ltac:(lia)). destruct (HRE a b r E) as (Ea & Eb).
  rewrite !bytesOf_cons, !app_length. cbn [symBytes length twofolds twofold]. rewrite Ea, Eb. lia.
Qed.
Lemma twice_le : forall n ks, (length ks <= n)%nat -> (2 * replacements ks + twofolds ks <= length ks)%nat.
Proof.
  induction n as [|n IH]; intros ks Hn; [destruct ks; [cbn; lia|cbn in Hn; lia]|].
  destruct ks as [|k ks]; [cbn; lia|]. cbn [length] in Hn.
  assert (PL : (2 * replacements ks + twofolds (k :: ks) <= length (k :: ks))%nat).
  { specialize (IH ks ltac:(lia)). cbn [length twofolds]. assert (twofold k <= 1)%nat by (destruct k as [c|]; cbn [twofold]; [destruct (esc c)|]; lia). lia. }
  destruct k as [a|a b]; [|exact PL]. destruct ks as [|[b|b c] ks]; [exact PL| |exact PL].
  cbn [replacements] in *. destruct (rule a b) as [r|] eqn:E; [|exact PL].
  cbn [length] in Hn. specialize (IH ks ltac:(lia)). destruct (HRE a b r E) as (Ea & Eb). cbn [length twofolds twofold]. rewrite Ea, Eb. lia.
Qed.
Lemma places_length : forall ks, (places ks <= length ks)%nat.
Proof.
  induction ks as [|k ks IH]; [cbn; lia|]. cbn [places length]. destruct k as [a|]; [|lia]. destruct ks as [|[b|] ks]; try lia. unfold ruled. destruct (rule a b); lia.
Qed.
End Count.

(** ** Bytes and symbols *)
Lemma occ_bytes : forall sp a b, sp a = false -> sp b = false -> forall ks, Forall (tokOk sp) ks ->
  forall k, tokOk sp k -> occ (bytesOf (k :: ks)) a b = (match k, ks with One x, One y :: _ => if (a =? x) && (b =? y) then 1 else 0 | _, _ => 0 end) + occ (bytesOf ks) a b.
Proof.
  intros sp a b Sa Sb ks HK k Hk. rewrite bytesOf_cons. destruct k as [x|x y]; cbn [symBytes app].
  - cbn [occ]. destruct ks as [|[y|y z] ks]; [reflexivity|reflexivity|]. rewrite bytesOf_cons. cbn [symBytes app]. inversion_clear HK as [|? ? K _]. cbn [tokOk] in K.
    destruct (N.eqb_spec b y) as [->|]; [destruct K as (_ & _ & K & _); congruence|]. rewrite andb_false_r. reflexivity.
  - destruct Hk as (_ & _ & S1 & S2). cbn [occ]. destruct (N.eqb_spec a x) as [->|]; [congruence|]. cbn [andb].
    destruct (bytesOf ks) as [|z r]; [reflexivity|]. destruct (N.eqb_spec a y) as [->|]; [congruence|]. reflexivity.
Qed.

Definition sumN (f : N * N -> N) (R : list (N * N)) : N := fold_right (fun x s => f x + s) 0 R.
Lemma sumN_add : forall f h R, sumN (fun x => f x + h x) R = sumN f R + sumN h R.
Proof. intros f h. induction R as [|x R IH]; [reflexivity|]. unfold sumN in *. cbn [fold_right]. rewrite IH. lia. Qed.
Lemma sumN_ext : forall f h R, (forall x, In x R -> f x = h x) -> sumN f R = sumN h R.
Proof. intros f h. induction R as [|x R IH]; intros H; [reflexivity|]. unfold sumN in *. cbn [fold_right]. rewrite IH, H; [reflexivity|left; reflexivity|]. intros; apply H; right; assumption. Qed.
Lemma sumN_zero : forall f R, (forall x, In x R -> f x = 0) -> sumN f R = 0.
Proof. intros f. induction R as [|x R IH]; intros H; [reflexivity|]. unfold sumN in *. cbn [fold_right]. rewrite IH, H; [reflexivity|left; reflexivity|]. intros; apply H; right; assumption. Qed.

Lemma one_rule : forall R repl a b, NoDup (map snd R) -> length R = length repl -> (forall x, In x R -> snd x < 65536) -> a < 256 -> b < 256 ->
  sumN (fun x => if (hiOf (snd x) =? a) && (loOf (snd x) =? b) then 1 else 0) R <= match ruleOf (combine R repl) (pair16 a b) with Some _ => 1 | None => 0 end.
Proof.
  induction R as [|[p q] R IH]; intros repl a b ND LR HB Ha Hb; [cbn; lia|].
  destruct repl as [|r repl]; [discriminate|]. cbn [map snd] in ND. apply NoDup_cons_iff in ND. destruct ND as (N1 & N2). cbn [length] in LR.
  cbn [combine ruleOf]. specialize (IH repl a b N2 ltac:(lia) (fun x Hx => HB x (or_intror Hx)) Ha Hb). unfold sumN in *. cbn [fold_right snd].
  pose proof (HB (p, q) (or_introl eq_refl)) as Bq. cbn [snd] in Bq.
  destruct ((hiOf q =? a) && (loOf q =? b)) eqn:E.
  - apply andb_true_iff in E. destruct E as (E1 & E2). apply N.eqb_eq in E1, E2.
    assert (EQ : pair16 a b = q) by (rewrite <- E1, <- E2; apply pair_of; exact Bq).
    assert (Z : sumN (fun x => if (hiOf (snd x) =? a) && (loOf (snd x) =? b) then 1 else 0) R = 0).
    { apply sumN_zero. intros x Hx. destruct ((hiOf (snd x) =? a) && (loOf (snd x) =? b)) eqn:E; [|reflexivity]. exfalso. apply N1.
      apply andb_true_iff in E. destruct E as (E3 & E4). apply N.eqb_eq in E3, E4. apply in_map_iff. exists x. split; [|exact Hx].
      rewrite <- (pair_of (snd x)) by (apply HB; right; exact Hx). rewrite E3, E4. exact EQ. }
    unfold sumN in Z. rewrite Z, EQ, N.eqb_refl. clear. destruct (ruleOf (combine R repl) q); apply N.le_refl.
  - destruct (ruleOf (combine R repl) (pair16 a b)); [lia|]. destruct (pair16 a b =? q); lia.
Qed.

Lemma sum_places : forall sp R repl, NoDup (map snd R) -> length R = length repl -> (forall x, In x R -> snd x < 65536 /\ sp (hiOf (snd x)) = false /\ sp (loOf (snd x)) = false) ->
  forall ks, Forall (tokOk sp) ks ->
  sumN (fun x => occ (bytesOf ks) (hiOf (snd x)) (loOf (snd x))) R <= N.of_nat (places (fun a b => ruleOf (combine R repl) (pair16 a b)) ks).
Proof.
  intros sp R repl ND LR HB. induction ks as [|k ks IH]; intros HK.
  - rewrite sumN_zero; [cbn; lia|]. intros; reflexivity.
  - inversion_clear HK as [|? ? K1 K2]. specialize (IH K2).
    rewrite (sumN_ext _ (fun x => (match k, ks with One a, One b :: _ => if (hiOf (snd x) =? a) && (loOf (snd x) =? b) then 1 else 0 | _, _ => 0 end) + occ (bytesOf ks) (hiOf (snd x)) (loOf (snd x)))).
    2:{ intros x Hx. destruct (HB x Hx) as (_ & S1 & S2). apply (occ_bytes sp); assumption. }
    rewrite sumN_add. cbn [places].
    assert (Q : sumN (fun x => match k, ks with One a, One b :: _ => if (hiOf (snd x) =? a) && (loOf (snd x) =? b) then 1 else 0 | _, _ => 0 end) R <=
                N.of_nat (match k, ks with One a, One b :: _ => ruled (fun a b => ruleOf (combine R repl) (pair16 a b)) a b | _, _ => 0%nat end)).
    { destruct k as [a|a a']; [|rewrite sumN_zero; [lia|reflexivity]]. destruct ks as [|[b|b b'] ks]; try (rewrite sumN_zero; [lia|reflexivity]).
      inversion_clear K2 as [|? ? K3 _]. unfold ruled. pose proof (one_rule R repl a b ND LR (fun x Hx => proj1 (HB x Hx)) (proj1 K1) (proj1 K3)) as O.
      destruct (ruleOf _ _); lia. }
    lia.
Qed.

(** Symbols written twice are among the symbols taken. *)
Definition sumC (f : N -> N) (l : list N) : N := fold_right (fun c s => f c + s) 0 l.
Lemma sumC_add : forall f h l, sumC (fun x => f x + h x) l = sumC f l + sumC h l.
Proof. intros f h. induction l as [|x l IH]; [reflexivity|]. unfold sumC in *. cbn [fold_right]. rewrite IH. lia. Qed.
Lemma sumC_ext : forall f h l, (forall x, In x l -> f x = h x) -> sumC f l = sumC h l.
Proof. intros f h. induction l as [|x l IH]; intros H; [reflexivity|]. unfold sumC in *. cbn [fold_right]. rewrite IH, H; [reflexivity|left; reflexivity|]. intros; apply H; right; assumption. Qed.
Lemma sumC_le : forall f h l, (forall x, In x l -> f x <= h x) -> sumC f l <= sumC h l.
Proof. intros f h. induction l as [|x l IH]; intros H; [cbn; lia|]. unfold sumC in *. cbn [fold_right]. specialize (IH (fun y Hy => H y (or_intror Hy))). specialize (H x (or_introl eq_refl)). lia. Qed.
Lemma sumC_in : forall c l, In c l -> 1 <= sumC (fun s => cnt [c] s) l.
Proof.
  intros c. induction l as [|x l IH]; intros H; [contradiction|]. unfold sumC in *. cbn [fold_right]. destruct H as [->|H]; [rewrite cnt_one, N.eqb_refl; lia|]. specialize (IH H). lia.
Qed.
Lemma twofolds_le : forall esc symbols, (forall c x, esc c = Some x -> In c symbols) -> forall ks,
  N.of_nat (twofolds esc ks) <= sumC (cnt (bytesOf ks)) symbols.
Proof.
  intros esc symbols HE. induction ks as [|k ks IH]; [cbn; lia|]. cbn [twofolds].
  rewrite (sumC_ext _ (fun s => cnt (symBytes k) s + cnt (bytesOf ks) s)) by (intros; rewrite bytesOf_cons; apply cnt_app). rewrite sumC_add.
  assert (N.of_nat (twofold esc k) <= sumC (cnt (symBytes k)) symbols); [|lia].
  destruct k as [c|a b]; cbn [twofold symBytes]; [|lia]. destruct (esc c) as [x|] eqn:E; [|lia]. apply (sumC_in c symbols), (HE c x E).
Qed.

(** doubles *)
Lemma doubles_le : forall esc sp common table, (forall c, c < 256 -> writtenTwice common table c = true -> sp c = false /\ esc c <> None) ->
  forall ks, Forall (tokOk sp) ks -> (doubles common table (bytesOf ks) <= twofolds esc ks)%nat.
Proof.
  intros esc sp common table H ks HK. unfold doubles. induction HK as [|k ks K HK IH]; [cbn; lia|]. rewrite bytesOf_cons, filter_app, app_length. cbn [twofolds].
  assert (length (filter (writtenTwice common table) (symBytes k)) <= twofold esc k)%nat; [|lia].
  destruct k as [c|a b]; cbn [symBytes filter twofold tokOk] in *.
  - destruct (writtenTwice common table c) eqn:E; [|cbn; lia]. destruct (H c (proj1 K) E) as (_ & N1). destruct (esc c); [cbn; lia|contradiction].
  - destruct K as (Ba & Bb & Sa & Sb). destruct (writtenTwice common table a) eqn:E1; [destruct (H a Ba E1); congruence|].
    destruct (writtenTwice common table b) eqn:E2; [destruct (H b Bb E2); congruence|]. cbn. lia.
Qed.

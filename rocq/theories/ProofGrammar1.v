(** Numbers of pairs of special symbols. *)
From Coq Require Import List NArith ZArith Lia Arith Bool.
From Coq Require Import ZifyBool ZifyNat ZifyN.
From Verif Require Import Base Arrays TArray ModelUtils ModelGrammar.
Import ListNotations.
Open Scope N_scope.

(** The number without the wrap. *)
Definition pairNumber (i j : N) : N :=
  if i =? j then i * i else if j <? i then i * i + i + j + 1 else j * j + i + 1.

Lemma pairNumber_bounds : forall i j s, i < s -> j < s -> pairNumber i j < s * s.
Proof.
  intros i j s Hi Hj. unfold pairNumber.
  destruct (N.eqb_spec i j); [nia|]. destruct (N.ltb_spec j i); nia.
Qed.
Lemma number_eq : forall i j, i < 65536 -> j < 65536 -> numberOfSpecialPair i j = pairNumber i j.
Proof.
  intros i j Hi Hj. pose proof (pairNumber_bounds i j 65536 Hi Hj) as B. unfold numberOfSpecialPair, pairNumber, two32 in *.
  destruct (N.eqb_spec i j) as [->|]; [rewrite N.mod_small; lia|].
  destruct (N.ltb_spec j i); rewrite N.mod_small; lia.
Qed.

Lemma pairNumber_sqrt : forall i j, N.sqrt (pairNumber i j) = N.max i j.
Proof.
  intros i j. apply N.sqrt_unique. unfold pairNumber. rewrite N.add_1_r.
  destruct (N.eqb_spec i j) as [->|]; [rewrite N.max_id; nia|]. destruct (N.ltb_spec j i).
  - rewrite N.max_l by lia. nia.
  - rewrite N.max_r by lia. nia.
Qed.

(** Index of a special pair back from its number. *)
Definition pairOfNumber (n : N) : N * N :=
  let r := N.sqrt n in
  if n =? r * r then (r, r) else if n - r * r - 1 <? r then (n - r * r - 1, r) else (r, n - r * r - 1 - r).
Lemma pairOfNumber_number : forall i j, pairOfNumber (pairNumber i j) = (i, j).
Proof.
  intros i j. unfold pairOfNumber. rewrite pairNumber_sqrt. unfold pairNumber.
  destruct (N.eqb_spec i j) as [->|]; [rewrite N.max_id, N.eqb_refl; reflexivity|]. destruct (N.ltb_spec j i).
  - rewrite N.max_l by lia. destruct (N.eqb_spec (i * i + i + j + 1) (i * i)); [lia|].
    destruct (N.ltb_spec (i * i + i + j + 1 - i * i - 1) i); [lia|]. f_equal. lia.
  - rewrite N.max_r by lia. destruct (N.eqb_spec (j * j + i + 1) (j * j)); [lia|].
    destruct (N.ltb_spec (j * j + i + 1 - j * j - 1) j); [|lia]. f_equal. lia.
Qed.
Lemma number_pairOfNumber : forall n, pairNumber (fst (pairOfNumber n)) (snd (pairOfNumber n)) = n.
Proof.
  intros n. unfold pairOfNumber. pose proof (N.sqrt_spec n ltac:(lia)) as H. cbv zeta in H. set (r := N.sqrt n) in *.
  unfold pairNumber. destruct (N.eqb_spec n (r * r)); cbn [fst snd]; [rewrite N.eqb_refl; lia|].
  destruct (N.ltb_spec (n - r * r - 1) r); cbn [fst snd].
  - destruct (N.eqb_spec (n - r * r - 1) r); [lia|]. destruct (N.ltb_spec r (n - r * r - 1)); lia.
  - destruct (N.eqb_spec r (n - r * r - 1 - r)); [lia|]. destruct (N.ltb_spec (n - r * r - 1 - r) r); lia.
Qed.
Lemma pairOfNumber_bounds : forall n s, n < s * s -> fst (pairOfNumber n) < s /\ snd (pairOfNumber n) < s.
Proof.
  intros n s H. unfold pairOfNumber. pose proof (N.sqrt_spec n ltac:(lia)) as Q. cbv zeta in Q. set (r := N.sqrt n) in *.
  assert (r < s) by nia.
  destruct (N.eqb_spec n (r * r)); cbn [fst snd]; [lia|].
  destruct (N.ltb_spec (n - r * r - 1) r); cbn [fst snd]; lia.
Qed.

Lemma specialPair_eq : forall specials n, specialPair specials n =
  let! a := get specials (N.to_nat (fst (pairOfNumber n))) in
  let! b := get specials (N.to_nat (snd (pairOfNumber n))) in Ok (pair16 a b).
Proof.
  intros specials n. unfold specialPair, pairOfNumber. cbv zeta.
  destruct (n =? N.sqrt n * N.sqrt n); cbn [fst snd].
  - destruct (get specials (N.to_nat (N.sqrt n))); reflexivity.
  - destruct (n - N.sqrt n * N.sqrt n - 1 <? N.sqrt n); reflexivity.
Qed.

Lemma specialPair_number : forall specials i j a b,
  nth_error specials (N.to_nat i) = Some a -> nth_error specials (N.to_nat j) = Some b ->
  specialPair specials (pairNumber i j) = Ok (pair16 a b).
Proof.
  intros specials i j a b Ha Hb. rewrite specialPair_eq, pairOfNumber_number. cbn [fst snd].
  rewrite (get_ok _ _ _ Ha), (get_ok _ _ _ Hb). reflexivity.
Qed.

Lemma C32_all : forall specials, (length specials <= 255)%nat ->
  let s := N.of_nat (length specials) in
  (forall i j a b, nth_error specials (N.to_nat i) = Some a -> nth_error specials (N.to_nat j) = Some b ->
     numberOfSpecialPair i j < s * s /\ specialPair specials (numberOfSpecialPair i j) = Ok (pair16 a b)) /\
  (forall i j k l, i < s -> j < s -> k < s -> l < s -> numberOfSpecialPair i j = numberOfSpecialPair k l -> i = k /\ j = l) /\
  (forall n, n < s * s -> exists i j, i < s /\ j < s /\ numberOfSpecialPair i j = n) /\
  (forall n x, n < s * s -> specialPair (specials ++ x) n = specialPair specials n).
Proof.
  intros specials Hs s. split; [|split; [|split]].
  - intros i j a b Ha Hb. pose proof (nth_error_bound _ _ _ Ha). pose proof (nth_error_bound _ _ _ Hb).
    rewrite number_eq by lia. split; [apply pairNumber_bounds; lia|apply specialPair_number; assumption].
  - intros i j k l Hi Hj Hk Hl E. rewrite !number_eq in E by lia.
    pose proof (pairOfNumber_number i j) as P. rewrite E, pairOfNumber_number in P. injection P as -> ->. auto.
  - intros n Hn. pose proof (pairOfNumber_bounds n s Hn) as (B1 & B2).
    exists (fst (pairOfNumber n)), (snd (pairOfNumber n)). rewrite number_eq by lia. rewrite number_pairOfNumber. auto.
  - intros n x Hn. pose proof (pairOfNumber_bounds n s Hn) as (B1 & B2). rewrite !specialPair_eq.
    assert (G : forall i, i < s -> get (specials ++ x) (N.to_nat i) = get specials (N.to_nat i)).
    { intros i Hi. destruct (nth_error_lt specials (N.to_nat i)) as (v & E); [lia|]. rewrite (get_ok _ _ _ E). apply get_ok.
      rewrite nth_error_app_l by lia. exact E. }
    rewrite !G by assumption. reflexivity.
Qed.

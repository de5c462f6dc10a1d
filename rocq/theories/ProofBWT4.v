(** The table of the MTL-SA inverse transform. *)
From Coq Require Import List NArith ZArith Lia Arith Bool Permutation Sorted.
From Coq Require Import ZifyBool ZifyNat ZifyN.
From Verif Require Import Base Arrays TArray ModelUtils ModelHeaders ModelBWT SpecBWT ProofBWT1 ProofBWT3.
Import ListNotations.
Open Scope nat_scope.

(** ** Half words *)
Definition hval (data : tarray N) (h : N) : N :=
  if N.even h then (tval data (h / 2) mod 65536)%N else (tval data (h / 2) / 65536)%N.
Lemma getHalf_ok : forall data h, (h / 2 < t_len data)%N -> getHalf data h = Ok (hval data h).
Proof. intros data h H. unfold getHalf. rewrite tget_ok by exact H. reflexivity. Qed.
Lemma setHalf_spec : forall data h v, (h / 2 < t_len data)%N -> exists data', setHalf data h v = Ok data' /\
  t_len data' = t_len data /\
  (forall k, hval data' k = if (k =? h)%N then (v mod 65536)%N else hval data k) /\
  (forall i, (i <> h / 2)%N -> tval data' i = tval data i).
Proof.
  intros data h v H. unfold setHalf. rewrite tget_ok by exact H. cbn [bind]. rewrite tset_ok by exact H.
  eexists. split; [reflexivity|]. split; [reflexivity|]. split.
  - intros k. unfold hval. rewrite tval_put. destruct (N.eqb_spec k h) as [->|D].
    + rewrite N.eqb_refl. destruct (N.even h).
      * generalize (tval data (h / 2)). intros w. lia.
      * generalize (tval data (h / 2)). intros w. lia.
    + destruct (N.eqb_spec (k / 2) (h / 2)) as [E|E]; [|reflexivity].
      rewrite E. generalize (tval data (h / 2)). intros w.
      assert (Ek := N.div_mod k 2 ltac:(discriminate)). assert (Eh := N.div_mod h 2 ltac:(discriminate)).
      destruct (N.even k) eqn:Vk, (N.even h) eqn:Vh.
      * apply N.even_spec in Vk, Vh. destruct Vk as [a ->], Vh as [b ->]. lia.
      * lia.
      * lia.
      * rewrite <- N.negb_odd in Vk, Vh. apply negb_false_iff in Vk, Vh. apply N.odd_spec in Vk, Vh.
        destruct Vk as [a ->], Vh as [b ->]. lia.
  - intros i Hi. rewrite tval_put. destruct (N.eqb_spec i (h / 2)); [contradiction|reflexivity].
Qed.

(** Where the pair and the entry of row [j] are. *)
Definition hIdx (j : nat) : N := (2 * (3 * (N.of_nat j / 2) + 1) + N.of_nat j mod 2)%N.
Definition wIdx (j : nat) : N := (3 * (N.of_nat j / 2) + 2 * (N.of_nat j mod 2))%N.
Lemma hIdx_inj : forall i j, hIdx i = hIdx j -> i = j.
Proof. intros i j. unfold hIdx. lia. Qed.
Lemma wIdx_inj : forall i j, wIdx i = wIdx j -> i = j.
Proof. intros i j. unfold wIdx. lia. Qed.
Lemma wIdx_hIdx : forall i j, (wIdx i <> hIdx j / 2)%N.
Proof. intros i j. unfold wIdx, hIdx. lia. Qed.
Lemma hIdx_bound : forall j n, j < n -> (hIdx j / 2 < 3 * ((N.of_nat n + 1) / 2))%N.
Proof. intros j n H. unfold hIdx. lia. Qed.
Lemma wIdx_bound : forall j n, j < n -> (wIdx j < 3 * ((N.of_nat n + 1) / 2))%N.
Proof. intros j n H. unfold wIdx. lia. Qed.
Lemma hIdx_next : forall j, (hIdx j + 1 + N.shiftl (N.land (N.of_nat j) 1) 2 = hIdx (S j))%N.
Proof.
  intros j. rewrite N.shiftl_mul_pow2. change 1%N with (N.ones 1) at 2. rewrite N.land_ones.
  change (2 ^ 1)%N with 2%N. change (2 ^ 2)%N with 4%N. unfold hIdx.
  replace (N.of_nat (S j)) with (N.of_nat j + 1)%N by lia. lia.
Qed.

(** ** Transposition *)
Definition swapped (low H : nat) (a b : nat) : bool :=
  let l := Nat.min a b in let h := Nat.max a b in negb (a =? b) && ((l <? low) || ((l =? low) && (h <? H))).
Definition at2 (t : tarray N) (a b : nat) : N := tval t (N.of_nat a * 256 + N.of_nat b + 1).
Definition transposed (t0 t : tarray N) (low H : nat) : Prop :=
  t_len t = 65537%N /\ tval t 0 = tval t0 0 /\
  forall a b, a < 256 -> b < 256 -> at2 t a b = if swapped low H a b then at2 t0 b a else at2 t0 a b.

Lemma at2_put : forall t a b v c d, b < 256 -> d < 256 ->
  at2 (tput t (N.of_nat a * 256 + N.of_nat b + 1) v) c d = if (c =? a) && (d =? b) then v else at2 t c d.
Proof.
  intros t a b v c d Hb Hd. unfold at2. rewrite tval_put.
  destruct (N.eqb_spec (N.of_nat c * 256 + N.of_nat d + 1) (N.of_nat a * 256 + N.of_nat b + 1)),
    (Nat.eqb_spec c a), (Nat.eqb_spec d b); cbn [andb]; try reflexivity; lia.
Qed.

Lemma transpose_spec : forall t0, t_len t0 = 65537%N -> exists t, transpose t0 = Ok t /\ t_len t = 65537%N /\
  tval t 0 = tval t0 0 /\ forall a b, a < 256 -> b < 256 -> at2 t a b = at2 t0 b a.
Proof.
  intros t0 L0. unfold transpose.
  match goal with |- context [forLoop 256 0%N ?b ?s] =>
    destruct (forLoop_nat (fun low t => transposed t0 t low 0) b 256 0 s) as (t & E & (L & Z & V)) end.
  - split; [exact L0|]. split; [reflexivity|]. intros a b Ha Hb. unfold swapped.
    destruct (Nat.ltb_spec (Nat.min a b) 0); [lia|]. destruct (Nat.ltb_spec (Nat.max a b) 0); [lia|].
    rewrite andb_false_r. cbn [orb]. rewrite andb_false_r. reflexivity.
  - intros low t Hlow (L & Z & V).
    replace (N.of_nat low + 1)%N with (N.of_nat (S low)) by lia. rewrite Nat2N.id.
    match goal with |- context [forLoop ?k _ ?b ?s] =>
      destruct (forLoop_nat (fun H u => transposed t0 u low H) b k (S low) s) as (u & E & I) end.
    + split; [exact L|]. split; [exact Z|]. intros a b Ha Hb. rewrite V by assumption.
      replace (swapped low (S low) a b) with (swapped low 0 a b); [reflexivity|].
      unfold swapped. destruct (Nat.eqb_spec a b); cbn [negb andb]; [reflexivity|].
      destruct (Nat.ltb_spec (Nat.min a b) low), (Nat.eqb_spec (Nat.min a b) low),
        (Nat.ltb_spec (Nat.max a b) 0), (Nat.ltb_spec (Nat.max a b) (S low)); cbn [andb orb]; try reflexivity; lia.
    + intros h u Hh (Lu & Zu & Vu).
      rewrite !N.shiftl_mul_pow2. change (2 ^ 8)%N with 256%N.
      rewrite !tget_ok by lia. cbn [bind]. rewrite tset_ok by lia. cbn [bind]. rewrite tset_ok by (cbn [t_len tput]; lia).
      eexists. split; [reflexivity|]. split; [exact Lu|]. split.
      { rewrite !tval_put. destruct (N.eqb_spec 0 (N.of_nat h * 256 + N.of_nat low + 1)); [lia|].
        destruct (N.eqb_spec 0 (N.of_nat low * 256 + N.of_nat h + 1)); [lia|]. exact Zu. }
      intros a b Ha Hb. fold (at2 u low h). fold (at2 u h low). rewrite !at2_put by lia.
      rewrite !Vu by lia.
      assert (S1 : swapped low h low h = false).
      { unfold swapped. rewrite Nat.min_l, Nat.max_r by lia. rewrite !Nat.ltb_irrefl, Nat.eqb_refl.
        cbn [orb andb]. apply andb_false_r. }
      assert (S2 : swapped low h h low = false).
      { unfold swapped. rewrite Nat.min_r, Nat.max_l by lia. rewrite !Nat.ltb_irrefl, Nat.eqb_refl.
        cbn [orb andb]. apply andb_false_r. }
      rewrite S1, S2. unfold swapped.
      destruct (Nat.eqb_spec a h), (Nat.eqb_spec b low); cbn [andb].
      * subst. destruct (Nat.eqb_spec h low); [lia|]. rewrite Nat.min_r, Nat.max_l by lia.
        rewrite Nat.ltb_irrefl, Nat.eqb_refl. destruct (Nat.ltb_spec h (S h)); [|lia]. reflexivity.
      * destruct (Nat.eqb_spec a low); cbn [andb]; [lia|].
        destruct (Nat.eqb_spec a b); cbn [negb andb]; [reflexivity|].
        destruct (Nat.ltb_spec (Nat.min a b) low), (Nat.eqb_spec (Nat.min a b) low),
          (Nat.ltb_spec (Nat.max a b) h), (Nat.ltb_spec (Nat.max a b) (S h)); cbn [andb orb]; try reflexivity; lia.
      * destruct (Nat.eqb_spec a low), (Nat.eqb_spec b h); cbn [andb]; try lia;
        (destruct (Nat.eqb_spec a b); cbn [negb andb]; [reflexivity|];
        destruct (Nat.ltb_spec (Nat.min a b) low), (Nat.eqb_spec (Nat.min a b) low),
          (Nat.ltb_spec (Nat.max a b) h), (Nat.ltb_spec (Nat.max a b) (S h)); cbn [andb orb]; try reflexivity; lia).
      * destruct (Nat.eqb_spec a low), (Nat.eqb_spec b h); cbn [andb].
        -- subst. destruct (Nat.eqb_spec low h); [lia|]. rewrite Nat.min_l, Nat.max_r by lia.
           rewrite Nat.ltb_irrefl, Nat.eqb_refl. destruct (Nat.ltb_spec h (S h)); [|lia]. reflexivity.
        -- destruct (Nat.eqb_spec a b); cbn [negb andb]; [reflexivity|].
           destruct (Nat.ltb_spec (Nat.min a b) low), (Nat.eqb_spec (Nat.min a b) low),
             (Nat.ltb_spec (Nat.max a b) h), (Nat.ltb_spec (Nat.max a b) (S h)); cbn [andb orb]; try reflexivity; lia.
        -- destruct (Nat.eqb_spec a b); cbn [negb andb]; [reflexivity|].
           destruct (Nat.ltb_spec (Nat.min a b) low), (Nat.eqb_spec (Nat.min a b) low),
             (Nat.ltb_spec (Nat.max a b) h), (Nat.ltb_spec (Nat.max a b) (S h)); cbn [andb orb]; try reflexivity; lia.
        -- destruct (Nat.eqb_spec a b); cbn [negb andb]; [reflexivity|].
           destruct (Nat.ltb_spec (Nat.min a b) low), (Nat.eqb_spec (Nat.min a b) low),
             (Nat.ltb_spec (Nat.max a b) h), (Nat.ltb_spec (Nat.max a b) (S h)); cbn [andb orb]; try reflexivity; lia.
    + exists u. split; [exact E|]. destruct I as (Lu & Zu & Vu). split; [exact Lu|]. split; [exact Zu|].
      intros a b Ha Hb. rewrite Vu by assumption.
      replace (swapped (S low) 0 a b) with (swapped low (S low + (255 - low)) a b); [reflexivity|].
      unfold swapped. destruct (Nat.eqb_spec a b); cbn [negb andb]; [reflexivity|].
      destruct (Nat.ltb_spec (Nat.min a b) low), (Nat.ltb_spec (Nat.min a b) (S low)), (Nat.eqb_spec (Nat.min a b) low),
        (Nat.eqb_spec (Nat.min a b) (S low)),
        (Nat.ltb_spec (Nat.max a b) 0), (Nat.ltb_spec (Nat.max a b) (S low + (255 - low))); cbn [andb orb]; try reflexivity; lia.
  - change (N.of_nat 0) with 0%N in E. exists t. split; [exact E|]. split; [exact L|]. split; [exact Z|].
    intros a b Ha Hb. rewrite V by assumption. unfold swapped. destruct (Nat.eqb_spec a b) as [->|D]; cbn [negb andb]; [reflexivity|].
    destruct (Nat.ltb_spec (Nat.min a b) (0 + 256)); [reflexivity|lia].
Qed.
